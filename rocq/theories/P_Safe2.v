(** * References into a valid constant pool do not panic, except to a NameAndType with
    undecodable text; the readers of constant_pool.rs and attributes.rs. *)
From Verif Require Import Base M_Names M_Descriptors M_ConstantPool M_Bytecode M_Attributes M_Class
  S_Lang S_Names S_Format S_Pool S_Items P_Names P_Descriptors P_Reads P_Pool2 P_Pool3 P_Pool4 P_Refs P_Safe T_Iter.
From Coq Require Import ZifyBool ZifyNat ZifyN.

Section Refs.
Variable E : env.
Variable bs : list byte.
Variable Q : panic -> Prop.
Variable cs : list constant.
Variable major : N.
Notation dec := (cesu8 E).
Notation sl := (slots_of cs).
Notation P := (pool_of dec sl).
Hypothesis Hvalid : Forall (valid_constant dec sl major) cs.
Notation runs := (runs_at bs Q).

Lemma ref_class_str i s : utf8_at dec sl i s -> ends Q (fun _ => True) (peel_utf8 P (Resolved i)).
Proof. intro H. eapply ends_Ok'. apply peel_utf8_Ok, H. Qed.
Lemma ends_class i : is_class sl i -> exists s, (let* t := peel P (Resolved i) in classinfo P t) = Ok s.
Proof. intro H. destruct (class_exists _ _ _ Hvalid _ H) as (s & Hs). exists s. apply classinfo_Ok, Hs. Qed.
Lemma ends_nt i R : described dec sl i R -> exists nt, (let* t := peel P (Resolved i) in get_name_and_type P t) = Ok nt.
Proof. intro H. destruct (nt_exists _ _ _ Hvalid _ _ H) as (s & Hs). exists s. apply nt_Ok, Hs. Qed.
Lemma ends_member c m R : is_class sl c -> described dec sl m R -> exists r, make_member_ref P (Resolved c) (Resolved m) = Ok r.
Proof.
  intros H1 H2. destruct (class_exists _ _ _ Hvalid _ H1) as (s & Hs). destruct (nt_exists _ _ _ Hvalid _ _ H2) as (q & Hq).
  exists (mk_mr s q). apply member_ref_Ok. auto.
Qed.
Lemma ends_handle k m c : at_index sl m c -> handle_target major k c -> exists h, make_method_handle P k (Resolved m) = Ok h.
Proof.
  intros Ht Hk. pose proof (valid_at _ _ _ Hvalid _ _ Ht) as Hvt.
  destruct c; try (destruct k; contradiction Hk); cbn [valid_constant] in Hvt; destruct Hvt as [H1 H2];
    destruct (class_exists _ _ _ Hvalid _ H1) as (s & Hs); destruct (nt_exists _ _ _ Hvalid _ _ H2) as (q & Hq).
  - exists (mk_mh k s KField q). apply method_handle_Ok. split; [reflexivity|]. eexists _, _. split; [exact Ht|]. auto.
  - exists (mk_mh k s KMethod q). apply method_handle_Ok. split; [reflexivity|]. eexists _, _. split; [exact Ht|]. auto.
  - exists (mk_mh k s KInterfaceMethod q). apply method_handle_Ok. split; [reflexivity|]. eexists _, _. split; [exact Ht|]. auto.
Qed.
Lemma ends_string i : is_utf8 sl i -> exists l, (let* t := peel P (Resolved i) in string_literal t) = Ok l.
Proof.
  intros (raw & Hr). pose proof (at_index_entry dec cs _ _ Hr) as He. apply peel_entry in He. rewrite He. cbn [obind entry_of].
  destruct (dec raw); cbn; eauto.
Qed.

Lemma ends_pool_get i : ends Q (fun e => entry_at dec cs i e) (pool_get P i).
Proof.
  destruct (pool_get P i) eqn:H; cbn.
  - apply plen_get, H.
  - exact I.
  - exfalso. revert H. unfold pool_get, fail. destruct (N.leb_spec (plen P) i) as [H1|H1]; [discriminate|].
    destruct (nth_error P (N.to_nat i)) eqn:Hn; [discriminate|]. apply nth_error_None in Hn. unfold plen in H1. lia.
  - revert H. unfold pool_get, fail. destruct (plen P <=? i); [discriminate|]. destruct (nth_error P (N.to_nat i)); discriminate.
Qed.
Lemma run_ref_any ix : runs ix (fun e ix' => ix' = ix + 2 /\ exists i, entry_at dec cs i e) (read_cp_ref_any P).
Proof.
  unfold read_cp_ref_any. eapply runs_bind; [apply run_u2|]. intros i ix1 [-> Hi] H1. eapply runs_weaken; [eapply runs_lift; [lia|apply ends_pool_get]|].
  intros e ix2 _ [He ->]. cbn in He. split; eauto.
Qed.
Lemma run_cp {A} ix (f : entry -> parser A) (R : A -> N -> Prop) :
  (forall e, e = EZero \/ e = EUnused -> runs (ix + 2) R (f e)) ->
  (forall i c, at_index sl i c -> valid_constant dec sl major c -> ix + 2 <= blen bs -> runs (ix + 2) R (f (entry_of dec c))) ->
  runs ix R (bind (read_cp_ref_any P) f).
Proof.
  intros H0 Hc. eapply runs_bind; [apply run_ref_any|]. intros e ix' (-> & i & Hi) Hle. apply entry_at_cases in Hi.
  destruct Hi as [[_ ->]|[[_ ->]|(c & Hi & ->)]]; auto. apply (Hc i); [exact Hi| |lia]. eapply valid_at; eauto.
Qed.
Ltac cp := apply run_cp; [intros e [->| ->]; try exact I; try (apply runs_ret_any; lia)|];
  intros i c Hi Hv Hle; destruct c; cbn [entry_of valid_constant] in *; try (match goal with |- context [dec ?r] => destruct (dec r) end); try exact I; try (apply runs_ret_any; lia).
Ltac ok H := rewrite H; cbn [obind bind lift].

Lemma run_weak2 {A} ix (p : parser A) : ix + 2 <= blen bs -> runs (ix + 2) any_result p -> runs (ix + 2) any_result p.
Proof. auto. Qed.
Lemma run_cp_utf8 ix : runs ix any_result (read_cp_utf8 P).
Proof. unfold read_cp_utf8. cp. Qed.
Lemma run_cp_utf8_opt ix : ix + 2 <= blen bs \/ blen bs < ix + 2 -> runs ix any_result (read_cp_utf8_opt P).
Proof.
  intros _. unfold read_cp_utf8_opt. eapply runs_bind; [apply run_ref_any|]. intros e ix' (-> & i & _) Hle.
  destruct e; try exact I; apply runs_ret_any; lia.
Qed.
Lemma lift_str ix (m : outcome str) s : ix <= blen bs -> m = Ok s -> runs ix any_result (lift m).
Proof. intros H ->. apply (runs_any bs Q ix (fun a ix' => a = s /\ ix' = ix)), runs_ret, H. Qed.
Lemma lift_ok {A} ix (m : outcome A) s : ix <= blen bs -> m = Ok s -> runs ix any_result (lift m).
Proof. intros H ->. apply (runs_any bs Q ix (fun a ix' => a = s /\ ix' = ix)), runs_ret, H. Qed.
Lemma run_cp_classinfo ix : runs ix any_result (read_cp_classinfo P).
Proof.
  unfold read_cp_classinfo. cp. destruct Hv as (s & Hs & _). eapply lift_ok; [lia|]. apply peel_utf8_Ok, Hs.
Qed.
Lemma run_cp_moduleinfo ix : runs ix any_result (read_cp_moduleinfo P).
Proof. unfold read_cp_moduleinfo. cp. destruct Hv as (s & Hs & _). eapply lift_ok; [lia|]. apply peel_utf8_Ok, Hs. Qed.
Lemma run_cp_packageinfo ix : runs ix any_result (read_cp_packageinfo P).
Proof. unfold read_cp_packageinfo. cp. destruct Hv as (s & Hs & _). eapply lift_ok; [lia|]. apply peel_utf8_Ok, Hs. Qed.
Lemma run_cp_classinfo_opt ix : runs ix any_result (read_cp_classinfo_opt P).
Proof.
  unfold read_cp_classinfo_opt. eapply runs_bind; [apply run_ref_any|]. intros e ix' (-> & i & Hi) Hle. apply entry_at_cases in Hi.
  destruct Hi as [[_ ->]|[[_ ->]|(c & Hi & ->)]]; [apply runs_ret_any; lia|exact I|].
  pose proof (valid_at _ _ _ Hvalid _ _ Hi) as Hv. destruct c; cbn [entry_of valid_constant] in *; try (destruct (dec raw)); try exact I.
  destruct Hv as (s & Hs & _). eapply runs_bind; [eapply lift_ok; [lia|apply peel_utf8_Ok, Hs]|]. intros; apply runs_ret_any; lia.
Qed.
Lemma run_cp_nameandtype_opt ix : ((exists c, In c cs /\ undecodable dec cs c) -> Q PNotUtf8) -> runs ix any_result (read_cp_nameandtype_opt P).
Proof.
  intro HQ. unfold read_cp_nameandtype_opt. eapply runs_bind; [apply run_ref_any|]. intros e ix' (-> & i & Hi) Hle. apply entry_at_cases in Hi.
  destruct Hi as [[_ ->]|[[_ ->]|(c & Hi & ->)]]; [apply runs_ret_any; lia|exact I|].
  pose proof (valid_at _ _ _ Hvalid _ _ Hi) as Hv. destruct c; cbn [entry_of valid_constant] in *; try (destruct (dec raw)); try exact I.
  destruct Hv as ((s & Hs & _) & raw & Hr). eapply runs_bind; [eapply lift_ok; [lia|apply peel_utf8_Ok, Hs]|]. intros n ix2 _ H2.
  destruct (dec raw) as [t|] eqn:Hd.
  - eapply runs_bind; [eapply lift_ok; [lia|apply peel_utf8_Ok; exists raw; eauto]|]. intros; apply runs_ret_any; lia.
  - unfold peel_utf8. pose proof (at_index_entry dec cs _ _ Hr) as He. apply peel_entry in He. rewrite He. cbn [obind entry_of]. rewrite Hd. cbn.
    apply HQ. exists (CNameAndType name desc). split; [|exists name, desc, raw; auto]. apply P_Pool4.in_slots. eauto.
Qed.
Lemma run_cp_literalconstant ix : runs ix any_result (read_cp_literalconstant P).
Proof. unfold read_cp_literalconstant. cp. destruct (ends_string _ Hv) as (l & Hl). eapply lift_ok; [lia|exact Hl]. Qed.
Lemma run_cp_integer ix : runs ix any_result (read_cp_integer P). Proof. unfold read_cp_integer. cp. Qed.
Lemma run_cp_float ix : runs ix any_result (read_cp_float P). Proof. unfold read_cp_float. cp. Qed.
Lemma run_cp_long ix : runs ix any_result (read_cp_long P). Proof. unfold read_cp_long. cp. Qed.
Lemma run_cp_double ix : runs ix any_result (read_cp_double P). Proof. unfold read_cp_double. cp. Qed.
Lemma run_ensure ix e T : ix <= blen bs -> runs ix (fun _ ix' => ix' = ix) (lift (ensure_type e T)).
Proof. intro H. unfold ensure_type, fail. destruct (contains T (get_type e)); cbn; auto. repeat split; lia. Qed.
Lemma run_cp_memberref T ix : runs ix any_result (read_cp_memberref P T).
Proof.
  unfold read_cp_memberref. apply run_cp.
  - intros e He. unfold runs_at, bind, lift, ensure_type, fail. destruct (contains T (get_type e)); destruct He as [->| ->]; exact I.
  - intros i c Hi Hv Hle. eapply runs_bind; [apply run_ensure; lia|]. intros _ ix' -> _.
    destruct c; cbn [entry_of valid_constant] in *; try (destruct (dec raw)); try exact I; destruct Hv as [H1 H2];
      destruct (ends_member _ _ _ H1 H2) as (r & Hr); (eapply lift_ok; [lia|exact Hr]).
Qed.
Lemma run_cp_invokedynamic ix : runs ix any_result (read_cp_invokedynamic P).
Proof.
  unfold read_cp_invokedynamic. cp. destruct (ends_nt _ _ Hv) as (q & Hq). apply obind_Ok in Hq. destruct Hq as (t & Ht & Hq).
  eapply lift_ok; [lia|]. rewrite Ht. cbn [obind]. rewrite Hq. reflexivity.
Qed.
Lemma run_cp_methodhandle ix : runs ix any_result (read_cp_methodhandle P).
Proof. unfold read_cp_methodhandle. cp. destruct Hv as (c & Hc & Hk). destruct (ends_handle _ _ _ Hc Hk) as (h & Hh). eapply lift_ok; [lia|exact Hh]. Qed.
Lemma run_cp_bootstrap_argument ix : runs ix any_result (read_cp_bootstrap_argument P).
Proof.
  unfold read_cp_bootstrap_argument. cp.
  - destruct Hv as (s & Hs & _). eapply lift_ok; [lia|]. apply peel_utf8_Ok in Hs. rewrite Hs. reflexivity.
  - destruct (ends_string _ Hv) as (l & Hl). apply obind_Ok in Hl. destruct Hl as (t & Ht & Hl). eapply lift_ok; [lia|]. rewrite Ht. cbn [obind]. rewrite Hl. reflexivity.
  - destruct Hv as (c & Hc & Hk). destruct (ends_handle _ _ _ Hc Hk) as (h & Hh). eapply lift_ok; [lia|]. rewrite Hh. reflexivity.
  - destruct Hv as (s & Hs & _). eapply lift_ok; [lia|]. apply peel_utf8_Ok in Hs. rewrite Hs. reflexivity.
Qed.
Lemma run_cp_object_array_type ix : runs ix any_result (read_cp_object_array_type P).
Proof.
  unfold read_cp_object_array_type. cp. destruct Hv as (s & Hs & _). eapply runs_bind; [eapply lift_ok; [lia|apply peel_utf8_Ok, Hs]|].
  intros n ix2 _ H2. eapply runs_bind; [eapply runs_lift; [lia|apply ends_decides, parse_array_descriptor_spec]|].
  intros [d|] ix3 _ H3; apply runs_ret_any; lia.
Qed.
Lemma ends_loadable i : ends Q (fun _ => True) (get_cp_loadable P i).
Proof.
  unfold get_cp_loadable. eapply ends_bind; [apply ends_pool_get|]. intros e _ Hi. apply entry_at_cases in Hi.
  destruct Hi as [[_ ->]|[[_ ->]|(c & Hi & ->)]]; try exact I. pose proof (valid_at _ _ _ Hvalid _ _ Hi) as Hv.
  destruct c; cbn [entry_of valid_constant] in *; try (destruct (dec raw)); try exact I.
  - destruct Hv as (s & Hs & _). apply peel_utf8_Ok in Hs. rewrite Hs. exact I.
  - destruct (ends_string _ Hv) as (l & Hl). apply obind_Ok in Hl. destruct Hl as (t & Ht & Hl). rewrite Ht. cbn [obind]. rewrite Hl. exact I.
  - destruct Hv as (c & Hc & Hk). destruct (ends_handle _ _ _ Hc Hk) as (h & Hh). rewrite Hh. exact I.
  - destruct Hv as (s & Hs & _). apply peel_utf8_Ok in Hs. rewrite Hs. exact I.
  - destruct (ends_nt _ _ Hv) as (q & Hq). apply obind_Ok in Hq. destruct Hq as (t & Ht & Hq). rewrite Ht. cbn [obind]. rewrite Hq. exact I.
Qed.
End Refs.
