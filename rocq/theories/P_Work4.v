(** * Running time: the constant pool *)
From Verif Require Import Base M_Names M_Descriptors M_ConstantPool M_Cesu8 S_Lang P_Reads P_Heap3 P_Descriptors
  W_Base W_Descriptors W_ConstantPool P_Work P_Work2 P_Work3.
From Coq Require Import ZifyBool ZifyNat ZifyN Relations Relation_Operators Operators_Properties.
Local Open Scope Z_scope.

(** Texts come from constants, which are at most 65535 bytes long; indices are two bytes. *)
Definition short (s : str) : Prop := (str_len s <= 65535)%N.
Definition near (r : cpref) : Prop := match r with Unresolved t | Resolved t => (t < 65536)%N end.
Definition modest_entry (e : entry) : Prop :=
  match e with
  | EUtf8 s => short s
  | EUtf8Bytes raw => (blen raw <= 65535)%N
  | ENameAndType _ y => near y
  | _ => True
  end.
Definition modest (p : pool) : Prop := Forall modest_entry p.
Lemma text_short s : short s -> Z.of_N (text s) <= 65536.
Proof. unfold short, text. lia. Qed.

(** ** A chain of NameAndType constants *)
Section Chain.
Variable p : pool.
Definition follows (i j : nat) : Prop := exists x t, nth_error p i = Some (ENameAndType x (Resolved t)) /\ j = N.to_nat t.
Lemma cycle_overflows i e : clos_trans nat follows i i -> nth_error p i = Some e ->
  forall stk, fst (w_validate_method_descriptor stk p e) = Panic PStackOverflow.
Proof.
  intros Hi He stk. revert i e Hi He. induction stk as [|stk IH]; intros i e Hi He; [reflexivity|]. cbn [w_validate_method_descriptor].
  assert (Hs : exists j, follows i j /\ clos_trans nat follows j j).
  { apply clos_trans_t1n_iff in Hi. inversion Hi as [j Hij|j k Hij Hji]; subst.
    - exists i. split; [assumption|]. apply t_step. assumption.
    - exists j. split; [assumption|]. eapply t_trans; [apply clos_trans_t1n_iff; exact Hji|]. apply t_step. assumption. }
  destruct Hs as (j & (x & t & Hn & ->) & Hj). rewrite He in Hn. injection Hn as ->. unfold w_peel. cbn [peel].
  destruct (nth_error p (N.to_nat t)) as [e|] eqn:Ht.
  - specialize (IH _ _ Hj Ht). cbn [mbind steps]. destruct (w_validate_method_descriptor stk p e) as [r n]. cbn [fst] in IH. subst r. reflexivity.
  - exfalso. apply clos_trans_t1n_iff in Hj. inversion Hj as [k (x' & t' & Hk & _)|k l (x' & t' & Hk & _) _]; congruence.
Qed.

Variable E : env.
Hypothesis Hp : modest p.
Lemma modest_nth i e : nth_error p i = Some e -> modest_entry e.
Proof. intro H. unfold modest in Hp. rewrite Forall_forall in Hp. apply Hp. eapply nth_error_In; eauto. Qed.

Lemma text_str e : modest_entry e -> pays E 655360 (fun _ => True) (
  let~ x := w_entry_str e in
  let~ ok := w_is_method_descriptor x in
  if (ok : bool) then mok tt else steps 1 (fail (lit "Invalid method descriptor"))).
Proof.
  intro H. eapply (pays_use E _ 1 short); [|lia|].
  { apply pays_steps; [lia|]. intros s Hs. destruct e; cbn in Hs; try discriminate. injection Hs as <-. exact H. }
  intros s Hs. eapply (pays_use E _ (589815 + 13) (fun _ => True)); [|lia|].
  { apply pays_snd; [|auto]. pose proof (is_method_cost s). unfold short in Hs. lia. }
  intros [] _; [apply pays_ok; [lia|exact I]|]. apply pays_steps; [lia|auto].
Qed.
Lemma path_short path : NoDup path -> (forall k, In k path -> (k < N.to_nat 65536)%nat) -> (length path <= N.to_nat 65536)%nat.
Proof.
  intros Hd Hk. rewrite <- (seq_length (N.to_nat 65536) 0). apply NoDup_incl_length; [exact Hd|]. intros k Hin. apply in_seq. specialize (Hk k Hin). lia.
Qed.
Lemma chain_cost stk : forall i e path, nth_error p i = Some e -> NoDup path ->
  (forall k, In k path -> (k < N.to_nat 65536)%nat) -> (forall k, In k path -> clos_refl_trans nat follows k i) ->
  match w_validate_method_descriptor stk p e with
  | (Panic PStackOverflow, n) => Z.of_N n <= Z.of_nat stk
  | (_, n) => Z.of_N n <= 65536 - Z.of_nat (length path) + 655361
  end.
Proof.
  induction stk as [|stk IH]; intros i e path He Hd Hk Hr; cbn [w_validate_method_descriptor]; [cbn; lia|].
  pose proof (path_short path Hd Hk) as Hl.
  assert (Hother : match (let~ x := w_entry_str e in let~ ok := w_is_method_descriptor x in
      if (ok : bool) then mok tt else steps 1 (fail (lit "Invalid method descriptor"))) with
    | (Panic PStackOverflow, n) => Z.of_N n <= Z.of_nat (S stk)
    | (_, n) => Z.of_N n <= 65536 - Z.of_nat (length path) + 655361 end).
  { pose proof (text_str e (modest_nth i e He)) as H.
    assert (Hno : fst (let~ x := w_entry_str e in let~ ok := w_is_method_descriptor x in
      if (ok : bool) then mok tt else steps 1 (fail (lit "Invalid method descriptor"))) <> Panic PStackOverflow).
    { assert (Hf : forgets (let~ x := w_entry_str e in let~ ok := w_is_method_descriptor x in
      if (ok : bool) then mok tt else steps 1 (fail (lit "Invalid method descriptor")))
       (let* x := entry_str e in let* ok := is_method_descriptor x in if (ok : bool) then Ok tt else fail (lit "Invalid method descriptor"))) by fg.
      rewrite Hf. destruct e; cbn [entry_str obind]; try discriminate. match goal with |- context [is_method_descriptor ?s] => destruct (is_method_descriptor_spec s) as (b & -> & _) end. cbn [obind]. destruct b; discriminate. }
    destruct (let~ x := w_entry_str e in _) as [[u| |q|] n]; cbn [pays fst] in *; cbn [over] in *; try lia.
    destruct q; try (cbn [over] in *; lia). congruence. }
  destruct e; try exact Hother. clear Hother. pose proof (modest_nth i _ He) as Hnear. cbn [modest_entry] in Hnear. unfold w_peel.
  destruct y as [t|t]; [cbn [peel mbind steps]; lia|]. cbn [near] in Hnear.
  cbn [peel]. destruct (nth_error p (N.to_nat t)) as [e|] eqn:Ht; [|cbn [mbind steps]; lia]. cbn [mbind steps].
  assert (Hstep : follows i (N.to_nat t)) by (exists x, t; auto).
  destruct (in_dec Nat.eq_dec (N.to_nat t) path) as [Hin|Hin].
  - assert (Hc : clos_trans nat follows (N.to_nat t) (N.to_nat t)).
    { specialize (Hr _ Hin). apply clos_rt_rtn1 in Hr. eapply clos_rt_t; [apply clos_rtn1_rt; exact Hr|]. apply t_step. exact Hstep. }
    pose proof (cycle_overflows _ _ Hc Ht stk) as Hov. specialize (IH _ _ [] Ht (NoDup_nil _) ltac:(intros ? []) ltac:(intros ? [])).
    destruct (w_validate_method_descriptor stk p e) as [r n]. cbn [fst] in Hov. subst r. lia.
  - specialize (IH _ _ (N.to_nat t :: path) Ht (NoDup_cons _ Hin Hd)).
    destruct (w_validate_method_descriptor stk p e) as [r n].
    assert (H1 : forall k, In k (N.to_nat t :: path) -> (k < N.to_nat 65536)%nat) by (intros k [<-|H]; [lia|auto]).
    assert (H2 : forall k, In k (N.to_nat t :: path) -> clos_refl_trans nat follows k (N.to_nat t)).
    { intros k [<-|H]; [apply rt_refl|]. eapply rt_trans; [apply Hr; exact H|]. apply rt_step. exact Hstep. }
    specialize (IH H1 H2). cbn [length] in IH. destruct r as [u| |[]|]; lia.
Qed.
Lemma method_descriptor_cost stk i e : (stk <= stack E)%nat -> nth_error p i = Some e -> pays E 720897 (fun _ => True) (w_validate_method_descriptor stk p e).
Proof.
  intros Hs He. pose proof (chain_cost stk i e [] He (NoDup_nil _) ltac:(intros ? []) ltac:(intros ? [])) as H. cbn [length] in H.
  destruct (w_validate_method_descriptor stk p e) as [[u| |[]|] n]; cbn [pays over]; try (split; [lia|exact I]); lia.
Qed.
End Chain.

(** ** Validation *)
Ltac norm := unfold short, text in *; cbn beta in *.
Ltac nlia := norm; lia.
Section Validation.
Variable E : env.
Variable p : pool.
Hypothesis Hp : modest p.
Lemma modest_in e : In e p -> modest_entry e.
Proof. intro H. unfold modest in Hp. rewrite Forall_forall in Hp. auto. Qed.
Lemma pays_peel r : pays E 1 (fun e => In e p) (w_peel p r).
Proof.
  apply pays_steps; [lia|]. intros e He. destruct r as [t|t]; cbn [peel] in He; [discriminate|].
  destruct (nth_error p (N.to_nat t)) eqn:Hn; [|discriminate]. injection He as <-. eapply nth_error_In; eauto.
Qed.
Lemma pays_ensure r a : pays E 2 (fun _ => True) (w_ensure_ref_type p r a).
Proof. apply pays_steps; [lia|auto]. Qed.
Lemma pays_str e : In e p -> pays E 1 short (w_entry_str e).
Proof. intro H. apply pays_steps; [lia|]. intros s Hs. apply modest_in in H. destruct e; cbn in Hs; try discriminate. injection Hs as <-. exact H. Qed.
Lemma pays_is_field s : short s -> pays E 262200 (fun _ => True) (w_is_field_descriptor s).
Proof. intro H. apply pays_snd; [|auto]. pose proof (is_field_cost s). nlia. Qed.
Lemma pays_is_array s : short s -> pays E 262200 (fun _ => True) (w_is_array_descriptor s).
Proof. intro H. apply pays_snd; [|auto]. pose proof (is_array_cost s). nlia. Qed.
Lemma pays_classinfo_name e : In e p -> pays E 400000 (fun _ => True) (w_validate_classinfo_name e).
Proof.
  intro H. unfold w_validate_classinfo_name. eapply pays_use; [apply pays_str; exact H|lia|]. intros s Hs.
  eapply (pays_use E _ 330000 (fun _ => True)); [|lia|].
  { apply pays_after. apply pays_if; intros _; [apply pays_ok; [nlia|exact I]|]. eapply pays_weaken; [apply pays_is_array; exact Hs|nlia|auto]. }
  intros [] _; [apply pays_ok; [lia|exact I]|apply pays_steps; [lia|auto]].
Qed.
Lemma pays_binary_name e : In e p -> pays E 400000 (fun _ => True) (w_validate_binary_name e).
Proof. intro H. unfold w_validate_binary_name. eapply pays_use; [apply pays_str; exact H|lia|]. intros s Hs. apply pays_steps; [nlia|auto]. Qed.
Lemma pays_module_name e : In e p -> pays E 400000 (fun _ => True) (w_validate_module_name e).
Proof. intro H. unfold w_validate_module_name. eapply pays_use; [apply pays_str; exact H|lia|]. intros s Hs. apply pays_steps; [nlia|auto]. Qed.
Lemma pays_unqualified_name e : In e p -> pays E 400000 (fun _ => True) (w_validate_unqualified_name e).
Proof. intro H. unfold w_validate_unqualified_name. eapply pays_use; [apply pays_str; exact H|lia|]. intros s Hs. apply pays_steps; [nlia|auto]. Qed.
Lemma pays_field_descriptor e : pays E 400000 (fun _ => True) (w_validate_field_descriptor p e).
Proof.
  unfold w_validate_field_descriptor. destruct e; try (apply pays_steps; [lia|auto]).
  eapply pays_use; [apply pays_peel|lia|]. intros t Ht. eapply pays_use; [apply pays_str; exact Ht|lia|]. intros s Hs.
  eapply pays_use; [apply pays_is_field; exact Hs|lia|]. intros [] _; [apply pays_ok; [lia|exact I]|apply pays_steps; [lia|auto]].
Qed.
Lemma pays_method_descriptor stk e : (stk <= stack E)%nat -> In e p -> pays E 720897 (fun _ => True) (w_validate_method_descriptor stk p e).
Proof. intros Hs He. apply In_nth_error in He. destruct He as [i Hi]. eapply method_descriptor_cost; eauto. Qed.
Ltac val := repeat first
  [ eapply pays_use; [solve [apply pays_ensure | apply pays_peel]|lia|intros ? ?]
  | solve [eapply pays_weaken;
      [first [apply pays_ensure | apply pays_peel | apply pays_field_descriptor | eapply pays_method_descriptor; eassumption
             | eapply pays_classinfo_name; eassumption | eapply pays_binary_name; eassumption | eapply pays_module_name; eassumption]
      |lia|auto]]
  | apply pays_ok; [lia|exact I] ].
Lemma pays_entry stk major e : (stk <= stack E)%nat -> pays E 786432 (fun _ => True) (w_validate_entry stk p major e).
Proof.
  intro Hs. destruct e; cbn [w_validate_entry]; val.
  eapply pays_use; [apply pays_unqualified_name; assumption|lia|]. intros ? _. val.
Qed.
Lemma pays_validate_from stk major es : (stk <= stack E)%nat -> forall i, pays E (Z.of_nat (length es) * 786434) (fun _ => True) (w_validate_from stk p major i es).
Proof.
  intro Hs. induction es as [|e es IH]; intro i; cbn [w_validate_from length]; [apply pays_ok; [lia|exact I]|].
  eapply (pays_use E _ 786434 (fun _ => True)); [|lia|].
  { apply pays_ctx, pays_after. eapply pays_weaken; [apply pays_entry; exact Hs|lia|auto]. }
  intros ? _. eapply pays_weaken; [apply IH|lia|auto].
Qed.
End Validation.

Lemma resolve_modest e i len e' : modest_entry e -> resolve_entry e i len = Ok e' -> modest_entry e'.
Proof.
  assert (Hn : forall r r', near r -> resolve_ref r i len = Ok r' -> near r').
  { intros [t|t] r' H Hr; cbn [resolve_ref] in Hr; [destruct (t =? i)%N; [discriminate|]; destruct (len <=? t)%N; [discriminate|]|]; injection Hr as <-; exact H. }
  destruct e; cbn [modest_entry resolve_entry]; intros H Hr; try (injection Hr as <-; exact H);
    repeat match type of Hr with (let* _ := ?m in _) = _ => destruct m eqn:?; cbn [obind] in Hr; [|discriminate..] end;
    injection Hr as <-; cbn [modest_entry]; auto. eapply Hn; eauto.
Qed.
Lemma pays_resolve E len es : Forall modest_entry es -> forall i,
  pays E (Z.of_nat (length es) * 3) (fun l => length l = length es /\ Forall modest_entry l) (w_resolve_from len i es).
Proof.
  induction 1 as [|e es He Hes IH]; intro i; cbn [w_resolve_from length]; [apply pays_ok; [lia|split; [reflexivity|constructor]]|].
  eapply (pays_use E _ 3 modest_entry); [|lia|].
  { apply pays_steps; [lia|]. intros e' He'. eapply resolve_modest; eauto. }
  intros e' He'. eapply pays_use; [apply IH|lia|]. intros l [Hl Hf]. apply pays_ok; [lia|]. cbn [length]. split; [lia|constructor; auto].
Qed.

(** ** Reading the pool *)
(** Plain readers that take at least [k] bytes *)
Definition eats {A} (k : N) (Q : A -> Prop) (m : parser A) : Prop :=
  forall bs ix a ix', (ix <= blen bs)%N -> m bs ix = Ok (a, ix') -> Q a /\ (ix + k <= ix')%N /\ (ix' <= blen bs)%N.
Lemma eats_bind {A C} k1 k2 (Q : A -> Prop) (R : C -> Prop) m f : eats k1 Q m -> (forall a, Q a -> eats k2 R (f a)) -> eats (k1 + k2) R (bind m f).
Proof.
  intros Hm Hf bs ix c ix' Hix H. unfold bind in H. destruct (m bs ix) as [[a i]| | |] eqn:Hm'; try discriminate.
  destruct (Hm _ _ _ _ Hix Hm') as (Ha & H1 & H2). destruct (Hf a Ha _ _ _ _ H2 H) as (Hc & H3 & H4). split; [exact Hc|]. lia.
Qed.
Lemma eats_ret {A} (Q : A -> Prop) a : Q a -> eats 0 Q (ret a).
Proof. intros H bs ix b ix' Hix [= <- <-]. split; [exact H|]. lia. Qed.
Lemma eats_fail {A} k (Q : A -> Prop) m : eats k Q (pfail_at m).
Proof. intros bs ix b ix' Hix H. discriminate. Qed.
Lemma eats_u1 : eats 1 (fun n => n < 256)%N read_u1.
Proof. intros bs ix a ix' Hix H. destruct (uint_read 1 read_u1 bs ix a ix' reads_u1 Hix H) as (H1 & H2 & H3). split; [exact H1|]. lia. Qed.
Lemma eats_u2 : eats 2 (fun n => n < 65536)%N read_u2.
Proof. intros bs ix a ix' Hix H. destruct (uint_read 2 read_u2 bs ix a ix' reads_u2 Hix H) as (H1 & H2 & H3). split; [exact H1|]. lia. Qed.
Lemma eats_u4 : eats 4 (fun n => True)%N read_u4.
Proof. intros bs ix a ix' Hix H. destruct (uint_read 4 read_u4 bs ix a ix' reads_u4 Hix H) as (H1 & H2 & H3). split; [exact I|]. lia. Qed.
Lemma eats_u8 : eats 8 (fun n => True)%N read_u8.
Proof. intros bs ix a ix' Hix H. destruct (uint_read 8 read_u8 bs ix a ix' reads_u8 Hix H) as (H1 & H2 & H3). split; [exact I|]. lia. Qed.
Lemma eats_ref : eats 2 near read_unresolved_cp_ref.
Proof. apply (eats_bind 2 0 _ _ _ _ eats_u2). intros n Hn. apply eats_ret. exact Hn. Qed.
Lemma eats_less {A} k k' (Q R : A -> Prop) m : eats k Q m -> (k' <= k)%N -> (forall a, Q a -> R a) -> eats k' R m.
Proof. intros H Hk HQ bs ix a ix' Hix Hm. destruct (H _ _ _ _ Hix Hm) as (H1 & H2 & H3). split; [auto|]. lia. Qed.
Lemma eats_any {A} (m : parser A) k Q : eats k Q m -> eats 0 Q m.
Proof. intro H. eapply eats_less; [exact H|lia|auto]. Qed.
Definition wide_of (tag : N) : N := if ((tag =? 5) || (tag =? 6))%N then 8 else 2.
Ltac eat := repeat first
  [ eapply eats_bind; [solve [exact eats_u1 | exact eats_ref | exact eats_u2 | exact eats_u4 | exact eats_u8]|intros ? ?]
  | simple apply eats_ret; first [exact I | assumption] ].
Ltac ate := eapply (eats_less _ _ modest_entry modest_entry); [eat|lia|auto].
Lemma eats_handle : eats 2 modest_entry read_constant_methodhandle.
Proof.
  unfold read_constant_methodhandle. eapply eats_less; [apply (eats_bind 1 2 _ modest_entry _ _ eats_u1)|lia|auto]. intros n _.
  apply (eats_bind 0 2 (fun _ => True)).
  - repeat match goal with |- eats _ _ (match ?x with _ => _ end) => destruct x end; first [apply eats_ret; exact I | apply eats_fail].
  - intros k _. ate.
Qed.

Lemma eats_entry E major tag : (tag =? 1)%N = false -> eats (wide_of tag) modest_entry (read_entry E major tag).
Proof.
  intro Ht. unfold read_entry. cbv zeta.
  repeat match goal with
  | |- eats _ _ (match ?x with _ => _ end) => is_var x; destruct x
  | |- eats _ _ (if (?a <=? ?b)%N then _ else _) => destruct (a <=? b)%N
  end; try discriminate; first [apply eats_fail | exact eats_handle | cbn [wide_of N.eqb Pos.eqb orb]; unfold read_constant_integer, read_constant_float, read_constant_long, read_constant_double,
    read_constant_class, read_constant_string, read_constant_fieldref, read_constant_methodref, read_constant_interfacemethodref, read_constant_nameandtype,
    read_constant_methodtype, read_constant_dynamic, read_constant_invokedynamic, read_constant_module, read_constant_package; ate].
Qed.
