(** * The readers of attributes.rs and of the members and header in lib.rs. *)
From Verif Require Import Base M_Names M_Descriptors M_ConstantPool M_Bytecode M_Attributes M_Class
  S_Lang S_Names S_Format S_Pool S_Items P_Names P_Descriptors P_Reads P_Pool2 P_Pool3 P_Pool4 P_Refs P_Safe P_Safe2.
From Coq Require Import ZifyBool ZifyNat ZifyN.

Section Attributes.
Variable E : env.
Variable bs : list byte.
Variable Q : panic -> Prop.
Variable cs : list constant.
Variable major : N.
Variable opts : bool.
Notation dec := (cesu8 E).
Notation sl := (slots_of cs).
Notation P := (pool_of dec sl).
Hypothesis Hvalid : Forall (valid_constant dec sl major) cs.
(** The causes of panics. *)
Hypothesis HQ_utf8 : (exists c, In c cs /\ undecodable dec cs c) -> Q PNotUtf8.
Hypothesis Hmachine : 2 ^ 32 <= usize_max E + 1 /\ blen bs <= usize_max E / 2.
Hypothesis HQ_index : usize_max E < blen bs + 2 ^ 32 -> if overflow_checks E then Q POverflow else Q PSlice.
Hypothesis HQ_code : opts = true -> forall code, (exists pre lw post, bs = pre ++ lw ++ code ++ post /\ u4 (N.of_nat (length code)) lw) ->
  ends Q (fun _ => True) (bytecode_from E code P).
Notation runs := (runs_at bs Q).

Lemma run_u4_at ix : runs ix (fun n ix' => ix' = ix + 4 /\ n < 2 ^ 32 /\ span bs ix ix' (u4 n)) read_u4.
Proof.
  pose proof (run_u4 bs Q ix) as H. unfold runs_at in *. destruct (read_u4 bs ix) as [[n i]| | |] eqn:Heq; cbn in *; auto.
  destruct H as ((Hi & Hn) & Hle). split; [|exact Hle]. split; [exact Hi|]. split; [exact Hn|].
  apply (reads_u4 {| overflow_checks := overflow_checks E; usize_max := usize_max E; alloc_limit := blen bs; stack := stack E; cesu8 := cesu8 E; cesu8_err := cesu8_err E |}) in Heq; auto.
  - split; cbn; tauto || lia.
  - lia.
Qed.
Lemma run_guard ix b m : ix <= blen bs -> runs ix any_result (guard b m).
Proof. intro H. eapply runs_any, runs_guard, H. Qed.
Lemma run_lift {A} ix (R : A -> Prop) m : ix <= blen bs -> ends Q R m -> runs ix any_result (lift m).
Proof. intros H He. eapply runs_any, runs_lift; eauto. Qed.
Lemma run_err {A} ix e (R : A -> N -> Prop) : runs ix R (lift (Err e)).
Proof. exact I. Qed.
Lemma run_field_descriptor ix : runs ix any_result (read_cp_field_descriptor P).
Proof.
  unfold read_cp_field_descriptor. eapply runs_bind; [eapply run_cp_utf8; eauto|]. intros d ix' _ H.
  eapply run_lift; [lia|apply ends_decides, parse_field_descriptor_0].
Qed.
Lemma run_exact_flags ix all e : runs ix any_result (read_exact_flags all e).
Proof.
  unfold read_exact_flags. eapply runs_bind; [apply run_u2|]. intros n ix' [-> _] H. destruct (from_bits all n); [apply runs_ret_any; lia|exact I].
Qed.
Ltac leaf :=
  first [ apply run_u1 | apply run_u2 | apply run_u4
        | apply runs_pctx; leaf
        | eapply run_cp_utf8; eassumption | apply run_field_descriptor
        | eapply run_cp_classinfo; eassumption | eapply run_cp_classinfo_opt; eassumption
        | apply run_exact_flags
        | eapply run_cp_utf8_opt; lia
        | eapply run_cp_moduleinfo; eassumption | eapply run_cp_packageinfo; eassumption
        | eapply run_cp_literalconstant; eassumption
        | eapply run_cp_integer; eassumption | eapply run_cp_float; eassumption | eapply run_cp_long; eassumption | eapply run_cp_double; eassumption
        | eapply run_cp_methodhandle; eassumption | eapply run_cp_bootstrap_argument; eassumption
        | eapply run_cp_nameandtype_opt; eassumption
        | apply run_guard; lia ].
Ltac go :=
  repeat first
  [ exact I
  | apply runs_ret_any; lia
  | match goal with |- runs_at _ _ _ _ (pctx _ _) => apply runs_pctx end
  | match goal with |- runs_at _ _ _ _ (for_n _ _) => apply runs_for_n; [lia|intros] end
  | leaf
  | match goal with |- runs_at _ _ _ _ (bind _ _) => eapply runs_bind; [solve [leaf]|intros; cbn beta in *] end
  | match goal with |- runs_at _ _ _ _ (if ?b then _ else _) => destruct b end
  ].
(** Leaves whose result says where they stopped are weakened. *)
Lemma run_u1_any ix : runs ix any_result read_u1. Proof. eapply runs_any, run_u1. Qed.
Lemma run_u2_any ix : runs ix any_result read_u2. Proof. eapply runs_any, run_u2. Qed.

Lemma run_exception_entry i ix : runs ix any_result (read_exception_entry P i).
Proof. unfold read_exception_entry. go. Qed.
Lemma run_verification ix : ix <= blen bs -> runs ix any_result (read_verification P).
Proof.
  intro Hix. unfold read_verification. eapply runs_bind; [apply run_u1|]. intros v ix1 [-> _] H1. destruct v as [|v]; [go|].
  do 4 (try destruct v as [v|v|]); go.
Qed.
Lemma run_for_bind {A B} ix n (body : N -> parser A) (f : list A -> parser B) : ix <= blen bs ->
  (forall j ix', ix <= ix' <= blen bs -> runs ix' any_result (body j)) ->
  (forall l ix', ix <= ix' <= blen bs -> runs ix' any_result (f l)) -> runs ix any_result (bind (for_n n body) f).
Proof. intros Hi Hb Hf. eapply runs_bind; [apply runs_for_n; eauto|]. intros; auto. Qed.
Lemma run_stack_map_entry i ix : ix <= blen bs -> runs ix any_result (read_stack_map_entry P i).
Proof.
  intro Hix. unfold read_stack_map_entry. go; try (eapply runs_bind; [apply runs_pctx, run_verification; lia|intros; go]).
  all: repeat (apply run_for_bind; [lia|intros; apply runs_pctx, run_verification; lia|intros; go]).
Qed.
Lemma run_stackmaptable_data ix : runs ix any_result (read_stackmaptable_data P).
Proof. unfold read_stackmaptable_data. eapply runs_bind; [leaf|intros]. apply runs_for_n; [lia|]. intros. apply run_stack_map_entry. lia. Qed.
Lemma run_exceptions_data ix : runs ix any_result (read_exceptions_data P).
Proof. unfold read_exceptions_data. go. Qed.
Lemma run_innerclasses_data ix : runs ix any_result (read_innerclasses_data P).
Proof. unfold read_innerclasses_data, read_inner_class. go. Qed.
Lemma run_linenumber_data ix : runs ix any_result read_linenumber_data.
Proof. unfold read_linenumber_data, read_line_number. go. Qed.
Lemma run_localvariable_data ix : runs ix any_result (read_localvariable_data P).
Proof. unfold read_localvariable_data, read_local_variable. go. Qed.
Lemma run_localvariabletype_data ix : runs ix any_result (read_localvariabletype_data P).
Proof. unfold read_localvariabletype_data, read_local_variable_type. go. Qed.
Lemma run_bootstrapmethods_data ix : runs ix any_result (read_bootstrapmethods_data P).
Proof.
  unfold read_bootstrapmethods_data, read_bootstrap_method. go. apply run_for_bind; [lia|intros; go|intros; go].
Qed.
Lemma run_methodparameters_data ix : runs ix any_result (read_methodparameters_data P).
Proof. unfold read_methodparameters_data, read_method_parameter. go. Qed.
Lemma run_module_data ix : runs ix any_result (read_module_data P).
Proof.
  unfold read_module_data, read_module_require, read_module_export, read_module_open, read_module_provide. go.
  repeat (apply run_for_bind; [lia|intros; go; try (apply run_for_bind; [lia|intros; go|intros; go])|intros; go]).
Qed.
Lemma run_modulepackages_data ix : runs ix any_result (read_modulepackages_data P).
Proof. unfold read_modulepackages_data. go. Qed.
Lemma run_nestmembers_data ix : runs ix any_result (read_nestmembers_data P).
Proof. unfold read_nestmembers_data. go. Qed.
Lemma run_permitted_subclasses_data ix : runs ix any_result (read_permitted_subclasses_data P).
Proof. unfold read_permitted_subclasses_data. go. Qed.

(** ** Annotations: [stk] levels of stack are enough from [ix] on. *)
Definition deep (ix : N) (stk : nat) : Prop := blen bs < ix + N.of_nat stk \/ Q PStackOverflow.
Lemma run_annotation_with rec ix : ix <= blen bs -> (forall ix', ix < ix' <= blen bs -> runs ix' any_result rec) ->
  runs ix any_result (read_annotation_with P rec).
Proof.
  intros Hix Hrec. unfold read_annotation_with. go. apply run_for_bind; [lia| |intros; go]. intros. go.
  eapply runs_bind; [apply runs_pctx, Hrec; lia|intros; go].
Qed.
Lemma run_element_value stk : forall ix, ix <= blen bs -> deep ix stk -> runs ix any_result (read_element_value P stk).
Proof.
  induction stk as [|stk IH]; intros ix Hix Hd; cbn [read_element_value].
  { destruct Hd as [Hd|Hd]; [lia|exact Hd]. }
  assert (Hrec : forall ix', ix + 1 <= ix' <= blen bs -> runs ix' any_result (read_element_value P stk)).
  { intros ix' H'. apply IH; [lia|]. destruct Hd; [left; lia|right; auto]. }
  unfold read_element_value_with. eapply runs_bind; [apply run_u1|]. intros v ix1 [-> _] H1.
  go.
  - eapply runs_bind; [eapply run_lift; [lia|]|intros; go]. destruct (is_return_descriptor_spec a) as (b & -> & _). exact I.
  - eapply runs_bind; [apply run_annotation_with; [lia|]|intros; go]. intros; apply Hrec; lia.
  - apply run_for_bind; [lia|intros; apply runs_pctx, Hrec; lia|intros; go].
Qed.
Lemma run_annotation stk ix : ix <= blen bs -> deep ix stk -> runs ix any_result (read_annotation P stk).
Proof. intros Hix Hd. unfold read_annotation. apply run_annotation_with; auto. intros. apply run_element_value; [lia|]. destruct Hd; [left; lia|right; auto]. Qed.
Lemma deep_mono ix ix' stk : ix <= ix' -> deep ix stk -> deep ix' stk.
Proof. intros Hle [H|H]; [left; lia|right; auto]. Qed.
Ltac ann := apply run_annotation; [lia|eapply deep_mono; [|eassumption]; lia].
Lemma run_annotation_data stk ix : ix <= blen bs -> deep ix stk -> runs ix any_result (read_annotation_data P stk).
Proof. intros Hix Hd. unfold read_annotation_data. go. ann. Qed.
Lemma run_parameter_annotation_data stk ix : ix <= blen bs -> deep ix stk -> runs ix any_result (read_parameter_annotation_data P stk).
Proof. intros Hix Hd. unfold read_parameter_annotation_data. go. ann. Qed.
Lemma run_target i ix : ix <= blen bs -> runs ix any_result (read_type_annotation_target i).
Proof.
  intro Hix. unfold read_type_annotation_target. eapply runs_bind; [apply run_u1|]. intros v ix1 [-> _] H1. destruct v as [|v]; [go|].
  do 7 (try destruct v as [v|v|]); try exact I; try (unfold read_local_var_target); go; apply run_for_bind; try lia; intros; go.
Qed.
Lemma run_path_entry i j ix : ix <= blen bs -> runs ix any_result (read_path_entry i j).
Proof.
  intro Hix. unfold read_path_entry. eapply runs_bind; [apply run_u1|]. intros v ix1 [-> _] H1.
  eapply runs_bind with (R := any_result); [|intros; go]. destruct v as [|v]; [go|]. do 2 (try destruct v as [v|v|]); go.
Qed.
Lemma run_type_annotation_data stk ix : ix <= blen bs -> deep ix stk -> runs ix any_result (read_type_annotation_data P stk).
Proof.
  intros Hix Hd. unfold read_type_annotation_data, read_type_annotation. go. eapply runs_bind; [apply run_target; lia|intros]. go.
  apply run_for_bind; [lia|intros; apply run_path_entry; lia|intros]. eapply runs_bind; [apply runs_pctx; ann|intros; go].
Qed.

(** ** Lengths *)
Lemma run_add_len ix len : ix <= blen bs -> len < 2 ^ 32 ->
  runs ix (fun e ix' => ix' = ix /\ (e = ix + len \/ overflow_checks E = false /\ usize_max E < blen bs + 2 ^ 32 /\ e < ix /\ ix + len = e + (usize_max E + 1))) (lift (usize_result E (ix + len))).
Proof.
  intros Hix Hlen. unfold usize_result, runs_at, lift. destruct (N.leb_spec (ix + len) (usize_max E)) as [H|H]; [cbn; lia|].
  destruct (overflow_checks E) eqn:Hc.
  - cbn. assert (Hr : usize_max E < blen bs + 2 ^ 32) by lia. specialize (HQ_index Hr). exact HQ_index.
  - cbn. assert (Hm : (ix + len) mod (usize_max E + 1) = ix + len - (usize_max E + 1)).
    { symmetry. apply N.mod_unique with 1; lia. }
    rewrite Hm. lia.
Qed.
Lemma run_slice ix i j : ix <= blen bs -> i <= j <= blen bs -> runs ix (fun w ix' => ix' = ix /\ blen w = j - i /\ exists pre post, bs = pre ++ w ++ post /\ blen pre = i) (lift (slice bs i j)).
Proof.
  intros Hix Hij. unfold slice. replace ((i <=? j) && (j <=? blen bs)) with true by lia. unfold runs_at, lift. cbn. split; [|lia]. split; [reflexivity|].
  assert (Hl : blen (firstn (N.to_nat (j - i)) (skipn (N.to_nat i) bs)) = j - i) by (unfold blen in *; rewrite firstn_length, skipn_length; lia).
  split; [exact Hl|]. exists (firstn (N.to_nat i) bs), (skipn (N.to_nat (j - i)) (skipn (N.to_nat i) bs)). split.
  - rewrite (firstn_skipn (N.to_nat (j - i))). symmetry. apply firstn_skipn.
  - unfold blen in *. rewrite firstn_length. lia.
Qed.

Lemma run_code_data rec ix : ix <= blen bs -> (forall ix', ix < ix' <= blen bs -> runs ix' any_result rec) ->
  runs ix any_result (read_code_data E P opts rec).
Proof.
  intros Hix Hrec. unfold read_code_data. eapply runs_bind; [apply run_u2|]. intros ms i1 [H1 _] L1. eapply runs_bind; [apply run_u2|]. intros ml i2 [H2 _] L2.
  eapply runs_bind; [apply run_u4_at|]. intros len i3 (H3 & Hlen & Hspan) L3. eapply runs_bind; [apply runs_get_bytes; lia|]. intros bs' i4 [-> ->] _.
  eapply runs_bind; [apply runs_get_ix; lia|]. intros ix' i4 [-> ->] _. eapply runs_bind; [apply run_add_len; [lia|exact Hlen]|]. intros e i4 [-> He] _.
  destruct (N.ltb_spec (blen bs) e) as [Hb|Hb]; [exact I|]. destruct He as [He|(Hc & Hu & He & He')].
  2:{ unfold runs_at, bind, lift, slice. replace ((i3 <=? e) && (e <=? blen bs)) with false by lia. cbn. specialize (HQ_index Hu). rewrite Hc in HQ_index. exact HQ_index. }
  eapply runs_bind; [apply run_slice; lia|]. intros code i4 (-> & Hcl & Hin) _. eapply runs_bind; [apply runs_set_ix; lia|]. intros _ i4 -> L4.
  eapply runs_bind; [apply run_u2|]. intros n i5 [-> _] L5. apply run_for_bind; [lia|intros; apply run_exception_entry|]. intros ex i6 L6.
  eapply runs_bind; [apply runs_pctx, Hrec; lia|]. intros at_ i7 _ L7. eapply runs_bind with (R := any_result); [|intros; go].
  destruct opts eqn:Ho; [|go]. eapply runs_bind; [apply runs_pctx; eapply run_lift; [lia|]|intros; go]. apply HQ_code; auto.
  destruct Hspan as (p1 & lw & q1 & Hb1 & Hp1 & Hi3 & Hlw), Hin as (p2 & q2 & Hb2 & Hp2). rewrite Hb1, app_assoc in Hb2. apply app_eq_blen in Hb2; [|rewrite blen_app; lia].
  destruct Hb2 as [_ ->]. exists p1, lw, q2. split; [exact Hb1|]. replace (N.of_nat (length code)) with len; [exact Hlw|]. unfold blen in Hcl. lia.
Qed.
Lemma run_record_data rec ix : ix <= blen bs -> (forall ix', ix < ix' <= blen bs -> runs ix' any_result rec) ->
  runs ix any_result (read_record_data P rec).
Proof.
  intros Hix Hrec. unfold read_record_data, read_record_component. eapply runs_bind; [apply run_u2|]. intros n i1 [-> _] L1.
  apply runs_for_n; [lia|]. intros j i2 L2. eapply runs_bind; [leaf|]. intros name i3 _ L3. eapply runs_bind; [leaf|]. intros _ i4 _ L4.
  eapply runs_bind; [leaf|]. intros d i5 _ L5. eapply runs_bind; [apply runs_pctx, Hrec; lia|]. intros; go.
Qed.
Lemma run_source_debug_extension i len ix : ix <= blen bs -> len < 2 ^ 32 -> ix + len <= blen bs \/ overflow_checks E = false /\ usize_max E < blen bs + 2 ^ 32 ->
  runs ix any_result (read_source_debug_extension E i len).
Proof.
  intros Hix Hlen Hb. unfold read_source_debug_extension. eapply runs_bind; [apply runs_get_bytes; lia|]. intros bs' i4 [-> ->] _.
  eapply runs_bind; [apply runs_get_ix; lia|]. intros ix' i4 [-> ->] _. eapply runs_bind; [apply run_add_len; [lia|exact Hlen]|]. intros e i4 [-> He] _.
  destruct (N.leb_spec ix e) as [H1|H1], (N.leb_spec e (blen bs)) as [H2|H2].
  1:{ eapply runs_bind; [apply run_slice; lia|]. intros w i4 (-> & _) _. eapply runs_bind; [apply runs_set_ix; lia|]. intros _ i4 -> L4. destruct (cesu8 E w); go. }
  all: unfold runs_at, bind, lift, slice; replace ((ix <=? e) && (e <=? blen bs)) with false by lia; cbn;
    assert (Hc : overflow_checks E = false /\ usize_max E < blen bs + 2 ^ 32) by (destruct He as [He|(? & ? & ? & ?)], Hb as [Hb|Hb]; auto; lia);
    destruct Hc as [Hc Hu]; specialize (HQ_index Hu); rewrite Hc in HQ_index; exact HQ_index.
Qed.
Lemma run_other_attribute len ix : ix <= blen bs -> len < 2 ^ 32 -> ix + len <= blen bs \/ overflow_checks E = false /\ usize_max E < blen bs + 2 ^ 32 ->
  runs ix any_result (read_other_attribute E len).
Proof.
  intros Hix Hlen Hb. unfold read_other_attribute. eapply runs_bind; [apply runs_get_bytes; lia|]. intros bs' i4 [-> ->] _.
  eapply runs_bind; [apply runs_get_ix; lia|]. intros ix' i4 [-> ->] _. eapply runs_bind; [apply run_add_len; [lia|exact Hlen]|]. intros e i4 [-> He] _.
  destruct He as [->|(Hc & Hu & He & He')].
  - destruct (N.leb_spec (ix + len) (blen bs)) as [H1|H1].
    + eapply runs_bind; [apply runs_set_ix; lia|]. intros _ i4 -> L4. unfold usize_sub. replace (len <=? ix + len) with true by lia.
      replace (ix + len - len) with ix by lia. unfold runs_at, bind, lift, slice. replace ((ix <=? ix + len) && (ix + len <=? blen bs)) with true by lia. cbn. repeat split; lia.
    + destruct Hb as [Hb|[Hc Hu]]; [lia|]. unfold runs_at, bind, lift, set_ix, usize_sub. replace (len <=? ix + len) with true by lia.
      replace (ix + len - len) with ix by lia. unfold slice. replace ((ix <=? ix + len) && (ix + len <=? blen bs)) with false by lia. cbn.
      specialize (HQ_index Hu); rewrite Hc in HQ_index; exact HQ_index.
  - unfold runs_at, bind, lift, set_ix, usize_sub. rewrite Hc. destruct (len <=? e) eqn:Hle; [lia|].
    replace (e + (usize_max E + 1) - len) with ix by lia. unfold slice. replace ((ix <=? e) && (e <=? blen bs)) with false by lia. cbn.
    specialize (HQ_index Hu); rewrite Hc in HQ_index; exact HQ_index.
Qed.
Lemma run_dispatch {A} ix (R : A -> N -> Prop) name cases d : Forall (fun sp => runs ix R (snd sp)) cases -> runs ix R d -> runs ix R (dispatch name cases d).
Proof. intros H Hd. induction H as [|[s q] l Hq _ IH]; cbn [dispatch]; auto. destruct (str_eqb name (lit s)); auto. Qed.
Lemma run_ensure_length ix a b : ix <= blen bs -> runs ix any_result (ensure_length a b).
Proof. intro H. unfold ensure_length. go. Qed.
Ltac big := first [ leaf | apply runs_pctx; big | apply run_ensure_length; lia
  | apply run_stackmaptable_data | apply run_exceptions_data | apply run_innerclasses_data | apply run_linenumber_data
  | apply run_localvariable_data | apply run_localvariabletype_data | apply run_bootstrapmethods_data | apply run_methodparameters_data
  | apply run_module_data | apply run_modulepackages_data | apply run_nestmembers_data | apply run_permitted_subclasses_data
  | apply run_annotation_data; [lia|eassumption] | apply run_parameter_annotation_data; [lia|eassumption] | apply run_type_annotation_data; [lia|eassumption]
  | apply run_element_value; [lia|eassumption] | apply run_code_data; [lia|eassumption] | apply run_record_data; [lia|eassumption] ].
Lemma run_attr_data rec stk name i len ix : ix <= blen bs -> len < 2 ^ 32 ->
  ix + len <= blen bs \/ overflow_checks E = false /\ usize_max E < blen bs + 2 ^ 32 ->
  deep ix stk -> (forall ix', ix < ix' <= blen bs -> runs ix' any_result rec) ->
  runs ix any_result (read_attr_data E P opts rec stk name i len).
Proof.
  intros Hix Hlen Hb Hd Hrec. unfold read_attr_data. apply run_dispatch.
  - repeat (apply Forall_cons || apply Forall_nil); cbn [snd].
    all: repeat first [apply runs_ret_any; lia | eapply runs_bind; [solve [big | apply run_source_debug_extension; assumption]|intros]].
  - eapply runs_bind; [apply run_other_attribute; assumption|]. intros; go.
Qed.
Lemma run_attribute rec stk i ix : ix <= blen bs -> deep ix stk -> (forall ix', ix < ix' <= blen bs -> runs ix' any_result rec) ->
  runs ix any_result (read_attribute E P opts rec stk i).
Proof.
  intros Hix Hd Hrec. unfold read_attribute. eapply runs_bind; [leaf|]. intros name i1 _ L1. eapply runs_bind; [apply run_u4|]. intros len i2 [H2 Hlen] L2.
  eapply runs_bind; [apply runs_get_bytes; lia|]. intros bs' i4 [-> ->] _.
  eapply runs_bind; [apply runs_get_ix; lia|]. intros ix' i4 [-> ->] _. eapply runs_bind; [apply run_add_len; [lia|exact Hlen]|]. intros e i4 [-> He] _.
  destruct (N.ltb_spec (blen bs) e) as [Hb|Hb]; [exact I|]. eapply runs_bind; [apply run_attr_data; [lia|exact Hlen| | |]|].
  - destruct He as [He|(Hc & Hu & _)]; [left; lia|right; auto].
  - eapply deep_mono; [|exact Hd]; lia.
  - intros; apply Hrec; lia.
  - intros d i4 _ L4. eapply runs_bind; [apply runs_get_ix; lia|]. intros ix' i5 [-> ->] _. go.
Qed.
Lemma run_attributes stk : forall ix, ix <= blen bs -> deep ix stk -> runs ix any_result (read_attributes E P opts stk).
Proof.
  induction stk as [|stk IH]; intros ix Hix Hd; cbn [read_attributes].
  { destruct Hd as [Hd|Hd]; [lia|exact Hd]. }
  eapply runs_bind; [apply run_u2|]. intros n i1 [-> _] L1. apply runs_for_n; [lia|]. intros j i2 L2. apply run_attribute; [lia| |].
  - destruct Hd as [Hd|Hd]; [left; lia|right; auto].
  - intros i3 L3. apply IH; [lia|]. destruct Hd as [Hd|Hd]; [left; lia|right; auto].
Qed.

(** ** lib.rs *)
Lemma run_class_name ix s : ix <= blen bs -> runs ix any_result (lift (class_name_try_from s)).
Proof. intro H. eapply run_lift; [exact H|apply ends_decides, class_name_try_from_spec]. Qed.
Lemma run_interfaces ix : runs ix any_result (read_interfaces P).
Proof.
  unfold read_interfaces. eapply runs_bind; [apply run_u2|]. intros n i1 [-> _] L1. apply runs_for_n; [lia|]. intros j i2 L2. apply runs_pctx.
  eapply runs_bind; [leaf|]. intros; apply run_class_name; lia.
Qed.
Lemma run_fields_loop n : forall ix i seen, ix <= blen bs -> deep ix (stack E) -> runs ix any_result (fields_loop E P opts n i seen).
Proof.
  induction n as [|n IH]; intros ix i seen Hix Hd; cbn [fields_loop]; [go|]. do 4 (eapply runs_bind; [leaf|intros]).
  eapply runs_bind; [eapply run_lift; [lia|apply ends_decides, parse_field_descriptor_0]|intros]. eapply runs_bind; [leaf|intros].
  eapply runs_bind; [apply runs_pctx, run_attributes; [lia|eapply deep_mono; [|exact Hd]; lia]|intros]. eapply runs_bind; [apply IH; [lia|eapply deep_mono; [|exact Hd]; lia]|intros]. go.
Qed.
Lemma run_methods_loop itf mj n : forall ix i seen, ix <= blen bs -> deep ix (stack E) -> runs ix any_result (methods_loop E P opts itf mj n i seen).
Proof.
  induction n as [|n IH]; intros ix i seen Hix Hd; cbn [methods_loop]; [go|]. do 3 (eapply runs_bind; [leaf|intros]).
  eapply runs_bind; [apply runs_pctx; eapply runs_bind; [leaf|intros; eapply run_lift; [lia|apply ends_decides, parse_method_descriptor_spec]]|intros].
  do 4 (eapply runs_bind; [leaf|intros]).
  eapply runs_bind; [apply runs_pctx, run_attributes; [lia|eapply deep_mono; [|exact Hd]; lia]|intros]. eapply runs_bind; [apply IH; [lia|eapply deep_mono; [|exact Hd]; lia]|intros]. go.
Qed.
Lemma ends_bootstrap_found x l : forall n, ends Q (fun _ => True) (bootstrap_found x l n).
Proof. induction l as [|a l IH]; intro n; cbn [bootstrap_found]; [exact I|]. destruct (attr_dat a); auto. destruct (N.of_nat (length l0) <=? x); [exact I|auto]. Qed.
Lemma ends_bootstrap es l : ends Q (fun _ => True) (validate_bootstrap_methods es l).
Proof.
  induction es as [|e es IH]; cbn [validate_bootstrap_methods]; [exact I|]. destruct e; auto; (eapply ends_bind; [apply ends_bootstrap_found|]; intros n _ _; destruct (negb (n =? 1)); [exact I|auto]).
Qed.
(** Everything after the constant pool. *)
Lemma run_body (k : N -> option str -> list str -> list field_info -> list method_info -> list attr_info -> str -> class_file) ix : ix <= blen bs -> deep ix (stack E) ->
  runs ix any_result (
    raw_flags <- read_u2 ;;
    let flags := from_bits_truncate class_flags raw_flags in
    let is_module := contains flags ACC_MODULE in
    _ <- check_module_flags is_module flags major ;;
    this <- read_this_class P ;;
    super <- read_super_class P ;;
    ifs <- read_interfaces P ;;
    fs <- read_fields E P opts ;;
    ms <- read_methods E P opts (contains flags ACC_INTERFACE) major ;;
    attributes <- pctx (lit "class") (read_attributes E P opts (stack E)) ;;
    bs <- get_bytes ;;
    ix <- get_ix ;;
    _ <- guard (ix =? blen bs)
           (lit "Extra bytes found at index " ++ show_N ix ++ lit " after reading class file") ;;
    _ <- check_module_contents is_module super ifs fs ms ;;
    _ <- lift (validate_bootstrap_methods P attributes) ;;
    ret (k flags super ifs fs ms attributes this)).
Proof.
  intros Hix Hd. eapply runs_bind; [leaf|intros fl i1 _ L1]. cbn zeta. eapply runs_bind with (R := any_result).
  { unfold check_module_flags. destruct (contains _ _); go. }
  intros _ i2 _ L2. eapply runs_bind with (R := any_result).
  { unfold read_this_class. apply runs_pctx. eapply runs_bind; [leaf|]. intros; apply run_class_name; lia. }
  intros this i3 _ L3. eapply runs_bind with (R := any_result).
  { unfold read_super_class. apply runs_pctx. eapply runs_bind; [leaf|]. intros [s|] i4 _ L4; [|go]. eapply runs_bind; [apply run_class_name; lia|intros; go]. }
  intros sup i4 _ L4. eapply runs_bind; [apply run_interfaces|]. intros ifs i5 _ L5. eapply runs_bind with (R := any_result).
  { unfold read_fields. eapply runs_bind; [leaf|intros]. apply run_fields_loop; [lia|eapply deep_mono; [|exact Hd]; lia]. }
  intros fs i6 _ L6. eapply runs_bind with (R := any_result).
  { unfold read_methods. eapply runs_bind; [leaf|intros]. apply run_methods_loop; [lia|eapply deep_mono; [|exact Hd]; lia]. }
  intros ms i7 _ L7. eapply runs_bind; [apply runs_pctx, run_attributes; [lia|eapply deep_mono; [|exact Hd]; lia]|]. intros ats i8 _ L8.
  eapply runs_bind; [apply runs_get_bytes; lia|]. intros bs' i9 [-> ->] _. eapply runs_bind; [apply runs_get_ix; lia|]. intros ix' i9 [-> ->] _.
  eapply runs_bind; [leaf|]. intros _ i9 _ L9. eapply runs_bind with (R := any_result).
  { unfold check_module_contents. destruct (contains _ _); [|go]. destruct sup; go. }
  intros _ i10 _ L10. eapply runs_bind; [eapply run_lift; [lia|apply ends_bootstrap]|]. intros; go.
Qed.
End Attributes.
