(** * Attribute contents without nested attribute tables *)
From Verif Require Import Base M_Names M_Descriptors M_ConstantPool M_Bytecode M_Attributes S_Lang S_Names S_Format
  P_Reads P_Tac P_Names P_Descriptors P_Pool P_Pool2 P_Pool3 P_Refs P_Insn P_Insn2 P_Bytecode.
From Coq Require Import ZifyBool ZifyNat ZifyN.

(** ** Flags *)
Lemma reads_flags_keep E named :
  reads E (n <- read_u2 ;; ret (from_bits_truncate named n)) (flags_keep named).
Proof.
  eapply reads_ext; [rd|]. intros f w. unfold flags_keep, from_bits_truncate. split.
  - intro H. fwd. eexists. split; [eassumption|]. intro bit. apply N.land_spec.
  - intros (n & Hn & H). exists n. apply cat_nil_r; auto. apply N.bits_inj. intro bit. rewrite H, N.land_spec. reflexivity.
Qed.
Lemma from_bits_iff named n f : from_bits named n = Some f <-> f = n /\ forall bit, N.testbit f bit = true -> N.testbit named bit = true.
Proof.
  unfold from_bits. destruct (N.eqb_spec (N.ldiff n named) 0) as [H|H].
  - split.
    + intros [= <-]. split; auto. intros bit Hb. assert (Hd : N.testbit (N.ldiff n named) bit = false) by (rewrite H; apply N.bits_0).
      rewrite N.ldiff_spec, Hb in Hd. destruct (N.testbit named bit); auto.
    + intros [-> _]. auto.
  - split; [discriminate|]. intros [-> Hb]. exfalso. apply H. apply N.bits_inj. intro bit. rewrite N.ldiff_spec, N.bits_0.
    specialize (Hb bit). destruct (N.testbit n bit); auto. rewrite Hb; auto.
Qed.
Lemma reads_exact_flags E named e : reads E (read_exact_flags named e) (flags_exact named).
Proof.
  unfold read_exact_flags. eapply reads_ext.
  - eapply reads_bind; [apply reads_u2|]. intros n _. instantiate (1 := fun n f => only_if (from_bits named n = Some f)).
    destruct (from_bits named n) as [f|] eqn:Hf.
    + eapply reads_ext; [apply reads_ret|]. intros a w. unfold only_if. split; intros [H1 H2]; split; congruence.
    + eapply reads_ext; [apply reads_lift|]. intros a w. unfold only_if. split; intros [H1 H2]; congruence.
  - intros f w. unfold flags_exact. split.
    + intro H. fwd. apply from_bits_iff in H. destruct H as [-> H]. auto.
    + intros [H1 H2]. exists f. apply cat_nil_r; auto. apply from_bits_iff. auto.
Qed.

(** Conditions on what a reference denotes *)
Lemma ref_that {A} (R : N -> A -> Prop) (Q : A -> Prop) a w : ref (that R Q) a w <-> ref R a w /\ Q a.
Proof.
  unfold ref, any, that. split.
  - intros (i & Hi & H1 & H2). split; eauto.
  - intros [(i & Hi & H1) H2]. eauto.
Qed.

(** Taking records apart and putting them together. *)
Ltac fields := cbn [ex_start_pc ex_end_pc ex_handler_pc ex_catch_type ic_inner_class_info ic_outer_class_info ic_inner_name
  ic_access_flags ln_start_pc ln_line_number lv_start_pc lv_length lv_name lv_descriptor lv_index lvt_start_pc lvt_length
  lvt_name lvt_signature lvt_index ann_type ann_elements lt_start_pc lt_length lt_index pe_kind pe_argument_index
  ta_target_type ta_target_path ta_annotation bm_method bm_arguments mp_name mp_access_flags rq_name rq_flags rq_version
  xp_package_name xp_flags xp_exports_to op_package_name op_flags op_opens_to pv_service_interface_name pv_provides_with
  md_name md_access_flags md_version md_requires md_exports md_opens md_uses md_provides
  rc_name rc_descriptor rc_attributes cd_max_stack cd_max_locals cd_code cd_bytecode cd_exception_table cd_attributes
  attr_name attr_dat fst snd] in *.
Ltac both := intros ? ?; split; intro; fwd; fields; fwd; bwd.
Ltac iff_true := match goal with |- context [if ?b then _ else _] => replace b with true by lia end.
Ltac iff_false := match goal with |- context [if ?b then _ else _] => replace b with false by lia end.

Section WithEnv.
Variable E : env.
Variable cs : list constant.
Notation dec := (cesu8 E).
Notation wraps := (negb (overflow_checks E)).
Notation sl := (slots_of cs).
Notation P := (pool_of dec sl).

#[local] Hint Resolve reads_cp_utf8 reads_cp_utf8_opt reads_cp_classinfo reads_cp_classinfo_opt reads_cp_moduleinfo
  reads_cp_packageinfo reads_cp_nameandtype_opt reads_cp_literalconstant reads_cp_integer reads_cp_float reads_cp_long
  reads_cp_double reads_cp_methodhandle reads_cp_bootstrap_argument reads_exact_flags : reads.

Lemma reads_unqualified {A} c m (k : str -> parser A) M : (forall n, reads E (k n) (M n)) ->
  reads E (name <- pctx c (read_cp_utf8 P) ;; _ <- guard (is_unqualified_name name) m ;; k name)
    (fun a w => exists name, (ref (that (utf8_at dec sl) unqualified) name +++ M name a) w).
Proof.
  intro Hk. eapply reads_ext.
  - eapply reads_bind; [eapply reads_pctx; apply reads_cp_utf8|]. intros n _. eapply reads_guard_bind. intros _. apply Hk.
  - intros a w. split.
    + intros (n & u & v & -> & Hu & Hb & Hv). exists n. apply cat_intro; auto. apply ref_that. split; auto.
      apply is_unqualified_name_iff; auto.
    + intros (n & u & v & -> & Hu & Hv). apply ref_that in Hu. destruct Hu as [Hu Hn]. exists n. apply cat_intro; auto.
      split; auto. apply is_unqualified_name_iff; auto.
Qed.

Lemma reads_cp_field_descriptor : reads E (read_cp_field_descriptor P) (ref (field_desc_at dec sl)).
Proof.
  unfold read_cp_field_descriptor. eapply reads_ext; [rd|]. intros d w. unfold ref, any, field_desc_at. split.
  - intro H. fwd. exists x0. split; auto. exists x. split; auto. apply (decides_iff _ _ (parse_field_descriptor_0 _)) in H. exact H.
  - intros (i & Hi & s & Hs & Hd). exists s. apply cat_nil_r; [exists i; auto|].
    apply (decides_iff _ _ (parse_field_descriptor_0 _)). exact Hd.
Qed.

Lemma reads_exception_entry i : reads E (read_exception_entry P i) (exception_lang dec sl).
Proof.
  unfold read_exception_entry, exception_lang. eapply reads_ext; [rd|]. both. destruct a. fields. bwd.
Qed.
#[local] Hint Resolve reads_cp_field_descriptor reads_exception_entry : reads.

Lemma reads_verification : reads E (read_verification P) (verification_lang dec sl).
Proof.
  unfold read_verification. apply reads_tagged.
  - intro b. destruct b; cbn [Byte.to_N]; (eexists; split; [rd|]); intros op w H; fwd; cbn [verification_lang];
    first [apply u1_byte; reflexivity | apply u1_cons_intro; [reflexivity|assumption]].
  - intros v w H. destruct v; cbn [verification_lang] in H;
    lazymatch type of H with
    | u1 _ _ => apply (cat_nil_r _ True) in H; [|exact I]
    | _ => idtac
    end;
    apply u1_cons_byte in H; destruct H as (b & w' & -> & Hb & H); exists b, w'; (split; [reflexivity|]);
    vm_compute in Hb; injection Hb as <-; cbn [Byte.to_N]; (eexists; split; [rd|]); cbn beta.
    all: try (destruct H as [-> _]; split; reflexivity).
    all: eexists; apply cat_nil_r; [eassumption|reflexivity].
Qed.
#[local] Hint Resolve reads_verification : reads.

Lemma reads_line_number : reads E read_line_number line_number_lang.
Proof. unfold read_line_number, line_number_lang. eapply reads_ext; [rd|]. both. destruct a. fields. bwd. Qed.
Lemma reads_local_variable i : reads E (read_local_variable P i) (local_variable_lang dec sl).
Proof.
  unfold read_local_variable, local_variable_lang. eapply reads_ext.
  - eapply reads_bind; [rd|]. intros ? _. eapply reads_bind; [rd|]. intros ? _.
    eapply reads_unqualified. intro. rd.
  - both. destruct a. fields. bwd.
Qed.
Lemma reads_local_variable_type i : reads E (read_local_variable_type P i) (local_variable_type_lang dec sl).
Proof.
  unfold read_local_variable_type, local_variable_type_lang. eapply reads_ext.
  - eapply reads_bind; [rd|]. intros ? _. eapply reads_bind; [rd|]. intros ? _.
    eapply reads_unqualified. intro. rd.
  - both. destruct a. fields. bwd.
Qed.
Lemma reads_inner_class i : reads E (read_inner_class P i) (inner_class_lang dec sl).
Proof.
  unfold read_inner_class, inner_class_lang. eapply reads_ext.
  - do 3 (eapply reads_bind; [rd|]; intros ? _).
    instantiate (1 := fun n e => fun w => exists f, flags_keep inner_class_bits f w /\ e = mk_ic a a0 n f).
    eapply reads_ext; [rd|]. intros e w. unfold flags_keep, from_bits_truncate. split.
    + intro H. fwd. eexists. split; [|reflexivity]. eexists. split; [eassumption|]. intro bit. apply N.land_spec.
    + intros (f & (n & Hn & H) & ->). exists n. apply cat_nil_r; auto. f_equal. apply N.bits_inj. intro bit.
      rewrite H, N.land_spec. reflexivity.
  - both. destruct a. fields. bwd.
Qed.
Lemma reads_local_var_target : reads E read_local_var_target local_var_target_lang.
Proof. unfold read_local_var_target, local_var_target_lang. eapply reads_ext; [rd|]. both. destruct a. fields. bwd. Qed.
Lemma reads_bootstrap_method i : reads E (read_bootstrap_method P i) (bootstrap_method_lang dec sl).
Proof. unfold read_bootstrap_method, bootstrap_method_lang. eapply reads_ext; [rd|]. both. destruct a. fields. bwd. Qed.
Lemma reads_module_require i : reads E (read_module_require P i) (require_lang dec sl).
Proof. unfold read_module_require, require_lang. eapply reads_ext; [rd|]. both. destruct a. fields. bwd. Qed.
Lemma reads_module_export i : reads E (read_module_export P i) (export_lang dec sl).
Proof. unfold read_module_export, export_lang. eapply reads_ext; [rd|]. both. destruct a. fields. bwd. Qed.
Lemma reads_module_open i : reads E (read_module_open P i) (open_lang dec sl).
Proof. unfold read_module_open, open_lang. eapply reads_ext; [rd|]. both. destruct a. fields. bwd. Qed.
Lemma reads_module_provide i : reads E (read_module_provide P i) (provide_lang dec sl).
Proof. unfold read_module_provide, provide_lang. eapply reads_ext; [rd|]. both. destruct a. fields. bwd. Qed.
#[local] Hint Resolve reads_line_number reads_local_variable reads_local_variable_type reads_inner_class
  reads_local_var_target reads_bootstrap_method reads_module_require reads_module_export reads_module_open
  reads_module_provide : reads.
Lemma reads_module_data : reads E (read_module_data P) (module_lang dec sl).
Proof. unfold read_module_data, module_lang. eapply reads_ext; [rd|]. both. destruct a. fields. bwd. Qed.
Lemma reads_method_parameter i : reads E (read_method_parameter P i) (method_parameter_lang dec sl).
Proof.
  unfold read_method_parameter, method_parameter_lang. eapply reads_ext; [rd|]. intros a w. split; intro H; fwd; fields.
  - apply cat_intro; [|assumption]. destruct x as [n|]; cbn [opt_ref] in *; auto. apply ref_that. split; auto.
    apply is_unqualified_name_iff; auto.
  - destruct a as [n f]. fields. exists n. apply cat_intro.
    + destruct n as [n|]; cbn [opt_ref] in *; auto. apply ref_that in H0. tauto.
    + split; [destruct n as [n|]; auto; cbn [opt_ref] in *; apply ref_that in H0; apply is_unqualified_name_iff; tauto|].
      eexists. apply cat_nil_r; [eassumption|reflexivity].
Qed.

Lemma reads_if {A} (b : bool) (p q : parser A) L M : reads E p L -> reads E q M ->
  reads E (if b then p else q) (if b then L else M).
Proof. destruct b; auto. Qed.
Lemma u1_lt n w : u1 n w -> n < 256.
Proof. intro H. apply uint_bound in H. exact H. Qed.

Lemma reads_stack_map_entry i : reads E (read_stack_map_entry P i) (stack_map_lang dec sl).
Proof.
  unfold read_stack_map_entry. eapply reads_ext.
  - eapply reads_bind; [apply reads_u1|]. intros v _.
    apply reads_if; [rd|]. apply reads_if; [rd|]. apply reads_if; [rd|]. apply reads_if; [rd|].
    apply reads_if; [rd|]. apply reads_if; [rd|]. apply reads_if; [rd|]. rd.
  - intros a w. split.
    + intros (v & u & w' & -> & Hv & H). pose proof (u1_lt _ _ Hv).
      destruct (N.leb_spec v 63).
      { fwd. left. apply cat_nil_r; auto. }
      destruct (N.leb_spec v 127).
      { fwd. left. apply cat_intro; [replace (64 + (v - 64)) with v by lia; auto|]. apply cat_nil_l; auto. lia. }
      destruct (N.leb_spec v 246); [destruct H|].
      destruct (N.eqb_spec v 247) as [->|].
      { fwd. right. apply cat_intro; auto. apply cat_intro; auto. }
      destruct (N.leb_spec v 250).
      { fwd. cbn [stack_map_lang]. apply cat_nil_l; [lia|]. replace (251 - (251 - v)) with v by lia. apply cat_intro; auto. }
      destruct (N.eqb_spec v 251) as [->|].
      { fwd. right. apply cat_intro; auto. }
      destruct (N.leb_spec v 254).
      { fwd. cbn [stack_map_lang]. apply cat_nil_l; [lia|].
        replace (251 + N.of_nat (length x0)) with v by lia. apply cat_intro; auto. apply cat_intro; auto. }
      { assert (v = 255) as -> by lia. fwd. cbn [stack_map_lang]. bwd. }
    + intro H. destruct a; cbn [stack_map_lang] in H; fwd.
      * exists offset_delta. rewrite <- (app_nil_r u). apply cat_intro; auto. iff_true. split; auto.
      * exists 251. apply cat_intro; auto. do 6 (iff_false; cbv iota) || idtac. cbn. eexists. apply cat_nil_r; eauto.
      * exists (64 + offset_delta). apply cat_intro; auto. iff_false. iff_true. eexists. apply cat_nil_r; eauto. f_equal. lia.
      * exists 247. apply cat_intro; auto. cbn. eexists. apply cat_intro; eauto. eexists. apply cat_nil_r; eauto.
      * eexists. apply cat_intro; [eassumption|]. do 4 iff_false. iff_true. eexists. apply cat_nil_r; eauto. f_equal. lia.
      * eexists. apply cat_intro; [eassumption|]. do 6 iff_false. iff_true. eexists. apply cat_intro; [eassumption|].
        eexists. apply cat_nil_r; [|reflexivity]. split; [lia|assumption].
      * eexists. apply cat_intro; [eassumption|]. cbn. eexists. apply cat_intro; [eassumption|].
        eexists. apply cat_intro; [eassumption|]. eexists. apply cat_nil_r; [eassumption|]. reflexivity.
Qed.

Fixpoint cases_from (a : N) (k : nat) (n : N) : Prop :=
  match k with O => False | S k' => n = a \/ cases_from (a + 1) k' n end.
Lemma range_cases a b n : a <= n <= b -> cases_from a (N.to_nat (b - a + 1)) n.
Proof.
  intro H. assert (Hg : forall k a, a <= n -> n < a + N.of_nat k -> cases_from a k n).
  { induction k as [|k IH]; intros a' H1 H2; [lia|]. cbn. destruct (N.eq_dec n a'); [left; auto|right]. apply IH; lia. }
  apply Hg; lia.
Qed.
Lemma cat_any {X} (L : X -> lang) Q M w : (any L Q +++ M) w -> exists n, Q n /\ (L n +++ M) w.
Proof. intros (u & v & -> & (n & Hn & HQ) & Hv). exists n. split; auto. apply cat_intro; auto. Qed.

Lemma reads_type_annotation_target i : reads E (read_type_annotation_target i) target_lang.
Proof.
  unfold read_type_annotation_target. apply reads_tagged.
  - intro b. destruct b; cbn [Byte.to_N]; (eexists; split; [rd|]); intros t w H; fwd; cbn [target_lang];
    unfold between;
    first [ apply u1_cons_intro; [reflexivity|]; first [assumption | apply cat_intro; assumption]
          | change (?b :: ?w) with ([b] ++ w); apply cat_intro;
            [eexists; split; [apply u1_byte; reflexivity|cbn; lia]|]; first [assumption | apply cat_intro; assumption]
          | eexists; split; [apply u1_byte; reflexivity|cbn; lia] ].
  - intros t w H. destruct t; cbn [target_lang] in H; unfold between in H;
    lazymatch type of H with
    | (any _ _ +++ _) _ => apply cat_any in H; destruct H as (n & Hn & H)
    | (u1 ?n +++ _) _ => idtac
    | any _ _ _ => destruct H as (n & H & Hn); apply (cat_nil_r _ True) in H; [|exact I]
    end;
    try (apply range_cases in Hn; cbn [N.to_nat Pos.to_nat Pos.iter_op Nat.add N.sub Pos.sub Pos.sub_mask Pos.pred_double
      Pos.double_mask Pos.succ_double_mask Pos.double_pred_mask Pos.pred_mask cases_from] in Hn;
      repeat (destruct Hn as [Hn|Hn]); try contradiction; vm_compute in Hn; subst n);
    apply u1_cons_byte in H; destruct H as (b & w' & -> & Hb & H); exists b, w'; (split; [reflexivity|]);
    vm_compute in Hb; injection Hb as <-; cbn [Byte.to_N]; (eexists; split; [rd|]); cbn beta.
    all: try (destruct H as [-> _]; split; reflexivity).
    all: fwd; bwd.
Qed.

Lemma reads_path_entry i j : reads E (read_path_entry i j) path_lang.
Proof.
  unfold read_path_entry. apply reads_tagged.
  - intro b. destruct b; cbn [Byte.to_N]; (eexists; split; [rd|]); intros t w H; fwd; unfold path_lang; cbn [pe_kind pe_argument_index path_code];
    apply u1_cons_intro; [reflexivity|assumption| reflexivity|assumption| reflexivity|assumption| reflexivity|assumption].
  - intros [k a] w H. unfold path_lang in H. cbn [pe_kind pe_argument_index] in H. destruct k; cbn [path_code] in H;
    apply u1_cons_byte in H; destruct H as (b & w' & -> & Hb & H); exists b, w'; (split; [reflexivity|]);
    vm_compute in Hb; injection Hb as <-; cbn [Byte.to_N]; (eexists; split; [rd|]); cbn beta;
    eexists; apply cat_nil_l; try reflexivity; eexists; (apply cat_nil_r; [eassumption|reflexivity]).
Qed.

(** ** Annotations *)

Lemma reads_annotation_with rec V : reads E rec V -> reads E (read_annotation_with P rec) (annotation_with dec sl V).
Proof.
  intro Hrec. unfold read_annotation_with, annotation_with. eapply reads_ext.
  - eapply reads_bind; [rd|]. intros ? _. eapply reads_table_bind; [rd| |intro; rd]. intro.
    instantiate (1 := fun nv : str * element_value => ref (utf8_at dec sl) (fst nv) +++ V (snd nv)). 
    eapply reads_ext; [rd; exact Hrec|]. both. destruct a0. fields. bwd.
  - both. destruct a. fields. bwd.
Qed.
End WithEnv.
