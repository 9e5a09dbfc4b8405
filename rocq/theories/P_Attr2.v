(** * Annotations, code, records, attribute tables *)
From Verif Require Import Base M_Names M_Descriptors M_ConstantPool M_Bytecode M_Attributes S_Lang S_Names S_Format
  P_Reads P_Tac P_Names P_Descriptors P_Pool P_Pool2 P_Pool3 P_Refs P_Insn P_Insn2 P_Bytecode P_Attributes.
From Coq Require Import ZifyBool ZifyNat ZifyN.

Section WithEnv.
Variable E : env.
Variable cs : list constant.
Notation dec := (cesu8 E).
Notation wraps := (negb (overflow_checks E)).
Notation sl := (slots_of cs).
Notation P := (pool_of dec sl).

#[local] Hint Resolve reads_cp_utf8 reads_cp_utf8_opt reads_cp_classinfo reads_cp_classinfo_opt reads_cp_moduleinfo
  reads_cp_packageinfo reads_cp_nameandtype_opt reads_cp_literalconstant reads_cp_integer reads_cp_float reads_cp_long
  reads_cp_double reads_cp_methodhandle reads_cp_bootstrap_argument reads_exact_flags
  reads_cp_field_descriptor reads_exception_entry reads_line_number reads_local_variable reads_local_variable_type reads_inner_class
  reads_local_var_target reads_bootstrap_method reads_module_require reads_module_export reads_module_open
  reads_module_provide reads_module_data reads_method_parameter reads_stack_map_entry reads_type_annotation_target
  reads_path_entry : reads.

Lemma reads_class_value : reads E (class_name <- read_cp_utf8 P ;; ok <- lift (is_return_descriptor class_name) ;;
    _ <- guard ok (lit "Invalid classinfo descriptor") ;; ret (EvClass class_name))
  (fun v w => exists s, v = EvClass s /\ ref (that (utf8_at dec sl) return_descriptor) s w).
Proof.
  eapply reads_ext; [rd|]. intros v w. split.
  - intro H. fwd. exists x. split; auto. apply ref_that. split; auto.
    destruct (is_return_descriptor_spec x) as (b & Hb & Hs). apply Hs. congruence.
  - intros (s & -> & H). apply ref_that in H. destruct H as [H1 H2].
    destruct (is_return_descriptor_spec s) as (b & Hb & Hs). apply Hs in H2.
    exists s. rewrite <- (app_nil_r w). apply cat_intro; auto. exists b. split; auto. split; auto. split; auto.
Qed.

Ltac eval_if := repeat match goal with |- context [if ?c then _ else _] =>
  let c' := eval vm_compute in c in change c with c'; cbv iota end.

Lemma reads_element_with rec V : reads E rec V -> reads E (read_element_value_with P rec) (element_with dec sl V).
Proof.
  intro Hrec. unfold read_element_value_with. eapply reads_ext.
  - eapply reads_bind; [apply reads_u1|]. intros v _.
    do 10 (apply reads_if; [rd|]). apply reads_if; [apply reads_class_value|].
    apply reads_if; [eapply reads_bind; [apply reads_annotation_with; exact Hrec|intros; rd]|].
    apply reads_if; [eapply reads_table_bind; [rd|intro; eapply reads_pctx; exact Hrec|intro; rd]|]. rd.
  - intros a w. split.
    + intros (v & u & w' & -> & Hv & H).
      repeat match type of H with
      | (if ?x =? ?y then _ else _) _ _ => destruct (N.eqb_spec x y) as [->|?];
          [fwd; cbn [element_with]; first [apply cat_intro; assumption | apply cat_intro; [assumption|apply cat_intro; assumption]]|]
      end.
      destruct H.
    + intro H. destruct a; cbn [element_with] in H; destruct H as (u & v' & -> & Hu & H);
      (eexists; apply cat_intro; [exact Hu|]); eval_if.
      all: try (eexists; apply cat_nil_r; [exact H|reflexivity]).
      * fwd. bwd.
      * eexists; split; [reflexivity|exact H].
Qed.
Lemma reads_element stk : reads E (read_element_value P stk) (element_lang dec sl stk).
Proof.
  induction stk as [|stk IH]; cbn [read_element_value element_lang].
  - apply reads_never. discriminate.
  - apply reads_element_with. exact IH.
Qed.
Lemma reads_annotation stk : reads E (read_annotation P stk) (annotation_lang dec sl stk).
Proof. apply reads_annotation_with, reads_element. Qed.
#[local] Hint Resolve reads_element reads_annotation : reads.

Lemma reads_type_annotation stk i : reads E (read_type_annotation P stk i) (type_annotation_lang dec sl stk).
Proof. unfold read_type_annotation, type_annotation_lang. eapply reads_ext; [rd|]. both. destruct a. fields. bwd. Qed.
#[local] Hint Resolve reads_type_annotation : reads.

(** ** Code and records *)
Section Nested.
Variable pb : bool.
Variable rec : parser (list attr_info).
Variable A : list attr_info -> lang.
Hypothesis Hrec : reads E rec A.
#[local] Hint Resolve Hrec : reads.

Lemma reads_record_component i : reads E (read_record_component P rec i) (record_component_lang dec sl A).
Proof.
  unfold read_record_component, record_component_lang. eapply reads_ext.
  - eapply reads_unqualified. intro. rd.
  - both. destruct a. fields. bwd.
Qed.

Lemma fits_sub pre w post : fits E (pre ++ w ++ post) -> fits E w.
Proof. intros [H1 H2 H3]. rewrite !blen_app in *. constructor; auto; lia. Qed.
Lemma reads_ext_fits {B} (p : parser B) L M : reads E p L -> (forall a w, fits E w -> (L a w <-> M a w)) -> reads E p M.
Proof.
  intros H HLM ix bs a ix' Hfit Hix. rewrite (H ix bs a ix' Hfit Hix). unfold span.
  split; intros (pre & w & post & -> & H1 & H2 & H3); exists pre, w, post; repeat split; auto;
  apply HLM; auto; eapply fits_sub; eauto.
Qed.

Lemma reads_code_data : reads E (read_code_data E P pb rec) (code_lang dec sl wraps pb A).
Proof.
  unfold read_code_data. eapply reads_ext_fits.
  - eapply reads_bind; [rd|]. intros ? _. eapply reads_bind; [rd|]. intros ? _. eapply reads_bind; [rd|].
    intros len (w & Hlen). assert (len < 2 ^ 32) by (apply uint_bound in Hlen; exact Hlen).
    apply (reads_take E len (fun ix => lit "Unexpected end of stream reading code attribute at index " ++ show_N ix)); auto.
    intro code. eapply reads_table_bind; [rd|intro; rd|]. intro ex. eapply reads_bind; [rd|]. intros at' _.
    instantiate (1 := fun at' c => only_if (exists bc, c = mk_code a a0 code bc ex at' /\
      match bc with Some b => pb = true /\ bytecode_from E code P = Ok b | None => pb = false end)).
    destruct pb.
    + eapply reads_ext; [rd|]. intros c w'. split.
      * intro H1. fwd. split; auto. eexists. split; [reflexivity|]. cbn; auto.
      * intros (-> & [b|] & -> & H1); [|discriminate]. exists (Some b).
        destruct H1 as [_ H1]. exists [], []. split; auto. split; [|split; reflexivity].
        exists b, [], []. repeat split; auto.
    + eapply reads_ext; [rd|]. intros c w'. split.
      * intro H1. fwd. split; auto. eexists. split; [reflexivity|]. reflexivity.
      * intros (-> & [b|] & -> & H1); [destruct H1; discriminate|]. exists None. apply cat_nil_l; auto. split; auto.
  - intros c w Hfit. unfold code_lang. split; intro H.
    + fwd. fields. rewrite !app_assoc. repeat rewrite <- app_assoc.
      apply cat_intro; auto. apply cat_intro; auto.
      unfold blen in *. subst. apply cat_intro; auto. apply cat_intro; [reflexivity|].
      apply cat_intro; auto. apply cat_nil_r; auto.
      match goal with Hb : match ?o with Some _ => _ | None => _ end |- _ => destruct o as [bc|]; auto; destruct Hb as [Hp Hb]; split; auto end.
      apply bytecode_from_Ok; auto.
      apply (fits_sub (u ++ u0 ++ u1) x2 (u2 ++ u3)); rewrite <- !app_assoc; exact Hfit.
    + destruct c as [ms ml code bc ex at']. fields.
      destruct H as (w1 & r & -> & H1 & w2 & r2 & -> & H2 & w3 & r3 & -> & H3 & w4 & r4 & -> & H4 & w5 & r5 & -> & H5 & w6 & r6 & -> & H6 & -> & H7).
      assert (Hc : fits E code).
      { apply (fits_sub (w1 ++ w2 ++ w3) code (w5 ++ w6 ++ [])). red in H4. subst w4. rewrite <- !app_assoc. exact Hfit. }
      exists ms. apply cat_intro; auto. exists ml. apply cat_intro; auto. eexists. apply cat_intro; [exact H3|].
      exists code. apply cat_intro; [split; [exact H4|reflexivity]|]. exists ex. apply cat_intro; auto.
      exists at'. apply cat_intro; auto. split; auto. exists bc. split; auto. destruct bc as [bc|]; auto.
      destruct H7 as [H7 H8]. split; auto. apply bytecode_from_Ok; auto.
Qed.
End Nested.
End WithEnv.
