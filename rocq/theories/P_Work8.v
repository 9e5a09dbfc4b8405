(** * Running time: attributes *)
From Verif Require Import Base M_Names M_Descriptors M_ConstantPool M_Bytecode M_Attributes S_Lang P_Reads P_Descriptors
  W_Base W_Descriptors W_ConstantPool W_Bytecode W_Attributes P_Work P_Work2 P_Work3 P_Work4 P_Work5 P_Work6 P_Work7.
From Coq Require Import ZifyBool ZifyNat ZifyN.
Local Open Scope Z_scope.

Section Attributes.
Variable E : env.
Variable p : pool.
Hypothesis Hp : modest p.
Notation B := 1048576.
Local Notation sp := (spends E B).
Lemma HB16a : 524288 <= B. Proof. lia. Qed.
Lemma HB16b : 0 <= B. Proof. lia. Qed.
Hint Resolve HB16a HB16b : sp.
Definition any {A} (a : A) : Prop := True.
Ltac leaf := first [exact I | assumption | solve [eauto 2]].
Ltac step := match goal with
    | |- spends _ _ _ _ _ (match ?x with _ => _ end) => destruct x
    | |- spends _ _ _ _ _ (wret _) => apply sp_ret; [leaf|slia]
    | |- spends _ _ _ _ _ (wfail _) => apply sp_fail; lia
    | |- spends _ _ _ _ _ (wfail_at _) => apply sp_fail_at; lia
    | |- spends _ _ _ _ _ (if _ then _ else _) => apply sp_if; intros _
    | |- spends _ _ _ _ _ (let _ := _ in _) => cbv zeta
    | |- spends _ _ _ _ _ (wbind (wfor_n _ _) _) => eapply (sp_use E B _ 16 (fun _ => 16)); [apply (sp_for E B 16 any); [intro|lia]|slia|intros ? _; cbv beta]
    | |- spends _ _ _ _ _ (wfor_n _ _) => eapply (sp_weaken E B 16 _ (fun _ => 16)); [apply (sp_for E B 16 any); [intro|lia]|slia|intros ? _; split; [leaf|slia]]
    | |- spends _ _ _ _ _ (wbind (match _ with _ => _ end) _) => eapply (sp_use E B _ 8 (fun _ => 8) any); [|slia|intros ? _; cbv beta in *]
    | |- spends _ _ _ _ _ (wbind _ _) => eapply sp_use; [sp_call|slia|intros ? ?; cbv beta in *]
    | |- spends _ _ _ _ _ (wctx _ (wfail _)) => eapply (sp_weaken E B (1 + 1)); [apply (sp_ctx E B 1 (fun _ => 1000) any), sp_fail; lia|slia|intros ? ?; split; [leaf|slia]]
    | |- spends _ _ _ _ _ (wctx _ _) => eapply sp_weaken; [sp_call|slia|intros ? ?; split; [leaf|slia]]
    | |- spends _ _ _ _ _ _ => eapply sp_weaken; [sp_call|slia|intros ? ?; split; [leaf|slia]]
    end.
(** Every part of an attribute needs 8 steps in hand and leaves 64. *)
Notation part m := (sp 8 (fun _ => 64) any m).
Lemma sp_ensure_length l e : sp 8 (fun _ => 7) any (w_ensure_length l e).
Proof. unfold w_ensure_length. repeat step. Qed.
Lemma sp_field_descriptor : sp 4 (fun _ => 64) (fun d => (field_desc_byte_len d <= 65535)%N) (w_field_descriptor p).
Proof. unfold w_field_descriptor. repeat step. Qed.
Lemma sp_exact_flags all e : part (w_exact_flags all e).
Proof. unfold w_exact_flags. repeat step. Qed.
Hint Resolve sp_ensure_length sp_field_descriptor sp_exact_flags : sp.
Lemma sp_exception_entry i : part (w_exception_entry p i).
Proof. unfold w_exception_entry. repeat step. Qed.
Lemma sp_verification : part (w_verification p).
Proof. unfold w_verification. repeat step. Qed.
Hint Resolve sp_exception_entry sp_verification : sp.
Lemma sp_stack_map_entry i : part (w_stack_map_entry p i).
Proof. unfold w_stack_map_entry. repeat step. Qed.
Hint Resolve sp_stack_map_entry : sp.
Lemma sp_stackmaptable : part (w_stackmaptable_data p).
Proof. unfold w_stackmaptable_data. repeat step. Qed.
Lemma sp_exceptions : part (w_exceptions_data p).
Proof. unfold w_exceptions_data. repeat step. Qed.
Lemma sp_inner_class i : part (w_inner_class p i).
Proof. unfold w_inner_class. repeat step. Qed.
Hint Resolve sp_inner_class : sp.
Lemma sp_innerclasses : part (w_innerclasses_data p).
Proof. unfold w_innerclasses_data. repeat step. Qed.
Lemma sp_line_number : part w_line_number.
Proof. unfold w_line_number. repeat step. Qed.
Hint Resolve sp_line_number : sp.
Lemma sp_linenumber : part w_linenumber_data.
Proof. unfold w_linenumber_data. repeat step. Qed.
Lemma sp_local_variable i : part (w_local_variable p i).
Proof. unfold w_local_variable. repeat step. Qed.
Lemma sp_local_variable_type i : part (w_local_variable_type p i).
Proof. unfold w_local_variable_type. repeat step. Qed.
Hint Resolve sp_local_variable sp_local_variable_type : sp.
Lemma sp_localvariable : part (w_localvariable_data p).
Proof. unfold w_localvariable_data. repeat step. Qed.
Lemma sp_localvariabletype : part (w_localvariabletype_data p).
Proof. unfold w_localvariabletype_data. repeat step. Qed.
(** *** Annotations *)
Lemma sp_annotation_with rec : part rec -> part (w_annotation_with p rec).
Proof. intro Hrec. unfold w_annotation_with. repeat step. Qed.
Hint Resolve sp_annotation_with : sp.
Lemma sp_element_value_with rec : part rec -> part (w_element_value_with p rec).
Proof. intro Hrec. unfold w_element_value_with. repeat step. Qed.
Lemma sp_element_value stk : part (w_element_value p stk).
Proof. induction stk as [|stk IH]; cbn [w_element_value]; [apply sp_overflow; lia|]. apply sp_element_value_with, IH. Qed.
Lemma sp_annotation stk : part (w_annotation p stk).
Proof. apply sp_annotation_with, sp_element_value. Qed.
Hint Resolve sp_element_value sp_annotation : sp.
Lemma sp_annotation_data stk : part (w_annotation_data p stk).
Proof. unfold w_annotation_data. repeat step. Qed.
Lemma sp_parameter_annotation stk : part (w_parameter_annotation_data p stk).
Proof. unfold w_parameter_annotation_data. repeat step. Qed.
Lemma sp_local_var_target : part w_local_var_target.
Proof. unfold w_local_var_target. repeat step. Qed.
Hint Resolve sp_local_var_target : sp.
Lemma sp_type_annotation_target i : part (w_type_annotation_target i).
Proof. unfold w_type_annotation_target. repeat step. Qed.
Lemma sp_path_entry i j : part (w_path_entry i j).
Proof. unfold w_path_entry. repeat step. Qed.
Hint Resolve sp_type_annotation_target sp_path_entry : sp.
Lemma sp_type_annotation stk i : part (w_type_annotation p stk i).
Proof. unfold w_type_annotation. repeat step. Qed.
Hint Resolve sp_type_annotation : sp.
Lemma sp_type_annotation_data stk : part (w_type_annotation_data p stk).
Proof. unfold w_type_annotation_data. repeat step. Qed.
(** *** Bootstrap methods, method parameters, modules *)
Lemma sp_bootstrap_method i : part (w_bootstrap_method p i).
Proof. unfold w_bootstrap_method. repeat step. Qed.
Hint Resolve sp_bootstrap_method : sp.
Lemma sp_bootstrapmethods : part (w_bootstrapmethods_data p).
Proof. unfold w_bootstrapmethods_data. repeat step. Qed.
Lemma sp_method_parameter i : part (w_method_parameter p i).
Proof.
  unfold w_method_parameter. step. eapply (sp_use E B _ 65536 (fun _ => 0) any); [|slia|].
  - eapply sp_weaken; [apply sp_guard0; lia| |]; [|intros ? _; split; [exact I|]]; destruct a; slia.
  - intros ? _. repeat step.
Qed.
Hint Resolve sp_method_parameter : sp.
Lemma sp_methodparameters : part (w_methodparameters_data p).
Proof. unfold w_methodparameters_data. repeat step. Qed.
Lemma sp_module_require i : part (w_module_require p i).
Proof. unfold w_module_require. repeat step. Qed.
Lemma sp_module_export i : part (w_module_export p i).
Proof. unfold w_module_export. repeat step. Qed.
Lemma sp_module_open i : part (w_module_open p i).
Proof. unfold w_module_open. repeat step. Qed.
Lemma sp_module_provide i : part (w_module_provide p i).
Proof. unfold w_module_provide. repeat step. Qed.
Hint Resolve sp_module_require sp_module_export sp_module_open sp_module_provide : sp.
Lemma sp_module : part (w_module_data p).
Proof. unfold w_module_data. repeat step. Qed.
Lemma sp_modulepackages : part (w_modulepackages_data p).
Proof. unfold w_modulepackages_data. repeat step. Qed.
Lemma sp_nestmembers : part (w_nestmembers_data p).
Proof. unfold w_nestmembers_data. repeat step. Qed.
Lemma sp_permitted : part (w_permitted_subclasses_data p).
Proof. unfold w_permitted_subclasses_data. repeat step. Qed.
Lemma sp_record_component rec i : part rec -> part (w_record_component p rec i).
Proof. intro Hrec. unfold w_record_component. repeat step. Qed.
Hint Resolve sp_record_component : sp.
Lemma sp_record rec : part rec -> part (w_record_data p rec).
Proof. intro Hrec. unfold w_record_data. repeat step. Qed.
(** *** Attributes whose length is in the file *)
Lemma result_le n e : usize_result E n = Ok e -> (e <= n)%N.
Proof.
  unfold usize_result. destruct (n <=? usize_max E)%N; [intros [= <-]; lia|]. destruct (overflow_checks E); [discriminate|]. intros [= <-]. apply N.mod_le. lia.
Qed.
Lemma spa_lift {A C} bs ix c k (m : outcome A) (G : C -> Z) R f : (ix <= blen bs)%N -> (blen bs <= usize_max E)%N -> Z.of_N k <= c ->
  (forall a, m = Ok a -> spends_at E B bs ix (c - Z.of_N k) G R (f a)) -> spends_at E B bs ix c G R (wbind (costs k (lift m)) f).
Proof.
  intros Hix Hfit Hc H. pose proof (over_pos E m) as Ho. unfold spends_at, wbind, costs, lift in *. destruct m as [a| |q|]; cbn [over] in *; try nia.
  specialize (H a eq_refl). destruct (f a bs ix) as [[[b ix']| |q|] n]; try nia. destruct H as (H1 & H2 & H3 & H4). split; [exact H1|]. lia.
Qed.
Lemma sp_code opts rec : part rec -> part (w_code_data E p opts rec).
Proof.
  intro Hrec. unfold w_code_data. step. step. eapply sp_use; [apply sp_u4; lia|lia|]. intros l Hl. apply sp_here. intros bs ix Hix Hfit.
  apply spa_lift; [exact Hix|exact Hfit|cbn; lia|]. intros e He. apply result_le in He.
  destruct (blen bs <? e)%N; [apply spa_of; [exact Hix|exact Hfit|]; apply sp_fail; lia|]. apply spa_take; [lia|cbn; lia|exact Hix|exact Hfit|].
  intros w H1 H2 Hw. step. step; [step|]. step. destruct opts.
  - eapply (sp_use E B _ (3 + 524288 * Z.of_N (blen w)) (fun _ => 0) any); [|nia|].
    + eapply (sp_use E B _ (2 + 524288 * Z.of_N (blen w) + 1) (fun _ => 0 + 1) any); [|nia|].
      * apply (sp_ctx E B _ (fun _ => 0)). apply sp_wlift; [lia|]. apply pays_bytecode; [exact Hp| |lia]. change (2 ^ 32)%N with 4294967296%N. lia.
      * intros b _. step.
    + intros ? _. apply sp_ret; [exact I|nia].
  - eapply (sp_use E B _ 0 (fun _ => 0) any); [|nia|]; [step|]. intros ? _. apply sp_ret; [exact I|nia].
Qed.
Lemma sp_source_debug i l : sp 8 (fun _ => 0) any (w_source_debug_extension E i l).
Proof.
  unfold w_source_debug_extension. apply sp_here. intros bs ix Hix Hfit.
  apply spa_lift; [exact Hix|exact Hfit|cbn; lia|]. intros e He. apply spa_take; [lia|cbn; lia|exact Hix|exact Hfit|].
  intros w H1 H2 Hw. eapply sp_use; [apply sp_tick0|nia|]. intros ? _. destruct (cesu8 E w); [apply sp_ret; [exact I|nia]|].
  eapply (sp_weaken E B 1); [apply sp_lift0; lia|nia|]. intros ? [=].
Qed.
Lemma sp_other l : (4294967295 <= usize_max E)%N -> (l < 4294967296)%N -> sp 8 (fun _ => 0) any (w_other_attribute E l).
Proof.
  intros Hwide Hlen. unfold w_other_attribute. apply sp_here. intros bs ix Hix Hfit. apply spa_lift; [exact Hix|exact Hfit|cbn; lia|]. intros e He.
  unfold spends_at, wbind, costs, set_ix, lift. destruct (usize_sub E e l) as [s| |q|] eqn:Hs.
  - destruct (slice bs s e) as [w| |q|] eqn:Hw.
    + apply slice_len in Hw. destruct Hw as (H1 & H2 & H3). assert (Hes : (ix <= e)%N).
      { unfold usize_result in He. destruct (N.leb_spec (ix + l) (usize_max E)) as [Hle|Hgt]; [injection He; lia|].
        destruct (overflow_checks E) eqn:Hov; [discriminate|]. injection He as He. unfold usize_sub in Hs. rewrite Hov in Hs.
        destruct (N.leb_spec l e) as [Hl|Hl].
        - pose proof (N.div_mod' (ix + l) (usize_max E + 1)) as Hdm. rewrite He in Hdm.
          pose proof (N.mod_lt (ix + l) (usize_max E + 1) ltac:(lia)) as Hlt. rewrite He in Hlt.
          assert (1 <= (ix + l) / (usize_max E + 1))%N by (apply N.div_le_lower_bound; lia). nia.
        - injection Hs as Hs. lia. }
      split; [exact I|]. split; [exact Hes|]. split; [exact H2|]. nia.
    + cbn [over]. nia.
    + pose proof (over_pos E (Panic q : outcome (list byte))). change (over E (Panic q)) with (over E (Panic q : outcome (list byte))). nia.
    + cbn [over]. nia.
  - cbn [over]. nia.
  - pose proof (over_pos E (Panic q : outcome (list byte))). change (over E (Panic q)) with (over E (Panic q : outcome (list byte))). nia.
  - cbn [over]. nia.
Qed.
(** Every attribute: its header brings in 6 bytes. *)
Lemma sp_attr_data opts rec stk name i l : (4294967295 <= usize_max E)%N -> (l < 4294967296)%N -> part rec ->
  sp 2000 (fun _ => 0) any (w_attr_data E p opts rec stk name i l).
Proof.
  intros Hwide Hl Hrec. pose proof (sp_code opts rec Hrec) as Hc. pose proof (sp_record rec Hrec) as Hr. pose proof (sp_other l Hwide Hl) as Ho.
  pose proof sp_stackmaptable. pose proof sp_exceptions. pose proof sp_innerclasses. pose proof sp_linenumber. pose proof sp_localvariable. pose proof sp_localvariabletype.
  pose proof (sp_annotation_data stk). pose proof (sp_parameter_annotation stk). pose proof (sp_type_annotation_data stk). pose proof (sp_element_value stk).
  pose proof sp_bootstrapmethods. pose proof sp_methodparameters. pose proof sp_module. pose proof sp_modulepackages. pose proof sp_nestmembers. pose proof sp_permitted.
  pose proof (sp_source_debug i l).
  unfold w_attr_data. cbv zeta. match goal with |- sp _ _ _ (wdispatch name ?cs ?d) => set (cases := cs); assert (Ht : tries cases <= 1000) by (vm_compute; discriminate) end.
  eapply sp_more; [apply (sp_dispatch E B 1000)|lia]; [lia| |].
  - subst cases. clear Ht. repeat (apply Forall_cons; [cbn [snd]; solve [repeat step]|]). constructor.
  - solve [repeat step].
Qed.
Lemma sp_attribute opts rec stk i : (4294967295 <= usize_max E)%N -> part rec -> part (w_attribute E p opts rec stk i).
Proof.
  intros Hwide Hrec. unfold w_attribute. step. eapply sp_use; [apply sp_u4; lia|lia|]. intros l Hl. apply sp_bytes; intro bs. apply sp_ix; intro ix.
  step. step; [step|]. eapply sp_use; [apply sp_attr_data; assumption|slia|]. intros d _. apply sp_ix; intro ix'. step; step.
Qed.
Lemma sp_attributes opts stk : (4294967295 <= usize_max E)%N -> part (w_attributes E p opts stk).
Proof.
  intro Hwide. induction stk as [|stk IH]; cbn [w_attributes]; [apply sp_overflow; lia|].
  pose proof (fun i => sp_attribute opts _ stk i Hwide IH). step. step. step.
Qed.
End Attributes.
