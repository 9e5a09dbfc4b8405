(** * How much is reserved: attributes and the class *)
From Verif Require Import Base M_Names M_Descriptors M_ConstantPool M_Bytecode M_Attributes M_Class
  R_Base R_Bytecode R_Attributes R_Class P_Reserve P_Reserve2 P_Reserve3 P_Reserve4 P_Reads.
From Coq Require Import ZifyBool ZifyNat ZifyN.
Local Open Scope Z_scope.

Section Costs.
Variable E : env.
Variable p : pool.
Variable opts : bool.
Notation top := (usize_max E).
Notation takes := (takes top).
Notation costs := (costs top).
Hint Resolve tk_ret tk_lift tk_u1 tk_u2 tk_u4 tk_u8 tk_guard tk_get_bytes tk_get_ix : tk.

(** ** Plain readers *)
Lemma tk_exact_flags a e : takes 2 (read_exact_flags a e). Proof. unfold read_exact_flags. tk. Qed.
Hint Resolve tk_exact_flags : tk.
Lemma tk_field_descriptor : takes 2 (read_cp_field_descriptor p). Proof. unfold read_cp_field_descriptor. tk. Qed.
Hint Resolve tk_field_descriptor : tk.
Lemma tk_exception_entry i : takes 1 (read_exception_entry p i). Proof. unfold read_exception_entry. tk. Qed.
Lemma tk_verification : takes 1 (read_verification p).
Proof.
  unfold read_verification. eapply tk_bind; [apply tk_u1|]. intro n. change (1 - 1)%N with 0%N.
  destruct n as [|n]; [tk|]. repeat (destruct n as [n|n|]; try solve [tk]).
Qed.
Lemma tk_inner_class i : takes 1 (read_inner_class p i). Proof. unfold read_inner_class. tk. Qed.
Lemma tk_line_number : takes 1 read_line_number. Proof. unfold read_line_number. tk. Qed.
Lemma tk_local_variable i : takes 1 (read_local_variable p i). Proof. unfold read_local_variable. tk. Qed.
Lemma tk_local_variable_type i : takes 1 (read_local_variable_type p i). Proof. unfold read_local_variable_type. tk. Qed.
Lemma tk_local_var_target : takes 1 read_local_var_target. Proof. unfold read_local_var_target. tk. Qed.
Lemma tk_target i : takes 1 (read_type_annotation_target i).
Proof.
  unfold read_type_annotation_target. eapply tk_bind; [apply tk_u1|]. intro n. change (1 - 1)%N with 0%N.
  assert (Hf : forall n, takes 0 (for_n n (fun _ => read_local_var_target))).
  { intro m. unfold for_n. generalize 0%N at 2. induction (N.to_nat m) as [|k IH]; intro j; cbn [for_from]; [tk|].
    eapply tk_bind; [apply tk_local_var_target|]. intro. eapply tk_bind; [apply IH|]. tk. }
  destruct n as [|n]; [tk|]. repeat (destruct n as [n|n|]; try solve [tk | eapply tk_bind; [apply tk_u2|]; intro; eapply tk_bind; [apply Hf|]; tk]).
Qed.
Lemma tk_path_entry i j : takes 1 (read_path_entry i j).
Proof.
  unfold read_path_entry. eapply tk_bind; [apply tk_u1|]. intro n. eapply (tk_bind _ _ 0); [|tk].
  destruct n as [|n]; [tk|]. repeat (destruct n as [n|n|]; try solve [tk]).
Qed.
Lemma tk_method_parameter i : takes 1 (read_method_parameter p i). Proof. unfold read_method_parameter. tk. Qed.
Lemma tk_module_require i : takes 1 (read_module_require p i). Proof. unfold read_module_require. tk. Qed.
Lemma tk_ensure a b : takes 0 (ensure_length a b). Proof. unfold ensure_length. tk. Qed.
Lemma slice_range bs i j w : slice bs i j = Ok w -> (i <= j <= blen bs)%N /\ (blen w = j - i)%N.
Proof.
  unfold slice. destruct ((i <=? j)%N && (j <=? blen bs)%N) eqn:H; [|discriminate]. intros [= <-].
  split; [lia|]. unfold blen in *. rewrite firstn_length, skipn_length. lia.
Qed.
Lemma tk_source_debug i n : takes 0 (read_source_debug_extension E i n).
Proof.
  intros bs ix a ix' Ht Hi. unfold read_source_debug_extension, bind, get_bytes, get_ix, lift, set_ix.
  destruct (usize_result E (ix + n)) as [e| | |]; try discriminate.
  destruct (slice bs ix e) as [w| | |] eqn:Hs; try discriminate. apply slice_range in Hs.
  destruct (cesu8 E w); [|discriminate]. intros [=]. lia.
Qed.
Lemma tk_other n : (n <= top)%N -> takes 0 (read_other_attribute E n).
Proof.
  intros Hn bs ix a ix' Ht Hi. unfold read_other_attribute, bind, get_bytes, get_ix, lift, set_ix.
  unfold usize_result, usize_sub.
  destruct (N.leb_spec (ix + n) top) as [H|H].
  - replace (n <=? ix + n)%N with true by lia.
    destruct (slice bs (ix + n - n) (ix + n)) as [w| | |] eqn:Hs; try discriminate. apply slice_range in Hs.
    intros [=]. lia.
  - destruct (overflow_checks E); [discriminate|].
    set (e := ((ix + n) mod (top + 1))%N).
    assert (He : (e <= ix + n - (top + 1))%N).
    { unfold e. replace (ix + n)%N with ((ix + n - (top + 1)) + 1 * (top + 1))%N at 1 by lia.
      rewrite N.mod_add by lia. apply N.mod_le. lia. }
    destruct (N.leb_spec n e); [lia|].
    destruct (slice bs (e + (top + 1) - n) e) as [w| | |] eqn:Hs; try discriminate. apply slice_range in Hs.
    intros [=]. lia.
Qed.
Hint Resolve tk_exception_entry tk_verification tk_inner_class tk_line_number tk_local_variable
  tk_local_variable_type tk_local_var_target tk_target tk_path_entry tk_method_parameter tk_module_require
  tk_ensure tk_source_debug : tk.

(** ** Annotations *)
Lemma co_annotation_with rec : costs 3 0 rec -> costs 4 0 (r_annotation_with p rec).
Proof.
  intro H. unfold r_annotation_with. co.
  eapply co_step; [apply co_ctx, H|zl|]. co.
Qed.
Lemma co_element_value_with rec : costs 3 0 rec -> costs 3 0 (r_element_value_with p rec).
Proof.
  intro H. unfold r_element_value_with. co.
  - eapply co_step; [apply co_annotation_with, H|zl|]. co.
  - eapply co_weaken; [exact H|zl|zl].
Qed.
Lemma co_element_value stk : costs 3 0 (r_element_value p stk).
Proof.
  induction stk; [apply co_fails; [discriminate|zl]|]. apply co_element_value_with, IHstk.
Qed.
Lemma co_annotation stk : costs 4 0 (r_annotation p stk).
Proof. apply co_annotation_with, co_element_value. Qed.
Lemma co_annotation_data stk : costs 2 rate (r_annotation_data p stk).
Proof. unfold r_annotation_data. co. eapply co_weaken; [apply co_annotation|zl|zl]. Qed.
Lemma co_parameter_annotation_data stk : costs 1 255 (r_parameter_annotation_data p stk).
Proof.
  unfold r_parameter_annotation_data. co1. apply co_for; [zl|zl|]. intro i.
  co. eapply co_weaken; [apply co_annotation|zl|zl].
Qed.
Lemma co_target i : costs 1 0 (r_type_annotation_target i).
Proof.
  intros bs ix Ht Hi. unfold r_type_annotation_target.
  pose proof (co_plain top 1 1 0 _ (tk_target i) ltac:(lia) ltac:(lia) bs ix Ht Hi) as H0.
  destruct (read_u1 bs ix) as [[v j]| | |] eqn:H1; try exact H0.
  pose proof (tk_u1 top bs ix v j Ht Hi H1) as Hv.
  assert (H : costs 2 rate (localvar_count <~ plain read_u2 ;;
       l <~ tfor_n localvar_count (fun _ => plain read_local_var_target) ;;
       plain (ret (TgLocalVar l)))) by co.
  specialize (H bs j Ht (proj2 Hv)).
  destruct v as [|v]; [exact H0|].
  repeat (destruct v as [v|v|]; try exact H0).
  all: match goal with |- match ?t ?b ?i with _ => _ end => destruct (t b i) as [[[y ix2]| | |] l2]; zl end.
Qed.
Lemma co_type_annotation stk i : costs 6 0 (r_type_annotation p stk i).
Proof.
  unfold r_type_annotation. eapply co_step; [apply co_target|zl|]. intro t. co1.
  eapply (co_step _ 0 255); [apply co_for; [zl|zl|]; co|zl|]. intro.
  eapply co_step; [apply co_ctx, co_annotation|zl|]. co.
Qed.
Lemma co_type_annotation_data stk : costs 2 rate (r_type_annotation_data p stk).
Proof. unfold r_type_annotation_data. co. eapply co_weaken; [apply co_type_annotation|zl|zl]. Qed.

(** ** Tables *)
Lemma co_stack_map_entry i : costs 1 0 (r_stack_map_entry p i).
Proof. unfold r_stack_map_entry. co. Qed.
Lemma co_stackmaptable : costs 2 rate (r_stackmaptable_data p).
Proof. unfold r_stackmaptable_data. co. eapply co_weaken; [apply co_stack_map_entry|zl|zl]. Qed.
Lemma co_bootstrap_method i : costs 4 0 (r_bootstrap_method p i).
Proof. unfold r_bootstrap_method. co. Qed.
Lemma co_bootstrapmethods : costs 2 rate (r_bootstrapmethods_data p).
Proof. unfold r_bootstrapmethods_data. co. eapply co_weaken; [apply co_bootstrap_method|zl|zl]. Qed.
Lemma co_export i : costs 6 0 (r_module_export p i).
Proof. unfold r_module_export. co. Qed.
Lemma co_open i : costs 6 0 (r_module_open p i).
Proof. unfold r_module_open. co. Qed.
Lemma co_provide i : costs 4 0 (r_module_provide p i).
Proof. unfold r_module_provide. co. Qed.
Lemma co_module : costs 16 0 (r_module_data p).
Proof.
  unfold r_module_data. co.
  - eapply co_weaken; [apply co_export|zl|zl].
  - eapply co_weaken; [apply co_open|zl|zl].
  - eapply co_weaken; [apply co_provide|zl|zl].
Qed.

(** ** Attributes *)
(** The allowance for one open switch. *)
Definition slack : Z := if opts then 2 ^ 31 else rate.
Lemma slack_rate : rate <= slack. Proof. unfold slack, rate. destruct opts; lia. Qed.

Lemma co_window {A} a c n (msg : N -> str) (f : list byte -> tparser A) : 0 <= c ->
  (forall code, (blen code <= top)%N -> costs (a - Z.of_N (blen code)) (c + rate * Z.of_N (blen code)) (f code)) ->
  costs a c (bs <~ plain get_bytes ;; ix <~ plain get_ix ;;
    code_end <~ plain (lift (usize_result E (ix + n))) ;;
    if (blen bs <? code_end)%N then plain (pfail (msg ix))
    else code <~ plain (lift (slice bs ix code_end)) ;; _ <~ plain (set_ix code_end) ;; f code).
Proof.
  intros Hc Hf bs ix Ht Hi. unfold tbind, plain, get_bytes, get_ix, lift, set_ix, pfail.
  destruct (usize_result E (ix + n)) as [code_end| | |]; cbn [app]; try (change (zsum []) with 0; zl).
  destruct (blen bs <? code_end)%N; [cbn [app]; change (zsum []) with 0; zl|].
  destruct (slice bs ix code_end) as [code| | |] eqn:Hsl; cbn [app]; try (change (zsum []) with 0; zl).
  apply slice_range in Hsl. destruct Hsl as [Hr Hl].
  specialize (Hf code ltac:(lia) bs code_end Ht (proj2 Hr)).
  destruct (f code bs code_end) as [[[y ix2]| | |] l2]; cbn [app]; zl.
Qed.
Lemma co_code_data rec : costs 2 slack rec -> costs 12 slack (r_code_data E p opts rec).
Proof.
  intro Hrec. pose proof slack_rate as Hs. unfold r_code_data.
  co1. co1. co1. eapply co_window; [zl|]. intros code Hcode.
  set (L := Z.of_N (blen code)). assert (HL : 0 <= L) by (subst L; lia).
  co. eapply co_step; [apply co_ctx, Hrec|zl|]. intro attrs.
  destruct opts eqn:Ho.
  - eapply (co_step _ (- L) (rate * L + 2 ^ 31)); [|unfold slack in *; rewrite Ho in *; zl|].
    2: { intro. eapply co_plain with (n := 0%N); [tk|zl|unfold slack in *; rewrite Ho in *; zl]. }
    eapply (co_step _ (- L) (rate * L + 2 ^ 31)); [|zl|].
    2: { intro. eapply co_plain with (n := 0%N); [tk|zl|zl]. }
    apply co_ctx. intros bs' ix' Ht' Hi'. unfold tlift.
    pose proof (co_bytecode top E p code ltac:(lia)) as Hb.
    destruct (r_bytecode_from E p code) as [[b| | |] l]; cbn [lift]; subst L; zl.
  - co.
Qed.
Lemma co_record_component rec i : costs 2 slack rec -> costs 6 slack (r_record_component p rec i).
Proof.
  intro H. pose proof slack_rate. unfold r_record_component. co.
  eapply co_step; [apply co_ctx, H|zl|]. co.
Qed.
Lemma co_record rec : costs 2 slack rec -> costs 2 (slack + rate) (r_record_data p rec).
Proof.
  intro H. pose proof slack_rate. unfold r_record_data. co.
  eapply co_weaken; [apply co_record_component, H|zl|zl].
Qed.
Lemma co_dispatch {A} a c name (cs : list (string * tparser A)) d :
  Forall (fun q => costs a c (snd q)) cs -> costs a c d -> costs a c (tdispatch name cs d).
Proof.
  intros H Hd. induction H as [|[s q] cs Hq _ IH]; cbn [tdispatch]; auto.
  destruct (str_eqb name (lit s)); auto.
Qed.
Lemma co_attr_data rec stk name i n : (n <= top)%N -> costs 2 slack rec ->
  costs 0 (slack + rate * 4) (r_attr_data E p opts rec stk name i n).
Proof.
  intros Hn H. pose proof slack_rate. pose proof (tk_other n Hn). unfold r_attr_data. cbv zeta.
  apply co_dispatch; [|co].
  repeat (apply Forall_cons; cbn [snd]); try apply Forall_nil; co.
  all: apply (co_step _ 0 (slack + rate * 4)); [apply co_ctx|zl|co].
  all: first
    [ solve [eapply co_weaken; [first
        [ apply co_code_data, H | apply co_record, H | apply co_stackmaptable | apply co_annotation_data
        | apply co_parameter_annotation_data | apply co_type_annotation_data | apply co_element_value
        | apply co_bootstrapmethods | apply co_module ]|zl|zl]]
    | match goal with |- P_Reserve2.costs _ _ _ ?t => let x := head t in unfold x end; co ].
Qed.
Hypothesis Htop : (2 ^ 32 <= top + 1)%N.
Lemma co_attribute rec stk i : costs 2 slack rec -> costs 6 (slack - rate * 1) (r_attribute E p opts rec stk i).
Proof.
  intro H. pose proof slack_rate. unfold r_attribute. co1.
  apply (co_num _ 4 _ _ 4 read_u4 _ (fun r => (r < 2 ^ 32)%N) (tk_u4 _) u4_range); [zl|reflexivity|].
  intros n Hn. co.
  eapply co_step; [apply co_attr_data; [lia|exact H]|zl|]. co.
Qed.
Lemma co_attributes stk : costs 2 slack (r_attributes E p opts stk).
Proof.
  pose proof slack_rate. induction stk as [|stk IH]; [apply co_fails; [discriminate|zl]|].
  cbn [r_attributes]. co. eapply co_weaken; [apply co_attribute, IH|zl|zl].
Qed.
End Costs.
