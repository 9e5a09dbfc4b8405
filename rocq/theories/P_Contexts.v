(** * How many contexts the errors of computations have *)
From Verif Require Import Base M_Names M_Descriptors M_ConstantPool M_Bytecode M_Attributes M_Class.
From Coq Require Import ZifyBool ZifyNat ZifyN.

Section Few.
Variable E : env.
Definition few (n : nat) {A} (m : outcome A) : Prop := forall e, m = Err e -> (length (contexts e) <= n)%nat.
Lemma q_ok {A} n (a : A) : few n (Ok a).
Proof. intros e H. discriminate. Qed.
Lemma q_panic {A} n q : few n (@Panic A q).
Proof. intros e H. discriminate. Qed.
Lemma q_diverge {A} n : few n (@Diverge A).
Proof. intros e H. discriminate. Qed.
Lemma q_fail {A} n m : few n (@fail A m).
Proof. intros e H. assert (new_err m = e) as <- by (unfold fail in H; congruence). cbn. lia. Qed.
Lemma q_bind {A B} n (m : outcome A) (f : A -> outcome B) : few n m -> (forall a, few n (f a)) -> few n (obind m f).
Proof. intros Hm Hf e. destruct m as [a|e'| |]; cbn [obind]; try discriminate; [apply Hf|]. intro H. apply Hm. congruence. Qed.
Lemma q_ctx {A} n c (m : outcome A) : few n m -> few (S n) (ctx c m).
Proof.
  intros Hm e. destruct m as [a|e'| |]; cbn [ctx]; try discriminate. intro H. assert (with_context e' c = e) as <- by congruence.
  specialize (Hm e' eq_refl). cbn [contexts with_context]. rewrite app_length. cbn [length]. lia.
Qed.
Lemma q_more {A} n n' (m : outcome A) : (n <= n')%nat -> few n m -> few n' m.
Proof. intros Hn H e He. specialize (H e He). lia. Qed.
Ltac q0 := first [ apply q_ok | apply q_panic | apply q_diverge | apply q_fail ].
Ltac qq := repeat match goal with
  | H : few 0 ?m |- few 0 ?m => exact H
  | H : forall x, few 0 _ |- few 0 _ => apply H
  | |- few 0 _ => q0
  | |- few 0 (obind _ _) => apply q_bind; [|intro]
  | |- few 0 (match ?x with _ => _ end) => destruct x
  | |- few 0 (let _ := _ in _) => cbv zeta
  end.

Lemma q_slice bs i j : few 0 (slice bs i j).
Proof. unfold slice. qq. Qed.
Lemma q_byte_at bs i : few 0 (byte_at bs i).
Proof. unfold byte_at. qq. Qed.
Lemma q_i32 z : few 0 (i32_result E z).
Proof. unfold i32_result. qq. Qed.
Lemma q_u16 z : few 0 (u16_result E z).
Proof. unfold u16_result. qq. Qed.
Lemma q_usize z : few 0 (usize_result E z).
Proof. unfold usize_result. qq. Qed.
Lemma q_capacity n k : few 0 (with_capacity E n k).
Proof. unfold with_capacity. qq. Qed.

(** Descriptors *)
Lemma q_str_from s : forall i, few 0 (str_from s i).
Proof. induction s as [|c s IH]; intro i; cbn [str_from]; qq. Qed.
Lemma q_str_to s : forall i, few 0 (str_to s i).
Proof. induction s as [|c s IH]; intro i; cbn [str_to]; qq. Qed.
Lemma q_str_slice s i j : few 0 (str_slice s i j).
Proof. unfold str_slice. qq; [apply q_str_from|apply q_str_to]. Qed.
Lemma q_str_byte_at s i : few 0 (str_byte_at s i).
Proof. unfold str_byte_at. qq. Qed.
Lemma q_segment data rest : forall ix, few 0 (segment_loop data rest ix).
Proof. induction rest as [|c rest IH]; intro ix; cbn [segment_loop]; qq. apply q_str_slice. Qed.
Lemma q_class_name s : few 0 (class_name_try_from s).
Proof.
  unfold class_name_try_from. qq. generalize 0. induction (S (length s)) as [|f IH]; intro i; cbn [class_name_loop]; qq; [apply q_str_from|apply q_segment].
Qed.
Lemma q_class_descriptor s i : few 0 (parse_class_descriptor s i).
Proof.
  unfold parse_class_descriptor. generalize i at 2. induction (S (length s)) as [|f IH]; intro j; cbn [class_descriptor_loop]; qq; [apply q_str_from|apply q_segment|apply q_str_slice].
Qed.
Lemma q_field_descriptor s i : few 0 (parse_field_descriptor s i).
Proof.
  unfold parse_field_descriptor. qq; [apply q_str_from|]. generalize 0. induction a as [|c cs IH]; intro d; cbn [field_descriptor_loop]; qq.
  apply q_class_descriptor.
Qed.
Lemma q_return_descriptor s i : few 0 (parse_return_descriptor s i).
Proof. unfold parse_return_descriptor. qq; [apply q_str_from|apply q_field_descriptor]. Qed.
Lemma q_method_descriptor s i : few 0 (parse_method_descriptor s i).
Proof.
  unfold parse_method_descriptor. qq; try apply q_str_byte_at; try apply q_return_descriptor.
  generalize (i + 1). induction (S (length s)) as [|f IH]; intro j; cbn [params_loop]; qq; [apply q_str_byte_at|apply q_field_descriptor].
Qed.
Lemma q_array_descriptor s : few 0 (parse_array_descriptor s).
Proof. unfold parse_array_descriptor. qq; [apply q_str_byte_at|apply q_field_descriptor]. Qed.
Lemma q_ok_and {A} (m : outcome A) f : few 0 (ok_and m f).
Proof. unfold ok_and. qq. Qed.
Lemma q_is_array s : few 0 (is_array_descriptor s).
Proof. unfold is_array_descriptor, is_field_descriptor. qq; [apply q_ok_and|apply q_str_byte_at]. Qed.

(** Constant pool *)
Lemma q_peel p r : few 0 (peel p r).
Proof. unfold peel. qq. Qed.
Lemma q_resolve_ref r i n : few 0 (resolve_ref r i n).
Proof. unfold resolve_ref. qq. Qed.
Lemma q_resolve n es : forall i, few 0 (resolve_from n i es).
Proof. induction es as [|e es IH]; intro i; cbn [resolve_from]; qq. unfold resolve_entry. qq; apply q_resolve_ref. Qed.
Lemma q_ensure_type e t : few 0 (ensure_type e t).
Proof. unfold ensure_type. qq. Qed.
Lemma q_ensure_ref p r t : few 0 (ensure_ref_type p r t).
Proof. unfold ensure_ref_type. qq; [apply q_peel|apply q_ensure_type]. Qed.
Lemma q_entry_str e : few 0 (entry_str e).
Proof. unfold entry_str. qq. Qed.
Lemma q_validate_field p e : few 0 (validate_field_descriptor p e).
Proof. unfold validate_field_descriptor, is_field_descriptor. qq; [apply q_peel|apply q_entry_str|apply q_ok_and]. Qed.
Lemma q_validate_method p : forall stk e, few 0 (validate_method_descriptor stk p e).
Proof.
  induction stk as [|stk IH]; intro e; cbn [validate_method_descriptor]; [apply q_panic|]. unfold is_method_descriptor.
  destruct e; qq; try apply q_peel; try apply q_entry_str; try apply q_ok_and.
Qed.
Lemma q_validate_entry stk p major e : few 0 (validate_entry stk p major e).
Proof.
  unfold validate_entry, validate_classinfo_name, validate_unqualified_name, validate_module_name, validate_binary_name.
  destruct e; qq; try apply q_ensure_ref; try apply q_peel; try apply q_validate_field; try apply q_validate_method; try apply q_entry_str; try apply q_is_array.
Qed.
Lemma q_validate stk p major es : forall i, few 1 (validate_from stk p major i es).
Proof.
  induction es as [|e es IH]; intro i; cbn [validate_from]; [apply q_ok|]. apply q_bind; [|intro; apply IH].
  apply (q_ctx 0), q_validate_entry.
Qed.
Lemma q_utf8 e : few 0 (utf8 e).
Proof. unfold utf8. qq. Qed.
Lemma q_string_literal e : few 0 (string_literal e).
Proof. unfold string_literal. qq. Qed.
Lemma q_peel_utf8 p r : few 0 (peel_utf8 p r).
Proof. unfold peel_utf8. qq; [apply q_peel|apply q_utf8]. Qed.
Lemma q_classinfo p e : few 0 (classinfo p e).
Proof. unfold classinfo. destruct e; qq; try apply q_peel; try apply q_utf8; apply q_peel_utf8. Qed.
Lemma q_nat p e : few 0 (get_name_and_type p e).
Proof. unfold get_name_and_type. destruct e; qq; try apply q_peel; try apply q_utf8; apply q_peel_utf8. Qed.
Lemma q_pool_get p i : few 0 (pool_get p i).
Proof. unfold pool_get. qq. Qed.
Lemma q_member_ref p c m : few 0 (make_member_ref p c m).
Proof. unfold make_member_ref. qq; [apply q_peel|apply q_classinfo|apply q_peel|apply q_nat]. Qed.
Lemma q_method_handle p x y : few 0 (make_method_handle p x y).
Proof. unfold make_method_handle. qq; try apply q_peel; try apply q_classinfo; try apply q_nat. Qed.
Lemma q_loadable p i : few 0 (get_cp_loadable p i).
Proof. unfold get_cp_loadable. qq; first [apply q_pool_get|apply q_peel|apply q_string_literal|apply q_peel_utf8|apply q_method_handle|apply q_nat]. Qed.
End Few.
