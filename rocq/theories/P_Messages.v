(** * The errors of the parser have known texts *)
From Coq Require Import DecimalString DecimalN DecimalPos.
From Verif Require Import Base M_Names M_Descriptors M_ConstantPool M_Bytecode M_Attributes M_Class S_Messages.

(** ** Numbers *)
Lemma numeral_uint d : d <> Decimal.Nil -> numeral (lit (NilZero.string_of_uint d)).
Proof.
  intro H. exists (lit (NilZero.string_of_uint d)). split; [|split; [|left; reflexivity]]; destruct d; try congruence; try discriminate; clear H;
    unfold NilZero.string_of_uint;
    match goal with |- context [NilEmpty.string_of_uint ?d] => generalize d; intro u end;
    (assert (H : forall v, Forall digit (lit (NilEmpty.string_of_uint v)));
      [|exact (H u)]);
    induction v; cbn; constructor; try exact IHv; cbv; split; discriminate.
Qed.
Lemma numeral_N n : numeral (show_N n).
Proof.
  unfold show_N. apply numeral_uint. destruct n as [|p]; [discriminate|]. unfold N.to_uint. intro H.
  pose proof (DecimalPos.Unsigned.of_to p) as Hp. unfold Pos.to_uint in H, Hp. rewrite H in Hp. discriminate.
Qed.
Lemma numeral_Z z : numeral (show_Z z).
Proof.
  unfold show_Z. destruct z; try apply numeral_N. destruct (numeral_N (N.pos p)) as (ds & Hd & Hf & [H | H]).
  - exists ds. rewrite <- H in *. auto.
  - exfalso. unfold show_N in H. revert H. destruct (N.to_uint (N.pos p)); discriminate.
Qed.

(** ** Finding the text of a message *)
Lemma filled_by texts t args x : existsb (String.eqb t) texts = true -> length args = holes (lit t) -> Forall numeral args ->
  x = format (lit t) args -> filled texts x.
Proof.
  intros H Hl Hn Hx. apply existsb_exists in H. destruct H as (t' & Hi & He). apply String.eqb_eq in He as <-. exists t, args. auto.
Qed.
Ltac text_of x := lazymatch x with
  | ?a ++ ?b => let s := text_of a in let t := text_of b in eval cbv in (String.append s t)
  | lit ?s => constr:(s)
  | [] => constr:(""%string)
  | show_N _ => constr:("{}"%string)
  | show_Z _ => constr:("{}"%string)
  end.
Ltac args_of x := lazymatch x with
  | ?a ++ ?b => let s := args_of a in let t := args_of b in eval cbv [app] in (s ++ t)
  | lit _ => constr:(@nil str)
  | [] => constr:(@nil str)
  | show_N ?n => constr:([show_N n])
  | show_Z ?n => constr:([show_Z n])
  end.
Ltac fill := lazymatch goal with |- filled _ ?x => rewrite <- (app_nil_r x), <- ?app_assoc end; lazymatch goal with |- filled _ ?x =>
  let t := text_of x in let a := args_of x in apply (filled_by _ t a);
  [ vm_compute; reflexivity | vm_compute; reflexivity | repeat first [apply Forall_nil | simple apply Forall_cons; [first [apply numeral_N | apply numeral_Z]|]]
  | repeat match goal with |- context [show_N ?n] => generalize (show_N n); intro | |- context [show_Z ?n] => generalize (show_Z n); intro end; reflexivity ] end.

(** ** Errors whose texts are known *)
Section Known.
Variable E : env.
Definition known_msg (x : str) : Prop := own_message x \/ tag_message x \/ super_message x \/ x = cesu8_err E.
Definition known (e : perr) : Prop := known_msg (msg e) /\ Forall (filled context_texts) (contexts e).
Lemma known_new m : filled message_texts m -> known (new_err m).
Proof. intro H. split; [left; left; exact H|constructor]. Qed.
Lemma known_with e c : known e -> filled context_texts c -> known (with_context e c).
Proof. intros [H Hc] Hf. split; [exact H|]. cbn [contexts with_context]. apply Forall_app. split; [exact Hc|]. constructor; [exact Hf|constructor]. Qed.

(** Computations *)
Definition quiet {A} (m : outcome A) : Prop := forall e, m = Err e -> known e.
Lemma q_ok {A} (a : A) : quiet (Ok a).
Proof. intros e H. discriminate. Qed.
Lemma q_panic {A} q : quiet (@Panic A q).
Proof. intros e H. discriminate. Qed.
Lemma q_diverge {A} : quiet (@Diverge A).
Proof. intros e H. discriminate. Qed.
Lemma q_fail {A} m : filled message_texts m -> quiet (@fail A m).
Proof. intros Hm e H. assert (new_err m = e) as <- by (unfold fail in H; congruence). apply known_new, Hm. Qed.
Lemma q_bind {A B} (m : outcome A) (f : A -> outcome B) : quiet m -> (forall a, quiet (f a)) -> quiet (obind m f).
Proof. intros Hm Hf e. destruct m as [a|e'| |]; cbn [obind]; try discriminate; [apply Hf|]. intro H. apply Hm. congruence. Qed.
Lemma q_ctx {A} c (m : outcome A) : filled context_texts c -> quiet m -> quiet (ctx c m).
Proof.
  intros Hc Hm e. destruct m as [a|e'| |]; cbn [ctx]; try discriminate. intro H. assert (with_context e' c = e) as <- by congruence.
  apply known_with; [apply Hm; reflexivity|exact Hc].
Qed.
Ltac q0 := first [ apply q_ok | apply q_panic | apply q_diverge | apply q_fail; solve [fill] ].
Ltac qq := repeat match goal with
  | H : quiet ?m |- quiet ?m => exact H
  | H : forall x, quiet _ |- quiet _ => apply H
  | |- quiet _ => q0
  | |- quiet (obind _ _) => apply q_bind; [|intro]
  | |- quiet (ctx _ _) => apply q_ctx; [solve [fill]|]
  | |- quiet (match ?x with _ => _ end) => destruct x
  | |- quiet (let _ := _ in _) => cbv zeta
  end.

Lemma q_slice bs i j : quiet (slice bs i j).
Proof. unfold slice. qq. Qed.
Lemma q_byte_at bs i : quiet (byte_at bs i).
Proof. unfold byte_at. qq. Qed.
Lemma q_i32 z : quiet (i32_result E z).
Proof. unfold i32_result. qq. Qed.
Lemma q_u16 z : quiet (u16_result E z).
Proof. unfold u16_result. qq. Qed.
Lemma q_usize z : quiet (usize_result E z).
Proof. unfold usize_result. qq. Qed.
Lemma q_capacity n k : quiet (with_capacity E n k).
Proof. unfold with_capacity. qq. Qed.

(** Descriptors *)
Lemma q_str_from s : forall i, quiet (str_from s i).
Proof. induction s as [|c s IH]; intro i; cbn [str_from]; qq. Qed.
Lemma q_str_to s : forall i, quiet (str_to s i).
Proof. induction s as [|c s IH]; intro i; cbn [str_to]; qq. Qed.
Lemma q_str_slice s i j : quiet (str_slice s i j).
Proof. unfold str_slice. qq; [apply q_str_from|apply q_str_to]. Qed.
Lemma q_str_byte_at s i : quiet (str_byte_at s i).
Proof. unfold str_byte_at. qq. Qed.
Lemma q_segment data rest : forall ix, quiet (segment_loop data rest ix).
Proof. induction rest as [|c rest IH]; intro ix; cbn [segment_loop]; qq. apply q_str_slice. Qed.
Lemma q_class_name s : quiet (class_name_try_from s).
Proof.
  unfold class_name_try_from. qq. generalize 0. induction (S (length s)) as [|f IH]; intro i; cbn [class_name_loop]; qq; [apply q_str_from|apply q_segment].
Qed.
Lemma q_class_descriptor s i : quiet (parse_class_descriptor s i).
Proof.
  unfold parse_class_descriptor. generalize i at 2. induction (S (length s)) as [|f IH]; intro j; cbn [class_descriptor_loop]; qq; [apply q_str_from|apply q_segment|apply q_str_slice].
Qed.
Lemma q_field_descriptor s i : quiet (parse_field_descriptor s i).
Proof.
  unfold parse_field_descriptor. qq; [apply q_str_from|]. generalize 0. induction a as [|c cs IH]; intro d; cbn [field_descriptor_loop]; qq.
  apply q_class_descriptor.
Qed.
Lemma q_return_descriptor s i : quiet (parse_return_descriptor s i).
Proof. unfold parse_return_descriptor. qq; [apply q_str_from|apply q_field_descriptor]. Qed.
Lemma q_method_descriptor s i : quiet (parse_method_descriptor s i).
Proof.
  unfold parse_method_descriptor. qq; try apply q_str_byte_at; try apply q_return_descriptor.
  generalize (i + 1). induction (S (length s)) as [|f IH]; intro j; cbn [params_loop]; qq; [apply q_str_byte_at|apply q_field_descriptor].
Qed.
Lemma q_array_descriptor s : quiet (parse_array_descriptor s).
Proof. unfold parse_array_descriptor. qq; [apply q_str_byte_at|apply q_field_descriptor]. Qed.
Lemma q_ok_and {A} (m : outcome A) f : quiet (ok_and m f).
Proof. unfold ok_and. qq. Qed.
Lemma q_is_array s : quiet (is_array_descriptor s).
Proof. unfold is_array_descriptor, is_field_descriptor. qq; [apply q_ok_and|apply q_str_byte_at]. Qed.

(** Constant pool *)
Lemma q_peel p r : quiet (peel p r).
Proof. unfold peel. qq. Qed.
Lemma q_resolve_ref r i n : quiet (resolve_ref r i n).
Proof. unfold resolve_ref. qq. Qed.
Lemma q_resolve n es : forall i, quiet (resolve_from n i es).
Proof. induction es as [|e es IH]; intro i; cbn [resolve_from]; qq. unfold resolve_entry. qq; apply q_resolve_ref. Qed.
Lemma q_ensure_type e t : quiet (ensure_type e t).
Proof. unfold ensure_type. qq. Qed.
Lemma q_ensure_ref p r t : quiet (ensure_ref_type p r t).
Proof. unfold ensure_ref_type. qq; [apply q_peel|apply q_ensure_type]. Qed.
Lemma q_entry_str e : quiet (entry_str e).
Proof. unfold entry_str. qq. Qed.
Lemma q_validate_field p e : quiet (validate_field_descriptor p e).
Proof. unfold validate_field_descriptor, is_field_descriptor. qq; [apply q_peel|apply q_entry_str|apply q_ok_and]. Qed.
Lemma q_validate_method p : forall stk e, quiet (validate_method_descriptor stk p e).
Proof.
  induction stk as [|stk IH]; intro e; cbn [validate_method_descriptor]; [apply q_panic|]. unfold is_method_descriptor.
  destruct e; qq; try apply q_peel; try apply q_entry_str; try apply q_ok_and.
Qed.
Lemma q_validate_entry stk p major e : quiet (validate_entry stk p major e).
Proof.
  unfold validate_entry, validate_classinfo_name, validate_unqualified_name, validate_module_name, validate_binary_name.
  destruct e; qq; try apply q_ensure_ref; try apply q_peel; try apply q_validate_field; try apply q_validate_method; try apply q_entry_str; try apply q_is_array.
Qed.
Lemma q_validate stk p major es : forall i, quiet (validate_from stk p major i es).
Proof. induction es as [|e es IH]; intro i; cbn [validate_from]; qq. apply q_validate_entry. Qed.
Lemma q_utf8 e : quiet (utf8 e).
Proof. unfold utf8. qq. Qed.
Lemma q_string_literal e : quiet (string_literal e).
Proof. unfold string_literal. qq. Qed.
Lemma q_peel_utf8 p r : quiet (peel_utf8 p r).
Proof. unfold peel_utf8. qq; [apply q_peel|apply q_utf8]. Qed.
Lemma q_classinfo p e : quiet (classinfo p e).
Proof. unfold classinfo. destruct e; qq; try apply q_peel; try apply q_utf8; apply q_peel_utf8. Qed.
Lemma q_nat p e : quiet (get_name_and_type p e).
Proof. unfold get_name_and_type. destruct e; qq; try apply q_peel; try apply q_utf8; apply q_peel_utf8. Qed.
Lemma q_pool_get p i : quiet (pool_get p i).
Proof. unfold pool_get. qq. Qed.
Lemma q_member_ref p c m : quiet (make_member_ref p c m).
Proof. unfold make_member_ref. qq; [apply q_peel|apply q_classinfo|apply q_peel|apply q_nat]. Qed.
Lemma q_method_handle p x y : quiet (make_method_handle p x y).
Proof. unfold make_method_handle. qq; try apply q_peel; try apply q_classinfo; try apply q_nat. Qed.
Lemma q_loadable p i : quiet (get_cp_loadable p i).
Proof. unfold get_cp_loadable. qq; first [apply q_pool_get|apply q_peel|apply q_string_literal|apply q_peel_utf8|apply q_method_handle|apply q_nat]. Qed.
End Known.
