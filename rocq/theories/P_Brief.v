(** * The texts of errors are short: numbers and computations *)
From Coq Require Import DecimalFacts DecimalN DecimalPos DecimalString.
From Verif Require Import Base M_Names M_Descriptors M_ConstantPool M_Bytecode M_Attributes M_Class S_Messages.
From Coq Require Import ZifyBool ZifyNat ZifyN.

(** ** Numbers *)
Lemma acc_ge d : forall acc, (Npos acc * 10 ^ N.of_nat (Decimal.nb_digits d) <= Npos (Pos.of_uint_acc d acc))%N.
Proof.
  induction d as [|d IH|d IH|d IH|d IH|d IH|d IH|d IH|d IH|d IH|d IH]; intro acc; cbn [Pos.of_uint_acc Decimal.nb_digits];
    [cbn; lia|..]; rewrite Nat2N.inj_succ, N.pow_succ_r'; (etransitivity; [|apply IH]); rewrite N.mul_assoc; apply N.mul_le_mono_r; lia.
Qed.
Lemma nonzero_digits d : match d with Decimal.Nil | Decimal.D0 _ => False | _ => True end ->
  (10 ^ N.of_nat (Nat.pred (Decimal.nb_digits d)) <= N.of_uint d)%N.
Proof.
  unfold N.of_uint. destruct d; try tauto; intros _; cbn [Pos.of_uint Decimal.nb_digits Nat.pred];
    (etransitivity; [|apply acc_ge]); set (X := 10 ^ N.of_nat (Decimal.nb_digits d)); clearbody X; lia.
Qed.
Lemma unorm_head d : Decimal.unorm d = Decimal.zero \/ match Decimal.unorm d with Decimal.Nil | Decimal.D0 _ => False | _ => True end.
Proof. induction d; cbn; auto. Qed.
Lemma show_digits n k : n < 10 ^ N.of_nat k -> (1 <= k)%nat -> (Decimal.nb_digits (N.to_uint n) <= k)%nat.
Proof.
  intros H Hk. rewrite <- (DecimalN.Unsigned.of_to n) in H. set (d := N.to_uint n) in *.
  assert (Hd : Decimal.unorm d = d) by (unfold d; rewrite <- DecimalN.Unsigned.to_of, DecimalN.Unsigned.of_to; reflexivity).
  destruct (unorm_head d) as [Hz|Hn]; rewrite Hd in *; [rewrite Hz; cbn; lia|]. apply nonzero_digits in Hn.
  assert (Hlt : (10 ^ N.of_nat (Nat.pred (Decimal.nb_digits d)) < 10 ^ N.of_nat k)%N) by (eapply N.le_lt_trans; eassumption).
  apply N.pow_lt_mono_r_iff in Hlt; lia.
Qed.
(** The length in UTF-8, as [len()] of a [String] *)
Definition slen (x : str) : N := str_len x.
Lemma slen_app a b : slen (a ++ b) = slen a + slen b.
Proof. unfold slen. induction a as [|c a IH]; cbn [app str_len]; [lia|]. rewrite IH. lia. Qed.
Lemma string_digits d : slen (lit (NilEmpty.string_of_uint d)) = N.of_nat (Decimal.nb_digits d).
Proof.
  induction d as [|d IH|d IH|d IH|d IH|d IH|d IH|d IH|d IH|d IH|d IH]; cbn [NilEmpty.string_of_uint Decimal.nb_digits]; [reflexivity|..]; rewrite Nat2N.inj_succ, <- IH; clear IH;
    generalize (NilEmpty.string_of_uint d); intro x;
    match goal with |- slen (lit (String ?a ?x)) = _ => change (slen (lit (String a x))) with (1 + slen (lit x)) end; lia.
Qed.
Lemma string_zero d : slen (lit (NilZero.string_of_uint d)) <= N.max 1 (N.of_nat (Decimal.nb_digits d)).
Proof.
  assert (H : NilZero.string_of_uint d = "0"%string \/ NilZero.string_of_uint d = NilEmpty.string_of_uint d) by (destruct d; auto).
  destruct H as [-> | ->]; [apply N.le_max_l|rewrite string_digits; lia].
Qed.
Lemma slen_N n : n < 10 ^ 20 -> slen (show_N n) <= 20.
Proof.
  intro H. pose proof (show_digits n 20 H ltac:(lia)) as Hd. unfold show_N.
  pose proof (string_zero (N.to_uint n)). lia.
Qed.
Lemma slen_Z z : (Z.abs z < 10 ^ 20)%Z -> slen (show_Z z) <= 21.
Proof.
  intro H. unfold show_Z. destruct z as [|q|q]; [change (Z.to_N 0) with 0; pose proof (slen_N 0 eq_refl); lia|..].
  - pose proof (slen_N (Npos q)). change (Z.to_N (Z.pos q)) with (Npos q). lia.
  - rewrite slen_app. pose proof (slen_N (Npos q)). change (slen (lit "-")) with 1. lia.
Qed.

Definition lim : N := 100000000000000000000.
Lemma slen_char c : slen [c] <= 4.
Proof. unfold slen. cbn [str_len]. unfold char_len. repeat destruct (_ <? _); lia. Qed.
Lemma brief_N n : n < lim -> slen (show_N n) <= 20.
Proof. intro H. apply slen_N. exact H. Qed.
Lemma brief_Z z : (Z.abs z < 100000000000000000000)%Z -> slen (show_Z z) <= 21.
Proof. intro H. apply slen_Z. exact H. Qed.
Definition short (x : str) : Prop := slen x <= 200.
Definition brief (x : str) : Prop := slen x <= 100.
(** Lengths of inputs *)
Definition far : N := 18446744073709551616.

Ltac lens := repeat rewrite slen_app;
  repeat match goal with |- context [slen (lit ?s)] => let n := eval vm_compute in (slen (lit s)) in change (slen (lit s)) with n end;
  repeat match goal with
  | |- context [slen (show_N ?n)] => let H := fresh in assert (H : slen (show_N n) <= 20) by (apply brief_N; unfold lim, far in *; lia); revert H; generalize (slen (show_N n)); intros ? ?
  | |- context [slen (show_Z ?n)] => let H := fresh in assert (H : slen (show_Z n) <= 21) by (apply brief_Z; lia); revert H; generalize (slen (show_Z n)); intros ? ?
  end.
Ltac fill := unfold short, brief; lens; lia.

(** ** Errors whose texts are short *)
Section Known.
Variable E : env.
Variable size : N.
(** A module with a superclass, with a name not longer than [size] *)
Definition module_message (x : str) : Prop :=
  exists s, slen s <= size /\ x = format (lit "Found non-empty super_class {}; expected none for module") [s].
Definition known_msg (x : str) : Prop := short x \/ module_message x \/ x = cesu8_err E.
Definition known (e : perr) : Prop := known_msg (msg e) /\ Forall brief (contexts e).
Lemma known_new m : short m -> known (new_err m).
Proof. intro H. split; [left; exact H|constructor]. Qed.
Lemma known_with e c : known e -> brief c -> known (with_context e c).
Proof. intros [H Hc] Hf. split; [exact H|]. cbn [contexts with_context]. apply Forall_app. split; [exact Hc|]. constructor; [exact Hf|constructor]. Qed.

(** Computations *)
Definition quiet {A} (m : outcome A) : Prop := forall e, m = Err e -> known e.
Lemma q_ok {A} (a : A) : quiet (Ok a).
Proof. intros e H. discriminate. Qed.
Lemma q_panic {A} q : quiet (@Panic A q).
Proof. intros e H. discriminate. Qed.
Lemma q_diverge {A} : quiet (@Diverge A).
Proof. intros e H. discriminate. Qed.
Lemma q_fail {A} m : short m -> quiet (@fail A m).
Proof. intros Hm e H. assert (new_err m = e) as <- by (unfold fail in H; congruence). apply known_new, Hm. Qed.
Lemma q_bind {A B} (m : outcome A) (f : A -> outcome B) : quiet m -> (forall a, quiet (f a)) -> quiet (obind m f).
Proof. intros Hm Hf e. destruct m as [a|e'| |]; cbn [obind]; try discriminate; [apply Hf|]. intro H. apply Hm. congruence. Qed.
Lemma q_ctx {A} c (m : outcome A) : brief c -> quiet m -> quiet (ctx c m).
Proof.
  intros Hc Hm e. destruct m as [a|e'| |]; cbn [ctx]; try discriminate. intro H. assert (with_context e' c = e) as <- by congruence.
  apply known_with; [apply Hm; reflexivity|exact Hc].
Qed.
Ltac q0 := first [ apply q_ok | apply q_panic | apply q_diverge | apply q_fail; solve [fill] ].
Ltac qq := repeat match goal with
  | H : quiet ?m |- quiet ?m => exact H
  | H : forall x, quiet _ |- quiet _ => apply H
  | |- quiet _ => q0
  | |- quiet (obind _ _) => apply q_bind; [|intro]
  | |- quiet (ctx _ _) => apply q_ctx; [solve [fill]|]
  | |- quiet (match ?x with _ => _ end) => destruct x
  | |- quiet (let _ := _ in _) => cbv zeta
  end.

Lemma q_slice bs i j : quiet (slice bs i j).
Proof. unfold slice. qq. Qed.
Lemma q_byte_at bs i : quiet (byte_at bs i).
Proof. unfold byte_at. qq. Qed.
Lemma q_i32 z : quiet (i32_result E z).
Proof. unfold i32_result. qq. Qed.
Lemma q_u16 z : quiet (u16_result E z).
Proof. unfold u16_result. qq. Qed.
Lemma q_usize z : quiet (usize_result E z).
Proof. unfold usize_result. qq. Qed.
Lemma q_capacity n k : quiet (with_capacity E n k).
Proof. unfold with_capacity. qq. Qed.

(** Descriptors *)
Lemma q_str_from s : forall i, quiet (str_from s i).
Proof. induction s as [|c s IH]; intro i; cbn [str_from]; qq. Qed.
Lemma q_str_to s : forall i, quiet (str_to s i).
Proof. induction s as [|c s IH]; intro i; cbn [str_to]; qq. Qed.
Lemma q_str_slice s i j : quiet (str_slice s i j).
Proof. unfold str_slice. qq; [apply q_str_from|apply q_str_to]. Qed.
Lemma q_str_byte_at s i : quiet (str_byte_at s i).
Proof. unfold str_byte_at. qq. Qed.
Lemma q_segment data rest : forall ix, quiet (segment_loop data rest ix).
Proof. induction rest as [|c rest IH]; intro ix; cbn [segment_loop]; qq. apply q_str_slice. Qed.
Lemma q_class_name s : quiet (class_name_try_from s).
Proof.
  unfold class_name_try_from. qq. generalize 0. induction (S (length s)) as [|f IH]; intro i; cbn [class_name_loop]; qq; [apply q_str_from|apply q_segment].
Qed.
Lemma q_class_descriptor s i : quiet (parse_class_descriptor s i).
Proof.
  unfold parse_class_descriptor. generalize i at 2. induction (S (length s)) as [|f IH]; intro j; cbn [class_descriptor_loop]; qq; [apply q_str_from|apply q_segment|apply q_str_slice].
Qed.
Lemma q_field_descriptor s i : quiet (parse_field_descriptor s i).
Proof.
  unfold parse_field_descriptor. qq; [apply q_str_from|]. generalize 0. induction a as [|c cs IH]; intro d; cbn [field_descriptor_loop]; qq.
  apply q_class_descriptor.
Qed.
Lemma q_return_descriptor s i : quiet (parse_return_descriptor s i).
Proof. unfold parse_return_descriptor. qq; [apply q_str_from|apply q_field_descriptor]. Qed.
Lemma q_method_descriptor s i : quiet (parse_method_descriptor s i).
Proof.
  unfold parse_method_descriptor. qq; try apply q_str_byte_at; try apply q_return_descriptor.
  generalize (i + 1). induction (S (length s)) as [|f IH]; intro j; cbn [params_loop]; qq; [apply q_str_byte_at|apply q_field_descriptor].
Qed.
Lemma q_array_descriptor s : quiet (parse_array_descriptor s).
Proof. unfold parse_array_descriptor. qq; [apply q_str_byte_at|apply q_field_descriptor]. Qed.
Lemma q_ok_and {A} (m : outcome A) f : quiet (ok_and m f).
Proof. unfold ok_and. qq. Qed.
Lemma q_is_array s : quiet (is_array_descriptor s).
Proof. unfold is_array_descriptor, is_field_descriptor. qq; [apply q_ok_and|apply q_str_byte_at]. Qed.

(** Constant pool *)
Lemma q_peel p r : quiet (peel p r).
Proof. unfold peel. qq. Qed.
Definition ref_small (r : cpref) : Prop := match r with Unresolved t => t < 65536 | Resolved _ => True end.
Definition entry_small (e : entry) : Prop := match e with
  | EClassInfo x | EString x | EMethodHandle _ x | EMethodType x | EDynamic _ x | EInvokeDynamic _ x | EModuleInfo x | EPackageInfo x => ref_small x
  | EFieldRef x y | EMethodRef x y | EInterfaceMethodRef x y | ENameAndType x y => ref_small x /\ ref_small y
  | _ => True end.
Lemma q_resolve_ref r i n : ref_small r -> i < lim -> quiet (resolve_ref r i n).
Proof. intros Hr Hi. unfold resolve_ref. destruct r as [t|t]; cbn in Hr; qq. Qed.
Lemma q_resolve n es : Forall entry_small es -> forall i, i + N.of_nat (length es) < lim -> quiet (resolve_from n i es).
Proof.
  induction 1 as [|e es He _ IH]; intros i Hi; cbn [resolve_from]; cbn [length] in Hi; qq; [|apply IH; lia].
  unfold resolve_entry. destruct e; cbn in He; qq; apply q_resolve_ref; try tauto; lia.
Qed.
Lemma q_ensure_type e t : quiet (ensure_type e t).
Proof. unfold ensure_type. qq. Qed.
Lemma q_ensure_ref p r t : quiet (ensure_ref_type p r t).
Proof. unfold ensure_ref_type. qq; [apply q_peel|apply q_ensure_type]. Qed.
Lemma q_entry_str e : quiet (entry_str e).
Proof. unfold entry_str. qq. Qed.
Lemma q_validate_field p e : quiet (validate_field_descriptor p e).
Proof. unfold validate_field_descriptor, is_field_descriptor. qq; [apply q_peel|apply q_entry_str|apply q_ok_and]. Qed.
Lemma q_validate_method p : forall stk e, quiet (validate_method_descriptor stk p e).
Proof.
  induction stk as [|stk IH]; intro e; cbn [validate_method_descriptor]; [apply q_panic|]. unfold is_method_descriptor.
  destruct e; qq; try apply q_peel; try apply q_entry_str; try apply q_ok_and.
Qed.
Lemma q_validate_entry stk p major e : quiet (validate_entry stk p major e).
Proof.
  unfold validate_entry, validate_classinfo_name, validate_unqualified_name, validate_module_name, validate_binary_name.
  destruct e; qq; try apply q_ensure_ref; try apply q_peel; try apply q_validate_field; try apply q_validate_method; try apply q_entry_str; try apply q_is_array.
Qed.
Lemma q_validate stk p major es : forall i, i + N.of_nat (length es) < lim -> quiet (validate_from stk p major i es).
Proof. induction es as [|e es IH]; intros i Hi; cbn [validate_from]; cbn [length] in Hi; [apply q_ok|]. apply q_bind; [apply q_ctx; [fill|apply q_validate_entry]|intro; apply IH; lia]. Qed.
Lemma q_utf8 e : quiet (utf8 e).
Proof. unfold utf8. qq. Qed.
Lemma q_string_literal e : quiet (string_literal e).
Proof. unfold string_literal. qq. Qed.
Lemma q_peel_utf8 p r : quiet (peel_utf8 p r).
Proof. unfold peel_utf8. qq; [apply q_peel|apply q_utf8]. Qed.
Lemma q_classinfo p e : quiet (classinfo p e).
Proof. unfold classinfo. destruct e; qq; try apply q_peel; try apply q_utf8; apply q_peel_utf8. Qed.
Lemma q_nat p e : quiet (get_name_and_type p e).
Proof. unfold get_name_and_type. destruct e; qq; try apply q_peel; try apply q_utf8; apply q_peel_utf8. Qed.
Lemma q_pool_get p i : i < lim -> quiet (pool_get p i).
Proof. intro Hi. unfold pool_get. qq. Qed.
Lemma q_member_ref p c m : quiet (make_member_ref p c m).
Proof. unfold make_member_ref. qq; [apply q_peel|apply q_classinfo|apply q_peel|apply q_nat]. Qed.
Lemma q_method_handle p x y : quiet (make_method_handle p x y).
Proof. unfold make_method_handle. qq; try apply q_peel; try apply q_classinfo; try apply q_nat. Qed.
Lemma q_loadable p i : i < lim -> quiet (get_cp_loadable p i).
Proof. intro Hi. unfold get_cp_loadable. qq; first [apply q_pool_get, Hi|apply q_peel|apply q_string_literal|apply q_peel_utf8|apply q_method_handle|apply q_nat]. Qed.
End Known.
