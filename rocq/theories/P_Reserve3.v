(** * How much is reserved: instructions, attributes, the class *)
From Verif Require Import Base M_Names M_Descriptors M_ConstantPool M_Bytecode M_Attributes M_Class
  R_Base R_Bytecode R_Attributes R_Class P_Reserve P_Reserve2 P_Reads.
From Coq Require Import ZifyBool ZifyNat ZifyN.
Local Open Scope Z_scope.

Create HintDb tk.
Ltac n_eval := repeat match goal with
  |- context [takes _ ?n _] => match n with (_ - _)%N => let m := eval compute in n in change n with m end end.
Ltac tk := intros; repeat first
  [ solve [eauto with tk nocore]
  | solve [eapply tk_weaken; [solve [eauto with tk nocore]|first [lia|reflexivity]]]
  | simple apply tk_pfail | simple apply tk_pfail_at
  | simple apply tk_pctx
  | simple eapply tk_bind; [solve [eauto with tk nocore | simple apply tk_pctx; eauto with tk nocore]|intro]
  | simple apply tk_if
  | match goal with |- takes _ _ (match ?x with _ => _ end) => destruct x end ].

Section Costs.
Variable top : N.
Notation takes := (takes top).
Notation costs := (costs top).

Lemma tk_ret' {A} (a : A) : takes 0 (ret a). Proof. apply tk_ret. Qed.
Hint Resolve tk_ret tk_lift tk_u1 tk_u2 tk_u4 tk_u8 tk_guard tk_get_bytes tk_get_ix : tk.
Lemma tk_bad {A} n : takes n (@bad_type A). Proof. apply tk_pfail. Qed.
Hint Resolve tk_bad : tk.

Section Pool.
Variable p : pool.
Lemma tk_any : takes 2 (read_cp_ref_any p). Proof. unfold read_cp_ref_any. tk. Qed.
Hint Resolve tk_any : tk.
Lemma tk_utf8 : takes 2 (read_cp_utf8 p). Proof. unfold read_cp_utf8. tk. Qed.
Lemma tk_utf8_opt : takes 2 (read_cp_utf8_opt p). Proof. unfold read_cp_utf8_opt. tk. Qed.
Lemma tk_classinfo : takes 2 (read_cp_classinfo p). Proof. unfold read_cp_classinfo. tk. Qed.
Lemma tk_classinfo_opt : takes 2 (read_cp_classinfo_opt p). Proof. unfold read_cp_classinfo_opt. tk. Qed.
Lemma tk_moduleinfo : takes 2 (read_cp_moduleinfo p). Proof. unfold read_cp_moduleinfo. tk. Qed.
Lemma tk_packageinfo : takes 2 (read_cp_packageinfo p). Proof. unfold read_cp_packageinfo. tk. Qed.
Lemma tk_nameandtype_opt : takes 2 (read_cp_nameandtype_opt p). Proof. unfold read_cp_nameandtype_opt. tk. Qed.
Lemma tk_literal : takes 2 (read_cp_literalconstant p). Proof. unfold read_cp_literalconstant. tk. Qed.
Lemma tk_integer : takes 2 (read_cp_integer p). Proof. unfold read_cp_integer. tk. Qed.
Lemma tk_float : takes 2 (read_cp_float p). Proof. unfold read_cp_float. tk. Qed.
Lemma tk_long : takes 2 (read_cp_long p). Proof. unfold read_cp_long. tk. Qed.
Lemma tk_double : takes 2 (read_cp_double p). Proof. unfold read_cp_double. tk. Qed.
Lemma tk_memberref a : takes 2 (read_cp_memberref p a). Proof. unfold read_cp_memberref. tk. Qed.
Lemma tk_invokedynamic : takes 2 (read_cp_invokedynamic p). Proof. unfold read_cp_invokedynamic. tk. Qed.
Lemma tk_methodhandle : takes 2 (read_cp_methodhandle p). Proof. unfold read_cp_methodhandle. tk. Qed.
Lemma tk_argument : takes 2 (read_cp_bootstrap_argument p). Proof. unfold read_cp_bootstrap_argument. tk. Qed.
Lemma tk_object_array : takes 2 (read_cp_object_array_type p). Proof. unfold read_cp_object_array_type. tk. Qed.
End Pool.
Hint Resolve tk_any tk_utf8 tk_utf8_opt tk_classinfo tk_classinfo_opt tk_moduleinfo tk_packageinfo
  tk_nameandtype_opt tk_literal tk_integer tk_float tk_long tk_double tk_memberref tk_invokedynamic
  tk_methodhandle tk_argument tk_object_array : tk.

(** ** Instructions *)
Lemma tk_align {A} n (f : N -> parser A) : (forall d, takes (n - 4) (f d)) ->
  takes n (bind align4 (fun _ => bind read_u4 f)).
Proof.
  intros Hf bs ix a ix' Ht Hi H. unfold bind, align4, get_ix, set_ix in H. cbn in H.
  assert (Hal : (ix <= N.ldiff (ix + 3) 3)%N).
  { rewrite N.ldiff_ones_r with (n := 2%N) || (change 3%N with (N.ones 2) at 2; rewrite N.ldiff_ones_r).
    rewrite N.shiftl_mul_pow2, N.shiftr_div_pow2. change (2 ^ 2)%N with 4%N.
    pose proof (N.div_mod (ix + 3) 4 ltac:(lia)). pose proof (N.mod_lt (ix + 3) 4 ltac:(lia)). lia. }
  destruct (read_u4 bs (N.ldiff (ix + 3) 3)) as [[d i]| | |] eqn:E4; try discriminate.
  assert (Hi4 : (N.ldiff (ix + 3) 3 + 4 <= i <= blen bs)%N).
  { apply (tk_u4 top bs _ d i Ht); auto. revert E4. unfold read_u4.
    destruct (blen bs <? N.ldiff (ix + 3) 3 + 4)%N eqn:Hb; [discriminate|]. lia. }
  apply (Hf d bs i a ix' Ht) in H; lia.
Qed.
Lemma tk_for_fuel {A} (body : N -> parser A) : (forall i, takes 1 (body i)) -> forall fuel i count,
  takes (count - i) (for_fuel fuel i count body).
Proof.
  intro Hb. induction fuel as [|fuel IH]; intros i count; cbn [for_fuel]; destruct (N.ltb_spec i count).
  - apply tk_dead. discriminate.
  - eapply tk_weaken; [apply tk_ret|lia].
  - eapply tk_bind; [apply Hb|]. intro x. eapply tk_bind; [apply IH|].
    intro. eapply tk_weaken; [apply tk_ret|lia].
  - eapply tk_weaken; [apply tk_ret|lia].
Qed.
Lemma tk_for_big {A} n (body : N -> parser A) : (forall i, takes 1 (body i)) -> takes n (for_big n body).
Proof.
  intros Hb bs ix a ix' Ht Hi H. unfold for_big in H.
  apply (tk_for_fuel body Hb (S (length bs)) 0 n) in H; auto. lia.
Qed.

Section Bytecode.
Variable E : env.
Variable p : pool.

Lemma tk_tableswitch : takes 0 (read_tableswitch E).
Proof.
  unfold read_tableswitch. apply tk_align. intro d. change (0 - 4)%N with 0%N. cbv zeta. tk.
  eapply tk_bind; [apply tk_for_big|]; tk.
Qed.
Lemma tk_lookupswitch : takes 0 (read_lookupswitch E).
Proof.
  unfold read_lookupswitch. apply tk_align. intro d. change (0 - 4)%N with 0%N. cbv zeta. tk.
  eapply tk_bind; [apply tk_for_big|]; tk.
Qed.
Lemma tk_newarray : takes 1 read_newarray.
Proof.
  unfold read_newarray. eapply tk_bind; [apply tk_u1|]. intro n. eapply (tk_bind _ _ 0); [|tk].
  destruct n as [|n]; [tk|]. repeat (destruct n as [n|n|]; try solve [tk]).
Qed.
Lemma tk_wide : takes 0 read_wide.
Proof.
  unfold read_wide. eapply tk_bind; [apply tk_u1|]. intro n. change (0 - 1)%N with 0%N.
  destruct n as [|n]; [tk|]. repeat (destruct n as [n|n|]; try solve [tk]).
Qed.
Lemma tk_invokeinterface : takes 0 (read_invokeinterface p).
Proof. unfold read_invokeinterface. tk. Qed.
Lemma tk_invokedynamic_insn : takes 0 (read_invokedynamic_insn p).
Proof. unfold read_invokedynamic_insn. tk. Qed.
Hint Resolve tk_tableswitch tk_lookupswitch tk_wide tk_invokeinterface tk_invokedynamic_insn tk_newarray : tk.
Lemma tk_insn : takes 1 (read_insn E p).
Proof.
  unfold read_insn. eapply tk_bind; [apply tk_u1|]. intro n. change (1 - 1)%N with 0%N.
  destruct n as [|n]; [tk|]. repeat (destruct n as [n|n|]; try solve [tk]).
Qed.
End Bytecode.
End Costs.
