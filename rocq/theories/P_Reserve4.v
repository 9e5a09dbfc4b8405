(** * How much is reserved: instructions, attributes, the class *)
From Verif Require Import Base M_Names M_Descriptors M_ConstantPool M_Bytecode M_Attributes M_Class
  R_Base R_Bytecode R_Attributes R_Class P_Reserve P_Reserve2 P_Reserve3 P_Reads.
From Coq Require Import ZifyBool ZifyNat ZifyN.
Local Open Scope Z_scope.

#[export] Hint Resolve tk_ret tk_lift tk_u1 tk_u2 tk_u4 tk_u8 tk_guard tk_get_bytes tk_get_ix : tk.
#[export] Hint Resolve tk_bad tk_any tk_utf8 tk_utf8_opt tk_classinfo tk_classinfo_opt tk_moduleinfo tk_packageinfo
  tk_nameandtype_opt tk_literal tk_integer tk_float tk_long tk_double tk_memberref tk_invokedynamic
  tk_methodhandle tk_argument tk_object_array : tk.

Lemma co_fails {A} top a c (p : parser A) : (forall bs ix x, p bs ix <> Ok x) -> 0 <= c -> costs top a c (plain p).
Proof.
  intros H Hc bs ix Ht Hi. unfold plain. specialize (H bs ix). change (zsum []) with 0.
  destruct (p bs ix) as [[x i]| | |]; unfold rate; try lia. destruct (H _ eq_refl).
Qed.
(** Steps through a reader; the numbers are computed as the goal is traversed. *)
Ltac zl := unfold rate in *; lia.
Ltac co1 := match goal with
  | |- costs _ _ _ (tbind (plain read_u1) _) =>
      eapply (co_num _ 1 _ _ 1 read_u1 _ (fun x => (x < 256)%N) (tk_u1 _) u1_range); [zl|reflexivity|intros ? ?]
  | |- costs _ _ _ (tbind (plain read_u2) _) =>
      eapply (co_num _ 2 _ _ 2 read_u2 _ (fun x => (x < 65536)%N) (tk_u2 _) u2_range); [zl|reflexivity|intros ? ?]
  | |- costs _ _ _ (tbind (plain _) _) => simple eapply co_then; [solve [tk]|zl|intro]
  | |- costs _ _ _ (tbind (plain _) _) => simple eapply (co_then _ 2); [solve [tk]|zl|intro]
  | |- costs _ _ _ (plain _) => simple apply co_fails; [intros ? ? ?; discriminate|zl]
  | |- costs _ _ _ (plain _) => simple eapply co_plain; [solve [tk]|zl|zl]
  | |- costs _ _ _ (plain _) => simple apply (co_plain _ 2); [solve [tk]|zl|zl]
  | |- costs _ _ _ (tctx _ _) => simple apply co_ctx
  | |- costs _ _ _ (tfor_n _ _) => simple apply co_for16; [first [assumption|lia]|zl|intro|zl]
  | |- costs _ _ _ (if ?b then _ else _) => destruct b eqn:?
  | |- costs _ _ _ (tbind (tfor_n _ _) _) =>
      simple eapply (co_step _ 0 65535); [simple apply co_for16; [first [assumption|lia]|zl|intro|zl]|zl|intro]
  | |- forall _, _ => intro
  end.
Ltac co := repeat (co1; cbv zeta).

Section Costs.
Variable top : N.
Notation takes := (takes top).
Notation costs := (costs top).

Lemma co_reserve {A} a c n (f : unit -> tparser A) :
  (forall x, costs (a + Z.of_N n) (c - Z.of_N n) (f x)) -> costs a c (tbind (reserve n) f).
Proof.
  intros Hf bs ix Ht Hi. unfold tbind, reserve. specialize (Hf tt bs ix Ht Hi).
  destruct (f tt bs ix) as [[[y ix2]| | |] l2]; rewrite zsum_app;
    change (zsum [n]) with (Z.of_N (n + 0)); lia.
Qed.
Lemma co_align {A} a c (f : N -> tparser A) : 0 <= c -> (forall d, costs (a - 4) (c + rate * 4) (f d)) ->
  costs a c (tbind (plain align4) (fun _ => tbind (plain read_u4) f)).
Proof.
  intros Hc Hf bs ix Ht Hi. unfold tbind, plain, align4, bind, get_ix, set_ix. cbn [app].
  assert (Hal : (ix <= N.ldiff (ix + 3) 3)%N).
  { change 3%N with (N.ones 2) at 2; rewrite N.ldiff_ones_r.
    rewrite N.shiftl_mul_pow2, N.shiftr_div_pow2. change (2 ^ 2)%N with 4%N.
    pose proof (N.div_mod (ix + 3) 4 ltac:(lia)). pose proof (N.mod_lt (ix + 3) 4 ltac:(lia)). lia. }
  destruct (read_u4 bs (N.ldiff (ix + 3) 3)) as [[d i]| | |] eqn:E4; try (change (zsum []) with 0; zl).
  assert (Hi4 : (N.ldiff (ix + 3) 3 + 4 <= i <= blen bs)%N).
  { apply (tk_u4 top bs _ d i Ht); auto. revert E4. unfold read_u4.
    destruct (blen bs <? N.ldiff (ix + 3) 3 + 4)%N eqn:Hb; [discriminate|]. lia. }
  specialize (Hf d bs i Ht (proj2 Hi4)).
  destruct (f d bs i) as [[[y ix2]| | |] l2]; cbn [app]; zl.
Qed.

Section Bytecode.
Variable E : env.
Variable p : pool.

Lemma usize_range z n : in_i32 z = true -> usize_of_i32 z = Some n -> Z.of_N n < 2 ^ 31.
Proof. unfold in_i32, usize_of_i32. destruct (z <? 0) eqn:?; [discriminate|]. intros H [= <-]. lia. Qed.
Lemma as_i32_range n : (n < 2 ^ 32)%N -> in_i32 (as_i32 n) = true.
Proof. unfold in_i32, as_i32, to_signed. change (2 ^ (32 - 1))%N with (2 ^ 31)%N. intro. destruct (n <? 2 ^ 31)%N eqn:?; lia. Qed.
Lemma i32_result_range z r : i32_result E z = Ok r -> in_i32 r = true.
Proof.
  unfold i32_result. destruct (in_i32 z) eqn:Hz; [intros [= <-]; exact Hz|].
  destruct (overflow_checks E); [discriminate|]. intros [= <-]. apply as_i32_range.
  pose proof (Z.mod_pos_bound z (2 ^ 32) ltac:(lia)). lia.
Qed.
Lemma u4_range bs ix x ix' : read_u4 bs ix = Ok (x, ix') -> (x < 2 ^ 32)%N.
Proof.
  intro H. assert (Hi : (ix <= blen bs)%N).
  { revert H. unfold read_u4. destruct (blen bs <? ix + 4)%N eqn:Hb; [discriminate|]. lia. }
  set (E0 := {| overflow_checks := true; usize_max := 2 ^ 32 + 2 * blen bs; alloc_limit := blen bs; stack := 0;
    cesu8 := fun _ => None; cesu8_err := [] |}).
  apply (reads_u4 E0 ix bs x ix') in H; auto.
  - destruct H as (pre & w & post & _ & _ & _ & Hw). destruct Hw as [Hl Hb].
    pose proof (be_bound w). rewrite Hl in *. rewrite Hb in *. change (256 ^ N.of_nat 4)%N with (2 ^ 32)%N in *. lia.
  - subst E0. constructor; cbn [usize_max alloc_limit]; lia.
Qed.

Lemma co_tableswitch : costs 12 (2 ^ 31 - rate * 12) (r_tableswitch E).
Proof.
  unfold r_tableswitch. apply co_align; [zl|]. intro d. cbv zeta. co1; cbv zeta. co1; cbv zeta.
  co1; [co|].
  eapply co_then with (n := 0%N); [tk|zl|]. intro z.
  apply (co_num _ 0 _ _ 0 (lift (i32_result E (z + 1))) _ (fun r => in_i32 r = true) (tk_lift _ _));
    [|zl|reflexivity|].
  { intros bs ix r ix'. unfold lift. destruct (i32_result E (z + 1)) eqn:Hr; intros [=]; subst.
    eapply i32_result_range; eauto. }
  intros r Hr. destruct (usize_of_i32 r) as [n|] eqn:Hn; [|co].
  pose proof (usize_range r n Hr Hn).
  apply co_reserve. intros _. eapply co_then with (n := 0%N); [tk|zl|]. intros _.
  eapply co_then with (n := n); [apply tk_for_big; tk|zl|]. intro. eapply co_plain with (n := 0%N); [tk|zl|zl].
Qed.
Lemma co_lookupswitch : costs 8 (2 ^ 31 - rate * 8) (r_lookupswitch E).
Proof.
  unfold r_lookupswitch. apply co_align; [zl|]. intro d. cbv zeta.
  apply (co_num _ 4 _ _ 4 read_u4 _ (fun r => (r < 2 ^ 32)%N) (tk_u4 _) u4_range); [zl|reflexivity|].
  intros r Hr. cbv zeta. co1; [co|].
  destruct (usize_of_i32 (as_i32 r)) as [n|] eqn:Hn; [|co].
  pose proof (usize_range _ n (as_i32_range _ Hr) Hn).
  apply co_reserve. intros _. eapply co_then with (n := 0%N); [tk|zl|]. intros _.
  eapply co_then with (n := n); [apply tk_for_big; tk|zl|]. intro. eapply co_plain with (n := 0%N); [tk|zl|zl].
Qed.
Lemma co_insn : costs 1 (2 ^ 31) (r_insn E p).
Proof.
  intros bs ix Ht Hi. unfold r_insn.
  destruct (read_u1 bs ix) as [[v i]| | |] eqn:H1;
    try apply (co_plain top 1 1 (2 ^ 31) _ (tk_insn top E p) ltac:(lia) ltac:(lia) bs ix Ht Hi).
  pose proof (tk_u1 top bs ix v i Ht Hi H1) as Hv.
  destruct (N.eq_dec v 0xaa) as [->|N1].
  { pose proof (co_tableswitch bs i Ht (proj2 Hv)) as H. cbv beta iota.
    destruct (r_tableswitch E bs i) as [[[y ix2]| | |] l2]; zl. }
  destruct (N.eq_dec v 0xab) as [->|N2].
  { pose proof (co_lookupswitch bs i Ht (proj2 Hv)) as H. cbv beta iota.
    destruct (r_lookupswitch E bs i) as [[[y ix2]| | |] l2]; zl. }
  pose proof (co_plain top 1 1 (2 ^ 31) _ (tk_insn top E p) ltac:(lia) ltac:(lia) bs ix Ht Hi) as H.
  destruct v as [|v]; [exact H|].
  repeat (destruct v as [v|v|]; try exact H; try congruence).
Qed.
Lemma co_opcodes fuel : costs 0 (2 ^ 31) (r_opcodes_loop E p fuel).
Proof.
  induction fuel as [|fuel IH]; intros bs ix Ht Hi; cbn [r_opcodes_loop]; destruct (N.ltb_spec ix (blen bs));
    try (change (zsum []) with 0; zl).
  refine (co_step top 1 (2 ^ 31) 0 (2 ^ 31) (r_insn E p) _ co_insn ltac:(lia) _ bs ix Ht Hi).
  intro op. eapply co_step with (a1 := 0) (c1 := 2 ^ 31); [exact IH|zl|].
  intro. eapply co_plain with (n := 0%N); [tk|zl|zl].
Qed.
Lemma co_bytecode code : (blen code <= top)%N ->
  match r_bytecode_from E p code with
  | (Ok _, l) => zsum l <= Z.of_N (blen code)
  | (_, l) => zsum l <= rate * Z.of_N (blen code) + 2 ^ 31
  end.
Proof.
  intro Ht. unfold r_bytecode_from.
  pose proof (co_opcodes (S (length code)) code 0%N Ht ltac:(lia)) as H.
  destruct (r_opcodes_loop E p (S (length code)) code 0%N) as [[[ops i]| | |] l]; cbn [obind fst]; try zl.
  destruct (validate_jumps E (mk_bc ops) ops); cbn [obind]; zl.
Qed.
End Bytecode.
End Costs.
