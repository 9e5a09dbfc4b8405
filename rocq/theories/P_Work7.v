(** * Running time: instructions *)
From Verif Require Import Base M_Names M_Descriptors M_ConstantPool M_Bytecode S_Lang P_Reads P_Descriptors
  W_Base W_Descriptors W_ConstantPool W_Bytecode P_Work P_Work2 P_Work3 P_Work4 P_Work5 P_Work6.
From Coq Require Import ZifyBool ZifyNat ZifyN.
Local Open Scope Z_scope.

Definition targets (op : opcode) : Z :=
  match op with
  | OpGoto _ | OpIfAcmpeq _ | OpIfAcmpne _ | OpIfIcmpeq _ | OpIfIcmpge _ | OpIfIcmpgt _ | OpIfIcmple _ | OpIfIcmplt _ | OpIfIcmpne _
  | OpIfeq _ | OpIfge _ | OpIfgt _ | OpIfle _ | OpIflt _ | OpIfne _ | OpIfnonnull _ | OpIfnull _ | OpJsr _ => 1
  | OpLookupswitch t => 1 + Z.of_nat (length (match_offsets t))
  | OpTableswitch t => 1 + Z.of_nat (length (jumps t))
  | _ => 0
  end.
(** What is put aside for the validation of the jumps of an instruction *)
Definition aside (op : opcode) : Z := 131072 + 64 * targets op.
Fixpoint asides (ops : list (N * opcode)) : Z := match ops with [] => 0 | (_, op) :: ops' => aside op + asides ops' end.
Lemma targets_pos op : 0 <= targets op.
Proof. destruct op; cbn [targets]; lia. Qed.
Lemma asides_length ops : 131072 * Z.of_nat (length ops) <= asides ops.
Proof. induction ops as [|[o op] ops IH]; cbn [asides length]; [lia|]. pose proof (targets_pos op). unfold aside. lia. Qed.

Lemma align_le ix : (ix <= N.ldiff (ix + 3) 3)%N.
Proof.
  assert (H := N.div_mod' (ix + 3) 4). assert (Hm := N.mod_lt (ix + 3) 4 ltac:(lia)).
  replace (N.ldiff (ix + 3) 3) with (4 * ((ix + 3) / 4))%N; [lia|].
  change 3%N with (N.ones 2) at 3. rewrite N.ldiff_ones_r, N.shiftl_mul_pow2, N.shiftr_div_pow2. change (2 ^ 2)%N with 4%N. lia.
Qed.

Section Insn.
Variable E : env.
Variable p : pool.
Hypothesis Hp : modest p.
Notation B := 524288.
Local Notation sp := (spends E B).
Lemma HB8 : 524288 <= B. Proof. lia. Qed.
Lemma HB8' : 0 <= B. Proof. lia. Qed.
Hint Resolve HB8 HB8' : sp.

Lemma sp_align {C} c (G : C -> Z) R f : 2 <= c -> (forall x, spends E B (c - 2 + B * 4) G R (f x)) ->
  spends E B c G R (_ <~ costs 1 align4 ;; x <~ w_u4 ;; f x).
Proof.
  intros Hc Hf bs ix Hix Hfit. destruct (N.leb_spec (N.ldiff (ix + 3) 3) (blen bs)) as [H|H].
  - change (spends_at E B bs ix c G R (wbind (costs 1 (set_ix (N.ldiff (ix + 3) 3))) (fun _ => x <~ w_u4 ;; f x))).
    pose proof (align_le ix). apply spa_set; try lia. apply spa_of; [lia|exact Hfit|]. eapply sp_use; [apply sp_u4; lia|lia|]. intros x _.
    eapply sp_more; [apply Hf|lia].
  - unfold spends_at, wbind, costs, align4, bind, get_ix, set_ix, w_u4, costs, read_u4.
    replace (blen bs <? N.ldiff (ix + 3) 3 + 4)%N with true by lia. cbn [fail over]. lia.
Qed.
Ltac leaf := apply sp_ret; [exact I|cbv beta; unfold aside; cbn [targets match_offsets jumps]; slia].
Definition reserve (op : opcode) : Z := 3 + aside op.
Lemma sp_jump_word : sp 1 (fun _ => 1 + 1 + 64) (fun _ => True) (j <~ w_u4 ;; wret (as_i32 j)).
Proof. eapply sp_use; [apply sp_u4; lia|lia|]. intros j _. apply sp_ret; [exact I|lia]. Qed.
Lemma sp_jump_pair : sp 1 (fun _ => 1 + 1 + 64) (fun _ => True) (m <~ w_u4 ;; o <~ w_u4 ;; wret (as_i32 m, as_i32 o)).
Proof. eapply sp_use; [apply sp_u4; lia|lia|]. intros m _. eapply sp_use; [apply sp_u4; lia|lia|]. intros j _. apply sp_ret; [exact I|lia]. Qed.
Lemma sp_tableswitch : sp 2 reserve (fun _ => True) (w_tableswitch E).
Proof.
  unfold w_tableswitch, reserve. apply sp_align; [lia|]. intro d. cbv zeta. do 2 (eapply sp_use; [apply sp_u4; lia|lia|intros ? _]).
  apply sp_if; intros _; [apply sp_fail_at; lia|]. do 2 (eapply sp_use; [apply sp_lift0; lia|lia|intros ? _]).
  destruct (usize_of_i32 _); [|apply sp_fail_at; lia]. eapply sp_use; [apply sp_lift0; lia|lia|intros ? _].
  eapply sp_use; [apply (sp_for_big E B HB8' 1 64 (fun _ => True)); [lia|intros _; exact sp_jump_word|lia]|lia|intros l _]. leaf.
Qed.
Lemma sp_lookupswitch : sp 2 reserve (fun _ => True) (w_lookupswitch E).
Proof.
  unfold w_lookupswitch, reserve. apply sp_align; [lia|]. intro d. cbv zeta. do 1 (eapply sp_use; [apply sp_u4; lia|lia|intros ? _]).
  apply sp_if; intros _; [apply sp_fail_at; lia|].
  destruct (usize_of_i32 _); [|apply sp_fail_at; lia]. eapply sp_use; [apply sp_lift0; lia|lia|intros ? _].
  eapply sp_use; [apply (sp_for_big E B HB8' 1 64 (fun _ => True)); [lia|intros _; exact sp_jump_pair|lia]|lia|intros l _]. leaf.
Qed.
Ltac step := match goal with
    | |- spends _ _ _ _ _ (match ?x with _ => _ end) => destruct x
    | |- spends _ _ _ _ _ (wret _) => leaf
    | |- spends _ _ _ _ _ (wfail_at _) => apply sp_fail_at; lia
    | |- spends _ _ _ _ _ (if _ then _ else _) => apply sp_if; intros _
    | |- spends _ _ _ _ _ (wbind _ _) => eapply sp_use; [sp_call|slia|intros ? _; cbv beta]
    end.
Lemma sp_invokeinterface : sp 2 reserve (fun _ => True) (w_invokeinterface p).
Proof. unfold w_invokeinterface, reserve. repeat step. Qed.
Lemma sp_invokedynamic_insn : sp 2 reserve (fun _ => True) (w_invokedynamic_insn p).
Proof. unfold w_invokedynamic_insn, reserve. repeat step. Qed.
Lemma sp_newarray : sp 2 reserve (fun _ => True) w_newarray.
Proof.
  unfold w_newarray, reserve. step. eapply (sp_use E B _ 2 (fun _ => 2) (fun _ => True)); [|lia|].
  - repeat match goal with |- spends _ _ _ _ _ (match ?x with _ => _ end) => destruct x end; try (apply sp_fail_at; lia); apply sp_ret; try exact I; lia.
  - intros t _. leaf.
Qed.
Lemma sp_wide : sp 2 reserve (fun _ => True) w_wide.
Proof. unfold w_wide, reserve. repeat step. Qed.
Hint Resolve sp_tableswitch sp_lookupswitch sp_invokeinterface sp_invokedynamic_insn sp_newarray sp_wide : sp.
Lemma sp_insn : sp 2 reserve (fun _ => True) (w_insn E p).
Proof.
  unfold w_insn. step.
  repeat match goal with |- spends _ _ _ _ _ (match ?x with _ => _ end) => destruct x end;
  first [ apply sp_fail_at; lia
        | eapply sp_weaken; [solve [eauto 2 with sp nocore]|lia|intros ? _; split; [exact I|lia]]
        | unfold reserve; repeat step ].
Qed.
Lemma sp_opcodes_loop fuel : sp 2 (fun ops => 2 + asides ops) (fun _ => True) (w_opcodes_loop E p fuel).
Proof.
  induction fuel as [|fuel IH]; intros bs ix Hix Hfit; unfold spends_at; cbn [w_opcodes_loop].
  - destruct (ix <? blen bs)%N; [cbn [over]; nia|]. cbn [asides]. split; [exact I|]. lia.
  - destruct (ix <? blen bs)%N; [|cbn [asides]; split; [exact I|]; lia].
    match goal with |- match ?q bs ix with _ => _ end => change (spends_at E B bs ix 2 (fun ops => 2 + asides ops) (fun _ => True) q) end.
    apply spa_of; [exact Hix|exact Hfit|]. eapply sp_use; [exact sp_insn|lia|]. intros op _. unfold reserve. pose proof (targets_pos op). eapply sp_use; [apply sp_tick0|unfold aside; lia|].
    intros ? _. eapply sp_use; [exact IH|unfold aside; lia|]. intros rest _. apply sp_ret; [exact I|]. cbn [asides]. lia.
Qed.
Lemma opcodes_cost code : (blen code <= usize_max E)%N ->
  match w_opcodes E p code with
  | (Ok ops, n) => Z.of_N n + asides ops <= B * Z.of_N (blen code)
  | (r, n) => Z.of_N n <= 2 + B * Z.of_N (blen code) + over E r
  end.
Proof.
  intro Hfit. pose proof (sp_opcodes_loop (S (length code)) code 0%N ltac:(lia) Hfit) as H. unfold w_opcodes, spends_at in *. destruct (w_opcodes_loop E p (S (length code)) code 0%N) as [[[ops ix']| |q|] n]; cbn [mbind mok steps fst] in *.
  - destruct H as (_ & _ & H1 & H2). nia.
  - cbn [over] in *. lia.
  - change (over E (Panic q : outcome (list (N * opcode)))) with (over E (Panic q : outcome (list (N * opcode) * N))). lia.
  - cbn [over] in *. lia.
Qed.
End Insn.

(** ** Validating the jumps *)
Section Validation.
Variable E : env.
Lemma pays_search ops offset : forall d fuel min max, (max - min <= 2 ^ N.of_nat d)%N -> pays E (Z.of_nat (S d)) (fun _ => True) (w_search_loop fuel ops offset min max).
Proof.
  induction d as [|d IH]; intros fuel min max H; (destruct fuel as [|fuel]; cbn [w_search_loop]; destruct (N.ltb_spec min max) as [Hlt|]; cbv zeta;
    [apply pays_steps; [lia|auto]|apply pays_ok; [lia|exact I]| |apply pays_ok; [lia|exact I]]); apply pays_after.
  - change (2 ^ N.of_nat 0)%N with 1%N in H. replace ((min + max) / 2)%N with min. 2:{ apply (N.div_unique _ _ _ 1); lia. }
    destruct (nth_error ops (N.to_nat min)) as [[o op]|]; [|apply pays_steps; [lia|auto]]. destruct (o =? offset)%N; [apply pays_ok; [lia|exact I]|].
    destruct (offset <? o)%N; [|rewrite N.eqb_refl; apply pays_ok; [lia|exact I]].
    destruct fuel as [|fuel]; cbn [w_search_loop]; (destruct (N.ltb_spec min min); [lia|]); (apply pays_ok; [lia|exact I]).
  - assert (Hpow : (2 ^ N.of_nat (S d) = 2 * 2 ^ N.of_nat d)%N) by (replace (N.of_nat (S d)) with (N.succ (N.of_nat d)) by lia; apply N.pow_succ_r').
    pose proof (N.div_mod' (min + max) 2) as Hdm. pose proof (N.mod_lt (min + max) 2 ltac:(lia)) as Hm.
    destruct (nth_error ops _) as [[o op]|]; [|apply pays_steps; [lia|auto]]. destruct (o =? offset)%N; [apply pays_ok; [lia|exact I]|].
    destruct (offset <? o)%N; [|destruct (min =? _)%N; [apply pays_ok; [lia|exact I]|]]; (eapply pays_weaken; [apply IH; lia|lia|auto]).
Qed.
Variable bc : byte_code.
Hypothesis Hbc : (N.of_nat (length (opcodes bc)) <= 2 ^ 40)%N.
Lemma pays_jump o j : pays E 43 (fun _ => True) (w_validate_jump E bc o j).
Proof.
  unfold w_validate_jump. eapply (pays_use E _ 1 (fun _ => True)); [apply pays_steps; [lia|auto]|lia|]. intros t _. destruct (usize_of_i32 t) as [target|]; [|apply pays_steps; [lia|auto]].
  eapply (pays_use E _ 41 (fun _ => True)); [|lia|].
  - apply (pays_search (opcodes bc) target 40). change (2 ^ N.of_nat 40)%N with (2 ^ 40)%N. lia.
  - intros r _. destruct r; [apply pays_ok; [lia|exact I]|apply pays_steps; [lia|auto]].
Qed.
Lemma pays_jumps o js : pays E (44 * Z.of_nat (length js)) (fun _ => True) (w_validate_all E bc o js).
Proof.
  induction js as [|[c j] js IH]; cbn [w_validate_all length]; [apply pays_ok; [lia|exact I]|].
  eapply (pays_use E _ 44 (fun _ => True)); [apply pays_ctx; exact (pays_jump o j)|lia|]. intros ? _. eapply pays_weaken; [exact IH|lia|auto].
Qed.
Lemma enumerate_length {A} (l : list A) : forall i, length (enumerate i l) = length l.
Proof. induction l as [|a l IH]; intro i; cbn [enumerate length]; [reflexivity|]. rewrite IH. reflexivity. Qed.
Lemma pays_opcode_jumps o op : pays E (100 + 44 * targets op) (fun _ => True) (w_validate_opcode_jumps E bc o op).
Proof.
  pose proof (targets_pos op). unfold w_validate_opcode_jumps. destruct (i32_of_usize o) as [z|]; [|apply pays_steps; [lia|auto]].
  destruct op; cbn [targets] in *; try (apply pays_ok; [lia|exact I]); try (eapply pays_weaken; [apply pays_jump|lia|auto]).
  - eapply (pays_use E _ 44 (fun _ => True)); [apply pays_ctx; apply pays_jump|lia|]. intros ? _. eapply pays_weaken; [apply pays_jumps|rewrite map_length; lia|auto].
  - eapply (pays_use E _ 44 (fun _ => True)); [apply pays_ctx; apply pays_jump|lia|]. intros ? _. eapply pays_weaken; [apply pays_jumps|rewrite map_length, enumerate_length; lia|auto].
Qed.
Lemma pays_validate_jumps ops : pays E (asides ops) (fun _ => True) (w_validate_jumps E bc ops).
Proof.
  induction ops as [|[o op] ops IH]; cbn [w_validate_jumps asides]; [apply pays_ok; [lia|exact I]|]. pose proof (targets_pos op). pose proof (asides_length ops).
  unfold aside. eapply (pays_use E _ (102 + 44 * targets op) (fun _ => True)); [apply pays_ctx, pays_after; eapply pays_weaken; [apply pays_opcode_jumps|lia|auto]|lia|].
  intros ? _. eapply pays_weaken; [exact IH|lia|auto].
Qed.
End Validation.

(** bytecode.rs:217-226 [ByteCode::from] *)
Lemma pays_bytecode E p code : modest p -> (blen code < 2 ^ 32)%N -> (blen code <= usize_max E)%N ->
  pays E (2 + 524288 * Z.of_N (blen code)) (fun _ => True) (w_bytecode_from E code p).
Proof.
  intros Hp Hl Hfit. unfold w_bytecode_from. pose proof (opcodes_cost E p Hp code Hfit) as H. destruct (w_opcodes E p code) as [[ops| |q|] n]; cbn [mbind].
  - pose proof (asides_length ops) as Ha. assert (Hn : (N.of_nat (length ops) <= 2 ^ 40)%N) by (change (2 ^ 32)%N with 4294967296%N in *; change (2 ^ 40)%N with 1099511627776%N; lia).
    pose proof (pays_validate_jumps E (mk_bc ops) Hn ops) as Hv. destruct (w_validate_jumps E (mk_bc ops) ops) as [[u| |q|] n']; cbn [mbind pays mok steps] in *.
    + split; [lia|exact I].
    + cbn [over] in *. lia.
    + change (over E (Panic q : outcome byte_code)) with (over E (Panic q : outcome unit)). lia.
    + cbn [over] in *. lia.
  - cbn [pays over] in *. lia.
  - cbn [pays] in *. change (over E (Panic q : outcome byte_code)) with (over E (Panic q : outcome (list (N * opcode)))). lia.
  - cbn [pays over] in *. lia.
Qed.
