(** * C46: the cost of looking up an instruction.

    Every iteration of the loop of [get_opcode_index] inspects one instruction and costs one unit of the fuel of the model, so that an outcome
    other than [Diverge] with fuel [n] says that at most [n] instructions are inspected. *)
From Verif Require Import Base M_Names M_Descriptors M_ConstantPool M_Bytecode M_Attributes M_Class.
From Coq Require Import ZifyBool ZifyNat ZifyN.

Lemma search_steps ops offset : forall fuel min max, max - min <= 2 ^ N.of_nat fuel ->
  search_loop (S fuel) ops offset min max <> Diverge.
Proof.
  induction fuel as [|fuel IH]; intros min max H.
  - cbn [search_loop]. destruct (N.ltb_spec min max) as [Hlt|]; [|discriminate]. cbv zeta. change (2 ^ N.of_nat 0) with 1 in H.
    replace ((min + max) / 2) with min. 2:{ apply (N.div_unique _ _ _ 1); lia. }
    destruct (nth_error ops (N.to_nat min)) as [[o op]|]; [|discriminate]. destruct (o =? offset); [discriminate|].
    destruct (offset <? o); [|rewrite N.eqb_refl; discriminate]. replace (min <? min) with false by lia. discriminate.
  - change (search_loop (S (S fuel)) ops offset min max) with (if min <? max then
      let mid := (min + max) / 2 in
      match nth_error ops (N.to_nat mid) with
      | None => Panic PSlice
      | Some (mid_offset, _) =>
        if mid_offset =? offset then Ok (Some mid)
        else if offset <? mid_offset then search_loop (S fuel) ops offset min mid
        else if min =? mid then Ok None
        else search_loop (S fuel) ops offset mid max
      end else Ok None).
    destruct (N.ltb_spec min max) as [Hlt|]; [|discriminate]. cbv zeta.
    rewrite Nat2N.inj_succ, N.pow_succ_r' in H. pose proof (N.div_mod (min + max) 2 ltac:(lia)). pose proof (N.mod_lt (min + max) 2 ltac:(lia)).
    destruct (nth_error ops _) as [[o op]|]; [|discriminate]. destruct (o =? offset); [discriminate|].
    destruct (offset <? o); [apply IH; lia|]. destruct (min =? _); [discriminate|]. apply IH. lia.
Qed.
Lemma search_more ops offset : forall a b min max, (a <= b)%nat -> search_loop a ops offset min max <> Diverge ->
  search_loop b ops offset min max = search_loop a ops offset min max.
Proof.
  induction a as [|a IH]; intros b min max Hab H; (destruct b as [|b]; [|]); cbn [search_loop] in *; try reflexivity; try lia.
  - destruct (min <? max); [contradiction H|]; reflexivity.
  - destruct (min <? max); [|reflexivity]. cbv zeta in *. destruct (nth_error ops _) as [[o op]|]; [|reflexivity].
    destruct (o =? offset); [reflexivity|]. destruct (offset <? o); [apply IH; auto; lia|]. destruct (min =? _); [reflexivity|]. apply IH; auto; lia.
Qed.
(** For every bytecode with [n > 0] instructions, sorted or not, and every offset: the lookup inspects at most 1 + ⌈log2 n⌉ instructions. *)
Theorem C46_logarithmic bc offset n : n = N.of_nat (length (opcodes bc)) -> 0 < n ->
  search_loop (S (N.to_nat (N.log2_up n))) (opcodes bc) offset 0 n = get_opcode_index bc offset /\ get_opcode_index bc offset <> Diverge.
Proof.
  intros -> Hn. set (n := N.of_nat (length (opcodes bc))) in *. assert (H : search_loop (S (N.to_nat (N.log2_up n))) (opcodes bc) offset 0 n <> Diverge).
  { apply search_steps. rewrite N2Nat.id, N.sub_0_r. destruct (N.eq_dec n 1) as [->|Hne]; [cbn; lia|]. apply N.log2_up_spec. lia. }
  assert (Heq : search_loop (S (N.to_nat (N.log2_up n))) (opcodes bc) offset 0 n = get_opcode_index bc offset); [|split; congruence].
  symmetry. apply search_more; auto. apply le_n_S. assert (N.log2_up n <= n); [|unfold n in *; lia].
  destruct (N.eq_dec n 1) as [->|Hne]; [vm_compute; discriminate|]. apply N.lt_le_incl. apply N.log2_up_lt_lin. lia.
Qed.
(** The bound is reached: with 4 instructions a lookup may need 3 probes. *)
Example C46_logarithmic_meets :
  let bc := mk_bc [(0, OpNop); (1, OpNop); (2, OpNop); (3, OpNop)] in
  search_loop 2 (opcodes bc) 3 0 4 = Ok (Some 3) /\ search_loop 2 (opcodes bc) 5 0 4 = Diverge /\ search_loop 3 (opcodes bc) 5 0 4 = Ok None
  /\ get_opcode_index bc 5 = Ok None.
Proof. vm_compute. auto. Qed.
