(** * Decoding of bytecode: where a run can panic. *)
From Verif Require Import Base M_Names M_Descriptors M_ConstantPool M_Bytecode M_Attributes M_Class
  S_Lang S_Names S_Format S_Pool S_Items S_Safe P_Names P_Descriptors P_Reads P_Pool2 P_Pool3 P_Pool4 P_Refs P_Tac P_Insn P_Insn2 P_Bytecode P_Safe P_Safe2.
From Coq Require Import ZifyBool ZifyNat ZifyN.

Lemma as_i32_range n : n < 2 ^ 32 -> in_i32 (as_i32 n) = true.
Proof. intro H. unfold in_i32, as_i32, to_signed. change (2 ^ (32 - 1)) with 2147483648. change (2 ^ Z.of_N 32)%Z with 4294967296%Z. change (2 ^ 32) with 4294967296 in H. change (2 ^ 31)%Z with 2147483648%Z. destruct (N.ltb_spec n 2147483648); lia. Qed.
Lemma usize_of_le r n : in_i32 r = true -> usize_of_i32 r = Some n -> n <= 2 ^ 31.
Proof. unfold in_i32, usize_of_i32. intros Hr. destruct (r <? 0)%Z eqn:H; [discriminate|]. intros [= <-]. lia. Qed.

Section Code.
Variable E : env.
Variable code : list byte.
Variable Q : panic -> Prop.
Variable cs : list constant.
Variable major : N.
Notation dec := (cesu8 E).
Notation sl := (slots_of cs).
Notation P := (pool_of dec sl).
Hypothesis Hvalid : Forall (valid_constant dec sl major) cs.
Hypothesis Hfit : fits E code.
Notation wraps := (negb (overflow_checks E)).
Hypothesis HQ_jump : forall o j, overflow_checks E = true -> jump_in dec cs wraps code o j -> (2 ^ 31 <= Z.of_N o + j)%Z -> Q POverflow.
Hypothesis HQ_range : forall low high, overflow_checks E = true -> tableswitch_in dec cs wraps code low high -> (2 ^ 31 <= high - low + 1)%Z -> Q POverflow.
Hypothesis HQ_cap : forall n, reserves dec cs wraps code n -> (Z.of_N (usize_max E / 2) < n)%Z -> Q PCapacity.
Hypothesis HQ_alloc : forall n, reserves dec cs wraps code n -> (Z.of_N (alloc_limit E) < n)%Z -> Q PAlloc.
Notation runs := (runs_at code Q).
Notation Rop := (@any_result opcode).

Lemma run_ret_op ix (op : opcode) : ix <= blen code -> runs ix Rop (ret op).
Proof. apply runs_ret_any. Qed.
Lemma run_align {A} o (R : A -> N -> Prop) (k : unit -> parser A) : runs (o + 1 + (3 - o mod 4) mod 4) R (k tt) -> runs (o + 1) R (bind align4 k).
Proof.
  intro H. unfold runs_at, bind, align4, get_ix, set_ix. cbn. rewrite align4_eq.
  eapply ends_weaken; [exact H|]. intros [a i]. cbn. intros [Ha Hi]. split; [exact Ha|]. set (k4 := (3 - o mod 4) mod 4) in *. lia.
Qed.
Lemma run_u4_span ix : runs ix (fun n ix' => ix' = ix + 4 /\ n < 2 ^ 32 /\ span code ix ix' (u4 n)) read_u4.
Proof.
  pose proof (run_u4 code Q ix) as H. unfold runs_at in *. destruct (read_u4 code ix) as [[n i]| | |] eqn:Heq; cbn in *; auto.
  destruct H as ((Hi & Hn) & Hle). split; [|exact Hle]. split; [exact Hi|]. split; [exact Hn|]. apply (reads_u4 E) in Heq; auto. lia.
Qed.
Lemma u4_s4 n w : u4 n w -> s4 (as_i32 n) w.
Proof. intro H. apply (uint_sint 4); [lia|]. eauto. Qed.
(** The bytes between an opcode at the end of [w] and the place where four bytes were read. *)
Lemma gap_at w b rest pre u post g : code = w ++ b :: rest -> code = pre ++ u ++ post -> blen pre = blen w + 1 + g -> exists gap, pre = w ++ b :: gap /\ blen gap = g.
Proof.
  intros H1 H2 Hl. rewrite H1 in H2. replace (w ++ b :: rest) with ((w ++ [b]) ++ rest) in H2 by (rewrite <- app_assoc; reflexivity).
  destruct (app_eq_app _ _ _ _ H2) as (l & [[Ha Hb]|[Ha Hb]]).
  - assert (Hn : blen (w ++ [b]) = blen pre + blen l) by (rewrite Ha; apply blen_app). rewrite blen_app in Hn. change (blen [b]) with 1 in Hn.
    assert (Hg : g = 0 /\ blen l = 0) by lia. destruct Hg as [-> Hg]. destruct l as [|y l]; [|unfold blen in Hg; cbn [length] in Hg; lia].
    exists []. rewrite app_nil_r in Ha. split; auto.
  - exists l. split; [rewrite Ha, <- app_assoc; reflexivity|]. rewrite Ha, !blen_app in Hl. change (blen [b]) with 1 in Hl. lia.
Qed.
Lemma span_next pre u post ix' M : code = pre ++ u ++ post -> span code (blen pre + blen u) ix' M -> exists v post', post = v ++ post' /\ M v /\ ix' = blen pre + blen u + blen v.
Proof.
  intros H1 (p2 & v & q & H2 & H3 & H4 & HM). rewrite H1, app_assoc in H2. apply app_eq_blen in H2; [|rewrite blen_app; exact H3]. destruct H2 as [_ ->]. eauto.
Qed.
Lemma u4_blen n w : u4 n w -> blen w = 4.
Proof. intros [H _]. unfold blen. lia. Qed.
Lemma ends_capacity n size : (Z.of_N (n * size) = 0 \/ reserves dec cs wraps code (Z.of_N (n * size)))%Z -> ends Q (fun _ => True) (with_capacity E n size).
Proof.
  intros Hs. unfold with_capacity. destruct (N.ltb_spec (usize_max E / 2) (n * size)); [destruct Hs as [Hs|Hs]; [lia|]; cbn; eapply HQ_cap; [exact Hs|lia]|].
  destruct (N.ltb_spec (alloc_limit E) (n * size)); [|exact I]. destruct Hs as [Hs|Hs]; [lia|]; cbn; eapply HQ_alloc; [exact Hs|lia].
Qed.
Lemma run_s4 ix : runs ix (fun a ix2 => ix < ix2 /\ True) (j <- read_u4 ;; ret (as_i32 j)).
Proof. eapply runs_bind; [apply run_u4|]. intros j i [-> _] L. eapply runs_weaken; [apply runs_ret; lia|]. intros a i' _ [_ ->]. lia. Qed.
Lemma run_s44 ix : runs ix (fun a ix2 => ix < ix2 /\ True) (m <- read_u4 ;; o <- read_u4 ;; ret (as_i32 m, as_i32 o)).
Proof.
  eapply runs_bind; [apply run_u4|]. intros j i [-> _] L. eapply runs_bind; [apply run_u4|]. intros j' i [-> _] L'.
  eapply runs_weaken; [apply runs_ret; lia|]. intros a i' _ [_ ->]. lia.
Qed.
Lemma run_tableswitch ops w rest : code = w ++ xaa :: rest -> insns_lang dec sl wraps 0 ops w -> runs (blen w + 1) Rop (read_tableswitch E).
Proof.
  intros Hc Hw. unfold read_tableswitch. apply run_align. set (g := (3 - blen w mod 4) mod 4). eapply runs_bind; [apply run_u4_span|]. intros d i2 (-> & Hd & Hsd) L2.
  destruct Hsd as (pre & dw & p1 & Hb & Hp & _ & Hdw). destruct (gap_at _ _ _ _ _ _ _ Hc Hb (eq_sym Hp)) as (gap & -> & Hg).
  eapply runs_bind; [apply run_u4_span|]. intros lo i2 (-> & Hl & Hsl) L3. eapply runs_bind; [apply run_u4_span|]. intros hi i2 (-> & Hh & Hsh) L4. cbn zeta.
  rewrite Hp in Hsl. replace 4 with (blen dw) in Hsl at 1 by (eapply u4_blen; eauto). destruct (span_next _ _ _ _ _ Hb Hsl) as (lw & p2 & -> & Hlw & _).
  rewrite Hp in Hsh. replace (blen (w ++ xaa :: gap) + 4 + 4) with (blen (w ++ xaa :: gap) + blen (dw ++ lw)) in Hsh at 1
    by (rewrite (blen_app dw), (u4_blen _ _ Hdw), (u4_blen _ _ Hlw); lia).
  assert (Hb' : code = (w ++ xaa :: gap) ++ (dw ++ lw) ++ p2) by (rewrite Hb, <- !app_assoc; reflexivity).
  destruct (span_next _ _ _ _ _ Hb' Hsh) as (hw & p3 & -> & Hhw & _).
  assert (Hin : tableswitch_in dec cs wraps code (as_i32 lo) (as_i32 hi)).
  { exists ops, w, gap, dw, lw, hw, p3. split; [rewrite Hb'; rewrite <- !app_assoc; reflexivity|].
    split; [exact Hw|]. split; [exact Hg|]. split; [apply Hdw|]. split; apply u4_s4; assumption. }
  pose proof (as_i32_range _ Hl) as Rl. pose proof (as_i32_range _ Hh) as Rh. generalize dependent (as_i32 lo). intros low Hin Rl. generalize dependent (as_i32 hi). intros high Rh Hin.
  unfold in_i32 in Rl, Rh.
  destruct (high <? low)%Z eqn:Hlt; [exact I|].
  assert (He : forall z, (high - low <= z <= high - low + 1 -> ends Q (fun _ => True) (i32_result E z))%Z).
  { intros z Hz. unfold i32_result. destruct (in_i32 z) eqn:Hi; [exact I|]. destruct (overflow_checks E) eqn:Ho; [|exact I]. cbn. eapply HQ_range; eauto. unfold in_i32 in Hi. lia. }
  unfold runs_at, bind at 1, lift at 1. pose proof (He (high - low)%Z ltac:(lia)) as H1. destruct (i32_result E (high - low)) as [df| | |] eqn:Hdf; cbn in H1; try contradiction; try exact I; auto.
  unfold bind at 1, lift at 1.
  assert (H2 : ends Q (fun _ => True) (i32_result E (df + 1))).
  { unfold i32_result in Hdf. destruct (in_i32 (high - low)) eqn:Hi; [injection Hdf as <-; apply He; lia|]. destruct (overflow_checks E) eqn:Ho; [discriminate|].
    unfold i32_result. rewrite Ho. destruct (in_i32 (df + 1)); exact I. }
  destruct (i32_result E (df + 1)) as [r| | |] eqn:Hr; cbn in H2; try contradiction; try exact I; auto.
  assert (Rl2 : (- 2 ^ 31 <= low < 2 ^ 31)%Z) by (clear - Rl; apply andb_true_iff in Rl; change (- 2 ^ 31)%Z with (-2147483648)%Z in *; lia). assert (Rh2 : (- 2 ^ 31 <= high < 2 ^ 31)%Z) by (clear - Rh; apply andb_true_iff in Rh; change (- 2 ^ 31)%Z with (-2147483648)%Z in *; lia).
  pose proof (i32_sub_add E low high r Rl2 Rh2 ltac:(clear - Hlt; lia)) as [Hx _].
  unfold usize_of_i32. destruct (r <? 0)%Z eqn:Hneg; [exact I|].
  assert (Hpre : (exists d, i32_result E (high - low) = Ok d /\ i32_result E (d + 1) = Ok r) /\ (0 <= r)%Z) by (split; [exists df; auto|clear - Hneg; lia]). specialize (Hx Hpre).
  assert (Hcap : (Z.of_N (Z.to_N r * 4) = 0 \/ reserves dec cs wraps code (Z.of_N (Z.to_N r * 4)))%Z).
  { destruct Hx as [[Hx ->]|(_ & _ & _ & ->)]; [right|left; reflexivity]. left. exists low, high. split; [exact Hin|]. lia. }
  eapply runs_bind; [apply runs_lift; [lia|apply ends_capacity; exact Hcap]|]. intros _ i2 [_ ->] _.
  eapply runs_bind; [apply runs_for_big; [intros; apply run_s4|lia]|]. intros js i2 _ L5. apply run_ret_op; lia.
Qed.
Lemma run_lookupswitch ops w rest : code = w ++ xab :: rest -> insns_lang dec sl wraps 0 ops w -> runs (blen w + 1) Rop (read_lookupswitch E).
Proof.
  intros Hc Hw. unfold read_lookupswitch. apply run_align. set (g := (3 - blen w mod 4) mod 4). eapply runs_bind; [apply run_u4_span|]. intros d i2 (-> & Hd & Hsd) L2.
  destruct Hsd as (pre & dw & p1 & Hb & Hp & _ & Hdw). destruct (gap_at _ _ _ _ _ _ _ Hc Hb (eq_sym Hp)) as (gap & -> & Hg).
  eapply runs_bind; [apply run_u4_span|]. intros np i2 (-> & Hn & Hsn) L3. cbn zeta.
  rewrite Hp in Hsn. replace 4 with (blen dw) in Hsn at 1 by (eapply u4_blen; eauto). destruct (span_next _ _ _ _ _ Hb Hsn) as (nw & p2 & -> & Hnw & _).
  assert (Hin : lookupswitch_in dec cs wraps code (as_i32 np)).
  { exists ops, w, gap, dw, nw, p2. split; [rewrite Hb; rewrite <- !app_assoc; reflexivity|].
    split; [exact Hw|]. split; [exact Hg|]. split; [apply Hdw|]. apply u4_s4; assumption. }
  destruct (as_i32 np <? 0)%Z eqn:Hneg; [exact I|]. unfold usize_of_i32. rewrite Hneg.
  eapply runs_bind; [apply runs_lift; [lia|apply ends_capacity; right; right; exists (as_i32 np); split; [exact Hin|lia]]|]. intros _ i2 [_ ->] _.
  eapply runs_bind; [apply runs_for_big; [intros; apply run_s44|lia]|]. intros js i2 _ L5. apply run_ret_op; lia.
Qed.
Ltac plain := apply run_ret_op; lia.
Lemma run_wide ix : runs ix Rop read_wide.
Proof.
  unfold read_wide. eapply runs_bind; [apply run_u1|]. intros v i1 [-> _] L1. destruct v as [|v]; [exact I|].
  do 8 (try destruct v as [v|v|]); try exact I; repeat (eapply runs_bind; [apply run_u2|intros]); plain.
Qed.
Lemma run_newarray ix : runs ix Rop read_newarray.
Proof.
  unfold read_newarray. eapply runs_bind; [apply run_u1|]. intros v i1 [-> _] L1. eapply runs_bind with (R := any_result); [|intros; plain].
  destruct v as [|v]; [exact I|]. do 4 (try destruct v as [v|v|]); try exact I; apply runs_ret_any; lia.
Qed.
Lemma run_invokeinterface ix : runs ix Rop (read_invokeinterface P).
Proof.
  unfold read_invokeinterface. eapply runs_bind; [eapply run_cp_memberref; eauto|]. intros m i1 _ L1. eapply runs_bind; [apply run_u1|]. intros n i2 _ L2.
  eapply runs_bind; [apply run_u1|]. intros z i3 _ L3. destruct (negb (z =? 0)); [exact I|plain].
Qed.
Lemma run_invokedynamic ix : runs ix Rop (read_invokedynamic_insn P).
Proof.
  unfold read_invokedynamic_insn. eapply runs_bind; [eapply run_cp_invokedynamic; eauto|]. intros m i1 _ L1. eapply runs_bind; [apply run_u2|]. intros n i2 _ L2.
  destruct (negb (n =? 0)); [exact I|plain].
Qed.
Lemma run_u1_byte w rest : code = w ++ rest -> runs (blen w) (fun n ix' => ix' = blen w + 1 /\ exists b rest, code = w ++ b :: rest /\ n = Byte.to_N b) read_u1.
Proof.
  intro Hr. pose proof (run_u1 code Q (blen w)) as H. unfold runs_at in *. destruct (read_u1 code (blen w)) as [[n i]| | |] eqn:Heq; cbn in *; auto.
  destruct H as ((Hi & _) & Hle). split; [|exact Hle]. split; [exact Hi|]. apply (reads_byte E) in Heq; auto; [|lia]. destruct Heq as (pre & u & post & Hc & Hp & _ & b & -> & Hb).
  exists b, post. split; [|exact Hb]. rewrite Hr in Hc. apply app_eq_blen in Hc; [|exact Hp]. destruct Hc as [_ ->]. exact Hr.
Qed.
Lemma run_insn ops w : insns_lang dec sl wraps 0 ops w -> (exists rest, code = w ++ rest) -> runs (blen w) (fun op ix' => span code (blen w) ix' (insn_lang dec sl wraps (blen w) op)) (read_insn E P).
Proof.
  intros Hw (rest & Hrest).
  assert (H : runs (blen w) Rop (read_insn E P)).
  { rewrite (read_insn_body E cs). eapply runs_bind; [eapply run_u1_byte, Hrest|]. intros v i1 (-> & b & post & Hb & ->) L1.
    destruct b; cbn [Byte.to_N insn_body]; try exact I; try plain.
    all: try (eapply runs_bind; [apply run_u2|]; intros ? ? [-> ?] ?; plain).
    all: try (eapply runs_bind; [apply run_u4|]; intros ? ? [-> ?] ?; plain).
    all: try (eapply run_tableswitch; [exact Hb|exact Hw]). all: try (eapply run_lookupswitch; [exact Hb|exact Hw]). all: try apply run_wide. all: try apply run_newarray. all: try apply run_invokeinterface. all: try apply run_invokedynamic.
    all: try (eapply runs_bind; [apply run_u1|]; intros ? ? [-> ?] ?; plain).
    all: try (eapply runs_bind; [eapply run_cp_memberref; eauto|]; intros; plain). all: try (eapply runs_bind; [eapply run_cp_object_array_type; eauto|]; intros; plain).
    all: try (eapply runs_bind; [eapply run_cp_classinfo; eauto|]; intros; plain).
    1-3: (eapply runs_bind; [apply run_u1 || apply run_u2|]; intros ? ? [-> ?] ?; eapply runs_bind; [eapply runs_lift; [lia|eapply ends_loadable; eauto]|]; intros; plain).
    - eapply runs_bind; [apply run_u1|]; intros ? ? [-> ?] ?. eapply runs_bind; [apply run_u1|]; intros ? ? [-> ?] ?. plain.
    - eapply runs_bind; [eapply run_cp_object_array_type; eauto|]; intros. eapply runs_bind; [apply run_u1|]; intros. plain. }
  unfold runs_at in *. destruct (read_insn E P code (blen w)) as [[op i]| | |] eqn:Heq; cbn in *; auto. destruct H as [_ H]. split; [|exact H].
  apply (reads_insn E cs) in Heq; auto. lia.
Qed.
Lemma insns_snoc ops : forall o w op u, insns_lang dec sl wraps o ops w -> insn_lang dec sl wraps (o + blen w) op u ->
  insns_lang dec sl wraps o (ops ++ [(o + blen w, op)]) (w ++ u).
Proof.
  induction ops as [|[off op'] ops IH]; intros o w op u Hw Hu.
  - change (w = []) in Hw. subst w. change (blen []) with 0 in *. rewrite N.add_0_r in *. cbn [app insns_lang]. split; auto. exists u, []. rewrite app_nil_r. repeat split; auto.
  - destruct Hw as (-> & x & y & -> & Hx & Hy). cbn [app insns_lang]. split; auto. exists x, (y ++ u). split; [rewrite app_assoc; reflexivity|]. split; [exact Hx|].
    rewrite blen_app in *. replace (o + (blen x + blen y)) with (o + N.of_nat (length x) + blen y) in * by (unfold blen; lia). apply IH; auto.
Qed.
Lemma run_opcodes_loop fuel : forall ops w, insns_lang dec sl wraps 0 ops w -> (exists rest, code = w ++ rest) -> blen code < blen w + N.of_nat fuel ->
  runs (blen w) (fun l _ => insns_lang dec sl wraps 0 (ops ++ l) code) (opcodes_loop E P fuel).
Proof.
  induction fuel as [|fuel IH]; intros ops w Hw (rest & Hrest) Hf; assert (Hix : blen w <= blen code) by (rewrite Hrest, blen_app; lia); [lia|].
  unfold runs_at. cbn [opcodes_loop]. destruct (N.ltb_spec (blen w) (blen code)) as [Hlt|Hge].
  - fold (runs_at code Q (blen w) (fun l _ => insns_lang dec sl wraps 0 (ops ++ l) code) (op <- read_insn E P ;; rest <- opcodes_loop E P fuel ;; ret ((blen w, op) :: rest))).
    eapply runs_bind; [eapply run_insn; eauto|]. intros op i1 Hop L1. destruct Hop as (pre & u & post & Hc & Hp & -> & Hu).
    rewrite Hrest in Hc. apply app_eq_blen in Hc; [|exact Hp]. destruct Hc as [<- ->]. pose proof (insn_nonempty _ _ _ _ _ Hu) as Hne.
    assert (0 < blen u) by (destruct u; [congruence|unfold blen; cbn [length]; lia]). rewrite <- blen_app.
    eapply runs_bind; [eapply (IH (ops ++ [(blen w, op)])); [exact (insns_snoc _ 0 _ _ _ Hw Hu)|exists post; rewrite Hrest, app_assoc; reflexivity|rewrite blen_app; lia]|].
    intros l i2 Hl L2. eapply runs_weaken; [apply runs_ret; lia|]. intros l' i3 _ [-> _]. change (insns_lang dec sl wraps 0 ((ops ++ [(blen w, op)]) ++ l) code) in Hl. rewrite <- app_assoc in Hl. exact Hl.
  - cbn. rewrite app_nil_r. assert (Hn : rest = []) by (rewrite Hrest, blen_app in Hge; destruct rest; auto; unfold blen in *; cbn [length] in *; lia).
    subst rest. rewrite app_nil_r in Hrest. rewrite Hrest. repeat split; auto; lia.
Qed.
Lemma ends_read_opcodes : ends Q (fun l => insns_lang dec sl wraps 0 l code) (read_opcodes E P code).
Proof.
  unfold read_opcodes. pose proof (run_opcodes_loop (S (length code)) [] [] eq_refl (ex_intro _ code eq_refl) ltac:(unfold blen; cbn [length]; lia)) as H. unfold runs_at in H.
  eapply ends_bind; [exact H|]. intros [l i] _ [Hl _]. exact Hl.
Qed.
Section Jumps.
Variable ops : list (N * opcode).
Hypothesis Hops : insns_lang dec sl wraps 0 ops code.
Notation bc := (mk_bc ops).
Lemma ends_jump o op j : In (o, op) ops -> o < 2 ^ 31 -> In j (targets op) -> ends Q (fun _ => True) (validate_jump E bc (Z.of_N o) j).
Proof.
  intros Hin Ho Hj. unfold validate_jump. pose proof (insns_targets _ _ _ _ _ _ _ _ Hops Hin Hj) as Hr. unfold in_i32' in Hr. eapply ends_bind with (R := fun _ => True).
  - unfold i32_result. destruct (in_i32 (Z.of_N o + j)) eqn:Hi; [exact I|]. destruct (overflow_checks E) eqn:Hc; [|exact I].
    cbn. eapply HQ_jump; [first [exact Hc|reflexivity]|exists ops, op; eauto|]. unfold in_i32 in Hi. lia.
  - intros t _ _. destruct (usize_of_i32 t) as [n|]; [|exact I]. destruct (get_opcode_index_spec bc n (insns_increasing _ _ _ _ _ Hops)) as (r & -> & _). cbn. destruct r; exact I.
Qed.
Lemma ends_all o op js : In (o, op) ops -> o < 2 ^ 31 -> (forall j, In j (map snd js) -> In j (targets op)) -> ends Q (fun _ => True) (validate_all E bc (Z.of_N o) js).
Proof.
  intros Hin Ho. induction js as [|[c j] js IH]; intro Hj; cbn [validate_all]; [exact I|]. eapply ends_bind.
  - apply ends_ctx. eapply ends_jump; eauto. apply Hj. left. reflexivity.
  - intros _ _ _. apply IH. intros j' H'. apply Hj. right. exact H'.
Qed.
Lemma ends_opcode_jumps o op : In (o, op) ops -> ends Q (fun _ => True) (validate_opcode_jumps E bc o op).
Proof.
  intros Hin. unfold validate_opcode_jumps, i32_of_usize. destruct (o <? 2 ^ 31) eqn:Ho; [|exact I]. apply N.ltb_lt in Ho.
  destruct op; try exact I; try (eapply ends_jump; eauto; left; reflexivity).
  - eapply ends_bind; [apply ends_ctx; eapply ends_jump; eauto; left; reflexivity|]. intros _ _ _. eapply ends_all; eauto.
    rewrite map_map. cbn. auto.
  - eapply ends_bind; [apply ends_ctx; eapply ends_jump; eauto; left; reflexivity|]. intros _ _ _. eapply ends_all; eauto.
    rewrite map_map. cbn [snd]. rewrite map_snd_enumerate. cbn. auto.
Qed.
Lemma ends_validate_jumps l : (forall x, In x l -> In x ops) -> ends Q (fun _ => True) (validate_jumps E bc l).
Proof.
  induction l as [|[o op] l IH]; intro H; cbn [validate_jumps]; [exact I|]. eapply ends_bind; [apply ends_ctx, ends_opcode_jumps, H; left; reflexivity|].
  intros _ _ _. apply IH. intros x Hx. apply H. right. exact Hx.
Qed.
End Jumps.
Lemma ends_bytecode : ends Q (fun _ => True) (bytecode_from E code P).
Proof.
  unfold bytecode_from. eapply ends_bind; [apply ends_read_opcodes|]. intros ops _ Hops. cbn zeta. eapply ends_bind; [apply ends_validate_jumps; auto|]. intros; exact I.
Qed.
End Code.
