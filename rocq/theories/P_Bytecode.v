(** * Code: [bytecode_from] accepts exactly [code_format]. *)
From Verif Require Import Base M_Names M_Descriptors M_ConstantPool M_Bytecode S_Lang S_Names S_Format
  P_Reads P_Tac P_Names P_Descriptors P_Pool P_Pool2 P_Pool3 P_Refs P_Insn P_Insn2.
From Coq Require Import ZifyBool ZifyNat ZifyN.

(** ** Binary search *)
(** Offsets strictly increase. *)
Fixpoint increasing (from : N) (ops : list (N * opcode)) : Prop :=
  match ops with
  | [] => True
  | (o, _) :: ops' => from <= o /\ increasing (o + 1) ops'
  end.

Lemma increasing_weaken ops : forall a b, a <= b -> increasing b ops -> increasing a ops.
Proof. destruct ops as [|[o op] ops]; cbn; [auto|]. intros a b Hab [H1 H2]. split; [lia|auto]. Qed.
Lemma increasing_nth ops : forall from i o op, increasing from ops -> nth_error ops i = Some (o, op) ->
  from + N.of_nat i <= o.
Proof.
  induction ops as [|[o' op'] ops IH]; intros from i o op H Hi; destruct i; try discriminate; cbn in *.
  - injection Hi as -> ->. lia.
  - destruct H as [H1 H2]. specialize (IH _ _ _ _ H2 Hi). lia.
Qed.
Lemma increasing_lt ops : forall from i j o op o' op', increasing from ops -> (i < j)%nat ->
  nth_error ops i = Some (o, op) -> nth_error ops j = Some (o', op') -> o < o'.
Proof.
  induction ops as [|[x y] ops IH]; intros from i j o op o' op' H Hij Hi Hj.
  - destruct i; discriminate.
  - destruct j; [lia|]. cbn in H, Hj. destruct H as [H1 H2]. destruct i; cbn in Hi.
    + injection Hi as <- <-. pose proof (increasing_nth _ _ _ _ _ H2 Hj). lia.
    + apply (IH _ i j o op o' op' H2); auto. lia.
Qed.

Lemma search_loop_spec ops offset (Hinc : increasing 0 ops) : forall fuel min max,
  min <= max -> max <= N.of_nat (length ops) -> (N.to_nat (max - min) < fuel)%nat ->
  (forall i o op, nth_error ops i = Some (o, op) -> o = offset -> min <= N.of_nat i < max) ->
  exists r, search_loop fuel ops offset min max = Ok r /\
  match r with
  | Some i => exists op, nth_error ops (N.to_nat i) = Some (offset, op)
  | None => ~ In offset (map fst ops)
  end.
Proof.
  induction fuel as [|fuel IH]; intros min max Hmm Hmax Hfuel Hin; [lia|].
  assert (Hno : (forall i o op, nth_error ops i = Some (o, op) -> o <> offset) -> ~ In offset (map fst ops)).
  { intros H Hi. apply in_map_iff in Hi. destruct Hi as ([o op] & <- & Hi). apply In_nth_error in Hi.
    destruct Hi as [i Hi]. exact (H _ _ _ Hi eq_refl). }
  cbn [search_loop]. destruct (N.ltb_spec min max) as [Hlt|Hge].
  2:{ exists None. split; auto. apply Hno. intros i o op Hi Ho. specialize (Hin _ _ _ Hi Ho). lia. }
  set (mid := (min + max) / 2).
  assert (Hmid : min <= mid < max).
  { unfold mid. pose proof (N.div_mod' (min + max) 2). pose proof (N.mod_lt (min + max) 2 ltac:(lia)).
    set (q := (min + max) / 2) in *. lia. }
  destruct (nth_error ops (N.to_nat mid)) as [[mo mop]|] eqn:Em.
  2:{ apply nth_error_None in Em. lia. }
  destruct (N.eqb_spec mo offset) as [->|Hne].
  { exists (Some mid). split; auto. exists mop. auto. }
  destruct (N.ltb_spec offset mo) as [Hl|Hg].
  - apply IH; try lia. intros i o op Hi Ho. specialize (Hin _ _ _ Hi Ho). split; [lia|].
    destruct (N.lt_ge_cases (N.of_nat i) mid) as [|Hc]; auto. exfalso.
    assert (N.to_nat mid = i \/ (N.to_nat mid < i)%nat) as [Hx|Hx] by lia.
    + rewrite Hx in Em. rewrite Em in Hi. injection Hi as -> ->. lia.
    + pose proof (increasing_lt _ _ _ _ _ _ _ _ Hinc Hx Em Hi). lia.
  - assert (Hup : forall i o op, nth_error ops i = Some (o, op) -> o = offset -> mid < N.of_nat i < max).
    { intros i o op Hi Ho. specialize (Hin _ _ _ Hi Ho). split; [|lia].
      destruct (N.lt_ge_cases mid (N.of_nat i)) as [|Hc]; auto. exfalso.
      assert (N.to_nat mid = i \/ (i < N.to_nat mid)%nat) as [Hx|Hx] by lia.
      + rewrite Hx in Em. rewrite Em in Hi. injection Hi as -> ->. lia.
      + pose proof (increasing_lt _ _ _ _ _ _ _ _ Hinc Hx Hi Em). lia. }
    destruct (N.eqb_spec min mid) as [He|He].
    + exists None. split; auto. apply Hno. intros i o op Hi Ho. specialize (Hup _ _ _ Hi Ho).
      unfold mid in *. pose proof (N.div_mod' (min + max) 2). pose proof (N.mod_lt (min + max) 2 ltac:(lia)).
      set (q := (min + max) / 2) in *. lia.
    + apply IH; try lia. intros i o op Hi Ho. specialize (Hup _ _ _ Hi Ho). lia.
Qed.

Lemma get_opcode_index_spec bc offset : increasing 0 (opcodes bc) ->
  exists r, get_opcode_index bc offset = Ok r /\
  match r with
  | Some i => exists op, nth_error (opcodes bc) (N.to_nat i) = Some (offset, op)
  | None => ~ In offset (map fst (opcodes bc))
  end.
Proof.
  intro Hinc. unfold get_opcode_index. apply search_loop_spec; auto; try lia.
  intros i o op Hi _. assert (i < length (opcodes bc))%nat by (apply nth_error_Some; congruence). lia.
Qed.

(** ** The instruction loop *)
Section WithEnv.
Variable E : env.
Variable cs : list constant.
Notation dec := (cesu8 E).
Notation wraps := (negb (overflow_checks E)).
Notation sl := (slots_of cs).
Notation P := (pool_of dec sl).

Lemma insn_nonempty o op w : insn_lang dec sl wraps o op w -> w <> [].
Proof. intro H. apply after_complete in H. destruct H as (b & w' & -> & _). discriminate. Qed.

Lemma opcodes_loop_spec : forall fuel code ix ops ix', fits E code -> ix <= blen code ->
  blen code < ix + N.of_nat fuel ->
  (opcodes_loop E P fuel code ix = Ok (ops, ix') <->
   ix' = blen code /\ exists pre w, code = pre ++ w /\ blen pre = ix /\ insns_lang dec sl wraps ix ops w).
Proof.
  induction fuel as [|fuel IH]; intros code ix ops ix' Hfit Hix Hfuel; [lia|].
  cbn [opcodes_loop]. destruct (N.ltb_spec ix (blen code)) as [Hlt|Hge].
  - split.
    + intro H. apply bind_Ok in H. destruct H as (op & ix1 & H1 & H).
      apply bind_Ok in H. destruct H as (rest & ix2 & H2 & H). injection H as <- <-.
      apply reads_insn in H1; auto.
      destruct H1 as (pre & w & post & -> & Hp & Hx & Hw). pose proof (insn_nonempty _ _ _ Hw) as Hne.
      assert (0 < blen w) by (destruct w; [congruence|unfold blen; simpl; lia]).
      rewrite !blen_app in *. apply IH in H2; auto; try (rewrite !blen_app; lia).
      destruct H2 as (-> & pre' & w' & Heq & Hl & Hm). rewrite !blen_app. split; auto.
      rewrite app_assoc in Heq. apply app_eq_blen in Heq; [|rewrite blen_app; lia].
      destruct Heq as [<- <-]. exists pre, (w ++ post). repeat split; auto.
      exists w, post. repeat split; auto. replace (ix + N.of_nat (length w)) with ix1 by (unfold blen in *; lia). auto.
    + intros (-> & pre & w & -> & Hp & Hm). destruct ops as [|[off op] rest].
      { change (w = []) in Hm. subst w. rewrite app_nil_r in *. lia. }
      destruct Hm as (-> & u & v & -> & Hu & Hv). pose proof (insn_nonempty _ _ _ Hu) as Hne.
      assert (0 < blen u) by (destruct u; [congruence|unfold blen; simpl; lia]).
      apply bind_Ok. exists op, (ix + blen u). split.
      { apply reads_insn; auto. exists pre, u, v. repeat split; auto. }
      apply bind_Ok. exists rest, (blen (pre ++ u ++ v)). split; [|reflexivity].
      rewrite !blen_app in *. apply IH; auto; try (rewrite !blen_app; lia).
      rewrite !blen_app. split; auto.
      exists (pre ++ u), v. rewrite <- app_assoc, blen_app. repeat split; auto. lia.
  - assert (ix = blen code) by lia. split.
    + intros [= <- <-]. split; auto. exists code, []. rewrite app_nil_r. repeat split; auto.
    + intros (-> & pre & w & -> & Hp & Hm). rewrite blen_app in *. assert (Hw : w = []).
      { destruct w; auto. unfold blen in *. simpl in *. lia. } subst w.
      destruct ops as [|[off op] rest].
      * f_equal. f_equal. lia.
      * destruct Hm as (-> & u & v & Heq & Hu & Hv). symmetry in Heq. apply app_eq_nil in Heq. destruct Heq as [-> ->].
        apply insn_nonempty in Hu. congruence.
Qed.

Lemma read_opcodes_Ok code ops : fits E code ->
  (read_opcodes E P code = Ok ops <-> insns_lang dec sl wraps 0 ops code).
Proof.
  intro Hfit. unfold read_opcodes. rewrite obind_Ok.
  split.
  - intros ([ops' ix'] & H & [= <-]). apply opcodes_loop_spec in H; auto; try (unfold blen; lia).
    destruct H as (_ & pre & w & -> & Hp & H). destruct pre; [exact H|discriminate].
  - intro H. exists (ops, blen code). split; auto. apply opcodes_loop_spec; auto; try (unfold blen; lia).
    split; auto. exists [], code. auto.
Qed.

Lemma insns_increasing : forall ops o w, insns_lang dec sl wraps o ops w -> increasing o ops.
Proof.
  induction ops as [|[off op] ops IH]; intros o w H; cbn; auto.
  destruct H as (-> & u & v & -> & Hu & Hv). split; [lia|]. apply IH in Hv.
  apply insn_nonempty in Hu. eapply increasing_weaken; [|exact Hv]. destruct u; [congruence|simpl; lia].
Qed.

(** ** Jumps *)
Lemma as_i32_neg z : (2147483648 <= z < 4294967296)%Z -> (as_i32 (Z.to_N z) = z - 4294967296)%Z.
Proof.
  intros Hz. unfold as_i32, to_signed. change (2 ^ (32 - 1)) with 2147483648. change (2 ^ Z.of_N 32)%Z with 4294967296%Z.
  rewrite Z2N.id by lia. destruct (N.ltb_spec (Z.to_N z) 2147483648); lia.
Qed.
(** A jump that leaves the i32 range never lands: with wrap-around it comes out negative. *)
Lemma i32_result_pos src j t : (0 <= src < 2147483648 -> -2147483648 <= j < 2147483648 -> 0 <= t ->
  i32_result E (src + j) = Ok t -> t = src + j)%Z.
Proof.
  intros Hs Hj Ht. unfold i32_result, in_i32.
  destruct (Z.leb_spec (- 2 ^ 31) (src + j)) as [H1|H1].
  2:{ change (- 2 ^ 31)%Z with (-2147483648)%Z in H1. lia. }
  destruct (Z.ltb_spec (src + j) (2 ^ 31)) as [H2|H2]; cbn [andb].
  - intros [= <-]. auto.
  - destruct (overflow_checks E); [discriminate|]. change (2 ^ 31)%Z with 2147483648%Z in H2. change (2 ^ 32)%Z with 4294967296%Z.
    rewrite Z.mod_small by lia. rewrite as_i32_neg by lia. intros [= <-]. lia.
Qed.

Definition in_i32' (z : Z) := (- 2 ^ 31 <= z < 2 ^ 31)%Z.
Lemma validate_jump_Ok bc src j : increasing 0 (opcodes bc) -> (0 <= src < 2 ^ 31)%Z -> in_i32' j ->
  (forall o, In o (map fst (opcodes bc)) -> o < 2 ^ 31) ->
  (validate_jump E bc src j = Ok tt <-> exists o', In o' (map fst (opcodes bc)) /\ (src + j)%Z = Z.of_N o').
Proof.
  intros Hinc Hs Hj Hbig. unfold validate_jump. rewrite obind_Ok. unfold usize_of_i32. split.
  - intros (t & Ht & H). destruct (Z.ltb_spec t 0); [discriminate|]. apply i32_result_pos in Ht; auto. subst t.
    destruct (get_opcode_index_spec bc (Z.to_N (src + j)) Hinc) as (r & Hr & Hspec). rewrite Hr in H. cbn [obind] in H.
    destruct r as [i|]; [|discriminate]. destruct Hspec as (op & Hi). exists (Z.to_N (src + j)).
    split; [|lia]. apply nth_error_In in Hi. apply (in_map fst) in Hi. exact Hi.
  - intros (o' & Hin & Heq). specialize (Hbig _ Hin). exists (Z.of_N o'). rewrite Heq.
    change (2 ^ 31) with 2147483648 in *. split.
    { unfold i32_result, in_i32. change (- 2 ^ 31)%Z with (-2147483648)%Z. change (2 ^ 31)%Z with 2147483648%Z.
      replace (-2147483648 <=? Z.of_N o')%Z with true by lia. replace (Z.of_N o' <? 2147483648)%Z with true by lia. reflexivity. }
    replace (Z.of_N o' <? 0)%Z with false by lia.
    destruct (get_opcode_index_spec bc (Z.to_N (Z.of_N o')) Hinc) as (r & Hr & Hspec). rewrite Hr. cbn [obind].
    destruct r; auto. rewrite N2Z.id in Hspec. contradiction.
Qed.

Lemma validate_all_Ok bc src js : validate_all E bc src js = Ok tt <-> forall j, In j (map snd js) -> validate_jump E bc src j = Ok tt.
Proof.
  induction js as [|[c j] js IH]; cbn [validate_all map].
  - split; auto. intros _ j [].
  - rewrite obind_Ok. split.
    + intros ([] & H1 & H2). apply ctx_Ok in H1. rewrite IH in H2. intros j' [<-|Hj]; auto.
    + intro H. exists tt. split; [apply ctx_Ok; apply H; left; reflexivity|]. apply IH. intros j' Hj. apply H. right. exact Hj.
Qed.
Lemma map_snd_enumerate {A} (l : list A) : forall i, map snd (enumerate i l) = l.
Proof. induction l as [|a l IH]; intro i; cbn; [auto|]. rewrite IH. reflexivity. Qed.

Lemma validate_opcode_jumps_Ok bc o op : 
  validate_opcode_jumps E bc o op = Ok tt <->
  o < 2 ^ 31 /\ forall j, In j (targets op) -> validate_jump E bc (Z.of_N o) j = Ok tt.
Proof.
  unfold validate_opcode_jumps, i32_of_usize. change (2 ^ 31) with 2147483648. destruct (N.ltb_spec o 2147483648) as [Ho|Ho].
  2:{ split; [discriminate|]. intros [H _]. lia. }
  assert (Hsw : forall d js, (exists a, ctx (lit "default jump offset") (validate_jump E bc (Z.of_N o) d) = Ok a
     /\ validate_all E bc (Z.of_N o) js = Ok tt)
    <-> o < 2147483648 /\ forall j, In j (d :: map snd js) -> validate_jump E bc (Z.of_N o) j = Ok tt).
  { intros d js. split.
    - intros ([] & H1 & H2). apply ctx_Ok in H1. rewrite validate_all_Ok in H2. split; [lia|]. intros j [<-|Hj]; auto.
    - intros [_ H]. exists tt. split; [apply ctx_Ok, H; left; reflexivity|]. apply validate_all_Ok. intros j Hj. apply H. right; auto. }
  destruct op; cbn [targets];
  try (split; [intros _; split; [lia|intros j []]|reflexivity]);
  try (split; [intros H; split; [lia|intros j [<-|[]]; exact H]|intros [_ H]; apply H; left; reflexivity]).
  - rewrite obind_Ok, Hsw, map_map. cbn [snd]. reflexivity.
  - rewrite obind_Ok, Hsw, map_map. cbn [snd]. rewrite map_snd_enumerate. reflexivity.
Qed.

Lemma validate_jumps_Ok bc ops : validate_jumps E bc ops = Ok tt <->
  forall o op, In (o, op) ops -> o < 2 ^ 31 /\ forall j, In j (targets op) -> validate_jump E bc (Z.of_N o) j = Ok tt.
Proof.
  induction ops as [|[o op] ops IH]; cbn [validate_jumps].
  - split; auto. intros _ o op [].
  - rewrite obind_Ok. split.
    + intros ([] & H1 & H2). apply ctx_Ok in H1. apply validate_opcode_jumps_Ok in H1. rewrite IH in H2.
      intros o' op' [[= <- <-]|Hi]; auto.
    + intro H. exists tt. split; [apply ctx_Ok, validate_opcode_jumps_Ok; apply H; left; reflexivity|].
      apply IH. intros o' op' Hi. apply H. right; auto.
Qed.

Lemma many_In {A} (F : A -> lang) l w a : many F l w -> In a l -> exists u, F a u.
Proof.
  revert w. induction l as [|x l IH]; intros w H Ha; [destruct Ha|].
  destruct H as (u & v & -> & Hu & Hv). destruct Ha as [<-|Ha]; eauto.
Qed.
Lemma s2_s4_range j w : s2 j w -> in_i32' j.
Proof.
  intros (_ & H & _). unfold in_i32'. change (- 2 ^ 31)%Z with (-2147483648)%Z. change (2 ^ 31)%Z with 2147483648%Z.
  change (Z.of_nat 2) with 2%Z in H. change (8 * 2 - 1)%Z with 15%Z in H.
  change (- 2 ^ 15)%Z with (-32768)%Z in H. change (2 ^ 15)%Z with 32768%Z in H. lia.
Qed.
Lemma targets_range o op w j : insn_lang dec sl wraps o op w -> In j (targets op) -> in_i32' j.
Proof.
  intros H Hj. destruct op; cbn [targets] in Hj; try contradiction; cbn [insn_lang] in H; unfold jump, alt in H;
  try (destruct Hj as [<-|[]]);
  repeat match type of H with _ \/ _ => destruct H as [H|H] end;
  try (destruct H as (u & v & -> & _ & H); first [exact (s2_s4_range _ _ H)|exact (s4_range _ _ H)]).
  - fwd. destruct Hj as [<-|Hj]; [eapply s4_range; eassumption|].
    apply in_map_iff in Hj. destruct Hj as ([m f] & <- & Hj).
    match goal with Hm : many _ _ _ |- _ => destruct (many_In _ _ _ _ Hm Hj) as (u' & H') end.
    fwd. eapply s4_range; eassumption.
  - fwd. destruct Hj as [<-|Hj]; [eapply s4_range; eassumption|].
    match goal with Hm : many _ _ _ |- _ => destruct (many_In _ _ _ _ Hm Hj) as (u' & H') end.
    eapply s4_range; eassumption.
Qed.
Lemma insns_targets : forall ops o w o' op j, insns_lang dec sl wraps o ops w -> In (o', op) ops -> In j (targets op) -> in_i32' j.
Proof.
  induction ops as [|[off op'] ops IH]; intros o w o' op j H Hi Hj; [destruct Hi|].
  destruct H as (-> & u & v & -> & Hu & Hv). destruct Hi as [[= <- <-]|Hi]; eauto. eapply targets_range; eauto.
Qed.

Lemma bytecode_from_Ok code bc : fits E code ->
  (bytecode_from E code P = Ok bc <-> code_format dec sl wraps bc code).
Proof.
  intro Hfit. unfold bytecode_from, code_format. rewrite obind_Ok. 
  assert (Hmain : forall ops, insns_lang dec sl wraps 0 ops code ->
    (validate_jumps E (mk_bc ops) ops = Ok tt <-> jumps_valid ops)).
  { intros ops Hops. pose proof (insns_increasing _ _ _ Hops) as Hinc. rewrite validate_jumps_Ok. unfold jumps_valid.
    assert (Hbig : (forall o op, In (o, op) ops -> o < 2 ^ 31) -> forall o, In o (map fst ops) -> o < 2 ^ 31).
    { intros H o Hi. apply in_map_iff in Hi. destruct Hi as ([o' op] & <- & Hi). eauto. }
    split; intros H o op Hi; destruct (H o op Hi) as [Ho Hj]; (split; [exact Ho|]); intros j Hin;
    specialize (Hj j Hin); apply (validate_jump_Ok (mk_bc ops) (Z.of_N o) j) in Hj || apply (validate_jump_Ok (mk_bc ops) (Z.of_N o) j);
    auto; try (change (2 ^ 31)%Z with 2147483648%Z; change (2 ^ 31) with 2147483648 in Ho; lia);
    try (eapply insns_targets; eauto); try (apply Hbig; intros o1 op1 Hi1; apply (H o1 op1 Hi1)). }
  split.
  - intros (ops & H1 & H). apply obind_Ok in H. destruct H as ([] & H2 & [= <-]). cbn [opcodes].
    apply read_opcodes_Ok in H1; auto. split; auto. apply Hmain; auto.
  - intros [H1 H2]. destruct bc as [ops]. cbn [opcodes] in *. exists ops. split; [apply read_opcodes_Ok; auto|].
    apply obind_Ok. exists tt. split; auto. apply Hmain; auto.
Qed.
End WithEnv.
