(** * When decoding of bytecode panics, exactly. *)
From Verif Require Import Base M_Names M_Descriptors M_ConstantPool M_Bytecode M_Attributes M_Class
  S_Lang S_Names S_Format S_Pool S_Items S_Safe S_Faults S_Panics P_Names P_Descriptors P_Reads P_Pool2 P_Pool3 P_Pool4 P_Refs P_Tac P_Insn P_Insn2 P_Bytecode
  P_Safe P_Safe2 P_Safe4 P_Faults.
From Coq Require Import ZifyBool ZifyNat ZifyN.

Notation none := (fun _ : panic => False).
Lemma calm {A} (R : A -> Prop) o x : ends none R o -> o <> Panic x.
Proof. destruct o; cbn; auto; discriminate. Qed.
Lemma calm_at {A} bs ix (R : A -> N -> Prop) p x : runs_at bs none ix R p -> p bs ix <> Panic x.
Proof. apply calm. Qed.

(** A sequence panics if the first part does, or the second after it. *)
Lemma panic_bind_at {A B} E (p : parser A) (k : A -> parser B) L pre rest x : reads_at E (blen pre) p L -> fits E (pre ++ rest) ->
  (bind p k (pre ++ rest) (blen pre) = Panic x <->
   p (pre ++ rest) (blen pre) = Panic x \/ exists a u v, rest = u ++ v /\ L a u /\ k a ((pre ++ u) ++ v) (blen (pre ++ u)) = Panic x).
Proof.
  intros Hp Hf. unfold bind. destruct (p (pre ++ rest) (blen pre)) as [[a ix]| | |] eqn:Hk.
  - assert (Hk' := Hk). apply Hp in Hk'; auto; [|rewrite blen_app; lia]. destruct Hk' as (pre' & u & v & Heq & Hb & -> & Ha).
    apply app_eq_blen in Heq; auto. destruct Heq as [<- ->]. rewrite <- blen_app, app_assoc. split.
    + intro H. right. exists a, u, v. auto.
    + intros [H|(a' & u' & v' & He & Ha' & H)]; [discriminate|].
      assert (Hk' : p (pre ++ u' ++ v') (blen pre) = Ok (a', blen pre + blen u')) by (apply Hp; [rewrite <- He; auto|rewrite !blen_app; lia|exists pre, u', v'; auto]).
      rewrite <- He, Hk in Hk'. injection Hk' as <- Hl. rewrite <- app_assoc, He, app_assoc, blen_app, Hl, <- blen_app. exact H.
  - split; [discriminate|]. intros [H|(a' & u' & v' & -> & Ha' & H)]; [discriminate|].
    assert (Hk' : p (pre ++ u' ++ v') (blen pre) = Ok (a', blen pre + blen u')) by (apply Hp; [auto|rewrite !blen_app; lia|exists pre, u', v'; auto]). congruence.
  - split; [intros [= ->]; auto|]. intros [H|(a' & u' & v' & -> & Ha' & H)]; [congruence|].
    assert (Hk' : p (pre ++ u' ++ v') (blen pre) = Ok (a', blen pre + blen u')) by (apply Hp; [auto|rewrite !blen_app; lia|exists pre, u', v'; auto]). congruence.
  - split; [discriminate|]. intros [H|(a' & u' & v' & -> & Ha' & H)]; [discriminate|].
    assert (Hk' : p (pre ++ u' ++ v') (blen pre) = Ok (a', blen pre + blen u')) by (apply Hp; [auto|rewrite !blen_app; lia|exists pre, u', v'; auto]). congruence.
Qed.
Lemma panic_step {A B} E (p : parser A) (k : A -> parser B) L pre rest x : reads E p L -> fits E (pre ++ rest) -> p (pre ++ rest) (blen pre) <> Panic x ->
  (bind p k (pre ++ rest) (blen pre) = Panic x <-> exists a u v, rest = u ++ v /\ L a u /\ k a ((pre ++ u) ++ v) (blen (pre ++ u)) = Panic x).
Proof. intros Hp Hf Hc. rewrite (panic_bind_at E p k L); auto. tauto. Qed.
(** Nothing after the first part panics. *)
Lemma panic_bind_calm {A B} (p : parser A) (k : A -> parser B) bs ix x : (forall a ix', k a bs ix' <> Panic x) -> (bind p k bs ix = Panic x <-> p bs ix = Panic x).
Proof.
  intro Hk. unfold bind. destruct (p bs ix) as [[a ix']|e|y|]; split; intro H; try discriminate; try congruence.
Qed.
Lemma panic_lift {A} (m : outcome A) bs ix x : lift m bs ix = Panic x <-> m = Panic x.
Proof. unfold lift. destruct m; split; congruence. Qed.
Lemma panic_pctx {A} c (p : parser A) bs ix x : pctx c p bs ix = Panic x <-> p bs ix = Panic x.
Proof. unfold pctx, ctx. destruct (p bs ix); split; congruence. Qed.
Lemma panic_obind {A B} (m : outcome A) (f : A -> outcome B) x : obind m f = Panic x <-> m = Panic x \/ exists a, m = Ok a /\ f a = Panic x.
Proof.
  destruct m; cbn [obind]; split; try discriminate.
  - intro H. right. eauto.
  - intros [H|(b & [= <-] & H)]; [discriminate|auto].
  - intros [H|(b & H & _)]; discriminate.
  - intros [= ->]. auto.
  - intros [[= ->]|(b & H & _)]; [auto|discriminate].
  - intros [H|(b & H & _)]; discriminate.
Qed.
Lemma panic_ctx {A} c (m : outcome A) x : ctx c m = Panic x <-> m = Panic x.
Proof. destruct m; cbn; split; congruence. Qed.

Section Code.
Variable E : env.
Variable cs : list constant.
Variable major : N.
Notation dec := (cesu8 E).
Notation sl := (slots_of cs).
Notation P := (pool_of dec sl).
Notation checks := (overflow_checks E).
Notation wraps := (negb (overflow_checks E)).
Hypothesis Hvalid : Forall (valid_constant dec sl major) cs.
Notation reserve_breaks := (reserve_breaks (usize_max E) (alloc_limit E)).
Notation switch_breaks := (switch_breaks checks (usize_max E) (alloc_limit E)).

Lemma capacity_panics n size x : with_capacity E n size = Panic x <-> reserve_breaks x (Z.of_N (n * size)).
Proof.
  unfold with_capacity, S_Panics.reserve_breaks. destruct (N.ltb_spec (usize_max E / 2) (n * size)) as [H|H].
  - split; [intros [= <-]; left; split; auto; lia|]. intros [[-> _]|(_ & H1 & _)]; [reflexivity|]. lia.
  - destruct (N.ltb_spec (alloc_limit E) (n * size)) as [H1|H1].
    + split; [intros [= <-]; right; split; auto; lia|]. intros [[-> H2]|(-> & _)]; [lia|reflexivity].
    + split; [discriminate|]. intros [[_ H2]|(_ & _ & H2)]; lia.
Qed.
Lemma big_calm {A} count (body : N -> parser A) bs ix x : ix <= blen bs -> (forall j ix', runs_at bs none ix' (fun _ ix2 => ix' < ix2 /\ True) (body j)) -> for_big count body bs ix <> Panic x.
Proof. intros Hix Hb. eapply calm_at. apply (runs_for_big bs none (fun _ => True)); auto. Qed.
Lemma one_s4 bs ix : runs_at bs none ix (fun _ ix2 => ix < ix2 /\ True) (j <- read_u4 ;; ret (as_i32 j)).
Proof. eapply runs_bind; [apply run_u4|]. intros j i [-> _] L. eapply runs_weaken; [apply runs_ret; lia|]. intros a i' _ [_ ->]. lia. Qed.
Lemma one_s44 bs ix : runs_at bs none ix (fun _ ix2 => ix < ix2 /\ True) (m <- read_u4 ;; o <- read_u4 ;; ret (as_i32 m, as_i32 o)).
Proof.
  eapply runs_bind; [apply run_u4|]. intros j i [-> _] L. eapply runs_bind; [apply run_u4|]. intros j' i [-> _] L'.
  eapply runs_weaken; [apply runs_ret; lia|]. intros a i' _ [_ ->]. lia.
Qed.
Lemma u4_calm bs ix x : read_u4 bs ix <> Panic x.
Proof. eapply calm_at, run_u4. Qed.

(** After an opcode at the end of [w]: padding, and then [k]. *)
Lemma align_panics {A} (k : N -> parser A) w b rest x : fits E (w ++ b :: rest) ->
  (bind align4 (fun _ => bind read_u4 k) (w ++ b :: rest) (blen w + 1) = Panic x <->
   exists gap v, rest = gap ++ v /\ pad (blen w) gap /\ bind read_u4 k ((w ++ b :: gap) ++ v) (blen (w ++ b :: gap)) = Panic x).
Proof.
  intro Hf. set (g := (3 - blen w mod 4) mod 4).
  assert (Hal : bind align4 (fun _ => bind read_u4 k) (w ++ b :: rest) (blen w + 1) = bind read_u4 k (w ++ b :: rest) (blen w + 1 + g)).
  { unfold bind at 1, align4. unfold bind at 1, get_ix, set_ix. rewrite align4_eq. reflexivity. }
  rewrite Hal. clear Hal. destruct (N.leb_spec g (blen rest)) as [Hle|Hgt].
  - destruct (split_at rest g Hle) as (gap & v & -> & Hg). replace (w ++ b :: gap ++ v) with ((w ++ b :: gap) ++ v) by (rewrite <- app_assoc; reflexivity).
    replace (blen w + 1 + g) with (blen (w ++ b :: gap)) by (rewrite blen_app, <- Hg; unfold blen; cbn [length]; lia). split.
    + intro H. exists gap, v. split; auto.
    + intros (gap' & v' & He & Hg' & H). unfold pad, blob in Hg'. fold g in Hg'. apply app_eq_blen in He; [|unfold blen in *; lia]. destruct He as [<- <-]. exact H.
  - split.
    + intro H. exfalso. unfold bind in H. unfold read_u4, fail in H. replace (_ <? _) with true in H; [discriminate|].
      symmetry. apply N.ltb_lt. rewrite blen_app. unfold blen in *. cbn [length]. lia.
    + intros (gap & v & -> & Hg & _). rewrite blen_app in Hgt. unfold pad, blob in Hg. fold g in Hg. unfold blen in *. lia.
Qed.

Lemma tableswitch_panics w rest x : fits E (w ++ xaa :: rest) ->
  (read_tableswitch E (w ++ xaa :: rest) (blen w + 1) = Panic x <-> switch_breaks x (N.of_nat (length w)) (xaa :: rest)).
Proof.
  intro Hf. unfold read_tableswitch. rewrite align_panics by exact Hf. cbv zeta. split.
  - intros (gap & v & -> & Hg & H). left.
    apply (panic_step E _ _ u4) in H; [|apply reads_u4|rewrite <- app_assoc; exact Hf|apply u4_calm]. destruct H as (d & dw & v1 & -> & Hd & H).
    apply (panic_step E _ _ u4) in H; [|apply reads_u4|rewrite <- !app_assoc; exact Hf|apply u4_calm]. destruct H as (lo & lw & v2 & -> & Hlo & H).
    apply (panic_step E _ _ u4) in H; [|apply reads_u4|rewrite <- !app_assoc; exact Hf|apply u4_calm]. destruct H as (hi & hw & v3 & -> & Hhi & H).
    apply P_Tac.u4_s4 in Hlo. apply P_Tac.u4_s4 in Hhi. exists (as_i32 lo), (as_i32 hi), gap, dw, lw, hw, v3. split; [reflexivity|]. split; [exact Hg|]. split; [apply Hd|]. split; [exact Hlo|]. split; [exact Hhi|].
    apply s4_range in Hlo. apply s4_range in Hhi. set (low := as_i32 lo) in *. set (high := as_i32 hi) in *. clearbody low high.
    destruct (high <? low)%Z eqn:Hlt; [discriminate|]. apply Z.ltb_ge in Hlt. split; [exact Hlt|].
    unfold bind at 1, lift at 1 in H. unfold i32_result at 1 in H. unfold in_i32 in H. change (- 2 ^ 31)%Z with (-2147483648)%Z in *. change (2 ^ 31)%Z with 2147483648%Z in *.
    pose proof (i32_sub_add E low high) as Hsa. change (- 2 ^ 31)%Z with (-2147483648)%Z in *. change (2 ^ 31)%Z with 2147483648%Z in *.
    destruct ((-2147483648 <=? high - low)%Z && (high - low <? 2147483648)%Z)%bool eqn:Hin.
    2:{ destruct checks eqn:Hc; [injection H as <-; left; split; auto; split; auto; lia|]. exfalso.
        unfold bind at 1, lift at 1 in H. destruct (i32_result E (as_i32 (Z.to_N ((high - low) mod 2 ^ 32)) + 1)) as [r| | |] eqn:Hr; try discriminate; [|unfold i32_result in Hr; rewrite Hc in Hr; destruct (in_i32 _); discriminate].
        unfold usize_of_i32 in H. destruct (r <? 0)%Z eqn:Hneg; [discriminate|]. apply Z.ltb_ge in Hneg.
        destruct (proj1 (Hsa r Hlo Hhi Hlt)) as [[H1 _]|(_ & _ & _ & ->)].
        { split; [|exact Hneg]. eexists. split; [|exact Hr]. unfold i32_result, in_i32. change (- 2 ^ 31)%Z with (-2147483648)%Z. change (2 ^ 31)%Z with 2147483648%Z. rewrite Hin, Hc. reflexivity. }
        { lia. }
        unfold bind at 1, lift at 1 in H. replace (with_capacity E (Z.to_N 0) 4) with (Ok tt) in H.
        2:{ destruct (with_capacity E (Z.to_N 0) 4) as [[]| |y|] eqn:Hw; auto; try (unfold with_capacity in Hw; repeat (destruct (_ <? _)); discriminate).
            apply capacity_panics in Hw. destruct Hw as [[_ Hw]|(_ & _ & Hw)]; lia. }
        rewrite panic_bind_calm in H by (intros; discriminate). revert H. apply big_calm; [rewrite !blen_app; lia|intros; apply one_s4]. }
    unfold bind at 1, lift at 1 in H. unfold i32_result at 1 in H. unfold in_i32 in H. change (- 2 ^ 31)%Z with (-2147483648)%Z in *. change (2 ^ 31)%Z with 2147483648%Z in *.
    destruct ((-2147483648 <=? high - low + 1)%Z && (high - low + 1 <? 2147483648)%Z)%bool eqn:Hin2.
    2:{ destruct checks eqn:Hc; [injection H as <-; left; split; auto; split; auto; lia|]. exfalso. unfold usize_of_i32 in H.
        assert (He : (high - low + 1 = 2147483648)%Z) by lia. rewrite He in H. change (as_i32 (Z.to_N (2147483648 mod 2 ^ 32)) <? 0)%Z with true in H. discriminate. }
    unfold usize_of_i32 in H. destruct (high - low + 1 <? 0)%Z eqn:Hneg; [lia|].
    right. split; [lia|]. unfold bind at 1, lift at 1 in H. destruct (with_capacity E (Z.to_N (high - low + 1)) 4) as [[]| |y|] eqn:Hw; try discriminate.
    + exfalso. rewrite panic_bind_calm in H by (intros; discriminate). revert H. apply big_calm; [rewrite !blen_app; lia|intros; apply one_s4].
    + injection H as ->. apply capacity_panics in Hw. replace (Z.of_N (Z.to_N (high - low + 1) * 4)) with (4 * (high - low + 1))%Z in Hw by lia. exact Hw.
  - intros [(low & high & gap & dw & lw & hw & v & He & Hg & Hd & Hlo & Hhi & Hle & H)|(n & gap & dw & nw & v & He & _)]; [|discriminate].
    cbn [app] in He. injection He as ->. exists gap, (dw ++ lw ++ hw ++ v). split; auto. split; [exact Hg|].
    pose proof (s4_range _ _ Hlo) as Rlo. pose proof (s4_range _ _ Hhi) as Rhi.
    apply P_Tac.s4_u4 in Hlo. destruct Hlo as (lo & Hlo & ->). apply P_Tac.s4_u4 in Hhi. destruct Hhi as (hi & Hhi & ->).
    apply (panic_step E _ _ u4); [apply reads_u4|rewrite <- !app_assoc; exact Hf|apply u4_calm|]. exists (be dw), dw, (lw ++ hw ++ v). split; auto. split; [split; auto|].
    apply (panic_step E _ _ u4); [apply reads_u4|rewrite <- !app_assoc; exact Hf|apply u4_calm|]. exists lo, lw, (hw ++ v). split; auto. split; [exact Hlo|].
    apply (panic_step E _ _ u4); [apply reads_u4|rewrite <- !app_assoc; exact Hf|apply u4_calm|]. exists hi, hw, v. split; auto. split; [exact Hhi|].
    clear Hlo Hhi. set (low := as_i32 lo) in *. set (high := as_i32 hi) in *. clearbody low high. rename H into H2.
    replace (high <? low)%Z with false by lia. unfold bind at 1, lift at 1. unfold i32_result at 1, in_i32. change (- 2 ^ 31)%Z with (-2147483648)%Z in *. change (2 ^ 31)%Z with 2147483648%Z in *.
    destruct H2 as [(Hc & -> & Hbig)|[Hsmall Hr]].
    + destruct ((-2147483648 <=? high - low)%Z && (high - low <? 2147483648)%Z)%bool eqn:Hin; [|rewrite Hc; reflexivity].
      unfold bind at 1, lift at 1. unfold i32_result at 1, in_i32. change (- 2 ^ 31)%Z with (-2147483648)%Z in *. change (2 ^ 31)%Z with 2147483648%Z in *.
      replace (high - low + 1 <? 2147483648)%Z with false by lia. rewrite Bool.andb_false_r, Hc. reflexivity.
    + replace ((-2147483648 <=? high - low)%Z && (high - low <? 2147483648)%Z)%bool with true by lia.
      unfold bind at 1, lift at 1. unfold i32_result at 1, in_i32. change (- 2 ^ 31)%Z with (-2147483648)%Z in *. change (2 ^ 31)%Z with 2147483648%Z in *.
      replace ((-2147483648 <=? high - low + 1)%Z && (high - low + 1 <? 2147483648)%Z)%bool with true by lia.
      unfold usize_of_i32. replace (high - low + 1 <? 0)%Z with false by lia. unfold bind at 1, lift at 1.
      replace (4 * (high - low + 1))%Z with (Z.of_N (Z.to_N (high - low + 1) * 4)) in Hr by lia. apply capacity_panics in Hr. rewrite Hr. reflexivity.
Qed.
Lemma lookupswitch_panics w rest x : fits E (w ++ xab :: rest) ->
  (read_lookupswitch E (w ++ xab :: rest) (blen w + 1) = Panic x <-> switch_breaks x (N.of_nat (length w)) (xab :: rest)).
Proof.
  intro Hf. unfold read_lookupswitch. rewrite align_panics by exact Hf. cbv zeta. split.
  - intros (gap & v & -> & Hg & H). right.
    apply (panic_step E _ _ u4) in H; [|apply reads_u4|rewrite <- app_assoc; exact Hf|apply u4_calm]. destruct H as (d & dw & v1 & -> & Hd & H).
    apply (panic_step E _ _ u4) in H; [|apply reads_u4|rewrite <- !app_assoc; exact Hf|apply u4_calm]. destruct H as (n & nw & v2 & -> & Hn & H).
    apply P_Tac.u4_s4 in Hn. exists (as_i32 n), gap, dw, nw, v2. split; [reflexivity|]. split; [exact Hg|]. split; [apply Hd|]. split; [exact Hn|].
    destruct (as_i32 n <? 0)%Z eqn:Hneg; [discriminate|]. split; [lia|]. unfold usize_of_i32 in H. rewrite Hneg in H.
    unfold bind at 1, lift at 1 in H. destruct (with_capacity E (Z.to_N (as_i32 n)) 8) as [[]| |y|] eqn:Hw; try discriminate.
    + exfalso. rewrite panic_bind_calm in H by (intros; discriminate). revert H. apply big_calm; [rewrite !blen_app; lia|intros; apply one_s44].
    + injection H as ->. apply capacity_panics in Hw. replace (Z.of_N (Z.to_N (as_i32 n) * 8)) with (8 * as_i32 n)%Z in Hw by lia. exact Hw.
  - intros [(low & high & gap & dw & lw & hw & v & He & _)|(n & gap & dw & nw & v & He & Hg & Hd & Hn & Hpos & Hr)]; [discriminate|].
    cbn [app] in He. injection He as ->. exists gap, (dw ++ nw ++ v). split; auto. split; [exact Hg|].
    apply P_Tac.s4_u4 in Hn. destruct Hn as (k & Hk & ->).
    apply (panic_step E _ _ u4); [apply reads_u4|rewrite <- !app_assoc; exact Hf|apply u4_calm|]. exists (be dw), dw, (nw ++ v). split; auto. split; [split; auto|].
    apply (panic_step E _ _ u4); [apply reads_u4|rewrite <- !app_assoc; exact Hf|apply u4_calm|]. exists k, nw, v. split; auto. split; [exact Hk|].
    replace (as_i32 k <? 0)%Z with false by lia. unfold usize_of_i32. replace (as_i32 k <? 0)%Z with false by lia. unfold bind at 1, lift at 1.
    replace (8 * as_i32 k)%Z with (Z.of_N (Z.to_N (as_i32 k) * 8)) in Hr by lia. apply capacity_panics in Hr. rewrite Hr. reflexivity.
Qed.
(** Other instructions do not panic. *)
Ltac plain := apply runs_ret_any; lia.
Lemma wide_calm code ix : runs_at code none ix any_result read_wide.
Proof.
  unfold read_wide. eapply runs_bind; [apply run_u1|]. intros v i1 [-> _] L1. destruct v as [|v]; [exact I|].
  do 8 (try destruct v as [v|v|]); try exact I; repeat (eapply runs_bind; [apply run_u2|intros]); plain.
Qed.
Lemma newarray_calm code ix : runs_at code none ix any_result read_newarray.
Proof.
  unfold read_newarray. eapply runs_bind; [apply run_u1|]. intros v i1 [-> _] L1. eapply runs_bind with (R := any_result); [|intros; plain].
  destruct v as [|v]; [exact I|]. do 4 (try destruct v as [v|v|]); try exact I; plain.
Qed.
Lemma invokeinterface_calm code ix : runs_at code none ix any_result (read_invokeinterface P).
Proof.
  unfold read_invokeinterface. eapply runs_bind; [eapply run_cp_memberref; eauto|]. intros m i1 _ L1. eapply runs_bind; [apply run_u1|]. intros n i2 _ L2.
  eapply runs_bind; [apply run_u1|]. intros z i3 _ L3. destruct (negb (z =? 0)); [exact I|plain].
Qed.
Lemma invokedynamic_calm code ix : runs_at code none ix any_result (read_invokedynamic_insn P).
Proof.
  unfold read_invokedynamic_insn. eapply runs_bind; [eapply run_cp_invokedynamic; eauto|]. intros m i1 _ L1. eapply runs_bind; [apply run_u2|]. intros n i2 _ L2.
  destruct (negb (n =? 0)); [exact I|plain].
Qed.
Lemma insn_calm code w b rest : fits E code -> code = w ++ b :: rest -> b <> xaa -> b <> xab -> runs_at code none (blen w + 1) any_result (insn_body E cs (Byte.to_N b)).
Proof.
  intros Hf Hc Ha Hb. assert (L : blen w + 1 <= blen code) by (rewrite Hc, blen_app; unfold blen; cbn [length]; lia). clear Hc.
  destruct b; try (destruct (Ha eq_refl)); try (destruct (Hb eq_refl)); clear Ha Hb; cbn [Byte.to_N insn_body]; try exact I; try plain.
  all: try (eapply runs_bind; [apply run_u2|]; intros ? ? [-> ?] ?; plain).
  all: try (eapply runs_bind; [apply run_u4|]; intros ? ? [-> ?] ?; plain).
  all: try apply wide_calm. all: try apply newarray_calm. all: try apply invokeinterface_calm. all: try apply invokedynamic_calm.
  all: try (eapply runs_bind; [apply run_u1|]; intros ? ? [-> ?] ?; plain).
  all: try (eapply runs_bind; [eapply run_cp_memberref; eauto|]; intros; plain). all: try (eapply runs_bind; [eapply run_cp_object_array_type; eauto|]; intros; plain).
  all: try (eapply runs_bind; [eapply run_cp_classinfo; eauto|]; intros; plain).
  1-3: (eapply runs_bind; [apply run_u1 || apply run_u2|]; intros ? ? [-> ?] ?; eapply runs_bind; [eapply runs_lift; [lia|eapply ends_loadable; eauto]|]; intros; plain).
  - eapply runs_bind; [apply run_u1|]; intros ? ? [-> ?] ?. eapply runs_bind; [apply run_u1|]; intros ? ? [-> ?] ?. plain.
  - eapply runs_bind; [eapply run_cp_object_array_type; eauto|]; intros. eapply runs_bind; [apply run_u1|]; intros. plain.
Qed.
Lemma insn_panics w rest x : fits E (w ++ rest) -> (read_insn E P (w ++ rest) (blen w) = Panic x <-> switch_breaks x (N.of_nat (length w)) rest).
Proof.
  intro Hf. rewrite (read_insn_body E cs). rewrite (panic_bind_at E _ _ (fun n u => exists b, u = [b] /\ n = Byte.to_N b)); auto; [|apply reads_byte].
  destruct rest as [|b rest].
  - split.
    + intros [H|(a & u & v & He & (b & -> & _) & _)]; [|discriminate]. exfalso. revert H. eapply calm_at, run_u1.
    + intros [(low & high & gap & dw & lw & hw & v & He & _)|(n & gap & dw & nw & v & He & _)]; discriminate.
  - assert (Hb : (read_u1 (w ++ b :: rest) (blen w) = Panic x \/ exists a u v, b :: rest = u ++ v /\ (exists b, u = [b] /\ a = Byte.to_N b) /\ insn_body E cs a ((w ++ u) ++ v) (blen (w ++ u)) = Panic x)
        <-> insn_body E cs (Byte.to_N b) (w ++ b :: rest) (blen w + 1) = Panic x).
    { replace (w ++ b :: rest) with ((w ++ [b]) ++ rest) by (rewrite <- app_assoc; reflexivity). replace (blen w + 1) with (blen (w ++ [b])) by (rewrite blen_app; reflexivity). split.
      - intros [H|(a & u & v & He & (b' & -> & ->) & H)]; [exfalso; revert H; eapply calm_at, run_u1|]. cbn [app] in He. injection He as <- <-. exact H.
      - intro H. right. exists (Byte.to_N b), [b], rest. split; auto. split; eauto. }
    rewrite Hb. clear Hb. destruct (Byte.byte_eq_dec b xaa) as [->|Ha]; [apply tableswitch_panics; exact Hf|]. destruct (Byte.byte_eq_dec b xab) as [->|Hl]; [apply lookupswitch_panics; exact Hf|].
    split.
    + intro H. exfalso. revert H. eapply calm_at, (insn_calm (w ++ b :: rest) w b rest); auto.
    + intros [(low & high & gap & dw & lw & hw & v & He & _)|(n & gap & dw & nw & v & He & _)]; cbn [app] in He; congruence.
Qed.
Lemma opcodes_panics fuel : forall w rest x, fits E (w ++ rest) -> (length rest < fuel)%nat ->
  (opcodes_loop E P fuel (w ++ rest) (blen w) = Panic x <->
   exists ops u v, rest = u ++ v /\ insns_lang dec sl wraps (blen w) ops u /\ switch_breaks x (N.of_nat (length (w ++ u))) v).
Proof.
  induction fuel as [|fuel IH]; intros w rest x Hf Hfuel; [lia|]. cbn [opcodes_loop]. destruct (N.ltb_spec (blen w) (blen (w ++ rest))) as [Hlt|Hge].
  - rewrite (panic_bind_at E _ _ (insn_lang dec sl wraps (blen w))); auto; [|apply (reads_insn E cs)]. rewrite insn_panics by exact Hf. split.
    + intros [H|(op & u & v & -> & Hop & H)].
      * exists [], [], rest. rewrite app_nil_r. split; auto. split; [reflexivity|exact H].
      * rewrite panic_bind_calm in H by (intros; discriminate). assert (Hne : u <> []) by (eapply insn_nonempty; eauto).
        apply IH in H; [|rewrite <- app_assoc; auto|rewrite app_length in Hfuel; destruct u; [congruence|cbn [length] in Hfuel; lia]].
        destruct H as (ops & u' & v' & -> & Hops & H). exists ((blen w, op) :: ops), (u ++ u'), v'. split; [rewrite app_assoc; auto|]. split.
        { cbn [insns_lang]. split; auto. exists u, u'. split; auto. split; auto. rewrite blen_app in Hops. exact Hops. }
        { rewrite app_assoc. exact H. }
    + intros ([|[off op] ops] & u & v & -> & Hops & H).
      * unfold insns_lang, eps in Hops. subst u. rewrite app_nil_r in H. left. exact H.
      * destruct Hops as (-> & u1 & u' & -> & Hop & Hops). right. exists op, u1, (u' ++ v). split; [rewrite app_assoc; auto|]. split; auto.
        rewrite panic_bind_calm by (intros; discriminate). assert (Hne : u1 <> []) by (eapply insn_nonempty; eauto).
        apply IH; [rewrite <- !app_assoc in *; auto|rewrite !app_length in *; destruct u1; [congruence|cbn [length] in Hfuel; lia]|].
        exists ops, u', v. split; auto. rewrite app_assoc in H. split; [|exact H]. rewrite blen_app. exact Hops.
  - split; [discriminate|]. intros (ops & u & v & -> & _ & H). rewrite !blen_app in Hge. assert (v = []) as -> by (destruct v; auto; unfold blen in Hge; cbn [length] in Hge; lia).
    destruct H as [(low & high & gap & dw & lw & hw & v & He & _)|(n & gap & dw & nw & v & He & _)]; discriminate.
Qed.

(** ** Jumps *)
Section Jumps.
Variable ops : list (N * opcode).
Hypothesis Hinc : increasing 0 ops.
Notation bc := (mk_bc ops).
Lemma jump_cases o j : o < 2 ^ 31 -> in_i32' j ->
  (validate_jump E bc (Z.of_N o) j = Ok tt <-> lands ops o j) /\
  (forall x, validate_jump E bc (Z.of_N o) j = Panic x <-> checks = true /\ x = POverflow /\ (2 ^ 31 <= Z.of_N o + j)%Z).
Proof.
  intros Ho Hj. unfold in_i32' in Hj. change (- 2 ^ 31)%Z with (-2147483648)%Z in *. change (2 ^ 31)%Z with 2147483648%Z in *. change (2 ^ 31) with 2147483648 in *.
  assert (Hidx : forall n, (exists i, get_opcode_index bc n = Ok (Some i)) /\ In n (map fst ops) \/ get_opcode_index bc n = Ok None /\ ~ In n (map fst ops)).
  { intro n. destruct (get_opcode_index_spec bc n Hinc) as ([i|] & -> & Hr).
    - left. split; eauto. destruct Hr as (op & Hr). apply nth_error_In in Hr. apply (in_map fst) in Hr. exact Hr.
    - right. split; auto. }
  unfold validate_jump, i32_result, in_i32. change (- 2 ^ 31)%Z with (-2147483648)%Z in *. change (2 ^ 31)%Z with 2147483648%Z in *.
  replace (-2147483648 <=? Z.of_N o + j)%Z with true by lia. cbn [andb]. destruct (Z.ltb_spec (Z.of_N o + j) 2147483648) as [Hlt|Hge].
  - cbn [obind]. unfold usize_of_i32. destruct (Z.ltb_spec (Z.of_N o + j) 0) as [Hneg|Hpos].
    + split; [split; [discriminate|intros (o' & _ & _ & He); lia]|]. intro x. split; [discriminate|intros (_ & _ & H); lia].
    + destruct (Hidx (Z.to_N (Z.of_N o + j))) as [[(i & ->) Hin]|[-> Hin]]; cbn [obind].
      * split; [split; [intros _; eexists; split; [exact Hin|]; change (2 ^ 31) with 2147483648; lia|reflexivity]|]. intro x. split; [discriminate|intros (_ & _ & H); lia].
      * split; [split; [discriminate|]|]. { intros (o' & Hin' & _ & He). destruct Hin. replace (Z.to_N (Z.of_N o + j)) with o' by lia. exact Hin'. }
        intro x. split; [discriminate|intros (_ & _ & H); lia].
  - assert (Hno : ~ lands ops o j) by (intros (o' & _ & Hl & He); change (2 ^ 31) with 2147483648 in Hl; lia).
    destruct checks; cbn [obind].
    + split; [split; [discriminate|intro; contradiction]|]. intro x. split; [intros [= <-]; auto|intros (_ & -> & _); reflexivity].
    + change (2 ^ 32)%Z with 4294967296%Z. rewrite Z.mod_small by lia. rewrite as_i32_neg by lia. unfold usize_of_i32.
      replace (Z.of_N o + j - 4294967296 <? 0)%Z with true by lia. split; [split; [discriminate|intro; contradiction]|]. intro x. split; [discriminate|intros (H & _); discriminate].
Qed.
Lemma all_panics o js x : o < 2 ^ 31 -> Forall in_i32' (map snd js) ->
  (validate_all E bc (Z.of_N o) js = Panic x <-> checks = true /\ x = POverflow /\ exists js1 j js2, map snd js = js1 ++ j :: js2
     /\ (forall j', In j' js1 -> lands ops o j') /\ (2 ^ 31 <= Z.of_N o + j)%Z).
Proof.
  intro Ho. induction js as [|[c j] js IH]; intro Hr; cbn [validate_all map snd].
  - split; [discriminate|]. intros (_ & _ & [|] & ? & ? & He & _); discriminate.
  - inversion Hr as [|? ? Hj Hr']; subst. destruct (jump_cases o j Ho Hj) as [Hok Hp]. rewrite panic_obind, panic_ctx, Hp. setoid_rewrite (IH Hr'). split.
    + intros [(Hc & Hx & Hb)|([] & H1 & Hc & Hx & js1 & j' & js2 & He & Hl & Hb)].
      * split; auto. split; auto. exists [], j, (map snd js). split; auto. split; auto. intros ? [].
      * split; auto. split; auto. exists (j :: js1), j', js2. split; [cbn; f_equal; exact He|]. split; auto. intros j1 [<-|Hin]; auto.
        apply Hok. destruct (validate_jump E bc (Z.of_N o) j) as [[]| | |]; try discriminate; reflexivity.
    + intros (Hc & Hx & js1 & j' & js2 & He & Hl & Hb). destruct js1 as [|j1 js1]; cbn [app] in He; injection He as <- He.
      * left. auto.
      * right. exists tt. split; [rewrite (proj2 Hok) by (apply Hl; left; auto); reflexivity|]. split; auto. split; auto. exists js1, j', js2. split; auto. split; auto. intros; apply Hl; right; auto.
Qed.
Lemma opcode_jumps_panics o op x : o < 2 ^ 31 -> Forall in_i32' (targets op) ->
  (validate_opcode_jumps E bc o op = Panic x <-> checks = true /\ x = POverflow /\ exists js1 j js2, targets op = js1 ++ j :: js2
     /\ (forall j', In j' js1 -> lands ops o j') /\ (2 ^ 31 <= Z.of_N o + j)%Z).
Proof.
  intros Ho Hr. unfold validate_opcode_jumps, i32_of_usize. replace (o <? 2 ^ 31) with true by (symmetry; apply N.ltb_lt; exact Ho).
  assert (Hone : forall c j l, targets op = j :: map snd l -> (obind (ctx c (validate_jump E bc (Z.of_N o) j)) (fun _ => validate_all E bc (Z.of_N o) l) = Panic x <->
    checks = true /\ x = POverflow /\ exists js1 j js2, targets op = js1 ++ j :: js2 /\ (forall j', In j' js1 -> lands ops o j') /\ (2 ^ 31 <= Z.of_N o + j)%Z)).
  { intros c j l He. rewrite He in Hr |- *. pose proof (all_panics o ((c, j) :: l) x Ho Hr) as H. cbn [validate_all map snd] in H. exact H. }
  assert (Hsingle : forall j, targets op = [j] -> (validate_jump E bc (Z.of_N o) j = Panic x <->
    checks = true /\ x = POverflow /\ exists js1 j js2, targets op = js1 ++ j :: js2 /\ (forall j', In j' js1 -> lands ops o j') /\ (2 ^ 31 <= Z.of_N o + j)%Z)).
  { intros j He. rewrite <- (Hone [] j [] He). cbn [validate_all]. rewrite panic_obind, panic_ctx. split; [auto|]. intros [H|(_ & _ & H)]; [auto|discriminate]. }
  assert (Hnone : targets op = [] -> (Ok tt = Panic x <->
    checks = true /\ x = POverflow /\ exists js1 j js2, targets op = js1 ++ j :: js2 /\ (forall j', In j' js1 -> lands ops o j') /\ (2 ^ 31 <= Z.of_N o + j)%Z)).
  { intros ->. split; [discriminate|]. intros (_ & _ & [|] & ? & ? & He & _); discriminate. }
  destruct op; try (apply Hnone; reflexivity); try (apply Hsingle; reflexivity).
  - apply Hone. cbn [targets]. rewrite map_map. reflexivity.
  - apply Hone. cbn [targets]. rewrite map_map. cbn [snd]. rewrite map_snd_enumerate. reflexivity.
Qed.
Definition far_jump_in (x : panic) (l : list (N * opcode)) : Prop :=
  checks = true /\ x = POverflow /\ exists ops1 o op ops2 js1 j js2, l = ops1 ++ (o, op) :: ops2 /\ targets op = js1 ++ j :: js2
    /\ (forall o' op' j', In (o', op') ops1 -> In j' (targets op') -> lands ops o' j')
    /\ (forall j', In j' js1 -> lands ops o j') /\ o < 2 ^ 31 /\ (2 ^ 31 <= Z.of_N o + j)%Z.
Lemma jumps_panics x l : forall from, increasing from l -> (forall o op, In (o, op) l -> Forall in_i32' (targets op)) ->
  (validate_jumps E bc l = Panic x <-> far_jump_in x l).
Proof.
  induction l as [|[o op] l IH]; intros from Hi Hr; cbn [validate_jumps].
  - split; [discriminate|]. intros (_ & _ & [|] & ? & ? & ? & ? & ? & ? & He & _); discriminate.
  - cbn [increasing] in Hi. destruct Hi as [Ho Hi]. pose proof (Hr o op (or_introl eq_refl)) as Hop. rewrite panic_obind, panic_ctx.
    assert (IH' := IH (o + 1) Hi (fun o' op' H => Hr o' op' (or_intror H))). setoid_rewrite IH'. clear IH IH'.
    destruct (N.ltb_spec o (2 ^ 31)) as [Hlt|Hge].
    + rewrite (opcode_jumps_panics o op x Hlt Hop). split.
      * intros [(Hc & Hx & js1 & j & js2 & He & Hl & Hb)|([] & Hok & Hc & Hx & ops1 & o' & op' & ops2 & js1 & j & js2 & -> & He & Hl1 & Hl & Hlt' & Hb)].
        { split; auto. split; auto. exists [], o, op, l, js1, j, js2. split; auto. split; auto. split; [intros ? ? ? []|auto]. }
        { split; auto. split; auto. exists ((o, op) :: ops1), o', op', ops2, js1, j, js2. split; auto. split; auto. split; [|auto].
          intros o1 op1 j1 [[= <- <-]|Hin]; [|eauto]. intro Hj. rewrite Forall_forall in Hop. apply jump_cases; auto.
          assert (Hok' : validate_opcode_jumps E bc o op = Ok tt) by (destruct (validate_opcode_jumps E bc o op) as [[]| | |]; try discriminate; reflexivity).
          apply validate_opcode_jumps_Ok in Hok'. apply Hok', Hj. }
      * intros (Hc & Hx & [|[o1 op1] ops1] & o' & op' & ops2 & js1 & j & js2 & He & Ht & Hl1 & Hl & Hlt' & Hb); cbn [app] in He; injection He as <- <- He.
        { left. split; auto. split; auto. exists js1, j, js2. auto. }
        { right. exists tt. split.
          - assert (Hok : validate_opcode_jumps E bc o op = Ok tt).
            { apply validate_opcode_jumps_Ok. split; auto. intros j1 Hj1. rewrite Forall_forall in Hop. apply jump_cases; auto. apply (Hl1 o op); auto. left. auto. }
            rewrite Hok. reflexivity.
          - split; auto. split; auto. exists ops1, o', op', ops2, js1, j, js2. split; auto. split; auto. split; auto. intros; eapply Hl1; eauto. right. eauto. }
    + assert (Hf : exists e, validate_opcode_jumps E bc o op = Err e). { unfold validate_opcode_jumps, i32_of_usize. replace (o <? 2 ^ 31) with false by (symmetry; apply N.ltb_ge; exact Hge). eexists; reflexivity. }
      destruct Hf as (e & ->). cbn [ctx]. split.
      * intros [H|([] & H & _)]; discriminate.
      * intros (_ & _ & ops1 & o' & op' & ops2 & js1 & j & js2 & He & _ & _ & _ & Hlt' & _). exfalso. assert (Hin : In (o', op') ((o, op) :: l)) by (rewrite He; apply in_or_app; right; left; auto).
        destruct Hin as [[= -> _]|Hin]; [lia|]. apply In_nth_error in Hin. destruct Hin as (k & Hk). apply (increasing_nth _ _ _ _ _ Hi) in Hk. lia.
Qed.
End Jumps.

Theorem bytecode_panics code x : fits E code ->
  (bytecode_from E code P = Panic x <-> bytecode_breaks dec checks (usize_max E) (alloc_limit E) sl x code).
Proof.
  intro Hf. unfold bytecode_from. rewrite panic_obind. unfold bytecode_breaks.
  assert (H1 : read_opcodes E P code = Panic x <-> exists ops w rest, code = w ++ rest /\ insns_lang dec sl wraps 0 ops w /\ switch_breaks x (N.of_nat (length w)) rest).
  { unfold read_opcodes. rewrite panic_obind. pose proof (opcodes_panics (S (length code)) [] code x Hf ltac:(lia)) as H. cbn [app] in H. change (blen []) with 0 in H. rewrite H. split; [|auto].
    intros [H0|(a & _ & H0)]; [exact H0|discriminate]. }
  rewrite H1. clear H1. split.
  - intros [H|(ops & Hops & H)]; [left; exact H|right]. apply (read_opcodes_Ok E cs) in Hops; auto. cbv zeta in H. rewrite panic_obind in H. destruct H as [H|(a & _ & H)]; [|discriminate].
    assert (Hi : increasing 0 ops) by (eapply insns_increasing; exact Hops).
    apply (jumps_panics ops Hi x ops 0) in H; auto.
    + destruct H as (Hc & Hx & ops1 & o & op & ops2 & js1 & j & js2 & -> & Ht & Hl1 & Hl & Hlt & Hb). split; auto. split; auto.
      exists ops1, o, op, ops2, js1, j, js2. cbv zeta. auto 10.
    + intros o op Hin. apply Forall_forall. intros j Hj. eapply insns_targets; eauto.
  - intros [H|(Hc & Hx & ops1 & o & op & ops2 & js1 & j & js2 & Hops & Ht & Hl1 & Hl & Hlt & Hb)]; [left; exact H|right].
    exists (ops1 ++ (o, op) :: ops2). split; [apply (read_opcodes_Ok E cs); auto|]. cbv zeta. rewrite panic_obind. left.
    assert (Hi : increasing 0 (ops1 ++ (o, op) :: ops2)) by (eapply insns_increasing; exact Hops).
    apply (jumps_panics _ Hi x _ 0); auto.
    + intros o' op' Hin. apply Forall_forall. intros j' Hj. eapply insns_targets; eauto.
    + split; auto. split; auto. exists ops1, o, op, ops2, js1, j, js2. auto 10.
Qed.
End Code.
