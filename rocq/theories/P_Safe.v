(** * How a run can end: a framework for excluding panics.
    [runs_at bs Q ix R p]: started at [ix] in [bs], [p] ends with a value and an index
    related by [R], or with an error, or with a panic in [Q]; it never runs out of fuel, and
    the index only moves forward within the input. *)
From Verif Require Import Base M_Names M_Descriptors P_Names P_Descriptors P_Reads.
From Coq Require Import ZifyBool ZifyNat ZifyN.

Definition ends {A} (Q : panic -> Prop) (R : A -> Prop) (o : outcome A) : Prop :=
  match o with Ok a => R a | Err _ => True | Panic x => Q x | Diverge => False end.

Section Ends.
Variable Q : panic -> Prop.
Lemma ends_weaken {A} (R R' : A -> Prop) o : ends Q R o -> (forall a, R a -> R' a) -> ends Q R' o.
Proof. destruct o; cbn; auto. Qed.
Lemma ends_bind {A B} (R : A -> Prop) (R' : B -> Prop) m f :
  ends Q R m -> (forall a, m = Ok a -> R a -> ends Q R' (f a)) -> ends Q R' (obind m f).
Proof. destruct m; cbn; auto. Qed.
Lemma ends_ctx {A} (R : A -> Prop) c m : ends Q R m -> ends Q R (ctx c m).
Proof. destruct m; cbn; auto. Qed.
Lemma ends_decides {A} (m : outcome A) P : decides m P -> ends Q P m.
Proof. destruct m; cbn; tauto. Qed.
Lemma ends_Ok {A} (m : outcome A) a (R : A -> Prop) : m = Ok a -> R a -> ends Q R m.
Proof. intros ->; auto. Qed.
Lemma ends_Ok' {A} (m : outcome A) a : m = Ok a -> ends Q (fun _ => True) m.
Proof. intros ->; exact I. Qed.
End Ends.

Section Runs.
Variable bs : list byte.
Variable Q : panic -> Prop.
Definition runs_at {A} (ix : N) (R : A -> N -> Prop) (p : parser A) : Prop :=
  ends Q (fun r => R (fst r) (snd r) /\ ix <= snd r <= blen bs) (p bs ix).
Definition any_result {A} : A -> N -> Prop := fun _ _ => True.

Lemma runs_weaken {A} ix (R R' : A -> N -> Prop) p : runs_at ix R p ->
  (forall a ix', ix <= ix' <= blen bs -> R a ix' -> R' a ix') -> runs_at ix R' p.
Proof. intros H HR. eapply ends_weaken; [exact H|]. intros [a ix']. cbn. intuition. Qed.
Lemma runs_any {A} ix (R : A -> N -> Prop) p : runs_at ix R p -> runs_at ix any_result p.
Proof. intro H. eapply runs_weaken; [exact H|]. intros; exact I. Qed.
Lemma runs_bind {A B} ix (R : A -> N -> Prop) (R' : B -> N -> Prop) p f : runs_at ix R p ->
  (forall a ix', R a ix' -> ix <= ix' <= blen bs -> runs_at ix' R' (f a)) -> runs_at ix R' (bind p f).
Proof.
  unfold runs_at, bind. intros H Hf. destruct (p bs ix) as [[a ix']| | |]; auto. cbn in H. destruct H as [Ha Hi].
  specialize (Hf a ix' Ha Hi). eapply ends_weaken; [exact Hf|]. intros [b ix2]. cbn. intuition lia.
Qed.
Lemma runs_ret {A} ix (a : A) : ix <= blen bs -> runs_at ix (fun b ix' => b = a /\ ix' = ix) (ret a).
Proof. intro H. cbn. auto with zarith. repeat split; auto; lia. Qed.
Lemma runs_ret_any {A} ix (a : A) : ix <= blen bs -> runs_at ix any_result (ret a).
Proof. intro H. eapply runs_any, runs_ret, H. Qed.
Lemma runs_lift {A} ix (R : A -> Prop) m : ix <= blen bs -> ends Q R m -> runs_at ix (fun a ix' => R a /\ ix' = ix) (lift m).
Proof. intros Hi. unfold runs_at, lift. destruct m; cbn; auto. intro. repeat split; auto; lia. Qed.
Lemma runs_pfail {A} ix R m : runs_at ix R (@pfail A m).
Proof. exact I. Qed.
Lemma runs_pfail_at {A} ix R m : runs_at ix R (@pfail_at A m).
Proof. exact I. Qed.
Lemma runs_pctx {A} ix (R : A -> N -> Prop) c p : runs_at ix R p -> runs_at ix R (pctx c p).
Proof. apply ends_ctx. Qed.
Lemma runs_guard ix b m : ix <= blen bs -> runs_at ix (fun _ ix' => b = true /\ ix' = ix) (guard b m).
Proof. intro H. unfold guard. destruct b; [|exact I]. cbn. repeat split; auto; lia. Qed.
Lemma runs_get_ix ix : ix <= blen bs -> runs_at ix (fun a ix' => a = ix /\ ix' = ix) get_ix.
Proof. intro H. cbn. repeat split; auto; lia. Qed.
Lemma runs_get_bytes ix : ix <= blen bs -> runs_at ix (fun a ix' => a = bs /\ ix' = ix) get_bytes.
Proof. intro H. cbn. repeat split; auto; lia. Qed.
Lemma runs_set_ix ix n : ix <= n <= blen bs -> runs_at ix (fun _ ix' => ix' = n) (set_ix n).
Proof. intro H. cbn. repeat split; auto; lia. Qed.

(** The readers of integers may be started anywhere. *)
Lemma byte_at_in i : i < blen bs -> exists b, In b bs /\ byte_at bs i = Ok (Byte.to_N b).
Proof.
  intro H. unfold byte_at. destruct (nth_error bs (N.to_nat i)) as [b|] eqn:Hb.
  - exists b. split; auto. eapply nth_error_In; eauto.
  - apply nth_error_None in Hb. unfold blen in H. lia.
Qed.
Ltac get_byte i := let b := fresh "b" in let Hin := fresh "Hin" in let Hb := fresh "Hb" in
  destruct (byte_at_in i ltac:(lia)) as (b & Hin & Hb); rewrite Hb; cbn [obind].
Lemma lor_lt k a b : a < 2 ^ k -> b < 2 ^ k -> N.lor a b < 2 ^ k.
Proof.
  intros Ha Hb. destruct (N.eq_dec a 0) as [->|Ha0]; [rewrite N.lor_0_l; auto|]. destruct (N.eq_dec b 0) as [->|Hb0]; [rewrite N.lor_0_r; auto|].
  apply N.log2_lt_pow2; [|rewrite N.log2_lor; apply N.max_lub_lt; apply N.log2_lt_pow2; lia].
  pose proof (N.lor_eq_0_l a b). lia.
Qed.
Lemma shl_lt a k n : a < 256 -> k + 8 <= n -> N.shiftl a k < 2 ^ n.
Proof.
  intros Ha Hk. rewrite N.shiftl_mul_pow2. apply N.lt_le_trans with (2 ^ 8 * 2 ^ k).
  - apply N.mul_lt_mono_pos_r; [apply N.neq_0_lt_0, N.pow_nonzero; lia|exact Ha].
  - rewrite <- N.pow_add_r. apply N.pow_le_mono_r; lia.
Qed.
Lemma run_u1 ix : runs_at ix (fun n ix' => ix' = ix + 1 /\ exists b, In b bs /\ n = Byte.to_N b) read_u1.
Proof.
  unfold runs_at, read_u1. destruct (N.ltb_spec (blen bs) (ix + 1)); [exact I|]. get_byte ix. cbn. repeat split; try lia. eauto.
Qed.
Lemma run_u2 ix : runs_at ix (fun n ix' => ix' = ix + 2 /\ n < 2 ^ 16) read_u2.
Proof.
  unfold runs_at, read_u2. destruct (N.ltb_spec (blen bs) (ix + 2)); [exact I|]. get_byte (ix + 0). get_byte (ix + 1). cbn. repeat split; try lia.
  pose proof (to_N_lt b). pose proof (to_N_lt b0). apply lor_lt with (k := 16); [apply shl_lt|]; lia.
Qed.
Lemma run_u4 ix : runs_at ix (fun n ix' => ix' = ix + 4 /\ n < 2 ^ 32) read_u4.
Proof.
  unfold runs_at, read_u4. destruct (N.ltb_spec (blen bs) (ix + 4)); [exact I|]. get_byte (ix + 0). get_byte (ix + 1). get_byte (ix + 2). get_byte (ix + 3). cbn. repeat split; try lia.
  pose proof (to_N_lt b). pose proof (to_N_lt b0). pose proof (to_N_lt b1). pose proof (to_N_lt b2). change 4294967296 with (2 ^ 32).
  repeat apply lor_lt; try (apply shl_lt; lia). lia.
Qed.
Lemma run_u8 ix : runs_at ix (fun n ix' => ix' = ix + 8) read_u8.
Proof.
  unfold runs_at, read_u8. destruct (N.ltb_spec (blen bs) (ix + 8)); [exact I|]. get_byte (ix + 0). get_byte (ix + 1). get_byte (ix + 2). get_byte (ix + 3).
  get_byte (ix + 4). get_byte (ix + 5). get_byte (ix + 6). get_byte (ix + 7). cbn. repeat split; lia.
Qed.

Lemma runs_for_from {A} (R : A -> Prop) (body : N -> parser A) n : forall ix i, ix <= blen bs ->
  (forall j ix', ix <= ix' <= blen bs -> runs_at ix' (fun a _ => R a) (body j)) ->
  runs_at ix (fun l _ => Forall R l) (for_from n i body).
Proof.
  induction n as [|n IH]; intros ix i Hi Hb; cbn [for_from].
  - eapply runs_weaken; [apply runs_ret, Hi|]. intros l _ _ [-> _]. constructor.
  - eapply runs_bind; [apply Hb; lia|]. intros a ix1 Ha H1. eapply runs_bind; [apply IH; [lia|intros; apply Hb; lia]|].
    intros l ix2 Hl H2. eapply runs_weaken; [apply runs_ret; lia|]. intros l' _ _ [-> _]. constructor; auto.
Qed.
Lemma runs_for_n {A} (body : N -> parser A) n ix : ix <= blen bs ->
  (forall j ix', ix <= ix' <= blen bs -> runs_at ix' any_result (body j)) ->
  runs_at ix any_result (for_n n body).
Proof.
  intros Hi Hb. eapply runs_any. apply runs_for_from with (R := fun _ => True); auto.
Qed.
(** A loop with a 32-bit count whose body reads something. *)
Lemma runs_for_fuel {A} (R : A -> Prop) (body : N -> parser A) fuel : forall ix i count,
  (forall j ix', runs_at ix' (fun a ix2 => ix' < ix2 /\ R a) (body j)) -> ix <= blen bs -> blen bs < ix + N.of_nat fuel ->
  runs_at ix (fun l _ => Forall R l) (for_fuel fuel i count body).
Proof.
  induction fuel as [|fuel IH]; intros ix i count Hb Hi Hf; cbn [for_fuel]; destruct (i <? count) eqn:Hlt.
  1: lia.
  2: eapply runs_bind; [apply Hb|]; intros a ix1 [H1 Ha] H2; eapply runs_bind; [apply IH; [exact Hb|lia|lia]|];
     intros l ix2 Hl H3; eapply runs_weaken; [apply runs_ret; lia|]; intros l' _ _ [-> _]; constructor; auto.
  all: eapply runs_weaken; [apply runs_ret, Hi|]; intros l _ _ [-> _]; constructor.
Qed.
Lemma runs_for_big {A} (R : A -> Prop) (body : N -> parser A) ix count :
  (forall j ix', runs_at ix' (fun a ix2 => ix' < ix2 /\ R a) (body j)) -> ix <= blen bs ->
  runs_at ix (fun l _ => Forall R l) (for_big count body).
Proof. intros Hb Hi. unfold for_big. apply (runs_for_fuel R body (S (length bs)) ix 0 count); auto. unfold blen. lia. Qed.
End Runs.
