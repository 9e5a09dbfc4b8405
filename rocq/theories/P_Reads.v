(** * Parsers and formats: [reads p L] says that [p] accepts exactly the format [L]. *)
From Verif Require Import Base S_Lang.
From Coq Require Import ZifyBool ZifyNat ZifyN.

Lemma blen_app a b : blen (a ++ b) = blen a + blen b.
Proof. unfold blen. rewrite app_length. lia. Qed.
Lemma blen_nil : blen [] = 0.
Proof. reflexivity. Qed.
Lemma blen_length (w : list byte) : N.to_nat (blen w) = length w.
Proof. unfold blen. lia. Qed.

(** Inputs that fit in the address space (of at least 32 bits), with a heap at
    least as large as the input. *)
Record fits (E : env) (bs : list byte) : Prop := {
  fits_32 : 2 ^ 32 <= usize_max E + 1;
  fits_usize : blen bs <= usize_max E / 2;
  fits_alloc : blen bs <= alloc_limit E }.

(** Bytes [ix, ix') of [bs] belong to [L]. *)
Definition span (bs : list byte) (ix ix' : N) (L : lang) : Prop :=
  exists pre w post, bs = pre ++ w ++ post /\ ix = blen pre /\ ix' = ix + blen w /\ L w.

Definition reads_at {A} (E : env) (ix : N) (p : parser A) (L : A -> lang) : Prop :=
  forall bs a ix', fits E bs -> ix <= blen bs ->
    (p bs ix = Ok (a, ix') <-> span bs ix ix' (L a)).
Definition reads {A} (E : env) (p : parser A) (L : A -> lang) : Prop :=
  forall ix, reads_at E ix p L.

Lemma split_at (bs : list byte) ix : ix <= blen bs ->
  exists pre post, bs = pre ++ post /\ blen pre = ix.
Proof.
  intro H. exists (firstn (N.to_nat ix) bs), (skipn (N.to_nat ix) bs).
  split; [symmetry; apply firstn_skipn|].
  unfold blen in *. rewrite firstn_length. lia.
Qed.

Lemma app_eq_len {A} (a b c d : list A) : a ++ b = c ++ d -> length a = length c -> a = c /\ b = d.
Proof.
  revert c; induction a as [|x a IH]; intros [|y c] H Hl; simpl in *; try discriminate; auto.
  injection H as -> H. destruct (IH c H) as [-> ->]; auto.
Qed.

Lemma app_eq_blen a b c d : a ++ b = c ++ d -> blen a = blen c -> a = c /\ b = d.
Proof. intros H Hl; apply app_eq_len; auto. unfold blen in Hl. lia. Qed.

Lemma span_le bs ix ix' L : span bs ix ix' L -> ix <= ix' <= blen bs.
Proof. intros (pre & w & post & -> & -> & -> & _). rewrite !blen_app. lia. Qed.

Lemma span_ext bs ix ix' (L M : lang) : (forall w, L w -> M w) -> span bs ix ix' L -> span bs ix ix' M.
Proof. intros H (pre & w & post & E1 & E2 & E3 & HL). exists pre, w, post; auto. Qed.

Lemma span_cat bs ix ix2 (L M : lang) :
  span bs ix ix2 (L +++ M) <-> exists ix1, span bs ix ix1 L /\ span bs ix1 ix2 M.
Proof.
  split.
  - intros (pre & w & post & -> & -> & -> & u & v & -> & Hu & Hv).
    exists (blen pre + blen u). split.
    + exists pre, u, (v ++ post). rewrite <- app_assoc. auto.
    + exists (pre ++ u), v, post. rewrite <- !app_assoc, !blen_app. repeat split; auto. lia.
  - intros (ix1 & (pre & u & post & -> & -> & -> & Hu) & (pre' & v & post' & Heq & Hl & -> & Hv)).
    rewrite app_assoc in Heq.
    apply app_eq_blen in Heq; [|rewrite blen_app; lia].
    destruct Heq as [Hpre ->]. subst pre'.
    exists pre, (u ++ v), post'. rewrite blen_app, <- app_assoc. repeat split; auto; try lia.
    exists u, v; auto.
Qed.

Lemma span_eps bs ix ix' (P : Prop) : ix <= blen bs ->
  (span bs ix ix' (only_if P) <-> ix' = ix /\ P).
Proof.
  intro H. split.
  - intros (pre & w & post & -> & -> & -> & -> & HP). rewrite blen_nil. split; [lia|auto].
  - intros [-> HP]. destruct (split_at bs ix H) as (pre & post & -> & <-).
    exists pre, [], post. rewrite blen_nil. repeat split; auto. lia.
Qed.

Lemma span_ex {A} bs ix ix' (L : A -> lang) :
  span bs ix ix' (fun w => exists a, L a w) <-> exists a, span bs ix ix' (L a).
Proof.
  split.
  - intros (pre & w & post & ? & ? & ? & a & Ha). exists a, pre, w, post; auto.
  - intros (a & pre & w & post & ? & ? & ? & Ha). exists pre, w, post; eauto 10.
Qed.

(** Extensionality. *)
Lemma reads_at_ext {A} E ix (p : parser A) L M :
  reads_at E ix p L -> (forall a w, L a w <-> M a w) -> reads_at E ix p M.
Proof.
  intros H HLM bs a ix' Hf Hix. rewrite (H bs a ix' Hf Hix).
  split; apply span_ext; intros w; apply HLM.
Qed.
Lemma reads_ext {A} E (p : parser A) L M :
  reads E p L -> (forall a w, L a w <-> M a w) -> reads E p M.
Proof. intros H HLM ix. eapply reads_at_ext; eauto. Qed.

Lemma reads_ret {A} E (a : A) : reads E (ret a) (fun a' => only_if (a' = a)).
Proof.
  intros ix bs a' ix' _ Hix. unfold ret. rewrite span_eps by auto. split.
  - intros [= -> ->]; auto.
  - intros [-> ->]; auto.
Qed.

Lemma reads_at_bind {A B} E ix (p : parser A) (f : A -> parser B) (L : A -> lang) (M : A -> list byte -> B -> lang) :
  reads_at E ix p L ->
  (forall a w, L a w -> reads_at E (ix + blen w) (f a) (M a w)) ->
  reads_at E ix (bind p f) (fun b w => exists a u v, w = u ++ v /\ L a u /\ M a u b v).
Proof.
  intros Hp Hf bs b ix' Hfit Hix. unfold bind. split.
  - destruct (p bs ix) as [[a ix1]| | |] eqn:Ep; try discriminate. intro Hq.
    apply Hp in Ep; auto. destruct Ep as (pre & u & post & -> & -> & -> & HL).
    apply (Hf a u HL) in Hq; auto; [|rewrite !blen_app; lia].
    destruct Hq as (pre' & v & post' & Heq & Hl & -> & HM).
    rewrite app_assoc in Heq. apply app_eq_blen in Heq; [|rewrite blen_app; lia].
    destruct Heq as [<- ->].
    exists pre, (u ++ v), post'. rewrite blen_app, <- app_assoc. repeat split; auto; try lia.
    exists a, u, v; auto.
  - intros (pre & w & post & -> & -> & -> & a & u & v & -> & HL & HM).
    assert (Hp1 : p (pre ++ (u ++ v) ++ post) (blen pre) = Ok (a, blen pre + blen u)).
    { apply Hp; auto. exists pre, u, (v ++ post). rewrite <- app_assoc. auto. }
    rewrite Hp1. apply (Hf a u HL); auto; [rewrite !blen_app; lia|].
    exists (pre ++ u), v, post. rewrite <- !app_assoc, !blen_app. repeat split; auto; lia.
Qed.

Lemma reads_bind {A B} E (p : parser A) (f : A -> parser B) L (M : A -> B -> lang) :
  reads E p L -> (forall a, (exists w, L a w) -> reads E (f a) (M a)) ->
  reads E (bind p f) (fun b w => exists a, (L a +++ M a b) w).
Proof.
  intros Hp Hf ix. eapply reads_at_ext.
  - eapply reads_at_bind with (M := fun a _ b => M a b); [apply Hp|].
    intros a w Ha. apply Hf; eauto.
  - intros b w. unfold cat. split.
    + intros (a & u & v & ? & ? & ?). exists a, u, v; auto.
    + intros (a & u & v & ? & ? & ?). exists a, u, v; auto.
Qed.

Lemma reads_lift {A} E (m : outcome A) : reads E (lift m) (fun a => only_if (m = Ok a)).
Proof.
  intros ix bs a ix' _ Hix. unfold lift. rewrite span_eps by auto. split.
  - destruct m; intro H; inversion H; subst; auto.
  - intros [-> ->]; auto.
Qed.

Lemma reads_never {A} E (p : parser A) :
  (forall bs ix a ix', p bs ix <> Ok (a, ix')) -> reads E p (fun _ _ => False).
Proof.
  intros H ix bs a ix' _ _. split; intro H1.
  - exfalso; eapply H; eauto.
  - destruct H1 as (? & ? & ? & ? & ? & ? & []).
Qed.

Lemma reads_pfail {A} E m : reads E (@pfail A m) (fun _ _ => False).
Proof. apply reads_never. discriminate. Qed.
Lemma reads_pfail_at {A} E m : reads E (@pfail_at A m) (fun _ _ => False).
Proof. apply reads_never. discriminate. Qed.

Lemma reads_at_pctx {A} E ix c (p : parser A) L : reads_at E ix p L -> reads_at E ix (pctx c p) L.
Proof.
  intros H bs a ix' Hf Hix. rewrite <- (H bs a ix' Hf Hix).
  unfold pctx, ctx. destruct (p bs ix); split; intro; congruence.
Qed.
Lemma reads_pctx {A} E c (p : parser A) L : reads E p L -> reads E (pctx c p) L.
Proof. intros H ix. apply reads_at_pctx; auto. Qed.

Lemma reads_guard E b m : reads E (guard b m) (fun _ => only_if (b = true)).
Proof.
  unfold guard. destruct b.
  - eapply reads_ext; [apply reads_ret|]. intros [] w. unfold only_if. tauto.
  - eapply reads_ext; [apply reads_pfail|]. intros a w. unfold only_if. intuition discriminate.
Qed.

(** ** Counted loops *)
Lemma reads_for_from {A} E (F : A -> lang) n i body :
  (forall j, reads E (body j) F) ->
  reads E (for_from n i body) (fun l w => length l = n /\ many F l w).
Proof.
  intro Hb. revert i; induction n as [|n IH]; intro i; cbn [for_from].
  - eapply reads_ext; [apply reads_ret|]. intros l w. unfold only_if. split.
    + intros [-> ->]. split; reflexivity.
    + intros [Hl Hm]. destruct l; [|discriminate]. split; auto.
  - eapply reads_ext.
    + eapply reads_bind; [apply Hb|]. intros x _.
      eapply reads_bind; [apply IH|]. intros xs _. apply reads_ret.
    + intros l w. split.
      * intros (x & u & v & -> & Hx & xs & u' & v' & -> & [Hl Hm] & -> & ->).
        rewrite app_nil_r. split; [simpl; lia|]. exists u, u'; auto.
      * intros [Hl Hm]. destruct l as [|x xs]; [discriminate|].
        destruct Hm as (u & v & -> & Hx & Hm).
        exists x, u, v. repeat split; auto. exists xs, v, []. rewrite app_nil_r.
        unfold only_if. repeat split; auto.
Qed.

Lemma reads_for_n {A} E (F : A -> lang) n body :
  (forall j, reads E (body j) F) ->
  reads E (for_n n body) (fun l w => N.of_nat (length l) = n /\ many F l w).
Proof.
  intro Hb. unfold for_n. eapply reads_ext; [apply reads_for_from; eauto|].
  intros l w. split; intros [H1 H2]; split; auto; lia.
Qed.

(** [count <- cnt ;; for_n count body] reads a table. *)
Lemma reads_table {A} E (cnt : parser N) (C : N -> lang) (F : A -> lang) body :
  reads E cnt C -> (forall j, reads E (body j) F) ->
  reads E (bind cnt (fun n => for_n n body)) (table C F).
Proof.
  intros Hc Hb. eapply reads_ext.
  - eapply reads_bind; [exact Hc|]. intros n _. apply reads_for_n; eauto.
  - intros l w. unfold table, cat. split.
    + intros (n & u & v & -> & Hn & Hl & Hm). subst n. eauto 8.
    + intros (u & v & -> & Hn & Hm). exists (N.of_nat (length l)), u, v. auto.
Qed.

(** ** Integers *)
Lemma to_N_lt (b : byte) : Byte.to_N b < 256.
Proof. pose proof (Byte.to_N_bounded b). lia. Qed.

Lemma nth_error_mid {A} (pre : list A) w post k :
  (k < length w)%nat -> nth_error (pre ++ w ++ post) (length pre + k) = nth_error w k.
Proof.
  intro H. rewrite nth_error_app2 by lia. replace (length pre + k - length pre)%nat with k by lia.
  apply nth_error_app1; auto.
Qed.

Lemma byte_at_mid pre w post ix k : ix = blen pre + N.of_nat k -> (k < length w)%nat ->
  byte_at (pre ++ w ++ post) ix =
  match nth_error w k with Some b => Ok (Byte.to_N b) | None => Panic PSlice end.
Proof.
  intros -> H. unfold byte_at.
  replace (N.to_nat (blen pre + N.of_nat k)) with (length pre + k)%nat by (unfold blen; lia).
  rewrite nth_error_mid; auto.
Qed.

Lemma lor_shift_add a b k : b < 2 ^ k -> N.lor (N.shiftl a k) b = a * 2 ^ k + b.
Proof.
  intro H. rewrite <- N.shiftl_mul_pow2. symmetry. rewrite <- N.lxor_lor.
  - apply N.add_nocarry_lxor. apply N.bits_inj_0. intro i. rewrite N.land_spec.
    destruct (N.ltb_spec i k).
    + rewrite N.shiftl_spec_low by auto. reflexivity.
    + destruct (N.eq_dec b 0) as [->|Hb]; [rewrite N.bits_0; apply andb_false_r|].
      rewrite (N.bits_above_log2 b); [apply andb_false_r|].
      apply N.log2_lt_pow2; [lia|]. apply N.lt_le_trans with (2 ^ k); auto.
      apply N.pow_le_mono_r; lia.
  - apply N.bits_inj_0. intro i. rewrite N.land_spec.
    destruct (N.ltb_spec i k).
    + rewrite N.shiftl_spec_low by auto. reflexivity.
    + destruct (N.eq_dec b 0) as [->|Hb]; [rewrite N.bits_0; apply andb_false_r|].
      rewrite (N.bits_above_log2 b); [apply andb_false_r|].
      apply N.log2_lt_pow2; [lia|]. apply N.lt_le_trans with (2 ^ k); auto.
      apply N.pow_le_mono_r; lia.
Qed.

Lemma be_bound_from w acc : fold_left (fun acc b => acc * 256 + Byte.to_N b) w acc
  < (acc + 1) * 256 ^ N.of_nat (length w).
Proof.
  revert acc; induction w as [|b w IH]; intro acc; cbn [fold_left length].
  - simpl. lia.
  - eapply N.lt_le_trans; [apply IH|].
    pose proof (to_N_lt b). rewrite Nat2N.inj_succ, N.pow_succ_r'. nia.
Qed.
Lemma be_bound w : be w < 256 ^ N.of_nat (length w).
Proof. pose proof (be_bound_from w 0). unfold be. lia. Qed.

Lemma uint_bound k n w : uint k n w -> n < 256 ^ N.of_nat k.
Proof. intros [<- <-]. apply be_bound. Qed.

Lemma lor_merge a b k : b < 2 ^ k -> N.lor b (N.shiftl a k) = b + a * 2 ^ k.
Proof. intro H. rewrite N.lor_comm, lor_shift_add by auto. lia. Qed.

Lemma span_uint bs ix k n : ix <= blen bs ->
  forall ix', span bs ix ix' (uint k n) <->
    exists pre w post, bs = pre ++ w ++ post /\ ix = blen pre /\ length w = k /\
      ix' = ix + N.of_nat k /\ n = be w.
Proof.
  intros Hix ix'. split.
  - intros (pre & w & post & -> & -> & -> & Hl & Hn). exists pre, w, post.
    unfold blen. rewrite Hl. auto.
  - intros (pre & w & post & -> & -> & Hl & -> & ->). exists pre, w, post.
    unfold uint, blen. rewrite Hl. auto.
Qed.

(** The window of [k] bytes at [ix], or its absence. *)
Lemma window bs ix k : ix <= blen bs ->
  (blen bs < ix + N.of_nat k /\ ~ exists pre w post, bs = pre ++ w ++ post /\ ix = blen pre /\ length w = k)
  \/ (exists pre w post, bs = pre ++ w ++ post /\ ix = blen pre /\ length w = k
      /\ ix + N.of_nat k <= blen bs).
Proof.
  intro H. destruct (N.ltb_spec (blen bs) (ix + N.of_nat k)) as [Hlt|Hge].
  - left; split; auto. intros (pre & w & post & -> & -> & <-). rewrite !blen_app in Hlt.
    unfold blen in Hlt at 3. unfold blen in *. rewrite ?app_length in *. lia.
  - right. destruct (split_at bs ix H) as (pre & rest & -> & <-).
    rewrite blen_app in Hge.
    destruct (split_at rest (N.of_nat k)) as (w & post & -> & Hw); [lia|].
    exists pre, w, post. repeat split; auto.
    + unfold blen in Hw. lia.
    + rewrite blen_app. lia.
Qed.

Lemma window_unique bs ix k pre w post pre' w' post' :
  bs = pre ++ w ++ post -> ix = blen pre -> length w = k ->
  bs = pre' ++ w' ++ post' -> ix = blen pre' -> length w' = k -> w = w'.
Proof.
  intros -> -> <- H Hl Hw. apply app_eq_blen in H; auto. destruct H as [_ H].
  apply app_eq_len in H; [tauto|lia].
Qed.

Ltac uint_reader :=
  intros ix bs n ix' _ Hix; unfold u1, u2, u4, u8; rewrite span_uint by auto;
  match goal with |- ?f bs ix = _ <-> _ => unfold f end.

Lemma reads_u1 E : reads E read_u1 u1.
Proof.
  uint_reader. destruct (window bs ix 1 Hix) as [[Hlt Hno]|(pre & w & post & Hbs & Hpre & Hw & Hge)].
  - replace (blen bs <? ix + 1) with true by (symmetry; apply N.ltb_lt; exact Hlt).
    split; [discriminate|]. intros (pre & w & post & ? & ? & ? & ?). exfalso. apply Hno; exists pre, w, post; auto.
  - replace (blen bs <? ix + 1) with false by (symmetry; apply N.ltb_ge; lia).
    subst bs. rewrite (byte_at_mid pre w post ix 0) by lia.
    destruct w as [|b0 [|]]; try discriminate. cbn [nth_error obind].
    split.
    + intros [= <- <-]. exists pre, [b0], post. repeat split; auto.
    + intros (pre' & w' & post' & Hbs & Hpre' & Hw' & -> & ->).
      rewrite <- (window_unique _ ix 1%nat _ _ _ _ _ _ eq_refl Hpre Hw Hbs Hpre' Hw'). reflexivity.
Qed.

Lemma be2 a b : be [a; b] = N.lor (N.shiftl (Byte.to_N a) 8) (Byte.to_N b).
Proof. rewrite lor_shift_add by apply to_N_lt. unfold be. cbn [fold_left]. lia. Qed.
Lemma be4 a b c d : be [a; b; c; d] =
  N.lor (N.lor (N.lor (N.shiftl (Byte.to_N a) 24) (N.shiftl (Byte.to_N b) 16))
     (N.shiftl (Byte.to_N c) 8)) (Byte.to_N d).
Proof.
  pose proof (to_N_lt a); pose proof (to_N_lt b); pose proof (to_N_lt c); pose proof (to_N_lt d).
  unfold be. cbn [fold_left].
  change 24 with (8 + 16). change 16 with (8 + 8) at 2.
  rewrite <- !N.shiftl_shiftl.
  change 16 with (8 + 8) at 1. rewrite <- !N.shiftl_shiftl.
  rewrite <- !N.shiftl_lor. rewrite !lor_shift_add by assumption.
  change (2 ^ 8) with 256. lia.
Qed.
Lemma be8 a b c d e f g h : be [a; b; c; d; e; f; g; h] =
  N.lor (N.lor (N.lor (N.lor (N.lor (N.lor (N.lor
    (N.shiftl (Byte.to_N a) 56) (N.shiftl (Byte.to_N b) 48)) (N.shiftl (Byte.to_N c) 40))
    (N.shiftl (Byte.to_N d) 32)) (N.shiftl (Byte.to_N e) 24)) (N.shiftl (Byte.to_N f) 16))
    (N.shiftl (Byte.to_N g) 8)) (Byte.to_N h).
Proof.
  pose proof (to_N_lt a); pose proof (to_N_lt b); pose proof (to_N_lt c); pose proof (to_N_lt d).
  pose proof (to_N_lt e); pose proof (to_N_lt f); pose proof (to_N_lt g); pose proof (to_N_lt h).
  unfold be. cbn [fold_left].
  change 56 with (8+8+8+8+8+8+8). change 48 with (8+8+8+8+8+8). change 40 with (8+8+8+8+8).
  change 32 with (8+8+8+8). change 24 with (8+8+8). change 16 with (8+8).
  rewrite <- !N.shiftl_shiftl. rewrite <- !N.shiftl_lor.
  rewrite !lor_shift_add by assumption. change (2 ^ 8) with 256. lia.
Qed.

Ltac finish_reader k :=
  match goal with
  | Hpre : _ = blen ?pre, Hw : length ?w = _ |- _ =>
    split;
    [ intros [= <- <-]; exists pre, w; eexists; repeat split; eauto
    | intros (pre' & w' & post' & Hbs & Hpre' & Hw' & -> & ->);
      rewrite <- (window_unique _ _ k _ _ _ _ _ _ eq_refl Hpre Hw Hbs Hpre' Hw') ]
  end.

Lemma reads_u2 E : reads E read_u2 u2.
Proof.
  uint_reader. destruct (window bs ix 2 Hix) as [[Hlt Hno]|(pre & w & post & Hbs & Hpre & Hw & Hge)].
  - replace (blen bs <? ix + 2) with true by (symmetry; apply N.ltb_lt; exact Hlt).
    split; [discriminate|]. intros (pre & w & post & ? & ? & ? & ?). exfalso. apply Hno; exists pre, w, post; auto.
  - replace (blen bs <? ix + 2) with false by (symmetry; apply N.ltb_ge; lia).
    subst bs. rewrite (byte_at_mid pre w post (ix + 0) 0), (byte_at_mid pre w post (ix + 1) 1) by lia.
    destruct w as [|b0 [|b1 [|]]]; try discriminate. cbn [nth_error obind].
    rewrite <- be2. finish_reader 2%nat. reflexivity.
Qed.

Lemma reads_u4 E : reads E read_u4 u4.
Proof.
  uint_reader. destruct (window bs ix 4 Hix) as [[Hlt Hno]|(pre & w & post & Hbs & Hpre & Hw & Hge)].
  - replace (blen bs <? ix + 4) with true by (symmetry; apply N.ltb_lt; exact Hlt).
    split; [discriminate|]. intros (pre & w & post & ? & ? & ? & ?). exfalso. apply Hno; exists pre, w, post; auto.
  - replace (blen bs <? ix + 4) with false by (symmetry; apply N.ltb_ge; lia).
    subst bs. rewrite (byte_at_mid pre w post (ix + 0) 0), (byte_at_mid pre w post (ix + 1) 1),
      (byte_at_mid pre w post (ix + 2) 2), (byte_at_mid pre w post (ix + 3) 3) by lia.
    destruct w as [|b0 [|b1 [|b2 [|b3 [|]]]]]; try discriminate. cbn [nth_error obind].
    rewrite <- be4. finish_reader 4%nat. reflexivity.
Qed.

Lemma reads_u8 E : reads E read_u8 u8.
Proof.
  uint_reader. destruct (window bs ix 8 Hix) as [[Hlt Hno]|(pre & w & post & Hbs & Hpre & Hw & Hge)].
  - replace (blen bs <? ix + 8) with true by (symmetry; apply N.ltb_lt; exact Hlt).
    split; [discriminate|]. intros (pre & w & post & ? & ? & ? & ?). exfalso. apply Hno; exists pre, w, post; auto.
  - replace (blen bs <? ix + 8) with false by (symmetry; apply N.ltb_ge; lia).
    subst bs. rewrite (byte_at_mid pre w post (ix + 0) 0), (byte_at_mid pre w post (ix + 1) 1),
      (byte_at_mid pre w post (ix + 2) 2), (byte_at_mid pre w post (ix + 3) 3),
      (byte_at_mid pre w post (ix + 4) 4), (byte_at_mid pre w post (ix + 5) 5),
      (byte_at_mid pre w post (ix + 6) 6), (byte_at_mid pre w post (ix + 7) 7) by lia.
    destruct w as [|b0 [|b1 [|b2 [|b3 [|b4 [|b5 [|b6 [|b7 [|]]]]]]]]]; try discriminate.
    cbn [nth_error obind]. rewrite <- be8. finish_reader 8%nat. reflexivity.
Qed.

(** Signed readings. *)
Lemma sint_to_signed k n : (0 < k)%nat -> n < 256 ^ N.of_nat k ->
  let z := to_signed (8 * N.of_nat k) n in
  (- 2 ^ (8 * Z.of_nat k - 1) <= z < 2 ^ (8 * Z.of_nat k - 1))%Z
  /\ (z mod 2 ^ (8 * Z.of_nat k))%Z = Z.of_N n.
Proof.
  intros Hk Hn z. unfold z, to_signed; clear z.
  set (m := (8 * Z.of_nat k - 1)%Z).
  assert (Hm : (0 <= m)%Z) by (unfold m; lia).
  assert (E1 : (2 ^ (8 * Z.of_nat k) = 2 * 2 ^ m)%Z).
  { rewrite <- Z.pow_succ_r by auto. f_equal. unfold m. lia. }
  assert (E2 : Z.of_N (2 ^ (8 * N.of_nat k - 1)) = (2 ^ m)%Z).
  { rewrite N2Z.inj_pow. f_equal. unfold m. lia. }
  assert (E3 : Z.of_N (256 ^ N.of_nat k) = (2 * 2 ^ m)%Z).
  { rewrite N2Z.inj_pow. change (Z.of_N 256) with (2 ^ 8)%Z. rewrite <- Z.pow_mul_r, <- E1 by lia.
    f_equal. lia. }
  assert (E4 : (2 ^ Z.of_N (8 * N.of_nat k) = 2 * 2 ^ m)%Z).
  { rewrite <- E1. f_equal. lia. }
  assert (Hp : (0 < 2 ^ m)%Z) by (apply Z.pow_pos_nonneg; lia).
  rewrite E1, E4.
  destruct (N.ltb_spec n (2 ^ (8 * N.of_nat k - 1))).
  - split; [lia|]. apply Z.mod_small. lia.
  - split; [lia|]. replace (Z.of_N n - 2 * 2 ^ m)%Z with (Z.of_N n + (-1) * (2 * 2 ^ m))%Z by lia.
    rewrite Z.mod_add by lia. apply Z.mod_small. lia.
Qed.

Lemma sint_unique k z z' w : sint k z w -> sint k z' w -> z = z'.
Proof.
  intros (_ & R1 & H1) (_ & R2 & H2). rewrite <- H2 in H1. clear H2.
  destruct k as [|k].
  - simpl in *. lia.
  - set (m := (8 * Z.of_nat (S k) - 1)%Z) in *.
    assert (Hp : (0 < 2 ^ m)%Z) by (apply Z.pow_pos_nonneg; unfold m; lia).
    assert (E1 : (2 ^ (8 * Z.of_nat (S k)) = 2 * 2 ^ m)%Z).
    { rewrite <- Z.pow_succ_r by (unfold m; lia). f_equal. unfold m. lia. }
    rewrite E1 in H1. 
    pose proof (Z.div_mod z (2 * 2 ^ m) ltac:(lia)). pose proof (Z.div_mod z' (2 * 2 ^ m) ltac:(lia)).
    assert (z / (2 * 2 ^ m) = z' / (2 * 2 ^ m) \/ z / (2 * 2 ^ m) <= z' / (2 * 2 ^ m) - 1 \/ z' / (2 * 2 ^ m) <= z / (2 * 2 ^ m) - 1)%Z by lia.
    assert (2 * 2 ^ m * (z / (2 * 2 ^ m)) - 2 * 2 ^ m * (z' / (2 * 2 ^ m)) = z - z')%Z by lia.
    nia.
Qed.

Lemma uint_sint k z w : (0 < k)%nat ->
  (exists n, uint k n w /\ z = to_signed (8 * N.of_nat k) n) <-> sint k z w.
Proof.
  intro Hk. split.
  - intros (n & [Hl <-] & ->). pose proof (be_bound w) as Hb. rewrite Hl in Hb.
    destruct (sint_to_signed k (be w) Hk Hb) as [H1 H2]. split; [auto|split; auto].
  - intro H. destruct H as (Hl & HR & HM). exists (be w). split; [split; auto|].
    pose proof (be_bound w) as Hb. rewrite Hl in Hb.
    destruct (sint_to_signed k (be w) Hk Hb) as [H1 H2].
    eapply (sint_unique k _ _ w); [split; [auto|split; auto]|split; [auto|split; auto]].
Qed.

Lemma reads_map {A B} E (p : parser A) (g : A -> B) L :
  reads E p L -> reads E (bind p (fun a => ret (g a))) (fun b w => exists a, L a w /\ b = g a).
Proof.
  intro Hp. eapply reads_ext.
  - eapply reads_bind; [exact Hp|]. intros a _. apply reads_ret.
  - intros b w. unfold cat, only_if. split.
    + intros (a & u & v & -> & Ha & -> & ->). rewrite app_nil_r. eauto.
    + intros (a & Ha & ->). exists a, w, []. rewrite app_nil_r. auto.
Qed.

Lemma reads_s1 E : reads E (n <- read_u1 ;; ret (as_i8 n)) s1.
Proof.
  eapply reads_ext; [apply reads_map, reads_u1|]. intros z w.
  apply (uint_sint 1). lia.
Qed.
Lemma reads_s2 E : reads E (n <- read_u2 ;; ret (as_i16 n)) s2.
Proof.
  eapply reads_ext; [apply reads_map, reads_u2|]. intros z w.
  apply (uint_sint 2). lia.
Qed.
Lemma reads_s4 E : reads E (n <- read_u4 ;; ret (as_i32 n)) s4.
Proof.
  eapply reads_ext; [apply reads_map, reads_u4|]. intros z w.
  apply (uint_sint 4). lia.
Qed.
Lemma reads_s8 E : reads E (n <- read_u8 ;; ret (as_i64 n)) s8.
Proof.
  eapply reads_ext; [apply reads_map, reads_u8|]. intros z w.
  apply (uint_sint 8). lia.
Qed.

(** Raw slices. *)
Lemma slice_mid pre w post i j : i = blen pre -> j = blen pre + blen w ->
  slice (pre ++ w ++ post) i j = Ok w.
Proof.
  intros -> ->. unfold slice.
  replace ((blen pre <=? blen pre + blen w) && (blen pre + blen w <=? blen (pre ++ w ++ post))) with true
    by (rewrite !blen_app; lia).
  f_equal. replace (blen pre + blen w - blen pre) with (blen w) by lia.
  rewrite !blen_length.
  rewrite skipn_app, skipn_all, Nat.sub_diag. simpl.
  rewrite firstn_app, firstn_all, Nat.sub_diag. simpl. apply app_nil_r.
Qed.
Lemma slice_inv bs i j w : slice bs i j = Ok w ->
  exists pre post, bs = pre ++ w ++ post /\ i = blen pre /\ j = blen pre + blen w.
Proof.
  unfold slice. destruct ((i <=? j) && (j <=? blen bs)) eqn:Hc; [|discriminate].
  intros [= <-]. 
  destruct (split_at bs i) as (pre & rest & -> & Hi); [lia|].
  rewrite blen_app in Hc.
  destruct (split_at rest (j - i)) as (u & post & -> & Hj); [lia|].
  exists pre, post.
  subst i. rewrite <- Hj. rewrite !blen_length.
  rewrite skipn_app, skipn_all, Nat.sub_diag. simpl.
  rewrite firstn_app, firstn_all, Nat.sub_diag. simpl. rewrite app_nil_r.
  repeat split; auto. lia.
Qed.
