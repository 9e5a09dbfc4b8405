(** * Dropping a pool: proofs. *)
From Verif Require Import Base M_Names M_Descriptors M_ConstantPool M_Drop S_Drop.
From Coq Require Import Permutation.

Notation occ := (count_occ N.eq_dec).

Lemma positions_spec p i : In i (positions p) <-> i < plen p.
Proof.
  unfold positions, plen. rewrite in_map_iff. split.
  - intros (k & <- & Hk). apply in_seq in Hk. lia.
  - intro H. exists (N.to_nat i). split; [lia|]. apply in_seq. lia.
Qed.
Lemma positions_nodup p : NoDup (positions p).
Proof. unfold positions. apply FinFun.Injective_map_NoDup; [intros a b; lia|apply seq_NoDup]. Qed.
Lemma points_from p k j : points_to p k j -> k < plen p.
Proof.
  intro Hk. unfold points_to, pointers_at in Hk. unfold plen. destruct (nth_error p (N.to_nat k)) eqn:He; [|destruct Hk].
  assert (nth_error p (N.to_nat k) <> None) as H by congruence. apply nth_error_Some in H. lia.
Qed.

Section WithPool.
Variable p : pool.
(** All pointers lead into the pool. *)
Hypothesis inside : forall k j, points_to p k j -> j < plen p.

Definition alive (h : heap) (i : N) : bool := negb (Nat.eqb (strong h i) 0).
Definition live_pointers (h : heap) (l : list N) : list N := flat_map (fun k => if alive h k then pointers_at p k else []) l.

(** What is known between two steps; [pend] are the pointers that are still to be dropped, [busy] the entries in the middle of being
    dropped: dead but not freed yet. *)
Record inv (pend busy : list N) (h : heap) : Prop := {
  inv_count : forall i, i < plen p -> strong h i = (occ pend i + occ (live_pointers h (positions p)) i)%nat;
  inv_pend : forall i, In i pend -> i < plen p;
  inv_nodup : NoDup (busy ++ freed h);
  inv_freed : forall i, In i (busy ++ freed h) <-> (i < plen p /\ alive h i = false);
  inv_rank : exists rank : N -> nat, forall j k, j < plen p -> alive h j = false -> points_to p k j -> alive h k = false /\ (rank k < rank j)%nat }.

Lemma live_pointers_update h h' i l : NoDup l -> In i l -> alive h i = true -> alive h' i = false ->
  (forall j, j <> i -> alive h' j = alive h j) -> forall j,
  occ (live_pointers h l) j = (occ (pointers_at p i) j + occ (live_pointers h' l) j)%nat.
Proof.
  intros Hnd Hin Ha Hd Hsame j. induction l as [|k l IH]; [destruct Hin|]. inversion Hnd as [|? ? Hk Hnd']. subst.
  cbn [live_pointers flat_map]. fold (live_pointers h l) (live_pointers h' l). rewrite !count_occ_app.
  destruct (N.eq_dec k i) as [->|Hne].
  - rewrite Ha, Hd. cbn [count_occ]. cut (live_pointers h' l = live_pointers h l); [intros ->; lia|].
    unfold live_pointers. clear - Hk Hsame. induction l as [|m l IH]; auto. cbn [flat_map]. rewrite IH by (intro; apply Hk; right; auto).
    rewrite Hsame; auto. intros ->. apply Hk. left; auto.
  - destruct Hin as [->|Hin]; [contradiction|]. rewrite (IH Hnd' Hin), (Hsame k Hne). lia.
Qed.
Lemma live_pointers_same h h' l : (forall j, alive h' j = alive h j) -> live_pointers h' l = live_pointers h l.
Proof. intro H. unfold live_pointers. induction l as [|k l IH]; auto. cbn [flat_map]. rewrite H, IH. reflexivity. Qed.
Lemma live_referrer h k j : alive h k = true -> points_to p k j -> (0 < occ (live_pointers h (positions p)) j)%nat.
Proof.
  intros Ha Hk. apply (count_occ_In N.eq_dec). unfold live_pointers. apply in_flat_map. exists k. split.
  - apply positions_spec. eapply points_from; eauto.
  - rewrite Ha. exact Hk.
Qed.

Definition later (h h' : heap) : Prop := forall j, alive h j = false -> alive h' j = false.

Lemma drop_list_ok f busy :
  (forall i pend h h', inv (i :: pend) busy h -> f h i = Ok h' -> inv pend busy h' /\ later h h') ->
  forall l pend h h', inv (l ++ pend) busy h -> drop_list f l h = Ok h' -> inv pend busy h' /\ later h h'.
Proof.
  intros Hf. induction l as [|i l IH]; intros pend h h' HQ H; cbn [drop_list] in H.
  - injection H as <-. split; auto. intros j Hj; exact Hj.
  - destruct (f h i) as [h1| | |] eqn:Hh1; try discriminate. cbn [obind] in H.
    cbn [app] in HQ. destruct (Hf _ _ _ _ HQ Hh1) as [HQ1 HL1]. destruct (IH _ _ _ HQ1 H) as [HQ2 HL2].
    split; auto. intros j Hj. auto.
Qed.

Lemma pending_alive i pend busy h : inv (i :: pend) busy h -> i < plen p /\ alive h i = true /\ (1 <= strong h i)%nat.
Proof.
  intro Hinv. assert (Hi : i < plen p) by (apply (inv_pend _ _ _ Hinv); left; auto).
  assert (Hpos : (1 <= strong h i)%nat). { rewrite (inv_count _ _ _ Hinv i Hi). cbn [count_occ]. destruct (N.eq_dec i i); [lia|contradiction]. }
  split; auto. split; auto. unfold alive. destruct (strong h i); [lia|reflexivity].
Qed.
(** An entry dies: its pointers are to be dropped. *)
Lemma dies i pend busy h : inv (i :: pend) busy h -> Nat.pred (strong h i) = O ->
  let h0 := mk_heap (update (strong h) i 0) (freed h) in
  inv (pointers_at p i ++ pend) (i :: busy) h0 /\ later h h0 /\ alive h0 i = false.
Proof.
  intros Hinv Hn h0. destruct (pending_alive _ _ _ _ Hinv) as (Hi & Hal & Hpos).
  assert (Hdead : alive h0 i = false). { unfold alive, h0, update. cbn [strong]. rewrite N.eqb_refl. reflexivity. }
  assert (Hsame : forall j, j <> i -> alive h0 j = alive h j).
  { intros j Hj. unfold alive, h0, update. cbn [strong]. destruct (N.eqb_spec j i); [contradiction|reflexivity]. }
  assert (HL : later h h0). { intros j Hj. destruct (N.eq_dec j i) as [->|Hne]; auto. rewrite Hsame; auto. }
  assert (Hnone : forall k, points_to p k i -> alive h k = false).
  { intros k Hk. destruct (alive h k) eqn:Ha; auto. exfalso. pose proof (live_referrer h k i Ha Hk) as H1.
    pose proof (inv_count _ _ _ Hinv i Hi) as Hc. cbn [count_occ] in Hc. destruct (N.eq_dec i i); [lia|contradiction]. }
  split; [|split; auto]. split.
  - intros j Hj. pose proof (inv_count _ _ _ Hinv j Hj) as Hc. cbn [count_occ] in Hc.
    rewrite (live_pointers_update h h0 i (positions p) (positions_nodup p) (proj2 (positions_spec p i) Hi) Hal Hdead Hsame j) in Hc.
    rewrite count_occ_app. unfold h0 at 1, update. cbn [strong].
    destruct (N.eqb_spec j i) as [->|Hne].
    + destruct (N.eq_dec i i); [|contradiction]. lia.
    + destruct (N.eq_dec i j); [congruence|]. lia.
  - intros j Hj. apply in_app_or in Hj. destruct Hj as [Hj|Hj]; [eapply inside; exact Hj|]. apply (inv_pend _ _ _ Hinv). right; auto.
  - cbn [app freed h0]. constructor; [|exact (inv_nodup _ _ _ Hinv)]. intro Hin. apply (inv_freed _ _ _ Hinv) in Hin. destruct Hin as [_ Hin]. congruence.
  - intro j. cbn [app freed h0]. split.
    + intros [<-|Hj]; [auto|]. apply (inv_freed _ _ _ Hinv) in Hj. destruct Hj as [Hj1 Hj2]. split; auto.
    + intros [Hj1 Hj2]. destruct (N.eq_dec j i) as [->|Hne]; [left; auto|right]. apply (inv_freed _ _ _ Hinv). rewrite Hsame in Hj2; auto.
  - destruct (inv_rank _ _ _ Hinv) as [rank Hr].
    exists (fun j => if j =? i then S (list_sum (map rank (positions p))) else rank j). intros j k Hj Hjd Hk.
    assert (Hki : k <> i -> (if k =? i then S (list_sum (map rank (positions p))) else rank k) = rank k) by (intro; destruct (N.eqb_spec k i); [contradiction|auto]).
    destruct (N.eqb_spec j i) as [->|Hne].
    + pose proof (Hnone k Hk) as Hkd. assert (k <> i) as Hki' by congruence. split; [auto|]. rewrite (Hki Hki').
      assert (Hin : In k (positions p)) by (apply positions_spec; eapply points_from; eauto). clear - Hin.
      induction (positions p) as [|m l IH]; [destruct Hin|]. cbn [map list_sum fold_right]. fold (list_sum (map rank l)). destruct Hin as [->|Hin]; [lia|]. specialize (IH Hin). lia.
    + rewrite Hsame in Hjd by auto. destruct (Hr j k Hj Hjd Hk) as [Hkd Hlt]. split; [auto|]. rewrite Hki; auto. congruence.
Qed.

Lemma drop_rc_ok stk : forall i pend busy h h', inv (i :: pend) busy h -> drop_rc stk p h i = Ok h' -> inv pend busy h' /\ later h h'.
Proof.
  induction stk as [|stk IH]; intros i pend busy h h' Hinv H; [discriminate|]. cbn [drop_rc] in H.
  destruct (pending_alive _ _ _ _ Hinv) as (Hi & Hal & Hpos).
  destruct (Nat.pred (strong h i)) as [|n] eqn:Hn.
  - destruct (dies _ _ _ _ Hinv Hn) as (Hinv0 & HL0 & Hdead). set (h0 := mk_heap (update (strong h) i 0) (freed h)) in *.
    destruct (drop_list (drop_rc stk p) (pointers_at p i) h0) as [h1| | |] eqn:Hd; try discriminate. cbn [obind] in H. injection H as <-.
    destruct (drop_list_ok (drop_rc stk p) (i :: busy) (fun i' pend' g g' HQ Hg => IH i' pend' (i :: busy) g g' HQ Hg) _ _ _ _ Hinv0 Hd) as [Hinv1 HL].
    split; [|intros j Hj; apply HL; auto].
    assert (Hperm : Permutation ((i :: busy) ++ freed h1) (busy ++ freed h1 ++ [i])).
    { cbn [app]. rewrite app_assoc. apply Permutation_cons_append. }
    split.
    + exact (inv_count _ _ _ Hinv1).
    + exact (inv_pend _ _ _ Hinv1).
    + cbn [freed]. eapply Permutation_NoDup; [exact Hperm|exact (inv_nodup _ _ _ Hinv1)].
    + intro j. cbn [freed]. change (alive (mk_heap (strong h1) (freed h1 ++ [i])) j) with (alive h1 j). rewrite <- (inv_freed _ _ _ Hinv1 j).
      split; apply Permutation_in; [apply Permutation_sym|]; exact Hperm.
    + exact (inv_rank _ _ _ Hinv1).
  - injection H as <-. set (h0 := mk_heap (update (strong h) i (S n)) (freed h)).
    assert (Hsame : forall j, alive h0 j = alive h j).
    { intro j. unfold alive at 1, h0, update. cbn [strong]. destruct (N.eqb_spec j i) as [->|Hne]; [rewrite Hal|]; reflexivity. }
    split; [split|].
    + intros j Hj. pose proof (inv_count _ _ _ Hinv j Hj) as Hc. cbn [count_occ] in Hc. rewrite (live_pointers_same h h0) by auto.
      unfold h0, update. cbn [strong]. destruct (N.eqb_spec j i) as [->|Hne].
      * destruct (N.eq_dec i i); [|contradiction]. lia.
      * destruct (N.eq_dec i j); [congruence|]. lia.
    + intros j Hj. apply (inv_pend _ _ _ Hinv). right; auto.
    + exact (inv_nodup _ _ _ Hinv).
    + intro j. rewrite Hsame. exact (inv_freed _ _ _ Hinv j).
    + destruct (inv_rank _ _ _ Hinv) as [rank Hr]. exists rank. intros j k. rewrite !Hsame. apply Hr.
    + intros j Hj. rewrite Hsame. exact Hj.
Qed.

(** The state before and after dropping the vector. *)
Definition heap0 : heap := mk_heap (strong_counts p) [].
Lemma alive0 i : i < plen p -> alive heap0 i = true.
Proof.
  intro H. unfold alive, heap0, strong_counts. cbn [strong]. apply positions_spec in H. apply (count_occ_In N.eq_dec) in H.
  destruct (occ (positions p) i); [lia|reflexivity].
Qed.
Lemma inv0 : inv (positions p ++ []) [] heap0.
Proof.
  rewrite app_nil_r. split.
  - intros i Hi. unfold heap0 at 1, strong_counts. cbn [strong]. f_equal. f_equal. unfold live_pointers.
    assert (H : forall l, (forall k, In k l -> k < plen p) -> flat_map (pointers_at p) l = flat_map (fun k => if alive heap0 k then pointers_at p k else []) l).
    { induction l as [|k l IH]; intro Hl; auto. cbn [flat_map]. rewrite alive0 by (apply Hl; left; auto). rewrite IH; auto. intros; apply Hl; right; auto. }
    apply H. intros k Hk. apply positions_spec; auto.
  - intros i Hi. apply positions_spec; auto.
  - constructor.
  - intro i. split; [intros []|]. intros [Hi H]. rewrite alive0 in H; auto. discriminate.
  - exists (fun _ => O). intros j k Hj H. rewrite alive0 in H; auto. discriminate.
Qed.
Lemma dropped stk h : drop_list (drop_rc stk p) (positions p) heap0 = Ok h -> inv [] [] h.
Proof.
  intro H. exact (proj1 (drop_list_ok (drop_rc stk p) [] (fun i pend h h' HQ Hh => drop_rc_ok stk i pend [] h h' HQ Hh) _ _ _ _ inv0 H)).
Qed.

(** ** What is freed *)
Lemma freed_exactly stk fs : drop_pool stk p = Ok fs ->
  NoDup fs /\ (forall i, In i fs -> i < plen p /\ exists n, ~ pointed_at p n i) /\ (forall i, i < plen p -> ~ In i fs -> cyclic p i).
Proof.
  unfold drop_pool. fold heap0. destruct (drop_list (drop_rc stk p) (positions p) heap0) as [h| | |] eqn:Hd; try discriminate.
  cbn [obind]. intros [= <-]. pose proof (dropped _ _ Hd) as Hinv. pose proof (inv_nodup _ _ _ Hinv) as Hnd. pose proof (inv_freed _ _ _ Hinv) as Hf. cbn [app] in Hnd, Hf.
  split; auto. split.
  - intros i Hi. apply Hf in Hi. destruct Hi as [Hi Hd']. split; auto. destruct (inv_rank _ _ _ Hinv) as [rank Hr].
    exists (S (rank i)). enough (H : forall m j, j < plen p -> alive h j = false -> (rank j < m)%nat -> ~ pointed_at p m j) by (apply H; auto; lia).
    induction m as [|m IH]; intros j Hj Ha Hlt; [lia|]. intros (k & Hk & Hrest). destruct (Hr j k Hj Ha Hk) as [Hka Hkr].
    apply (IH k); auto; [eapply points_from; eauto|lia].
  - intros i Hi Hni n. assert (Ha : alive h i = true). { destruct (alive h i) eqn:Ha; auto. exfalso. apply Hni. apply Hf. auto. }
    clear Hni. revert i Hi Ha. induction n as [|n IH]; intros i Hi Ha; [exact I|].
    pose proof (inv_count _ _ _ Hinv i Hi) as Hc. cbn [count_occ] in Hc. unfold alive in Ha. destruct (strong h i) as [|c] eqn:Hs; [discriminate|].
    assert (Hin : In i (live_pointers h (positions p))) by (apply (count_occ_In N.eq_dec); lia).
    unfold live_pointers in Hin. apply in_flat_map in Hin. destruct Hin as (k & Hk1 & Hk2). destruct (alive h k) eqn:Hka; [|destruct Hk2].
    exists k. split; [exact Hk2|]. apply IH; auto. apply positions_spec; auto.
Qed.
Corollary all_freed_if stk fs : (forall i, ~ cyclic p i) -> drop_pool stk p = Ok fs -> all_freed p fs.
Proof.
  intros Hc H. destruct (freed_exactly _ _ H) as (Hnd & H1 & H2). split; auto. intro i. split; [intro Hi; apply H1; auto|].
  intro Hi. destruct (in_dec N.eq_dec i fs); auto. exfalso. apply (Hc i). auto.
Qed.

(** ** Enough stack *)
(** One level for each entry that is alive suffices ... *)
Definition n_alive (h : heap) : nat := length (filter (alive h) (positions p)).
Lemma n_alive_later h h' : later h h' -> (n_alive h' <= n_alive h)%nat.
Proof.
  intro H. unfold n_alive. induction (positions p) as [|k l IH]; auto. cbn [filter].
  destruct (alive h' k) eqn:H1, (alive h k) eqn:H2; cbn [length]; try lia. rewrite (H k H2) in H1. discriminate.
Qed.
Lemma n_alive_dies h h' i : later h h' -> i < plen p -> alive h i = true -> alive h' i = false -> (n_alive h' < n_alive h)%nat.
Proof.
  intros H Hi Ha Hd. unfold n_alive. apply positions_spec in Hi. induction (positions p) as [|k l IH]; [destruct Hi|]. cbn [filter].
  assert (Hle : (length (filter (alive h') l) <= length (filter (alive h) l))%nat).
  { clear - H. induction l as [|k l IH]; auto. cbn [filter]. destruct (alive h' k) eqn:H1, (alive h k) eqn:H2; cbn [length]; try lia. rewrite (H k H2) in H1. discriminate. }
  destruct Hi as [->|Hi].
  - rewrite Ha, Hd. cbn [length]. lia.
  - specialize (IH Hi). destruct (alive h' k) eqn:H1, (alive h k) eqn:H2; cbn [length]; try lia. rewrite (H k H2) in H1. discriminate.
Qed.
Lemma drop_rc_enough stk : forall i pend busy h, inv (i :: pend) busy h -> (n_alive h <= stk)%nat ->
  exists h', drop_rc stk p h i = Ok h'.
Proof.
  induction stk as [|stk IH]; intros i pend busy h Hinv Hst; destruct (pending_alive _ _ _ _ Hinv) as (Hi & Hal & Hpos).
  - exfalso. unfold n_alive in Hst. assert (Hin : In i (filter (alive h) (positions p))) by (apply filter_In; split; [apply positions_spec|]; auto).
    destruct (filter (alive h) (positions p)); [destruct Hin|cbn in Hst; lia].
  - cbn [drop_rc]. destruct (Nat.pred (strong h i)) as [|n] eqn:Hn; [|eauto].
    destruct (dies _ _ _ _ Hinv Hn) as (Hinv0 & HL0 & Hdead). set (h0 := mk_heap (update (strong h) i 0) (freed h)) in *.
    assert (Hst0 : (n_alive h0 <= stk)%nat) by (pose proof (n_alive_dies h h0 i HL0 Hi Hal Hdead); lia).
    clearbody h0. clear - IH Hinv0 Hst0 inside.
    enough (exists h1, drop_list (drop_rc stk p) (pointers_at p i) h0 = Ok h1) as [h1 ->] by (cbn [obind]; eauto).
    revert Hinv0. generalize (pointers_at p i). intro l. revert h0 Hst0. induction l as [|k l IHl]; intros h0 Hst0 Hinv0; cbn [drop_list]; [eauto|].
    destruct (IH k (l ++ pend) (i :: busy) h0 Hinv0 Hst0) as [h1 Hh1]. rewrite Hh1. cbn [obind].
    destruct (drop_rc_ok stk k (l ++ pend) (i :: busy) h0 h1 Hinv0 Hh1) as [Hi1 HL1].
    apply IHl; auto. pose proof (n_alive_later _ _ HL1). lia.
Qed.
Lemma drop_enough stk : (length p <= stk)%nat -> exists fs, drop_pool stk p = Ok fs.
Proof.
  intro Hst. unfold drop_pool. fold heap0.
  enough (exists h, drop_list (drop_rc stk p) (positions p) heap0 = Ok h) as [h ->] by (cbn [obind]; eauto).
  pose proof inv0 as H0.
  assert (Hn : (n_alive heap0 <= stk)%nat).
  { unfold n_alive. etransitivity; [|exact Hst]. transitivity (length (positions p)); [|unfold positions; rewrite map_length, seq_length; lia].
    clear. induction (positions p) as [|k l IH]; auto. cbn [filter]. destruct (alive heap0 k); cbn [length]; lia. }
  revert H0 Hn. generalize heap0. generalize (positions p). induction l as [|k l IHl]; intros h0 H0 Hn; cbn [drop_list]; [eauto|].
  cbn [app] in H0. destruct (drop_rc_enough stk k (l ++ []) [] h0 H0 Hn) as [h1 Hh1]. rewrite Hh1. cbn [obind].
  destruct (drop_rc_ok stk k (l ++ []) [] h0 h1 H0 Hh1) as [HQ1 HL1]. apply IHl; auto. pose proof (n_alive_later _ _ HL1). lia.
Qed.
(** ... and so does a bound for the length of pointer sequences. *)
Lemma drop_rc_rank (rank : N -> nat) : (forall k j, points_to p k j -> (rank j < rank k)%nat) ->
  forall stk i h, (rank i < stk)%nat -> exists h', drop_rc stk p h i = Ok h'.
Proof.
  intros Hr. induction stk as [|stk IH]; intros i h Hi; [lia|]. cbn [drop_rc].
  destruct (Nat.pred (strong h i)); [|eauto].
  match goal with |- context [drop_list _ _ ?g] => generalize g end. intro g.
  enough (exists h1, drop_list (drop_rc stk p) (pointers_at p i) g = Ok h1) as [h1 ->] by (cbn [obind]; eauto).
  assert (Hl : forall j, In j (pointers_at p i) -> (rank j < stk)%nat) by (intros j Hj; specialize (Hr i j Hj); lia).
  revert g Hl. generalize (pointers_at p i). induction l as [|k l IHl]; intros g Hl; cbn [drop_list]; [eauto|].
  destruct (IH k g) as [h1 ->]; [apply Hl; left; auto|]. cbn [obind]. apply IHl. intros; apply Hl; right; auto.
Qed.
Lemma drop_rank (rank : N -> nat) stk : (forall k j, points_to p k j -> (rank j < rank k)%nat) -> (forall i, rank i < stk)%nat ->
  exists fs, drop_pool stk p = Ok fs.
Proof.
  intros Hr Hst. unfold drop_pool. fold heap0.
  enough (exists h, drop_list (drop_rc stk p) (positions p) heap0 = Ok h) as [h ->] by (cbn [obind]; eauto).
  generalize heap0. generalize (positions p). induction l as [|k l IHl]; intros g; cbn [drop_list]; [eauto|].
  destruct (drop_rc_rank rank Hr stk k g (Hst k)) as [h1 ->]. cbn [obind]. apply IHl.
Qed.
Lemma rank_acyclic (rank : N -> nat) top : (forall k j, points_to p k j -> (rank j < rank k)%nat) -> (forall i, rank i <= top)%nat ->
  forall i, ~ cyclic p i.
Proof.
  intros Hr Ht i Hc. specialize (Hc (S (top - rank i))).
  enough (H : forall n j, pointed_at p n j -> (n <= top - rank j)%nat) by (specialize (H _ _ Hc); lia).
  induction n as [|n IH]; intros j Hj; [lia|]. destruct Hj as (k & Hk & Hj). apply Hr in Hk. specialize (Ht k). apply IH in Hj. lia.
Qed.
End WithPool.
