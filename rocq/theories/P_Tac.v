(** * Tactics for [reads] and formats *)
From Verif Require Import Base S_Lang P_Reads.
From Coq Require Import ZifyBool ZifyNat ZifyN.

Lemma cat_intro (L M : lang) u v : L u -> M v -> (L +++ M) (u ++ v).
Proof. intros; exists u, v; auto. Qed.
Lemma cat_nil_r (L : lang) (P : Prop) w : L w -> P -> (L +++ only_if P) w.
Proof. intros; exists w, []; rewrite app_nil_r; unfold only_if; auto. Qed.
Lemma cat_nil_l (L : lang) (P : Prop) w : P -> L w -> (only_if P +++ L) w.
Proof. intros; exists [], w; unfold only_if; auto. Qed.
Lemma cat_only_r (L : lang) (P : Prop) w : (L +++ only_if P) w <-> L w /\ P.
Proof.
  split.
  - intros (u & v & -> & Hu & -> & HP). rewrite app_nil_r. auto.
  - intros [H1 H2]. apply cat_nil_r; auto.
Qed.
Lemma cat_only_l (L : lang) (P : Prop) w : (only_if P +++ L) w <-> P /\ L w.
Proof.
  split.
  - intros (u & v & -> & (-> & HP) & Hu). auto.
  - intros [H1 H2]. apply cat_nil_l; auto.
Qed.
Lemma cat_assoc (L M K : lang) w : ((L +++ M) +++ K) w <-> (L +++ M +++ K) w.
Proof.
  split.
  - intros (u & v & -> & (u1 & u2 & -> & H1 & H2) & H3). exists u1, (u2 ++ v).
    rewrite app_assoc. repeat split; auto. exists u2, v; auto.
  - intros (u & v & -> & H1 & (u1 & u2 & -> & H2 & H3)). exists (u ++ u1), u2.
    rewrite app_assoc. repeat split; auto. exists u, u1; auto.
Qed.
Lemma cat_eps_l (L : lang) w : (eps +++ L) w <-> L w.
Proof. split; [intros (u & v & -> & -> & H); auto|]. intro H; exists [], w; repeat split; auto. Qed.

Lemma u1_s1 n w : u1 n w -> s1 (as_i8 n) w.
Proof. intro H. apply (uint_sint 1); [lia|]. eauto. Qed.
Lemma u2_s2 n w : u2 n w -> s2 (as_i16 n) w.
Proof. intro H. apply (uint_sint 2); [lia|]. eauto. Qed.
Lemma u4_s4 n w : u4 n w -> s4 (as_i32 n) w.
Proof. intro H. apply (uint_sint 4); [lia|]. eauto. Qed.
Lemma u8_s8 n w : u8 n w -> s8 (as_i64 n) w.
Proof. intro H. apply (uint_sint 8); [lia|]. eauto. Qed.
Lemma s1_u1 z w : s1 z w -> exists n, u1 n w /\ z = as_i8 n.
Proof. intro H. apply (uint_sint 1) in H; [exact H|lia]. Qed.
Lemma s2_u2 z w : s2 z w -> exists n, u2 n w /\ z = as_i16 n.
Proof. intro H. apply (uint_sint 2) in H; [exact H|lia]. Qed.
Lemma s4_u4 z w : s4 z w -> exists n, u4 n w /\ z = as_i32 n.
Proof. intro H. apply (uint_sint 4) in H; [exact H|lia]. Qed.
Lemma s8_u8 z w : s8 z w -> exists n, u8 n w /\ z = as_i64 n.
Proof. intro H. apply (uint_sint 8) in H; [exact H|lia]. Qed.

(** A table followed by something. *)
Lemma reads_table_bind {A B} E (cnt : parser N) (C : N -> lang) (F : A -> lang) body
    (k : list A -> parser B) M :
  reads E cnt C -> (forall j, reads E (body j) F) -> (forall l, reads E (k l) (M l)) ->
  reads E (bind cnt (fun n => bind (for_n n body) k)) (fun b w => exists l, (table C F l +++ M l b) w).
Proof.
  intros Hc Hb Hk. eapply reads_ext.
  - eapply reads_bind; [exact Hc|]. intros n _.
    eapply reads_bind; [apply reads_for_n; eauto|]. intros l _. apply Hk.
  - intros b w. unfold table. split.
    + intros (n & u & v & -> & Hn & l & u' & v' & -> & [<- Hm] & HM).
      exists l. apply cat_assoc. apply cat_intro; auto. apply cat_intro; auto.
    + intros (l & H). apply cat_assoc in H. destruct H as (u & v & -> & Hn & u' & v' & -> & Hm & HM).
      exists (N.of_nat (length l)). apply cat_intro; auto. exists l. apply cat_intro; auto.
Qed.

Lemma reads_guard_bind {B} E b m (k : unit -> parser B) M :
  (b = true -> reads E (k tt) M) ->
  reads E (bind (guard b m) k) (fun x w => b = true /\ M x w).
Proof.
  intro Hk. destruct b; unfold guard.
  - eapply reads_ext.
    + eapply reads_bind; [apply reads_ret|]. intros [] _. exact (Hk eq_refl).
    + intros x w. split.
      * intros (a & u & v & -> & [-> _] & H); auto.
      * intros [_ H]. exists tt. apply cat_nil_l; auto.
  - apply reads_ext with (L := fun _ _ => False).
    + intros ix bs a ix' _ _. unfold bind, pfail. split; [discriminate|].
      intros (? & ? & ? & ? & ? & ? & []).
    + intros x w. intuition discriminate.
Qed.

Lemma reads_lift_bind {A B} E (m : outcome A) (k : A -> parser B) M :
  (forall a, m = Ok a -> reads E (k a) (M a)) ->
  reads E (bind (lift m) k) (fun b w => exists a, m = Ok a /\ M a b w).
Proof.
  intro Hk. eapply reads_ext.
  - eapply reads_bind; [apply reads_lift|]. intros a (w & _ & Ha). exact (Hk a Ha).
  - intros x w. split.
    + intros (a & u & v & -> & [-> Ha] & H). eauto.
    + intros (a & Ha & H). exists a. apply cat_nil_l; auto.
Qed.

(** A choice by the first byte. *)
Lemma reads_byte E : reads E read_u1 (fun n w => exists b, w = [b] /\ n = Byte.to_N b).
Proof.
  eapply reads_ext; [apply reads_u1|]. intros n w. split.
  - intros [Hl Hn]. destruct w as [|b [|]]; try discriminate. exists b. split; auto.
  - intros (b & -> & ->). split; reflexivity.
Qed.

Lemma reads_at_tagged {A} E ix (f : N -> parser A) (L : A -> lang) :
  (forall b : byte, exists M, reads_at E (ix + 1) (f (Byte.to_N b)) M
     /\ forall a w, M a w -> L a (b :: w)) ->
  (forall a w, L a w -> exists b w', w = b :: w' /\
     exists M, reads_at E (ix + 1) (f (Byte.to_N b)) M /\ M a w') ->
  reads_at E ix (bind read_u1 f) L.
Proof.
  intros Hs Hc bs a ix' Hfit Hix. unfold bind. split.
  - destruct (read_u1 bs ix) as [[v ix1]| | |] eqn:E1; try discriminate. intro E2.
    apply (reads_byte E) in E1; auto.
    destruct E1 as (pre & w & post & -> & -> & -> & b & -> & ->).
    destruct (Hs b) as (M & HM & HL). apply HM in E2; auto.
    2:{ rewrite !blen_app. change (blen [b]) with 1. lia. }
    destruct E2 as (pre' & w' & post' & Heq & Hl & -> & Hw).
    rewrite app_assoc in Heq. apply app_eq_blen in Heq; [|rewrite blen_app; change (blen [b]) with 1; change (blen [b]) with 1 in Hl; lia].
    destruct Heq as [<- ->]. exists pre, (b :: w'), post'. repeat split; auto.
    change (b :: w') with ([b] ++ w'). rewrite blen_app. change (blen [b]) with 1 in *. lia.
  - intros (pre & w & post & -> & -> & -> & Hw).
    destruct (Hc a w Hw) as (b & w' & -> & M & HM & Ha).
    assert (E1 : read_u1 (pre ++ (b :: w') ++ post) (blen pre) = Ok (Byte.to_N b, blen pre + 1)).
    { apply (reads_byte E); auto. exists pre, [b], (w' ++ post). repeat split; auto. exists b; auto. }
    rewrite E1. apply HM; auto.
    + change (pre ++ (b :: w') ++ post) with (pre ++ ([b] ++ w') ++ post). rewrite !blen_app.
      change (blen [b]) with 1. lia.
    + exists (pre ++ [b]), w', post. rewrite <- !app_assoc, blen_app. change (blen [b]) with 1.
      repeat split; auto. change (b :: w') with ([b] ++ w'). rewrite blen_app. change (blen [b]) with 1. lia.
Qed.
Lemma reads_tagged {A} E (f : N -> parser A) (L : A -> lang) :
  (forall b : byte, exists M, reads E (f (Byte.to_N b)) M /\ forall a w, M a w -> L a (b :: w)) ->
  (forall a w, L a w -> exists b w', w = b :: w' /\
     exists M, reads E (f (Byte.to_N b)) M /\ M a w') ->
  reads E (bind read_u1 f) L.
Proof.
  intros Hs Hc ix. apply reads_at_tagged.
  - intro b. destruct (Hs b) as (M & HM & H). exists M; split; auto.
  - intros a w Hw. destruct (Hc a w Hw) as (b & w' & -> & M & HM & H). exists b, w'. split; auto. exists M; split; auto.
Qed.

Lemma u1_byte (b : byte) n : u1 n [b] <-> Byte.to_N b = n.
Proof. unfold u1, uint, be. simpl. split; [intros [_ H]; auto|auto]. Qed.
Lemma u1_cons (n : N) (L : lang) w : (u1 n +++ L) w -> exists b w', w = b :: w' /\ Byte.to_N b = n /\ L w'.
Proof.
  intros (u & v & -> & Hu & Hv). destruct Hu as [Hl Hb]. destruct u as [|b [|]]; try discriminate.
  exists b, v. repeat split; auto.
Qed.
Lemma u1_cons_intro (b : byte) n (L : lang) w : Byte.to_N b = n -> L w -> (u1 n +++ L) (b :: w).
Proof. intros H HL. change (b :: w) with ([b] ++ w). apply cat_intro; auto. apply u1_byte; auto. Qed.

(** [reads E p ?L] by the structure of [p]. *)
Create HintDb reads.
#[export] Hint Resolve reads_u1 reads_u2 reads_u4 reads_u8 reads_ret reads_lift reads_pfail reads_pfail_at : reads.

Ltac rd :=
  lazymatch goal with
  | |- reads _ (bind _ (fun n => for_n n _)) _ => eapply reads_table; [rd|intro; rd]
  | |- reads _ (bind _ (fun n => bind (for_n n _) _)) _ => eapply reads_table_bind; [rd|intro; rd|intro; rd]
  | |- reads _ (bind (guard _ _) _) _ => eapply reads_guard_bind; intro; rd
  | |- reads _ (bind (lift _) _) _ => eapply reads_lift_bind; intros; rd
  | |- reads _ (bind _ _) _ => eapply reads_bind; [rd|intros; rd]
  | |- reads _ (pctx _ _) _ => eapply reads_pctx; rd
  | |- reads _ (for_n _ _) _ => eapply reads_for_n; intro; rd
  | |- reads _ (guard _ _) _ => eapply reads_guard
  | |- reads _ (ret _) _ => eapply reads_ret
  | |- reads _ (lift _) _ => eapply reads_lift
  | |- reads _ (pfail _) _ => eapply reads_pfail
  | |- reads _ (pfail_at _) _ => eapply reads_pfail_at
  | |- reads _ _ _ => eauto with reads nocore
  end.

(** Taking formats apart and putting them together. *)
Ltac fwd1 :=
  match goal with
  | H : exists _, _ |- _ => let x := fresh "x" in destruct H as [x H]
  | H : _ /\ _ |- _ => let H1 := fresh "H" in destruct H as [H1 H]
  | H : (_ +++ _) _ |- _ => let u := fresh "u" in let v := fresh "v" in
      let H1 := fresh "H" in destruct H as (u & v & -> & H1 & H)
  | H : only_if _ _ |- _ => destruct H as [-> H]
  | H : eps _ |- _ => red in H; subst
  | H : any _ _ _ |- _ => unfold any in H
  | H : alt _ _ _ |- _ => destruct H as [H|H]
  | H : False |- _ => destruct H
  end.
Ltac fwd := cbn beta in *; repeat (fwd1; subst; cbn beta in *; rewrite ?app_nil_r in *; cbn [app] in * ).
Ltac bwd1 :=
  match goal with
  | |- (only_if _ +++ _) _ => apply cat_nil_l
  | |- (_ +++ only_if _) _ => apply cat_nil_r
  | |- (_ +++ _) (_ ++ _) => apply cat_intro
  | |- exists _, _ => eexists
  | |- _ /\ _ => split
  | |- only_if _ [] => split; [reflexivity|]
  end.
Ltac bwd := repeat (first [eassumption | reflexivity | bwd1]).
