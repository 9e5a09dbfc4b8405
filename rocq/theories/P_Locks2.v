(** * The machine of M_Locks.v: lock order, progress, termination. *)
From Verif Require Import Base M_Names M_Descriptors M_ConstantPool M_Bytecode M_Attributes M_Class M_Locks P_Locks.

Definition fails {A} (m : act A) : Prop := exists x, den m = ([], Panic x).
Section Order.
Variable rank : cell -> nat.
Variable bad : cell -> Prop.
(** A program that takes locks in increasing order and drops the newest first; the guards it has are [h], at its end [b].  [bad] cells
    are those that may be poisoned. *)
Fixpoint ordered {A} (b h : list cell) (m : act A) : Prop :=
  match m with
  | Done _ => h = b
  | Abort _ => Forall bad h
  | Lock l k => Forall (fun x => (rank x < rank l)%nat) h /\ (bad l -> Forall bad h /\ fails k) /\ ordered b (l :: h) k
  | Unlock l k => exists h', h = l :: h' /\ ordered b h' k
  | Emit _ k => ordered b h k
  end.
Lemma fails_bind {A B} (m : act A) (f : A -> act B) : fails m -> fails (abind m f).
Proof. intros (x & H). exists x. rewrite den_bind, H. reflexivity. Qed.
Lemma ordered_bind {A B} b b' (m : act A) (f : A -> act B) : forall h, ordered b h m -> (forall a, ordered b' b (f a)) -> ordered b' h (abind m f).
Proof.
  induction m as [a|x|l k IH|l k IH|o k IH]; intros h Hm Hf; cbn [abind ordered] in *; auto.
  - subst h. apply Hf.
  - destruct Hm as (H1 & H2 & H3). split; auto. split; auto. intro Hb. destruct (H2 Hb) as [H4 H5]. split; auto. apply fails_bind, H5.
  - destruct Hm as (h' & -> & Hm). exists h'. auto.
Qed.
Lemma ordered_done {A} h (a : A) : ordered h h (Done a). Proof. reflexivity. Qed.
Lemma ordered_pure {A} h (o : outcome A) : (exists a, o = Ok a) \/ Forall bad h -> ordered h h (pure o).
Proof. intros [(a & ->)|H]; [reflexivity|]. destruct o; cbn; auto. Qed.
Lemma ordered_peel {A} p h l t e (k : N -> entry -> act A) : nth_error p (N.to_nat t) = Some e ->
  Forall (fun x => (rank x < rank l)%nat) h -> (bad l -> Forall bad h /\ fails (k t e)) -> ordered (l :: h) (l :: h) (k t e) ->
  ordered h h (with_peel p l (Resolved t) k).
Proof.
  intros He Hr Hb Hk. unfold with_peel. cbn [ordered]. rewrite He. split; auto. split.
  - intro H. destruct (Hb H) as [H1 H2]. split; auto. apply fails_bind, H2.
  - eapply ordered_bind; [exact Hk|]. intro a. cbn [ordered]. exists h. auto.
Qed.

(** ** The invariant *)
Definition thread_ok (d : list (option cp_item) * outcome unit) (t : thread) : Prop :=
  match now t with
  | Running h todo => ordered [] h todo /\ seen t ++ fst (den todo) = fst d /\ snd (den todo) = snd d
  | Unwinding h => Forall bad h /\ seen t = fst d /\ exists x, snd d = Panic x
  | Finished => seen t = fst d /\ snd d = Ok tt
  | Panicked => seen t = fst d /\ exists x, snd d = Panic x
  end.
Definition inv (ds : list (list (option cp_item) * outcome unit)) (M : machine) : Prop :=
  Forall2 thread_ok ds (threads M) /\ Forall bad (poisoned M).
Lemma thread_step_ok fr ps d t ps' t' : thread_step fr ps t ps' t' -> Forall bad ps -> thread_ok d t -> thread_ok d t' /\ Forall bad ps'.
Proof.
  intros H Hps Ht. destruct H; unfold thread_ok in *; cbn [now seen] in *.
  - destruct Ht as ((H1 & H2 & H3) & Hs & Ho). auto.
  - destruct Ht as ((H1 & H2 & H3) & Hs & Ho). split; auto. rewrite Forall_forall in Hps. destruct (H2 (Hps _ H0)) as [Hb (x & Hx)].
    cbn [den] in *. rewrite Hx in *. cbn [fst snd] in *. rewrite app_nil_r in Hs. split; auto. split; auto. exists x. auto.
  - destruct Ht as ((h' & Hh & H3) & Hs & Ho). injection Hh as <-. auto.
  - destruct Ht as (H3 & Hs & Ho). cbn [den fst snd ordered] in *. rewrite <- app_assoc. auto.
  - destruct Ht as (H3 & Hs & Ho). cbn [den fst snd ordered] in *. rewrite app_nil_r in Hs. split; auto. split; auto. split; auto. exists x. auto.
  - destruct Ht as (Hb & Hs). inversion Hb; subst. auto.
  - destruct Ht as (Hb & Hs). auto.
  - destruct Ht as (H3 & Hs & Ho). cbn [den fst snd] in *. rewrite app_nil_r in Hs. auto.
Qed.
Lemma step_inv ds M M' : step M M' -> inv ds M -> inv ds M'.
Proof.
  intros H [Hf Hp]. destruct H as [M ts1 t ts2 ps' t' Hts Hstep]. rewrite Hts in Hf. apply Forall2_app_inv_r in Hf. destruct Hf as (d1 & dr & H1 & H2 & ->).
  inversion H2 as [|d ? dr' ? Hd Hdr]; subst. destruct (thread_step_ok _ _ _ _ _ _ Hstep Hp Hd) as [Hd' Hp']. split; auto. cbn [threads].
  apply Forall2_app; auto.
Qed.
Lemma steps_inv ds n M M' : steps n M M' -> inv ds M -> inv ds M'.
Proof. intros H Hi. induction H; auto. eapply step_inv; eauto. Qed.

(** ** Progress *)
Lemma cell_dec (a b : cell) : {a = b} + {a <> b}.
Proof. decide equality; [apply Bool.bool_dec|apply N.eq_dec]. Qed.
Lemma free_dec M l : free M l \/ exists t, In t (threads M) /\ In l (holds (now t)).
Proof.
  unfold free. induction (threads M) as [|t ts IH]; [left; intros ? []|]. destruct (in_dec cell_dec l (holds (now t))) as [Hin|Hni].
  - right. exists t. split; auto. left; auto.
  - destruct IH as [IH|(u & Hu & Hl)]; [left|right; exists u; split; auto; right; auto]. intros u [<-|Hu]; auto.
Qed.
Definition final (t : thread) : Prop := now t = Finished \/ now t = Panicked.
Lemma step_thread M t ps' t' : In t (threads M) -> thread_step (free M) (poisoned M) t ps' t' -> exists M', step M M'.
Proof. intros Hin H. apply in_split in Hin. destruct Hin as (ts1 & ts2 & Hts). eexists. econstructor; eauto. Qed.
Lemma free_steps M t s h l k : In t (threads M) -> t = mk_thread s (Running h (Lock l k)) -> free M l -> exists M', step M M'.
Proof.
  intros Hin -> Hf. destruct (in_dec cell_dec l (poisoned M)) as [Hp|Hp]; (eapply step_thread; [exact Hin|]); [eapply step_poison|eapply step_lock]; auto.
Qed.
(** A thread that is not done can make a step or waits for a lock. *)
Lemma moves_or_waits ds M t : inv ds M -> In t (threads M) -> ~ final t ->
  (exists M', step M M') \/ exists s h l k, t = mk_thread s (Running h (Lock l k)) /\ Forall (fun x => (rank x < rank l)%nat) h.
Proof.
  intros [Hf _] Hin Hnf. assert (Hok : exists d, thread_ok d t).
  { clear - Hf Hin. induction Hf; [destruct Hin|]. destruct Hin as [<-|Hin]; eauto. }
  destruct Hok as (d & Hok). destruct t as [s [h todo|h| |]]; unfold thread_ok in Hok; cbn [now] in Hok.
  - destruct Hok as (Ho & _). destruct todo as [[]|x|l k|l k|o k]; cbn [ordered] in Ho.
    + subst h. left. eapply step_thread; [exact Hin|]. apply step_finish.
    + left. eapply step_thread; [exact Hin|]. apply step_abort.
    + right. exists s, h, l, k. split; auto. apply Ho.
    + destruct Ho as (h' & -> & _). left. eapply step_thread; [exact Hin|]. apply step_unlock.
    + left. eapply step_thread; [exact Hin|]. apply step_emit.
  - left. destruct h as [|l h]; (eapply step_thread; [exact Hin|]); [apply step_panicked|apply step_drop].
  - exfalso. apply Hnf. left; auto.
  - exfalso. apply Hnf. right; auto.
Qed.
Variable top : nat.
Hypothesis Htop : forall l, (rank l <= top)%nat.
Lemma waits_steps ds M : inv ds M -> forall j t s h l k, In t (threads M) -> t = mk_thread s (Running h (Lock l k)) -> (top - rank l < j)%nat -> exists M', step M M'.
Proof.
  intros Hi. induction j as [|j IH]; intros t s h l k Hin Ht Hj; [lia|]. destruct (free_dec M l) as [Hfree|(u & Hu & Hl)]; [eapply free_steps; eauto|].
  assert (Hnf : ~ final u) by (intros [He|He]; rewrite He in Hl; destruct Hl).
  destruct (moves_or_waits ds M u Hi Hu Hnf) as [Hs|(s' & h' & l' & k' & -> & Hr)]; auto. cbn [now holds] in Hl. rewrite Forall_forall in Hr.
  apply Hr in Hl. eapply IH; [exact Hu|reflexivity|]. pose proof (Htop l'). lia.
Qed.
Lemma progress ds M : inv ds M -> Forall final (threads M) \/ exists M', step M M'.
Proof.
  intro Hi. assert (Hd : Forall final (threads M) \/ exists t, In t (threads M) /\ ~ final t).
  { clear. induction (threads M) as [|t ts IH]; [left; constructor|]. destruct IH as [IH|(u & Hu & Hnf)]; [|right; exists u; split; auto; right; auto].
    destruct t as [s [h k|h| |]]; [right; eexists; split; [left; reflexivity|intros [?|?]; discriminate]..|left|left]; constructor; auto; [left|right]; auto. }
  destruct Hd as [Hd|(t & Hin & Hnf)]; auto. right. destruct (moves_or_waits ds M t Hi Hin Hnf) as [Hs|(s & h & l & k & Ht & _)]; auto.
  eapply waits_steps; eauto.
Qed.
End Order.

(** ** Termination *)
Fixpoint size {A} (m : act A) : nat :=
  match m with Done _ | Abort _ => 1 | Lock _ k => 2 + size k | Unlock _ k | Emit _ k => 1 + size k end.
Definition weight (t : thread) : nat :=
  match now t with Running h todo => size todo + length h + 1 | Unwinding h => length h + 1 | Finished | Panicked => 0 end.
Definition total (ts : list thread) : nat := fold_right (fun t n => weight t + n)%nat 0%nat ts.
Lemma thread_step_weight fr ps t ps' t' : thread_step fr ps t ps' t' -> (weight t' < weight t)%nat.
Proof. intro H. destruct H; unfold weight; cbn [now size length]; lia. Qed.
Lemma total_app a b : total (a ++ b) = (total a + total b)%nat.
Proof. unfold total. induction a as [|t a IH]; cbn; [reflexivity|]. rewrite IH. lia. Qed.
Lemma step_total M M' : step M M' -> (total (threads M') < total (threads M))%nat.
Proof.
  intro H. destruct H as [M ts1 t ts2 ps' t' Hts Hs]. apply thread_step_weight in Hs. rewrite Hts. cbn [threads]. rewrite !total_app. cbn. lia.
Qed.
Lemma steps_total n M M' : steps n M M' -> (total (threads M') + n <= total (threads M))%nat.
Proof. intro H. induction H; [lia|]. apply step_total in H0. lia. Qed.
