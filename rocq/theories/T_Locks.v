(** * Property theorems: threads that share a class (C38), with the threadsafe feature. *)
From Verif Require Import Base M_Names M_Descriptors M_ConstantPool M_Bytecode M_Attributes M_Class M_Cesu8 Data M_Locks
  S_Lang S_Names S_Format S_Pool S_Items S_Env S_Locks P_Layout P_Class3 T_Class T_Members T_Unknown T_Iter P_Locks P_Locks2 P_Locks3.
From Coq Require Import ZifyBool ZifyNat ZifyN.

Lemma script_den c ns : exists all panics, expected c ns all panics
  /\ den (script (constant_pool c) ns) = (all, if panics then snd (den (script (constant_pool c) ns)) else Ok tt)
  /\ (panics = true -> exists x, snd (den (script (constant_pool c) ns)) = Panic x).
Proof.
  induction ns as [|n ns (all & panics & He & Hd & Hp)].
  - exists [], false. split; [apply (all_calls c [] []); constructor|]. split; [reflexivity|discriminate].
  - cbn [script]. destruct (calls_den (constant_pool c) n 0 (script (constant_pool c) ns)) as [(l & Hl & Hden)|(m & l & x & Hm & Hl & Hx & Hden)]; rewrite Hden.
    + exists (l ++ all), panics. rewrite Hd. cbn [fst snd]. split; [|split; [destruct panics; reflexivity|]].
      * destruct He as [ls Hf|ns1 k ns2 ls m l' x -> Hf Hm Hl' Hx].
        -- apply (all_calls c (n :: ns) (l :: ls)). constructor; auto.
        -- rewrite app_assoc. apply (until_panic c (n :: ns1 ++ k :: ns2) (n :: ns1) k ns2 (l :: ls) m l' x); auto.
      * intro E. subst panics. exact (Hp eq_refl).
    + exists l, true. split; [apply (until_panic c (n :: ns) [] n ns [] m l x); auto|]. split; [reflexivity|]. intros _. exists x. reflexivity.
Qed.
Lemma start_inv E opts bs c cs scripts : sane E bs -> parse_class_with_options E opts bs = Ok c -> constants_of E bs cs ->
  inv (lock_rank (cesu8 E) cs) (unreadable (cesu8 E) cs) (map (fun ns => den (script (constant_pool c) ns)) scripts) (start c scripts).
Proof.
  intros Hs H Hcs. destruct (accepted_pool _ _ _ _ _ Hs H Hcs) as [HP Hv]. split; [|constructor]. cbn [start threads].
  induction scripts as [|ns scripts IH]; cbn [map]; constructor; auto. unfold thread_ok. cbn [now seen app]. split; [|auto].
  rewrite HP. eapply script_ordered. exact Hv.
Qed.

(** Whatever the threads do and however they are scheduled, some thread can go on until all are finished (or have panicked, which is
    possible only as C38_same_items says). *)
Theorem C38_no_deadlock E opts bs c scripts k M : sane E bs -> parse_class_with_options E opts bs = Ok c ->
  steps k (start c scripts) M ->
  (forall t, In t (threads M) -> now t = Finished \/ now t = Panicked) \/ exists M', step M M'.
Proof.
  intros Hs H Hk. destruct (constants_exist _ _ _ _ Hs H) as (cs & Hcs). pose proof (start_inv _ _ _ _ _ scripts Hs H Hcs) as Hi.
  apply (steps_inv _ _ _ _ _ _ Hk) in Hi. destruct (progress _ _ 5 (rank_top _ _) _ _ Hi) as [Hf|Hstep]; auto. left. apply Forall_forall, Hf.
Qed.
(** They do finish: there is a bound for the number of steps, for all schedules. *)
Theorem C38_terminates c scripts : exists bound, forall k M, steps k (start c scripts) M -> (k <= bound)%nat.
Proof. exists (total (threads (start c scripts))). intros k M H. apply steps_total in H. lia. Qed.
(** At any time each thread has seen what it would have seen alone, up to where it is; a thread panics only if it would panic alone. *)
Theorem C38_same_items E opts bs c scripts k M : sane E bs -> parse_class_with_options E opts bs = Ok c ->
  steps k (start c scripts) M ->
  Forall2 (fun ns t => exists all panics, expected c ns all panics /\
    match now t with
    | Running _ _ => exists rest, seen t ++ rest = all
    | Unwinding _ | Panicked => seen t = all /\ panics = true
    | Finished => seen t = all /\ panics = false
    end) scripts (threads M).
Proof.
  intros Hs H Hk. destruct (constants_exist _ _ _ _ Hs H) as (cs & Hcs). pose proof (start_inv _ _ _ _ _ scripts Hs H Hcs) as Hi.
  apply (steps_inv _ _ _ _ _ _ Hk) in Hi. destruct Hi as [Hf _]. revert Hf. generalize (threads M). clear. induction scripts as [|ns scripts IH]; intros ts Hf; inversion Hf as [|d t ? ts' Hd Hts]; subst; constructor; auto.
  destruct (script_den c ns) as (all & panics & He & Hden & Hp). exists all, panics. split; auto.
  rewrite Hden in Hd. unfold thread_ok in Hd. destruct (now t) as [h todo|h| |]; cbn [fst snd] in Hd.
  - destruct Hd as (_ & Hd & _). eauto.
  - destruct Hd as (_ & Hd & x & Hx). split; auto. destruct panics; [reflexivity|discriminate].
  - destruct Hd as (Hd & Hx). split; auto. destruct panics; [|reflexivity]. destruct (Hp eq_refl) as (x & Hx'). congruence.
  - destruct Hd as (Hd & x & Hx). split; auto. destruct panics; [reflexivity|discriminate].
Qed.
(** What a thread should see is unique. *)
Theorem C38_expected_unique c ns a b a' b' : expected c ns a b -> expected c ns a' b' -> a = a' /\ b = b'.
Proof.
  assert (Hstep : forall n n' l, (n <= n')%nat -> constantpool_iter_run c n' = Ok l -> exists l', constantpool_iter_run c n = Ok l').
  { unfold constantpool_iter_run. generalize 0. clear. intros i n. revert i. induction n as [|n IH]; intros i [|n'] l Hle Hn; [exists []; reflexivity..|lia|]. cbn [iter_run_from] in *.
    destruct (iter_next (constant_pool c) i) as [r| | |]; try discriminate. cbn [obind] in *.
    destruct (iter_run_from (constant_pool c) n' (snd r)) as [rest| | |] eqn:Hr; try discriminate. destruct (IH (snd r) n' rest) as (l' & ->); [lia|exact Hr|]. cbn [obind]. eexists. reflexivity. }
  assert (Hpre : forall ns1 ls ns2 ls2, Forall2 (fun n l => constantpool_iter_run c n = Ok l) ns1 ls -> Forall2 (fun n l => constantpool_iter_run c n = Ok l) ns2 ls2 -> ns1 = ns2 -> ls = ls2).
  { intros ns1 ls ns2 ls2 Hf. revert ns2 ls2. induction Hf as [|n l ns1 ls Hn Hf IH]; intros ns2 ls2 Hf2 <-; inversion Hf2; subst; auto. f_equal; [congruence|eauto]. }
  assert (Hno : forall ns1 n ns2 ls m l x ls', Forall2 (fun n l => constantpool_iter_run c n = Ok l) ns1 ls -> (m < n)%nat -> constantpool_iter_run c m = Ok l -> constantpool_iter_run c (S m) = Panic x
     -> ~ Forall2 (fun n l => constantpool_iter_run c n = Ok l) (ns1 ++ n :: ns2) ls').
  { intros ns1 n ns2 ls m l x ls' _ Hm _ Hx Hf. apply Forall2_app_inv_l in Hf. destruct Hf as (a1 & a2 & _ & Hf & _). inversion Hf; subst. destruct (Hstep (S m) n y) as (q & Hq); auto. congruence. }
  assert (Hrun : forall m l x m' l' x', constantpool_iter_run c m = Ok l -> constantpool_iter_run c (S m) = Panic x -> constantpool_iter_run c m' = Ok l' -> constantpool_iter_run c (S m') = Panic x' -> m = m').
  { intros m l x m' l' x' H1 H2 H3 H4. destruct (Nat.lt_trichotomy m m') as [Hlt|[Heq|Hgt]]; auto.
    - destruct (Hstep (S m) m' l') as (? & ?); [lia|auto|congruence].
    - destruct (Hstep (S m') m l) as (? & ?); [lia|auto|congruence]. }
  intros H H'. destruct H as [ls Hf|ns1 n ns2 ls m l x Hns Hf Hm Hl Hx].
  - destruct H' as [ls' Hf'|ns1 n ns2 ls' m l x -> Hf' Hm Hl Hx]; [|exfalso; eapply Hno; [exact Hf'|exact Hm|exact Hl|exact Hx|exact Hf]]. split; auto. f_equal. eauto.
  - destruct H' as [ls' Hf'|ns1' n' ns2' ls' m' l' x' He Hf' Hm' Hl' Hx']; [subst ns; exfalso; eapply Hno; [exact Hf|exact Hm|exact Hl|exact Hx|exact Hf']|]. rewrite Hns in He.
    assert (Heq : ns1 = ns1').
    { clear - He Hf Hf' Hm Hm' Hx Hx' Hstep. revert ns1' ls' He Hf'. induction Hf as [|k r ns1 ls Hk Hf IH]; intros [|k' ns1'] ls' He Hf'; cbn [app] in He; auto; injection He as E1 E2; subst.
      - inversion Hf'; subst. destruct (Hstep (S m) k' y) as (? & ?); auto. congruence.
      - destruct (Hstep (S m') n' r) as (? & ?); auto. congruence.
      - inversion Hf'; subst. f_equal. eauto. }
    subst ns1'. pose proof (Hpre _ _ _ _ Hf Hf' eq_refl). pose proof (Hrun _ _ _ _ _ _ Hl Hx Hl' Hx'). subst ls' m'. split; auto. f_equal. congruence.
Qed.
(** No thread panics unless the class has an undecodable NameAndType (C11). *)
Theorem C38_no_panic E opts bs c cs scripts k M : sane E bs -> parse_class_with_options E opts bs = Ok c -> constants_of E bs cs ->
  (forall x, In x cs -> ~ undecodable (cesu8 E) cs x) -> steps k (start c scripts) M ->
  forall t, In t (threads M) -> now t <> Panicked /\ forall h, now t <> Unwinding h.
Proof.
  intros Hs H Hcs Hdec Hk t Ht. pose proof (C38_same_items _ _ _ _ _ _ _ Hs H Hk) as Hf.
  assert (Hex : exists ns, exists all panics, expected c ns all panics /\ match now t with Running _ _ => True | Unwinding _ | Panicked => panics = true | Finished => True end).
  { clear - Hf Ht. induction Hf as [|ns u scripts us (all & panics & He & Hu) Hf IH]; [destruct Ht|]. destruct Ht as [<-|Ht]; auto.
    exists ns, all, panics. split; auto. destruct (now u); auto; apply Hu. }
  destruct Hex as (ns & all & panics & He & Hp).
  assert (panics = false).
  { destruct He as [|ns1 n ns2 ls m l x _ _ _ _ Hx]; auto. destruct (C11_iteration_partial _ _ _ _ _ (S m) Hs H Hcs Hdec) as (l' & Hl' & _). congruence. }
  subst panics. split; [|intro h]; intro Hn; rewrite Hn in Hp; discriminate.
Qed.

(** The machine can deadlock: two threads that take the same two locks in different orders may end up waiting for each other.  So
    C38_no_deadlock depends on the order in which the iteration takes them. *)
Example deadlock_possible : let a := (1, false) in let b := (2, false) in
  exists M, steps 2 (mk_machine [] [mk_thread [] (Running [] (Lock a (Lock b (Unlock b (Unlock a (Done tt))))));
                                    mk_thread [] (Running [] (Lock b (Lock a (Unlock a (Unlock b (Done tt))))))]) M
    /\ (forall t, In t (threads M) -> now t <> Finished /\ now t <> Panicked) /\ forall M', ~ step M M'.
Proof.
  cbn zeta. eexists. split; [eapply steps_S; [eapply steps_S; [apply steps_O|]|]|].
  - eapply (step_some _ [] _ [_]); [reflexivity|]. apply step_lock; [intros t [<-|[<-|[]]] []|intros []].
  - eapply (step_some _ [_] _ []); [reflexivity|]. apply step_lock; [|intros []]. intros t [<-|[<-|[]]]; cbn; [intros [E|[]]; discriminate E|intros []].
  - split; [intros t [<-|[<-|[]]]; split; discriminate|]. intros M' Hs. inversion Hs as [M ts1 t ts2 ps' t' Hts Hstep]; subst. cbn [threads] in Hts.
    destruct ts1 as [|u ts1]; [|destruct ts1 as [|u' ts1]; [|destruct ts1; discriminate Hts]]; cbn [app] in Hts.
    + injection Hts as <- <-. inversion Hstep as [? ? ? ? Hf|? ? ? ? Hf| | | | | |]; subst; apply (Hf (mk_thread [] (Running [(2, false)] (Lock (1, false) (Unlock (1, false) (Unlock (2, false) (Done tt))))))); cbn; auto.
    + injection Hts as <- <- <-. inversion Hstep as [? ? ? ? Hf|? ? ? ? Hf| | | | | |]; subst; apply (Hf (mk_thread [] (Running [(1, false)] (Lock (2, false) (Unlock (2, false) (Unlock (1, false) (Done tt))))))); cbn; auto.
Qed.
(** Two threads iterating over a class with a Class constant and with an undecodable NameAndType, which both should see the class name
    and then panic. *)
Example C38_meets : sane debug64 bad_descriptor /\ exists c s, parse_class debug64 bad_descriptor = Ok c
  /\ expected c [1; 2]%nat [Some (ItClassInfo s); Some (ItClassInfo s)] true
  /\ exists k M, steps k (start c [[1; 2]%nat; [1]%nat]) M /\ exists t u, threads M = [t; u] /\ seen t = [Some (ItClassInfo s)] /\ exists h todo, now u = Running h todo /\ h <> [].
Proof.
  split; [apply ample_sane, ampleb_ample; vm_compute; reflexivity|].
  destruct (parse_class debug64 bad_descriptor) as [c| | |] eqn:H; [|exfalso; revert H; vm_compute; discriminate..].
  vm_compute in H. injection H as <-. eexists _, _. split; [reflexivity|]. split.
  - apply (until_panic _ _ [1%nat] 2 [] [[Some (ItClassInfo _)]] 1 [Some (ItClassInfo _)] PNotUtf8); [reflexivity| |lia|vm_compute; reflexivity|vm_compute; reflexivity].
    constructor; [vm_compute; reflexivity|constructor].
  - eexists 4%nat, _. split.
    + eapply steps_S; [eapply steps_S; [eapply steps_S; [eapply steps_S; [apply steps_O|]|]|]|].
      * vm_compute start. eapply (step_some _ [] _ [_]); [reflexivity|]. apply step_lock; [intros t [<-|[<-|[]]] []|intros []].
      * eapply (step_some _ [] _ [_]); [reflexivity|]. apply step_unlock.
      * eapply (step_some _ [] _ [_]); [reflexivity|]. apply step_emit.
      * eapply (step_some _ [_] _ []); [reflexivity|]. apply step_lock; [intros t [<-|[<-|[]]] []|intros []].
    + eexists _, _. split; [reflexivity|]. split; [reflexivity|]. eexists _, _. split; [reflexivity|discriminate].
Qed.
