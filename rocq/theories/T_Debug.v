(** * Property theorems: printing a class (C64). *)
From Verif Require Import Base M_Names M_Descriptors M_ConstantPool M_Bytecode M_Attributes M_Class M_Cesu8 Data M_Locks M_Debug
  S_Lang S_Names S_Format S_Pool S_Items S_Env S_Locks S_Debug P_Layout P_Pool3 P_Refs P_Class3 T_Class T_Members T_Unknown T_Iter P_Locks P_Locks2 P_Locks3 T_Locks Sample.
From Coq Require Import ZifyBool ZifyNat ZifyN.

(** ** Texts of a pool without cycles *)
(** [full m ts]: [ts] is what [m] prints if nothing is locked; [may m ts]: what it may print. *)
Fixpoint full (m : print) (ts : list token) : Prop :=
  match m with
  | PDone => ts = []
  | PSay t k => exists ts', ts = t :: ts' /\ full k ts'
  | PTry _ y _ => full y ts
  | PUnlock _ k => full k ts
  | PTooDeep => False
  end.
Fixpoint may (m : print) (ts : list token) : Prop :=
  match m with
  | PDone => ts = []
  | PSay t k => exists ts', ts = t :: ts' /\ may k ts'
  | PTry _ y n => may y ts \/ may n ts
  | PUnlock _ k => may k ts
  | PTooDeep => False
  end.
Definition level (e : entry) : nat :=
  match e with
  | EMethodHandle _ _ => 4
  | EFieldRef _ _ | EMethodRef _ _ | EInterfaceMethodRef _ _ | EDynamic _ _ | EInvokeDynamic _ _ => 3
  | ENameAndType _ _ | EClassInfo _ | EString _ | EMethodType _ | EModuleInfo _ | EPackageInfo _ => 2
  | _ => 1
  end.
Definition cost (e : entry) : nat :=
  match e with
  | EMethodHandle _ _ => 7
  | EFieldRef _ _ | EMethodRef _ _ | EInterfaceMethodRef _ _ => 6
  | EDynamic _ _ | EInvokeDynamic _ _ => 4
  | ENameAndType _ _ => 3
  | EClassInfo _ | EString _ | EMethodType _ | EModuleInfo _ | EPackageInfo _ => 2
  | _ => 1
  end.
Definition costs (es : list entry) : nat := fold_right (fun e n => cost e + n)%nat 0%nat es.
(** The references of [e] lead to the entries [es], which are of lower level. *)
Definition good_entry (p : pool) (e : entry) : Prop :=
  exists es, Forall2 (fun x e' => exists t, snd x = Resolved t /\ nth_error p (N.to_nat t) = Some e') (cells_of e) es
    /\ Forall (fun e' => (level e' < level e)%nat) es /\ (1 + costs es <= cost e)%nat.

Lemma entries_app a b : entries_in (a ++ b) = (entries_in a + entries_in b)%nat.
Proof. unfold entries_in. rewrite filter_app, app_length. reflexivity. Qed.
Section Pool.
Variable p : pool.
Hypothesis Hgood : forall e, In e p -> good_entry p e.

Lemma printed_exists d : forall e, In e p -> (level e <= d)%nat -> exists ts, printed false p d e ts /\ (entries_in ts <= cost e)%nat.
Proof.
  induction d as [|d IH]; intros e Hin Hl; [destruct e; cbn in Hl; lia|]. destruct (Hgood e Hin) as (es & Hf & Hlt & Hc).
  assert (H : exists tss, Forall2 (printed_ref false p d) (map snd (cells_of e)) tss /\ (entries_in (concat tss) <= costs es)%nat).
  { clear Hc. revert Hlt. induction Hf as [|x e' xs es (t & Hx & Hn) Hf IHf]; intro Hlt; [exists []; split; [constructor|cbn; lia]|].
    apply Forall_cons_iff in Hlt. destruct Hlt as [H1 H2]. destruct (IHf H2) as (tss & Htss & Hc). destruct (IH e') as (ts & Hts & Hct); [eapply nth_error_In; eauto|lia|].
    exists (ts :: tss). split; [cbn [map]; constructor; auto; rewrite Hx; econstructor; eauto|]. cbn [concat costs fold_right]. rewrite entries_app. fold (costs es). lia. }
  destruct H as (tss & Htss & Hct). eexists. split; [constructor; exact Htss|]. cbn [entries_in filter]. change (entries_in (TOpen e :: concat tss ++ [TClose])) with (S (entries_in (concat tss ++ [TClose]))). rewrite entries_app.
  change (entries_in [TClose]) with 0%nat. lia.
Qed.
Lemma printed_unique d : forall d' e ts ts', printed false p d e ts -> printed false p d' e ts' -> ts = ts'.
Proof.
  induction d as [|d IH]; intros d' e ts ts' H H'; [inversion H|]. inversion H as [? ? tss Hf]; subst. inversion H' as [d2 ? tss' Hf']; subst. f_equal. f_equal. f_equal.
  clear H H'. revert tss' Hf'. induction Hf as [|r u rs us Hr Hf IHf]; intros tss' Hf'; inversion Hf'; subst; auto. f_equal; auto.
  inversion Hr; subst; [|discriminate]. match goal with Hq : printed_ref false p d2 _ _ |- _ => inversion Hq; subst; [|discriminate] end. assert (e1 = e0) by congruence. subst. eauto.
Qed.

(** What the cells [xs] of the entry [i] make the program print *)
Definition print_cells (d : nat) (i : N) (xs : list (bool * cpref)) (k : print) : print :=
  fold_right (fun x k => PTry (i, fst x)
               match snd x with
               | Unresolved n => PSay (TIndex n) (PUnlock (i, fst x) k)
               | Resolved t => match nth_error p (N.to_nat t) with Some e' => print_entry p d t e' (PUnlock (i, fst x) k) | None => PTooDeep end
               end (PSay TLocked k)) k xs.
Lemma print_entry_S d i e k : print_entry p (S d) i e k = PSay (TOpen e) (print_cells d i (cells_of e) (PSay TClose k)).
Proof. reflexivity. Qed.

Lemma may_entry d : forall i e k ts, In e p -> may (print_entry p d i e k) ts -> exists t1 t2, ts = t1 ++ t2 /\ printed true p d e t1 /\ may k t2.
Proof.
  induction d as [|d IH]; intros i e k ts Hin H; [destruct H|]. rewrite print_entry_S in H. destruct H as (ts0 & -> & H). destruct (Hgood e Hin) as (es & Hf & _ & _).
  assert (Hc : exists tss t2, ts0 = concat tss ++ t2 /\ Forall2 (printed_ref true p d) (map snd (cells_of e)) tss /\ may (PSay TClose k) t2).
  { revert ts0 H. induction Hf as [|x e' xs es (t & Hx & Hn) Hf IHf]; intros ts0 H; [exists [], ts0; split; auto; split; auto; constructor|].
    cbn [print_cells fold_right may] in H. fold (print_cells d i xs (PSay TClose k)) in H. rewrite Hx, Hn in H. destruct H as [H|(ts' & -> & H)].
    - apply IH in H; [|eapply nth_error_In; eauto]. destruct H as (t1 & t2 & -> & Hp & Hm). cbn [may] in Hm. destruct (IHf _ Hm) as (tss & t3 & -> & Htss & Hk).
      exists (t1 :: tss), t3. split; [cbn [concat]; rewrite app_assoc; reflexivity|]. split; auto. cbn [map]. constructor; auto. rewrite Hx. econstructor; eauto.
    - destruct (IHf _ H) as (tss & t3 & -> & Htss & Hk). exists ([TLocked] :: tss), t3. split; [reflexivity|]. split; auto. cbn [map]. constructor; auto. constructor. reflexivity. }
  destruct Hc as (tss & t2 & -> & Htss & (t3 & -> & Hk)). exists (TOpen e :: concat tss ++ [TClose]), t3. split; [cbn; rewrite <- app_assoc; reflexivity|]. split; auto. constructor. exact Htss.
Qed.
Lemma full_entry d : forall i e k ts, In e p -> full (print_entry p d i e k) ts -> exists t1 t2, ts = t1 ++ t2 /\ printed false p d e t1 /\ full k t2.
Proof.
  induction d as [|d IH]; intros i e k ts Hin H; [destruct H|]. rewrite print_entry_S in H. destruct H as (ts0 & -> & H). destruct (Hgood e Hin) as (es & Hf & _ & _).
  assert (Hc : exists tss t2, ts0 = concat tss ++ t2 /\ Forall2 (printed_ref false p d) (map snd (cells_of e)) tss /\ full (PSay TClose k) t2).
  { revert ts0 H. induction Hf as [|x e' xs es (t & Hx & Hn) Hf IHf]; intros ts0 H; [exists [], ts0; split; auto; split; auto; constructor|].
    cbn [print_cells fold_right full] in H. fold (print_cells d i xs (PSay TClose k)) in H. rewrite Hx, Hn in H.
    apply IH in H; [|eapply nth_error_In; eauto]. destruct H as (t1 & t2 & -> & Hp & Hm). cbn [full] in Hm. destruct (IHf _ Hm) as (tss & t3 & -> & Htss & Hk).
    exists (t1 :: tss), t3. split; [cbn [concat]; rewrite app_assoc; reflexivity|]. split; auto. cbn [map]. constructor; auto. rewrite Hx. econstructor; eauto. }
  destruct Hc as (tss & t2 & -> & Htss & (t3 & -> & Hk)). exists (TOpen e :: concat tss ++ [TClose]), t3. split; [cbn; rewrite <- app_assoc; reflexivity|]. split; auto. constructor. exact Htss.
Qed.
Lemma may_pool d n : forall ts, may (print_pool p d n) ts -> printed_pool true p d n ts.
Proof.
  induction n as [|n IH]; intros ts H; cbn [print_pool may] in H.
  - subst. exists []. split; auto.
  - assert (Hf : forall es i k ts, (forall e, In e es -> In e p) -> may (print_from p d i es k) ts -> exists us t2, ts = concat us ++ t2 /\ Forall2 (printed true p d) es us /\ may k t2).
    { clear - Hgood. induction es as [|e es IHe]; intros i k ts Hin Hm; cbn [print_from] in Hm; [exists [], ts; auto|].
      apply may_entry in Hm; [|apply Hin; left; auto]. destruct Hm as (t1 & t2 & -> & Hp & Hm). apply IHe in Hm; [|intros; apply Hin; right; auto]. destruct Hm as (us & t3 & -> & Hus & Hk).
      exists (t1 :: us), t3. split; [cbn [concat]; rewrite app_assoc; reflexivity|]. split; auto. }
    apply Hf in H; auto. destruct H as (us & t2 & -> & Hus & Hk). destruct (IH _ Hk) as (tss & Hl & -> & Ht). exists (concat us :: tss). split; [cbn; auto|]. split; auto. constructor; auto. eauto.
Qed.
Lemma full_pool d n : forall ts, full (print_pool p d n) ts -> printed_pool false p d n ts.
Proof.
  induction n as [|n IH]; intros ts H; cbn [print_pool full] in H.
  - subst. exists []. split; auto.
  - assert (Hf : forall es i k ts, (forall e, In e es -> In e p) -> full (print_from p d i es k) ts -> exists us t2, ts = concat us ++ t2 /\ Forall2 (printed false p d) es us /\ full k t2).
    { clear - Hgood. induction es as [|e es IHe]; intros i k ts Hin Hm; cbn [print_from] in Hm; [exists [], ts; auto|].
      apply full_entry in Hm; [|apply Hin; left; auto]. destruct Hm as (t1 & t2 & -> & Hp & Hm). apply IHe in Hm; [|intros; apply Hin; right; auto]. destruct Hm as (us & t3 & -> & Hus & Hk).
      exists (t1 :: us), t3. split; [cbn [concat]; rewrite app_assoc; reflexivity|]. split; auto. }
    apply Hf in H; auto. destruct H as (us & t2 & -> & Hus & Hk). destruct (IH _ Hk) as (tss & Hl & -> & Ht). exists (concat us :: tss). split; [cbn; auto|]. split; auto. constructor; auto. eauto.
Qed.

(** ** The program keeps its guards in order *)
Fixpoint wf (h : list cell) (m : print) : Prop :=
  match m with
  | PDone => h = []
  | PSay _ k => wf h k
  | PTry l y n => ~ In l h /\ wf (l :: h) y /\ wf h n
  | PUnlock l k => exists h', h = l :: h' /\ wf h' k
  | PTooDeep => False
  end.
Definition level_at (i : N) : nat := match nth_error p (N.to_nat i) with Some e => level e | None => 0 end.
Lemma wf_entry d : forall h i e k, nth_error p (N.to_nat i) = Some e -> (level e <= d)%nat -> Forall (fun l => (level e < level_at (fst l))%nat) h -> wf h k -> wf h (print_entry p d i e k).
Proof.
  induction d as [|d IH]; intros h i e k Hi Hl Hh Hk; [destruct e; cbn in Hl; lia|]. rewrite print_entry_S. cbn [wf]. destruct (Hgood e (nth_error_In _ _ Hi)) as (es & Hf & Hlt & _).
  assert (Hat : level_at i = level e) by (unfold level_at; rewrite Hi; reflexivity). clear Hgood. revert Hlt. induction Hf as [|x e' xs es (t & Hx & Hn) Hf IHf]; intro Hlt; [exact Hk|].
  apply Forall_cons_iff in Hlt. destruct Hlt as [H1 H2]. cbn [print_cells fold_right wf]. fold (print_cells d i xs (PSay TClose k)). rewrite Hx, Hn. split; [|split; [|apply IHf, H2]].
  - intro Hin. rewrite Forall_forall in Hh. apply Hh in Hin. cbn [fst] in Hin. lia.
  - apply IH; auto; [lia| |].
    + constructor; [cbn [fst]; lia|]. eapply Forall_impl; [|exact Hh]. cbn beta. intros l Hll. lia.
    + exists h. split; auto.
Qed.
Lemma wf_pool d n : (4 <= d)%nat -> wf [] (print_pool p d n).
Proof.
  intro Hd. induction n as [|n IH]; [reflexivity|]. cbn [print_pool].
  assert (Hf : forall es i k, (forall j e, nth_error es j = Some e -> nth_error p (N.to_nat i + j) = Some e) -> wf [] k -> wf [] (print_from p d i es k)).
  { clear IH. induction es as [|e es IHe]; intros i k Hes Hk; cbn [print_from]; auto. apply wf_entry; auto.
    - rewrite <- (Nat.add_0_r (N.to_nat i)). apply Hes. reflexivity.
    - destruct e; cbn; lia.
    - apply IHe; auto. intros j e' Hj. replace (N.to_nat (i + 1) + j)%nat with (N.to_nat i + S j)%nat by lia. apply Hes. exact Hj. }
  apply Hf; auto.
Qed.

(** ** The invariant of the machine *)
Variable rank : cell -> nat.
Variable bad : cell -> Prop.
Variable d : nat.
Definition person_ok (j : job) (x : person) : Prop :=
  match j, x with
  | Iterate ns, Iterates t => thread_ok rank bad (den (script p ns)) t
  | Print n, Prints out h todo => wf h todo /\ forall ts, may todo ts -> may (print_pool p d n) (out ++ ts)
  | Print n, Printed out => may (print_pool p d n) out
  | _, _ => False
  end.
Definition room_ok (jobs : list job) (R : room) : Prop := Forall2 person_ok jobs (people R) /\ Forall bad (spoiled R).
Lemma person_step_ok fr ps j x ps' x' : person_step fr ps x ps' x' -> Forall bad ps -> person_ok j x -> person_ok j x' /\ Forall bad ps'.
Proof.
  intros H Hps Hx. destruct H; destruct j as [ns|n0]; cbn [person_ok] in *; try contradiction.
  - eapply thread_step_ok; eauto.
  - destruct Hx as [Hw Hm]. cbn [wf] in Hw. split; auto. split; auto. intros ts Hts. rewrite <- app_assoc. apply Hm. cbn. eauto.
  - destruct Hx as [Hw Hm]. cbn [wf] in Hw. destruct Hw as (_ & Hw & _). split; auto. split; auto. intros ts Hts. apply Hm. cbn. auto.
  - destruct Hx as [Hw Hm]. cbn [wf] in Hw. destruct Hw as (_ & _ & Hw). split; auto. split; auto. intros ts Hts. apply Hm. cbn. auto.
  - destruct Hx as [Hw Hm]. cbn [wf] in Hw. destruct Hw as (h' & He & Hw). injection He as <-. split; auto.
  - destruct Hx as [Hw Hm]. split; auto. rewrite <- (app_nil_r out). apply Hm. reflexivity.
Qed.
Lemma room_step_ok jobs R R' : room_step R R' -> room_ok jobs R -> room_ok jobs R'.
Proof.
  intros H [Hf Hp]. destruct H as [R xs1 x xs2 ps' x' Hxs Hs]. rewrite Hxs in Hf. apply Forall2_app_inv_r in Hf. destruct Hf as (j1 & jr & H1 & H2 & ->).
  inversion H2 as [|j ? jr' ? Hj Hjr]; subst. destruct (person_step_ok _ _ _ _ _ _ Hs Hp Hj) as [Hj' Hp']. split; auto. cbn [people]. apply Forall2_app; auto.
Qed.
Lemma room_steps_ok jobs n R R' : room_steps n R R' -> room_ok jobs R -> room_ok jobs R'.
Proof. induction 1; auto. intro Hi. eapply room_step_ok; eauto. Qed.

(** ** Progress *)
Variable top : nat.
Hypothesis Htop : forall l, (rank l <= top)%nat.
Lemma nobody_dec R l : nobody_has R l \/ exists x, In x (people R) /\ In l (has x).
Proof.
  unfold nobody_has. induction (people R) as [|t ts IH]; [left; intros ? []|]. destruct (in_dec cell_dec l (has t)) as [Hin|Hni].
  - right. exists t. split; auto. left; auto.
  - destruct IH as [IH|(u & Hu & Hl)]; [left|right; exists u; split; auto; right; auto]. intros u [<-|Hu]; auto.
Qed.
Definition done (x : person) : Prop :=
  match x with Iterates t => now t = Finished \/ now t = Panicked | Prints _ _ _ => False | Printed _ => True end.
Lemma step_person R x ps' x' : In x (people R) -> person_step (nobody_has R) (spoiled R) x ps' x' -> exists R', room_step R R'.
Proof. intros Hin H. apply in_split in Hin. destruct Hin as (ts1 & ts2 & Hts). eexists. econstructor; eauto. Qed.
Lemma acts_or_waits jobs R x : room_ok jobs R -> In x (people R) -> ~ done x ->
  (exists R', room_step R R') \/ exists s h l k, x = Iterates (mk_thread s (Running h (Lock l k))) /\ Forall (fun y => (rank y < rank l)%nat) h.
Proof.
  intros [Hf _] Hin Hnf. assert (Hok : exists j, person_ok j x).
  { clear - Hf Hin. induction Hf; [destruct Hin|]. destruct Hin as [<-|Hin]; eauto. }
  destruct Hok as (j & Hok). destruct j as [ns|n], x as [t|out h todo|out]; cbn [person_ok] in Hok; try contradiction.
  - destruct t as [s [h todo|h| |]]; unfold thread_ok in Hok; cbn [now] in Hok.
    + destruct Hok as (Ho & _). destruct todo as [[]|x|l k|l k|o k]; cbn [ordered] in Ho.
      * subst h. left. eapply step_person; [exact Hin|]. apply step_iterates, step_finish.
      * left. eapply step_person; [exact Hin|]. apply step_iterates, step_abort.
      * right. exists s, h, l, k. split; auto. apply Ho.
      * destruct Ho as (h' & -> & _). left. eapply step_person; [exact Hin|]. apply step_iterates, step_unlock.
      * left. eapply step_person; [exact Hin|]. apply step_iterates, step_emit.
    + left. destruct h as [|l h]; (eapply step_person; [exact Hin|]); apply step_iterates; [apply step_panicked|apply step_drop].
    + exfalso. apply Hnf. left; auto.
    + exfalso. apply Hnf. right; auto.
  - left. destruct Hok as [Hw _]. destruct todo as [|t k|l y m|l k|]; cbn [wf] in Hw.
    + subst h. eapply step_person; [exact Hin|]. apply step_printed.
    + eapply step_person; [exact Hin|]. apply step_say.
    + destruct (nobody_dec R l) as [Hn|(u & Hu & Hl)]; (eapply step_person; [exact Hin|]); [apply step_got, Hn|apply step_missed; intro Hn; exact (Hn u Hu Hl)].
    + destruct Hw as (h' & -> & _). eapply step_person; [exact Hin|]. apply step_release.
    + destruct Hw.
  - exfalso. apply Hnf. exact I.
Qed.
Lemma waits_act jobs R : room_ok jobs R -> forall n x s h l k, In x (people R) -> x = Iterates (mk_thread s (Running h (Lock l k))) -> (top - rank l < n)%nat -> exists R', room_step R R'.
Proof.
  intro Hi. induction n as [|n IH]; intros x s h l k Hin -> Hn; [lia|]. destruct (nobody_dec R l) as [Hfree|(u & Hu & Hl)].
  - destruct (in_dec cell_dec l (spoiled R)) as [Hp|Hp]; (eapply step_person; [exact Hin|]); apply step_iterates; [eapply step_poison|eapply step_lock]; auto.
  - assert (Hnf : ~ done u) by (intro Hd; destruct u as [t| |]; cbn [done has] in *; [destruct Hd as [He|He]; rewrite He in Hl| |]; destruct Hl || contradiction).
    destruct (acts_or_waits jobs R u Hi Hu Hnf) as [Hs|(s' & h' & l' & k' & -> & Hr)]; auto. cbn [has now holds] in Hl. rewrite Forall_forall in Hr. apply Hr in Hl.
    eapply IH; [exact Hu|reflexivity|]. pose proof (Htop l'). lia.
Qed.
Lemma room_progress jobs R : room_ok jobs R -> Forall done (people R) \/ exists R', room_step R R'.
Proof.
  intro Hi. assert (Hd : Forall done (people R) \/ exists x, In x (people R) /\ ~ done x).
  { clear. induction (people R) as [|x xs IH]; [left; constructor|]. destruct IH as [IH|(u & Hu & Hn)]; [|right; exists u; split; auto; right; auto].
    destruct x as [[s [h k|h| |]]|out h todo|out]; try (right; eexists; split; [left; reflexivity|]; cbn [done now]; intuition discriminate); left; constructor; cbn [done now]; auto. }
  destruct Hd as [Hd|(x & Hin & Hn)]; auto. right. destruct (acts_or_waits jobs R x Hi Hin Hn) as [Hs|(s & h & l & k & Hx & _)]; auto. eapply waits_act; eauto.
Qed.

(** ** One thread alone *)
Lemma alone_ok n k R : (4 <= d)%nat -> room_steps k (mk_room [] [Prints [] [] (print_pool p d n)]) R ->
  exists x, people R = [x] /\ match x with
   | Prints out h todo => wf h todo /\ forall ts, full todo ts -> full (print_pool p d n) (out ++ ts)
   | Printed out => full (print_pool p d n) out
   | Iterates _ => False
   end.
Proof.
  intros Hd H. remember (mk_room [] _) as R0 eqn:E0. induction H as [R|k R R1 R2 Hk IH Hs].
  - subst. eexists. split; [reflexivity|]. split; [apply wf_pool, Hd|auto].
  - destruct (IH E0) as (x & Hx & Hok). destruct Hs as [R1 xs1 y xs2 ps' y' Hxs Hs]. rewrite Hx in Hxs. destruct xs1 as [|? [|? ?]]; try discriminate. injection Hxs as <- <-.
    cbn [people app]. exists y'. split; auto. destruct Hs as [t ps1 t' Ht|out h t k0|out h l y n0 Hf|out h l y n0 Hf|out h l k0|out]; [contradiction|..]; destruct Hok as [Hw Hm]; cbn [wf] in Hw.
    + split; auto. intros ts Hts. rewrite <- app_assoc. apply Hm. cbn. eauto.
    + destruct Hw as (_ & Hw & _). split; auto.
    + exfalso. apply Hf. intros z Hz. rewrite Hx in Hz. destruct Hz as [<-|[]]. cbn [has]. apply Hw.
    + destruct Hw as (h' & He & Hw). injection He as <-. split; auto.
    + rewrite <- (app_nil_r out). apply Hm. reflexivity.
Qed.
End Pool.

(** ** Termination *)
Fixpoint psize (m : print) : nat :=
  match m with PDone | PTooDeep => 1 | PSay _ k | PUnlock _ k => 1 + psize k | PTry _ y n => 1 + psize y + psize n end.
Definition pweight (x : person) : nat := match x with Iterates t => weight t | Prints _ _ m => psize m | Printed _ => 0 end.
Definition ptotal (xs : list person) : nat := fold_right (fun x n => pweight x + n)%nat 0%nat xs.
Lemma ptotal_app a b : ptotal (a ++ b) = (ptotal a + ptotal b)%nat.
Proof. unfold ptotal. induction a; cbn; auto. rewrite IHa. lia. Qed.
Lemma person_step_weight fr ps x ps' x' : person_step fr ps x ps' x' -> (pweight x' < pweight x)%nat.
Proof. intro H. destruct H; cbn [pweight psize]; try lia. eapply thread_step_weight; eauto. Qed.
Lemma room_steps_total n R R' : room_steps n R R' -> (ptotal (people R') + n <= ptotal (people R))%nat.
Proof.
  induction 1 as [|n R R1 R2 Hk IH Hs]; [lia|]. destruct Hs as [R1 xs1 x xs2 ps' x' Hxs Hs]. apply person_step_weight in Hs. rewrite Hxs in IH. cbn [people]. rewrite ptotal_app in *. cbn in *. fold (ptotal xs2) in *. lia.
Qed.

(** ** Accepted classes *)
Section Valid.
Variable dec : list byte -> option str.
Variable cs : list constant.
Notation sl := (slots_of cs).
Notation P := (pool_of dec sl).
Variable major : N.
Hypothesis Hvalid : Forall (valid_constant dec sl major) cs.
Lemma text_level c : (exists raw, c = CUtf8 raw) -> level (entry_of dec c) = 1%nat /\ cost (entry_of dec c) = 1%nat.
Proof. intros (raw & ->). cbn [entry_of]. destruct (dec raw); auto. Qed.
Lemma one_cell (e : entry) b t c n m : cells_of e = [(b, Resolved t)] -> at_index sl t c ->
  (level (entry_of dec c) < level e)%nat -> (1 + cost (entry_of dec c) <= cost e)%nat -> n = level e -> m = cost e -> good_entry P e.
Proof.
  intros He Hc Hl Hm _ _. exists [entry_of dec c]. rewrite He. split; [constructor; [|constructor]; exists t; split; auto; apply at_index_entry, Hc|]. split; [auto|]. cbn [costs fold_right]. lia.
Qed.
Lemma two_cells (e : entry) t c t' c' : cells_of e = [(false, Resolved t); (true, Resolved t')] -> at_index sl t c -> at_index sl t' c' ->
  (level (entry_of dec c) < level e)%nat -> (level (entry_of dec c') < level e)%nat -> (1 + cost (entry_of dec c) + cost (entry_of dec c') <= cost e)%nat -> good_entry P e.
Proof.
  intros He Hc Hc' Hl Hl' Hm. exists [entry_of dec c; entry_of dec c']. rewrite He. split.
  - constructor; [|constructor; [|constructor]]; [exists t|exists t']; split; auto; apply at_index_entry; auto.
  - split; [auto|]. cbn [costs fold_right]. lia.
Qed.
Lemma valid_good e : In e P -> good_entry P e.
Proof.
  intro Hin. apply In_nth_error in Hin. destruct Hin as (i & Hi). rewrite <- (Nat2N.id i) in Hi.
  destruct (entry_at_cases dec cs _ _ Hi) as [[_ ->]|[[_ ->]|(c & Hc & ->)]]; [exists []; repeat split; cbn; auto..|].
  pose proof (valid_at _ _ _ Hvalid _ _ Hc) as Hv.
  assert (Hleaf : forall e, cells_of e = [] -> good_entry P e) by (intros e He; exists []; rewrite He; split; [constructor|split; [constructor|destruct e; cbn; lia]]).
  assert (Htxt : forall j s, utf8_at dec sl j s -> exists c, at_index sl j c /\ level (entry_of dec c) = 1%nat /\ cost (entry_of dec c) = 1%nat).
  { intros j s (raw & Hj & _). exists (CUtf8 raw). split; auto. apply text_level. eauto. }
  assert (Htx : forall j, is_utf8 sl j -> exists c, at_index sl j c /\ level (entry_of dec c) = 1%nat /\ cost (entry_of dec c) = 1%nat).
  { intros j (raw & Hj). exists (CUtf8 raw). split; auto. apply text_level. eauto. }
  destruct c; cbn [valid_constant] in Hv; try (apply Hleaf; reflexivity); cbn [entry_of].
  - apply Hleaf. destruct (dec raw); reflexivity.
  - destruct Hv as (s & Hs & _). destruct (Htxt _ _ Hs) as (c & Hat & Hl & Hk). eapply one_cell; [reflexivity|exact Hat|cbn [level]; lia|cbn [cost]; lia|reflexivity..].
  - destruct (Htx _ Hv) as (c & Hat & Hl & Hk). eapply one_cell; [reflexivity|exact Hat|cbn [level]; lia|cbn [cost]; lia|reflexivity..].
  - destruct Hv as [(j & H1) (n & d & s & H2 & _)]. eapply two_cells; [reflexivity|exact H1|exact H2|cbn; lia..].
  - destruct Hv as [(j & H1) (n & d & s & H2 & _)]. eapply two_cells; [reflexivity|exact H1|exact H2|cbn; lia..].
  - destruct Hv as [(j & H1) (n & d & s & H2 & _)]. eapply two_cells; [reflexivity|exact H1|exact H2|cbn; lia..].
  - destruct Hv as [(s & Hs & _) Hd]. destruct (Htxt _ _ Hs) as (c & Hat & Hl & Hk). destruct (Htx _ Hd) as (c' & Hat' & Hl' & Hk'). eapply two_cells; [reflexivity|exact Hat|exact Hat'|cbn [level cost]; lia..].
  - destruct Hv as (t & Ht & Hk). eapply one_cell; [reflexivity|exact Ht|..]; try reflexivity; destruct t; try (destruct kind; contradiction Hk); cbn; lia.
  - destruct Hv as (s & Hs & _). destruct (Htxt _ _ Hs) as (c & Hat & Hl & Hk). eapply one_cell; [reflexivity|exact Hat|cbn [level]; lia|cbn [cost]; lia|reflexivity..].
  - destruct Hv as (n & d & s & H2 & _). eapply one_cell; [reflexivity|exact H2|cbn; lia..|reflexivity|reflexivity].
  - destruct Hv as (n & d & s & H2 & _). eapply one_cell; [reflexivity|exact H2|cbn; lia..|reflexivity|reflexivity].
  - destruct Hv as (s & Hs & _). destruct (Htxt _ _ Hs) as (c & Hat & Hl & Hk). eapply one_cell; [reflexivity|exact Hat|cbn [level]; lia|cbn [cost]; lia|reflexivity..].
  - destruct Hv as (s & Hs & _). destruct (Htxt _ _ Hs) as (c & Hat & Hl & Hk). eapply one_cell; [reflexivity|exact Hat|cbn [level]; lia|cbn [cost]; lia|reflexivity..].
Qed.
End Valid.

Lemma accepted_entries E opts bs c cs : sane E bs -> parse_class_with_options E opts bs = Ok c -> constants_of E bs cs ->
  forall e, In e (constant_pool c) -> good_entry (constant_pool c) e.
Proof. intros Hs H Hcs e. destruct (accepted_pool _ _ _ _ _ Hs H Hcs) as [HP Hv]. rewrite HP. eapply valid_good. exact Hv. Qed.
Lemma wf_may m : forall h, wf h m -> exists ts, may m ts.
Proof.
  induction m as [|t k IH|l y IHy n IHn|l k IH|]; intros h Hw; cbn [wf may] in *.
  - eauto.
  - destruct (IH _ Hw) as (ts & Hts). eauto.
  - destruct Hw as (_ & Hw & _). destruct (IHy _ Hw) as (ts & Hts). eauto.
  - destruct Hw as (h' & _ & Hw). eauto.
  - destruct Hw.
Qed.

(** Printing a constant ends: it shows at most seven constants, at most four inside each other.  The text is determined by the pool. *)
Theorem C64_prints E opts bs c e : sane E bs -> parse_class_with_options E opts bs = Ok c -> In e (constant_pool c) ->
  exists ts, printed false (constant_pool c) 4 e ts /\ (entries_in ts <= 7)%nat /\ forall d ts', printed false (constant_pool c) d e ts' -> ts' = ts.
Proof.
  intros Hs H Hin. destruct (constants_exist _ _ _ _ Hs H) as (cs & Hcs). pose proof (accepted_entries _ _ _ _ _ Hs H Hcs) as Hg.
  destruct (printed_exists _ Hg 4 e Hin) as (ts & Hts & Hc); [destruct e; cbn; lia|]. exists ts. split; auto. split; [destruct e; cbn in Hc; lia|].
  intros d ts' H'. symmetry. eapply printed_unique; eauto.
Qed.
Lemma room_start_ok E opts bs c cs d jobs : sane E bs -> parse_class_with_options E opts bs = Ok c -> constants_of E bs cs -> (4 <= d)%nat ->
  room_ok (constant_pool c) (lock_rank (cesu8 E) cs) (unreadable (cesu8 E) cs) d jobs (room_start c d jobs).
Proof.
  intros Hs H Hcs Hd. split; [|constructor]. cbn [room_start people]. pose proof (start_inv _ _ _ _ _ (flat_map (fun j => match j with Iterate ns => [ns] | Print _ => [] end) jobs) Hs H Hcs) as [Hf _].
  cbn [start threads] in Hf. induction jobs as [|j jobs IH]; cbn [map flat_map] in *; constructor.
  - destruct j as [ns|n]; [|split; [apply wf_pool; [eapply accepted_entries; eauto|exact Hd]|auto]]. cbn [app map] in Hf. inversion Hf; subst. assumption.
  - apply IH. destruct j; cbn [app map] in Hf; [inversion Hf; subst|]; assumption.
Qed.
(** With the threadsafe feature, any number of threads printing the class and iterating over it: some thread can go on until all are done. *)
Theorem C64_no_deadlock E opts bs c d jobs k R : sane E bs -> parse_class_with_options E opts bs = Ok c -> (4 <= d)%nat ->
  room_steps k (room_start c d jobs) R ->
  (forall x, In x (people R) -> match x with Iterates t => now t = Finished \/ now t = Panicked | Printed _ => True | Prints _ _ _ => False end)
  \/ exists R', room_step R R'.
Proof.
  intros Hs H Hd Hk. destruct (constants_exist _ _ _ _ Hs H) as (cs & Hcs). pose proof (room_start_ok _ _ _ _ _ _ jobs Hs H Hcs Hd) as Hi.
  eapply room_steps_ok in Hi; [|exact Hk]. destruct (room_progress _ _ _ _ 5 (rank_top _ _) _ _ Hi) as [Hf|Hstep]; auto. left. apply Forall_forall, Hf.
Qed.
Theorem C64_terminates c d jobs : exists bound, forall k R, room_steps k (room_start c d jobs) R -> (k <= bound)%nat.
Proof. exists (ptotal (people (room_start c d jobs))). intros k R H. apply room_steps_total in H. lia. Qed.
(** Whatever the schedule, the text a thread prints is that of the pool, except that some references are shown as <locked>; the threads that
    iterate see what they would see alone. *)
Theorem C64_texts E opts bs c d jobs k R : sane E bs -> parse_class_with_options E opts bs = Ok c -> (4 <= d)%nat ->
  room_steps k (room_start c d jobs) R ->
  Forall2 (fun j x => match j, x with
    | Print n, Printed out => printed_pool true (constant_pool c) d n out
    | Print n, Prints out _ _ => exists rest, printed_pool true (constant_pool c) d n (out ++ rest)
    | Iterate ns, Iterates t => exists all panics, expected c ns all panics /\
        match now t with
        | Running _ _ => exists rest, seen t ++ rest = all
        | Unwinding _ | Panicked => seen t = all /\ panics = true
        | Finished => seen t = all /\ panics = false
        end
    | _, _ => False
    end) jobs (people R).
Proof.
  intros Hs H Hd Hk. destruct (constants_exist _ _ _ _ Hs H) as (cs & Hcs). pose proof (room_start_ok _ _ _ _ _ _ jobs Hs H Hcs Hd) as Hi.
  pose proof (accepted_entries _ _ _ _ _ Hs H Hcs) as Hg.
  eapply room_steps_ok in Hi; [|exact Hk]. destruct Hi as [Hf _]. clear Hk. induction Hf as [|j x jobs xs Hj Hf IH]; constructor; auto.
  destruct j as [ns|n], x as [t|out h todo|out]; cbn [person_ok] in Hj; try contradiction.
  - destruct (script_den c ns) as (all & panics & He & Hden & Hp). exists all, panics. split; auto.
    rewrite Hden in Hj. unfold thread_ok in Hj. destruct (now t) as [h todo|h| |]; cbn [fst snd] in Hj.
    + destruct Hj as (_ & Hj & _). eauto.
    + destruct Hj as (_ & Hj & x & Hx). split; auto. destruct panics; [reflexivity|discriminate].
    + destruct Hj as (Hj & Hx). split; auto. destruct panics; [|reflexivity]. destruct (Hp eq_refl) as (x & Hx'). congruence.
    + destruct Hj as (Hj & x & Hx). split; auto. destruct panics; [reflexivity|discriminate].
  - destruct Hj as [Hw Hm]. destruct (wf_may _ _ Hw) as (ts & Hts). exists ts. apply may_pool; auto.
  - apply may_pool; auto.
Qed.
(** A thread that is alone prints every constant in full. *)
Theorem C64_alone E opts bs c d n k R out : sane E bs -> parse_class_with_options E opts bs = Ok c -> (4 <= d)%nat ->
  room_steps k (room_start c d [Print n]) R -> people R = [Printed out] -> printed_pool false (constant_pool c) d n out.
Proof.
  intros Hs H Hd Hk HR. destruct (constants_exist _ _ _ _ Hs H) as (cs & Hcs). pose proof (accepted_entries _ _ _ _ _ Hs H Hcs) as Hg.
  destruct (alone_ok _ Hg _ _ _ _ Hd Hk) as (x & Hx & Hok). rewrite HR in Hx. injection Hx as <-. apply full_pool; auto.
Qed.

(** ** Examples *)
Lemma room_cons n R R1 R2 : room_step R R1 -> room_steps n R1 R2 -> room_steps (S n) R R2.
Proof. intros H Hn. induction Hn as [|n R1 R2 R3 Hn IH Hs]; [econstructor; [constructor|auto]|]. econstructor; eauto. Qed.
(** Four levels and seven constants are needed: a MethodHandle of [sample]. *)
Example C64_meets : sane debug64 sample /\ parse_class_with_options debug64 true sample = Ok sample_parsed
  /\ exists e ts, In e (constant_pool sample_parsed) /\ printed false (constant_pool sample_parsed) 4 e ts /\ entries_in ts = 7%nat
     /\ forall us, ~ printed false (constant_pool sample_parsed) 3 e us.
Proof.
  split; [exact sample_sane|]. split; [exact sample_parse|].
  assert (He : exists k t, nth_error (constant_pool sample_parsed) 26 = Some (EMethodHandle k (Resolved t))) by (eexists _, _; vm_compute; reflexivity).
  destruct He as (k & t & He). pose proof (nth_error_In _ _ He) as Hin.
  destruct (C64_prints debug64 true sample sample_parsed _ sample_sane sample_parse Hin) as (ts & Hts & _ & Hu). exists (EMethodHandle k (Resolved t)), ts. split; auto. split; auto. split.
  - assert (H7 : exists ts', printed false (constant_pool sample_parsed) 4 (EMethodHandle k (Resolved t)) ts' /\ entries_in ts' = 7%nat); [|destruct H7 as (ts' & Ht & H7); rewrite <- H7; f_equal; symmetry; eapply Hu; eauto].
    vm_compute in He. injection He as <- <-.
    Ltac go := repeat match goal with
      | |- printed _ _ _ _ _ => apply printed_entry
      | |- Forall2 _ (map snd (cells_of ?e)) _ => let v := eval vm_compute in (map snd (cells_of e)) in change (map snd (cells_of e)) with v
      | |- Forall2 _ [] _ => apply Forall2_nil
      | |- Forall2 _ (_ :: _) _ => apply Forall2_cons
      | |- printed_ref _ _ _ _ _ => eapply printed_target; [vm_compute; reflexivity|]
      end.
    eexists. split; [go|]. reflexivity.
  - intros us H3. assert (H4 : forall n e xs, printed false (constant_pool sample_parsed) n e xs -> cells_of e <> [] -> (1 < n)%nat).
    { intros n e xs Hp Hne. inversion Hp as [d e' tss Hf]; subst. destruct (cells_of e) as [|x l]; [contradiction|]. cbn [map] in Hf. inversion Hf as [|r u rs us' Hr _]; subst.
      inversion Hr as [d' t' e'' ts' _ Hp'|]; subst; [|discriminate]. inversion Hp'; subst. lia. }
    vm_compute in He. injection He as <- <-. inversion H3 as [d e tss Hf]; subst. inversion Hf as [|r u rs us' Hr _]; subst. inversion Hr as [d t e ts' Hn Hp|]; subst; [|discriminate].
    vm_compute in Hn. injection Hn as <-. inversion Hp as [d e tss' Hf']; subst. inversion Hf' as [|r u1 rs us1 Hr1 Hf1]; subst. inversion Hf1 as [|r2 u2 rs2 us2 Hr2 _]; subst.
    inversion Hr2 as [d t e ts2 Hn2 Hp2|]; subst; [|discriminate]. vm_compute in Hn2. injection Hn2 as <-. apply H4 in Hp2; [lia|discriminate].
Qed.
(** Two threads printing the same class: one of them may show a reference as <locked>. *)
Example locked_shown : exists c, parse_class debug64 bad_descriptor = Ok c
  /\ exists k R out1 h1 m1 out2 h2 m2, room_steps k (room_start c 4 [Print 1; Print 1]) R
     /\ people R = [Prints out1 h1 m1; Prints (out2 ++ [TLocked]) h2 m2].
Proof.
  destruct (parse_class debug64 bad_descriptor) as [c| | |] eqn:H; [|exfalso; revert H; vm_compute; discriminate..].
  vm_compute in H. injection H as <-. eexists. split; [reflexivity|]. vm_compute room_start. eexists _, _, _, _, _, _, _, _. split.
  - do 5 (eapply room_cons; [eapply (room_some _ [] _ [_]); [reflexivity|apply step_say]|]; cbn [app people spoiled]).
    eapply room_cons; [eapply (room_some _ [] _ [_]); [reflexivity|apply step_got; intros x [<-|[<-|[]]] []]|]; cbn [app people spoiled].
    do 5 (eapply room_cons; [eapply (room_some _ [_] _ []); [reflexivity|apply step_say]|]; cbn [app people spoiled]).
    eapply room_cons; [eapply (room_some _ [_] _ []); [reflexivity|apply step_missed; intro Hn; eapply Hn; [left; reflexivity|left; reflexivity]]|]; cbn [app people spoiled].
    eapply room_cons; [eapply (room_some _ [_] _ []); [reflexivity|apply step_say]|]; cbn [app people spoiled]. apply room_O.
  - cbn [people]. match goal with |- [_; Prints (?a :: ?b :: ?c :: ?d :: ?e :: [TLocked]) _ _] = _ => change (a :: b :: c :: d :: e :: [TLocked]) with ([a; b; c; d; e] ++ [TLocked]) end. reflexivity.
Qed.
