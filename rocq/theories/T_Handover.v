(** * Property theorems: iterators handed from thread to thread (C63), with the threadsafe feature. *)
From Verif Require Import Base M_Names M_Descriptors M_ConstantPool M_Bytecode M_Attributes M_Class M_Cesu8 Data M_Locks M_Handover
  S_Lang S_Names S_Format S_Pool S_Items S_Env S_Locks P_Layout P_Class3 T_Class T_Members T_Unknown T_Iter P_Locks P_Locks2 P_Locks3 T_Locks Sample.
From Coq Require Import ZifyBool ZifyNat ZifyN.

(** The results of the calls on the iterator [id], in order. *)
Definition results_of (id : nat) (rs : list (nat * option cp_item)) : list (option cp_item) :=
  map snd (filter (fun r => (fst r =? id)%nat) rs).

Lemma set_nth_length {A} n (a : A) l : length (set_nth n a l) = length l.
Proof. revert n. induction l; intros [|n]; cbn; auto. Qed.
Lemma set_nth_same {A} n (a b : A) l : nth_error l n = Some b -> nth_error (set_nth n a l) n = Some a.
Proof. revert n. induction l; intros [|n]; cbn; auto; discriminate. Qed.
Lemma set_nth_other {A} n m (a : A) l : n <> m -> nth_error (set_nth n a l) m = nth_error l m.
Proof. revert n m. induction l; intros [|n] [|m] H; cbn; auto; congruence. Qed.

Inductive reached (p : pool) : list (option cp_item) -> N -> Prop :=
| reached_nil : reached p [] 0
| reached_snoc l i o j : reached p l i -> iter_next p i = Ok (o, j) -> reached p (l ++ [o]) j.
Fixpoint walk (p : pool) (l : list (option cp_item)) (i k : N) : Prop :=
  match l with [] => i = k | o :: l' => exists j, iter_next p i = Ok (o, j) /\ walk p l' j k end.
Lemma walk_snoc p l o : forall i j k, walk p l i j -> iter_next p j = Ok (o, k) -> walk p (l ++ [o]) i k.
Proof. induction l as [|x l IH]; intros i j k H H2; cbn [walk app] in *; [subst; eauto|]. destruct H as (m & H & Hw). exists m. split; eauto. Qed.
Lemma reached_walk p l i : reached p l i -> walk p l 0 i.
Proof. induction 1; [reflexivity|]. eapply walk_snoc; eauto. Qed.
Lemma walk_run p l : forall i k, walk p l i k -> iter_run_from p (length l) i = Ok l.
Proof. induction l as [|o l IH]; intros i k H; [reflexivity|]. destruct H as (j & H & Hw). cbn [length iter_run_from]. rewrite H. cbn [obind fst snd]. rewrite (IH _ _ Hw). reflexivity. Qed.
Lemma walk_next p l : forall i k, walk p l i k -> (forall n, exists q, iter_run_from p n i = Ok q) -> exists r, iter_next p k = Ok r.
Proof.
  induction l as [|o l IH]; intros i k H Hn; cbn [walk] in H.
  - rewrite <- H. destruct (Hn 1%nat) as (q & Hq). change (obind (iter_next p i) (fun r => Ok [fst r]) = Ok q) in Hq. revert Hq. generalize (iter_next p i). intros [r| | |] Hq; try discriminate Hq. exists r. reflexivity.
  - destruct H as (j & H & Hw). apply (IH _ _ Hw). intro n. destruct (Hn (S n)) as (q & Hq). cbn [iter_run_from] in Hq. rewrite H in Hq. cbn [obind fst snd] in Hq.
    destruct (iter_run_from p n j) as [q'| | |]; try discriminate. eauto.
Qed.

Section Crew.
Variable p : pool.
Variable rank : cell -> nat.
Variable bad : cell -> Prop.
Variable top : nat.
Hypothesis Htop : forall l, (rank l <= top)%nat.
Hypothesis Hord : forall i, ordered rank bad [] [] (next_l p i).
Hypothesis Hrun : forall n, exists q, iter_run_from p n 0 = Ok q.

Definition calls (id : nat) (w : worker) : nat := match does w with Calling i _ _ => if (i =? id)%nat then 1 else 0 | _ => 0 end.
Definition ncalls (id : nat) (ws : list worker) : nat := fold_right (fun w n => calls id w + n)%nat 0%nat ws.
Lemma ncalls_app id a b : ncalls id (a ++ b) = (ncalls id a + ncalls id b)%nat.
Proof. unfold ncalls. induction a; cbn; auto. rewrite IHa. lia. Qed.
Lemma ncalls_in id w ws : In w ws -> (calls id w <= ncalls id ws)%nat.
Proof. induction ws as [|v ws IH]; intros []; cbn; [subst; lia|]. apply IH in H. unfold ncalls in *. lia. Qed.

Definition worker_ok (its : list iterator) (w : worker) : Prop :=
  Forall (fun id => (id < length its)%nat) (wants w) /\
  match does w with
  | Idle => True
  | Calling id h todo => ordered rank bad [] h todo /\ exists i o j, nth_error its id = Some (mk_iterator i true) /\ den todo = ([], Ok (o, j)) /\ iter_next p i = Ok (o, j)
  | Failing _ | Dead => False
  end.
Definition good (X : crew) : Prop :=
  broken X = [] /\ Forall (worker_ok (iterators X)) (workers X)
  /\ (forall id it, nth_error (iterators X) id = Some it -> ncalls id (workers X) = (if busy it then 1 else 0)%nat
       /\ reached p (results_of id (returned X)) (position it))
  /\ Forall (fun r => (fst r < length (iterators X))%nat) (returned X).

Lemma worker_ok_set its id it w : calls id w = 0%nat -> worker_ok its w -> worker_ok (set_nth id it its) w.
Proof.
  intros Hc [Hw Hd]. split; [rewrite set_nth_length; auto|]. destruct w as [ws [|i h todo| |]]; cbn [does] in *; auto.
  destruct Hd as (Ho & k & o & j & H1 & H2). split; auto. exists k, o, j. split; auto. unfold calls in Hc. cbn [does] in Hc.
  destruct (Nat.eqb_spec i id); [discriminate|]. rewrite set_nth_other; auto.
Qed.
Lemma workers_ok_set its id it ws : ncalls id ws = 0%nat -> Forall (worker_ok its) ws -> Forall (worker_ok (set_nth id it its)) ws.
Proof. induction ws as [|w ws IH]; intros Hc Hf; constructor; inversion Hf; subst; cbn in Hc; [apply worker_ok_set; auto; lia|apply IH; auto; unfold ncalls; lia]. Qed.
Lemma results_app id rs r : results_of id (rs ++ [r]) = results_of id rs ++ (if (fst r =? id)%nat then [snd r] else []).
Proof. unfold results_of. rewrite filter_app, map_app. cbn. destruct (fst r =? id)%nat; reflexivity. Qed.

Lemma step_good X X' : crew_step p X X' -> good X -> good X'.
Proof.
  intros [ws1 w ws2 b its rs w' Hws Hs] (Hb & Hf & Hi & Hr). destruct X as [b0 its0 rs0 ws0]. cbn [broken iterators returned workers] in *. subst ws0 b0.
  apply Forall_app in Hf. destruct Hf as [Hf1 Hf2]. apply Forall_cons_iff in Hf2. destruct Hf2 as [Hw Hf2].
  assert (Hsame : forall v, worker_ok its0 v -> (forall id, calls id v = calls id w) -> good (mk_crew [] its0 rs0 (ws1 ++ v :: ws2))).
  { intros v Hv Hc. split; [reflexivity|]. cbn [broken iterators returned workers]. split; [apply Forall_app; auto|]. split; auto.
    intros id it Hit. destruct (Hi id it Hit) as [Hn Hr']. split; auto. rewrite <- Hn, !ncalls_app. cbn. rewrite Hc. reflexivity. }
  inversion Hs; subst; cbn [broken iterators returned workers] in *; destruct Hw as [Hwant Hw]; cbn [wants does] in *; try contradiction.
  - (* begin *)
    destruct (Hi _ _ H) as [Hn Hreach]. cbn [busy position] in Hn, Hreach. rewrite ncalls_app in Hn. change (ncalls id ws1 + (0 + ncalls id ws2) = 0)%nat in Hn.
    destruct (walk_next _ _ _ _ (reached_walk _ _ _ Hreach) Hrun) as ([o j] & Hnext). apply Forall_cons_iff in Hwant. destruct Hwant as [_ Hwant].
    split; [reflexivity|]. cbn [broken iterators returned workers]. split; [apply Forall_app; split; [apply workers_ok_set; auto; lia|constructor; [|apply workers_ok_set; auto; lia]]|split].
    + split; cbn [wants does]; [rewrite set_nth_length; auto|]. split; [apply Hord|]. exists i, o, j. split; [eapply set_nth_same; eauto|]. split; auto. pose proof (next_den p i) as Hd. unfold silent in Hd. rewrite Hnext in Hd. exact Hd.
    + intros id' it Hit. rewrite ncalls_app.
      change (ncalls id' (mk_worker ids (Calling id [] (next_l p i)) :: ws2)) with ((if (id =? id')%nat then 1 else 0) + ncalls id' ws2)%nat. destruct (Nat.eqb_spec id id') as [<-|Hne].
      * erewrite set_nth_same in Hit by eauto. injection Hit as <-. cbn [busy position]. split; auto. lia.
      * rewrite set_nth_other in Hit by auto. destruct (Hi _ _ Hit) as [Hn' Hr']. split; auto. rewrite <- Hn', ncalls_app. reflexivity.
    + rewrite set_nth_length. auto.
  - destruct Hw as ((H1 & H2 & H3) & Hd). apply Hsame; [|reflexivity]. split; [exact Hwant|exact (conj H3 Hd)].
  - destruct Hw as ((h' & Hh & H3) & Hd). injection Hh as <-. apply Hsame; [|reflexivity]. split; [exact Hwant|exact (conj H3 Hd)].
  - destruct Hw as (_ & i & o & j & _ & Hd & _). discriminate.
  - (* end *)
    destruct Hw as (_ & i & o' & j' & Hit & Hd & Hnext). cbn [den] in Hd. injection Hd as -> ->. destruct (Hi _ _ Hit) as [Hn Hreach]. cbn [busy position] in Hn, Hreach.
    rewrite ncalls_app in Hn. change (ncalls id ws1 + ((if (id =? id)%nat then 1 else 0) + ncalls id ws2) = 1)%nat in Hn. rewrite Nat.eqb_refl in Hn.
    split; [reflexivity|]. cbn [broken iterators returned workers]. split; [apply Forall_app; split; [apply workers_ok_set; auto; lia|constructor; [|apply workers_ok_set; auto; lia]]|split].
    + split; cbn [wants does]; auto. rewrite set_nth_length; auto.
    + intros id' it Hit'. rewrite ncalls_app. change (ncalls id' (mk_worker ids Idle :: ws2)) with (ncalls id' ws2). rewrite results_app. cbn [fst snd]. destruct (Nat.eqb_spec id id') as [<-|Hne].
      * erewrite set_nth_same in Hit' by eauto. injection Hit' as <-. cbn [busy position]. split; [lia|]. econstructor; eauto.
      * rewrite set_nth_other in Hit' by auto. rewrite app_nil_r. destruct (Hi _ _ Hit') as [Hn' Hr']. split; auto. rewrite <- Hn', ncalls_app.
        change (ncalls id' (mk_worker ids (Calling id [] (Done (o', j'))) :: ws2)) with ((if (id =? id')%nat then 1 else 0) + ncalls id' ws2)%nat. destruct (Nat.eqb_spec id id'); [contradiction|]. reflexivity.
    + rewrite set_nth_length. apply Forall_app. split; auto. constructor; auto. cbn [fst]. apply nth_error_Some. congruence.
Qed.
Lemma steps_good n X X' : crew_steps p n X X' -> good X -> good X'.
Proof. induction 1; auto. intro Hg. eapply step_good; eauto. Qed.
Lemma start_good n scripts : Forall (Forall (fun id => (id < n)%nat)) scripts -> good (crew_start n scripts).
Proof.
  intro H. split; [reflexivity|]. cbn [crew_start broken iterators returned workers]. split; [|split; [|constructor]].
  - rewrite Forall_map. eapply Forall_impl; [|exact H]. intros ids Hids. split; cbn [wants does]; auto. rewrite repeat_length. auto.
  - intros id it Hit. apply nth_error_In, repeat_spec in Hit. subst it. cbn [busy position]. split; [|constructor].
    clear. induction scripts; cbn; auto.
Qed.

(** ** Progress *)
Lemma unheld_dec X l : unheld X l \/ exists w, In w (workers X) /\ In l (guards (does w)).
Proof.
  unfold unheld. induction (workers X) as [|t ts IH]; [left; intros ? []|]. destruct (in_dec cell_dec l (guards (does t))) as [Hin|Hni].
  - right. exists t. split; auto. left; auto.
  - destruct IH as [IH|(u & Hu & Hl)]; [left|right; exists u; split; auto; right; auto]. intros u [<-|Hu]; auto.
Qed.
Lemma step_worker X w b its rs w' : In w (workers X) -> worker_step p X w b its rs w' -> exists X', crew_step p X X'.
Proof. intros Hin H. apply in_split in Hin. destruct Hin as (ts1 & ts2 & Hts). eexists. econstructor; eauto. Qed.
Lemma call_moves X : good X -> forall n w ids id h todo, In w (workers X) -> w = mk_worker ids (Calling id h todo) ->
  (match todo with Lock l _ => top - rank l < n | _ => True end)%nat -> exists X', crew_step p X X'.
Proof.
  intros (Hb & Hf & Hi & _). induction n as [|n IH]; intros w ids id h todo Hin -> Hn.
  all: pose proof (proj1 (Forall_forall _ _) Hf _ Hin) as [_ Hw]; cbn [does] in Hw; destruct Hw as (Ho & i & o & j & Hit & Hd & Hnx).
  all: destruct todo as [[o' j']|x|l k|l k|o' k]; cbn [ordered den fst snd] in *; try discriminate.
  all: try (subst h; eapply step_worker; [exact Hin|apply call_end]).
  all: try (destruct Ho as (h' & -> & _); eapply step_worker; [exact Hin|apply call_unlock]).
  - lia.
  - destruct (unheld_dec X l) as [Hu|(v & Hv & Hl)]; [eapply step_worker; [exact Hin|apply call_lock; auto; rewrite Hb; auto]|].
    pose proof (proj1 (Forall_forall _ _) Hf _ Hv) as [_ Hw]. destruct v as [ids' [|id' h' todo'|h'|]]; cbn [does guards] in *; try contradiction; try (destruct Hl; fail).
    eapply (IH _ ids' id' h' todo'); [exact Hv|reflexivity|]. destruct todo' as [| |l' k'| |]; auto. destruct Hw as ((Hr & _) & _). rewrite Forall_forall in Hr. apply Hr in Hl. pose proof (Htop l'). lia.
Qed.
Definition at_rest (w : worker) : Prop := wants w = [] /\ does w = Idle.
Lemma crew_progress X : good X -> Forall at_rest (workers X) \/ exists X', crew_step p X X'.
Proof.
  intro Hg. assert (Hd : Forall at_rest (workers X) \/ exists w, In w (workers X) /\ ~ at_rest w).
  { clear. induction (workers X) as [|w ws IH]; [left; constructor|]. destruct IH as [IH|(u & Hu & Hn)]; [|right; exists u; split; auto; right; auto].
    destruct w as [[|id ids] d]; [destruct d|]; try (right; eexists; split; [left; reflexivity|]; intros [H1 H2]; discriminate). left. constructor; auto. split; reflexivity. }
  destruct Hd as [Hd|(w & Hin & Hn)]; auto. right.
  assert (Hcall : forall v ids id h todo, In v (workers X) -> v = mk_worker ids (Calling id h todo) -> exists X', crew_step p X X').
  { intros v ids id h todo Hv ->. destruct todo as [a|x|l k|l k|o k]; try (eapply (call_moves X Hg 0); [exact Hv|reflexivity|exact I]). eapply (call_moves X Hg (S top)); [exact Hv|reflexivity|]. cbn. lia. }
  destruct Hg as (Hb & Hf & Hi & _). pose proof (proj1 (Forall_forall _ _) Hf _ Hin) as [Hwant Hw]. destruct w as [ids [|id h todo|h|]]; cbn [wants does] in *; try contradiction; [|eapply Hcall; eauto].
  destruct ids as [|id ids]; [exfalso; apply Hn; split; reflexivity|]. apply Forall_inv in Hwant. destruct (nth_error (iterators X) id) as [[i [|]]|] eqn:Hit; [| |apply nth_error_None in Hit; lia].
  - destruct (Hi _ _ Hit) as [Hc _]. cbn [busy] in Hc. assert (Hex : exists v ids h todo, In v (workers X) /\ v = mk_worker ids (Calling id h todo)).
    { clear - Hc. induction (workers X) as [|v ws IH]; [discriminate|]. cbn in Hc. destruct v as [ids d]. unfold calls in Hc at 1. cbn [does] in Hc.
      destruct d as [|id' h todo|h|]; [|destruct (Nat.eqb_spec id' id) as [->|]; [eexists _, _, _, _; split; [left|]; reflexivity|]|..]; destruct IH as (v & ids' & h' & todo' & Hv & He); auto; exists v, ids', h', todo'; split; auto; right; auto. }
    destruct Hex as (v & ids' & h & todo & Hv & He). eapply Hcall; eauto.
  - eapply step_worker; [exact Hin|]. apply call_begin. exact Hit.
Qed.
End Crew.

(** ** Termination *)
Lemma size_bound p : exists B, forall i, (size (next_l p i) <= B)%nat.
Proof.
  assert (H : forall n, exists B, forall i, (N.to_nat i < n)%nat -> (size (next_l p i) <= B)%nat).
  { induction n as [|n (B & HB)]; [exists 0%nat; lia|]. exists (B + size (next_l p (N.of_nat n)))%nat. intros i Hi. destruct (Nat.eq_dec (N.to_nat i) n) as [He|Hne].
    - replace i with (N.of_nat n) by lia. lia.
    - specialize (HB i). lia. }
  destruct (H (length p)) as (B & HB). exists (B + 1)%nat. intro i. destruct (Nat.ltb_spec (N.to_nat i) (length p)) as [Hlt|Hge]; [specialize (HB i Hlt); lia|].
  unfold next_l. cbn [next_loop_l]. destruct (N.ltb_spec (i + 1) (plen p)) as [Hlt|]; [unfold plen in Hlt; lia|]. cbn [size]. lia.
Qed.
Definition wweight (B : nat) (w : worker) : nat :=
  ((B + 2) * length (wants w) + match does w with Calling _ h todo => size todo + length h + 1 | Failing h => length h + 1 | Idle | Dead => 0 end)%nat.
Definition wtotal (B : nat) (ws : list worker) : nat := fold_right (fun w n => wweight B w + n)%nat 0%nat ws.
Lemma wtotal_app B a b : wtotal B (a ++ b) = (wtotal B a + wtotal B b)%nat.
Proof. unfold wtotal. induction a; cbn; auto. rewrite IHa. lia. Qed.
Lemma worker_step_weight p B X w b its rs w' : (forall i, (size (next_l p i) <= B)%nat) -> worker_step p X w b its rs w' -> (wweight B w' < wweight B w)%nat.
Proof. intros HB H. destruct H; unfold wweight; cbn [wants does size length]; try lia. specialize (HB i). lia. Qed.

(** ** Every call is made once *)
Definition count (id : nat) (ids : list nat) : nat := length (filter (fun x => (x =? id)%nat) ids).
Lemma count_app id a b : count id (a ++ b) = (count id a + count id b)%nat.
Proof. unfold count. rewrite filter_app, app_length. reflexivity. Qed.
Definition pending (id : nat) (w : worker) : nat := (count id (wants w) + calls id w)%nat.
Definition npending (id : nat) (ws : list worker) : nat := fold_right (fun w n => pending id w + n)%nat 0%nat ws.
Lemma npending_app id a b : npending id (a ++ b) = (npending id a + npending id b)%nat.
Proof. unfold npending. induction a; cbn; auto. rewrite IHa. lia. Qed.
Lemma count_cons id x ids : count id (x :: ids) = ((if (x =? id)%nat then 1 else 0) + count id ids)%nat.
Proof. unfold count. cbn. destruct (x =? id)%nat; reflexivity. Qed.
Lemma step_count p rank bad id X X' : crew_step p X X' -> good p rank bad X ->
  (length (results_of id (returned X')) + npending id (workers X') = length (results_of id (returned X)) + npending id (workers X))%nat.
Proof.
  intros [ws1 w ws2 b its rs w' Hws Hs] (Hb & Hf & _). rewrite Hws in *. cbn [returned workers]. rewrite !npending_app. cbn.
  apply Forall_app in Hf. destruct Hf as [_ Hf]. apply Forall_inv in Hf.
  assert (H : (length (results_of id rs) + pending id w' = length (results_of id (returned X)) + pending id w)%nat).
  { inversion Hs; subst; destruct Hf as [_ Hw]; cbn [does] in Hw; try contradiction; unfold pending, calls; cbn [wants does]; auto.
    - rewrite count_cons. destruct (id0 =? id)%nat; lia.
    - rewrite Hb in *. contradiction.
    - destruct Hw as (_ & i & o & j & _ & Hd & _). discriminate.
    - rewrite results_app, app_length. cbn [fst snd]. destruct (id0 =? id)%nat; cbn [length]; lia. }
  lia.
Qed.

Lemma accepted_order E opts bs c cs : sane E bs -> parse_class_with_options E opts bs = Ok c -> constants_of E bs cs -> forall i, ordered (lock_rank (cesu8 E) cs) (unreadable (cesu8 E) cs) [] [] (next_l (constant_pool c) i).
Proof. intros Hs H Hcs. destruct (accepted_pool _ _ _ _ _ Hs H Hcs) as [HP Hv]. intro i. rewrite HP. eapply next_ordered. exact Hv. Qed.
Lemma accepted_runs E opts bs c cs : sane E bs -> parse_class_with_options E opts bs = Ok c -> constants_of E bs cs -> (forall x, In x cs -> ~ undecodable (cesu8 E) cs x) -> forall m, exists q, iter_run_from (constant_pool c) m 0 = Ok q.
Proof. intros Hs H Hcs Hdec m. destruct (C11_iteration_partial _ _ _ _ _ m Hs H Hcs Hdec) as (q & Hq & _). exists q. exact Hq. Qed.
Lemma accepted_good E opts bs c cs n scripts k X : sane E bs -> parse_class_with_options E opts bs = Ok c -> constants_of E bs cs -> (forall x, In x cs -> ~ undecodable (cesu8 E) cs x) -> (forall ids id, In ids scripts -> In id ids -> (id < n)%nat) ->
  crew_steps (constant_pool c) k (crew_start n scripts) X ->
  good (constant_pool c) (lock_rank (cesu8 E) cs) (unreadable (cesu8 E) cs) X.
Proof.
  intros Hs H Hcs Hdec Hids Hk.
  eapply steps_good; [exact (accepted_order _ _ _ _ _ Hs H Hcs)|exact (accepted_runs _ _ _ _ _ Hs H Hcs Hdec)|exact Hk|]. apply start_good. apply Forall_forall. intros ids Hin. apply Forall_forall. eauto.
Qed.

(** Some thread can go on until all have made all their calls. *)
Theorem C63_no_deadlock E opts bs c cs n scripts k X : sane E bs -> parse_class_with_options E opts bs = Ok c -> constants_of E bs cs ->
  (forall x, In x cs -> ~ undecodable (cesu8 E) cs x) -> (forall ids id, In ids scripts -> In id ids -> (id < n)%nat) ->
  crew_steps (constant_pool c) k (crew_start n scripts) X ->
  (forall w, In w (workers X) -> wants w = [] /\ does w = Idle) \/ exists X', crew_step (constant_pool c) X X'.
Proof.
  intros Hs H Hcs Hdec Hids Hk.
  destruct (crew_progress _ _ _ 5 (rank_top _ _) (accepted_order _ _ _ _ _ Hs H Hcs) (accepted_runs _ _ _ _ _ Hs H Hcs Hdec) X (accepted_good _ _ _ _ _ _ _ _ _ Hs H Hcs Hdec Hids Hk)) as [Hf|Hf]; auto. left. apply Forall_forall. exact Hf.
Qed.
(** No call panics. *)
Theorem C63_no_panic E opts bs c cs n scripts k X w : sane E bs -> parse_class_with_options E opts bs = Ok c -> constants_of E bs cs ->
  (forall x, In x cs -> ~ undecodable (cesu8 E) cs x) -> (forall ids id, In ids scripts -> In id ids -> (id < n)%nat) ->
  crew_steps (constant_pool c) k (crew_start n scripts) X ->
  In w (workers X) -> does w <> Dead /\ forall h, does w <> Failing h.
Proof.
  intros Hs H Hcs Hdec Hids Hk.
  intro Hin. destruct (accepted_good _ _ _ _ _ _ _ _ _ Hs H Hcs Hdec Hids Hk) as (_ & Hf & _). pose proof (proj1 (Forall_forall _ _) Hf _ Hin) as [_ Hw]. destruct (does w); try contradiction; split; congruence.
Qed.
(** At any time, the calls made on an iterator so far, whoever made them, have returned what they would return in a single thread. *)
Theorem C63_same_items E opts bs c cs n scripts k X id : sane E bs -> parse_class_with_options E opts bs = Ok c -> constants_of E bs cs ->
  (forall x, In x cs -> ~ undecodable (cesu8 E) cs x) -> (forall ids id, In ids scripts -> In id ids -> (id < n)%nat) ->
  crew_steps (constant_pool c) k (crew_start n scripts) X ->
  (id < n)%nat ->
  constantpool_iter_run c (length (results_of id (returned X))) = Ok (results_of id (returned X)).
Proof.
  intros Hs H Hcs Hdec Hids Hk.
  intro Hid. destruct (accepted_good _ _ _ _ _ _ _ _ _ Hs H Hcs Hdec Hids Hk) as (_ & _ & Hi & _).
  assert (Hl : length (iterators X) = n).
  { clear - Hk. remember (crew_start n scripts) as X0 eqn:E0. induction Hk as [|m X0 X1 X2 Hk IH Hst]; [subst; apply repeat_length|]. rewrite <- IH by auto. destruct Hst as [ws1 w ws2 b its rs w' _ Hw]. destruct Hw; cbn [iterators]; rewrite ?set_nth_length; auto. }
  destruct (nth_error (iterators X) id) as [it|] eqn:Hit; [|apply nth_error_None in Hit; lia]. destruct (Hi _ _ Hit) as [_ Hr].
  eapply walk_run, reached_walk, Hr.
Qed.
(** When all threads have finished, as many calls have been made on an iterator as the scripts ask for. *)
Theorem C63_all_calls E opts bs c cs n scripts k X id : sane E bs -> parse_class_with_options E opts bs = Ok c -> constants_of E bs cs ->
  (forall x, In x cs -> ~ undecodable (cesu8 E) cs x) -> (forall ids id, In ids scripts -> In id ids -> (id < n)%nat) ->
  crew_steps (constant_pool c) k (crew_start n scripts) X ->
  (forall w, In w (workers X) -> wants w = [] /\ does w = Idle) ->
  length (results_of id (returned X)) = count id (concat scripts).
Proof.
  intros Hs H Hcs Hdec Hids Hk.
  intro Hdone. assert (Hn : npending id (workers X) = 0%nat).
  { clear - Hdone. induction (workers X) as [|w ws IH]; auto. cbn. destruct (Hdone w (or_introl eq_refl)) as [H1 H2]. unfold pending, calls. rewrite H1, H2. cbn. apply IH. intros v Hv. apply Hdone. right; auto. }
  enough (Hc : (length (results_of id (returned X)) + npending id (workers X) = count id (concat scripts))%nat) by lia. clear Hdone Hn.
  remember (crew_start n scripts) as X0 eqn:E0. assert (Hg0 : good (constant_pool c) (lock_rank (cesu8 E) cs) (unreadable (cesu8 E) cs) X0).
  { subst X0. apply start_good. apply Forall_forall. intros ids Hin. apply Forall_forall. eauto. }
  induction Hk as [X0|m X0 X1 X2 Hsteps IH Hstep].
  - subst X0. clear. change (npending id (map (fun ids => mk_worker ids Idle) scripts) = count id (concat scripts)). induction scripts as [|ids l IH]; [reflexivity|].
    change (pending id (mk_worker ids Idle) + npending id (map (fun ids => mk_worker ids Idle) l) = count id (ids ++ concat l))%nat. rewrite count_app, IH. unfold pending, calls. cbn [wants does]. lia.
  - rewrite <- (IH E0 Hg0). eapply step_count; [exact Hstep|]. eapply steps_good; [exact (accepted_order _ _ _ _ _ Hs H Hcs)|exact (accepted_runs _ _ _ _ _ Hs H Hcs Hdec)|exact Hsteps|exact Hg0].
Qed.
(** They do finish: there is a bound for the number of steps, for all schedules. *)
Theorem C63_terminates c n scripts : exists bound, forall k X, crew_steps (constant_pool c) k (crew_start n scripts) X -> (k <= bound)%nat.
Proof.
  destruct (size_bound (constant_pool c)) as (B & HB). exists (wtotal B (workers (crew_start n scripts))).
  enough (Hm : forall k X0 X, crew_steps (constant_pool c) k X0 X -> (wtotal B (workers X) + k <= wtotal B (workers X0))%nat) by (intros k X Hk; apply Hm in Hk; lia).
  intros k X0 X Hk. induction Hk as [|k X0 X X' Hk IH Hs]; [lia|]. destruct Hs as [ws1 w ws2 b its rs w' Hws Hw]. apply (worker_step_weight _ B) in Hw; auto.
  rewrite Hws in IH. cbn [workers]. rewrite wtotal_app in *. cbn in *. unfold wtotal in *. lia.
Qed.

(** Two threads sharing one iterator over a class with a Class constant: the first call is made by the first thread, the second by the other. *)
Example C63_meets : sane debug64 sample /\ exists c, parse_class_with_options debug64 true sample = Ok c
  /\ (exists cs, constants_of debug64 sample cs /\ forall x, In x cs -> ~ undecodable (cesu8 debug64) cs x)
  /\ exists k X o, crew_steps (constant_pool c) k (crew_start 1 [[0%nat]; [0%nat]]) X /\ returned X = [(0%nat, o)] /\ o <> None
     /\ exists h todo, workers X = [mk_worker [] Idle; mk_worker [] (Calling 0 h todo)] /\ h <> [].
Proof.
  split; [exact sample_sane|]. exists sample_parsed. split; [exact sample_parse|]. split; [exists sample_constants; split; [exact sample_of|apply C11_meets]|].
  assert (H0 : exists it k, it <> None /\ next_l (constant_pool sample_parsed) 0 = Lock (2, false) (Unlock (2, false) (Done (it, 2)))
            /\ next_l (constant_pool sample_parsed) 2 = Lock (4, false) k).
  { eexists _, _. split; [|split; vm_compute; reflexivity]. discriminate. }
  destruct H0 as (it & k & Hit & H0 & H2). generalize dependent (constant_pool sample_parsed). intros p H0 H2.
  exists 6%nat, (mk_crew [] [mk_iterator 2 true] [(0%nat, it)] [mk_worker [] Idle; mk_worker [] (Calling 0 [(4, false)] k)]), it.
  split; [|split; [reflexivity|split; [exact Hit|eexists _, _; split; [reflexivity|discriminate]]]].
  eapply crew_S; [eapply crew_S; [eapply crew_S; [eapply crew_S; [eapply crew_S; [eapply crew_S; [apply crew_O|]|]|]|]|]|].
  - apply (crew_some _ _ [] (mk_worker [0%nat] Idle) [mk_worker [0%nat] Idle] [] [mk_iterator 0 true] [] (mk_worker [] (Calling 0 [] (Lock (2, false) (Unlock (2, false) (Done (it, 2))))))); [reflexivity|].
    rewrite <- H0. apply (call_begin p (crew_start 1 [[0%nat]; [0%nat]]) 0 [] 0). reflexivity.
  - eapply (crew_some _ _ [] _ [_]); [reflexivity|]. apply call_lock; [intros w [<-|[<-|[]]] []|intros []].
  - eapply (crew_some _ _ [] _ [_]); [reflexivity|]. apply call_unlock.
  - eapply (crew_some _ _ [] _ [_]); [reflexivity|]. apply call_end.
  - eapply (crew_some _ _ [_] _ []); [reflexivity|]. eapply call_begin. reflexivity.
  - rewrite H2. eapply (crew_some _ _ [_] _ []); [reflexivity|]. apply call_lock; [intros w [<-|[<-|[]]] []|intros []].
Qed.
