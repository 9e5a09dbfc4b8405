(** * Locks taken while parsing: proofs for C45. *)
From Verif Require Import Base M_Names M_Descriptors M_ConstantPool M_Bytecode M_Attributes M_Class M_Locks M_ParseLocks
  S_Lang S_Names S_Format S_Pool S_Items S_Env S_Safe P_Tac P_Reads P_Descriptors P_Pool P_Pool2 P_Pool3 P_Pool4 P_Class3 P_Layout P_Safe P_Safe2 P_Safe3 P_Safe4 P_Safe5 P_Safe6 P_Locks.
From Coq Require Import ZifyBool ZifyNat ZifyN.

Lemma cell_eqb_eq a b : cell_eqb a b = true <-> a = b.
Proof.
  destruct a as [i x], b as [j y]. unfold cell_eqb. cbn [fst snd]. rewrite andb_true_iff, N.eqb_eq, Bool.eqb_true_iff.
  split; [intros [-> ->]; auto|intros [= -> ->]; auto].
Qed.
Lemma not_held l held : ~ In l held -> existsb (cell_eqb l) held = false.
Proof.
  intro H. destruct (existsb (cell_eqb l) held) eqn:He; auto. exfalso. apply existsb_exists in He. destruct He as (x & Hx & He).
  apply cell_eqb_eq in He. subst. auto.
Qed.
Lemma is_held l held : In l held -> existsb (cell_eqb l) held = true.
Proof. intro H. apply existsb_exists. exists l. split; auto. apply cell_eqb_eq. auto. Qed.

Section WithPool.
Variable p : pool.

Lemma gbind_through {A B} (m : guarded A) (f : A -> guarded B) held o g : m held = Through o -> (forall a, o = Ok a -> f a held = Through (g a)) ->
  gbind m f held = Through (obind o g).
Proof. intros Hm Hf. unfold gbind. rewrite Hm. destruct o; cbn [obind]; auto. Qed.
Lemma with_guard_through {A} l r (k : N -> entry -> guarded A) held g : ~ In l held ->
  (forall t e, r = Resolved t -> nth_error p (N.to_nat t) = Some e -> k t e (l :: held) = Through (g e)) ->
  with_guard p l r k held = Through (obind (peel p r) g).
Proof.
  intros Hl Hk. unfold with_guard. rewrite not_held by exact Hl. destruct r as [t|t]; cbn [peel obind]; auto.
  destruct (nth_error p (N.to_nat t)) as [e|] eqn:He; cbn [obind]; auto.
Qed.

(** ** Reading *)
(** Guards are taken from entries of higher to entries of lower rank. *)
Definition rk (e : entry) : nat :=
  match e with
  | EMethodHandle _ _ => 3
  | EFieldRef _ _ | EMethodRef _ _ | EInterfaceMethodRef _ _ | EDynamic _ _ | EInvokeDynamic _ _ => 2
  | EClassInfo _ | ENameAndType _ _ | EString _ | EMethodType _ | EModuleInfo _ | EPackageInfo _ => 1
  | _ => 0
  end.
Definition at_p (i : N) (e : entry) : Prop := nth_error p (N.to_nat i) = Some e.
(** All guards belong to entries of rank above [n]. *)
Definition above (n : nat) (held : list cell) : Prop := forall l, In l held -> exists e, at_p (fst l) e /\ (n < rk e)%nat.
Lemma above_fresh i e b n held : at_p i e -> (rk e <= n)%nat -> above n held -> ~ In (i, b) held.
Proof. intros Hi Hr Hab Hin. apply Hab in Hin. destruct Hin as (e' & He' & Hlt). cbn [fst] in He'. unfold at_p in *. assert (e' = e) by congruence. subst. lia. Qed.
Lemma above_cons i e b n m held : at_p i e -> (n < rk e)%nat -> (n <= m)%nat -> above m held -> above n ((i, b) :: held).
Proof.
  intros Hi Hr Hnm Hab l [<-|Hl]; [exists e; auto|]. destruct (Hab l Hl) as (e' & He' & Hlt). exists e'. split; auto. lia.
Qed.
Lemma above_nil n : above n []. Proof. intros l []. Qed.

Lemma utf8_through i e b r held : at_p i e -> above (rk e) held -> utf8_g p (i, b) r held = Through (peel_utf8 p r).
Proof. intros Hi Hab. unfold utf8_g, peel_utf8. apply with_guard_through; [eapply above_fresh; eauto|]. intros; reflexivity. Qed.
Lemma literal_through i e b r held : at_p i e -> above (rk e) held -> literal_g p (i, b) r held = Through (let* t := peel p r in string_literal t).
Proof. intros Hi Hab. unfold literal_g. apply with_guard_through; [eapply above_fresh; eauto|]. intros; reflexivity. Qed.
Lemma classinfo_through i e held : at_p i e -> above 1 held -> classinfo_g p i e held = Through (classinfo p e).
Proof. intros Hi Hab. destruct e; try reflexivity. cbn [classinfo_g classinfo]. apply (utf8_through i _ false x held Hi). exact Hab. Qed.
Lemma nt_through {A} i x y held (k : name_and_type -> A) : at_p i (ENameAndType x y) -> above 1 held ->
  nt_g p i x y k held = Through (let* n := peel_utf8 p x in let* d := peel_utf8 p y in Ok (k (mk_nat n d))).
Proof.
  intros Hi Hab. unfold nt_g, peel_utf8. rewrite obind_assoc. apply with_guard_through; [eapply above_fresh; eauto|]. intros t e _ _.
  apply (gbind_through (simply (utf8 e)) _ _ (utf8 e)); [reflexivity|]. intros n _. rewrite obind_assoc. apply with_guard_through.
  - intros [H|H]; [discriminate|]. revert H. eapply above_fresh; eauto.
  - intros u e' _ _. apply (gbind_through (simply (utf8 e')) _ _ (utf8 e')); [reflexivity|]. intros; reflexivity.
Qed.
Lemma name_and_type_through i e held : at_p i e -> above 1 held -> name_and_type_g p i e held = Through (get_name_and_type p e).
Proof. intros Hi Hab. destruct e; try reflexivity. apply (nt_through i x y held (fun nt => nt) Hi Hab). Qed.
Lemma member_through {A} i e c m held (k : str -> name_and_type -> A) : at_p i e -> rk e = 2%nat -> above 2 held ->
  member_g p i c m k held = Through (let* ce := peel p c in let* cn := classinfo p ce in let* me := peel p m in let* nt := get_name_and_type p me in Ok (k cn nt)).
Proof.
  intros Hi Hr Hab. unfold member_g. apply with_guard_through; [apply (above_fresh i e _ 2); auto; lia|].
  intros ci ce _ Hce. apply gbind_through.
  - apply classinfo_through; [exact Hce|]. apply (above_cons i e _ 1 2); auto; lia.
  - intros cn _. apply with_guard_through.
    + intros [H|H]; [discriminate|]. revert H. apply (above_fresh i e _ 2); auto; lia.
    + intros mi me _ Hme. apply gbind_through; [|intros; reflexivity]. apply name_and_type_through; [exact Hme|].
      intros l [<-|[<-|Hl]]; [exists e; split; auto; lia|exists e; split; auto; lia|].
      destruct (Hab l Hl) as (e' & He' & Hlt). exists e'. split; auto. lia.
Qed.
Lemma handle_through i e x y : at_p i e -> rk e = 3%nat -> make_method_handle_g p i x y [] = Through (make_method_handle p x y).
Proof.
  intros Hi Hr. unfold make_method_handle_g, make_method_handle. apply with_guard_through; [intros []|]. intros j e' _ Hj.
  assert (Hab : above 2 [(i, false)]) by (apply (above_cons i e _ 2 3); auto; [lia|apply above_nil]).
  destruct e'; try reflexivity; apply (member_through j _ x0 y0 _ _ Hj eq_refl Hab).
Qed.
Lemma described_through {A} i e y (k : name_and_type -> A) : at_p i e -> rk e = 2%nat ->
  described_g p i y k [] = Through (let* t := peel p y in let* nt := get_name_and_type p t in Ok (k nt)).
Proof.
  intros Hi Hr. unfold described_g. apply with_guard_through; [intros []|]. intros j t _ Hj. apply gbind_through; [|intros; reflexivity].
  apply name_and_type_through; [exact Hj|]. apply (above_cons i e _ 1 3); auto; try lia. apply above_nil.
Qed.

(** A function that reads an index and then works on the entry. *)
Lemma read_through {A} (k : N -> entry -> guarded A) (f : entry -> outcome A) bs ix : (forall i e, at_p i e -> k i e [] = Through (f e)) ->
  read_g p k bs ix = Through ((e <- read_cp_ref_any p ;; lift (f e)) bs ix).
Proof.
  intro Hk. unfold read_g, read_cp_ref_any. unfold bind, lift. destruct (read_u2 bs ix) as [[i ix']| | |]; auto.
  destruct (pool_get p i) as [e| | |] eqn:Hg; auto. rewrite (Hk i e).
  - destruct (f e); reflexivity.
  - unfold pool_get in Hg. destruct (plen p <=? i); [discriminate|]. unfold at_p. destruct (nth_error p (N.to_nat i)); congruence.
Qed.

(** ** Validating *)
(** The descriptor of the NameAndType with index [i] is the entry with index [j]. *)
Definition onward (i j : N) : Prop := exists x, at_p i (ENameAndType x (Resolved j)).
Fixpoint onwards (n : nat) (i j : N) : Prop := match n with O => i = j | S n' => exists k, onward i k /\ onwards n' k j end.
Lemma onwards_app n m : forall i j k, onwards n i j -> onwards m j k -> onwards (n + m) i k.
Proof. induction n as [|n IH]; intros i j k H1 H2; cbn [onwards plus] in *; [subst; auto|]. destruct H1 as (l & Hl & H1). exists l. split; eauto. Qed.
Lemma onwards_fun n : forall i j j', onwards n i j -> onwards n i j' -> j = j'.
Proof.
  induction n as [|n IH]; intros i j j' H1 H2; cbn [onwards] in *; [congruence|]. destruct H1 as (k & (x & Hk) & H1), H2 as (k' & (x' & Hk') & H2).
  unfold at_p in *. assert (k' = k) by congruence. subst. eauto.
Qed.
Definition forever (i : N) : Prop := forall n, exists j, onwards n i j.
Lemma loop_forever i n : onwards (S n) i i -> forever i.
Proof.
  intros H m. assert (Hm : forall m, onwards (m * S n) i i).
  { induction m0 as [|m0 IH]; [reflexivity|]. exact (onwards_app _ _ _ _ _ H IH). }
  specialize (Hm m). assert (Hle : (m <= m * S n)%nat) by nia. revert Hm Hle. generalize (m * S n)%nat. generalize i at 1 3 as a.
  induction m as [|m IH]; intros a k Hk Hle; [exists a; reflexivity|]. destruct k as [|k]; [lia|].
  destruct Hk as (b & Hb & Hk). destruct (IH b k Hk ltac:(lia)) as (j & Hj). exists j. exists b. auto.
Qed.
Lemma forever_next i j : onward i j -> forever j -> forever i.
Proof. intros H Hf [|n]; [exists i; reflexivity|]. destruct (Hf n) as (k & Hk). exists k, j. auto. Qed.
Lemma forever_overflows stk : forall i e, at_p i e -> forever i -> validate_method_descriptor stk p e = Panic PStackOverflow.
Proof.
  induction stk as [|stk IH]; intros i e Hi Hf; [reflexivity|]. destruct (Hf 1%nat) as (j & k & (x & Hx) & Hk). cbn in Hk. subst k.
  unfold at_p in *. assert (e = ENameAndType x (Resolved j)) by congruence. subst e. cbn [validate_method_descriptor peel].
  destruct (Hf 2%nat) as (j2 & k & (x1 & Hx1) & k2 & (x2 & Hx2) & _). assert (k = j) by (unfold at_p in *; congruence). subst k.
  unfold at_p in Hx2. rewrite Hx2. cbn [obind]. apply (IH j); auto.
  intro n. destruct (Hf (S n)) as (m & k & (x3 & Hx3) & Hm). exists m. assert (k = j) by (unfold at_p in *; congruence). subst k. exact Hm.
Qed.

(** The guards of NameAndTypes are on the way to [i]. *)
Definition trail (i : N) (held : list cell) : Prop :=
  forall k e, In (k, true) held -> at_p k e -> get_type e = T_NAME_AND_TYPE -> exists n, onwards (S n) k i.
Lemma method_descriptor_locked stk : forall i e held, at_p i e -> trail i held ->
  validate_method_descriptor_g p stk i e held = Through (validate_method_descriptor stk p e)
  \/ (validate_method_descriptor_g p stk i e held = SelfDeadlock /\ forever i).
Proof.
  induction stk as [|stk IH]; intros i e held Hi Ht; [left; reflexivity|].
  destruct e; try (left; reflexivity). cbn [validate_method_descriptor_g validate_method_descriptor]. unfold with_guard.
  destruct (in_dec (fun a b : cell => ltac:(decide equality; [apply Bool.bool_dec|apply N.eq_dec])) (i, true) held) as [Hin|Hin].
  - rewrite is_held by exact Hin. right. split; auto. destruct (Ht i _ Hin Hi eq_refl) as (n & Hn). eapply loop_forever; eauto.
  - rewrite not_held by exact Hin. destruct y as [t|t]; [left; reflexivity|]. cbn [peel]. destruct (nth_error p (N.to_nat t)) as [e|] eqn:He; [|left; reflexivity].
    cbn [obind]. assert (Hon : onward i t) by (exists x; exact Hi). destruct (IH t e ((i, true) :: held) He) as [H|[H Hf]].
    + intros k e' [Hk|Hk] He' Hty.
      * injection Hk as <-. exists 0%nat. exists t. split; auto. reflexivity.
      * destruct (Ht k e' Hk He' Hty) as (n & Hn). exists (n + 1)%nat. change (S (n + 1)) with (S n + 1)%nat. eapply onwards_app; eauto. exists t. split; auto. reflexivity.
    + left. exact H.
    + right. split; auto. eapply forever_next; eauto.
Qed.
Lemma str_check_total (e : entry) x : (let* s := entry_str e in let* ok := is_method_descriptor s in if (ok : bool) then Ok tt else fail x) <> Panic PStackOverflow.
Proof. destruct e; cbn [entry_str obind]; try discriminate. destruct (is_method_descriptor_spec s) as (b & -> & _). cbn [obind]. destruct b; discriminate. Qed.
Lemma through_inj {A} (a b : outcome A) : Through a = Through b -> a = b. Proof. congruence. Qed.
Lemma method_descriptor_deep stk : forall i e held ks, at_p i e -> NoDup ks -> (forall k, In k ks -> In (k, true) held /\ k < plen p) -> (length p < stk + length ks)%nat ->
  validate_method_descriptor_g p stk i e held <> Through (Panic PStackOverflow).
Proof.
  induction stk as [|stk IH]; intros i e held ks Hi Hnd Hks Hlen.
  - exfalso. assert (Hincl : incl ks (map N.of_nat (seq 0 (length p)))).
    { intros k Hk. apply Hks in Hk. destruct Hk as [_ Hk]. unfold plen in Hk. replace k with (N.of_nat (N.to_nat k)) by lia. apply in_map, in_seq. lia. }
    apply NoDup_incl_length in Hincl; auto. rewrite map_length, seq_length in Hincl. lia.
  - destruct e; cbn [validate_method_descriptor_g]; unfold simply; try (intro H; apply through_inj in H; revert H; apply str_check_total).
    unfold with_guard. destruct (existsb (cell_eqb (i, true)) held) eqn:Hh; [discriminate|]. destruct y as [t|t]; [discriminate|].
    destruct (nth_error p (N.to_nat t)) as [e|] eqn:He; [|discriminate]. apply (IH t e _ (i :: ks)); auto.
    + constructor; auto. intro Hin. apply Hks in Hin. destruct Hin as [Hin _]. apply is_held in Hin. congruence.
    + intros k [<-|Hk]; [|destruct (Hks k Hk); split; [right|]; auto]. split; [left; auto|]. unfold at_p in Hi. unfold plen.
      assert (H : nth_error p (N.to_nat i) <> None) by congruence. apply nth_error_Some in H. lia.
    + cbn [length]. lia.
Qed.

(** More stack does not change an outcome other than its exhaustion. *)
Lemma method_descriptor_stack a : forall b e, validate_method_descriptor a p e <> Panic PStackOverflow ->
  validate_method_descriptor b p e = validate_method_descriptor a p e \/ validate_method_descriptor b p e = Panic PStackOverflow.
Proof.
  induction a as [|a IH]; intros b e H; [contradiction H; reflexivity|]. destruct b as [|b]; [right; reflexivity|].
  destruct e; try (left; reflexivity). cbn [validate_method_descriptor] in *. destruct (peel p y) as [t| | |]; cbn [obind] in *; auto.
Qed.

(** A check without recursion, followed by the check of a method descriptor. *)
Definition agrees (g : locked unit) (f : nat -> outcome unit) (stk : nat) : Prop :=
  g = Through (f stk) \/ (g = SelfDeadlock /\ forall stk', f stk' = Panic PStackOverflow).
Lemma agrees_same g o stk : g = Through o -> agrees g (fun _ => o) stk. Proof. left. auto. Qed.
Lemma ensure_through l r allowed held : ~ In l held -> ensure_g p l r allowed held = Through (ensure_ref_type p r allowed).
Proof. intro H. unfold ensure_g, ensure_ref_type. apply with_guard_through; auto. Qed.
Lemma gbind_agrees (m : guarded unit) k o f stk : m [] = Through o -> (o = Ok tt -> agrees (k tt []) f stk) ->
  agrees (gbind m k []) (fun s => obind o (fun _ => f s)) stk.
Proof.
  intros Hm Hk. unfold gbind. rewrite Hm. destruct o as [[]| | |]; try (left; reflexivity). cbn [obind]. apply Hk. reflexivity.
Qed.
Lemma method_agrees i e b r stk : at_p i e -> get_type e <> T_NAME_AND_TYPE ->
  agrees (with_guard p (i, b) r (fun j t => validate_method_descriptor_g p stk j t) []) (fun s => let* t := peel p r in validate_method_descriptor s p t) stk.
Proof.
  intros Hi Hty. unfold with_guard. cbn [existsb]. destruct r as [t|t]; [left; reflexivity|]. cbn [peel].
  destruct (nth_error p (N.to_nat t)) as [e'|] eqn:He; [|left; reflexivity]. cbn [obind].
  destruct (method_descriptor_locked stk t e' [(i, b)] He) as [H|[H Hf]].
  - intros k e0 [Hk|[]] H0 Ht. injection Hk as <- _. unfold at_p in *. assert (e0 = e) by congruence. subst. contradiction.
  - left. exact H.
  - right. split; auto. intro s. apply (forever_overflows s t); auto.
Qed.
Lemma field_through i e b r : at_p i e -> get_type e <> T_NAME_AND_TYPE ->
  with_guard p (i, b) r (fun j t => validate_field_descriptor_g p j t) [] = Through (let* t := peel p r in validate_field_descriptor p t).
Proof.
  intros Hi Hty. apply with_guard_through; [intros []|]. intros t e' _ He'. destruct e'; try reflexivity. cbn [validate_field_descriptor_g validate_field_descriptor].
  apply with_guard_through; [|reflexivity]. intros [H|[]]. injection H as -> _. unfold at_p in Hi. rewrite He' in Hi. injection Hi as <-. contradiction Hty; reflexivity.
Qed.
Lemma agrees_ext g f f' stk : (forall s, f s = f' s) -> agrees g f stk -> agrees g f' stk.
Proof. intros H [H1|[H1 H2]]; [left|right]; [rewrite <- H; auto|split; auto; intro; rewrite <- H; auto]. Qed.

Lemma entry_agrees stk major i e : at_p i e -> agrees (validate_entry_g p stk major i e []) (fun s => validate_entry s p major e) stk.
Proof.
  intro Hi. assert (Hn : forall l : cell, ~ In l []) by auto.
  assert (Hk : forall l r (f : entry -> outcome unit), with_guard p l r (fun _ t => simply (f t)) [] = Through (let* t := peel p r in f t)).
  { intros l r f. apply (with_guard_through l r (fun _ t => simply (f t)) [] f); auto. }
  destruct e; cbn [validate_entry_g validate_entry]; try (left; reflexivity);
    repeat (apply gbind_agrees; [apply ensure_through; apply Hn|intros _]);
    try (apply agrees_same, Hk); try (apply agrees_same, ensure_through, Hn);
    try (eapply method_agrees; [exact Hi|discriminate]); try (apply agrees_same; eapply field_through; [exact Hi|discriminate]).
  apply (agrees_ext _ (fun s => obind (obind (peel p x) validate_unqualified_name) (fun _ => ensure_ref_type p y T_UTF8))).
  - intro s. apply obind_assoc.
  - apply gbind_agrees; [apply Hk|]. intros _. apply agrees_same, ensure_through, Hn.
Qed.

Lemma entry_deep stk major i e : at_p i e -> (length p < stk)%nat -> validate_entry_g p stk major i e [] <> Through (Panic PStackOverflow).
Proof.
  intros Hi Hlen.
  assert (He : forall r allowed, ensure_ref_type p r allowed <> Panic PStackOverflow).
  { intros r allowed. unfold ensure_ref_type. destruct (peel p r) as [t| | |] eqn:Hp; cbn [obind]; try discriminate.
    - unfold ensure_type. destruct (contains _ _); discriminate.
    - destruct r as [t|t]; cbn [peel] in Hp; [congruence|]. destruct (nth_error p (N.to_nat t)); congruence. }
  assert (Hb : forall (m k : guarded unit), m [] <> Through (Panic PStackOverflow) -> k [] <> Through (Panic PStackOverflow) -> gbind m (fun _ => k) [] <> Through (Panic PStackOverflow)).
  { intros m k H1 H2. unfold gbind. destruct (m []) as [[[]| | |]|]; auto; try discriminate. }
  assert (Hen : forall l r allowed, ensure_g p l r allowed [] <> Through (Panic PStackOverflow)).
  { intros. rewrite ensure_through by auto. intro H. apply through_inj in H. revert H. apply He. }
  assert (Hg : forall l r (k : N -> entry -> guarded unit), (forall t e', at_p t e' -> k t e' [l] <> Through (Panic PStackOverflow)) -> with_guard p l r k [] <> Through (Panic PStackOverflow)).
  { intros l r k H. unfold with_guard. cbn [existsb]. destruct r as [t|t]; [discriminate|]. destruct (nth_error p (N.to_nat t)) as [e'|] eqn:Ht; [|discriminate]. apply H. exact Ht. }
  assert (Hm : forall l t e', at_p t e' -> validate_method_descriptor_g p stk t e' [l] <> Through (Panic PStackOverflow)).
  { intros l t e' Ht. apply (method_descriptor_deep stk t e' [l] []); auto; [constructor|intros k []|cbn [length]; lia]. }
  assert (Hf : forall l t e', at_p t e' -> validate_field_descriptor_g p t e' [l] <> Through (Panic PStackOverflow)).
  { intros l t e' Ht. destruct e'; try discriminate. cbn [validate_field_descriptor_g]. unfold with_guard. destruct (existsb _ _); [discriminate|].
    destruct y as [u|u]; [discriminate|]. destruct (nth_error p (N.to_nat u)) as [w|]; [|discriminate]. unfold simply. intro H. apply through_inj in H. revert H.
    destruct w; cbn [entry_str obind]; try discriminate. destruct (is_field_descriptor_spec s) as (b & -> & _). cbn [obind]. destruct b; discriminate. }
  assert (Hs : forall (f : entry -> outcome unit), (forall t, f t <> Panic PStackOverflow) -> forall t held, simply (f t) held <> Through (Panic PStackOverflow)).
  { intros f H t held Hh. apply through_inj in Hh. exact (H t Hh). }
  destruct e; cbn [validate_entry_g]; try discriminate; repeat (apply Hb; [apply Hen|]); try apply Hen; try (apply Hg; intros; apply Hm; auto); try (apply Hg; intros; apply Hf; auto).
  - apply Hg. intros t e' _. apply Hs. clear. intro t. unfold validate_classinfo_name. destruct t; cbn [entry_str obind]; try discriminate.
    destruct (is_binary_name s); cbn [obind]; [discriminate|]. destruct (is_array_descriptor_spec s) as (b & -> & _). cbn [obind]. destruct b; discriminate.
  - apply Hb; [|apply Hen]. apply Hg. intros t e' _. apply Hs. clear. intro t. unfold validate_unqualified_name. destruct t; cbn [entry_str obind]; try discriminate. destruct (_ || _); discriminate.
  - apply Hg. intros t e' _. apply Hs. clear. intro t. unfold validate_module_name. destruct t; cbn [entry_str obind]; try discriminate. destruct (is_module_name s); discriminate.
  - apply Hg. intros t e' _. apply Hs. clear. intro t. unfold validate_binary_name. destruct t; cbn [entry_str obind]; try discriminate. destruct (is_binary_name s); discriminate.
Qed.

Lemma entry_stack major a b e : validate_entry a p major e <> Panic PStackOverflow ->
  validate_entry b p major e = validate_entry a p major e \/ validate_entry b p major e = Panic PStackOverflow.
Proof.
  destruct e; cbn [validate_entry]; auto.
  all: repeat match goal with |- context [ensure_ref_type ?p ?r ?t] => destruct (ensure_ref_type p r t); cbn [obind]; auto end;
    match goal with |- context [peel ?p ?r] => destruct (peel p r); cbn [obind]; auto end; apply method_descriptor_stack.
Qed.

Lemma from_agrees stk major : forall es i, (forall k e, nth_error es k = Some e -> at_p (i + N.of_nat k) e) ->
  agrees (validate_from_g p stk major i es []) (fun s => validate_from s p major i es) stk.
Proof.
  induction es as [|e es IH]; intros i Hat; cbn [validate_from_g validate_from]; [left; reflexivity|].
  assert (Hi : at_p i e) by (specialize (Hat 0%nat e eq_refl); rewrite N.add_0_r in Hat; exact Hat).
  assert (IH' : agrees (validate_from_g p stk major (i + 1) es []) (fun s => validate_from s p major (i + 1) es) stk).
  { apply IH. intros k e' Hk. replace (i + 1 + N.of_nat k) with (i + N.of_nat (S k)) by lia. apply Hat. exact Hk. }
  unfold gbind, gctx. destruct (entry_agrees stk major i e Hi) as [H|[H Hall]]; rewrite H.
  - destruct (validate_entry stk p major e) as [[]| | |] eqn:He; cbn [ctx obind]; try (left; cbn [ctx obind]; rewrite ?He; reflexivity).
    destruct IH' as [H'|[H' Hall]]; [left; rewrite H', He; reflexivity|]. right. split; [exact H'|]. intro s.
    destruct (entry_stack major stk s e) as [Hs|Hs]; [congruence| |]; rewrite Hs; [rewrite He|]; cbn [ctx obind]; auto.
  - right. split; auto. intro s. rewrite Hall. reflexivity.
Qed.
Lemma from_deep stk major : (length p < stk)%nat -> forall es i, (forall k e, nth_error es k = Some e -> at_p (i + N.of_nat k) e) ->
  validate_from_g p stk major i es [] <> Through (Panic PStackOverflow).
Proof.
  intros Hlen. induction es as [|e es IH]; intros i Hat; cbn [validate_from_g]; [discriminate|].
  assert (Hi : at_p i e) by (specialize (Hat 0%nat e eq_refl); rewrite N.add_0_r in Hat; exact Hat).
  pose proof (entry_deep stk major i e Hi Hlen) as Hd. unfold gbind, gctx. destruct (validate_entry_g p stk major i e []) as [[[]| | |]|]; cbn [ctx]; try discriminate; auto.
  apply IH. intros k e' Hk. replace (i + 1 + N.of_nat k) with (i + N.of_nat (S k)) by lia. apply Hat. exact Hk.
Qed.
End WithPool.

(** ** The whole parse *)
Definition to_pool (E : env) : parser (N * pool) :=
  magic <- read_u4 ;; _ <- guard (magic =? 0xCAFEBABE) (lit "Unexpected magic header") ;;
  minor <- read_u2 ;; major <- read_u2 ;; count <- read_u2 ;; bs <- get_bytes ;;
  es <- pool_loop E (S (length bs)) major count 1 ;;
  p <- lift (resolve_constant_pool (EZero :: es)) ;; ret (major, p).
(** What parsing does if the constants are read, and if they are not. *)
Lemma to_pool_fails E opts bs : match to_pool E bs 0 with
  | Ok ((major, p), _) => match validate_constant_pool E p major with Ok _ => True | Err e => parse_class_with_options E opts bs = Err e | Panic x => parse_class_with_options E opts bs = Panic x | Diverge => parse_class_with_options E opts bs = Diverge end
  | Err e => parse_class_with_options E opts bs = Err e
  | Panic x => parse_class_with_options E opts bs = Panic x
  | Diverge => parse_class_with_options E opts bs = Diverge
  end.
Proof.
  unfold to_pool, parse_class_with_options, class_parser, read_constant_pool. unfold bind.
  destruct (read_u4 bs 0) as [[magic i1]| | |]; try reflexivity.
  destruct (guard _ _ bs i1) as [[[] i2]| | |]; try reflexivity.
  destruct (read_u2 bs i2) as [[minor i3]| | |]; try reflexivity.
  destruct (read_u2 bs i3) as [[major i4]| | |]; try reflexivity.
  destruct (read_u2 bs i4) as [[count i5]| | |]; try reflexivity.
  cbn [get_bytes]. unfold get_bytes.
  destruct (pool_loop E (S (length bs)) major count 1 bs i5) as [[es i6]| | |]; try reflexivity.
  unfold lift. destruct (resolve_constant_pool (EZero :: es)) as [p| | |]; try reflexivity. cbn [ret]. unfold ret.
  destruct (validate_constant_pool E p major) as [[]| | |]; try reflexivity; exact I.
Qed.
Lemma to_pool_ends E bs : sane E bs ->
  ends (fun x => x = POverflow) (fun r => exists cs, snd (fst r) = pool_of (cesu8 E) (slots_of cs) /\ pool_in (wrapping E) bs cs /\ (length (snd (fst r)) < length bs)%nat) (to_pool E bs 0).
Proof.
  intro Hsane. set (Q := fun x => x = POverflow). pose proof (sane_fits _ _ Hsane) as Hfit. destruct Hsane as [H32 Hus Hal Hst].
  unfold to_pool, bind at 1.
  pose proof (run_u4 bs Q 0) as Hr. unfold runs_at in Hr. destruct (read_u4 bs 0) as [[magic i1]| | |] eqn:H1; cbn in Hr; try contradiction; try exact I; auto. clear Hr.
  apply (reads_u4 E) in H1; auto; [|lia]. destruct H1 as (p1 & w1 & q1 & Hbs & Hp1 & -> & Hw1). destruct p1; [|discriminate]. cbn [app] in Hbs. clear Hp1.
  unfold bind at 1. destruct (guard _ _ bs (0 + blen w1)) as [[[] i2]| | |] eqn:H2; try (unfold guard in H2; destruct (magic =? _); discriminate); [|exact I].
  apply guard_keeps in H2. destruct H2 as [Hm ->]. apply N.eqb_eq in Hm. subst magic.
  unfold bind at 1. pose proof (run_u2 bs Q (0 + blen w1)) as Hr. unfold runs_at in Hr.
  destruct (read_u2 bs (0 + blen w1)) as [[minor i2]| | |] eqn:H2; cbn in Hr; try contradiction; try exact I; auto. clear Hr.
  apply (reads_u2 E) in H2; auto; [|rewrite Hbs, blen_app; lia]. destruct H2 as (p2 & w2 & q2 & Hbs2 & Hp2 & -> & Hw2).
  rewrite Hbs in Hbs2. apply app_eq_blen in Hbs2; [|lia]. destruct Hbs2 as [<- ->].
  unfold bind at 1. pose proof (run_u2 bs Q (0 + blen w1 + blen w2)) as Hr. unfold runs_at in Hr.
  destruct (read_u2 bs (0 + blen w1 + blen w2)) as [[major i3]| | |] eqn:H3; cbn in Hr; try contradiction; try exact I; auto. clear Hr.
  apply (reads_u2 E) in H3; auto; [|rewrite Hbs, !blen_app; lia]. destruct H3 as (p3 & w3 & q3 & Hbs3 & Hp3 & -> & Hw3).
  rewrite Hbs, app_assoc in Hbs3. apply app_eq_blen in Hbs3; [|rewrite blen_app; lia]. destruct Hbs3 as [<- ->].
  set (ix := 0 + blen w1 + blen w2 + blen w3).
  assert (Hix : ix <= blen bs) by (unfold ix; rewrite Hbs, !blen_app; lia).
  unfold bind at 1. pose proof (run_u2 bs Q ix) as Hr. unfold runs_at in Hr.
  destruct (read_u2 bs ix) as [[count i4]| | |] eqn:H4; cbn in Hr; try contradiction; try exact I; auto. clear Hr.
  apply (reads_u2 E) in H4; auto. destruct H4 as (p4 & w4 & q4 & Hbs4 & Hp4 & -> & Hw4).
  rewrite Hbs in Hbs4. replace (w1 ++ w2 ++ w3 ++ q3) with ((w1 ++ w2 ++ w3) ++ q3) in Hbs4 by (rewrite <- !app_assoc; reflexivity).
  apply app_eq_blen in Hbs4; [|rewrite !blen_app; unfold ix in *; lia]. destruct Hbs4 as [<- ->].
  assert (Hc : count < 65536) by (apply uint_bound in Hw4; exact Hw4).
  assert (Hi4 : ix + blen w4 <= blen bs) by (unfold ix; rewrite Hbs, !blen_app; lia).
  unfold bind at 1, get_bytes at 1. unfold bind at 1.
  assert (Hstart : forall cs w post, many (constant_lang major) cs w -> q4 = w ++ post ->
     exists ws, starts_with_pool bs minor major count cs ws post).
  { intros cs w post Hmany ->. apply many_split in Hmany. destruct Hmany as (ws & -> & Hws). exists ws, w1, (w2 ++ w3), w4.
    split; [exact Hw1|]. split; [apply cat_intro; auto|]. split; [exact Hw4|]. split; [|exact Hws]. rewrite Hbs, <- !app_assoc. reflexivity. }
  assert (Hq4 : forall p w post, bs = p ++ w ++ post -> ix + blen w4 = blen p -> q4 = w ++ post).
  { intros p w post Hb Hl. rewrite Hbs in Hb. replace (w1 ++ w2 ++ w3 ++ w4 ++ q4) with ((w1 ++ w2 ++ w3 ++ w4) ++ q4) in Hb by (rewrite <- !app_assoc; reflexivity).
    apply app_eq_blen in Hb; [|rewrite !blen_app; unfold ix in *; lia]. tauto. }
  pose proof (ends_pool_loop E bs major count (S (length bs)) Hfit Hc 1 (ix + blen w4) Hi4 ltac:(unfold blen; lia)) as Hloop.
  destruct (pool_loop E (S (length bs)) major count 1 bs (ix + blen w4)) as [[es i5]| | x |] eqn:H5; cbn in Hloop; try contradiction; try exact I.
  2:{ cbn. destruct Hloop as (-> & _). reflexivity. }
  apply pool_loop_spec in H5; auto; [|unfold blen; lia]. destruct H5 as (p5 & w5 & q5 & Hb5 & Hl5 & -> & cs & -> & Hmany & Hfills).
  pose proof (Hq4 _ _ _ Hb5 Hl5) as Hq. destruct (Hstart _ _ _ Hmany Hq) as (ws & Hws).
  assert (Hin : pool_in (wrapping E) bs cs) by (exists minor, major, count, ws, q5; auto).
  unfold bind at 1, lift at 1. pose proof (ends_resolve Q (plen (EZero :: flat_map (expand E) cs)) (EZero :: flat_map (expand E) cs) 0) as Hres.
  fold (resolve_constant_pool (EZero :: flat_map (expand E) cs)) in Hres.
  destruct (resolve_constant_pool _) as [P| | |] eqn:H6; cbn in Hres; try contradiction; try exact I; auto. clear Hres.
  apply (resolve_pool_Ok E Hst) in H6. destruct H6 as [-> Hrefs]. cbn [ret ends fst snd]. unfold ret. cbn [ends fst snd].
  exists cs. split; auto. split; auto. pose proof (many_blen _ _ _ Hmany) as Hml. rewrite Hbs, Hq, !app_length.
  destruct Hw1 as [Hw1 _]. unfold pool_of, slots_of in *. cbn [length] in *. rewrite map_length. lia.
Qed.
