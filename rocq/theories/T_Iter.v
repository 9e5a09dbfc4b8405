(** * Property theorems: iteration over the constant pool (C10 C11 C12). *)
From Verif Require Import Base M_Names M_Descriptors M_ConstantPool M_Bytecode M_Attributes M_Class M_Cesu8 Data Sample
  S_Lang S_Names S_Format S_Pool S_Items S_Env P_Reads P_Tac P_Pool3 P_Refs P_Class3 P_Layout T_Class T_Members T_Unknown.
From Coq Require Import ZifyBool ZifyNat ZifyN.

(** ** The iterator as a state machine *)
Section Machine.
Variable p : pool.
(** The results of [next] from some entry on, [Ok None] being skipped. *)
Definition results (l : list entry) : list (outcome cp_item) :=
  flat_map (fun e => match item_of p e with
                     | Ok None => []
                     | Ok (Some it) => [Ok it]
                     | Err x => [Err x] | Panic x => [Panic x] | Diverge => [Diverge]
                     end) l.
Lemma skipn_nth {A} (l : list A) k : (k < length l)%nat -> exists a, nth_error l k = Some a /\ skipn k l = a :: skipn (S k) l.
Proof.
  revert k. induction l as [|a l IH]; intros [|k] H; cbn in H; try lia; [exists a; auto|]. destruct (IH k) as (b & H1 & H2); [lia|]. exists b. cbn. auto.
Qed.
Lemma next_loop fuel index : index <= plen p -> (N.to_nat (plen p - index) <= fuel)%nat -> (0 < fuel)%nat ->
  match results (skipn (S (N.to_nat index)) p) with
  | [] => exists index', iter_next_loop p fuel index = Ok (None, index') /\ index' <= plen p /\ results (skipn (S (N.to_nat index')) p) = []
  | Ok it :: rest => exists index', iter_next_loop p fuel index = Ok (Some it, index') /\ index' <= plen p
       /\ results (skipn (S (N.to_nat index')) p) = rest
  | Err x :: _ => iter_next_loop p fuel index = Err x
  | Panic x :: _ => iter_next_loop p fuel index = Panic x
  | Diverge :: _ => iter_next_loop p fuel index = Diverge
  end.
Proof.
  revert index. induction fuel as [|fuel IH]; intros index Hle Hf H0; [lia|]. cbn [iter_next_loop].
  destruct (N.ltb_spec (index + 1) (plen p)) as [Hlt|Hge].
  - unfold plen in *. destruct (skipn_nth p (S (N.to_nat index))) as (e & He & Hsk); [lia|].
    replace (N.to_nat (index + 1)) with (S (N.to_nat index)) by lia. rewrite He, Hsk. cbn [results flat_map]. fold (results (skipn (S (S (N.to_nat index))) p)).
    specialize (IH (index + 1)). replace (N.to_nat (index + 1)) with (S (N.to_nat index)) in IH by lia.
    destruct (item_of p e) as [[it|]| | |]; cbn [obind app]; try reflexivity.
    + exists (index + 1). replace (N.to_nat (index + 1)) with (S (N.to_nat index)) by lia. split; [reflexivity|]. split; [lia|reflexivity].
    + apply IH; lia.
  - assert (Hend : skipn (S (N.to_nat index)) p = []) by (apply skipn_all2; unfold plen in *; lia).
    rewrite Hend. cbn [results flat_map]. exists index. split; [reflexivity|]. split; [lia|]. rewrite Hend. reflexivity.
Qed.
Lemma next_spec index : index <= plen p ->
  match results (skipn (S (N.to_nat index)) p) with
  | [] => exists index', iter_next p index = Ok (None, index') /\ index' <= plen p /\ results (skipn (S (N.to_nat index')) p) = []
  | Ok it :: rest => exists index', iter_next p index = Ok (Some it, index') /\ index' <= plen p
       /\ results (skipn (S (N.to_nat index')) p) = rest
  | Err x :: _ => iter_next p index = Err x
  | Panic x :: _ => iter_next p index = Panic x
  | Diverge :: _ => iter_next p index = Diverge
  end.
Proof. intro H. apply next_loop; auto; unfold plen in *; lia. Qed.

Lemma run_end n index : index <= plen p -> results (skipn (S (N.to_nat index)) p) = [] -> iter_run_from p n index = Ok (repeat None n).
Proof.
  revert index. induction n as [|n IH]; intros index Hle Hr; [reflexivity|]. cbn [iter_run_from repeat].
  pose proof (next_spec index Hle) as H. rewrite Hr in H. destruct H as (i' & -> & Hle' & Hr'). cbn [obind fst snd]. rewrite (IH _ Hle' Hr'). reflexivity.
Qed.
(** A run that meets only proper results. *)
Lemma run_items items : forall index n rest, index <= plen p -> results (skipn (S (N.to_nat index)) p) = map Ok items ++ rest ->
  exists index', index' <= plen p /\ results (skipn (S (N.to_nat index')) p) = rest
   /\ iter_run_from p (length items + n) index = (let* l := iter_run_from p n index' in Ok (map Some items ++ l)).
Proof.
  induction items as [|it items IH]; intros index n rest Hle Hr.
  - exists index. split; auto. split; auto. cbn [length map app plus]. destruct (iter_run_from p n index); reflexivity.
  - cbn [length plus iter_run_from map app] in *. pose proof (next_spec index Hle) as H. rewrite Hr in H.
    destruct H as (i' & -> & Hle' & Hr'). cbn [obind fst snd]. destruct (IH i' n rest Hle' Hr') as (j & Hj & Hrest & ->). exists j. split; auto. split; auto.
    destruct (iter_run_from p n j); reflexivity.
Qed.
Lemma run_all items n : results (tl p) = map Ok items -> iter_run_from p (length items + n) 0 = Ok (map Some items ++ repeat None n).
Proof.
  intro H. destruct (run_items items 0 n []) as (j & Hj & Hr & ->); [lia|rewrite app_nil_r; destruct p; exact H|]. rewrite (run_end n j Hj Hr). reflexivity.
Qed.
Lemma run_panic items x rest n : results (tl p) = map Ok items ++ Panic x :: rest -> iter_run_from p (length items + S n) 0 = Panic x.
Proof.
  intro H. destruct (run_items items 0 (S n) (Panic x :: rest)) as (j & Hj & Hr & ->); [lia|destruct p; exact H|].
  cbn [iter_run_from]. pose proof (next_spec j Hj) as Hn. rewrite Hr in Hn. rewrite Hn. reflexivity.
Qed.
Lemma run_prefix items rest n : results (tl p) = map Ok items ++ rest -> (n <= length items)%nat ->
  iter_run_from p n 0 = Ok (map Some (firstn n items)).
Proof.
  intros H Hn. destruct (run_items (firstn n items) 0 0 (map Ok (skipn n items) ++ rest)) as (j & Hj & Hr & Hrun); [lia| |].
  - rewrite app_assoc, <- map_app, firstn_skipn. destruct p; exact H.
  - rewrite firstn_length_le, Nat.add_0_r in Hrun by lia. rewrite Hrun. cbn. rewrite app_nil_r. reflexivity.
Qed.
End Machine.

Lemma flat_seq {A B} (g : A -> list B) l : flat_map g l = flat_map (fun k => match nth_error l k with Some c => g c | None => [] end) (seq 0 (length l)).
Proof.
  induction l as [|a l IH]; [reflexivity|]. cbn [length seq flat_map nth_error]. f_equal. rewrite IH, <- seq_shift, flat_map_concat_map, (flat_map_concat_map _ (map S _)), map_map. reflexivity.
Qed.
Lemma flat_filter {A B} (h : A -> list B) f l : (forall k, f k = false -> h k = []) -> flat_map h l = flat_map h (filter f l).
Proof. intro H. induction l as [|a l IH]; [reflexivity|]. cbn [flat_map filter]. destruct (f a) eqn:Hf; cbn [flat_map]; rewrite IH; [reflexivity|]. rewrite (H _ Hf). reflexivity. Qed.

Section Pool.
Variable dec : list byte -> option str.
Variable cs : list constant.
Notation sl := (slots_of cs).
Notation P := (pool_of dec sl).
Variable major : N.
Hypothesis Hvalid : Forall (valid_constant dec sl major) cs.
Definition one (c : constant) : list (outcome cp_item) := results P [entry_of dec c].

Lemma results_app q l1 l2 : results q (l1 ++ l2) = results q l1 ++ results q l2.
Proof. apply flat_map_app. Qed.
Lemma results_map q l : results q (map (slot_entry dec) (slots_tail l)) = flat_map (fun c => results q [entry_of dec c]) l.
Proof.
  unfold slots_tail. induction l as [|c l IH]; [reflexivity|]. cbn [flat_map]. rewrite map_app, results_app, IH. f_equal.
  destruct (is_wide c); reflexivity.
Qed.
Lemma results_constants : results P (tl P) = flat_map one cs.
Proof.
  replace (tl P) with (map (slot_entry dec) (slots_tail cs)) by (rewrite pool_of_slots; reflexivity). apply results_map.
Qed.
Lemma one_utf8 c : shown c = false -> one c = [].
Proof. destruct c; try discriminate. intros _. unfold one. cbn [entry_of]. destruct (dec raw); reflexivity. Qed.
Definition at_position (k : nat) := match nth_error cs k with Some c => one c | None => [] end.
Lemma results_positions : results P (tl P) = flat_map at_position (shown_positions cs).
Proof.
  rewrite results_constants, flat_seq. apply flat_filter. intros k Hk. unfold at_position. destruct (nth_error cs k); [apply one_utf8, Hk|reflexivity].
Qed.
Lemma valid_at i c : at_index sl i c -> valid_constant dec sl major c.
Proof. intro H. apply at_index_inv in H. destruct H as (k & Hk & _). apply nth_error_In in Hk. revert c Hk. apply Forall_forall, Hvalid. Qed.
Lemma at_fun i c c' : at_index sl i c -> at_index sl i c' -> c = c'.
Proof. unfold at_index. congruence. Qed.

Lemma class_exists i : is_class sl i -> exists s, class_at dec sl i s.
Proof. intros (j & Hj). pose proof (valid_at _ _ Hj) as Hv. cbn in Hv. destruct Hv as (s & Hs & _). exists s, j. auto. Qed.
Lemma nt_exists i Q : described dec sl i Q -> exists nt, name_and_type_at dec sl i nt.
Proof.
  intros (n & d & s & Hi & Hd & _). pose proof (valid_at _ _ Hi) as Hv. destruct Hv as [(x & Hx & _) _]. exists (mk_nat x s), n, d. auto.
Qed.
(** Every constant but a Utf8 and an undecodable NameAndType can be shown. *)
Lemma item_exists i c : at_index sl i c -> shown c = true -> (exists it, item_at dec sl i it) \/ undecodable dec cs c.
Proof.
  intros Hc Hs. pose proof (valid_at _ _ Hc) as Hv. destruct c; try discriminate Hs; cbn [valid_constant] in Hv.
  - left. exists (ItLiteral (LInteger v)). exact Hc.
  - left. exists (ItLiteral (LFloat bits)). exact Hc.
  - left. exists (ItLiteral (LLong v)). exact Hc.
  - left. exists (ItLiteral (LDouble bits)). exact Hc.
  - left. destruct Hv as (s & Hu & _). exists (ItClassInfo s). exists name. auto.
  - left. destruct Hv as (raw & Hr). destruct (dec raw) as [s|] eqn:Hd.
    + exists (ItLiteral (LString s)). exists text. split; auto. exists raw. auto.
    + exists (ItLiteral (LStringBytes raw)). exists text. auto.
  - left. destruct Hv as [H1 H2]. apply class_exists in H1. apply nt_exists in H2. destruct H1 as (s & H1), H2 as (q & H2).
    exists (ItFieldRef (mk_mr s q)). eexists _, _. split; [exact Hc|]. auto.
  - left. destruct Hv as [H1 H2]. apply class_exists in H1. apply nt_exists in H2. destruct H1 as (s & H1), H2 as (q & H2).
    exists (ItMethodRef (mk_mr s q)). eexists _, _. split; [exact Hc|]. auto.
  - left. destruct Hv as [H1 H2]. apply class_exists in H1. apply nt_exists in H2. destruct H1 as (s & H1), H2 as (q & H2).
    exists (ItInterfaceMethodRef (mk_mr s q)). eexists _, _. split; [exact Hc|]. auto.
  - destruct Hv as [(s & Hn & _) (raw & Hr)]. destruct (dec raw) as [t|] eqn:Hd.
    + left. exists (ItNameAndType (mk_nat s t)). exists name, desc. split; auto. split; auto. exists raw. auto.
    + right. exists name, desc, raw. auto.
  - left. destruct Hv as (t & Ht & Hk). pose proof (valid_at _ _ Ht) as Hvt.
    destruct t; try (destruct kind; contradiction Hk); cbn [valid_constant] in Hvt; destruct Hvt as [H1 H2];
      apply class_exists in H1; apply nt_exists in H2; destruct H1 as (s & H1), H2 as (q & H2).
    + exists (ItMethodHandle (mk_mh kind s KField q)). exists member. split; [exact Hc|]. eexists _, _. split; [exact Ht|]. auto.
    + exists (ItMethodHandle (mk_mh kind s KMethod q)). exists member. split; [exact Hc|]. eexists _, _. split; [exact Ht|]. auto.
    + exists (ItMethodHandle (mk_mh kind s KInterfaceMethod q)). exists member. split; [exact Hc|]. eexists _, _. split; [exact Ht|]. auto.
  - left. destruct Hv as (s & Hu & _). exists (ItMethodType s). eexists. split; [exact Hc|]. auto.
  - left. apply nt_exists in Hv. destruct Hv as (q & Hq). exists (ItDynamic (mk_dyn bootstrap q)). eexists. split; [exact Hc|]. auto.
  - left. apply nt_exists in Hv. destruct Hv as (q & Hq). exists (ItInvokeDynamic (mk_indy bootstrap q)). eexists. split; [exact Hc|]. auto.
  - left. destruct Hv as (s & Hu & _). exists (ItModuleInfo s). eexists. split; [exact Hc|]. auto.
  - left. destruct Hv as (s & Hu & _). exists (ItPackageInfo s). eexists. split; [exact Hc|]. auto.
Qed.
Lemma undecodable_panics c : In c cs -> undecodable dec cs c -> item_of P (entry_of dec c) = Panic PNotUtf8.
Proof.
  intros Hin (n & d & raw & -> & Hr & Hd). pose proof (proj1 (Forall_forall _ _) Hvalid _ Hin) as Hv. destruct Hv as [(s & Hs & _) _].
  cbn [entry_of item_of]. apply peel_utf8_Ok in Hs. rewrite Hs. cbn [obind]. unfold peel_utf8. pose proof (at_index_entry dec cs _ _ Hr) as He.
  apply peel_entry in He. rewrite He. cbn [obind entry_of]. rewrite Hd. reflexivity.
Qed.
Lemma position_cases k : In k (shown_positions cs) ->
  (exists it, item_at dec sl (index_of cs k) it /\ at_position k = [Ok it])
  \/ (exists c, nth_error cs k = Some c /\ undecodable dec cs c /\ at_position k = [Panic PNotUtf8]).
Proof.
  intro Hin. unfold shown_positions in Hin. apply filter_In in Hin. destruct Hin as [_ Hk]. unfold at_position. destruct (nth_error cs k) as [c|] eqn:Hn; [|discriminate].
  destruct (at_index_of _ _ _ Hn) as [Hat _]. destruct (item_exists _ _ Hat Hk) as [(it & Hit)|Hu].
  - left. exists it. split; auto. apply item_of_Ok in Hit. destruct Hit as (c' & Hc' & Hit). rewrite (at_fun _ _ _ Hat Hc'). unfold one, results. cbn [flat_map]. rewrite Hit. reflexivity.
  - right. exists c. split; auto. split; auto. apply nth_error_In in Hn. apply (undecodable_panics _ Hn) in Hu. unfold one, results. cbn [flat_map]. rewrite Hu. reflexivity.
Qed.
Lemma positions_split : forall ks, (forall k, In k ks -> In k (shown_positions cs)) ->
  (exists items, Forall2 (fun k it => item_at dec sl (index_of cs k) it) ks items /\ flat_map at_position ks = map Ok items)
  \/ (exists ks1 k ks2 items c, ks = ks1 ++ k :: ks2 /\ Forall2 (fun k it => item_at dec sl (index_of cs k) it) ks1 items
      /\ nth_error cs k = Some c /\ undecodable dec cs c /\ flat_map at_position ks = map Ok items ++ Panic PNotUtf8 :: flat_map at_position ks2).
Proof.
  induction ks as [|k ks IH]; intro Hin; [left; exists []; auto|]. destruct (position_cases k) as [(it & Hit & Hat)|(c & Hc & Hu & Hat)]; [apply Hin; left; auto| |].
  - destruct IH as [(items & Hf & He)|(ks1 & j & ks2 & items & c & -> & Hf & Hc & Hu & He)]; [intros; apply Hin; right; auto| |].
    + left. exists (it :: items). split; auto. cbn [flat_map map]. rewrite Hat, He. reflexivity.
    + right. exists (k :: ks1), j, ks2, (it :: items), c. split; auto. split; auto. split; auto. split; auto. cbn [flat_map map]. rewrite Hat, He. reflexivity.
  - right. exists [], k, ks, [], c. split; auto. split; auto. split; auto. split; auto. cbn [flat_map map app]. rewrite Hat. reflexivity.
Qed.
End Pool.

Lemma accepted_pool E opts bs c cs : sane E bs -> parse_class_with_options E opts bs = Ok c -> constants_of E bs cs ->
  constant_pool c = pool_of (cesu8 E) (slots_of cs) /\ Forall (valid_constant (cesu8 E) (slots_of cs) (major_version c)) cs.
Proof.
  intros Hs H Hcs. destruct (accepted_with _ _ _ _ _ Hs H Hcs) as (d & Hc). pose proof Hc as (_ & HP & _). split; auto.
  destruct (class_starts _ _ _ _ _ _ _ Hc) as (count & ws & rest & _ & _ & Hv & _). exact Hv.
Qed.

(** ** C10 *)
(** For every accepted class whose NameAndType constants can be decoded there is a list of items, one for each constant other than a
    Utf8, in the order of the file, each saying what its constant refers to (see [item_at]); calling [next]
    repeatedly returns these items and then [None] however often it is called. *)
Theorem C10_items_in_order_partial E opts bs c cs : sane E bs -> parse_class_with_options E opts bs = Ok c -> constants_of E bs cs ->
  (forall x, In x cs -> ~ undecodable (cesu8 E) cs x) ->
  exists items, Forall2 (fun k it => item_at (cesu8 E) (slots_of cs) (index_of cs k) it) (shown_positions cs) items
    /\ forall n, constantpool_iter_run c (length items + n) = Ok (map Some items ++ repeat None n).
Proof.
  intros Hs H Hcs Hdec. destruct (accepted_pool _ _ _ _ _ Hs H Hcs) as [HP Hv].
  destruct (positions_split (cesu8 E) cs _ Hv (shown_positions cs)) as [(items & Hf & He)|(ks1 & k & ks2 & items & x & _ & _ & Hx & Hu & _)]; auto.
  - exists items. split; auto. intro n. unfold constantpool_iter_run. rewrite HP. apply run_all. rewrite results_positions. exact He.
  - exfalso. apply (Hdec x); auto. eapply nth_error_In; eauto.
Qed.
(** The item for an index is determined by the file. *)
Theorem C10_item_unique dec cs i it it' : item_at dec (slots_of cs) i it -> item_at dec (slots_of cs) i it' -> it = it'.
Proof.
  intros H H'. apply item_of_Ok in H, H'. destruct H as (c & Hc & H), H' as (c' & Hc' & H'). rewrite (at_fun _ _ _ _ Hc' Hc) in H'. congruence.
Qed.
(** Indices increase along the file. *)
Theorem C10_order cs j k : (j < k)%nat -> (k < length cs)%nat -> index_of cs j < index_of cs k.
Proof.
  unfold index_of. intros Hjk Hk. enough (fold_right (fun c n => width c + n) 0 (firstn j cs) < fold_right (fun c n => width c + n) 0 (firstn k cs)) by lia.
  revert j k Hjk Hk. induction cs as [|c l IH]; intros j k Hjk Hk; [cbn in Hk; lia|]. destruct k as [|k]; [lia|]. cbn [length] in Hk.
  destruct j as [|j]; cbn [firstn fold_right].
  - unfold width at 1. destruct (is_wide c); lia.
  - specialize (IH j k). lia.
Qed.
(** If some NameAndType cannot be decoded, the items before the first one are still returned, and then [next] panics. *)
Theorem C10_items_before_panic E opts bs c cs : sane E bs -> parse_class_with_options E opts bs = Ok c -> constants_of E bs cs ->
  (exists x, In x cs /\ undecodable (cesu8 E) cs x) ->
  exists ks1 k ks2 items x, shown_positions cs = ks1 ++ k :: ks2
    /\ Forall2 (fun k it => item_at (cesu8 E) (slots_of cs) (index_of cs k) it) ks1 items
    /\ nth_error cs k = Some x /\ undecodable (cesu8 E) cs x
    /\ (forall n, (n <= length items)%nat -> constantpool_iter_run c n = Ok (map Some (firstn n items)))
    /\ forall n, constantpool_iter_run c (length items + S n) = Panic PNotUtf8.
Proof.
  intros Hs H Hcs (x & Hx & Hu). destruct (accepted_pool _ _ _ _ _ Hs H Hcs) as [HP Hv].
  destruct (positions_split (cesu8 E) cs _ Hv (shown_positions cs)) as [(items & Hf & He)|(ks1 & k & ks2 & items & y & Hks & Hf & Hy & Huy & He)]; auto.
  - exfalso. apply In_nth_error in Hx. destruct Hx as [k Hk].
    assert (Hin : In k (shown_positions cs)).
    { unfold shown_positions. apply filter_In. split; [apply in_seq; assert (k < length cs)%nat by (apply nth_error_Some; congruence); lia|].
      rewrite Hk. destruct Hu as (n & d & raw & -> & _). reflexivity. }
    assert (Hex : exists it, item_at (cesu8 E) (slots_of cs) (index_of cs k) it).
    { clear - Hf Hin. induction Hf; [destruct Hin|]. destruct Hin as [->|Hin]; eauto. }
    destruct Hex as (it & Hit). apply item_of_Ok in Hit. destruct Hit as (c' & Hc' & Hit). destruct (at_index_of _ _ _ Hk) as [Hat _].
    rewrite <- (at_fun _ _ _ _ Hat Hc') in Hit. apply nth_error_In in Hk. rewrite (undecodable_panics _ _ _ Hv _ Hk Hu) in Hit. discriminate.
  - exists ks1, k, ks2, items, y. split; auto. split; auto. split; auto. split; auto. unfold constantpool_iter_run. rewrite HP. split; intros n.
    + intro Hn. eapply run_prefix; [|exact Hn]. rewrite results_positions. exact He.
    + eapply run_panic. rewrite results_positions. exact He.
Qed.

(** ** C11 *)
(** Iterating never panics, fails or hangs, provided that no NameAndType is undecodable. *)
Theorem C11_iteration_partial E opts bs c cs n : sane E bs -> parse_class_with_options E opts bs = Ok c -> constants_of E bs cs ->
  (forall x, In x cs -> ~ undecodable (cesu8 E) cs x) -> exists l, constantpool_iter_run c n = Ok l /\ length l = n.
Proof.
  intros Hs H Hcs Hdec. destruct (accepted_pool _ _ _ _ _ Hs H Hcs) as [HP Hv].
  destruct (positions_split (cesu8 E) cs _ Hv (shown_positions cs)) as [(items & Hf & He)|(ks1 & k & ks2 & items & x & _ & _ & Hx & Hu & _)]; auto.
  - destruct (Nat.le_gt_cases n (length items)) as [Hle|Hgt].
    + exists (map Some (firstn n items)). split; [|rewrite map_length; apply firstn_length_le, Hle]. unfold constantpool_iter_run. rewrite HP.
      eapply run_prefix; [|exact Hle]. rewrite results_positions, app_nil_r. exact He.
    + exists (map Some items ++ repeat None (n - length items)). split; [|rewrite app_length, map_length, repeat_length; lia]. unfold constantpool_iter_run. rewrite HP.
      replace n with (length items + (n - length items))%nat at 1 by lia. apply run_all. rewrite results_positions. exact He.
  - exfalso. apply (Hdec x); auto. eapply nth_error_In; eauto.
Qed.
(** The exact condition: iteration panics on a class iff it has an undecodable NameAndType. *)
Theorem C11_panics_iff E opts bs c cs : sane E bs -> parse_class_with_options E opts bs = Ok c -> constants_of E bs cs ->
  ((exists n x, constantpool_iter_run c n = Panic x) <-> exists x, In x cs /\ undecodable (cesu8 E) cs x).
Proof.
  intros Hs H Hcs. split.
  - intros (n & p & Hp). destruct (accepted_pool _ _ _ _ _ Hs H Hcs) as [HP Hv].
    destruct (positions_split (cesu8 E) cs _ Hv (shown_positions cs)) as [(items & Hf & He)|(ks1 & k & ks2 & items & x & _ & _ & Hx & Hu & _)]; auto.
    + exfalso. destruct (Nat.le_gt_cases n (length items)) as [Hle|Hgt]; unfold constantpool_iter_run in Hp; rewrite HP in Hp.
      * rewrite (run_prefix _ items []) in Hp; [discriminate| |exact Hle]. rewrite results_positions, app_nil_r. exact He.
      * replace n with (length items + (n - length items))%nat in Hp by lia. rewrite run_all in Hp; [discriminate|]. rewrite results_positions. exact He.
    + exists x. split; auto. eapply nth_error_In; eauto.
  - intro Hu. destruct (C10_items_before_panic _ _ _ _ _ Hs H Hcs Hu) as (ks1 & k & ks2 & items & x & _ & _ & _ & _ & _ & Hp). eexists _, _. apply (Hp O).
Qed.
(** The property as stated does not hold: this class is accepted and has an unused NameAndType whose descriptor is the byte FF. *)
Definition bad_descriptor : list byte := unhex "cafebabe00000034000501000141070001010001ff0c000100030021000200000000000000000000".
Theorem C11_iteration_refuted : exists c, sane debug64 bad_descriptor /\ parse_class debug64 bad_descriptor = Ok c
  /\ constantpool_iter_run c 2 = Panic PNotUtf8.
Proof.
  destruct (parse_class debug64 bad_descriptor) as [c| | |] eqn:H; [|exfalso; revert H; vm_compute; discriminate..].
  exists c. split; [apply ample_sane, ampleb_ample; vm_compute; reflexivity|]. split; auto.
  assert (Hp : match parse_class debug64 bad_descriptor with Ok c => constantpool_iter_run c 2 | _ => Diverge end = Panic PNotUtf8) by (vm_compute; reflexivity).
  rewrite H in Hp. exact Hp.
Qed.

(** ** C12 *)
Lemma nt_valid dec cs major i Q nt : Forall (valid_constant dec (slots_of cs) major) cs -> described dec (slots_of cs) i Q ->
  name_and_type_at dec (slots_of cs) i nt -> named_type Q nt.
Proof.
  intros Hv (n & d & s & Hi & Hd & HQ) (n' & d' & Hi' & Hn' & Hd'). pose proof (at_fun _ _ _ _ Hi Hi') as Heq. injection Heq as <- <-.
  pose proof (valid_at _ _ _ Hv _ _ Hi) as [(x & Hx & Hun) _]. split.
  - replace (nt_name nt) with x; auto. destruct Hx as (r & Hr & Hxr), Hn' as (r' & Hr' & Hnr). pose proof (at_fun _ _ _ _ Hr Hr') as He. injection He as <-. congruence.
  - replace (nt_descriptor nt) with s; auto. destruct Hd as (r & Hr & Hdr), Hd' as (r' & Hr' & Hdr'). pose proof (at_fun _ _ _ _ Hr Hr') as He. injection He as <-. congruence.
Qed.
Lemma utf8_fun dec cs i s s' : utf8_at dec (slots_of cs) i s -> utf8_at dec (slots_of cs) i s' -> s = s'.
Proof. intros (r & Hr & Hx) (r' & Hr' & Hn'). pose proof (at_fun _ _ _ _ Hr Hr') as He. injection He as <-. congruence. Qed.
Lemma class_valid dec cs major i s : Forall (valid_constant dec (slots_of cs) major) cs -> class_at dec (slots_of cs) i s -> class_text s.
Proof. intros Hv (j & Hj & Hs). pose proof (valid_at _ _ _ Hv _ _ Hj) as (x & Hx & Hc). rewrite (utf8_fun _ _ _ _ _ Hs Hx). exact Hc. Qed.
Lemma member_valid dec cs major k i s nt : Forall (valid_constant dec (slots_of cs) major) cs -> member_at dec (slots_of cs) k i s nt ->
  class_text s /\ named_type (member_descriptor k) nt.
Proof.
  intros Hv (c & m & Hi & Hc & Hm). pose proof (valid_at _ _ _ Hv _ _ Hi) as Hvi. split; [eapply class_valid; eauto|].
  destruct k; cbn [member_constant valid_constant member_descriptor] in *; destruct Hvi as [_ Hd]; eapply nt_valid; eauto.
Qed.
Lemma item_at_valid dec cs major i it : Forall (valid_constant dec (slots_of cs) major) cs -> item_at dec (slots_of cs) i it -> item_valid major it.
Proof.
  intros Hv H. destruct it as [l|s|m|m|m|nt|h|s|d|d|s|s]; cbn [item_at item_valid] in *; auto.
  - eapply class_valid; eauto.
  - exact (member_valid _ _ _ _ _ _ _ Hv H).
  - exact (member_valid _ _ _ _ _ _ _ Hv H).
  - exact (member_valid _ _ _ _ _ _ _ Hv H).
  - destruct H as (n & d & Hi & Hn & Hd). pose proof (valid_at _ _ _ Hv _ _ Hi) as [(x & Hx & Hu) _]. rewrite (utf8_fun _ _ _ _ _ Hn Hx). exact Hu.
  - destruct H as (m & Hi & Hm). split; [|exact (member_valid _ _ _ _ _ _ _ Hv Hm)].
    pose proof (valid_at _ _ _ Hv _ _ Hi) as (t & Ht & Hk). destruct Hm as (c & x & Hmi & _). rewrite (at_fun _ _ _ _ Ht Hmi) in Hk.
    destruct (mh_kind h), (mh_member_kind h); cbn in *; auto; contradiction.
  - destruct H as (j & Hj & Hs). pose proof (valid_at _ _ _ Hv _ _ Hj) as (x & Hx & Hc). rewrite (utf8_fun _ _ _ _ _ Hs Hx). exact Hc.
  - destruct H as (j & Hj & Hs). pose proof (valid_at _ _ _ Hv _ _ Hj) as Hd. eapply nt_valid; eauto.
  - destruct H as (j & Hj & Hs). pose proof (valid_at _ _ _ Hv _ _ Hj) as Hd. eapply nt_valid; eauto.
  - destruct H as (j & Hj & Hs). pose proof (valid_at _ _ _ Hv _ _ Hj) as (x & Hx & Hc). rewrite (utf8_fun _ _ _ _ _ Hs Hx). exact Hc.
  - destruct H as (j & Hj & Hs). pose proof (valid_at _ _ _ Hv _ _ Hj) as (x & Hx & Hc). rewrite (utf8_fun _ _ _ _ _ Hs Hx). exact Hc.
Qed.
(** Whatever an iteration over an accepted class returns has strings of the right form. *)
Theorem C12_items_valid E opts bs c n l it : sane E bs -> parse_class_with_options E opts bs = Ok c ->
  constantpool_iter_run c n = Ok l -> In (Some it) l -> item_valid (major_version c) it.
Proof.
  intros Hs H Hrun Hin. destruct (constants_exist _ _ _ _ Hs H) as (cs & Hcs). destruct (accepted_pool _ _ _ _ _ Hs H Hcs) as [HP Hv].
  assert (Hitems : forall ks items, Forall2 (fun k it => item_at (cesu8 E) (slots_of cs) (index_of cs k) it) ks items -> In it items -> item_valid (major_version c) it).
  { intros ks items Hf Hit. clear - Hf Hit Hv. induction Hf; [destruct Hit|]. destruct Hit as [->|Hit]; auto. eapply item_at_valid; eauto. }
  assert (Hsome : forall items, In (Some it) (map Some items) -> In it items).
  { intros items Hm. apply in_map_iff in Hm. destruct Hm as (y & Hy & Hi). injection Hy as ->. exact Hi. }
  assert (Hfirst : forall items, In it (firstn n items) -> In it items) by (intros items Hf; rewrite <- (firstn_skipn n items); apply in_or_app; auto).
  unfold constantpool_iter_run in Hrun. rewrite HP in Hrun.
  destruct (positions_split (cesu8 E) cs _ Hv (shown_positions cs)) as [(items & Hf & He)|(ks1 & k & ks2 & items & x & _ & Hf & Hx & Hu & He)]; auto;
    rewrite <- results_positions in He; (destruct (Nat.le_gt_cases n (length items)) as [Hle|Hgt]).
  - rewrite (run_prefix _ items []) in Hrun; [|rewrite app_nil_r; exact He|exact Hle]. injection Hrun as <-. eapply Hitems; eauto.
  - replace n with (length items + (n - length items))%nat in Hrun by lia. rewrite (run_all _ _ _ He) in Hrun. injection Hrun as <-.
    apply in_app_or in Hin. destruct Hin as [Hin|Hin]; [eapply Hitems; eauto|]. apply repeat_spec in Hin. discriminate.
  - rewrite (run_prefix _ _ _ _ He Hle) in Hrun. injection Hrun as <-. eapply Hitems; eauto.
  - replace n with (length items + S (n - S (length items)))%nat in Hrun by lia. rewrite (run_panic _ _ _ _ _ He) in Hrun. discriminate.
Qed.
(** The hypotheses are met by a real class file, all of whose items are listed. *)
Example C12_meets : exists c l, sane debug64 object_class /\ parse_class debug64 object_class = Ok c
  /\ constantpool_iter_run c 60 = Ok l /\ (20 <= length (filter (fun o => match o with Some _ => true | _ => false end) l))%nat.
Proof.
  destruct (parse_class debug64 object_class) as [c| | |] eqn:H; [|exfalso; revert H; vm_compute; discriminate..].
  assert (Hp : match parse_class debug64 object_class with Ok c => match constantpool_iter_run c 60 with Ok l => Nat.leb 20 (length (filter (fun o => match o with Some _ => true | _ => false end) l)) | _ => false end | _ => false end = true) by (vm_compute; reflexivity).
  rewrite H in Hp. destruct (constantpool_iter_run c 60) as [l| | |] eqn:Hr; try discriminate Hp. apply Nat.leb_le in Hp.
  exists c, l. split; [apply ample_sane, ampleb_ample; vm_compute; reflexivity|]. auto.
Qed.
(** [sample] has no undecodable constants. *)
Lemma sample_named n d : In (CNameAndType n d) sample_constants -> exists r s, at_index (slots_of sample_constants) d (CUtf8 r) /\ from_java_cesu8 r = Some s.
Proof.
  intro H. assert (Hb : forallb (fun c => match c with CNameAndType _ d => match nth_error (slots_of sample_constants) (N.to_nat d) with Some (Some (CUtf8 r)) => match from_java_cesu8 r with Some _ => true | None => false end | _ => false end | _ => true end) sample_constants = true) by (vm_compute; reflexivity).
  rewrite forallb_forall in Hb. specialize (Hb _ H). cbn beta iota in Hb. unfold at_index. destruct (nth_error (slots_of sample_constants) (N.to_nat d)) as [[[]|]|]; try discriminate Hb.
  destruct (from_java_cesu8 raw) as [s|] eqn:Hs; [|discriminate Hb]. exists raw, s. auto.
Qed.
Example C10_meets : sane debug64 sample /\ parse_class_with_options debug64 true sample = Ok sample_parsed /\ constants_of debug64 sample sample_constants
  /\ (forall x, In x sample_constants -> ~ undecodable (cesu8 debug64) sample_constants x) /\ length (shown_positions sample_constants) = 20%nat.
Proof.
  split; [exact sample_sane|]. split; [exact sample_parse|]. split; [exact sample_of|]. split; [|reflexivity].
  intros x Hx (n & d & r & -> & Hat & Hd).
  destruct (sample_named _ _ Hx) as (r' & s & Hr & Hs). pose proof (at_fun _ _ _ _ Hat Hr) as He. injection He as ->.
  change (cesu8 debug64) with from_java_cesu8 in Hd. congruence.
Qed.
(** For C11: the same class for [C11_iteration_partial], and a class with an undecodable constant for [C11_panics_iff]. *)
Example C11_meets : sane debug64 sample /\ parse_class_with_options debug64 true sample = Ok sample_parsed /\ constants_of debug64 sample sample_constants
  /\ (forall x, In x sample_constants -> ~ undecodable (cesu8 debug64) sample_constants x).
Proof. destruct C10_meets as (H1 & H2 & H3 & H4 & _). repeat (split; [assumption|]). exact H4. Qed.
Example C11_panics_meets : exists c cs, sane debug64 bad_descriptor /\ parse_class debug64 bad_descriptor = Ok c /\ constants_of debug64 bad_descriptor cs
  /\ exists x, In x cs /\ undecodable (cesu8 debug64) cs x.
Proof.
  destruct C11_iteration_refuted as (c & Hs & H & Hp). destruct (constants_exist debug64 true bad_descriptor c Hs H) as (cs & Hcs).
  exists c, cs. split; auto. split; auto. split; auto. refine (proj1 (C11_panics_iff debug64 true bad_descriptor c cs Hs H Hcs) _). exists 2%nat, PNotUtf8. exact Hp.
Qed.
