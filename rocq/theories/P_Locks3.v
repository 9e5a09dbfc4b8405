(** * Iteration over the pool of an accepted class takes its locks in a fixed order. *)
From Verif Require Import Base M_Names M_Descriptors M_ConstantPool M_Bytecode M_Attributes M_Class M_Locks
  S_Lang S_Names S_Format S_Pool S_Items P_Pool3 P_Refs P_Layout T_Iter P_Locks P_Locks2.
From Coq Require Import ZifyBool ZifyNat ZifyN.

Section Pool.
Variable dec : list byte -> option str.
Variable cs : list constant.
Notation sl := (slots_of cs).
Notation P := (pool_of dec sl).
Variable major : N.
Hypothesis Hvalid : Forall (valid_constant dec sl major) cs.

(** Handles first, then members, then NameAndTypes, then the rest; the first cell of an entry before the second. *)
Definition lock_rank (l : cell) : nat :=
  match nth_error P (N.to_nat (fst l)), snd l with
  | Some (EMethodHandle _ _), _ => 0
  | Some (EFieldRef _ _ | EMethodRef _ _ | EInterfaceMethodRef _ _), false => 1
  | Some (EFieldRef _ _ | EMethodRef _ _ | EInterfaceMethodRef _ _), true => 2
  | Some (EDynamic _ _ | EInvokeDynamic _ _), _ => 2
  | Some (ENameAndType _ _), false => 3
  | Some (ENameAndType _ _), true => 4
  | _, _ => 5
  end.
Definition unreadable (l : cell) : Prop :=
  exists n d raw, at_index sl (fst l) (CNameAndType n d) /\ at_index sl d (CUtf8 raw) /\ dec raw = None.
Lemma rank_top l : (lock_rank l <= 5)%nat.
Proof. unfold lock_rank. destruct (nth_error P _) as [e|]; [|lia]. destruct e, (snd l); lia. Qed.
Notation ordered := (ordered lock_rank unreadable).
Lemma entry_nth i c : at_index sl i c -> nth_error P (N.to_nat i) = Some (entry_of dec c).
Proof. apply at_index_entry. Qed.
Lemma rank_at i c b : at_index sl i c -> lock_rank (i, b) =
  match c, b with
  | CMethodHandle _ _, _ => 0
  | (CFieldref _ _ | CMethodref _ _ | CInterfaceMethodref _ _), false => 1
  | (CFieldref _ _ | CMethodref _ _ | CInterfaceMethodref _ _), true => 2
  | (CDynamic _ _ | CInvokeDynamic _ _), _ => 2
  | CNameAndType _ _, false => 3
  | CNameAndType _ _, true => 4
  | _, _ => 5
  end%nat.
Proof. intro H. unfold lock_rank. cbn [fst snd]. rewrite (entry_nth _ _ H). destruct c; try reflexivity. cbn [entry_of]. destruct (dec raw); reflexivity. Qed.
Lemma not_unreadable i c b : at_index sl i c -> (forall n d, c <> CNameAndType n d) -> ~ unreadable (i, b).
Proof. intros H Hc (n & d & raw & Hn & _). apply (Hc n d). eapply at_fun; [exact H|exact Hn]. Qed.
Lemma described_readable i Q b : described dec sl i Q -> ~ unreadable (i, b).
Proof.
  intros (n & d & s & Hi & (raw & Hd & Hr) & _) (n' & d' & raw' & Hi' & Hd' & Hr'). cbn [fst] in Hi'. pose proof (at_fun _ _ _ _ Hi Hi') as He. injection He as -> ->.
  pose proof (at_fun _ _ _ _ Hd Hd') as He. injection He as ->. congruence.
Qed.
(** Holding cells of rank less than [n]. *)
Definition below (n : nat) (h : list cell) : Prop := Forall (fun x => (lock_rank x < n)%nat) h.
Lemma below_le n m h : (n <= m)%nat -> below n h -> below m h.
Proof. intros H. apply Forall_impl. intros a Ha. lia. Qed.
Lemma below_cons n l h : (lock_rank l < n)%nat -> below n h -> below n (l :: h). Proof. constructor; auto. Qed.

Lemma text_ordered {A} h i c b j s (f : entry -> act A) : at_index sl i c -> (forall n d, c <> CNameAndType n d) -> below 5 h -> lock_rank (i, b) = 5%nat -> utf8_at dec sl j s ->
  ordered ((i, b) :: h) ((i, b) :: h) (f (EUtf8 s)) ->
  ordered h h (with_peel P (i, b) (Resolved j) (fun _ t => f t)).
Proof.
  intros Hi Hc Hh Hr (raw & Hj & Hd) Hf. eapply ordered_peel; [apply entry_nth, Hj| | |].
  - rewrite Hr. exact Hh.
  - intro Hb. exfalso. revert Hb. apply (not_unreadable _ _ _ Hi Hc).
  - cbn [entry_of]. rewrite Hd. exact Hf.
Qed.
Lemma classinfo_ordered h i : below 5 h -> is_class sl i -> forall e, nth_error P (N.to_nat i) = Some e -> ordered h h (classinfo_l P i e).
Proof.
  intros Hh (j & Hi) e He. rewrite (entry_nth _ _ Hi) in He. injection He as <-. pose proof (valid_at _ _ _ Hvalid _ _ Hi) as (s & Hs & _). cbn [entry_of classinfo_l].
  eapply (text_ordered h i (CClass j) false j s (fun t => pure (utf8 t))); auto; [discriminate|rewrite (rank_at _ _ _ Hi); reflexivity|reflexivity].
Qed.
Lemma nt_ordered h i Q : below 3 h -> described dec sl i Q -> forall e, nth_error P (N.to_nat i) = Some e -> ordered h h (name_and_type_l P i e).
Proof.
  intros Hh Hdesc e He. pose proof Hdesc as (n & d & s & Hi & (raw & Hd & Hr) & _). rewrite (entry_nth _ _ Hi) in He. injection He as <-.
  pose proof (valid_at _ _ _ Hvalid _ _ Hi) as [(x & (raw' & Hx & Hr') & _) _]. cbn [entry_of name_and_type_l].
  eapply ordered_peel; [apply entry_nth, Hx| | |].
  - rewrite (rank_at _ _ _ Hi). exact Hh.
  - intro Hb. exfalso. revert Hb. eapply described_readable; eauto.
  - cbn [entry_of]. rewrite Hr'. cbn [utf8 pure abind]. eapply ordered_peel; [apply entry_nth, Hd| | |].
    + rewrite (rank_at _ _ _ Hi). apply below_cons; [rewrite (rank_at _ _ _ Hi); lia|eapply below_le; [|exact Hh]; lia].
    + intro Hb. exfalso. revert Hb. eapply described_readable; eauto.
    + cbn [entry_of]. rewrite Hr. reflexivity.
Qed.
Lemma member_ordered {A} h i cn c m Q (k : str -> name_and_type -> A) : at_index sl i cn -> lock_rank (i, false) = 1%nat -> lock_rank (i, true) = 2%nat ->
  (forall n d, cn <> CNameAndType n d) -> below 1 h -> is_class sl c -> described dec sl m Q ->
  ordered h h (member_l P i (Resolved c) (Resolved m) k).
Proof.
  intros Hi H0 H1 Hnt Hh Hc Hm. unfold member_l. pose proof Hc as (j & Hcj). pose proof Hm as (n & d & s & Hmj & _).
  eapply ordered_peel; [apply entry_nth, Hcj|rewrite H0; exact Hh|intro Hb; exfalso; revert Hb; apply (not_unreadable _ _ _ Hi Hnt)|].
  eapply ordered_bind.
  - apply classinfo_ordered; auto; [|apply entry_nth, Hcj]. apply below_cons; [lia|eapply below_le; [|exact Hh]; lia].
  - intro x. eapply ordered_peel; [apply entry_nth, Hmj| |intro Hb; exfalso; revert Hb; apply (not_unreadable _ _ _ Hi Hnt)|].
    + rewrite H1. apply below_cons; [lia|eapply below_le; [|exact Hh]; lia].
    + eapply ordered_bind; [|intro nt; apply ordered_done]. eapply nt_ordered; [|exact Hm|apply entry_nth, Hmj].
      apply below_cons; [lia|]. apply below_cons; [lia|eapply below_le; [|exact Hh]; lia].
Qed.
Lemma below_nil n : below n []. Proof. constructor. Qed.
Lemma item_ordered i e : nth_error P (N.to_nat i) = Some e -> ordered [] [] (item_l P i e).
Proof.
  intro He. destruct (entry_at_cases dec cs _ _ He) as [[-> ->]|[[_ ->]|(c & Hi & ->)]]; [constructor|reflexivity|].
  pose proof (valid_at _ _ _ Hvalid _ _ Hi) as Hv. pose proof (fun b => rank_at _ _ b Hi) as Hrk.
  destruct c; cbn [entry_of item_l valid_constant] in *; try reflexivity.
  - destruct (dec raw); reflexivity.
  - destruct Hv as (s & Hs & _). eapply (text_ordered [] i _ false name s); [exact Hi|discriminate|apply below_nil|rewrite Hrk; reflexivity|exact Hs|reflexivity].
  - destruct Hv as (raw & Hr). eapply ordered_peel; [apply entry_nth, Hr|constructor|intro Hb; exfalso; revert Hb; eapply not_unreadable; [exact Hi|discriminate]|].
    cbn [entry_of]. destruct (dec raw); reflexivity.
  - destruct Hv as [H1 H2]. eapply member_ordered; eauto; try (rewrite Hrk; reflexivity); [discriminate|apply below_nil].
  - destruct Hv as [H1 H2]. eapply member_ordered; eauto; try (rewrite Hrk; reflexivity); [discriminate|apply below_nil].
  - destruct Hv as [H1 H2]. eapply member_ordered; eauto; try (rewrite Hrk; reflexivity); [discriminate|apply below_nil].
  - (* NameAndType: the one that may panic *)
    destruct Hv as [(s & (raw & Hn & Hr) & _) (raw' & Hd)].
    assert (Hfail : forall b, unreadable (i, b) -> dec raw' = None).
    { intros b (n' & d' & r & Hi' & Hd' & Hr'). cbn [fst] in Hi'. pose proof (at_fun _ _ _ _ Hi Hi') as E1. injection E1 as <- <-.
      pose proof (at_fun _ _ _ _ Hd Hd') as E2. injection E2 as <-. exact Hr'. }
    eapply ordered_peel; [apply entry_nth, Hn|constructor| |].
    + intro Hb. split; [constructor|]. exists PNotUtf8. cbn [entry_of]. rewrite Hr. cbn [utf8 pure abind]. unfold with_peel. cbn [den]. rewrite (entry_nth _ _ Hd).
      cbn [entry_of]. rewrite (Hfail _ Hb). reflexivity.
    + cbn [entry_of]. rewrite Hr. cbn [utf8 pure abind]. eapply ordered_peel; [apply entry_nth, Hd| | |].
      * rewrite Hrk. apply below_cons; [rewrite Hrk; lia|apply below_nil].
      * intro Hb. split.
        -- constructor; [|constructor]. destruct Hb as (n' & d' & r & Hb). exists n', d', r. exact Hb.
        -- exists PNotUtf8. cbn [entry_of]. rewrite (Hfail _ Hb). reflexivity.
      * cbn [entry_of]. destruct (dec raw') as [t|] eqn:Hdec; [reflexivity|]. cbn [utf8 pure abind ordered].
        constructor; [|constructor; [|constructor]]; exists name, desc, raw'; auto.
  - destruct Hv as (t & Ht & Hk). pose proof (valid_at _ _ _ Hvalid _ _ Ht) as Hvt. pose proof (fun b => rank_at _ _ b Ht) as Hrt.
    eapply ordered_bind; [|intros [h|]; [apply ordered_done|constructor]].
    unfold make_method_handle_l. eapply ordered_peel; [apply entry_nth, Ht|constructor|intro Hb; exfalso; revert Hb; eapply not_unreadable; [exact Hi|discriminate]|].
    destruct t; try (destruct kind; contradiction Hk); cbn [valid_constant entry_of] in *; destruct Hvt as [H1 H2];
      (eapply member_ordered; eauto; try (rewrite Hrt; reflexivity); [discriminate|]); (apply below_cons; [rewrite Hrk; lia|apply below_nil]).
  - destruct Hv as (s & Hs & _). eapply (text_ordered [] i _ false desc s); [exact Hi|discriminate|apply below_nil|rewrite Hrk; reflexivity|exact Hs|reflexivity].
  - pose proof Hv as (n & d & s & Hn & _). eapply ordered_peel; [apply entry_nth, Hn|constructor|intro Hb; exfalso; revert Hb; eapply not_unreadable; [exact Hi|discriminate]|].
    eapply ordered_bind; [|intro; apply ordered_done]. eapply nt_ordered; [|exact Hv|apply entry_nth, Hn]. (apply below_cons; [rewrite Hrk; lia|apply below_nil]).
  - pose proof Hv as (n & d & s & Hn & _). eapply ordered_peel; [apply entry_nth, Hn|constructor|intro Hb; exfalso; revert Hb; eapply not_unreadable; [exact Hi|discriminate]|].
    eapply ordered_bind; [|intro; apply ordered_done]. eapply nt_ordered; [|exact Hv|apply entry_nth, Hn]. (apply below_cons; [rewrite Hrk; lia|apply below_nil]).
  - destruct Hv as (s & Hs & _). eapply (text_ordered [] i _ false name s); [exact Hi|discriminate|apply below_nil|rewrite Hrk; reflexivity|exact Hs|reflexivity].
  - destruct Hv as (s & Hs & _). eapply (text_ordered [] i _ false name s); [exact Hi|discriminate|apply below_nil|rewrite Hrk; reflexivity|exact Hs|reflexivity].
Qed.
Lemma next_ordered index : ordered [] [] (next_l P index).
Proof.
  unfold next_l. generalize (S (length P)). intro fuel. revert index. induction fuel as [|fuel IH]; intro index; cbn [next_loop_l]; [constructor|].
  destruct (index + 1 <? plen P); [|reflexivity]. destruct (nth_error P (N.to_nat (index + 1))) as [e|] eqn:He; [|constructor].
  eapply ordered_bind; [apply item_ordered, He|]. intros [it|]; [reflexivity|apply IH].
Qed.
Lemma script_ordered ns : ordered [] [] (script P ns).
Proof.
  induction ns as [|n ns IH]; [reflexivity|]. cbn [script]. generalize 0. induction n as [|n IHn]; intro index; cbn [calls_l]; [exact IH|].
  eapply ordered_bind; [apply next_ordered|]. intro r. cbn [P_Locks2.ordered]. apply IHn.
Qed.
End Pool.
