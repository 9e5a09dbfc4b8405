(** * Names: the checks of names.rs decide the specified sets. *)
From Verif Require Import Base M_Names S_Names.
From Coq Require Import ZifyBool ZifyNat ZifyN.

Lemma str_eqb_eq a b : str_eqb a b = true <-> a = b.
Proof.
  revert b; induction a as [|x a IH]; intros [|y b]; cbn [str_eqb]; try (split; congruence).
  rewrite andb_true_iff, IH, N.eqb_eq. split; [intros [-> ->]|intros [= -> ->]]; auto.
Qed.
Lemma str_eqb_refl a : str_eqb a a = true.
Proof. apply str_eqb_eq; auto. Qed.
Lemma str_eqb_spec a b : reflect (a = b) (str_eqb a b).
Proof.
  destruct (str_eqb a b) eqn:H; constructor.
  - apply str_eqb_eq; auto.
  - intro Hab. apply str_eqb_eq in Hab. congruence.
Qed.

(** [without] as a boolean check on every character. *)
Definition in_lit (bad : str) (c : char) : bool := existsb (N.eqb c) bad.
Lemma without_forallb bad s : without bad s <-> forallb (fun c => negb (in_lit (lit bad) c)) s = true.
Proof.
  unfold without, in_lit. rewrite forallb_forall. split.
  - intros H c Hc. apply negb_true_iff. apply not_true_is_false. intro He.
    apply existsb_exists in He. destruct He as (d & Hd & He). apply N.eqb_eq in He. subst d.
    exact (H c Hd Hc).
  - intros H c Hc Hs. specialize (H c Hs). apply negb_true_iff in H.
    assert (existsb (N.eqb c) (lit bad) = true) by (apply existsb_exists; exists c; split; auto; apply N.eqb_refl).
    congruence.
Qed.

Lemma forallb_ext_in {A} (f g : A -> bool) l : (forall x, f x = g x) -> forallb f l = forallb g l.
Proof. intro H; induction l as [|x l IH]; simpl; congruence. Qed.

Lemma unqualified_char_spec c : is_valid_unqualified_char c = negb (in_lit (lit ".;[/") c).
Proof. reflexivity || (unfold is_valid_unqualified_char, in_lit; cbn; rewrite ?orb_false_r, ?orb_assoc; reflexivity). Qed.
Lemma method_char_spec c : is_valid_unqualified_method_char c = negb (in_lit (lit ".;[/<>") c).
Proof. reflexivity || (unfold is_valid_unqualified_method_char, in_lit; cbn; rewrite ?orb_false_r, ?orb_assoc; reflexivity). Qed.

Lemma is_unqualified_name_iff s : is_unqualified_name s = true <-> unqualified s.
Proof.
  unfold is_unqualified_name, unqualified. rewrite andb_true_iff, without_forallb.
  rewrite (forallb_ext_in _ _ s unqualified_char_spec).
  destruct s; simpl; intuition congruence.
Qed.

Lemma split_on_nonnil sep s : split_on sep s <> [].
Proof.
  induction s as [|c s IH]; cbn [split_on]; [discriminate|].
  destruct (c =? sep); [discriminate|]. destruct (split_on sep s); discriminate.
Qed.

Lemma slashes_cons s segs : segs <> [] -> slashes (s :: segs) = s ++ lit "/" ++ slashes segs.
Proof. destruct segs; [congruence|reflexivity]. Qed.

Lemma slashes_split s : slashes (split_on (ch "/") s) = s.
Proof.
  induction s as [|c s IH]; [reflexivity|]. cbn [split_on].
  destruct (N.eqb_spec c (ch "/")) as [->|Hc].
  - rewrite slashes_cons by apply split_on_nonnil. rewrite IH. reflexivity.
  - destruct (split_on (ch "/") s) as [|q ps] eqn:Hs; [exfalso; eapply split_on_nonnil; eauto|].
    destruct ps as [|q' ps].
    + simpl in IH |- *. congruence.
    + rewrite slashes_cons in IH |- * by discriminate. rewrite <- app_comm_cons. congruence.
Qed.

Lemma split_on_app s t : ~ In (ch "/") s ->
  split_on (ch "/") (s ++ t) =
  match split_on (ch "/") t with q :: ps => (s ++ q) :: ps | [] => [s] end.
Proof.
  induction s as [|c s IH]; intro H; simpl app.
  - destruct (split_on (ch "/") t) eqn:He; auto. exfalso; eapply split_on_nonnil; eauto.
  - cbn [split_on]. destruct (N.eqb_spec c (ch "/")) as [->|Hc]; [exfalso; apply H; left; auto|].
    rewrite IH by (intro; apply H; right; auto).
    destruct (split_on (ch "/") t); auto.
Qed.

Lemma split_slashes segs : segs <> [] -> (forall s, In s segs -> ~ In (ch "/") s) ->
  split_on (ch "/") (slashes segs) = segs.
Proof.
  induction segs as [|s segs IH]; [congruence|]. intros _ H.
  destruct segs as [|s' segs].
  - simpl. rewrite <- (app_nil_r s) at 1. rewrite split_on_app by (apply H; left; auto).
    simpl. rewrite app_nil_r. reflexivity.
  - rewrite slashes_cons by discriminate.
    rewrite split_on_app by (apply H; left; auto).
    change (lit "/" ++ slashes (s' :: segs)) with (ch "/" :: slashes (s' :: segs)).
    cbn [split_on]. rewrite N.eqb_refl. rewrite app_nil_r. f_equal.
    apply IH; [discriminate|]. intros t Ht. apply H. right; auto.
Qed.

Lemma is_binary_name_iff s : is_binary_name s = true <-> binary_name s.
Proof.
  unfold is_binary_name, binary_name. split.
  - intro H. exists (split_on (ch "/") s). split; [apply split_on_nonnil|]. split.
    + apply Forall_forall. intros t Ht. apply is_unqualified_name_iff.
      rewrite forallb_forall in H. auto.
    + symmetry. apply slashes_split.
  - intros (segs & Hn & HF & ->). rewrite split_slashes; auto.
    + apply forallb_forall. intros t Ht. apply is_unqualified_name_iff.
      rewrite Forall_forall in HF. auto.
    + intros t Ht Hs. rewrite Forall_forall in HF. destruct (HF t Ht) as [_ Hw].
      apply (Hw (ch "/")); auto. vm_compute. tauto.
Qed.

Lemma is_unqualified_method_name_iff s allow_init :
  is_unqualified_method_name s allow_init true = true <-> method_name (negb allow_init) s.
Proof.
  unfold method_name. rewrite without_forallb.
  destruct s as [|x rest]; cbn [is_unqualified_method_name].
  - split; [discriminate|]. intros [[H _]|[[H _]|H]]; try congruence; discriminate.
  - destruct (N.eqb_spec x (ch "<")) as [->|Hx].
    + rewrite orb_true_iff, !andb_true_iff, !str_eqb_eq.
      cbn [forallb]. change (negb (in_lit (lit ".;[/<>") (ch "<"))) with false. cbn [andb].
      rewrite negb_false_iff. intuition congruence.
    + rewrite method_char_spec. cbn [forallb].
      rewrite (forallb_ext_in _ _ rest method_char_spec).
      destruct (negb (in_lit (lit ".;[/<>") x)); cbn [negb andb].
      * split; [left; split; [discriminate|auto]|].
        intros [[_ H]|[[H _]|H]]; auto; injection H as H _; exfalso; apply Hx; rewrite H; reflexivity.
      * split; [discriminate|].
        intros [[_ H]|[[H _]|H]]; auto; injection H as H _; exfalso; apply Hx; rewrite H; reflexivity.
Qed.

(** "<init>" is unqualified as well, so that the pool's check of names is [unqualified]. *)
Lemma unqualified_or_init s :
  is_unqualified_name s || is_unqualified_method_name s true false = true <-> unqualified s.
Proof.
  rewrite orb_true_iff, is_unqualified_name_iff. split; [|auto]. intros [H|H]; auto.
  apply is_unqualified_name_iff.
  destruct s as [|x rest]; cbn [is_unqualified_method_name] in H; [discriminate|].
  destruct (N.eqb_spec x (ch "<")) as [->|Hx].
  - rewrite orb_true_iff, !andb_true_iff, !str_eqb_eq in H.
    destruct H as [[_ ->]|[H _]]; [reflexivity|discriminate].
  - rewrite method_char_spec in H. unfold is_unqualified_name. cbn [negb andb].
    destruct (negb (in_lit (lit ".;[/<>") x)) eqn:Hb; cbn [negb] in H; [|discriminate].
    assert (HH : forallb is_valid_unqualified_method_char (x :: rest) = true).
    { cbn [forallb]. rewrite method_char_spec, Hb. exact H. }
    rewrite forallb_forall in HH |- *. intros c Hc. specialize (HH c Hc).
    unfold is_valid_unqualified_method_char in HH. unfold is_valid_unqualified_char.
    apply negb_true_iff in HH. apply negb_true_iff.
    apply orb_false_iff in HH. destruct HH as [HH _]. apply orb_false_iff in HH. tauto.
Qed.

Lemma is_module_name_iff s : is_module_name s = true <-> module_name s.
Proof.
  split.
  - remember (length s) as n eqn:Hn. assert (Hle : (length s <= n)%nat) by lia. clear Hn.
    revert s Hle; induction n as [|n IH]; intros s Hle H.
    + destruct s; [|simpl in Hle; lia]. exists []; split; auto.
    + destruct s as [|c rest]; [exists []; split; auto|]. cbn [is_module_name] in H.
      destruct (N.leb_spec c 0x1F); [discriminate|].
      destruct (N.eqb_spec c (ch "\")) as [->|Hc].
      * destruct rest as [|d rest]; [discriminate|].
        destruct ((d =? ch "\") || (d =? ch ":") || (d =? ch "@")) eqn:Hd; [|discriminate].
        destruct (IH rest) as (us & HF & ->); [simpl in Hle; lia|auto|].
        rewrite !orb_true_iff, !N.eqb_eq in Hd.
        exists ([ch "\"; d] :: us). split; [|reflexivity]. constructor; auto.
        right. destruct Hd as [[->| ->]| ->]; auto.
      * destruct ((c =? ch ":") || (c =? ch "@")) eqn:Hd; [discriminate|].
        destruct (IH rest) as (us & HF & ->); [simpl in Hle; lia|auto|].
        exists ([c] :: us). split; [|reflexivity]. constructor; auto.
        left. exists c. repeat split; auto. rewrite orb_false_iff, !N.eqb_neq in Hd.
        destruct Hd as [Hd1 Hd2]. intros [Hi|[Hi|[Hi|[]]]]; cbn in *; congruence.
  - intros (us & HF & ->). induction HF as [|u us Hu HF IH]; [reflexivity|].
    cbn [concat]. destruct Hu as [(c & -> & Hc & Hn)|[->|[->| ->]]]; try exact IH.
    cbn [app is_module_name]. destruct (N.leb_spec c 0x1F); [lia|].
    destruct (N.eqb_spec c (ch "\")) as [->|Hc1]; [exfalso; apply Hn; left; reflexivity|].
    destruct (N.eqb_spec c (ch ":")) as [->|Hc2]; [exfalso; apply Hn; right; left; reflexivity|].
    destruct (N.eqb_spec c (ch "@")) as [->|Hc3]; [exfalso; apply Hn; right; right; left; reflexivity|].
    exact IH.
Qed.
