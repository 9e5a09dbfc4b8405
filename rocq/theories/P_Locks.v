(** * Lemmas about the machine of M_Locks.v. *)
From Verif Require Import Base M_Names M_Descriptors M_ConstantPool M_Bytecode M_Attributes M_Class M_Locks
  S_Lang S_Names S_Format S_Pool S_Items P_Pool3 P_Refs P_Layout T_Iter.
From Coq Require Import ZifyBool ZifyNat ZifyN.

(** ** What a program emits and computes when its locks are ignored *)
Fixpoint den {A} (m : act A) : list (option cp_item) * outcome A :=
  match m with
  | Done a => ([], Ok a)
  | Abort x => ([], Panic x)
  | Lock _ k | Unlock _ k => den k
  | Emit o k => (o :: fst (den k), snd (den k))
  end.
Lemma den_bind {A B} (m : act A) (f : A -> act B) :
  den (abind m f) = match snd (den m) with
                    | Ok a => (fst (den m) ++ fst (den (f a)), snd (den (f a)))
                    | Err e => (fst (den m), Err e) | Panic x => (fst (den m), Panic x) | Diverge => (fst (den m), Diverge)
                    end.
Proof.
  induction m as [a|x|l k IH|l k IH|o k IH]; cbn [abind den fst snd app]; auto.
  - destruct (den (f a)); reflexivity.
  - rewrite IH. destruct (snd (den k)); reflexivity.
Qed.
Definition silent {A} (m : act A) (o : outcome A) : Prop := den m = ([], o).
Lemma silent_bind {A B} (m : act A) (f : A -> act B) o g : silent m o -> (forall a, o = Ok a -> silent (f a) (g a)) -> silent (abind m f) (obind o g).
Proof.
  unfold silent. intros Hm Hf. rewrite den_bind, Hm. cbn [fst snd app]. destruct o; cbn [obind]; auto. rewrite (Hf _ eq_refl). reflexivity.
Qed.
Lemma silent_done {A} (a : A) : silent (Done a) (Ok a). Proof. reflexivity. Qed.
Lemma silent_utf8 e : silent (pure (utf8 e)) (utf8 e). Proof. destruct e; reflexivity. Qed.
Lemma silent_literal e : silent (pure (string_literal e)) (string_literal e). Proof. destruct e; reflexivity. Qed.
Section Erase.
Variable p : pool.
Lemma silent_peel {A} l r (k : N -> entry -> act A) g : (forall t e, silent (k t e) (g e)) -> silent (with_peel p l r k) (obind (peel p r) g).
Proof.
  intro Hk. unfold with_peel, silent. cbn [den]. destruct r as [|t]; cbn [peel obind]; [reflexivity|]. destruct (nth_error p (N.to_nat t)) as [e|]; cbn [obind]; [|reflexivity].
  pose proof (Hk t e) as He. unfold silent in He. rewrite den_bind, He. cbn [fst snd]. destruct (g e); reflexivity.
Qed.
Lemma silent_classinfo i e : silent (classinfo_l p i e) (classinfo p e).
Proof. destruct e; try reflexivity. cbn [classinfo_l classinfo]. apply silent_peel. intros _ t. apply silent_utf8. Qed.
Lemma obind_assoc {A B C} (m : outcome A) (f : A -> outcome B) (g : B -> outcome C) : obind (obind m f) g = obind m (fun a => obind (f a) g).
Proof. destruct m; reflexivity. Qed.
Lemma silent_nt i e : silent (name_and_type_l p i e) (get_name_and_type p e).
Proof.
  destruct e; try reflexivity. cbn [name_and_type_l get_name_and_type]. unfold peel_utf8. rewrite obind_assoc. apply silent_peel. intros _ t.
  apply silent_bind; [apply silent_utf8|]. intros n _. rewrite obind_assoc. apply silent_peel. intros _ u.
  apply silent_bind; [apply silent_utf8|]. intros d _. apply silent_done.
Qed.
Lemma silent_member {A} i c m (k : str -> name_and_type -> A) :
  silent (member_l p i c m k) (let* ce := peel p c in let* cn := classinfo p ce in let* me := peel p m in let* nt := get_name_and_type p me in Ok (k cn nt)).
Proof.
  unfold member_l. apply silent_peel. intros ci ce. apply silent_bind; [apply silent_classinfo|]. intros cn _.
  apply silent_peel. intros mi me. apply silent_bind; [apply silent_nt|]. intros nt _. apply silent_done.
Qed.
Lemma silent_eq {A} (m : act A) o o' : silent m o -> o = o' -> silent m o'. Proof. intros H <-. exact H. Qed.
Lemma peel_no_err r e : peel p r <> Err e.
Proof. destruct r as [|t]; cbn [peel]; [|destruct (nth_error p (N.to_nat t))]; discriminate. Qed.
Lemma utf8_no_err r e : peel_utf8 p r <> Err e.
Proof. unfold peel_utf8. destruct (peel p r) as [t| | |] eqn:H; cbn [obind]; try discriminate; [destruct t; discriminate|]. exfalso. revert H. apply peel_no_err. Qed.
Lemma classinfo_no_err w e : classinfo p w <> Err e.
Proof. destruct w; try discriminate. apply utf8_no_err. Qed.
Lemma nt_no_err w e : get_name_and_type p w <> Err e.
Proof.
  destruct w; try discriminate. cbn [get_name_and_type]. destruct (peel_utf8 p x) eqn:Hx; cbn [obind]; try discriminate; [|exfalso; revert Hx; apply utf8_no_err].
  destruct (peel_utf8 p y) eqn:Hy; cbn [obind]; try discriminate. exfalso. revert Hy. apply utf8_no_err.
Qed.
Lemma silent_item i e : silent (item_l p i e) (item_of p e).
Proof.
  destruct e; cbn [item_l item_of]; try reflexivity; unfold peel_utf8, make_member_ref.
  - rewrite obind_assoc. apply silent_peel. intros _ t. apply silent_bind; [apply silent_utf8|]. intros s _. apply silent_done.
  - apply silent_peel. intros _ t. apply silent_bind; [apply silent_literal|]. intros s _. apply silent_done.
  - eapply silent_eq; [apply silent_member|]. destruct (peel p x) as [ce| | |]; cbn [obind]; auto. destruct (classinfo p ce); cbn [obind]; auto.
    destruct (peel p y) as [me| | |]; cbn [obind]; auto. destruct (get_name_and_type p me); cbn [obind]; auto.
  - eapply silent_eq; [apply silent_member|]. destruct (peel p x) as [ce| | |]; cbn [obind]; auto. destruct (classinfo p ce); cbn [obind]; auto.
    destruct (peel p y) as [me| | |]; cbn [obind]; auto. destruct (get_name_and_type p me); cbn [obind]; auto.
  - eapply silent_eq; [apply silent_member|]. destruct (peel p x) as [ce| | |]; cbn [obind]; auto. destruct (classinfo p ce); cbn [obind]; auto.
    destruct (peel p y) as [me| | |]; cbn [obind]; auto. destruct (get_name_and_type p me); cbn [obind]; auto.
  - rewrite obind_assoc. apply silent_peel. intros _ t. apply silent_bind; [apply silent_utf8|]. intros n _.
    rewrite obind_assoc. apply silent_peel. intros _ u. apply silent_bind; [apply silent_utf8|]. intros d _. apply silent_done.
  - assert (Hm : silent (make_method_handle_l p i k y)
       (match make_method_handle p k y with Ok h => Ok (Some h) | Err _ => Ok None | Panic x => Panic x | Diverge => Diverge end)).
    { unfold make_method_handle_l, make_method_handle.
      eapply silent_eq; [eapply (silent_peel _ _ _ (fun e => match e with
         | EFieldRef c m => let* ce := peel p c in let* cn := classinfo p ce in let* me := peel p m in let* nt := get_name_and_type p me in Ok (Some (mk_mh k cn KField nt))
         | EMethodRef c m => let* ce := peel p c in let* cn := classinfo p ce in let* me := peel p m in let* nt := get_name_and_type p me in Ok (Some (mk_mh k cn KMethod nt))
         | EInterfaceMethodRef c m => let* ce := peel p c in let* cn := classinfo p ce in let* me := peel p m in let* nt := get_name_and_type p me in Ok (Some (mk_mh k cn KInterfaceMethod nt))
         | _ => Ok None end))|].
      - intros j e. destruct e; try reflexivity; apply silent_member.
      - destruct (peel p y) as [e| | |] eqn:Hpeel; cbn [obind]; auto; [|exfalso; revert Hpeel; apply peel_no_err].
        destruct e; try reflexivity; (destruct (peel p x) as [ce| | |] eqn:Hc; cbn [obind]; auto; [|exfalso; revert Hc; apply peel_no_err]);
          (destruct (classinfo p ce) as [cn| | |] eqn:Hcn; cbn [obind]; auto; [|exfalso; revert Hcn; apply classinfo_no_err]);
          (destruct (peel p y0) as [me| | |] eqn:Hmm; cbn [obind]; auto; [|exfalso; revert Hmm; apply peel_no_err]);
          (destruct (get_name_and_type p me) as [nt| | |] eqn:Hnt; cbn [obind]; auto; exfalso; revert Hnt; apply nt_no_err). }
    eapply silent_eq; [eapply silent_bind with (g := fun h => match h with Some h => Ok (Some (ItMethodHandle h)) | None => Panic PUnwrap end); [exact Hm|]|].
    + intros [h|] _; reflexivity.
    + destruct (make_method_handle p k y); reflexivity.
  - rewrite obind_assoc. apply silent_peel. intros _ t. apply silent_bind; [apply silent_utf8|]. intros s _. apply silent_done.
  - apply silent_peel. intros j t. apply silent_bind; [apply silent_nt|]. intros nt _. apply silent_done.
  - apply silent_peel. intros j t. apply silent_bind; [apply silent_nt|]. intros nt _. apply silent_done.
  - rewrite obind_assoc. apply silent_peel. intros _ t. apply silent_bind; [apply silent_utf8|]. intros s _. apply silent_done.
  - rewrite obind_assoc. apply silent_peel. intros _ t. apply silent_bind; [apply silent_utf8|]. intros s _. apply silent_done.
Qed.
(** A program only returns or panics. *)
Lemma den_cases {A} (m : act A) : (exists a, snd (den m) = Ok a) \/ exists x, snd (den m) = Panic x.
Proof. induction m; cbn [den snd]; eauto. Qed.
Lemma next_loop_den fuel : forall index, (N.to_nat (plen p - index) < fuel)%nat -> silent (next_loop_l p fuel index) (iter_next_loop p fuel index).
Proof.
  induction fuel as [|fuel IH]; intros index Hf; [lia|]. cbn [next_loop_l iter_next_loop]. destruct (N.ltb_spec (index + 1) (plen p)); [|reflexivity].
  destruct (nth_error p (N.to_nat (index + 1))) as [e|]; [|reflexivity]. apply silent_bind; [apply silent_item|]. intros [it|] _; [reflexivity|]. apply IH. lia.
Qed.
Lemma next_den index : silent (next_l p index) (iter_next p index).
Proof. apply next_loop_den. unfold plen. lia. Qed.
Lemma calls_den n : forall index k,
  (exists l, iter_run_from p n index = Ok l /\ den (calls_l p n index k) = (l ++ fst (den k), snd (den k)))
  \/ exists m l x, (m < n)%nat /\ iter_run_from p m index = Ok l /\ iter_run_from p (S m) index = Panic x /\ den (calls_l p n index k) = (l, Panic x).
Proof.
  induction n as [|n IH]; intros index k.
  - left. exists []. cbn. split; auto. destruct (den k); reflexivity.
  - cbn [calls_l]. pose proof (next_den index) as Hn. rewrite den_bind. unfold silent in Hn.
    destruct (den_cases (next_l p index)) as [([o i'] & Ho)|(x & Hx)].
    + rewrite Hn in Ho. cbn [snd] in Ho. rewrite Hn. cbn [fst snd app]. rewrite Ho. cbn [den fst snd app].
      destruct (IH i' k) as [(l & Hl & ->)|(m & l & x & Hm & Hl & Hx & ->)].
      * left. exists (o :: l). cbn [iter_run_from]. rewrite Ho. cbn [obind fst snd]. rewrite Hl. auto.
      * right. exists (S m), (o :: l), x. split; [lia|]. split; [cbn [iter_run_from]; rewrite Ho; cbn [obind fst snd]; rewrite Hl; auto|].
        split; [|auto]. change (iter_run_from p (S (S m)) index) with (let* r := iter_next p index in let* rest := iter_run_from p (S m) (snd r) in Ok (fst r :: rest)).
        rewrite Ho. cbn [obind fst snd]. rewrite Hx. reflexivity.
    + rewrite Hn in Hx. cbn [snd] in Hx. rewrite Hn. cbn [fst snd app]. rewrite Hx. right. exists 0%nat, [], x. split; [lia|]. split; [reflexivity|].
      split; [cbn [iter_run_from]; rewrite Hx; reflexivity|reflexivity].
Qed.
End Erase.
