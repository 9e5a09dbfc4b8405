(** * Instructions determine their bytes. *)
From Verif Require Import Base M_Descriptors M_ConstantPool M_Bytecode S_Lang S_Names S_Format S_Assemble P_Reads P_Tac.
From Coq Require Import ZifyBool ZifyNat ZifyN.

Definition rigid (L : lang) : Prop := forall w w', L w -> L w' -> w = w'.
Definition sized (k : nat) (L : lang) : Prop := forall w, L w -> length w = k.

Lemma be_snoc w b : be (w ++ [b]) = be w * 256 + Byte.to_N b.
Proof. unfold be. rewrite fold_left_app. reflexivity. Qed.
Lemma byte_inj a b : Byte.to_N a = Byte.to_N b -> a = b.
Proof. intro H. apply (f_equal Byte.of_N) in H. rewrite !Byte.of_to_N in H. congruence. Qed.
Lemma byte_lt (a : byte) : Byte.to_N a < 256.
Proof. pose proof (Byte.to_N_bounded a). lia. Qed.
Lemma be_inj w : forall w', length w = length w' -> be w = be w' -> w = w'.
Proof.
  induction w as [|b w IH] using rev_ind; intros w' Hl He.
  - destruct w'; [reflexivity|discriminate].
  - destruct w' as [|b' w' _] using rev_ind; [rewrite app_length in Hl; cbn in Hl; lia|].
    rewrite !app_length in Hl. cbn [length] in Hl. rewrite !be_snoc in He.
    pose proof (byte_lt b). pose proof (byte_lt b').
    assert (Byte.to_N b = Byte.to_N b') by lia. assert (be w = be w') by lia.
    rewrite (IH w') by (assumption || lia). f_equal. f_equal. apply byte_inj; assumption.
Qed.

Lemma rigid_uint k n : rigid (uint k n).
Proof. intros w w' [H1 H2] [H3 H4]. apply be_inj; congruence. Qed.
Lemma rigid_sint k z : rigid (sint k z).
Proof. intros w w' (H1 & _ & H2) (H3 & _ & H4). apply be_inj; [congruence|]. apply N2Z.inj. congruence. Qed.
Lemma rigid_only P : rigid (only_if P).
Proof. intros w w' [-> _] [-> _]. reflexivity. Qed.
Lemma rigid_eps : rigid eps.
Proof. intros w w' -> ->. reflexivity. Qed.
Lemma rigid_cat L M : rigid L -> rigid M -> rigid (L +++ M).
Proof. intros HL HM w w' (u & v & -> & Hu & Hv) (u' & v' & -> & Hu' & Hv'). rewrite (HL u u'), (HM v v') by assumption. reflexivity. Qed.
Lemma rigid_many {A} (F : A -> lang) l : (forall a, rigid (F a)) -> rigid (many F l).
Proof. intro H. induction l as [|a l IH]; [exact rigid_eps|]. apply rigid_cat; auto. Qed.

Lemma sized_uint k n : sized k (uint k n). Proof. intros w [H _]. exact H. Qed.
Lemma sized_sint k z : sized k (sint k z). Proof. intros w [H _]. exact H. Qed.
Lemma sized_only P : sized 0 (only_if P). Proof. intros w [-> _]. reflexivity. Qed.
Lemma sized_cat k l m L M : sized k L -> sized l M -> m = (k + l)%nat -> sized m (L +++ M).
Proof. intros H1 H2 -> w (u & v & -> & Hu & Hv). rewrite app_length, (H1 u Hu), (H2 v Hv). reflexivity. Qed.

Definition fixed (L : lang) : Prop := forall w w', L w -> L w' -> length w = length w' -> w = w'.
Lemma rigid_fixed L : rigid L -> fixed L. Proof. intros H w w' Hw Hw' _. apply H; assumption. Qed.
Lemma fixed_alt k L M : rigid L -> fixed M -> sized k L -> (forall w, M w -> length w <> k) -> fixed (L or M).
Proof.
  intros HL HM Hk Hl w w' [H|H] [H'|H'] He; [apply HL; assumption| | |apply HM; assumption].
  - exfalso. apply (Hl _ H'). rewrite <- He. apply Hk, H.
  - exfalso. apply (Hl _ H). rewrite He. apply Hk, H'.
Qed.

(** ** One instruction *)
Ltac rig := repeat first [apply rigid_uint | apply rigid_sint | apply rigid_only | apply rigid_eps | (apply rigid_many; intro) | apply rigid_cat].
Ltac siz := first [apply sized_uint | apply sized_sint | apply sized_only | (eapply sized_cat; [siz|siz|reflexivity])].

Lemma fixed_two k l L M : rigid L -> rigid M -> sized k L -> sized l M -> k <> l -> fixed (L or M).
Proof.
  intros H1 H2 H3 H4 Hne. apply (fixed_alt k); auto using rigid_fixed. intros w Hw. rewrite (H4 _ Hw). auto.
Qed.
Lemma fixed_local c c0 i : fixed (local c c0 i).
Proof.
  unfold local, u1, u2. apply (fixed_alt 2); [rig| |siz|].
  - apply (fixed_alt 1); [rig|apply rigid_fixed; rig|siz|].
    intros w H. assert (Hs : sized 4 (uint 1 196 +++ uint 1 c +++ uint 2 i)) by siz. rewrite (Hs _ H). discriminate.
  - intros w [H|H].
    + assert (Hs : sized 1 (uint 1 (c0 + i) +++ only_if (i <= 3))) by siz. rewrite (Hs _ H). discriminate.
    + assert (Hs : sized 4 (uint 1 196 +++ uint 1 c +++ uint 2 i)) by siz. rewrite (Hs _ H). discriminate.
Qed.

Section Insn.
Variable dec : list byte -> option str.
Variable sl : slots.
Variable wraps : bool.

(** Two byte strings of the instruction [op] at [o]: where they differ. *)
Definition differ_ok (o : N) (op : opcode) (w w' : list byte) : Prop :=
  w = w'
  \/ (is_switch op /\ exists b p p' r, w = b :: p ++ r /\ w' = b :: p' ++ r /\ N.of_nat (length p) = (3 - o mod 4) mod 4 /\ length p = length p')
  \/ (exists b x x' r it it', w = b :: x ++ r /\ w' = b :: x' ++ r /\ length x = index_width op /\ length x' = index_width op
       /\ In it (operand_items op) /\ In it' (operand_items op) /\ item_at dec sl (be x) it /\ item_at dec sl (be x') it').

Lemma differ_const o op k c A (R : N -> A -> Prop) a T w w' : index_width op = k ->
  (forall n, R n a -> exists it, In it (operand_items op) /\ item_at dec sl n it) -> rigid T ->
  (u1 c +++ any (uint k) (fun n => R n a) +++ T) w -> (u1 c +++ any (uint k) (fun n => R n a) +++ T) w' -> differ_ok o op w w'.
Proof.
  intros Hk HR HT (u & v & -> & Hu & x & y & -> & (n & Hn & Hr) & Hy) (u' & v' & -> & Hu' & x' & y' & -> & (n' & Hn' & Hr') & Hy').
  rewrite (rigid_uint _ _ _ _ Hu' Hu). rewrite (HT _ _ Hy' Hy). right; right.
  destruct Hu as [Hl _]. destruct u as [|b [|]]; try discriminate Hl.
  destruct Hn as [Hx <-], Hn' as [Hx' <-]. destruct (HR _ Hr) as (it & Hi1 & Hi2). destruct (HR _ Hr') as (it' & Hi1' & Hi2').
  exists b, x, x', y, it, it'. subst k. auto 10.
Qed.
Lemma differ_const0 o op k c A (R : N -> A -> Prop) a w w' : index_width op = k ->
  (forall n, R n a -> exists it, In it (operand_items op) /\ item_at dec sl n it) ->
  (u1 c +++ any (uint k) (fun n => R n a)) w -> (u1 c +++ any (uint k) (fun n => R n a)) w' -> differ_ok o op w w'.
Proof.
  intros Hk HR (u & v & -> & Hu & Hv) (u' & v' & -> & Hu' & Hv').
  apply (differ_const o op k c A R a eps); auto using rigid_eps.
  - exists u, v. split; [reflexivity|]. split; [assumption|]. exists v, []. rewrite app_nil_r. split; [reflexivity|]. split; [assumption|reflexivity].
  - exists u', v'. split; [reflexivity|]. split; [assumption|]. exists v', []. rewrite app_nil_r. split; [reflexivity|]. split; [assumption|reflexivity].
Qed.

Lemma differ_pad o op c T w w' : is_switch op -> rigid T ->
  (u1 c +++ pad o +++ T) w -> (u1 c +++ pad o +++ T) w' -> differ_ok o op w w'.
Proof.
  intros Hs HT (u & v & -> & Hu & x & y & -> & Hx & Hy) (u' & v' & -> & Hu' & x' & y' & -> & Hx' & Hy').
  rewrite (rigid_uint _ _ _ _ Hu' Hu). rewrite (HT _ _ Hy' Hy). right; left. split; [assumption|].
  destruct Hu as [Hl _]. destruct u as [|b [|]]; try discriminate Hl.
  unfold pad, blob in Hx, Hx'. exists b, x, x', y. split; [reflexivity|]. split; [reflexivity|]. split; [assumption|]. lia.
Qed.

Lemma items_loadable l n : loadable_at dec sl n l -> item_at dec sl n (loadable_item l).
Proof. destruct l; exact (fun H => H). Qed.
Lemma items_type t n : object_array_type_at dec sl n t -> item_at dec sl n (ItClassInfo (type_text t)).
Proof. intros (s & Hs & Ht). destruct t as [d|m]; cbn; [destruct Ht as (_ & _ & <-)|destruct Ht as [<- _]]; exact Hs. Qed.
Lemma items_member ks m n : member_ref_at dec sl ks n m -> exists it,
  In it (map (fun k => match k with KField => ItFieldRef m | KMethod => ItMethodRef m | KInterfaceMethod => ItInterfaceMethodRef m end) ks) /\ item_at dec sl n it.
Proof.
  intros (k & Hk & Hm). destruct k; [exists (ItFieldRef m)|exists (ItMethodRef m)|exists (ItInterfaceMethodRef m)];
    (split; [apply in_map_iff; eexists; split; [|exact Hk]; reflexivity|exact Hm]).
Qed.

Lemma insn_differ o op w w' : insn_lang dec sl wraps o op w -> insn_lang dec sl wraps o op w' -> length w = length w' -> differ_ok o op w w'.
Proof.
  intros H H' He. destruct op; cbn [insn_lang] in H, H'; unfold ref, ref1 in H, H'; 
  try solve [left; revert H H'; match goal with |- ?L _ -> _ -> _ => assert (Hr : rigid L) by (unfold op0, jump, u1, u2, s1, s2, s4; rig); exact (Hr w w') end];
  try solve [left; exact (fixed_local _ _ _ _ _ H H' He)].
  all: unfold u2 in H, H'.
  all: try solve [eapply differ_const0; [reflexivity| |exact H|exact H']; intros n Hn;
    first [eexists; split; [left; reflexivity|apply items_loadable, Hn] | eexists; split; [left; reflexivity|apply items_type, Hn]
      | eexists; split; [left; reflexivity|exact Hn] | exact (items_member _ _ _ Hn)]].
  - left. refine (fixed_two 3 5 _ _ _ _ _ _ _ _ _ H H' He); unfold jump, u1, s2, s4; first [solve [rig]|solve [siz]|discriminate].
  - left. refine (fixed_two 3 6 _ _ _ _ _ _ _ _ _ H H' He); unfold u1, u2, s1, s2; first [solve [rig]|solve [siz]|discriminate].
  - eapply (differ_const o _ 2); [reflexivity| | |exact H|exact H']; [|apply rigid_uint]. intros n Hn. eexists; split; [left; reflexivity|exact Hn].
  - eapply (differ_const o _ 2); [reflexivity| | |exact H|exact H']; [|unfold u1; rig]. intros n Hn. exact (items_member _ _ _ Hn).
  - left. refine (fixed_two 3 5 _ _ _ _ _ _ _ _ _ H H' He); unfold jump, u1, s2, s4; first [solve [rig]|solve [siz]|discriminate].
  - eapply (differ_pad o _ 171); [exact I| |exact H|exact H']. unfold s4; rig.
  - eapply (differ_const o _ 2); [reflexivity| | |exact H|exact H']; [|apply rigid_uint]. intros n Hn. eexists; split; [left; reflexivity|apply items_type, Hn].
  - left. refine (fixed_two 2 4 _ _ _ _ _ _ _ _ _ H H' He); unfold u1, u2; first [solve [rig]|solve [siz]|discriminate].
  - eapply (differ_pad o _ 170); [exact I| |exact H|exact H']. unfold s4; rig.
Qed.
End Insn.

(** ** An array of instructions *)
Lemma pad_end o i p : 0 < i -> i <= p -> p = (3 - o mod 4) mod 4 -> o < o + i /\ o + i < 4 * ((o + 4) / 4).
Proof.
  intros H1 H2 ->. pose proof (N.div_mod o 4 ltac:(discriminate)). pose proof (N.mod_lt o 4 ltac:(discriminate)).
  replace (o + 4) with (o + 1 * 4) by lia. rewrite N.div_add by discriminate.
  rewrite N.mod_small in H2 by lia. lia.
Qed.

Section Insns.
Variable dec : list byte -> option str.
Variable sl : slots.
Variable wraps : bool.
Definition explained (ops : list (N * opcode)) (code code' : list byte) (i : N) : Prop :=
  padding ops i
  \/ exists o op n n' it it', In (o, op) ops /\ in_index o op i /\ n <> n' /\ about dec sl code o op n it /\ about dec sl code' o op n' it'.

Lemma explained_cons x ops code code' i : explained ops code code' i -> explained (x :: ops) code code' i.
Proof.
  intros [(o & op & H & H')|(o & op & n & n' & it & it' & H & H')]; [left|right].
  - exists o, op. split; [right; exact H|exact H'].
  - exists o, op, n, n', it, it'. split; [right; exact H|exact H'].
Qed.
Lemma nth_error_same {A} (p p' r : list A) i a b : length p = length p' -> nth_error (p ++ r) i = Some a -> nth_error (p' ++ r) i = Some b -> a <> b -> (i < length p)%nat.
Proof.
  intros Hl H1 H2 Hne. destruct (Nat.lt_ge_cases i (length p)) as [|Hge]; [assumption|].
  rewrite nth_error_app2 in H1, H2 by lia. rewrite Hl in H1. congruence.
Qed.

Lemma insns_differ ops : forall o pre pre' w w', N.of_nat (length pre) = o -> N.of_nat (length pre') = o ->
  insns_lang dec sl wraps o ops w -> insns_lang dec sl wraps o ops w' -> length w = length w' ->
  forall i b b', nth_error w i = Some b -> nth_error w' i = Some b' -> b <> b' -> explained ops (pre ++ w) (pre' ++ w') (o + N.of_nat i).
Proof.
  induction ops as [|[off op] ops IH]; intros o pre pre' w w' Hp Hp' H H' Hl i b b' Hi Hi' Hne.
  - cbn in H. unfold eps in H. subst w. destruct i; discriminate.
  - cbn in H, H'. destruct H as (-> & u & v & -> & Hu & Hv). destruct H' as (_ & u' & v' & -> & Hu' & Hv').
    assert (Hlu : length u = length u').
    { destruct ops as [|[off2 op2] ops].
      - cbn in Hv, Hv'. unfold eps in *. subst v v'. rewrite !app_nil_r in Hl. exact Hl.
      - cbn in Hv, Hv'. destruct Hv as [Hv _], Hv' as [Hv' _]. lia. }
    destruct (Nat.lt_ge_cases i (length u)) as [Hlt|Hge].
    + rewrite nth_error_app1 in Hi, Hi' by lia.
      destruct (insn_differ dec sl wraps o op u u' Hu Hu' Hlu) as [->|[(Hs & c & p & p' & r & -> & -> & Hk & Hpp)|(c & x & x' & r & it & it' & -> & -> & Hx & Hx' & Hit & Hit' & Ha & Ha')]].
      * congruence.
      * destruct i as [|i]; [cbn in Hi, Hi'; congruence|]. cbn in Hi, Hi'. left. exists o, op. split; [left; reflexivity|]. split; [exact Hs|].
        pose proof (nth_error_same _ _ _ _ _ _ Hpp Hi Hi' Hne). apply (pad_end o _ (N.of_nat (length p))); lia.
      * destruct i as [|i]; [cbn in Hi, Hi'; congruence|]. cbn in Hi, Hi'. right.
        assert (Hxx : length x = length x') by congruence. pose proof (nth_error_same _ _ _ _ _ _ Hxx Hi Hi' Hne).
        exists o, op, (be x), (be x'), it, it'. split; [left; reflexivity|]. split; [split; lia|].
        split; [intro Hb; rewrite (be_inj _ _ Hxx Hb) in Hi; congruence|].
        split; (split; [|split; assumption]).
        { exists pre, c, x, (r ++ v). split; [|auto]. cbn. rewrite <- app_assoc. reflexivity. }
        { exists pre', c, x', (r ++ v'). split; [|auto]. cbn. rewrite <- app_assoc. reflexivity. }
    + rewrite nth_error_app2 in Hi, Hi' by lia. apply explained_cons. rewrite !app_assoc.
      replace (o + N.of_nat i) with (o + N.of_nat (length u) + N.of_nat (i - length u)) by lia.
      apply (IH (o + N.of_nat (length u)) (pre ++ u) (pre' ++ u') v v') with (b := b) (b' := b'); rewrite ?app_length in *; try lia; try assumption.
      * replace (o + N.of_nat (length u)) with (o + N.of_nat (length u')) by lia. exact Hv'.
      * rewrite Hlu. exact Hi'.
Qed.
End Insns.

(** ** Padding *)
Lemma nth_error_ext {A} (l : list A) : forall l', (forall i, nth_error l i = nth_error l' i) -> l = l'.
Proof.
  induction l as [|a l IH]; intros [|a' l'] H; [reflexivity|discriminate (H 0%nat)|discriminate (H 0%nat)|].
  pose proof (H 0%nat) as H0. injection H0 as ->. f_equal. apply IH. intro i. exact (H (S i)).
Qed.
Section Padding.
Variable dec : list byte -> option str.
Variable sl : slots.
Variable wraps : bool.
Lemma align o : 4 * ((o + 4) / 4) = o + 1 + (3 - o mod 4) mod 4.
Proof.
  pose proof (N.div_mod o 4 ltac:(discriminate)). pose proof (N.mod_lt o 4 ltac:(discriminate)).
  replace (o + 4) with (o + 1 * 4) by lia. rewrite N.div_add by discriminate. rewrite N.mod_small by lia. lia.
Qed.
Lemma switch_shape o op w : insn_lang dec sl wraps o op w -> is_switch op -> exists c T, insn_lang dec sl wraps o op = (u1 c +++ pad o +++ T).
Proof. destruct op; intros _ []; cbn [insn_lang]; eexists _, _; reflexivity. Qed.
Lemma insn_padding o op w : insn_lang dec sl wraps o op w -> is_switch op -> 4 * ((o + 4) / 4) <= o + N.of_nat (length w).
Proof.
  intros H Hs. destruct (switch_shape _ _ _ H Hs) as (c & T & He). rewrite He in H. destruct H as (u & v & -> & [Hu _] & p & r & -> & Hp & _).
  unfold pad, blob in Hp. rewrite align, !app_length. lia.
Qed.
Lemma insn_repad o op w w' : insn_lang dec sl wraps o op w -> length w' = length w ->
  (forall i, ~ (is_switch op /\ o < o + N.of_nat i /\ o + N.of_nat i < 4 * ((o + 4) / 4)) -> nth_error w' i = nth_error w i) -> insn_lang dec sl wraps o op w'.
Proof.
  intros H Hl Hi.
  assert (Hsw : is_switch op \/ ~ is_switch op) by (destruct op; cbn; tauto).
  destruct Hsw as [Hs|Hs].
  2:{ replace w' with w; [exact H|]. symmetry. apply nth_error_ext. intro i. apply Hi. tauto. }
  destruct (switch_shape _ _ _ H Hs) as (c & T & He). rewrite He in H |- *. destruct H as (u & v & -> & Hu & p & r & -> & Hp & Hr).
  pose proof Hu as [Hlu _]. unfold pad, blob in Hp. rewrite align in Hi. rewrite !app_length in Hl.
  set (k := length p) in *. destruct w' as [|b w']; [cbn in Hl; lia|].
  exists u, w'. destruct u as [|b' [|]]; try discriminate Hlu. split; [|split; [exact Hu|]].
  - cbn. f_equal. assert (H0 : nth_error (b :: w') 0 = nth_error ([b'] ++ p ++ r) 0) by (apply Hi; lia). cbn in H0. congruence.
  - exists (firstn k w'), r. cbn [length] in Hl. split; [|split; [|exact Hr]].
    + rewrite <- (firstn_skipn k w') at 1. f_equal. apply nth_error_ext. intro j.
      assert (Hj : nth_error (b :: w') (S (k + j)) = nth_error ([b'] ++ p ++ r) (S (k + j))) by (apply Hi; lia).
      cbn in Hj. rewrite <- (firstn_skipn k w') in Hj. rewrite (nth_error_app2 (firstn k w')) in Hj by (rewrite firstn_length; lia).
      rewrite (nth_error_app2 p) in Hj by lia. rewrite firstn_length in Hj. replace (k + j - Nat.min k (length w'))%nat with j in Hj by lia.
      replace (k + j - length p)%nat with j in Hj by lia. exact Hj.
    + unfold pad, blob. rewrite firstn_length. lia.
Qed.
Lemma padding_beyond ops : forall o w i, insns_lang dec sl wraps o ops w -> padding ops i -> o < i.
Proof.
  induction ops as [|[off op] ops IH]; intros o w i H (p & op' & Hin & Hs & Hp & Hq); [destruct Hin|].
  cbn in H. destruct H as (-> & u & v & -> & Hu & Hv). destruct Hin as [[= -> ->]|Hin]; [exact Hp|].
  assert (o + N.of_nat (length u) < i); [|lia]. apply (IH _ v); [exact Hv|]. exists p, op'. auto.
Qed.
Lemma insns_repad ops : forall o w w', insns_lang dec sl wraps o ops w -> length w' = length w ->
  (forall i, ~ padding ops (o + N.of_nat i) -> nth_error w' i = nth_error w i) -> insns_lang dec sl wraps o ops w'.
Proof.
  induction ops as [|[off op] ops IH]; intros o w w' H Hl Hi.
  - cbn in *. unfold eps in *. subst w. destruct w'; [reflexivity|discriminate].
  - cbn in H |- *. destruct H as (-> & u & v & -> & Hu & Hv). split; [reflexivity|].
    rewrite app_length in Hl. set (k := length u) in *. assert (Hk : length (firstn k w') = k) by (rewrite firstn_length; lia).
    exists (firstn k w'), (skipn k w'). split; [symmetry; apply firstn_skipn|]. rewrite Hk. split.
    + apply (insn_repad o op u); [exact Hu|lia|]. intros i Hn. destruct (Nat.lt_ge_cases i k) as [Hlt|Hge].
      * rewrite <- (nth_error_app1 u v) by (unfold k in Hlt; lia). rewrite <- Hi.
        { rewrite <- (firstn_skipn k w') at 2. rewrite nth_error_app1 by lia. reflexivity. }
        intros (p & op' & Hin & Hs & Hp & Hq). destruct Hin as [[= -> ->]|Hin]; [apply Hn; auto|].
        assert (o + N.of_nat k < o + N.of_nat i); [|lia]. apply (padding_beyond ops _ v); [exact Hv|]. exists p, op'. auto.
      * rewrite (proj2 (nth_error_None _ _)) by lia. rewrite (proj2 (nth_error_None _ _)); [reflexivity|]. unfold k in Hge. lia.
    + apply (IH _ v); [exact Hv|rewrite skipn_length; lia|]. intros i Hn.
      assert (Hj : nth_error w' (k + i) = nth_error (u ++ v) (k + i)).
      { apply Hi. intros (p & op' & Hin & Hs & Hp & Hq). destruct Hin as [[= -> ->]|Hin].
        - pose proof (insn_padding _ _ _ Hu Hs). unfold k in *. lia.
        - apply Hn. exists p, op'. split; [exact Hin|]. split; [exact Hs|]. lia. }
      rewrite nth_error_app2 in Hj by (unfold k; lia). replace (k + i - length u)%nat with i in Hj by (unfold k; lia).
      rewrite <- (firstn_skipn k w') in Hj. rewrite nth_error_app2 in Hj by lia. replace (k + i - length (firstn k w'))%nat with i in Hj by lia. exact Hj.
Qed.
End Padding.
