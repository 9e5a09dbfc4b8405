(** * The constant pool: filling the table, resolution, validation, lookups. *)
From Verif Require Import Base M_Names M_Descriptors M_ConstantPool S_Lang S_Names S_Format
  P_Reads P_Tac P_Names P_Descriptors P_Pool.
From Coq Require Import ZifyBool ZifyNat ZifyN.

Lemma bind_Ok {A B} (p : parser A) (f : A -> parser B) bs ix r :
  bind p f bs ix = Ok r <-> exists a ix1, p bs ix = Ok (a, ix1) /\ f a bs ix1 = Ok r.
Proof.
  unfold bind. destruct (p bs ix) as [[a ix1]| | |].
  - split; [intro; exists a, ix1; auto|]. intros (a' & ix1' & [= -> ->] & H); auto.
  - split; [discriminate|]. intros (? & ? & ? & _); discriminate.
  - split; [discriminate|]. intros (? & ? & ? & _); discriminate.
  - split; [discriminate|]. intros (? & ? & ? & _); discriminate.
Qed.
Lemma lift_Ok {A} (m : outcome A) bs ix a ix' : lift m bs ix = Ok (a, ix') <-> m = Ok a /\ ix' = ix.
Proof.
  unfold lift. destruct m; split; intro H; try discriminate; try (destruct H; discriminate).
  - injection H as -> ->; auto.
  - destruct H as [[= ->] ->]; auto.
Qed.
Lemma obind_Ok {A B} (m : outcome A) (f : A -> outcome B) r :
  obind m f = Ok r <-> exists a, m = Ok a /\ f a = Ok r.
Proof.
  destruct m; simpl; split; intro H; try discriminate; try (destruct H as (? & ? & _); discriminate).
  - eauto.
  - destruct H as (a' & [= ->] & H); auto.
Qed.
Lemma ctx_Ok {A} c (m : outcome A) r : ctx c m = Ok r <-> m = Ok r.
Proof. destruct m; simpl; split; intro H; try discriminate; auto. Qed.

Section WithEnv.
Variable E : env.
Let dec := cesu8 E.
Let wraps := negb (overflow_checks E).

Definition expand (c : constant) : list entry :=
  if is_wide c then [raw_of dec c; EUnused] else [raw_of dec c].

Lemma u16_small n : n < 65536 -> u16_result E n = Ok n.
Proof. intro H. unfold u16_result. destruct (N.ltb_spec n 65536); [auto|lia]. Qed.
Lemma u16_top : u16_result E 65536 = Ok 0 <-> wraps = true.
Proof. unfold u16_result, wraps. simpl. destruct (overflow_checks E); split; try discriminate; auto. Qed.
Lemma u16_top_inv n : u16_result E 65536 = Ok n -> n = 0 /\ wraps = true.
Proof. unfold u16_result, wraps. simpl. destruct (overflow_checks E); [discriminate|]. intros [= <-]; auto. Qed.

Lemma constant_nonempty major c w : constant_lang major c w -> 0 < blen w.
Proof.
  assert (H : forall t s L w, tagged t s major L w -> 0 < blen w).
  { intros t s L w0 [_ H]. apply u1_cons in H. destruct H as (b & w' & -> & _).
    unfold blen. simpl. lia. }
  destruct c; apply H.
Qed.

Lemma pool_loop_step fuel major count i bs ix es ix' : i < count -> count < 65536 ->
  (pool_loop E (S fuel) major count i bs ix = Ok (es, ix') <->
   exists te ix1 es', entry_reader E major bs ix = Ok (te, ix1) /\
     if (fst te =? 5) || (fst te =? 6) then
       es = snd te :: EUnused :: es' /\
       exists j, u16_result E (i + 2) = Ok j /\ pool_loop E fuel major count j bs ix1 = Ok (es', ix')
     else es = snd te :: es' /\ pool_loop E fuel major count (i + 1) bs ix1 = Ok (es', ix')).
Proof.
  intros Hi Hc. cbn [pool_loop]. replace (i <? count) with true by lia.
  unfold entry_reader. split.
  - intro H. apply bind_Ok in H. destruct H as (tag & ix1 & H1 & H).
    apply bind_Ok in H. destruct H as (e & ix2 & H2 & H).
    apply bind_Ok in H. destruct H as (j & ix3 & H3 & H). apply lift_Ok in H3. destruct H3 as [H3 ->].
    rewrite u16_small in H3 by lia. injection H3 as <-.
    destruct ((tag =? 5) || (tag =? 6)) eqn:Hw.
    + apply bind_Ok in H. destruct H as (j & ix4 & H4 & H). apply lift_Ok in H4. destruct H4 as [H4 ->].
      apply bind_Ok in H. destruct H as (es' & ix5 & H5 & H). injection H as <- <-.
      exists (tag, e), ix2, es'. split.
      { apply bind_Ok. exists tag, ix1. split; auto. apply bind_Ok. exists e, ix2. auto. }
      cbn [fst snd]. rewrite Hw. split; auto. exists j. replace (i + 2) with (i + 1 + 1) by lia. auto.
    + apply bind_Ok in H. destruct H as (es' & ix5 & H5 & H). injection H as <- <-.
      exists (tag, e), ix2, es'. split.
      { apply bind_Ok. exists tag, ix1. split; auto. apply bind_Ok. exists e, ix2. auto. }
      cbn [fst snd]. rewrite Hw. auto.
  - intros ([tag e] & ix1 & es' & H1 & H). cbn [fst snd] in H.
    apply bind_Ok in H1. destruct H1 as (tag' & ix0 & H1 & H2).
    apply bind_Ok in H2. destruct H2 as (e' & ix2 & H2 & H3). injection H3 as -> -> ->.
    apply bind_Ok. exists tag, ix0. split; auto. apply bind_Ok. exists e, ix1. split; auto.
    apply bind_Ok. exists (i + 1), ix1. split; [apply lift_Ok; rewrite u16_small by lia; auto|].
    destruct ((tag =? 5) || (tag =? 6)).
    + destruct H as (-> & j & Hj & H). apply bind_Ok. exists j, ix1.
      split; [apply lift_Ok; replace (i + 1 + 1) with (i + 2) by lia; auto|]. apply bind_Ok. exists es', ix'. auto.
    + destruct H as (-> & H). apply bind_Ok. exists es', ix'. auto.
Qed.

Lemma tag_wide c : (tag_of c =? 5) || (tag_of c =? 6) = is_wide c.
Proof. destruct c; reflexivity. Qed.

Definition table_lang major count i (es : list entry) : lang := fun w =>
  exists cs, es = flat_map expand cs /\ many (constant_lang major) cs w /\ fills wraps count i cs.

Lemma pool_loop_spec major count fuel : count < 65536 ->
  forall i bs ix es ix', fits E bs -> ix <= blen bs -> blen bs < ix + N.of_nat fuel ->
  (pool_loop E fuel major count i bs ix = Ok (es, ix') <-> span bs ix ix' (table_lang major count i es)).
Proof.
  intro Hc. induction fuel as [|fuel IH]; intros i bs ix es ix' Hfit Hix Hfuel; [lia|].
  destruct (N.ltb_spec i count) as [Hi|Hi].
  - rewrite pool_loop_step by auto. split.
    + intros (te & ix1 & es' & He & H). apply (reads_entry E major) in He; auto.
      destruct He as (pre & w & post & -> & -> & -> & c & -> & Hw).
      cbn [fst snd] in H. rewrite tag_wide in H.
      pose proof (constant_nonempty _ _ _ Hw) as Hne.
      assert (Hgo : forall j es'', pool_loop E fuel major count j (pre ++ w ++ post) (blen pre + blen w) = Ok (es'', ix') ->
        (forall cs, fills wraps count j cs -> fills wraps count i (c :: cs)) ->
        expand c ++ es'' = es -> 
        span (pre ++ w ++ post) (blen pre) ix' (table_lang major count i es)).
      { intros j es'' Hp Hf Hes. apply IH in Hp; auto; [|rewrite !blen_app; lia|lia].
        destruct Hp as (pre' & w' & post' & Heq & Hl & -> & cs & -> & Hm & Hfl).
        rewrite app_assoc in Heq. apply app_eq_blen in Heq; [|rewrite blen_app; lia].
        destruct Heq as [<- ->]. exists pre, (w ++ w'), post'. rewrite <- app_assoc, blen_app.
        repeat split; auto; try lia. exists (c :: cs). split; [cbn [flat_map]; auto|]. split; auto.
        apply cat_intro; auto. }
      destruct (is_wide c) eqn:Hwide.
      * destruct H as (-> & j & Hj & H). apply (Hgo j es'); auto.
        -- intros cs Hcs. cbn [fills]. unfold width. rewrite Hwide. split; auto.
           destruct (N.ltb_spec (i + 2) 65536).
           ++ rewrite u16_small in Hj by auto. injection Hj as <-. auto.
           ++ assert (i + 2 = 65536) as Htop by lia. rewrite Htop in Hj |- *.
              apply u16_top_inv in Hj. destruct Hj as [-> Hw']. split; auto.
        -- unfold expand. rewrite Hwide. reflexivity.
      * destruct H as (-> & H). apply (Hgo (i + 1) es'); auto.
        -- intros cs Hcs. cbn [fills]. unfold width. rewrite Hwide. split; auto.
           replace (i + 1 <? 65536) with true by lia. auto.
        -- unfold expand. rewrite Hwide. reflexivity.
    + intros (pre & w & post & -> & -> & -> & cs & -> & Hm & Hf).
      destruct cs as [|c cs]; [cbn [fills] in Hf; lia|].
      destruct Hm as (u & v & -> & Hu & Hv). cbn [fills] in Hf. destruct Hf as [_ Hf].
      pose proof (constant_nonempty _ _ _ Hu) as Hne.
      exists (tag_of c, raw_of dec c), (blen pre + blen u), (flat_map expand cs).
      split.
      { apply (reads_entry E major); auto. exists pre, u, (v ++ post). rewrite <- app_assoc.
        repeat split; auto. exists c; auto. }
      cbn [fst snd]. rewrite tag_wide.
      assert (Hgo : forall j, fills wraps count j cs ->
        pool_loop E fuel major count j (pre ++ (u ++ v) ++ post) (blen pre + blen u) = Ok (flat_map expand cs, blen pre + blen (u ++ v))).
      { intros j Hj. apply IH; auto.
        - rewrite !blen_app. lia.
        - lia.
        - exists (pre ++ u), v, post. rewrite <- !app_assoc, !blen_app. repeat split; auto; try lia.
          exists cs; auto. }
      cbn [flat_map]. assert (Hex : expand c = if is_wide c then [raw_of dec c; EUnused] else [raw_of dec c]) by reflexivity.
      rewrite Hex. unfold width in Hf. destruct (is_wide c).
      * split; [reflexivity|]. destruct (N.ltb_spec (i + 2) 65536).
        -- exists (i + 2). split; [apply u16_small; auto|]. apply Hgo; auto.
        -- assert (i + 2 = 65536) as Htop by lia. rewrite Htop in Hf |- *. destruct Hf as [Hw Hf].
           exists 0. split; [apply u16_top; auto|]. apply Hgo; auto.
      * split; [reflexivity|]. replace (i + 1 <? 65536) with true in Hf by lia. apply Hgo; auto.
  - cbn [pool_loop]. replace (i <? count) with false by lia. split.
    + intros [= <- <-]. destruct (split_at bs ix Hix) as (pre & post & -> & <-).
      exists pre, [], post. rewrite blen_nil. repeat split; auto; try lia.
      exists []. repeat split; auto.
    + intros (pre & w & post & -> & -> & -> & cs & -> & Hm & Hf).
      destruct cs as [|c cs]; [|cbn [fills] in Hf; lia].
      cbn in Hm. red in Hm. subst w. rewrite blen_nil. unfold ret. cbn [flat_map]. do 2 f_equal. lia.
Qed.
End WithEnv.
