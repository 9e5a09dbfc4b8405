(** * The constant pool: reading it as a whole, and reading references into it. *)
From Verif Require Import Base M_Names M_Descriptors M_ConstantPool S_Lang S_Names S_Format
  P_Reads P_Tac P_Names P_Descriptors P_Pool P_Pool2 P_Pool3.
From Coq Require Import ZifyBool ZifyNat ZifyN.

Lemma in_slots cs c : In c cs <-> exists i, at_index (slots_of cs) i c.
Proof.
  unfold at_index, slots_of. split.
  - intro H. assert (Hin : In (Some c) (slots_tail cs)).
    { unfold slots_tail. apply in_flat_map. exists c. split; auto. destruct (is_wide c); simpl; auto. }
    apply In_nth_error in Hin. destruct Hin as (k & Hk). exists (N.of_nat (S k)).
    rewrite Nat2N.id. exact Hk.
  - intros (i & Hi). destruct (N.to_nat i) as [|k]; [discriminate|]. cbn [nth_error] in Hi.
    apply nth_error_In in Hi. apply in_flat_map in Hi. destruct Hi as (c' & Hc & Hi).
    destruct (is_wide c'); simpl in Hi; intuition congruence.
Qed.

Lemma validate_from_Ok stk p major es i :
  validate_from stk p major i es = Ok tt <-> Forall (fun e => validate_entry stk p major e = Ok tt) es.
Proof.
  revert i; induction es as [|e es IH]; intro i; cbn [validate_from].
  - split; auto.
  - rewrite obind_Ok. split.
    + intros ([] & He & H). apply ctx_Ok in He. constructor; auto. eapply IH; eauto.
    + intro H. inversion_clear H. exists tt. split; [apply ctx_Ok; auto|]. apply IH; auto.
Qed.

Section WithEnv.
Variable E : env.
Let dec := cesu8 E.
Let wraps := negb (overflow_checks E).
Hypothesis Hstk : (2 <= stack E)%nat.

Lemma validate_pool_Ok cs major :
  validate_constant_pool E (pool_of dec (slots_of cs)) major = Ok tt <->
  Forall (valid_constant dec (slots_of cs) major) cs.
Proof.
  unfold validate_constant_pool. rewrite validate_from_Ok.
  assert (Hall : Forall (fun e => validate_entry (stack E) (pool_of dec (slots_of cs)) major e = Ok tt) (pool_of dec (slots_of cs)) <->
     forall c, In c cs -> validate_entry (stack E) (pool_of dec (slots_of cs)) major (entry_of dec c) = Ok tt).
  { rewrite Forall_forall. split.
    - intros H c Hc. apply H. apply in_slots in Hc. destruct Hc as (i & Hi).
      apply (at_index_entry dec) in Hi. apply nth_error_In in Hi. exact Hi.
    - intros H e He. apply In_nth_error in He. destruct He as (k & Hk).
      assert (Hat : entry_at dec cs (N.of_nat k) e) by (unfold entry_at; rewrite Nat2N.id; exact Hk).
      apply entry_at_cases in Hat. destruct Hat as [[_ ->]|[[_ ->]|(c & Hc & ->)]]; auto.
      apply H. apply in_slots. eauto. }
  rewrite Hall, Forall_forall. split.
  - intros H. assert (Hnt : nts_valid cs).
    { intros i n d Hi. assert (Hc : In (CNameAndType n d) cs) by (apply in_slots; eauto). apply H in Hc.
      cbn [entry_of validate_entry] in Hc. apply obind_Ok in Hc. destruct Hc as ([] & _ & Hc).
      apply obind_Ok in Hc. destruct Hc as (e & _ & Hc). apply obind_Ok in Hc. destruct Hc as ([] & _ & Hc).
      apply ens_utf8 in Hc. exact Hc. }
    intros c Hc. apply (validate_entry_iff dec cs major (stack E)); auto.
  - intros H. assert (Hnt : nts_valid cs).
    { intros i n d Hi. assert (Hc : In (CNameAndType n d) cs) by (apply in_slots; eauto). apply H in Hc.
      apply Hc. }
    intros c Hc. apply (validate_entry_iff dec cs major (stack E)); auto.
Qed.

(** Valid constants refer to other constants of the pool. *)
Lemma at_index_bound cs i c : at_index (slots_of cs) i c -> i < plen (pool_of dec (slots_of cs)).
Proof.
  intro H. apply (at_index_entry dec) in H. unfold plen.
  assert (H1 : nth_error (pool_of dec (slots_of cs)) (N.to_nat i) <> None) by (unfold entry_at in H; congruence).
  apply nth_error_Some in H1. lia.
Qed.
Lemma valid_good_refs cs major i c : at_index (slots_of cs) i c ->
  valid_constant dec (slots_of cs) major c -> good_refs i (plen (pool_of dec (slots_of cs))) c.
Proof.
  intros Hi Hv.
  assert (Hgo : forall t c', at_index (slots_of cs) t c' -> c' <> c -> t <> i /\ t < plen (pool_of dec (slots_of cs))).
  { intros t c' Ht Hne. split; [|eapply at_index_bound; eauto]. intros ->. unfold at_index in *. congruence. }
  unfold good_refs.
  destruct c; cbn [refs_of valid_constant] in *; unfold is_class, is_utf8, described, utf8_at in *;
  repeat match goal with
  | H : exists _, _ |- _ => destruct H
  | H : _ /\ _ |- _ => destruct H
  end; repeat constructor; try (eapply Hgo; [eassumption|]; congruence).
  all: try (eapply Hgo; [eassumption|]; intros ->; destruct kind; assumption).
Qed.

Lemma plen_raw cs : plen (EZero :: flat_map (expand E) cs) = plen (pool_of dec (slots_of cs)).
Proof.
  rewrite (expand_slots dec) by reflexivity. rewrite pool_of_slots. unfold plen. cbn [length].
  rewrite !map_length. reflexivity.
Qed.

Lemma resolve_pool_Ok cs P :
  resolve_constant_pool (EZero :: flat_map (expand E) cs) = Ok P <->
  P = pool_of dec (slots_of cs) /\
  forall i c, at_index (slots_of cs) i c -> good_refs i (plen (pool_of dec (slots_of cs))) c.
Proof.
  unfold resolve_constant_pool. rewrite plen_raw. cbn [resolve_from resolve_entry obind].
  rewrite (expand_slots dec) by reflexivity. rewrite obind_Ok, pool_of_slots.
  set (len := plen _). split.
  - intros (P' & H & [= <-]). apply resolve_from_Ok in H. destruct H as [-> H]. split; auto.
    intros i c Hi. unfold at_index, slots_of in Hi. destruct (N.to_nat i) as [|k] eqn:Hk; [discriminate|].
    cbn [nth_error] in Hi. apply H in Hi. replace (0 + 1 + N.of_nat k) with i in Hi by lia. exact Hi.
  - intros [-> H]. exists (map (slot_entry dec) (slots_tail cs)). split; auto. apply resolve_from_Ok. split; auto.
    intros k c Hk. specialize (H (N.of_nat (S k)) c). replace (0 + 1 + N.of_nat k) with (N.of_nat (S k)) by lia.
    apply H. unfold at_index, slots_of. rewrite Nat2N.id. exact Hk.
Qed.

Theorem reads_constant_pool major : reads E (read_constant_pool E major)
  (fun P w => exists cs, P = pool_of dec (slots_of cs) /\ pool_lang dec wraps major cs w).
Proof.
  intros ix bs P ix' Hfit Hix. unfold read_constant_pool. split.
  - intro H. apply bind_Ok in H. destruct H as (count & ix1 & H1 & H).
    apply (reads_u2 E) in H1; auto. apply bind_Ok in H. destruct H as (bs' & ix2 & H2 & H).
    unfold get_bytes in H2. injection H2 as <- <-.
    apply bind_Ok in H. destruct H as (es & ix2 & H2 & H).
    apply bind_Ok in H. destruct H as (P1 & ix3 & H3 & H). apply lift_Ok in H3. destruct H3 as [H3 ->].
    apply bind_Ok in H. destruct H as ([] & ix4 & H4 & H). apply lift_Ok in H4. destruct H4 as [H4 ->].
    unfold ret in H. injection H as <- <-.
    assert (Hb : count < 65536).
    { destruct H1 as (pre & w & post & _ & _ & _ & Hw). apply uint_bound in Hw. exact Hw. }
    pose proof (span_le _ _ _ _ H1) as Hle.
    apply pool_loop_spec in H2; auto; try lia; [|unfold blen; lia].
    destruct H1 as (pre & w & post & -> & -> & -> & Hw).
    destruct H2 as (pre' & w' & post' & Heq & Hl & -> & cs & -> & Hm & Hf).
    rewrite app_assoc in Heq. apply app_eq_blen in Heq; [|rewrite blen_app; lia].
    destruct Heq as [<- ->]. exists pre, (w ++ w'), post'. rewrite <- app_assoc, blen_app.
    repeat split; auto; try lia. apply resolve_pool_Ok in H3. destruct H3 as [-> _].
    apply validate_pool_Ok in H4. exists cs. split; auto. exists count. split; [apply cat_intro; auto|]. split; auto.
  - intros (pre & w & post & -> & -> & -> & cs & -> & count & (u & v & -> & Hu & Hv) & Hf & Hval).
    assert (Hb : count < 65536) by (apply uint_bound in Hu; exact Hu).
    apply bind_Ok. exists count, (blen pre + blen u). split.
    { apply (reads_u2 E); auto. exists pre, u, (v ++ post). rewrite <- app_assoc. auto. }
    apply bind_Ok. eexists _, _. split; [reflexivity|].
    apply bind_Ok. exists (flat_map (expand E) cs), (blen pre + blen (u ++ v)). split.
    { apply pool_loop_spec; auto.
      - rewrite !blen_app. lia.
      - unfold blen. lia.
      - exists (pre ++ u), v, post. rewrite <- !app_assoc, !blen_app. repeat split; auto; try lia.
        exists cs; auto. }
    apply bind_Ok. exists (pool_of dec (slots_of cs)), (blen pre + blen (u ++ v)). split.
    { apply lift_Ok. split; auto. apply resolve_pool_Ok. split; auto. intros i c Hi.
      eapply valid_good_refs; eauto. rewrite Forall_forall in Hval. apply Hval. apply in_slots; eauto. }
    apply bind_Ok. exists tt, (blen pre + blen (u ++ v)). split; [|reflexivity].
    apply lift_Ok. split; auto. apply validate_pool_Ok. auto.
Qed.
End WithEnv.
