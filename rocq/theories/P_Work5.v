(** * Running time: reading the constant pool and references into it *)
From Verif Require Import Base M_Names M_Descriptors M_ConstantPool M_Cesu8 S_Lang P_Reads P_Heap3 P_Descriptors
  W_Base W_Descriptors W_ConstantPool P_Work P_Work2 P_Work3 P_Work4.
From Coq Require Import ZifyBool ZifyNat ZifyN.
Local Open Scope Z_scope.

Lemma sp_tick0 E B k : spends E B (Z.of_N k) (fun _ => 0) (fun _ => True) (tick k).
Proof. eapply (sp_weaken E B (Z.of_N k)); [apply sp_tick; lia|lia|]. intros ? _. split; [exact I|lia]. Qed.
Lemma sp_lift0 {A} E B (HB : 0 <= B) k (m : outcome A) : spends E B (Z.of_N k) (fun _ => 0) (fun a => m = Ok a) (costs k (lift m)).
Proof. eapply (sp_weaken E B (Z.of_N k)); [apply sp_lift with (Q := fun a => m = Ok a); [assumption|lia|auto]|lia|]. intros a Ha. split; [exact Ha|lia]. Qed.
Lemma sp_guard0 E B (HB : 0 <= B) k b m : spends E B (Z.of_N k) (fun _ => 0) (fun _ => b = true) (wguard k b m).
Proof. eapply (sp_weaken E B (Z.of_N k)); [apply sp_guard; [assumption|lia]|lia|]. intros a Ha. split; [exact Ha|lia]. Qed.

Section Pool.
Variable E : env.
Hypothesis HE : cesu8 E = from_java_cesu8.
Notation B := 1048576.
Lemma HB16 : 0 <= B. Proof. lia. Qed.
Local Notation sp := (spends E B).

Lemma slice_len bs i j w : slice bs i j = Ok w -> (i <= j)%N /\ (j <= blen bs)%N /\ blen w = (j - i)%N.
Proof.
  unfold slice. destruct ((i <=? j) && (j <=? blen bs))%N eqn:H; [|discriminate]. apply andb_prop in H. destruct H as [H1 H2]. intros [= <-].
  unfold blen in *. rewrite firstn_length, skipn_length. lia.
Qed.
(** A slice that is taken and skipped *)
Lemma spa_take {C} B' (HB : 0 <= B') bs ix e k k' c (G : C -> Z) R f : Z.of_N k + Z.of_N k' <= c -> (ix <= blen bs)%N -> (blen bs <= usize_max E)%N ->
  (forall w, (ix <= e)%N -> (e <= blen bs)%N -> blen w = (e - ix)%N -> spends E B' (c - Z.of_N k - Z.of_N k' + B' * Z.of_N (blen w)) G R (f w)) ->
  spends_at E B' bs ix c G R (data <~ costs k (lift (slice bs ix e)) ;; _ <~ costs k' (set_ix e) ;; f data).
Proof.
  intros Hc Hix Hfit H. unfold spends_at, wbind at 1, costs at 1, lift. pose proof (slice_len bs ix e) as Hs.
  destruct (slice bs ix e) as [w| |q|] eqn:Hw; try (cbn [over]; nia).
  - destruct (Hs w eq_refl) as (H1 & H2 & H3). specialize (H w H1 H2 H3 bs e H2 Hfit). unfold spends_at in H. unfold wbind, costs, set_ix.
    assert (Hb : B' * Z.of_N (blen w) = B' * (Z.of_N e - Z.of_N ix)) by (f_equal; lia). rewrite Hb in H.
    destruct (f w bs e) as [[[a ix'']| |q|] n]; try nia.
    destruct H as (Ha & H4 & H5 & H6). split; [exact Ha|]. split; [lia|]. split; [lia|]. nia.
  - pose proof (over_pos E (Panic q : outcome C)). change (over E (Panic q)) with (over E (Panic q : outcome C)). nia.
Qed.
Lemma spa_of {A} B' bs ix c (F : A -> Z) Q p : (ix <= blen bs)%N -> (blen bs <= usize_max E)%N -> spends E B' c F Q p -> spends_at E B' bs ix c F Q p.
Proof. intros Hix Hfit H. apply H; assumption. Qed.

Lemma sp_constant_utf8 : sp 8 (fun _ => B * 2) modest_entry (w_constant_utf8 E).
Proof.
  unfold w_constant_utf8. eapply sp_use; [apply sp_u2; exact HB16|lia|]. intros len Hlen. cbv beta in *.
  apply sp_here. intros bs ix Hix Hfit. destruct (blen bs <? ix + len)%N eqn:Hb; [apply spa_of; [exact Hix|exact Hfit|]; apply sp_fail; [exact HB16|lia]|].
  apply spa_take; [lia|cbn; lia|exact Hix|exact Hfit|]. intros w H1 H2 H3.
  eapply sp_use; [apply sp_tick0|lia|]. intros u _. rewrite HE. destruct (from_java_cesu8 w) as [s|] eqn:Hs.
  - apply sp_ret; [|lia]. cbn [modest_entry]. apply decoded_len in Hs. unfold short. lia.
  - apply sp_ret; [|lia]. cbn [modest_entry]. lia.
Qed.
Lemma sp_eats {A} k c (Q : A -> Prop) (m : parser A) : eats k Q m -> sp (Z.of_N c) (fun _ => B * Z.of_N k) Q (costs c m).
Proof.
  intros H bs ix Hix Hfit. specialize (H bs ix). unfold spends_at, costs. pose proof (over_pos E (m bs ix)). destruct (m bs ix) as [[a ix']| |q|]; try lia.
  destruct (H _ _ Hix eq_refl) as (H1 & H2 & H3). split; [exact H1|]. lia.
Qed.
Lemma sp_entry major tag : sp 8 (fun _ => B * Z.of_N (wide_of tag)) modest_entry (w_entry E major tag).
Proof.
  unfold w_entry. destruct (tag =? 1)%N eqn:Ht.
  - apply N.eqb_eq in Ht. subst tag. exact sp_constant_utf8.
  - eapply sp_weaken; [apply sp_eats, eats_entry; exact Ht|lia|]. intros a Ha. split; [exact Ha|lia].
Qed.
Lemma sp_pool_loop major count fuel : forall cp_ix,
  sp 65536 (fun es => 65536 + 1310720 * Z.of_nat (length es)) (Forall modest_entry) (w_pool_loop E fuel major count cp_ix).
Proof.
  induction fuel as [|fuel IH]; intro cp_ix; cbn [w_pool_loop].
  - apply sp_if; intros _; [apply sp_diverge; [exact HB16|lia]|]. apply sp_ret; [constructor|cbn; lia].
  - apply sp_if; intros _; [|apply sp_ret; [constructor|cbn; lia]].
    eapply sp_use; [apply sp_u1; exact HB16|lia|]. intros tag _.
    eapply sp_use; [apply sp_entry|lia|]. intros e He.
    eapply sp_use; [apply sp_lift0; exact HB16|lia|]. intros cp1 _. unfold wide_of.
    apply sp_if; intros ->.
    + eapply sp_use; [apply sp_lift0; exact HB16|lia|]. intros cp2 _.
      eapply sp_use; [apply IH|lia|]. intros es Hes. apply sp_ret; [|cbn [length]; lia].
      constructor; [exact He|constructor; [exact I|exact Hes]].
    + eapply sp_use; [apply IH|lia|]. intros es Hes. apply sp_ret; [|cbn [length]; lia]. constructor; assumption.
Qed.
(** What remains for every constant after the pool is read: 131080 steps. *)
Lemma sp_constant_pool major : sp 1048576 (fun p => 131080 * Z.of_nat (length p)) modest (w_constant_pool E major).
Proof.
  unfold w_constant_pool. eapply sp_use; [apply sp_u2; exact HB16|lia|]. intros count Hc. apply sp_bytes. intro bs.
  eapply sp_use; [apply sp_pool_loop|lia|]. intros es Hes.
  eapply sp_use; [apply sp_wlift; [exact HB16|]; apply pays_resolve; constructor; [exact I|exact Hes]|cbn [length]; lia|]. intros p [Hl Hp].
  eapply sp_use; [apply sp_wlift; [exact HB16|]; apply pays_validate_from; [exact Hp|lia]|cbn [length] in *; lia|]. intros u _.
  apply sp_ret; [exact Hp|]. cbn [length] in *. lia.
Qed.
End Pool.
