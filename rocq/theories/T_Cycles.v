(** * C04, C47: which constants pass validation, which make it overflow the stack, and which make it fail. *)
From Verif Require Import Base M_Names M_Descriptors M_ConstantPool M_Bytecode M_Attributes M_Class M_Cesu8 Data
  S_Lang S_Names S_Format S_Pool S_Items S_Env S_Safe S_Better P_Names P_Descriptors P_Reads P_Tac P_Pool P_Pool2 P_Pool3 P_Pool4
  P_Class3 P_Layout P_Safe P_Safe5 P_Safe6 P_Deep P_ParseLocks T_Safe T_Errors.
From Coq Require Import ZifyBool ZifyNat ZifyN.

(** ** Specification *)
(** The NameAndType at index [i] has, as descriptor, the text [s], or another NameAndType of which this holds. *)
Inductive leads (dec : list byte -> option str) (sl : list (option constant)) : N -> str -> Prop :=
| leads_text i n d s : at_index sl i (CNameAndType n d) -> utf8_at dec sl d s -> leads dec sl i s
| leads_on i n d s : at_index sl i (CNameAndType n d) -> leads dec sl d s -> leads dec sl i s.
(** The class a Methodref or InterfaceMethodref names is one. *)
Definition class_named (sl : list (option constant)) (c : constant) : Prop :=
  match c with
  | CMethodref cl _ | CInterfaceMethodref cl _ => is_class sl cl
  | _ => True
  end.
(** What is checked of a constant: its validity, except that the descriptor of a method may be reached through several NameAndTypes (those
    whose descriptor is not a text fail their own check). *)
Definition passes (dec : list byte -> option str) (sl : list (option constant)) (major : N) (c : constant) : Prop :=
  (exists nt, method_constant c nt /\ class_named sl c /\ exists s, leads dec sl nt s /\ method_descriptor s)
  \/ ((forall nt, ~ method_constant c nt) /\ valid_constant dec sl major c).
(** Checking it never ends. *)
Definition loops (cs : list constant) (c : constant) : Prop :=
  exists nt, method_constant c nt /\ class_named (slots_of cs) c /\ endless cs nt.
(** No constant refers to itself or beyond the table. *)
Definition indices_good (cs : list constant) : Prop :=
  forall i c, at_index (slots_of cs) i c -> Forall (fun t => t <> i /\ t < N.of_nat (length (slots_of cs))) (indices c).
(** The constants before index [i] pass. *)
Definition passed_before (dec : list byte -> option str) (cs : list constant) (major i : N) : Prop :=
  forall j c, j < i -> at_index (slots_of cs) j c -> passes dec (slots_of cs) major c.

(** ** Proofs *)
Section Entry.
Variable dec : list byte -> option str.
Variable cs : list constant.
Notation sl := (slots_of cs).
Notation P := (pool_of dec sl).
Hypothesis Hrefs : forall i c, at_index sl i c -> good_refs i (plen P) c.
Variable stk : nat.
Hypothesis Hdeep : (length sl < stk)%nat.

Lemma leads_not_endless i s : leads dec sl i s -> ~ endless cs i.
Proof.
  induction 1 as [i n d s Hi (raw & Hd & _)|i n d s Hi _ IH]; intro He.
  - destruct (He 2%nat) as (n' & d' & Hi' & n2 & d2 & Hd2 & _). unfold at_index in *. congruence.
  - apply IH. intro m. destruct (He (S m)) as (n' & d' & Hi' & Hm). unfold at_index in *. assert (d' = d) by congruence. subst. exact Hm.
Qed.
Lemma method_chain k : forall t e, entry_at dec cs t e ->
  (validate_method_descriptor k P e = Ok tt -> exists s, (utf8_at dec sl t s \/ leads dec sl t s) /\ method_descriptor s)
  /\ (forall s, utf8_at dec sl t s \/ leads dec sl t s -> method_descriptor s -> validate_method_descriptor k P e = Ok tt \/ validate_method_descriptor k P e = Panic PStackOverflow).
Proof.
  induction k as [|k IH]; intros t e He; cbn [validate_method_descriptor]; [split; [discriminate|auto]|].
  assert (Hnt : forall n d, at_index sl t (CNameAndType n d) -> e = ENameAndType (Resolved n) (Resolved d)).
  { intros n d Ht. apply (at_index_entry dec) in Ht. unfold entry_at in *. rewrite He in Ht. injection Ht as ->. reflexivity. }
  assert (Hstr : (forall x y, e <> ENameAndType x y) ->
    ((let* x := entry_str e in let* ok := is_method_descriptor x in if (ok : bool) then Ok tt else fail (lit "Invalid method descriptor")) = Ok tt
       -> exists s, (utf8_at dec sl t s \/ leads dec sl t s) /\ method_descriptor s)
    /\ (forall s, utf8_at dec sl t s \/ leads dec sl t s -> method_descriptor s ->
       (let* x := entry_str e in let* ok := is_method_descriptor x in if (ok : bool) then Ok tt else fail (lit "Invalid method descriptor")) = Ok tt)).
  { intro Hne. split.
    - intro H. apply obind_Ok in H. destruct H as (s & Hs & H). apply entry_str_Ok in Hs. subst e. apply entry_utf8 in He. exists s. split; auto.
      destruct (is_method_descriptor_spec s) as (b & Hb & Hq). rewrite Hb in H. cbn [obind] in H. destruct b; [apply Hq; auto|discriminate].
    - intros s [Hs|Hs] Hm.
      + apply entry_utf8 in Hs. unfold entry_at in *. rewrite He in Hs. injection Hs as ->. cbn [entry_str obind].
        destruct (is_method_descriptor_spec s) as (b & -> & Hq). cbn [obind]. apply Hq in Hm. subst b. reflexivity.
      + exfalso. destruct Hs as [i n d s' Hi _|i n d s' Hi _]; apply Hnt in Hi; eapply Hne; exact Hi. }
  destruct e;
    try (destruct (Hstr ltac:(intros ? ?; discriminate)) as [H1 H2]; split; [exact H1|intros s1 Hs1 Hm1; left; exact (H2 s1 Hs1 Hm1)]).
  clear Hstr Hnt. apply entry_at_cases in He. destruct He as [[_ He]|[[_ He]|(c' & Hc' & He)]]; try discriminate.
  destruct c' as [raw| | | | | | | | | |n d| | | | | |]; cbn [entry_of] in He; try discriminate; [destruct (dec raw); discriminate|]. injection He as -> ->.
  destruct (peel_good dec cs Hrefs t _ d Hc') as (e' & -> & He'); [right; left; reflexivity|]. cbn [obind].
  destruct (IH d e' He') as [IH1 IH2]. split.
  - intro H. apply IH1 in H. destruct H as (s & [Hs|Hs] & Hm); exists s; split; auto; right; [eapply leads_text|eapply leads_on]; eauto.
  - intros s [(raw & Hs & _)|Hs] Hm; [unfold at_index in *; congruence|]. apply (IH2 s); auto.
    destruct Hs as [i n' d' s' Hi Hd|i n' d' s' Hi Hd]; unfold at_index in *; assert (d' = d) by congruence; subst; auto.
Qed.
Lemma method_nt i c nt n d : at_index sl i c -> In nt (refs_of c) -> at_index sl nt (CNameAndType n d) ->
  let o := let* t := peel P (Resolved nt) in validate_method_descriptor stk P t in
  (o = Ok tt <-> exists s, leads dec sl nt s /\ method_descriptor s) /\ (forall x, o = Panic x <-> x = PStackOverflow /\ endless cs nt) /\ o <> Diverge.
Proof.
  intros Hi Hin Hnt. pose proof (at_index_entry dec cs _ _ Hnt) as He. pose proof He as Hp. apply peel_Ok in Hp. rewrite Hp. cbn [obind].
  pose proof (ends_method_descriptor dec cs Hrefs stk i c nt _ Hi Hin He) as Hend.
  destruct (method_chain stk nt _ He) as [H1 H2].
  assert (Hnu : forall s, ~ utf8_at dec sl nt s) by (intros s (raw & Hs & _); unfold at_index in *; congruence).
  pose proof (endless_overflows dec cs Hrefs stk i c nt _ Hi Hin He) as Hov.
  destruct (validate_method_descriptor stk P _) as [[]|y|y|] eqn:Hv; cbn in Hend; try contradiction.
  - split; [split; [|auto]|split; [|discriminate]].
    + intros _. destruct (H1 eq_refl) as (s & [Hs|Hs] & Hm); [destruct (Hnu s Hs)|eauto].
    + intro x. split; [discriminate|]. intros [-> He']. apply Hov in He'. discriminate.
  - split; [split; [discriminate|]|split; [|discriminate]].
    + intros (s & Hs & Hm). destruct (H2 s (or_intror Hs) Hm); discriminate.
    + intro x. split; [discriminate|]. intros [-> He']. apply Hov in He'. discriminate.
  - destruct Hend as [-> Hch]. assert (He' : endless cs nt) by (eapply chain_endless; eauto).
    split; [split; [discriminate|]|split; [|discriminate]].
    + intros (s & Hs & _). exfalso. eapply leads_not_endless; eauto.
    + intro x. split; [intros [= <-]; auto|intros [-> _]; auto].
Qed.
(** Other constants pass if and only if they are valid. *)
Lemma other_passes major c : (2 <= stk)%nat -> (forall nt, ~ method_constant c nt) ->
  validate_entry stk P major (entry_of dec c) = Ok tt <-> valid_constant dec sl major c.
Proof.
  intros Hstk Hno. clear Hdeep. destruct stk as [|[|k]]; [lia|lia|].
  assert (Hutf : forall d s, utf8_at dec sl d s -> is_utf8 sl d) by (intros d s (raw & ? & _); exists raw; auto).
  assert (Hfield : forall nt, (let* _ := ensure_ref_type P (Resolved nt) T_NAME_AND_TYPE in
     let* t := peel P (Resolved nt) in validate_field_descriptor P t) = Ok tt <-> described dec sl nt field_descriptor).
  { intro nt. rewrite obind_Ok. split.
    - intros ([] & H1 & H2). apply ens_nt in H1. destruct H1 as (n & d & H1).
      apply (check_field_nt _ _ _ _ _ H1) in H2. destruct H2 as (s & Hs & H2). exists n, d, s. auto.
    - intros (n & d & s & H1 & Hs & H2). exists tt. split; [apply ens_nt; eauto|]. apply (check_field_nt _ _ _ _ _ H1); eauto. }
  assert (Hafter : forall x (m : outcome unit) (Q : Prop), (Q -> is_utf8 sl x) -> (is_utf8 sl x -> (m = Ok tt <-> Q)) ->
     ((let* _ := ensure_ref_type P (Resolved x) T_UTF8 in m) = Ok tt <-> Q)).
  { intros x m Q HQu HQ. rewrite obind_Ok. split.
    - intros ([] & H1 & H2). apply ens_utf8 in H1. tauto.
    - intro HQ'. exists tt. rewrite ens_utf8. tauto. }
  assert (Hex : forall x (Q : str -> Prop), (exists s, utf8_at dec sl x s /\ Q s) -> is_utf8 sl x) by (intros x Q (s & Hs & _); eauto).
  destruct c; cbn [entry_of valid_constant]; try (cbn [validate_entry]; tauto); try (exfalso; eapply Hno; reflexivity).
  - destruct (dec raw); cbn [validate_entry]; tauto.
  - apply Hafter; [apply Hex|intros _; apply check_class].
  - apply ens_utf8.
  - cbn [validate_entry]. rewrite obind_Ok. split.
    + intros ([] & H1 & H2). apply ens_class in H1. split; auto. apply Hfield, H2.
    + intros [H1 H2]. exists tt. split; [apply ens_class; auto|apply Hfield, H2].
  - cbn [validate_entry]. rewrite obind_Ok. split.
    + intros ([] & _ & H). apply obind_Ok in H. destruct H as (e & He & H). apply obind_Ok in H. destruct H as ([] & Hv & H).
      apply ens_utf8 in H. split; auto. apply check_unqualified. apply obind_Ok. eauto.
    + intros [H1 H2]. exists tt. split; [apply ens_utf8; eapply Hex; eauto|].
      apply check_unqualified in H1. apply obind_Ok in H1. destruct H1 as (e & He & H1).
      apply obind_Ok. exists e. split; auto. apply obind_Ok. exists tt. split; auto. apply ens_utf8; auto.
  - apply ens_handle.
  - apply Hafter; [apply Hex|]. intro Hu. apply check_method_utf8; auto.
  - apply Hfield.
  - apply Hafter; [apply Hex|intros _; apply check_module].
  - apply Hafter; [apply Hex|intros _; apply check_binary].
Qed.
Lemma checks_first x (T : N) (R : Prop) (m : outcome unit) (A B : Prop) i c : at_index sl i c -> In x (refs_of c) ->
  (ensure_ref_type P (Resolved x) T = Ok tt <-> R) ->
  (R -> (m = Ok tt <-> A) /\ (forall y, m = Panic y <-> y = PStackOverflow /\ B) /\ m <> Diverge) -> (A -> R) -> (B -> R) ->
  let o := let* _ := ensure_ref_type P (Resolved x) T in m in
  (o = Ok tt <-> A) /\ (forall y, o = Panic y <-> y = PStackOverflow /\ B) /\ o <> Diverge.
Proof.
  intros Hi Hin HR Hm HA HB o. subst o. pose proof (ends_ensure dec cs Hrefs (fun _ => False) i c x T Hi Hin) as Hend.
  destruct (ensure_ref_type P (Resolved x) T) as [[]|e|e|]; cbn in Hend; try contradiction; cbn [obind].
  - apply Hm. apply HR. reflexivity.
  - assert (~ R) by (intro HR'; apply HR in HR'; discriminate). split; [split; [discriminate|tauto]|]. split; [|discriminate]. intro y. split; [discriminate|]. tauto.
Qed.
Lemma entry_outcomes major i c : (2 <= stk)%nat -> at_index sl i c ->
  let o := validate_entry stk P major (entry_of dec c) in
  (o = Ok tt <-> passes dec sl major c) /\ (forall x, o = Panic x <-> x = PStackOverflow /\ loops cs c) /\ o <> Diverge.
Proof.
  intros Hstk Hi o.
  assert (Hrest : (forall nt, ~ method_constant c nt) ->
    (o = Ok tt <-> passes dec sl major c) /\ (forall x, o = Panic x <-> x = PStackOverflow /\ loops cs c) /\ o <> Diverge).
  { intros Hno. pose proof (ends_validate_entry dec cs Hrefs stk major c i ltac:(lia) Hi) as Hend. fold o in Hend.
    pose proof (other_passes major c Hstk Hno) as Hloc. fold o in Hloc.
    split; [|split].
    - rewrite Hloc. unfold passes. split; [auto|]. intros [(nt & Hnt & _)|[_ H]]; [destruct (Hno nt Hnt)|exact H].
    - intro x. split; [|intros [_ (nt & Hnt & _)]; destruct (Hno nt Hnt)]. intro Hx. rewrite Hx in Hend. cbn in Hend.
      destruct Hend as (_ & nt & Hnt & _). destruct (Hno nt Hnt).
    - intro Hx. rewrite Hx in Hend. exact Hend. }
  assert (Hnt : forall nt (T : Prop), In nt (refs_of c) -> method_constant c nt -> (class_named sl c <-> True) ->
     let m := let* _ := ensure_ref_type P (Resolved nt) T_NAME_AND_TYPE in let* t := peel P (Resolved nt) in validate_method_descriptor stk P t in
     (m = Ok tt <-> exists s, leads dec sl nt s /\ method_descriptor s) /\ (forall y, m = Panic y <-> y = PStackOverflow /\ endless cs nt) /\ m <> Diverge).
  { intros nt _ Hin Hm _. eapply (checks_first nt T_NAME_AND_TYPE (exists n d, at_index sl nt (CNameAndType n d))); eauto.
    - apply ens_nt.
    - intros (n & d & Hat). exact (method_nt i c nt n d Hi Hin Hat).
    - intros (s & Hs & _). destruct Hs; eauto.
    - intro He. destruct (He 1%nat) as (n & d & Hat & _). eauto. }
  assert (Hcases : forall nt (A B : Prop), method_constant c nt -> (A <-> class_named sl c /\ exists s, leads dec sl nt s /\ method_descriptor s) -> (B <-> class_named sl c /\ endless cs nt) ->
     (o = Ok tt <-> A) /\ (forall y, o = Panic y <-> y = PStackOverflow /\ B) /\ o <> Diverge ->
     (o = Ok tt <-> passes dec sl major c) /\ (forall x, o = Panic x <-> x = PStackOverflow /\ loops cs c) /\ o <> Diverge).
  { intros nt A B Hm HA HB (H1 & H2 & H3).
    assert (Huniq : forall nt', method_constant c nt' -> nt' = nt) by (intros nt' Hm'; destruct c; cbn in Hm, Hm'; try contradiction; congruence).
    assert (HpA : passes dec sl major c <-> A).
    { rewrite HA. unfold passes. split; [intros [(nt' & Hm' & Hc & Hs)|[Hno _]]; [rewrite <- (Huniq _ Hm'); auto|destruct (Hno nt Hm)]|intros [Hc Hs]; left; eauto]. }
    assert (HlB : loops cs c <-> B).
    { rewrite HB. unfold loops. split; [intros (nt' & Hm' & Hc & Hs); rewrite <- (Huniq _ Hm'); auto|intros [Hc Hs]; eauto]. }
    rewrite HpA. split; [exact H1|]. split; [|exact H3]. intro x. rewrite HlB. apply H2. }
  destruct c as [raw|v|b|v|b|n|n|c0 n|c0 n|c0 n|n d|k m|d|b n|b n|n|n]; try (apply Hrest; intros nt Hm; exact Hm).
  - apply (Hcases n _ _ eq_refl (iff_refl _) (iff_refl _)). subst o. cbn [entry_of validate_entry class_named].
    apply (checks_first c0 T_CLASS_INFO (is_class sl c0) _ _ _ i _ Hi); [left; reflexivity|apply ens_class| |tauto|tauto].
    intro Hc. destruct (Hnt n True) as (H1 & H2 & H3); [right; left; reflexivity|reflexivity|cbn [class_named]; tauto|].
    split; [rewrite H1; tauto|]. split; [intro y; rewrite H2; tauto|exact H3].
  - apply (Hcases n _ _ eq_refl (iff_refl _) (iff_refl _)). subst o. cbn [entry_of validate_entry class_named].
    apply (checks_first c0 T_CLASS_INFO (is_class sl c0) _ _ _ i _ Hi); [left; reflexivity|apply ens_class| |tauto|tauto].
    intro Hc. destruct (Hnt n True) as (H1 & H2 & H3); [right; left; reflexivity|reflexivity|cbn [class_named]; tauto|].
    split; [rewrite H1; tauto|]. split; [intro y; rewrite H2; tauto|exact H3].
  - apply (Hcases n _ _ eq_refl (iff_refl _) (iff_refl _)). subst o. cbn [entry_of validate_entry class_named].
    destruct (Hnt n True) as (H1 & H2 & H3); [left; reflexivity|reflexivity|cbn [class_named]; tauto|].
    split; [rewrite H1; tauto|]. split; [intro y; rewrite H2; tauto|exact H3].
Qed.
End Entry.

Lemma pool_checked E opts bs minor major count cs ws rest : ample E bs ->
  starts_with_pool bs minor major count cs ws rest -> fills (wrapping E) count 1 cs -> indices_good cs ->
  let P := pool_of (cesu8 E) (slots_of cs) in
  (length (slots_of cs) < stack E)%nat /\ (forall i c, at_index (slots_of cs) i c -> good_refs i (plen P) c)
  /\ match validate_constant_pool E P major with Ok _ => True | Err e => parse_class_with_options E opts bs = Err e
     | Panic x => parse_class_with_options E opts bs = Panic x | Diverge => parse_class_with_options E opts bs = Diverge end.
Proof.
  intros [Hs Hdeep] Hst Hf Hgood P. destruct (to_pool_runs E bs minor major count cs ws rest Hs Hst Hf) as (ix & Hrun).
  assert (Hlen : plen P = N.of_nat (length (slots_of cs))) by (unfold P, plen, pool_of, slots_of; cbn [length]; rewrite map_length; reflexivity).
  assert (Hrefs : forall i c, at_index (slots_of cs) i c -> good_refs i (plen P) c).
  { intros i c Hi. unfold good_refs. rewrite Hlen. change (refs_of c) with (indices c). eapply Forall_impl; [|exact (Hgood i c Hi)]. cbn; intros t H; lia. }
  assert (Hres : resolve_constant_pool (EZero :: flat_map (expand E) cs) = Ok P).
  { apply (resolve_pool_Ok E (sane_stack _ _ Hs)). split; auto. }
  rewrite Hres in Hrun. pose proof (to_pool_fails E opts bs) as Hfail. rewrite Hrun in Hfail.
  pose proof (to_pool_ends E bs Hs) as He. rewrite Hrun in He. cbn [ends fst snd] in He. destruct He as (cs' & _ & _ & Hl).
  split; [|split; [exact Hrefs|exact Hfail]]. unfold plen in Hlen. lia.
Qed.
Lemma entry_cases dec cs k e : nth_error (pool_of dec (slots_of cs)) k = Some e ->
  (forall c, ~ at_index (slots_of cs) (N.of_nat k) c) /\ (forall stk P major, validate_entry stk P major e = Ok tt)
  \/ exists c, at_index (slots_of cs) (N.of_nat k) c /\ e = entry_of dec c.
Proof.
  intro Hk. assert (Hek : entry_at dec cs (N.of_nat k) e) by (unfold entry_at; rewrite Nat2N.id; exact Hk).
  destruct (nth_error (slots_of cs) k) as [[c|]|] eqn:Hs.
  - right. exists c. assert (Hat : at_index (slots_of cs) (N.of_nat k) c) by (unfold at_index; rewrite Nat2N.id; exact Hs). split; auto.
    apply (at_index_entry dec) in Hat. unfold entry_at in *. rewrite Hek in Hat. injection Hat as ->. reflexivity.
  - left. split; [intros c Hc; unfold at_index in Hc; rewrite Nat2N.id in Hc; congruence|].
    apply entry_at_cases in Hek. destruct Hek as [[_ ->]|[[_ ->]|(c & Hc & ->)]]; try reflexivity. unfold at_index in Hc. rewrite Nat2N.id in Hc. congruence.
  - left. split; [intros c Hc; unfold at_index in Hc; rewrite Nat2N.id in Hc; congruence|].
    apply entry_at_cases in Hek. destruct Hek as [[_ ->]|[[_ ->]|(c & Hc & ->)]]; try reflexivity. unfold at_index in Hc. rewrite Nat2N.id in Hc. congruence.
Qed.
Lemma validate_from_at stk P major : forall es i k e, nth_error es k = Some e ->
  (forall j e', (j < k)%nat -> nth_error es j = Some e' -> validate_entry stk P major e' = Ok tt) ->
  match validate_entry stk P major e with
  | Ok _ => True
  | Err y => validate_from stk P major i es = Err (with_context y (lit "constant pool entry " ++ show_N (i + N.of_nat k)))
  | Panic x => validate_from stk P major i es = Panic x
  | Diverge => validate_from stk P major i es = Diverge
  end.
Proof.
  induction es as [|e0 es IH]; intros i k e Hk Hj; [destruct k; discriminate|]. cbn [validate_from]. destruct k as [|k]; cbn [nth_error] in Hk.
  - injection Hk as ->. rewrite N.add_0_r. destruct (validate_entry stk P major e); cbn [ctx obind]; auto.
  - rewrite (Hj 0%nat e0) by (auto; lia). cbn [ctx obind]. replace (i + N.of_nat (S k)) with (i + 1 + N.of_nat k) by lia.
    apply IH; auto. intros j e' Hlt Hn. apply (Hj (S j)); [lia|exact Hn].
Qed.

(** If all references are good, the first constant that does not pass decides: if checking it never ends, the parse overflows the
    stack; otherwise it fails and the error ends with the index of this constant. *)
Theorem C47_first_constant E opts bs minor major count cs ws rest i c : ample E bs ->
  starts_with_pool bs minor major count cs ws rest -> fills (wrapping E) count 1 cs -> indices_good cs ->
  at_index (slots_of cs) i c -> passed_before (cesu8 E) cs major i -> ~ passes (cesu8 E) (slots_of cs) major c ->
  (loops cs c /\ parse_class_with_options E opts bs = Panic PStackOverflow)
  \/ (~ loops cs c /\ exists e text, parse_class_with_options E opts bs = Err e /\ display_err e = text ++ lit "constant pool entry " ++ show_N i).
Proof.
  intros Ham Hst Hf Hgood Hi Hbefore Hno. destruct (pool_checked E opts bs minor major count cs ws rest Ham Hst Hf Hgood) as (Hdeep & Hrefs & Hparse).
  pose proof (sane_stack _ _ (ample_sane _ _ Ham)) as Hstk.
  set (P := pool_of (cesu8 E) (slots_of cs)) in *. unfold validate_constant_pool in Hparse.
  pose proof (validate_from_at (stack E) P major P 0 (N.to_nat i) (entry_of (cesu8 E) c) (at_index_entry _ _ _ _ Hi)) as Hat.
  rewrite N2Nat.id, N.add_0_l in Hat.
  destruct (entry_outcomes (cesu8 E) cs Hrefs (stack E) Hdeep major i c Hstk Hi) as (Hok & Hpanic & Hdiv). fold P in Hok, Hpanic, Hdiv.
  assert (Hprev : forall j e', (j < N.to_nat i)%nat -> nth_error P j = Some e' -> validate_entry (stack E) P major e' = Ok tt).
  { intros j e' Hlt Hn. apply entry_cases in Hn. destruct Hn as [[_ Hn]|(c' & Hc' & ->)]; [apply Hn|].
    apply (entry_outcomes (cesu8 E) cs Hrefs (stack E) Hdeep major _ c' Hstk Hc'). apply (Hbefore (N.of_nat j)); auto. lia. }
  specialize (Hat Hprev). destruct (validate_entry (stack E) P major (entry_of (cesu8 E) c)) as [[]|y|x|].
  - exfalso. apply Hno, Hok. reflexivity.
  - right. split; [intro Hl; pose proof (proj2 (Hpanic PStackOverflow) (conj eq_refl Hl)); discriminate|].
    rewrite Hat in Hparse. destruct (display_last y (lit "constant pool entry " ++ show_N i)) as (text & Htext). eauto.
  - left. destruct (proj1 (Hpanic x) eq_refl) as [-> Hl]. split; auto. rewrite Hat in Hparse. exact Hparse.
  - contradiction.
Qed.
(** A constant whose check never ends does not pass. *)
Lemma loops_not_passes dec cs major c : loops cs c -> ~ passes dec (slots_of cs) major c.
Proof.
  intros (nt & Hm & _ & He) [(nt' & Hm' & _ & s & Hs & _)|[Hno _]]; [|exact (Hno nt Hm)].
  assert (nt' = nt) by (destruct c; cbn in Hm, Hm'; try contradiction; congruence). subst. exact (leads_not_endless dec cs nt s Hs He).
Qed.
(** If every constant passes, all are valid, and conversely. *)
Theorem C47_all_pass dec cs major : indices_good cs ->
  Forall (passes dec (slots_of cs) major) cs <-> Forall (valid_constant dec (slots_of cs) major) cs.
Proof.
  intros Hgood. rewrite !Forall_forall. split; intros H c Hin; specialize (H c Hin) as Hc.
  - destruct Hc as [(nt & Hm & Hcl & s & Hs & Hms)|[_ Hv]]; [|exact Hv].
    assert (Hd : described dec (slots_of cs) nt method_descriptor).
    { destruct Hs as [i n d s Hi Hd|i n d s Hi Hs].
      - exists n, d, s. auto.
      - exfalso. assert (In (CNameAndType n d) cs) by (apply in_slots; eauto). specialize (H _ H0) as [(nt' & Hm' & _)|[_ Hv]]; [exact Hm'|].
        destruct Hv as [_ (raw & Hraw)]. destruct Hs as [i' n' d' s' Hi' _|i' n' d' s' Hi' _]; unfold at_index in *; congruence. }
    destruct c; cbn in Hm; try contradiction; subst; cbn [valid_constant]; auto.
  - unfold passes. destruct c; try (right; split; [intros ? Hm; exact Hm|exact Hc]).
    all: left; eexists; split; [cbn [method_constant]; reflexivity|]; cbn [valid_constant class_named] in *.
    1,2: destruct Hc as [Hcl (n & d & s & Hn & Hd & Hms)]; split; auto.
    3: destruct Hc as (n & d & s & Hn & Hd & Hms); split; auto.
    all: exists s; split; auto; eapply leads_text; eauto.
Qed.

(** With a stack as deep as the input is long, the exact condition under which it overflows: the constants can be read and refer to existing
    other constants, and the first constant that does not pass is one whose check never ends. *)
Theorem C04_overflow_iff E opts bs : ample E bs ->
  parse_class_with_options E opts bs = Panic PStackOverflow <->
  exists minor major count cs ws rest i c, starts_with_pool bs minor major count cs ws rest /\ fills (wrapping E) count 1 cs
    /\ indices_good cs /\ at_index (slots_of cs) i c /\ passed_before (cesu8 E) cs major i /\ loops cs c.
Proof.
  intro Ham. split.
  - intro H. destruct (C04_only_cycles_partial E opts bs Ham H) as (cs & c & nt & (minor & major & count & ws & rest & Hst & Hf) & Hin & Hm & He).
    exists minor, major, count, cs, ws, rest. pose proof (ample_sane _ _ Ham) as Hs.
    assert (Hgood : indices_good cs).
    { destruct (to_pool_runs E bs minor major count cs ws rest Hs Hst Hf) as (ix & Hrun). pose proof (to_pool_fails E opts bs) as Hfail. rewrite Hrun in Hfail.
      destruct (resolve_constant_pool (EZero :: flat_map (expand E) cs)) as [P|e|x|] eqn:Hres; [|congruence|..].
      - apply (resolve_pool_Ok E (sane_stack _ _ Hs)) in Hres. destruct Hres as [-> Hres]. intros i c' Hi. specialize (Hres i c' Hi). unfold good_refs in Hres.
        replace (plen (pool_of (cesu8 E) (slots_of cs))) with (N.of_nat (length (slots_of cs))) in Hres by (unfold plen, pool_of, slots_of; cbn [length]; rewrite map_length; reflexivity).
        change (refs_of c') with (indices c') in Hres. exact Hres.
      - pose proof (ends_resolve (fun _ => False) (plen (EZero :: flat_map (expand E) cs)) (EZero :: flat_map (expand E) cs) 0) as Hr.
        unfold resolve_constant_pool in Hres. rewrite Hres in Hr. contradiction.
      - pose proof (ends_resolve (fun _ => False) (plen (EZero :: flat_map (expand E) cs)) (EZero :: flat_map (expand E) cs) 0) as Hr.
        unfold resolve_constant_pool in Hres. rewrite Hres in Hr. contradiction. }
    destruct (pool_checked E opts bs minor major count cs ws rest Ham Hst Hf Hgood) as (Hdeep & Hrefs & Hparse).
    set (P := pool_of (cesu8 E) (slots_of cs)) in *. unfold validate_constant_pool in Hparse. pose proof (sane_stack _ _ Hs) as Hstk.
    (* the first constant that does not pass *)
    assert (Hfirst : forall n, (exists i c, N.to_nat i = n /\ at_index (slots_of cs) i c /\ passed_before (cesu8 E) cs major i /\ ~ passes (cesu8 E) (slots_of cs) major c)
       \/ passed_before (cesu8 E) cs major (N.of_nat n) \/ exists i c, (N.to_nat i < n)%nat /\ at_index (slots_of cs) i c /\ passed_before (cesu8 E) cs major i /\ ~ passes (cesu8 E) (slots_of cs) major c).
    { induction n as [|n IH]; [right; left; intros j c' Hlt; lia|].
      destruct IH as [(i & c' & Hn & Hi & Hb & Hp)|[Hb|(i & c' & Hn & Hrest)]]; [right; right; exists i, c'; split; [lia|auto]| |right; right; exists i, c'; split; [lia|auto]].
      destruct (nth_error (slots_of cs) n) as [[c'|]|] eqn:Hc'.
      - assert (Hat : at_index (slots_of cs) (N.of_nat n) c') by (unfold at_index; rewrite Nat2N.id; exact Hc').
        destruct (entry_outcomes (cesu8 E) cs Hrefs (stack E) Hdeep major _ c' Hstk Hat) as (Hok & _ & _).
        assert (Hdec : passes (cesu8 E) (slots_of cs) major c' \/ ~ passes (cesu8 E) (slots_of cs) major c').
        { rewrite <- Hok. destruct (validate_entry _ _ _ _) as [[]| | |]; [left; reflexivity|right; discriminate..]. }
        destruct Hdec as [Hp|Hp].
        + right; left. intros j c2 Hlt Hj. destruct (N.eq_dec j (N.of_nat n)) as [->|Hne]; [|apply (Hb j); auto; lia]. unfold at_index in *. assert (c2 = c') by congruence. subst. exact Hp.
        + right; right. exists (N.of_nat n), c'. split; [lia|auto].
      - right; left. intros j c2 Hlt Hj. destruct (N.eq_dec j (N.of_nat n)) as [->|Hne]; [|apply (Hb j); auto; lia]. unfold at_index in Hj. rewrite Nat2N.id in Hj. congruence.
      - right; left. intros j c2 Hlt Hj. destruct (N.eq_dec j (N.of_nat n)) as [->|Hne]; [|apply (Hb j); auto; lia]. unfold at_index in Hj. rewrite Nat2N.id in Hj. congruence. }
    destruct (proj1 (in_slots cs c) Hin) as (k & Hk).
    assert (Hnp : forall b, (exists i c, at_index (slots_of cs) i c /\ passed_before (cesu8 E) cs major i /\ ~ passes (cesu8 E) (slots_of cs) major c) \/ (b = true -> passed_before (cesu8 E) cs major (N.of_nat (S (N.to_nat k))))).
    { intros b. destruct (Hfirst (S (N.to_nat k))) as [(i & c' & _ & Hx)|[Hb|(i & c' & _ & Hx)]]; eauto. }
    destruct (Hnp true) as [(i & c' & Hi & Hb & Hp)|Hb].
    + exists i, c'. split; auto. split; auto. split; auto. split; auto. split; auto.
      destruct (C47_first_constant E opts bs minor major count cs ws rest i c' Ham Hst Hf Hgood Hi Hb Hp) as [[Hl _]|(_ & e & text & He' & _)]; [exact Hl|congruence].
    + exfalso. specialize (Hb eq_refl k c ltac:(lia) Hk). destruct Hb as [(nt' & Hm' & _ & s & Hs' & _)|[Hno _]]; [|exact (Hno nt Hm)].
      assert (nt' = nt) by (destruct c; cbn in Hm, Hm'; try contradiction; congruence). subst. exact (leads_not_endless _ cs nt s Hs' He).
  - intros (minor & major & count & cs & ws & rest & i & c & Hst & Hf & Hgood & Hi & Hb & Hl).
    destruct (C47_first_constant E opts bs minor major count cs ws rest i c Ham Hst Hf Hgood Hi Hb (loops_not_passes _ _ _ _ Hl)) as [[_ H]|[H _]]; [exact H|contradiction].
Qed.

(** Examples: the file with a cycle of T_Safe (the third constant, a Methodref, leads into it), and the misdirected class constant of T_Errors. *)
Lemma nt_cycle_slots i c : at_index (slots_of nt_cycle_constants) i c -> (i = 1 /\ c = CUtf8 [x41]) \/ (i = 2 /\ c = CClass 1) \/ (i = 3 /\ c = CMethodref 2 4)
  \/ (i = 4 /\ c = CNameAndType 1 5) \/ (i = 5 /\ c = CNameAndType 1 4).
Proof.
  intro Hi. unfold at_index, slots_of, nt_cycle_constants in Hi. cbn [flat_map is_wide app] in Hi.
  destruct (N.to_nat i) as [|[|[|[|[|[|k]]]]]] eqn:Hk; cbn [nth_error] in Hi; try discriminate; [..|destruct k; discriminate]; injection Hi as <-.
  - left. split; [lia|auto].
  - right; left. split; [lia|auto].
  - right; right; left. split; [lia|auto].
  - right; right; right; left. split; [lia|auto].
  - right; right; right; right. split; [lia|auto].
Qed.
Example C04_overflow_meets : ample debug64 nt_cycle /\ exists minor major count cs ws rest i c, starts_with_pool nt_cycle minor major count cs ws rest
  /\ fills (wrapping debug64) count 1 cs /\ indices_good cs /\ at_index (slots_of cs) i c /\ passed_before (cesu8 debug64) cs major i /\ loops cs c.
Proof.
  split; [apply ampleb_ample; vm_compute; reflexivity|].
  eexists 0, 52, 6, nt_cycle_constants, _, _, 3, (CMethodref 2 4). split; [exact nt_cycle_starts|]. split; [cbn; lia|]. split; [|split; [reflexivity|split]].
  - intros i c Hi. apply nt_cycle_slots in Hi. cbn [length slots_of nt_cycle_constants flat_map is_wide app].
    destruct Hi as [[-> ->]|[[-> ->]|[[-> ->]|[[-> ->]|[-> ->]]]]]; cbn [indices]; repeat constructor; lia.
  - intros j c Hlt Hi. apply nt_cycle_slots in Hi. destruct Hi as [[-> ->]|[[-> ->]|[[-> ->]|[[-> ->]|[-> ->]]]]]; try lia; right; (split; [intros ? Hm; exact Hm|]).
    + exact I.
    + exists (lit "A"). split; [exists [x41]; split; [reflexivity|vm_compute; reflexivity]|]. left. apply is_binary_name_iff. vm_compute. reflexivity.
  - exists 4. split; [reflexivity|]. split; [exists 1; reflexivity|].
    assert (H : forall n, nt_chain nt_cycle_constants n 4 /\ nt_chain nt_cycle_constants n 5).
    { induction n as [|n [IH1 IH2]]; [split; exact I|]. split; [exists 1, 5|exists 1, 4]; (split; [reflexivity|assumption]). }
    intro n. apply H.
Qed.
Example C47_first_meets : exists i c, at_index (slots_of nt_cycle_constants) i c /\ passed_before (cesu8 debug64) nt_cycle_constants 52 i
  /\ ~ passes (cesu8 debug64) (slots_of nt_cycle_constants) 52 c.
Proof.

  exists 3, (CMethodref 2 4). split; [reflexivity|]. split.
  - intros j c' Hlt Hi'. apply nt_cycle_slots in Hi'. destruct Hi' as [[-> ->]|[[-> ->]|[[-> ->]|[[-> ->]|[-> ->]]]]]; try lia; right; (split; [intros ? Hm; exact Hm|]).
    + exact I.
    + exists (lit "A"). split; [exists [x41]; split; [reflexivity|vm_compute; reflexivity]|]. left. apply is_binary_name_iff. vm_compute. reflexivity.
  - apply loops_not_passes. exists 4. split; [reflexivity|]. split; [exists 1; reflexivity|].
    assert (H : forall n, nt_chain nt_cycle_constants n 4 /\ nt_chain nt_cycle_constants n 5).
    { induction n as [|n [IH1 IH2]]; [split; exact I|]. split; [exists 1, 5|exists 1, 4]; (split; [reflexivity|assumption]). }
    intro n. apply H.
Qed.
(** Here checking does not overflow, but the third constant does not pass: a Class constant that refers to a Class constant. *)
Example C47_misdirected_meets : let cs := [CUtf8 [x41]; CClass 1; CClass 2] in
  at_index (slots_of cs) 3 (CClass 2) /\ ~ passes (cesu8 debug64) (slots_of cs) 52 (CClass 2) /\ ~ loops cs (CClass 2).
Proof.
  cbv zeta. split; [reflexivity|]. split.
  - intros [(nt & Hm & _)|[_ (s & (raw & Hat & _) & _)]]; [exact Hm|discriminate Hat].
  - intros (nt & Hm & _). exact Hm.
Qed.
