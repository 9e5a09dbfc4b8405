(** * C43, C44: releasing the memory of a class. *)
From Verif Require Import Base M_Names M_Descriptors M_ConstantPool M_Class M_Cesu8 Data M_Drop S_Lang S_Names S_Format S_Pool S_Env S_Safe S_Drop
  P_Reads P_Tac P_Pool P_Pool2 P_Pool3 P_Pool4 P_Layout P_Class3 P_Drop T_Class T_Members T_Unknown T_Iter T_Safe.
From Coq Require Import ZifyBool ZifyNat ZifyN.

(** ** The vector that is dropped *)
Lemma pushed_ok E fuel major count : forall i bs ix es ix', pool_loop E fuel major count i bs ix = Ok (es, ix') ->
  pushed_loop E fuel major count i bs ix = es.
Proof.
  induction fuel as [|fuel IH]; intros i bs ix es ix' H; cbn [pool_loop pushed_loop] in *; destruct (i <? count).
  - discriminate.
  - injection H as <- _; reflexivity.
  - unfold bind, ret, lift in *. destruct (read_u1 bs ix) as [[tag ix1]| | |]; try discriminate.
    destruct (read_entry E major tag bs ix1) as [[e ix2]| | |]; try discriminate.
    destruct (u16_result E (i + 1)) as [j| | |]; try discriminate.
    destruct ((tag =? 5) || (tag =? 6)).
    + destruct (u16_result E (j + 1)) as [j'| | |]; try discriminate.
      destruct (pool_loop E fuel major count j' bs ix2) as [[es' ix3]| | |] eqn:Hl; try discriminate.
      injection H as <- <-. rewrite (IH _ _ _ _ _ Hl). reflexivity.
    + destruct (pool_loop E fuel major count j bs ix2) as [[es' ix3]| | |] eqn:Hl; try discriminate.
      injection H as <- <-. rewrite (IH _ _ _ _ _ Hl). reflexivity.
  - injection H as <- _; reflexivity.
Qed.
Lemma resolve_left_ok len : forall es i p, resolve_from len i es = Ok p -> resolve_left len i es = p.
Proof.
  induction es as [|e es IH]; intros i p H; cbn [resolve_from resolve_left] in *; [congruence|].
  destruct (resolve_entry e i len) as [e'| | |]; try discriminate. cbn [obind] in H.
  destruct (resolve_from len (i + 1) es) as [r| | |] eqn:Hr; try discriminate. cbn [obind] in H. injection H as <-.
  rewrite (IH _ _ Hr). reflexivity.
Qed.
Lemma resolve_left_length len : forall es i, length (resolve_left len i es) = length es.
Proof.
  induction es as [|e es IH]; intros i; cbn [resolve_left]; auto.
  destruct (resolve_entry e i len); cbn [length]; auto.
Qed.

Lemma parsed_pool E opts bs c : parse_class_with_options E opts bs = Ok c -> pool_left E bs = constant_pool c.
Proof.
  unfold parse_class_with_options, class_parser, pool_left. rewrite obind_Ok. intros ([c' ix'] & H & [= <-]).
  unfold bind at 1 in H. unfold bind at 1. destruct (read_u4 bs 0) as [[magic ix]| | |]; try discriminate.
  unfold bind at 1 in H. unfold bind at 1. unfold guard in *. destruct (magic =? 3405691582); [|discriminate].
  unfold ret at 1 in H. unfold ret at 1.
  unfold bind at 1 in H. unfold bind at 1. destruct (read_u2 bs ix) as [[minor ix1]| | |]; try discriminate.
  unfold bind at 1 in H. unfold bind at 1. destruct (read_u2 bs ix1) as [[major ix2]| | |]; try discriminate.
  unfold bind at 1 in H. unfold read_constant_pool at 1 in H. unfold bind at 1 in H. unfold bind at 1.
  destruct (read_u2 bs ix2) as [[count ix3]| | |]; try discriminate. unfold ret at 1.
  unfold bind at 1, get_bytes at 1 in H. unfold bind at 1 in H.
  destruct (pool_loop E (S (length bs)) major count 1 bs ix3) as [[es ix4]| | |] eqn:Hl; try discriminate.
  rewrite (pushed_ok _ _ _ _ _ _ _ _ _ Hl).
  unfold bind at 1, lift at 1 in H. destruct (resolve_constant_pool (EZero :: es)) as [p| | |] eqn:Hr; try discriminate.
  unfold resolve_constant_pool in Hr. rewrite (resolve_left_ok _ _ _ _ Hr).
  unfold bind at 1, lift at 1 in H. destruct (validate_constant_pool E p major) as [[]| | |]; try discriminate.
  unfold ret at 1 in H. clear - H.
  repeat (apply bind_Ok in H; destruct H as (? & ? & _ & H)). unfold ret in H. injection H as <- _. reflexivity.
Qed.

(** ** Its pointers *)
(** An entry none of whose cells is resolved. *)
Definition bare (e : entry) : Prop := forall r, In r (cells e) -> exists t, r = Unresolved t.
Lemma bare_pointers e : bare e -> pointers e = [].
Proof.
  unfold bare, pointers. induction (cells e) as [|r l IH]; intro H; auto. cbn [flat_map].
  destruct (H r (or_introl eq_refl)) as [t ->]. cbn [pointer app]. apply IH. intros; apply H; right; auto.
Qed.
Lemma raw_bare dec c : bare (raw_of dec c).
Proof.
  intros r H. destruct c; cbn [raw_of] in H; try (destruct (dec raw)); cbn [cells In] in H;
    repeat match type of H with _ \/ _ => destruct H as [<-|H]; [eauto|] | False => destruct H end.
Qed.
Lemma pushed_bare E fuel major count : forall i bs ix, fits E bs -> ix <= blen bs -> Forall bare (pushed_loop E fuel major count i bs ix).
Proof.
  induction fuel as [|fuel IH]; intros i bs ix Hfit Hix; cbn [pushed_loop]; destruct (i <? count); auto.
  fold (entry_reader E major). destruct (entry_reader E major bs ix) as [[[tag e] ix']| | |] eqn:He; auto.
  apply (reads_entry E major) in He; auto. pose proof (span_le _ _ _ _ He) as Hle. destruct He as (pre & w & post & Hbs & -> & -> & c & Hc & Hw).
  injection Hc as -> ->. constructor; [apply raw_bare|]. destruct (u16_result E (i + 1)) as [j| | |]; auto.
  assert (Hix' : blen pre + blen w <= blen bs) by (rewrite Hbs, !blen_app; lia).
  destruct (_ || _); [|apply IH; auto].
  destruct (u16_result E (j + 1)) as [j'| | |]; auto. constructor; [|apply IH; auto]. intros r [].
Qed.

Lemma resolve_ref_left_pointer t i len j : In j (pointer (resolve_ref_left (Unresolved t) i len)) -> j = t /\ j < len.
Proof.
  unfold resolve_ref_left. destruct (resolve_ref (Unresolved t) i len) as [r| | |] eqn:Hr; cbn [pointer]; try contradiction.
  apply resolve_ref_Ok in Hr. destruct Hr as (-> & _ & Hlt). cbn [pointer In]. intros [<-|[]]. auto.
Qed.
Lemma resolve_ref_pointer r i len r' j : resolve_ref r i len = Ok r' -> In j (pointer r') -> r = Resolved j \/ (r = Unresolved j /\ j < len).
Proof.
  destruct r as [t|t]; cbn [resolve_ref].
  - destruct (_ =? i); [discriminate|]. destruct (N.leb_spec len t); [discriminate|]. intros [= <-] [<-|[]]. auto.
  - intros [= <-] [<-|[]]. auto.
Qed.
Lemma resolve_entry_pointer e i len e' j : resolve_entry e i len = Ok e' -> In j (pointers e') ->
  In (Resolved j) (cells e) \/ (In (Unresolved j) (cells e) /\ j < len).
Proof.
  destruct e; cbn [resolve_entry]; intro H;
  try (injection H as <-; intros []);
  repeat (apply obind_Ok in H; let x := fresh "x" in let Hx := fresh "Hx" in destruct H as (x & Hx & H)); injection H as <-;
  unfold pointers; cbn [cells flat_map]; rewrite ?app_nil_r, ?in_app_iff; intro Hj;
  repeat match type of Hj with _ \/ _ => destruct Hj as [Hj|Hj] end;
  match goal with
  | Hx : resolve_ref _ _ _ = Ok ?x, Hj : In _ (pointer ?x) |- _ => destruct (resolve_ref_pointer _ _ _ _ _ Hx Hj) as [->|[-> ?]]
  end; cbn [In]; auto.
Qed.
Lemma resolve_entry_left_pointer e i len j : In j (pointers (resolve_entry_left e i len)) ->
  In (Resolved j) (cells e) \/ (In (Unresolved j) (cells e) /\ j < len).
Proof.
  assert (Hc : forall r, In j (pointer r) -> r = Resolved j) by (intros [] []; congruence || contradiction).
  assert (Hl : forall r, In j (pointer (resolve_ref_left r i len)) -> r = Resolved j \/ (r = Unresolved j /\ j < len)).
  { intros r H. unfold resolve_ref_left in H. destruct (resolve_ref r i len) eqn:Hr; auto. eapply resolve_ref_pointer; eauto. }
  destruct e; cbn [resolve_entry_left]; unfold pointers; cbn [cells flat_map]; rewrite ?app_nil_r, ?in_app_iff; intro Hj;
  repeat match type of Hj with _ \/ _ => destruct Hj as [Hj|Hj] | False => destruct Hj end;
  try contradiction; try (apply Hc in Hj; subst; cbn [In]; auto; fail).
  all: apply Hl in Hj; destruct Hj as [->|[-> ?]]; cbn [In]; auto.
Qed.
Lemma resolve_left_pointer len : forall es i k e' j, Forall bare es -> nth_error (resolve_left len i es) k = Some e' -> In j (pointers e') ->
  j < len /\ exists e, nth_error es k = Some e /\ In (Unresolved j) (cells e).
Proof.
  assert (Hbare : forall e j, bare e -> In (Resolved j) (cells e) \/ (In (Unresolved j) (cells e) /\ j < len) -> j < len /\ In (Unresolved j) (cells e)).
  { intros e j Hb [H|[H Hlt]]; auto. destruct (Hb _ H) as [t Ht]. discriminate. }
  induction es as [|e es IH]; intros i k e' j Hb Hk Hj; cbn [resolve_left] in Hk; [destruct k; discriminate|].
  inversion Hb as [|? ? Hb1 Hb2]; subst. destruct (resolve_entry e i len) as [e1| | |] eqn:He.
  1: destruct k as [|k]; cbn [nth_error] in Hk; [|destruct (IH _ _ _ _ Hb2 Hk Hj) as (H1 & e2 & H2 & H3); split; auto; exists e2; auto].
  1: injection Hk as <-; destruct (Hbare _ _ Hb1 (resolve_entry_pointer _ _ _ _ _ He Hj)) as [H1 H2]; split; auto; exists e; auto.
  all: destruct k as [|k]; cbn [nth_error] in Hk.
  all: try (injection Hk as <-; destruct (Hbare _ _ Hb1 (resolve_entry_left_pointer _ _ _ _ Hj)) as [H1 H2]; split; auto; exists e; auto; fail).
  all: rewrite Forall_forall in Hb2; apply nth_error_In, Hb2 in Hk; apply bare_pointers in Hk; rewrite Hk in Hj; destruct Hj.
Qed.

(** The parts of [pool_left]: there was an error before the last constant, or the pointers are indices in constants of the file. *)
Lemma reach_loop E bs magic ix minor ix1 major ix2 count ix3 :
  read_u4 bs 0 = Ok (magic, ix) -> read_u2 bs ix = Ok (minor, ix1) -> read_u2 bs ix1 = Ok (major, ix2) -> read_u2 bs ix2 = Ok (count, ix3) -> fits E bs ->
  magic =? 0xCAFEBABE = true -> ix3 <= blen bs /\ count < 65536 /\
  forall es ix4, pool_loop E (S (length bs)) major count 1 bs ix3 = Ok (es, ix4) -> exists cs, pool_in (wrapping E) bs cs /\ es = flat_map (expand E) cs.
Proof.
  intros H1 H2 H3 H4 Hfit Hm. apply N.eqb_eq in Hm. subst magic.
  apply (reads_u4 E) in H1; auto; [|lia]. pose proof (span_le _ _ _ _ H1) as L1.
  apply (reads_u2 E) in H2; auto; [|lia]. pose proof (span_le _ _ _ _ H2) as L2.
  apply (reads_u2 E) in H3; auto; [|lia]. pose proof (span_le _ _ _ _ H3) as L3.
  apply (reads_u2 E) in H4; auto; [|lia]. pose proof (span_le _ _ _ _ H4) as L4.
  split; [lia|].
  assert (Hb : count < 65536). { destruct H4 as (pre & w & post & _ & _ & _ & Hw). apply uint_bound in Hw. exact Hw. }
  split; auto. intros es ix4 H5.
  apply pool_loop_spec in H5; auto; try lia; [|unfold blen; lia].
  destruct H1 as (p1 & w1 & r1 & B1 & E1 & -> & W1). destruct H2 as (p2 & w2 & r2 & B2 & E2 & -> & W2).
  destruct H3 as (p3 & w3 & r3 & B3 & E3 & -> & W3). destruct H4 as (p4 & w4 & r4 & B4 & E4 & -> & W4).
  destruct H5 as (p5 & w5 & r5 & B5 & E5 & -> & cs & -> & Hm & Hf).
  destruct p1 as [|b p1]; [|unfold blen in E1; cbn in E1; lia]. cbn [app] in B1. change (blen [] + blen w1) with (blen w1) in *.
  rewrite B1 in B2. apply app_eq_blen in B2; [|lia]. destruct B2 as [<- ->].
  rewrite B1, app_assoc in B3. apply app_eq_blen in B3; [|rewrite blen_app; lia]. destruct B3 as [<- ->].
  assert (B4' : (w1 ++ w2 ++ w3) ++ r3 = p4 ++ w4 ++ r4) by (rewrite <- B4, B1, <- !app_assoc; reflexivity).
  apply app_eq_blen in B4'; [|rewrite !blen_app in *; lia]. destruct B4' as [<- ->].
  assert (B5' : (w1 ++ w2 ++ w3 ++ w4) ++ r4 = p5 ++ w5 ++ r5) by (rewrite <- B5, B1, <- !app_assoc; reflexivity).
  apply app_eq_blen in B5'; [|rewrite !blen_app in *; lia]. destruct B5' as [<- ->].
  exists cs. split; auto. apply many_concat in Hm. destruct Hm as (ws & Hws & ->).
  exists minor, major, count, ws, r5. split; auto. exists w1, (w2 ++ w3), w4. split; auto. split; [apply cat_intro; auto|]. split; auto. split; auto.
  rewrite B1, <- !app_assoc. reflexivity.
Qed.
Definition raw_pool (E : env) (cs : list constant) : pool := EZero :: flat_map (expand E) cs.
Lemma raw_pool_bare E cs : Forall bare (raw_pool E cs).
Proof.
  constructor; [intros r []|]. apply Forall_flat_map, Forall_forall. intros c _. unfold expand.
  destruct (is_wide c); repeat constructor; try apply raw_bare. intros r [].
Qed.
Lemma left_cases E bs : fits E bs ->
  Forall bare (pool_left E bs) \/ exists cs, pool_in (wrapping E) bs cs /\ pool_left E bs = resolve_left (plen (raw_pool E cs)) 0 (raw_pool E cs).
Proof.
  intro Hfit. remember (pool_left E bs) as q eqn:Hq. unfold pool_left in Hq.
  unfold bind at 1 in Hq. destruct (read_u4 bs 0) as [[magic ix]| | |] eqn:H1; try (left; rewrite Hq; constructor).
  unfold bind at 1 in Hq. unfold guard in Hq. destruct (magic =? 0xCAFEBABE) eqn:Hm; [|left; rewrite Hq; constructor].
  unfold ret at 1 in Hq.
  unfold bind at 1 in Hq. destruct (read_u2 bs ix) as [[minor ix1]| | |] eqn:H2; try (left; rewrite Hq; constructor).
  unfold bind at 1 in Hq. destruct (read_u2 bs ix1) as [[major ix2]| | |] eqn:H3; try (left; rewrite Hq; constructor).
  unfold bind at 1 in Hq. destruct (read_u2 bs ix2) as [[count ix3]| | |] eqn:H4; try (left; rewrite Hq; constructor). unfold ret at 1 in Hq.
  destruct (reach_loop E _ _ _ _ _ _ _ _ _ H1 H2 H3 H4 Hfit Hm) as (Hle & Hc & Hl).
  assert (Hz : bare EZero) by (intros r []).
  destruct (pool_loop E (S (length bs)) major count 1 bs ix3) as [[es ix4]| | |] eqn:H5;
    try (left; rewrite Hq; constructor; auto; apply pushed_bare; auto).
  right. destruct (Hl _ _ eq_refl) as (cs & Hcs & ->). exists cs. split; auto. rewrite Hq, (pushed_ok _ _ _ _ _ _ _ _ _ H5). reflexivity.
Qed.
Lemma left_of E bs cs : fits E bs -> pool_in (wrapping E) bs cs ->
  pool_left E bs = resolve_left (plen (raw_pool E cs)) 0 (raw_pool E cs).
Proof.
  intros Hfit (minor & major & count & ws & rest & (m & v & n & Hm & (v1 & v2 & -> & Hv1 & Hv2) & Hn & Hbs & Hws) & Hf).
  assert (Hr4 : forall pre x z post, u4 x z -> bs = pre ++ z ++ post -> read_u4 bs (blen pre) = Ok (x, blen pre + blen z)).
  { intros pre x z post Hx Hb. apply (reads_u4 E); auto; [rewrite Hb, !blen_app; lia|]. exists pre, z, post. auto. }
  assert (Hr2 : forall pre x z post, u2 x z -> bs = pre ++ z ++ post -> read_u2 bs (blen pre) = Ok (x, blen pre + blen z)).
  { intros pre x z post Hx Hb. apply (reads_u2 E); auto; [rewrite Hb, !blen_app; lia|]. exists pre, z, post. auto. }
  unfold pool_left. unfold bind at 1. pose proof (Hr4 [] _ _ _ Hm Hbs) as H1. change (blen []) with 0 in H1. rewrite H1.
  unfold bind at 1, guard at 1. rewrite N.eqb_refl. unfold ret at 1. unfold bind at 1.
  rewrite <- !app_assoc in Hbs. pose proof (Hr2 m _ _ _ Hv1 Hbs) as H2. change (0 + blen m) with (blen m). rewrite H2.
  unfold bind at 1. pose proof (Hr2 (m ++ v1) _ _ _ Hv2 ltac:(rewrite <- app_assoc; exact Hbs)) as H3. rewrite !blen_app in H3. rewrite H3.
  unfold bind at 1. pose proof (Hr2 (m ++ v1 ++ v2) _ _ _ Hn ltac:(rewrite <- !app_assoc; exact Hbs)) as H4.
  rewrite !blen_app, N.add_assoc in H4. rewrite H4. unfold ret at 1.
  rewrite <- !N.add_assoc, <- !blen_app.
  assert (Hb : count < 65536) by (apply uint_bound in Hn; exact Hn).
  assert (H5 : pool_loop E (S (length bs)) major count 1 bs (blen (m ++ v1 ++ v2 ++ n)) = Ok (flat_map (expand E) cs, blen (m ++ v1 ++ v2 ++ n) + blen (concat ws))).
  { apply pool_loop_spec; auto; try (rewrite Hbs, !blen_app; lia); [unfold blen; lia|].
    exists (m ++ v1 ++ v2 ++ n), (concat ws), rest. split; [rewrite Hbs, <- !app_assoc; reflexivity|]. split; auto. split; auto.
    exists cs. split; auto. split; auto. apply many_concat. eauto. }
  rewrite H5. rewrite (pushed_ok _ _ _ _ _ _ _ _ _ H5). reflexivity.
Qed.

(** Pointers are indices in constants. *)
Lemma raw_cell dec c j : In (Unresolved j) (cells (raw_of dec c)) <-> In j (indices c).
Proof.
  destruct c; cbn [raw_of indices]; try (destruct (dec raw)); cbn [cells In]; split; intro H;
    repeat match type of H with _ \/ _ => destruct H as [H|H] | False => destruct H end; try (injection H as ->); try subst; auto.
Qed.
Lemma raw_pool_at E cs k e j : nth_error (raw_pool E cs) k = Some e -> In (Unresolved j) (cells e) -> refers cs (N.of_nat k) j.
Proof.
  unfold raw_pool. destruct k as [|k]; cbn [nth_error]; [intros [= <-] []|].
  rewrite (expand_slots (cesu8 E)) by reflexivity. rewrite nth_error_map.
  destruct (nth_error (slots_tail cs) k) as [[c|]|] eqn:Hk; cbn [option_map raw_slot]; intros [= <-]; [|intros []].
  intro Hj. apply raw_cell in Hj. exists c. split; auto. unfold at_index, slots_of. rewrite Nat2N.id. exact Hk.
Qed.
Lemma left_points E bs k j : fits E bs -> points_to (pool_left E bs) k j ->
  j < plen (pool_left E bs) /\ exists cs, pool_in (wrapping E) bs cs /\ refers cs k j.
Proof.
  intros Hfit H. unfold points_to, pointers_at in H. destruct (nth_error (pool_left E bs) (N.to_nat k)) as [e|] eqn:He; [|destruct H].
  destruct (left_cases E bs Hfit) as [Hb|(cs & Hcs & Hp)].
  - rewrite Forall_forall in Hb. apply nth_error_In, Hb, bare_pointers in He. rewrite He in H. destruct H.
  - rewrite Hp in He. destruct (resolve_left_pointer _ _ _ _ _ _ (raw_pool_bare E cs) He H) as (Hlt & e' & He' & Hj). split.
    + rewrite Hp. unfold plen at 1. rewrite resolve_left_length. exact Hlt.
    + exists cs. split; auto. apply (raw_pool_at _ _ _ _ _ He') in Hj. rewrite N2Nat.id in Hj. exact Hj.
Qed.
Lemma left_inside E bs : fits E bs -> forall k j, points_to (pool_left E bs) k j -> j < plen (pool_left E bs).
Proof. intros Hfit k j H. exact (proj1 (left_points _ _ _ _ Hfit H)). Qed.

(** If no index is out of range or that of the constant itself, the pointers are exactly the indices in the constants. *)
Lemma resolvable_good dec cs : resolvable cs -> forall i c, at_index (slots_of cs) i c -> good_refs i (plen (pool_of dec (slots_of cs))) c.
Proof.
  intros H i c Hi. apply Forall_forall. intros t Ht. assert (Hr : refers cs i t).
  { exists c. split; [exact Hi|]. destruct c; exact Ht. }
  apply H in Hr. destruct Hr as [H1 H2]. split; auto. rewrite pool_of_slots. unfold plen. cbn [length]. rewrite map_length. exact H2.
Qed.
Lemma left_resolvable E bs cs : sane E bs -> pool_in (wrapping E) bs cs -> resolvable cs -> pool_left E bs = pool_of (cesu8 E) (slots_of cs).
Proof.
  intros Hs Hp Hr. rewrite (left_of _ _ _ (sane_fits _ _ Hs) Hp). apply resolve_left_ok. unfold raw_pool.
  apply (proj2 (resolve_pool_Ok E (sane_stack _ _ Hs) cs (pool_of (cesu8 E) (slots_of cs)))). split; [reflexivity|]. apply resolvable_good. exact Hr.
Qed.
Lemma entry_pointers dec c : pointers (entry_of dec c) = indices c.
Proof. destruct c; cbn [entry_of]; try (destruct (dec raw)); reflexivity. Qed.
Lemma pool_of_points dec cs k j : points_to (pool_of dec (slots_of cs)) k j <-> refers cs k j.
Proof.
  unfold points_to, pointers_at. split.
  - destruct (nth_error (pool_of dec (slots_of cs)) (N.to_nat k)) as [e|] eqn:He; [|intros []].
    apply (entry_at_cases dec cs) in He. destruct He as [[_ ->]|[[_ ->]|(c & Hc & ->)]]; [intros []|intros []|].
    rewrite entry_pointers. intro H. exists c. auto.
  - intros (c & Hc & Hj). apply (at_index_entry dec) in Hc. unfold entry_at in Hc. rewrite Hc, entry_pointers. exact Hj.
Qed.
Lemma pool_of_cyclic dec cs j : cyclic (pool_of dec (slots_of cs)) j <-> looped cs j.
Proof.
  assert (H : forall n j, pointed_at (pool_of dec (slots_of cs)) n j <-> referred cs n j).
  { induction n as [|n IH]; intro i; cbn [pointed_at referred]; [reflexivity|].
    split; intros (k & H1 & H2); exists k; (split; [apply (pool_of_points dec)|apply IH]; auto). }
  split; intros Hc n; apply H; apply Hc.
Qed.
Lemma slots_len dec cs : plen (pool_of dec (slots_of cs)) = N.of_nat (length (slots_of cs)).
Proof. rewrite pool_of_slots. unfold plen. cbn [length]. rewrite map_length. reflexivity. Qed.

(** ** C43 *)
(** What is released: when [parse_class] has accepted a class and it is dropped, [constant_pool c] is the vector that is dropped; when it
    returns an error, [pool_left E bs] has been dropped before. *)
Theorem C43_vector E opts bs c : parse_class_with_options E opts bs = Ok c -> pool_left E bs = constant_pool c.
Proof. exact (parsed_pool E opts bs c). Qed.

(** For every file and however far parsing came: exactly the entries that are not on a cycle of pointers, nor reached from one, are freed,
    none of them twice. *)
Theorem C43_freed_exactly E bs stk fs : sane E bs -> drop_pool stk (pool_left E bs) = Ok fs ->
  NoDup fs /\ forall i, In i fs <-> i < plen (pool_left E bs) /\ ~ cyclic (pool_left E bs) i.
Proof.
  intros Hs H. destruct (freed_exactly _ (left_inside _ _ (sane_fits _ _ Hs)) _ _ H) as (Hnd & H1 & H2). split; auto.
  intro i. split.
  - intro Hi. apply H1 in Hi. destruct Hi as (Hi & n & Hn). split; auto.
  - intros [Hi Hc]. destruct (in_dec N.eq_dec i fs) as [Hin|Hin]; auto. exfalso. auto.
Qed.
(** In terms of the file: if the constants can be read and all their indices resolved, exactly the constants that are reached by endless
    chains of references are never freed. *)
Theorem C43_leak E bs cs stk fs : sane E bs -> pool_in (wrapping E) bs cs -> resolvable cs -> drop_pool stk (pool_left E bs) = Ok fs ->
  NoDup fs /\ forall i, In i fs <-> i < N.of_nat (length (slots_of cs)) /\ ~ looped cs i.
Proof.
  intros Hs Hp Hr H. destruct (C43_freed_exactly _ _ _ _ Hs H) as [Hnd Hi]. split; auto.
  intro i. rewrite Hi, (left_resolvable _ _ _ Hs Hp Hr), pool_of_cyclic, slots_len. reflexivity.
Qed.
(** Without such chains all memory is released, given stack for the recursion, see C44. *)
Theorem C43_released E bs stk : sane E bs -> (forall cs, pool_in (wrapping E) bs cs -> forall i, ~ looped cs i) ->
  (length (pool_left E bs) <= stk)%nat -> exists fs, drop_pool stk (pool_left E bs) = Ok fs /\ all_freed (pool_left E bs) fs.
Proof.
  intros Hs Hc Hst. pose proof (left_inside _ _ (sane_fits _ _ Hs)) as Hin. destruct (drop_enough _ Hin _ Hst) as [fs Hfs]. exists fs. split; auto.
  apply (all_freed_if _ Hin stk); auto. intros i Hcyc.
  destruct (left_cases E bs (sane_fits _ _ Hs)) as [Hb|(cs & Hcs & Hp)].
  - destruct (Hcyc 1%nat) as (k & Hk & _). destruct (left_points _ _ _ _ (sane_fits _ _ Hs) Hk) as [_ _].
    unfold points_to, pointers_at in Hk. destruct (nth_error _ _) as [e|] eqn:He; [|destruct Hk].
    rewrite Forall_forall in Hb. apply nth_error_In, Hb, bare_pointers in He. rewrite He in Hk. destruct Hk.
  - apply (Hc cs Hcs i). intro n. specialize (Hcyc n). revert i Hcyc. induction n as [|n IH]; intros i Hi; [exact I|].
    destruct Hi as (k & Hk & Hn). exists k. split; auto.
    destruct (left_points _ _ _ _ (sane_fits _ _ Hs) Hk) as (_ & cs' & Hcs' & Hr).
    rewrite (T_Safe.pool_in_unique _ _ _ _ Hcs Hcs'). exact Hr.
Qed.

(** ** C44 *)
Definition kind_rank (c : constant) : nat :=
  match c with
  | CUtf8 _ | CInteger _ | CFloat _ | CLong _ | CDouble _ => 0
  | CClass _ | CString _ | CNameAndType _ _ | CMethodType _ | CModule _ | CPackage _ => 1
  | CFieldref _ _ | CMethodref _ _ | CInterfaceMethodref _ _ | CDynamic _ _ | CInvokeDynamic _ _ => 2
  | CMethodHandle _ _ => 3
  end.
Definition slot_rank (cs : list constant) (i : N) : nat :=
  match nth_error (slots_of cs) (N.to_nat i) with Some (Some c) => kind_rank c | _ => 0 end.
Lemma slot_rank_at cs i c : at_index (slots_of cs) i c -> slot_rank cs i = kind_rank c.
Proof. unfold at_index, slot_rank. intros ->. reflexivity. Qed.
Lemma valid_rank dec major cs : Forall (valid_constant dec (slots_of cs) major) cs -> forall k j, refers cs k j -> (slot_rank cs j < slot_rank cs k)%nat.
Proof.
  intros Hv k j (c & Hc & Hj). rewrite (slot_rank_at _ _ _ Hc). assert (Hvc : valid_constant dec (slots_of cs) major c).
  { rewrite Forall_forall in Hv. apply Hv, in_slots. eauto. }
  assert (Hu : forall i s, utf8_at dec (slots_of cs) i s -> slot_rank cs i = 0%nat) by (intros i s (raw & H & _); exact (slot_rank_at _ _ _ H)).
  assert (Hu' : forall i, is_utf8 (slots_of cs) i -> slot_rank cs i = 0%nat) by (intros i (raw & H); exact (slot_rank_at _ _ _ H)).
  assert (Hd : forall i P, described dec (slots_of cs) i P -> slot_rank cs i = 1%nat) by (intros i P (n & d & s & H & _); exact (slot_rank_at _ _ _ H)).
  assert (Hcl : forall i, is_class (slots_of cs) i -> slot_rank cs i = 1%nat) by (intros i (n & H); exact (slot_rank_at _ _ _ H)).
  destruct c; cbn [indices In kind_rank valid_constant] in *;
    repeat match type of Hj with _ \/ _ => destruct Hj as [Hj|Hj] | False => destruct Hj end; subst;
    repeat match goal with H : exists _, _ |- _ => destruct H | H : _ /\ _ |- _ => destruct H end;
    repeat match goal with
    | H : utf8_at _ _ ?i _ |- context [slot_rank cs ?i] => rewrite (Hu _ _ H)
    | H : is_utf8 _ ?i |- context [slot_rank cs ?i] => rewrite (Hu' _ H)
    | H : described _ _ ?i _ |- context [slot_rank cs ?i] => rewrite (Hd _ _ H)
    | H : is_class _ ?i |- context [slot_rank cs ?i] => rewrite (Hcl _ H)
    end; try lia.
  match goal with H : at_index _ j ?x, Hk : handle_target _ _ ?x |- _ => rewrite (slot_rank_at _ _ _ H); destruct x, kind; cbn in Hk |- *; try contradiction; lia end.
Qed.
Lemma valid_resolvable dec major cs : Forall (valid_constant dec (slots_of cs) major) cs -> resolvable cs.
Proof.
  intros Hv k j (c & Hc & Hj). assert (Hvc : valid_constant dec (slots_of cs) major c).
  { rewrite Forall_forall in Hv. apply Hv, in_slots. eauto. }
  destruct (valid_target _ _ _ _ _ Hvc Hj) as (t & Ht & Hne). unfold at_index in *. split.
  - intros ->. rewrite Hc in Ht. injection Ht as <-. auto.
  - assert (Hn : nth_error (slots_of cs) (N.to_nat j) <> None) by congruence. apply nth_error_Some in Hn. lia.
Qed.

(** A file whose constants are valid, even if it is rejected for something after them: dropping needs four levels of recursion, and
    everything is released. *)
Theorem C44_valid_constants E bs cs major stk : sane E bs -> pool_in (wrapping E) bs cs -> Forall (valid_constant (cesu8 E) (slots_of cs) major) cs ->
  (4 <= stk)%nat -> exists fs, drop_pool stk (pool_left E bs) = Ok fs /\ all_freed (pool_left E bs) fs.
Proof.
  intros Hs Hp Hv Hst. pose proof (left_resolvable _ _ _ Hs Hp (valid_resolvable _ _ _ Hv)) as Heq.
  assert (Hr : forall k j, points_to (pool_left E bs) k j -> (slot_rank cs j < slot_rank cs k)%nat).
  { intros k j H. rewrite Heq in H. apply pool_of_points in H. eapply valid_rank; eauto. }
  assert (Ht : forall i, (slot_rank cs i <= 3)%nat).
  { intro i. unfold slot_rank. destruct (nth_error _ _) as [[[]|]|]; cbn; lia. }
  destruct (drop_rank _ (slot_rank cs) stk Hr ltac:(intro i; specialize (Ht i); lia)) as [fs Hfs]. exists fs. split; auto.
  apply (all_freed_if _ (left_inside _ _ (sane_fits _ _ Hs)) stk); auto. apply (rank_acyclic _ (slot_rank cs) 3); auto.
Qed.
Theorem C44_accepted E opts bs c stk : sane E bs -> parse_class_with_options E opts bs = Ok c -> (4 <= stk)%nat ->
  exists fs, drop_pool stk (constant_pool c) = Ok fs /\ all_freed (constant_pool c) fs.
Proof.
  intros Hs H Hst. destruct (constants_exist _ _ _ _ Hs H) as [cs Hcs]. destruct (accepted_pool _ _ _ _ _ Hs H Hcs) as [_ Hv].
  rewrite <- (parsed_pool _ _ _ _ H). eapply C44_valid_constants; eauto.
Qed.

(** ** Two defects of the destructors of rejected files *)
(** The constants of a chain: [n] ClassInfo constants, each with the index before its own. *)
Definition chain (n : nat) : list constant := map (fun i => CClass (N.of_nat i)) (seq 0 n).
Lemma chain_slots n : slots_of (chain n) = None :: map (fun i => Some (CClass (N.of_nat i))) (seq 0 n).
Proof. unfold slots_of, chain. f_equal. generalize (seq 0 n). induction l as [|i l IH]; auto. cbn [map flat_map is_wide app]. rewrite IH. reflexivity. Qed.
Lemma chain_refers n k j : refers (chain n) k j <-> k = j + 1 /\ j < N.of_nat n.
Proof.
  unfold refers, at_index. rewrite chain_slots. destruct (N.to_nat k) as [|k'] eqn:Hk; cbn [nth_error].
  - split; [intros (c & H & _); discriminate|]. lia.
  - rewrite nth_error_map. split.
    + intros (c & H & Hj). destruct (nth_error (seq 0 n) k') as [i|] eqn:Hi; [|discriminate]. injection H as <-. destruct Hj as [<-|[]].
      assert (Hlt : (k' < n)%nat) by (rewrite <- (seq_length n 0); apply nth_error_Some; congruence).
      apply (nth_error_nth _ _ 0%nat) in Hi. rewrite seq_nth in Hi by exact Hlt. lia.
    + intros [-> Hj]. assert (Hlt : (k' < n)%nat) by lia.
      rewrite (nth_error_nth' _ 0%nat) by (rewrite seq_length; exact Hlt). rewrite seq_nth by exact Hlt. exists (CClass j). cbn [option_map indices In].
      split; [|auto]. do 3 f_equal. lia.
Qed.
Lemma chain_resolvable n : resolvable (chain n).
Proof. intros k j H. apply chain_refers in H. rewrite chain_slots. cbn [length]. rewrite map_length, seq_length. lia. Qed.

Section Chain.
Variable n : nat.
Variable dec : list byte -> option str.
Let p := pool_of dec (slots_of (chain n)).
Lemma chain_pool : p = EZero :: map (fun i => EClassInfo (Resolved (N.of_nat i))) (seq 0 n).
Proof. unfold p, pool_of. rewrite chain_slots. f_equal. rewrite map_map. reflexivity. Qed.
Lemma chain_positions : positions p = map N.of_nat (seq 0 n) ++ [N.of_nat n].
Proof. rewrite chain_pool. unfold positions. cbn [length]. rewrite map_length, seq_length, seq_S, map_app. reflexivity. Qed.
Lemma chain_pointers i : (i < n)%nat -> pointers_at p (N.of_nat (S i)) = [N.of_nat i].
Proof.
  intro Hi. rewrite chain_pool. unfold pointers_at. rewrite Nat2N.id. cbn [nth_error]. rewrite nth_error_map.
  rewrite (nth_error_nth' _ 0%nat) by (rewrite seq_length; exact Hi). rewrite seq_nth by exact Hi. reflexivity.
Qed.
Lemma chain_all_pointers : flat_map (pointers_at p) (positions p) = map N.of_nat (seq 0 n).
Proof.
  assert (Hp : positions p = 0 :: map N.of_nat (seq 1 n)).
  { rewrite chain_pool. unfold positions. cbn [length]. rewrite map_length, seq_length. reflexivity. }
  rewrite Hp.
  cbn [flat_map]. replace (pointers_at p 0) with (@nil N) by (rewrite chain_pool; reflexivity). cbn [app].
  rewrite <- seq_shift, map_map. assert (H : forall l, (forall i, In i l -> (i < n)%nat) -> flat_map (pointers_at p) (map (fun i => N.of_nat (S i)) l) = map N.of_nat l).
  { induction l as [|i l IH]; intro Hl; auto. cbn [map flat_map]. rewrite chain_pointers by (apply Hl; left; auto). cbn [app]. f_equal. apply IH. intros; apply Hl; right; auto. }
  apply H. intros i Hi. apply in_seq in Hi. lia.
Qed.
Lemma seq_nodup k : NoDup (map N.of_nat (seq 0 k)).
Proof. apply FinFun.Injective_map_NoDup; [intros a b; lia|apply seq_NoDup]. Qed.
Lemma occ_seq k i : count_occ N.eq_dec (map N.of_nat (seq 0 k)) (N.of_nat i) = if (i <? k)%nat then 1%nat else 0%nat.
Proof.
  destruct (Nat.ltb_spec i k) as [H|H].
  - apply NoDup_count_occ'; [apply seq_nodup|]. apply in_map, in_seq. lia.
  - apply count_occ_not_In. intro Hin. apply in_map_iff in Hin. destruct Hin as (j & Hj & Hin). apply in_seq in Hin. lia.
Qed.
Lemma chain_counts i : (i <= n)%nat -> strong_counts p (N.of_nat i) = if (i <? n)%nat then 2%nat else 1%nat.
Proof.
  intro Hi. unfold strong_counts. rewrite chain_all_pointers, chain_positions, count_occ_app, occ_seq. cbn [count_occ].
  destruct (N.eq_dec (N.of_nat n) (N.of_nat i)), (Nat.ltb_spec i n); lia.
Qed.

Lemma drop_shared stk l : forall h, NoDup l -> (forall i, In i l -> strong h i = 2%nat) ->
  exists h', drop_list (drop_rc (S stk) p) l h = Ok h' /\ (forall i, In i l -> strong h' i = 1%nat) /\ (forall i, ~ In i l -> strong h' i = strong h i).
Proof.
  induction l as [|k l IH]; intros h Hnd H2; cbn [drop_list]; [exists h; split; auto; split; auto; intros i []|].
  inversion Hnd as [|? ? Hk Hnd']; subst. cbn [drop_rc]. rewrite (H2 k (or_introl eq_refl)). cbn [Nat.pred obind].
  destruct (IH (mk_heap (update (strong h) k 1) (freed h)) Hnd') as (h' & Hd & H1 & H0).
  { intros i Hi. cbn [strong]. unfold update. destruct (N.eqb_spec i k) as [->|_]; [contradiction|]. apply H2. right. auto. }
  exists h'. split; [exact Hd|]. split.
  - intros i [<-|Hi]; auto. rewrite H0 by auto. cbn [strong]. unfold update. rewrite N.eqb_refl. reflexivity.
  - intros i Hi. rewrite H0 by (intro; apply Hi; right; auto). cbn [strong]. unfold update. destruct (N.eqb_spec i k) as [->|_]; auto. exfalso. apply Hi. left. auto.
Qed.
Lemma drop_chain stk : forall i h, (stk <= i)%nat -> (i <= n)%nat -> (forall j, (j <= i)%nat -> strong h (N.of_nat j) = 1%nat) ->
  drop_rc stk p h (N.of_nat i) = Panic PStackOverflow.
Proof.
  induction stk as [|stk IH]; intros i h Hst Hi H1; [reflexivity|]. cbn [drop_rc]. rewrite (H1 i) by lia. cbn [Nat.pred].
  destruct i as [|i]; [lia|]. rewrite chain_pointers by lia. cbn [drop_list].
  rewrite IH; [reflexivity|lia|lia|]. intros j Hj. cbn [strong]. unfold update. destruct (N.eqb_spec (N.of_nat j) (N.of_nat (S i))); [lia|]. apply H1. lia.
Qed.
Lemma drop_list_app f l1 l2 : forall h, drop_list f (l1 ++ l2) h = let* h := drop_list f l1 h in drop_list f l2 h.
Proof. induction l1 as [|i l1 IH]; intro h; cbn [app drop_list obind]; auto. destruct (f h i); cbn [obind]; auto. Qed.
Lemma drop_chain_pool stk : (stk <= n)%nat -> drop_pool stk p = Panic PStackOverflow.
Proof.
  intro Hst. unfold drop_pool. destruct stk as [|stk].
  { rewrite chain_pool. reflexivity. }
  rewrite chain_positions, drop_list_app.
  destruct (drop_shared stk (map N.of_nat (seq 0 n)) (mk_heap (strong_counts p) [])) as (h & Hd & H1 & H0).
  { apply seq_nodup. }
  { intros i Hi. apply in_map_iff in Hi. destruct Hi as (j & <- & Hj). apply in_seq in Hj. cbn [strong]. rewrite chain_counts by lia.
    destruct (Nat.ltb_spec j n); lia. }
  rewrite Hd. cbn [obind drop_list]. rewrite drop_chain; auto.
  intros j Hj. destruct (Nat.eq_dec j n) as [->|Hne].
  - rewrite H0; [|intro Hin; apply in_map_iff in Hin; destruct Hin as (k & Hk & Hin); apply in_seq in Hin; lia].
    cbn [strong]. rewrite chain_counts by lia. rewrite Nat.ltb_irrefl. reflexivity.
  - apply H1. apply in_map, in_seq. lia.
Qed.
End Chain.

Lemma chain_fills wraps n : N.of_nat n < 65535 -> fills wraps (N.of_nat n + 1) 1 (chain n).
Proof.
  intro Hn. unfold chain. assert (H : forall k i, (k + i = n)%nat -> fills wraps (N.of_nat n + 1) (N.of_nat i + 1) (map (fun i => CClass (N.of_nat i)) (seq i k))).
  { induction k as [|k IH]; intros i Hk; cbn [seq map fills]; [lia|]. split; [lia|].
    change (width (CClass (N.of_nat i))) with 1. replace (N.of_nat i + 1 + 1 <? 65536) with true by lia.
    replace (N.of_nat i + 1 + 1) with (N.of_nat (S i) + 1) by lia. apply IH. lia. }
  apply (H n 0%nat). lia.
Qed.
(** A file that starts with such a chain is rejected, and dropping its constant pool needs more levels of stack than the chain has constants. *)
Theorem C44_chain E opts bs n minor major ws rest : sane E bs -> (1 <= n)%nat -> starts_with_pool bs minor major (N.of_nat n + 1) (chain n) ws rest ->
  (exists e, parse_class_with_options E opts bs = Err e) /\ forall stk, (stk <= n)%nat -> drop_pool stk (pool_left E bs) = Panic PStackOverflow.
Proof.
  intros Hs Hn Hst. pose proof (sane_fits _ _ Hs) as Hfit.
  assert (Hlt : N.of_nat n < 65535). { destruct Hst as (m & v & c & _ & _ & Hc & _). apply uint_bound in Hc. change (256 ^ N.of_nat 2) with 65536 in Hc. lia. }
  pose proof (chain_fills (wrapping E) n Hlt) as Hf.
  assert (Hp : pool_in (wrapping E) bs (chain n)) by (exists minor, major, (N.of_nat n + 1), ws, rest; auto).
  split.
  2:{ intros stk Hstk. rewrite (left_resolvable _ _ _ Hs Hp (chain_resolvable n)). apply drop_chain_pool. exact Hstk. }
  destruct Hst as (m & v & c & Hm & (v1 & v2 & -> & Hv1 & Hv2) & Hc & Hbs & Hws).
  assert (Hr4 : forall pre x z post, u4 x z -> bs = pre ++ z ++ post -> read_u4 bs (blen pre) = Ok (x, blen pre + blen z)).
  { intros pre x z post Hx Hb. apply (reads_u4 E); auto; [rewrite Hb, !blen_app; lia|]. exists pre, z, post. auto. }
  assert (Hr2 : forall pre x z post, u2 x z -> bs = pre ++ z ++ post -> read_u2 bs (blen pre) = Ok (x, blen pre + blen z)).
  { intros pre x z post Hx Hb. apply (reads_u2 E); auto; [rewrite Hb, !blen_app; lia|]. exists pre, z, post. auto. }
  unfold parse_class_with_options, class_parser. unfold bind at 1. pose proof (Hr4 [] _ _ _ Hm Hbs) as H1. change (blen []) with 0 in H1. rewrite H1.
  unfold bind at 1, guard at 1. rewrite N.eqb_refl. unfold ret at 1. unfold bind at 1.
  rewrite <- !app_assoc in Hbs. pose proof (Hr2 m _ _ _ Hv1 Hbs) as H2. change (0 + blen m) with (blen m). rewrite H2.
  unfold bind at 1. pose proof (Hr2 (m ++ v1) _ _ _ Hv2 ltac:(rewrite <- app_assoc; exact Hbs)) as H3. rewrite !blen_app in H3. rewrite H3.
  unfold bind at 1, read_constant_pool, bind at 1. pose proof (Hr2 (m ++ v1 ++ v2) _ _ _ Hc ltac:(rewrite <- !app_assoc; exact Hbs)) as H4.
  rewrite !blen_app, N.add_assoc in H4. rewrite H4. unfold bind at 1, get_bytes at 1. unfold bind at 1.
  rewrite <- !N.add_assoc, <- !blen_app.
  assert (H5 : pool_loop E (S (length bs)) major (N.of_nat n + 1) 1 bs (blen (m ++ v1 ++ v2 ++ c)) = Ok (flat_map (expand E) (chain n), blen (m ++ v1 ++ v2 ++ c) + blen (concat ws))).
  { apply pool_loop_spec; auto; try (rewrite Hbs, !blen_app; lia); [lia|unfold blen; lia|].
    exists (m ++ v1 ++ v2 ++ c), (concat ws), rest. split; [rewrite Hbs, <- !app_assoc; reflexivity|]. split; auto. split; auto.
    exists (chain n). split; auto. split; auto. apply many_concat. eauto. }
  rewrite H5. unfold bind at 1, lift at 1.
  rewrite (proj2 (resolve_pool_Ok E (sane_stack _ _ Hs) (chain n) (pool_of (cesu8 E) (slots_of (chain n)))) (conj eq_refl (resolvable_good _ _ (chain_resolvable n)))).
  unfold bind at 1, lift at 1. destruct n as [|n]; [lia|]. rewrite chain_pool. unfold validate_constant_pool. cbn [seq map validate_from].
  match goal with |- context [validate_from ?a ?b ?c ?d ?e] => generalize (validate_from a b c d e) end. intro later.
  unfold ctx at 1. cbn [validate_entry obind ensure_ref_type peel nth_error N.to_nat N.of_nat]. eexists. reflexivity.
Qed.
(** There are such files with every number of constants up to the largest. *)
Theorem C44_chain_refuted E opts n : (1 <= n)%nat -> N.of_nat n <= 65534 -> (forall bs, length bs = (10 + 3 * n)%nat -> sane E bs) ->
  exists bs, length bs = (10 + 3 * n)%nat /\ (exists e, parse_class_with_options E opts bs = Err e)
    /\ forall stk, (stk <= n)%nat -> drop_pool stk (pool_left E bs) = Panic PStackOverflow.
Proof.
  intros Hn Hle Hs.
  assert (Hws : exists ws, Forall2 (constant_lang 52) (chain n) ws /\ length (concat ws) = (3 * n)%nat).
  { unfold chain. assert (H : forall k i, (k + i = n)%nat -> exists ws, Forall2 (constant_lang 52) (map (fun i => CClass (N.of_nat i)) (seq i k)) ws /\ length (concat ws) = (3 * k)%nat).
    { induction k as [|k IH]; intros i Hk; cbn [seq map]; [exists []; split; [constructor|reflexivity]|].
      destruct (IH (S i)) as (ws & Hws & Hl); [lia|]. destruct (uint_exists 2 (N.of_nat i)) as [w Hw]; [change (256 ^ N.of_nat 2) with 65536; lia|].
      exists ((x07 :: w) :: ws). split.
      - constructor; auto. split; [lia|]. exists [x07], w. split; auto. split; [split; reflexivity|exact Hw].
      - cbn [concat]. rewrite app_length, Hl. destruct Hw as [Hw _]. cbn [length]. lia. }
    apply (H n 0%nat). lia. }
  destruct Hws as (ws & Hws & Hl). destruct (uint_exists 2 (N.of_nat n + 1)) as [w Hw]; [change (256 ^ N.of_nat 2) with 65536; lia|].
  set (bs := [xca; xfe; xba; xbe] ++ [x00; x00; x00; x34] ++ w ++ concat ws ++ []).
  assert (Hlen : length bs = (10 + 3 * n)%nat). { unfold bs. rewrite !app_length, Hl. destruct Hw as [Hw _]. cbn [length]. lia. }
  exists bs. split; [exact Hlen|]. apply (C44_chain E opts bs n 0 52 ws []); auto.
  exists [xca; xfe; xba; xbe], [x00; x00; x00; x34], w. split; [split; reflexivity|].
  split; [exists [x00; x00], [x00; x34]; split; auto; split; split; reflexivity|]. split; [exact Hw|]. split; [reflexivity|exact Hws].
Qed.
(** The largest: 65534 constants in a file of 196612 bytes. *)
Corollary C44_deepest_refuted : exists bs, blen bs = 196612 /\ sane debug64 bs /\ (exists e, parse_class debug64 bs = Err e)
  /\ forall stk, N.of_nat stk <= 65534 -> drop_pool stk (pool_left debug64 bs) = Panic PStackOverflow.
Proof.
  assert (Hs : forall bs, length bs = (10 + 3 * N.to_nat 65534)%nat -> sane debug64 bs).
  { intros bs H. assert (Hb : blen bs = 196612) by (unfold blen; lia). constructor; unfold blen in *; rewrite ?Hb; try (apply N.leb_le; vm_compute; reflexivity); apply Nat.leb_le; vm_compute; reflexivity. }
  destruct (C44_chain_refuted debug64 default_options (N.to_nat 65534)) as (bs & Hlen & He & Hd); [lia|lia|exact Hs|].
  exists bs. split; [unfold blen; lia|]. split; [auto|]. split; [exact He|]. intros stk Hstk. apply Hd. lia.
Qed.

(** A rejected file whose memory is never released: two ClassInfo constants with the indices of each other. *)
Definition mutual : list byte := unhex "cafebabe000000340003070002070001".
Theorem C43_leak_refuted : sane debug64 mutual /\ (exists e, parse_class debug64 mutual = Err e)
  /\ forall stk fs, drop_pool stk (pool_left debug64 mutual) = Ok fs -> plen (pool_left debug64 mutual) = 3 /\ ~ In 1 fs /\ ~ In 2 fs.
Proof.
  split; [constructor; [apply N.leb_le|apply N.leb_le|apply N.leb_le|apply Nat.leb_le]; vm_compute; reflexivity|].
  split; [eexists; vm_compute; reflexivity|]. intros stk fs H.
  assert (Hs : sane debug64 mutual) by (constructor; [apply N.leb_le|apply N.leb_le|apply N.leb_le|apply Nat.leb_le]; vm_compute; reflexivity).
  split; [vm_compute; reflexivity|]. destruct (C43_freed_exactly debug64 mutual stk fs Hs H) as [_ Hi].
  assert (Hp : pool_left debug64 mutual = [EZero; EClassInfo (Resolved 2); EClassInfo (Resolved 1)]) by (vm_compute; reflexivity).
  rewrite Hp in Hi.
  assert (Hc : forall n, pointed_at [EZero; EClassInfo (Resolved 2); EClassInfo (Resolved 1)] n 1 /\ pointed_at [EZero; EClassInfo (Resolved 2); EClassInfo (Resolved 1)] n 2).
  { induction n as [|n [IH1 IH2]]; [split; exact I|]. split; [exists 2|exists 1]; (split; [left; reflexivity|assumption]). }
  split; intro Hin; apply Hi in Hin; destruct Hin as [_ Hin]; apply Hin; intro n; apply (Hc n).
Qed.
(** The destructor does run to its end on this file. *)
Example C43_leak_meets : drop_pool 10 (pool_left debug64 mutual) = Ok [0]%list.
Proof. vm_compute. reflexivity. Qed.
(** An accepted class with a method handle, which is what the four levels are for. *)
Definition with_handle : list byte := unhex "cafebabe0000003400080100014107000101000166010001490c0003000409000200050f0100060021000200000000000000000000".
Example C44_accepted_meets : match parse_class debug64 with_handle with
  | Ok c => drop_pool 4 (constant_pool c) = Ok [0; 1; 2; 3; 4; 5; 6; 7]%list /\ drop_pool 3 (constant_pool c) = Panic PStackOverflow
  | _ => False
  end.
Proof. vm_compute. split; reflexivity. Qed.
