(** * C47: errors about constants name the first constant at fault. *)
From Verif Require Import Base M_Names M_Descriptors M_ConstantPool M_Bytecode M_Attributes M_Class M_Cesu8 M_Locks M_ParseLocks Data
  S_Lang S_Names S_Format S_Pool S_Items S_Env S_Safe P_Names P_Descriptors P_Reads P_Tac P_Pool P_Pool2 P_Pool3 P_Pool4
  P_Class3 P_Layout P_Safe P_Safe5 P_Safe6 P_Locks P_ParseLocks T_Safe.
From Coq Require Import ZifyBool ZifyNat ZifyN.

(** Reading a complete table of constants, whatever they are. *)
Lemma to_pool_runs E bs minor major count cs ws rest : sane E bs -> starts_with_pool bs minor major count cs ws rest -> fills (wrapping E) count 1 cs ->
  exists ix, to_pool E bs 0 = match resolve_constant_pool (EZero :: flat_map (expand E) cs) with Ok p => Ok ((major, p), ix) | Err e => Err e | Panic x => Panic x | Diverge => Diverge end.
Proof.
  intros Hs (m & v & n & Hm & (v1 & v2 & -> & Hv1 & Hv2) & Hn & Hbs & Hws) Hfills. pose proof (sane_fits _ _ Hs) as Hfit.
  assert (Hr4 : forall pre x z post, u4 x z -> bs = pre ++ z ++ post -> read_u4 bs (blen pre) = Ok (x, blen pre + blen z)).
  { intros pre x z post Hx Hb. apply (reads_u4 E); auto; [rewrite Hb, !blen_app; lia|]. exists pre, z, post. auto. }
  assert (Hr2 : forall pre x z post, u2 x z -> bs = pre ++ z ++ post -> read_u2 bs (blen pre) = Ok (x, blen pre + blen z)).
  { intros pre x z post Hx Hb. apply (reads_u2 E); auto; [rewrite Hb, !blen_app; lia|]. exists pre, z, post. auto. }
  unfold to_pool. unfold bind at 1. pose proof (Hr4 [] _ _ _ Hm Hbs) as H1. change (blen []) with 0 in H1. rewrite H1.
  unfold bind at 1, guard at 1. rewrite N.eqb_refl. unfold ret at 1. unfold bind at 1.
  rewrite <- !app_assoc in Hbs. pose proof (Hr2 m _ _ _ Hv1 Hbs) as H2. change (0 + blen m) with (blen m). rewrite H2.
  unfold bind at 1. pose proof (Hr2 (m ++ v1) _ _ _ Hv2 ltac:(rewrite <- app_assoc; exact Hbs)) as H3. rewrite !blen_app in H3. rewrite H3.
  unfold bind at 1. pose proof (Hr2 (m ++ v1 ++ v2) _ _ _ Hn ltac:(rewrite <- !app_assoc; exact Hbs)) as H4.
  rewrite !blen_app, N.add_assoc in H4. rewrite H4. unfold bind at 1, get_bytes at 1. unfold bind at 1.
  rewrite <- !N.add_assoc, <- !blen_app.
  assert (Hc : count < 65536) by (apply uint_bound in Hn; exact Hn).
  assert (Hl : pool_loop E (S (length bs)) major count 1 bs (blen (m ++ v1 ++ v2 ++ n)) = Ok (flat_map (expand E) cs, blen (m ++ v1 ++ v2 ++ n) + blen (concat ws))).
  { apply pool_loop_spec; auto; [rewrite Hbs, !blen_app; lia|unfold blen; lia|]. exists (m ++ v1 ++ v2 ++ n), (concat ws), rest.
    split; [rewrite Hbs, <- !app_assoc; reflexivity|]. split; auto. split; auto. exists cs. split; auto. split; [apply many_concat; eauto|exact Hfills]. }
  rewrite Hl. unfold bind at 1, lift. eexists. destruct (resolve_constant_pool _) as [p| | |]; reflexivity.
Qed.

(** A reference is bad if it is to the constant itself or beyond the table; the message that says so. *)
Definition bad_index (i len t : N) : Prop := t = i \/ len <= t.
Definition reference_message (i t : N) : str :=
  if t =? i then lit "Constant pool entry at index " ++ show_N i ++ lit " could not be resolved due to self-reference"
  else lit "Constant pool entry at index " ++ show_N i ++ lit " references out-of-bounds index " ++ show_N t.
Lemma resolve_entry_bad dec c i len before t after : indices c = before ++ t :: after ->
  Forall (fun t' => ~ bad_index i len t') before -> bad_index i len t -> resolve_entry (raw_of dec c) i len = fail (reference_message i t).
Proof.
  intros Hc Hb Ht.
  assert (Hbad : resolve_ref (Unresolved t) i len = fail (reference_message i t)).
  { unfold resolve_ref, reference_message. destruct (N.eqb_spec t i); [reflexivity|]. destruct (N.leb_spec len t); [reflexivity|]. destruct Ht; [contradiction|lia]. }
  assert (Hgood : forall t', ~ bad_index i len t' -> resolve_ref (Unresolved t') i len = Ok (Resolved t')).
  { intros t' H. apply resolve_ref_Ok. split; auto. unfold bad_index in H. split; [auto|]. destruct (N.lt_ge_cases t' len); auto. exfalso; auto. }
  assert (Hnil : forall (l : list N) x l', [] <> l ++ x :: l') by (intros [|]; discriminate).
  destruct c; cbn [indices] in Hc; destruct before as [|b1 [|b2 before]]; cbn [app] in Hc; inversion Hc; subst; cbn [raw_of resolve_entry];
    try (match goal with H : [] = _ ++ _ :: _ |- _ => apply Hnil in H; contradiction end);
    try (rewrite (Hgood b1) by (inversion Hb; assumption); cbn [obind]); try (rewrite Hbad; reflexivity).
Qed.
Lemma resolve_from_bad dec len : forall ss i k c before t after, nth_error ss k = Some (Some c) ->
  (forall j c', (j < k)%nat -> nth_error ss j = Some (Some c') -> Forall (fun t' => ~ bad_index (i + N.of_nat j) len t') (indices c')) ->
  indices c = before ++ t :: after -> Forall (fun t' => ~ bad_index (i + N.of_nat k) len t') before -> bad_index (i + N.of_nat k) len t ->
  resolve_from len i (map (raw_slot dec) ss) = fail (reference_message (i + N.of_nat k) t).
Proof.
  induction ss as [|s ss IH]; intros i k c before t after Hk Hj Hc Hb Ht; [destruct k; discriminate|]. cbn [map resolve_from].
  destruct k as [|k]; cbn [nth_error] in Hk.
  - injection Hk as ->. cbn [raw_slot]. rewrite N.add_0_r in *. rewrite (resolve_entry_bad _ _ _ _ _ _ _ Hc Hb Ht). reflexivity.
  - assert (He : exists e, resolve_entry (raw_slot dec s) i len = Ok e).
    { destruct s as [c'|]; [|eexists; reflexivity]. cbn [raw_slot]. exists (entry_of dec c'). apply resolve_entry_Ok. split; auto.
      specialize (Hj 0%nat c' ltac:(lia) eq_refl). rewrite N.add_0_r in Hj. unfold good_refs. change (refs_of c') with (indices c').
      eapply Forall_impl; [|exact Hj]. cbn. unfold bad_index. intros t' H. split; [auto|]. destruct (N.lt_ge_cases t' len); auto. exfalso; auto. }
    destruct He as (e & ->). cbn [obind]. rewrite (IH (i + 1) k c before t after); auto.
    + replace (i + 1 + N.of_nat k) with (i + N.of_nat (S k)) by lia. reflexivity.
    + intros j c' Hlt Hn. replace (i + 1 + N.of_nat j) with (i + N.of_nat (S j)) by lia. apply Hj; [lia|exact Hn].
    + replace (i + 1 + N.of_nat k) with (i + N.of_nat (S k)) by lia. auto.
    + replace (i + 1 + N.of_nat k) with (i + N.of_nat (S k)) by lia. auto.
Qed.

(** If a constant refers to itself or beyond the table, the parse fails and the message names the first such constant and its first such
    reference. *)
Theorem C47_bad_reference E opts bs minor major count cs ws rest i c before t after : sane E bs ->
  starts_with_pool bs minor major count cs ws rest -> fills (wrapping E) count 1 cs ->
  let len := N.of_nat (length (slots_of cs)) in
  (forall j c', j < i -> at_index (slots_of cs) j c' -> Forall (fun t' => ~ bad_index j len t') (indices c')) ->
  at_index (slots_of cs) i c -> indices c = before ++ t :: after -> Forall (fun t' => ~ bad_index i len t') before -> bad_index i len t ->
  parse_class_with_options E opts bs = Err (mk_perr (reference_message i t) []).
Proof.
  intros Hs Hst Hf len Hj Hi Hc Hb Ht. destruct (to_pool_runs E bs minor major count cs ws rest Hs Hst Hf) as (ix & Hrun).
  pose proof (to_pool_fails E opts bs) as Hfail. rewrite Hrun in Hfail.
  assert (Hres : resolve_constant_pool (EZero :: flat_map (expand E) cs) = fail (reference_message i t)).
  { unfold resolve_constant_pool. rewrite (plen_raw E). cbn [resolve_from resolve_entry obind]. rewrite (expand_slots (cesu8 E)) by reflexivity.
    assert (Hlen : plen (pool_of (cesu8 E) (slots_of cs)) = len) by (unfold len, plen, pool_of, slots_of; cbn [length]; rewrite map_length; reflexivity).
    rewrite Hlen. unfold at_index, slots_of in Hi. destruct (N.to_nat i) as [|k] eqn:Hk; [discriminate|]. cbn [nth_error] in Hi.
    assert (Hik : i = 0 + 1 + N.of_nat k) by lia.
    rewrite (resolve_from_bad (cesu8 E) len (slots_tail cs) (0 + 1) k c before t after); auto; try (rewrite <- Hik; auto).
    intros j c' Hlt Hn. apply Hj; [lia|]. unfold at_index, slots_of. replace (N.to_nat (0 + 1 + N.of_nat j)) with (S j) by lia. exact Hn. }
  rewrite Hres in Hfail. exact Hfail.
Qed.

Lemma validate_from_first stk P major : forall es i, match validate_from stk P major i es with
  | Ok _ => forall k e, nth_error es k = Some e -> validate_entry stk P major e = Ok tt
  | Err x => exists k e y, nth_error es k = Some e /\ validate_entry stk P major e = Err y
      /\ x = with_context y (lit "constant pool entry " ++ show_N (i + N.of_nat k))
      /\ forall j e', (j < k)%nat -> nth_error es j = Some e' -> validate_entry stk P major e' = Ok tt
  | _ => True
  end.
Proof.
  induction es as [|e es IH]; intro i; cbn [validate_from]; [intros [|k] e; discriminate|].
  destruct (validate_entry stk P major e) as [[]|y| |] eqn:He; cbn [ctx obind]; auto.
  - specialize (IH (i + 1)). destruct (validate_from stk P major (i + 1) es) as [u|x| |]; auto.
    + intros [|k] e' Hk; cbn [nth_error] in Hk; [congruence|eauto].
    + destruct IH as (k & e1 & y & Hk & Hy & -> & Hj). exists (S k), e1, y. split; [exact Hk|]. split; [exact Hy|].
      split; [replace (i + 1 + N.of_nat k) with (i + N.of_nat (S k)) by lia; reflexivity|].
      intros [|j] e' Hlt Hn; cbn [nth_error] in Hn; [congruence|]. apply (Hj j); [lia|exact Hn].
  - exists 0%nat, e, y. split; auto. split; auto. split; [rewrite N.add_0_r; reflexivity|]. intros j e' Hlt; lia.
Qed.
Lemma display_last y c : exists text, display_err (with_context y c) = text ++ c.
Proof.
  assert (H : forall cs k, exists text, display_contexts k (cs ++ [c]) = text ++ c).
  { induction cs as [|d cs IH]; intro k; cbn [app display_contexts].
    - exists k. rewrite app_nil_r. reflexivity.
    - destruct (IH (lit " of ")) as (text & ->). exists (k ++ d ++ text). rewrite <- !app_assoc. reflexivity. }
  destruct y as [m cs]. unfold display_err, with_context. cbn [msg contexts]. destruct (H cs (lit " for ")) as (text & ->). exists (m ++ text). rewrite <- app_assoc. reflexivity.
Qed.

(** [c] refers to a NameAndType whose descriptor is not text. *)
Definition ill_described (cs : list constant) (c : constant) : Prop :=
  exists nt n d, In nt (indices c) /\ at_index (slots_of cs) nt (CNameAndType n d) /\ ~ is_utf8 (slots_of cs) d.
Lemma is_utf8_dec sl d : is_utf8 sl d \/ ~ is_utf8 sl d.
Proof.
  unfold is_utf8, at_index. destruct (nth_error sl (N.to_nat d)) as [[[]|]|]; try (right; intros (? & ?); congruence). left. eauto.
Qed.
Lemma ill_described_dec cs c : ill_described cs c \/ forall nt n d, In nt (indices c) -> at_index (slots_of cs) nt (CNameAndType n d) -> is_utf8 (slots_of cs) d.
Proof.
  unfold ill_described. induction (indices c) as [|t ts IH]; [right; intros ? ? ? []|].
  assert (Ht : (exists n d, at_index (slots_of cs) t (CNameAndType n d) /\ ~ is_utf8 (slots_of cs) d) \/ forall n d, at_index (slots_of cs) t (CNameAndType n d) -> is_utf8 (slots_of cs) d).
  { unfold at_index. destruct (nth_error (slots_of cs) (N.to_nat t)) as [[[]|]|]; try (right; intros; congruence).
    destruct (is_utf8_dec (slots_of cs) desc) as [H|H]; [right; intros; congruence|left; eauto]. }
  destruct Ht as [(n & d & H)|Ht]; [left; exists t, n, d; split; [left; auto|auto]|].
  destruct IH as [(nt & n & d & H1 & H2)|IH]; [left; exists nt, n, d; split; [right; auto|auto]|].
  right. intros nt n d [<-|Hin]; eauto.
Qed.
Lemma valid_described dec cs major c : valid_constant dec (slots_of cs) major c -> ~ ill_described cs c.
Proof.
  intros Hv (nt & n & d & Hin & Hat & Hno). destruct c; cbn [indices valid_constant] in *; unfold described, is_class, is_utf8, utf8_at in *;
  repeat match goal with H : _ /\ _ |- _ => destruct H | H : exists _, _ |- _ => destruct H | H : In _ (_ :: _) |- _ => destruct H | H : In _ [] |- _ => destruct H end;
  subst; unfold at_index in *; try congruence.
  all: try (apply Hno; match goal with H1 : nth_error ?s ?k = Some (Some (CNameAndType ?a ?b)), H2 : nth_error ?s ?k = Some (Some (CNameAndType ?e ?f)) |- _ => assert (b = f) by congruence; subst; eauto end; fail).
  - match goal with H : handle_target _ _ ?x |- _ => assert (x = CNameAndType n d) by congruence; subst x; destruct kind; cbn in H; try contradiction; destruct H as [H|H]; try contradiction; try destruct H end.
Qed.

(** If all references are good but some constant is invalid, the parse fails (or overflows the stack, see C04), and the error ends with the
    index of an invalid constant such that the constants before it are valid -- except that a constant whose only fault may be
    the descriptor of its NameAndType is passed over. *)
Theorem C47_invalid_constant E opts bs minor major count cs ws rest : sane E bs ->
  starts_with_pool bs minor major count cs ws rest -> fills (wrapping E) count 1 cs ->
  (forall i c, at_index (slots_of cs) i c -> Forall (fun t => ~ bad_index i (N.of_nat (length (slots_of cs))) t) (indices c)) ->
  ~ Forall (valid_constant (cesu8 E) (slots_of cs) major) cs ->
  (exists i c e text, parse_class_with_options E opts bs = Err e /\ display_err e = text ++ lit "constant pool entry " ++ show_N i
     /\ at_index (slots_of cs) i c /\ ~ valid_constant (cesu8 E) (slots_of cs) major c
     /\ forall j c', j < i -> at_index (slots_of cs) j c' -> valid_constant (cesu8 E) (slots_of cs) major c' \/ ill_described cs c')
  \/ parse_class_with_options E opts bs = Panic PStackOverflow.
Proof.
  intros Hs Hst Hf Hrefs Hinv. destruct (to_pool_runs E bs minor major count cs ws rest Hs Hst Hf) as (ix & Hrun).
  pose proof (to_pool_fails E opts bs) as Hfail. rewrite Hrun in Hfail.
  assert (Hres : resolve_constant_pool (EZero :: flat_map (expand E) cs) = Ok (pool_of (cesu8 E) (slots_of cs))).
  { apply (resolve_pool_Ok E (sane_stack _ _ Hs)). split; auto. intros i c Hi. unfold good_refs. change (refs_of c) with (indices c). eapply Forall_impl; [|exact (Hrefs i c Hi)].
    assert (Hlen : plen (pool_of (cesu8 E) (slots_of cs)) = N.of_nat (length (slots_of cs))) by (unfold plen, pool_of, slots_of; cbn [length]; rewrite map_length; reflexivity).
    rewrite Hlen. unfold bad_index. intros t H. split; [auto|]. match goal with |- _ < ?l => destruct (N.lt_ge_cases t l) end; auto. exfalso; auto. }
  rewrite Hres in Hfail. cbn beta iota in Hfail.
  pose proof (validate_from_first (stack E) (pool_of (cesu8 E) (slots_of cs)) major (pool_of (cesu8 E) (slots_of cs)) 0) as Hfirst.
  unfold validate_constant_pool in Hfail.
  pose proof (ends_validate (cesu8 E) cs) as Hends. specialize (Hends ltac:(apply (resolve_pool_Ok E (sane_stack _ _ Hs) cs (pool_of (cesu8 E) (slots_of cs))); exact Hres) (stack E) major ltac:(pose proof (sane_stack _ _ Hs); lia) (pool_of (cesu8 E) (slots_of cs)) 0 ltac:(auto)).
  set (P := pool_of (cesu8 E) (slots_of cs)) in *. destruct (validate_from (stack E) P major 0 P) as [[]|x|x|] eqn:Hv.
  - exfalso. apply Hinv. apply (validate_pool_Ok E (sane_stack _ _ Hs)). exact Hv.
  - left. destruct Hfirst as (k & e & y & Hk & Hy & -> & Hj). rewrite N.add_0_l in Hfail.
    assert (Hlocal : forall j c, at_index (slots_of cs) j c -> (validate_entry (stack E) P major (entry_of (cesu8 E) c) = Ok tt -> valid_constant (cesu8 E) (slots_of cs) major c \/ ill_described cs c)
       /\ (valid_constant (cesu8 E) (slots_of cs) major c -> validate_entry (stack E) P major (entry_of (cesu8 E) c) = Ok tt)).
    { intros j c Hc. split.
      - intro H. destruct (ill_described_dec cs c) as [Hd|Hd]; auto. left. apply (validate_entry_local (cesu8 E) cs major (stack E)); auto. apply (sane_stack _ _ Hs).
      - intro H. apply (validate_entry_local (cesu8 E) cs major (stack E)); auto; [apply (sane_stack _ _ Hs)|]. intros nt n d Hin Hat.
        destruct (is_utf8_dec (slots_of cs) d); auto. exfalso. apply (valid_described _ _ _ _ H). exists nt, n, d. auto. }
    assert (Hek : entry_at (cesu8 E) cs (N.of_nat k) e) by (unfold entry_at; rewrite Nat2N.id; exact Hk).
    apply entry_at_cases in Hek. destruct Hek as [[_ ->]|[[_ ->]|(c & Hc & ->)]]; try discriminate.
    destruct (display_last y (lit "constant pool entry " ++ show_N (N.of_nat k))) as (text & Htext).
    exists (N.of_nat k), c, (with_context y (lit "constant pool entry " ++ show_N (N.of_nat k))), text. split; [exact Hfail|]. split; [exact Htext|]. split; [exact Hc|].
    split; [intro H; apply (Hlocal _ _ Hc) in H; congruence|]. intros j c' Hlt Hc'. apply (Hlocal j c' Hc'). apply (Hj (N.to_nat j)); [lia|].
    exact (at_index_entry (cesu8 E) cs _ _ Hc').
  - right. cbn in Hends. destruct Hends as [-> _]. exact Hfail.
  - contradiction.
Qed.

(** Examples: a Class constant that refers beyond the table; one that refers to a Class constant. *)
Definition beyond : list byte := unhex "cafebabe00000034000301000141070009".
Example C47_bad_reference_meets : sane debug64 beyond /\ starts_with_pool beyond 0 52 3 [CUtf8 [x41]; CClass 9] [[x01; x00; x01; x41]; [x07; x00; x09]] []
  /\ fills false 3 1 [CUtf8 [x41]; CClass 9] /\ bad_index 2 3 9
  /\ parse_class debug64 beyond = Err (mk_perr (lit "Constant pool entry at index 2 references out-of-bounds index 9") []).
Proof.
  split; [apply ampleb_ample; vm_compute; reflexivity|]. split.
  { exists [xca; xfe; xba; xbe], [x00; x00; x00; x34], [x00; x03]. split; [split; reflexivity|].
    split; [exists [x00; x00], [x00; x34]; split; auto; split; split; reflexivity|]. split; [split; reflexivity|]. split; [vm_compute; reflexivity|].
    repeat apply Forall2_cons; try apply Forall2_nil; (split; [lia|]).
    - exists [x01], [x00; x01; x41]. split; auto. split; [split; reflexivity|]. exists [x00; x01], [x41]. split; auto. split; [split; reflexivity|]. split; reflexivity.
    - exists [x07], [x00; x09]. split; auto. split; split; reflexivity. }
  split; [cbn; lia|]. split; [right; lia|]. vm_compute. reflexivity.
Qed.
Definition misdirected : list byte := unhex "cafebabe000000340004010001410700010700020021000200000000000000000000".
Example C47_invalid_constant_meets : sane debug64 misdirected
  /\ starts_with_pool misdirected 0 52 4 [CUtf8 [x41]; CClass 1; CClass 2] [[x01; x00; x01; x41]; [x07; x00; x01]; [x07; x00; x02]] (skipn 20 misdirected)
  /\ fills false 4 1 [CUtf8 [x41]; CClass 1; CClass 2]
  /\ (forall i c, at_index (slots_of [CUtf8 [x41]; CClass 1; CClass 2]) i c -> Forall (fun t => ~ bad_index i 4 t) (indices c))
  /\ ~ Forall (valid_constant (cesu8 debug64) (slots_of [CUtf8 [x41]; CClass 1; CClass 2]) 52) [CUtf8 [x41]; CClass 1; CClass 2]
  /\ match parse_class debug64 misdirected with Err e => display_err e = lit "Unexpected constant pool reference type for constant pool entry 3" | _ => False end.
Proof.
  split; [apply ampleb_ample; vm_compute; reflexivity|]. split.
  { exists [xca; xfe; xba; xbe], [x00; x00; x00; x34], [x00; x04]. split; [split; reflexivity|].
    split; [exists [x00; x00], [x00; x34]; split; auto; split; split; reflexivity|]. split; [split; reflexivity|]. split; [vm_compute; reflexivity|].
    repeat apply Forall2_cons; try apply Forall2_nil; (split; [lia|]).
    - exists [x01], [x00; x01; x41]. split; auto. split; [split; reflexivity|]. exists [x00; x01], [x41]. split; auto. split; [split; reflexivity|]. split; reflexivity.
    - exists [x07], [x00; x01]. split; auto. split; split; reflexivity.
    - exists [x07], [x00; x02]. split; auto. split; split; reflexivity. }
  split; [cbn; lia|]. split.
  { intros i c Hi. unfold at_index, slots_of in Hi. cbn [flat_map is_wide app] in Hi.
    destruct (N.to_nat i) as [|[|[|[|k]]]] eqn:Hk; cbn [nth_error] in Hi; try discriminate; [| | |destruct k; discriminate]; injection Hi as <-; cbn [indices];
      repeat constructor; unfold bad_index; lia. }
  split.
  { intro H. inversion_clear H as [|? ? _ H1]. inversion_clear H1 as [|? ? _ H2]. inversion_clear H2 as [|? ? Hc _]. destruct Hc as (s & (raw & Hat & _) & _). discriminate Hat. }
  vm_compute. reflexivity.
Qed.
