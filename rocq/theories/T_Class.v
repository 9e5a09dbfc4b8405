(** * Property theorems: class files (C01 C05 C07 C08 C09 C16 C17 C19 C20 C21 C22).

    Vocabulary: [S_Lang], [S_Names], [S_Format] (the format as sets of byte strings),
    [S_Pool] (layout of the constant pool), [S_Env] (assumptions about the machine). *)
From Verif Require Import Base M_Names M_Descriptors M_ConstantPool M_Bytecode M_Attributes M_Class M_Cesu8 Data Sample
  S_Lang S_Names S_Format S_Pool S_Env P_Reads P_Tac P_Pool3 P_Pool4 P_Class3 P_Layout P_Within.
From Coq Require Import ZifyBool ZifyNat ZifyN.

(** Whether a run succeeds. *)
Definition accepted (r : outcome class_file) : bool := match r with Ok _ => true | _ => false end.
Lemma accepted_Ok r : accepted r = true -> exists c, r = Ok c.
Proof. destruct r; try discriminate. eauto. Qed.

(** ** C01 *)
(** For every input, every setting of the options and both build modes: the parser
    accepts exactly the files of the format and returns exactly the denoted class. *)
Theorem C01_parse_iff_format E opts bs c : ample E bs ->
  (parse_class_with_options E opts bs = Ok c <-> class_format (cesu8 E) (wrapping E) opts c bs).
Proof. exact (parse_format E opts bs c). Qed.

Theorem C01_parse_class_iff_format E bs c : ample E bs ->
  (parse_class E bs = Ok c <-> class_format (cesu8 E) (wrapping E) true c bs).
Proof. exact (parse_format E true bs c). Qed.

(** Whatever is accepted has the format, even if the stack is small. *)
Theorem C01_accepted_has_format E opts bs c : sane E bs -> parse_class_with_options E opts bs = Ok c ->
  class_format (cesu8 E) (wrapping E) opts c bs.
Proof. exact (parse_sound E opts bs c). Qed.

(** The format gives each file at most one meaning. *)
Theorem C01_format_functional dec wraps want c c' bs :
  class_format dec wraps want c bs -> class_format dec wraps want c' bs -> c = c'.
Proof.
  set (E := {| overflow_checks := negb wraps; usize_max := 2 * blen bs + 2 ^ 32; alloc_limit := blen bs;
               stack := length bs + 2; cesu8 := dec; cesu8_err := [] |}).
  assert (HE : ample E bs).
  { constructor; [constructor|]; cbn [E usize_max alloc_limit stack]; try lia. }
  intros H H'. pose proof (parse_format E want bs c HE) as P. pose proof (parse_format E want bs c' HE) as P'.
  unfold wrapping in P, P'. cbn [E overflow_checks cesu8] in P, P'. rewrite Bool.negb_involutive in P, P'.
  apply P in H. apply P' in H'. congruence.
Qed.

Example C01_meets : ample debug64 object_class /\ ample debug64 kotlin_class
  /\ (exists c, class_format from_java_cesu8 false true c object_class /\ this_class c = lit "java/lang/Object"
        /\ length (methods c) = 12%nat /\ length (constant_pool c) = 92%nat)
  /\ (exists c, class_format from_java_cesu8 false true c kotlin_class /\ super_class c = Some (lit "java/lang/Object")).
Proof.
  assert (H1 : ample debug64 object_class) by (apply ampleb_ample; vm_compute; reflexivity).
  assert (H2 : ample debug64 kotlin_class) by (apply ampleb_ample; vm_compute; reflexivity).
  split; [exact H1|]. split; [exact H2|].
  pose (f c := (this_class c, super_class c, length (methods c), length (constant_pool c))).
  split.
  - destruct (parse_class debug64 object_class) as [c| | |] eqn:H; [|exfalso; revert H; vm_compute; discriminate..].
    exists c. split; [apply (C01_parse_class_iff_format debug64); assumption|].
    assert (Hf : match parse_class debug64 object_class with Ok c => f c | _ => f c end =
      (lit "java/lang/Object", None, 12%nat, 92%nat)) by (vm_compute; reflexivity).
    rewrite H in Hf. unfold f in Hf. injection Hf as Ha Hb Hc Hd. auto.
  - destruct (parse_class debug64 kotlin_class) as [c| | |] eqn:H; [|exfalso; revert H; vm_compute; discriminate..].
    exists c. split; [apply (C01_parse_class_iff_format debug64); assumption|].
    assert (Hf : match parse_class debug64 kotlin_class with Ok c => super_class c | _ => None end =
      Some (lit "java/lang/Object")) by (vm_compute; reflexivity).
    rewrite H in Hf. exact Hf.
Qed.

(** What is known of an accepted class. *)
Lemma accepted_lang E opts bs c : sane E bs -> parse_class_with_options E opts bs = Ok c ->
  exists d cs, class_lang (cesu8 E) (wrapping E) opts d cs c bs.
Proof. intros Hs H. exact (parse_sound E opts bs c Hs H). Qed.
Lemma class_starts dec wraps want d cs c bs : class_lang dec wraps want d cs c bs ->
  exists count ws rest, starts_with_pool bs (minor_version c) (major_version c) count cs ws rest
   /\ fills wraps count 1 cs /\ Forall (valid_constant dec (slots_of cs) (major_version c)) cs
   /\ (flags_keep class_bits (access_flags c)
       +++ ref (that (class_at dec (slots_of cs)) class_name) (this_class c)
       +++ opt_ref (that (class_at dec (slots_of cs)) class_name) (super_class c)
       +++ table u2 (ref (that (class_at dec (slots_of cs)) class_name)) (interfaces c)
       +++ table u2 (field_lang dec (slots_of cs) wraps want d) (fields c)
       +++ table u2 (method_lang dec (slots_of cs) wraps want d (N.testbit (access_flags c) ACC_INTERFACE_bit)) (methods c)
       +++ attributes_lang dec (slots_of cs) wraps want d (class_attributes c)) rest.
Proof.
  intros [H _]. destruct H as (w0 & v0 & -> & Hm & w1 & v1 & -> & Hminor & w2 & v2 & -> & Hmajor & w3 & v3 & -> & Hcs & Hrest).
  destruct Hcs as (count & (u & v & -> & Hu & Hv) & Hf & Hval). apply many_concat in Hv. destruct Hv as (ws & Hws & ->).
  exists count, ws, v3. split; [|auto]. exists w0, (w1 ++ w2), u. split; auto. split; [apply cat_intro; auto|]. split; auto.
  split; auto. rewrite <- !app_assoc. reflexivity.
Qed.

(** ** C05 *)
Theorem C05_extended_file_rejected E opts bs s c : sane E (bs ++ s) -> parse_class_with_options E opts bs = Ok c ->
  s <> [] -> ~ exists c', parse_class_with_options E opts (bs ++ s) = Ok c'.
Proof.
  intros Hs H Hne (c' & H'). apply Hne.
  exact (no_prefix E opts (sane_stack _ _ Hs) bs s c c' (sane_fits _ _ Hs) H H').
Qed.

Theorem C05_truncated_file_rejected E opts bs n c : sane E bs -> parse_class_with_options E opts bs = Ok c ->
  (n < length bs)%nat -> ~ exists c', parse_class_with_options E opts (firstn n bs) = Ok c'.
Proof.
  intros Hs H Hn (c' & H'). rewrite <- (firstn_skipn n bs) in Hs, H.
  assert (Hne : skipn n bs = []).
  { exact (no_prefix E opts (sane_stack _ _ Hs) _ _ c' c (sane_fits _ _ Hs) H' H). }
  apply (f_equal (@length byte)) in Hne. rewrite skipn_length in Hne. cbn in Hne. lia.
Qed.
Example C05_meets : sane debug64 (object_class ++ [x00]) /\ exists c, parse_class debug64 object_class = Ok c.
Proof. split; [apply ample_sane, ampleb_ample; vm_compute; reflexivity|]. apply accepted_Ok. vm_compute. reflexivity. Qed.

(** ** C07 *)
Theorem C07_bad_magic_is_an_error E opts bs : firstn 4 bs <> [xca; xfe; xba; xbe] ->
  exists e, parse_class_with_options E opts bs = Err e.
Proof.
  intro Hm. unfold parse_class_with_options, class_parser.
  destruct bs as [|b0 [|b1 [|b2 [|b3 bs]]]]; try (eexists; reflexivity).
  unfold bind at 1. set (bs' := b0 :: b1 :: b2 :: b3 :: bs).
  assert (Hr : read_u4 bs' 0 = Ok (be [b0; b1; b2; b3], 4)).
  { apply (reads_u4 (Build_env true (2 ^ 64 + 2 * blen bs') (blen bs') 0 (fun _ => None) [])).
    - constructor; cbn [usize_max alloc_limit]; lia.
    - lia.
    - exists [], [b0; b1; b2; b3], bs. repeat split; auto. }
  rewrite Hr. unfold bind at 1. destruct (N.eqb_spec (be [b0; b1; b2; b3]) 0xCAFEBABE) as [He|_].
  - exfalso. apply Hm. cbn [firstn].
    assert (He' : be [b0; b1; b2; b3] = be [xca; xfe; xba; xbe]) by exact He.
    unfold be in He'. cbn [fold_left] in He'.
    assert (Byte.to_N b0 < 256 /\ Byte.to_N b1 < 256 /\ Byte.to_N b2 < 256 /\ Byte.to_N b3 < 256)
      by (pose proof (Byte.to_N_bounded b0); pose proof (Byte.to_N_bounded b1); pose proof (Byte.to_N_bounded b2); pose proof (Byte.to_N_bounded b3); lia).
    change (Byte.to_N xca) with 202 in He'. change (Byte.to_N xfe) with 254 in He'.
    change (Byte.to_N xba) with 186 in He'. change (Byte.to_N xbe) with 190 in He'.
    assert (H0 : Byte.to_N b0 = Byte.to_N xca) by (change (Byte.to_N xca) with 202; lia).
    assert (H1 : Byte.to_N b1 = Byte.to_N xfe) by (change (Byte.to_N xfe) with 254; lia).
    assert (H2 : Byte.to_N b2 = Byte.to_N xba) by (change (Byte.to_N xba) with 186; lia).
    assert (H3 : Byte.to_N b3 = Byte.to_N xbe) by (change (Byte.to_N xbe) with 190; lia).
    assert (inj : forall a b, Byte.to_N a = Byte.to_N b -> a = b).
    { intros a b H4. apply (f_equal Byte.of_N) in H4. rewrite !Byte.of_to_N in H4. congruence. }
    apply inj in H0, H1, H2, H3. congruence.
  - cbn. eauto.
Qed.

Theorem C07_header E opts bs c : sane E bs -> parse_class_with_options E opts bs = Ok c ->
  exists b4 b5 b6 b7 rest, bs = [xca; xfe; xba; xbe; b4; b5; b6; b7] ++ rest
    /\ minor_version c = Byte.to_N b4 * 256 + Byte.to_N b5
    /\ major_version c = Byte.to_N b6 * 256 + Byte.to_N b7.
Proof.
  intros Hs H. assert (Hm : firstn 4 bs = [xca; xfe; xba; xbe]).
  { destruct (list_eq_dec Byte.byte_eq_dec (firstn 4 bs) [xca; xfe; xba; xbe]) as [|Hne]; auto.
    destruct (C07_bad_magic_is_an_error E opts bs Hne). congruence. }
  destruct (accepted_lang _ _ _ _ Hs H) as (d & cs & Hc & _).
  destruct Hc as (w0 & v0 & -> & [Hl0 _] & w1 & v1 & -> & [Hl1 Hminor] & w2 & v2 & -> & [Hl2 Hmajor] & _).
  destruct w0 as [|? [|? [|? [|? [|]]]]]; try discriminate Hl0. cbn [firstn app] in Hm. injection Hm as -> -> -> ->.
  destruct w1 as [|b4 [|b5 [|]]]; try discriminate Hl1. destruct w2 as [|b6 [|b7 [|]]]; try discriminate Hl2.
  exists b4, b5, b6, b7, v2. split; [reflexivity|]. split; [rewrite <- Hminor|rewrite <- Hmajor]; reflexivity.
Qed.
Example C07_meets : exists e, parse_class debug64 [xca; xfe; xba; xbf; x00; x00] = Err e.
Proof. apply (C07_bad_magic_is_an_error debug64 true). discriminate. Qed.

(** ** C08 *)
(** The constants of an accepted file are encoded one after the other behind the
    count; each has a tag of the table not newer than the file; the entry for the
    [k]-th is the one at [index_of cs k], and the slot after a long or double is unusable. *)
Theorem C08_layout E opts bs c : sane E bs -> parse_class_with_options E opts bs = Ok c ->
  exists count cs ws rest,
    starts_with_pool bs (minor_version c) (major_version c) count cs ws rest
    /\ Forall (fun w => exists t w' since, w = t :: w' /\ In (Byte.to_N t, since) tags /\ since <= major_version c) ws
    /\ (forall k x, nth_error cs k = Some x ->
          nth_error (constant_pool c) (N.to_nat (index_of cs k)) = Some (entry_of (cesu8 E) x)
          /\ (is_wide x = true -> nth_error (constant_pool c) (N.to_nat (index_of cs k + 1)) = Some EUnused))
    /\ N.of_nat (length (constant_pool c)) = index_of cs (length cs).
Proof.
  intros Hs H. destruct (accepted_lang _ _ _ _ Hs H) as (d & cs & Hc).
  destruct (class_starts _ _ _ _ _ _ _ Hc) as (count & ws & rest & H1 & H2 & H3 & _).
  destruct Hc as (_ & HP & _). exists count, cs, ws, rest. split; auto. split.
  { destruct H1 as (m & v & n & _ & _ & _ & _ & Hws). clear - Hws. induction Hws as [|x w l ws Hx Hws IH]; constructor; auto.
    destruct (constant_tag _ _ _ Hx) as (since & t & w' & Hin & Hs & -> & Ht). exists t, w', since. rewrite Ht. auto. }
  rewrite HP. split.
  { intros k x Hx. destruct (at_index_of _ _ _ Hx) as [Ha Hw].
    assert (Hpos : exists j, N.to_nat (index_of cs k) = S j).
    { unfold index_of. exists (N.to_nat (fold_right (fun c n => width c + n) 0 (firstn k cs))). lia. }
    unfold at_index, pool_of, slots_of in *. destruct Hpos as [j Hj].
    assert (Hj1 : exists j1, N.to_nat (index_of cs k + 1) = S j1) by (exists (S j); lia). destruct Hj1 as [j1 Hj1].
    rewrite Hj1 in *. rewrite Hj in *. cbn [nth_error] in *.
    rewrite (map_nth_error _ _ _ Ha). split; auto. intro Hwide. rewrite (map_nth_error _ _ _ (Hw Hwide)). reflexivity. }
  rewrite <- slots_length. unfold pool_of, slots_of. cbn [length]. rewrite map_length. reflexivity.
Qed.

(** No other constants are visible: what an index denotes is one of these. *)
Theorem C08_every_entry E opts bs c i e : sane E bs -> parse_class_with_options E opts bs = Ok c ->
  nth_error (constant_pool c) (N.to_nat i) = Some e ->
  e = EZero \/ e = EUnused \/ exists count cs ws rest k x,
    starts_with_pool bs (minor_version c) (major_version c) count cs ws rest
    /\ nth_error cs k = Some x /\ i = index_of cs k /\ e = entry_of (cesu8 E) x.
Proof.
  intros Hs H Hi. destruct (accepted_lang _ _ _ _ Hs H) as (d & cs & Hc).
  destruct (class_starts _ _ _ _ _ _ _ Hc) as (count & ws & rest & H1 & H2 & H3 & _).
  destruct Hc as (_ & HP & _). rewrite HP in Hi. unfold pool_of, slots_of in Hi.
  destruct (N.to_nat i) as [|j] eqn:Hj; cbn [nth_error] in Hi; [injection Hi as <-; auto|]. right.
  destruct (nth_error (flat_map (fun c => if is_wide c then [Some c; None] else [Some c]) cs) j) as [[x|]|] eqn:Hn.
  - rewrite (map_nth_error _ _ _ Hn) in Hi. injection Hi as <-. right.
    assert (Ha : at_index (slots_of cs) i x) by (unfold at_index, slots_of; rewrite Hj; exact Hn).
    destruct (at_index_inv _ _ _ Ha) as (k & Hk & ->). exists count, cs, ws, rest, k, x. auto.
  - rewrite (map_nth_error _ _ _ Hn) in Hi. injection Hi as <-. auto.
  - apply nth_error_None in Hn. assert (Hx : nth_error (map (fun s => match s with Some c => entry_of (cesu8 E) c | None => EUnused end)
      (flat_map (fun c => if is_wide c then [Some c; None] else [Some c]) cs)) j = None) by (apply nth_error_None; rewrite map_length; exact Hn).
    congruence.
Qed.

(** The number of slots: [count], or one more if the last constant is wide.  (In builds
    without overflow checks only if the count is not 65535, where indices may wrap.) *)
Theorem C08_slot_count_partial E opts bs c minor major count cs ws rest :
  sane E bs -> parse_class_with_options E opts bs = Ok c ->
  starts_with_pool bs minor major count cs ws rest -> fills (wrapping E) count 1 cs ->
  (wrapping E = false \/ count <> 65535) ->
  N.of_nat (length (constant_pool c)) = count
  \/ N.of_nat (length (constant_pool c)) = count + 1 /\ exists pre x, cs = pre ++ [x] /\ is_wide x = true.
Proof.
  intros Hs H Hst Hf Hw. destruct (accepted_lang _ _ _ _ Hs H) as (d & cs' & Hc).
  destruct (class_starts _ _ _ _ _ _ _ Hc) as (count' & ws' & rest' & H1 & H2 & H3 & Hrest).
  destruct (pool_unique _ _ _ _ _ _ _ _ _ _ _ _ _ _ Hst H1 Hf H2) as (_ & _ & <- & <- & _ & _).
  assert (Hcount : count < 65536).
  { destruct Hst as (m & v & n & _ & _ & Hn & _). apply uint_bound in Hn. cbn in Hn. lia. }
  assert (Hne : cs <> []).
  { intros ->. destruct Hrest as (u & v & -> & _ & u1 & v1 & -> & (i & _ & (j & Hj & _) & _) & _).
    unfold at_index, slots_of in Hj. cbn in Hj. destruct (N.to_nat i) as [|[|]]; discriminate. }
  assert (Hw' : wrapping E = false \/ count < 65535) by (destruct Hw; [left; auto|right; lia]).
  pose proof (fills_count _ count cs 1 Hw' Hcount Hne H2) as Hx. cbv zeta in Hx.
  destruct Hc as (_ & HP & _). rewrite HP.
  assert (Hl : N.of_nat (length (pool_of (cesu8 E) (slots_of cs))) = 1 + fold_right (fun c n => width c + n) 0 cs).
  { transitivity (N.of_nat (length (slots_of cs))).
    - unfold pool_of, slots_of. cbn [length]. rewrite map_length. reflexivity.
    - rewrite slots_length. unfold index_of. rewrite firstn_all. reflexivity. }
  rewrite Hl. destruct Hx as [->|[-> Hx]]; auto.
Qed.

(** A file whose count is 4 and whose pool has five slots (the last constant is a long). *)
Definition long_last : list byte := unhex
  "cafebabe00000034 0004 01000141 070001 050000000000000007 0021 0002 0000 0000 0000 0000 0000".
Theorem C08_slot_count_refuted : exists bs c minor major count cs ws rest,
  sane debug64 bs /\ parse_class debug64 bs = Ok c
  /\ starts_with_pool bs minor major count cs ws rest /\ fills (wrapping debug64) count 1 cs
  /\ N.of_nat (length (constant_pool c)) <> count.
Proof.
  destruct (parse_class debug64 long_last) as [c| | |] eqn:H; [|exfalso; revert H; vm_compute; discriminate..].
  assert (Hs : sane debug64 long_last) by (apply ample_sane, ampleb_ample; vm_compute; reflexivity).
  exists long_last, c, 0, 52, 4, [CUtf8 [x41]; CClass 1; CLong 7],
    [[x01; x00; x01; x41]; [x07; x00; x01]; [x05; x00; x00; x00; x00; x00; x00; x00; x07]],
    (skipn 26 long_last).
  split; auto. split; auto. split.
  { exists [xca; xfe; xba; xbe], [x00; x00; x00; x34], [x00; x04].
    split; [split; vm_compute; reflexivity|]. split; [exists [x00; x00], [x00; x34]; repeat split|].
    split; [split; reflexivity|]. split; [vm_compute; reflexivity|].
    constructor; [|constructor; [|constructor; [|constructor]]].
    - split; [lia|]. exists [x01], [x00; x01; x41]. repeat split. exists [x00; x01], [x41]. repeat split.
    - split; [lia|]. exists [x07], [x00; x01]. repeat split.
    - split; [lia|]. exists [x05], [x00; x00; x00; x00; x00; x00; x00; x07]. repeat split; vm_compute; congruence. }
  split; [cbn; lia|].
  assert (Hl : match parse_class debug64 long_last with Ok c => length (constant_pool c) | _ => O end = 5%nat) by (vm_compute; reflexivity).
  rewrite H in Hl. rewrite Hl. discriminate.
Qed.

(** A file with 56 constants, one of them a long, which takes two indices. *)
Example C08_meets : sane debug64 sample /\ parse_class_with_options debug64 true sample = Ok sample_parsed
  /\ starts_with_pool sample 0 61 57 sample_constants sample_pieces sample_rest /\ fills (wrapping debug64) 57 1 sample_constants
  /\ wrapping debug64 = false /\ length (constant_pool sample_parsed) = 57%nat
  /\ nth_error (constant_pool sample_parsed) 9 = Some (ELong (-2)) /\ nth_error (constant_pool sample_parsed) 10 = Some EUnused.
Proof.
  split; [exact sample_sane|]. split; [exact sample_parse|]. split; [exact sample_starts|]. split; [exact sample_fills|].
  repeat split.
Qed.

(** ** C09 *)
(** All constants of an accepted file are valid: see [valid_constant] for the kinds and texts. *)
Theorem C09_references_valid E opts bs c minor major count cs ws rest : sane E bs ->
  parse_class_with_options E opts bs = Ok c ->
  starts_with_pool bs minor major count cs ws rest -> fills (wrapping E) count 1 cs ->
  Forall (valid_constant (cesu8 E) (slots_of cs) major) cs.
Proof.
  intros Hs H Hst Hf. destruct (accepted_lang _ _ _ _ Hs H) as (d & cs' & Hc).
  destruct (class_starts _ _ _ _ _ _ _ Hc) as (count' & ws' & rest' & H1 & H2 & H3 & _).
  destruct (pool_unique _ _ _ _ _ _ _ _ _ _ _ _ _ _ Hst H1 Hf H2) as (_ & -> & <- & <- & _ & _). exact H3.
Qed.
(** A file with an invalid constant is not accepted. *)
Theorem C09_invalid_reference_rejected E opts bs minor major count cs ws rest x : sane E bs ->
  starts_with_pool bs minor major count cs ws rest -> fills (wrapping E) count 1 cs ->
  In x cs -> ~ valid_constant (cesu8 E) (slots_of cs) major x ->
  ~ exists c, parse_class_with_options E opts bs = Ok c.
Proof.
  intros Hs Hst Hf Hin Hx (c & H). apply Hx.
  pose proof (C09_references_valid _ _ _ _ _ _ _ _ _ _ Hs H Hst Hf) as Hall. rewrite Forall_forall in Hall. auto.
Qed.
(** Every reference of an accepted file is in bounds, not to itself, and denotes a constant of another kind. *)
Theorem C09_references_resolve E opts bs c : sane E bs -> parse_class_with_options E opts bs = Ok c ->
  exists count cs ws rest, starts_with_pool bs (minor_version c) (major_version c) count cs ws rest
   /\ forall k x i, nth_error cs k = Some x -> In i (indices x) ->
      i < N.of_nat (length (constant_pool c)) /\ i <> index_of cs k
      /\ exists j t, nth_error cs j = Some t /\ i = index_of cs j
         /\ nth_error (constant_pool c) (N.to_nat i) = Some (entry_of (cesu8 E) t).
Proof.
  intros Hs H. destruct (C08_layout E opts bs c Hs H) as (count0 & cs0 & ws0 & rest0 & _).
  destruct (accepted_lang _ _ _ _ Hs H) as (d & cs & Hc).
  destruct (class_starts _ _ _ _ _ _ _ Hc) as (count & ws & rest & H1 & H2 & H3 & _).
  exists count, cs, ws, rest. split; auto. intros k x i Hx Hi.
  rewrite Forall_forall in H3. pose proof (H3 x (nth_error_In _ _ Hx)) as Hval.
  destruct (valid_target _ _ _ _ _ Hval Hi) as (t & Ht & Htag).
  destruct Hc as (_ & HP & _). rewrite HP. split; [apply (at_index_bound E (sane_stack _ _ Hs) cs i t Ht)|].
  destruct (at_index_of _ _ _ Hx) as [Ha _]. split.
  { intros ->. unfold at_index in *. rewrite Ht in Ha. injection Ha as ->. congruence. }
  destruct (at_index_inv _ _ _ Ht) as (j & Hj & ->). exists j, t. split; auto. split; auto.
  apply (at_index_entry (cesu8 E)) in Ht. exact Ht.
Qed.
(** The references of [sample] are valid; those of a file whose Class constant refers to itself are not. *)
Example C09_meets : sane debug64 sample /\ parse_class_with_options debug64 true sample = Ok sample_parsed
  /\ starts_with_pool sample 0 61 57 sample_constants sample_pieces sample_rest /\ fills (wrapping debug64) 57 1 sample_constants
  /\ In (CMethodHandle InvokeStatic 25) sample_constants /\ In (CInterfaceMethodref 6 21) sample_constants.
Proof.
  split; [exact sample_sane|]. split; [exact sample_parse|]. split; [exact sample_starts|]. split; [exact sample_fills|].
  vm_compute. tauto.
Qed.
Definition wrong_kind : list byte := unhex "cafebabe00000034 0003 070002 080001 0021 0001 0000 0000 0000 0000 0000".
Example C09_invalid_reference_meets : sane debug64 wrong_kind
  /\ starts_with_pool wrong_kind 0 52 3 [CClass 2; CString 1] [[x07; x00; x02]; [x08; x00; x01]] (skipn 16 wrong_kind)
  /\ fills (wrapping debug64) 3 1 [CClass 2; CString 1]
  /\ ~ valid_constant (cesu8 debug64) (slots_of [CClass 2; CString 1]) 52 (CClass 2).
Proof.
  split; [apply ample_sane, ampleb_ample; vm_compute; reflexivity|]. split; [|split].
  - exists [xca; xfe; xba; xbe], [x00; x00; x00; x34], [x00; x03].
    split; [piece|]. split; [piece|]. split; [piece|]. split; [vm_compute; reflexivity|]. pieces.
  - vm_compute. intuition discriminate.
  - intros (s & (r & Hr & _) & _). discriminate Hr.
Qed.
