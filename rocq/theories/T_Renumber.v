(** * Property theorems: the constants of a class may be written in another way (C73).

    Vocabulary: [S_Renumber], [S_Rewrite] ([two_bytes]), [S_Format], [S_Pool], [S_Env]. *)
From Verif Require Import Base M_Names M_Descriptors M_ConstantPool M_Bytecode M_Attributes M_Class M_Cesu8 Data Sample
  S_Lang S_Names S_Format S_Pool S_Within S_Env S_Rewrite S_Renumber P_Reads P_Tac P_Pool4 P_Class2 P_Class3 P_Layout P_Within T_Class T_Members T_Rewrite T_Rewrite2
  P_Renumber P_Renumber2.
From Coq Require Import Permutation ZifyBool ZifyNat ZifyN.

Lemma ample_length E bs bs' : length bs = length bs' -> ample E bs -> ample E bs'.
Proof.
  intros Hl [[H1 H2 H3 H4] H5]. assert (Hb : blen bs = blen bs') by (unfold blen; rewrite Hl; reflexivity).
  constructor; [constructor; auto|]; congruence.
Qed.

(** A class over other constants that offer as much. *)
Theorem C73_other_constants E opts bs c cs ws rest count cs' ws' count' :
  let head := firstn 8 bs ++ two_bytes count' ++ concat ws' in
  ample E bs -> ample E (head ++ rest) -> parse_class_with_options E opts bs = Ok c ->
  starts_with_pool bs (minor_version c) (major_version c) count cs ws rest -> fills (wrapping E) count 1 cs ->
  count' < 65536 -> fills (wrapping E) count' 1 cs' -> Forall2 (constant_lang (major_version c)) cs' ws' ->
  Forall (valid_constant (cesu8 E) (slots_of cs') (major_version c)) cs' ->
  offers (cesu8 E) (slots_of cs) (slots_of cs') -> bootstrap_rules cs' c ->
  exists rest' c', length rest' = length rest /\ parse_class_with_options E opts (head ++ rest') = Ok c'
    /\ same_but_pool c c' /\ constant_pool c' = pool_of (cesu8 E) (slots_of cs').
Proof.
  intros head Ha Ha' H Hst Hf Hlt Hf' Hws' Hval' Ho Hb. pose proof (ample_sane _ _ Ha) as Hs.
  destruct (proj1 (parse_Ok E opts (sane_stack _ _ Hs) bs c (sane_fits _ _ Hs)) H) as (cs1 & Hc).
  assert (Hcs : constants_of E bs cs) by (exists (minor_version c), (major_version c), count, ws, rest; auto).
  assert (cs1 = cs) as -> by (eapply constants_unique; [eapply class_constants; eauto|exact Hcs]).
  destruct (class_starts _ _ _ _ _ _ _ Hc) as (count1 & ws1 & rest1 & S1 & Hf1 & Hval1 & Hrest1).
  destruct (pool_unique _ _ _ _ _ _ _ _ _ _ _ _ _ _ Hst S1 Hf Hf1) as (_ & _ & _ & _ & <- & <-).
  destruct Hst as (m & vv & n & Hm & Hvv & Hn & He & Hws).
  assert (Hb8 : firstn 8 bs = m ++ vv).
  { rewrite He. destruct Hm as [Hm _]. destruct Hvv as (v1 & v2 & -> & [H1 _] & [H2 _]).
    rewrite app_assoc, firstn_app. replace (8 - length (m ++ v1 ++ v2))%nat with 0%nat by (rewrite !app_length; lia).
    rewrite firstn_all2 by (rewrite !app_length; lia). cbn [firstn]. rewrite app_nil_r. reflexivity. }
  assert (Hp : pool_lang (cesu8 E) (wrapping E) (major_version c) cs' (two_bytes count' ++ concat ws')).
  { exists count'. split; [|auto]. apply cat_intro; [apply two_bytes_u2; auto|]. apply many_concat. exists ws'. auto. }
  rewrite He in Hc. destruct (class_become _ _ _ _ _ _ _ _ _ _ _ _ _ Hm Hvv Hc Hrest1 Ho Hp Hb) as (c' & rest' & Hc' & El & Hsame & Hpool).
  exists rest', c'. split; [exact El|]. split; [|auto].
  assert (Hh : head ++ rest' = m ++ vv ++ (two_bytes count' ++ concat ws') ++ rest').
  { unfold head. rewrite Hb8, <- !app_assoc. reflexivity. }
  apply C01_parse_iff_format.
  - eapply ample_length; [|exact Ha']. rewrite !app_length, El. reflexivity.
  - rewrite Hh. exists (stack E), cs'. exact Hc'.
Qed.

(** The constants renumbered; constants that are the same may be merged. *)
Theorem C73_renumbered E opts bs c cs ws rest count new cs' ws' count' :
  let head := firstn 8 bs ++ two_bytes count' ++ concat ws' in
  ample E bs -> ample E (head ++ rest) -> parse_class_with_options E opts bs = Ok c ->
  starts_with_pool bs (minor_version c) (major_version c) count cs ws rest -> fills (wrapping E) count 1 cs ->
  count' < 65536 -> fills (wrapping E) count' 1 cs' -> Forall2 (constant_lang (major_version c)) cs' ws' ->
  renumbered new cs cs' ->
  exists rest' c', length rest' = length rest /\ parse_class_with_options E opts (head ++ rest') = Ok c'
    /\ same_but_pool c c' /\ constant_pool c' = pool_of (cesu8 E) (slots_of cs').
Proof.
  intros head Ha Ha' H Hst Hf Hlt Hf' Hws' Hr. pose proof (ample_sane _ _ Ha) as Hs.
  destruct (proj1 (parse_Ok E opts (sane_stack _ _ Hs) bs c (sane_fits _ _ Hs)) H) as (cs1 & Hc).
  assert (Hcs : constants_of E bs cs) by (exists (minor_version c), (major_version c), count, ws, rest; auto).
  assert (cs1 = cs) as -> by (eapply constants_unique; [eapply class_constants; eauto|exact Hcs]).
  destruct (class_starts _ _ _ _ _ _ _ Hc) as (_ & _ & _ & _ & _ & Hval & _).
  apply (C73_other_constants E opts bs c cs ws rest count cs' ws' count'); auto.
  - apply (all_valid _ new cs cs' Hr), Hval.
  - apply (renumbered_offers _ new), Hr.
  - destruct Hc as (_ & _ & _ & _ & _ & _ & Hb). exact (bootstrap_new new cs cs' Hr c Hb).
Qed.

(** The constants in another order: as long a file for the same class. *)
Theorem C73_reordered E opts bs c cs new cs' count' :
  ample E bs -> parse_class_with_options E opts bs = Ok c -> constants_of E bs cs ->
  reordered new cs cs' -> count' < 65536 -> fills (wrapping E) count' 1 cs' ->
  exists bs' c', length bs' = length bs /\ constants_of E bs' cs' /\ parse_class_with_options E opts bs' = Ok c'
    /\ same_but_pool c c' /\ constant_pool c' = pool_of (cesu8 E) (slots_of cs').
Proof.
  intros Ha H Hcs [Hr Hperm] Hlt Hf'. pose proof (ample_sane _ _ Ha) as Hs.
  destruct (proj1 (parse_Ok E opts (sane_stack _ _ Hs) bs c (sane_fits _ _ Hs)) H) as (cs1 & Hc).
  assert (cs1 = cs) as -> by (eapply constants_unique; [eapply class_constants; eauto|exact Hcs]).
  destruct (class_starts _ _ _ _ _ _ _ Hc) as (count & ws & rest & Hst & Hf & Hval & _).
  assert (Hws : Forall2 (constant_lang (major_version c)) cs ws) by (destruct Hst as (? & ? & ? & _ & _ & _ & _ & Hws); exact Hws).
  destruct (encodings_exist new cs cs' Hr _ _ Hperm Hws) as (ws' & Hws' & El).
  assert (Hlen : forall r, length r = length rest -> length (firstn 8 bs ++ two_bytes count' ++ concat ws' ++ r) = length bs).
  { intros r Hl. destruct Hst as (m & vv & n & [Hm _] & Hvv & [Hn _] & -> & _). destruct (two_bytes_u2 _ Hlt) as [Ht _].
    destruct Hvv as (v1 & v2 & -> & [H1 _] & [H2 _]). rewrite app_length, firstn_length, !app_length, Ht, El, Hl. lia. }
  destruct (C73_renumbered E opts bs c cs ws rest count new cs' ws' count') as (rest' & c' & E1 & Hp & Hsame & Hpool); auto.
  - eapply ample_length; [|exact Ha]. rewrite <- !app_assoc. symmetry. apply Hlen. reflexivity.
  - exists ((firstn 8 bs ++ two_bytes count' ++ concat ws') ++ rest'), c'. split; [rewrite <- !app_assoc; apply Hlen, E1|].
    split; [|auto]. destruct Hst as (m & vv & n & Hm & Hvv & Hn & He & _).
    assert (Hb8 : firstn 8 bs = m ++ vv).
    { rewrite He. destruct Hm as [Hm _]. destruct Hvv as (v1 & v2 & -> & [H1 _] & [H2 _]).
      rewrite app_assoc, firstn_app. replace (8 - length (m ++ v1 ++ v2))%nat with 0%nat by (rewrite !app_length; lia).
      rewrite firstn_all2 by (rewrite !app_length; lia). cbn [firstn]. rewrite app_nil_r. reflexivity. }
    exists (minor_version c), (major_version c), count', ws', rest'. split; [|exact Hf']. exists m, vv, (two_bytes count').
    split; auto. split; auto. split; [apply two_bytes_u2; auto|]. split; [|auto]. rewrite Hb8, <- !app_assoc. reflexivity.
Qed.

Lemma constant_eq_dec (a b : constant) : {a = b} + {a <> b}.
Proof. decide equality; try apply N.eq_dec; try apply Z.eq_dec; try (apply list_eq_dec, Byte.byte_eq_dec); decide equality. Defined.

(** The constants of the sample, the last one first. *)
Definition sample_new (i : N) : N :=
  match nth_error (slots_of sample_constants) (N.to_nat i) with
  | Some (Some c) => 58 - i - width c
  | _ => i
  end.
Definition sample_reversed : list constant := Eval vm_compute in rev (map (renumber sample_new) sample_constants).
Example C73_meets : ample debug64 sample /\ parse_class_with_options debug64 true sample = Ok sample_parsed
  /\ constants_of debug64 sample sample_constants /\ reordered sample_new sample_constants sample_reversed
  /\ 57 < 65536 /\ fills (wrapping debug64) 57 1 sample_reversed /\ sample_new 1 = 56 /\ sample_new 2 <> 2.
Proof.
  split; [apply ampleb_ample; vm_compute; reflexivity|]. split; [exact sample_parse|]. split; [exact sample_of|].
  split; [|split; [reflexivity|split; [vm_compute; repeat split; discriminate|split; [vm_compute; reflexivity|vm_compute; discriminate]]]].
  split; [constructor|].
  - unfold at_index. intros i c. rewrite <- (N2Nat.id i) at 2. generalize (N.to_nat i). intro k.
    assert (Hb : forallb (fun k => match nth_error (slots_of sample_constants) k with
        | Some (Some c) => match nth_error (slots_of sample_reversed) (N.to_nat (sample_new (N.of_nat k))) with
            | Some (Some c') => if constant_eq_dec c' (renumber sample_new c) then true else false | _ => false end
        | _ => true end) (seq 0 60) = true) by (vm_compute; reflexivity).
    intro Hk.
    assert (Hlt : (k < 60)%nat).
    { assert (k < length (slots_of sample_constants))%nat by (apply nth_error_Some; congruence).
      assert (length (slots_of sample_constants) = 57%nat) by (vm_compute; reflexivity). lia. }
    rewrite forallb_forall in Hb. specialize (Hb k ltac:(apply in_seq; lia)). rewrite Hk in Hb.
    destruct (nth_error (slots_of sample_reversed) _) as [[c'|]|]; try discriminate.
    destruct (constant_eq_dec c' (renumber sample_new c)) as [->|]; [reflexivity|discriminate].
  - unfold sample_reversed. intros c' Hin. change (In c' (rev (map (renumber sample_new) sample_constants))) in Hin.
    apply in_rev, in_map_iff in Hin. destruct Hin as (c & <- & Hin). eauto.
  - intros i Hi. unfold sample_new. destruct (nth_error _ _) as [[c|]|]; lia.
  - intros i c _ _ Hi. unfold sample_new. destruct (nth_error _ _) as [[c0|]|]; lia.
  - unfold sample_reversed. change (Permutation (map (renumber sample_new) sample_constants) (rev (map (renumber sample_new) sample_constants))).
    apply Permutation_rev.
Qed.

(** The sample with a second copy of its first two constants, a text and the class of that
    name; merging the copies gives the constants of the sample. *)
Definition double_constants : list constant := Eval vm_compute in
  sample_constants ++ [nth 0 sample_constants (CInteger 0); CClass 57].
Definition double_pieces : list (list byte) := Eval vm_compute in
  sample_pieces ++ [nth 0 sample_pieces []; [x07; x00; x39]].
Definition double_file : list byte := Eval vm_compute in
  firstn 8 sample ++ [x00; x3b] ++ concat double_pieces ++ sample_rest.
Definition double_new (i : N) : N := if i =? 57 then 1 else if i =? 58 then 2 else i.
Definition double_parsed : class_file := Eval vm_compute in
  match parse_class_with_options debug64 true double_file with Ok c => c | _ => sample_parsed end.
Example C73_meets_merged : let head := firstn 8 double_file ++ two_bytes 57 ++ concat sample_pieces in
  ample debug64 double_file /\ ample debug64 (head ++ sample_rest)
  /\ parse_class_with_options debug64 true double_file = Ok double_parsed
  /\ starts_with_pool double_file (minor_version double_parsed) (major_version double_parsed) 59 double_constants double_pieces sample_rest
  /\ fills (wrapping debug64) 59 1 double_constants /\ fills (wrapping debug64) 57 1 sample_constants
  /\ Forall2 (constant_lang (major_version double_parsed)) sample_constants sample_pieces
  /\ renumbered double_new double_constants sample_constants /\ double_new 57 = double_new 1.
Proof.
  intro head. pose proof sample_starts as (m & v & n & Hm & Hv & Hn & He & Hp).
  split; [apply ampleb_ample; vm_compute; reflexivity|]. split; [apply ampleb_ample; vm_compute; reflexivity|].
  split; [vm_compute; reflexivity|]. split; [|split; [|split; [exact sample_fills|split; [exact Hp|split; [|reflexivity]]]]].
  - exists [xca; xfe; xba; xbe], [x00; x00; x00; x3d], [x00; x3b]. split; [split; reflexivity|].
    split; [exists [x00; x00], [x00; x3d]; split; [reflexivity|split; split; reflexivity]|]. split; [split; reflexivity|].
    split; [vm_compute; reflexivity|].
    assert (E1 : double_constants = sample_constants ++ [nth 0 sample_constants (CInteger 0); CClass 57]) by (vm_compute; reflexivity).
    assert (E2 : double_pieces = sample_pieces ++ [nth 0 sample_pieces []; [x07; x00; x39]]) by (vm_compute; reflexivity).
    rewrite E1, E2. apply Forall2_app; [exact Hp|]. constructor; [|constructor; [|constructor]].
    + split; [vm_compute; discriminate|]. exists [x01], (tl (nth 0 sample_pieces [])). split; [vm_compute; reflexivity|]. split; [split; reflexivity|].
      exists [x00; x06], (skipn 3 (nth 0 sample_pieces [])). split; [vm_compute; reflexivity|]. split; [split; vm_compute; reflexivity|vm_compute; reflexivity].
    + split; [vm_compute; discriminate|]. exists [x07], [x00; x39]. split; [reflexivity|]. split; split; reflexivity.
  - vm_compute. intuition discriminate.
  - constructor.
    + unfold at_index. intros i c. rewrite <- (N2Nat.id i) at 2. generalize (N.to_nat i). intro k.
      assert (Hb : forallb (fun k => match nth_error (slots_of double_constants) k with
          | Some (Some c) => match nth_error (slots_of sample_constants) (N.to_nat (double_new (N.of_nat k))) with
              | Some (Some c') => if constant_eq_dec c' (renumber double_new c) then true else false | _ => false end
          | _ => true end) (seq 0 60) = true) by (vm_compute; reflexivity).
      intro Hk.
      assert (Hlt : (k < 60)%nat).
      { assert (k < length (slots_of double_constants))%nat by (apply nth_error_Some; congruence).
        assert (length (slots_of double_constants) = 59%nat) by (vm_compute; reflexivity). lia. }
      rewrite forallb_forall in Hb. specialize (Hb k ltac:(apply in_seq; lia)). rewrite Hk in Hb.
      destruct (nth_error (slots_of sample_constants) _) as [[c'|]|]; try discriminate.
      destruct (constant_eq_dec c' (renumber double_new c)) as [->|]; [reflexivity|discriminate].
    + assert (Hb : forallb (fun c' => existsb (fun c => if constant_eq_dec c' (renumber double_new c) then true else false) double_constants) sample_constants = true)
        by (vm_compute; reflexivity).
      intros c' Hin. rewrite forallb_forall in Hb. specialize (Hb _ Hin). apply existsb_exists in Hb. destruct Hb as (c & Hc & Hd).
      exists c. split; [exact Hc|]. destruct (constant_eq_dec c' (renumber double_new c)) as [E|]; [exact E|discriminate].
    + intros i Hi. unfold double_new. destruct (i =? 57); [lia|]. destruct (i =? 58); lia.
    + intros i c _ _ Hi. unfold double_new. destruct (i =? 57); [lia|]. destruct (i =? 58); lia.
Qed.
