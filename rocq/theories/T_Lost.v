(** * Property theorems: what parsing forgets (C68). *)
From Verif Require Import Base M_Names M_Descriptors M_ConstantPool M_Bytecode M_Attributes M_Class M_Cesu8 Data Sample
  S_Lang S_Names S_Format S_Lost S_Pool S_Env P_Reads P_Tac P_Class3 P_Assemble P_Lost T_Class T_Members.
From Coq Require Import ZifyBool ZifyNat ZifyN.

Lemma rigid_constant major c : rigid (constant_lang major c).
Proof.
  destruct c; cbn [constant_lang]; intros w w' [_ H] [_ H']; revert w w' H H';
    match goal with |- forall w w', ?L w -> ?L w' -> _ => change (rigid L) end; unfold u1, u2, u4, u8, s4, s8;
    repeat first [apply rigid_uint | apply rigid_sint | apply rigid_raw | apply rigid_cat].
Qed.
Lemma fills_twice wraps n n' cs : forall i, cs <> [] -> fills wraps n i cs -> fills wraps n' i cs ->
  n = n' \/ exists cs0 c, cs = cs0 ++ [c] /\ is_wide c = true.
Proof.
  induction cs as [|c cs IH]; intros i Hne H H'; [congruence|].
  destruct cs as [|c2 cs].
  - destruct (is_wide c) eqn:Hw; [right; exists [], c; auto|left]. cbn [fills] in H, H'. unfold width in H, H'. rewrite Hw in H, H'. cbv zeta in H, H'.
    destruct (i + 1 <? 65536); [lia|]. destruct H as (H & _ & H1), H' as (H' & _ & H1'). lia.
  - assert (Hn2 : c2 :: cs <> []) by discriminate.
    assert (Hc : n = n' \/ exists cs0 c', c2 :: cs = cs0 ++ [c'] /\ is_wide c' = true).
    { cbn [fills] in H, H'. cbv zeta in H, H'. destruct H as [_ H], H' as [_ H']. destruct (i + width c <? 65536).
      - exact (IH _ Hn2 H H').
      - destruct H as [_ H], H' as [_ H']. exact (IH _ Hn2 H H'). }
    destruct Hc as [->|(cs0 & c' & He & Hw)]; [left; reflexivity|right]. exists (c :: cs0), c'. split; [cbn; rewrite <- He; reflexivity|exact Hw].
Qed.

(** Two files with the same constants that are parsed to the same value are alike in the sense of [class_alike]. *)
Theorem C68_what_parsing_forgets E opts bs bs' c cs : sane E bs -> sane E bs' ->
  parse_class_with_options E opts bs = Ok c -> parse_class_with_options E opts bs' = Ok c ->
  constants_of E bs cs -> constants_of E bs' cs -> class_alike (cesu8 E) cs bs bs'.
Proof.
  intros Hs Hs' H H' Hc Hc'. destruct (accepted_with _ _ _ _ _ Hs H Hc) as (d & [Hl _]). destruct (accepted_with _ _ _ _ _ Hs' H' Hc') as (d' & [Hl' _]).
  destruct Hl as (m & x & -> & Hm & v1 & x2 & -> & Hv1 & v2 & x3 & -> & Hv2 & p & x4 & -> & (n & (nw & pw & -> & Hn & Hp) & Hf & _)
    & f & x5 & -> & Hfl & t & x6 & -> & Ht & su & x7 & -> & Hsu & ifs & x8 & -> & Hi & fs & x9 & -> & Hfs & ms & at_ & -> & Hms & Hat).
  destruct Hl' as (m' & x' & -> & Hm' & v1' & x2' & -> & Hv1' & v2' & x3' & -> & Hv2' & p' & x4' & -> & (n' & (nw' & pw' & -> & Hn' & Hp') & Hf' & Hval)
    & f' & x5' & -> & Hfl' & t' & x6' & -> & Ht' & su' & x7' & -> & Hsu' & ifs' & x8' & -> & Hi' & fs' & x9' & -> & Hfs' & ms' & at' & -> & Hms' & Hat').
  rewrite (rigid_uint _ _ _ _ Hm' Hm), (rigid_uint _ _ _ _ Hv1' Hv1), (rigid_uint _ _ _ _ Hv2' Hv2).
  assert (Hr : rigid (many (constant_lang (major_version c)) cs)) by (apply rigid_many; intro; apply rigid_constant). rewrite (Hr _ _ Hp' Hp).
  assert (Hne : cs <> []).
  { intros ->. destruct Ht as (i & _ & ((j & Hj & _) & _)). unfold at_index, slots_of in Hj. destruct (N.to_nat i) as [|[]]; discriminate Hj. }
  exists (m ++ v1 ++ v2), nw, nw', pw, f, f', (t ++ su ++ ifs), (t' ++ su' ++ ifs'), fs, fs', ms, ms', at_, at'.
  repeat rewrite <- app_assoc. split; [reflexivity|]. split; [reflexivity|].
  split; [rewrite !app_length, (proj1 Hm), (proj1 Hv1), (proj1 Hv2); reflexivity|].
  split; [exact (proj1 Hn)|]. split; [exact (proj1 Hn')|].
  split.
  { destruct (fills_twice _ _ _ _ _ Hne Hf Hf') as [->|Hw]; [left; exact (rigid_uint _ _ _ _ Hn Hn')|right; exact Hw]. }
  split; [exists (access_flags c); auto|].
  split.
  { assert (Hcl : says (cesu8 E) (slots_of cs) (that (class_at (cesu8 E) (slots_of cs)) class_name)) by (apply says_that, says_class).
    apply alike_both; [exact (det_says _ _ _ _ _ Hcl _ _ Ht Ht')|]. apply alike_both.
    - apply (det_opt _ _ nothing _ (super_class c) (fun a => det_says _ _ _ _ a Hcl) _ _ Hsu Hsu').
    - apply (det_table _ _ nothing 2 _ _ (interfaces c) (fun a => det_says _ _ _ _ a Hcl) _ _ Hi Hi'). }
  split; [exact (det_table _ _ _ 2 _ _ (fields c) (fun a => det_field _ _ _ _ _ _ a) _ _ Hfs Hfs')|].
  split; [exact (det_table _ _ _ 2 _ _ (methods c) (fun a => det_method _ _ _ _ _ _ _ a) _ _ Hms Hms')|].
  exact (det_attributes _ _ _ _ d d' (class_attributes c) _ _ Hat Hat').
Qed.

(** If no two constants say the same, "the same bytes but for indices" are the same bytes. *)
Theorem C68_distinct_constants dec sl w w' : (forall i j, lookalike dec sl i j -> i = j) -> alike dec sl nothing w w' -> w = w'.
Proof.
  intros Hd H. induction H as [w|i j w w' Hi Hj Hl|w w' []|u u' v v' _ IH1 _ IH2]; [reflexivity| |congruence].
  rewrite <- (Hd _ _ Hl) in Hj. exact (rigid_uint _ _ _ _ Hi Hj).
Qed.

(** Two files that are parsed to the same value: they differ in the number written for the constants, in access flags of the class
    and of a method, in the index of the name of the class, in the form of a frame (hence in three lengths) and in a type target. *)
Definition said_so : list byte := Eval vm_compute in unhex
  "cafebabe00000034 000d 01000141 070001 01000141 070003 01001d52756e74696d6556697369626c6554797065416e6e6f746174696f6e73 01000d537461636b4d61705461626c65 010004436f6465 0100016d 010003282956 0100034c413b 050000000000000007
   0021 0002 0000 0000 0000 0001 0009 0008 0009 0001 0007 00000016 0000 0000 00000001 b1 0000 0001 0006 00000003 0001 00
   0001 0005 00000008 0001 13 00 000a 0000".
Definition said_otherwise : list byte := Eval vm_compute in unhex
  "cafebabe00000034 000c 01000141 070001 01000141 070003 01001d52756e74696d6556697369626c6554797065416e6e6f746174696f6e73 01000d537461636b4d61705461626c65 010004436f6465 0100016d 010003282956 0100034c413b 050000000000000007
   0023 0004 0000 0000 0000 0001 8009 0008 0009 0001 0007 00000018 0000 0000 00000001 b1 0000 0001 0006 00000005 0001 fb0000
   0001 0005 00000008 0001 14 00 000a 0000".
Definition said_constants : list constant := Eval vm_compute in
  [CUtf8 (unhex "41"); CClass 1; CUtf8 (unhex "41"); CClass 3; CUtf8 (unhex "52756e74696d6556697369626c6554797065416e6e6f746174696f6e73"); CUtf8 (unhex "537461636b4d61705461626c65"); CUtf8 (unhex "436f6465"); CUtf8 (unhex "6d"); CUtf8 (unhex "282956"); CUtf8 (unhex "4c413b"); CLong 7].
Definition said_pieces : list (list byte) := [[x01; x00; x01; x41]; [x07; x00; x01]; [x01; x00; x01; x41]; [x07; x00; x03]; [x01; x00; x1d; x52; x75; x6e; x74; x69; x6d; x65; x56; x69; x73; x69; x62; x6c; x65; x54; x79; x70; x65; x41; x6e; x6e; x6f; x74; x61; x74; x69; x6f; x6e; x73]; [x01; x00; x0d; x53; x74; x61; x63; x6b; x4d; x61; x70; x54; x61; x62; x6c; x65]; [x01; x00; x04; x43; x6f; x64; x65]; [x01; x00; x01; x6d]; [x01; x00; x03; x28; x29; x56]; [x01; x00; x03; x4c; x41; x3b]; [x05; x00; x00; x00; x00; x00; x00; x00; x07]].
Definition said_parsed : class_file := Eval vm_compute in
  match parse_class_with_options debug64 true said_so with Ok c => c | _ => mk_class 0 0 [] 0 [] None [] [] [] [] end.
Example C68_meets : sane debug64 said_so /\ sane debug64 said_otherwise
  /\ parse_class_with_options debug64 true said_so = Ok said_parsed /\ parse_class_with_options debug64 true said_otherwise = Ok said_parsed
  /\ constants_of debug64 said_so said_constants /\ constants_of debug64 said_otherwise said_constants
  /\ length said_so <> length said_otherwise /\ length (methods said_parsed) = 1%nat /\ length (class_attributes said_parsed) = 1%nat.
Proof.
  split; [apply ample_sane, ampleb_ample; vm_compute; reflexivity|]. split; [apply ample_sane, ampleb_ample; vm_compute; reflexivity|].
  split; [vm_compute; reflexivity|]. split; [vm_compute; reflexivity|].
  split.
  { exists 0, 52, 13, said_pieces, (skipn 104 said_so). split.
    - exists [xca; xfe; xba; xbe], [x00; x00; x00; x34], [x00; x0d].
      split; [piece|]. split; [piece|]. split; [piece|]. split; [vm_compute; reflexivity|]. pieces.
    - vm_compute. intuition discriminate. }
  split.
  { exists 0, 52, 12, said_pieces, (skipn 104 said_otherwise). split.
    - exists [xca; xfe; xba; xbe], [x00; x00; x00; x34], [x00; x0c].
      split; [piece|]. split; [piece|]. split; [piece|]. split; [vm_compute; reflexivity|]. pieces.
    - vm_compute. intuition discriminate. }
  split; [discriminate|]. split; reflexivity.
Qed.
(** Two constants, both distinct; the index of the class. *)
Definition few : slots := Eval vm_compute in slots_of [CUtf8 (unhex "41"); CClass 1].
Lemma few_at n c : at_index few n c -> match c with CUtf8 _ => n = 1 | CClass _ => n = 2 | _ => False end.
Proof.
  unfold at_index. intro H. destruct (N.to_nat n) as [|[|[|k]]] eqn:Hk; cbn in H; try discriminate H; try (injection H as <-; lia). destruct k; discriminate H.
Qed.
Example C68_distinct_meets : (forall i j, lookalike (cesu8 debug64) few i j -> i = j)
  /\ alike (cesu8 debug64) few nothing ([x00] ++ [x00; x02]) ([x00] ++ [x00; x02]).
Proof.
  split.
  - intros i j [it H H'|s H H'|d s t H H' _ _|d s t H H' _ _];
    [destruct it as [l| | | | | | | | | | |]; [destruct l|..]|..]; cbn in H, H';
    unfold class_at, module_at, package_at, member_at, method_handle_at, dynamic_at, invoke_dynamic_at, method_type_at, name_and_type_at, utf8_at in *;
    repeat match goal with H : ex _ |- _ => destruct H | H : _ /\ _ |- _ => destruct H end;
    repeat match goal with H : at_index few _ _ |- _ => apply few_at in H; cbn in H end; try contradiction; congruence.
  - apply alike_both; [apply alike_same|]. apply (alike_index _ _ _ 2 2); [split; reflexivity|split; reflexivity|].
    apply (same_item _ _ _ _ (ItClassInfo (lit "A"))); (exists 1; split; [reflexivity|]; exists [x41]; split; [reflexivity|vm_compute; reflexivity]).
Qed.
