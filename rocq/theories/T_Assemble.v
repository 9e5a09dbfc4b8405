(** * Property theorems: instructions and their offsets determine the bytecode (C67).

    [bytecode_of c cd bc] : [bc] is the parsed bytecode of some Code attribute [cd], wherever it is in the class [c].
    [constants_of E bs cs] : [cs] are the constants the file [bs] starts with.  [padding], [about], [in_index] : S_Assemble. *)
From Verif Require Import Base M_Names M_Descriptors M_ConstantPool M_Bytecode M_Attributes M_Class M_Cesu8 Data Sample
  S_Lang S_Names S_Format S_Assemble S_Pool S_Within S_Env P_Reads P_Tac P_Insn P_Insn2 P_Bytecode P_Class3 P_Layout P_Within P_Code P_Assemble T_Class T_Members T_Bytecode.
From Coq Require Import ZifyBool ZifyNat ZifyN.

(** Two arrays of bytecode, of two files (or of one) that have the same constants, have the same length and are decoded to the same
    instructions at the same offsets.  A byte in which they differ is in the padding of a switch, or belongs to the indices of two
    constants, either of which is what the instruction says it is about. *)
Theorem C67_instructions_determine_code E opts bs c cd bc opts' bs' c' cd' bc' cs : sane E bs -> sane E bs' ->
  parse_class_with_options E opts bs = Ok c -> parse_class_with_options E opts' bs' = Ok c' -> constants_of E bs cs -> constants_of E bs' cs ->
  bytecode_of c cd bc -> bytecode_of c' cd' bc' -> opcodes bc = opcodes bc' -> length (cd_code cd) = length (cd_code cd') ->
  forall i b b', nth_error (cd_code cd) i = Some b -> nth_error (cd_code cd') i = Some b' -> b <> b' ->
  padding (opcodes bc) (N.of_nat i)
  \/ exists o op n n' it it', In (o, op) (opcodes bc) /\ in_index o op (N.of_nat i) /\ n <> n'
       /\ about (cesu8 E) (slots_of cs) (cd_code cd) o op n it /\ about (cesu8 E) (slots_of cs) (cd_code cd') o op n' it'.
Proof.
  intros Hs Hs' H H' Hc Hc' Hb Hb' Ho Hl i b b' Hi Hi' Hne.
  destruct (code_formatted _ _ _ _ _ _ _ Hs H Hc Hb) as [[Hf _] _]. destruct (code_formatted _ _ _ _ _ _ _ Hs' H' Hc' Hb') as [[Hf' _] _].
  rewrite <- Ho in Hf'.
  exact (insns_differ (cesu8 E) (slots_of cs) (wrapping E) _ 0 [] [] _ _ eq_refl eq_refl Hf Hf' Hl i b b' Hi Hi' Hne).
Qed.

(** No two constants look alike to an iteration over them, or differ in the kind of a method only. *)
Definition distinct (E : env) (cs : list constant) : Prop :=
  (forall n n' it, item_at (cesu8 E) (slots_of cs) n it -> item_at (cesu8 E) (slots_of cs) n' it -> n = n')
  /\ (forall n n' m, item_at (cesu8 E) (slots_of cs) n (ItMethodRef m) -> ~ item_at (cesu8 E) (slots_of cs) n' (ItInterfaceMethodRef m)).
Theorem C67_distinct_constants E opts bs c cd bc opts' bs' c' cd' bc' cs : sane E bs -> sane E bs' ->
  parse_class_with_options E opts bs = Ok c -> parse_class_with_options E opts' bs' = Ok c' -> constants_of E bs cs -> constants_of E bs' cs ->
  distinct E cs ->
  bytecode_of c cd bc -> bytecode_of c' cd' bc' -> opcodes bc = opcodes bc' -> length (cd_code cd) = length (cd_code cd') ->
  (forall i, ~ padding (opcodes bc) (N.of_nat i) -> nth_error (cd_code cd) i = nth_error (cd_code cd') i)
  /\ ((forall o op, In (o, op) (opcodes bc) -> ~ is_switch op) -> cd_code cd = cd_code cd').
Proof.
  intros Hs Hs' H H' Hc Hc' [Hd1 Hd2] Hb Hb' Ho Hl.
  assert (Hmain : forall i, ~ padding (opcodes bc) (N.of_nat i) -> nth_error (cd_code cd) i = nth_error (cd_code cd') i).
  { intros i Hp. destruct (nth_error (cd_code cd) i) as [b|] eqn:Hi, (nth_error (cd_code cd') i) as [b'|] eqn:Hi'.
    - destruct (Byte.eqb b b') eqn:He; [f_equal; apply Byte.byte_dec_bl, He|].
      assert (Hne : b <> b') by (intros ->; rewrite (Byte.byte_dec_lb eq_refl) in He; discriminate). exfalso.
      destruct (C67_instructions_determine_code _ _ _ _ _ _ _ _ _ _ _ _ Hs Hs' H H' Hc Hc' Hb Hb' Ho Hl i b b' Hi Hi' Hne)
        as [Hx|(o & op & n & n' & it & it' & Hin & _ & Hn & (_ & Hit & Ha) & (_ & Hit' & Ha'))]; [contradiction|].
      assert (Hcase : it = it' \/ (exists m, (it = ItMethodRef m /\ it' = ItInterfaceMethodRef m) \/ (it' = ItMethodRef m /\ it = ItInterfaceMethodRef m))).
      { destruct op; cbn in Hit, Hit'; try contradiction;
          repeat match goal with H : _ \/ _ |- _ => destruct H end; try contradiction; subst; eauto 6. }
      destruct Hcase as [->|(m & [[-> ->]|[-> ->]])]; [exact (Hn (Hd1 _ _ _ Ha Ha'))|exact (Hd2 _ _ _ Ha Ha')|exact (Hd2 _ _ _ Ha' Ha)].
    - exfalso. apply nth_error_None in Hi'. assert (nth_error (cd_code cd) i <> None) as Hx by congruence. apply nth_error_Some in Hx. lia.
    - exfalso. apply nth_error_None in Hi. assert (nth_error (cd_code cd') i <> None) as Hx by congruence. apply nth_error_Some in Hx. lia.
    - reflexivity. }
  split; [exact Hmain|]. intro Hno. apply nth_error_ext. intro i. apply Hmain. intros (o & op & Hin & Hsw & _). exact (Hno _ _ Hin Hsw).
Qed.

(** The padding is not looked at. *)
Theorem C67_padding_is_free E cs code code' bc : fits E code -> bytecode_from E code (pool_of (cesu8 E) (slots_of cs)) = Ok bc ->
  length code' = length code -> (forall i, ~ padding (opcodes bc) (N.of_nat i) -> nth_error code' i = nth_error code i) ->
  bytecode_from E code' (pool_of (cesu8 E) (slots_of cs)) = Ok bc.
Proof.
  intros Hfit H Hl Hi. apply (bytecode_from_Ok E cs) in H; [|exact Hfit]. destruct H as [H Hj].
  apply (bytecode_from_Ok E cs); [destruct Hfit as [Hf1 Hf2]; split; unfold blen in *; rewrite ?Hl; assumption|]. split; [|exact Hj].
  apply (insns_repad _ _ _ _ _ _ _ H Hl). exact Hi.
Qed.

(** One class with two methods A.m()V and A.n()V, each of them: nop, invokestatic A.m()V, a tableswitch.  The first method calls
    the method of a class, the second that of an interface; the padding of the switches differs, too. *)
Definition two_kinds : list byte := Eval vm_compute in unhex
  "cafebabe00000034 000a 01000141070001 0100016d 010003282956 0c00030004 0a00020005 0b00020005 010004436f6465 0100016e
   0021 0002 0000 0000 0000 0002
   0009 0003 0004 0001 0008 00000024 0000 0000 00000018 00 b80006 aa 000000 fffffffc 00000000 00000000 fffffffc 0000 0000
   0009 0009 0004 0001 0008 00000024 0000 0000 00000018 00 b80007 aa 00ff00 fffffffc 00000000 00000000 fffffffc 0000 0000
   0000".
Definition two_kinds_constants : list constant := Eval vm_compute in
  [CUtf8 (unhex "41"); CClass 1; CUtf8 (unhex "6d"); CUtf8 (unhex "282956"); CNameAndType 3 4; CMethodref 2 5; CInterfaceMethodref 2 5; CUtf8 (unhex "436f6465"); CUtf8 (unhex "6e")].
Definition two_kinds_parsed : class_file := Eval vm_compute in
  match parse_class_with_options debug64 true two_kinds with Ok c => c | _ => mk_class 0 0 [] 0 [] None [] [] [] [] end.
Definition code_in (c : class_file) (k : nat) : code_data :=
  match nth_error (methods c) k with
  | Some m => match m_attributes m with mk_attr _ (ACode cd) :: _ => cd | _ => mk_code 0 0 [] None [] [] end
  | None => mk_code 0 0 [] None [] []
  end.
Definition two_kinds_code : code_data := Eval vm_compute in code_in two_kinds_parsed 0.
Definition two_kinds_code' : code_data := Eval vm_compute in code_in two_kinds_parsed 1.
Definition two_kinds_bytecode : byte_code := Eval vm_compute in match cd_bytecode two_kinds_code with Some bc => bc | None => mk_bc [] end.
Lemma two_kinds_sane : sane debug64 two_kinds.
Proof. apply ample_sane, ampleb_ample. vm_compute. reflexivity. Qed.
Lemma two_kinds_parse : parse_class_with_options debug64 true two_kinds = Ok two_kinds_parsed.
Proof. vm_compute. reflexivity. Qed.
Lemma two_kinds_of : constants_of debug64 two_kinds two_kinds_constants.
Proof.
  exists 0, 52, 10, [[x01; x00; x01; x41]; [x07; x00; x01]; [x01; x00; x01; x6d]; [x01; x00; x03; x28; x29; x56]; [x0c; x00; x03; x00; x04];
    [x0a; x00; x02; x00; x05]; [x0b; x00; x02; x00; x05]; [x01; x00; x04; x43; x6f; x64; x65]; [x01; x00; x01; x6e]], (skipn 53 two_kinds).
  split.
  - exists [xca; xfe; xba; xbe], [x00; x00; x00; x34], [x00; x0a].
    split; [piece|]. split; [piece|]. split; [piece|]. split; [vm_compute; reflexivity|]. pieces.
  - vm_compute. intuition discriminate.
Qed.
Lemma two_kinds_bytecode_of : bytecode_of two_kinds_parsed two_kinds_code two_kinds_bytecode /\ bytecode_of two_kinds_parsed two_kinds_code' two_kinds_bytecode.
Proof.
  split.
  - eexists. split; [|reflexivity]. eapply of_method; [left; reflexivity|left; reflexivity].
  - eexists. split; [|reflexivity]. eapply of_method; [right; left; reflexivity|left; reflexivity].
Qed.
(** The hypotheses of [C67_instructions_determine_code] hold, and there are bytes of both sorts that differ. *)
Example C67_meets : sane debug64 two_kinds /\ parse_class_with_options debug64 true two_kinds = Ok two_kinds_parsed
  /\ constants_of debug64 two_kinds two_kinds_constants
  /\ bytecode_of two_kinds_parsed two_kinds_code two_kinds_bytecode /\ bytecode_of two_kinds_parsed two_kinds_code' two_kinds_bytecode
  /\ length (cd_code two_kinds_code) = 24%nat /\ length (cd_code two_kinds_code') = 24%nat
  /\ nth_error (cd_code two_kinds_code) 3 = Some x06 /\ nth_error (cd_code two_kinds_code') 3 = Some x07
  /\ nth_error (cd_code two_kinds_code) 6 = Some x00 /\ nth_error (cd_code two_kinds_code') 6 = Some xff /\ padding (opcodes two_kinds_bytecode) 6.
Proof.
  split; [exact two_kinds_sane|]. split; [exact two_kinds_parse|]. split; [exact two_kinds_of|].
  split; [apply two_kinds_bytecode_of|]. split; [apply two_kinds_bytecode_of|]. repeat (split; [reflexivity|]).
  eexists _, _. split; [right; right; left; reflexivity|]. split; [exact I|]. split; reflexivity.
Qed.

(** What the instructions do not tell: whether invokestatic (or invokespecial) calls a method of a class or of an interface. *)
Theorem C67_kind_is_lost : exists bs c cs cd cd' bc m, sane debug64 bs /\ parse_class_with_options debug64 true bs = Ok c /\ constants_of debug64 bs cs
  /\ bytecode_of c cd bc /\ bytecode_of c cd' bc /\ In (1, OpInvokestatic m) (opcodes bc)
  /\ about (cesu8 debug64) (slots_of cs) (cd_code cd) 1 (OpInvokestatic m) 6 (ItMethodRef m)
  /\ about (cesu8 debug64) (slots_of cs) (cd_code cd') 1 (OpInvokestatic m) 7 (ItInterfaceMethodRef m).
Proof.
  exists two_kinds, two_kinds_parsed, two_kinds_constants, two_kinds_code, two_kinds_code', two_kinds_bytecode. eexists.
  split; [exact two_kinds_sane|]. split; [exact two_kinds_parse|]. split; [exact two_kinds_of|].
  split; [apply two_kinds_bytecode_of|]. split; [apply two_kinds_bytecode_of|]. split; [right; left; reflexivity|].
  assert (Hu : forall n raw s, nth_error (slots_of two_kinds_constants) (N.to_nat n) = Some (Some (CUtf8 raw)) -> cesu8 debug64 raw = Some s ->
    utf8_at (cesu8 debug64) (slots_of two_kinds_constants) n s) by (intros; eexists; split; eassumption).
  split; (split; [|split; [cbn; tauto|]]).
  - exists [x00], xb8, [x00; x06], (skipn 4 (cd_code two_kinds_code)). repeat split.
  - eexists 2, 5. split; [reflexivity|]. split.
    + exists 1. split; [reflexivity|]. apply (Hu 1 [x41]); vm_compute; reflexivity.
    + exists 3, 4. split; [reflexivity|]. split; [apply (Hu 3 [x6d])|apply (Hu 4 [x28; x29; x56])]; vm_compute; reflexivity.
  - exists [x00], xb8, [x00; x07], (skipn 4 (cd_code two_kinds_code')). repeat split.
  - eexists 2, 5. split; [reflexivity|]. split.
    + exists 1. split; [reflexivity|]. apply (Hu 1 [x41]); vm_compute; reflexivity.
    + exists 3, 4. split; [reflexivity|]. split; [apply (Hu 3 [x6d])|apply (Hu 4 [x28; x29; x56])]; vm_compute; reflexivity.
Qed.

(** The same class without the constant for the method of an interface: its constants are distinct. *)
Definition one_kind : list byte := Eval vm_compute in unhex
  "cafebabe00000034 0009 01000141070001 0100016d 010003282956 0c00030004 0a00020005 010004436f6465 0100016e
   0021 0002 0000 0000 0000 0002
   0009 0003 0004 0001 0007 00000024 0000 0000 00000018 00 b80006 aa 000000 fffffffc 00000000 00000000 fffffffc 0000 0000
   0009 0008 0004 0001 0007 00000024 0000 0000 00000018 00 b80006 aa 00ff00 fffffffc 00000000 00000000 fffffffc 0000 0000
   0000".
Definition one_kind_constants : list constant := Eval vm_compute in
  [CUtf8 (unhex "41"); CClass 1; CUtf8 (unhex "6d"); CUtf8 (unhex "282956"); CNameAndType 3 4; CMethodref 2 5; CUtf8 (unhex "436f6465"); CUtf8 (unhex "6e")].
Definition one_kind_parsed : class_file := Eval vm_compute in
  match parse_class_with_options debug64 true one_kind with Ok c => c | _ => mk_class 0 0 [] 0 [] None [] [] [] [] end.
Definition one_kind_code : code_data := Eval vm_compute in code_in one_kind_parsed 0.
Definition one_kind_code' : code_data := Eval vm_compute in code_in one_kind_parsed 1.
Definition one_kind_bytecode : byte_code := Eval vm_compute in match cd_bytecode one_kind_code with Some bc => bc | None => mk_bc [] end.
Lemma one_at n c : at_index (slots_of one_kind_constants) n c ->
  match c with CUtf8 _ => True | CClass _ => n = 2 | CNameAndType _ _ => n = 5 | CMethodref _ _ => n = 6 | _ => False end.
Proof.
  unfold at_index. intro H. destruct (N.to_nat n) as [|[|[|[|[|[|[|[|[|k]]]]]]]]] eqn:Hk; cbn in H;
    try discriminate H; try (injection H as <-; (exact I || lia)). destruct k; discriminate H.
Qed.
Lemma one_distinct : distinct debug64 one_kind_constants.
Proof.
  split.
  - intros n n' it H H'. destruct it as [l| | | | | | | | | | |]; [destruct l|..]; cbn in H, H';
    unfold class_at, module_at, package_at, member_at, method_handle_at, dynamic_at, invoke_dynamic_at, method_type_at, name_and_type_at in *;
    repeat match goal with H : ex _ |- _ => destruct H | H : _ /\ _ |- _ => destruct H end;
    repeat match goal with H : at_index (slots_of one_kind_constants) _ _ |- _ => apply one_at in H; cbn in H end; try contradiction; congruence.
  - intros n n' m _ H'. cbn in H'. destruct H' as (a & b & H & _). exact (one_at _ _ H).
Qed.
Example C67_distinct_meets : sane debug64 one_kind /\ parse_class_with_options debug64 true one_kind = Ok one_kind_parsed
  /\ constants_of debug64 one_kind one_kind_constants /\ distinct debug64 one_kind_constants
  /\ bytecode_of one_kind_parsed one_kind_code one_kind_bytecode /\ bytecode_of one_kind_parsed one_kind_code' one_kind_bytecode
  /\ length (cd_code one_kind_code) = 24%nat /\ length (cd_code one_kind_code') = 24%nat /\ length (opcodes one_kind_bytecode) = 3%nat
  /\ cd_code one_kind_code <> cd_code one_kind_code'.
Proof.
  split; [apply ample_sane, ampleb_ample; vm_compute; reflexivity|]. split; [vm_compute; reflexivity|]. split.
  { exists 0, 52, 9, [[x01; x00; x01; x41]; [x07; x00; x01]; [x01; x00; x01; x6d]; [x01; x00; x03; x28; x29; x56]; [x0c; x00; x03; x00; x04];
      [x0a; x00; x02; x00; x05]; [x01; x00; x04; x43; x6f; x64; x65]; [x01; x00; x01; x6e]], (skipn 48 one_kind).
    split.
    - exists [xca; xfe; xba; xbe], [x00; x00; x00; x34], [x00; x09].
      split; [piece|]. split; [piece|]. split; [piece|]. split; [vm_compute; reflexivity|]. pieces.
    - vm_compute. intuition discriminate. }
  split; [exact one_distinct|]. split; [|split].
  - eexists. split; [|reflexivity]. eapply of_method; [left; reflexivity|left; reflexivity].
  - eexists. split; [|reflexivity]. eapply of_method; [right; left; reflexivity|left; reflexivity].
  - split; [reflexivity|]. split; [reflexivity|]. split; [reflexivity|]. discriminate.
Qed.
(** A tableswitch behind a nop, so with two bytes of padding. *)
Example C67_padding_meets : let code := [x00; xaa; x00; x00; xff; xff; xff; xff; x00; x00; x00; x00; x00; x00; x00; x00; xff; xff; xff; xff] in
  let code' := [x00; xaa; x12; x34; xff; xff; xff; xff; x00; x00; x00; x00; x00; x00; x00; x00; xff; xff; xff; xff] in
  let bc := mk_bc [(0, OpNop); (1, OpTableswitch (mk_range (-1) 0 0 [-1]%Z))] in
  fits debug64 code /\ bytecode_from debug64 code (pool_of (cesu8 debug64) (slots_of [])) = Ok bc
  /\ length code' = length code /\ (forall i, ~ padding (opcodes bc) (N.of_nat i) -> nth_error code' i = nth_error code i) /\ code' <> code.
Proof.
  cbv zeta. split; [split; vm_compute; discriminate|]. split; [vm_compute; reflexivity|]. split; [reflexivity|]. split; [|discriminate].
  intros i Hi. destruct i as [|[|[|[|i]]]]; try reflexivity; exfalso; apply Hi; eexists 1, _; (split; [right; left; reflexivity|]); (split; [exact I|split; reflexivity]).
Qed.
