(** * Specification of the class file format (JVMS chapter 4) as accepted by cafebabe.

    Everything here goes from values to bytes: [class_format c bs] says that the
    byte string [bs] denotes the class [c].  Nothing refers to the parser; only
    the types of the values of the public API are imported from the model.
    Deviations from the JVM specification are marked QUIRK. *)
From Verif Require Import Base S_Lang S_Names.
From Verif Require M_Names M_Descriptors M_ConstantPool M_Bytecode M_Attributes M_Class.
Import M_Names(ch).
Import M_Descriptors(field_desc, return_desc, RReturn, RVoid, method_desc, mk_md, parameters, return_type, dimensions).
Import M_ConstantPool(ref_kind, GetField, GetStatic, PutField, PutStatic, InvokeVirtual,
  InvokeStatic, InvokeSpecial, NewInvokeSpecial, InvokeInterface,
  literal, LInteger, LFloat, LLong, LDouble, LString, LStringBytes,
  name_and_type, nt_name, nt_descriptor, member_ref, mr_class_name, mr_name_and_type,
  invoke_dynamic, indy_attr_index, indy_name_and_type, dynamic, dyn_attr_index, dyn_name_and_type,
  member_kind, KField, KMethod, KInterfaceMethod,
  method_handle, mh_kind, mh_class_name, mh_member_kind, mh_member_ref,
  loadable, LdLiteral, LdClassInfo, LdMethodHandle, LdMethodType, LdDynamic,
  bootstrap_arg, BaLiteral, BaClassInfo, BaMethodHandle, BaMethodType,
  object_array_type, OArrayType, OBinaryName,
  cp_item, ItLiteral, ItClassInfo, ItFieldRef, ItMethodRef, ItInterfaceMethodRef,
  ItNameAndType, ItMethodHandle, ItMethodType, ItDynamic, ItInvokeDynamic, ItModuleInfo, ItPackageInfo,
  pool, entry, cpref, Resolved, EZero, EUnused, EUtf8, EUtf8Bytes, EInteger, EFloat, ELong, EDouble,
  EClassInfo, EString, EFieldRef, EMethodRef, EInterfaceMethodRef, ENameAndType, EMethodHandle,
  EMethodType, EDynamic, EInvokeDynamic, EModuleInfo, EPackageInfo).
Import M_Bytecode M_Attributes M_Class.

(** ** The constant pool (JVMS 4.4) *)

(** A constant as written in the file; indices are numbers. *)
Inductive constant :=
| CUtf8 (raw : list byte)
| CInteger (v : Z) | CFloat (bits : N) | CLong (v : Z) | CDouble (bits : N)
| CClass (name : N) | CString (text : N)
| CFieldref (cls nt : N) | CMethodref (cls nt : N) | CInterfaceMethodref (cls nt : N)
| CNameAndType (name desc : N)
| CMethodHandle (kind : ref_kind) (member : N)
| CMethodType (desc : N)
| CDynamic (bootstrap nt : N) | CInvokeDynamic (bootstrap nt : N)
| CModule (name : N) | CPackage (name : N).

(** JVMS table 5.4.3.5-A. *)
Definition kind_number (k : ref_kind) : N :=
  match k with
  | GetField => 1 | GetStatic => 2 | PutField => 3 | PutStatic => 4 | InvokeVirtual => 5
  | InvokeStatic => 6 | InvokeSpecial => 7 | NewInvokeSpecial => 8 | InvokeInterface => 9
  end.

Definition tagged (tag : N) (since major : N) (L : lang) : lang := fun w =>
  since <= major /\ (u1 tag +++ L) w.

(** JVMS 4.4.1 - 4.4.12 and table 4.4-B: one entry in a file of version [major]. *)
Definition constant_lang (major : N) (c : constant) : lang :=
  match c with
  | CUtf8 raw => tagged 1 0 major (u2 (N.of_nat (length raw)) +++ S_Lang.raw raw)
  | CInteger v => tagged 3 0 major (s4 v)
  | CFloat bits => tagged 4 0 major (u4 bits)
  | CLong v => tagged 5 0 major (s8 v)
  | CDouble bits => tagged 6 0 major (u8 bits)
  | CClass name => tagged 7 0 major (u2 name)
  | CString text => tagged 8 0 major (u2 text)
  | CFieldref c nt => tagged 9 0 major (u2 c +++ u2 nt)
  | CMethodref c nt => tagged 10 0 major (u2 c +++ u2 nt)
  | CInterfaceMethodref c nt => tagged 11 0 major (u2 c +++ u2 nt)
  | CNameAndType n d => tagged 12 0 major (u2 n +++ u2 d)
  | CMethodHandle k m => tagged 15 51 major (u1 (kind_number k) +++ u2 m)
  | CMethodType d => tagged 16 51 major (u2 d)
  | CDynamic b nt => tagged 17 55 major (u2 b +++ u2 nt)
  | CInvokeDynamic b nt => tagged 18 51 major (u2 b +++ u2 nt)
  | CModule n => tagged 19 53 major (u2 n)
  | CPackage n => tagged 20 53 major (u2 n)
  end.

(** Long and double constants take two indices. *)
Definition is_wide (c : constant) : bool :=
  match c with CLong _ | CDouble _ => true | _ => false end.
Definition width (c : constant) : N := if is_wide c then 2 else 1.

(** [cs] fill the indices from [i] up to [count].  Indices have 16 bits: a wide
    constant at index 65534 is refused in builds with overflow checks.
    QUIRK: in builds without them ([wraps]) indices start again from 0.
    QUIRK: the last constant may be wide and take the index [count]. *)
Fixpoint fills (wraps : bool) (count i : N) (cs : list constant) : Prop :=
  match cs with
  | [] => count <= i
  | c :: cs' =>
      i < count /\
      let j := i + width c in
      if j <? 65536 then fills wraps count j cs'
      else wraps = true /\ fills wraps count (j - 65536) cs'
  end.

(** The constants by index: nothing at index 0 and after a wide constant. *)
Definition slots := list (option constant).
Definition slots_of (cs : list constant) : slots :=
  None :: flat_map (fun c => if is_wide c then [Some c; None] else [Some c]) cs.

(** ** What indices into the pool denote *)
Section Pool.
(** The decoder of modified UTF-8. *)
Variable dec : list byte -> option str.
Variable sl : slots.

Definition at_index (i : N) (c : constant) : Prop := nth_error sl (N.to_nat i) = Some (Some c).

Definition utf8_at (i : N) (s : str) : Prop := exists raw, at_index i (CUtf8 raw) /\ dec raw = Some s.
Definition class_at (i : N) (s : str) : Prop := exists j, at_index i (CClass j) /\ utf8_at j s.
Definition module_at (i : N) (s : str) : Prop := exists j, at_index i (CModule j) /\ utf8_at j s.
Definition package_at (i : N) (s : str) : Prop := exists j, at_index i (CPackage j) /\ utf8_at j s.
Definition method_type_at (i : N) (s : str) : Prop :=
  exists j, at_index i (CMethodType j) /\ utf8_at j s.
Definition name_and_type_at (i : N) (nt : name_and_type) : Prop :=
  exists n d, at_index i (CNameAndType n d) /\ utf8_at n (nt_name nt) /\ utf8_at d (nt_descriptor nt).

(** Text that does not decode is passed on as bytes. *)
Definition literal_at (i : N) (l : literal) : Prop :=
  match l with
  | LInteger v => at_index i (CInteger v)
  | LFloat bits => at_index i (CFloat bits)
  | LLong v => at_index i (CLong v)
  | LDouble bits => at_index i (CDouble bits)
  | LString s => exists j, at_index i (CString j) /\ utf8_at j s
  | LStringBytes raw => exists j, at_index i (CString j) /\ at_index j (CUtf8 raw) /\ dec raw = None
  end.

Definition member_constant (k : member_kind) (c nt : N) : constant :=
  match k with
  | KField => CFieldref c nt
  | KMethod => CMethodref c nt
  | KInterfaceMethod => CInterfaceMethodref c nt
  end.
Definition member_at (k : member_kind) (i : N) (cls : str) (nt : name_and_type) : Prop :=
  exists c m, at_index i (member_constant k c m) /\ class_at c cls /\ name_and_type_at m nt.
Definition member_ref_at (ks : list member_kind) (i : N) (m : member_ref) : Prop :=
  exists k, In k ks /\ member_at k i (mr_class_name m) (mr_name_and_type m).
Definition method_handle_at (i : N) (h : method_handle) : Prop :=
  exists m, at_index i (CMethodHandle (mh_kind h) m)
    /\ member_at (mh_member_kind h) m (mh_class_name h) (mh_member_ref h).
Definition dynamic_at (i : N) (d : dynamic) : Prop :=
  exists nt, at_index i (CDynamic (dyn_attr_index d) nt) /\ name_and_type_at nt (dyn_name_and_type d).
Definition invoke_dynamic_at (i : N) (d : invoke_dynamic) : Prop :=
  exists nt, at_index i (CInvokeDynamic (indy_attr_index d) nt)
    /\ name_and_type_at nt (indy_name_and_type d).
Definition loadable_at (i : N) (l : loadable) : Prop :=
  match l with
  | LdLiteral l => literal_at i l
  | LdClassInfo s => class_at i s
  | LdMethodHandle h => method_handle_at i h
  | LdMethodType s => method_type_at i s
  | LdDynamic d => dynamic_at i d
  end.
Definition bootstrap_arg_at (i : N) (a : bootstrap_arg) : Prop :=
  match a with
  | BaLiteral l => literal_at i l
  | BaClassInfo s => class_at i s
  | BaMethodHandle h => method_handle_at i h
  | BaMethodType s => method_type_at i s
  end.
(** The operand of anewarray, checkcast, instanceof and multianewarray. *)
Definition object_array_type_at (i : N) (t : object_array_type) : Prop :=
  exists s, class_at i s /\
    match t with
    | OArrayType d => field_valid d /\ 0 < dimensions d /\ s = field_text d
    | OBinaryName n => s = n /\ forall r, s <> ch "[" :: r
    end.
(** What an iteration over the constant pool shows for index [i]. *)
Definition item_at (i : N) (it : cp_item) : Prop :=
  match it with
  | ItLiteral l => literal_at i l
  | ItClassInfo s => class_at i s
  | ItFieldRef m => member_at KField i (mr_class_name m) (mr_name_and_type m)
  | ItMethodRef m => member_at KMethod i (mr_class_name m) (mr_name_and_type m)
  | ItInterfaceMethodRef m => member_at KInterfaceMethod i (mr_class_name m) (mr_name_and_type m)
  | ItNameAndType nt => name_and_type_at i nt
  | ItMethodHandle h => method_handle_at i h
  | ItMethodType s => method_type_at i s
  | ItDynamic d => dynamic_at i d
  | ItInvokeDynamic d => invoke_dynamic_at i d
  | ItModuleInfo s => module_at i s
  | ItPackageInfo s => package_at i s
  end.

(** ** Rules for constants *)
Definition is_class (i : N) : Prop := exists j, at_index i (CClass j).
Definition is_utf8 (i : N) : Prop := exists raw, at_index i (CUtf8 raw).
Definition described (i : N) (P : str -> Prop) : Prop :=
  exists n d s, at_index i (CNameAndType n d) /\ utf8_at d s /\ P s.

(** JVMS 4.4.8: what a method handle of kind [k] may refer to. *)
Definition handle_target (major : N) (k : ref_kind) (c : constant) : Prop :=
  match k, c with
  | (GetField | GetStatic | PutField | PutStatic), CFieldref _ _ => True
  | (InvokeVirtual | NewInvokeSpecial), CMethodref _ _ => True
  | (InvokeStatic | InvokeSpecial), CMethodref _ _ => True
  | (InvokeStatic | InvokeSpecial), CInterfaceMethodref _ _ => 52 <= major
  | InvokeInterface, CInterfaceMethodref _ _ => True
  | _, _ => False
  end.

(** QUIRK: nothing is required of the text of the descriptor of a NameAndType
    that no other constant uses. *)
Definition valid_constant (major : N) (c : constant) : Prop :=
  match c with
  | CUtf8 _ | CInteger _ | CFloat _ | CLong _ | CDouble _ => True
  | CClass n => exists s, utf8_at n s /\ (binary_name s \/ array_descriptor s)
  | CString t => is_utf8 t
  | CFieldref c nt => is_class c /\ described nt field_descriptor
  | CMethodref c nt | CInterfaceMethodref c nt => is_class c /\ described nt method_descriptor
  | CNameAndType n d => (exists s, utf8_at n s /\ unqualified s) /\ is_utf8 d
  | CMethodHandle k m => exists c, at_index m c /\ handle_target major k c
  | CMethodType d => exists s, utf8_at d s /\ method_descriptor s
  | CDynamic _ nt => described nt field_descriptor
  | CInvokeDynamic _ nt => described nt method_descriptor
  | CModule n => exists s, utf8_at n s /\ module_name s
  | CPackage n => exists s, utf8_at n s /\ binary_name s
  end.

(** ** Indices in the file *)
Definition ref {A} (R : N -> A -> Prop) (a : A) : lang := any u2 (fun i => R i a).
Definition ref1 {A} (R : N -> A -> Prop) (a : A) : lang := any u1 (fun i => R i a).
(** Index 0 stands for absence. *)
Definition opt_ref {A} (R : N -> A -> Prop) (o : option A) : lang :=
  match o with
  | None => u2 0
  | Some a => ref R a
  end.
Definition that {A} (R : N -> A -> Prop) (P : A -> Prop) (i : N) (a : A) : Prop := R i a /\ P a.
(** The descriptor taken from a Utf8 constant; see [field_prefix] and [method_prefix]. *)
Definition field_desc_at (i : N) (d : field_desc) : Prop := exists s, utf8_at i s /\ field_prefix s d.
Definition method_desc_at (i : N) (d : method_desc) : Prop := exists s, utf8_at i s /\ method_prefix s d.

(** ** Instructions (JVMS chapter 6) *)
Section Code.
Variable wraps : bool.

Definition op0 (c : N) : lang := u1 c.
Definition jump (c : N) (j : Z) : lang := u1 c +++ s2 j.
(** Loads and stores: opcode [c] with an 8-bit index; opcodes [c0 .. c0 + 3] for the
    indices 0 to 3; the prefix wide (0xc4) for 16-bit indices. *)
Definition local (c c0 i : N) : lang :=
  (u1 c +++ u1 i) or (u1 (c0 + i) +++ only_if (i <= 3)) or (u1 0xc4 +++ u1 c +++ u2 i).
(** Padding after an opcode at offset [o]: up to the next multiple of four. *)
Definition pad (o : N) : lang := blob ((3 - o mod 4) mod 4).

(** JVMS 6.5 newarray, table 6.5.newarray-A *)
Definition array_code (t : prim_array_type) : N :=
  match t with
  | ABoolean => 4 | AChar => 5 | AFloat => 6 | ADouble => 7
  | AByte => 8 | AShort => 9 | AInt => 10 | ALong => 11
  end.

(** The number of jumps of a tableswitch.  QUIRK: builds without overflow checks
    take the full range of 2^32 values for an empty one. *)
Definition table_size (low high : Z) (n : nat) : Prop :=
  ((low <= high /\ high - low + 1 < 2 ^ 31 /\ Z.of_nat n = high - low + 1)
   \/ (wraps = true /\ low = - 2 ^ 31 /\ high = 2 ^ 31 - 1 /\ n = 0%nat))%Z.

(** The instruction [op] at offset [o]. *)
Definition insn_lang (o : N) (op : opcode) : lang :=
  match op with
  | OpNop => op0 0x00
  | OpAconstNull => op0 0x01
  | OpIconstM1 => op0 0x02
  | OpIconst0 => op0 0x03
  | OpIconst1 => op0 0x04
  | OpIconst2 => op0 0x05
  | OpIconst3 => op0 0x06
  | OpIconst4 => op0 0x07
  | OpIconst5 => op0 0x08
  | OpLconst0 => op0 0x09
  | OpLconst1 => op0 0x0a
  | OpFconst0 => op0 0x0b
  | OpFconst1 => op0 0x0c
  | OpFconst2 => op0 0x0d
  | OpDconst0 => op0 0x0e
  | OpDconst1 => op0 0x0f
  | OpBipush z => u1 0x10 +++ s1 z
  | OpSipush z => u1 0x11 +++ s2 z
  | OpLdc l => u1 0x12 +++ ref1 loadable_at l
  | OpLdcW l => u1 0x13 +++ ref loadable_at l
  | OpLdc2W l => u1 0x14 +++ ref loadable_at l
  | OpIload i => local 0x15 0x1a i
  | OpLload i => local 0x16 0x1e i
  | OpFload i => local 0x17 0x22 i
  | OpDload i => local 0x18 0x26 i
  | OpAload i => local 0x19 0x2a i
  | OpIaload => op0 0x2e
  | OpLaload => op0 0x2f
  | OpFaload => op0 0x30
  | OpDaload => op0 0x31
  | OpAaload => op0 0x32
  | OpBaload => op0 0x33
  | OpCaload => op0 0x34
  | OpSaload => op0 0x35
  | OpIstore i => local 0x36 0x3b i
  | OpLstore i => local 0x37 0x3f i
  | OpFstore i => local 0x38 0x43 i
  | OpDstore i => local 0x39 0x47 i
  | OpAstore i => local 0x3a 0x4b i
  | OpIastore => op0 0x4f
  | OpLastore => op0 0x50
  | OpFastore => op0 0x51
  | OpDastore => op0 0x52
  | OpAastore => op0 0x53
  | OpBastore => op0 0x54
  | OpCastore => op0 0x55
  | OpSastore => op0 0x56
  | OpPop => op0 0x57
  | OpPop2 => op0 0x58
  | OpDup => op0 0x59
  | OpDupX1 => op0 0x5a
  | OpDupX2 => op0 0x5b
  | OpDup2 => op0 0x5c
  | OpDup2X1 => op0 0x5d
  | OpDup2X2 => op0 0x5e
  | OpSwap => op0 0x5f
  | OpIadd => op0 0x60
  | OpLadd => op0 0x61
  | OpFadd => op0 0x62
  | OpDadd => op0 0x63
  | OpIsub => op0 0x64
  | OpLsub => op0 0x65
  | OpFsub => op0 0x66
  | OpDsub => op0 0x67
  | OpImul => op0 0x68
  | OpLmul => op0 0x69
  | OpFmul => op0 0x6a
  | OpDmul => op0 0x6b
  | OpIdiv => op0 0x6c
  | OpLdiv => op0 0x6d
  | OpFdiv => op0 0x6e
  | OpDdiv => op0 0x6f
  | OpIrem => op0 0x70
  | OpLrem => op0 0x71
  | OpFrem => op0 0x72
  | OpDrem => op0 0x73
  | OpIneg => op0 0x74
  | OpLneg => op0 0x75
  | OpFneg => op0 0x76
  | OpDneg => op0 0x77
  | OpIshl => op0 0x78
  | OpLshl => op0 0x79
  | OpIshr => op0 0x7a
  | OpLshr => op0 0x7b
  | OpIushr => op0 0x7c
  | OpLushr => op0 0x7d
  | OpIand => op0 0x7e
  | OpLand => op0 0x7f
  | OpIor => op0 0x80
  | OpLor => op0 0x81
  | OpIxor => op0 0x82
  | OpLxor => op0 0x83
  | OpIinc i k => (u1 0x84 +++ u1 i +++ s1 k) or (u1 0xc4 +++ u1 0x84 +++ u2 i +++ s2 k)
  | OpI2l => op0 0x85
  | OpI2f => op0 0x86
  | OpI2d => op0 0x87
  | OpL2i => op0 0x88
  | OpL2f => op0 0x89
  | OpL2d => op0 0x8a
  | OpF2i => op0 0x8b
  | OpF2l => op0 0x8c
  | OpF2d => op0 0x8d
  | OpD2i => op0 0x8e
  | OpD2l => op0 0x8f
  | OpD2f => op0 0x90
  | OpI2b => op0 0x91
  | OpI2c => op0 0x92
  | OpI2s => op0 0x93
  | OpLcmp => op0 0x94
  | OpFcmpl => op0 0x95
  | OpFcmpg => op0 0x96
  | OpDcmpl => op0 0x97
  | OpDcmpg => op0 0x98
  | OpIfeq j => jump 0x99 j
  | OpIfne j => jump 0x9a j
  | OpIflt j => jump 0x9b j
  | OpIfge j => jump 0x9c j
  | OpIfgt j => jump 0x9d j
  | OpIfle j => jump 0x9e j
  | OpIfIcmpeq j => jump 0x9f j
  | OpIfIcmpne j => jump 0xa0 j
  | OpIfIcmplt j => jump 0xa1 j
  | OpIfIcmpge j => jump 0xa2 j
  | OpIfIcmpgt j => jump 0xa3 j
  | OpIfIcmple j => jump 0xa4 j
  | OpIfAcmpeq j => jump 0xa5 j
  | OpIfAcmpne j => jump 0xa6 j
  | OpGoto j => jump 0xa7 j or (u1 0xc8 +++ s4 j)
  | OpJsr j => jump 0xa8 j or (u1 0xc9 +++ s4 j)
  | OpRet i => (u1 0xa9 +++ u1 i) or (u1 0xc4 +++ u1 0xa9 +++ u2 i)
  | OpTableswitch t =>
      u1 0xaa +++ pad o +++ s4 (rg_default t) +++ s4 (rg_low t) +++ s4 (rg_high t)
      +++ only_if (table_size (rg_low t) (rg_high t) (length (jumps t))) +++ many s4 (jumps t)
  | OpLookupswitch t =>
      u1 0xab +++ pad o +++ s4 (lk_default t) +++ s4 (Z.of_nat (length (match_offsets t)))
      +++ many (fun mo => s4 (fst mo) +++ s4 (snd mo)) (match_offsets t)
  | OpIreturn => op0 0xac
  | OpLreturn => op0 0xad
  | OpFreturn => op0 0xae
  | OpDreturn => op0 0xaf
  | OpAreturn => op0 0xb0
  | OpReturn => op0 0xb1
  | OpGetstatic m => u1 0xb2 +++ ref (member_ref_at [KField]) m
  | OpPutstatic m => u1 0xb3 +++ ref (member_ref_at [KField]) m
  | OpGetfield m => u1 0xb4 +++ ref (member_ref_at [KField]) m
  | OpPutfield m => u1 0xb5 +++ ref (member_ref_at [KField]) m
  | OpInvokevirtual m => u1 0xb6 +++ ref (member_ref_at [KMethod]) m
  | OpInvokespecial m => u1 0xb7 +++ ref (member_ref_at [KMethod; KInterfaceMethod]) m
  | OpInvokestatic m => u1 0xb8 +++ ref (member_ref_at [KMethod; KInterfaceMethod]) m
  | OpInvokeinterface m count =>
      u1 0xb9 +++ ref (member_ref_at [KInterfaceMethod]) m +++ u1 count +++ u1 0
  | OpInvokedynamic d => u1 0xba +++ ref invoke_dynamic_at d +++ u2 0
  | OpNew s => u1 0xbb +++ ref class_at s
  | OpNewarray t => u1 0xbc +++ u1 (array_code t)
  | OpAnewarray t => u1 0xbd +++ ref object_array_type_at t
  | OpArraylength => op0 0xbe
  | OpAthrow => op0 0xbf
  | OpCheckcast t => u1 0xc0 +++ ref object_array_type_at t
  | OpInstanceof t => u1 0xc1 +++ ref object_array_type_at t
  | OpMonitorenter => op0 0xc2
  | OpMonitorexit => op0 0xc3
  | OpMultianewarray t dims => u1 0xc5 +++ ref object_array_type_at t +++ u1 dims
  | OpIfnull j => jump 0xc6 j
  | OpIfnonnull j => jump 0xc7 j
  | OpBreakpoint => op0 0xca
  | OpImpdep1 => op0 0xfe
  | OpImpdep2 => op0 0xff
  end.

(** Instructions that fill a code array from offset [o] on, with their offsets. *)
Fixpoint insns_lang (o : N) (ops : list (N * opcode)) : lang :=
  match ops with
  | [] => eps
  | (off, op) :: ops' => fun w => off = o /\
      exists u v, w = u ++ v /\ insn_lang o op u /\ insns_lang (o + N.of_nat (length u)) ops' v
  end.

(** The relative targets of an instruction. *)
Definition targets (op : opcode) : list Z :=
  match op with
  | OpGoto j | OpJsr j
  | OpIfAcmpeq j | OpIfAcmpne j | OpIfIcmpeq j | OpIfIcmpge j | OpIfIcmpgt j
  | OpIfIcmple j | OpIfIcmplt j | OpIfIcmpne j | OpIfeq j | OpIfge j | OpIfgt j
  | OpIfle j | OpIflt j | OpIfne j | OpIfnonnull j | OpIfnull j => [j]
  | OpLookupswitch t => lk_default t :: map snd (match_offsets t)
  | OpTableswitch t => rg_default t :: jumps t
  | _ => []
  end.
(** All jumps lead to instructions; offsets are below 2^31. *)
Definition jumps_valid (ops : list (N * opcode)) : Prop :=
  forall o op, In (o, op) ops -> o < 2 ^ 31 /\
    forall j, In j (targets op) -> exists o', In o' (map fst ops) /\ (Z.of_N o + j)%Z = Z.of_N o'.

Definition code_format (bc : byte_code) (code : list byte) : Prop :=
  insns_lang 0 (opcodes bc) code /\ jumps_valid (opcodes bc).
End Code.

(** ** Attributes (JVMS 4.7) *)
Section Attributes.
Variable wraps : bool.
(** Whether bytecode is asked for. *)
Variable want_bytecode : bool.

Definition exception_lang (e : exception_entry) : lang :=
  u2 (ex_start_pc e) +++ u2 (ex_end_pc e) +++ u2 (ex_handler_pc e)
  +++ opt_ref class_at (ex_catch_type e).

(** JVMS 4.7.4 *)
Definition verification_lang (v : verification_type) : lang :=
  match v with
  | VTop => u1 0
  | VInteger => u1 1
  | VFloat => u1 2
  | VDouble => u1 3
  | VLong => u1 4
  | VNull => u1 5
  | VUninitializedThis => u1 6
  | VObject s => u1 7 +++ ref class_at s
  | VUninitialized off => u1 8 +++ u2 off
  end.
Definition stack_map_lang (e : stack_map_entry) : lang :=
  match e with
  | SmSame d => (u1 d +++ only_if (d <= 63)) or (u1 251 +++ u2 d)
  | SmSameLocals1StackItem d v =>
      (u1 (64 + d) +++ only_if (d <= 63) +++ verification_lang v)
      or (u1 247 +++ u2 d +++ verification_lang v)
  | SmChop d k => only_if (1 <= k <= 3) +++ u1 (251 - k) +++ u2 d
  | SmAppend d vs =>
      only_if (1 <= length vs <= 3)%nat +++ u1 (251 + N.of_nat (length vs)) +++ u2 d
      +++ many verification_lang vs
  | SmFullFrame d locals stack =>
      u1 255 +++ u2 d +++ table u2 verification_lang locals +++ table u2 verification_lang stack
  end.

(** JVMS table 4.7.6-A: bits 0001 0002 0004 0008 0010 0200 0400 1000 2000 4000 *)
Definition inner_class_bits := 0x761F.
Definition inner_class_lang (c : inner_class_entry) : lang :=
  ref class_at (ic_inner_class_info c) +++ opt_ref class_at (ic_outer_class_info c)
  +++ opt_ref utf8_at (ic_inner_name c) +++ flags_keep inner_class_bits (ic_access_flags c).

Definition line_number_lang (l : line_number_entry) : lang :=
  u2 (ln_start_pc l) +++ u2 (ln_line_number l).
Definition local_variable_lang (l : local_variable_entry) : lang :=
  u2 (lv_start_pc l) +++ u2 (lv_length l) +++ ref (that utf8_at unqualified) (lv_name l)
  +++ ref field_desc_at (lv_descriptor l) +++ u2 (lv_index l).
Definition local_variable_type_lang (l : local_variable_type_entry) : lang :=
  u2 (lvt_start_pc l) +++ u2 (lvt_length l) +++ ref (that utf8_at unqualified) (lvt_name l)
  +++ ref utf8_at (lvt_signature l) +++ u2 (lvt_index l).

(** JVMS 4.7.16; [V] is the format of nested values. *)
Definition annotation_with (V : element_value -> lang) (a : annotation) : lang :=
  ref field_desc_at (ann_type a)
  +++ table u2 (fun nv => ref utf8_at (fst nv) +++ V (snd nv)) (ann_elements a).
Definition element_with (V : element_value -> lang) (v : element_value) : lang :=
  match v with
  | EvByte z => u1 (ch "B") +++ ref (fun i z => at_index i (CInteger z)) z
  | EvChar z => u1 (ch "C") +++ ref (fun i z => at_index i (CInteger z)) z
  | EvDouble b => u1 (ch "D") +++ ref (fun i b => at_index i (CDouble b)) b
  | EvFloat b => u1 (ch "F") +++ ref (fun i b => at_index i (CFloat b)) b
  | EvInt z => u1 (ch "I") +++ ref (fun i z => at_index i (CInteger z)) z
  | EvLong z => u1 (ch "J") +++ ref (fun i z => at_index i (CLong z)) z
  | EvShort z => u1 (ch "S") +++ ref (fun i z => at_index i (CInteger z)) z
  | EvBoolean z => u1 (ch "Z") +++ ref (fun i z => at_index i (CInteger z)) z
  | EvString s => u1 (ch "s") +++ ref utf8_at s
  | EvEnum t c => u1 (ch "e") +++ ref field_desc_at t +++ ref utf8_at c
  | EvClass s => u1 (ch "c") +++ ref (that utf8_at return_descriptor) s
  | EvAnnotation a => u1 (ch "@") +++ annotation_with V a
  | EvArray vs => u1 (ch "[") +++ table u2 V vs
  end.
(** Values nested at most [d] deep. *)
Fixpoint element_lang (d : nat) : element_value -> lang :=
  match d with
  | O => fun _ _ => False
  | S d' => element_with (element_lang d')
  end.
Definition annotation_lang (d : nat) : annotation -> lang := annotation_with (element_lang d).

(** JVMS 4.7.20 *)
Definition local_var_target_lang (t : local_var_target) : lang :=
  u2 (lt_start_pc t) +++ u2 (lt_length t) +++ u2 (lt_index t).
Definition between (a b : N) : lang := any u1 (fun n => a <= n <= b).
Definition target_lang (t : type_annotation_target) : lang :=
  match t with
  | TgTypeParameter i => between 0x00 0x01 +++ u1 i
  | TgSupertype i => u1 0x10 +++ u2 i
  | TgTypeParameterBound t b => between 0x11 0x12 +++ u1 t +++ u1 b
  | TgEmpty => between 0x13 0x15
  | TgFormalParameter i => u1 0x16 +++ u1 i
  | TgThrows i => u1 0x17 +++ u2 i
  | TgLocalVar l => between 0x40 0x41 +++ table u2 local_var_target_lang l
  | TgCatch i => u1 0x42 +++ u2 i
  | TgOffset o => between 0x43 0x46 +++ u2 o
  | TgTypeArgument o i => between 0x47 0x4B +++ u2 o +++ u1 i
  end.
Definition path_code (k : path_kind) : N :=
  match k with
  | PkDeeperArray => 0 | PkDeeperNested => 1 | PkWildcardTypeArgument => 2 | PkTypeArgument => 3
  end.
Definition path_lang (e : path_entry) : lang := u1 (path_code (pe_kind e)) +++ u1 (pe_argument_index e).
Definition type_annotation_lang (d : nat) (a : type_annotation) : lang :=
  target_lang (ta_target_type a) +++ table u1 path_lang (ta_target_path a)
  +++ annotation_lang d (ta_annotation a).

Definition bootstrap_method_lang (b : bootstrap_method) : lang :=
  ref method_handle_at (bm_method b) +++ table u2 (ref bootstrap_arg_at) (bm_arguments b).

(** JVMS 4.7.24: bits 0010 1000 8000 *)
Definition method_parameter_bits := 0x9010.
Definition method_parameter_lang (m : method_parameter) : lang :=
  opt_ref (that utf8_at unqualified) (mp_name m) +++ flags_exact method_parameter_bits (mp_access_flags m).

(** JVMS 4.7.25: bits 0020 1000 8000 / 0020 0040 1000 8000 / 1000 8000 *)
Definition module_bits := 0x9020.
Definition requires_bits := 0x9060.
Definition exports_bits := 0x9000.
Definition require_lang (r : module_require) : lang :=
  ref module_at (rq_name r) +++ flags_exact requires_bits (rq_flags r) +++ opt_ref utf8_at (rq_version r).
Definition export_lang (r : module_export) : lang :=
  ref package_at (xp_package_name r) +++ flags_exact exports_bits (xp_flags r)
  +++ table u2 (ref module_at) (xp_exports_to r).
Definition open_lang (r : module_open) : lang :=
  ref package_at (op_package_name r) +++ flags_exact exports_bits (op_flags r)
  +++ table u2 (ref module_at) (op_opens_to r).
Definition provide_lang (r : module_provide) : lang :=
  ref class_at (pv_service_interface_name r) +++ table u2 (ref class_at) (pv_provides_with r).
Definition module_lang (m : module_data) : lang :=
  ref module_at (md_name m) +++ flags_exact module_bits (md_access_flags m)
  +++ opt_ref utf8_at (md_version m) +++ table u2 require_lang (md_requires m)
  +++ table u2 export_lang (md_exports m) +++ table u2 open_lang (md_opens m)
  +++ table u2 (ref class_at) (md_uses m) +++ table u2 provide_lang (md_provides m).

(** [A] is the format of attribute tables nested inside. *)
Definition record_component_lang (A : list attr_info -> lang) (r : record_component) : lang :=
  ref (that utf8_at unqualified) (rc_name r) +++ ref field_desc_at (rc_descriptor r)
  +++ A (rc_attributes r).
(** JVMS 4.7.3 *)
Definition code_lang (A : list attr_info -> lang) (c : code_data) : lang :=
  u2 (cd_max_stack c) +++ u2 (cd_max_locals c)
  +++ u4 (N.of_nat (length (cd_code c))) +++ raw (cd_code c)
  +++ table u2 exception_lang (cd_exception_table c) +++ A (cd_attributes c)
  +++ only_if (match cd_bytecode c with
               | Some bc => want_bytecode = true /\ code_format wraps bc (cd_code c)
               | None => want_bytecode = false
               end).

(** The predefined attributes (JVMS table 4.7-A). *)
Definition predefined : list string :=
  ["ConstantValue"; "Code"; "StackMapTable"; "Exceptions"; "InnerClasses"; "EnclosingMethod";
   "Synthetic"; "Signature"; "SourceFile"; "SourceDebugExtension"; "LineNumberTable";
   "LocalVariableTable"; "LocalVariableTypeTable"; "Deprecated"; "RuntimeVisibleAnnotations";
   "RuntimeInvisibleAnnotations"; "RuntimeVisibleParameterAnnotations";
   "RuntimeInvisibleParameterAnnotations"; "RuntimeVisibleTypeAnnotations";
   "RuntimeInvisibleTypeAnnotations"; "AnnotationDefault"; "BootstrapMethods";
   "MethodParameters"; "Module"; "ModulePackages"; "ModuleMainClass"; "NestHost";
   "NestMembers"; "PermittedSubclasses"; "Record"]%string.

(** The contents of an attribute, together with its name. *)
Definition contents (A : list attr_info -> lang) (d : nat) (a : attr_data) : string * lang :=
  match a with
  | AConstantValue l => ("ConstantValue"%string, ref literal_at l)
  | ACode c => ("Code"%string, code_lang A c)
  | AStackMapTable l => ("StackMapTable"%string, table u2 stack_map_lang l)
  | AExceptions l => ("Exceptions"%string, table u2 (ref class_at) l)
  | AInnerClasses l => ("InnerClasses"%string, table u2 inner_class_lang l)
  | AEnclosingMethod c m => ("EnclosingMethod"%string, ref class_at c +++ opt_ref name_and_type_at m)
  | ASynthetic => ("Synthetic"%string, eps)
  | ASignature s => ("Signature"%string, ref utf8_at s)
  | ASourceFile s => ("SourceFile"%string, ref utf8_at s)
  | ASourceDebugExtension s => ("SourceDebugExtension"%string, fun w => dec w = Some s)
  | ALineNumberTable l => ("LineNumberTable"%string, table u2 line_number_lang l)
  | ALocalVariableTable l => ("LocalVariableTable"%string, table u2 local_variable_lang l)
  | ALocalVariableTypeTable l => ("LocalVariableTypeTable"%string, table u2 local_variable_type_lang l)
  | ADeprecated => ("Deprecated"%string, eps)
  | ARuntimeVisibleAnnotations l =>
      ("RuntimeVisibleAnnotations"%string, table u2 (annotation_lang d) l)
  | ARuntimeInvisibleAnnotations l =>
      ("RuntimeInvisibleAnnotations"%string, table u2 (annotation_lang d) l)
  | ARuntimeVisibleParameterAnnotations l =>
      ("RuntimeVisibleParameterAnnotations"%string, table u1 (table u2 (annotation_lang d)) l)
  | ARuntimeInvisibleParameterAnnotations l =>
      ("RuntimeInvisibleParameterAnnotations"%string, table u1 (table u2 (annotation_lang d)) l)
  | ARuntimeVisibleTypeAnnotations l =>
      ("RuntimeVisibleTypeAnnotations"%string, table u2 (type_annotation_lang d) l)
  | ARuntimeInvisibleTypeAnnotations l =>
      ("RuntimeInvisibleTypeAnnotations"%string, table u2 (type_annotation_lang d) l)
  | AAnnotationDefault v => ("AnnotationDefault"%string, element_lang d v)
  | ABootstrapMethods l => ("BootstrapMethods"%string, table u2 bootstrap_method_lang l)
  | AMethodParameters l => ("MethodParameters"%string, table u1 method_parameter_lang l)
  | AModule m => ("Module"%string, module_lang m)
  | AModulePackages l => ("ModulePackages"%string, table u2 (ref package_at) l)
  | AModuleMainClass s => ("ModuleMainClass"%string, ref class_at s)
  | ANestHost s => ("NestHost"%string, ref class_at s)
  | ANestMembers l => ("NestMembers"%string, table u2 (ref class_at) l)
  | APermittedSubclasses l => ("PermittedSubclasses"%string, table u2 (ref class_at) l)
  | ARecord l => ("Record"%string, table u2 (record_component_lang A) l)
  | AOther r => (""%string, raw r)
  end.
(** A predefined attribute has its own name, any other attribute another one. *)
Definition contents_lang (A : list attr_info -> lang) (d : nat) (name : str) (a : attr_data) : lang :=
  fun w => snd (contents A d a) w /\
    match a with
    | AOther _ => ~ In name (map lit predefined)
    | _ => name = lit (fst (contents A d a))
    end.

(** JVMS 4.7: the name, the number of bytes that follow, and the contents. *)
Definition attribute_with (A : list attr_info -> lang) (d : nat) (a : attr_info) : lang :=
  ref utf8_at (attr_name a) +++
  (fun w => exists len body, w = len ++ body /\ u4 (N.of_nat (length body)) len
     /\ contents_lang A d (attr_name a) (attr_dat a) body).
(** Attribute tables nested at most [d] deep. *)
Fixpoint attributes_lang (d : nat) : list attr_info -> lang :=
  match d with
  | O => fun _ _ => False
  | S d' => table u2 (attribute_with (attributes_lang d') d')
  end.

(** ** Fields and methods (JVMS 4.5, 4.6) *)
(** bits 0001 0002 0004 0008 0010 0040 0080 1000 4000 *)
Definition field_bits := 0x50DF.
Definition field_lang (d : nat) (f : field_info) : lang :=
  flags_keep field_bits (f_access_flags f) +++ ref (that utf8_at unqualified) (f_name f)
  +++ ref field_desc_at (f_descriptor f) +++ attributes_lang d (f_attributes f).
(** bits 0001 0002 0004 0008 0010 0020 0040 0080 0100 0400 0800 1000 *)
Definition method_bits := 0x1DFF.
Definition method_lang (d : nat) (in_interface : bool) (m : method_info) : lang :=
  flags_keep method_bits (m_access_flags m)
  +++ ref (that utf8_at (method_name in_interface)) (m_name m)
  +++ ref method_desc_at (m_descriptor m) +++ attributes_lang d (m_attributes m).
(** JVMS 4.3.3, 2.9 *)
Definition method_rules (major : N) (m : method_info) : Prop :=
  (m_name m = lit "<init>" -> return_type (m_descriptor m) = RVoid)
  /\ (m_name m = lit "<clinit>" -> return_type (m_descriptor m) = RVoid
      /\ (51 <= major -> parameters (m_descriptor m) = [])).
End Attributes.

(** ** The pool as the iterator and the readers of the model see it *)
Definition entry_of (c : constant) : entry :=
  match c with
  | CUtf8 raw => match dec raw with Some s => EUtf8 s | None => EUtf8Bytes raw end
  | CInteger v => EInteger v
  | CFloat b => EFloat b
  | CLong v => ELong v
  | CDouble b => EDouble b
  | CClass n => EClassInfo (Resolved n)
  | CString n => EString (Resolved n)
  | CFieldref c n => EFieldRef (Resolved c) (Resolved n)
  | CMethodref c n => EMethodRef (Resolved c) (Resolved n)
  | CInterfaceMethodref c n => EInterfaceMethodRef (Resolved c) (Resolved n)
  | CNameAndType n d => ENameAndType (Resolved n) (Resolved d)
  | CMethodHandle k m => EMethodHandle k (Resolved m)
  | CMethodType d => EMethodType (Resolved d)
  | CDynamic b n => EDynamic b (Resolved n)
  | CInvokeDynamic b n => EInvokeDynamic b (Resolved n)
  | CModule n => EModuleInfo (Resolved n)
  | CPackage n => EPackageInfo (Resolved n)
  end.
Definition pool_of : pool :=
  match sl with
  | [] => []
  | _ :: rest => EZero :: map (fun s => match s with Some c => entry_of c | None => EUnused end) rest
  end.
End Pool.

(** ** Class files (JVMS 4.1) *)
Section Class.
Variable dec : list byte -> option str.
Variable wraps : bool.
Variable want_bytecode : bool.

Definition pool_lang (major : N) (cs : list constant) : lang := fun w =>
  exists count, (u2 count +++ many (constant_lang major) cs) w
    /\ fills wraps count 1 cs
    /\ Forall (valid_constant dec (slots_of cs) major) cs.

(** bits 0001 0010 0020 0200 0400 1000 2000 4000 8000 *)
Definition class_bits := 0xF631.
Definition ACC_INTERFACE_bit := 9.
Definition ACC_MODULE_bit := 15.

(** JVMS 4.1: rules for files with the flag ACC_MODULE. *)
Definition module_rules (c : class_file) : Prop :=
  N.testbit (access_flags c) ACC_MODULE_bit = true ->
  53 <= major_version c /\ access_flags c = 0x8000 /\ super_class c = None
  /\ interfaces c = [] /\ fields c = [] /\ methods c = [].

Definition bootstrap_tables (c : class_file) : list (list bootstrap_method) :=
  flat_map (fun a => match attr_dat a with ABootstrapMethods l => [l] | _ => [] end)
    (class_attributes c).
(** JVMS 4.4.10, 4.7.23 *)
Definition bootstrap_rules (cs : list constant) (c : class_file) : Prop :=
  forall b nt, In (CDynamic b nt) cs \/ In (CInvokeDynamic b nt) cs ->
    exists l, bootstrap_tables c = [l] /\ b < N.of_nat (length l).

(** [bs] denotes [c], whose constants are [cs]; nesting is at most [d] deep. *)
Definition class_lang (d : nat) (cs : list constant) (c : class_file) : lang := fun bs =>
  let sl := slots_of cs in
  let in_interface := N.testbit (access_flags c) ACC_INTERFACE_bit in
  (u4 0xCAFEBABE +++ u2 (minor_version c) +++ u2 (major_version c)
   +++ pool_lang (major_version c) cs
   +++ flags_keep class_bits (access_flags c)
   +++ ref (that (class_at dec sl) class_name) (this_class c)
   +++ opt_ref (that (class_at dec sl) class_name) (super_class c)
   +++ table u2 (ref (that (class_at dec sl) class_name)) (interfaces c)
   +++ table u2 (field_lang dec sl wraps want_bytecode d) (fields c)
   +++ table u2 (method_lang dec sl wraps want_bytecode d in_interface) (methods c)
   +++ attributes_lang dec sl wraps want_bytecode d (class_attributes c)) bs
  /\ constant_pool c = pool_of dec sl
  /\ NoDup (map (fun f => (f_name f, f_descriptor f)) (fields c))
  /\ NoDup (map (fun m => (m_name m, m_descriptor m)) (methods c))
  /\ Forall (method_rules (major_version c)) (methods c)
  /\ module_rules c
  /\ bootstrap_rules cs c.

(** [bs] denotes [c]. *)
Definition class_format (c : class_file) (bs : list byte) : Prop :=
  exists d cs, class_lang d cs c bs.
End Class.
