(** * Borrowing in src/bytecode.rs: as M_Bytecode, with [Cow<'a, str>] for texts. *)
From Verif Require Import Base M_Names M_Descriptors M_ConstantPool M_Bytecode Z_Cow Z_Descriptors Z_ConstantPool.

(** bytecode.rs:41-205 [Opcode], every constructor with the prefix [Op]. *)
Inductive opcode :=
| OpAaload
| OpAastore
| OpAconstNull
| OpAload (x0 : N)
| OpAnewarray (x0 : object_array_type)
| OpAreturn
| OpArraylength
| OpAstore (x0 : N)
| OpAthrow
| OpBaload
| OpBastore
| OpBipush (x0 : Z)
| OpBreakpoint
| OpCaload
| OpCastore
| OpCheckcast (x0 : object_array_type)
| OpD2f
| OpD2i
| OpD2l
| OpDadd
| OpDaload
| OpDastore
| OpDcmpg
| OpDcmpl
| OpDconst0
| OpDconst1
| OpDdiv
| OpDload (x0 : N)
| OpDmul
| OpDneg
| OpDrem
| OpDreturn
| OpDstore (x0 : N)
| OpDsub
| OpDup
| OpDupX1
| OpDupX2
| OpDup2
| OpDup2X1
| OpDup2X2
| OpF2d
| OpF2i
| OpF2l
| OpFadd
| OpFaload
| OpFastore
| OpFcmpg
| OpFcmpl
| OpFconst0
| OpFconst1
| OpFconst2
| OpFdiv
| OpFload (x0 : N)
| OpFmul
| OpFneg
| OpFrem
| OpFreturn
| OpFstore (x0 : N)
| OpFsub
| OpGetfield (x0 : member_ref)
| OpGetstatic (x0 : member_ref)
| OpGoto (x0 : Z)
| OpI2b
| OpI2c
| OpI2d
| OpI2f
| OpI2l
| OpI2s
| OpIadd
| OpIaload
| OpIand
| OpIastore
| OpIconstM1
| OpIconst0
| OpIconst1
| OpIconst2
| OpIconst3
| OpIconst4
| OpIconst5
| OpIdiv
| OpIfAcmpeq (x0 : Z)
| OpIfAcmpne (x0 : Z)
| OpIfIcmpeq (x0 : Z)
| OpIfIcmpge (x0 : Z)
| OpIfIcmpgt (x0 : Z)
| OpIfIcmple (x0 : Z)
| OpIfIcmplt (x0 : Z)
| OpIfIcmpne (x0 : Z)
| OpIfeq (x0 : Z)
| OpIfge (x0 : Z)
| OpIfgt (x0 : Z)
| OpIfle (x0 : Z)
| OpIflt (x0 : Z)
| OpIfne (x0 : Z)
| OpIfnonnull (x0 : Z)
| OpIfnull (x0 : Z)
| OpIinc (x0 : N) (x1 : Z)
| OpIload (x0 : N)
| OpImpdep1
| OpImpdep2
| OpImul
| OpIneg
| OpInstanceof (x0 : object_array_type)
| OpInvokedynamic (x0 : invoke_dynamic)
| OpInvokeinterface (x0 : member_ref) (x1 : N)
| OpInvokespecial (x0 : member_ref)
| OpInvokestatic (x0 : member_ref)
| OpInvokevirtual (x0 : member_ref)
| OpIor
| OpIrem
| OpIreturn
| OpIshl
| OpIshr
| OpIstore (x0 : N)
| OpIsub
| OpIushr
| OpIxor
| OpJsr (x0 : Z)
| OpL2d
| OpL2f
| OpL2i
| OpLadd
| OpLaload
| OpLand
| OpLastore
| OpLcmp
| OpLconst0
| OpLconst1
| OpLdc (x0 : loadable)
| OpLdcW (x0 : loadable)
| OpLdc2W (x0 : loadable)
| OpLdiv
| OpLload (x0 : N)
| OpLmul
| OpLneg
| OpLookupswitch (x0 : lookup_table)
| OpLor
| OpLrem
| OpLreturn
| OpLshl
| OpLshr
| OpLstore (x0 : N)
| OpLsub
| OpLushr
| OpLxor
| OpMonitorenter
| OpMonitorexit
| OpMultianewarray (x0 : object_array_type) (x1 : N)
| OpNew (x0 : cow)
| OpNewarray (x0 : prim_array_type)
| OpNop
| OpPop
| OpPop2
| OpPutfield (x0 : member_ref)
| OpPutstatic (x0 : member_ref)
| OpRet (x0 : N)
| OpReturn
| OpSaload
| OpSastore
| OpSipush (x0 : Z)
| OpSwap
| OpTableswitch (x0 : range_table).

Section WithPool.
Variable E : env.
Variable p : pool.

(** bytecode.rs:496, 523: [ix = (ix + 3) & !0x3] *)
Definition align4 : parser unit := ix <- get_ix ;; set_ix (N.ldiff (ix + 3) 3).

(** bytecode.rs:494-520 *)
Definition read_tableswitch : parser opcode :=
  _ <- align4 ;;
  default <- read_u4 ;;
  let default := as_i32 default in
  low <- read_u4 ;;
  let low := as_i32 low in
  high <- read_u4 ;;
  let high := as_i32 high in
  if (high <? low)%Z then
    pfail_at (fun ix => lit "The low value must be less than or equal to the high value in tableswitch at index " ++ show_N (ix - 4))
  else
    d <- lift (i32_result E (high - low)%Z) ;;
    r <- lift (i32_result E (d + 1)%Z) ;;
    match usize_of_i32 r with
    | None => pfail_at (fun ix => lit "Unable to convert range to usize in tableswitch at index " ++ show_N (ix - 4))
    | Some jump_count =>
        _ <- lift (with_capacity E jump_count 4) ;;
        js <- for_big jump_count (fun _ => j <- read_u4 ;; ret (as_i32 j)) ;;
        ret (OpTableswitch (mk_range default low high js))
    end.

(** bytecode.rs:521-549 *)
Definition read_lookupswitch : parser opcode :=
  _ <- align4 ;;
  default <- read_u4 ;;
  let default := as_i32 default in
  npairs <- read_u4 ;;
  let npairs := as_i32 npairs in
  if (npairs <? 0)%Z then
    pfail_at (fun ix => lit "Number of pairs in lookupswitch must be non-negative at index " ++ show_N (ix - 4))
  else
    match usize_of_i32 npairs with
    | None => pfail_at (fun ix => lit "Unable to convert number of pairs in lookupswitch to usize at index " ++ show_N (ix - 4))
    | Some pair_count =>
        _ <- lift (with_capacity E pair_count 8) ;;
        ps <- for_big pair_count (fun _ =>
                m <- read_u4 ;; o <- read_u4 ;; ret (as_i32 m, as_i32 o)) ;;
        ret (OpLookupswitch (mk_lookup default ps))
    end.

(** bytecode.rs:598-610 *)
Definition read_invokeinterface : parser opcode :=
  m <- read_cp_memberref p T_INTERFACE_METHOD_REF ;;
  count <- read_u1 ;;
  z <- read_u1 ;;
  if negb (z =? 0) then
    pfail_at (fun ix => lit "Nonzero byte found where zero byte expected in invokeinterface opcode at index " ++ show_N (ix - 1))
  else ret (OpInvokeinterface m count).

(** bytecode.rs:611-617 *)
Definition read_invokedynamic_insn : parser opcode :=
  d <- read_cp_invokedynamic p ;;
  z <- read_u2 ;;
  if negb (z =? 0) then
    pfail_at (fun ix => lit "Nonzero bytes found where zero bytes expected in invokedynamic opcode at index " ++ show_N (ix - 2))
  else ret (OpInvokedynamic d).

(** bytecode.rs:619-635 *)
Definition read_newarray : parser opcode :=
  n <- read_u1 ;;
  t <- (match n with
        | 4 => ret ABoolean
        | 5 => ret AChar
        | 6 => ret AFloat
        | 7 => ret ADouble
        | 8 => ret AByte
        | 9 => ret AShort
        | 10 => ret AInt
        | 11 => ret ALong
        | _ => pfail_at (fun ix => lit "Unexpected array type for newarray opcode at index " ++ show_N (ix - 1))
        end) ;;
  ret (OpNewarray t).

(** bytecode.rs:643-664 *)
Definition read_wide : parser opcode :=
  v <- read_u1 ;;
  match v with
  | 0x15 => i <- read_u2 ;; ret (OpIload i)
  | 0x16 => i <- read_u2 ;; ret (OpLload i)
  | 0x17 => i <- read_u2 ;; ret (OpFload i)
  | 0x18 => i <- read_u2 ;; ret (OpDload i)
  | 0x19 => i <- read_u2 ;; ret (OpAload i)
  | 0x36 => i <- read_u2 ;; ret (OpIstore i)
  | 0x37 => i <- read_u2 ;; ret (OpLstore i)
  | 0x38 => i <- read_u2 ;; ret (OpFstore i)
  | 0x39 => i <- read_u2 ;; ret (OpDstore i)
  | 0x3a => i <- read_u2 ;; ret (OpAstore i)
  | 0x84 => i <- read_u2 ;; k <- read_u2 ;; ret (OpIinc i (as_i16 k))
  | 0xa9 => i <- read_u2 ;; ret (OpRet i)
  | _ => pfail_at (fun ix => lit "Unexpected opcode " ++ show_N v
           ++ lit " inside wide modifier at index " ++ show_N (ix - 1))
  end.

(** bytecode.rs:319-677: one iteration's [match read_u1(code, &mut ix)?] *)
Definition read_insn : parser opcode :=
  v <- read_u1 ;;
  match v with
  | 0x00 => ret OpNop
  | 0x01 => ret OpAconstNull
  | 0x02 => ret OpIconstM1
  | 0x03 => ret OpIconst0
  | 0x04 => ret OpIconst1
  | 0x05 => ret OpIconst2
  | 0x06 => ret OpIconst3
  | 0x07 => ret OpIconst4
  | 0x08 => ret OpIconst5
  | 0x09 => ret OpLconst0
  | 0x0a => ret OpLconst1
  | 0x0b => ret OpFconst0
  | 0x0c => ret OpFconst1
  | 0x0d => ret OpFconst2
  | 0x0e => ret OpDconst0
  | 0x0f => ret OpDconst1
  | 0x10 => n <- read_u1 ;; ret (OpBipush (as_i8 n))
  | 0x11 => n <- read_u2 ;; ret (OpSipush (as_i16 n))
  | 0x12 => i <- read_u1 ;; l <- lift (get_cp_loadable p i) ;; ret (OpLdc l)
  | 0x13 => i <- read_u2 ;; l <- lift (get_cp_loadable p i) ;; ret (OpLdcW l)
  | 0x14 => i <- read_u2 ;; l <- lift (get_cp_loadable p i) ;; ret (OpLdc2W l)
  | 0x15 => i <- read_u1 ;; ret (OpIload i)
  | 0x16 => i <- read_u1 ;; ret (OpLload i)
  | 0x17 => i <- read_u1 ;; ret (OpFload i)
  | 0x18 => i <- read_u1 ;; ret (OpDload i)
  | 0x19 => i <- read_u1 ;; ret (OpAload i)
  | 0x1a => ret (OpIload 0)
  | 0x1b => ret (OpIload 1)
  | 0x1c => ret (OpIload 2)
  | 0x1d => ret (OpIload 3)
  | 0x1e => ret (OpLload 0)
  | 0x1f => ret (OpLload 1)
  | 0x20 => ret (OpLload 2)
  | 0x21 => ret (OpLload 3)
  | 0x22 => ret (OpFload 0)
  | 0x23 => ret (OpFload 1)
  | 0x24 => ret (OpFload 2)
  | 0x25 => ret (OpFload 3)
  | 0x26 => ret (OpDload 0)
  | 0x27 => ret (OpDload 1)
  | 0x28 => ret (OpDload 2)
  | 0x29 => ret (OpDload 3)
  | 0x2a => ret (OpAload 0)
  | 0x2b => ret (OpAload 1)
  | 0x2c => ret (OpAload 2)
  | 0x2d => ret (OpAload 3)
  | 0x2e => ret OpIaload
  | 0x2f => ret OpLaload
  | 0x30 => ret OpFaload
  | 0x31 => ret OpDaload
  | 0x32 => ret OpAaload
  | 0x33 => ret OpBaload
  | 0x34 => ret OpCaload
  | 0x35 => ret OpSaload
  | 0x36 => i <- read_u1 ;; ret (OpIstore i)
  | 0x37 => i <- read_u1 ;; ret (OpLstore i)
  | 0x38 => i <- read_u1 ;; ret (OpFstore i)
  | 0x39 => i <- read_u1 ;; ret (OpDstore i)
  | 0x3a => i <- read_u1 ;; ret (OpAstore i)
  | 0x3b => ret (OpIstore 0)
  | 0x3c => ret (OpIstore 1)
  | 0x3d => ret (OpIstore 2)
  | 0x3e => ret (OpIstore 3)
  | 0x3f => ret (OpLstore 0)
  | 0x40 => ret (OpLstore 1)
  | 0x41 => ret (OpLstore 2)
  | 0x42 => ret (OpLstore 3)
  | 0x43 => ret (OpFstore 0)
  | 0x44 => ret (OpFstore 1)
  | 0x45 => ret (OpFstore 2)
  | 0x46 => ret (OpFstore 3)
  | 0x47 => ret (OpDstore 0)
  | 0x48 => ret (OpDstore 1)
  | 0x49 => ret (OpDstore 2)
  | 0x4a => ret (OpDstore 3)
  | 0x4b => ret (OpAstore 0)
  | 0x4c => ret (OpAstore 1)
  | 0x4d => ret (OpAstore 2)
  | 0x4e => ret (OpAstore 3)
  | 0x4f => ret OpIastore
  | 0x50 => ret OpLastore
  | 0x51 => ret OpFastore
  | 0x52 => ret OpDastore
  | 0x53 => ret OpAastore
  | 0x54 => ret OpBastore
  | 0x55 => ret OpCastore
  | 0x56 => ret OpSastore
  | 0x57 => ret OpPop
  | 0x58 => ret OpPop2
  | 0x59 => ret OpDup
  | 0x5a => ret OpDupX1
  | 0x5b => ret OpDupX2
  | 0x5c => ret OpDup2
  | 0x5d => ret OpDup2X1
  | 0x5e => ret OpDup2X2
  | 0x5f => ret OpSwap
  | 0x60 => ret OpIadd
  | 0x61 => ret OpLadd
  | 0x62 => ret OpFadd
  | 0x63 => ret OpDadd
  | 0x64 => ret OpIsub
  | 0x65 => ret OpLsub
  | 0x66 => ret OpFsub
  | 0x67 => ret OpDsub
  | 0x68 => ret OpImul
  | 0x69 => ret OpLmul
  | 0x6a => ret OpFmul
  | 0x6b => ret OpDmul
  | 0x6c => ret OpIdiv
  | 0x6d => ret OpLdiv
  | 0x6e => ret OpFdiv
  | 0x6f => ret OpDdiv
  | 0x70 => ret OpIrem
  | 0x71 => ret OpLrem
  | 0x72 => ret OpFrem
  | 0x73 => ret OpDrem
  | 0x74 => ret OpIneg
  | 0x75 => ret OpLneg
  | 0x76 => ret OpFneg
  | 0x77 => ret OpDneg
  | 0x78 => ret OpIshl
  | 0x79 => ret OpLshl
  | 0x7a => ret OpIshr
  | 0x7b => ret OpLshr
  | 0x7c => ret OpIushr
  | 0x7d => ret OpLushr
  | 0x7e => ret OpIand
  | 0x7f => ret OpLand
  | 0x80 => ret OpIor
  | 0x81 => ret OpLor
  | 0x82 => ret OpIxor
  | 0x83 => ret OpLxor
  | 0x84 => i <- read_u1 ;; k <- read_u1 ;; ret (OpIinc i (as_i8 k))
  | 0x85 => ret OpI2l
  | 0x86 => ret OpI2f
  | 0x87 => ret OpI2d
  | 0x88 => ret OpL2i
  | 0x89 => ret OpL2f
  | 0x8a => ret OpL2d
  | 0x8b => ret OpF2i
  | 0x8c => ret OpF2l
  | 0x8d => ret OpF2d
  | 0x8e => ret OpD2i
  | 0x8f => ret OpD2l
  | 0x90 => ret OpD2f
  | 0x91 => ret OpI2b
  | 0x92 => ret OpI2c
  | 0x93 => ret OpI2s
  | 0x94 => ret OpLcmp
  | 0x95 => ret OpFcmpl
  | 0x96 => ret OpFcmpg
  | 0x97 => ret OpDcmpl
  | 0x98 => ret OpDcmpg
  | 0x99 => j <- read_u2 ;; ret (OpIfeq (as_i16 j))
  | 0x9a => j <- read_u2 ;; ret (OpIfne (as_i16 j))
  | 0x9b => j <- read_u2 ;; ret (OpIflt (as_i16 j))
  | 0x9c => j <- read_u2 ;; ret (OpIfge (as_i16 j))
  | 0x9d => j <- read_u2 ;; ret (OpIfgt (as_i16 j))
  | 0x9e => j <- read_u2 ;; ret (OpIfle (as_i16 j))
  | 0x9f => j <- read_u2 ;; ret (OpIfIcmpeq (as_i16 j))
  | 0xa0 => j <- read_u2 ;; ret (OpIfIcmpne (as_i16 j))
  | 0xa1 => j <- read_u2 ;; ret (OpIfIcmplt (as_i16 j))
  | 0xa2 => j <- read_u2 ;; ret (OpIfIcmpge (as_i16 j))
  | 0xa3 => j <- read_u2 ;; ret (OpIfIcmpgt (as_i16 j))
  | 0xa4 => j <- read_u2 ;; ret (OpIfIcmple (as_i16 j))
  | 0xa5 => j <- read_u2 ;; ret (OpIfAcmpeq (as_i16 j))
  | 0xa6 => j <- read_u2 ;; ret (OpIfAcmpne (as_i16 j))
  | 0xa7 => j <- read_u2 ;; ret (OpGoto (as_i16 j))
  | 0xa8 => j <- read_u2 ;; ret (OpJsr (as_i16 j))
  | 0xa9 => i <- read_u1 ;; ret (OpRet i)
  | 0xaa => read_tableswitch
  | 0xab => read_lookupswitch
  | 0xac => ret OpIreturn
  | 0xad => ret OpLreturn
  | 0xae => ret OpFreturn
  | 0xaf => ret OpDreturn
  | 0xb0 => ret OpAreturn
  | 0xb1 => ret OpReturn
  | 0xb2 => m <- read_cp_memberref p T_FIELD_REF ;; ret (OpGetstatic m)
  | 0xb3 => m <- read_cp_memberref p T_FIELD_REF ;; ret (OpPutstatic m)
  | 0xb4 => m <- read_cp_memberref p T_FIELD_REF ;; ret (OpGetfield m)
  | 0xb5 => m <- read_cp_memberref p T_FIELD_REF ;; ret (OpPutfield m)
  | 0xb6 => m <- read_cp_memberref p T_METHOD_REF ;; ret (OpInvokevirtual m)
  | 0xb7 => m <- read_cp_memberref p T_NEW_METHOD_REFS ;; ret (OpInvokespecial m)
  | 0xb8 => m <- read_cp_memberref p T_NEW_METHOD_REFS ;; ret (OpInvokestatic m)
  | 0xb9 => read_invokeinterface
  | 0xba => read_invokedynamic_insn
  | 0xbb => s <- read_cp_classinfo p ;; ret (OpNew s)
  | 0xbc => read_newarray
  | 0xbd => t <- read_cp_object_array_type p ;; ret (OpAnewarray t)
  | 0xbe => ret OpArraylength
  | 0xbf => ret OpAthrow
  | 0xc0 => t <- read_cp_object_array_type p ;; ret (OpCheckcast t)
  | 0xc1 => t <- read_cp_object_array_type p ;; ret (OpInstanceof t)
  | 0xc2 => ret OpMonitorenter
  | 0xc3 => ret OpMonitorexit
  | 0xc4 => read_wide
  | 0xc5 => t <- read_cp_object_array_type p ;; n <- read_u1 ;; ret (OpMultianewarray t n)
  | 0xc6 => j <- read_u2 ;; ret (OpIfnull (as_i16 j))
  | 0xc7 => j <- read_u2 ;; ret (OpIfnonnull (as_i16 j))
  | 0xc8 => j <- read_u4 ;; ret (OpGoto (as_i32 j))
  | 0xc9 => j <- read_u4 ;; ret (OpJsr (as_i32 j))
  | 0xca => ret OpBreakpoint
  | 0xfe => ret OpImpdep1
  | 0xff => ret OpImpdep2
  | _ => pfail_at (fun ix => lit "Unexpected opcode " ++ show_N v
           ++ lit " at index " ++ show_N (ix - 1))
  end.

(** bytecode.rs:312-681 [read_opcodes]: the [while ix < code.len()] loop; [code]
    is the byte sequence the parser runs on, starting at 0. *)
Fixpoint opcodes_loop (fuel : nat) : parser (list (N * opcode)) := fun code ix =>
  if ix <? blen code then
    match fuel with
    | O => Diverge
    | S fuel' =>
        (op <- read_insn ;;
         rest <- opcodes_loop fuel' ;;
         ret ((ix, op) :: rest)) code ix
    end
  else Ok ([], ix).
(** bytecode.rs:312-681 [read_opcodes] *)
Definition read_opcodes (code : list byte) : outcome (list (N * opcode)) :=
  let* r := opcodes_loop (S (length code)) code 0 in Ok (fst r).

End WithPool.

(** ** Values without the borrowing information *)
(** constant_pool.rs:813-821 *)
Definition plain_literal (l : literal) : M_ConstantPool.literal :=
  match l with
  | LInteger v => M_ConstantPool.LInteger v | LFloat v => M_ConstantPool.LFloat v | LLong v => M_ConstantPool.LLong v
  | LDouble v => M_ConstantPool.LDouble v | LString s => M_ConstantPool.LString (chars s) | LStringBytes raw => M_ConstantPool.LStringBytes raw
  end.
(** constant_pool.rs:791-795 [NameAndType] without the borrowing information *)
Definition plain_nt (n : name_and_type) : M_ConstantPool.name_and_type := M_ConstantPool.mk_nat (chars (nt_name n)) (chars (nt_descriptor n)).
(** constant_pool.rs:887-891 [MemberRef] without the borrowing information *)
Definition plain_member (m : member_ref) : M_ConstantPool.member_ref := M_ConstantPool.mk_mr (chars (mr_class_name m)) (plain_nt (mr_name_and_type m)).
(** constant_pool.rs:914-918 [InvokeDynamic] without the borrowing information *)
Definition plain_indy (d : invoke_dynamic) : M_ConstantPool.invoke_dynamic := M_ConstantPool.mk_indy (indy_attr_index d) (plain_nt (indy_name_and_type d)).
(** constant_pool.rs:935-939 [Dynamic] without the borrowing information *)
Definition plain_dynamic (d : dynamic) : M_ConstantPool.dynamic := M_ConstantPool.mk_dyn (dyn_attr_index d) (plain_nt (dyn_name_and_type d)).
(** constant_pool.rs:988-994 [MethodHandle] without the borrowing information *)
Definition plain_handle (h : method_handle) : M_ConstantPool.method_handle :=
  M_ConstantPool.mk_mh (mh_kind h) (chars (mh_class_name h)) (mh_member_kind h) (plain_nt (mh_member_ref h)).
(** constant_pool.rs:941-948 [Loadable] without the borrowing information *)
Definition plain_loadable (l : loadable) : M_ConstantPool.loadable :=
  match l with
  | LdLiteral l => M_ConstantPool.LdLiteral (plain_literal l) | LdClassInfo s => M_ConstantPool.LdClassInfo (chars s)
  | LdMethodHandle h => M_ConstantPool.LdMethodHandle (plain_handle h) | LdMethodType s => M_ConstantPool.LdMethodType (chars s)
  | LdDynamic d => M_ConstantPool.LdDynamic (plain_dynamic d)
  end.
(** constant_pool.rs:1038-1044 [BootstrapArgument] without the borrowing information *)
Definition plain_argument (a : bootstrap_arg) : M_ConstantPool.bootstrap_arg :=
  match a with
  | BaLiteral l => M_ConstantPool.BaLiteral (plain_literal l) | BaClassInfo s => M_ConstantPool.BaClassInfo (chars s)
  | BaMethodHandle h => M_ConstantPool.BaMethodHandle (plain_handle h) | BaMethodType s => M_ConstantPool.BaMethodType (chars s)
  end.
(** constant_pool.rs:1077-1081 [ObjectArrayType] without the borrowing information *)
Definition plain_array_type (t : object_array_type) : M_ConstantPool.object_array_type :=
  match t with OArrayType d => M_ConstantPool.OArrayType (plain_field_desc d) | OBinaryName s => M_ConstantPool.OBinaryName (chars s) end.
(** constant_pool.rs:1101-1115 [ConstantPoolItem] without the borrowing information *)
Definition plain_item (it : cp_item) : M_ConstantPool.cp_item :=
  match it with
  | ItLiteral l => M_ConstantPool.ItLiteral (plain_literal l) | ItClassInfo s => M_ConstantPool.ItClassInfo (chars s)
  | ItFieldRef m => M_ConstantPool.ItFieldRef (plain_member m) | ItMethodRef m => M_ConstantPool.ItMethodRef (plain_member m)
  | ItInterfaceMethodRef m => M_ConstantPool.ItInterfaceMethodRef (plain_member m) | ItNameAndType n => M_ConstantPool.ItNameAndType (plain_nt n)
  | ItMethodHandle h => M_ConstantPool.ItMethodHandle (plain_handle h) | ItMethodType s => M_ConstantPool.ItMethodType (chars s)
  | ItDynamic d => M_ConstantPool.ItDynamic (plain_dynamic d) | ItInvokeDynamic d => M_ConstantPool.ItInvokeDynamic (plain_indy d)
  | ItModuleInfo s => M_ConstantPool.ItModuleInfo (chars s) | ItPackageInfo s => M_ConstantPool.ItPackageInfo (chars s)
  end.
(** bytecode.rs:41-205 [Opcode] without the borrowing information *)
Definition plain_opcode (op : opcode) : M_Bytecode.opcode :=
  match op with
  | OpAaload => M_Bytecode.OpAaload
  | OpAastore => M_Bytecode.OpAastore
  | OpAconstNull => M_Bytecode.OpAconstNull
  | OpAload x0 => M_Bytecode.OpAload x0
  | OpAnewarray x0 => M_Bytecode.OpAnewarray (plain_array_type x0)
  | OpAreturn => M_Bytecode.OpAreturn
  | OpArraylength => M_Bytecode.OpArraylength
  | OpAstore x0 => M_Bytecode.OpAstore x0
  | OpAthrow => M_Bytecode.OpAthrow
  | OpBaload => M_Bytecode.OpBaload
  | OpBastore => M_Bytecode.OpBastore
  | OpBipush x0 => M_Bytecode.OpBipush x0
  | OpBreakpoint => M_Bytecode.OpBreakpoint
  | OpCaload => M_Bytecode.OpCaload
  | OpCastore => M_Bytecode.OpCastore
  | OpCheckcast x0 => M_Bytecode.OpCheckcast (plain_array_type x0)
  | OpD2f => M_Bytecode.OpD2f
  | OpD2i => M_Bytecode.OpD2i
  | OpD2l => M_Bytecode.OpD2l
  | OpDadd => M_Bytecode.OpDadd
  | OpDaload => M_Bytecode.OpDaload
  | OpDastore => M_Bytecode.OpDastore
  | OpDcmpg => M_Bytecode.OpDcmpg
  | OpDcmpl => M_Bytecode.OpDcmpl
  | OpDconst0 => M_Bytecode.OpDconst0
  | OpDconst1 => M_Bytecode.OpDconst1
  | OpDdiv => M_Bytecode.OpDdiv
  | OpDload x0 => M_Bytecode.OpDload x0
  | OpDmul => M_Bytecode.OpDmul
  | OpDneg => M_Bytecode.OpDneg
  | OpDrem => M_Bytecode.OpDrem
  | OpDreturn => M_Bytecode.OpDreturn
  | OpDstore x0 => M_Bytecode.OpDstore x0
  | OpDsub => M_Bytecode.OpDsub
  | OpDup => M_Bytecode.OpDup
  | OpDupX1 => M_Bytecode.OpDupX1
  | OpDupX2 => M_Bytecode.OpDupX2
  | OpDup2 => M_Bytecode.OpDup2
  | OpDup2X1 => M_Bytecode.OpDup2X1
  | OpDup2X2 => M_Bytecode.OpDup2X2
  | OpF2d => M_Bytecode.OpF2d
  | OpF2i => M_Bytecode.OpF2i
  | OpF2l => M_Bytecode.OpF2l
  | OpFadd => M_Bytecode.OpFadd
  | OpFaload => M_Bytecode.OpFaload
  | OpFastore => M_Bytecode.OpFastore
  | OpFcmpg => M_Bytecode.OpFcmpg
  | OpFcmpl => M_Bytecode.OpFcmpl
  | OpFconst0 => M_Bytecode.OpFconst0
  | OpFconst1 => M_Bytecode.OpFconst1
  | OpFconst2 => M_Bytecode.OpFconst2
  | OpFdiv => M_Bytecode.OpFdiv
  | OpFload x0 => M_Bytecode.OpFload x0
  | OpFmul => M_Bytecode.OpFmul
  | OpFneg => M_Bytecode.OpFneg
  | OpFrem => M_Bytecode.OpFrem
  | OpFreturn => M_Bytecode.OpFreturn
  | OpFstore x0 => M_Bytecode.OpFstore x0
  | OpFsub => M_Bytecode.OpFsub
  | OpGetfield x0 => M_Bytecode.OpGetfield (plain_member x0)
  | OpGetstatic x0 => M_Bytecode.OpGetstatic (plain_member x0)
  | OpGoto x0 => M_Bytecode.OpGoto x0
  | OpI2b => M_Bytecode.OpI2b
  | OpI2c => M_Bytecode.OpI2c
  | OpI2d => M_Bytecode.OpI2d
  | OpI2f => M_Bytecode.OpI2f
  | OpI2l => M_Bytecode.OpI2l
  | OpI2s => M_Bytecode.OpI2s
  | OpIadd => M_Bytecode.OpIadd
  | OpIaload => M_Bytecode.OpIaload
  | OpIand => M_Bytecode.OpIand
  | OpIastore => M_Bytecode.OpIastore
  | OpIconstM1 => M_Bytecode.OpIconstM1
  | OpIconst0 => M_Bytecode.OpIconst0
  | OpIconst1 => M_Bytecode.OpIconst1
  | OpIconst2 => M_Bytecode.OpIconst2
  | OpIconst3 => M_Bytecode.OpIconst3
  | OpIconst4 => M_Bytecode.OpIconst4
  | OpIconst5 => M_Bytecode.OpIconst5
  | OpIdiv => M_Bytecode.OpIdiv
  | OpIfAcmpeq x0 => M_Bytecode.OpIfAcmpeq x0
  | OpIfAcmpne x0 => M_Bytecode.OpIfAcmpne x0
  | OpIfIcmpeq x0 => M_Bytecode.OpIfIcmpeq x0
  | OpIfIcmpge x0 => M_Bytecode.OpIfIcmpge x0
  | OpIfIcmpgt x0 => M_Bytecode.OpIfIcmpgt x0
  | OpIfIcmple x0 => M_Bytecode.OpIfIcmple x0
  | OpIfIcmplt x0 => M_Bytecode.OpIfIcmplt x0
  | OpIfIcmpne x0 => M_Bytecode.OpIfIcmpne x0
  | OpIfeq x0 => M_Bytecode.OpIfeq x0
  | OpIfge x0 => M_Bytecode.OpIfge x0
  | OpIfgt x0 => M_Bytecode.OpIfgt x0
  | OpIfle x0 => M_Bytecode.OpIfle x0
  | OpIflt x0 => M_Bytecode.OpIflt x0
  | OpIfne x0 => M_Bytecode.OpIfne x0
  | OpIfnonnull x0 => M_Bytecode.OpIfnonnull x0
  | OpIfnull x0 => M_Bytecode.OpIfnull x0
  | OpIinc x0 x1 => M_Bytecode.OpIinc x0 x1
  | OpIload x0 => M_Bytecode.OpIload x0
  | OpImpdep1 => M_Bytecode.OpImpdep1
  | OpImpdep2 => M_Bytecode.OpImpdep2
  | OpImul => M_Bytecode.OpImul
  | OpIneg => M_Bytecode.OpIneg
  | OpInstanceof x0 => M_Bytecode.OpInstanceof (plain_array_type x0)
  | OpInvokedynamic x0 => M_Bytecode.OpInvokedynamic (plain_indy x0)
  | OpInvokeinterface x0 x1 => M_Bytecode.OpInvokeinterface (plain_member x0) x1
  | OpInvokespecial x0 => M_Bytecode.OpInvokespecial (plain_member x0)
  | OpInvokestatic x0 => M_Bytecode.OpInvokestatic (plain_member x0)
  | OpInvokevirtual x0 => M_Bytecode.OpInvokevirtual (plain_member x0)
  | OpIor => M_Bytecode.OpIor
  | OpIrem => M_Bytecode.OpIrem
  | OpIreturn => M_Bytecode.OpIreturn
  | OpIshl => M_Bytecode.OpIshl
  | OpIshr => M_Bytecode.OpIshr
  | OpIstore x0 => M_Bytecode.OpIstore x0
  | OpIsub => M_Bytecode.OpIsub
  | OpIushr => M_Bytecode.OpIushr
  | OpIxor => M_Bytecode.OpIxor
  | OpJsr x0 => M_Bytecode.OpJsr x0
  | OpL2d => M_Bytecode.OpL2d
  | OpL2f => M_Bytecode.OpL2f
  | OpL2i => M_Bytecode.OpL2i
  | OpLadd => M_Bytecode.OpLadd
  | OpLaload => M_Bytecode.OpLaload
  | OpLand => M_Bytecode.OpLand
  | OpLastore => M_Bytecode.OpLastore
  | OpLcmp => M_Bytecode.OpLcmp
  | OpLconst0 => M_Bytecode.OpLconst0
  | OpLconst1 => M_Bytecode.OpLconst1
  | OpLdc x0 => M_Bytecode.OpLdc (plain_loadable x0)
  | OpLdcW x0 => M_Bytecode.OpLdcW (plain_loadable x0)
  | OpLdc2W x0 => M_Bytecode.OpLdc2W (plain_loadable x0)
  | OpLdiv => M_Bytecode.OpLdiv
  | OpLload x0 => M_Bytecode.OpLload x0
  | OpLmul => M_Bytecode.OpLmul
  | OpLneg => M_Bytecode.OpLneg
  | OpLookupswitch x0 => M_Bytecode.OpLookupswitch x0
  | OpLor => M_Bytecode.OpLor
  | OpLrem => M_Bytecode.OpLrem
  | OpLreturn => M_Bytecode.OpLreturn
  | OpLshl => M_Bytecode.OpLshl
  | OpLshr => M_Bytecode.OpLshr
  | OpLstore x0 => M_Bytecode.OpLstore x0
  | OpLsub => M_Bytecode.OpLsub
  | OpLushr => M_Bytecode.OpLushr
  | OpLxor => M_Bytecode.OpLxor
  | OpMonitorenter => M_Bytecode.OpMonitorenter
  | OpMonitorexit => M_Bytecode.OpMonitorexit
  | OpMultianewarray x0 x1 => M_Bytecode.OpMultianewarray (plain_array_type x0) x1
  | OpNew x0 => M_Bytecode.OpNew (chars x0)
  | OpNewarray x0 => M_Bytecode.OpNewarray x0
  | OpNop => M_Bytecode.OpNop
  | OpPop => M_Bytecode.OpPop
  | OpPop2 => M_Bytecode.OpPop2
  | OpPutfield x0 => M_Bytecode.OpPutfield (plain_member x0)
  | OpPutstatic x0 => M_Bytecode.OpPutstatic (plain_member x0)
  | OpRet x0 => M_Bytecode.OpRet x0
  | OpReturn => M_Bytecode.OpReturn
  | OpSaload => M_Bytecode.OpSaload
  | OpSastore => M_Bytecode.OpSastore
  | OpSipush x0 => M_Bytecode.OpSipush x0
  | OpSwap => M_Bytecode.OpSwap
  | OpTableswitch x0 => M_Bytecode.OpTableswitch x0
  end.

(** bytecode.rs:207-214 [ByteCode] *)
Record byte_code := mk_bc { opcodes : list (N * opcode) }.
(** bytecode.rs:207-214 [ByteCode] without the borrowing information *)
Definition plain_code (b : byte_code) : M_Bytecode.byte_code := M_Bytecode.mk_bc (map (fun oo => (fst oo, plain_opcode (snd oo))) (opcodes b)).

(** bytecode.rs:217-226 [ByteCode::from]; the validation of jumps does not look at texts. *)
Definition bytecode_from (E : env) (code : list byte) (p : pool) : outcome byte_code :=
  let* ops := read_opcodes E p code in
  let bc := mk_bc ops in
  let* _ := validate_jumps E (plain_code bc) (M_Bytecode.opcodes (plain_code bc)) in
  Ok bc.
