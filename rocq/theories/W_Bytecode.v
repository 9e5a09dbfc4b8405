(** * src/bytecode.rs with a count of the steps *)
From Verif Require Import Base M_Names M_Descriptors M_ConstantPool M_Bytecode W_Base W_Descriptors W_ConstantPool.

Section WithPool.
Variable E : env.
Variable p : pool.

(** bytecode.rs:494-520 *)
Definition w_tableswitch : wparser opcode :=
  _ <~ costs 1 align4 ;;
  default <~ w_u4 ;;
  let default := as_i32 default in
  low <~ w_u4 ;;
  let low := as_i32 low in
  high <~ w_u4 ;;
  let high := as_i32 high in
  if (high <? low)%Z then
    wfail_at (fun ix => lit "The low value must be less than or equal to the high value in tableswitch at index " ++ show_N (ix - 4))
  else
    d <~ costs 1 (lift (i32_result E (high - low)%Z)) ;;
    r <~ costs 1 (lift (i32_result E (d + 1)%Z)) ;;
    match usize_of_i32 r with
    | None => wfail_at (fun ix => lit "Unable to convert range to usize in tableswitch at index " ++ show_N (ix - 4))
    | Some jump_count =>
        _ <~ costs 1 (lift (with_capacity E jump_count 4)) ;;
        js <~ wfor_big jump_count (fun _ => j <~ w_u4 ;; wret (as_i32 j)) ;;
        wret (OpTableswitch (mk_range default low high js))
    end.

(** bytecode.rs:521-549 *)
Definition w_lookupswitch : wparser opcode :=
  _ <~ costs 1 align4 ;;
  default <~ w_u4 ;;
  let default := as_i32 default in
  npairs <~ w_u4 ;;
  let npairs := as_i32 npairs in
  if (npairs <? 0)%Z then
    wfail_at (fun ix => lit "Number of pairs in lookupswitch must be non-negative at index " ++ show_N (ix - 4))
  else
    match usize_of_i32 npairs with
    | None => wfail_at (fun ix => lit "Unable to convert number of pairs in lookupswitch to usize at index " ++ show_N (ix - 4))
    | Some pair_count =>
        _ <~ costs 1 (lift (with_capacity E pair_count 8)) ;;
        ps <~ wfor_big pair_count (fun _ =>
                m <~ w_u4 ;; o <~ w_u4 ;; wret (as_i32 m, as_i32 o)) ;;
        wret (OpLookupswitch (mk_lookup default ps))
    end.

(** bytecode.rs:598-610 *)
Definition w_invokeinterface : wparser opcode :=
  m <~ w_memberref p T_INTERFACE_METHOD_REF ;;
  count <~ w_u1 ;;
  z <~ w_u1 ;;
  if negb (z =? 0) then
    wfail_at (fun ix => lit "Nonzero byte found where zero byte expected in invokeinterface opcode at index " ++ show_N (ix - 1))
  else wret (OpInvokeinterface m count).

(** bytecode.rs:611-617 *)
Definition w_invokedynamic_insn : wparser opcode :=
  d <~ w_invokedynamic p ;;
  z <~ w_u2 ;;
  if negb (z =? 0) then
    wfail_at (fun ix => lit "Nonzero bytes found where zero bytes expected in invokedynamic opcode at index " ++ show_N (ix - 2))
  else wret (OpInvokedynamic d).

(** bytecode.rs:619-635 *)
Definition w_newarray : wparser opcode :=
  n <~ w_u1 ;;
  t <~ (match n with
        | 4 => wret ABoolean
        | 5 => wret AChar
        | 6 => wret AFloat
        | 7 => wret ADouble
        | 8 => wret AByte
        | 9 => wret AShort
        | 10 => wret AInt
        | 11 => wret ALong
        | _ => wfail_at (fun ix => lit "Unexpected array type for newarray opcode at index " ++ show_N (ix - 1))
        end) ;;
  wret (OpNewarray t).

(** bytecode.rs:643-664 *)
Definition w_wide : wparser opcode :=
  v <~ w_u1 ;;
  match v with
  | 0x15 => i <~ w_u2 ;; wret (OpIload i)
  | 0x16 => i <~ w_u2 ;; wret (OpLload i)
  | 0x17 => i <~ w_u2 ;; wret (OpFload i)
  | 0x18 => i <~ w_u2 ;; wret (OpDload i)
  | 0x19 => i <~ w_u2 ;; wret (OpAload i)
  | 0x36 => i <~ w_u2 ;; wret (OpIstore i)
  | 0x37 => i <~ w_u2 ;; wret (OpLstore i)
  | 0x38 => i <~ w_u2 ;; wret (OpFstore i)
  | 0x39 => i <~ w_u2 ;; wret (OpDstore i)
  | 0x3a => i <~ w_u2 ;; wret (OpAstore i)
  | 0x84 => i <~ w_u2 ;; k <~ w_u2 ;; wret (OpIinc i (as_i16 k))
  | 0xa9 => i <~ w_u2 ;; wret (OpRet i)
  | _ => wfail_at (fun ix => lit "Unexpected opcode " ++ show_N v
           ++ lit " inside wide modifier at index " ++ show_N (ix - 1))
  end.

(** bytecode.rs:319-677: one iteration's [match read_u1(code, &mut ix)?] *)
Definition w_insn : wparser opcode :=
  v <~ w_u1 ;;
  match v with
  | 0x00 => wret OpNop
  | 0x01 => wret OpAconstNull
  | 0x02 => wret OpIconstM1
  | 0x03 => wret OpIconst0
  | 0x04 => wret OpIconst1
  | 0x05 => wret OpIconst2
  | 0x06 => wret OpIconst3
  | 0x07 => wret OpIconst4
  | 0x08 => wret OpIconst5
  | 0x09 => wret OpLconst0
  | 0x0a => wret OpLconst1
  | 0x0b => wret OpFconst0
  | 0x0c => wret OpFconst1
  | 0x0d => wret OpFconst2
  | 0x0e => wret OpDconst0
  | 0x0f => wret OpDconst1
  | 0x10 => n <~ w_u1 ;; wret (OpBipush (as_i8 n))
  | 0x11 => n <~ w_u2 ;; wret (OpSipush (as_i16 n))
  | 0x12 => i <~ w_u1 ;; l <~ wlift (w_loadable p i) ;; wret (OpLdc l)
  | 0x13 => i <~ w_u2 ;; l <~ wlift (w_loadable p i) ;; wret (OpLdcW l)
  | 0x14 => i <~ w_u2 ;; l <~ wlift (w_loadable p i) ;; wret (OpLdc2W l)
  | 0x15 => i <~ w_u1 ;; wret (OpIload i)
  | 0x16 => i <~ w_u1 ;; wret (OpLload i)
  | 0x17 => i <~ w_u1 ;; wret (OpFload i)
  | 0x18 => i <~ w_u1 ;; wret (OpDload i)
  | 0x19 => i <~ w_u1 ;; wret (OpAload i)
  | 0x1a => wret (OpIload 0)
  | 0x1b => wret (OpIload 1)
  | 0x1c => wret (OpIload 2)
  | 0x1d => wret (OpIload 3)
  | 0x1e => wret (OpLload 0)
  | 0x1f => wret (OpLload 1)
  | 0x20 => wret (OpLload 2)
  | 0x21 => wret (OpLload 3)
  | 0x22 => wret (OpFload 0)
  | 0x23 => wret (OpFload 1)
  | 0x24 => wret (OpFload 2)
  | 0x25 => wret (OpFload 3)
  | 0x26 => wret (OpDload 0)
  | 0x27 => wret (OpDload 1)
  | 0x28 => wret (OpDload 2)
  | 0x29 => wret (OpDload 3)
  | 0x2a => wret (OpAload 0)
  | 0x2b => wret (OpAload 1)
  | 0x2c => wret (OpAload 2)
  | 0x2d => wret (OpAload 3)
  | 0x2e => wret OpIaload
  | 0x2f => wret OpLaload
  | 0x30 => wret OpFaload
  | 0x31 => wret OpDaload
  | 0x32 => wret OpAaload
  | 0x33 => wret OpBaload
  | 0x34 => wret OpCaload
  | 0x35 => wret OpSaload
  | 0x36 => i <~ w_u1 ;; wret (OpIstore i)
  | 0x37 => i <~ w_u1 ;; wret (OpLstore i)
  | 0x38 => i <~ w_u1 ;; wret (OpFstore i)
  | 0x39 => i <~ w_u1 ;; wret (OpDstore i)
  | 0x3a => i <~ w_u1 ;; wret (OpAstore i)
  | 0x3b => wret (OpIstore 0)
  | 0x3c => wret (OpIstore 1)
  | 0x3d => wret (OpIstore 2)
  | 0x3e => wret (OpIstore 3)
  | 0x3f => wret (OpLstore 0)
  | 0x40 => wret (OpLstore 1)
  | 0x41 => wret (OpLstore 2)
  | 0x42 => wret (OpLstore 3)
  | 0x43 => wret (OpFstore 0)
  | 0x44 => wret (OpFstore 1)
  | 0x45 => wret (OpFstore 2)
  | 0x46 => wret (OpFstore 3)
  | 0x47 => wret (OpDstore 0)
  | 0x48 => wret (OpDstore 1)
  | 0x49 => wret (OpDstore 2)
  | 0x4a => wret (OpDstore 3)
  | 0x4b => wret (OpAstore 0)
  | 0x4c => wret (OpAstore 1)
  | 0x4d => wret (OpAstore 2)
  | 0x4e => wret (OpAstore 3)
  | 0x4f => wret OpIastore
  | 0x50 => wret OpLastore
  | 0x51 => wret OpFastore
  | 0x52 => wret OpDastore
  | 0x53 => wret OpAastore
  | 0x54 => wret OpBastore
  | 0x55 => wret OpCastore
  | 0x56 => wret OpSastore
  | 0x57 => wret OpPop
  | 0x58 => wret OpPop2
  | 0x59 => wret OpDup
  | 0x5a => wret OpDupX1
  | 0x5b => wret OpDupX2
  | 0x5c => wret OpDup2
  | 0x5d => wret OpDup2X1
  | 0x5e => wret OpDup2X2
  | 0x5f => wret OpSwap
  | 0x60 => wret OpIadd
  | 0x61 => wret OpLadd
  | 0x62 => wret OpFadd
  | 0x63 => wret OpDadd
  | 0x64 => wret OpIsub
  | 0x65 => wret OpLsub
  | 0x66 => wret OpFsub
  | 0x67 => wret OpDsub
  | 0x68 => wret OpImul
  | 0x69 => wret OpLmul
  | 0x6a => wret OpFmul
  | 0x6b => wret OpDmul
  | 0x6c => wret OpIdiv
  | 0x6d => wret OpLdiv
  | 0x6e => wret OpFdiv
  | 0x6f => wret OpDdiv
  | 0x70 => wret OpIrem
  | 0x71 => wret OpLrem
  | 0x72 => wret OpFrem
  | 0x73 => wret OpDrem
  | 0x74 => wret OpIneg
  | 0x75 => wret OpLneg
  | 0x76 => wret OpFneg
  | 0x77 => wret OpDneg
  | 0x78 => wret OpIshl
  | 0x79 => wret OpLshl
  | 0x7a => wret OpIshr
  | 0x7b => wret OpLshr
  | 0x7c => wret OpIushr
  | 0x7d => wret OpLushr
  | 0x7e => wret OpIand
  | 0x7f => wret OpLand
  | 0x80 => wret OpIor
  | 0x81 => wret OpLor
  | 0x82 => wret OpIxor
  | 0x83 => wret OpLxor
  | 0x84 => i <~ w_u1 ;; k <~ w_u1 ;; wret (OpIinc i (as_i8 k))
  | 0x85 => wret OpI2l
  | 0x86 => wret OpI2f
  | 0x87 => wret OpI2d
  | 0x88 => wret OpL2i
  | 0x89 => wret OpL2f
  | 0x8a => wret OpL2d
  | 0x8b => wret OpF2i
  | 0x8c => wret OpF2l
  | 0x8d => wret OpF2d
  | 0x8e => wret OpD2i
  | 0x8f => wret OpD2l
  | 0x90 => wret OpD2f
  | 0x91 => wret OpI2b
  | 0x92 => wret OpI2c
  | 0x93 => wret OpI2s
  | 0x94 => wret OpLcmp
  | 0x95 => wret OpFcmpl
  | 0x96 => wret OpFcmpg
  | 0x97 => wret OpDcmpl
  | 0x98 => wret OpDcmpg
  | 0x99 => j <~ w_u2 ;; wret (OpIfeq (as_i16 j))
  | 0x9a => j <~ w_u2 ;; wret (OpIfne (as_i16 j))
  | 0x9b => j <~ w_u2 ;; wret (OpIflt (as_i16 j))
  | 0x9c => j <~ w_u2 ;; wret (OpIfge (as_i16 j))
  | 0x9d => j <~ w_u2 ;; wret (OpIfgt (as_i16 j))
  | 0x9e => j <~ w_u2 ;; wret (OpIfle (as_i16 j))
  | 0x9f => j <~ w_u2 ;; wret (OpIfIcmpeq (as_i16 j))
  | 0xa0 => j <~ w_u2 ;; wret (OpIfIcmpne (as_i16 j))
  | 0xa1 => j <~ w_u2 ;; wret (OpIfIcmplt (as_i16 j))
  | 0xa2 => j <~ w_u2 ;; wret (OpIfIcmpge (as_i16 j))
  | 0xa3 => j <~ w_u2 ;; wret (OpIfIcmpgt (as_i16 j))
  | 0xa4 => j <~ w_u2 ;; wret (OpIfIcmple (as_i16 j))
  | 0xa5 => j <~ w_u2 ;; wret (OpIfAcmpeq (as_i16 j))
  | 0xa6 => j <~ w_u2 ;; wret (OpIfAcmpne (as_i16 j))
  | 0xa7 => j <~ w_u2 ;; wret (OpGoto (as_i16 j))
  | 0xa8 => j <~ w_u2 ;; wret (OpJsr (as_i16 j))
  | 0xa9 => i <~ w_u1 ;; wret (OpRet i)
  | 0xaa => w_tableswitch
  | 0xab => w_lookupswitch
  | 0xac => wret OpIreturn
  | 0xad => wret OpLreturn
  | 0xae => wret OpFreturn
  | 0xaf => wret OpDreturn
  | 0xb0 => wret OpAreturn
  | 0xb1 => wret OpReturn
  | 0xb2 => m <~ w_memberref p T_FIELD_REF ;; wret (OpGetstatic m)
  | 0xb3 => m <~ w_memberref p T_FIELD_REF ;; wret (OpPutstatic m)
  | 0xb4 => m <~ w_memberref p T_FIELD_REF ;; wret (OpGetfield m)
  | 0xb5 => m <~ w_memberref p T_FIELD_REF ;; wret (OpPutfield m)
  | 0xb6 => m <~ w_memberref p T_METHOD_REF ;; wret (OpInvokevirtual m)
  | 0xb7 => m <~ w_memberref p T_NEW_METHOD_REFS ;; wret (OpInvokespecial m)
  | 0xb8 => m <~ w_memberref p T_NEW_METHOD_REFS ;; wret (OpInvokestatic m)
  | 0xb9 => w_invokeinterface
  | 0xba => w_invokedynamic_insn
  | 0xbb => s <~ w_class p ;; wret (OpNew s)
  | 0xbc => w_newarray
  | 0xbd => t <~ w_object_array_type p ;; wret (OpAnewarray t)
  | 0xbe => wret OpArraylength
  | 0xbf => wret OpAthrow
  | 0xc0 => t <~ w_object_array_type p ;; wret (OpCheckcast t)
  | 0xc1 => t <~ w_object_array_type p ;; wret (OpInstanceof t)
  | 0xc2 => wret OpMonitorenter
  | 0xc3 => wret OpMonitorexit
  | 0xc4 => w_wide
  | 0xc5 => t <~ w_object_array_type p ;; n <~ w_u1 ;; wret (OpMultianewarray t n)
  | 0xc6 => j <~ w_u2 ;; wret (OpIfnull (as_i16 j))
  | 0xc7 => j <~ w_u2 ;; wret (OpIfnonnull (as_i16 j))
  | 0xc8 => j <~ w_u4 ;; wret (OpGoto (as_i32 j))
  | 0xc9 => j <~ w_u4 ;; wret (OpJsr (as_i32 j))
  | 0xca => wret OpBreakpoint
  | 0xfe => wret OpImpdep1
  | 0xff => wret OpImpdep2
  | _ => wfail_at (fun ix => lit "Unexpected opcode " ++ show_N v
           ++ lit " at index " ++ show_N (ix - 1))
  end.

(** bytecode.rs:312-681 [read_opcodes]: the [while ix < code.len()] loop *)
Fixpoint w_opcodes_loop (fuel : nat) : wparser (list (N * opcode)) := fun code ix =>
  if ix <? blen code then
    match fuel with
    | O => (Diverge, 0)
    | S fuel' =>
        (op <~ w_insn ;;
         _ <~ tick 1 ;;
         rest <~ w_opcodes_loop fuel' ;;
         wret ((ix, op) :: rest)) code ix
    end
  else (Ok ([], ix), 0).
(** bytecode.rs:312-681 [read_opcodes] *)
Definition w_opcodes (code : list byte) : metered (list (N * opcode)) :=
  let~ r := w_opcodes_loop (S (length code)) code 0 in mok (fst r).

End WithPool.

(** bytecode.rs:231-250 [get_opcode_index]: 1 step for every iteration *)
Fixpoint w_search_loop (fuel : nat) (ops : list (N * opcode)) (offset min max : N) : metered (option N) :=
  if min <? max then
    match fuel with
    | O => steps 0 Diverge
    | S fuel' =>
        let mid := (min + max) / 2 in
        after 1
          (match nth_error ops (N.to_nat mid) with
           | None => steps 0 (Panic PSlice)
           | Some (mid_offset, _) =>
               if mid_offset =? offset then mok (Some mid)
               else if offset <? mid_offset then w_search_loop fuel' ops offset min mid
               else if min =? mid then mok None
               else w_search_loop fuel' ops offset mid max
           end)
    end
  else mok None.
(** bytecode.rs:231-249 [get_opcode_index] *)
Definition w_get_opcode_index (bc : byte_code) (offset : N) : metered (option N) :=
  w_search_loop (S (length (opcodes bc))) (opcodes bc) offset 0 (N.of_nat (length (opcodes bc))).

Section Jumps.
Variable E : env.
Variable bc : byte_code.

(** bytecode.rs:252-259 [validate_jump] *)
Definition w_validate_jump (source_offset jump : Z) : metered unit :=
  let~ t := steps 1 (i32_result E (source_offset + jump)%Z) in
  match usize_of_i32 t with
  | None => steps 1 (fail (lit "Invalid destination after applying jump"))
  | Some target =>
      let~ r := w_get_opcode_index bc target in
      match r with
      | None => steps 1 (fail (lit "Invalid opcode offset after applying jump"))
      | Some _ => mok tt
      end
  end.

(** bytecode.rs:287-291 and 295-299 *)
Fixpoint w_validate_all (source_offset : Z) (js : list (str * Z)) : metered unit :=
  match js with
  | [] => mok tt
  | (c, j) :: js' =>
      let~ _ := mctx c (w_validate_jump source_offset j) in
      w_validate_all source_offset js'
  end.

(** bytecode.rs:261-303 [validate_opcode_jumps] *)
Definition w_validate_opcode_jumps (offset : N) (op : opcode) : metered unit :=
  match i32_of_usize offset with
  | None => steps 1 (fail (lit "Unable to convert offset to i32"))
  | Some source_offset =>
      match op with
      | OpGoto j | OpIfAcmpeq j | OpIfAcmpne j | OpIfIcmpeq j | OpIfIcmpge j | OpIfIcmpgt j
      | OpIfIcmple j | OpIfIcmplt j | OpIfIcmpne j | OpIfeq j | OpIfge j | OpIfgt j
      | OpIfle j | OpIflt j | OpIfne j | OpIfnonnull j | OpIfnull j
      | OpJsr j => w_validate_jump source_offset j
      | OpLookupswitch table =>
          let~ _ := mctx (lit "default jump offset") (w_validate_jump source_offset (lk_default table)) in
          w_validate_all source_offset
            (map (fun ij => (lit "match offset " ++ show_Z (fst ij), snd ij)) (match_offsets table))
      | OpTableswitch table =>
          let~ _ := mctx (lit "default jump offset") (w_validate_jump source_offset (rg_default table)) in
          w_validate_all source_offset
            (map (fun ij => (lit "range offset " ++ show_N (fst ij), snd ij)) (enumerate 0 (jumps table)))
      | _ => mok tt
      end
  end.

(** bytecode.rs:305-311 [validate_jumps] *)
Fixpoint w_validate_jumps (ops : list (N * opcode)) : metered unit :=
  match ops with
  | [] => mok tt
  | (offset, op) :: ops' =>
      let~ _ := mctx (lit "opcode at offset " ++ show_N offset) (after 1 (w_validate_opcode_jumps offset op)) in
      w_validate_jumps ops'
  end.
End Jumps.

(** bytecode.rs:217-226 [ByteCode::from] *)
Definition w_bytecode_from (E : env) (code : list byte) (p : pool) : metered byte_code :=
  let~ ops := w_opcodes E p code in
  let bc := mk_bc ops in
  let~ _ := w_validate_jumps E bc ops in
  mok bc.
