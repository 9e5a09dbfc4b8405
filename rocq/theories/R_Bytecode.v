(** * src/bytecode.rs with the memory reserved in advance *)
From Verif Require Import Base M_ConstantPool M_Bytecode R_Base.

Section WithPool.
Variable E : env.
Variable p : pool.

(** bytecode.rs:494-520; [Vec::with_capacity(jump_count)] is at line 510. *)
Definition r_tableswitch : tparser opcode :=
  _ <~ plain align4 ;;
  default <~ plain read_u4 ;;
  let default := as_i32 default in
  low <~ plain read_u4 ;;
  let low := as_i32 low in
  high <~ plain read_u4 ;;
  let high := as_i32 high in
  if (high <? low)%Z then
    plain (pfail_at (fun ix => lit "The low value must be less than or equal to the high value in tableswitch at index " ++ show_N (ix - 4)))
  else
    d <~ plain (lift (i32_result E (high - low)%Z)) ;;
    r <~ plain (lift (i32_result E (d + 1)%Z)) ;;
    match usize_of_i32 r with
    | None => plain (pfail_at (fun ix => lit "Unable to convert range to usize in tableswitch at index " ++ show_N (ix - 4)))
    | Some jump_count =>
        _ <~ reserve jump_count ;;
        _ <~ plain (lift (with_capacity E jump_count 4)) ;;
        js <~ plain (for_big jump_count (fun _ => j <- read_u4 ;; ret (as_i32 j))) ;;
        plain (ret (OpTableswitch (mk_range default low high js)))
    end.

(** bytecode.rs:521-549; [Vec::with_capacity(pair_count)] is at line 539. *)
Definition r_lookupswitch : tparser opcode :=
  _ <~ plain align4 ;;
  default <~ plain read_u4 ;;
  let default := as_i32 default in
  npairs <~ plain read_u4 ;;
  let npairs := as_i32 npairs in
  if (npairs <? 0)%Z then
    plain (pfail_at (fun ix => lit "Number of pairs in lookupswitch must be non-negative at index " ++ show_N (ix - 4)))
  else
    match usize_of_i32 npairs with
    | None => plain (pfail_at (fun ix => lit "Unable to convert number of pairs in lookupswitch to usize at index " ++ show_N (ix - 4)))
    | Some pair_count =>
        _ <~ reserve pair_count ;;
        _ <~ plain (lift (with_capacity E pair_count 8)) ;;
        ps <~ plain (for_big pair_count (fun _ =>
                m <- read_u4 ;; o <- read_u4 ;; ret (as_i32 m, as_i32 o))) ;;
        plain (ret (OpLookupswitch (mk_lookup default ps)))
    end.

(** bytecode.rs:319-677: one instruction.  Only the two switches reserve; every
    other instruction is read by [read_insn], which reads the opcode again (the
    cursor is not moved by looking at it). *)
Definition r_insn : tparser opcode := fun code ix =>
  match read_u1 code ix with
  | Ok (0xaa, ix') => r_tableswitch code ix'
  | Ok (0xab, ix') => r_lookupswitch code ix'
  | _ => plain (read_insn E p) code ix
  end.

(** bytecode.rs:312-681 [read_opcodes].  The vector of the instructions is made
    with [Vec::new()] (line 316). *)
Fixpoint r_opcodes_loop (fuel : nat) : tparser (list (N * opcode)) := fun code ix =>
  if ix <? blen code then
    match fuel with
    | O => (Diverge, [])
    | S fuel' =>
        (op <~ r_insn ;;
         rest <~ r_opcodes_loop fuel' ;;
         plain (ret ((ix, op) :: rest))) code ix
    end
  else (Ok ([], ix), []).

(** bytecode.rs:217-226 [ByteCode::from] *)
Definition r_bytecode_from (code : list byte) : traced byte_code :=
  let (r, l) := r_opcodes_loop (S (length code)) code 0 in
  (let* ops := (let* r := r in Ok (fst r)) in
   let bc := mk_bc ops in
   let* _ := validate_jumps E bc ops in
   Ok bc, l).
End WithPool.
