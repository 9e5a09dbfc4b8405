(** * Model of src/constant_pool.rs

    A [CafeRc<ConstantPoolEntry>] is modelled by the index of the entry in the
    pool vector: the code creates such pointers only by [pool[target].clone()]
    (constant_pool.rs:49, 714).  Consequently every function that follows a
    pointer takes the pool as an additional argument.  [CafeCell] is transparent
    (its locking is modelled separately in M_Locks.v). *)
From Verif Require Import Base M_Names M_Descriptors.

(** constant_pool.rs:25-28 [ConstantPoolRef] *)
Inductive cpref := Unresolved (ix : N) | Resolved (target : N).

(** constant_pool.rs:105-115 [ReferenceKind] *)
Inductive ref_kind :=
| GetField | GetStatic | PutField | PutStatic | InvokeVirtual | InvokeStatic
| InvokeSpecial | NewInvokeSpecial | InvokeInterface.

(** constant_pool.rs:117-144 [ConstantPoolEntryTypes] *)
Definition T_ZERO := 0x00000001.
(** constant_pool.rs:120 [UTF8] *)
Definition T_UTF8 := 0x00000002.
(** constant_pool.rs:121 [INTEGER] *)
Definition T_INTEGER := 0x00000004.
(** constant_pool.rs:122 [FLOAT] *)
Definition T_FLOAT := 0x00000008.
(** constant_pool.rs:123 [LONG] *)
Definition T_LONG := 0x00000010.
(** constant_pool.rs:124 [DOUBLE] *)
Definition T_DOUBLE := 0x00000020.
(** constant_pool.rs:125 [CLASS_INFO] *)
Definition T_CLASS_INFO := 0x00000040.
(** constant_pool.rs:126 [STRING] *)
Definition T_STRING := 0x00000080.
(** constant_pool.rs:127 [FIELD_REF] *)
Definition T_FIELD_REF := 0x00000100.
(** constant_pool.rs:128 [METHOD_REF] *)
Definition T_METHOD_REF := 0x00000200.
(** constant_pool.rs:129 [INTERFACE_METHOD_REF] *)
Definition T_INTERFACE_METHOD_REF := 0x00000400.
(** constant_pool.rs:130 [NAME_AND_TYPE] *)
Definition T_NAME_AND_TYPE := 0x00000800.
(** constant_pool.rs:131 [METHOD_HANDLE] *)
Definition T_METHOD_HANDLE := 0x00001000.
(** constant_pool.rs:132 [METHOD_TYPE] *)
Definition T_METHOD_TYPE := 0x00002000.
(** constant_pool.rs:133 [DYNAMIC] *)
Definition T_DYNAMIC := 0x00004000.
(** constant_pool.rs:134 [INVOKE_DYNAMIC] *)
Definition T_INVOKE_DYNAMIC := 0x00008000.
(** constant_pool.rs:135 [MODULE_INFO] *)
Definition T_MODULE_INFO := 0x00010000.
(** constant_pool.rs:136 [PACKAGE_INFO] *)
Definition T_PACKAGE_INFO := 0x00020000.
(** constant_pool.rs:137 [UNUSED] *)
Definition T_UNUSED := 0x00040000.
(** constant_pool.rs:139 [NEW_METHOD_REFS] *)
Definition T_NEW_METHOD_REFS := N.lor T_METHOD_REF T_INTERFACE_METHOD_REF.

(** constant_pool.rs:149-170 [ConstantPoolEntry]; floats are bit patterns. *)
Inductive entry :=
| EZero
| EUtf8 (s : str)
| EUtf8Bytes (raw : list byte)
| EInteger (v : Z)
| EFloat (bits : N)
| ELong (v : Z)
| EDouble (bits : N)
| EClassInfo (x : cpref)
| EString (x : cpref)
| EFieldRef (x y : cpref)
| EMethodRef (x y : cpref)
| EInterfaceMethodRef (x y : cpref)
| ENameAndType (x y : cpref)
| EMethodHandle (k : ref_kind) (y : cpref)
| EMethodType (x : cpref)
| EDynamic (b : N) (y : cpref)
| EInvokeDynamic (b : N) (y : cpref)
| EModuleInfo (x : cpref)
| EPackageInfo (x : cpref)
| EUnused.

(** lib.rs:325, constant_pool.rs:653-658: the vector of entries *)
Definition pool := list entry.
(** constant_pool.rs:702-715 ([pool.len()]) *)
Definition plen (p : pool) : N := N.of_nat (length p).

(** constant_pool.rs:31-54 [ConstantPoolRef::resolve]; [len] is [pool.len()]. *)
Definition resolve_ref (r : cpref) (my_index len : N) : outcome cpref :=
  match r with
  | Unresolved target =>
      if target =? my_index then
        fail (lit "Constant pool entry at index " ++ show_N my_index
              ++ lit " could not be resolved due to self-reference")
      else if len <=? target then
        fail (lit "Constant pool entry at index " ++ show_N my_index
              ++ lit " references out-of-bounds index " ++ show_N target)
      else Ok (Resolved target)
  | Resolved t => Ok (Resolved t)
  end.

(** constant_pool.rs:56-61 [get] and 64-76 [peel!] *)
Definition peel (p : pool) (r : cpref) : outcome entry :=
  match r with
  | Unresolved _ => Panic PUnresolved
  | Resolved t =>
      match nth_error p (N.to_nat t) with
      | Some e => Ok e
      | None => Panic PSlice (* impossible in Rust: a pointer is never dangling *)
      end
  end.

(** constant_pool.rs:173-208 [ConstantPoolEntry::resolve], returning the updated entry *)
Definition resolve_entry (e : entry) (my_index len : N) : outcome entry :=
  let one (x : cpref) (k : cpref -> entry) : outcome entry :=
    let* x' := resolve_ref x my_index len in Ok (k x') in
  let two (x y : cpref) (k : cpref -> cpref -> entry) : outcome entry :=
    let* x' := resolve_ref x my_index len in
    let* y' := resolve_ref y my_index len in Ok (k x' y') in
  match e with
  | EZero | EUtf8 _ | EUtf8Bytes _ | EInteger _ | EFloat _ | ELong _ | EDouble _ | EUnused => Ok e
  | EClassInfo x => one x EClassInfo
  | EString x => one x EString
  | EMethodHandle k x => one x (EMethodHandle k)
  | EMethodType x => one x EMethodType
  | EDynamic b x => one x (EDynamic b)
  | EInvokeDynamic b x => one x (EInvokeDynamic b)
  | EModuleInfo x => one x EModuleInfo
  | EPackageInfo x => one x EPackageInfo
  | EFieldRef x y => two x y EFieldRef
  | EMethodRef x y => two x y EMethodRef
  | EInterfaceMethodRef x y => two x y EInterfaceMethodRef
  | ENameAndType x y => two x y ENameAndType
  end.

(** constant_pool.rs:210-236 [get_type] *)
Definition get_type (e : entry) : N :=
  match e with
  | EZero => T_ZERO
  | EUtf8 _ | EUtf8Bytes _ => T_UTF8
  | EInteger _ => T_INTEGER
  | EFloat _ => T_FLOAT
  | ELong _ => T_LONG
  | EDouble _ => T_DOUBLE
  | EClassInfo _ => T_CLASS_INFO
  | EString _ => T_STRING
  | EFieldRef _ _ => T_FIELD_REF
  | EMethodRef _ _ => T_METHOD_REF
  | EInterfaceMethodRef _ _ => T_INTERFACE_METHOD_REF
  | ENameAndType _ _ => T_NAME_AND_TYPE
  | EMethodHandle _ _ => T_METHOD_HANDLE
  | EMethodType _ => T_METHOD_TYPE
  | EDynamic _ _ => T_DYNAMIC
  | EInvokeDynamic _ _ => T_INVOKE_DYNAMIC
  | EModuleInfo _ => T_MODULE_INFO
  | EPackageInfo _ => T_PACKAGE_INFO
  | EUnused => T_UNUSED
  end.

(** constant_pool.rs:316-322 [ConstantPoolEntry::ensure_type] *)
Definition ensure_type (e : entry) (allowed : N) : outcome unit :=
  if contains allowed (get_type e) then Ok tt
  else fail (lit "Unexpected constant pool reference type").

(** constant_pool.rs:99-101 [CafeCellDeref::ensure_type] *)
Definition ensure_ref_type (p : pool) (r : cpref) (allowed : N) : outcome unit :=
  let* e := peel p r in ensure_type e allowed.

(** constant_pool.rs:327-335 [ConstantPoolEntry::str] *)
Definition entry_str (e : entry) : outcome str :=
  match e with
  | EUtf8 x => Ok x
  | EUtf8Bytes _ => fail (lit "Attempting to get utf-8 data from non-utf8 constant pool entry!")
  | _ => fail (lit "Unexpected constant pool reference type")
  end.

(** constant_pool.rs:337-345 [validate_classinfo_name] *)
Definition validate_classinfo_name (e : entry) : outcome unit :=
  let* x := entry_str e in
  let* ok := (if is_binary_name x then Ok true else is_array_descriptor x) in
  if (ok : bool) then Ok tt else fail (lit "Invalid classinfo name").

(** constant_pool.rs:347-353 [validate_binary_name] *)
Definition validate_binary_name (e : entry) : outcome unit :=
  let* x := entry_str e in
  if is_binary_name x then Ok tt else fail (lit "Invalid binary name").

(** constant_pool.rs:355-362 [validate_unqualified_name] *)
Definition validate_unqualified_name (e : entry) : outcome unit :=
  let* s := entry_str e in
  if is_unqualified_name s || is_unqualified_method_name s true false then Ok tt
  else fail (lit "Invalid unqualified name").

(** constant_pool.rs:364-370 [validate_module_name] *)
Definition validate_module_name (e : entry) : outcome unit :=
  let* x := entry_str e in
  if is_module_name x then Ok tt else fail (lit "Invalid module name").

(** constant_pool.rs:372-383 [validate_field_descriptor] *)
Definition validate_field_descriptor (p : pool) (e : entry) : outcome unit :=
  match e with
  | ENameAndType _ y =>
      let* t := peel p y in
      let* x := entry_str t in
      let* ok := is_field_descriptor x in
      if (ok : bool) then Ok tt else fail (lit "Invalid field descriptor")
  | _ => Panic PNoDescriptor
  end.

(** constant_pool.rs:385-396 [validate_method_descriptor]: recursive on the
    descriptor of a NameAndType entry, [stk] levels of stack available. *)
Fixpoint validate_method_descriptor (stk : nat) (p : pool) (e : entry) : outcome unit :=
  match stk with
  | O => Panic PStackOverflow
  | S stk' =>
      match e with
      | ENameAndType _ y =>
          let* t := peel p y in validate_method_descriptor stk' p t
      | _ =>
          let* x := entry_str e in
          let* ok := is_method_descriptor x in
          if (ok : bool) then Ok tt else fail (lit "Invalid method descriptor")
      end
  end.

(** constant_pool.rs:238-314 [ConstantPoolEntry::validate] *)
Definition validate_entry (stk : nat) (p : pool) (major : N) (e : entry) : outcome unit :=
  match e with
  | EClassInfo x =>
      let* _ := ensure_ref_type p x T_UTF8 in
      let* t := peel p x in validate_classinfo_name t
  | EString x => ensure_ref_type p x T_UTF8
  | EFieldRef x y =>
      let* _ := ensure_ref_type p x T_CLASS_INFO in
      let* _ := ensure_ref_type p y T_NAME_AND_TYPE in
      let* t := peel p y in validate_field_descriptor p t
  | EMethodRef x y =>
      let* _ := ensure_ref_type p x T_CLASS_INFO in
      let* _ := ensure_ref_type p y T_NAME_AND_TYPE in
      let* t := peel p y in validate_method_descriptor stk p t
  | EInterfaceMethodRef x y =>
      let* _ := ensure_ref_type p x T_CLASS_INFO in
      let* _ := ensure_ref_type p y T_NAME_AND_TYPE in
      let* t := peel p y in validate_method_descriptor stk p t
  | ENameAndType x y =>
      let* _ := ensure_ref_type p x T_UTF8 in
      let* t := peel p x in
      let* _ := validate_unqualified_name t in
      ensure_ref_type p y T_UTF8
  | EMethodHandle x y =>
      ensure_ref_type p y
        (match x with
         | GetField | GetStatic | PutField | PutStatic => T_FIELD_REF
         | InvokeVirtual | NewInvokeSpecial => T_METHOD_REF
         | InvokeStatic | InvokeSpecial =>
             if major <? 52 then T_METHOD_REF else T_NEW_METHOD_REFS
         | InvokeInterface => T_INTERFACE_METHOD_REF
         end)
  | EMethodType x =>
      let* _ := ensure_ref_type p x T_UTF8 in
      let* t := peel p x in validate_method_descriptor stk p t
  | EDynamic _ y =>
      let* _ := ensure_ref_type p y T_NAME_AND_TYPE in
      let* t := peel p y in validate_field_descriptor p t
  | EInvokeDynamic _ y =>
      let* _ := ensure_ref_type p y T_NAME_AND_TYPE in
      let* t := peel p y in validate_method_descriptor stk p t
  | EModuleInfo x =>
      let* _ := ensure_ref_type p x T_UTF8 in
      let* t := peel p x in validate_module_name t
  | EPackageInfo x =>
      let* _ := ensure_ref_type p x T_UTF8 in
      let* t := peel p x in validate_binary_name t
  | EZero | EUtf8 _ | EUtf8Bytes _ | EInteger _ | EFloat _ | ELong _ | EDouble _ | EUnused => Ok tt
  end.

(** constant_pool.rs:814-821 [LiteralConstant] *)
Inductive literal :=
| LInteger (v : Z) | LFloat (bits : N) | LLong (v : Z) | LDouble (bits : N)
| LString (s : str) | LStringBytes (raw : list byte).

(** constant_pool.rs:792-795 [NameAndType] *)
Record name_and_type := mk_nat { nt_name : str; nt_descriptor : str }.

(** constant_pool.rs:398-403 [utf8] *)
Definition utf8 (e : entry) : outcome str :=
  match e with EUtf8 x => Ok x | _ => Panic PNotUtf8 end.

(** constant_pool.rs:405-411 [string_literal] *)
Definition string_literal (e : entry) : outcome literal :=
  match e with
  | EUtf8 x => Ok (LString x)
  | EUtf8Bytes x => Ok (LStringBytes x)
  | _ => Panic PNotUtf8
  end.

(** constant_pool.rs:413-418 [classinfo] *)
Definition classinfo (p : pool) (e : entry) : outcome str :=
  match e with
  | EClassInfo x => let* t := peel p x in utf8 t
  | _ => Panic PNotClassInfo
  end.

(** constant_pool.rs:64-76, 398-403. [peel!(x).utf8()] *)
Definition peel_utf8 (p : pool) (r : cpref) : outcome str := let* t := peel p r in utf8 t.

(** constant_pool.rs:420-430 [name_and_type] *)
Definition get_name_and_type (p : pool) (e : entry) : outcome name_and_type :=
  match e with
  | ENameAndType x y =>
      let* n := peel_utf8 p x in
      let* d := peel_utf8 p y in
      Ok (mk_nat n d)
  | _ => Panic PNotNameAndType
  end.

(** ** Reading entries *)
Section WithEnv.
Variable E : env.

(** constant_pool.rs:433-440 [read_unresolved_cp_ref] *)
Definition read_unresolved_cp_ref : parser cpref := n <- read_u2 ;; ret (Unresolved n).

(** constant_pool.rs:442-468 [read_constant_utf8] *)
Definition read_constant_utf8 : parser entry :=
  len <- read_u2 ;;
  bs <- get_bytes ;;
  ix <- get_ix ;;
  if blen bs <? ix + len then
    pfail (lit "Unexpected end of stream reading CONSTANT_Utf8 at index " ++ show_N ix)
  else
    data <- lift (slice bs ix (ix + len)) ;;
    _ <- set_ix (ix + len) ;;
    match cesu8 E data with
    | Some s => ret (EUtf8 s)
    | None => ret (EUtf8Bytes data)
    end.

(** constant_pool.rs:470-502 *)
Definition read_constant_integer : parser entry := n <- read_u4 ;; ret (EInteger (as_i32 n)).
(** constant_pool.rs:478-485 [read_constant_float] *)
Definition read_constant_float : parser entry := n <- read_u4 ;; ret (EFloat n).
(** constant_pool.rs:487-493 [read_constant_long] *)
Definition read_constant_long : parser entry := n <- read_u8 ;; ret (ELong (as_i64 n)).
(** constant_pool.rs:495-502 [read_constant_double] *)
Definition read_constant_double : parser entry := n <- read_u8 ;; ret (EDouble n).

(** constant_pool.rs:504-557 *)
Definition read_constant_class : parser entry := x <- read_unresolved_cp_ref ;; ret (EClassInfo x).
(** constant_pool.rs:512-518 [read_constant_string] *)
Definition read_constant_string : parser entry := x <- read_unresolved_cp_ref ;; ret (EString x).
(** constant_pool.rs:520-527 [read_constant_fieldref] *)
Definition read_constant_fieldref : parser entry :=
  x <- read_unresolved_cp_ref ;; y <- read_unresolved_cp_ref ;; ret (EFieldRef x y).
(** constant_pool.rs:529-536 [read_constant_methodref] *)
Definition read_constant_methodref : parser entry :=
  x <- read_unresolved_cp_ref ;; y <- read_unresolved_cp_ref ;; ret (EMethodRef x y).
(** constant_pool.rs:538-548 [read_constant_interfacemethodref] *)
Definition read_constant_interfacemethodref : parser entry :=
  x <- read_unresolved_cp_ref ;; y <- read_unresolved_cp_ref ;; ret (EInterfaceMethodRef x y).
(** constant_pool.rs:550-557 [read_constant_nameandtype] *)
Definition read_constant_nameandtype : parser entry :=
  x <- read_unresolved_cp_ref ;; y <- read_unresolved_cp_ref ;; ret (ENameAndType x y).

(** constant_pool.rs:559-584 [read_constant_methodhandle] *)
Definition read_constant_methodhandle : parser entry :=
  n <- read_u1 ;;
  k <- (match n with
        | 1 => ret GetField
        | 2 => ret GetStatic
        | 3 => ret PutField
        | 4 => ret PutStatic
        | 5 => ret InvokeVirtual
        | 6 => ret InvokeStatic
        | 7 => ret InvokeSpecial
        | 8 => ret NewInvokeSpecial
        | 9 => ret InvokeInterface
        | _ => pfail_at (fun ix => lit "Unexpected reference kind " ++ show_N n
                 ++ lit " when reading CONSTANT_methodhandle at index " ++ show_N (ix - 1))
        end) ;;
  y <- read_unresolved_cp_ref ;;
  ret (EMethodHandle k y).

(** constant_pool.rs:586-632 *)
Definition read_constant_methodtype : parser entry := x <- read_unresolved_cp_ref ;; ret (EMethodType x).
(** constant_pool.rs:594-604 [read_constant_dynamic] *)
Definition read_constant_dynamic : parser entry :=
  b <- read_u2 ;; y <- read_unresolved_cp_ref ;; ret (EDynamic b y).
(** constant_pool.rs:606-616 [read_constant_invokedynamic] *)
Definition read_constant_invokedynamic : parser entry :=
  b <- read_u2 ;; y <- read_unresolved_cp_ref ;; ret (EInvokeDynamic b y).
(** constant_pool.rs:618-624 [read_constant_module] *)
Definition read_constant_module : parser entry := x <- read_unresolved_cp_ref ;; ret (EModuleInfo x).
(** constant_pool.rs:626-632 [read_constant_package] *)
Definition read_constant_package : parser entry := x <- read_unresolved_cp_ref ;; ret (EPackageInfo x).

(** constant_pool.rs:664-688: one entry, given its tag *)
Definition read_entry (major tag : N) : parser entry :=
  let unexpected : parser entry :=
    pfail_at (fun ix => lit "Unexpected constant pool entry type " ++ show_N tag
      ++ lit " at index " ++ show_N (ix - 1)
      ++ lit " for classfile major version " ++ show_N major) in
  match tag with
  | 1 => read_constant_utf8
  | 3 => read_constant_integer
  | 4 => read_constant_float
  | 5 => read_constant_long
  | 6 => read_constant_double
  | 7 => read_constant_class
  | 8 => read_constant_string
  | 9 => read_constant_fieldref
  | 10 => read_constant_methodref
  | 11 => read_constant_interfacemethodref
  | 12 => read_constant_nameandtype
  | 15 => if 51 <=? major then read_constant_methodhandle else unexpected
  | 16 => if 51 <=? major then read_constant_methodtype else unexpected
  | 17 => if 55 <=? major then read_constant_dynamic else unexpected
  | 18 => if 51 <=? major then read_constant_invokedynamic else unexpected
  | 19 => if 53 <=? major then read_constant_module else unexpected
  | 20 => if 53 <=? major then read_constant_package else unexpected
  | _ => unexpected
  end.

(** constant_pool.rs:662-696: the [while cp_ix < count] loop, returning the
    pushed entries; [cp_ix] is a u16. *)
Fixpoint pool_loop (fuel : nat) (major count cp_ix : N) : parser (list entry) :=
  if cp_ix <? count then
    match fuel with
    | O => fun _ _ => Diverge
    | S fuel' =>
        tag <- read_u1 ;;
        e <- read_entry major tag ;;
        cp_ix <- lift (u16_result E (cp_ix + 1)) ;;
        if (tag =? 5) || (tag =? 6) then
          cp_ix <- lift (u16_result E (cp_ix + 1)) ;;
          es <- pool_loop fuel' major count cp_ix ;;
          ret (e :: EUnused :: es)
        else
          es <- pool_loop fuel' major count cp_ix ;;
          ret (e :: es)
    end
  else ret [].

(** constant_pool.rs:634-639 [resolve_constant_pool]: entries are resolved in
    order; resolution only needs the length of the pool. *)
Fixpoint resolve_from (len i : N) (es : list entry) : outcome (list entry) :=
  match es with
  | [] => Ok []
  | e :: es' =>
      let* e' := resolve_entry e i len in
      let* r := resolve_from len (i + 1) es' in
      Ok (e' :: r)
  end.
(** constant_pool.rs:634-639 *)
Definition resolve_constant_pool (p : pool) : outcome pool := resolve_from (plen p) 0 p.

(** constant_pool.rs:641-651 [validate_constant_pool] *)
Fixpoint validate_from (stk : nat) (p : pool) (major i : N) (es : list entry) : outcome unit :=
  match es with
  | [] => Ok tt
  | e :: es' =>
      let* _ := ctx (lit "constant pool entry " ++ show_N i) (validate_entry stk p major e) in
      validate_from stk p major (i + 1) es'
  end.
(** constant_pool.rs:641-651 *)
Definition validate_constant_pool (p : pool) (major : N) : outcome unit :=
  validate_from (stack E) p major 0 p.

(** constant_pool.rs:653-700 [read_constant_pool] *)
Definition read_constant_pool (major : N) : parser pool :=
  count <- read_u2 ;;
  bs <- get_bytes ;;
  es <- pool_loop (S (length bs)) major count 1 ;;
  p <- lift (resolve_constant_pool (EZero :: es)) ;;
  _ <- lift (validate_constant_pool p major) ;;
  ret p.

End WithEnv.

(** ** Reading references into the pool *)
Section WithPool.
Variable p : pool.

(** The last arm of the readers at constant_pool.rs:717-1099 *)
Definition bad_type {A} : parser A := pfail (lit "Unexpected constant pool reference type").

(** constant_pool.rs:702-715, 950-979. [pool[cp_index]] after the bounds check *)
Definition pool_get (cp_index : N) : outcome entry :=
  if plen p <=? cp_index then
    fail (lit "Out-of-bounds index " ++ show_N cp_index ++ lit " in constant pool reference")
  else match nth_error p (N.to_nat cp_index) with
       | Some e => Ok e
       | None => Panic PSlice
       end.

(** constant_pool.rs:702-715 [read_cp_ref_any] *)
Definition read_cp_ref_any : parser entry :=
  cp_index <- read_u2 ;; lift (pool_get cp_index).

(** constant_pool.rs:717-727 *)
Definition read_cp_utf8 : parser str :=
  e <- read_cp_ref_any ;;
  match e with EUtf8 x => ret x | _ => bad_type end.

(** constant_pool.rs:729-740 *)
Definition read_cp_utf8_opt : parser (option str) :=
  e <- read_cp_ref_any ;;
  match e with EZero => ret None | EUtf8 x => ret (Some x) | _ => bad_type end.

(** constant_pool.rs:742-752 *)
Definition read_cp_classinfo : parser str :=
  e <- read_cp_ref_any ;;
  match e with EClassInfo x => lift (peel_utf8 p x) | _ => bad_type end.

(** constant_pool.rs:754-765 *)
Definition read_cp_classinfo_opt : parser (option str) :=
  e <- read_cp_ref_any ;;
  match e with
  | EZero => ret None
  | EClassInfo x => s <- lift (peel_utf8 p x) ;; ret (Some s)
  | _ => bad_type
  end.

(** constant_pool.rs:767-777 *)
Definition read_cp_moduleinfo : parser str :=
  e <- read_cp_ref_any ;;
  match e with EModuleInfo x => lift (peel_utf8 p x) | _ => bad_type end.

(** constant_pool.rs:779-789 *)
Definition read_cp_packageinfo : parser str :=
  e <- read_cp_ref_any ;;
  match e with EPackageInfo x => lift (peel_utf8 p x) | _ => bad_type end.

(** constant_pool.rs:797-811 *)
Definition read_cp_nameandtype_opt : parser (option name_and_type) :=
  e <- read_cp_ref_any ;;
  match e with
  | EZero => ret None
  | ENameAndType x y =>
      n <- lift (peel_utf8 p x) ;;
      d <- lift (peel_utf8 p y) ;;
      ret (Some (mk_nat n d))
  | _ => bad_type
  end.

(** constant_pool.rs:823-837 *)
Definition read_cp_literalconstant : parser literal :=
  e <- read_cp_ref_any ;;
  match e with
  | EInteger v => ret (LInteger v)
  | EFloat v => ret (LFloat v)
  | ELong v => ret (LLong v)
  | EDouble v => ret (LDouble v)
  | EString x => lift (let* t := peel p x in string_literal t)
  | _ => bad_type
  end.

(** constant_pool.rs:839-885 *)
Definition read_cp_integer : parser Z :=
  e <- read_cp_ref_any ;; match e with EInteger v => ret v | _ => bad_type end.
(** constant_pool.rs:851-861 [read_cp_float] *)
Definition read_cp_float : parser N :=
  e <- read_cp_ref_any ;; match e with EFloat v => ret v | _ => bad_type end.
(** constant_pool.rs:863-873 [read_cp_long] *)
Definition read_cp_long : parser Z :=
  e <- read_cp_ref_any ;; match e with ELong v => ret v | _ => bad_type end.
(** constant_pool.rs:875-885 [read_cp_double] *)
Definition read_cp_double : parser N :=
  e <- read_cp_ref_any ;; match e with EDouble v => ret v | _ => bad_type end.

End WithPool.

(** constant_pool.rs:888-891 [MemberRef] *)
Record member_ref := mk_mr { mr_class_name : str; mr_name_and_type : name_and_type }.
(** constant_pool.rs:915-918 [InvokeDynamic], 936-939 [Dynamic] *)
Record invoke_dynamic := mk_indy { indy_attr_index : N; indy_name_and_type : name_and_type }.
(** constant_pool.rs:935-939 [Dynamic] *)
Record dynamic := mk_dyn { dyn_attr_index : N; dyn_name_and_type : name_and_type }.
(** constant_pool.rs:982-986 [MemberKind] *)
Inductive member_kind := KField | KMethod | KInterfaceMethod.
(** constant_pool.rs:989-994 [MethodHandle] *)
Record method_handle := mk_mh {
  mh_kind : ref_kind; mh_class_name : str; mh_member_kind : member_kind; mh_member_ref : name_and_type }.
(** constant_pool.rs:942-948 [Loadable] *)
Inductive loadable :=
| LdLiteral (l : literal) | LdClassInfo (s : str) | LdMethodHandle (h : method_handle)
| LdMethodType (s : str) | LdDynamic (d : dynamic).
(** constant_pool.rs:1039-1044 [BootstrapArgument] *)
Inductive bootstrap_arg :=
| BaLiteral (l : literal) | BaClassInfo (s : str) | BaMethodHandle (h : method_handle)
| BaMethodType (s : str).
(** constant_pool.rs:1078-1081 [ObjectArrayType] *)
Inductive object_array_type := OArrayType (d : field_desc) | OBinaryName (s : str).
(** constant_pool.rs:1102-1115 [ConstantPoolItem] *)
Inductive cp_item :=
| ItLiteral (l : literal) | ItClassInfo (s : str) | ItFieldRef (m : member_ref)
| ItMethodRef (m : member_ref) | ItInterfaceMethodRef (m : member_ref)
| ItNameAndType (n : name_and_type) | ItMethodHandle (h : method_handle)
| ItMethodType (s : str) | ItDynamic (d : dynamic) | ItInvokeDynamic (d : invoke_dynamic)
| ItModuleInfo (s : str) | ItPackageInfo (s : str).

Section WithPool2.
Variable p : pool.

(** constant_pool.rs:893-912, 1134-1197. [MemberRef { class_name: peel!(c).classinfo(), name_and_type: peel!(m).name_and_type() }] *)
Definition make_member_ref (c m : cpref) : outcome member_ref :=
  let* ce := peel p c in
  let* cn := classinfo p ce in
  let* me := peel p m in
  let* nt := get_name_and_type p me in
  Ok (mk_mr cn nt).

(** constant_pool.rs:893-912 [read_cp_memberref] *)
Definition read_cp_memberref (allowed : N) : parser member_ref :=
  e <- read_cp_ref_any p ;;
  _ <- lift (ensure_type e allowed) ;;
  match e with
  | EFieldRef c m | EMethodRef c m | EInterfaceMethodRef c m => lift (make_member_ref c m)
  | _ => bad_type
  end.

(** constant_pool.rs:920-933 [read_cp_invokedynamic] *)
Definition read_cp_invokedynamic : parser invoke_dynamic :=
  e <- read_cp_ref_any p ;;
  match e with
  | EInvokeDynamic x y =>
      lift (let* t := peel p y in let* nt := get_name_and_type p t in Ok (mk_indy x nt))
  | _ => bad_type
  end.

(** constant_pool.rs:996-1024 [make_method_handle] *)
Definition make_method_handle (x : ref_kind) (y : cpref) : outcome method_handle :=
  let member (c m : cpref) (k : member_kind) : outcome method_handle :=
    let* ce := peel p c in
    let* cn := classinfo p ce in
    let* me := peel p m in
    let* nt := get_name_and_type p me in
    Ok (mk_mh x cn k nt) in
  let* e := peel p y in
  match e with
  | EFieldRef c m => member c m KField
  | EMethodRef c m => member c m KMethod
  | EInterfaceMethodRef c m => member c m KInterfaceMethod
  | _ => fail (lit "Unexpected constant pool reference type")
  end.

(** constant_pool.rs:950-979 [get_cp_loadable] *)
Definition get_cp_loadable (cp_index : N) : outcome loadable :=
  let* e := pool_get p cp_index in
  match e with
  | EInteger v => Ok (LdLiteral (LInteger v))
  | EFloat v => Ok (LdLiteral (LFloat v))
  | ELong v => Ok (LdLiteral (LLong v))
  | EDouble v => Ok (LdLiteral (LDouble v))
  | EString x => let* t := peel p x in let* l := string_literal t in Ok (LdLiteral l)
  | EClassInfo x => let* s := peel_utf8 p x in Ok (LdClassInfo s)
  | EMethodHandle x y => let* h := make_method_handle x y in Ok (LdMethodHandle h)
  | EMethodType x => let* s := peel_utf8 p x in Ok (LdMethodType s)
  | EDynamic x y =>
      let* t := peel p y in let* nt := get_name_and_type p t in Ok (LdDynamic (mk_dyn x nt))
  | _ => fail (lit "Unexpected non-loadable constant pool reference found")
  end.

(** constant_pool.rs:1026-1036 [read_cp_methodhandle] *)
Definition read_cp_methodhandle : parser method_handle :=
  e <- read_cp_ref_any p ;;
  match e with
  | EMethodHandle x y => lift (make_method_handle x y)
  | _ => bad_type
  end.

(** constant_pool.rs:1046-1075 [read_cp_bootstrap_argument] *)
Definition read_cp_bootstrap_argument : parser bootstrap_arg :=
  e <- read_cp_ref_any p ;;
  match e with
  | EInteger v => ret (BaLiteral (LInteger v))
  | EFloat v => ret (BaLiteral (LFloat v))
  | ELong v => ret (BaLiteral (LLong v))
  | EDouble v => ret (BaLiteral (LDouble v))
  | EString x => lift (let* t := peel p x in let* l := string_literal t in Ok (BaLiteral l))
  | EClassInfo x => lift (let* s := peel_utf8 p x in Ok (BaClassInfo s))
  | EMethodHandle x y => lift (let* h := make_method_handle x y in Ok (BaMethodHandle h))
  | EMethodType x => lift (let* s := peel_utf8 p x in Ok (BaMethodType s))
  | _ => bad_type
  end.

(** constant_pool.rs:1083-1099 [read_cp_object_array_type] *)
Definition read_cp_object_array_type : parser object_array_type :=
  e <- read_cp_ref_any p ;;
  match e with
  | EClassInfo x =>
      name <- lift (peel_utf8 p x) ;;
      d <- lift (parse_array_descriptor name) ;;
      match d with
      | Some desc => ret (OArrayType desc)
      | None => ret (OBinaryName name)
      end
  | _ => bad_type
  end.

(** constant_pool.rs:1177. [.unwrap()] *)
Definition unwrap {A} (m : outcome A) : outcome A :=
  match m with Err _ => Panic PUnwrap | _ => m end.

(** constant_pool.rs:1137-1193: the [match] in [next]; [None] is [continue]. *)
Definition item_of (e : entry) : outcome (option cp_item) :=
  match e with
  | EZero => Panic PIterZero
  | EUtf8 _ | EUtf8Bytes _ => Ok None
  | EInteger v => Ok (Some (ItLiteral (LInteger v)))
  | EFloat v => Ok (Some (ItLiteral (LFloat v)))
  | ELong v => Ok (Some (ItLiteral (LLong v)))
  | EDouble v => Ok (Some (ItLiteral (LDouble v)))
  | EClassInfo x => let* s := peel_utf8 p x in Ok (Some (ItClassInfo s))
  | EString x => let* t := peel p x in let* l := string_literal t in Ok (Some (ItLiteral l))
  | EFieldRef c m => let* r := make_member_ref c m in Ok (Some (ItFieldRef r))
  | EMethodRef c m => let* r := make_member_ref c m in Ok (Some (ItMethodRef r))
  | EInterfaceMethodRef c m => let* r := make_member_ref c m in Ok (Some (ItInterfaceMethodRef r))
  | ENameAndType x y =>
      let* n := peel_utf8 p x in
      let* d := peel_utf8 p y in
      Ok (Some (ItNameAndType (mk_nat n d)))
  | EMethodHandle x y => let* h := unwrap (make_method_handle x y) in Ok (Some (ItMethodHandle h))
  | EMethodType x => let* s := peel_utf8 p x in Ok (Some (ItMethodType s))
  | EDynamic x y =>
      let* t := peel p y in let* nt := get_name_and_type p t in
      Ok (Some (ItDynamic (mk_dyn x nt)))
  | EInvokeDynamic x y =>
      let* t := peel p y in let* nt := get_name_and_type p t in
      Ok (Some (ItInvokeDynamic (mk_indy x nt)))
  | EModuleInfo x => let* s := peel_utf8 p x in Ok (Some (ItModuleInfo s))
  | EPackageInfo x => let* s := peel_utf8 p x in Ok (Some (ItPackageInfo s))
  | EUnused => Ok None
  end.

(** constant_pool.rs:1134-1197 [ConstantPoolIter::next]: state = [index], with
    fuel for the [while] loop. *)
Fixpoint iter_next_loop (fuel : nat) (index : N) : outcome (option cp_item * N) :=
  match fuel with
  | O => Diverge
  | S fuel' =>
      if index + 1 <? plen p then
        let index := index + 1 in
        match nth_error p (N.to_nat index) with
        | None => Panic PSlice
        | Some e =>
            let* r := item_of e in
            match r with
            | Some it => Ok (Some it, index)
            | None => iter_next_loop fuel' index
            end
        end
      else Ok (None, index)
  end.
(** constant_pool.rs:1134-1197 [next] *)
Definition iter_next (index : N) : outcome (option cp_item * N) :=
  iter_next_loop (S (length p)) index.
End WithPool2.
