(** * src/constant_pool.rs with a count of the steps *)
From Verif Require Import Base M_Names M_Descriptors M_ConstantPool W_Base W_Descriptors.

(** ** Validation *)
(** constant_pool.rs:56-76 [get] and [peel!]: 1 step. *)
Definition w_peel (p : pool) (r : cpref) : metered entry := steps 1 (peel p r).
(** constant_pool.rs:99-101 [CafeCellDeref::ensure_type] *)
Definition w_ensure_ref_type (p : pool) (r : cpref) (allowed : N) : metered unit :=
  steps 2 (ensure_ref_type p r allowed).
(** constant_pool.rs:327-335 [ConstantPoolEntry::str]: a reference, nothing is copied. *)
Definition w_entry_str (e : entry) : metered str := steps 1 (entry_str e).

(** constant_pool.rs:337-345 [validate_classinfo_name] *)
Definition w_validate_classinfo_name (e : entry) : metered unit :=
  let~ x := w_entry_str e in
  let~ ok := after (text x) (if is_binary_name x then mok true else w_is_array_descriptor x) in
  if (ok : bool) then mok tt else steps 1 (fail (lit "Invalid classinfo name")).

(** constant_pool.rs:347-353 [validate_binary_name] *)
Definition w_validate_binary_name (e : entry) : metered unit :=
  let~ x := w_entry_str e in
  steps (text x) (if is_binary_name x then Ok tt else fail (lit "Invalid binary name")).

(** constant_pool.rs:355-362 [validate_unqualified_name]: two checks. *)
Definition w_validate_unqualified_name (e : entry) : metered unit :=
  let~ s := w_entry_str e in
  steps (2 * text s)
    (if is_unqualified_name s || is_unqualified_method_name s true false then Ok tt
     else fail (lit "Invalid unqualified name")).

(** constant_pool.rs:364-370 [validate_module_name] *)
Definition w_validate_module_name (e : entry) : metered unit :=
  let~ x := w_entry_str e in
  steps (text x) (if is_module_name x then Ok tt else fail (lit "Invalid module name")).

(** constant_pool.rs:372-383 [validate_field_descriptor] *)
Definition w_validate_field_descriptor (p : pool) (e : entry) : metered unit :=
  match e with
  | ENameAndType _ y =>
      let~ t := w_peel p y in
      let~ x := w_entry_str t in
      let~ ok := w_is_field_descriptor x in
      if (ok : bool) then mok tt else steps 1 (fail (lit "Invalid field descriptor"))
  | _ => steps 1 (Panic PNoDescriptor)
  end.

(** constant_pool.rs:385-396 [validate_method_descriptor] *)
Fixpoint w_validate_method_descriptor (stk : nat) (p : pool) (e : entry) : metered unit :=
  match stk with
  | O => steps 0 (Panic PStackOverflow)
  | S stk' =>
      match e with
      | ENameAndType _ y =>
          let~ t := w_peel p y in w_validate_method_descriptor stk' p t
      | _ =>
          let~ x := w_entry_str e in
          let~ ok := w_is_method_descriptor x in
          if (ok : bool) then mok tt else steps 1 (fail (lit "Invalid method descriptor"))
      end
  end.

(** constant_pool.rs:238-314 [ConstantPoolEntry::validate] *)
Definition w_validate_entry (stk : nat) (p : pool) (major : N) (e : entry) : metered unit :=
  match e with
  | EClassInfo x =>
      let~ _ := w_ensure_ref_type p x T_UTF8 in
      let~ t := w_peel p x in w_validate_classinfo_name t
  | EString x => w_ensure_ref_type p x T_UTF8
  | EFieldRef x y =>
      let~ _ := w_ensure_ref_type p x T_CLASS_INFO in
      let~ _ := w_ensure_ref_type p y T_NAME_AND_TYPE in
      let~ t := w_peel p y in w_validate_field_descriptor p t
  | EMethodRef x y =>
      let~ _ := w_ensure_ref_type p x T_CLASS_INFO in
      let~ _ := w_ensure_ref_type p y T_NAME_AND_TYPE in
      let~ t := w_peel p y in w_validate_method_descriptor stk p t
  | EInterfaceMethodRef x y =>
      let~ _ := w_ensure_ref_type p x T_CLASS_INFO in
      let~ _ := w_ensure_ref_type p y T_NAME_AND_TYPE in
      let~ t := w_peel p y in w_validate_method_descriptor stk p t
  | ENameAndType x y =>
      let~ _ := w_ensure_ref_type p x T_UTF8 in
      let~ t := w_peel p x in
      let~ _ := w_validate_unqualified_name t in
      w_ensure_ref_type p y T_UTF8
  | EMethodHandle x y =>
      w_ensure_ref_type p y
        (match x with
         | GetField | GetStatic | PutField | PutStatic => T_FIELD_REF
         | InvokeVirtual | NewInvokeSpecial => T_METHOD_REF
         | InvokeStatic | InvokeSpecial =>
             if major <? 52 then T_METHOD_REF else T_NEW_METHOD_REFS
         | InvokeInterface => T_INTERFACE_METHOD_REF
         end)
  | EMethodType x =>
      let~ _ := w_ensure_ref_type p x T_UTF8 in
      let~ t := w_peel p x in w_validate_method_descriptor stk p t
  | EDynamic _ y =>
      let~ _ := w_ensure_ref_type p y T_NAME_AND_TYPE in
      let~ t := w_peel p y in w_validate_field_descriptor p t
  | EInvokeDynamic _ y =>
      let~ _ := w_ensure_ref_type p y T_NAME_AND_TYPE in
      let~ t := w_peel p y in w_validate_method_descriptor stk p t
  | EModuleInfo x =>
      let~ _ := w_ensure_ref_type p x T_UTF8 in
      let~ t := w_peel p x in w_validate_module_name t
  | EPackageInfo x =>
      let~ _ := w_ensure_ref_type p x T_UTF8 in
      let~ t := w_peel p x in w_validate_binary_name t
  | EZero | EUtf8 _ | EUtf8Bytes _ | EInteger _ | EFloat _ | ELong _ | EDouble _ | EUnused => mok tt
  end.

(** ** Reading entries *)
Section WithEnv.
Variable E : env.

(** constant_pool.rs:442-468 [read_constant_utf8]: the bytes are gone through
    twice if they are not UTF-8. *)
Definition w_constant_utf8 : wparser entry :=
  len <~ w_u2 ;;
  bs <~ costs 0 get_bytes ;;
  ix <~ costs 0 get_ix ;;
  if blen bs <? ix + len then
    wfail (lit "Unexpected end of stream reading CONSTANT_Utf8 at index " ++ show_N ix)
  else
    data <~ costs 1 (lift (slice bs ix (ix + len))) ;;
    _ <~ costs 0 (set_ix (ix + len)) ;;
    _ <~ tick (2 * blen data) ;;
    match cesu8 E data with
    | Some s => wret (EUtf8 s)
    | None => wret (EUtf8Bytes data)
    end.

(** constant_pool.rs:664-688: one entry, given its tag; every entry but a text
    consists of at most three integers. *)
Definition w_entry (major tag : N) : wparser entry :=
  if tag =? 1 then w_constant_utf8 else costs 4 (read_entry E major tag).

(** constant_pool.rs:662-696: the [while cp_ix < count] loop *)
Fixpoint w_pool_loop (fuel : nat) (major count cp_ix : N) : wparser (list entry) :=
  if cp_ix <? count then
    match fuel with
    | O => fun _ _ => (Diverge, 0)
    | S fuel' =>
        tag <~ w_u1 ;;
        e <~ w_entry major tag ;;
        cp_ix <~ costs 1 (lift (u16_result E (cp_ix + 1))) ;;
        if (tag =? 5) || (tag =? 6) then
          cp_ix <~ costs 1 (lift (u16_result E (cp_ix + 1))) ;;
          es <~ w_pool_loop fuel' major count cp_ix ;;
          wret (e :: EUnused :: es)
        else
          es <~ w_pool_loop fuel' major count cp_ix ;;
          wret (e :: es)
    end
  else wret [].

(** constant_pool.rs:634-639 [resolve_constant_pool]: an entry has at most two references. *)
Fixpoint w_resolve_from (len i : N) (es : list entry) : metered (list entry) :=
  match es with
  | [] => mok []
  | e :: es' =>
      let~ e' := steps 3 (resolve_entry e i len) in
      let~ r := w_resolve_from len (i + 1) es' in
      mok (e' :: r)
  end.
(** constant_pool.rs:634-639 *)
Definition w_resolve_constant_pool (p : pool) : metered pool := w_resolve_from (plen p) 0 p.

(** constant_pool.rs:641-651 [validate_constant_pool] *)
Fixpoint w_validate_from (stk : nat) (p : pool) (major i : N) (es : list entry) : metered unit :=
  match es with
  | [] => mok tt
  | e :: es' =>
      let~ _ := mctx (lit "constant pool entry " ++ show_N i) (after 1 (w_validate_entry stk p major e)) in
      w_validate_from stk p major (i + 1) es'
  end.
(** constant_pool.rs:641-651 *)
Definition w_validate_constant_pool (p : pool) (major : N) : metered unit :=
  w_validate_from (stack E) p major 0 p.

(** constant_pool.rs:653-700 [read_constant_pool] *)
Definition w_constant_pool (major : N) : wparser pool :=
  count <~ w_u2 ;;
  bs <~ costs 0 get_bytes ;;
  es <~ w_pool_loop (S (length bs)) major count 1 ;;
  p <~ wlift (w_resolve_constant_pool (EZero :: es)) ;;
  _ <~ wlift (w_validate_constant_pool p major) ;;
  wret p.
End WithEnv.

(** ** Reading references into the pool: every text that is returned is copied. *)
(** constant_pool.rs:398-418 *)
Definition copied (r : outcome str) : metered str :=
  (r, match r with Ok s => text s | _ => 1 end).
(** constant_pool.rs:398-403 [utf8], after [peel!] *)
Definition w_peel_utf8 (p : pool) (r : cpref) : metered str := after 1 (copied (peel_utf8 p r)).
(** constant_pool.rs:405-411 [string_literal] *)
Definition literal_text (l : literal) : N :=
  match l with LString s => text s | LStringBytes raw => 1 + blen raw | _ => 1 end.
(** constant_pool.rs:405-411 [string_literal] *)
Definition w_string_literal (e : entry) : metered literal :=
  let r := string_literal e in (r, match r with Ok l => literal_text l | _ => 1 end).
(** constant_pool.rs:413-418 [classinfo] *)
Definition w_classinfo (p : pool) (e : entry) : metered str := after 1 (copied (classinfo p e)).
(** constant_pool.rs:420-430 [name_and_type] *)
Definition w_name_and_type (p : pool) (e : entry) : metered name_and_type :=
  match e with
  | ENameAndType x y =>
      let~ n := w_peel_utf8 p x in
      let~ d := w_peel_utf8 p y in
      mok (mk_nat n d)
  | _ => steps 1 (Panic PNotNameAndType)
  end.

Section WithPool.
Variable p : pool.

(** The last arm of the readers at constant_pool.rs:717-1099 *)
Definition w_bad_type {A} : wparser A := wfail (lit "Unexpected constant pool reference type").

(** constant_pool.rs:702-715 [read_cp_ref_any] *)
Definition w_ref_any : wparser entry := costs 2 (read_cp_ref_any p).

(** constant_pool.rs:717-727 *)
Definition w_utf8 : wparser str :=
  e <~ w_ref_any ;;
  match e with EUtf8 x => _ <~ tick (text x) ;; wret x | _ => w_bad_type end.

(** constant_pool.rs:729-740 *)
Definition w_utf8_opt : wparser (option str) :=
  e <~ w_ref_any ;;
  match e with
  | EZero => wret None
  | EUtf8 x => _ <~ tick (text x) ;; wret (Some x)
  | _ => w_bad_type
  end.

(** constant_pool.rs:742-752 *)
Definition w_class : wparser str :=
  e <~ w_ref_any ;;
  match e with EClassInfo x => wlift (w_peel_utf8 p x) | _ => w_bad_type end.

(** constant_pool.rs:754-765 *)
Definition w_class_opt : wparser (option str) :=
  e <~ w_ref_any ;;
  match e with
  | EZero => wret None
  | EClassInfo x => s <~ wlift (w_peel_utf8 p x) ;; wret (Some s)
  | _ => w_bad_type
  end.

(** constant_pool.rs:767-777 *)
Definition w_module_name : wparser str :=
  e <~ w_ref_any ;;
  match e with EModuleInfo x => wlift (w_peel_utf8 p x) | _ => w_bad_type end.

(** constant_pool.rs:779-789 *)
Definition w_package_name : wparser str :=
  e <~ w_ref_any ;;
  match e with EPackageInfo x => wlift (w_peel_utf8 p x) | _ => w_bad_type end.

(** constant_pool.rs:797-811 *)
Definition w_nameandtype_opt : wparser (option name_and_type) :=
  e <~ w_ref_any ;;
  match e with
  | EZero => wret None
  | ENameAndType x y =>
      n <~ wlift (w_peel_utf8 p x) ;;
      d <~ wlift (w_peel_utf8 p y) ;;
      wret (Some (mk_nat n d))
  | _ => w_bad_type
  end.

(** constant_pool.rs:823-837 *)
Definition w_literalconstant : wparser literal :=
  e <~ w_ref_any ;;
  match e with
  | EInteger v => wret (LInteger v)
  | EFloat v => wret (LFloat v)
  | ELong v => wret (LLong v)
  | EDouble v => wret (LDouble v)
  | EString x => wlift (let~ t := w_peel p x in w_string_literal t)
  | _ => w_bad_type
  end.

(** constant_pool.rs:839-885 *)
Definition w_integer : wparser Z := costs 2 (read_cp_integer p).
(** constant_pool.rs:851-861 [read_cp_float] *)
Definition w_float : wparser N := costs 2 (read_cp_float p).
(** constant_pool.rs:863-873 [read_cp_long] *)
Definition w_long : wparser Z := costs 2 (read_cp_long p).
(** constant_pool.rs:875-885 [read_cp_double] *)
Definition w_double : wparser N := costs 2 (read_cp_double p).

(** constant_pool.rs:905-911, 1009-1012: the parts of a member reference *)
Definition w_member_ref (c m : cpref) : metered member_ref :=
  let~ ce := w_peel p c in
  let~ cn := w_classinfo p ce in
  let~ me := w_peel p m in
  let~ nt := w_name_and_type p me in
  mok (mk_mr cn nt).

(** constant_pool.rs:893-912 [read_cp_memberref] *)
Definition w_memberref (allowed : N) : wparser member_ref :=
  e <~ w_ref_any ;;
  _ <~ costs 1 (lift (ensure_type e allowed)) ;;
  match e with
  | EFieldRef c m | EMethodRef c m | EInterfaceMethodRef c m => wlift (w_member_ref c m)
  | _ => w_bad_type
  end.

(** constant_pool.rs:920-933 [read_cp_invokedynamic] *)
Definition w_invokedynamic : wparser invoke_dynamic :=
  e <~ w_ref_any ;;
  match e with
  | EInvokeDynamic x y =>
      wlift (let~ t := w_peel p y in let~ nt := w_name_and_type p t in mok (mk_indy x nt))
  | _ => w_bad_type
  end.

(** constant_pool.rs:996-1024 [make_method_handle] *)
Definition w_make_method_handle (x : ref_kind) (y : cpref) : metered method_handle :=
  let member (c m : cpref) (k : member_kind) : metered method_handle :=
    let~ ce := w_peel p c in
    let~ cn := w_classinfo p ce in
    let~ me := w_peel p m in
    let~ nt := w_name_and_type p me in
    mok (mk_mh x cn k nt) in
  let~ e := w_peel p y in
  match e with
  | EFieldRef c m => member c m KField
  | EMethodRef c m => member c m KMethod
  | EInterfaceMethodRef c m => member c m KInterfaceMethod
  | _ => steps 1 (fail (lit "Unexpected constant pool reference type"))
  end.

(** constant_pool.rs:950-979 [get_cp_loadable] *)
Definition w_loadable (cp_index : N) : metered loadable :=
  let~ e := steps 1 (pool_get p cp_index) in
  match e with
  | EInteger v => mok (LdLiteral (LInteger v))
  | EFloat v => mok (LdLiteral (LFloat v))
  | ELong v => mok (LdLiteral (LLong v))
  | EDouble v => mok (LdLiteral (LDouble v))
  | EString x => let~ t := w_peel p x in let~ l := w_string_literal t in mok (LdLiteral l)
  | EClassInfo x => let~ s := w_peel_utf8 p x in mok (LdClassInfo s)
  | EMethodHandle x y => let~ h := w_make_method_handle x y in mok (LdMethodHandle h)
  | EMethodType x => let~ s := w_peel_utf8 p x in mok (LdMethodType s)
  | EDynamic x y =>
      let~ t := w_peel p y in let~ nt := w_name_and_type p t in mok (LdDynamic (mk_dyn x nt))
  | _ => steps 1 (fail (lit "Unexpected non-loadable constant pool reference found"))
  end.

(** constant_pool.rs:1026-1036 [read_cp_methodhandle] *)
Definition w_methodhandle : wparser method_handle :=
  e <~ w_ref_any ;;
  match e with
  | EMethodHandle x y => wlift (w_make_method_handle x y)
  | _ => w_bad_type
  end.

(** constant_pool.rs:1046-1075 [read_cp_bootstrap_argument] *)
Definition w_bootstrap_argument : wparser bootstrap_arg :=
  e <~ w_ref_any ;;
  match e with
  | EInteger v => wret (BaLiteral (LInteger v))
  | EFloat v => wret (BaLiteral (LFloat v))
  | ELong v => wret (BaLiteral (LLong v))
  | EDouble v => wret (BaLiteral (LDouble v))
  | EString x => wlift (let~ t := w_peel p x in let~ l := w_string_literal t in mok (BaLiteral l))
  | EClassInfo x => wlift (let~ s := w_peel_utf8 p x in mok (BaClassInfo s))
  | EMethodHandle x y => wlift (let~ h := w_make_method_handle x y in mok (BaMethodHandle h))
  | EMethodType x => wlift (let~ s := w_peel_utf8 p x in mok (BaMethodType s))
  | _ => w_bad_type
  end.

(** constant_pool.rs:1083-1099 [read_cp_object_array_type] *)
Definition w_object_array_type : wparser object_array_type :=
  e <~ w_ref_any ;;
  match e with
  | EClassInfo x =>
      name <~ wlift (w_peel_utf8 p x) ;;
      d <~ wlift (w_parse_array_descriptor name) ;;
      match d with
      | Some desc => wret (OArrayType desc)
      | None => wret (OBinaryName name)
      end
  | _ => w_bad_type
  end.
End WithPool.
