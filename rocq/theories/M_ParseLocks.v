(** * Model of parsing with the threadsafe feature

    With the feature every access to a cell during parsing locks its mutex (constant_pool.rs:21-22, 71-76, 86-101).  The pool that is being
    built belongs to one thread, so a lock operation can only wait for a guard of the same thread, and then waits for ever.  A computation
    gets the cells whose guards are alive; a guard is dropped at the end of the expression [k] that [with_guard] is given, as in [M_Locks].
    All functions of constant_pool.rs that access cells while parsing are modelled again with their guards.  The functions that do not,
    and the code that calls them, are those of the model: no guard lives longer than the call of such a function. *)
From Verif Require Import Base M_Names M_Descriptors M_ConstantPool M_Bytecode M_Attributes M_Class M_Locks.

(** constant_pool.rs:71-76. The outcomes of a single thread: an outcome as without locks, or waiting for its own guard. *)
Inductive locked (A : Type) := Through (o : outcome A) | SelfDeadlock.
Arguments Through {A} o. Arguments SelfDeadlock {A}.

(** constant_pool.rs:147-170: is it the same cell? *)
Definition cell_eqb (a b : cell) : bool := (fst a =? fst b) && Bool.eqb (snd a) (snd b).
(** constant_pool.rs:71-76. A computation, given the cells locked by its callers. *)
Definition guarded (A : Type) : Type := list cell -> locked A.

(** Code without locks, e.g. constant_pool.rs:327-335 *)
Definition simply {A} (o : outcome A) : guarded A := fun _ => Through o.
(** constant_pool.rs:634-1115. [?] and sequencing *)
Definition gbind {A B} (m : guarded A) (f : A -> guarded B) : guarded B := fun held =>
  match m held with
  | Through (Ok a) => f a held
  | Through (Err e) => Through (Err e)
  | Through (Panic x) => Through (Panic x)
  | Through Diverge => Through Diverge
  | SelfDeadlock => SelfDeadlock
  end.
Notation "'lets' x := m 'in' f" := (gbind m (fun x => f)) (at level 200, x pattern, m at level 100, f at level 200).
(** constant_pool.rs:71-76 [peel!] and the rest [k] of the expression, during which its guard is alive *)
Definition with_guard {A} (p : pool) (l : cell) (r : cpref) (k : N -> entry -> guarded A) : guarded A := fun held =>
  if existsb (cell_eqb l) held then SelfDeadlock
  else match r with
       | Unresolved _ => Through (Panic PUnresolved)
       | Resolved t =>
           match nth_error p (N.to_nat t) with
           | Some e => k t e (l :: held)
           | None => Through (Panic PSlice)
           end
       end.

(** constant_pool.rs:92-93 [resolve] locks one cell and drops the guard before the next one is locked (173-208), so it is [resolve_entry]. *)

Section WithPool.
Variable p : pool.

(** constant_pool.rs:99-101 [ensure_type] of a cell *)
Definition ensure_g (l : cell) (r : cpref) (allowed : N) : guarded unit :=
  with_guard p l r (fun _ e => simply (ensure_type e allowed)).
(** constant_pool.rs:372-383 [validate_field_descriptor] of the entry [e] with index [i] *)
Definition validate_field_descriptor_g (i : N) (e : entry) : guarded unit :=
  match e with
  | ENameAndType _ y =>
      with_guard p (i, true) y (fun _ t => simply (
        let* x := entry_str t in
        let* ok := is_field_descriptor x in
        if (ok : bool) then Ok tt else fail (lit "Invalid field descriptor")))
  | _ => simply (Panic PNoDescriptor)
  end.
(** constant_pool.rs:385-396 [validate_method_descriptor] *)
Fixpoint validate_method_descriptor_g (stk : nat) (i : N) (e : entry) : guarded unit :=
  match stk with
  | O => simply (Panic PStackOverflow)
  | S stk' =>
      match e with
      | ENameAndType _ y => with_guard p (i, true) y (fun j t => validate_method_descriptor_g stk' j t)
      | _ => simply (
          let* x := entry_str e in
          let* ok := is_method_descriptor x in
          if (ok : bool) then Ok tt else fail (lit "Invalid method descriptor"))
      end
  end.
(** constant_pool.rs:238-314 [validate] of the entry [e] with index [i]; the cell of MethodHandle, Dynamic and InvokeDynamic is called the
    first one as in [M_Locks] *)
Definition validate_entry_g (stk : nat) (major i : N) (e : entry) : guarded unit :=
  let l := (i, false) in
  match e with
  | EClassInfo x =>
      lets _ := ensure_g l x T_UTF8 in
      with_guard p l x (fun _ t => simply (validate_classinfo_name t))
  | EString x => ensure_g l x T_UTF8
  | EFieldRef x y =>
      lets _ := ensure_g l x T_CLASS_INFO in
      lets _ := ensure_g (i, true) y T_NAME_AND_TYPE in
      with_guard p (i, true) y (fun j t => validate_field_descriptor_g j t)
  | EMethodRef x y =>
      lets _ := ensure_g l x T_CLASS_INFO in
      lets _ := ensure_g (i, true) y T_NAME_AND_TYPE in
      with_guard p (i, true) y (fun j t => validate_method_descriptor_g stk j t)
  | EInterfaceMethodRef x y =>
      lets _ := ensure_g l x T_CLASS_INFO in
      lets _ := ensure_g (i, true) y T_NAME_AND_TYPE in
      with_guard p (i, true) y (fun j t => validate_method_descriptor_g stk j t)
  | ENameAndType x y =>
      lets _ := ensure_g l x T_UTF8 in
      lets _ := with_guard p l x (fun _ t => simply (validate_unqualified_name t)) in
      ensure_g (i, true) y T_UTF8
  | EMethodHandle x y =>
      ensure_g l y
        (match x with
         | GetField | GetStatic | PutField | PutStatic => T_FIELD_REF
         | InvokeVirtual | NewInvokeSpecial => T_METHOD_REF
         | InvokeStatic | InvokeSpecial =>
             if major <? 52 then T_METHOD_REF else T_NEW_METHOD_REFS
         | InvokeInterface => T_INTERFACE_METHOD_REF
         end)
  | EMethodType x =>
      lets _ := ensure_g l x T_UTF8 in
      with_guard p l x (fun j t => validate_method_descriptor_g stk j t)
  | EDynamic _ y =>
      lets _ := ensure_g l y T_NAME_AND_TYPE in
      with_guard p l y (fun j t => validate_field_descriptor_g j t)
  | EInvokeDynamic _ y =>
      lets _ := ensure_g l y T_NAME_AND_TYPE in
      with_guard p l y (fun j t => validate_method_descriptor_g stk j t)
  | EModuleInfo x =>
      lets _ := ensure_g l x T_UTF8 in
      with_guard p l x (fun _ t => simply (validate_module_name t))
  | EPackageInfo x =>
      lets _ := ensure_g l x T_UTF8 in
      with_guard p l x (fun _ t => simply (validate_binary_name t))
  | EZero | EUtf8 _ | EUtf8Bytes _ | EInteger _ | EFloat _ | ELong _ | EDouble _ | EUnused => simply (Ok tt)
  end.
(** constant_pool.rs:641-651 [validate_constant_pool]; the context is added to an error when no guard is alive *)
Definition gctx {A} (c : str) (m : guarded A) : guarded A := fun held =>
  match m held with Through o => Through (ctx c o) | SelfDeadlock => SelfDeadlock end.
(** constant_pool.rs:641-651 [validate_constant_pool] *)
Fixpoint validate_from_g (stk : nat) (major i : N) (es : list entry) : guarded unit :=
  match es with
  | [] => simply (Ok tt)
  | e :: es' =>
      lets _ := gctx (lit "constant pool entry " ++ show_N i) (validate_entry_g stk major i e) in
      validate_from_g stk major (i + 1) es'
  end.

(** ** Reading references into the pool *)
(** constant_pool.rs:398-430 *)
Definition utf8_g (l : cell) (r : cpref) : guarded str := with_guard p l r (fun _ t => simply (utf8 t)).
(** constant_pool.rs:823-837: the arm for a string *)
Definition literal_g (l : cell) (r : cpref) : guarded literal := with_guard p l r (fun _ t => simply (string_literal t)).
(** constant_pool.rs:413-418 [classinfo] *)
Definition classinfo_g (i : N) (e : entry) : guarded str :=
  match e with EClassInfo x => utf8_g (i, false) x | _ => simply (Panic PNotClassInfo) end.
(** constant_pool.rs:420-430. The guard of the name is a temporary of the whole struct expression. *)
Definition nt_g {A} (i : N) (x y : cpref) (k : name_and_type -> A) : guarded A :=
  with_guard p (i, false) x (fun _ t =>
    lets n := simply (utf8 t) in
    with_guard p (i, true) y (fun _ u => lets d := simply (utf8 u) in simply (Ok (k (mk_nat n d))))).
(** constant_pool.rs:420-430 [name_and_type] *)
Definition name_and_type_g (i : N) (e : entry) : guarded name_and_type :=
  match e with ENameAndType x y => nt_g i x y (fun nt => nt) | _ => simply (Panic PNotNameAndType) end.
(** constant_pool.rs:893-912. [peel!(c).classinfo()] and [peel!(m).name_and_type()] in one struct or tuple expression *)
Definition member_g {A} (i : N) (c m : cpref) (k : str -> name_and_type -> A) : guarded A :=
  with_guard p (i, false) c (fun ci ce =>
    lets cn := classinfo_g ci ce in
    with_guard p (i, true) m (fun mi me =>
      lets nt := name_and_type_g mi me in simply (Ok (k cn nt)))).
(** constant_pool.rs:996-1024 [make_method_handle]: the guard of the scrutinee is alive in the arms *)
Definition make_method_handle_g (i : N) (x : ref_kind) (y : cpref) : guarded method_handle :=
  with_guard p (i, false) y (fun j e =>
    match e with
    | EFieldRef c m => member_g j c m (fun cn nt => mk_mh x cn KField nt)
    | EMethodRef c m => member_g j c m (fun cn nt => mk_mh x cn KMethod nt)
    | EInterfaceMethodRef c m => member_g j c m (fun cn nt => mk_mh x cn KInterfaceMethod nt)
    | _ => simply (fail (lit "Unexpected constant pool reference type"))
    end).

(** The last arm of the readers at constant_pool.rs:717-1099 *)
Definition bad_g {A} : guarded A := simply (fail (lit "Unexpected constant pool reference type")).
(** constant_pool.rs:920-933, 950-979: an entry with a NameAndType *)
Definition described_g {A} (i : N) (y : cpref) (k : name_and_type -> A) : guarded A :=
  with_guard p (i, false) y (fun j t => lets nt := name_and_type_g j t in simply (Ok (k nt))).
(** The bodies of the functions [read_cp_*]: what is done with the entry [e] with index [i]. *)
(** constant_pool.rs:742-752, 754-765, 767-777, 779-789 *)
Definition on_classinfo (i : N) (e : entry) : guarded str := match e with EClassInfo x => utf8_g (i, false) x | _ => bad_g end.
(** constant_pool.rs:754-765 [read_cp_classinfo_opt] *)
Definition on_classinfo_opt (i : N) (e : entry) : guarded (option str) :=
  match e with EZero => simply (Ok None) | EClassInfo x => lets s := utf8_g (i, false) x in simply (Ok (Some s)) | _ => bad_g end.
(** constant_pool.rs:767-777 [read_cp_moduleinfo] *)
Definition on_moduleinfo (i : N) (e : entry) : guarded str := match e with EModuleInfo x => utf8_g (i, false) x | _ => bad_g end.
(** constant_pool.rs:779-789 [read_cp_packageinfo] *)
Definition on_packageinfo (i : N) (e : entry) : guarded str := match e with EPackageInfo x => utf8_g (i, false) x | _ => bad_g end.
(** constant_pool.rs:797-811 *)
Definition on_nameandtype_opt (i : N) (e : entry) : guarded (option name_and_type) :=
  match e with EZero => simply (Ok None) | ENameAndType x y => nt_g i x y Some | _ => bad_g end.
(** constant_pool.rs:823-837 *)
Definition on_literal (i : N) (e : entry) : guarded literal :=
  match e with
  | EInteger v => simply (Ok (LInteger v))
  | EFloat v => simply (Ok (LFloat v))
  | ELong v => simply (Ok (LLong v))
  | EDouble v => simply (Ok (LDouble v))
  | EString x => literal_g (i, false) x
  | _ => bad_g
  end.
(** constant_pool.rs:893-912 *)
Definition on_memberref (allowed i : N) (e : entry) : guarded member_ref :=
  lets _ := simply (ensure_type e allowed) in
  match e with
  | EFieldRef c m | EMethodRef c m | EInterfaceMethodRef c m => member_g i c m mk_mr
  | _ => bad_g
  end.
(** constant_pool.rs:920-933 *)
Definition on_invokedynamic (i : N) (e : entry) : guarded invoke_dynamic :=
  match e with EInvokeDynamic x y => described_g i y (mk_indy x) | _ => bad_g end.
(** constant_pool.rs:1026-1036 *)
Definition on_methodhandle (i : N) (e : entry) : guarded method_handle :=
  match e with EMethodHandle x y => make_method_handle_g i x y | _ => bad_g end.
(** constant_pool.rs:1046-1075 *)
Definition on_bootstrap_argument (i : N) (e : entry) : guarded bootstrap_arg :=
  match e with
  | EInteger v => simply (Ok (BaLiteral (LInteger v)))
  | EFloat v => simply (Ok (BaLiteral (LFloat v)))
  | ELong v => simply (Ok (BaLiteral (LLong v)))
  | EDouble v => simply (Ok (BaLiteral (LDouble v)))
  | EString x => lets l := literal_g (i, false) x in simply (Ok (BaLiteral l))
  | EClassInfo x => lets s := utf8_g (i, false) x in simply (Ok (BaClassInfo s))
  | EMethodHandle x y => lets h := make_method_handle_g i x y in simply (Ok (BaMethodHandle h))
  | EMethodType x => lets s := utf8_g (i, false) x in simply (Ok (BaMethodType s))
  | _ => bad_g
  end.
(** constant_pool.rs:1083-1099: the guard is dropped at the end of the [let] *)
Definition on_object_array_type (i : N) (e : entry) : guarded object_array_type :=
  match e with
  | EClassInfo x =>
      lets name := utf8_g (i, false) x in
      lets d := simply (parse_array_descriptor name) in
      simply (Ok (match d with Some desc => OArrayType desc | None => OBinaryName name end))
  | _ => bad_g
  end.
(** constant_pool.rs:950-979 [get_cp_loadable] *)
Definition on_loadable (i : N) (e : entry) : guarded loadable :=
  match e with
  | EInteger v => simply (Ok (LdLiteral (LInteger v)))
  | EFloat v => simply (Ok (LdLiteral (LFloat v)))
  | ELong v => simply (Ok (LdLiteral (LLong v)))
  | EDouble v => simply (Ok (LdLiteral (LDouble v)))
  | EString x => lets l := literal_g (i, false) x in simply (Ok (LdLiteral l))
  | EClassInfo x => lets s := utf8_g (i, false) x in simply (Ok (LdClassInfo s))
  | EMethodHandle x y => lets h := make_method_handle_g i x y in simply (Ok (LdMethodHandle h))
  | EMethodType x => lets s := utf8_g (i, false) x in simply (Ok (LdMethodType s))
  | EDynamic x y => described_g i y (fun nt => LdDynamic (mk_dyn x nt))
  | _ => simply (fail (lit "Unexpected non-loadable constant pool reference found"))
  end.
(** constant_pool.rs:950-979 [get_cp_loadable] *)
Definition get_loadable_g (cp_index : N) : locked loadable :=
  match pool_get p cp_index with
  | Ok e => on_loadable cp_index e []
  | Err e => Through (Err e)
  | Panic x => Through (Panic x)
  | Diverge => Through Diverge
  end.

(** constant_pool.rs:702-715 [read_cp_ref_any] and what is done with the entry; no guard is alive when one of these functions is called *)
Definition read_g {A} (k : N -> entry -> guarded A) (bs : list byte) (ix : N) : locked (A * N) :=
  match read_u2 bs ix with
  | Ok (cp_index, ix') =>
      match pool_get p cp_index with
      | Ok e =>
          match k cp_index e [] with
          | Through (Ok a) => Through (Ok (a, ix'))
          | Through (Err e) => Through (Err e)
          | Through (Panic x) => Through (Panic x)
          | Through Diverge => Through Diverge
          | SelfDeadlock => SelfDeadlock
          end
      | Err e => Through (Err e)
      | Panic x => Through (Panic x)
      | Diverge => Through Diverge
      end
  | Err e => Through (Err e)
  | Panic x => Through (Panic x)
  | Diverge => Through Diverge
  end.
End WithPool.

(** lib.rs:373-460 and constant_pool.rs:653-700: parsing, where the constants are validated with locks.  What follows the constant pool
    is as without the feature: the functions above are the only ones that lock, and C45_reads says that they behave like those without locks. *)
Definition parse_threadsafe (E : env) (opts : parse_options) (bs : list byte) : locked class_file :=
  match (magic <- read_u4 ;; _ <- guard (magic =? 0xCAFEBABE) (lit "Unexpected magic header") ;;
         minor <- read_u2 ;; major <- read_u2 ;; count <- read_u2 ;; bs <- get_bytes ;;
         es <- pool_loop E (S (length bs)) major count 1 ;;
         p <- lift (resolve_constant_pool (EZero :: es)) ;; ret (major, p)) bs 0 with
  | Ok ((major, p), _) =>
      match validate_from_g p (stack E) major 0 p [] with
      | Through (Ok tt) => Through (parse_class_with_options E opts bs)
      | Through (Err e) => Through (Err e)
      | Through (Panic x) => Through (Panic x)
      | Through Diverge => Through Diverge
      | SelfDeadlock => SelfDeadlock
      end
  | Err e => Through (Err e)
  | Panic x => Through (Panic x)
  | Diverge => Through Diverge
  end.
