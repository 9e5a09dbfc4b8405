(** * Model of the threadsafe feature (Cargo.toml:21)

    With it [CafeCell] is [std::sync::Mutex] (constant_pool.rs:21-22) and [peel!] is [$x.lock().unwrap().deref().get()] (71-76).  After
    parsing, the only code that touches the cells is [ConstantPoolIter::next] (constant_pool.rs:1134-1197); it is modelled again here,
    function by function, with its lock operations.  A guard is a temporary: it lives until the end of the enclosing statement or match
    arm, so it is held while the rest of the same arm is evaluated, and guards are dropped in the reverse order of their creation.

    The cells are not written any more after parsing, so what a guard gives access to is taken from the pool.  The threads are an
    abstract machine with one atomic operation on one mutex per step and arbitrary scheduling.  [std::sync::Mutex] is modelled by its
    documentation: [lock] blocks while any guard (of any thread, including the caller) for the mutex is alive; a guard dropped while
    its thread is panicking poisons the mutex; [lock().unwrap()] on a poisoned mutex panics. *)
From Verif Require Import Base M_Names M_Descriptors M_ConstantPool M_Bytecode M_Attributes M_Class.

(** A mutex: the first ([false]) or second ([true]) cell of the entry with some index (constant_pool.rs:147-170).  Entries of kind
    MethodHandle, Dynamic and InvokeDynamic have one cell, called the first here. *)
Definition cell : Type := N * bool.

(** constant_pool.rs:71-76, 1134-1197. What a thread is going to do.  [Emit o] stands for the call of [next] returning [o] to the thread. *)
Inductive act (A : Type) :=
| Done (a : A)
| Abort (x : panic)
| Lock (l : cell) (k : act A)
| Unlock (l : cell) (k : act A)
| Emit (o : option cp_item) (k : act A).
Arguments Done {A} a. Arguments Abort {A} x. Arguments Lock {A} l k. Arguments Unlock {A} l k. Arguments Emit {A} o k.

(** constant_pool.rs:1134-1197: one operation after the other *)
Fixpoint abind {A B} (m : act A) (f : A -> act B) : act B :=
  match m with
  | Done a => f a
  | Abort x => Abort x
  | Lock l k => Lock l (abind k f)
  | Unlock l k => Unlock l (abind k f)
  | Emit o k => Emit o (abind k f)
  end.
Notation "'acts' x := m 'in' f" := (abind m (fun x => f)) (at level 200, x pattern, m at level 100, f at level 200).

(** constant_pool.rs:398-430, 1134-1197. A computation without locks.  Used for code that does not return an error; [Diverge] does not occur in it. *)
Definition pure {A} (m : outcome A) : act A :=
  match m with Ok a => Done a | Panic x => Abort x | Err _ => Abort PUnwrap | Diverge => Abort PUnwrap end.

Section WithPool.
Variable p : pool.

(** constant_pool.rs:71-76 [peel!] followed by the rest [k] of the arm, and the drop of the guard at its end.  [k] gets the entry
    pointed to and its index. *)
Definition with_peel {A} (l : cell) (r : cpref) (k : N -> entry -> act A) : act A :=
  Lock l (match r with
          | Unresolved _ => Abort PUnresolved
          | Resolved t =>
              match nth_error p (N.to_nat t) with
              | Some e => acts a := k t e in Unlock l (Done a)
              | None => Abort PSlice
              end
          end).

(** constant_pool.rs:413-418 [classinfo] of the entry [e] with index [i] *)
Definition classinfo_l (i : N) (e : entry) : act str :=
  match e with
  | EClassInfo x => with_peel (i, false) x (fun _ t => pure (utf8 t))
  | _ => Abort PNotClassInfo
  end.
(** constant_pool.rs:420-430 [name_and_type]: the first guard is held while the second is taken *)
Definition name_and_type_l (i : N) (e : entry) : act name_and_type :=
  match e with
  | ENameAndType x y =>
      with_peel (i, false) x (fun _ t =>
        acts n := pure (utf8 t) in
        with_peel (i, true) y (fun _ u =>
          acts d := pure (utf8 u) in Done (mk_nat n d)))
  | _ => Abort PNotNameAndType
  end.
(** [peel!(c).classinfo()] and then [peel!(m).name_and_type()] in the same arm (constant_pool.rs:1001-1015, 1158-1170) *)
Definition member_l {A} (i : N) (c m : cpref) (k : str -> name_and_type -> A) : act A :=
  with_peel (i, false) c (fun ci ce =>
    acts cn := classinfo_l ci ce in
    with_peel (i, true) m (fun mi me =>
      acts nt := name_and_type_l mi me in Done (k cn nt))).
(** constant_pool.rs:996-1024 [make_method_handle]: the guard of the scrutinee is held to the end of the [let]; [None] is the error. *)
Definition make_method_handle_l (i : N) (x : ref_kind) (y : cpref) : act (option method_handle) :=
  with_peel (i, false) y (fun j e =>
    match e with
    | EFieldRef c m => member_l j c m (fun cn nt => Some (mk_mh x cn KField nt))
    | EMethodRef c m => member_l j c m (fun cn nt => Some (mk_mh x cn KMethod nt))
    | EInterfaceMethodRef c m => member_l j c m (fun cn nt => Some (mk_mh x cn KInterfaceMethod nt))
    | _ => Done None
    end).

(** constant_pool.rs:1137-1193: the [match] in [next] on the entry [e] with index [i] *)
Definition item_l (i : N) (e : entry) : act (option cp_item) :=
  let one (x : cpref) (k : str -> cp_item) := with_peel (i, false) x (fun _ t => acts s := pure (utf8 t) in Done (Some (k s))) in
  let described (y : cpref) (k : name_and_type -> cp_item) :=
    with_peel (i, false) y (fun j t => acts nt := name_and_type_l j t in Done (Some (k nt))) in
  let member (c m : cpref) (k : member_ref -> cp_item) := member_l i c m (fun cn nt => Some (k (mk_mr cn nt))) in
  match e with
  | EZero => Abort PIterZero
  | EUtf8 _ | EUtf8Bytes _ => Done None
  | EInteger v => Done (Some (ItLiteral (LInteger v)))
  | EFloat v => Done (Some (ItLiteral (LFloat v)))
  | ELong v => Done (Some (ItLiteral (LLong v)))
  | EDouble v => Done (Some (ItLiteral (LDouble v)))
  | EClassInfo x => one x ItClassInfo
  | EString x => with_peel (i, false) x (fun _ t => acts l := pure (string_literal t) in Done (Some (ItLiteral l)))
  | EFieldRef c m => member c m ItFieldRef
  | EMethodRef c m => member c m ItMethodRef
  | EInterfaceMethodRef c m => member c m ItInterfaceMethodRef
  | ENameAndType x y =>
      with_peel (i, false) x (fun _ t =>
        acts n := pure (utf8 t) in
        with_peel (i, true) y (fun _ u =>
          acts d := pure (utf8 u) in Done (Some (ItNameAndType (mk_nat n d)))))
  | EMethodHandle x y =>
      acts h := make_method_handle_l i x y in
      match h with Some h => Done (Some (ItMethodHandle h)) | None => Abort PUnwrap end
  | EMethodType x => one x ItMethodType
  | EDynamic x y => described y (fun nt => ItDynamic (mk_dyn x nt))
  | EInvokeDynamic x y => described y (fun nt => ItInvokeDynamic (mk_indy x nt))
  | EModuleInfo x => one x ItModuleInfo
  | EPackageInfo x => one x ItPackageInfo
  | EUnused => Done None
  end.

(** constant_pool.rs:1134-1197 [next]; [fuel] as in [iter_next_loop] *)
Fixpoint next_loop_l (fuel : nat) (index : N) : act (option cp_item * N) :=
  match fuel with
  | O => Abort PUnwrap
  | S fuel' =>
      if index + 1 <? plen p then
        let index := index + 1 in
        match nth_error p (N.to_nat index) with
        | None => Abort PSlice
        | Some e =>
            acts r := item_l index e in
            match r with
            | Some it => Done (Some it, index)
            | None => next_loop_l fuel' index
            end
        end
      else Done (None, index)
  end.
(** constant_pool.rs:1134-1197 [next] *)
Definition next_l (index : N) : act (option cp_item * N) := next_loop_l (S (length p)) index.

(** constant_pool.rs:1134-1197. [n] calls of [next], then [k] *)
Fixpoint calls_l (n : nat) (index : N) (k : act unit) : act unit :=
  match n with
  | O => k
  | S n' => acts r := next_l index in Emit (fst r) (calls_l n' (snd r) k)
  end.
(** What a thread does: for each number [n] of the list in turn it calls [constantpool_iter] (lib.rs:335-340) and then [n] times
    [next] on the result. *)
Fixpoint script (ns : list nat) : act unit :=
  match ns with
  | [] => Done tt
  | n :: ns' => calls_l n 0 (script ns')
  end.
End WithPool.

(** ** The machine *)
(** constant_pool.rs:21-22, 71-76 *)
Inductive status :=
| Running (held : list cell) (todo : act unit)   (* the guards of the thread, newest first *)
| Unwinding (held : list cell)                   (* panicking: the guards still to be dropped *)
| Finished
| Panicked.
(** Code of the user, calling constant_pool.rs:1134-1197 *)
Record thread := mk_thread { seen : list (option cp_item); now : status }.
(** Code of the user, with the mutexes of constant_pool.rs:21-22 *)
Record machine := mk_machine { poisoned : list cell; threads : list thread }.

(** constant_pool.rs:71-76: the guards that a thread holds *)
Definition holds (s : status) : list cell :=
  match s with Running h _ | Unwinding h => h | Finished | Panicked => [] end.
(** constant_pool.rs:21-22. No guard of any thread for [l] exists. *)
Definition free (M : machine) (l : cell) : Prop := forall t, In t (threads M) -> ~ In l (holds (now t)).

(** constant_pool.rs:21-22, 71-76. One step of the thread [t] when the poisoned cells are [ps]: the new poisoned cells and the new thread. *)
Inductive thread_step (fr : cell -> Prop) (ps : list cell) : thread -> list cell -> thread -> Prop :=
| step_lock s h l k : fr l -> ~ In l ps -> thread_step fr ps (mk_thread s (Running h (Lock l k))) ps (mk_thread s (Running (l :: h) k))
| step_poison s h l k : fr l -> In l ps -> thread_step fr ps (mk_thread s (Running h (Lock l k))) ps (mk_thread s (Unwinding h))
| step_unlock s h l k : thread_step fr ps (mk_thread s (Running (l :: h) (Unlock l k))) ps (mk_thread s (Running h k))
| step_emit s h o k : thread_step fr ps (mk_thread s (Running h (Emit o k))) ps (mk_thread (s ++ [o]) (Running h k))
| step_abort s h x : thread_step fr ps (mk_thread s (Running h (Abort x))) ps (mk_thread s (Unwinding h))
| step_drop s h l : thread_step fr ps (mk_thread s (Unwinding (l :: h))) (l :: ps) (mk_thread s (Unwinding h))
| step_panicked s : thread_step fr ps (mk_thread s (Unwinding [])) ps (mk_thread s Panicked)
| step_finish s : thread_step fr ps (mk_thread s (Running [] (Done tt))) ps (mk_thread s Finished).

(** The code is that of constant_pool.rs:1134-1197. The scheduler lets any thread make a step. *)
Inductive step : machine -> machine -> Prop :=
| step_some M ts1 t ts2 ps' t' : threads M = ts1 ++ t :: ts2 -> thread_step (free M) (poisoned M) t ps' t' ->
    step M (mk_machine ps' (ts1 ++ t' :: ts2)).
(** A number of such steps; the code is that of constant_pool.rs:1134-1197 *)
Inductive steps : nat -> machine -> machine -> Prop :=
| steps_O M : steps 0 M M
| steps_S n M M' M'' : steps n M M' -> step M' M'' -> steps (S n) M M''.

(** lib.rs:335-340. One thread for each script, before it has done anything. *)
Definition start (c : class_file) (scripts : list (list nat)) : machine :=
  mk_machine [] (map (fun ns => mk_thread [] (Running [] (script (constant_pool c) ns))) scripts).
