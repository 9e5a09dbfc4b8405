(** * Model of printing a class with [{:?}] (lib.rs:321 [#[derive(Debug)]], used by examples/classfile.rs:11-12)

    The derived code prints the constant pool too (lib.rs:325), entry by entry, and for every reference of an entry the entry it points to
    (constant_pool.rs:24-28, 148-170), so it follows the pointers without remembering where it has been.

    Without the threadsafe feature the cells are [RefCell]s, whose [Debug] prints the content unless it is mutably borrowed (it is not after
    parsing).  With it they are [Mutex]es, whose [Debug] calls [try_lock]: it prints the content with the guard held, or <locked> if anybody
    (including the caller) holds a guard; it does not wait, and it prints the content of a poisoned mutex as well.

    Simplification: of the text only its structure is modelled: [TOpen e] stands for the name of the variant of the entry and those of its
    fields that are not references, [TClose] for what closes it; the word "poisoned: .." is left out, and so is the rest of the class, which has no cells. *)
From Verif Require Import Base M_Names M_Descriptors M_ConstantPool M_Bytecode M_Attributes M_Class M_Locks.

(** lib.rs:321, constant_pool.rs:24, 148: a piece of what the derived [Debug] prints *)
Inductive token := TOpen (e : entry) | TClose | TIndex (i : N) (* Unresolved(i) *) | TLocked.

(** The references of an entry in the order in which they are printed, with the name of the cell (constant_pool.rs:148-170) *)
Definition cells_of (e : entry) : list (bool * cpref) :=
  match e with
  | EClassInfo x | EString x | EMethodType x | EModuleInfo x | EPackageInfo x => [(false, x)]
  | EMethodHandle _ y | EDynamic _ y | EInvokeDynamic _ y => [(false, y)]
  | EFieldRef x y | EMethodRef x y | EInterfaceMethodRef x y | ENameAndType x y => [(false, x); (true, y)]
  | EZero | EUtf8 _ | EUtf8Bytes _ | EInteger _ | EFloat _ | ELong _ | EDouble _ | EUnused => []
  end.

(** lib.rs:321, constant_pool.rs:24, 148. What a printing thread is going to do. *)
Inductive print :=
| PDone
| PSay (t : token) (k : print)
| PTry (l : cell) (got missed : print)   (* try_lock *)
| PUnlock (l : cell) (k : print)
| PTooDeep.                              (* more nested entries than the stack has room for *)

Section WithPool.
Variable p : pool.
(** constant_pool.rs:148-170 [derive(Debug)]. The entry [e] with index [i], then [k]; [levels]: how many entries may be nested. *)
Fixpoint print_entry (levels : nat) (i : N) (e : entry) (k : print) : print :=
  match levels with
  | O => PTooDeep
  | S levels' =>
      PSay (TOpen e)
        (fold_right (fun x k =>
             let l := (i, fst x) in
             PTry l
               match snd x with
               | Unresolved n => PSay (TIndex n) (PUnlock l k)
               | Resolved t =>
                   match nth_error p (N.to_nat t) with
                   | Some e' => print_entry levels' t e' (PUnlock l k)
                   | None => PTooDeep (* impossible in Rust: a pointer is never dangling *)
                   end
               end
               (PSay TLocked k))
          (PSay TClose k) (cells_of e))
  end.
(** lib.rs:325: [Debug] of a vector. The entries [es], the first of which has index [i] *)
Fixpoint print_from (levels : nat) (i : N) (es : list entry) (k : print) : print :=
  match es with
  | [] => k
  | e :: es' => print_entry levels i e (print_from levels (i + 1) es' k)
  end.
(** lib.rs:321-325. The pool, [n] times *)
Fixpoint print_pool (levels n : nat) : print :=
  match n with
  | O => PDone
  | S n' => print_from levels 0 p (print_pool levels n')
  end.
End WithPool.

(** ** The machine: threads that iterate (M_Locks.v) and threads that print *)
(** Code of the user, with examples/classfile.rs:11-12 *)
Inductive person :=
| Iterates (t : thread)
| Prints (out : list token) (held : list cell) (todo : print)
| Printed (out : list token).
(** Not code of the crate: the threads of the user and the mutexes (constant_pool.rs:22) *)
Record room := mk_room { spoiled : list cell; people : list person }.
(** The guards that a thread holds (constant_pool.rs:71-76) *)
Definition has (x : person) : list cell :=
  match x with Iterates t => holds (now t) | Prints _ h _ => h | Printed _ => [] end.
(** The mutex (constant_pool.rs:22) is free *)
Definition nobody_has (R : room) (l : cell) : Prop := forall x, In x (people R) -> ~ In l (has x).

(** [Mutex::lock], [try_lock] and the dropping of guards (constant_pool.rs:22, 71-76): one step *)
Inductive person_step (fr : cell -> Prop) (ps : list cell) : person -> list cell -> person -> Prop :=
| step_iterates t ps' t' : thread_step fr ps t ps' t' -> person_step fr ps (Iterates t) ps' (Iterates t')
| step_say out h t k : person_step fr ps (Prints out h (PSay t k)) ps (Prints (out ++ [t]) h k)
| step_got out h l y n : fr l -> person_step fr ps (Prints out h (PTry l y n)) ps (Prints out (l :: h) y)
| step_missed out h l y n : ~ fr l -> person_step fr ps (Prints out h (PTry l y n)) ps (Prints out h n)
| step_release out h l k : person_step fr ps (Prints out (l :: h) (PUnlock l k)) ps (Prints out h k)
| step_printed out : person_step fr ps (Prints out [] PDone) ps (Printed out).
(** The scheduler lets any thread make a step; the code is that of constant_pool.rs:1134-1197 and lib.rs:321 *)
Inductive room_step : room -> room -> Prop :=
| room_some R xs1 x xs2 ps' x' : people R = xs1 ++ x :: xs2 -> person_step (nobody_has R) (spoiled R) x ps' x' ->
    room_step R (mk_room ps' (xs1 ++ x' :: xs2)).
(** A number of such steps; the code is that of constant_pool.rs:1134-1197 and lib.rs:321 *)
Inductive room_steps : nat -> room -> room -> Prop :=
| room_O R : room_steps 0 R R
| room_S n R R' R'' : room_steps n R R' -> room_step R' R'' -> room_steps (S n) R R''.

(** lib.rs:321, 335-340. What a thread has to do: iterate as in M_Locks.v, or print the class a number of times *)
Inductive job := Iterate (ns : list nat) | Print (n : nat).
(** lib.rs:321, 335-340: the threads before they have done anything *)
Definition room_start (c : class_file) (levels : nat) (jobs : list job) : room :=
  mk_room [] (map (fun j => match j with
    | Iterate ns => Iterates (mk_thread [] (Running [] (script (constant_pool c) ns)))
    | Print n => Prints [] [] (print_pool (constant_pool c) levels n)
    end) jobs).
