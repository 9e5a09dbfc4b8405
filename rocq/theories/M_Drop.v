(** * Model of releasing memory: the destructors of the constant pool

    The pool is a [Vec<CafeRc<ConstantPoolEntry>>] (lib.rs:325, constant_pool.rs:653-658); [CafeRc] is [Rc], or [Arc] with the
    threadsafe feature (lib.rs:40-43).  An entry contains cells, and a resolved cell contains another [CafeRc] to an entry of the same
    pool (constant_pool.rs:25-28, 147-170).  Rust has no explicit code for releasing this: dropping the vector runs compiler-generated
    destructors, which are modelled here by the documentation of [Rc]: the strong count is the number of pointers to the value, dropping
    a pointer decrements it, and when it reaches zero the value is dropped (its fields in the order of their declaration) and then its
    memory is freed.  Dropping a vector drops its elements from first to last. *)
From Verif Require Import Base M_Names M_Descriptors M_ConstantPool.

(** constant_pool.rs:147-170: the cells of an entry in the order of its fields *)
Definition cells (e : entry) : list cpref :=
  match e with
  | EZero | EUtf8 _ | EUtf8Bytes _ | EInteger _ | EFloat _ | ELong _ | EDouble _ | EUnused => []
  | EClassInfo x | EString x | EMethodHandle _ x | EMethodType x | EDynamic _ x | EInvokeDynamic _ x
  | EModuleInfo x | EPackageInfo x => [x]
  | EFieldRef x y | EMethodRef x y | EInterfaceMethodRef x y | ENameAndType x y => [x; y]
  end.
(** constant_pool.rs:25-28: the pointer in a cell *)
Definition pointer (r : cpref) : list N := match r with Resolved t => [t] | Unresolved _ => [] end.
(** constant_pool.rs:25-28, 147-170: the entries an entry points to *)
Definition pointers (e : entry) : list N := flat_map pointer (cells e).
(** constant_pool.rs:25-28, 147-170: the entries the entry with this index points to *)
Definition pointers_at (p : pool) (i : N) : list N :=
  match nth_error p (N.to_nat i) with Some e => pointers e | None => [] end.

(** lib.rs:325. The indices of the vector. *)
Definition positions (p : pool) : list N := map N.of_nat (seq 0 (length p)).

(** lib.rs:40-43 ([Rc] or [Arc]). The strong counts of the entries, and the entries whose memory has been freed, in this order. *)
Record heap := mk_heap { strong : N -> nat; freed : list N }.
(** lib.rs:40-43, constant_pool.rs:656-695 (all pointers that exist). One pointer from the vector, and the pointers in the cells of all entries. *)
Definition strong_counts (p : pool) (i : N) : nat :=
  count_occ N.eq_dec (positions p) i + count_occ N.eq_dec (flat_map (pointers_at p) (positions p)) i.

(** The strong count of one [CafeRc] (lib.rs:40-43) changes *)
Definition update (f : N -> nat) (i : N) (n : nat) : N -> nat := fun j => if j =? i then n else f j.

(** lib.rs:325 (the destructor of a vector or of the fields of an entry). Dropping several pointers one after the other, each with [f]. *)
Fixpoint drop_list (f : heap -> N -> outcome heap) (l : list N) (h : heap) : outcome heap :=
  match l with
  | [] => Ok h
  | i :: l' => let* h := f h i in drop_list f l' h
  end.
(** lib.rs:40-43 (the destructor of [CafeRc]). Dropping one pointer, to the entry with index [i]; recursion with [stk] levels of stack. *)
Fixpoint drop_rc (stk : nat) (p : pool) (h : heap) (i : N) : outcome heap :=
  match stk with
  | O => Panic PStackOverflow
  | S stk' =>
      let n := Nat.pred (strong h i) in
      let h := mk_heap (update (strong h) i n) (freed h) in
      match n with
      | O => let* h := drop_list (drop_rc stk' p) (pointers_at p i) h in Ok (mk_heap (strong h) (freed h ++ [i]))
      | _ => Ok h
      end
  end.
(** lib.rs:325 (the destructor of the field [constant_pool]). Dropping the vector: the entries that are freed. *)
Definition drop_pool (stk : nat) (p : pool) : outcome (list N) :=
  let* h := drop_list (drop_rc stk p) (positions p) (mk_heap (strong_counts p) []) in Ok (freed h).

(** ** The vector at the moment when parsing ends *)
Section WithEnv.
Variable E : env.

(** constant_pool.rs:660-696: the entries pushed by the loop, also if it does not come to its end *)
Fixpoint pushed_loop (fuel : nat) (major count cp_ix : N) (bs : list byte) (ix : N) : list entry :=
  if cp_ix <? count then
    match fuel with
    | O => []
    | S fuel' =>
        match (tag <- read_u1 ;; e <- read_entry E major tag ;; ret (tag, e)) bs ix with
        | Ok ((tag, e), ix') =>
            e :: match u16_result E (cp_ix + 1) with
                 | Ok cp_ix =>
                     if (tag =? 5) || (tag =? 6) then
                       match u16_result E (cp_ix + 1) with
                       | Ok cp_ix => EUnused :: pushed_loop fuel' major count cp_ix bs ix'
                       | _ => []
                       end
                     else pushed_loop fuel' major count cp_ix bs ix'
                 | _ => []
                 end
        | _ => []
        end
    end
  else [].

(** constant_pool.rs:173-208, 634-639: what [resolve_constant_pool] has done when it stops; [?] returns at the first error, which leaves
    the first cell of an entry resolved if the error is in the second. *)
Definition resolve_ref_left (r : cpref) (my_index len : N) : cpref :=
  match resolve_ref r my_index len with Ok r' => r' | _ => r end.
(** constant_pool.rs:173-208: the entry as it is left when one of its references is bad *)
Definition resolve_entry_left (e : entry) (my_index len : N) : entry :=
  let first (x : cpref) := resolve_ref_left x my_index len in
  match e with
  | EFieldRef x y => EFieldRef (first x) y
  | EMethodRef x y => EMethodRef (first x) y
  | EInterfaceMethodRef x y => EInterfaceMethodRef (first x) y
  | ENameAndType x y => ENameAndType (first x) y
  | _ => e
  end.
(** constant_pool.rs:634-639: the vector as it is left at the first error *)
Fixpoint resolve_left (len i : N) (es : list entry) : list entry :=
  match es with
  | [] => []
  | e :: es' =>
      match resolve_entry e i len with
      | Ok e' => e' :: resolve_left len (i + 1) es'
      | _ => resolve_entry_left e i len :: es'
      end
  end.

(** lib.rs:377-385 and constant_pool.rs:653-700: the constant pool vector as it is when [parse_class_with_options] returns: it is moved
    into the class, or dropped before the error is returned.  Nothing but [resolve] writes to the cells. *)
Definition pool_left (bs : list byte) : pool :=
  match (magic <- read_u4 ;; _ <- guard (magic =? 0xCAFEBABE) [] ;; minor <- read_u2 ;; major <- read_u2 ;; count <- read_u2 ;; ret (major, count)) bs 0 with
  | Ok ((major, count), ix) =>
      let es := EZero :: pushed_loop (S (length bs)) major count 1 bs ix in
      match pool_loop E (S (length bs)) major count 1 bs ix with
      | Ok _ => resolve_left (plen es) 0 es
      | _ => es
      end
  | _ => []
  end.
End WithEnv.
