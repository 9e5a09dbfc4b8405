(** * The reader monad with a count of the steps

    The files W_*.v model the crate once more, this time together with a count of
    the elementary steps it executes: a run has an outcome, as in the files M_*.v,
    and a number of steps, whether it succeeds, fails or stops abnormally.  That
    forgetting the number gives back the model of M_*.v is proved in P_Work.v.

    What is charged:
    - reading an integer, looking up an entry of the constant pool, adding an
      element to a vector, attaching a context to an error, comparing two
      offsets in a lookup of an instruction: 1 step;
    - copying a text, decoding it or checking the form of a name: 1 step and 1
      step for every byte of the text ([Cow::clone] of a borrowed text is
      cheaper; the charge is that of an owned one, and that of a check that
      does not stop early);
    - parsing a descriptor or a class name: 1 step for every character looked
      at, 1 for every iteration of a loop, and the copies of class names;
    - comparing an attribute name with the names known to the crate: 1 step and
      the length of the literal for every comparison;
    - inserting into a [HashSet]: 1 step and, three times, the length of the key
      (a copy, a hash, one comparison; collisions of the hash function, which are
      a matter of the standard library, are not modelled).
    Control flow, arithmetic and moves cost nothing: their number is bounded by a
    constant for each of the steps above.  Memory allocation and the destructors
    are not counted. *)
From Verif Require Import Base.

(** As [outcome] of Base.v (error.rs:42-46). Outcome and number of steps. *)
Definition metered (A : Type) : Type := outcome A * N.
(** As [parser] of Base.v: the arguments [bytes] and [ix], lib.rs:45-109 *)
Definition wparser (A : Type) := list byte -> N -> metered (A * N).

(** ** Computations that do not touch the cursor *)
(** E.g. constant_pool.rs:327-335. A computation of [k] steps. *)
Definition steps {A} (k : N) (m : outcome A) : metered A := (m, k).
(** The operator [?], as [obind] of Base.v, e.g. descriptors.rs:77-99 *)
Definition mbind {A B} (m : metered A) (f : A -> metered B) : metered B :=
  let (r, n) := m in
  match r with
  | Ok a => let (r', n') := f a in (r', n + n')
  | Err e => (Err e, n)
  | Panic q => (Panic q, n)
  | Diverge => (Diverge, n)
  end.
Notation "'let~' x := m 'in' f" := (mbind m (fun x => f))
  (at level 200, x pattern, m at level 100, f at level 200).
(** [Ok(..)] at the end of a function, e.g. descriptors.rs:45 *)
Definition mok {A} (a : A) : metered A := steps 0 (Ok a).
(** E.g. descriptors.rs:13-24. [k] steps before [m] *)
Definition after {A} (k : N) (m : metered A) : metered A := let (r, n) := m in (r, k + n).
(** error.rs:3-22. [.map_err(|e| err!(e, ..))] *)
Definition mctx {A} (c : str) (m : metered A) : metered A :=
  let (r, n) := m in (ctx c r, match r with Err _ => n + 1 | _ => n end).

(** ** Readers *)
(** E.g. lib.rs:45-92. A reader of [k] steps. *)
Definition costs {A} (k : N) (p : parser A) : wparser A := fun bs ix => (p bs ix, k).
(** [Ok(..)] at the end of a reader, e.g. lib.rs:108 *)
Definition wret {A} (a : A) : wparser A := costs 0 (ret a).
(** As [bind] of Base.v, e.g. lib.rs:94-109. [?]: an error ends the run. *)
Definition wbind {A B} (p : wparser A) (f : A -> wparser B) : wparser B :=
  fun bs ix =>
    let (r, n) := p bs ix in
    match r with
    | Ok (a, ix') => let (r', n') := f a bs ix' in (r', n + n')
    | Err e => (Err e, n)
    | Panic q => (Panic q, n)
    | Diverge => (Diverge, n)
    end.
Notation "x <~ p ;; q" := (wbind p (fun x => q))
  (at level 100, p at next level, q at level 200, right associativity).
(** [.map_err(|e| err!(e, ..))] (error.rs:3-22) in a reader *)
Definition wctx {A} (c : str) (p : wparser A) : wparser A := fun bs ix => mctx c (p bs ix).
(** As [lift] of Base.v, e.g. lib.rs:292-319 *)
Definition wlift {A} (m : metered A) : wparser A := fun bs ix => let (r, n) := m in (lift r bs ix, n).
(** Steps without effect on [bytes] and [ix] (lib.rs:45-109). [k] steps *)
Definition tick (k : N) : wparser unit := costs k (ret tt).
(** [fail!] (error.rs:24-40) in a reader *)
Definition wfail {A} (m : str) : wparser A := costs 1 (pfail m).
(** [fail!] (error.rs:24-40) with the current index in its message *)
Definition wfail_at {A} (m : N -> str) : wparser A := costs 1 (pfail_at m).
(** E.g. lib.rs:373-460. A test of [k] steps *)
Definition wguard (k : N) (b : bool) (m : str) : wparser unit := costs k (guard b m).

(** E.g. lib.rs:94-109. [let mut v = Vec::with_capacity(n); for i in 0..n { v.push(body(i)?) }] *)
Fixpoint wfor_from {A} (n : nat) (i : N) (body : N -> wparser A) : wparser (list A) :=
  match n with
  | O => wret []
  | S n' =>
      x <~ body i ;;
      _ <~ tick 1 ;;
      xs <~ wfor_from n' (i + 1) body ;;
      wret (x :: xs)
  end.
(** The loops [for i in 0..count], e.g. lib.rs:94-109 *)
Definition wfor_n {A} (count : N) (body : N -> wparser A) : wparser (list A) :=
  wfor_from (N.to_nat count) 0 body.
(** bytecode.rs:312-681 (switches). The same loop for a count that may be as large as 2^31. *)
Fixpoint wfor_fuel {A} (fuel : nat) (i count : N) (body : N -> wparser A) : wparser (list A) :=
  if i <? count then
    match fuel with
    | O => fun _ _ => (Diverge, 0)
    | S fuel' =>
        x <~ body i ;;
        _ <~ tick 1 ;;
        xs <~ wfor_fuel fuel' (i + 1) count body ;;
        wret (x :: xs)
    end
  else wret [].
(** The loops of bytecode.rs:312-681 over the entries of a switch *)
Definition wfor_big {A} (count : N) (body : N -> wparser A) : wparser (list A) :=
  fun bs ix => wfor_fuel (S (length bs)) 0 count body bs ix.

(** attributes.rs:1070-1241. [match name.deref() { "..." => .., _ => .. }] *)
Fixpoint wdispatch {A} (name : str) (cases : list (string * wparser A)) (default : wparser A)
  : wparser A :=
  match cases with
  | [] => default
  | (s, q) :: cases' =>
      _ <~ tick (1 + N.of_nat (length (lit s))) ;;
      if str_eqb name (lit s) then q else wdispatch name cases' default
  end.

(** lib.rs:45-92 [read_u1], [read_u2], [read_u4], [read_u8] *)
Definition w_u1 : wparser N := costs 1 read_u1.
(** lib.rs:55-62 [read_u2] *)
Definition w_u2 : wparser N := costs 1 read_u2.
(** lib.rs:65-75 [read_u4] *)
Definition w_u4 : wparser N := costs 1 read_u4.
(** lib.rs:78-92 [read_u8] *)
Definition w_u8 : wparser N := costs 1 read_u8.

(** constant_pool.rs:398-418, names.rs:1-50. The charge for copying a text or checking its form *)
Definition text (s : str) : N := 1 + str_len s.
