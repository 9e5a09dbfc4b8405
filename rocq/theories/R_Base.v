(** * The reader monad with a record of the memory reserved in advance

    The files R_*.v model the readers of the crate once more, this time together
    with every [Vec::with_capacity(n)] they execute: a run has an outcome, as in
    the files M_*.v, and the list of the capacities asked for, in order, whether
    the run succeeds, fails or stops abnormally.  Readers that reserve nothing
    are taken over from M_*.v unchanged ([plain]).  That forgetting the list
    gives back the model of M_*.v is proved in P_Reserve.v. *)
From Verif Require Import Base.

(** As [outcome] of Base.v (error.rs:42-46). Outcome and capacities. *)
Definition traced (A : Type) : Type := outcome A * list N.
(** As [parser] of Base.v: the arguments [bytes] and [ix], lib.rs:45-109 *)
Definition tparser (A : Type) := list byte -> N -> traced (A * N).

(** E.g. lib.rs:45-92. A reader, or a computation, in which no [Vec::with_capacity] occurs. *)
Definition plain {A} (p : parser A) : tparser A := fun bs ix => (p bs ix, []).
(** As [bind] of Base.v, e.g. lib.rs:94-109. [?]: an error ends the run; what was reserved before is on record. *)
Definition tbind {A B} (p : tparser A) (f : A -> tparser B) : tparser B :=
  fun bs ix =>
    let (r, l) := p bs ix in
    match r with
    | Ok (a, ix') => let (r', l') := f a bs ix' in (r', l ++ l')
    | Err e => (Err e, l)
    | Panic q => (Panic q, l)
    | Diverge => (Diverge, l)
    end.
Notation "x <~ p ;; q" := (tbind p (fun x => q))
  (at level 100, p at next level, q at level 200, right associativity).
(** error.rs:3-22. [.map_err(|e| err!(e, ..))] *)
Definition tctx {A} (c : str) (p : tparser A) : tparser A :=
  fun bs ix => let (r, l) := p bs ix in (ctx c r, l).
(** As [lift] of Base.v, e.g. lib.rs:292-319. A computation that does not touch the cursor. *)
Definition tlift {A} (m : traced A) : tparser A :=
  fun bs ix => let (r, l) := m in (lift r bs ix, l).

(** E.g. lib.rs:100. [Vec::with_capacity(n)] *)
Definition reserve (n : N) : tparser unit := fun _ ix => (Ok (tt, ix), [n]).

(** E.g. lib.rs:94-109. [let mut v = Vec::with_capacity(n); for i in 0..n { v.push(body(i)?) }] *)
Fixpoint tfor_from {A} (n : nat) (i : N) (body : N -> tparser A) : tparser (list A) :=
  match n with
  | O => plain (ret [])
  | S n' => x <~ body i ;; xs <~ tfor_from n' (i + 1) body ;; plain (ret (x :: xs))
  end.
(** The loops [for i in 0..count] with the vector they fill, e.g. lib.rs:94-109 *)
Definition tfor_n {A} (count : N) (body : N -> tparser A) : tparser (list A) :=
  _ <~ reserve count ;; tfor_from (N.to_nat count) 0 body.

(** attributes.rs:1070-1241. [match name.deref() { "..." => .., _ => .. }] *)
Fixpoint tdispatch {A} (name : str) (cases : list (string * tparser A)) (default : tparser A)
  : tparser A :=
  match cases with
  | [] => default
  | (s, q) :: cases' => if str_eqb name (lit s) then q else tdispatch name cases' default
  end.
