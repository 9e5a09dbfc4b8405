(** * What the printed form of constants looks like. *)
From Verif Require Import Base M_ConstantPool M_Debug.

(** [printed hide p d e ts]: [ts] is the text of the entry [e] of the pool [p], with at most [d] entries inside each other; if [hide], some references are printed as
    <locked> instead. *)
Inductive printed (hide : bool) (p : pool) : nat -> entry -> list token -> Prop :=
| printed_entry d e tss : Forall2 (printed_ref hide p d) (map snd (cells_of e)) tss -> printed hide p (S d) e (TOpen e :: concat tss ++ [TClose])
with printed_ref (hide : bool) (p : pool) : nat -> cpref -> list token -> Prop :=
| printed_target d t e ts : nth_error p (N.to_nat t) = Some e -> printed hide p d e ts -> printed_ref hide p d (Resolved t) ts
| printed_locked d r : hide = true -> printed_ref hide p d r [TLocked].

(** The whole pool [n] times. *)
Definition printed_pool (hide : bool) (p : pool) (d n : nat) (ts : list token) : Prop :=
  exists tss, length tss = n /\ ts = concat tss /\
    Forall (fun t => exists us, Forall2 (printed hide p d) p us /\ t = concat us) tss.
(** How many entries a text shows. *)
Definition entries_in (ts : list token) : nat :=
  length (filter (fun t => match t with TOpen _ => true | _ => false end) ts).
