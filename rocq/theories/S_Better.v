(** * Comparing runs on different machines and builds. *)
From Verif Require Import Base.

(** [E2] is the same machine as [E1], with at least as much stack and memory, and possibly without overflow checks. *)
Record better (E1 E2 : env) : Prop := {
  better_checks : overflow_checks E2 = true -> overflow_checks E1 = true;
  better_usize : usize_max E1 = usize_max E2;
  better_alloc : alloc_limit E1 <= alloc_limit E2;
  better_stack : (stack E1 <= stack E2)%nat;
  better_cesu8 : forall w, cesu8 E1 w = cesu8 E2 w;
  better_err : cesu8_err E1 = cesu8_err E2 }.
(** What the weaker machine lacks. *)
Inductive lack (E1 E2 : env) : panic -> Prop :=
| lack_checks : overflow_checks E1 = true -> overflow_checks E2 = false -> lack E1 E2 POverflow
| lack_alloc : alloc_limit E1 < alloc_limit E2 -> lack E1 E2 PAlloc
| lack_stack : (stack E1 < stack E2)%nat -> lack E1 E2 PStackOverflow.
(** The same outcome, or a panic for a lack of the first machine. *)
Definition same_or_lack {A} (E1 E2 : env) (o1 o2 : outcome A) : Prop := o1 = o2 \/ exists x, o1 = Panic x /\ lack E1 E2 x.
