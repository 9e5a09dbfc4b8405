(** * Assumptions about the machine used in the property theorems. *)
From Verif Require Import Base M_Cesu8.

(** The input fits in an address space of at least 32 bits (a Rust slice has at most
    [isize::MAX] bytes), the heap can hold a copy of it, and the stack allows two
    nested calls. *)
Record sane (E : env) (bs : list byte) : Prop := {
  sane_32 : 2 ^ 32 <= usize_max E + 1;
  sane_usize : blen bs <= usize_max E / 2;
  sane_alloc : blen bs <= alloc_limit E;
  sane_stack : (2 <= stack E)%nat }.
(** Moreover the stack has at least as many recursion levels as the input has bytes. *)
Record ample (E : env) (bs : list byte) : Prop := {
  ample_sane : sane E bs;
  ample_stack : (length bs <= stack E)%nat }.

(** Wrapping arithmetic: builds without overflow checks. *)
Definition wrapping (E : env) : bool := negb (overflow_checks E).

(** Concrete machines for the examples: 64-bit, with and without overflow checks. *)
Definition machine (checks : bool) (usize : N) (levels : N) : env :=
  {| overflow_checks := checks; usize_max := usize; alloc_limit := 2 ^ 40; stack := N.to_nat levels;
     cesu8 := from_java_cesu8; cesu8_err := lit "invalid CESU-8" |}.
Definition debug64 : env := machine true (2 ^ 64 - 1) 20000.
Definition release64 : env := machine false (2 ^ 64 - 1) 20000.

Definition ampleb (E : env) (bs : list byte) : bool :=
  (2 ^ 32 <=? usize_max E + 1) && (blen bs <=? usize_max E / 2) && (blen bs <=? alloc_limit E)
  && Nat.leb (length bs) (stack E) && Nat.leb 2 (stack E).
Lemma ampleb_ample E bs : ampleb E bs = true -> ample E bs.
Proof.
  unfold ampleb. rewrite !Bool.andb_true_iff, !N.leb_le, !Nat.leb_le. intros ((((H1 & H2) & H3) & H4) & H5).
  constructor; [constructor|]; assumption.
Qed.
