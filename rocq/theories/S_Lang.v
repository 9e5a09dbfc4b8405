(** * Specification vocabulary: sets of byte strings.

    A format is a function [A -> lang]: for a value, the set of byte strings that
    denote it.  Formats go from values to bytes, i.e. in the direction opposite to
    a parser; there is no cursor, no bounds check and no error in them. *)
From Coq Require Import List NArith ZArith.
From Coq.Strings Require Import Byte.
Import ListNotations.
Open Scope N_scope.

Definition lang := list byte -> Prop.

(** Only the empty string, if [P] holds. *)
Definition only_if (P : Prop) : lang := fun w => w = [] /\ P.
Definition eps : lang := fun w => w = [].
(** Concatenation. *)
Definition cat (L M : lang) : lang := fun w => exists u v, w = u ++ v /\ L u /\ M v.
Notation "L +++ M" := (cat L M) (at level 60, right associativity).
(** Union. *)
Definition alt (L M : lang) : lang := fun w => L w \/ M w.
Notation "L 'or' M" := (alt L M) (at level 70, right associativity).
(** [L n] for some [n] satisfying [P]. *)
Definition any {A} (L : A -> lang) (P : A -> Prop) : lang := fun w => exists a, L a w /\ P a.
(** Exactly these bytes. *)
Definition raw (b : list byte) : lang := fun w => w = b.
(** Any [n] bytes. *)
Definition blob (n : N) : lang := fun w => N.of_nat (length w) = n.

(** One value after the other. *)
Fixpoint many {A} (F : A -> lang) (l : list A) : lang :=
  match l with
  | [] => eps
  | a :: l' => F a +++ many F l'
  end.
(** A table: the number of rows, written as [cnt], then the rows. *)
Definition table {A} (cnt : N -> lang) (F : A -> lang) (l : list A) : lang :=
  cnt (N.of_nat (length l)) +++ many F l.

(** ** Integers *)
(** Big-endian value of a byte string. *)
Definition be (w : list byte) : N := fold_left (fun acc b => acc * 256 + Byte.to_N b) w 0.
Definition uint (k : nat) (n : N) : lang := fun w => length w = k /\ be w = n.
Definition u1 := uint 1.
Definition u2 := uint 2.
Definition u4 := uint 4.
Definition u8 := uint 8.
(** Two's complement. *)
Definition sint (k : nat) (z : Z) : lang := fun w =>
  length w = k /\ (- 2 ^ (8 * Z.of_nat k - 1) <= z < 2 ^ (8 * Z.of_nat k - 1))%Z
  /\ (z mod 2 ^ (8 * Z.of_nat k))%Z = Z.of_N (be w).
Definition s1 := sint 1.
Definition s2 := sint 2.
Definition s4 := sint 4.
Definition s8 := sint 8.

(** A bit set [f] in which exactly the named bits of the 16 written ones are kept. *)
Definition flags_keep (named : N) (f : N) : lang := fun w =>
  exists written, u2 written w /\
    forall bit, N.testbit f bit = (N.testbit written bit && N.testbit named bit)%bool.
(** A bit set in which no other than the named bits are written. *)
Definition flags_exact (named : N) (f : N) : lang := fun w =>
  u2 f w /\ forall bit, N.testbit f bit = true -> N.testbit named bit = true.
