(** * Which memory is released: specification. *)
From Verif Require Import Base M_ConstantPool M_Drop S_Format S_Pool.

(** The entry with index [k] contains a pointer to the entry with index [j]. *)
Definition points_to (p : pool) (k j : N) : Prop := In j (pointers_at p k).
(** There is a sequence of [n] pointers, each into the entry the next one comes out of, that ends at [j]. *)
Fixpoint pointed_at (p : pool) (n : nat) (j : N) : Prop :=
  match n with
  | O => True
  | S n' => exists k, points_to p k j /\ pointed_at p n' k
  end.
(** ... of any length: [j] is on a cycle or reached from one. *)
Definition cyclic (p : pool) (j : N) : Prop := forall n, pointed_at p n j.

(** Every entry is freed exactly once. *)
Definition all_freed (p : pool) (fs : list N) : Prop := NoDup fs /\ forall i, In i fs <-> i < plen p.

(** The constant with index [k] in the file contains the index [j]. *)
Definition refers (cs : list constant) (k j : N) : Prop := exists c, at_index (slots_of cs) k c /\ In j (indices c).
(** There is a chain of [n] constants, each containing the index of the next one, the last one the index [j]. *)
Fixpoint referred (cs : list constant) (n : nat) (j : N) : Prop :=
  match n with
  | O => True
  | S n' => exists k, refers cs k j /\ referred cs n' k
  end.
(** ... of any length: [j] is on a cycle of references or reached from one. *)
Definition looped (cs : list constant) (j : N) : Prop := forall n, referred cs n j.
(** All indices in constants are indices of the pool, and not that of the constant itself. *)
Definition resolvable (cs : list constant) : Prop := forall k j, refers cs k j -> j <> k /\ j < N.of_nat (length (slots_of cs)).
