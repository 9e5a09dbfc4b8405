(** * What a thread that iterates over the constant pool should see, given what a single thread alone sees. *)
From Verif Require Import Base M_ConstantPool M_Class.

(** A thread makes, for each number [n] of [ns], an iterator and calls it [n] times.  If none of these calls panics when there is no other
    thread, the thread should see the results of all of them; otherwise those before the call that panics. *)
Inductive expected (c : class_file) (ns : list nat) : list (option cp_item) -> bool -> Prop :=
| all_calls ls : Forall2 (fun n l => constantpool_iter_run c n = Ok l) ns ls -> expected c ns (concat ls) false
| until_panic ns1 n ns2 ls m l x : ns = ns1 ++ n :: ns2 -> Forall2 (fun n l => constantpool_iter_run c n = Ok l) ns1 ls ->
    (m < n)%nat -> constantpool_iter_run c m = Ok l -> constantpool_iter_run c (S m) = Panic x -> expected c ns (concat ls ++ l) true.
