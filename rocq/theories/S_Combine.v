(** * Vocabulary for C74: rows of two classes over the same constants in one file. *)
From Verif Require Import Base S_Lang S_Names S_Format S_Pool.
From Verif Require M_Names M_Descriptors M_Attributes M_Class.
Import M_Attributes M_Class.

(** The rules about a class as a whole: a row by itself cannot break them. *)
Record whole_rules (cs : list constant) (c : class_file) : Prop := mk_whole {
  fields_differ : NoDup (map (fun f => (f_name f, f_descriptor f)) (fields c));
  methods_differ : NoDup (map (fun m => (m_name m, m_descriptor m)) (methods c));
  (** [<clinit>] has parameters only before version 51 *)
  methods_fit : Forall (method_rules (major_version c)) (methods c);
  (** a module file has no members *)
  module_fits : module_rules c;
  (** dynamic constants have their bootstrap methods in one table *)
  bootstrap_fits : bootstrap_rules cs c }.

(** The numbers [ks] are those of rows of a table of [n], and there are few enough for
    a table; a row may be taken any number of times. *)
Definition some_rows (n : nat) (ks : list nat) : Prop :=
  (forall k, In k ks -> (k < n)%nat) /\ N.of_nat (length ks) < 65536.
