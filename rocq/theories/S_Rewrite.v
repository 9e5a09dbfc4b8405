(** * Vocabulary for statements about changed files. *)
From Verif Require Import Base S_Lang S_Names S_Format S_Pool.
From Verif Require M_Names M_Descriptors M_ConstantPool M_Attributes M_Class.
Import M_Names(ch).
Import M_Descriptors(parameters).
Import M_ConstantPool(InvokeStatic, InvokeSpecial, pool, entry, EUnused).
Import M_Attributes M_Class.

(** ** Versions *)
(** The file with other version numbers: bytes 4 to 7 replaced. *)
Definition two_bytes (n : N) : list byte :=
  match Byte.of_N (n / 256), Byte.of_N (n mod 256) with Some a, Some b => [a; b] | _, _ => [] end.
Definition with_versions (minor major : N) (bs : list byte) : list byte :=
  firstn 4 bs ++ two_bytes minor ++ two_bytes major ++ skipn 8 bs.
(** The class with other version numbers. *)
Definition class_with_versions (minor major : N) (c : class_file) : class_file :=
  mk_class major minor (constant_pool c) (access_flags c) (this_class c) (super_class c) (interfaces c)
    (fields c) (methods c) (class_attributes c).

(** The version that introduced a kind of constant (JVMS table 4.4-B). *)
Definition introduced (c : constant) : N :=
  match c with
  | CMethodHandle _ _ | CMethodType _ | CInvokeDynamic _ _ => 51
  | CModule _ | CPackage _ => 53
  | CDynamic _ _ => 55
  | _ => 0
  end.
(** What a class with the constants [cs] demands of its version [v]. *)
Definition allowed_in (cs : list constant) (c : class_file) (v : N) : Prop :=
  (forall x, In x cs -> introduced x <= v)
  /\ (forall k m a b, In (CMethodHandle k m) cs -> at_index (slots_of cs) m (CInterfaceMethodref a b) ->
        k = InvokeStatic \/ k = InvokeSpecial -> 52 <= v)
  /\ (N.testbit (access_flags c) 15 = true -> 53 <= v)
  /\ (forall m, In m (methods c) -> m_name m = lit "<clinit>" -> parameters (m_descriptor m) <> [] -> v < 51).

(** ** Rows *)
(** The rows with the numbers [ks], in the order of [ks]. *)
Definition select {A} (ks : list nat) (l : list A) : list A :=
  flat_map (fun k => match nth_error l k with Some a => [a] | None => [] end) ks.
(** Numbers of different rows of a table of [n]. *)
Definition row_numbers (n : nat) (ks : list nat) : Prop := NoDup ks /\ forall k, In k ks -> (k < n)%nat.
(** A table as it is written: the number of rows, then the rows. *)
Definition counted (ws : list (list byte)) : list byte := two_bytes (N.of_nat (length ws)) ++ concat ws.
(** The class with other interfaces, fields, methods and attributes. *)
Definition class_with (i : list str) (f : list field_info) (m : list method_info) (a : list attr_info) (c : class_file) : class_file :=
  mk_class (major_version c) (minor_version c) (constant_pool c) (access_flags c) (this_class c) (super_class c) i f m a.
Definition is_dynamic (c : constant) : Prop := exists b nt, c = CDynamic b nt \/ c = CInvokeDynamic b nt.
Definition is_bootstrap (a : attr_info) : Prop := exists l, attr_dat a = ABootstrapMethods l.
(** If the class has dynamic constants, the table of bootstrap methods is among the attributes [ks]. *)
Definition keeps_bootstrap (cs : list constant) (c : class_file) (ks : list nat) : Prop :=
  (exists x, In x cs /\ is_dynamic x) -> forall k a, nth_error (class_attributes c) k = Some a -> is_bootstrap a -> In k ks.

(** ** Constants *)
(** The class with another constant pool. *)
Definition class_with_pool (p : pool) (c : class_file) : class_file :=
  mk_class (major_version c) (minor_version c) p (access_flags c) (this_class c) (super_class c) (interfaces c)
    (fields c) (methods c) (class_attributes c).
(** A dynamic constant refers to a bootstrap method of the class. *)
Definition bootstrapped (x : constant) (c : class_file) : Prop :=
  forall b nt, x = CDynamic b nt \/ x = CInvokeDynamic b nt -> exists l, bootstrap_tables c = [l] /\ b < N.of_nat (length l).
