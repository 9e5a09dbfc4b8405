(** * Derived traits of src/descriptors.rs: PartialEq, Hash, PartialOrd and Ord.

    [derive] generates the code; it is written out here from the rules of the Rust reference.  [Cow<str>] compares, orders and hashes
    as the [str] it stands for, and [str] as its bytes (alloc::borrow, core::str::traits, core::hash). *)
From Verif Require Import Base M_Names Z_Cow Z_Descriptors.

(** descriptors.rs:140-239 (derived equality of vectors). [[u8]::eq], [Vec::eq]: lengths, then elements. *)
Fixpoint all_eq {A} (eq : A -> A -> bool) (a b : list A) : bool :=
  match a, b with
  | [], [] => true
  | x :: a', y :: b' => eq x y && all_eq eq a' b'
  | _, _ => false
  end.
(** descriptors.rs:140-239: equality of slices and vectors, used by the derived code *)
Definition slice_eq {A} (eq : A -> A -> bool) (a b : list A) : bool := Nat.eqb (length a) (length b) && all_eq eq a b.
(** descriptors.rs:28-29. [Cow::eq], [str::eq] *)
Definition cow_eq (a b : cow) : bool := slice_eq N.eqb (as_bytes (chars a)) (as_bytes (chars b)).
(** descriptors.rs:28 [derive(PartialEq)] for [ClassName] *)
Definition class_name_eq (a b : cow) : bool := cow_eq a b.
(** descriptors.rs:101 [core::mem::discriminant] of [FieldType] *)
Definition type_discriminant (t : field_type) : N :=
  match t with
  | FByte => 0 | FChar => 1 | FDouble => 2 | FFloat => 3 | FInteger => 4 | FLong => 5 | FShort => 6 | FBoolean => 7 | FObject _ => 8
  end.
(** descriptors.rs:101 [derive(PartialEq)] for [FieldType] *)
Definition field_type_eq (a b : field_type) : bool :=
  (type_discriminant a =? type_discriminant b)
  && match a, b with FObject n, FObject m => class_name_eq n m | _, _ => true end.
(** descriptors.rs:140 [derive(PartialEq)] for [FieldDescriptor] *)
Definition field_desc_eq (a b : field_desc) : bool := (dimensions a =? dimensions b) && field_type_eq (fd_type a) (fd_type b).
(** descriptors.rs:199 [derive(PartialEq)] for [ReturnDescriptor] *)
Definition return_desc_eq (a b : return_desc) : bool :=
  match a, b with
  | RReturn d, RReturn e => field_desc_eq d e
  | RVoid, RVoid => true
  | _, _ => false
  end.
(** descriptors.rs:235 [derive(PartialEq)] for [MethodDescriptor] *)
Definition method_desc_eq (a b : method_desc) : bool :=
  slice_eq field_desc_eq (parameters a) (parameters b) && return_desc_eq (return_type a) (return_type b).

(** descriptors.rs:28-239 [derive(Hash)]. What is fed to a [Hasher]: the calls [write_isize], [write_usize] (length prefixes), [write_u8] and [write]. *)
Inductive fed := FedIsize (n : N) | FedUsize (n : N) | FedU8 (n : N) | FedBytes (l : list N).
(** descriptors.rs:28-29. [str::hash]: the bytes, then 0xff. *)
Definition cow_hash (a : cow) : list fed := [FedBytes (as_bytes (chars a)); FedU8 255].
(** descriptors.rs:28 [derive(Hash)] *)
Definition class_name_hash (a : cow) : list fed := cow_hash a.
(** descriptors.rs:101 *)
Definition field_type_hash (t : field_type) : list fed :=
  FedIsize (type_discriminant t) :: match t with FObject n => class_name_hash n | _ => [] end.
(** descriptors.rs:140 *)
Definition field_desc_hash (d : field_desc) : list fed := FedU8 (dimensions d) :: field_type_hash (fd_type d).
(** descriptors.rs:199 *)
Definition return_desc_hash (r : return_desc) : list fed :=
  match r with RReturn d => FedIsize 0 :: field_desc_hash d | RVoid => [FedIsize 1] end.
(** descriptors.rs:235; [Vec::hash] feeds the length first. *)
Definition method_desc_hash (d : method_desc) : list fed :=
  FedUsize (N.of_nat (length (parameters d))) :: flat_map field_desc_hash (parameters d) ++ return_desc_hash (return_type d).

(** descriptors.rs:28-29 (through [str::cmp]). [[u8]::cmp] *)
Fixpoint bytes_cmp (a b : list N) : comparison :=
  match a, b with
  | [], [] => Eq
  | [], _ :: _ => Lt
  | _ :: _, [] => Gt
  | x :: a', y :: b' => match x ?= y with Eq => bytes_cmp a' b' | c => c end
  end.
(** descriptors.rs:28 [derive(PartialOrd, Ord)] for [ClassName] *)
Definition class_name_cmp (a b : cow) : comparison := bytes_cmp (as_bytes (chars a)) (as_bytes (chars b)).
