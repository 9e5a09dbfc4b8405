(** * Vocabulary for C79: a class with other flags, names and descriptors. *)
From Verif Require Import Base S_Names S_Format.
From Verif Require M_Names M_Descriptors M_Attributes M_Class.
Import M_Descriptors M_Attributes M_Class.

Section Rename.
(** The decoder of text and the constants of the file. *)
Variable dec : list byte -> option str.
Variable cs : list constant.
(** What the constants offer under some index of two bytes. *)
Definition offers {A} (R : N -> A -> Prop) (a : A) : Prop := exists i, i < 65536 /\ R i a.
Notation Text := (utf8_at dec (slots_of cs)).
Notation Class := (class_at dec (slots_of cs)).
Notation Field_descriptor := (field_desc_at dec (slots_of cs)).
Notation Method_descriptor := (method_desc_at dec (slots_of cs)).
Definition a_class (s : str) : Prop := offers Class s /\ class_name s.
(** Flags in which only these bits are set. *)
Definition only_bits (named f : N) : Prop := f < 65536 /\ forall b, N.testbit f b = true -> N.testbit named b = true.

Definition renamed_field (f f' : field_info) : Prop :=
  only_bits 0x50DF (f_access_flags f') /\ offers Text (f_name f') /\ unqualified (f_name f')
  /\ offers Field_descriptor (f_descriptor f') /\ f_attributes f' = f_attributes f.
Definition renamed_method (in_interface : bool) (m m' : method_info) : Prop :=
  only_bits 0x1DFF (m_access_flags m') /\ offers Text (m_name m') /\ method_name in_interface (m_name m')
  /\ offers Method_descriptor (m_descriptor m') /\ m_attributes m' = m_attributes m.
(** The same attributes under any flags, names and descriptors; any interfaces. *)
Record renamed (c c' : class_file) : Prop := mk_renamed {
  same_major : major_version c' = major_version c;
  same_minor : minor_version c' = minor_version c;
  same_pool : constant_pool c' = constant_pool c;
  some_flags : only_bits 0xF631 (access_flags c');
  some_this : a_class (this_class c');
  some_super : forall s, super_class c' = Some s -> a_class s;
  some_interfaces : Forall a_class (interfaces c');
  few_interfaces : N.of_nat (length (interfaces c')) < 65536;
  renamed_fields : Forall2 renamed_field (fields c) (fields c');
  (** bit 9: an interface *)
  renamed_methods : Forall2 (renamed_method (N.testbit (access_flags c') 9)) (methods c) (methods c');
  same_attributes : class_attributes c' = class_attributes c }.
End Rename.
