(** * Vocabulary for C76: attributes mean the same wherever they stand. *)
From Verif Require Import Base S_Within.
From Verif Require M_ConstantPool M_Attributes M_Class.
Import M_Attributes M_Class.

Section Donors.
(** Classes to take attributes from. *)
Variable donors : list class_file.
(** [a] is an attribute of one of them, at any depth. *)
Definition supplied (a : attr_info) : Prop := exists c, In c donors /\ within c a.
(** Attributes to be written as one table. *)
Definition supplied_list (l : list attr_info) : Prop := Forall supplied l /\ N.of_nat (length l) < 65536.

Definition refurnished_field (f f' : field_info) : Prop :=
  f_access_flags f' = f_access_flags f /\ f_name f' = f_name f /\ f_descriptor f' = f_descriptor f
  /\ supplied_list (f_attributes f').
Definition refurnished_method (m m' : method_info) : Prop :=
  m_access_flags m' = m_access_flags m /\ m_name m' = m_name m /\ m_descriptor m' = m_descriptor m
  /\ supplied_list (m_attributes m').
(** The same class with other attributes. *)
Record refurnished (c c' : class_file) : Prop := mk_refurnished {
  still_major : major_version c' = major_version c;
  still_minor : minor_version c' = minor_version c;
  still_pool : constant_pool c' = constant_pool c;
  still_flags : access_flags c' = access_flags c;
  still_this : this_class c' = this_class c;
  still_super : super_class c' = super_class c;
  still_interfaces : interfaces c' = interfaces c;
  new_fields : Forall2 refurnished_field (fields c) (fields c');
  new_methods : Forall2 refurnished_method (methods c) (methods c');
  new_attributes : supplied_list (class_attributes c') }.
End Donors.

(** The number of attributes of the class, its fields and its methods. *)
Definition attribute_count (c : class_file) : nat :=
  (list_sum (map (fun f => length (f_attributes f)) (fields c)) + list_sum (map (fun m => length (m_attributes m)) (methods c))
   + length (class_attributes c))%nat.
