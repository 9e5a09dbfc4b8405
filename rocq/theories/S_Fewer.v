(** * Vocabulary for C78: rows left out or reordered in any table. *)
From Verif Require Import Base S_Rewrite.
From Verif Require M_ConstantPool M_Attributes M_Class.
Import M_Attributes M_Class.

(** [l'] are rows of [l], each at most once, in any order. *)
Definition rows {A} (l l' : list A) : Prop := exists ks, row_numbers (length l) ks /\ l' = select ks l.

(** The contents of an attribute with rows left out or reordered. *)
Inductive fewer_rows : attr_data -> attr_data -> Prop :=
| fr_stack_map l l' : rows l l' -> fewer_rows (AStackMapTable l) (AStackMapTable l')
| fr_exceptions l l' : rows l l' -> fewer_rows (AExceptions l) (AExceptions l')
| fr_inner_classes l l' : rows l l' -> fewer_rows (AInnerClasses l) (AInnerClasses l')
| fr_line_numbers l l' : rows l l' -> fewer_rows (ALineNumberTable l) (ALineNumberTable l')
| fr_local_variables l l' : rows l l' -> fewer_rows (ALocalVariableTable l) (ALocalVariableTable l')
| fr_local_variable_types l l' : rows l l' -> fewer_rows (ALocalVariableTypeTable l) (ALocalVariableTypeTable l')
| fr_visible l l' : rows l l' -> fewer_rows (ARuntimeVisibleAnnotations l) (ARuntimeVisibleAnnotations l')
| fr_invisible l l' : rows l l' -> fewer_rows (ARuntimeInvisibleAnnotations l) (ARuntimeInvisibleAnnotations l')
| fr_visible_parameters l l1 l' : rows l l1 -> Forall2 rows l1 l' ->
    fewer_rows (ARuntimeVisibleParameterAnnotations l) (ARuntimeVisibleParameterAnnotations l')
| fr_invisible_parameters l l1 l' : rows l l1 -> Forall2 rows l1 l' ->
    fewer_rows (ARuntimeInvisibleParameterAnnotations l) (ARuntimeInvisibleParameterAnnotations l')
| fr_visible_types l l' : rows l l' -> fewer_rows (ARuntimeVisibleTypeAnnotations l) (ARuntimeVisibleTypeAnnotations l')
| fr_invisible_types l l' : rows l l' -> fewer_rows (ARuntimeInvisibleTypeAnnotations l) (ARuntimeInvisibleTypeAnnotations l')
| fr_bootstrap l l' : rows l l' -> fewer_rows (ABootstrapMethods l) (ABootstrapMethods l')
| fr_method_parameters l l' : rows l l' -> fewer_rows (AMethodParameters l) (AMethodParameters l')
| fr_module n f v r r' e e' o o' u u' p p' : rows r r' -> rows e e' -> rows o o' -> rows u u' -> rows p p' ->
    fewer_rows (AModule (mk_mod n f v r e o u p)) (AModule (mk_mod n f v r' e' o' u' p'))
| fr_packages l l' : rows l l' -> fewer_rows (AModulePackages l) (AModulePackages l')
| fr_members l l' : rows l l' -> fewer_rows (ANestMembers l) (ANestMembers l')
| fr_subclasses l l' : rows l l' -> fewer_rows (APermittedSubclasses l) (APermittedSubclasses l').

(** Rows left out or reordered in an attribute and in the attributes inside it, at any depth. *)
Inductive fewer : attr_info -> attr_info -> Prop :=
| fw_same a : fewer a a
| fw_rows name d d' : fewer_rows d d' -> fewer (mk_attr name d) (mk_attr name d')
| fw_code name s l code bc ex ex' attrs attrs1 attrs' : rows ex ex' -> rows attrs attrs1 -> Forall2 fewer attrs1 attrs' ->
    fewer (mk_attr name (ACode (mk_code s l code bc ex attrs))) (mk_attr name (ACode (mk_code s l code bc ex' attrs')))
| fw_record name rs rs1 rs' : rows rs rs1 ->
    Forall2 (fun r r' => rc_name r' = rc_name r /\ rc_descriptor r' = rc_descriptor r
               /\ exists attrs1, rows (rc_attributes r) attrs1 /\ Forall2 fewer attrs1 (rc_attributes r')) rs1 rs' ->
    fewer (mk_attr name (ARecord rs)) (mk_attr name (ARecord rs')).
Definition fewer_list (l l' : list attr_info) : Prop := exists l1, rows l l1 /\ Forall2 fewer l1 l'.

Definition fewer_field (f f' : field_info) : Prop :=
  f_access_flags f' = f_access_flags f /\ f_name f' = f_name f /\ f_descriptor f' = f_descriptor f
  /\ fewer_list (f_attributes f) (f_attributes f').
Definition fewer_method (m m' : method_info) : Prop :=
  m_access_flags m' = m_access_flags m /\ m_name m' = m_name m /\ m_descriptor m' = m_descriptor m
  /\ fewer_list (m_attributes m) (m_attributes m').
(** The class with rows left out or reordered in any table but that of the constants. *)
Record fewer_class (c c' : class_file) : Prop := mk_fewer {
  fw_major : major_version c' = major_version c;
  fw_minor : minor_version c' = minor_version c;
  fw_pool : constant_pool c' = constant_pool c;
  fw_flags : access_flags c' = access_flags c;
  fw_this : this_class c' = this_class c;
  fw_super : super_class c' = super_class c;
  fw_interfaces : rows (interfaces c) (interfaces c');
  fw_fields : exists l, rows (fields c) l /\ Forall2 fewer_field l (fields c');
  fw_methods : exists l, rows (methods c) l /\ Forall2 fewer_method l (methods c');
  fw_attributes : fewer_list (class_attributes c) (class_attributes c') }.
