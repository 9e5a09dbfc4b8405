(** * Vocabulary for C75: attributes left out or reordered at any depth. *)
From Verif Require Import Base S_Rewrite.
From Verif Require M_ConstantPool M_Attributes M_Class.
Import M_Attributes M_Class.

(** The attribute with some of the attributes inside left out or in another order: those
    of code and those of record components, and those inside these.  [select ks l] are
    the rows of [l] with the numbers [ks]. *)
Inductive trimmed : attr_info -> attr_info -> Prop :=
| tr_same a : trimmed a a
| tr_code name s l code bc ex attrs attrs' ks :
    row_numbers (length attrs) ks -> Forall2 trimmed (select ks attrs) attrs' ->
    trimmed (mk_attr name (ACode (mk_code s l code bc ex attrs))) (mk_attr name (ACode (mk_code s l code bc ex attrs')))
| tr_record name rs rs' :
    Forall2 (fun r r' => rc_name r' = rc_name r /\ rc_descriptor r' = rc_descriptor r
               /\ exists ks, row_numbers (length (rc_attributes r)) ks /\ Forall2 trimmed (select ks (rc_attributes r)) (rc_attributes r')) rs rs' ->
    trimmed (mk_attr name (ARecord rs)) (mk_attr name (ARecord rs')).
Definition trimmed_list (l l' : list attr_info) : Prop :=
  exists ks, row_numbers (length l) ks /\ Forall2 trimmed (select ks l) l'.

Definition trimmed_field (f f' : field_info) : Prop :=
  f_access_flags f' = f_access_flags f /\ f_name f' = f_name f /\ f_descriptor f' = f_descriptor f
  /\ trimmed_list (f_attributes f) (f_attributes f').
Definition trimmed_method (m m' : method_info) : Prop :=
  m_access_flags m' = m_access_flags m /\ m_name m' = m_name m /\ m_descriptor m' = m_descriptor m
  /\ trimmed_list (m_attributes m) (m_attributes m').
(** The same class with fewer attributes. *)
Record trimmed_class (c c' : class_file) : Prop := mk_trimmed {
  kept_major : major_version c' = major_version c;
  kept_minor : minor_version c' = minor_version c;
  kept_pool : constant_pool c' = constant_pool c;
  kept_flags : access_flags c' = access_flags c;
  kept_this : this_class c' = this_class c;
  kept_super : super_class c' = super_class c;
  kept_interfaces : interfaces c' = interfaces c;
  trimmed_fields : Forall2 trimmed_field (fields c) (fields c');
  trimmed_methods : Forall2 trimmed_method (methods c) (methods c');
  trimmed_attributes : trimmed_list (class_attributes c) (class_attributes c') }.
