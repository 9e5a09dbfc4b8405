(** * Vocabulary for C77: other code among the same tables. *)
From Verif Require Import Base S_Lang S_Names S_Format S_Pool S_Rewrite.
From Verif Require M_ConstantPool M_Bytecode M_Attributes M_Class.
Import M_Bytecode M_Attributes M_Class.

Section Exchange.
Variables (dec : list byte -> option str) (sl : slots) (wraps want_bytecode : bool).
(** The bytes [code] are code, and [bc] is what they are decoded to if that is asked for. *)
Definition is_code (code : list byte) (bc : option byte_code) : Prop :=
  match bc with
  | Some b => want_bytecode = true /\ code_format dec sl wraps b code
  | None => want_bytecode = false
  end.
(** The attribute with other code, not longer, in the place of any code inside it; the
    numbers of stack and local variables may be others and rows of the exception table
    may be left out or reordered.  Everything else is as before: whatever the other rows
    of the exception table and the attributes of the code say about offsets and
    variables they say it still. *)
Inductive exchanged : attr_info -> attr_info -> Prop :=
| exc_same a : exchanged a a
| exc_code name s l code bc s' l' code' bc' ex ks attrs attrs' :
    s' < 65536 -> l' < 65536 -> (length code' <= length code)%nat -> is_code code' bc' ->
    row_numbers (length ex) ks -> Forall2 exchanged attrs attrs' ->
    exchanged (mk_attr name (ACode (mk_code s l code bc ex attrs))) (mk_attr name (ACode (mk_code s' l' code' bc' (select ks ex) attrs')))
| exc_record name rs rs' :
    Forall2 (fun r r' => rc_name r' = rc_name r /\ rc_descriptor r' = rc_descriptor r
               /\ Forall2 exchanged (rc_attributes r) (rc_attributes r')) rs rs' ->
    exchanged (mk_attr name (ARecord rs)) (mk_attr name (ARecord rs')).
Definition exchanged_field (f f' : field_info) : Prop :=
  f_access_flags f' = f_access_flags f /\ f_name f' = f_name f /\ f_descriptor f' = f_descriptor f
  /\ Forall2 exchanged (f_attributes f) (f_attributes f').
Definition exchanged_method (m m' : method_info) : Prop :=
  m_access_flags m' = m_access_flags m /\ m_name m' = m_name m /\ m_descriptor m' = m_descriptor m
  /\ Forall2 exchanged (m_attributes m) (m_attributes m').
(** The same class with other code. *)
Record exchanged_class (c c' : class_file) : Prop := mk_exchanged {
  ex_major : major_version c' = major_version c;
  ex_minor : minor_version c' = minor_version c;
  ex_pool : constant_pool c' = constant_pool c;
  ex_flags : access_flags c' = access_flags c;
  ex_this : this_class c' = this_class c;
  ex_super : super_class c' = super_class c;
  ex_interfaces : interfaces c' = interfaces c;
  ex_fields : Forall2 exchanged_field (fields c) (fields c');
  ex_methods : Forall2 exchanged_method (methods c) (methods c');
  ex_attributes : Forall2 exchanged (class_attributes c) (class_attributes c') }.
End Exchange.
