(** * The same class without bytecode. *)
From Verif Require Import Base M_Attributes M_Class.

(** Every [CodeData.bytecode], at any depth, becomes [None]; nothing else changes. *)
Fixpoint strip_attr (a : attr_info) : attr_info :=
  match a with mk_attr n d => mk_attr n (strip_data d) end
with strip_data (d : attr_data) : attr_data :=
  match d with
  | ACode c => ACode (strip_code c)
  | ARecord l => ARecord (map strip_component l)
  | _ => d
  end
with strip_code (c : code_data) : code_data :=
  match c with mk_code s l b _ e a => mk_code s l b None e (map strip_attr a) end
with strip_component (r : record_component) : record_component :=
  match r with mk_rc n d a => mk_rc n d (map strip_attr a) end.
Definition strip_field (f : field_info) : field_info :=
  mk_field (f_access_flags f) (f_name f) (f_descriptor f) (map strip_attr (f_attributes f)).
Definition strip_method (m : method_info) : method_info :=
  mk_method (m_access_flags m) (m_name m) (m_descriptor m) (map strip_attr (m_attributes m)).
Definition strip_class (c : class_file) : class_file :=
  mk_class (major_version c) (minor_version c) (constant_pool c) (access_flags c) (this_class c) (super_class c)
    (interfaces c) (map strip_field (fields c)) (map strip_method (methods c)) (map strip_attr (class_attributes c)).
