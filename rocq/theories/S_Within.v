(** * Attributes of a class, wherever they are. *)
From Verif Require Import Base M_Attributes M_Class.

(** [b] is one of the attributes inside [a]. *)
Inductive inside : attr_info -> attr_info -> Prop :=
| inside_code n cd b : In b (cd_attributes cd) -> inside (mk_attr n (ACode cd)) b
| inside_record n l r b : In r l -> In b (rc_attributes r) -> inside (mk_attr n (ARecord l)) b.

(** [a] is an attribute of the class, of one of its fields or methods, or inside
    such an attribute at any depth. *)
Inductive within (c : class_file) : attr_info -> Prop :=
| of_class a : In a (class_attributes c) -> within c a
| of_field f a : In f (fields c) -> In a (f_attributes f) -> within c a
| of_method m a : In m (methods c) -> In a (m_attributes m) -> within c a
| nested a b : within c a -> inside a b -> within c b.
