(** * Vocabulary for statements about comparing descriptors. *)
From Verif Require Import Base S_Utf M_Names Z_Cow Z_Descriptors.

(** The two ways to get a [ClassName]: [ClassName::try_from] and from a descriptor; its field is private. *)
Inductive made : cow -> Prop :=
| made_by_try_from v n : class_name_try_from v = Ok n -> made n
| made_by_parsing data i n : parse_class_descriptor data i = Ok n -> made n.
(** Texts are sequences of Unicode scalar values. *)
Definition text (c : cow) : Prop := Forall is_scalar (chars c).

(** Values of the public types: class names are made as above, the dimensions are a [u8]. *)
Definition type_value (t : field_type) : Prop := match t with FObject n => made n /\ text n | _ => True end.
Definition field_value (d : field_desc) : Prop := dimensions d < 256 /\ type_value (fd_type d).
Definition return_value (r : return_desc) : Prop := match r with RReturn d => field_value d | RVoid => True end.
Definition method_value (d : method_desc) : Prop := Forall field_value (parameters d) /\ return_value (return_type d).

(** The order of dictionaries, by code points. *)
Inductive precedes : str -> str -> Prop :=
| precedes_nil c t : precedes [] (c :: t)
| precedes_head c d s t : c < d -> precedes (c :: s) (d :: t)
| precedes_tail c s t : precedes s t -> precedes (c :: s) (c :: t).
