(** * Vocabulary for statements about attributes in the file. *)
From Verif Require Import Base S_Lang S_Format S_Within.
From Verif Require Import M_Attributes M_Class.

(** The attribute lists of a class: its own, those of its fields, methods, code arrays and record components. *)
Inductive list_of (c : class_file) : list attr_info -> Prop :=
| list_class : list_of c (class_attributes c)
| list_field f : In f (fields c) -> list_of c (f_attributes f)
| list_method m : In m (methods c) -> list_of c (m_attributes m)
| list_code n cd : within c (mk_attr n (ACode cd)) -> list_of c (cd_attributes cd)
| list_record n l r : within c (mk_attr n (ARecord l)) -> In r l -> list_of c (rc_attributes r).

(** JVMS 4.7: attributes whose length is fixed. *)
Definition fixed_size (a : attr_data) : option nat :=
  match a with
  | ASynthetic | ADeprecated => Some 0%nat
  | AConstantValue _ | ASignature _ | ASourceFile _ | AModuleMainClass _ | ANestHost _ => Some 2%nat
  | AEnclosingMethod _ _ => Some 4%nat
  | _ => None
  end.

(** [w] consists of two bytes for the name of [a], four bytes for a number and that many bytes; these
    are the payload if the attribute is unknown, encode the text of a SourceDebugExtension, and are of
    the right number in the attributes of fixed size. *)
Definition framed (dec : list byte -> option str) (sl : slots) (a : attr_info) (w : list byte) : Prop :=
  exists nw lw body i, w = nw ++ lw ++ body /\ u2 i nw /\ utf8_at dec sl i (attr_name a)
    /\ u4 (N.of_nat (length body)) lw
    /\ (forall r, attr_dat a = AOther r -> body = r)
    /\ (forall s, attr_dat a = ASourceDebugExtension s -> dec body = Some s)
    /\ (forall n, fixed_size (attr_dat a) = Some n -> length body = n).
