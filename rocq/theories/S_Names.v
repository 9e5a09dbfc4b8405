(** * Specification of names and descriptors (JVMS 4.2, 4.3). *)
From Verif Require Import Base.
From Verif Require M_Descriptors.
Import M_Descriptors(field_desc, mk_fd, dimensions, fd_type, field_type,
  FByte, FChar, FDouble, FFloat, FInteger, FLong, FShort, FBoolean, FObject,
  return_desc, RReturn, RVoid, method_desc, mk_md, parameters, return_type).

(** [s] contains none of the characters of [bad]. *)
Definition without (bad : string) (s : str) : Prop := forall c, In c (lit bad) -> ~ In c s.

(** JVMS 4.2.2: unqualified names. *)
Definition unqualified (s : str) : Prop := s <> [] /\ without ".;[/" s.

(** Names separated by slashes. *)
Fixpoint slashes (segs : list str) : str :=
  match segs with
  | [] => []
  | [s] => s
  | s :: segs' => s ++ lit "/" ++ slashes segs'
  end.
(** JVMS 4.2.1: binary class and interface names in internal form. *)
Definition binary_name (s : str) : Prop :=
  exists segs, segs <> [] /\ Forall unqualified segs /\ s = slashes segs.

(** Class names as cafebabe allows them inside descriptors and as names of classes:
    additionally without < and >. *)
Definition class_segment (s : str) : Prop := s <> [] /\ without ".;[/<>" s.
Definition class_name (s : str) : Prop :=
  exists segs, segs <> [] /\ Forall class_segment segs /\ s = slashes segs.

(** Names of methods. *)
Definition method_name (in_interface : bool) (s : str) : Prop :=
  (s <> [] /\ without ".;[/<>" s)
  \/ (s = lit "<init>" /\ in_interface = false)
  \/ s = lit "<clinit>".

(** JVMS 4.2.3: module names: characters above 0x1F; backslash, colon and at-sign
    only escaped by a backslash. *)
Definition module_unit (u : str) : Prop :=
  (exists c, u = [c] /\ 0x1F < c /\ ~ In c (lit "\:@"))
  \/ u = lit "\\" \/ u = lit "\:" \/ u = lit "\@".
Definition module_name (s : str) : Prop :=
  exists us, Forall module_unit us /\ s = concat us.

(** ** Descriptors: JVMS 4.3.2, 4.3.3 *)
Definition type_text (t : field_type) : str :=
  match t with
  | FByte => lit "B" | FChar => lit "C" | FDouble => lit "D" | FFloat => lit "F"
  | FInteger => lit "I" | FLong => lit "J" | FShort => lit "S" | FBoolean => lit "Z"
  | FObject n => lit "L" ++ n ++ lit ";"
  end.
Definition field_text (d : field_desc) : str :=
  concat (repeat (lit "[") (N.to_nat (dimensions d))) ++ type_text (fd_type d).
Definition type_valid (t : field_type) : Prop :=
  match t with FObject n => class_name n | _ => True end.
Definition field_valid (d : field_desc) : Prop := dimensions d <= 255 /\ type_valid (fd_type d).

Definition return_text (r : return_desc) : str :=
  match r with RVoid => lit "V" | RReturn d => field_text d end.
Definition return_valid (r : return_desc) : Prop :=
  match r with RVoid => True | RReturn d => field_valid d end.

Definition method_text (d : method_desc) : str :=
  lit "(" ++ concat (map field_text (parameters d)) ++ lit ")" ++ return_text (return_type d).
Definition method_valid (d : method_desc) : Prop :=
  Forall field_valid (parameters d) /\ return_valid (return_type d).

(** The grammars as sets of strings. *)
Definition field_descriptor (s : str) : Prop := exists d, field_valid d /\ s = field_text d.
Definition return_descriptor (s : str) : Prop := exists d, return_valid d /\ s = return_text d.
Definition method_descriptor (s : str) : Prop := exists d, method_valid d /\ s = method_text d.
Definition array_descriptor (s : str) : Prop :=
  exists d, field_valid d /\ 0 < dimensions d /\ s = field_text d.

(** [d] is what cafebabe takes from the descriptor string [s] of a field, a local
    variable, a record component or an annotation: [s] starts with the text of
    [d].  QUIRK: text after the descriptor is ignored. *)
Definition field_prefix (s : str) (d : field_desc) : Prop :=
  field_valid d /\ exists rest, s = field_text d ++ rest.
(** The same for the descriptor of a method; V must be the last character.
    QUIRK: text after any other return type is ignored. *)
Definition method_prefix (s : str) (d : method_desc) : Prop :=
  method_valid d /\ exists rest, s = method_text d ++ rest /\ (return_type d = RVoid -> rest = []).
