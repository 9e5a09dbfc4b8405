(** * Files with one more attribute.

    How the bytes of a class file change when an attribute with an unknown name is inserted into one of its
    attribute lists, at any depth: the number of attributes of that list grows by one, the new attribute
    stands between two of the old ones, and the lengths of the attributes around it are adapted.  Only
    the framing of attributes is used here (JVMS 4.7, 4.7.3, 4.7.30). *)
From Verif Require Import Base S_Lang S_Format M_Attributes M_Class.

(** The extent of an attribute: name index, length, that many bytes. *)
Definition attribute_extent : lang := fun w => exists nw lw body,
  w = nw ++ lw ++ body /\ length nw = 2%nat /\ u4 (N.of_nat (length body)) lw.
(** The extent of an attribute list: a number, and that many attributes. *)
Definition list_extent : lang := fun w => exists cw ws,
  w = cw ++ concat ws /\ u2 (N.of_nat (length ws)) cw /\ Forall attribute_extent ws.
(** The extent of a component of a Record attribute: name, descriptor, attribute list. *)
Definition component_extent : lang := fun w => exists nd t, w = nd ++ t /\ length nd = 4%nat /\ list_extent t.
(** What precedes the attribute list in the body of a Code attribute: maximum stack and locals, code,
    exception table. *)
Definition code_head : lang := fun w => exists ml lw code nw ex,
  w = ml ++ lw ++ code ++ nw ++ ex /\ length ml = 4%nat /\ u4 (N.of_nat (length code)) lw
  /\ exists n, u2 n nw /\ N.of_nat (length ex) = 8 * n.

Section Grow.
Variable dec : list byte -> option str.
Variable sl : slots.

(** [grows l w l' w']: the list [l], written as [w], becomes [l'], written as [w'], by the insertion of one
    attribute [name] with contents [payload]. *)
Inductive grows (name : str) (payload : list byte) : list attr_info -> list byte -> list attr_info -> list byte -> Prop :=
| grow_here l1 l2 ws1 ws2 cw cw' i nw lw :
    length ws1 = length l1 -> length ws2 = length l2 -> Forall attribute_extent ws1 -> Forall attribute_extent ws2 ->
    u2 (N.of_nat (length (l1 ++ l2))) cw -> u2 (N.of_nat (length (l1 ++ l2)) + 1) cw' ->
    u2 i nw -> utf8_at dec sl i name -> ~ In name (map lit predefined) ->
    u4 (N.of_nat (length payload)) lw ->
    grows name payload (l1 ++ l2) (cw ++ concat ws1 ++ concat ws2)
      (l1 ++ mk_attr name (AOther payload) :: l2) (cw' ++ concat ws1 ++ (nw ++ lw ++ payload) ++ concat ws2)
| grow_code l1 l2 ws1 ws2 cw n s m code bc ex l l' nw lw lw' head t t' :
    length ws1 = length l1 -> length ws2 = length l2 -> Forall attribute_extent ws1 -> Forall attribute_extent ws2 ->
    u2 (N.of_nat (length l1 + 1 + length l2)) cw -> length nw = 2%nat ->
    u4 (N.of_nat (length (head ++ t))) lw -> u4 (N.of_nat (length (head ++ t'))) lw' ->
    code_head head -> grows name payload l t l' t' ->
    grows name payload
      (l1 ++ mk_attr n (ACode (mk_code s m code bc ex l)) :: l2)
      (cw ++ concat ws1 ++ (nw ++ lw ++ head ++ t) ++ concat ws2)
      (l1 ++ mk_attr n (ACode (mk_code s m code bc ex l')) :: l2)
      (cw ++ concat ws1 ++ (nw ++ lw' ++ head ++ t') ++ concat ws2)
| grow_record l1 l2 ws1 ws2 cw n r1 r2 rs1 rs2 rn rd l l' nw lw lw' kw nd t t' :
    length ws1 = length l1 -> length ws2 = length l2 -> Forall attribute_extent ws1 -> Forall attribute_extent ws2 ->
    u2 (N.of_nat (length l1 + 1 + length l2)) cw -> length nw = 2%nat -> length kw = 2%nat -> length nd = 4%nat ->
    length rs1 = length r1 -> length rs2 = length r2 -> Forall component_extent rs1 -> Forall component_extent rs2 ->
    u4 (N.of_nat (length (kw ++ concat rs1 ++ (nd ++ t) ++ concat rs2))) lw ->
    u4 (N.of_nat (length (kw ++ concat rs1 ++ (nd ++ t') ++ concat rs2))) lw' ->
    grows name payload l t l' t' ->
    grows name payload
      (l1 ++ mk_attr n (ARecord (r1 ++ mk_rc rn rd l :: r2)) :: l2)
      (cw ++ concat ws1 ++ (nw ++ lw ++ kw ++ concat rs1 ++ (nd ++ t) ++ concat rs2) ++ concat ws2)
      (l1 ++ mk_attr n (ARecord (r1 ++ mk_rc rn rd l' :: r2)) :: l2)
      (cw ++ concat ws1 ++ (nw ++ lw' ++ kw ++ concat rs1 ++ (nd ++ t') ++ concat rs2) ++ concat ws2).

(** The same without the bytes: [l'] is [l] with an attribute inserted somewhere, at any depth, into a list
    that is not yet of the maximal length. *)
Inductive adds (name : str) (payload : list byte) : list attr_info -> list attr_info -> Prop :=
| add_here l1 l2 : N.of_nat (length (l1 ++ l2)) < 65535 ->
    adds name payload (l1 ++ l2) (l1 ++ mk_attr name (AOther payload) :: l2)
| add_code l1 l2 n s m code bc ex l l' : adds name payload l l' ->
    adds name payload (l1 ++ mk_attr n (ACode (mk_code s m code bc ex l)) :: l2)
      (l1 ++ mk_attr n (ACode (mk_code s m code bc ex l')) :: l2)
| add_record l1 l2 n r1 r2 rn rd l l' : adds name payload l l' ->
    adds name payload (l1 ++ mk_attr n (ARecord (r1 ++ mk_rc rn rd l :: r2)) :: l2)
      (l1 ++ mk_attr n (ARecord (r1 ++ mk_rc rn rd l' :: r2)) :: l2).
End Grow.

(** Replacing the attribute lists of a class. *)
Definition with_class_attributes (c : class_file) (l : list attr_info) : class_file :=
  mk_class (major_version c) (minor_version c) (constant_pool c) (access_flags c) (this_class c) (super_class c)
    (interfaces c) (fields c) (methods c) l.
Definition with_fields (c : class_file) (l : list field_info) : class_file :=
  mk_class (major_version c) (minor_version c) (constant_pool c) (access_flags c) (this_class c) (super_class c)
    (interfaces c) l (methods c) (class_attributes c).
Definition with_methods (c : class_file) (l : list method_info) : class_file :=
  mk_class (major_version c) (minor_version c) (constant_pool c) (access_flags c) (this_class c) (super_class c)
    (interfaces c) (fields c) l (class_attributes c).
Definition with_field_attributes (f : field_info) (l : list attr_info) : field_info :=
  mk_field (f_access_flags f) (f_name f) (f_descriptor f) l.
Definition with_method_attributes (m : method_info) (l : list attr_info) : method_info :=
  mk_method (m_access_flags m) (m_name m) (m_descriptor m) l.
