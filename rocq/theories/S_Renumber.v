(** * Vocabulary for C73: the same class over other constants. *)
From Verif Require Import Base S_Lang S_Names S_Format S_Pool.
From Verif Require M_Names M_Descriptors M_ConstantPool M_Bytecode M_Attributes M_Class.
Import M_Bytecode M_Attributes M_Class.
From Coq Require Import Permutation.

(** ** Constants that serve as well *)
(** Whatever an index of two bytes denotes in the pool [sl], some index of two bytes
    denotes in [sl'] — the same text, the same item (as shown by an iteration over the
    pool) — and what an index of one byte, as in the instruction ldc, can load, an
    index of one byte can load. *)
Record offers (dec : list byte -> option str) (sl sl' : slots) : Prop := mk_offers {
  offers_text : forall i s, i < 65536 -> utf8_at dec sl i s ->
    exists i', i' < 65536 /\ utf8_at dec sl' i' s;
  offers_item : forall i it, i < 65536 -> item_at dec sl i it ->
    exists i', i' < 65536 /\ item_at dec sl' i' it;
  offers_short : forall i l, i < 256 -> loadable_at dec sl i l ->
    exists i', i' < 256 /\ loadable_at dec sl' i' l }.

(** ** Renumbered constants *)
(** The constant with the indices in it replaced. *)
Definition renumber (new : N -> N) (c : constant) : constant :=
  match c with
  | CUtf8 _ | CInteger _ | CFloat _ | CLong _ | CDouble _ => c
  | CClass n => CClass (new n)
  | CString t => CString (new t)
  | CFieldref c nt => CFieldref (new c) (new nt)
  | CMethodref c nt => CMethodref (new c) (new nt)
  | CInterfaceMethodref c nt => CInterfaceMethodref (new c) (new nt)
  | CNameAndType n d => CNameAndType (new n) (new d)
  | CMethodHandle k m => CMethodHandle k (new m)
  | CMethodType d => CMethodType (new d)
  | CDynamic b nt => CDynamic b (new nt)
  | CInvokeDynamic b nt => CInvokeDynamic b (new nt)
  | CModule n => CModule (new n)
  | CPackage n => CPackage (new n)
  end.
(** What ldc loads. *)
Definition short_loadable (c : constant) : Prop :=
  match c with
  | CInteger _ | CFloat _ | CLong _ | CDouble _ | CString _ | CClass _ | CMethodHandle _ _ | CMethodType _ | CDynamic _ _ => True
  | _ => False
  end.
(** The pool [cs'] consists of the constants [cs], renumbered: the one with index [i]
    has got the index [new i], also where constants refer to each other.  Several
    constants may have got the same index, if they are then the same, and a constant
    may be there more than once. *)
Record renumbered (new : N -> N) (cs cs' : list constant) : Prop := mk_renumbered {
  moved : forall i c, at_index (slots_of cs) i c -> at_index (slots_of cs') (new i) (renumber new c);
  nothing_else : forall c', In c' cs' -> exists c, In c cs /\ c' = renumber new c;
  two_byte : forall i, i < 65536 -> new i < 65536;
  one_byte : forall i c, at_index (slots_of cs) i c -> short_loadable c -> i < 256 -> new i < 256 }.
(** They are the same constants in another order. *)
Definition reordered (new : N -> N) (cs cs' : list constant) : Prop :=
  renumbered new cs cs' /\ Permutation (map (renumber new) cs) cs'.

(** ** Attributes that differ in the bytes of code only *)
(** Code has the same decoded instructions at the same offsets and as many bytes; if
    the instructions were not asked for, it has the same bytes. *)
Inductive recoded : attr_info -> attr_info -> Prop :=
| re_same a : recoded a a
| re_code name s l code code' bc ex attrs attrs' :
    length code' = length code -> (bc = None -> code' = code) -> Forall2 recoded attrs attrs' ->
    recoded (mk_attr name (ACode (mk_code s l code bc ex attrs))) (mk_attr name (ACode (mk_code s l code' bc ex attrs')))
| re_record name rs rs' :
    Forall2 (fun r r' => rc_name r' = rc_name r /\ rc_descriptor r' = rc_descriptor r
                         /\ Forall2 recoded (rc_attributes r) (rc_attributes r')) rs rs' ->
    recoded (mk_attr name (ARecord rs)) (mk_attr name (ARecord rs')).

Definition recoded_field (f f' : field_info) : Prop :=
  f_access_flags f' = f_access_flags f /\ f_name f' = f_name f /\ f_descriptor f' = f_descriptor f
  /\ Forall2 recoded (f_attributes f) (f_attributes f').
Definition recoded_method (m m' : method_info) : Prop :=
  m_access_flags m' = m_access_flags m /\ m_name m' = m_name m /\ m_descriptor m' = m_descriptor m
  /\ Forall2 recoded (m_attributes m) (m_attributes m').
(** The same class, but for its constant pool and the bytes of its code. *)
Record same_but_pool (c c' : class_file) : Prop := mk_same {
  same_major : major_version c' = major_version c;
  same_minor : minor_version c' = minor_version c;
  same_flags : access_flags c' = access_flags c;
  same_this : this_class c' = this_class c;
  same_super : super_class c' = super_class c;
  same_interfaces : interfaces c' = interfaces c;
  same_fields : Forall2 recoded_field (fields c) (fields c');
  same_methods : Forall2 recoded_method (methods c) (methods c');
  same_attributes : Forall2 recoded (class_attributes c) (class_attributes c') }.
