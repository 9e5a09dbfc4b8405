(** * What an iteration over the constant pool may show. *)
From Verif Require Import Base S_Lang S_Names S_Format S_Pool M_ConstantPool.

(** The iterator shows all constants but Utf8. *)
Definition shown (c : constant) : bool := match c with CUtf8 _ => false | _ => true end.
(** The positions in [cs] of the constants shown, in increasing order. *)
Definition shown_positions (cs : list constant) : list nat :=
  filter (fun k => match nth_error cs k with Some c => shown c | None => false end) (seq 0 (length cs)).

(** [c] is a NameAndType the descriptor of which is text that cannot be decoded. *)
Definition undecodable (dec : list byte -> option str) (cs : list constant) (c : constant) : Prop :=
  exists n d raw, c = CNameAndType n d /\ at_index (slots_of cs) d (CUtf8 raw) /\ dec raw = None.

(** JVMS 4.4.1: the text of a Class constant. *)
Definition class_text (s : str) : Prop := binary_name s \/ array_descriptor s.
Definition named_type (P : str -> Prop) (nt : name_and_type) : Prop :=
  unqualified (nt_name nt) /\ P (nt_descriptor nt).
(** JVMS 4.4.8: the kinds of members a method handle may refer to. *)
Definition handle_kind (major : N) (k : ref_kind) (m : member_kind) : Prop :=
  match k with
  | GetField | GetStatic | PutField | PutStatic => m = KField
  | InvokeVirtual | NewInvokeSpecial => m = KMethod
  | InvokeStatic | InvokeSpecial => m = KMethod \/ m = KInterfaceMethod /\ 52 <= major
  | InvokeInterface => m = KInterfaceMethod
  end.
Definition member_descriptor (m : member_kind) : str -> Prop :=
  match m with KField => field_descriptor | _ => method_descriptor end.
(** The strings of an item are what its kind requires. *)
Definition item_valid (major : N) (it : cp_item) : Prop :=
  match it with
  | ItLiteral _ => True
  | ItClassInfo s => class_text s
  | ItFieldRef m => class_text (mr_class_name m) /\ named_type field_descriptor (mr_name_and_type m)
  | ItMethodRef m | ItInterfaceMethodRef m =>
      class_text (mr_class_name m) /\ named_type method_descriptor (mr_name_and_type m)
  | ItNameAndType nt => unqualified (nt_name nt)
  | ItMethodHandle h => handle_kind major (mh_kind h) (mh_member_kind h) /\ class_text (mh_class_name h)
      /\ named_type (member_descriptor (mh_member_kind h)) (mh_member_ref h)
  | ItMethodType s => method_descriptor s
  | ItDynamic d => named_type field_descriptor (dyn_name_and_type d)
  | ItInvokeDynamic d => named_type method_descriptor (indy_name_and_type d)
  | ItModuleInfo s => module_name s
  | ItPackageInfo s => binary_name s
  end.
