(** * What an array of bytecode says beyond its instructions and their offsets (for C67). *)
From Verif Require Import Base M_Descriptors M_ConstantPool M_Bytecode S_Lang S_Names S_Format.

(** The bytes between the opcode of a switch at offset [o] and the next multiple of four (JVMS 6.5 tableswitch, lookupswitch). *)
Definition is_switch (op : opcode) : Prop :=
  match op with OpTableswitch _ | OpLookupswitch _ => True | _ => False end.
Definition padding (ops : list (N * opcode)) (i : N) : Prop :=
  exists o op, In (o, op) ops /\ is_switch op /\ o < i /\ i < 4 * ((o + 4) / 4).

(** The text of the class an instruction names. *)
Definition type_text (t : object_array_type) : str :=
  match t with OArrayType d => field_text d | OBinaryName n => n end.
(** The constant of a loadable operand, as an iteration over the constants shows it. *)
Definition loadable_item (l : loadable) : cp_item :=
  match l with
  | LdLiteral l => ItLiteral l
  | LdClassInfo s => ItClassInfo s
  | LdMethodHandle h => ItMethodHandle h
  | LdMethodType s => ItMethodType s
  | LdDynamic d => ItDynamic d
  end.
(** The constants an instruction may be about.  QUIRK: invokespecial and invokestatic do not say whether the method is
    one of a class or of an interface. *)
Definition operand_items (op : opcode) : list cp_item :=
  match op with
  | OpLdc l | OpLdcW l | OpLdc2W l => [loadable_item l]
  | OpGetstatic m | OpPutstatic m | OpGetfield m | OpPutfield m => [ItFieldRef m]
  | OpInvokevirtual m => [ItMethodRef m]
  | OpInvokespecial m | OpInvokestatic m => [ItMethodRef m; ItInterfaceMethodRef m]
  | OpInvokeinterface m _ => [ItInterfaceMethodRef m]
  | OpInvokedynamic d => [ItInvokeDynamic d]
  | OpNew s => [ItClassInfo s]
  | OpAnewarray t | OpCheckcast t | OpInstanceof t | OpMultianewarray t _ => [ItClassInfo (type_text t)]
  | _ => []
  end.
(** ldc has an index of one byte, all others have two. *)
Definition index_width (op : opcode) : nat := match op with OpLdc _ => 1 | _ => 2 end.

(** The instruction [op] at offset [o] of [code] has the index [n] of a constant for which an iteration shows [it]. *)
Definition about (dec : list byte -> option str) (sl : slots) (code : list byte) (o : N) (op : opcode) (n : N) (it : cp_item) : Prop :=
  (exists pre b w post, code = pre ++ (b :: w) ++ post /\ N.of_nat (length pre) = o /\ length w = index_width op /\ be w = n)
  /\ In it (operand_items op) /\ item_at dec sl n it.
(** Byte [i] is one of the index of the instruction at [o]. *)
Definition in_index (o : N) (op : opcode) (i : N) : Prop := o < i /\ i <= o + N.of_nat (index_width op).
