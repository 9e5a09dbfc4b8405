(** * Vocabulary for statements about what attributes contain: kinds by name, rows of tables, annotation values,
    targets of type annotations (C48 C49 C50 C51).  Everything is said with bytes; [w2 a b] is the number written as
    the two bytes [a], [b]. *)
From Verif Require Import Base M_Names S_Lang S_Names S_Format M_Descriptors M_ConstantPool M_Bytecode M_Attributes.

Definition w2 (a b : byte) : N := Byte.to_N a * 256 + Byte.to_N b.

(** The attributes the library knows (JVMS table 4.7-A), and what it must make of each. *)
Definition kinds : list (string * (attr_data -> bool)) :=
  [("ConstantValue", fun a => match a with AConstantValue _ => true | _ => false end);
   ("Code", fun a => match a with ACode _ => true | _ => false end);
   ("StackMapTable", fun a => match a with AStackMapTable _ => true | _ => false end);
   ("Exceptions", fun a => match a with AExceptions _ => true | _ => false end);
   ("InnerClasses", fun a => match a with AInnerClasses _ => true | _ => false end);
   ("EnclosingMethod", fun a => match a with AEnclosingMethod _ _ => true | _ => false end);
   ("Synthetic", fun a => match a with ASynthetic => true | _ => false end);
   ("Signature", fun a => match a with ASignature _ => true | _ => false end);
   ("SourceFile", fun a => match a with ASourceFile _ => true | _ => false end);
   ("SourceDebugExtension", fun a => match a with ASourceDebugExtension _ => true | _ => false end);
   ("LineNumberTable", fun a => match a with ALineNumberTable _ => true | _ => false end);
   ("LocalVariableTable", fun a => match a with ALocalVariableTable _ => true | _ => false end);
   ("LocalVariableTypeTable", fun a => match a with ALocalVariableTypeTable _ => true | _ => false end);
   ("Deprecated", fun a => match a with ADeprecated => true | _ => false end);
   ("RuntimeVisibleAnnotations", fun a => match a with ARuntimeVisibleAnnotations _ => true | _ => false end);
   ("RuntimeInvisibleAnnotations", fun a => match a with ARuntimeInvisibleAnnotations _ => true | _ => false end);
   ("RuntimeVisibleParameterAnnotations", fun a => match a with ARuntimeVisibleParameterAnnotations _ => true | _ => false end);
   ("RuntimeInvisibleParameterAnnotations", fun a => match a with ARuntimeInvisibleParameterAnnotations _ => true | _ => false end);
   ("RuntimeVisibleTypeAnnotations", fun a => match a with ARuntimeVisibleTypeAnnotations _ => true | _ => false end);
   ("RuntimeInvisibleTypeAnnotations", fun a => match a with ARuntimeInvisibleTypeAnnotations _ => true | _ => false end);
   ("AnnotationDefault", fun a => match a with AAnnotationDefault _ => true | _ => false end);
   ("BootstrapMethods", fun a => match a with ABootstrapMethods _ => true | _ => false end);
   ("MethodParameters", fun a => match a with AMethodParameters _ => true | _ => false end);
   ("Module", fun a => match a with AModule _ => true | _ => false end);
   ("ModulePackages", fun a => match a with AModulePackages _ => true | _ => false end);
   ("ModuleMainClass", fun a => match a with AModuleMainClass _ => true | _ => false end);
   ("NestHost", fun a => match a with ANestHost _ => true | _ => false end);
   ("NestMembers", fun a => match a with ANestMembers _ => true | _ => false end);
   ("PermittedSubclasses", fun a => match a with APermittedSubclasses _ => true | _ => false end);
   ("Record", fun a => match a with ARecord _ => true | _ => false end)]%string.

Section Rows.
Variable dec : list byte -> option str.
Variable sl : slots.

(** Index 0 stands for absence. *)
Definition perhaps {A} (at_ : N -> A -> Prop) (i : N) (o : option A) : Prop :=
  match o with None => i = 0 | Some s => i <> 0 /\ at_ i s end.
(** The descriptor is a prefix of the Utf8 constant (see C16). *)
Definition described_at (i : N) (d : field_desc) : Prop := exists s tail, utf8_at dec sl i s /\ s = field_text d ++ tail.

(** The rows of the tables. *)
Definition index_row {A} (at_ : N -> A -> Prop) (s : A) (w : list byte) : Prop := exists a b, w = [a; b] /\ at_ (w2 a b) s.
Definition line_row (e : line_number_entry) (w : list byte) : Prop :=
  exists a b c d, w = [a; b; c; d] /\ ln_start_pc e = w2 a b /\ ln_line_number e = w2 c d.
Definition variable_row (e : local_variable_entry) (w : list byte) : Prop :=
  exists a b c d n1 n2 t1 t2 i j, w = [a; b; c; d; n1; n2; t1; t2; i; j]
    /\ lv_start_pc e = w2 a b /\ lv_length e = w2 c d /\ utf8_at dec sl (w2 n1 n2) (lv_name e)
    /\ described_at (w2 t1 t2) (lv_descriptor e) /\ lv_index e = w2 i j.
Definition variable_type_row (e : local_variable_type_entry) (w : list byte) : Prop :=
  exists a b c d n1 n2 t1 t2 i j, w = [a; b; c; d; n1; n2; t1; t2; i; j]
    /\ lvt_start_pc e = w2 a b /\ lvt_length e = w2 c d /\ utf8_at dec sl (w2 n1 n2) (lvt_name e)
    /\ utf8_at dec sl (w2 t1 t2) (lvt_signature e) /\ lvt_index e = w2 i j.
Definition exception_row (e : exception_entry) (w : list byte) : Prop :=
  exists a b c d h1 h2 t1 t2, w = [a; b; c; d; h1; h2; t1; t2]
    /\ ex_start_pc e = w2 a b /\ ex_end_pc e = w2 c d /\ ex_handler_pc e = w2 h1 h2
    /\ perhaps (class_at dec sl) (w2 t1 t2) (ex_catch_type e).
Definition inner_row (e : inner_class_entry) (w : list byte) : Prop :=
  exists a b c d n1 n2 f1 f2, w = [a; b; c; d; n1; n2; f1; f2]
    /\ class_at dec sl (w2 a b) (ic_inner_class_info e) /\ perhaps (class_at dec sl) (w2 c d) (ic_outer_class_info e)
    /\ perhaps (utf8_at dec sl) (w2 n1 n2) (ic_inner_name e)
    /\ ic_access_flags e = N.land (w2 f1 f2) 0x761f (* the bits of JVMS table 4.7.6-A *).
Definition parameter_row (e : method_parameter) (w : list byte) : Prop :=
  exists a b f1 f2, w = [a; b; f1; f2] /\ perhaps (utf8_at dec sl) (w2 a b) (mp_name e) /\ mp_access_flags e = w2 f1 f2.
Definition bootstrap_row (e : bootstrap_method) (w : list byte) : Prop :=
  exists a b c d ws, w = a :: b :: c :: d :: concat ws /\ method_handle_at dec sl (w2 a b) (bm_method e)
    /\ w2 c d = N.of_nat (length (bm_arguments e)) /\ Forall2 (index_row (bootstrap_arg_at dec sl)) (bm_arguments e) ws.

(** The contents [ws] of an attribute that is a table of rows of the kinds above. *)
Definition rows (a : attr_data) (ws : list (list byte)) : Prop :=
  match a with
  | ALineNumberTable l => Forall2 line_row l ws
  | ALocalVariableTable l => Forall2 variable_row l ws
  | ALocalVariableTypeTable l => Forall2 variable_type_row l ws
  | AExceptions l | ANestMembers l | APermittedSubclasses l => Forall2 (index_row (class_at dec sl)) l ws
  | AModulePackages l => Forall2 (index_row (package_at dec sl)) l ws
  | AInnerClasses l => Forall2 inner_row l ws
  | AMethodParameters l => Forall2 parameter_row l ws
  | ABootstrapMethods l => Forall2 bootstrap_row l ws
  | _ => False
  end.
Definition is_table (a : attr_data) : bool :=
  match a with
  | ALineNumberTable _ | ALocalVariableTable _ | ALocalVariableTypeTable _ | AExceptions _ | ANestMembers _ | APermittedSubclasses _
  | AModulePackages _ | AInnerClasses _ | AMethodParameters _ | ABootstrapMethods _ => true
  | _ => false
  end.
(** The number of rows has two bytes, that of MethodParameters one. *)
Definition count_bytes (a : attr_data) : nat := match a with AMethodParameters _ => 1 | _ => 2 end.

(** ** Annotations *)
(** The type annotations of an attribute, and its annotations. *)
Definition type_annotations (a : attr_data) : list type_annotation :=
  match a with ARuntimeVisibleTypeAnnotations l | ARuntimeInvisibleTypeAnnotations l => l | _ => [] end.
Definition annotations (a : attr_data) : list annotation :=
  match a with
  | ARuntimeVisibleAnnotations l | ARuntimeInvisibleAnnotations l => l
  | ARuntimeVisibleParameterAnnotations l | ARuntimeInvisibleParameterAnnotations l => concat l
  | _ => map ta_annotation (type_annotations a)
  end.
(** The values of an attribute, at any depth. *)
Inductive value_in (a : attr_data) : element_value -> Prop :=
| value_default v : a = AAnnotationDefault v -> value_in a v
| value_top x n v : In x (annotations a) -> In (n, v) (ann_elements x) -> value_in a v
| value_array vs v : value_in a (EvArray vs) -> In v vs -> value_in a v
| value_nested x n v : value_in a (EvAnnotation x) -> In (n, v) (ann_elements x) -> value_in a v.

(** JVMS table 4.7.16.1-A: the tag of a value and the constant its index refers to. *)
Definition value_row (v : element_value) (w : list byte) : Prop :=
  let const (tag : string) c := exists t a b, w = [t; a; b] /\ Byte.to_N t = ch tag /\ at_index sl (w2 a b) c in
  match v with
  | EvByte z => const "B"%string (CInteger z)
  | EvChar z => const "C"%string (CInteger z)
  | EvDouble d => const "D"%string (CDouble d)
  | EvFloat d => const "F"%string (CFloat d)
  | EvInt z => const "I"%string (CInteger z)
  | EvLong z => const "J"%string (CLong z)
  | EvShort z => const "S"%string (CInteger z)
  | EvBoolean z => const "Z"%string (CInteger z)
  | EvString s => exists t a b, w = [t; a; b] /\ Byte.to_N t = ch "s" /\ utf8_at dec sl (w2 a b) s
  | EvClass s => exists t a b, w = [t; a; b] /\ Byte.to_N t = ch "c" /\ utf8_at dec sl (w2 a b) s /\ return_descriptor s
  | EvEnum d s => exists t a b c e, w = [t; a; b; c; e] /\ Byte.to_N t = ch "e" /\ described_at (w2 a b) d /\ utf8_at dec sl (w2 c e) s
  | EvAnnotation x => exists t a b c e rest, w = t :: a :: b :: c :: e :: rest /\ Byte.to_N t = ch "@"
      /\ described_at (w2 a b) (ann_type x) /\ w2 c e = N.of_nat (length (ann_elements x))
  | EvArray vs => exists t a b rest, w = t :: a :: b :: rest /\ Byte.to_N t = ch "[" /\ w2 a b = N.of_nat (length vs)
  end.

(** JVMS tables 4.7.20-A and 4.7.20-B: the first byte of a type annotation and what follows it. *)
Definition target_row (t : type_annotation_target) (w : list byte) : Prop :=
  exists k w', w = k :: w' /\
  let k := Byte.to_N k in
  match t with
  | TgTypeParameter i => (k = 0 \/ k = 1) /\ exists a, w' = [a] /\ i = Byte.to_N a
  | TgSupertype i => k = 0x10 /\ exists a b, w' = [a; b] /\ i = w2 a b
  | TgTypeParameterBound i j => (k = 0x11 \/ k = 0x12) /\ exists a b, w' = [a; b] /\ i = Byte.to_N a /\ j = Byte.to_N b
  | TgEmpty => (k = 0x13 \/ k = 0x14 \/ k = 0x15) /\ w' = []
  | TgFormalParameter i => k = 0x16 /\ exists a, w' = [a] /\ i = Byte.to_N a
  | TgThrows i => k = 0x17 /\ exists a b, w' = [a; b] /\ i = w2 a b
  | TgLocalVar l => (k = 0x40 \/ k = 0x41) /\ exists a b ws, w' = a :: b :: concat ws /\ w2 a b = N.of_nat (length l)
      /\ Forall2 (fun e u => exists a b c d i j, u = [a; b; c; d; i; j] /\ lt_start_pc e = w2 a b /\ lt_length e = w2 c d /\ lt_index e = w2 i j) l ws
  | TgCatch i => k = 0x42 /\ exists a b, w' = [a; b] /\ i = w2 a b
  | TgOffset i => (k = 0x43 \/ k = 0x44 \/ k = 0x45 \/ k = 0x46) /\ exists a b, w' = [a; b] /\ i = w2 a b
  | TgTypeArgument i j => (k = 0x47 \/ k = 0x48 \/ k = 0x49 \/ k = 0x4a \/ k = 0x4b) /\ exists a b c, w' = [a; b; c] /\ i = w2 a b /\ j = Byte.to_N c
  end.
Definition path_row (e : path_entry) (w : list byte) : Prop :=
  exists a b, w = [a; b] /\ pe_argument_index e = Byte.to_N b
    /\ Byte.to_N a = match pe_kind e with PkDeeperArray => 0 | PkDeeperNested => 1 | PkWildcardTypeArgument => 2 | PkTypeArgument => 3 end.
Definition type_annotation_row (t : type_annotation) (w : list byte) : Prop :=
  exists tw n ws a b rest, w = tw ++ n :: concat ws ++ a :: b :: rest /\ target_row (ta_target_type t) tw
    /\ Byte.to_N n = N.of_nat (length (ta_target_path t)) /\ Forall2 path_row (ta_target_path t) ws
    /\ described_at (w2 a b) (ann_type (ta_annotation t)).
End Rows.
