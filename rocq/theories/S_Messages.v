(** * What an error can say: the texts of the sources, and how the macros [fail!] and [err!] fill them.

    This file does not mention the parser. The two lists are the string literals
    of the calls of [fail!] and [err!] in src/lib.rs, constant_pool.rs,
    descriptors.rs, attributes.rs and bytecode.rs, in that order, without
    repetitions ([{:?}] is written [{}]); the three messages that do not take
    numbers are listed separately below. *)
From Verif Require Import Base.

(** [format!]: the text with its [{}] replaced by the arguments, in order. *)
Fixpoint format (t : str) (args : list str) : str :=
  match t with
  | 123 :: 125 :: t' => match args with [] => 123 :: 125 :: format t' [] | a :: args' => a ++ format t' args' end
  | c :: t' => c :: format t' args
  | [] => []
  end.
(** The number of [{}] *)
Fixpoint holes (t : str) : nat :=
  match t with
  | 123 :: 125 :: t' => S (holes t')
  | _ :: t' => holes t'
  | [] => O
  end.

(** A decimal number, perhaps negative *)
Definition digit (c : char) : Prop := 48 <= c <= 57.
Definition numeral (x : str) : Prop :=
  exists ds, ds <> [] /\ Forall digit ds /\ (x = ds \/ x = 45 :: ds).

(** One of the texts with a number in each of its holes *)
Definition filled (texts : list string) (x : str) : Prop :=
  exists t args, In t texts /\ length args = holes (lit t) /\ Forall numeral args /\ x = format (lit t) args.

(** ASCII characters that a terminal, a log file or a single-line field takes as they are *)
Definition printable (x : str) : Prop := Forall (fun c => 32 <= c <= 126) x.

(** First arguments of [fail!], and of [err!] without an error to wrap *)
Definition message_texts : list string := [
  "Unexpected end of stream reading u1 at index {}";
  "Unexpected end of stream reading u2 at index {}";
  "Unexpected end of stream reading u4 at index {}";
  "Unexpected end of stream reading u8 at index {}";
  "Invalid unqualified name for class field {}";
  "Class field {} is duplicate of previously-encountered field";
  "Invalid unqualified name for class method {}";
  "Non-void method descriptor for init method {}";
  "Non-void method descriptor for clinit method {}";
  "Arguments found in descriptor for clinit method {}";
  "Class method {} is duplicate of previously-encountered method";
  "Constant pool item contained invalid index into BootstrapMethods class attribute";
  "Found unexpected number of BootstrapMethods attributes in class; found {}, expected 1";
  "Unexpected magic header";
  "Found invalid MODULE class access flag on class file of major version {}";
  "Extra bytes found at index {} after reading class file";
  "Found {} interfaces; expected 0 for module";
  "Found {} fields; expected 0 for module";
  "Found {} methods; expected 0 for module";
  "Constant pool entry at index {} could not be resolved due to self-reference";
  "Constant pool entry at index {} references out-of-bounds index {}";
  "Unexpected constant pool reference type";
  "Attempting to get utf-8 data from non-utf8 constant pool entry!";
  "Invalid classinfo name";
  "Invalid binary name";
  "Invalid unqualified name";
  "Invalid module name";
  "Invalid field descriptor";
  "Invalid method descriptor";
  "Unexpected end of stream reading CONSTANT_Utf8 at index {}";
  "Unexpected reference kind {} when reading CONSTANT_methodhandle at index {}";
  "Unexpected constant pool entry type {} at index {} for classfile major version {}";
  "Out-of-bounds index {} in constant pool reference";
  "Unexpected non-loadable constant pool reference found";
  "Unexpected '/' at start of unqualified segment";
  "Unexpected ';' at start of unqualified segment";
  "Disallowed character in unqualified segment";
  "Disallowed ';' in class name";
  "Unterminated unqualified segment";
  "Dimensions in field descriptor exceeded allowed limit";
  "Unexpected field type";
  "Empty string is not a field descriptor";
  "Method descriptor must start with '('";
  "Not a field descriptor";
  "Unexpected length {}";
  "Unexpected end of stream reading code attribute at index {}";
  "Unrecognized verification type {}";
  "Unrecognized discriminant {}";
  "Invalid unqualified name for variable {}";
  "Invalid classinfo descriptor";
  "Unrecognized target type {}";
  "Unrecognized path kind {}";
  "Invalid access flags found";
  "Invalid module requires flags";
  "Invalid module exports flags";
  "Invalid module opens flags";
  "Invalid unqualified name for entry {}";
  "Unexpected end of stream reading attributes at index {}";
  "Length mismatch when reading attribute {}";
  "Invalid destination after applying jump";
  "Invalid opcode offset after applying jump";
  "Unable to convert offset to i32";
  "The low value must be less than or equal to the high value in tableswitch at index {}";
  "Unable to convert range to usize in tableswitch at index {}";
  "Number of pairs in lookupswitch must be non-negative at index {}";
  "Unable to convert number of pairs in lookupswitch to usize at index {}";
  "Nonzero byte found where zero byte expected in invokeinterface opcode at index {}";
  "Nonzero bytes found where zero bytes expected in invokedynamic opcode at index {}";
  "Unexpected array type for newarray opcode at index {}";
  "Unexpected opcode {} inside wide modifier at index {}";
  "Unexpected opcode {} at index {}"
]%string.

(** The texts that [err!] adds to an error, and the second texts of [fail!] and [err!] *)
Definition context_texts : list string := [
  "interface {}";
  "name of class field {}";
  "descriptor of class field {}";
  "class field {}";
  "name of class method {}";
  "descriptor of class method {}";
  "class method {}";
  "this_class";
  "super_class";
  "class";
  "constant pool entry {}";
  "catch type of exception table entry {}";
  "code attribute";
  "bytecode";
  "object verification type";
  "same_locals_1_stack_item_frame stack map entry {}";
  "stack map entry {}";
  "same_locals_1_stack_item_frame_extended stack map entry {}";
  "local entry {} of append stack map entry {}";
  "local entry {} of full-frame stack map entry {}";
  "stack entry {} of full-frame stack map entry {}";
  "exception {}";
  "inner class info for inner class {}";
  "outer class info for inner class {}";
  "inner name for inner class {}";
  "name for variable {}";
  "descriptor for variable {}";
  "signature for variable {}";
  "annotation element value enum descriptor";
  "array index {}";
  "type descriptor field";
  "name of element {}";
  "value of element {}";
  "annotation {}";
  "annotation {} of parameter {}";
  "type annotation {}";
  "path element {} of type annotation {}";
  "method ref of bootstrap method {}";
  "argument {} of bootstrap method {}";
  "name of method parameter {}";
  "method parameter {}";
  "name";
  "version";
  "name of requires entry {}";
  "entry {}";
  "version of requires entry {}";
  "package name of exports entry {}";
  "name of exports_to entry {} of exports entry {}";
  "package name of opens entry {}";
  "name of opens_to entry {} of opens entry {}";
  "name of uses entry {}";
  "service interface name of provides entry {}";
  "provides_with entry {} of provides entry {}";
  "package name {}";
  "class name {}";
  "permitted subclass {}";
  "name of entry {}";
  "descriptor of entry {}";
  "name field of attribute {}";
  "ConstantValue attribute {}";
  "value field of ConstantValue attribute {}";
  "Code attribute {}";
  "StackMapTable attribute {}";
  "Exceptions attribute {}";
  "InnerClasses attribute {}";
  "EnclosingMethod attribute {}";
  "class info of EnclosingMethod attribute {}";
  "method info of EnclosingMethod attribute {}";
  "Synthetic attribute {}";
  "Signature attribute {}";
  "signature field of Signature attribute {}";
  "SourceFile attribute {}";
  "signature field of SourceFile attribute {}";
  "modified utf8 data of SourceDebugExtension attribute {}";
  "LineNumberTable attribute {}";
  "LocalVariableTable attribute {}";
  "LocalVariableTypeTable attribute {}";
  "Deprecated attribute {}";
  "RuntimeVisibleAnnotations attribute {}";
  "RuntimeInvisibleAnnotations attribute {}";
  "RuntimeVisibleParameterAnnotations attribute {}";
  "RuntimeInvisibleParameterAnnotations attribute {}";
  "RuntimeVisibleTypeAnnotations attribute {}";
  "RuntimeInvisibleTypeAnnotations attribute {}";
  "AnnotationDefault attribute {}";
  "BootstrapMethods attribute {}";
  "MethodParameters attribute {}";
  "Module attribute {}";
  "ModulePackages attribute {}";
  "ModuleMainClass attribute {}";
  "NestHost attribute {}";
  "NestMembers attribute {}";
  "PermittedSubclasses attribute {}";
  "Record attribute {}";
  "default jump offset";
  "match offset {}";
  "range offset {}";
  "opcode at offset {}"
]%string.


(** lib.rs:395: the names of the flags, bitflags 1.x *)
Definition flag_names : list string :=
  ["PUBLIC"; "FINAL"; "SUPER"; "INTERFACE"; "ABSTRACT"; "SYNTHETIC"; "ANNOTATION"; "ENUM"; "MODULE"]%string.
(** Some of the names, in this order *)
Inductive some_of : list string -> list string -> Prop :=
| some_none : some_of [] []
| some_skip n ns l : some_of l ns -> some_of l (n :: ns)
| some_take n ns l : some_of l ns -> some_of (n :: l) (n :: ns).
(** [A | B | C] *)
Fixpoint with_bars (l : list string) : str :=
  match l with
  | [] => []
  | [n] => lit n
  | n :: l' => lit n ++ lit " | " ++ with_bars l'
  end.
Definition flags_message (x : str) : Prop :=
  exists l, some_of l flag_names /\
    x = format (lit "Found invalid class access flags {}; no other flags should be set with MODULE") [with_bars l].

(** The messages made of literals of the crate and numbers only *)
Definition own_message (x : str) : Prop := filled message_texts x \/ flags_message x.
(** attributes.rs:691: the tag of an [element_value], as a character *)
Definition tag_message (x : str) : Prop := exists c, c < 256 /\ x = format (lit "Unrecognized discriminant {}") [[c]].
(** lib.rs:426: the name of the superclass of a module *)
Definition super_message (x : str) : Prop := exists s, x = format (lit "Found non-empty super_class {}; expected none for module") [s].
