(** * Where a file departs from the class-file format, and what an error message should say about it. *)
From Verif Require Import Base M_Descriptors M_Attributes M_Class S_Lang S_Names S_Format.

Definition starts_with (L : lang) (w : list byte) : Prop := exists u v, w = u ++ v /\ L u.
Definition ends_with (text t : str) : Prop := exists before, text = before ++ t.

(** The places of a class file, in file order. *)
Inductive owner := OfField (i : N) | OfMethod (i : N) | OfClass.
Inductive place :=
| AtMagic | AtVersions
| AtPoolCount | AtConstant (i : N)   (* the constant that would have index [i] *)
| AtConstants                        (* the constants as a whole: what they refer to *)
| AtFlags | AtThisClass | AtSuperClass
| AtInterfaceCount | AtInterface (i : N)
| AtFieldCount | AtMethodCount
| AtHead (o : owner)                (* access flags, name and descriptor of a member *)
| AtAttributeCount (o : owner)
| AtAttribute (o : owner) (j : N)
| AtEnd                             (* bytes after the last attribute *)
| AtRules.                          (* module and bootstrap rules, which concern the file as a whole *)

Section Faults.
Variable dec : list byte -> option str.
Variable wraps want_bytecode : bool.
Variable d : nat.

(** What precedes a place, if it is as the format demands; written from left to right. *)
Definition magic : lang := u4 0xCAFEBABE.
Definition opening (minor major : N) (cs : list constant) : lang :=
  (magic +++ u2 minor +++ u2 major) +++ pool_lang dec wraps major cs.
(** The constants [cs] have the indices from [i] on, and index [j] is yet to be filled. *)
Fixpoint due (count i : N) (cs : list constant) (j : N) : Prop :=
  match cs with
  | [] => j = i /\ i < count
  | c :: cs' => i < count /\ (if i + width c <? 65536 then due count (i + width c) cs' j else wraps = true /\ due count (i + width c - 65536) cs' j)
  end.
(** A constant of index [i]; indices have 16 bits. *)
Definition constant_at (major i : N) (c : constant) : lang := fun w =>
  constant_lang major c w /\ (i + width c < 65536 \/ wraps = true).
(** JVMS 4.1: ACC_MODULE is from version 53 on and alone. *)
Definition class_flags_lang (major flags : N) : lang := fun w =>
  flags_keep class_bits flags w
  /\ (N.testbit flags ACC_MODULE_bit = true -> 53 <= major /\ flags = 0x8000).
Definition class_ref (cs : list constant) : str -> lang := ref (that (class_at dec (slots_of cs)) class_name).
Definition class_opt_ref (cs : list constant) : option str -> lang := opt_ref (that (class_at dec (slots_of cs)) class_name).
Definition attribute_lang (cs : list constant) : attr_info -> lang :=
  attribute_with dec (slots_of cs) wraps want_bytecode (attributes_lang dec (slots_of cs) wraps want_bytecode (Nat.pred d)) (Nat.pred d).

(** The flags, name and descriptor of a field, other than those of the fields [fs]; of a method. *)
Definition field_head (cs : list constant) (fs : list field_info) (f : N * str * field_desc) : lang := fun w =>
  let '(flags, name, descriptor) := f in
  (flags_keep field_bits flags +++ ref (that (utf8_at dec (slots_of cs)) unqualified) name
   +++ ref (field_desc_at dec (slots_of cs)) descriptor) w
  /\ ~ In (name, descriptor) (map (fun f => (f_name f, f_descriptor f)) fs).
Definition method_head (cs : list constant) (major : N) (in_interface : bool) (ms : list method_info) (m : N * str * method_desc) : lang := fun w =>
  let '(flags, name, descriptor) := m in
  (flags_keep method_bits flags +++ ref (that (utf8_at dec (slots_of cs)) (method_name in_interface)) name
   +++ ref (method_desc_at dec (slots_of cs)) descriptor) w
  /\ ~ In (name, descriptor) (map (fun m => (m_name m, m_descriptor m)) ms)
  /\ method_rules major (mk_method flags name descriptor []).

Definition some_fields (cs : list constant) (fs : list field_info) : lang := fun w =>
  many (field_lang dec (slots_of cs) wraps want_bytecode d) fs w
  /\ NoDup (map (fun f => (f_name f, f_descriptor f)) fs).
Definition some_methods (cs : list constant) (major : N) (in_interface : bool) (ms : list method_info) : lang := fun w =>
  many (method_lang dec (slots_of cs) wraps want_bytecode d in_interface) ms w
  /\ NoDup (map (fun m => (m_name m, m_descriptor m)) ms) /\ Forall (method_rules major) ms.

Definition count_of_list {A} (l : list A) : N := N.of_nat (length l).

(** Up to the access flags; up to the super class; up to and including the interfaces, the fields, the methods, the attributes. *)
Definition to_flags minor major cs flags : lang := opening minor major cs +++ class_flags_lang major flags.
Definition to_super minor major cs flags this super : lang :=
  (to_flags minor major cs flags +++ class_ref cs this) +++ class_opt_ref cs super.
Definition to_interfaces minor major cs flags this super ifs : lang :=
  to_super minor major cs flags this super +++ u2 (count_of_list ifs) +++ many (class_ref cs) ifs.
Definition to_fields minor major cs flags this super ifs fs : lang :=
  to_interfaces minor major cs flags this super ifs +++ u2 (count_of_list fs) +++ some_fields cs fs.
Definition to_methods minor major cs flags this super ifs fs ms : lang :=
  to_fields minor major cs flags this super ifs fs +++ u2 (count_of_list ms) +++ some_methods cs major (N.testbit flags ACC_INTERFACE_bit) ms.

(** [owner_at cs o w]: [w] is everything before the attributes of [o]. *)
Inductive owner_at (cs : list constant) : owner -> lang :=
| owner_field minor major flags this super ifs n fs head i : i = count_of_list fs -> i < n -> forall w,
    (to_interfaces minor major cs flags this super ifs +++ u2 n +++ some_fields cs fs +++ field_head cs fs head) w -> owner_at cs (OfField i) w
| owner_method minor major flags this super ifs fs n ms head i : i = count_of_list ms -> i < n -> forall w,
    (to_fields minor major cs flags this super ifs fs +++ u2 n +++ some_methods cs major (N.testbit flags ACC_INTERFACE_bit) ms
     +++ method_head cs major (N.testbit flags ACC_INTERFACE_bit) ms head) w -> owner_at cs (OfMethod i) w
| owner_class minor major flags this super ifs fs ms : forall w,
    to_methods minor major cs flags this super ifs fs ms w -> owner_at cs OfClass w.

(** [fault p w rest]: in the file [w ++ rest], [w] is as the format demands, and [rest] does not go on, at place [p], as the format demands. *)
Inductive fault : place -> list byte -> list byte -> Prop :=
| fault_magic rest : ~ starts_with magic rest -> fault AtMagic [] rest
| fault_versions w rest : magic w -> ~ (exists minor major, starts_with (u2 minor +++ u2 major) rest) -> fault AtVersions w rest
| fault_pool_count minor major w rest : (magic +++ u2 minor +++ u2 major) w -> ~ (exists n, starts_with (u2 n) rest) -> fault AtPoolCount w rest
| fault_constant minor major n cs i w rest : ((magic +++ u2 minor +++ u2 major) +++ u2 n +++ many (constant_lang major) cs) w ->
    due n 1 cs i -> ~ (exists c, starts_with (constant_at major i c) rest) -> fault (AtConstant i) w rest
| fault_constants minor major n cs w rest : ((magic +++ u2 minor +++ u2 major) +++ u2 n +++ many (constant_lang major) cs) w ->
    fills wraps n 1 cs -> ~ Forall (valid_constant dec (slots_of cs) major) cs -> fault AtConstants w rest
| fault_flags minor major cs w rest : opening minor major cs w -> ~ (exists flags, starts_with (class_flags_lang major flags) rest) -> fault AtFlags w rest
| fault_this minor major cs flags w rest : to_flags minor major cs flags w -> ~ (exists this, starts_with (class_ref cs this) rest) -> fault AtThisClass w rest
| fault_super minor major cs flags this w rest : (to_flags minor major cs flags +++ class_ref cs this) w ->
    ~ (exists super, starts_with (class_opt_ref cs super) rest) -> fault AtSuperClass w rest
| fault_interface_count minor major cs flags this super w rest : to_super minor major cs flags this super w ->
    ~ (exists n, starts_with (u2 n) rest) -> fault AtInterfaceCount w rest
| fault_interface minor major cs flags this super n ifs i w rest : (to_super minor major cs flags this super +++ u2 n +++ many (class_ref cs) ifs) w ->
    i = count_of_list ifs -> i < n -> ~ (exists name, starts_with (class_ref cs name) rest) -> fault (AtInterface i) w rest
| fault_field_count minor major cs flags this super ifs w rest : to_interfaces minor major cs flags this super ifs w ->
    ~ (exists n, starts_with (u2 n) rest) -> fault AtFieldCount w rest
| fault_field minor major cs flags this super ifs n fs i w rest : (to_interfaces minor major cs flags this super ifs +++ u2 n +++ some_fields cs fs) w ->
    i = count_of_list fs -> i < n -> ~ (exists head, starts_with (field_head cs fs head) rest) -> fault (AtHead (OfField i)) w rest
| fault_method_count minor major cs flags this super ifs fs w rest : to_fields minor major cs flags this super ifs fs w ->
    ~ (exists n, starts_with (u2 n) rest) -> fault AtMethodCount w rest
| fault_method minor major cs flags this super ifs fs n ms i w rest :
    (to_fields minor major cs flags this super ifs fs +++ u2 n +++ some_methods cs major (N.testbit flags ACC_INTERFACE_bit) ms) w ->
    i = count_of_list ms -> i < n ->
    ~ (exists head, starts_with (method_head cs major (N.testbit flags ACC_INTERFACE_bit) ms head) rest) -> fault (AtHead (OfMethod i)) w rest
| fault_attribute_count cs o w rest : owner_at cs o w -> ~ (exists n, starts_with (u2 n) rest) -> fault (AtAttributeCount o) w rest
| fault_attribute cs o n l j w rest : (owner_at cs o +++ u2 n +++ many (attribute_lang cs) l) w ->
    j = count_of_list l -> j < n -> ~ (exists a, starts_with (attribute_lang cs a) rest) -> fault (AtAttribute o j) w rest
| fault_end cs l w rest : (owner_at cs OfClass +++ u2 (count_of_list l) +++ many (attribute_lang cs) l) w -> rest <> [] -> fault AtEnd w rest
| fault_rules minor major cs flags this super ifs fs ms l w :
    (to_methods minor major cs flags this super ifs fs ms +++ u2 (count_of_list l) +++ many (attribute_lang cs) l) w ->
    (let c := mk_class major minor (pool_of dec (slots_of cs)) flags this super ifs fs ms l in ~ (module_rules c /\ bootstrap_rules cs c)) ->
    fault AtRules w [].
End Faults.

(** ** What the message says *)
(** The file ends where an integer is expected. *)
Definition cut_short (text : str) (at_ : N) : Prop :=
  exists kind, In kind ["u1"; "u2"; "u4"; "u8"]%string /\ text = lit "Unexpected end of stream reading " ++ lit kind ++ lit " at index " ++ show_N at_.
Definition owner_label (o : owner) : str :=
  match o with
  | OfField i => lit "class field " ++ show_N i
  | OfMethod i => lit "class method " ++ show_N i
  | OfClass => lit "class"
  end.
(** Messages about descriptors; for the descriptor of a field they come without the number of the field. *)
Definition descriptor_messages : list String.string :=
  ["Empty string is not a field descriptor"; "Unexpected field type"; "Dimensions in field descriptor exceeded allowed limit";
   "Unterminated unqualified segment"; "Unexpected '/' at start of unqualified segment"; "Unexpected ';' at start of unqualified segment";
   "Disallowed character in unqualified segment"]%string.

(** [reports p at text]: the text tells a fault at place [p], which is at byte [at] of the file. *)
Definition reports (p : place) (at_ : N) (text : str) : Prop :=
  match p with
  | AtMagic => cut_short text 0 \/ text = lit "Unexpected magic header"
  | AtVersions => cut_short text 4 \/ cut_short text 6
  | AtPoolCount => cut_short text at_
  | AtConstant _ => (exists n, at_ <= n <= at_ + 3 /\ cut_short text n)
      \/ text = lit "Unexpected end of stream reading CONSTANT_Utf8 at index " ++ show_N (at_ + 3)
      \/ (exists k, text = lit "Unexpected reference kind " ++ show_N k ++ lit " when reading CONSTANT_methodhandle at index " ++ show_N (at_ + 1))
      \/ (exists t major, text = lit "Unexpected constant pool entry type " ++ show_N t ++ lit " at index " ++ show_N at_
            ++ lit " for classfile major version " ++ show_N major)
  | AtConstants => exists i, (exists tail, text = lit "Constant pool entry at index " ++ show_N i ++ tail)
      \/ ends_with text (lit " constant pool entry " ++ show_N i)
  | AtFlags => cut_short text at_ \/ exists tail, text = lit "Found invalid MODULE class access flag on class file of major version " ++ tail
      \/ text = lit "Found invalid class access flags " ++ tail ++ lit "; no other flags should be set with MODULE"
  | AtThisClass => ends_with text (lit " this_class")
  | AtSuperClass => ends_with text (lit " super_class")
  | AtInterfaceCount | AtFieldCount | AtMethodCount => cut_short text at_
  | AtInterface i => ends_with text (lit " interface " ++ show_N i)
  | AtHead (OfField i) => cut_short text at_
      \/ ends_with text (lit " class field " ++ show_N i)
      \/ text = lit "Class field " ++ show_N i ++ lit " is duplicate of previously-encountered field"
      \/ exists m, In m descriptor_messages /\ text = lit m
  | AtHead (OfMethod i) => cut_short text at_
      \/ ends_with text (lit " class method " ++ show_N i)
      \/ ends_with text (lit " init method " ++ show_N i) \/ ends_with text (lit " clinit method " ++ show_N i)
      \/ text = lit "Class method " ++ show_N i ++ lit " is duplicate of previously-encountered method"
  | AtHead OfClass => False
  | AtAttributeCount o => exists t, cut_short t at_ /\ text = t ++ lit " for " ++ owner_label o
  | AtAttribute o j =>
      ends_with text (lit " attribute " ++ show_N j ++ lit " of " ++ owner_label o)
      \/ text = lit "Length mismatch when reading attribute " ++ show_N j ++ lit " for " ++ owner_label o
      \/ (exists t, cut_short t (at_ + 2) /\ text = t ++ lit " for " ++ owner_label o)
      \/ text = lit "Unexpected end of stream reading attributes at index " ++ show_N (at_ + 6) ++ lit " for " ++ owner_label o
  | AtEnd => text = lit "Extra bytes found at index " ++ show_N at_ ++ lit " after reading class file"
  | AtRules => ends_with text (lit "; expected none for module") \/ ends_with text (lit "; expected 0 for module")
      \/ text = lit "Constant pool item contained invalid index into BootstrapMethods class attribute"
      \/ exists n, n <> 1 /\ text = lit "Found unexpected number of BootstrapMethods attributes in class; found " ++ show_N n ++ lit ", expected 1"
  end.
