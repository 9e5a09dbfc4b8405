(** * Vocabulary for C80: attributes written from the constants that are there. *)
From Verif Require Import Base S_Names S_Format S_Within S_Anywhere S_Rename.
From Verif Require M_Names M_Descriptors M_ConstantPool M_Attributes M_Class.
Import M_Attributes M_Class.

Section Written.
Variable dec : list byte -> option str.
Variable cs : list constant.
Notation Text := (utf8_at dec (slots_of cs)).
Notation Class := (class_at dec (slots_of cs)).
Definition if_any {A} (P : A -> Prop) (o : option A) : Prop := forall a, o = Some a -> P a.
(** Rows for a table with a count of two bytes. *)
Definition rows_of {A} (P : A -> Prop) (l : list A) : Prop := Forall P l /\ N.of_nat (length l) < 65536.
Definition u16 (n : N) : Prop := n < 65536.

Definition inner_class_row (c : inner_class_entry) : Prop :=
  offers Class (ic_inner_class_info c) /\ if_any (offers Class) (ic_outer_class_info c)
  /\ if_any (offers Text) (ic_inner_name c) /\ only_bits 0x761F (ic_access_flags c).
Definition line_number_row (l : line_number_entry) : Prop := u16 (ln_start_pc l) /\ u16 (ln_line_number l).
Definition local_variable_row (l : local_variable_entry) : Prop :=
  u16 (lv_start_pc l) /\ u16 (lv_length l) /\ u16 (lv_index l)
  /\ offers Text (lv_name l) /\ unqualified (lv_name l) /\ offers (field_desc_at dec (slots_of cs)) (lv_descriptor l).
Definition local_variable_type_row (l : local_variable_type_entry) : Prop :=
  u16 (lvt_start_pc l) /\ u16 (lvt_length l) /\ u16 (lvt_index l)
  /\ offers Text (lvt_name l) /\ unqualified (lvt_name l) /\ offers Text (lvt_signature l).
Definition parameter_row (m : method_parameter) : Prop :=
  if_any (fun s => offers Text s /\ unqualified s) (mp_name m) /\ only_bits 0x9010 (mp_access_flags m).

(** Attributes without attributes, code, annotations or other nested tables inside. *)
Inductive written_data : string -> attr_data -> Prop :=
| wr_constant l : offers (literal_at dec (slots_of cs)) l -> written_data "ConstantValue" (AConstantValue l)
| wr_exceptions l : rows_of (offers Class) l -> written_data "Exceptions" (AExceptions l)
| wr_inner l : rows_of inner_class_row l -> written_data "InnerClasses" (AInnerClasses l)
| wr_enclosing c m : offers Class c -> if_any (offers (name_and_type_at dec (slots_of cs))) m ->
    written_data "EnclosingMethod" (AEnclosingMethod c m)
| wr_synthetic : written_data "Synthetic" ASynthetic
| wr_signature s : offers Text s -> written_data "Signature" (ASignature s)
| wr_source s : offers Text s -> written_data "SourceFile" (ASourceFile s)
| wr_lines l : rows_of line_number_row l -> written_data "LineNumberTable" (ALineNumberTable l)
| wr_locals l : rows_of local_variable_row l -> written_data "LocalVariableTable" (ALocalVariableTable l)
| wr_types l : rows_of local_variable_type_row l -> written_data "LocalVariableTypeTable" (ALocalVariableTypeTable l)
| wr_deprecated : written_data "Deprecated" ADeprecated
| wr_parameters l : Forall parameter_row l -> N.of_nat (length l) < 256 -> written_data "MethodParameters" (AMethodParameters l)
| wr_packages l : rows_of (offers (package_at dec (slots_of cs))) l -> written_data "ModulePackages" (AModulePackages l)
| wr_main s : offers Class s -> written_data "ModuleMainClass" (AModuleMainClass s)
| wr_host s : offers Class s -> written_data "NestHost" (ANestHost s)
| wr_members l : rows_of (offers Class) l -> written_data "NestMembers" (ANestMembers l)
| wr_permitted l : rows_of (offers Class) l -> written_data "PermittedSubclasses" (APermittedSubclasses l).
Definition written (a : attr_info) : Prop :=
  exists name, attr_name a = lit name /\ offers Text (lit name) /\ written_data name (attr_dat a).

(** Any attributes of the class [c], at any depth, and any written ones. *)
Definition at_hand (c : class_file) (a : attr_info) : Prop := within c a \/ written a.
Definition at_hand_list (c : class_file) (l : list attr_info) : Prop := Forall (at_hand c) l /\ N.of_nat (length l) < 65536.
(** The same class with such attributes. *)
Record rewritten (c c' : class_file) : Prop := mk_rewritten {
  also_major : major_version c' = major_version c;
  also_minor : minor_version c' = minor_version c;
  also_pool : constant_pool c' = constant_pool c;
  also_flags : access_flags c' = access_flags c;
  also_this : this_class c' = this_class c;
  also_super : super_class c' = super_class c;
  also_interfaces : interfaces c' = interfaces c;
  written_fields : Forall2 (fun f f' => f_access_flags f' = f_access_flags f /\ f_name f' = f_name f
    /\ f_descriptor f' = f_descriptor f /\ at_hand_list c (f_attributes f')) (fields c) (fields c');
  written_methods : Forall2 (fun m m' => m_access_flags m' = m_access_flags m /\ m_name m' = m_name m
    /\ m_descriptor m' = m_descriptor m /\ at_hand_list c (m_attributes m')) (methods c) (methods c');
  written_attributes : at_hand_list c (class_attributes c') }.
End Written.
