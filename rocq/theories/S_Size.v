(** * How many values a parsed class consists of. *)
From Verif Require Import Base M_Names M_Descriptors M_ConstantPool M_Bytecode M_Attributes M_Class.

Local Open Scope nat_scope.

(** The sum of [f] over a list. *)
Definition total {A} (f : A -> nat) (l : list A) : nat := list_sum (map f l).

(** Every annotation value, at any depth, and every annotation with its element pairs counts. *)
Fixpoint value_size (v : element_value) : nat :=
  match v with
  | EvArray vs => 1 + total value_size vs
  | EvAnnotation a => 1 + annotation_size a
  | _ => 1
  end
with annotation_size (a : annotation) : nat :=
  match a with mk_ann _ elements => 1 + total (fun nv => 1 + value_size (snd nv)) elements end.
Definition target_size (t : type_annotation_target) : nat :=
  match t with TgLocalVar l => 1 + length l | _ => 1 end.
Definition type_annotation_size (a : type_annotation) : nat :=
  target_size (ta_target_type a) + length (ta_target_path a) + annotation_size (ta_annotation a).
(** A frame and its verification types. *)
Definition frame_size (e : stack_map_entry) : nat :=
  match e with
  | SmSame _ | SmChop _ _ => 1
  | SmSameLocals1StackItem _ _ => 2
  | SmAppend _ vs => 1 + length vs
  | SmFullFrame _ locals stack => 1 + length locals + length stack
  end.
(** An instruction and the rows of its jump table. *)
Definition opcode_size (op : opcode) : nat :=
  match op with
  | OpTableswitch t => 1 + length (jumps t)
  | OpLookupswitch t => 1 + length (match_offsets t)
  | _ => 1
  end.
Definition module_size (m : module_data) : nat :=
  length (md_requires m) + total (fun e => 1 + length (xp_exports_to e)) (md_exports m)
  + total (fun o => 1 + length (op_opens_to o)) (md_opens m) + length (md_uses m)
  + total (fun p => 1 + length (pv_provides_with p)) (md_provides m).
(** An attribute, its table rows, and everything inside. *)
Fixpoint data_size (a : attr_data) : nat :=
  match a with
  | ACode c => code_size c
  | AStackMapTable l => total frame_size l
  | AExceptions l | AModulePackages l | ANestMembers l | APermittedSubclasses l => length l
  | AInnerClasses l => length l
  | ALineNumberTable l => length l
  | ALocalVariableTable l => length l
  | ALocalVariableTypeTable l => length l
  | ARuntimeVisibleAnnotations l | ARuntimeInvisibleAnnotations l => total annotation_size l
  | ARuntimeVisibleParameterAnnotations l | ARuntimeInvisibleParameterAnnotations l =>
      total (fun p => 1 + total annotation_size p) l
  | ARuntimeVisibleTypeAnnotations l | ARuntimeInvisibleTypeAnnotations l => total type_annotation_size l
  | AAnnotationDefault v => value_size v
  | ABootstrapMethods l => total (fun b => 1 + length (bm_arguments b)) l
  | AMethodParameters l => length l
  | AModule m => module_size m
  | ARecord l => total record_size l
  | AConstantValue _ | AEnclosingMethod _ _ | ASynthetic | ASignature _ | ASourceFile _ | ASourceDebugExtension _
  | ADeprecated | AModuleMainClass _ | ANestHost _ | AOther _ => 0
  end
with code_size (c : code_data) : nat :=
  match c with mk_code _ _ _ bc handlers attributes =>
    match bc with Some b => total (fun oo => opcode_size (snd oo)) (opcodes b) | None => 0 end
    + length handlers + total attribute_size attributes end
with record_size (r : record_component) : nat :=
  match r with mk_rc _ _ attributes => 1 + total attribute_size attributes end
with attribute_size (a : attr_info) : nat :=
  match a with mk_attr _ data => 1 + data_size data end.
(** The class, the slots of its constant pool, its interfaces, members and attributes. *)
Definition class_size (c : class_file) : nat :=
  1 + length (constant_pool c) + length (interfaces c)
  + total (fun f => 1 + total attribute_size (f_attributes f)) (fields c)
  + total (fun m => 1 + total attribute_size (m_attributes m)) (methods c)
  + total attribute_size (class_attributes c).
