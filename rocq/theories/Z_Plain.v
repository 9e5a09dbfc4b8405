(** * Attribute values without the borrowing information. *)
From Verif Require Import Base M_Names M_Descriptors M_ConstantPool M_Bytecode M_Attributes Z_Cow Z_Descriptors Z_ConstantPool Z_Bytecode Z_Attributes.

(** attributes.rs:18-24 without the borrowing information *)
Definition plain_exception (x : exception_entry) : M_Attributes.exception_entry :=
  M_Attributes.mk_exc (ex_start_pc x) (ex_end_pc x) (ex_handler_pc x) (option_map chars (ex_catch_type x)).
(** attributes.rs:36-47 without the borrowing information *)
Definition plain_verification (v : verification_type) : M_Attributes.verification_type :=
  match v with
  | VTop => M_Attributes.VTop | VInteger => M_Attributes.VInteger | VFloat => M_Attributes.VFloat | VLong => M_Attributes.VLong
  | VDouble => M_Attributes.VDouble | VNull => M_Attributes.VNull | VUninitializedThis => M_Attributes.VUninitializedThis
  | VUninitialized o => M_Attributes.VUninitialized o | VObject s => M_Attributes.VObject (chars s)
  end.
(** attributes.rs:49-71 without the borrowing information *)
Definition plain_frame (e : stack_map_entry) : M_Attributes.stack_map_entry :=
  match e with
  | SmSame o => M_Attributes.SmSame o
  | SmSameLocals1StackItem o v => M_Attributes.SmSameLocals1StackItem o (plain_verification v)
  | SmChop o k => M_Attributes.SmChop o k
  | SmAppend o l => M_Attributes.SmAppend o (map plain_verification l)
  | SmFullFrame o l s => M_Attributes.SmFullFrame o (map plain_verification l) (map plain_verification s)
  end.
(** attributes.rs:88-94 without the borrowing information *)
Definition plain_inner (c : inner_class_entry) : M_Attributes.inner_class_entry :=
  M_Attributes.mk_ic (chars (ic_inner_class_info c)) (option_map chars (ic_outer_class_info c)) (option_map chars (ic_inner_name c)) (ic_access_flags c).
(** attributes.rs:102-109 without the borrowing information *)
Definition plain_local (v : local_variable_entry) : M_Attributes.local_variable_entry :=
  M_Attributes.mk_lv (lv_start_pc v) (lv_length v) (chars (lv_name v)) (plain_field_desc (lv_descriptor v)) (lv_index v).
(** attributes.rs:111-118 without the borrowing information *)
Definition plain_local_type (v : local_variable_type_entry) : M_Attributes.local_variable_type_entry :=
  M_Attributes.mk_lvt (lvt_start_pc v) (lvt_length v) (chars (lvt_name v)) (chars (lvt_signature v)) (lvt_index v).
(** attributes.rs:120-140 without the borrowing information *)
Fixpoint plain_value (v : element_value) : M_Attributes.element_value :=
  match v with
  | EvByte v => M_Attributes.EvByte v | EvChar v => M_Attributes.EvChar v | EvDouble v => M_Attributes.EvDouble v
  | EvFloat v => M_Attributes.EvFloat v | EvInt v => M_Attributes.EvInt v | EvLong v => M_Attributes.EvLong v
  | EvShort v => M_Attributes.EvShort v | EvBoolean v => M_Attributes.EvBoolean v
  | EvString s => M_Attributes.EvString (chars s)
  | EvEnum t c => M_Attributes.EvEnum (plain_field_desc t) (chars c)
  | EvClass s => M_Attributes.EvClass (chars s)
  | EvAnnotation a => M_Attributes.EvAnnotation (plain_annotation a)
  | EvArray vs => M_Attributes.EvArray (map plain_value vs)
  end
(** attributes.rs:148-152 without the borrowing information *)
with plain_annotation (a : annotation) : M_Attributes.annotation :=
  match a with mk_ann t elements => M_Attributes.mk_ann (plain_field_desc t) (map (fun nv => (chars (fst nv), plain_value (snd nv))) elements) end.
(** attributes.rs:212-217 without the borrowing information *)
Definition plain_type_annotation (a : type_annotation) : M_Attributes.type_annotation :=
  M_Attributes.mk_ta (ta_target_type a) (ta_target_path a) (plain_annotation (ta_annotation a)).
(** attributes.rs:219-223 without the borrowing information *)
Definition plain_bootstrap (b : bootstrap_method) : M_Attributes.bootstrap_method :=
  M_Attributes.mk_bm (plain_handle (bm_method b)) (map plain_argument (bm_arguments b)).
(** attributes.rs:233-237 without the borrowing information *)
Definition plain_parameter (m : method_parameter) : M_Attributes.method_parameter :=
  M_Attributes.mk_mp (option_map chars (mp_name m)) (mp_access_flags m).
(** attributes.rs:256-261 without the borrowing information *)
Definition plain_require (r : module_require) : M_Attributes.module_require :=
  M_Attributes.mk_req (chars (rq_name r)) (rq_flags r) (option_map chars (rq_version r)).
(** attributes.rs:270-275 without the borrowing information *)
Definition plain_export (x : module_export) : M_Attributes.module_export :=
  M_Attributes.mk_exp (chars (xp_package_name x)) (xp_flags x) (map chars (xp_exports_to x)).
(** attributes.rs:284-289 without the borrowing information *)
Definition plain_open (x : module_open) : M_Attributes.module_open :=
  M_Attributes.mk_opn (chars (op_package_name x)) (op_flags x) (map chars (op_opens_to x)).
(** attributes.rs:291-295 without the borrowing information *)
Definition plain_provide (x : module_provide) : M_Attributes.module_provide :=
  M_Attributes.mk_prov (chars (pv_service_interface_name x)) (map chars (pv_provides_with x)).
(** attributes.rs:297-307 without the borrowing information *)
Definition plain_module (m : module_data) : M_Attributes.module_data :=
  M_Attributes.mk_mod (chars (md_name m)) (md_access_flags m) (option_map chars (md_version m)) (map plain_require (md_requires m))
    (map plain_export (md_exports m)) (map plain_open (md_opens m)) (map chars (md_uses m)) (map plain_provide (md_provides m)).
(** attributes.rs:316-352 without the borrowing information *)
Fixpoint plain_data (a : attr_data) : M_Attributes.attr_data :=
  match a with
  | AConstantValue l => M_Attributes.AConstantValue (plain_literal l)
  | ACode c => M_Attributes.ACode (plain_code_data c)
  | AStackMapTable l => M_Attributes.AStackMapTable (map plain_frame l)
  | AExceptions l => M_Attributes.AExceptions (map chars l)
  | AInnerClasses l => M_Attributes.AInnerClasses (map plain_inner l)
  | AEnclosingMethod c m => M_Attributes.AEnclosingMethod (chars c) (option_map plain_nt m)
  | ASynthetic => M_Attributes.ASynthetic
  | ASignature s => M_Attributes.ASignature (chars s)
  | ASourceFile s => M_Attributes.ASourceFile (chars s)
  | ASourceDebugExtension s => M_Attributes.ASourceDebugExtension (chars s)
  | ALineNumberTable l => M_Attributes.ALineNumberTable l
  | ALocalVariableTable l => M_Attributes.ALocalVariableTable (map plain_local l)
  | ALocalVariableTypeTable l => M_Attributes.ALocalVariableTypeTable (map plain_local_type l)
  | ADeprecated => M_Attributes.ADeprecated
  | ARuntimeVisibleAnnotations l => M_Attributes.ARuntimeVisibleAnnotations (map plain_annotation l)
  | ARuntimeInvisibleAnnotations l => M_Attributes.ARuntimeInvisibleAnnotations (map plain_annotation l)
  | ARuntimeVisibleParameterAnnotations l => M_Attributes.ARuntimeVisibleParameterAnnotations (map (map plain_annotation) l)
  | ARuntimeInvisibleParameterAnnotations l => M_Attributes.ARuntimeInvisibleParameterAnnotations (map (map plain_annotation) l)
  | ARuntimeVisibleTypeAnnotations l => M_Attributes.ARuntimeVisibleTypeAnnotations (map plain_type_annotation l)
  | ARuntimeInvisibleTypeAnnotations l => M_Attributes.ARuntimeInvisibleTypeAnnotations (map plain_type_annotation l)
  | AAnnotationDefault v => M_Attributes.AAnnotationDefault (plain_value v)
  | ABootstrapMethods l => M_Attributes.ABootstrapMethods (map plain_bootstrap l)
  | AMethodParameters l => M_Attributes.AMethodParameters (map plain_parameter l)
  | AModule m => M_Attributes.AModule (plain_module m)
  | AModulePackages l => M_Attributes.AModulePackages (map chars l)
  | AModuleMainClass s => M_Attributes.AModuleMainClass (chars s)
  | ANestHost s => M_Attributes.ANestHost (chars s)
  | ANestMembers l => M_Attributes.ANestMembers (map chars l)
  | APermittedSubclasses l => M_Attributes.APermittedSubclasses (map chars l)
  | ARecord l => M_Attributes.ARecord (map plain_record l)
  | AOther raw => M_Attributes.AOther raw
  end
(** attributes.rs:26-34 without the borrowing information *)
with plain_code_data (c : code_data) : M_Attributes.code_data :=
  match c with mk_code s l code b x attributes =>
    M_Attributes.mk_code s l code (option_map plain_code b) (map plain_exception x) (map plain_attr attributes) end
(** attributes.rs:309-314 without the borrowing information *)
with plain_record (r : record_component) : M_Attributes.record_component :=
  match r with mk_rc n d attributes => M_Attributes.mk_rc (chars n) (plain_field_desc d) (map plain_attr attributes) end
(** attributes.rs:354-358 without the borrowing information *)
with plain_attr (a : attr_info) : M_Attributes.attr_info :=
  match a with mk_attr n d => M_Attributes.mk_attr (chars n) (plain_data d) end.
