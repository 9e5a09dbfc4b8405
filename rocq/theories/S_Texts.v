(** * The texts in a parsed class and where they come from. *)
From Verif Require Import Base M_Names M_Descriptors M_ConstantPool M_Bytecode M_Attributes M_Class S_Lang S_Names S_Format.

(** A string, undecoded bytes, a descriptor, or the text of a SourceDebugExtension attribute. *)
Inductive text :=
| TString (s : str)
| TBytes (raw : list byte)
| TField (d : field_desc)
| TMethod (d : method_desc)
| TDebug (s : str).
Definition opt_string (o : option str) : list text := match o with Some s => [TString s] | None => [] end.
Definition nt_texts (n : name_and_type) : list text := [TString (nt_name n); TString (nt_descriptor n)].
Definition literal_texts (l : literal) : list text :=
  match l with LString s => [TString s] | LStringBytes raw => [TBytes raw] | _ => [] end.
Definition member_texts (m : member_ref) : list text := TString (mr_class_name m) :: nt_texts (mr_name_and_type m).
Definition handle_texts (h : method_handle) : list text := TString (mh_class_name h) :: nt_texts (mh_member_ref h).
Definition loadable_texts (l : loadable) : list text :=
  match l with
  | LdLiteral l => literal_texts l
  | LdClassInfo s | LdMethodType s => [TString s]
  | LdMethodHandle h => handle_texts h
  | LdDynamic d => nt_texts (dyn_name_and_type d)
  end.
Definition argument_texts (a : bootstrap_arg) : list text :=
  match a with
  | BaLiteral l => literal_texts l
  | BaClassInfo s | BaMethodType s => [TString s]
  | BaMethodHandle h => handle_texts h
  end.
Definition array_type_texts (t : object_array_type) : list text :=
  match t with OArrayType d => [TField d] | OBinaryName s => [TString s] end.
Definition item_texts (it : cp_item) : list text :=
  match it with
  | ItLiteral l => literal_texts l
  | ItClassInfo s | ItMethodType s | ItModuleInfo s | ItPackageInfo s => [TString s]
  | ItFieldRef m | ItMethodRef m | ItInterfaceMethodRef m => member_texts m
  | ItNameAndType n => nt_texts n
  | ItMethodHandle h => handle_texts h
  | ItDynamic d => nt_texts (dyn_name_and_type d)
  | ItInvokeDynamic d => nt_texts (indy_name_and_type d)
  end.
Definition opcode_texts (op : opcode) : list text :=
  match op with
  | OpLdc l | OpLdcW l | OpLdc2W l => loadable_texts l
  | OpGetstatic m | OpPutstatic m | OpGetfield m | OpPutfield m
  | OpInvokevirtual m | OpInvokespecial m | OpInvokestatic m | OpInvokeinterface m _ => member_texts m
  | OpInvokedynamic d => nt_texts (indy_name_and_type d)
  | OpNew s => [TString s]
  | OpAnewarray t | OpCheckcast t | OpInstanceof t | OpMultianewarray t _ => array_type_texts t
  | _ => []
  end.
Fixpoint value_texts (v : element_value) : list text :=
  match v with
  | EvString s | EvClass s => [TString s]
  | EvEnum t c => [TField t; TString c]
  | EvAnnotation a => annotation_texts a
  | EvArray vs => flat_map value_texts vs
  | _ => []
  end
with annotation_texts (a : annotation) : list text :=
  match a with mk_ann t elements => TField t :: flat_map (fun nv => TString (fst nv) :: value_texts (snd nv)) elements end.
Definition verification_texts (v : verification_type) : list text := match v with VObject s => [TString s] | _ => [] end.
Definition frame_texts (e : stack_map_entry) : list text :=
  match e with
  | SmSame _ | SmChop _ _ => []
  | SmSameLocals1StackItem _ v => verification_texts v
  | SmAppend _ vs => flat_map verification_texts vs
  | SmFullFrame _ locals stack => flat_map verification_texts locals ++ flat_map verification_texts stack
  end.
Definition module_texts (m : module_data) : list text :=
  TString (md_name m) :: opt_string (md_version m)
  ++ flat_map (fun r => TString (rq_name r) :: opt_string (rq_version r)) (md_requires m)
  ++ flat_map (fun x => TString (xp_package_name x) :: map TString (xp_exports_to x)) (md_exports m)
  ++ flat_map (fun x => TString (op_package_name x) :: map TString (op_opens_to x)) (md_opens m)
  ++ map TString (md_uses m)
  ++ flat_map (fun x => TString (pv_service_interface_name x) :: map TString (pv_provides_with x)) (md_provides m).
Fixpoint data_texts (a : attr_data) : list text :=
  match a with
  | AConstantValue l => literal_texts l
  | ACode c => code_texts c
  | AStackMapTable l => flat_map frame_texts l
  | AExceptions l | AModulePackages l | ANestMembers l | APermittedSubclasses l => map TString l
  | AInnerClasses l => flat_map (fun c => TString (ic_inner_class_info c) :: opt_string (ic_outer_class_info c) ++ opt_string (ic_inner_name c)) l
  | AEnclosingMethod c m => TString c :: match m with Some nt => nt_texts nt | None => [] end
  | ASignature s | ASourceFile s | AModuleMainClass s | ANestHost s => [TString s]
  | ASourceDebugExtension s => [TDebug s]
  | ALocalVariableTable l => flat_map (fun v => [TString (lv_name v); TField (lv_descriptor v)]) l
  | ALocalVariableTypeTable l => flat_map (fun v => [TString (lvt_name v); TString (lvt_signature v)]) l
  | ARuntimeVisibleAnnotations l | ARuntimeInvisibleAnnotations l => flat_map annotation_texts l
  | ARuntimeVisibleParameterAnnotations l | ARuntimeInvisibleParameterAnnotations l => flat_map (flat_map annotation_texts) l
  | ARuntimeVisibleTypeAnnotations l | ARuntimeInvisibleTypeAnnotations l => flat_map (fun a => annotation_texts (ta_annotation a)) l
  | AAnnotationDefault v => value_texts v
  | ABootstrapMethods l => flat_map (fun b => handle_texts (bm_method b) ++ flat_map argument_texts (bm_arguments b)) l
  | AMethodParameters l => flat_map (fun m => opt_string (mp_name m)) l
  | AModule m => module_texts m
  | ARecord l => flat_map record_texts l
  | ASynthetic | ALineNumberTable _ | ADeprecated | AOther _ => []
  end
with code_texts (c : code_data) : list text :=
  match c with mk_code _ _ _ bc handlers attributes =>
    match bc with Some b => flat_map (fun oo => opcode_texts (snd oo)) (opcodes b) | None => [] end
    ++ flat_map (fun h => opt_string (ex_catch_type h)) handlers ++ flat_map attribute_texts attributes end
with record_texts (r : record_component) : list text :=
  match r with mk_rc name d attributes => TString name :: TField d :: flat_map attribute_texts attributes end
with attribute_texts (a : attr_info) : list text :=
  match a with mk_attr name data => TString name :: data_texts data end.
(** All the names, descriptors and strings of a class. *)
Definition class_texts (c : class_file) : list text :=
  TString (this_class c) :: opt_string (super_class c) ++ map TString (interfaces c)
  ++ flat_map (fun f => TString (f_name f) :: TField (f_descriptor f) :: flat_map attribute_texts (f_attributes f)) (fields c)
  ++ flat_map (fun m => TString (m_name m) :: TMethod (m_descriptor m) :: flat_map attribute_texts (m_attributes m)) (methods c)
  ++ flat_map attribute_texts (class_attributes c).

(** Where a text of the file [bs] with constants [cs] comes from. *)
Definition grounded (dec : list byte -> option str) (cs : list constant) (bs : list byte) (t : text) : Prop :=
  match t with
  (* strings are the decoded text of a Utf8 constant *)
  | TString s => exists raw, In (CUtf8 raw) cs /\ dec raw = Some s
  (* bytes are those of a Utf8 constant that cannot be decoded and to which a String constant refers *)
  | TBytes raw => dec raw = None /\ exists j, In (CString j) cs /\ at_index (slots_of cs) j (CUtf8 raw)
  (* descriptors are what the decoded text of a Utf8 constant starts with *)
  | TField d => exists raw rest, In (CUtf8 raw) cs /\ dec raw = Some (field_text d ++ rest)
  | TMethod d => exists raw rest, In (CUtf8 raw) cs /\ dec raw = Some (method_text d ++ rest)
  (* debug text is decoded from bytes of the file *)
  | TDebug s => exists pre raw post, bs = pre ++ raw ++ post /\ dec raw = Some s
  end.
