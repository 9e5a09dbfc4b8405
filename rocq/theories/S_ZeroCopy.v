(** * What it means that texts are not copied. *)
From Verif Require Import Base M_Cesu8 M_ConstantPool M_Bytecode M_Attributes M_Class Z_Cow Z_Descriptors Z_ConstantPool Z_Bytecode Z_Attributes Z_Plain Z_Class S_Lang.

(** ** All the texts of a parsed class, including those of its constant pool *)
Definition field_texts (d : field_desc) : list cow := match fd_type d with FObject s => [s] | _ => [] end.
Definition return_texts (r : return_desc) : list cow := match r with RReturn d => field_texts d | RVoid => [] end.
Definition method_texts (d : method_desc) : list cow := flat_map field_texts (parameters d) ++ return_texts (return_type d).
Definition entry_texts (e : entry) : list cow := match e with EUtf8 s => [s] | _ => [] end.
Definition opt_string (o : option cow) : list cow := match o with Some s => [s] | None => [] end.
Definition nt_texts (n : name_and_type) : list cow := [(nt_name n); (nt_descriptor n)].
Definition literal_texts (l : literal) : list cow :=
  match l with LString s => [s] | LStringBytes raw => [] | _ => [] end.
Definition member_texts (m : member_ref) : list cow := (mr_class_name m) :: nt_texts (mr_name_and_type m).
Definition handle_texts (h : method_handle) : list cow := (mh_class_name h) :: nt_texts (mh_member_ref h).
Definition loadable_texts (l : loadable) : list cow :=
  match l with
  | LdLiteral l => literal_texts l
  | LdClassInfo s | LdMethodType s => [s]
  | LdMethodHandle h => handle_texts h
  | LdDynamic d => nt_texts (dyn_name_and_type d)
  end.
Definition argument_texts (a : bootstrap_arg) : list cow :=
  match a with
  | BaLiteral l => literal_texts l
  | BaClassInfo s | BaMethodType s => [s]
  | BaMethodHandle h => handle_texts h
  end.
Definition array_type_texts (t : object_array_type) : list cow :=
  match t with OArrayType d => field_texts d | OBinaryName s => [s] end.
Definition item_texts (it : cp_item) : list cow :=
  match it with
  | ItLiteral l => literal_texts l
  | ItClassInfo s | ItMethodType s | ItModuleInfo s | ItPackageInfo s => [s]
  | ItFieldRef m | ItMethodRef m | ItInterfaceMethodRef m => member_texts m
  | ItNameAndType n => nt_texts n
  | ItMethodHandle h => handle_texts h
  | ItDynamic d => nt_texts (dyn_name_and_type d)
  | ItInvokeDynamic d => nt_texts (indy_name_and_type d)
  end.
Definition opcode_texts (op : opcode) : list cow :=
  match op with
  | OpLdc l | OpLdcW l | OpLdc2W l => loadable_texts l
  | OpGetstatic m | OpPutstatic m | OpGetfield m | OpPutfield m
  | OpInvokevirtual m | OpInvokespecial m | OpInvokestatic m | OpInvokeinterface m _ => member_texts m
  | OpInvokedynamic d => nt_texts (indy_name_and_type d)
  | OpNew s => [s]
  | OpAnewarray t | OpCheckcast t | OpInstanceof t | OpMultianewarray t _ => array_type_texts t
  | _ => []
  end.
Fixpoint value_texts (v : element_value) : list cow :=
  match v with
  | EvString s | EvClass s => [s]
  | EvEnum t c => field_texts t ++ [c]
  | EvAnnotation a => annotation_texts a
  | EvArray vs => flat_map value_texts vs
  | _ => []
  end
with annotation_texts (a : annotation) : list cow :=
  match a with mk_ann t elements => field_texts t ++ flat_map (fun nv => (fst nv) :: value_texts (snd nv)) elements end.
Definition verification_texts (v : verification_type) : list cow := match v with VObject s => [s] | _ => [] end.
Definition frame_texts (e : stack_map_entry) : list cow :=
  match e with
  | SmSame _ | SmChop _ _ => []
  | SmSameLocals1StackItem _ v => verification_texts v
  | SmAppend _ vs => flat_map verification_texts vs
  | SmFullFrame _ locals stack => flat_map verification_texts locals ++ flat_map verification_texts stack
  end.
Definition module_texts (m : module_data) : list cow :=
  (md_name m) :: opt_string (md_version m)
  ++ flat_map (fun r => (rq_name r) :: opt_string (rq_version r)) (md_requires m)
  ++ flat_map (fun x => (xp_package_name x) :: (xp_exports_to x)) (md_exports m)
  ++ flat_map (fun x => (op_package_name x) :: (op_opens_to x)) (md_opens m)
  ++ (md_uses m)
  ++ flat_map (fun x => (pv_service_interface_name x) :: (pv_provides_with x)) (md_provides m).
Fixpoint data_texts (a : attr_data) : list cow :=
  match a with
  | AConstantValue l => literal_texts l
  | ACode c => code_texts c
  | AStackMapTable l => flat_map frame_texts l
  | AExceptions l | AModulePackages l | ANestMembers l | APermittedSubclasses l => l
  | AInnerClasses l => flat_map (fun c => (ic_inner_class_info c) :: opt_string (ic_outer_class_info c) ++ opt_string (ic_inner_name c)) l
  | AEnclosingMethod c m => c :: match m with Some nt => nt_texts nt | None => [] end
  | ASignature s | ASourceFile s | AModuleMainClass s | ANestHost s => [s]
  | ASourceDebugExtension s => [s]
  | ALocalVariableTable l => flat_map (fun v => lv_name v :: field_texts (lv_descriptor v)) l
  | ALocalVariableTypeTable l => flat_map (fun v => [(lvt_name v); (lvt_signature v)]) l
  | ARuntimeVisibleAnnotations l | ARuntimeInvisibleAnnotations l => flat_map annotation_texts l
  | ARuntimeVisibleParameterAnnotations l | ARuntimeInvisibleParameterAnnotations l => flat_map (flat_map annotation_texts) l
  | ARuntimeVisibleTypeAnnotations l | ARuntimeInvisibleTypeAnnotations l => flat_map (fun a => annotation_texts (ta_annotation a)) l
  | AAnnotationDefault v => value_texts v
  | ABootstrapMethods l => flat_map (fun b => handle_texts (bm_method b) ++ flat_map argument_texts (bm_arguments b)) l
  | AMethodParameters l => flat_map (fun m => opt_string (mp_name m)) l
  | AModule m => module_texts m
  | ARecord l => flat_map record_texts l
  | ASynthetic | ALineNumberTable _ | ADeprecated | AOther _ => []
  end
with code_texts (c : code_data) : list cow :=
  match c with mk_code _ _ _ bc handlers attributes =>
    match bc with Some b => flat_map (fun oo => opcode_texts (snd oo)) (opcodes b) | None => [] end
    ++ flat_map (fun h => opt_string (ex_catch_type h)) handlers ++ flat_map attribute_texts attributes end
with record_texts (r : record_component) : list cow :=
  match r with mk_rc name d attributes => name :: field_texts d ++ flat_map attribute_texts attributes end
with attribute_texts (a : attr_info) : list cow :=
  match a with mk_attr name data => name :: data_texts data end.
(** All the names, descriptors and strings of a class. *)
Definition class_texts (c : class_file) : list cow :=
  flat_map entry_texts (constant_pool c) ++ this_class c :: opt_string (super_class c) ++ (interfaces c)
  ++ flat_map (fun f => (f_name f) :: field_texts (f_descriptor f) ++ flat_map attribute_texts (f_attributes f)) (fields c)
  ++ flat_map (fun m => (m_name m) :: method_texts (m_descriptor m) ++ flat_map attribute_texts (m_attributes m)) (methods c)
  ++ flat_map attribute_texts (class_attributes c).


(** ** Where a text of the input [bs] is *)
(** The bytes of [bs] from [i] on are [raw] (followed by something). *)
Definition lies_at (bs : list byte) (i : N) (raw : list byte) : Prop := exists pre post, bs = pre ++ raw ++ post /\ blen pre = i.
(** The byte of [bs] at index [i], the big-endian number in the [n] bytes from [i] on. *)
Definition number_at (bs : list byte) (i : N) (n : nat) (v : N) : Prop := exists w, lies_at bs i w /\ length w = n /\ be w = v.
(** The number of bytes after the tag of a constant (JVMS 4.4), where [len] is the number in the two bytes after the tag. *)
Definition constant_size (tag len : N) : N :=
  match tag with
  | 1 => 2 + len
  | 3 | 4 | 9 | 10 | 11 | 12 | 17 | 18 => 4
  | 5 | 6 => 8
  | 7 | 8 | 16 | 19 | 20 => 2
  | 15 => 3
  | _ => 0
  end.
(** Where the constants begin in a file with the number [count] in front of them: the constant with index 1 does at byte 10, and the others behind
    one another, as long as the index is below [count].  Long and double constants take two indices; indices have 16 bits. *)
Inductive constant_begins (bs : list byte) (count : N) : N -> N -> Prop :=
| first_constant : constant_begins bs count 1 10
| next_constant ix i tag len : constant_begins bs count ix i -> ix < count -> number_at bs i 1 tag -> (tag = 1 -> number_at bs (i + 1) 2 len) ->
    constant_begins bs count ((ix + (if (tag =? 5) || (tag =? 6) then 2 else 1)) mod 65536) (i + 1 + constant_size tag len).
(** The bytes [raw] from [i] on are the text of a Utf8 constant: after its tag, which is 1, and its length, two bytes. *)
Definition constant_text (bs : list byte) (i : N) (raw : list byte) : Prop :=
  lies_at bs i raw /\ exists count ix k, number_at bs 8 2 count /\ constant_begins bs count ix k /\ ix < count
    /\ i = k + 3 /\ number_at bs k 1 1 /\ number_at bs (k + 1) 2 (blen raw).
(** The bytes [raw] from [i] on are the contents of a SourceDebugExtension attribute: after the index of this name in the constant pool [p], two
    bytes, and their length, four bytes. *)
Definition debug_text (p : pool) (bs : list byte) (i : N) (raw : list byte) : Prop :=
  lies_at bs i raw /\ exists k n name, i = k + 6 /\ number_at bs k 2 n /\ nth_error p (N.to_nat n) = Some (EUtf8 name)
    /\ chars name = lit "SourceDebugExtension" /\ number_at bs (k + 2) 4 (blen raw).
(** A text is borrowed exactly if the field [raw] of the file it is from is UTF-8, and then it is a slice of this field; otherwise it is (part
    of) the decoded field. *)
Definition uncopied_from (decode : list byte -> option str) (bs : list byte) (i : N) (raw : list byte) (t : cow) : Prop :=
  match t with
  | Borrowed s at_ => from_utf8 raw <> None /\ i <= at_ /\ at_ + str_len s <= i + blen raw
      /\ exists slice, lies_at bs at_ slice /\ blen slice = str_len s /\ from_utf8 slice = Some s
  | Owned s => from_utf8 raw = None /\ exists before after, decode raw = Some (before ++ s ++ after)
  end.
(** A text of the constant pool; any text of a class with the constant pool [p]. *)
Definition uncopied_constant decode (bs : list byte) (t : cow) : Prop := exists i raw, constant_text bs i raw /\ uncopied_from decode bs i raw t.
Definition uncopied decode (p : pool) (bs : list byte) (t : cow) : Prop :=
  exists i raw, (constant_text bs i raw \/ debug_text p bs i raw) /\ uncopied_from decode bs i raw t.
