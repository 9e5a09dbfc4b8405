(** * Model of src/attributes.rs *)
From Verif Require Import Base M_Names M_Descriptors M_ConstantPool M_Bytecode.

(** ** Access-flag masks: lib.rs:111-137 [AccessFlags] *)
Definition ACC_PUBLIC := 0x0001.
(** lib.rs:114 [PRIVATE] *)
Definition ACC_PRIVATE := 0x0002.
(** lib.rs:115 [PROTECTED] *)
Definition ACC_PROTECTED := 0x0004.
(** lib.rs:116 [STATIC] *)
Definition ACC_STATIC := 0x0008.
(** lib.rs:117 [FINAL] *)
Definition ACC_FINAL := 0x0010.
(** lib.rs:118 [SUPER] *)
Definition ACC_SUPER := 0x0020.
(** lib.rs:119 [SYNCHRONIZED] *)
Definition ACC_SYNCHRONIZED := 0x0020.
(** lib.rs:120 [OPEN] *)
Definition ACC_OPEN := 0x0020.
(** lib.rs:121 [TRANSITIVE] *)
Definition ACC_TRANSITIVE := 0x0020.
(** lib.rs:122 [VOLATILE] *)
Definition ACC_VOLATILE := 0x0040.
(** lib.rs:123 [BRIDGE] *)
Definition ACC_BRIDGE := 0x0040.
(** lib.rs:124 [STATIC_PHASE] *)
Definition ACC_STATIC_PHASE := 0x0040.
(** lib.rs:125 [TRANSIENT] *)
Definition ACC_TRANSIENT := 0x0080.
(** lib.rs:126 [VARARGS] *)
Definition ACC_VARARGS := 0x0080.
(** lib.rs:127 [NATIVE] *)
Definition ACC_NATIVE := 0x0100.
(** lib.rs:128 [INTERFACE] *)
Definition ACC_INTERFACE := 0x0200.
(** lib.rs:129 [ABSTRACT] *)
Definition ACC_ABSTRACT := 0x0400.
(** lib.rs:130 [STRICT] *)
Definition ACC_STRICT := 0x0800.
(** lib.rs:131 [SYNTHETIC] *)
Definition ACC_SYNTHETIC := 0x1000.
(** lib.rs:132 [ANNOTATION] *)
Definition ACC_ANNOTATION := 0x2000.
(** lib.rs:133 [ENUM] *)
Definition ACC_ENUM := 0x4000.
(** lib.rs:134 [MANDATED] *)
Definition ACC_MANDATED := 0x8000.
(** lib.rs:135 [MODULE] *)
Definition ACC_MODULE := 0x8000.

(** lib.rs:111-136: [all()] of a [bitflags!] type *)
Definition all_flags (l : list N) : N := fold_right N.lor 0 l.

(** attributes.rs:73-86 *)
Definition inner_class_flags := all_flags
  [ACC_PUBLIC; ACC_PRIVATE; ACC_PROTECTED; ACC_STATIC; ACC_FINAL; ACC_INTERFACE;
   ACC_ABSTRACT; ACC_SYNTHETIC; ACC_ANNOTATION; ACC_ENUM].
(** attributes.rs:225-231 *)
Definition method_parameter_flags := all_flags [ACC_FINAL; ACC_SYNTHETIC; ACC_MANDATED].
(** attributes.rs:239-245 *)
Definition module_flags := all_flags [ACC_OPEN; ACC_SYNTHETIC; ACC_MANDATED].
(** attributes.rs:247-254 *)
Definition module_requires_flags :=
  all_flags [ACC_TRANSITIVE; ACC_STATIC_PHASE; ACC_SYNTHETIC; ACC_MANDATED].
(** attributes.rs:263-268, 277-282 *)
Definition module_exports_flags := all_flags [ACC_SYNTHETIC; ACC_MANDATED].
(** attributes.rs:277-282 [ModuleOpensFlags] *)
Definition module_opens_flags := all_flags [ACC_SYNTHETIC; ACC_MANDATED].

(** ** Data types: attributes.rs:18-358; floats are bit patterns. *)
Record exception_entry := mk_exc {
  ex_start_pc : N; ex_end_pc : N; ex_handler_pc : N; ex_catch_type : option str }.

(** attributes.rs:36-47 [VerificationType] *)
Inductive verification_type :=
| VTop | VInteger | VFloat | VLong | VDouble | VNull | VUninitializedThis
| VUninitialized (code_offset : N)
| VObject (class_name : str).

(** attributes.rs:49-71 [StackMapEntry] *)
Inductive stack_map_entry :=
| SmSame (offset_delta : N)
| SmSameLocals1StackItem (offset_delta : N) (stack : verification_type)
| SmChop (offset_delta chop_count : N)
| SmAppend (offset_delta : N) (locals : list verification_type)
| SmFullFrame (offset_delta : N) (locals stack : list verification_type).

(** attributes.rs:88-94 [InnerClassEntry] *)
Record inner_class_entry := mk_ic {
  ic_inner_class_info : str; ic_outer_class_info : option str; ic_inner_name : option str;
  ic_access_flags : N }.
(** attributes.rs:96-100 [LineNumberEntry] *)
Record line_number_entry := mk_ln { ln_start_pc : N; ln_line_number : N }.
(** attributes.rs:102-109 [LocalVariableEntry] *)
Record local_variable_entry := mk_lv {
  lv_start_pc : N; lv_length : N; lv_name : str; lv_descriptor : field_desc; lv_index : N }.
(** attributes.rs:111-118 [LocalVariableTypeEntry] *)
Record local_variable_type_entry := mk_lvt {
  lvt_start_pc : N; lvt_length : N; lvt_name : str; lvt_signature : str; lvt_index : N }.

(** attributes.rs:120-140 [AnnotationElementValue]; 142-146 [AnnotationElement] (a pair of name and value) is modelled by a pair. *)
Inductive element_value :=
| EvByte (v : Z) | EvChar (v : Z) | EvDouble (bits : N) | EvFloat (bits : N) | EvInt (v : Z)
| EvLong (v : Z) | EvShort (v : Z) | EvBoolean (v : Z)
| EvString (s : str)
| EvEnum (type_name : field_desc) (const_name : str)
| EvClass (class_name : str)
| EvAnnotation (a : annotation)
| EvArray (vs : list element_value)
(** attributes.rs:148-152 [Annotation] *)
with annotation := mk_ann (type_descriptor : field_desc) (elements : list (str * element_value)).

(** attributes.rs:159-164 [TypeAnnotationLocalVarTargetEntry]; 154-157 [ParameterAnnotation] (one field) is modelled by the list of annotations. *)
Record local_var_target := mk_lvtg { lt_start_pc : N; lt_length : N; lt_index : N }.
(** attributes.rs:166-196 [TypeAnnotationTarget] *)
Inductive type_annotation_target :=
| TgTypeParameter (index : N)
| TgSupertype (index : N)
| TgTypeParameterBound (type_parameter_index bound_index : N)
| TgEmpty
| TgFormalParameter (index : N)
| TgThrows (index : N)
| TgLocalVar (l : list local_var_target)
| TgCatch (exception_table_index : N)
| TgOffset (offset : N)
| TgTypeArgument (offset type_argument_index : N).
(** attributes.rs:198-204 [TypeAnnotationTargetPathKind] *)
Inductive path_kind := PkDeeperArray | PkDeeperNested | PkWildcardTypeArgument | PkTypeArgument.
(** attributes.rs:206-210 [TypeAnnotationTargetPathEntry] *)
Record path_entry := mk_pe { pe_kind : path_kind; pe_argument_index : N }.
(** attributes.rs:212-217 [TypeAnnotation] *)
Record type_annotation := mk_ta {
  ta_target_type : type_annotation_target; ta_target_path : list path_entry;
  ta_annotation : annotation }.
(** attributes.rs:219-223 [BootstrapMethodEntry] *)
Record bootstrap_method := mk_bm { bm_method : method_handle; bm_arguments : list bootstrap_arg }.
(** attributes.rs:233-237 [MethodParameterEntry] *)
Record method_parameter := mk_mp { mp_name : option str; mp_access_flags : N }.
(** attributes.rs:256-261 [ModuleRequireEntry] *)
Record module_require := mk_req { rq_name : str; rq_flags : N; rq_version : option str }.
(** attributes.rs:270-275 [ModuleExportsEntry] *)
Record module_export := mk_exp { xp_package_name : str; xp_flags : N; xp_exports_to : list str }.
(** attributes.rs:284-289 [ModuleOpensEntry] *)
Record module_open := mk_opn { op_package_name : str; op_flags : N; op_opens_to : list str }.
(** attributes.rs:291-295 [ModuleProvidesEntry] *)
Record module_provide := mk_prov { pv_service_interface_name : str; pv_provides_with : list str }.
(** attributes.rs:297-307 [ModuleData] *)
Record module_data := mk_mod {
  md_name : str; md_access_flags : N; md_version : option str;
  md_requires : list module_require; md_exports : list module_export;
  md_opens : list module_open; md_uses : list str; md_provides : list module_provide }.

(** attributes.rs:316-352 [AttributeData] *)
Inductive attr_data :=
| AConstantValue (l : literal)
| ACode (c : code_data)
| AStackMapTable (l : list stack_map_entry)
| AExceptions (l : list str)
| AInnerClasses (l : list inner_class_entry)
| AEnclosingMethod (class_name : str) (method : option name_and_type)
| ASynthetic
| ASignature (s : str)
| ASourceFile (s : str)
| ASourceDebugExtension (s : str)
| ALineNumberTable (l : list line_number_entry)
| ALocalVariableTable (l : list local_variable_entry)
| ALocalVariableTypeTable (l : list local_variable_type_entry)
| ADeprecated
| ARuntimeVisibleAnnotations (l : list annotation)
| ARuntimeInvisibleAnnotations (l : list annotation)
| ARuntimeVisibleParameterAnnotations (l : list (list annotation))
| ARuntimeInvisibleParameterAnnotations (l : list (list annotation))
| ARuntimeVisibleTypeAnnotations (l : list type_annotation)
| ARuntimeInvisibleTypeAnnotations (l : list type_annotation)
| AAnnotationDefault (v : element_value)
| ABootstrapMethods (l : list bootstrap_method)
| AMethodParameters (l : list method_parameter)
| AModule (m : module_data)
| AModulePackages (l : list str)
| AModuleMainClass (s : str)
| ANestHost (s : str)
| ANestMembers (l : list str)
| APermittedSubclasses (l : list str)
| ARecord (l : list record_component)
| AOther (raw : list byte)
(** attributes.rs:26-34 [CodeData] *)
with code_data := mk_code
  (max_stack max_locals : N) (code : list byte) (bytecode : option byte_code)
  (exception_table : list exception_entry) (attributes : list attr_info)
(** attributes.rs:309-314 [RecordComponentEntry] *)
with record_component := mk_rc (name : str) (descriptor : field_desc) (attributes : list attr_info)
(** attributes.rs:354-358 [AttributeInfo] *)
with attr_info := mk_attr (name : str) (data : attr_data).

(** attributes.rs:356 (field [name]) *)
Definition attr_name (a : attr_info) : str := let (n, _) := a in n.
(** attributes.rs:357 (field [data]) *)
Definition attr_dat (a : attr_info) : attr_data := let (_, d) := a in d.
(** attributes.rs:28 (field [max_stack]) *)
Definition cd_max_stack (c : code_data) := let (a, _, _, _, _, _) := c in a.
(** attributes.rs:29 (field [max_locals]) *)
Definition cd_max_locals (c : code_data) := let (_, a, _, _, _, _) := c in a.
(** attributes.rs:30 (field [code]) *)
Definition cd_code (c : code_data) := let (_, _, a, _, _, _) := c in a.
(** attributes.rs:31 (field [bytecode]) *)
Definition cd_bytecode (c : code_data) := let (_, _, _, a, _, _) := c in a.
(** attributes.rs:32 (field [exception_table]) *)
Definition cd_exception_table (c : code_data) := let (_, _, _, _, a, _) := c in a.
(** attributes.rs:33 (field [attributes]) *)
Definition cd_attributes (c : code_data) := let (_, _, _, _, _, a) := c in a.
(** attributes.rs:311 (field [name]) *)
Definition rc_name (r : record_component) := let (a, _, _) := r in a.
(** attributes.rs:312 (field [descriptor]) *)
Definition rc_descriptor (r : record_component) := let (_, a, _) := r in a.
(** attributes.rs:313 (field [attributes]) *)
Definition rc_attributes (r : record_component) := let (_, _, a) := r in a.
(** attributes.rs:150 (field [type_descriptor]) *)
Definition ann_type (a : annotation) := let (t, _) := a in t.
(** attributes.rs:151 (field [elements]) *)
Definition ann_elements (a : annotation) := let (_, l) := a in l.

(** attributes.rs:1070-1241. [match name.deref() { "..." => .., _ => .. }]: first matching literal. *)
Fixpoint dispatch {A} (name : str) (cases : list (string * parser A)) (default : parser A) : parser A :=
  match cases with
  | [] => default
  | (s, q) :: cases' => if str_eqb name (lit s) then q else dispatch name cases' default
  end.

(** attributes.rs:1237-1245. [*ix - length] for usize *)
Definition usize_sub (E : env) (a b : N) : outcome N :=
  if b <=? a then Ok (a - b)
  else if overflow_checks E then Panic POverflow
  else Ok (a + (usize_max E + 1) - b).

Section WithPool.
Variable E : env.
Variable p : pool.
(** [opts.parse_bytecode] *)
Variable parse_bytecode : bool.

(** attributes.rs:360-365 *)
Definition ensure_length (length expected : N) : parser unit :=
  if negb (length =? expected) then pfail (lit "Unexpected length " ++ show_N length) else ret tt.

(** attributes.rs:590-617, 647-716, 1024-1049. [read_cp_utf8(bytes, ix, pool).and_then(|d| parse_field_descriptor(&d, 0))] *)
Definition read_cp_field_descriptor : parser field_desc :=
  d <- read_cp_utf8 p ;; lift (parse_field_descriptor d 0).

(** attributes.rs:861-879, 881-950. [F::from_bits(read_u2(bytes, ix)?).ok_or_else(|| err)] *)
Definition read_exact_flags (all : N) (e : perr) : parser N :=
  n <- read_u2 ;;
  match from_bits all n with
  | Some f => ret f
  | None => lift (Err e)
  end.

(** attributes.rs:386-398 *)
Definition read_exception_entry (i : N) : parser exception_entry :=
  start_pc <- read_u2 ;;
  end_pc <- read_u2 ;;
  handler_pc <- read_u2 ;;
  catch_type <- pctx (lit "catch type of exception table entry " ++ show_N i)
                  (read_cp_classinfo_opt p) ;;
  ret (mk_exc start_pc end_pc handler_pc catch_type).

(** attributes.rs:367-414 [read_code_data]; [rec] is [read_attributes]. *)
Definition read_code_data (rec : parser (list attr_info)) : parser code_data :=
  max_stack <- read_u2 ;;
  max_locals <- read_u2 ;;
  code_length <- read_u4 ;;
  bs <- get_bytes ;;
  ix <- get_ix ;;
  code_end <- lift (usize_result E (ix + code_length)) ;;
  if blen bs <? code_end then
    pfail (lit "Unexpected end of stream reading code attribute at index " ++ show_N ix)
  else
    code <- lift (slice bs ix code_end) ;;
    _ <- set_ix code_end ;;
    exception_table_count <- read_u2 ;;
    exception_table <- for_n exception_table_count read_exception_entry ;;
    code_attributes <- pctx (lit "code attribute") rec ;;
    bytecode <- (if parse_bytecode then
                   b <- pctx (lit "bytecode") (lift (bytecode_from E code p)) ;; ret (Some b)
                 else ret None) ;;
    ret (mk_code max_stack max_locals code bytecode exception_table code_attributes).

(** attributes.rs:416-441 [read_stackmaptable_verification] *)
Definition read_verification : parser verification_type :=
  v <- read_u1 ;;
  match v with
  | 0 => ret VTop
  | 1 => ret VInteger
  | 2 => ret VFloat
  | 3 => ret VDouble
  | 4 => ret VLong
  | 5 => ret VNull
  | 6 => ret VUninitializedThis
  | 7 => class_name <- pctx (lit "object verification type") (read_cp_classinfo p) ;;
         ret (VObject class_name)
  | 8 => code_offset <- read_u2 ;; ret (VUninitialized code_offset)
  | _ => pfail (lit "Unrecognized verification type " ++ show_N v)
  end.

(** attributes.rs:450-531: one stack map entry *)
Definition read_stack_map_entry (i : N) : parser stack_map_entry :=
  v <- read_u1 ;;
  if v <=? 63 then ret (SmSame v)
  else if v <=? 127 then
    stack <- pctx (lit "same_locals_1_stack_item_frame stack map entry " ++ show_N i) read_verification ;;
    ret (SmSameLocals1StackItem (v - 64) stack)
  else if v <=? 246 then
    pctx (lit "stack map entry " ++ show_N i) (pfail (lit "Unrecognized discriminant " ++ show_N v))
  else if v =? 247 then
    offset_delta <- read_u2 ;;
    stack <- pctx (lit "same_locals_1_stack_item_frame_extended stack map entry " ++ show_N i)
               read_verification ;;
    ret (SmSameLocals1StackItem offset_delta stack)
  else if v <=? 250 then
    offset_delta <- read_u2 ;;
    ret (SmChop offset_delta (251 - v))
  else if v =? 251 then
    offset_delta <- read_u2 ;;
    ret (SmSame offset_delta)
  else if v <=? 254 then
    offset_delta <- read_u2 ;;
    locals <- for_n (v - 251) (fun j =>
      pctx (lit "local entry " ++ show_N j ++ lit " of append stack map entry " ++ show_N i)
        read_verification) ;;
    ret (SmAppend offset_delta locals)
  else
    offset_delta <- read_u2 ;;
    locals_count <- read_u2 ;;
    locals <- for_n locals_count (fun j =>
      pctx (lit "local entry " ++ show_N j ++ lit " of full-frame stack map entry " ++ show_N i)
        read_verification) ;;
    stack_count <- read_u2 ;;
    stack <- for_n stack_count (fun j =>
      pctx (lit "stack entry " ++ show_N j ++ lit " of full-frame stack map entry " ++ show_N i)
        read_verification) ;;
    ret (SmFullFrame offset_delta locals stack).

(** attributes.rs:443-534 [read_stackmaptable_data] *)
Definition read_stackmaptable_data : parser (list stack_map_entry) :=
  count <- read_u2 ;; for_n count read_stack_map_entry.

(** attributes.rs:536-549 [read_exceptions_data] *)
Definition read_exceptions_data : parser (list str) :=
  count <- read_u2 ;;
  for_n count (fun i => pctx (lit "exception " ++ show_N i) (read_cp_classinfo p)).

(** attributes.rs:551-574 [read_innerclasses_data] *)
Definition read_inner_class (i : N) : parser inner_class_entry :=
  inner <- pctx (lit "inner class info for inner class " ++ show_N i) (read_cp_classinfo p) ;;
  outer <- pctx (lit "outer class info for inner class " ++ show_N i) (read_cp_classinfo_opt p) ;;
  name <- pctx (lit "inner name for inner class " ++ show_N i) (read_cp_utf8_opt p) ;;
  flags <- read_u2 ;;
  ret (mk_ic inner outer name (from_bits_truncate inner_class_flags flags)).
(** attributes.rs:551-574 [read_innerclasses_data] *)
Definition read_innerclasses_data : parser (list inner_class_entry) :=
  count <- read_u2 ;; for_n count read_inner_class.

(** attributes.rs:576-588 [read_linenumber_data] *)
Definition read_line_number : parser line_number_entry :=
  start_pc <- read_u2 ;; line_number <- read_u2 ;; ret (mk_ln start_pc line_number).
(** attributes.rs:576-588 [read_linenumber_data] *)
Definition read_linenumber_data : parser (list line_number_entry) :=
  count <- read_u2 ;; for_n count (fun _ => read_line_number).

(** attributes.rs:590-617 [read_localvariable_data] *)
Definition read_local_variable (i : N) : parser local_variable_entry :=
  start_pc <- read_u2 ;;
  length <- read_u2 ;;
  name <- pctx (lit "name for variable " ++ show_N i) (read_cp_utf8 p) ;;
  _ <- guard (is_unqualified_name name) (lit "Invalid unqualified name for variable " ++ show_N i) ;;
  descriptor <- pctx (lit "descriptor for variable " ++ show_N i) read_cp_field_descriptor ;;
  index <- read_u2 ;;
  ret (mk_lv start_pc length name descriptor index).
(** attributes.rs:590-617 [read_localvariable_data] *)
Definition read_localvariable_data : parser (list local_variable_entry) :=
  count <- read_u2 ;; for_n count read_local_variable.

(** attributes.rs:619-645 [read_localvariabletype_data] *)
Definition read_local_variable_type (i : N) : parser local_variable_type_entry :=
  start_pc <- read_u2 ;;
  length <- read_u2 ;;
  name <- pctx (lit "name for variable " ++ show_N i) (read_cp_utf8 p) ;;
  _ <- guard (is_unqualified_name name) (lit "Invalid unqualified name for variable " ++ show_N i) ;;
  signature <- pctx (lit "signature for variable " ++ show_N i) (read_cp_utf8 p) ;;
  index <- read_u2 ;;
  ret (mk_lvt start_pc length name signature index).
(** attributes.rs:619-645 [read_localvariabletype_data] *)
Definition read_localvariabletype_data : parser (list local_variable_type_entry) :=
  count <- read_u2 ;; for_n count read_local_variable_type.

(** attributes.rs:696-716 [read_annotation]; [rec] is [read_annotation_element_value]. *)
Definition read_annotation_with (rec : parser element_value) : parser annotation :=
  type_descriptor <- pctx (lit "type descriptor field") read_cp_field_descriptor ;;
  element_count <- read_u2 ;;
  elements <- for_n element_count (fun i =>
    name <- pctx (lit "name of element " ++ show_N i) (read_cp_utf8 p) ;;
    value <- pctx (lit "value of element " ++ show_N i) rec ;;
    ret (name, value)) ;;
  ret (mk_ann type_descriptor elements).

(** attributes.rs:652-692: one element value; [rec] is the recursive call. *)
Definition read_element_value_with (rec : parser element_value) : parser element_value :=
  v <- read_u1 ;;
  if v =? ch "B" then n <- read_cp_integer p ;; ret (EvByte n)
  else if v =? ch "C" then n <- read_cp_integer p ;; ret (EvChar n)
  else if v =? ch "D" then n <- read_cp_double p ;; ret (EvDouble n)
  else if v =? ch "F" then n <- read_cp_float p ;; ret (EvFloat n)
  else if v =? ch "I" then n <- read_cp_integer p ;; ret (EvInt n)
  else if v =? ch "J" then n <- read_cp_long p ;; ret (EvLong n)
  else if v =? ch "S" then n <- read_cp_integer p ;; ret (EvShort n)
  else if v =? ch "Z" then n <- read_cp_integer p ;; ret (EvBoolean n)
  else if v =? ch "s" then s <- read_cp_utf8 p ;; ret (EvString s)
  else if v =? ch "e" then
    type_name <- pctx (lit "annotation element value enum descriptor") read_cp_field_descriptor ;;
    const_name <- read_cp_utf8 p ;;
    ret (EvEnum type_name const_name)
  else if v =? ch "c" then
    class_name <- read_cp_utf8 p ;;
    ok <- lift (is_return_descriptor class_name) ;;
    _ <- guard ok (lit "Invalid classinfo descriptor") ;;
    ret (EvClass class_name)
  else if v =? ch "@" then a <- read_annotation_with rec ;; ret (EvAnnotation a)
  else if v =? ch "[" then
    count <- read_u2 ;;
    vs <- for_n count (fun i => pctx (lit "array index " ++ show_N i) rec) ;;
    ret (EvArray vs)
  else pfail (lit "Unrecognized discriminant " ++ [v]).

(** attributes.rs:647-694 [read_annotation_element_value]: recursion with [stk]
    levels of stack available. *)
Fixpoint read_element_value (stk : nat) : parser element_value :=
  match stk with
  | O => fun _ _ => Panic PStackOverflow
  | S stk' => read_element_value_with (read_element_value stk')
  end.
(** attributes.rs:696-716 [read_annotation] *)
Definition read_annotation (stk : nat) : parser annotation :=
  read_annotation_with (read_element_value stk).

(** attributes.rs:718-730 [read_annotation_data] *)
Definition read_annotation_data (stk : nat) : parser (list annotation) :=
  count <- read_u2 ;;
  for_n count (fun i => pctx (lit "annotation " ++ show_N i) (read_annotation stk)).

(** attributes.rs:732-751 [read_parameter_annotation_data] *)
Definition read_parameter_annotation_data (stk : nat) : parser (list (list annotation)) :=
  count <- read_u1 ;;
  for_n count (fun i =>
    annotation_count <- read_u2 ;;
    for_n annotation_count (fun j =>
      pctx (lit "annotation " ++ show_N j ++ lit " of parameter " ++ show_N i) (read_annotation stk))).

(** attributes.rs:761-805: the target of type annotation [i] *)
Definition read_local_var_target : parser local_var_target :=
  start_pc <- read_u2 ;; length <- read_u2 ;; index <- read_u2 ;; ret (mk_lvtg start_pc length index).
(** attributes.rs:761-805: the target of a type annotation *)
Definition read_type_annotation_target (i : N) : parser type_annotation_target :=
  v <- read_u1 ;;
  match v with
  | 0x00 | 0x01 => index <- read_u1 ;; ret (TgTypeParameter index)
  | 0x10 => index <- read_u2 ;; ret (TgSupertype index)
  | 0x11 | 0x12 => t <- read_u1 ;; b <- read_u1 ;; ret (TgTypeParameterBound t b)
  | 0x13 | 0x14 | 0x15 => ret TgEmpty
  | 0x16 => index <- read_u1 ;; ret (TgFormalParameter index)
  | 0x17 => index <- read_u2 ;; ret (TgThrows index)
  | 0x40 | 0x41 =>
      localvar_count <- read_u2 ;;
      l <- for_n localvar_count (fun _ => read_local_var_target) ;;
      ret (TgLocalVar l)
  | 0x42 => index <- read_u2 ;; ret (TgCatch index)
  | 0x43 | 0x44 | 0x45 | 0x46 => offset <- read_u2 ;; ret (TgOffset offset)
  | 0x47 | 0x48 | 0x49 | 0x4A | 0x4B =>
      offset <- read_u2 ;; t <- read_u1 ;; ret (TgTypeArgument offset t)
  | _ => pctx (lit "type annotation " ++ show_N i)
           (pfail (lit "Unrecognized target type " ++ show_N v))
  end.

(** attributes.rs:808-825: path element [j] of type annotation [i] *)
Definition read_path_entry (i j : N) : parser path_entry :=
  v <- read_u1 ;;
  k <- (match v with
        | 0 => ret PkDeeperArray
        | 1 => ret PkDeeperNested
        | 2 => ret PkWildcardTypeArgument
        | 3 => ret PkTypeArgument
        | _ => pctx (lit "path element " ++ show_N j ++ lit " of type annotation " ++ show_N i)
                 (pfail (lit "Unrecognized path kind " ++ show_N v))
        end) ;;
  argument_index <- read_u1 ;;
  ret (mk_pe k argument_index).

(** attributes.rs:753-837 [read_type_annotation_data] *)
Definition read_type_annotation (stk : nat) (i : N) : parser type_annotation :=
  target_type <- read_type_annotation_target i ;;
  path_count <- read_u1 ;;
  target_path <- for_n path_count (read_path_entry i) ;;
  annotation <- pctx (lit "type annotation " ++ show_N i) (read_annotation stk) ;;
  ret (mk_ta target_type target_path annotation).
(** attributes.rs:753-837 [read_type_annotation_data] *)
Definition read_type_annotation_data (stk : nat) : parser (list type_annotation) :=
  count <- read_u2 ;; for_n count (read_type_annotation stk).

(** attributes.rs:839-859 [read_bootstrapmethods_data] *)
Definition read_bootstrap_method (i : N) : parser bootstrap_method :=
  method <- pctx (lit "method ref of bootstrap method " ++ show_N i) (read_cp_methodhandle p) ;;
  arg_count <- read_u2 ;;
  arguments <- for_n arg_count (fun j =>
    pctx (lit "argument " ++ show_N j ++ lit " of bootstrap method " ++ show_N i)
      (read_cp_bootstrap_argument p)) ;;
  ret (mk_bm method arguments).
(** attributes.rs:839-859 [read_bootstrapmethods_data] *)
Definition read_bootstrapmethods_data : parser (list bootstrap_method) :=
  count <- read_u2 ;; for_n count read_bootstrap_method.

(** attributes.rs:861-879 [read_methodparameters_data] *)
Definition read_method_parameter (i : N) : parser method_parameter :=
  name <- pctx (lit "name of method parameter " ++ show_N i) (read_cp_utf8_opt p) ;;
  _ <- guard (match name with Some n => is_unqualified_name n | None => true end)
         (lit "Invalid unqualified name for variable " ++ show_N i) ;;
  access_flags <- read_exact_flags method_parameter_flags
                    (with_context (new_err (lit "Invalid access flags found"))
                       (lit "method parameter " ++ show_N i)) ;;
  ret (mk_mp name access_flags).
(** attributes.rs:861-879 [read_methodparameters_data] *)
Definition read_methodparameters_data : parser (list method_parameter) :=
  count <- read_u1 ;; for_n count read_method_parameter.

(** attributes.rs:892-900 *)
Definition read_module_require (i : N) : parser module_require :=
  name <- pctx (lit "name of requires entry " ++ show_N i) (read_cp_moduleinfo p) ;;
  flags <- read_exact_flags module_requires_flags
             (with_context (new_err (lit "Invalid module requires flags")) (lit "entry " ++ show_N i)) ;;
  version <- pctx (lit "version of requires entry " ++ show_N i) (read_cp_utf8_opt p) ;;
  ret (mk_req name flags version).
(** attributes.rs:903-922 *)
Definition read_module_export (i : N) : parser module_export :=
  package_name <- pctx (lit "package name of exports entry " ++ show_N i) (read_cp_packageinfo p) ;;
  flags <- read_exact_flags module_exports_flags
             (with_context (new_err (lit "Invalid module exports flags")) (lit "entry " ++ show_N i)) ;;
  exports_to_count <- read_u2 ;;
  exports_to <- for_n exports_to_count (fun j =>
    pctx (lit "name of exports_to entry " ++ show_N j ++ lit " of exports entry " ++ show_N i)
      (read_cp_moduleinfo p)) ;;
  ret (mk_exp package_name flags exports_to).
(** attributes.rs:925-943 *)
Definition read_module_open (i : N) : parser module_open :=
  package_name <- pctx (lit "package name of opens entry " ++ show_N i) (read_cp_packageinfo p) ;;
  flags <- read_exact_flags module_opens_flags
             (with_context (new_err (lit "Invalid module opens flags")) (lit "entry " ++ show_N i)) ;;
  opens_to_count <- read_u2 ;;
  opens_to <- for_n opens_to_count (fun j =>
    pctx (lit "name of opens_to entry " ++ show_N j ++ lit " of opens entry " ++ show_N i)
      (read_cp_moduleinfo p)) ;;
  ret (mk_opn package_name flags opens_to).
(** attributes.rs:953-968 *)
Definition read_module_provide (i : N) : parser module_provide :=
  service <- pctx (lit "service interface name of provides entry " ++ show_N i) (read_cp_classinfo p) ;;
  provides_with_count <- read_u2 ;;
  provides_with <- for_n provides_with_count (fun j =>
    pctx (lit "provides_with entry " ++ show_N j ++ lit " of provides entry " ++ show_N i)
      (read_cp_classinfo p)) ;;
  ret (mk_prov service provides_with).

(** attributes.rs:881-980 [read_module_data] *)
Definition read_module_data : parser module_data :=
  name <- pctx (lit "name") (read_cp_moduleinfo p) ;;
  access_flags <- read_exact_flags module_flags (new_err (lit "Invalid access flags found")) ;;
  version <- pctx (lit "version") (read_cp_utf8_opt p) ;;
  requires_count <- read_u2 ;;
  requires <- for_n requires_count read_module_require ;;
  exports_count <- read_u2 ;;
  exports <- for_n exports_count read_module_export ;;
  opens_count <- read_u2 ;;
  opens <- for_n opens_count read_module_open ;;
  uses_count <- read_u2 ;;
  uses <- for_n uses_count (fun i =>
    pctx (lit "name of uses entry " ++ show_N i) (read_cp_classinfo p)) ;;
  provides_count <- read_u2 ;;
  provides <- for_n provides_count read_module_provide ;;
  ret (mk_mod name access_flags version requires exports opens uses provides).

(** attributes.rs:982-994 *)
Definition read_modulepackages_data : parser (list str) :=
  count <- read_u2 ;;
  for_n count (fun i => pctx (lit "package name " ++ show_N i) (read_cp_packageinfo p)).
(** attributes.rs:996-1007 *)
Definition read_nestmembers_data : parser (list str) :=
  count <- read_u2 ;;
  for_n count (fun i => pctx (lit "class name " ++ show_N i) (read_cp_classinfo p)).
(** attributes.rs:1009-1022 *)
Definition read_permitted_subclasses_data : parser (list str) :=
  count <- read_u2 ;;
  for_n count (fun i => pctx (lit "permitted subclass " ++ show_N i) (read_cp_classinfo p)).

(** attributes.rs:1024-1049 [read_record_data]; [rec] is [read_attributes]. *)
Definition read_record_component (rec : parser (list attr_info)) (i : N) : parser record_component :=
  name <- pctx (lit "name of entry " ++ show_N i) (read_cp_utf8 p) ;;
  _ <- guard (is_unqualified_name name) (lit "Invalid unqualified name for entry " ++ show_N i) ;;
  descriptor <- pctx (lit "descriptor of entry " ++ show_N i) read_cp_field_descriptor ;;
  attributes <- pctx (lit "entry " ++ show_N i) rec ;;
  ret (mk_rc name descriptor attributes).
(** attributes.rs:1024-1049 [read_record_data] *)
Definition read_record_data (rec : parser (list attr_info)) : parser (list record_component) :=
  count <- read_u2 ;; for_n count (read_record_component rec).

(** attributes.rs:1125-1136 *)
Definition read_source_debug_extension (i length : N) : parser str :=
  bs <- get_bytes ;;
  ix <- get_ix ;;
  e <- lift (usize_result E (ix + length)) ;;
  data <- lift (slice bs ix e) ;;
  _ <- set_ix e ;;
  match cesu8 E data with
  | Some s => ret s
  | None => lift (Err (with_context (new_err (cesu8_err E))
              (lit "modified utf8 data of SourceDebugExtension attribute " ++ show_N i)))
  end.

(** attributes.rs:1237-1240 *)
Definition read_other_attribute (length : N) : parser (list byte) :=
  bs <- get_bytes ;;
  ix <- get_ix ;;
  e <- lift (usize_result E (ix + length)) ;;
  _ <- set_ix e ;;
  s <- lift (usize_sub E e length) ;;
  lift (slice bs s e).

(** attributes.rs:1070-1241: the [match name.deref()]; [rec] is [read_attributes] and
    [stk] the stack left for annotations. *)
Definition read_attr_data (rec : parser (list attr_info)) (stk : nat) (name : str) (i length : N)
  : parser attr_data :=
  let attr (s : str) : str := s ++ lit " attribute " ++ show_N i in
  dispatch name
  [ ("ConstantValue"%string,
      _ <- pctx (attr (lit "ConstantValue")) (ensure_length length 2) ;;
      l <- pctx (attr (lit "value field of ConstantValue")) (read_cp_literalconstant p) ;;
      ret (AConstantValue l));
    ("Code"%string,
      c <- pctx (attr (lit "Code")) (read_code_data rec) ;; ret (ACode c));
    ("StackMapTable"%string,
      l <- pctx (attr (lit "StackMapTable")) read_stackmaptable_data ;; ret (AStackMapTable l));
    ("Exceptions"%string,
      l <- pctx (attr (lit "Exceptions")) read_exceptions_data ;; ret (AExceptions l));
    ("InnerClasses"%string,
      l <- pctx (attr (lit "InnerClasses")) read_innerclasses_data ;; ret (AInnerClasses l));
    ("EnclosingMethod"%string,
      _ <- pctx (attr (lit "EnclosingMethod")) (ensure_length length 4) ;;
      class_name <- pctx (attr (lit "class info of EnclosingMethod")) (read_cp_classinfo p) ;;
      method <- pctx (attr (lit "method info of EnclosingMethod")) (read_cp_nameandtype_opt p) ;;
      ret (AEnclosingMethod class_name method));
    ("Synthetic"%string,
      _ <- pctx (attr (lit "Synthetic")) (ensure_length length 0) ;; ret ASynthetic);
    ("Signature"%string,
      _ <- pctx (attr (lit "Signature")) (ensure_length length 2) ;;
      s <- pctx (attr (lit "signature field of Signature")) (read_cp_utf8 p) ;;
      ret (ASignature s));
    ("SourceFile"%string,
      _ <- pctx (attr (lit "SourceFile")) (ensure_length length 2) ;;
      s <- pctx (attr (lit "signature field of SourceFile")) (read_cp_utf8 p) ;;
      ret (ASourceFile s));
    ("SourceDebugExtension"%string,
      s <- read_source_debug_extension i length ;; ret (ASourceDebugExtension s));
    ("LineNumberTable"%string,
      l <- pctx (attr (lit "LineNumberTable")) read_linenumber_data ;; ret (ALineNumberTable l));
    ("LocalVariableTable"%string,
      l <- pctx (attr (lit "LocalVariableTable")) read_localvariable_data ;; ret (ALocalVariableTable l));
    ("LocalVariableTypeTable"%string,
      l <- pctx (attr (lit "LocalVariableTypeTable")) read_localvariabletype_data ;;
      ret (ALocalVariableTypeTable l));
    ("Deprecated"%string,
      _ <- pctx (attr (lit "Deprecated")) (ensure_length length 0) ;; ret ADeprecated);
    ("RuntimeVisibleAnnotations"%string,
      l <- pctx (attr (lit "RuntimeVisibleAnnotations")) (read_annotation_data stk) ;;
      ret (ARuntimeVisibleAnnotations l));
    ("RuntimeInvisibleAnnotations"%string,
      l <- pctx (attr (lit "RuntimeInvisibleAnnotations")) (read_annotation_data stk) ;;
      ret (ARuntimeInvisibleAnnotations l));
    ("RuntimeVisibleParameterAnnotations"%string,
      l <- pctx (attr (lit "RuntimeVisibleParameterAnnotations")) (read_parameter_annotation_data stk) ;;
      ret (ARuntimeVisibleParameterAnnotations l));
    ("RuntimeInvisibleParameterAnnotations"%string,
      l <- pctx (attr (lit "RuntimeInvisibleParameterAnnotations")) (read_parameter_annotation_data stk) ;;
      ret (ARuntimeInvisibleParameterAnnotations l));
    ("RuntimeVisibleTypeAnnotations"%string,
      l <- pctx (attr (lit "RuntimeVisibleTypeAnnotations")) (read_type_annotation_data stk) ;;
      ret (ARuntimeVisibleTypeAnnotations l));
    ("RuntimeInvisibleTypeAnnotations"%string,
      l <- pctx (attr (lit "RuntimeInvisibleTypeAnnotations")) (read_type_annotation_data stk) ;;
      ret (ARuntimeInvisibleTypeAnnotations l));
    ("AnnotationDefault"%string,
      v <- pctx (attr (lit "AnnotationDefault")) (read_element_value stk) ;; ret (AAnnotationDefault v));
    ("BootstrapMethods"%string,
      l <- pctx (attr (lit "BootstrapMethods")) read_bootstrapmethods_data ;; ret (ABootstrapMethods l));
    ("MethodParameters"%string,
      l <- pctx (attr (lit "MethodParameters")) read_methodparameters_data ;; ret (AMethodParameters l));
    ("Module"%string,
      m <- pctx (attr (lit "Module")) read_module_data ;; ret (AModule m));
    ("ModulePackages"%string,
      l <- pctx (attr (lit "ModulePackages")) read_modulepackages_data ;; ret (AModulePackages l));
    ("ModuleMainClass"%string,
      _ <- pctx (attr (lit "ModuleMainClass")) (ensure_length length 2) ;;
      s <- pctx (attr (lit "ModuleMainClass")) (read_cp_classinfo p) ;;
      ret (AModuleMainClass s));
    ("NestHost"%string,
      _ <- pctx (attr (lit "NestHost")) (ensure_length length 2) ;;
      s <- pctx (attr (lit "NestHost")) (read_cp_classinfo p) ;;
      ret (ANestHost s));
    ("NestMembers"%string,
      l <- pctx (attr (lit "NestMembers")) read_nestmembers_data ;; ret (ANestMembers l));
    ("PermittedSubclasses"%string,
      l <- pctx (attr (lit "PermittedSubclasses")) read_permitted_subclasses_data ;;
      ret (APermittedSubclasses l));
    ("Record"%string,
      l <- pctx (attr (lit "Record")) (read_record_data rec) ;; ret (ARecord l)) ]
  (raw <- read_other_attribute length ;; ret (AOther raw)).

(** attributes.rs:1059-1245: one iteration of the attribute loop *)
Definition read_attribute (rec : parser (list attr_info)) (stk : nat) (i : N) : parser attr_info :=
  name <- pctx (lit "name field of attribute " ++ show_N i) (read_cp_utf8 p) ;;
  length <- read_u4 ;;
  bs <- get_bytes ;;
  ix <- get_ix ;;
  expected_end_ix <- lift (usize_result E (ix + length)) ;;
  if blen bs <? expected_end_ix then
    pfail (lit "Unexpected end of stream reading attributes at index " ++ show_N ix)
  else
    data <- read_attr_data rec stk name i length ;;
    end_ix <- get_ix ;;
    if negb (expected_end_ix =? end_ix) then
      pfail (lit "Length mismatch when reading attribute " ++ show_N i)
    else ret (mk_attr name data).

(** attributes.rs:1051-1248 [read_attributes]: recursion with [stk] levels of stack. *)
Fixpoint read_attributes (stk : nat) : parser (list attr_info) :=
  match stk with
  | O => fun _ _ => Panic PStackOverflow
  | S stk' =>
      count <- read_u2 ;;
      for_n count (read_attribute (read_attributes stk') stk')
  end.

End WithPool.
