(** * src/attributes.rs with the memory reserved in advance

    Every function of attributes.rs in which [Vec::with_capacity] occurs, with
    the line of each call; the others are those of M_Attributes.v. *)
From Verif Require Import Base M_Names M_Descriptors M_ConstantPool M_Bytecode M_Attributes
  R_Base R_Bytecode.

Section WithPool.
Variable E : env.
Variable p : pool.
(** [opts.parse_bytecode] *)
Variable parse_bytecode : bool.

(** attributes.rs:367-414 [read_code_data], capacity at 385; [rec] is [read_attributes]. *)
Definition r_code_data (rec : tparser (list attr_info)) : tparser code_data :=
  max_stack <~ plain read_u2 ;;
  max_locals <~ plain read_u2 ;;
  code_length <~ plain read_u4 ;;
  bs <~ plain get_bytes ;;
  ix <~ plain get_ix ;;
  code_end <~ plain (lift (usize_result E (ix + code_length))) ;;
  if blen bs <? code_end then
    plain (pfail (lit "Unexpected end of stream reading code attribute at index " ++ show_N ix))
  else
    code <~ plain (lift (slice bs ix code_end)) ;;
    _ <~ plain (set_ix code_end) ;;
    exception_table_count <~ plain read_u2 ;;
    exception_table <~ tfor_n exception_table_count (fun i => plain (read_exception_entry p i)) ;;
    code_attributes <~ tctx (lit "code attribute") rec ;;
    bytecode <~ (if parse_bytecode then
                   b <~ tctx (lit "bytecode") (tlift (r_bytecode_from E p code)) ;; plain (ret (Some b))
                 else plain (ret None)) ;;
    plain (ret (mk_code max_stack max_locals code bytecode exception_table code_attributes)).

(** attributes.rs:450-531: one stack map entry, capacities at 497, 511 and 518 *)
Definition r_stack_map_entry (i : N) : tparser stack_map_entry :=
  v <~ plain read_u1 ;;
  if v <=? 63 then plain (ret (SmSame v))
  else if v <=? 127 then
    stack <~ plain (pctx (lit "same_locals_1_stack_item_frame stack map entry " ++ show_N i) (read_verification p)) ;;
    plain (ret (SmSameLocals1StackItem (v - 64) stack))
  else if v <=? 246 then
    plain (pctx (lit "stack map entry " ++ show_N i) (pfail (lit "Unrecognized discriminant " ++ show_N v)))
  else if v =? 247 then
    offset_delta <~ plain read_u2 ;;
    stack <~ plain (pctx (lit "same_locals_1_stack_item_frame_extended stack map entry " ++ show_N i)
               (read_verification p)) ;;
    plain (ret (SmSameLocals1StackItem offset_delta stack))
  else if v <=? 250 then
    offset_delta <~ plain read_u2 ;;
    plain (ret (SmChop offset_delta (251 - v)))
  else if v =? 251 then
    offset_delta <~ plain read_u2 ;;
    plain (ret (SmSame offset_delta))
  else if v <=? 254 then
    offset_delta <~ plain read_u2 ;;
    locals <~ tfor_n (v - 251) (fun j =>
      plain (pctx (lit "local entry " ++ show_N j ++ lit " of append stack map entry " ++ show_N i)
        (read_verification p))) ;;
    plain (ret (SmAppend offset_delta locals))
  else
    offset_delta <~ plain read_u2 ;;
    locals_count <~ plain read_u2 ;;
    locals <~ tfor_n locals_count (fun j =>
      plain (pctx (lit "local entry " ++ show_N j ++ lit " of full-frame stack map entry " ++ show_N i)
        (read_verification p))) ;;
    stack_count <~ plain read_u2 ;;
    stack <~ tfor_n stack_count (fun j =>
      plain (pctx (lit "stack entry " ++ show_N j ++ lit " of full-frame stack map entry " ++ show_N i)
        (read_verification p))) ;;
    plain (ret (SmFullFrame offset_delta locals stack)).

(** attributes.rs:443-534 [read_stackmaptable_data], capacity at 449 *)
Definition r_stackmaptable_data : tparser (list stack_map_entry) :=
  count <~ plain read_u2 ;; tfor_n count r_stack_map_entry.

(** attributes.rs:536-549 [read_exceptions_data], capacity at 542 *)
Definition r_exceptions_data : tparser (list str) :=
  count <~ plain read_u2 ;;
  tfor_n count (fun i => plain (pctx (lit "exception " ++ show_N i) (read_cp_classinfo p))).

(** attributes.rs:551-574 [read_innerclasses_data], capacity at 557 *)
Definition r_innerclasses_data : tparser (list inner_class_entry) :=
  count <~ plain read_u2 ;; tfor_n count (fun i => plain (read_inner_class p i)).

(** attributes.rs:576-588 [read_linenumber_data], capacity at 578 *)
Definition r_linenumber_data : tparser (list line_number_entry) :=
  count <~ plain read_u2 ;; tfor_n count (fun _ => plain read_line_number).

(** attributes.rs:590-617 [read_localvariable_data], capacity at 596 *)
Definition r_localvariable_data : tparser (list local_variable_entry) :=
  count <~ plain read_u2 ;; tfor_n count (fun i => plain (read_local_variable p i)).

(** attributes.rs:619-645 [read_localvariabletype_data], capacity at 625 *)
Definition r_localvariabletype_data : tparser (list local_variable_type_entry) :=
  count <~ plain read_u2 ;; tfor_n count (fun i => plain (read_local_variable_type p i)).

(** attributes.rs:696-716 [read_annotation], capacity at 705; [rec] is
    [read_annotation_element_value]. *)
Definition r_annotation_with (rec : tparser element_value) : tparser annotation :=
  type_descriptor <~ plain (pctx (lit "type descriptor field") (read_cp_field_descriptor p)) ;;
  element_count <~ plain read_u2 ;;
  elements <~ tfor_n element_count (fun i =>
    name <~ plain (pctx (lit "name of element " ++ show_N i) (read_cp_utf8 p)) ;;
    value <~ tctx (lit "value of element " ++ show_N i) rec ;;
    plain (ret (name, value))) ;;
  plain (ret (mk_ann type_descriptor elements)).

(** attributes.rs:652-692: one element value, capacity at 682; [rec] is the
    recursive call.  Every kind of value but annotations and arrays is read by
    the corresponding case of [read_element_value_with]. *)
Definition r_element_value_with (rec : tparser element_value) : tparser element_value :=
  v <~ plain read_u1 ;;
  if v =? ch "B" then n <~ plain (read_cp_integer p) ;; plain (ret (EvByte n))
  else if v =? ch "C" then n <~ plain (read_cp_integer p) ;; plain (ret (EvChar n))
  else if v =? ch "D" then n <~ plain (read_cp_double p) ;; plain (ret (EvDouble n))
  else if v =? ch "F" then n <~ plain (read_cp_float p) ;; plain (ret (EvFloat n))
  else if v =? ch "I" then n <~ plain (read_cp_integer p) ;; plain (ret (EvInt n))
  else if v =? ch "J" then n <~ plain (read_cp_long p) ;; plain (ret (EvLong n))
  else if v =? ch "S" then n <~ plain (read_cp_integer p) ;; plain (ret (EvShort n))
  else if v =? ch "Z" then n <~ plain (read_cp_integer p) ;; plain (ret (EvBoolean n))
  else if v =? ch "s" then s <~ plain (read_cp_utf8 p) ;; plain (ret (EvString s))
  else if v =? ch "e" then
    type_name <~ plain (pctx (lit "annotation element value enum descriptor") (read_cp_field_descriptor p)) ;;
    const_name <~ plain (read_cp_utf8 p) ;;
    plain (ret (EvEnum type_name const_name))
  else if v =? ch "c" then
    class_name <~ plain (read_cp_utf8 p) ;;
    ok <~ plain (lift (is_return_descriptor class_name)) ;;
    _ <~ plain (guard ok (lit "Invalid classinfo descriptor")) ;;
    plain (ret (EvClass class_name))
  else if v =? ch "@" then a <~ r_annotation_with rec ;; plain (ret (EvAnnotation a))
  else if v =? ch "[" then
    count <~ plain read_u2 ;;
    vs <~ tfor_n count (fun i => tctx (lit "array index " ++ show_N i) rec) ;;
    plain (ret (EvArray vs))
  else plain (pfail (lit "Unrecognized discriminant " ++ [v])).

(** attributes.rs:647-694 [read_annotation_element_value] *)
Fixpoint r_element_value (stk : nat) : tparser element_value :=
  match stk with
  | O => plain (fun _ _ => Panic PStackOverflow)
  | S stk' => r_element_value_with (r_element_value stk')
  end.
(** attributes.rs:696-716 [read_annotation] *)
Definition r_annotation (stk : nat) : tparser annotation :=
  r_annotation_with (r_element_value stk).

(** attributes.rs:718-730 [read_annotation_data], capacity at 724 *)
Definition r_annotation_data (stk : nat) : tparser (list annotation) :=
  count <~ plain read_u2 ;;
  tfor_n count (fun i => tctx (lit "annotation " ++ show_N i) (r_annotation stk)).

(** attributes.rs:732-751 [read_parameter_annotation_data], capacities at 738 and 741 *)
Definition r_parameter_annotation_data (stk : nat) : tparser (list (list annotation)) :=
  count <~ plain read_u1 ;;
  tfor_n count (fun i =>
    annotation_count <~ plain read_u2 ;;
    tfor_n annotation_count (fun j =>
      tctx (lit "annotation " ++ show_N j ++ lit " of parameter " ++ show_N i) (r_annotation stk))).

(** attributes.rs:761-805: the target of type annotation [i], capacity at 781.
    The targets other than a table of local variables are read by
    [read_type_annotation_target], which reads the tag again (the cursor is not
    moved by looking at it). *)
Definition r_type_annotation_target (i : N) : tparser type_annotation_target := fun bs ix =>
  match read_u1 bs ix with
  | Ok (0x40, ix') | Ok (0x41, ix') =>
      (localvar_count <~ plain read_u2 ;;
       l <~ tfor_n localvar_count (fun _ => plain read_local_var_target) ;;
       plain (ret (TgLocalVar l))) bs ix'
  | _ => plain (read_type_annotation_target i) bs ix
  end.

(** attributes.rs:753-837 [read_type_annotation_data], capacities at 759 and 810 *)
Definition r_type_annotation (stk : nat) (i : N) : tparser type_annotation :=
  target_type <~ r_type_annotation_target i ;;
  path_count <~ plain read_u1 ;;
  target_path <~ tfor_n path_count (fun j => plain (read_path_entry i j)) ;;
  annotation <~ tctx (lit "type annotation " ++ show_N i) (r_annotation stk) ;;
  plain (ret (mk_ta target_type target_path annotation)).
(** attributes.rs:753-837 [read_type_annotation_data] *)
Definition r_type_annotation_data (stk : nat) : tparser (list type_annotation) :=
  count <~ plain read_u2 ;; tfor_n count (r_type_annotation stk).

(** attributes.rs:839-859 [read_bootstrapmethods_data], capacities at 845 and 850 *)
Definition r_bootstrap_method (i : N) : tparser bootstrap_method :=
  method <~ plain (pctx (lit "method ref of bootstrap method " ++ show_N i) (read_cp_methodhandle p)) ;;
  arg_count <~ plain read_u2 ;;
  arguments <~ tfor_n arg_count (fun j =>
    plain (pctx (lit "argument " ++ show_N j ++ lit " of bootstrap method " ++ show_N i)
      (read_cp_bootstrap_argument p))) ;;
  plain (ret (mk_bm method arguments)).
(** attributes.rs:839-859 [read_bootstrapmethods_data] *)
Definition r_bootstrapmethods_data : tparser (list bootstrap_method) :=
  count <~ plain read_u2 ;; tfor_n count r_bootstrap_method.

(** attributes.rs:861-879 [read_methodparameters_data], capacity at 867 *)
Definition r_methodparameters_data : tparser (list method_parameter) :=
  count <~ plain read_u1 ;; tfor_n count (fun i => plain (read_method_parameter p i)).

(** attributes.rs:903-922, capacity at 910 *)
Definition r_module_export (i : N) : tparser module_export :=
  package_name <~ plain (pctx (lit "package name of exports entry " ++ show_N i) (read_cp_packageinfo p)) ;;
  flags <~ plain (read_exact_flags module_exports_flags
             (with_context (new_err (lit "Invalid module exports flags")) (lit "entry " ++ show_N i))) ;;
  exports_to_count <~ plain read_u2 ;;
  exports_to <~ tfor_n exports_to_count (fun j =>
    plain (pctx (lit "name of exports_to entry " ++ show_N j ++ lit " of exports entry " ++ show_N i)
      (read_cp_moduleinfo p))) ;;
  plain (ret (mk_exp package_name flags exports_to)).
(** attributes.rs:925-943, capacity at 932 *)
Definition r_module_open (i : N) : tparser module_open :=
  package_name <~ plain (pctx (lit "package name of opens entry " ++ show_N i) (read_cp_packageinfo p)) ;;
  flags <~ plain (read_exact_flags module_opens_flags
             (with_context (new_err (lit "Invalid module opens flags")) (lit "entry " ++ show_N i))) ;;
  opens_to_count <~ plain read_u2 ;;
  opens_to <~ tfor_n opens_to_count (fun j =>
    plain (pctx (lit "name of opens_to entry " ++ show_N j ++ lit " of opens entry " ++ show_N i)
      (read_cp_moduleinfo p))) ;;
  plain (ret (mk_opn package_name flags opens_to)).
(** attributes.rs:953-968, capacity at 958 *)
Definition r_module_provide (i : N) : tparser module_provide :=
  service <~ plain (pctx (lit "service interface name of provides entry " ++ show_N i) (read_cp_classinfo p)) ;;
  provides_with_count <~ plain read_u2 ;;
  provides_with <~ tfor_n provides_with_count (fun j =>
    plain (pctx (lit "provides_with entry " ++ show_N j ++ lit " of provides entry " ++ show_N i)
      (read_cp_classinfo p))) ;;
  plain (ret (mk_prov service provides_with)).

(** attributes.rs:881-980 [read_module_data], capacities at 891, 903, 925, 946 and 953 *)
Definition r_module_data : tparser module_data :=
  name <~ plain (pctx (lit "name") (read_cp_moduleinfo p)) ;;
  access_flags <~ plain (read_exact_flags module_flags (new_err (lit "Invalid access flags found"))) ;;
  version <~ plain (pctx (lit "version") (read_cp_utf8_opt p)) ;;
  requires_count <~ plain read_u2 ;;
  requires <~ tfor_n requires_count (fun i => plain (read_module_require p i)) ;;
  exports_count <~ plain read_u2 ;;
  exports <~ tfor_n exports_count r_module_export ;;
  opens_count <~ plain read_u2 ;;
  opens <~ tfor_n opens_count r_module_open ;;
  uses_count <~ plain read_u2 ;;
  uses <~ tfor_n uses_count (fun i =>
    plain (pctx (lit "name of uses entry " ++ show_N i) (read_cp_classinfo p))) ;;
  provides_count <~ plain read_u2 ;;
  provides <~ tfor_n provides_count r_module_provide ;;
  plain (ret (mk_mod name access_flags version requires exports opens uses provides)).

(** attributes.rs:982-994, capacity at 988 *)
Definition r_modulepackages_data : tparser (list str) :=
  count <~ plain read_u2 ;;
  tfor_n count (fun i => plain (pctx (lit "package name " ++ show_N i) (read_cp_packageinfo p))).
(** attributes.rs:996-1007, capacity at 1002 *)
Definition r_nestmembers_data : tparser (list str) :=
  count <~ plain read_u2 ;;
  tfor_n count (fun i => plain (pctx (lit "class name " ++ show_N i) (read_cp_classinfo p))).
(** attributes.rs:1009-1022, capacity at 1015 *)
Definition r_permitted_subclasses_data : tparser (list str) :=
  count <~ plain read_u2 ;;
  tfor_n count (fun i => plain (pctx (lit "permitted subclass " ++ show_N i) (read_cp_classinfo p))).

(** attributes.rs:1024-1049 [read_record_data], capacity at 1031; [rec] is [read_attributes]. *)
Definition r_record_component (rec : tparser (list attr_info)) (i : N) : tparser record_component :=
  name <~ plain (pctx (lit "name of entry " ++ show_N i) (read_cp_utf8 p)) ;;
  _ <~ plain (guard (is_unqualified_name name) (lit "Invalid unqualified name for entry " ++ show_N i)) ;;
  descriptor <~ plain (pctx (lit "descriptor of entry " ++ show_N i) (read_cp_field_descriptor p)) ;;
  attributes <~ tctx (lit "entry " ++ show_N i) rec ;;
  plain (ret (mk_rc name descriptor attributes)).
(** attributes.rs:1024-1049 [read_record_data] *)
Definition r_record_data (rec : tparser (list attr_info)) : tparser (list record_component) :=
  count <~ plain read_u2 ;; tfor_n count (r_record_component rec).

(** attributes.rs:1070-1241: the [match name.deref()]; [rec] is [read_attributes] and
    [stk] the stack left for annotations. *)
Definition r_attr_data (rec : tparser (list attr_info)) (stk : nat) (name : str) (i length : N)
  : tparser attr_data :=
  let attr (s : str) : str := s ++ lit " attribute " ++ show_N i in
  tdispatch name
  [ ("ConstantValue"%string,
      _ <~ plain (pctx (attr (lit "ConstantValue")) (ensure_length length 2)) ;;
      l <~ plain (pctx (attr (lit "value field of ConstantValue")) (read_cp_literalconstant p)) ;;
      plain (ret (AConstantValue l)));
    ("Code"%string,
      c <~ tctx (attr (lit "Code")) (r_code_data rec) ;; plain (ret (ACode c)));
    ("StackMapTable"%string,
      l <~ tctx (attr (lit "StackMapTable")) r_stackmaptable_data ;; plain (ret (AStackMapTable l)));
    ("Exceptions"%string,
      l <~ tctx (attr (lit "Exceptions")) r_exceptions_data ;; plain (ret (AExceptions l)));
    ("InnerClasses"%string,
      l <~ tctx (attr (lit "InnerClasses")) r_innerclasses_data ;; plain (ret (AInnerClasses l)));
    ("EnclosingMethod"%string,
      _ <~ plain (pctx (attr (lit "EnclosingMethod")) (ensure_length length 4)) ;;
      class_name <~ plain (pctx (attr (lit "class info of EnclosingMethod")) (read_cp_classinfo p)) ;;
      method <~ plain (pctx (attr (lit "method info of EnclosingMethod")) (read_cp_nameandtype_opt p)) ;;
      plain (ret (AEnclosingMethod class_name method)));
    ("Synthetic"%string,
      _ <~ plain (pctx (attr (lit "Synthetic")) (ensure_length length 0)) ;; plain (ret ASynthetic));
    ("Signature"%string,
      _ <~ plain (pctx (attr (lit "Signature")) (ensure_length length 2)) ;;
      s <~ plain (pctx (attr (lit "signature field of Signature")) (read_cp_utf8 p)) ;;
      plain (ret (ASignature s)));
    ("SourceFile"%string,
      _ <~ plain (pctx (attr (lit "SourceFile")) (ensure_length length 2)) ;;
      s <~ plain (pctx (attr (lit "signature field of SourceFile")) (read_cp_utf8 p)) ;;
      plain (ret (ASourceFile s)));
    ("SourceDebugExtension"%string,
      s <~ plain (read_source_debug_extension E i length) ;; plain (ret (ASourceDebugExtension s)));
    ("LineNumberTable"%string,
      l <~ tctx (attr (lit "LineNumberTable")) r_linenumber_data ;; plain (ret (ALineNumberTable l)));
    ("LocalVariableTable"%string,
      l <~ tctx (attr (lit "LocalVariableTable")) r_localvariable_data ;; plain (ret (ALocalVariableTable l)));
    ("LocalVariableTypeTable"%string,
      l <~ tctx (attr (lit "LocalVariableTypeTable")) r_localvariabletype_data ;;
      plain (ret (ALocalVariableTypeTable l)));
    ("Deprecated"%string,
      _ <~ plain (pctx (attr (lit "Deprecated")) (ensure_length length 0)) ;; plain (ret ADeprecated));
    ("RuntimeVisibleAnnotations"%string,
      l <~ tctx (attr (lit "RuntimeVisibleAnnotations")) (r_annotation_data stk) ;;
      plain (ret (ARuntimeVisibleAnnotations l)));
    ("RuntimeInvisibleAnnotations"%string,
      l <~ tctx (attr (lit "RuntimeInvisibleAnnotations")) (r_annotation_data stk) ;;
      plain (ret (ARuntimeInvisibleAnnotations l)));
    ("RuntimeVisibleParameterAnnotations"%string,
      l <~ tctx (attr (lit "RuntimeVisibleParameterAnnotations")) (r_parameter_annotation_data stk) ;;
      plain (ret (ARuntimeVisibleParameterAnnotations l)));
    ("RuntimeInvisibleParameterAnnotations"%string,
      l <~ tctx (attr (lit "RuntimeInvisibleParameterAnnotations")) (r_parameter_annotation_data stk) ;;
      plain (ret (ARuntimeInvisibleParameterAnnotations l)));
    ("RuntimeVisibleTypeAnnotations"%string,
      l <~ tctx (attr (lit "RuntimeVisibleTypeAnnotations")) (r_type_annotation_data stk) ;;
      plain (ret (ARuntimeVisibleTypeAnnotations l)));
    ("RuntimeInvisibleTypeAnnotations"%string,
      l <~ tctx (attr (lit "RuntimeInvisibleTypeAnnotations")) (r_type_annotation_data stk) ;;
      plain (ret (ARuntimeInvisibleTypeAnnotations l)));
    ("AnnotationDefault"%string,
      v <~ tctx (attr (lit "AnnotationDefault")) (r_element_value stk) ;; plain (ret (AAnnotationDefault v)));
    ("BootstrapMethods"%string,
      l <~ tctx (attr (lit "BootstrapMethods")) r_bootstrapmethods_data ;; plain (ret (ABootstrapMethods l)));
    ("MethodParameters"%string,
      l <~ tctx (attr (lit "MethodParameters")) r_methodparameters_data ;; plain (ret (AMethodParameters l)));
    ("Module"%string,
      m <~ tctx (attr (lit "Module")) r_module_data ;; plain (ret (AModule m)));
    ("ModulePackages"%string,
      l <~ tctx (attr (lit "ModulePackages")) r_modulepackages_data ;; plain (ret (AModulePackages l)));
    ("ModuleMainClass"%string,
      _ <~ plain (pctx (attr (lit "ModuleMainClass")) (ensure_length length 2)) ;;
      s <~ plain (pctx (attr (lit "ModuleMainClass")) (read_cp_classinfo p)) ;;
      plain (ret (AModuleMainClass s)));
    ("NestHost"%string,
      _ <~ plain (pctx (attr (lit "NestHost")) (ensure_length length 2)) ;;
      s <~ plain (pctx (attr (lit "NestHost")) (read_cp_classinfo p)) ;;
      plain (ret (ANestHost s)));
    ("NestMembers"%string,
      l <~ tctx (attr (lit "NestMembers")) r_nestmembers_data ;; plain (ret (ANestMembers l)));
    ("PermittedSubclasses"%string,
      l <~ tctx (attr (lit "PermittedSubclasses")) r_permitted_subclasses_data ;;
      plain (ret (APermittedSubclasses l)));
    ("Record"%string,
      l <~ tctx (attr (lit "Record")) (r_record_data rec) ;; plain (ret (ARecord l))) ]
  (raw <~ plain (read_other_attribute E length) ;; plain (ret (AOther raw))).

(** attributes.rs:1059-1245: one iteration of the attribute loop *)
Definition r_attribute (rec : tparser (list attr_info)) (stk : nat) (i : N) : tparser attr_info :=
  name <~ plain (pctx (lit "name field of attribute " ++ show_N i) (read_cp_utf8 p)) ;;
  length <~ plain read_u4 ;;
  bs <~ plain get_bytes ;;
  ix <~ plain get_ix ;;
  expected_end_ix <~ plain (lift (usize_result E (ix + length))) ;;
  if blen bs <? expected_end_ix then
    plain (pfail (lit "Unexpected end of stream reading attributes at index " ++ show_N ix))
  else
    data <~ r_attr_data rec stk name i length ;;
    end_ix <~ plain get_ix ;;
    if negb (expected_end_ix =? end_ix) then
      plain (pfail (lit "Length mismatch when reading attribute " ++ show_N i))
    else plain (ret (mk_attr name data)).

(** attributes.rs:1051-1248 [read_attributes], capacity at 1058 *)
Fixpoint r_attributes (stk : nat) : tparser (list attr_info) :=
  match stk with
  | O => plain (fun _ _ => Panic PStackOverflow)
  | S stk' =>
      count <~ plain read_u2 ;;
      tfor_n count (r_attribute (r_attributes stk') stk')
  end.

End WithPool.
