(** * src/attributes.rs with a count of the steps *)
From Verif Require Import Base M_Names M_Descriptors M_ConstantPool M_Bytecode M_Attributes
  W_Base W_Descriptors W_ConstantPool W_Bytecode.

Section WithPool.
Variable E : env.
Variable p : pool.
(** [opts.parse_bytecode] *)
Variable parse_bytecode : bool.

(** attributes.rs:360-365 *)
Definition w_ensure_length (length expected : N) : wparser unit :=
  if negb (length =? expected) then wfail (lit "Unexpected length " ++ show_N length) else wret tt.

(** attributes.rs:590-617, 647-716, 1024-1049. [read_cp_utf8(bytes, ix, pool).and_then(|d| parse_field_descriptor(&d, 0))] *)
Definition w_field_descriptor : wparser field_desc :=
  d <~ w_utf8 p ;; wlift (w_parse_field_descriptor d 0).

(** attributes.rs:861-879, 881-950. [F::from_bits(read_u2(bytes, ix)?).ok_or_else(|| err)] *)
Definition w_exact_flags (all : N) (e : perr) : wparser N :=
  n <~ w_u2 ;;
  match from_bits all n with
  | Some f => wret f
  | None => costs 1 (lift (Err e))
  end.

(** attributes.rs:386-398 *)
Definition w_exception_entry (i : N) : wparser exception_entry :=
  start_pc <~ w_u2 ;;
  end_pc <~ w_u2 ;;
  handler_pc <~ w_u2 ;;
  catch_type <~ wctx (lit "catch type of exception table entry " ++ show_N i)
                  (w_class_opt p) ;;
  wret (mk_exc start_pc end_pc handler_pc catch_type).

(** attributes.rs:367-414 [read_code_data]; [rec] is [read_attributes]. *)
Definition w_code_data (rec : wparser (list attr_info)) : wparser code_data :=
  max_stack <~ w_u2 ;;
  max_locals <~ w_u2 ;;
  code_length <~ w_u4 ;;
  bs <~ costs 0 get_bytes ;;
  ix <~ costs 0 get_ix ;;
  code_end <~ costs 1 (lift (usize_result E (ix + code_length))) ;;
  if blen bs <? code_end then
    wfail (lit "Unexpected end of stream reading code attribute at index " ++ show_N ix)
  else
    code <~ costs 1 (lift (slice bs ix code_end)) ;;
    _ <~ costs 1 (set_ix code_end) ;;
    exception_table_count <~ w_u2 ;;
    exception_table <~ wfor_n exception_table_count w_exception_entry ;;
    code_attributes <~ wctx (lit "code attribute") rec ;;
    bytecode <~ (if parse_bytecode then
                   b <~ wctx (lit "bytecode") (wlift (w_bytecode_from E code p)) ;; wret (Some b)
                 else wret None) ;;
    wret (mk_code max_stack max_locals code bytecode exception_table code_attributes).

(** attributes.rs:416-441 [read_stackmaptable_verification] *)
Definition w_verification : wparser verification_type :=
  v <~ w_u1 ;;
  match v with
  | 0 => wret VTop
  | 1 => wret VInteger
  | 2 => wret VFloat
  | 3 => wret VDouble
  | 4 => wret VLong
  | 5 => wret VNull
  | 6 => wret VUninitializedThis
  | 7 => class_name <~ wctx (lit "object verification type") (w_class p) ;;
         wret (VObject class_name)
  | 8 => code_offset <~ w_u2 ;; wret (VUninitialized code_offset)
  | _ => wfail (lit "Unrecognized verification type " ++ show_N v)
  end.

(** attributes.rs:450-531: one stack map entry *)
Definition w_stack_map_entry (i : N) : wparser stack_map_entry :=
  v <~ w_u1 ;;
  if v <=? 63 then wret (SmSame v)
  else if v <=? 127 then
    stack <~ wctx (lit "same_locals_1_stack_item_frame stack map entry " ++ show_N i) w_verification ;;
    wret (SmSameLocals1StackItem (v - 64) stack)
  else if v <=? 246 then
    wctx (lit "stack map entry " ++ show_N i) (wfail (lit "Unrecognized discriminant " ++ show_N v))
  else if v =? 247 then
    offset_delta <~ w_u2 ;;
    stack <~ wctx (lit "same_locals_1_stack_item_frame_extended stack map entry " ++ show_N i)
               w_verification ;;
    wret (SmSameLocals1StackItem offset_delta stack)
  else if v <=? 250 then
    offset_delta <~ w_u2 ;;
    wret (SmChop offset_delta (251 - v))
  else if v =? 251 then
    offset_delta <~ w_u2 ;;
    wret (SmSame offset_delta)
  else if v <=? 254 then
    offset_delta <~ w_u2 ;;
    locals <~ wfor_n (v - 251) (fun j =>
      wctx (lit "local entry " ++ show_N j ++ lit " of append stack map entry " ++ show_N i)
        w_verification) ;;
    wret (SmAppend offset_delta locals)
  else
    offset_delta <~ w_u2 ;;
    locals_count <~ w_u2 ;;
    locals <~ wfor_n locals_count (fun j =>
      wctx (lit "local entry " ++ show_N j ++ lit " of full-frame stack map entry " ++ show_N i)
        w_verification) ;;
    stack_count <~ w_u2 ;;
    stack <~ wfor_n stack_count (fun j =>
      wctx (lit "stack entry " ++ show_N j ++ lit " of full-frame stack map entry " ++ show_N i)
        w_verification) ;;
    wret (SmFullFrame offset_delta locals stack).

(** attributes.rs:443-534 [read_stackmaptable_data] *)
Definition w_stackmaptable_data : wparser (list stack_map_entry) :=
  count <~ w_u2 ;; wfor_n count w_stack_map_entry.

(** attributes.rs:536-549 [read_exceptions_data] *)
Definition w_exceptions_data : wparser (list str) :=
  count <~ w_u2 ;;
  wfor_n count (fun i => wctx (lit "exception " ++ show_N i) (w_class p)).

(** attributes.rs:551-574 [read_innerclasses_data] *)
Definition w_inner_class (i : N) : wparser inner_class_entry :=
  inner <~ wctx (lit "inner class info for inner class " ++ show_N i) (w_class p) ;;
  outer <~ wctx (lit "outer class info for inner class " ++ show_N i) (w_class_opt p) ;;
  name <~ wctx (lit "inner name for inner class " ++ show_N i) (w_utf8_opt p) ;;
  flags <~ w_u2 ;;
  wret (mk_ic inner outer name (from_bits_truncate inner_class_flags flags)).
(** attributes.rs:551-574 [read_innerclasses_data] *)
Definition w_innerclasses_data : wparser (list inner_class_entry) :=
  count <~ w_u2 ;; wfor_n count w_inner_class.

(** attributes.rs:576-588 [read_linenumber_data] *)
Definition w_line_number : wparser line_number_entry :=
  start_pc <~ w_u2 ;; line_number <~ w_u2 ;; wret (mk_ln start_pc line_number).
(** attributes.rs:576-588 [read_linenumber_data] *)
Definition w_linenumber_data : wparser (list line_number_entry) :=
  count <~ w_u2 ;; wfor_n count (fun _ => w_line_number).

(** attributes.rs:590-617 [read_localvariable_data] *)
Definition w_local_variable (i : N) : wparser local_variable_entry :=
  start_pc <~ w_u2 ;;
  length <~ w_u2 ;;
  name <~ wctx (lit "name for variable " ++ show_N i) (w_utf8 p) ;;
  _ <~ wguard (text name) (is_unqualified_name name) (lit "Invalid unqualified name for variable " ++ show_N i) ;;
  descriptor <~ wctx (lit "descriptor for variable " ++ show_N i) w_field_descriptor ;;
  index <~ w_u2 ;;
  wret (mk_lv start_pc length name descriptor index).
(** attributes.rs:590-617 [read_localvariable_data] *)
Definition w_localvariable_data : wparser (list local_variable_entry) :=
  count <~ w_u2 ;; wfor_n count w_local_variable.

(** attributes.rs:619-645 [read_localvariabletype_data] *)
Definition w_local_variable_type (i : N) : wparser local_variable_type_entry :=
  start_pc <~ w_u2 ;;
  length <~ w_u2 ;;
  name <~ wctx (lit "name for variable " ++ show_N i) (w_utf8 p) ;;
  _ <~ wguard (text name) (is_unqualified_name name) (lit "Invalid unqualified name for variable " ++ show_N i) ;;
  signature <~ wctx (lit "signature for variable " ++ show_N i) (w_utf8 p) ;;
  index <~ w_u2 ;;
  wret (mk_lvt start_pc length name signature index).
(** attributes.rs:619-645 [read_localvariabletype_data] *)
Definition w_localvariabletype_data : wparser (list local_variable_type_entry) :=
  count <~ w_u2 ;; wfor_n count w_local_variable_type.

(** attributes.rs:696-716 [read_annotation]; [rec] is [read_annotation_element_value]. *)
Definition w_annotation_with (rec : wparser element_value) : wparser annotation :=
  type_descriptor <~ wctx (lit "type descriptor field") w_field_descriptor ;;
  element_count <~ w_u2 ;;
  elements <~ wfor_n element_count (fun i =>
    name <~ wctx (lit "name of element " ++ show_N i) (w_utf8 p) ;;
    value <~ wctx (lit "value of element " ++ show_N i) rec ;;
    wret (name, value)) ;;
  wret (mk_ann type_descriptor elements).

(** attributes.rs:652-692: one element value; [rec] is the recursive call. *)
Definition w_element_value_with (rec : wparser element_value) : wparser element_value :=
  v <~ w_u1 ;;
  if v =? ch "B" then n <~ w_integer p ;; wret (EvByte n)
  else if v =? ch "C" then n <~ w_integer p ;; wret (EvChar n)
  else if v =? ch "D" then n <~ w_double p ;; wret (EvDouble n)
  else if v =? ch "F" then n <~ w_float p ;; wret (EvFloat n)
  else if v =? ch "I" then n <~ w_integer p ;; wret (EvInt n)
  else if v =? ch "J" then n <~ w_long p ;; wret (EvLong n)
  else if v =? ch "S" then n <~ w_integer p ;; wret (EvShort n)
  else if v =? ch "Z" then n <~ w_integer p ;; wret (EvBoolean n)
  else if v =? ch "s" then s <~ w_utf8 p ;; wret (EvString s)
  else if v =? ch "e" then
    type_name <~ wctx (lit "annotation element value enum descriptor") w_field_descriptor ;;
    const_name <~ w_utf8 p ;;
    wret (EvEnum type_name const_name)
  else if v =? ch "c" then
    class_name <~ w_utf8 p ;;
    ok <~ wlift (w_is_return_descriptor class_name) ;;
    _ <~ wguard 1 ok (lit "Invalid classinfo descriptor") ;;
    wret (EvClass class_name)
  else if v =? ch "@" then a <~ w_annotation_with rec ;; wret (EvAnnotation a)
  else if v =? ch "[" then
    count <~ w_u2 ;;
    vs <~ wfor_n count (fun i => wctx (lit "array index " ++ show_N i) rec) ;;
    wret (EvArray vs)
  else wfail (lit "Unrecognized discriminant " ++ [v]).

(** attributes.rs:647-694 [read_annotation_element_value]: recursion with [stk]
    levels of stack available. *)
Fixpoint w_element_value (stk : nat) : wparser element_value :=
  match stk with
  | O => fun _ _ => (Panic PStackOverflow, 0)
  | S stk' => w_element_value_with (w_element_value stk')
  end.
(** attributes.rs:696-716 [read_annotation] *)
Definition w_annotation (stk : nat) : wparser annotation :=
  w_annotation_with (w_element_value stk).

(** attributes.rs:718-730 [read_annotation_data] *)
Definition w_annotation_data (stk : nat) : wparser (list annotation) :=
  count <~ w_u2 ;;
  wfor_n count (fun i => wctx (lit "annotation " ++ show_N i) (w_annotation stk)).

(** attributes.rs:732-751 [read_parameter_annotation_data] *)
Definition w_parameter_annotation_data (stk : nat) : wparser (list (list annotation)) :=
  count <~ w_u1 ;;
  wfor_n count (fun i =>
    annotation_count <~ w_u2 ;;
    wfor_n annotation_count (fun j =>
      wctx (lit "annotation " ++ show_N j ++ lit " of parameter " ++ show_N i) (w_annotation stk))).

(** attributes.rs:761-805: the target of type annotation [i] *)
Definition w_local_var_target : wparser local_var_target :=
  start_pc <~ w_u2 ;; length <~ w_u2 ;; index <~ w_u2 ;; wret (mk_lvtg start_pc length index).
(** attributes.rs:761-805: the target of a type annotation *)
Definition w_type_annotation_target (i : N) : wparser type_annotation_target :=
  v <~ w_u1 ;;
  match v with
  | 0x00 | 0x01 => index <~ w_u1 ;; wret (TgTypeParameter index)
  | 0x10 => index <~ w_u2 ;; wret (TgSupertype index)
  | 0x11 | 0x12 => t <~ w_u1 ;; b <~ w_u1 ;; wret (TgTypeParameterBound t b)
  | 0x13 | 0x14 | 0x15 => wret TgEmpty
  | 0x16 => index <~ w_u1 ;; wret (TgFormalParameter index)
  | 0x17 => index <~ w_u2 ;; wret (TgThrows index)
  | 0x40 | 0x41 =>
      localvar_count <~ w_u2 ;;
      l <~ wfor_n localvar_count (fun _ => w_local_var_target) ;;
      wret (TgLocalVar l)
  | 0x42 => index <~ w_u2 ;; wret (TgCatch index)
  | 0x43 | 0x44 | 0x45 | 0x46 => offset <~ w_u2 ;; wret (TgOffset offset)
  | 0x47 | 0x48 | 0x49 | 0x4A | 0x4B =>
      offset <~ w_u2 ;; t <~ w_u1 ;; wret (TgTypeArgument offset t)
  | _ => wctx (lit "type annotation " ++ show_N i)
           (wfail (lit "Unrecognized target type " ++ show_N v))
  end.

(** attributes.rs:808-825: path element [j] of type annotation [i] *)
Definition w_path_entry (i j : N) : wparser path_entry :=
  v <~ w_u1 ;;
  k <~ (match v with
        | 0 => wret PkDeeperArray
        | 1 => wret PkDeeperNested
        | 2 => wret PkWildcardTypeArgument
        | 3 => wret PkTypeArgument
        | _ => wctx (lit "path element " ++ show_N j ++ lit " of type annotation " ++ show_N i)
                 (wfail (lit "Unrecognized path kind " ++ show_N v))
        end) ;;
  argument_index <~ w_u1 ;;
  wret (mk_pe k argument_index).

(** attributes.rs:753-837 [read_type_annotation_data] *)
Definition w_type_annotation (stk : nat) (i : N) : wparser type_annotation :=
  target_type <~ w_type_annotation_target i ;;
  path_count <~ w_u1 ;;
  target_path <~ wfor_n path_count (w_path_entry i) ;;
  annotation <~ wctx (lit "type annotation " ++ show_N i) (w_annotation stk) ;;
  wret (mk_ta target_type target_path annotation).
(** attributes.rs:753-837 [read_type_annotation_data] *)
Definition w_type_annotation_data (stk : nat) : wparser (list type_annotation) :=
  count <~ w_u2 ;; wfor_n count (w_type_annotation stk).

(** attributes.rs:839-859 [read_bootstrapmethods_data] *)
Definition w_bootstrap_method (i : N) : wparser bootstrap_method :=
  method <~ wctx (lit "method ref of bootstrap method " ++ show_N i) (w_methodhandle p) ;;
  arg_count <~ w_u2 ;;
  arguments <~ wfor_n arg_count (fun j =>
    wctx (lit "argument " ++ show_N j ++ lit " of bootstrap method " ++ show_N i)
      (w_bootstrap_argument p)) ;;
  wret (mk_bm method arguments).
(** attributes.rs:839-859 [read_bootstrapmethods_data] *)
Definition w_bootstrapmethods_data : wparser (list bootstrap_method) :=
  count <~ w_u2 ;; wfor_n count w_bootstrap_method.

(** attributes.rs:861-879 [read_methodparameters_data] *)
Definition w_method_parameter (i : N) : wparser method_parameter :=
  name <~ wctx (lit "name of method parameter " ++ show_N i) (w_utf8_opt p) ;;
  _ <~ wguard (match name with Some n => text n | None => 1 end) (match name with Some n => is_unqualified_name n | None => true end)
         (lit "Invalid unqualified name for variable " ++ show_N i) ;;
  access_flags <~ w_exact_flags method_parameter_flags
                    (with_context (new_err (lit "Invalid access flags found"))
                       (lit "method parameter " ++ show_N i)) ;;
  wret (mk_mp name access_flags).
(** attributes.rs:861-879 [read_methodparameters_data] *)
Definition w_methodparameters_data : wparser (list method_parameter) :=
  count <~ w_u1 ;; wfor_n count w_method_parameter.

(** attributes.rs:892-900 *)
Definition w_module_require (i : N) : wparser module_require :=
  name <~ wctx (lit "name of requires entry " ++ show_N i) (w_module_name p) ;;
  flags <~ w_exact_flags module_requires_flags
             (with_context (new_err (lit "Invalid module requires flags")) (lit "entry " ++ show_N i)) ;;
  version <~ wctx (lit "version of requires entry " ++ show_N i) (w_utf8_opt p) ;;
  wret (mk_req name flags version).
(** attributes.rs:903-922 *)
Definition w_module_export (i : N) : wparser module_export :=
  package_name <~ wctx (lit "package name of exports entry " ++ show_N i) (w_package_name p) ;;
  flags <~ w_exact_flags module_exports_flags
             (with_context (new_err (lit "Invalid module exports flags")) (lit "entry " ++ show_N i)) ;;
  exports_to_count <~ w_u2 ;;
  exports_to <~ wfor_n exports_to_count (fun j =>
    wctx (lit "name of exports_to entry " ++ show_N j ++ lit " of exports entry " ++ show_N i)
      (w_module_name p)) ;;
  wret (mk_exp package_name flags exports_to).
(** attributes.rs:925-943 *)
Definition w_module_open (i : N) : wparser module_open :=
  package_name <~ wctx (lit "package name of opens entry " ++ show_N i) (w_package_name p) ;;
  flags <~ w_exact_flags module_opens_flags
             (with_context (new_err (lit "Invalid module opens flags")) (lit "entry " ++ show_N i)) ;;
  opens_to_count <~ w_u2 ;;
  opens_to <~ wfor_n opens_to_count (fun j =>
    wctx (lit "name of opens_to entry " ++ show_N j ++ lit " of opens entry " ++ show_N i)
      (w_module_name p)) ;;
  wret (mk_opn package_name flags opens_to).
(** attributes.rs:953-968 *)
Definition w_module_provide (i : N) : wparser module_provide :=
  service <~ wctx (lit "service interface name of provides entry " ++ show_N i) (w_class p) ;;
  provides_with_count <~ w_u2 ;;
  provides_with <~ wfor_n provides_with_count (fun j =>
    wctx (lit "provides_with entry " ++ show_N j ++ lit " of provides entry " ++ show_N i)
      (w_class p)) ;;
  wret (mk_prov service provides_with).

(** attributes.rs:881-980 [read_module_data] *)
Definition w_module_data : wparser module_data :=
  name <~ wctx (lit "name") (w_module_name p) ;;
  access_flags <~ w_exact_flags module_flags (new_err (lit "Invalid access flags found")) ;;
  version <~ wctx (lit "version") (w_utf8_opt p) ;;
  requires_count <~ w_u2 ;;
  requires <~ wfor_n requires_count w_module_require ;;
  exports_count <~ w_u2 ;;
  exports <~ wfor_n exports_count w_module_export ;;
  opens_count <~ w_u2 ;;
  opens <~ wfor_n opens_count w_module_open ;;
  uses_count <~ w_u2 ;;
  uses <~ wfor_n uses_count (fun i =>
    wctx (lit "name of uses entry " ++ show_N i) (w_class p)) ;;
  provides_count <~ w_u2 ;;
  provides <~ wfor_n provides_count w_module_provide ;;
  wret (mk_mod name access_flags version requires exports opens uses provides).

(** attributes.rs:982-994 *)
Definition w_modulepackages_data : wparser (list str) :=
  count <~ w_u2 ;;
  wfor_n count (fun i => wctx (lit "package name " ++ show_N i) (w_package_name p)).
(** attributes.rs:996-1007 *)
Definition w_nestmembers_data : wparser (list str) :=
  count <~ w_u2 ;;
  wfor_n count (fun i => wctx (lit "class name " ++ show_N i) (w_class p)).
(** attributes.rs:1009-1022 *)
Definition w_permitted_subclasses_data : wparser (list str) :=
  count <~ w_u2 ;;
  wfor_n count (fun i => wctx (lit "permitted subclass " ++ show_N i) (w_class p)).

(** attributes.rs:1024-1049 [read_record_data]; [rec] is [read_attributes]. *)
Definition w_record_component (rec : wparser (list attr_info)) (i : N) : wparser record_component :=
  name <~ wctx (lit "name of entry " ++ show_N i) (w_utf8 p) ;;
  _ <~ wguard (text name) (is_unqualified_name name) (lit "Invalid unqualified name for entry " ++ show_N i) ;;
  descriptor <~ wctx (lit "descriptor of entry " ++ show_N i) w_field_descriptor ;;
  attributes <~ wctx (lit "entry " ++ show_N i) rec ;;
  wret (mk_rc name descriptor attributes).
(** attributes.rs:1024-1049 [read_record_data] *)
Definition w_record_data (rec : wparser (list attr_info)) : wparser (list record_component) :=
  count <~ w_u2 ;; wfor_n count (w_record_component rec).

(** attributes.rs:1125-1136 *)
Definition w_source_debug_extension (i length : N) : wparser str :=
  bs <~ costs 0 get_bytes ;;
  ix <~ costs 0 get_ix ;;
  e <~ costs 1 (lift (usize_result E (ix + length))) ;;
  data <~ costs 1 (lift (slice bs ix e)) ;;
  _ <~ costs 1 (set_ix e) ;;
  _ <~ tick (2 * blen data) ;;
  match cesu8 E data with
  | Some s => wret s
  | None => costs 1 (lift (Err (with_context (new_err (cesu8_err E))
              (lit "modified utf8 data of SourceDebugExtension attribute " ++ show_N i))))
  end.

(** attributes.rs:1237-1240 *)
Definition w_other_attribute (length : N) : wparser (list byte) :=
  bs <~ costs 0 get_bytes ;;
  ix <~ costs 0 get_ix ;;
  e <~ costs 1 (lift (usize_result E (ix + length))) ;;
  _ <~ costs 1 (set_ix e) ;;
  s <~ costs 1 (lift (usize_sub E e length)) ;;
  costs 1 (lift (slice bs s e)).

(** attributes.rs:1070-1241: the [match name.deref()]; [rec] is [read_attributes] and
    [stk] the stack left for annotations. *)
Definition w_attr_data (rec : wparser (list attr_info)) (stk : nat) (name : str) (i length : N)
  : wparser attr_data :=
  let attr (s : str) : str := s ++ lit " attribute " ++ show_N i in
  wdispatch name
  [ ("ConstantValue"%string,
      _ <~ wctx (attr (lit "ConstantValue")) (w_ensure_length length 2) ;;
      l <~ wctx (attr (lit "value field of ConstantValue")) (w_literalconstant p) ;;
      wret (AConstantValue l));
    ("Code"%string,
      c <~ wctx (attr (lit "Code")) (w_code_data rec) ;; wret (ACode c));
    ("StackMapTable"%string,
      l <~ wctx (attr (lit "StackMapTable")) w_stackmaptable_data ;; wret (AStackMapTable l));
    ("Exceptions"%string,
      l <~ wctx (attr (lit "Exceptions")) w_exceptions_data ;; wret (AExceptions l));
    ("InnerClasses"%string,
      l <~ wctx (attr (lit "InnerClasses")) w_innerclasses_data ;; wret (AInnerClasses l));
    ("EnclosingMethod"%string,
      _ <~ wctx (attr (lit "EnclosingMethod")) (w_ensure_length length 4) ;;
      class_name <~ wctx (attr (lit "class info of EnclosingMethod")) (w_class p) ;;
      method <~ wctx (attr (lit "method info of EnclosingMethod")) (w_nameandtype_opt p) ;;
      wret (AEnclosingMethod class_name method));
    ("Synthetic"%string,
      _ <~ wctx (attr (lit "Synthetic")) (w_ensure_length length 0) ;; wret ASynthetic);
    ("Signature"%string,
      _ <~ wctx (attr (lit "Signature")) (w_ensure_length length 2) ;;
      s <~ wctx (attr (lit "signature field of Signature")) (w_utf8 p) ;;
      wret (ASignature s));
    ("SourceFile"%string,
      _ <~ wctx (attr (lit "SourceFile")) (w_ensure_length length 2) ;;
      s <~ wctx (attr (lit "signature field of SourceFile")) (w_utf8 p) ;;
      wret (ASourceFile s));
    ("SourceDebugExtension"%string,
      s <~ w_source_debug_extension i length ;; wret (ASourceDebugExtension s));
    ("LineNumberTable"%string,
      l <~ wctx (attr (lit "LineNumberTable")) w_linenumber_data ;; wret (ALineNumberTable l));
    ("LocalVariableTable"%string,
      l <~ wctx (attr (lit "LocalVariableTable")) w_localvariable_data ;; wret (ALocalVariableTable l));
    ("LocalVariableTypeTable"%string,
      l <~ wctx (attr (lit "LocalVariableTypeTable")) w_localvariabletype_data ;;
      wret (ALocalVariableTypeTable l));
    ("Deprecated"%string,
      _ <~ wctx (attr (lit "Deprecated")) (w_ensure_length length 0) ;; wret ADeprecated);
    ("RuntimeVisibleAnnotations"%string,
      l <~ wctx (attr (lit "RuntimeVisibleAnnotations")) (w_annotation_data stk) ;;
      wret (ARuntimeVisibleAnnotations l));
    ("RuntimeInvisibleAnnotations"%string,
      l <~ wctx (attr (lit "RuntimeInvisibleAnnotations")) (w_annotation_data stk) ;;
      wret (ARuntimeInvisibleAnnotations l));
    ("RuntimeVisibleParameterAnnotations"%string,
      l <~ wctx (attr (lit "RuntimeVisibleParameterAnnotations")) (w_parameter_annotation_data stk) ;;
      wret (ARuntimeVisibleParameterAnnotations l));
    ("RuntimeInvisibleParameterAnnotations"%string,
      l <~ wctx (attr (lit "RuntimeInvisibleParameterAnnotations")) (w_parameter_annotation_data stk) ;;
      wret (ARuntimeInvisibleParameterAnnotations l));
    ("RuntimeVisibleTypeAnnotations"%string,
      l <~ wctx (attr (lit "RuntimeVisibleTypeAnnotations")) (w_type_annotation_data stk) ;;
      wret (ARuntimeVisibleTypeAnnotations l));
    ("RuntimeInvisibleTypeAnnotations"%string,
      l <~ wctx (attr (lit "RuntimeInvisibleTypeAnnotations")) (w_type_annotation_data stk) ;;
      wret (ARuntimeInvisibleTypeAnnotations l));
    ("AnnotationDefault"%string,
      v <~ wctx (attr (lit "AnnotationDefault")) (w_element_value stk) ;; wret (AAnnotationDefault v));
    ("BootstrapMethods"%string,
      l <~ wctx (attr (lit "BootstrapMethods")) w_bootstrapmethods_data ;; wret (ABootstrapMethods l));
    ("MethodParameters"%string,
      l <~ wctx (attr (lit "MethodParameters")) w_methodparameters_data ;; wret (AMethodParameters l));
    ("Module"%string,
      m <~ wctx (attr (lit "Module")) w_module_data ;; wret (AModule m));
    ("ModulePackages"%string,
      l <~ wctx (attr (lit "ModulePackages")) w_modulepackages_data ;; wret (AModulePackages l));
    ("ModuleMainClass"%string,
      _ <~ wctx (attr (lit "ModuleMainClass")) (w_ensure_length length 2) ;;
      s <~ wctx (attr (lit "ModuleMainClass")) (w_class p) ;;
      wret (AModuleMainClass s));
    ("NestHost"%string,
      _ <~ wctx (attr (lit "NestHost")) (w_ensure_length length 2) ;;
      s <~ wctx (attr (lit "NestHost")) (w_class p) ;;
      wret (ANestHost s));
    ("NestMembers"%string,
      l <~ wctx (attr (lit "NestMembers")) w_nestmembers_data ;; wret (ANestMembers l));
    ("PermittedSubclasses"%string,
      l <~ wctx (attr (lit "PermittedSubclasses")) w_permitted_subclasses_data ;;
      wret (APermittedSubclasses l));
    ("Record"%string,
      l <~ wctx (attr (lit "Record")) (w_record_data rec) ;; wret (ARecord l)) ]
  (raw <~ w_other_attribute length ;; wret (AOther raw)).

(** attributes.rs:1059-1245: one iteration of the attribute loop *)
Definition w_attribute (rec : wparser (list attr_info)) (stk : nat) (i : N) : wparser attr_info :=
  name <~ wctx (lit "name field of attribute " ++ show_N i) (w_utf8 p) ;;
  length <~ w_u4 ;;
  bs <~ costs 0 get_bytes ;;
  ix <~ costs 0 get_ix ;;
  expected_end_ix <~ costs 1 (lift (usize_result E (ix + length))) ;;
  if blen bs <? expected_end_ix then
    wfail (lit "Unexpected end of stream reading attributes at index " ++ show_N ix)
  else
    data <~ w_attr_data rec stk name i length ;;
    end_ix <~ costs 0 get_ix ;;
    if negb (expected_end_ix =? end_ix) then
      wfail (lit "Length mismatch when reading attribute " ++ show_N i)
    else wret (mk_attr name data).

(** attributes.rs:1051-1248 [read_attributes]: recursion with [stk] levels of stack. *)
Fixpoint w_attributes (stk : nat) : wparser (list attr_info) :=
  match stk with
  | O => fun _ _ => (Panic PStackOverflow, 0)
  | S stk' =>
      count <~ w_u2 ;;
      wfor_n count (w_attribute (w_attributes stk') stk')
  end.


End WithPool.
