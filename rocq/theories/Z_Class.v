(** * Borrowing in src/lib.rs: as M_Class, with [Cow<'a, str>] for texts. *)
From Verif Require Import Base M_Names M_Descriptors M_ConstantPool M_Bytecode M_Attributes M_Class
  Z_Cow Z_Descriptors Z_ConstantPool Z_Bytecode Z_Attributes Z_Plain.

(** lib.rs:154-159 [FieldInfo], 218-223 [MethodInfo], 322-333 [ClassFile] *)
Record field_info := mk_field {
  f_access_flags : N; f_name : cow; f_descriptor : field_desc; f_attributes : list attr_info }.
(** lib.rs:217-223 [MethodInfo] *)
Record method_info := mk_method {
  m_access_flags : N; m_name : cow; m_descriptor : method_desc; m_attributes : list attr_info }.
(** lib.rs:321-333 [ClassFile] *)
Record class_file := mk_class {
  major_version : N; minor_version : N; constant_pool : pool; access_flags : N;
  this_class : cow; super_class : option cow; interfaces : list cow;
  fields : list field_info; methods : list method_info; class_attributes : list attr_info }.

(** lib.rs:153-159. Values without the borrowing information. *)
Definition plain_field (f : field_info) : M_Class.field_info :=
  M_Class.mk_field (f_access_flags f) (chars (f_name f)) (plain_field_desc (f_descriptor f)) (map plain_attr (f_attributes f)).
(** lib.rs:217-223: the same for [MethodInfo] *)
Definition plain_method (m : method_info) : M_Class.method_info :=
  M_Class.mk_method (m_access_flags m) (chars (m_name m)) (plain_method_desc (m_descriptor m)) (map plain_attr (m_attributes m)).
(** lib.rs:321-333: the same for [ClassFile] *)
Definition plain_class (c : class_file) : M_Class.class_file :=
  M_Class.mk_class (major_version c) (minor_version c) (plain_pool (constant_pool c)) (access_flags c)
    (chars (this_class c)) (option_map chars (super_class c)) (map chars (interfaces c))
    (map plain_field (fields c)) (map plain_method (methods c)) (map plain_attr (class_attributes c)).

Section WithPool.
Variable E : env.
Variable p : pool.
Variable opts : parse_options.

(** lib.rs:94-109 [read_interfaces] *)
Definition read_interfaces : parser (list cow) :=
  count <- read_u2 ;;
  for_n count (fun i =>
    pctx (lit "interface " ++ show_N i)
      (s <- read_cp_classinfo p ;; lift (class_name_try_from s))).

(** lib.rs:161-198. [HashSet::insert]: [Cow] is compared and hashed by contents. *)
Definition field_id_mem (x : cow * field_desc) (seen : list (cow * field_desc)) : bool :=
  M_Class.field_id_mem (chars (fst x), plain_field_desc (snd x)) (map (fun y => (chars (fst y), plain_field_desc (snd y))) seen).
(** lib.rs:225-276: the same for methods *)
Definition method_id_mem (x : cow * method_desc) (seen : list (cow * method_desc)) : bool :=
  M_Class.method_id_mem (chars (fst x), plain_method_desc (snd x)) (map (fun y => (chars (fst y), plain_method_desc (snd y))) seen).

(** lib.rs:161-198 [read_fields]: the loop, [seen] is [unique_ids]. *)
Fixpoint fields_loop (n : nat) (i : N) (seen : list (cow * field_desc)) : parser (list field_info) :=
  match n with
  | O => ret []
  | S n' =>
      flags <- read_u2 ;;
      name <- pctx (lit "name of class field " ++ show_N i) (read_cp_utf8 p) ;;
      _ <- guard (is_unqualified_name (chars name))
             (lit "Invalid unqualified name for class field " ++ show_N i) ;;
      d <- pctx (lit "descriptor of class field " ++ show_N i) (read_cp_utf8 p) ;;
      descriptor <- lift (parse_field_descriptor d 0) ;;
      _ <- guard (negb (field_id_mem (name, descriptor) seen))
             (lit "Class field " ++ show_N i ++ lit " is duplicate of previously-encountered field") ;;
      attributes <- pctx (lit "class field " ++ show_N i) (read_attributes E p opts (stack E)) ;;
      rest <- fields_loop n' (i + 1) ((name, descriptor) :: seen) ;;
      ret (mk_field (from_bits_truncate field_flags flags) name descriptor attributes :: rest)
  end.
(** lib.rs:161-198 [read_fields] *)
Definition read_fields : parser (list field_info) :=
  count <- read_u2 ;; fields_loop (N.to_nat count) 0 [].

(** lib.rs:225-276 [read_methods] *)
Fixpoint methods_loop (in_interface : bool) (major : N) (n : nat) (i : N)
    (seen : list (cow * method_desc)) : parser (list method_info) :=
  match n with
  | O => ret []
  | S n' =>
      flags <- read_u2 ;;
      name <- pctx (lit "name of class method " ++ show_N i) (read_cp_utf8 p) ;;
      let allow_init := negb in_interface in
      _ <- guard (is_unqualified_method_name (chars name) allow_init true)
             (lit "Invalid unqualified name for class method " ++ show_N i) ;;
      descriptor <- pctx (lit "descriptor of class method " ++ show_N i)
                      (d <- read_cp_utf8 p ;; lift (parse_method_descriptor d 0)) ;;
      _ <- guard (negb (allow_init && str_eqb (chars name) (lit "<init>")
                        && negb (return_desc_eqb (plain_return_desc (return_type descriptor)) M_Descriptors.RVoid)))
             (lit "Non-void method descriptor for init method " ++ show_N i) ;;
      _ <- guard (negb (str_eqb (chars name) (lit "<clinit>")
                        && negb (return_desc_eqb (plain_return_desc (return_type descriptor)) M_Descriptors.RVoid)))
             (lit "Non-void method descriptor for clinit method " ++ show_N i) ;;
      _ <- guard (negb (str_eqb (chars name) (lit "<clinit>") && (51 <=? major)
                        && negb (match parameters descriptor with [] => true | _ => false end)))
             (lit "Arguments found in descriptor for clinit method " ++ show_N i) ;;
      _ <- guard (negb (method_id_mem (name, descriptor) seen))
             (lit "Class method " ++ show_N i ++ lit " is duplicate of previously-encountered method") ;;
      attributes <- pctx (lit "class method " ++ show_N i) (read_attributes E p opts (stack E)) ;;
      rest <- methods_loop in_interface major n' (i + 1) ((name, descriptor) :: seen) ;;
      ret (mk_method (from_bits_truncate method_flags flags) name descriptor attributes :: rest)
  end.
(** lib.rs:225-276 [read_methods] *)
Definition read_methods (in_interface : bool) (major : N) : parser (list method_info) :=
  count <- read_u2 ;; methods_loop in_interface major (N.to_nat count) 0 [].

(** lib.rs:401-403 *)
Definition read_this_class : parser cow :=
  pctx (lit "this_class") (s <- read_cp_classinfo p ;; lift (class_name_try_from s)).
(** lib.rs:404-406 *)
Definition read_super_class : parser (option cow) :=
  pctx (lit "super_class")
    (o <- read_cp_classinfo_opt p ;;
     match o with
     | None => ret None
     | Some s => n <- lift (class_name_try_from s) ;; ret (Some n)
     end).
End WithPool.

(** lib.rs:373-460 [parse_class_with_options], started at index 0. *)
Definition class_parser (E : env) (opts : parse_options) : parser class_file :=
  magic <- read_u4 ;;
  _ <- guard (magic =? 0xCAFEBABE) (lit "Unexpected magic header") ;;
  minor <- read_u2 ;;
  major <- read_u2 ;;
  p <- read_constant_pool E major ;;
  raw_flags <- read_u2 ;;
  let flags := from_bits_truncate class_flags raw_flags in
  let is_module := contains flags ACC_MODULE in
  _ <- check_module_flags is_module flags major ;;
  this <- read_this_class p ;;
  super <- read_super_class p ;;
  ifs <- read_interfaces p ;;
  fs <- read_fields E p opts ;;
  ms <- read_methods E p opts (contains flags ACC_INTERFACE) major ;;
  attributes <- pctx (lit "class") (read_attributes E p opts (stack E)) ;;
  bs <- get_bytes ;;
  ix <- get_ix ;;
  _ <- guard (ix =? blen bs)
         (lit "Extra bytes found at index " ++ show_N ix ++ lit " after reading class file") ;;
  _ <- check_module_contents is_module (option_map chars super) (map chars ifs) (map plain_field fs) (map plain_method ms) ;;
  _ <- lift (validate_bootstrap_methods (plain_pool p) (map plain_attr attributes)) ;;
  ret (mk_class major minor p flags this super ifs fs ms attributes).
(** lib.rs:373-460 [parse_class_with_options] *)
Definition parse_class_with_options (E : env) (opts : parse_options) (raw_bytes : list byte)
  : outcome class_file :=
  let* r := class_parser E opts raw_bytes 0 in Ok (fst r).
(** lib.rs:368-371 [parse_class] *)
Definition parse_class (E : env) (raw_bytes : list byte) : outcome class_file :=
  parse_class_with_options E default_options raw_bytes.

(** lib.rs:335-340 [constantpool_iter] and constant_pool.rs:1117-1130
    [ConstantPoolIter::new]: the iterator starts at index 0; [iter_run n] is the
    results of [n] successive calls of [next]. *)
Fixpoint iter_run_from (p : pool) (n : nat) (index : N) : outcome (list (option cp_item)) :=
  match n with
  | O => Ok []
  | S n' =>
      let* r := iter_next p index in
      let* rest := iter_run_from p n' (snd r) in
      Ok (fst r :: rest)
  end.
(** lib.rs:335-340 [constantpool_iter], constant_pool.rs:1131-1198: the first [n] items *)
Definition constantpool_iter_run (c : class_file) (n : nat) : outcome (list (option cp_item)) :=
  iter_run_from (constant_pool c) n 0.
