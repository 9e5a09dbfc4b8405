(** * Model of src/lib.rs (the readers of primitive integers are in Base.v) *)
From Verif Require Import Base M_Names M_Descriptors M_ConstantPool M_Bytecode M_Attributes.

(** lib.rs:139-151 [FieldAccessFlags] *)
Definition field_flags := all_flags
  [ACC_PUBLIC; ACC_PRIVATE; ACC_PROTECTED; ACC_STATIC; ACC_FINAL; ACC_VOLATILE;
   ACC_TRANSIENT; ACC_SYNTHETIC; ACC_ENUM].
(** lib.rs:200-215 [MethodAccessFlags] *)
Definition method_flags := all_flags
  [ACC_PUBLIC; ACC_PRIVATE; ACC_PROTECTED; ACC_STATIC; ACC_FINAL; ACC_SYNCHRONIZED;
   ACC_BRIDGE; ACC_VARARGS; ACC_NATIVE; ACC_ABSTRACT; ACC_STRICT; ACC_SYNTHETIC].
(** lib.rs:278-290 [ClassAccessFlags], with the names printed by [{:?}] *)
Definition class_flag_names : list (str * N) :=
  [(lit "PUBLIC", ACC_PUBLIC); (lit "FINAL", ACC_FINAL); (lit "SUPER", ACC_SUPER);
   (lit "INTERFACE", ACC_INTERFACE); (lit "ABSTRACT", ACC_ABSTRACT);
   (lit "SYNTHETIC", ACC_SYNTHETIC); (lit "ANNOTATION", ACC_ANNOTATION);
   (lit "ENUM", ACC_ENUM); (lit "MODULE", ACC_MODULE)].
(** lib.rs:278-289 [ClassAccessFlags] *)
Definition class_flags := all_flags (map snd class_flag_names).

(** lib.rs:278-289 (derived by bitflags). bitflags 1.x [Debug]: the names of the set flags separated by " | ". *)
Fixpoint join (sep : str) (l : list str) : str :=
  match l with
  | [] => []
  | [x] => x
  | x :: l' => x ++ sep ++ join sep l'
  end.
(** lib.rs:278-289: [{:?}] of the flags *)
Definition debug_class_flags (f : N) : str :=
  match map fst (filter (fun nb => contains f (snd nb)) class_flag_names) with
  | [] => lit "(empty)"
  | l => join (lit " | ") l
  end.

(** lib.rs:154-159 [FieldInfo], 218-223 [MethodInfo], 322-333 [ClassFile] *)
Record field_info := mk_field {
  f_access_flags : N; f_name : str; f_descriptor : field_desc; f_attributes : list attr_info }.
(** lib.rs:217-223 [MethodInfo] *)
Record method_info := mk_method {
  m_access_flags : N; m_name : str; m_descriptor : method_desc; m_attributes : list attr_info }.
(** lib.rs:321-333 [ClassFile] *)
Record class_file := mk_class {
  major_version : N; minor_version : N; constant_pool : pool; access_flags : N;
  this_class : str; super_class : option str; interfaces : list str;
  fields : list field_info; methods : list method_info; class_attributes : list attr_info }.

(** lib.rs:342-366 [ParseOptions]: its only field is [parse_bytecode]. *)
Definition parse_options := bool.
(** lib.rs:347-353 [ParseOptions::default] *)
Definition default_options : parse_options := true.

Section WithPool.
Variable E : env.
Variable p : pool.
Variable opts : parse_options.

(** lib.rs:94-109 [read_interfaces] *)
Definition read_interfaces : parser (list str) :=
  count <- read_u2 ;;
  for_n count (fun i =>
    pctx (lit "interface " ++ show_N i)
      (s <- read_cp_classinfo p ;; lift (class_name_try_from s))).

(** lib.rs:161-198. [HashSet::insert] returning false: an equal element is present. *)
Definition field_id_mem (x : str * field_desc) (seen : list (str * field_desc)) : bool :=
  existsb (fun y => str_eqb (fst x) (fst y) && field_desc_eqb (snd x) (snd y)) seen.
(** lib.rs:225-276: the same for methods *)
Definition method_id_mem (x : str * method_desc) (seen : list (str * method_desc)) : bool :=
  existsb (fun y => str_eqb (fst x) (fst y) && method_desc_eqb (snd x) (snd y)) seen.

(** lib.rs:161-198 [read_fields]: the loop, [seen] is [unique_ids]. *)
Fixpoint fields_loop (n : nat) (i : N) (seen : list (str * field_desc)) : parser (list field_info) :=
  match n with
  | O => ret []
  | S n' =>
      flags <- read_u2 ;;
      name <- pctx (lit "name of class field " ++ show_N i) (read_cp_utf8 p) ;;
      _ <- guard (is_unqualified_name name)
             (lit "Invalid unqualified name for class field " ++ show_N i) ;;
      d <- pctx (lit "descriptor of class field " ++ show_N i) (read_cp_utf8 p) ;;
      descriptor <- lift (parse_field_descriptor d 0) ;;
      _ <- guard (negb (field_id_mem (name, descriptor) seen))
             (lit "Class field " ++ show_N i ++ lit " is duplicate of previously-encountered field") ;;
      attributes <- pctx (lit "class field " ++ show_N i) (read_attributes E p opts (stack E)) ;;
      rest <- fields_loop n' (i + 1) ((name, descriptor) :: seen) ;;
      ret (mk_field (from_bits_truncate field_flags flags) name descriptor attributes :: rest)
  end.
(** lib.rs:161-198 [read_fields] *)
Definition read_fields : parser (list field_info) :=
  count <- read_u2 ;; fields_loop (N.to_nat count) 0 [].

(** lib.rs:225-276 [read_methods] *)
Fixpoint methods_loop (in_interface : bool) (major : N) (n : nat) (i : N)
    (seen : list (str * method_desc)) : parser (list method_info) :=
  match n with
  | O => ret []
  | S n' =>
      flags <- read_u2 ;;
      name <- pctx (lit "name of class method " ++ show_N i) (read_cp_utf8 p) ;;
      let allow_init := negb in_interface in
      _ <- guard (is_unqualified_method_name name allow_init true)
             (lit "Invalid unqualified name for class method " ++ show_N i) ;;
      descriptor <- pctx (lit "descriptor of class method " ++ show_N i)
                      (d <- read_cp_utf8 p ;; lift (parse_method_descriptor d 0)) ;;
      _ <- guard (negb (allow_init && str_eqb name (lit "<init>")
                        && negb (return_desc_eqb (return_type descriptor) RVoid)))
             (lit "Non-void method descriptor for init method " ++ show_N i) ;;
      _ <- guard (negb (str_eqb name (lit "<clinit>")
                        && negb (return_desc_eqb (return_type descriptor) RVoid)))
             (lit "Non-void method descriptor for clinit method " ++ show_N i) ;;
      _ <- guard (negb (str_eqb name (lit "<clinit>") && (51 <=? major)
                        && negb (match parameters descriptor with [] => true | _ => false end)))
             (lit "Arguments found in descriptor for clinit method " ++ show_N i) ;;
      _ <- guard (negb (method_id_mem (name, descriptor) seen))
             (lit "Class method " ++ show_N i ++ lit " is duplicate of previously-encountered method") ;;
      attributes <- pctx (lit "class method " ++ show_N i) (read_attributes E p opts (stack E)) ;;
      rest <- methods_loop in_interface major n' (i + 1) ((name, descriptor) :: seen) ;;
      ret (mk_method (from_bits_truncate method_flags flags) name descriptor attributes :: rest)
  end.
(** lib.rs:225-276 [read_methods] *)
Definition read_methods (in_interface : bool) (major : N) : parser (list method_info) :=
  count <- read_u2 ;; methods_loop in_interface major (N.to_nat count) 0 [].

(** lib.rs:299-312: the inner loop over the attributes for one pool entry with
    bootstrap index [x]; returns [found]. *)
Fixpoint bootstrap_found (x : N) (attributes : list attr_info) (found : N) : outcome N :=
  match attributes with
  | [] => Ok found
  | a :: rest =>
      match attr_dat a with
      | ABootstrapMethods methods =>
          if N.of_nat (length methods) <=? x then
            fail (lit "Constant pool item contained invalid index into BootstrapMethods class attribute")
          else bootstrap_found x rest (found + 1)
      | _ => bootstrap_found x rest found
      end
  end.
(** lib.rs:292-319 [validate_bootstrap_methods] *)
Fixpoint validate_bootstrap_methods (es : list entry) (attributes : list attr_info) : outcome unit :=
  match es with
  | [] => Ok tt
  | e :: es' =>
      match e with
      | EDynamic x _ | EInvokeDynamic x _ =>
          let* found := bootstrap_found x attributes 0 in
          if negb (found =? 1) then
            fail (lit "Found unexpected number of BootstrapMethods attributes in class; found "
                  ++ show_N found ++ lit ", expected 1")
          else validate_bootstrap_methods es' attributes
      | _ => validate_bootstrap_methods es' attributes
      end
  end.

(** lib.rs:401-403 *)
Definition read_this_class : parser str :=
  pctx (lit "this_class") (s <- read_cp_classinfo p ;; lift (class_name_try_from s)).
(** lib.rs:404-406 *)
Definition read_super_class : parser (option str) :=
  pctx (lit "super_class")
    (o <- read_cp_classinfo_opt p ;;
     match o with
     | None => ret None
     | Some s => n <- lift (class_name_try_from s) ;; ret (Some n)
     end).
End WithPool.

(** lib.rs:386-400: the checks on the class access flags *)
Definition check_module_flags (is_module : bool) (flags major : N) : parser unit :=
  if is_module then
    _ <- guard (negb (major <? 53))
           (lit "Found invalid MODULE class access flag on class file of major version " ++ show_N major) ;;
    guard (flags =? ACC_MODULE)
      (lit "Found invalid class access flags " ++ debug_class_flags flags
       ++ lit "; no other flags should be set with MODULE")
  else ret tt.

(** lib.rs:424-443 ([len()] of a vector) *)
Definition count_of {A} (l : list A) : N := N.of_nat (length l).

(** lib.rs:424-443: the checks on the contents of a module *)
Definition check_module_contents (is_module : bool) (super : option str) (ifs : list str)
    (fs : list field_info) (ms : list method_info) : parser unit :=
  if is_module then
    match super with
    | Some s => pfail (lit "Found non-empty super_class " ++ s ++ lit "; expected none for module")
    | None =>
        _ <- guard (count_of ifs =? 0)
               (lit "Found " ++ show_N (count_of ifs) ++ lit " interfaces; expected 0 for module") ;;
        _ <- guard (count_of fs =? 0)
               (lit "Found " ++ show_N (count_of fs) ++ lit " fields; expected 0 for module") ;;
        guard (count_of ms =? 0)
          (lit "Found " ++ show_N (count_of ms) ++ lit " methods; expected 0 for module")
    end
  else ret tt.

(** lib.rs:373-460 [parse_class_with_options], started at index 0. *)
Definition class_parser (E : env) (opts : parse_options) : parser class_file :=
  magic <- read_u4 ;;
  _ <- guard (magic =? 0xCAFEBABE) (lit "Unexpected magic header") ;;
  minor <- read_u2 ;;
  major <- read_u2 ;;
  p <- read_constant_pool E major ;;
  raw_flags <- read_u2 ;;
  let flags := from_bits_truncate class_flags raw_flags in
  let is_module := contains flags ACC_MODULE in
  _ <- check_module_flags is_module flags major ;;
  this <- read_this_class p ;;
  super <- read_super_class p ;;
  ifs <- read_interfaces p ;;
  fs <- read_fields E p opts ;;
  ms <- read_methods E p opts (contains flags ACC_INTERFACE) major ;;
  attributes <- pctx (lit "class") (read_attributes E p opts (stack E)) ;;
  bs <- get_bytes ;;
  ix <- get_ix ;;
  _ <- guard (ix =? blen bs)
         (lit "Extra bytes found at index " ++ show_N ix ++ lit " after reading class file") ;;
  _ <- check_module_contents is_module super ifs fs ms ;;
  _ <- lift (validate_bootstrap_methods p attributes) ;;
  ret (mk_class major minor p flags this super ifs fs ms attributes).
(** lib.rs:373-460 [parse_class_with_options] *)
Definition parse_class_with_options (E : env) (opts : parse_options) (raw_bytes : list byte)
  : outcome class_file :=
  let* r := class_parser E opts raw_bytes 0 in Ok (fst r).
(** lib.rs:368-371 [parse_class] *)
Definition parse_class (E : env) (raw_bytes : list byte) : outcome class_file :=
  parse_class_with_options E default_options raw_bytes.

(** lib.rs:335-340 [constantpool_iter] and constant_pool.rs:1117-1130
    [ConstantPoolIter::new]: the iterator starts at index 0; [iter_run n] is the
    results of [n] successive calls of [next]. *)
Fixpoint iter_run_from (p : pool) (n : nat) (index : N) : outcome (list (option cp_item)) :=
  match n with
  | O => Ok []
  | S n' =>
      let* r := iter_next p index in
      let* rest := iter_run_from p n' (snd r) in
      Ok (fst r :: rest)
  end.
(** lib.rs:335-340 [constantpool_iter], constant_pool.rs:1131-1198: the first [n] items *)
Definition constantpool_iter_run (c : class_file) (n : nat) : outcome (list (option cp_item)) :=
  iter_run_from (constant_pool c) n 0.
