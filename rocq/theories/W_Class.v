(** * src/lib.rs with a count of the steps *)
From Verif Require Import Base M_Names M_Descriptors M_ConstantPool M_Bytecode M_Attributes M_Class
  W_Base W_Descriptors W_ConstantPool W_Bytecode W_Attributes.

Section WithPool.
Variable E : env.
Variable p : pool.
Variable opts : parse_options.

(** lib.rs:94-109 [read_interfaces] *)
Definition w_interfaces : wparser (list str) :=
  count <~ w_u2 ;;
  wfor_n count (fun i =>
    wctx (lit "interface " ++ show_N i)
      (s <~ w_class p ;; wlift (w_class_name_try_from s))).

(** lib.rs:161-198 [read_fields]: the loop, [seen] is [unique_ids]. *)
Fixpoint w_fields_loop (n : nat) (i : N) (seen : list (str * field_desc)) : wparser (list field_info) :=
  match n with
  | O => wret []
  | S n' =>
      flags <~ w_u2 ;;
      name <~ wctx (lit "name of class field " ++ show_N i) (w_utf8 p) ;;
      _ <~ wguard (text name) (is_unqualified_name name)
             (lit "Invalid unqualified name for class field " ++ show_N i) ;;
      d <~ wctx (lit "descriptor of class field " ++ show_N i) (w_utf8 p) ;;
      descriptor <~ wlift (w_parse_field_descriptor d 0) ;;
      _ <~ wguard (1 + 3 * (text name + field_desc_byte_len descriptor)) (negb (field_id_mem (name, descriptor) seen))
             (lit "Class field " ++ show_N i ++ lit " is duplicate of previously-encountered field") ;;
      attributes <~ wctx (lit "class field " ++ show_N i) (w_attributes E p opts (stack E)) ;;
      _ <~ tick 1 ;;
      rest <~ w_fields_loop n' (i + 1) ((name, descriptor) :: seen) ;;
      wret (mk_field (from_bits_truncate field_flags flags) name descriptor attributes :: rest)
  end.
(** lib.rs:161-198 [read_fields] *)
Definition w_fields : wparser (list field_info) :=
  count <~ w_u2 ;; w_fields_loop (N.to_nat count) 0 [].

(** lib.rs:225-276 [read_methods] *)
Fixpoint w_methods_loop (in_interface : bool) (major : N) (n : nat) (i : N)
    (seen : list (str * method_desc)) : wparser (list method_info) :=
  match n with
  | O => wret []
  | S n' =>
      flags <~ w_u2 ;;
      name <~ wctx (lit "name of class method " ++ show_N i) (w_utf8 p) ;;
      let allow_init := negb in_interface in
      _ <~ wguard (text name) (is_unqualified_method_name name allow_init true)
             (lit "Invalid unqualified name for class method " ++ show_N i) ;;
      descriptor <~ wctx (lit "descriptor of class method " ++ show_N i)
                      (d <~ w_utf8 p ;; wlift (w_parse_method_descriptor d 0)) ;;
      _ <~ wguard 1 (negb (allow_init && str_eqb name (lit "<init>")
                        && negb (return_desc_eqb (return_type descriptor) RVoid)))
             (lit "Non-void method descriptor for init method " ++ show_N i) ;;
      _ <~ wguard 1 (negb (str_eqb name (lit "<clinit>")
                        && negb (return_desc_eqb (return_type descriptor) RVoid)))
             (lit "Non-void method descriptor for clinit method " ++ show_N i) ;;
      _ <~ wguard 1 (negb (str_eqb name (lit "<clinit>") && (51 <=? major)
                        && negb (match parameters descriptor with [] => true | _ => false end)))
             (lit "Arguments found in descriptor for clinit method " ++ show_N i) ;;
      _ <~ wguard (1 + 3 * (text name + method_desc_byte_len descriptor)) (negb (method_id_mem (name, descriptor) seen))
             (lit "Class method " ++ show_N i ++ lit " is duplicate of previously-encountered method") ;;
      attributes <~ wctx (lit "class method " ++ show_N i) (w_attributes E p opts (stack E)) ;;
      _ <~ tick 1 ;;
      rest <~ w_methods_loop in_interface major n' (i + 1) ((name, descriptor) :: seen) ;;
      wret (mk_method (from_bits_truncate method_flags flags) name descriptor attributes :: rest)
  end.
(** lib.rs:225-276 [read_methods] *)
Definition w_methods (in_interface : bool) (major : N) : wparser (list method_info) :=
  count <~ w_u2 ;; w_methods_loop in_interface major (N.to_nat count) 0 [].

(** lib.rs:299-312: the inner loop over the attributes for one pool entry: 1 step for every attribute *)
Fixpoint w_bootstrap_found (x : N) (attributes : list attr_info) (found : N) : metered N :=
  match attributes with
  | [] => mok found
  | a :: rest =>
      after 1
        (match attr_dat a with
         | ABootstrapMethods methods =>
             if N.of_nat (length methods) <=? x then
               steps 1 (fail (lit "Constant pool item contained invalid index into BootstrapMethods class attribute"))
             else w_bootstrap_found x rest (found + 1)
         | _ => w_bootstrap_found x rest found
         end)
  end.
(** lib.rs:292-319 [validate_bootstrap_methods] *)
Fixpoint w_validate_bootstrap_methods (es : list entry) (attributes : list attr_info) : metered unit :=
  match es with
  | [] => mok tt
  | e :: es' =>
      after 1
        (match e with
         | EDynamic x _ | EInvokeDynamic x _ =>
             let~ found := w_bootstrap_found x attributes 0 in
             if negb (found =? 1) then
               steps 1 (fail (lit "Found unexpected number of BootstrapMethods attributes in class; found "
                     ++ show_N found ++ lit ", expected 1"))
             else w_validate_bootstrap_methods es' attributes
         | _ => w_validate_bootstrap_methods es' attributes
         end)
  end.

(** lib.rs:401-403 *)
Definition w_this_class : wparser str :=
  wctx (lit "this_class") (s <~ w_class p ;; wlift (w_class_name_try_from s)).
(** lib.rs:404-406 *)
Definition w_super_class : wparser (option str) :=
  wctx (lit "super_class")
    (o <~ w_class_opt p ;;
     match o with
     | None => wret None
     | Some s => n <~ wlift (w_class_name_try_from s) ;; wret (Some n)
     end).
End WithPool.

(** lib.rs:386-400: the checks on the class access flags *)
Definition w_check_module_flags (is_module : bool) (flags major : N) : wparser unit :=
  if is_module then
    _ <~ wguard 1 (negb (major <? 53))
           (lit "Found invalid MODULE class access flag on class file of major version " ++ show_N major) ;;
    wguard 1 (flags =? ACC_MODULE)
      (lit "Found invalid class access flags " ++ debug_class_flags flags
       ++ lit "; no other flags should be set with MODULE")
  else wret tt.

(** lib.rs:424-443: the checks on the contents of a module *)
Definition w_check_module_contents (is_module : bool) (super : option str) (ifs : list str)
    (fs : list field_info) (ms : list method_info) : wparser unit :=
  if is_module then
    match super with
    | Some s => _ <~ tick (text s) ;; wfail (lit "Found non-empty super_class " ++ s ++ lit "; expected none for module")
    | None =>
        _ <~ wguard 1 (count_of ifs =? 0)
               (lit "Found " ++ show_N (count_of ifs) ++ lit " interfaces; expected 0 for module") ;;
        _ <~ wguard 1 (count_of fs =? 0)
               (lit "Found " ++ show_N (count_of fs) ++ lit " fields; expected 0 for module") ;;
        wguard 1 (count_of ms =? 0)
          (lit "Found " ++ show_N (count_of ms) ++ lit " methods; expected 0 for module")
    end
  else wret tt.

(** lib.rs:373-460 [parse_class_with_options], started at index 0. *)
Definition w_class_parser (E : env) (opts : parse_options) : wparser class_file :=
  magic <~ w_u4 ;;
  _ <~ wguard 1 (magic =? 0xCAFEBABE) (lit "Unexpected magic header") ;;
  minor <~ w_u2 ;;
  major <~ w_u2 ;;
  p <~ w_constant_pool E major ;;
  raw_flags <~ w_u2 ;;
  let flags := from_bits_truncate class_flags raw_flags in
  let is_module := contains flags ACC_MODULE in
  _ <~ w_check_module_flags is_module flags major ;;
  this <~ w_this_class p ;;
  super <~ w_super_class p ;;
  ifs <~ w_interfaces p ;;
  fs <~ w_fields E p opts ;;
  ms <~ w_methods E p opts (contains flags ACC_INTERFACE) major ;;
  attributes <~ wctx (lit "class") (w_attributes E p opts (stack E)) ;;
  bs <~ costs 0 get_bytes ;;
  ix <~ costs 0 get_ix ;;
  _ <~ wguard 1 (ix =? blen bs)
         (lit "Extra bytes found at index " ++ show_N ix ++ lit " after reading class file") ;;
  _ <~ w_check_module_contents is_module super ifs fs ms ;;
  _ <~ wlift (w_validate_bootstrap_methods p attributes) ;;
  wret (mk_class major minor p flags this super ifs fs ms attributes).
(** lib.rs:373-460. A call of [parse_class_with_options], with the number of its steps. *)
Definition w_parse (E : env) (opts : parse_options) (raw_bytes : list byte) : metered class_file :=
  let~ r := w_class_parser E opts raw_bytes 0 in mok (fst r).
