(** * src/lib.rs and the constant pool reader with the memory reserved in advance *)
From Verif Require Import Base M_Names M_Descriptors M_ConstantPool M_Bytecode M_Attributes M_Class
  R_Base R_Attributes.

(** constant_pool.rs:653-700 [read_constant_pool], capacity at 659.  The loop
    itself reserves nothing ([pool_loop] of M_ConstantPool.v). *)
Definition r_constant_pool (E : env) (major : N) : tparser pool :=
  count <~ plain read_u2 ;;
  _ <~ reserve count ;;
  bs <~ plain get_bytes ;;
  es <~ plain (pool_loop E (S (length bs)) major count 1) ;;
  p <~ plain (lift (resolve_constant_pool (EZero :: es))) ;;
  _ <~ plain (lift (validate_constant_pool E p major)) ;;
  plain (ret p).

Section WithPool.
Variable E : env.
Variable p : pool.
Variable opts : parse_options.

(** lib.rs:94-109 [read_interfaces], capacity at 100 *)
Definition r_interfaces : tparser (list str) :=
  count <~ plain read_u2 ;;
  tfor_n count (fun i =>
    plain (pctx (lit "interface " ++ show_N i)
      (s <- read_cp_classinfo p ;; lift (class_name_try_from s)))).

(** lib.rs:161-198 [read_fields], capacity at 168 *)
Fixpoint r_fields_loop (n : nat) (i : N) (seen : list (str * field_desc)) : tparser (list field_info) :=
  match n with
  | O => plain (ret [])
  | S n' =>
      flags <~ plain read_u2 ;;
      name <~ plain (pctx (lit "name of class field " ++ show_N i) (read_cp_utf8 p)) ;;
      _ <~ plain (guard (is_unqualified_name name)
             (lit "Invalid unqualified name for class field " ++ show_N i)) ;;
      d <~ plain (pctx (lit "descriptor of class field " ++ show_N i) (read_cp_utf8 p)) ;;
      descriptor <~ plain (lift (parse_field_descriptor d 0)) ;;
      _ <~ plain (guard (negb (field_id_mem (name, descriptor) seen))
             (lit "Class field " ++ show_N i ++ lit " is duplicate of previously-encountered field")) ;;
      attributes <~ tctx (lit "class field " ++ show_N i) (r_attributes E p opts (stack E)) ;;
      rest <~ r_fields_loop n' (i + 1) ((name, descriptor) :: seen) ;;
      plain (ret (mk_field (from_bits_truncate field_flags flags) name descriptor attributes :: rest))
  end.
(** lib.rs:161-198 [read_fields] *)
Definition r_fields : tparser (list field_info) :=
  count <~ plain read_u2 ;; _ <~ reserve count ;; r_fields_loop (N.to_nat count) 0 [].

(** lib.rs:225-276 [read_methods], capacity at 234 *)
Fixpoint r_methods_loop (in_interface : bool) (major : N) (n : nat) (i : N)
    (seen : list (str * method_desc)) : tparser (list method_info) :=
  match n with
  | O => plain (ret [])
  | S n' =>
      flags <~ plain read_u2 ;;
      name <~ plain (pctx (lit "name of class method " ++ show_N i) (read_cp_utf8 p)) ;;
      let allow_init := negb in_interface in
      _ <~ plain (guard (is_unqualified_method_name name allow_init true)
             (lit "Invalid unqualified name for class method " ++ show_N i)) ;;
      descriptor <~ plain (pctx (lit "descriptor of class method " ++ show_N i)
                      (d <- read_cp_utf8 p ;; lift (parse_method_descriptor d 0))) ;;
      _ <~ plain (guard (negb (allow_init && str_eqb name (lit "<init>")
                        && negb (return_desc_eqb (return_type descriptor) RVoid)))
             (lit "Non-void method descriptor for init method " ++ show_N i)) ;;
      _ <~ plain (guard (negb (str_eqb name (lit "<clinit>")
                        && negb (return_desc_eqb (return_type descriptor) RVoid)))
             (lit "Non-void method descriptor for clinit method " ++ show_N i)) ;;
      _ <~ plain (guard (negb (str_eqb name (lit "<clinit>") && (51 <=? major)
                        && negb (match parameters descriptor with [] => true | _ => false end)))
             (lit "Arguments found in descriptor for clinit method " ++ show_N i)) ;;
      _ <~ plain (guard (negb (method_id_mem (name, descriptor) seen))
             (lit "Class method " ++ show_N i ++ lit " is duplicate of previously-encountered method")) ;;
      attributes <~ tctx (lit "class method " ++ show_N i) (r_attributes E p opts (stack E)) ;;
      rest <~ r_methods_loop in_interface major n' (i + 1) ((name, descriptor) :: seen) ;;
      plain (ret (mk_method (from_bits_truncate method_flags flags) name descriptor attributes :: rest))
  end.
(** lib.rs:225-276 [read_methods] *)
Definition r_methods (in_interface : bool) (major : N) : tparser (list method_info) :=
  count <~ plain read_u2 ;; _ <~ reserve count ;;
  r_methods_loop in_interface major (N.to_nat count) 0 [].
End WithPool.

(** lib.rs:373-460 [parse_class_with_options] *)
Definition r_class (E : env) (opts : parse_options) : tparser class_file :=
  magic <~ plain read_u4 ;;
  _ <~ plain (guard (magic =? 0xCAFEBABE) (lit "Unexpected magic header")) ;;
  minor <~ plain read_u2 ;;
  major <~ plain read_u2 ;;
  p <~ r_constant_pool E major ;;
  raw_flags <~ plain read_u2 ;;
  let flags := from_bits_truncate class_flags raw_flags in
  let is_module := contains flags ACC_MODULE in
  _ <~ plain (check_module_flags is_module flags major) ;;
  this <~ plain (read_this_class p) ;;
  super <~ plain (read_super_class p) ;;
  ifs <~ r_interfaces p ;;
  fs <~ r_fields E p opts ;;
  ms <~ r_methods E p opts (contains flags ACC_INTERFACE) major ;;
  attributes <~ tctx (lit "class") (r_attributes E p opts (stack E)) ;;
  bs <~ plain get_bytes ;;
  ix <~ plain get_ix ;;
  _ <~ plain (guard (ix =? blen bs)
         (lit "Extra bytes found at index " ++ show_N ix ++ lit " after reading class file")) ;;
  _ <~ plain (check_module_contents is_module super ifs fs ms) ;;
  _ <~ plain (lift (validate_bootstrap_methods p attributes)) ;;
  plain (ret (mk_class major minor p flags this super ifs fs ms attributes)).

(** lib.rs:373-460. A call of [parse_class_with_options], with the capacities it asks for. *)
Definition r_parse (E : env) (opts : parse_options) (raw_bytes : list byte) : traced class_file :=
  let (r, l) := r_class E opts raw_bytes 0 in
  (let* r := r in Ok (fst r), l).
