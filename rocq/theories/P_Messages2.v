(** * The errors of the readers have known texts *)
From Verif Require Import Base M_Names M_Descriptors M_ConstantPool M_Bytecode M_Attributes M_Class S_Messages P_Messages.
From Coq Require Import ZifyBool ZifyNat ZifyN.

Section Hush.
Variable E : env.
Definition hush {A} (m : parser A) : Prop := forall bs ix, quiet E (m bs ix).
Lemma h_ret {A} (a : A) : hush (ret a).
Proof. intros bs ix. apply q_ok. Qed.
Lemma h_panic {A} q : hush (fun _ _ => @Panic (A * N) q).
Proof. intros bs ix. apply q_panic. Qed.
Lemma h_lift {A} (m : outcome A) : quiet E m -> hush (lift m).
Proof. intros H bs ix e. unfold lift. destruct m; try discriminate. intro He. apply H. congruence. Qed.
Lemma h_err {A} e : known E e -> hush (lift (@Err A e)).
Proof. intros H. apply h_lift. intros e' He. assert (e = e') as <- by congruence. exact H. Qed.
Lemma h_pfail {A} m : filled message_texts m -> hush (@pfail A m).
Proof. intros H bs ix. apply (q_fail E m H). Qed.
Lemma h_pfail_at {A} m : (forall ix, filled message_texts (m ix)) -> hush (@pfail_at A m).
Proof. intros H bs ix. apply (q_fail E (m ix) (H ix)). Qed.
Lemma h_bind {A B} (m : parser A) (f : A -> parser B) : hush m -> (forall a, hush (f a)) -> hush (bind m f).
Proof.
  intros Hm Hf bs ix e. unfold bind. destruct (m bs ix) as [[a i]|e'| |] eqn:H; try discriminate; [apply Hf|]. intro He. apply (Hm bs ix). congruence.
Qed.
Lemma h_pctx {A} c (m : parser A) : filled context_texts c -> hush m -> hush (pctx c m).
Proof. intros Hc Hm bs ix. apply q_ctx; [exact Hc|apply Hm]. Qed.
Lemma h_guard b m : filled message_texts m -> hush (guard b m).
Proof. intro H. unfold guard. destruct b; [apply h_ret|apply h_pfail, H]. Qed.
Lemma h_for {A} (body : N -> parser A) : (forall i, hush (body i)) -> forall n i, hush (for_from n i body).
Proof. intros H. induction n as [|n IH]; intro i; cbn [for_from]; [apply h_ret|]. apply h_bind; [apply H|]. intro a. apply h_bind; [apply IH|]. intro. apply h_ret. Qed.
Lemma h_for_n {A} n (body : N -> parser A) : (forall i, hush (body i)) -> hush (for_n n body).
Proof. intro H. apply h_for, H. Qed.
Lemma h_for_fuel {A} (body : N -> parser A) : (forall i, hush (body i)) -> forall fuel i n, hush (for_fuel fuel i n body).
Proof.
  intros H. induction fuel as [|fuel IH]; intros i n; cbn [for_fuel]; destruct (i <? n); try apply h_ret; [intros bs ix; apply q_diverge|].
  apply h_bind; [apply H|]. intro a. apply h_bind; [apply IH|]. intro. apply h_ret.
Qed.
Lemma h_for_big {A} n (body : N -> parser A) : (forall i, hush (body i)) -> hush (for_big n body).
Proof. intros H bs ix. apply (h_for_fuel body H). Qed.
Lemma h_get_ix : hush get_ix.
Proof. intros bs ix. apply q_ok. Qed.
Lemma h_get_bytes : hush get_bytes.
Proof. intros bs ix. apply q_ok. Qed.
Lemma h_set_ix n : hush (set_ix n).
Proof. intros bs ix. apply q_ok. Qed.
Ltac hr := intros bs ix; match goal with |- quiet _ (?r _ _) => unfold r end; destruct (_ <? _); [apply q_fail; fill|];
  repeat (apply q_bind; [apply q_byte_at|intro]); apply q_ok.
Lemma h_u1 : hush read_u1.
Proof. hr. Qed.
Lemma h_u2 : hush read_u2.
Proof. hr. Qed.
Lemma h_u4 : hush read_u4.
Proof. hr. Qed.
Lemma h_u8 : hush read_u8.
Proof. hr. Qed.
Lemma byte_small b : Byte.to_N b < 256.
Proof. destruct b; reflexivity. Qed.
Lemma h_bind_u1 {B} (f : N -> parser B) : (forall a, a < 256 -> hush (f a)) -> hush (bind read_u1 f).
Proof.
  intros Hf bs ix e. unfold bind. destruct (read_u1 bs ix) as [[a i]|e'| |] eqn:H; try discriminate.
  - apply Hf. unfold read_u1 in H. destruct (blen bs <? ix + 1); [discriminate|]. unfold byte_at in H.
    destruct (nth_error bs (N.to_nat ix)); cbn [obind] in H; [|discriminate]. assert (Byte.to_N b = a) as <- by congruence. apply byte_small.
  - intro He. apply (h_u1 bs ix). congruence.
Qed.

Ltac h0 := first
  [ apply h_ret | apply h_pfail; solve [fill] | apply h_pfail_at; intro; solve [fill] | apply h_guard; solve [fill] | apply h_u1 | apply h_u2 | apply h_u4 | apply h_u8
  | apply h_get_ix | apply h_set_ix | apply h_get_bytes | apply h_panic ].
Ltac hh := repeat match goal with
  | H : hush ?m |- hush ?m => exact H
  | H : forall x, hush _ |- hush _ => apply H
  | |- hush _ => h0
  | |- hush (bind _ _) => apply h_bind; [|intro]
  | |- hush (pctx _ _) => apply h_pctx; [solve [fill]|]
  | |- hush (for_n _ _) => apply h_for_n; intro
  | |- hush (for_big _ _) => apply h_for_big; intro
  | |- hush (match ?x with _ => _ end) => destruct x
  | |- hush (let _ := _ in _) => cbv zeta
  end.
Ltac hl := apply h_lift; first [apply q_slice|apply q_i32|apply q_u16|apply q_usize|apply q_capacity|apply q_peel|apply q_peel_utf8|apply q_pool_get|apply q_loadable
  |apply q_method_handle|apply q_member_ref|apply q_ensure_type|apply q_field_descriptor|apply q_method_descriptor|apply q_array_descriptor|apply q_class_name|apply q_string_literal
  |solve [repeat first [apply q_ok | apply q_peel | apply q_peel_utf8 | apply q_string_literal | apply q_method_handle | apply q_nat | apply q_bind; [|intro]]]].

(** Constant pool *)
Lemma h_utf8 : hush (read_constant_utf8 E).
Proof. unfold read_constant_utf8. hh. hl. Qed.
Lemma h_entry major tag : hush (read_entry E major tag).
Proof.
  unfold read_entry, read_constant_integer, read_constant_float, read_constant_long, read_constant_double, read_constant_class, read_constant_string,
    read_constant_fieldref, read_constant_methodref, read_constant_interfacemethodref, read_constant_nameandtype, read_constant_methodhandle,
    read_constant_methodtype, read_constant_dynamic, read_constant_invokedynamic, read_constant_module, read_constant_package, read_unresolved_cp_ref.
  hh; apply h_utf8.
Qed.
Lemma h_pool_loop major count : forall fuel cp, hush (pool_loop E fuel major count cp).
Proof.
  induction fuel as [|fuel IH]; intro cp; cbn [pool_loop]; destruct (cp <? count); try apply h_ret; [intros bs ix; apply q_diverge|].
  hh; [apply h_entry|hl|hl].
Qed.
Lemma h_pool major : hush (read_constant_pool E major).
Proof.
  unfold read_constant_pool. hh; [apply h_pool_loop|..]; apply h_lift.
  - unfold resolve_constant_pool. apply q_resolve.
  - unfold validate_constant_pool. apply q_validate.
Qed.

Section Pool.
Variable p : pool.
Variable opts : parse_options.
Lemma h_any : hush (read_cp_ref_any p).
Proof. unfold read_cp_ref_any. hh. hl. Qed.
Ltac hc := repeat (hh; try apply h_any; try hl).
Lemma h_cp_utf8 : hush (read_cp_utf8 p).
Proof. unfold read_cp_utf8, bad_type. hc. Qed.
Lemma h_cp_utf8_opt : hush (read_cp_utf8_opt p).
Proof. unfold read_cp_utf8_opt, bad_type. hc. Qed.
Lemma h_classinfo : hush (read_cp_classinfo p).
Proof. unfold read_cp_classinfo, bad_type. hc. Qed.
Lemma h_classinfo_opt : hush (read_cp_classinfo_opt p).
Proof. unfold read_cp_classinfo_opt, bad_type. hc. Qed.
Lemma h_moduleinfo : hush (read_cp_moduleinfo p).
Proof. unfold read_cp_moduleinfo, bad_type. hc. Qed.
Lemma h_packageinfo : hush (read_cp_packageinfo p).
Proof. unfold read_cp_packageinfo, bad_type. hc. Qed.
Lemma h_nameandtype_opt : hush (read_cp_nameandtype_opt p).
Proof. unfold read_cp_nameandtype_opt, bad_type. hc. Qed.
Lemma h_literalconstant : hush (read_cp_literalconstant p).
Proof. unfold read_cp_literalconstant, bad_type. hc. Qed.
Lemma h_integer : hush (read_cp_integer p).
Proof. unfold read_cp_integer, bad_type. hc. Qed.
Lemma h_float : hush (read_cp_float p).
Proof. unfold read_cp_float, bad_type. hc. Qed.
Lemma h_long : hush (read_cp_long p).
Proof. unfold read_cp_long, bad_type. hc. Qed.
Lemma h_double : hush (read_cp_double p).
Proof. unfold read_cp_double, bad_type. hc. Qed.
Lemma h_methodhandle : hush (read_cp_methodhandle p).
Proof. unfold read_cp_methodhandle, bad_type. hc. Qed.
Lemma h_bootstrap_argument : hush (read_cp_bootstrap_argument p).
Proof. unfold read_cp_bootstrap_argument, bad_type. hc. Qed.
Lemma h_memberref a : hush (read_cp_memberref p a).
Proof. unfold read_cp_memberref, bad_type. hc. Qed.
Lemma h_invokedynamic : hush (read_cp_invokedynamic p).
Proof. unfold read_cp_invokedynamic, bad_type. hc. Qed.
Lemma h_object_array : hush (read_cp_object_array_type p).
Proof. unfold read_cp_object_array_type, bad_type. hc. Qed.
Lemma h_field_descriptor : hush (read_cp_field_descriptor p).
Proof. unfold read_cp_field_descriptor. hh; [apply h_cp_utf8|hl]. Qed.
Lemma h_exact_flags all e : known E e -> hush (read_exact_flags all e).
Proof. intro H. unfold read_exact_flags. hh. apply h_err, H. Qed.

(** Instructions *)
Lemma h_tableswitch : hush (read_tableswitch E).
Proof. unfold read_tableswitch, align4. hh; hl. Qed.
Lemma h_lookupswitch : hush (read_lookupswitch E).
Proof. unfold read_lookupswitch, align4. hh; hl. Qed.
Ltac q1 := match goal with
  | |- hush (read_cp_memberref _ _) => apply h_memberref
  | |- hush (read_cp_object_array_type _) => apply h_object_array
  | |- hush (read_cp_invokedynamic _) => apply h_invokedynamic
  | |- hush (lift _) => hl
  end.
Lemma h_newarray : hush read_newarray.
Proof. unfold read_newarray. hh. Qed.
Lemma h_wide : hush read_wide.
Proof. unfold read_wide. hh. Qed.
Lemma h_invokeinterface : hush (read_invokeinterface p).
Proof. unfold read_invokeinterface. hh. apply h_memberref. Qed.
Lemma h_invokedynamic_insn : hush (read_invokedynamic_insn p).
Proof. unfold read_invokedynamic_insn. hh. apply h_invokedynamic. Qed.
Lemma h_insn : hush (read_insn E p).
Proof.
  unfold read_insn. hh; first [q1|apply h_classinfo|apply h_tableswitch|apply h_lookupswitch|apply h_newarray|apply h_wide|apply h_invokeinterface|apply h_invokedynamic_insn].
Qed.
Lemma h_opcodes : forall fuel, hush (opcodes_loop E p fuel).
Proof.
  induction fuel as [|fuel IH]; intros bs ix; cbn [opcodes_loop]; destruct (ix <? blen bs); try apply q_ok; [apply q_diverge|].
  match goal with |- quiet _ (?m bs ix) => assert (H : hush m); [|apply H] end. hh. apply h_insn.
Qed.
Lemma q_search ops o : forall fuel a b, quiet E (search_loop fuel ops o a b).
Proof. induction fuel as [|fuel IH]; intros a b; cbn [search_loop]; repeat match goal with |- quiet _ (match ?x with _ => _ end) => destruct x end; try apply q_ok; try apply q_panic; try apply q_diverge; apply IH. Qed.
Lemma q_jump bc s j : quiet E (validate_jump E bc s j).
Proof.
  unfold validate_jump. apply q_bind; [apply q_i32|intro t]. destruct (usize_of_i32 t); [|apply q_fail; fill].
  apply q_bind; [apply q_search|intro r]. destruct r; [apply q_ok|apply q_fail; fill].
Qed.
Lemma q_jumps_of bc s js : Forall (fun cj => filled context_texts (fst cj)) js -> quiet E (validate_all E bc s js).
Proof.
  induction 1 as [|[c j] js Hc _ IH]; cbn [validate_all]; [apply q_ok|]. apply q_bind; [|intro; exact IH]. apply q_ctx; [exact Hc|apply q_jump].
Qed.
Lemma q_opcode_jumps bc o op : quiet E (validate_opcode_jumps E bc o op).
Proof.
  unfold validate_opcode_jumps. destruct (i32_of_usize o) as [s|]; [|apply q_fail; fill].
  destruct op; try apply q_ok; try apply q_jump; (apply q_bind; [apply q_ctx; [fill|apply q_jump]|intro]); apply q_jumps_of, Forall_forall; intros cj Hin;
    apply in_map_iff in Hin; destruct Hin as (x & <- & _); cbn [fst]; fill.
Qed.
Lemma q_jumps bc ops : quiet E (validate_jumps E bc ops).
Proof. induction ops as [|[o op] ops IH]; cbn [validate_jumps]; [apply q_ok|]. apply q_bind; [|intro; exact IH]. apply q_ctx; [fill|apply q_opcode_jumps]. Qed.
Lemma q_bytecode code : quiet E (bytecode_from E code p).
Proof.
  unfold bytecode_from. apply q_bind; [|intro ops; cbv zeta; apply q_bind; [apply q_jumps|intro; apply q_ok]].
  unfold read_opcodes. apply q_bind; [apply h_opcodes|intro; apply q_ok].
Qed.

(** Attributes *)
Ltac sq := repeat (hh; try first [apply h_cp_utf8|apply h_cp_utf8_opt|apply h_classinfo|apply h_classinfo_opt|apply h_moduleinfo|apply h_packageinfo
  |apply h_nameandtype_opt|apply h_literalconstant|apply h_integer|apply h_float|apply h_long|apply h_double|apply h_methodhandle
  |apply h_bootstrap_argument|apply h_field_descriptor|hl]).
Ltac flags := apply h_exact_flags; first [apply known_with; [apply known_new; fill|fill] | apply known_new; fill].
Lemma h_exception_entry i : hush (read_exception_entry p i).
Proof. unfold read_exception_entry. sq. Qed.
Lemma h_code rec : hush rec -> hush (read_code_data E p opts rec).
Proof. intro Hrec. unfold read_code_data. sq; [apply h_exception_entry|apply h_lift, q_bytecode]. Qed.
Lemma h_verification : hush (read_verification p).
Proof. unfold read_verification. sq. Qed.
Lemma h_stack_map : hush (read_stackmaptable_data p).
Proof. unfold read_stackmaptable_data, read_stack_map_entry. sq; apply h_verification. Qed.
Lemma h_exceptions : hush (read_exceptions_data p).
Proof. unfold read_exceptions_data. sq. Qed.
Lemma h_innerclasses : hush (read_innerclasses_data p).
Proof. unfold read_innerclasses_data, read_inner_class. sq. Qed.
Lemma h_linenumber : hush read_linenumber_data.
Proof. unfold read_linenumber_data, read_line_number. sq. Qed.
Lemma h_localvariable : hush (read_localvariable_data p).
Proof. unfold read_localvariable_data, read_local_variable. sq. Qed.
Lemma h_localvariabletype : hush (read_localvariabletype_data p).
Proof. unfold read_localvariabletype_data, read_local_variable_type. sq. Qed.
Lemma h_annotation_with rec : hush rec -> hush (read_annotation_with p rec).
Proof. intro Hr. unfold read_annotation_with. sq. Qed.
Lemma h_tag {A} v : v < 256 -> hush (@pfail A (lit "Unrecognized discriminant " ++ [v])).
Proof.
  intros Hv bs ix e H. unfold pfail in H. assert (new_err (lit "Unrecognized discriminant " ++ [v]) = e) as <- by congruence.
  split; [right; left; exists v; split; [exact Hv|reflexivity]|constructor].
Qed.
Lemma h_element_value stk : hush (read_element_value p stk).
Proof.
  induction stk as [|stk IH]; cbn [read_element_value]; [apply h_panic|]. unfold read_element_value_with.
  apply h_bind_u1. intros v Hv. cbv zeta.
  repeat match goal with |- hush (if ?c then _ else _) => destruct c end; try apply (h_tag v Hv); sq.
  all: first [apply h_lift, q_ok_and | apply h_annotation_with, IH].
Qed.
Lemma h_annotation stk : hush (read_annotation p stk).
Proof. apply h_annotation_with, h_element_value. Qed.
Lemma h_annotation_data stk : hush (read_annotation_data p stk).
Proof. unfold read_annotation_data. sq. apply h_annotation. Qed.
Lemma h_parameter_annotation stk : hush (read_parameter_annotation_data p stk).
Proof. unfold read_parameter_annotation_data. sq. apply h_annotation. Qed.
Lemma h_target i : hush (read_type_annotation_target i).
Proof. unfold read_type_annotation_target, read_local_var_target. sq. Qed.
Lemma h_type_annotation stk : hush (read_type_annotation_data p stk).
Proof. unfold read_type_annotation_data, read_type_annotation, read_path_entry. sq; [apply h_target|apply h_annotation]. Qed.
Lemma h_bootstrap : hush (read_bootstrapmethods_data p).
Proof. unfold read_bootstrapmethods_data, read_bootstrap_method. sq. Qed.
Lemma h_methodparameters : hush (read_methodparameters_data p).
Proof. unfold read_methodparameters_data, read_method_parameter. sq. flags. Qed.
Lemma h_module : hush (read_module_data p).
Proof. unfold read_module_data, read_module_require, read_module_export, read_module_open, read_module_provide. sq; flags. Qed.
Lemma h_record rec : hush rec -> hush (read_record_data p rec).
Proof. intro Hr. unfold read_record_data, read_record_component. sq. Qed.
Lemma h_debug_extension i length : hush (read_source_debug_extension E i length).
Proof.
  unfold read_source_debug_extension. sq. apply h_err, known_with; [|fill]. split; [right; right; right; reflexivity|constructor].
Qed.
Lemma h_other length : hush (read_other_attribute E length).
Proof. unfold read_other_attribute. sq. apply h_lift. unfold usize_sub. destruct (_ <=? _); [apply q_ok|]. destruct (overflow_checks E); [apply q_panic|apply q_ok]. Qed.
Lemma h_dispatch {A} name (cases : list (string * parser A)) d : Forall (fun c => hush (snd c)) cases -> hush d -> hush (dispatch name cases d).
Proof. intros Hc Hd. induction Hc as [|[s q] cases Hq _ IH]; cbn [dispatch]; auto. destruct (str_eqb name (lit s)); auto. Qed.
Lemma h_attr_data rec stk name i length : hush rec -> hush (read_attr_data E p opts rec stk name i length).
Proof.
  intros Hrec. unfold read_attr_data. cbv zeta. apply h_dispatch.
  - repeat match goal with |- Forall _ (_ :: _) => constructor | |- Forall _ [] => constructor end; cbn [snd]; unfold ensure_length, read_modulepackages_data, read_nestmembers_data,
      read_permitted_subclasses_data; sq;
        first [apply h_code, Hrec|apply h_stack_map|apply h_exceptions|apply h_innerclasses|apply h_linenumber|apply h_localvariable
          |apply h_localvariabletype|apply h_annotation_data|apply h_parameter_annotation|apply h_type_annotation|apply h_element_value|apply h_bootstrap
          |apply h_methodparameters|apply h_module|apply h_record, Hrec|apply h_debug_extension].
  - sq. apply h_other.
Qed.
Lemma h_attribute rec stk i : hush rec -> hush (read_attribute E p opts rec stk i).
Proof. intro Hrec. unfold read_attribute. sq. apply h_attr_data, Hrec. Qed.
Lemma h_attributes stk : hush (read_attributes E p opts stk).
Proof. induction stk as [|stk IH]; cbn [read_attributes]; [apply h_panic|]. hh. apply h_attribute, IH. Qed.

(** Members and classes *)
Lemma h_fields : hush (read_fields E p opts).
Proof.
  unfold read_fields. apply h_bind; [apply h_u2|intro n]. generalize 0 (@nil (str * field_desc)). induction (N.to_nat n) as [|k IH]; intros i seen; cbn [fields_loop]; [apply h_ret|].
  sq; first [apply h_attributes|apply IH].
Qed.
Lemma h_methods b major : hush (read_methods E p opts b major).
Proof.
  unfold read_methods. apply h_bind; [apply h_u2|intro n]. generalize 0 (@nil (str * method_desc)). induction (N.to_nat n) as [|k IH]; intros i seen; cbn [methods_loop]; [apply h_ret|].
  sq; first [apply h_attributes|apply IH].
Qed.
Lemma h_interfaces : hush (read_interfaces p).
Proof. unfold read_interfaces. sq. Qed.
Lemma h_this : hush (read_this_class p).
Proof. unfold read_this_class. sq. Qed.
Lemma h_super : hush (read_super_class p).
Proof. unfold read_super_class. sq. Qed.
End Pool.

Lemma some_of_filter f l : some_of (filter f l) l.
Proof. induction l as [|n l IH]; cbn [filter]; [constructor|]. destruct (f n); constructor; exact IH. Qed.
Lemma flags_text_some f : contains f ACC_MODULE = true -> exists l, some_of l flag_names /\ debug_class_flags f = with_bars l.
Proof.
  intro H. unfold debug_class_flags, class_flag_names, flag_names. cbn [filter snd]. rewrite H.
  repeat match goal with |- context [if contains f ?c then _ else _] => destruct (contains f c) end; cbn [map fst];
    lazymatch goal with |- exists l, _ /\ ?x = _ =>
      let rec names t := lazymatch t with join _ ?l => strs l | _ => constr:(["MODULE"%string]) end
      with strs l := lazymatch l with lit ?s :: ?r => let r' := strs r in constr:(s :: r') | _ => constr:(@nil string) end in
      let l := lazymatch x with match ?l with _ => _ end => strs l | _ => names x end in
      exists l; split; [repeat first [apply some_none | apply some_take | apply some_skip]|reflexivity] end.
Qed.
Lemma h_flags b f major : (b = true -> contains f ACC_MODULE = true) -> hush (check_module_flags b f major).
Proof.
  intro Hb. unfold check_module_flags. destruct b; [|apply h_ret]. apply h_bind; [apply h_guard; fill|intro]. unfold guard. destruct (f =? ACC_MODULE); [apply h_ret|].
  intros bs ix e H. unfold pfail in H. injection H as <-. split; [|constructor]. left. right. destruct (flags_text_some f (Hb eq_refl)) as (l & Hl & ->).
  exists l. split; [exact Hl|]. generalize (with_bars l). intro. reflexivity.
Qed.
Lemma q_found x attrs : forall n, quiet E (bootstrap_found x attrs n).
Proof. induction attrs as [|a attrs IH]; intro n; cbn [bootstrap_found]; [apply q_ok|]. destruct (attr_dat a); try apply IH. destruct (_ <=? x); [apply q_fail; fill|apply IH]. Qed.
Lemma q_bootstrap es attrs : quiet E (validate_bootstrap_methods es attrs).
Proof.
  induction es as [|e es IH]; cbn [validate_bootstrap_methods]; [apply q_ok|]. destruct e; try apply IH; (apply q_bind; [apply q_found|intro n]; destruct (negb _); [apply q_fail; fill|apply IH]).
Qed.
Lemma h_contents b super ifs fs ms : hush (check_module_contents b super ifs fs ms).
Proof.
  unfold check_module_contents. hh. intros bs ix e H. unfold pfail in H. injection H as <-. split; [|constructor]. right. right. left. eexists. reflexivity.
Qed.
Lemma h_class opts : hush (class_parser E opts).
Proof.
  unfold class_parser. hh; first [apply h_pool|apply h_this|apply h_super|apply h_interfaces|apply h_fields|apply h_methods|apply h_attributes|apply h_contents|apply h_lift, q_bootstrap|idtac].
  apply h_flags. intro. assumption.
Qed.
End Hush.
