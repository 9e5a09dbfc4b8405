(** * The errors of the readers of constants and instructions have no contexts *)
From Verif Require Import Base M_Names M_Descriptors M_ConstantPool M_Bytecode M_Attributes M_Class P_Contexts.
From Coq Require Import ZifyBool ZifyNat ZifyN.

Section Hush.
Variable E : env.
Definition hush {A} (m : parser A) : Prop := forall bs ix, few 0 (m bs ix).
Lemma h_ret {A} (a : A) : hush (ret a).
Proof. intros bs ix. apply q_ok. Qed.
Lemma h_panic {A} q : hush (fun _ _ => @Panic (A * N) q).
Proof. intros bs ix. apply q_panic. Qed.
Lemma h_lift {A} (m : outcome A) : few 0 m -> hush (lift m).
Proof. intros H bs ix e. unfold lift. destruct m; try discriminate. intro He. apply H. congruence. Qed.
Lemma h_pfail {A} m : hush (@pfail A m).
Proof. intros bs ix. apply (q_fail 0 m). Qed.
Lemma h_pfail_at {A} m : hush (@pfail_at A m).
Proof. intros bs ix. apply (q_fail 0 (m ix)). Qed.
Lemma h_bind {A B} (m : parser A) (f : A -> parser B) : hush m -> (forall a, hush (f a)) -> hush (bind m f).
Proof.
  intros Hm Hf bs ix e. unfold bind. destruct (m bs ix) as [[a i]|e'| |] eqn:H; try discriminate; [apply Hf|]. intro He. apply (Hm bs ix). congruence.
Qed.
Lemma h_guard b m : hush (guard b m).
Proof. unfold guard. destruct b; [apply h_ret|apply h_pfail]. Qed.
Lemma h_for {A} (body : N -> parser A) : (forall i, hush (body i)) -> forall n i, hush (for_from n i body).
Proof. intros H. induction n as [|n IH]; intro i; cbn [for_from]; [apply h_ret|]. apply h_bind; [apply H|]. intro a. apply h_bind; [apply IH|]. intro. apply h_ret. Qed.
Lemma h_for_n {A} n (body : N -> parser A) : (forall i, hush (body i)) -> hush (for_n n body).
Proof. intro H. apply h_for, H. Qed.
Lemma h_for_fuel {A} (body : N -> parser A) : (forall i, hush (body i)) -> forall fuel i n, hush (for_fuel fuel i n body).
Proof.
  intros H. induction fuel as [|fuel IH]; intros i n; cbn [for_fuel]; destruct (i <? n); try apply h_ret; [intros bs ix; apply q_diverge|].
  apply h_bind; [apply H|]. intro a. apply h_bind; [apply IH|]. intro. apply h_ret.
Qed.
Lemma h_for_big {A} n (body : N -> parser A) : (forall i, hush (body i)) -> hush (for_big n body).
Proof. intros H bs ix. apply (h_for_fuel body H). Qed.
Lemma h_get_ix : hush get_ix.
Proof. intros bs ix. apply q_ok. Qed.
Lemma h_get_bytes : hush get_bytes.
Proof. intros bs ix. apply q_ok. Qed.
Lemma h_set_ix n : hush (set_ix n).
Proof. intros bs ix. apply q_ok. Qed.
Ltac hr := intros bs ix; match goal with |- few _ (?r _ _) => unfold r end; destruct (_ <? _); [apply q_fail|];
  repeat (apply q_bind; [apply q_byte_at|intro]); apply q_ok.
Lemma h_u1 : hush read_u1.
Proof. hr. Qed.
Lemma h_u2 : hush read_u2.
Proof. hr. Qed.
Lemma h_u4 : hush read_u4.
Proof. hr. Qed.
Lemma h_u8 : hush read_u8.
Proof. hr. Qed.
Ltac h0 := first
  [ apply h_ret | apply h_pfail | apply h_pfail_at | apply h_guard | apply h_u1 | apply h_u2 | apply h_u4 | apply h_u8
  | apply h_get_ix | apply h_set_ix | apply h_get_bytes | apply h_panic ].
Ltac hh := repeat match goal with
  | H : hush ?m |- hush ?m => exact H
  | H : forall x, hush _ |- hush _ => apply H
  | |- hush _ => h0
  | |- hush (bind _ _) => apply h_bind; [|intro]
  | |- hush (for_n _ _) => apply h_for_n; intro
  | |- hush (for_big _ _) => apply h_for_big; intro
  | |- hush (match ?x with _ => _ end) => destruct x
  | |- hush (let _ := _ in _) => cbv zeta
  end.
Ltac hl := apply h_lift; first [apply q_slice|apply q_i32|apply q_u16|apply q_usize|apply q_capacity|apply q_peel|apply q_peel_utf8|apply q_pool_get|apply q_loadable
  |apply q_method_handle|apply q_member_ref|apply q_ensure_type|apply q_field_descriptor|apply q_method_descriptor|apply q_array_descriptor|apply q_class_name|apply q_string_literal
  |solve [repeat first [apply q_ok | apply q_peel | apply q_peel_utf8 | apply q_string_literal | apply q_method_handle | apply q_nat | apply q_bind; [|intro]]]].

(** Constant pool *)
Lemma h_utf8 : hush (read_constant_utf8 E).
Proof. unfold read_constant_utf8. hh. hl. Qed.
Lemma h_entry major tag : hush (read_entry E major tag).
Proof.
  unfold read_entry, read_constant_integer, read_constant_float, read_constant_long, read_constant_double, read_constant_class, read_constant_string,
    read_constant_fieldref, read_constant_methodref, read_constant_interfacemethodref, read_constant_nameandtype, read_constant_methodhandle,
    read_constant_methodtype, read_constant_dynamic, read_constant_invokedynamic, read_constant_module, read_constant_package, read_unresolved_cp_ref.
  hh; apply h_utf8.
Qed.
Lemma h_pool_loop major count : forall fuel cp, hush (pool_loop E fuel major count cp).
Proof.
  induction fuel as [|fuel IH]; intro cp; cbn [pool_loop]; destruct (cp <? count); try apply h_ret; [intros bs ix; apply q_diverge|].
  hh; [apply h_entry|hl|hl].
Qed.

Section Pool.
Variable p : pool.
Variable opts : parse_options.
Lemma h_any : hush (read_cp_ref_any p).
Proof. unfold read_cp_ref_any. hh. hl. Qed.
Ltac hc := repeat (hh; try apply h_any; try hl).
Lemma h_cp_utf8 : hush (read_cp_utf8 p).
Proof. unfold read_cp_utf8, bad_type. hc. Qed.
Lemma h_cp_utf8_opt : hush (read_cp_utf8_opt p).
Proof. unfold read_cp_utf8_opt, bad_type. hc. Qed.
Lemma h_classinfo : hush (read_cp_classinfo p).
Proof. unfold read_cp_classinfo, bad_type. hc. Qed.
Lemma h_classinfo_opt : hush (read_cp_classinfo_opt p).
Proof. unfold read_cp_classinfo_opt, bad_type. hc. Qed.
Lemma h_moduleinfo : hush (read_cp_moduleinfo p).
Proof. unfold read_cp_moduleinfo, bad_type. hc. Qed.
Lemma h_packageinfo : hush (read_cp_packageinfo p).
Proof. unfold read_cp_packageinfo, bad_type. hc. Qed.
Lemma h_nameandtype_opt : hush (read_cp_nameandtype_opt p).
Proof. unfold read_cp_nameandtype_opt, bad_type. hc. Qed.
Lemma h_literalconstant : hush (read_cp_literalconstant p).
Proof. unfold read_cp_literalconstant, bad_type. hc. Qed.
Lemma h_integer : hush (read_cp_integer p).
Proof. unfold read_cp_integer, bad_type. hc. Qed.
Lemma h_float : hush (read_cp_float p).
Proof. unfold read_cp_float, bad_type. hc. Qed.
Lemma h_long : hush (read_cp_long p).
Proof. unfold read_cp_long, bad_type. hc. Qed.
Lemma h_double : hush (read_cp_double p).
Proof. unfold read_cp_double, bad_type. hc. Qed.
Lemma h_methodhandle : hush (read_cp_methodhandle p).
Proof. unfold read_cp_methodhandle, bad_type. hc. Qed.
Lemma h_bootstrap_argument : hush (read_cp_bootstrap_argument p).
Proof. unfold read_cp_bootstrap_argument, bad_type. hc. Qed.
Lemma h_memberref a : hush (read_cp_memberref p a).
Proof. unfold read_cp_memberref, bad_type. hc. Qed.
Lemma h_invokedynamic : hush (read_cp_invokedynamic p).
Proof. unfold read_cp_invokedynamic, bad_type. hc. Qed.
Lemma h_object_array : hush (read_cp_object_array_type p).
Proof. unfold read_cp_object_array_type, bad_type. hc. Qed.
Lemma h_field_descriptor : hush (read_cp_field_descriptor p).
Proof. unfold read_cp_field_descriptor. hh; [apply h_cp_utf8|hl]. Qed.

(** Instructions *)
Lemma h_tableswitch : hush (read_tableswitch E).
Proof. unfold read_tableswitch, align4. hh; hl. Qed.
Lemma h_lookupswitch : hush (read_lookupswitch E).
Proof. unfold read_lookupswitch, align4. hh; hl. Qed.
Ltac q1 := match goal with
  | |- hush (read_cp_memberref _ _) => apply h_memberref
  | |- hush (read_cp_object_array_type _) => apply h_object_array
  | |- hush (read_cp_invokedynamic _) => apply h_invokedynamic
  | |- hush (lift _) => hl
  end.
Lemma h_newarray : hush read_newarray.
Proof. unfold read_newarray. hh. Qed.
Lemma h_wide : hush read_wide.
Proof. unfold read_wide. hh. Qed.
Lemma h_invokeinterface : hush (read_invokeinterface p).
Proof. unfold read_invokeinterface. hh. apply h_memberref. Qed.
Lemma h_invokedynamic_insn : hush (read_invokedynamic_insn p).
Proof. unfold read_invokedynamic_insn. hh. apply h_invokedynamic. Qed.
Lemma h_insn : hush (read_insn E p).
Proof.
  unfold read_insn. hh; first [q1|apply h_classinfo|apply h_tableswitch|apply h_lookupswitch|apply h_newarray|apply h_wide|apply h_invokeinterface|apply h_invokedynamic_insn].
Qed.
Lemma h_opcodes : forall fuel, hush (opcodes_loop E p fuel).
Proof.
  induction fuel as [|fuel IH]; intros bs ix; cbn [opcodes_loop]; destruct (ix <? blen bs); try apply q_ok; [apply q_diverge|].
  match goal with |- few _ (?m bs ix) => assert (H : hush m); [|apply H] end. hh. apply h_insn.
Qed.
Lemma q_search ops o : forall fuel a b, few 0 (search_loop fuel ops o a b).
Proof. induction fuel as [|fuel IH]; intros a b; cbn [search_loop]; repeat match goal with |- few _ (match ?x with _ => _ end) => destruct x end; try apply q_ok; try apply q_panic; try apply q_diverge; apply IH. Qed.
Lemma q_jump bc s j : few 0 (validate_jump E bc s j).
Proof.
  unfold validate_jump. apply q_bind; [apply q_i32|intro t]. destruct (usize_of_i32 t); [|apply q_fail].
  apply q_bind; [apply q_search|intro r]. destruct r; [apply q_ok|apply q_fail].
Qed.
Lemma q_jumps_of bc s js : few 1 (validate_all E bc s js).
Proof.
  induction js as [|[c j] js IH]; cbn [validate_all]; [apply q_ok|]. apply q_bind; [|intro; exact IH]. apply (q_ctx 0), q_jump.
Qed.
Lemma q_opcode_jumps bc o op : few 1 (validate_opcode_jumps E bc o op).
Proof.
  unfold validate_opcode_jumps. destruct (i32_of_usize o) as [s|]; [|apply q_fail].
  destruct op; try apply q_ok; try (apply (q_more 0); [lia|apply q_jump]); (apply q_bind; [apply (q_ctx 0), q_jump|intro]); apply q_jumps_of.
Qed.
Lemma q_jumps bc ops : few 2 (validate_jumps E bc ops).
Proof. induction ops as [|[o op] ops IH]; cbn [validate_jumps]; [apply q_ok|]. apply q_bind; [|intro; exact IH]. apply (q_ctx 1), q_opcode_jumps. Qed.
Lemma q_bytecode code : few 2 (bytecode_from E code p).
Proof.
  unfold bytecode_from. apply q_bind; [|intro ops; cbv zeta; apply q_bind; [apply q_jumps|intro; apply q_ok]].
  unfold read_opcodes. apply q_bind; [apply (q_more 0); [lia|apply h_opcodes]|intro; apply q_ok].
Qed.
End Pool.
End Hush.
