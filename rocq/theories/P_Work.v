(** * Forgetting the steps gives back the model of M_*.v *)
From Verif Require Import Base M_Names M_Descriptors M_ConstantPool M_Bytecode M_Attributes M_Class
  W_Base W_Descriptors W_ConstantPool W_Bytecode W_Attributes W_Class.

(** ** Computations *)
Definition forgets {A} (t : metered A) (m : outcome A) : Prop := fst t = m.
Lemma fg_steps {A} k (m : outcome A) : forgets (steps k m) m.
Proof. reflexivity. Qed.
Lemma fg_ok {A} (a : A) : forgets (mok a) (Ok a).
Proof. reflexivity. Qed.
Lemma fg_bind {A B} (t : metered A) m (f : A -> metered B) g :
  forgets t m -> (forall a, forgets (f a) (g a)) -> forgets (mbind t f) (obind m g).
Proof.
  unfold forgets. intros <- Hf. destruct t as [[a| | |] n]; cbn; auto. rewrite <- (Hf a). destruct (f a); reflexivity.
Qed.
Lemma fg_after {A} k (t : metered A) m : forgets t m -> forgets (after k t) m.
Proof. unfold forgets. intros <-. destruct t; reflexivity. Qed.
Lemma fg_ctx {A} c (t : metered A) m : forgets t m -> forgets (mctx c t) (ctx c m).
Proof. unfold forgets. intros <-. destruct t; reflexivity. Qed.
Lemma fg_if {A} (b : bool) (t t' : metered A) m m' : forgets t m -> forgets t' m' -> forgets (if b then t else t') (if b then m else m').
Proof. destruct b; auto. Qed.
Lemma fg_ok_and {A} (t : metered A) m f : forgets t m -> forgets (w_ok_and t f) (ok_and m f).
Proof. unfold forgets. intros <-. destruct t; reflexivity. Qed.
Lemma fg_copied r : forgets (copied r) r.
Proof. reflexivity. Qed.
Create HintDb fg.
#[export] Hint Resolve fg_steps fg_ok fg_copied : fg.
Ltac fg := repeat first
  [ solve [auto with fg nocore]
  | simple apply fg_after
  | simple apply fg_bind; [|intro]
  | simple apply fg_ctx
  | simple apply fg_ok_and
  | simple apply fg_if
  | match goal with |- forall _, _ => intro end
  | match goal with |- forgets (match ?x with _ => _ end) _ => destruct x end
  | progress cbv zeta ].

Lemma fg_segment_loop data rest : forall ix, forgets (w_segment_loop data rest ix) (segment_loop data rest ix).
Proof. induction rest as [|c rest IH]; intro ix; cbn [w_segment_loop segment_loop]; fg. Qed.
Lemma fg_segment data : forgets (w_unqualified_segment data) (parse_unqualified_segment data).
Proof. apply fg_segment_loop. Qed.
#[export] Hint Resolve fg_segment : fg.
Lemma fg_class_name_loop fuel value : forall index, forgets (w_class_name_loop fuel value index) (class_name_loop fuel value index).
Proof. induction fuel as [|fuel IH]; intro ix; cbn [w_class_name_loop class_name_loop]; fg. Qed.
Lemma fg_class_name s : forgets (w_class_name_try_from s) (class_name_try_from s).
Proof. apply fg_bind; [apply fg_class_name_loop|]. fg. Qed.
Lemma fg_class_descriptor_loop fuel data index : forall next, forgets (w_class_descriptor_loop fuel data index next) (class_descriptor_loop fuel data index next).
Proof. induction fuel as [|fuel IH]; intro ix; cbn [w_class_descriptor_loop class_descriptor_loop]; fg. Qed.
Lemma fg_class_descriptor data index : forgets (w_class_descriptor data index) (parse_class_descriptor data index).
Proof. apply fg_class_descriptor_loop. Qed.
#[export] Hint Resolve fg_class_name fg_class_descriptor : fg.
Lemma fg_field_loop data index chars : forall dims, forgets (w_field_descriptor_loop data index chars dims) (field_descriptor_loop data index chars dims).
Proof. induction chars as [|c chars IH]; intro dims; cbn [w_field_descriptor_loop field_descriptor_loop]; fg. Qed.
Lemma fg_field data index : forgets (w_parse_field_descriptor data index) (parse_field_descriptor data index).
Proof. apply fg_bind; [fg|]. intro. apply fg_field_loop. Qed.
#[export] Hint Resolve fg_field : fg.
Lemma fg_return data index : forgets (w_parse_return_descriptor data index) (parse_return_descriptor data index).
Proof. unfold w_parse_return_descriptor, parse_return_descriptor. fg. Qed.
#[export] Hint Resolve fg_return : fg.
Lemma fg_params fuel data : forall index, forgets (w_params_loop fuel data index) (params_loop fuel data index).
Proof. induction fuel as [|fuel IH]; intro ix; cbn [w_params_loop params_loop]; fg. Qed.
#[export] Hint Resolve fg_params : fg.
Lemma fg_method data index : forgets (w_parse_method_descriptor data index) (parse_method_descriptor data index).
Proof. unfold w_parse_method_descriptor, parse_method_descriptor. fg. Qed.
Lemma fg_array data : forgets (w_parse_array_descriptor data) (parse_array_descriptor data).
Proof. unfold w_parse_array_descriptor, parse_array_descriptor. destruct data; fg. Qed.
Lemma fg_is_field s : forgets (w_is_field_descriptor s) (is_field_descriptor s).
Proof. unfold w_is_field_descriptor, is_field_descriptor. fg. Qed.
#[export] Hint Resolve fg_method fg_array fg_is_field : fg.
Lemma fg_is_array s : forgets (w_is_array_descriptor s) (is_array_descriptor s).
Proof. unfold w_is_array_descriptor, is_array_descriptor. fg. Qed.
Lemma fg_is_method s : forgets (w_is_method_descriptor s) (is_method_descriptor s).
Proof.
  unfold w_is_method_descriptor, is_method_descriptor. pose proof (fg_method s 0) as H. unfold forgets in H. rewrite <- H.
  destruct (w_parse_method_descriptor s 0); reflexivity.
Qed.
Lemma fg_is_return s : forgets (w_is_return_descriptor s) (is_return_descriptor s).
Proof. unfold w_is_return_descriptor, is_return_descriptor. fg. Qed.
#[export] Hint Resolve fg_is_array fg_is_method fg_is_return : fg.

Section Pool.
Variable p : pool.
Lemma fg_peel r : forgets (w_peel p r) (peel p r).
Proof. reflexivity. Qed.
Lemma fg_ensure r a : forgets (w_ensure_ref_type p r a) (ensure_ref_type p r a).
Proof. reflexivity. Qed.
Lemma fg_entry_str e : forgets (w_entry_str e) (entry_str e).
Proof. reflexivity. Qed.
Hint Resolve fg_peel fg_ensure fg_entry_str : fg.
Lemma fg_validate_entry stk major e : forgets (w_validate_entry stk p major e) (validate_entry stk p major e).
Proof.
  assert (H1 : forall e, forgets (w_validate_classinfo_name e) (validate_classinfo_name e)) by (intro; unfold w_validate_classinfo_name, validate_classinfo_name; fg).
  assert (H2 : forall e, forgets (w_validate_binary_name e) (validate_binary_name e)) by (intro; unfold w_validate_binary_name, validate_binary_name; fg).
  assert (H3 : forall e, forgets (w_validate_unqualified_name e) (validate_unqualified_name e)) by (intro; unfold w_validate_unqualified_name, validate_unqualified_name; fg).
  assert (H4 : forall e, forgets (w_validate_module_name e) (validate_module_name e)) by (intro; unfold w_validate_module_name, validate_module_name; fg).
  assert (H5 : forall e, forgets (w_validate_field_descriptor p e) (validate_field_descriptor p e)) by (intro t; unfold w_validate_field_descriptor, validate_field_descriptor; destruct t; fg).
  assert (H6 : forall stk e, forgets (w_validate_method_descriptor stk p e) (validate_method_descriptor stk p e)).
  { clear stk e. induction stk as [|stk IH]; intro t; cbn [w_validate_method_descriptor validate_method_descriptor]; [fg|destruct t; fg]. }
  destruct e; cbn [w_validate_entry validate_entry]; fg.
Qed.
Lemma fg_peel_utf8 r : forgets (w_peel_utf8 p r) (peel_utf8 p r).
Proof. unfold w_peel_utf8. fg. Qed.
Lemma fg_string_literal e : forgets (w_string_literal e) (string_literal e).
Proof. reflexivity. Qed.
Lemma fg_classinfo e : forgets (w_classinfo p e) (classinfo p e).
Proof. unfold w_classinfo. fg. Qed.
Hint Resolve fg_peel_utf8 fg_string_literal fg_classinfo : fg.
Lemma fg_name_and_type e : forgets (w_name_and_type p e) (get_name_and_type p e).
Proof. destruct e; cbn [w_name_and_type get_name_and_type]; fg. Qed.
Hint Resolve fg_name_and_type : fg.
Lemma fg_member_ref c m : forgets (w_member_ref p c m) (make_member_ref p c m).
Proof. unfold w_member_ref, make_member_ref. fg. Qed.
Lemma fg_method_handle x y : forgets (w_make_method_handle p x y) (make_method_handle p x y).
Proof. unfold w_make_method_handle, make_method_handle. fg. Qed.
Hint Resolve fg_member_ref fg_method_handle : fg.
Lemma fg_loadable i : forgets (w_loadable p i) (get_cp_loadable p i).
Proof. unfold w_loadable, get_cp_loadable. fg. Qed.
End Pool.
#[export] Hint Resolve fg_peel fg_ensure fg_entry_str fg_validate_entry fg_peel_utf8 fg_string_literal fg_classinfo fg_name_and_type fg_member_ref fg_method_handle fg_loadable : fg.

Lemma fg_resolve_from len es : forall i, forgets (w_resolve_from len i es) (resolve_from len i es).
Proof. induction es as [|e es IH]; intro i; cbn [w_resolve_from resolve_from]; fg. Qed.
Lemma fg_validate_from stk p major es : forall i, forgets (w_validate_from stk p major i es) (validate_from stk p major i es).
Proof. induction es as [|e es IH]; intro i; cbn [w_validate_from validate_from]; fg. Qed.
Lemma fg_resolve p : forgets (w_resolve_constant_pool p) (resolve_constant_pool p).
Proof. apply fg_resolve_from. Qed.
Lemma fg_validate E p major : forgets (w_validate_constant_pool E p major) (validate_constant_pool E p major).
Proof. apply fg_validate_from. Qed.
#[export] Hint Resolve fg_resolve fg_validate : fg.

(** ** Readers *)
Definition erases {A} (t : wparser A) (m : parser A) : Prop := forall bs ix, fst (t bs ix) = m bs ix.

Lemma er_costs {A} k (m : parser A) : erases (costs k m) m.
Proof. intros bs ix; reflexivity. Qed.
Lemma er_ret {A} (a : A) : erases (wret a) (ret a).
Proof. intros bs ix; reflexivity. Qed.
Lemma er_fail {A} m : erases (@wfail A m) (pfail m).
Proof. intros bs ix; reflexivity. Qed.
Lemma er_fail_at {A} m : erases (@wfail_at A m) (pfail_at m).
Proof. intros bs ix; reflexivity. Qed.
Lemma er_guard k b m : erases (wguard k b m) (guard b m).
Proof. intros bs ix; reflexivity. Qed.
Lemma er_u1 : erases w_u1 read_u1. Proof. apply er_costs. Qed.
Lemma er_u2 : erases w_u2 read_u2. Proof. apply er_costs. Qed.
Lemma er_u4 : erases w_u4 read_u4. Proof. apply er_costs. Qed.
Lemma er_u8 : erases w_u8 read_u8. Proof. apply er_costs. Qed.
Lemma er_bind {A B} (t : wparser A) m (f : A -> wparser B) g :
  erases t m -> (forall a, erases (f a) (g a)) -> erases (wbind t f) (bind m g).
Proof.
  intros Ht Hf bs ix. unfold wbind, bind. rewrite <- (Ht bs ix).
  destruct (t bs ix) as [[[a ix']| | |] l]; cbn; auto.
  rewrite <- (Hf a bs ix'). destruct (f a bs ix'); reflexivity.
Qed.
Lemma er_tick {B} n (f : unit -> wparser B) g : (forall a, erases (f a) g) -> erases (wbind (tick n) f) g.
Proof.
  intros Hf bs ix. unfold wbind, tick, costs, ret. rewrite <- (Hf tt bs ix). destruct (f tt bs ix); reflexivity.
Qed.
Lemma er_ctx {A} c (t : wparser A) m : erases t m -> erases (wctx c t) (pctx c m).
Proof. intros H bs ix. unfold wctx, mctx, pctx. rewrite <- (H bs ix). destruct (t bs ix); reflexivity. Qed.
Lemma er_lift {A} (t : metered A) m : forgets t m -> erases (wlift t) (lift m).
Proof. intros <- bs ix. unfold wlift. destruct t; reflexivity. Qed.
Lemma er_if {A} (b : bool) (t t' : wparser A) m m' :
  erases t m -> erases t' m' -> erases (if b then t else t') (if b then m else m').
Proof. destruct b; auto. Qed.
Lemma er_for_from {A} n : forall i (b : N -> wparser A) b', (forall i, erases (b i) (b' i)) ->
  erases (wfor_from n i b) (for_from n i b').
Proof.
  induction n as [|n IH]; intros i b b' H; [apply er_ret|].
  apply er_bind; [apply H|]. intro x. apply er_tick. intros _. apply er_bind; [apply IH, H|]. intro. apply er_ret.
Qed.
Lemma er_for {A} n (b : N -> wparser A) b' : (forall i, erases (b i) (b' i)) ->
  erases (wfor_n n b) (for_n n b').
Proof. apply er_for_from. Qed.
Lemma er_for_fuel {A} fuel count (b : N -> wparser A) b' : (forall i, erases (b i) (b' i)) -> forall i,
  erases (wfor_fuel fuel i count b) (for_fuel fuel i count b').
Proof.
  intro H. induction fuel as [|fuel IH]; intro i; cbn [wfor_fuel for_fuel]; (apply er_if; [|apply er_ret]); [intros bs ix; reflexivity|].
  apply er_bind; [apply H|]. intro x. apply er_tick. intros _. apply er_bind; [apply IH|]. intro. apply er_ret.
Qed.
Lemma er_for_big {A} n (b : N -> wparser A) b' : (forall i, erases (b i) (b' i)) ->
  erases (wfor_big n b) (for_big n b').
Proof. intros H bs ix. apply er_for_fuel, H. Qed.
Lemma er_dispatch {A} name (cs : list (string * wparser A)) cs' d d' :
  Forall2 (fun c c' => fst c = fst c' /\ erases (snd c) (snd c')) cs cs' -> erases d d' ->
  erases (wdispatch name cs d) (dispatch name cs' d').
Proof.
  intros H Hd. induction H as [|[s q] [s' q'] cs cs' [H1 H2] _ IH]; cbn in *; auto.
  subst s'. apply er_tick. intros _. apply er_if; auto.
Qed.

Create HintDb er.
#[export] Hint Resolve er_costs er_ret er_fail er_fail_at er_guard er_u1 er_u2 er_u4 er_u8 : er.
Ltac head t := match t with ?f _ => head f | _ => t end.
Ltac er := repeat first
  [ solve [auto with er nocore]
  | simple apply er_for; intro
  | simple apply er_for_big; intro
  | simple apply er_tick; intro
  | simple apply er_lift; solve [fg]
  | simple apply er_bind; [|intro]
  | simple apply er_ctx
  | simple apply er_if
  | match goal with |- forall _, _ => intro end
  | match goal with |- erases (match ?x with _ => _ end) _ => destruct x end
  | progress cbv zeta ].

Section ReadPool.
Variable E : env.
Lemma er_entry major tag : erases (w_entry E major tag) (read_entry E major tag).
Proof.
  unfold w_entry. destruct (N.eqb_spec tag 1) as [->|]; [|er]. cbn [read_entry]. unfold w_constant_utf8, read_constant_utf8.
  er.
Qed.
Hint Resolve er_entry : er.
Lemma er_pool_loop major count fuel : forall cp_ix, erases (w_pool_loop E fuel major count cp_ix) (pool_loop E fuel major count cp_ix).
Proof.
  induction fuel as [|fuel IH]; intro cp_ix; cbn [w_pool_loop pool_loop]; (apply er_if; [|apply er_ret]); [intros bs ix; reflexivity|]. er.
Qed.
Hint Resolve er_pool_loop : er.
Lemma er_constant_pool major : erases (w_constant_pool E major) (read_constant_pool E major).
Proof. unfold w_constant_pool, read_constant_pool. er. Qed.
End ReadPool.

Section Refs.
Variable p : pool.
Ltac go a b := unfold a, b; er.
Lemma er_bad {A} : erases (@w_bad_type A) bad_type. Proof. apply er_fail. Qed.
Lemma er_ref_any : erases (w_ref_any p) (read_cp_ref_any p). Proof. apply er_costs. Qed.
Hint Resolve er_bad er_ref_any : er.
Lemma er_utf8 : erases (w_utf8 p) (read_cp_utf8 p). Proof. go w_utf8 read_cp_utf8. Qed.
Lemma er_utf8_opt : erases (w_utf8_opt p) (read_cp_utf8_opt p). Proof. go w_utf8_opt read_cp_utf8_opt. Qed.
Lemma er_class_name : erases (w_class p) (read_cp_classinfo p). Proof. go w_class read_cp_classinfo. Qed.
Lemma er_class_opt : erases (w_class_opt p) (read_cp_classinfo_opt p). Proof. go w_class_opt read_cp_classinfo_opt. Qed.
Lemma er_module_name : erases (w_module_name p) (read_cp_moduleinfo p). Proof. go w_module_name read_cp_moduleinfo. Qed.
Lemma er_package_name : erases (w_package_name p) (read_cp_packageinfo p). Proof. go w_package_name read_cp_packageinfo. Qed.
Lemma er_nameandtype_opt : erases (w_nameandtype_opt p) (read_cp_nameandtype_opt p). Proof. go w_nameandtype_opt read_cp_nameandtype_opt. Qed.
Lemma er_literalconstant : erases (w_literalconstant p) (read_cp_literalconstant p). Proof. go w_literalconstant read_cp_literalconstant. Qed.
Lemma er_integer : erases (w_integer p) (read_cp_integer p). Proof. apply er_costs. Qed.
Lemma er_float : erases (w_float p) (read_cp_float p). Proof. apply er_costs. Qed.
Lemma er_long : erases (w_long p) (read_cp_long p). Proof. apply er_costs. Qed.
Lemma er_double : erases (w_double p) (read_cp_double p). Proof. apply er_costs. Qed.
Lemma er_memberref a : erases (w_memberref p a) (read_cp_memberref p a). Proof. go w_memberref read_cp_memberref. Qed.
Lemma er_invokedynamic : erases (w_invokedynamic p) (read_cp_invokedynamic p). Proof. go w_invokedynamic read_cp_invokedynamic. Qed.
Lemma er_methodhandle : erases (w_methodhandle p) (read_cp_methodhandle p). Proof. go w_methodhandle read_cp_methodhandle. Qed.
Lemma er_bootstrap_argument : erases (w_bootstrap_argument p) (read_cp_bootstrap_argument p). Proof. go w_bootstrap_argument read_cp_bootstrap_argument. Qed.
Lemma er_object_array_type : erases (w_object_array_type p) (read_cp_object_array_type p). Proof. go w_object_array_type read_cp_object_array_type. Qed.
End Refs.
#[export] Hint Resolve er_constant_pool er_utf8 er_utf8_opt er_class_name er_class_opt er_module_name er_package_name er_nameandtype_opt er_literalconstant er_integer er_float er_long er_double
  er_memberref er_invokedynamic er_methodhandle er_bootstrap_argument er_object_array_type : er.

Section Bytecode.
Variable E : env.
Variable p : pool.
Lemma er_tableswitch : erases (w_tableswitch E) (read_tableswitch E).
Proof. unfold w_tableswitch, read_tableswitch. er. Qed.
Lemma er_lookupswitch : erases (w_lookupswitch E) (read_lookupswitch E).
Proof. unfold w_lookupswitch, read_lookupswitch. er. Qed.
Lemma er_invokeinterface : erases (w_invokeinterface p) (read_invokeinterface p).
Proof. unfold w_invokeinterface, read_invokeinterface. er. Qed.
Lemma er_invokedynamic_insn : erases (w_invokedynamic_insn p) (read_invokedynamic_insn p).
Proof. unfold w_invokedynamic_insn, read_invokedynamic_insn. er. Qed.
Lemma er_newarray : erases w_newarray read_newarray.
Proof.
  unfold w_newarray, read_newarray. apply er_bind; [er|]. intro n. apply er_bind; [|er].
  destruct n as [|n]; [er|]. do 4 (try destruct n as [n|n|]); er.
Qed.
Lemma er_wide : erases w_wide read_wide.
Proof.
  unfold w_wide, read_wide. apply er_bind; [er|]. intro n.
  destruct n as [|n]; [er|]. do 8 (try destruct n as [n|n|]); try solve [auto with er nocore]; er.
Qed.
Hint Resolve er_tableswitch er_lookupswitch er_invokeinterface er_invokedynamic_insn er_newarray er_wide : er.
Lemma er_insn : erases (w_insn E p) (read_insn E p).
Proof.
  unfold w_insn, read_insn. apply er_bind; [er|]. intro n.
  destruct n as [|n]; [er|]. do 8 (try destruct n as [n|n|]); try solve [auto with er nocore]; er.
Qed.
Lemma er_opcodes_loop fuel : erases (w_opcodes_loop E p fuel) (opcodes_loop E p fuel).
Proof.
  induction fuel as [|fuel IH]; intros code ix; cbn [w_opcodes_loop opcodes_loop];
    destruct (ix <? blen code); try reflexivity.
  apply er_bind; [apply er_insn|]. intro. apply er_tick. intros _. apply er_bind; [exact IH|]. intro. apply er_ret.
Qed.
Lemma fg_opcodes code : forgets (w_opcodes E p code) (read_opcodes E p code).
Proof. unfold w_opcodes, read_opcodes. apply fg_bind; [apply er_opcodes_loop|]. fg. Qed.
Lemma fg_search ops offset fuel : forall min max, forgets (w_search_loop fuel ops offset min max) (search_loop fuel ops offset min max).
Proof. induction fuel as [|fuel IH]; intros min max; cbn [w_search_loop search_loop]; fg. Qed.
Lemma fg_index bc offset : forgets (w_get_opcode_index bc offset) (get_opcode_index bc offset).
Proof. apply fg_search. Qed.
Hint Resolve fg_index fg_opcodes : fg.
Lemma fg_jump bc s j : forgets (w_validate_jump E bc s j) (validate_jump E bc s j).
Proof. unfold w_validate_jump, validate_jump. fg. Qed.
Hint Resolve fg_jump : fg.
Lemma fg_all bc s js : forgets (w_validate_all E bc s js) (validate_all E bc s js).
Proof. induction js as [|[c j] js IH]; cbn [w_validate_all validate_all]; fg. Qed.
Hint Resolve fg_all : fg.
Lemma fg_opcode_jumps bc offset op : forgets (w_validate_opcode_jumps E bc offset op) (validate_opcode_jumps E bc offset op).
Proof. unfold w_validate_opcode_jumps, validate_opcode_jumps. destruct (i32_of_usize offset); [destruct op|]; fg. Qed.
Hint Resolve fg_opcode_jumps : fg.
Lemma fg_jumps bc ops : forgets (w_validate_jumps E bc ops) (validate_jumps E bc ops).
Proof. induction ops as [|[o op] ops IH]; cbn [w_validate_jumps validate_jumps]; fg. Qed.
Hint Resolve fg_jumps : fg.
Lemma fg_bytecode code : forgets (w_bytecode_from E code p) (bytecode_from E code p).
Proof. unfold w_bytecode_from, bytecode_from. fg. Qed.
End Bytecode.
#[export] Hint Resolve fg_bytecode : fg.

Section Attributes.
Variable E : env.
Variable p : pool.
Variable opts : bool.

Lemma er_ensure_length a b : erases (w_ensure_length a b) (ensure_length a b).
Proof. unfold w_ensure_length, ensure_length. er. Qed.
Lemma er_field_descriptor : erases (w_field_descriptor p) (read_cp_field_descriptor p).
Proof. unfold w_field_descriptor, read_cp_field_descriptor. er. Qed.
Lemma er_exact_flags a e : erases (w_exact_flags a e) (read_exact_flags a e).
Proof. unfold w_exact_flags, read_exact_flags. er. Qed.
Lemma er_exception_entry i : erases (w_exception_entry p i) (read_exception_entry p i).
Proof. unfold w_exception_entry, read_exception_entry. er. Qed.
Hint Resolve er_ensure_length er_field_descriptor er_exact_flags er_exception_entry : er.
Lemma er_code_data rec rec' : erases rec rec' -> erases (w_code_data E p opts rec) (read_code_data E p opts rec').
Proof. intro H. unfold w_code_data, read_code_data. er. Qed.
Lemma er_verification : erases (w_verification p) (read_verification p).
Proof.
  unfold w_verification, read_verification. apply er_bind; [er|]. intro n.
  destruct n as [|n]; [er|]. do 4 (try destruct n as [n|n|]); try solve [auto with er nocore]; er.
Qed.
Hint Resolve er_verification : er.
Lemma er_stack_map_entry i : erases (w_stack_map_entry p i) (read_stack_map_entry p i).
Proof. unfold w_stack_map_entry, read_stack_map_entry. er. Qed.
Lemma er_inner_class i : erases (w_inner_class p i) (read_inner_class p i).
Proof. unfold w_inner_class, read_inner_class. er. Qed.
Lemma er_line_number : erases w_line_number read_line_number.
Proof. unfold w_line_number, read_line_number. er. Qed.
Lemma er_local_variable i : erases (w_local_variable p i) (read_local_variable p i).
Proof. unfold w_local_variable, read_local_variable. er. Qed.
Lemma er_local_variable_type i : erases (w_local_variable_type p i) (read_local_variable_type p i).
Proof. unfold w_local_variable_type, read_local_variable_type. er. Qed.
Lemma er_annotation_with rec rec' : erases rec rec' ->
  erases (w_annotation_with p rec) (read_annotation_with p rec').
Proof. intro H. unfold w_annotation_with, read_annotation_with. er. Qed.
Lemma er_element_value_with rec rec' : erases rec rec' ->
  erases (w_element_value_with p rec) (read_element_value_with p rec').
Proof.
  intro H. unfold w_element_value_with, read_element_value_with.
  apply er_bind; [apply er_u1|]. intro v. er. apply er_annotation_with, H.
Qed.
Lemma er_element_value stk : erases (w_element_value p stk) (read_element_value p stk).
Proof. induction stk; [intros bs ix; reflexivity|]. apply er_element_value_with, IHstk. Qed.
Lemma er_annotation stk : erases (w_annotation p stk) (read_annotation p stk).
Proof. apply er_annotation_with, er_element_value. Qed.
Lemma er_local_var_target : erases w_local_var_target read_local_var_target.
Proof. unfold w_local_var_target, read_local_var_target. er. Qed.
Hint Resolve er_local_var_target : er.
Lemma er_target i : erases (w_type_annotation_target i) (read_type_annotation_target i).
Proof.
  unfold w_type_annotation_target, read_type_annotation_target. apply er_bind; [er|]. intro n.
  destruct n as [|n]; [er|]. do 7 (try destruct n as [n|n|]); try solve [auto with er nocore]; er.
Qed.
Lemma er_path_entry i j : erases (w_path_entry i j) (read_path_entry i j).
Proof.
  unfold w_path_entry, read_path_entry. apply er_bind; [er|]. intro n. apply er_bind; [|er].
  destruct n as [|n]; [er|]. do 3 (try destruct n as [n|n|]); try solve [auto with er nocore]; er.
Qed.
Hint Resolve er_target er_annotation er_stack_map_entry er_inner_class er_line_number er_local_variable er_local_variable_type er_path_entry : er.
Lemma er_type_annotation stk i : erases (w_type_annotation p stk i) (read_type_annotation p stk i).
Proof. unfold w_type_annotation, read_type_annotation. er. Qed.
Lemma er_bootstrap_method i : erases (w_bootstrap_method p i) (read_bootstrap_method p i).
Proof. unfold w_bootstrap_method, read_bootstrap_method. er. Qed.
Lemma er_method_parameter i : erases (w_method_parameter p i) (read_method_parameter p i).
Proof. unfold w_method_parameter, read_method_parameter. er. Qed.
Lemma er_module_require i : erases (w_module_require p i) (read_module_require p i).
Proof. unfold w_module_require, read_module_require. er. Qed.
Lemma er_module_export i : erases (w_module_export p i) (read_module_export p i).
Proof. unfold w_module_export, read_module_export. er. Qed.
Lemma er_module_open i : erases (w_module_open p i) (read_module_open p i).
Proof. unfold w_module_open, read_module_open. er. Qed.
Lemma er_module_provide i : erases (w_module_provide p i) (read_module_provide p i).
Proof. unfold w_module_provide, read_module_provide. er. Qed.
Hint Resolve er_type_annotation er_bootstrap_method er_method_parameter er_module_require er_module_export er_module_open er_module_provide : er.
Lemma er_module_data : erases (w_module_data p) (read_module_data p).
Proof. unfold w_module_data, read_module_data. er. Qed.
Lemma er_record_component rec rec' i : erases rec rec' ->
  erases (w_record_component p rec i) (read_record_component p rec' i).
Proof. intro H. unfold w_record_component, read_record_component. er. Qed.
Lemma er_debug i length : erases (w_source_debug_extension E i length) (read_source_debug_extension E i length).
Proof. unfold w_source_debug_extension, read_source_debug_extension. er. Qed.
Lemma er_other length : erases (w_other_attribute E length) (read_other_attribute E length).
Proof. unfold w_other_attribute, read_other_attribute. er. Qed.
Hint Resolve er_module_data er_element_value er_debug er_other : er.

Lemma er_attr_data rec rec' stk name i length : erases rec rec' ->
  erases (w_attr_data E p opts rec stk name i length) (read_attr_data E p opts rec' stk name i length).
Proof.
  intro H. unfold w_attr_data, read_attr_data.
  apply er_dispatch; [|er].
  repeat (apply Forall2_cons; [split; [reflexivity|]; cbn [snd]|]); try apply Forall2_nil; er.
  all: first [ apply er_code_data, H | unfold w_record_data, read_record_data; er; apply er_record_component, H
             | match goal with |- erases ?a ?b => let x := head a in let y := head b in unfold x, y end; er ].
Qed.
Lemma er_attribute rec rec' stk i : erases rec rec' ->
  erases (w_attribute E p opts rec stk i) (read_attribute E p opts rec' stk i).
Proof. intro H. unfold w_attribute, read_attribute. er. apply er_attr_data, H. Qed.
Lemma er_attributes stk : erases (w_attributes E p opts stk) (read_attributes E p opts stk).
Proof.
  induction stk; [intros bs ix; reflexivity|]. cbn [w_attributes read_attributes]. er. apply er_attribute, IHstk.
Qed.
End Attributes.
#[export] Hint Resolve er_attributes : er.

Section Class.
Variable E : env.
Variable opts : bool.
Lemma er_interfaces p : erases (w_interfaces p) (read_interfaces p).
Proof. unfold w_interfaces, read_interfaces. er. Qed.
Lemma er_fields_loop p n : forall i seen, erases (w_fields_loop E p opts n i seen) (fields_loop E p opts n i seen).
Proof.
  induction n as [|n IH]; intros; [apply er_ret|]. cbn [w_fields_loop fields_loop]. er.
Qed.
Lemma er_fields p : erases (w_fields E p opts) (read_fields E p opts).
Proof. unfold w_fields, read_fields. er. apply er_fields_loop. Qed.
Lemma er_methods_loop p itf major n : forall i seen,
  erases (w_methods_loop E p opts itf major n i seen) (methods_loop E p opts itf major n i seen).
Proof.
  induction n as [|n IH]; intros; [apply er_ret|]. cbn [w_methods_loop methods_loop]. er.
Qed.
Lemma er_methods p itf major : erases (w_methods E p opts itf major) (read_methods E p opts itf major).
Proof. unfold w_methods, read_methods. er. apply er_methods_loop. Qed.
Lemma er_this p : erases (w_this_class p) (read_this_class p).
Proof. unfold w_this_class, read_this_class. er. Qed.
Lemma er_super p : erases (w_super_class p) (read_super_class p).
Proof. unfold w_super_class, read_super_class. er. Qed.
Lemma er_module_flags a b c : erases (w_check_module_flags a b c) (check_module_flags a b c).
Proof. unfold w_check_module_flags, check_module_flags. er. Qed.
Lemma er_module_contents a b c d e : erases (w_check_module_contents a b c d e) (check_module_contents a b c d e).
Proof. unfold w_check_module_contents, check_module_contents. er. Qed.
Lemma fg_found x l : forall n, forgets (w_bootstrap_found x l n) (bootstrap_found x l n).
Proof. induction l as [|a l IH]; intro n; cbn [w_bootstrap_found bootstrap_found]; [fg|]. destruct (attr_dat a); fg. Qed.
Hint Resolve fg_found : fg.
Lemma fg_bootstrap es l : forgets (w_validate_bootstrap_methods es l) (validate_bootstrap_methods es l).
Proof. induction es as [|e es IH]; cbn [w_validate_bootstrap_methods validate_bootstrap_methods]; [fg|]. destruct e; fg. Qed.
Hint Resolve fg_bootstrap : fg.
Hint Resolve er_interfaces er_fields er_methods er_this er_super er_module_flags er_module_contents : er.
Lemma er_class : erases (w_class_parser E opts) (class_parser E opts).
Proof. unfold w_class_parser, class_parser. er. Qed.
(** The outcome is that of [parse_class_with_options]. *)
Lemma er_parse bs : fst (w_parse E opts bs) = parse_class_with_options E opts bs.
Proof.
  unfold w_parse, parse_class_with_options. apply fg_bind; [apply er_class|]. fg.
Qed.
End Class.
