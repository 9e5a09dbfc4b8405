(** * Parsers given more bytes: a result other than "end of stream" stays the same. *)
From Verif Require Import Base M_Names M_Descriptors M_ConstantPool M_Bytecode M_Attributes M_Class P_Reads S_Early.
From Coq Require Import ZifyBool ZifyNat ZifyN.

Definition same {A} (m : parser A) (bs t : list byte) (ix : N) : Prop :=
  truncated (m bs ix) \/ m (bs ++ t) ix = m bs ix.
Definition stable {A} (m : parser A) : Prop := forall bs t ix, same m bs t ix.

Lemma trunc_pfail {A} m rest bs ix : m = end_of_stream ++ rest -> truncated (@pfail A m bs ix).
Proof. intros ->. exists (new_err (end_of_stream ++ rest)). split; [reflexivity|]. exists rest. reflexivity. Qed.
Lemma trunc_ctx {A} c (r : outcome A) : truncated r -> truncated (ctx c r).
Proof. intros (e & -> & rest & H). exists (with_context e c). split; [reflexivity|]. exists rest. exact H. Qed.

Lemma same_bind {A B} (m : parser A) (f : A -> parser B) bs t ix :
  same m bs t ix -> (forall a ix', m bs ix = Ok (a, ix') -> same (f a) bs t ix') -> same (bind m f) bs t ix.
Proof.
  intros [(e & He & Hs)|H] Hf; unfold same, bind.
  - rewrite He. left. exists e. auto.
  - rewrite H. destruct (m bs ix) as [[a ix']| | |]; auto. apply Hf. reflexivity.
Qed.
Lemma sim_bind {A B} (m : parser A) (f g : A -> parser B) bs t ix :
  same m bs t ix -> (forall a ix', m bs ix = Ok (a, ix') -> truncated (f a bs ix') \/ g a (bs ++ t) ix' = f a bs ix') ->
  truncated (bind m f bs ix) \/ bind m g (bs ++ t) ix = bind m f bs ix.
Proof.
  intros [(e & He & Hs)|H] Hf; unfold bind.
  - rewrite He. left. exists e. auto.
  - rewrite H. destruct (m bs ix) as [[a ix']| | |]; auto.
Qed.
Lemma same_pctx {A} c (m : parser A) bs t ix : same m bs t ix -> same (pctx c m) bs t ix.
Proof. intros [H|H]; unfold same, pctx; [left; apply trunc_ctx, H|right; rewrite H; reflexivity]. Qed.

Lemma st_bind {A B} (m : parser A) (f : A -> parser B) : stable m -> (forall a, stable (f a)) -> stable (bind m f).
Proof. intros H Hf bs t ix. apply same_bind; auto. intros a ix' _. apply Hf. Qed.
Lemma st_ret {A} (a : A) : stable (ret a).
Proof. intros bs t ix. right. reflexivity. Qed.
Lemma st_lift {A} (m : outcome A) : stable (lift m).
Proof. intros bs t ix. right. reflexivity. Qed.
Lemma st_pfail {A} m : stable (@pfail A m).
Proof. intros bs t ix. right. reflexivity. Qed.
Lemma st_pfail_at {A} m : stable (@pfail_at A m).
Proof. intros bs t ix. right. reflexivity. Qed.
Lemma st_pctx {A} c (m : parser A) : stable m -> stable (pctx c m).
Proof. intros H bs t ix. apply same_pctx, H. Qed.
Lemma st_guard b m : stable (guard b m).
Proof. destruct b; [apply st_ret|apply st_pfail]. Qed.
Lemma st_get_ix : stable get_ix.
Proof. intros bs t ix. right. reflexivity. Qed.
Lemma st_set_ix n : stable (set_ix n).
Proof. intros bs t ix. right. reflexivity. Qed.
Lemma st_panic {A} q : stable (fun _ _ => @Panic (A * N) q).
Proof. intros bs t ix. right. reflexivity. Qed.
Lemma st_for_from {A} n (body : N -> parser A) : (forall i, stable (body i)) -> forall i, stable (for_from n i body).
Proof.
  intro H. induction n as [|n IH]; intro i; cbn [for_from]; [apply st_ret|].
  apply st_bind; [apply H|intro x]. apply st_bind; [apply IH|intro xs]. apply st_ret.
Qed.
Lemma st_for_n {A} n (body : N -> parser A) : (forall i, stable (body i)) -> stable (for_n n body).
Proof. intro H. apply st_for_from, H. Qed.

Lemma byte_at_more bs t i : i < blen bs -> byte_at (bs ++ t) i = byte_at bs i.
Proof. intro H. unfold byte_at. rewrite nth_error_app1; [reflexivity|unfold blen in H; lia]. Qed.
Lemma slice_more bs t i j : j <= blen bs -> slice (bs ++ t) i j = slice bs i j.
Proof.
  intro H. unfold slice. rewrite blen_app. replace (j <=? blen bs + blen t) with true by lia. replace (j <=? blen bs) with true by lia.
  destruct (i <=? j) eqn:Hij; cbn [andb]; [|reflexivity]. f_equal.
  assert (Hi : (N.to_nat i <= length bs)%nat) by (unfold blen in H; lia).
  rewrite skipn_app. replace (N.to_nat i - length bs)%nat with O by lia. cbn [skipn].
  rewrite firstn_app, skipn_length. replace (N.to_nat (j - i) - (length bs - N.to_nat i))%nat with O by (unfold blen in H; lia).
  cbn [firstn]. apply app_nil_r.
Qed.

Lemma st_u1 : stable read_u1.
Proof.
  intros bs t ix. unfold same, read_u1. rewrite blen_app. destruct (blen bs <? ix + 1) eqn:H.
  - left. eexists. split; [reflexivity|]. eexists. reflexivity.
  - right. replace (blen bs + blen t <? ix + 1) with false by lia. rewrite !byte_at_more by lia. reflexivity.
Qed.
Lemma st_u2 : stable read_u2.
Proof.
  intros bs t ix. unfold same, read_u2. rewrite blen_app. destruct (blen bs <? ix + 2) eqn:H.
  - left. eexists. split; [reflexivity|]. eexists. reflexivity.
  - right. replace (blen bs + blen t <? ix + 2) with false by lia. rewrite !byte_at_more by lia. reflexivity.
Qed.
Lemma st_u4 : stable read_u4.
Proof.
  intros bs t ix. unfold same, read_u4. rewrite blen_app. destruct (blen bs <? ix + 4) eqn:H.
  - left. eexists. split; [reflexivity|]. eexists. reflexivity.
  - right. replace (blen bs + blen t <? ix + 4) with false by lia. rewrite !byte_at_more by lia. reflexivity.
Qed.
Lemma st_u8 : stable read_u8.
Proof.
  intros bs t ix. unfold same, read_u8. rewrite blen_app. destruct (blen bs <? ix + 8) eqn:H.
  - left. eexists. split; [reflexivity|]. eexists. reflexivity.
  - right. replace (blen bs + blen t <? ix + 8) with false by lia. rewrite !byte_at_more by lia. reflexivity.
Qed.

Ltac st0 := first
  [ apply st_ret | apply st_lift | apply st_pfail | apply st_pfail_at | apply st_guard | apply st_u1 | apply st_u2 | apply st_u4 | apply st_u8
  | apply st_get_ix | apply st_set_ix | apply st_panic ].
Ltac st := repeat match goal with
  | H : stable ?m |- stable ?m => exact H
  | |- stable _ => st0
  | |- stable (bind ?m _) => lazymatch m with get_bytes => fail | _ => apply st_bind; [|intro] end
  | |- stable (pctx _ _) => apply st_pctx
  | |- stable (for_n _ _) => apply st_for_n; intro
  | |- stable (match ?x with _ => _ end) => destruct x
  | |- stable (let _ := _ in _) => cbv zeta
  end.

(** ** Constant pool *)
Section Pool.
Variable E : env.

Lemma st_utf8 : stable (read_constant_utf8 E).
Proof.
  unfold read_constant_utf8. st. intros bs t ix. unfold same, bind, get_bytes, get_ix. rewrite blen_app.
  destruct (blen bs <? ix + a) eqn:H.
  - left. eexists. split; [reflexivity|]. eexists. reflexivity.
  - right. replace (blen bs + blen t <? ix + a) with false by lia. rewrite slice_more by lia. unfold lift.
    destruct (slice bs ix (ix + a)); try reflexivity. unfold set_ix. destruct (cesu8 E a0); reflexivity.
Qed.
Lemma st_entry major tag : stable (read_entry E major tag).
Proof.
  unfold read_entry, read_constant_integer, read_constant_float, read_constant_long, read_constant_double, read_constant_class, read_constant_string,
    read_constant_fieldref, read_constant_methodref, read_constant_interfacemethodref, read_constant_nameandtype, read_constant_methodhandle,
    read_constant_methodtype, read_constant_dynamic, read_constant_invokedynamic, read_constant_module, read_constant_package, read_unresolved_cp_ref.
  st; apply st_utf8.
Qed.

(** A successful read moves forward, inside the input. *)
Definition forward {A} (m : parser A) : Prop := forall bs ix a ix', ix <= blen bs -> m bs ix = Ok (a, ix') -> ix <= ix' <= blen bs.
Lemma fw_bind {A B} (m : parser A) (f : A -> parser B) : forward m -> (forall a, forward (f a)) -> forward (bind m f).
Proof.
  intros H Hf bs ix b ix' Hi. unfold bind. destruct (m bs ix) as [[a i]| | |] eqn:Hm; try discriminate. intro Hb.
  pose proof (H bs ix a i Hi Hm). assert (i <= ix' <= blen bs) by (apply (Hf a bs i b ix'); [lia|exact Hb]). lia.
Qed.
Lemma fw_ret {A} (a : A) : forward (ret a).
Proof. intros bs ix b ix' Hi H. assert (ix = ix') by (unfold ret in H; congruence). lia. Qed.
Lemma fw_pfail_at {A} m : forward (@pfail_at A m).
Proof. intros bs ix b ix' Hi. discriminate. Qed.
Ltac fw_read := intros bs ix b ix' Hi; match goal with |- ?r _ _ = _ -> _ => unfold r end;
  match goal with |- context [if ?c then _ else _] => destruct c eqn:? end; [discriminate|];
  unfold obind; repeat match goal with |- context [match byte_at ?b ?i with _ => _ end] => destruct (byte_at b i) end; try discriminate;
  let H := fresh in intro H; match type of H with Ok (_, ?n) = Ok (_, ?m) => assert (n = m) by congruence end; lia.
Lemma fw_u1 : forward read_u1.
Proof. fw_read. Qed.
Lemma fw_u2 : forward read_u2.
Proof. fw_read. Qed.
Lemma fw_u4 : forward read_u4.
Proof. fw_read. Qed.
Lemma fw_u8 : forward read_u8.
Proof. fw_read. Qed.
Lemma u1_moves bs ix a ix' : read_u1 bs ix = Ok (a, ix') -> ix < blen bs /\ ix' = ix + 1.
Proof.
  unfold read_u1. destruct (blen bs <? ix + 1) eqn:H; [discriminate|]. unfold obind. destruct (byte_at bs ix); try discriminate. intro Hr.
  assert (ix + 1 = ix') by congruence. lia.
Qed.
Lemma fw_utf8 : forward (read_constant_utf8 E).
Proof.
  apply fw_bind; [apply fw_u2|]. intros len bs ix a ix' Hi. unfold bind, get_bytes, get_ix, lift. destruct (blen bs <? ix + len) eqn:H; [discriminate|].
  destruct (slice bs ix (ix + len)); try discriminate. unfold set_ix. destruct (cesu8 E a0); intro Hr;
    [assert (ix + len = ix') by (unfold ret in Hr; congruence)|assert (ix + len = ix') by (unfold ret in Hr; congruence)]; lia.
Qed.
Lemma fw_entry major tag : forward (read_entry E major tag).
Proof.
  unfold read_entry, read_constant_integer, read_constant_float, read_constant_long, read_constant_double, read_constant_class, read_constant_string,
    read_constant_fieldref, read_constant_methodref, read_constant_interfacemethodref, read_constant_nameandtype, read_constant_methodhandle,
    read_constant_methodtype, read_constant_dynamic, read_constant_invokedynamic, read_constant_module, read_constant_package, read_unresolved_cp_ref.
  repeat match goal with
  | |- forward _ => first [apply fw_utf8|apply fw_ret|apply fw_pfail_at|apply fw_u1|apply fw_u2|apply fw_u4|apply fw_u8]
  | |- forward (bind _ _) => apply fw_bind; [|intro]
  | |- forward (match ?x with _ => _ end) => destruct x
  | |- forward (let _ := _ in _) => cbv zeta
  end.
Qed.

Lemma same_pool_loop major count : forall fuel fuel' bs t cp ix, ix <= blen bs -> blen bs < ix + N.of_nat fuel -> (fuel <= fuel')%nat ->
  truncated (pool_loop E fuel major count cp bs ix) \/ pool_loop E fuel' major count cp (bs ++ t) ix = pool_loop E fuel major count cp bs ix.
Proof.
  induction fuel as [|fuel IH]; intros fuel' bs t cp ix Hi Hf Hle; [exfalso; lia|].
  destruct fuel' as [|fuel']; [lia|]. cbn [pool_loop]. destruct (cp <? count); [|right; reflexivity].
  apply sim_bind; [apply st_u1|]. intros tag i Htag. apply u1_moves in Htag.
  apply sim_bind; [apply st_entry|]. intros en j Hen. apply fw_entry in Hen; [|lia].
  apply sim_bind; [apply st_lift|]. intros cp' j' Hj. assert (j' = j) as -> by (unfold lift in Hj; destruct (u16_result E (cp + 1)); congruence).
  destruct ((tag =? 5) || (tag =? 6)).
  - apply sim_bind; [apply st_lift|]. intros cp'' j' Hj'. assert (j' = j) as -> by (unfold lift in Hj'; destruct (u16_result E (cp' + 1)); congruence).
    unfold bind. destruct (IH fuel' bs t cp'' j) as [(e & -> & Hs)| -> ]; [lia..|left; exists e; auto|right; reflexivity].
  - unfold bind. destruct (IH fuel' bs t cp' j) as [(e & -> & Hs)| -> ]; [lia..|left; exists e; auto|right; reflexivity].
Qed.
Lemma same_pool major bs t ix : ix <= blen bs -> same (read_constant_pool E major) bs t ix.
Proof.
  intro Hi. apply same_bind; [apply st_u2|]. intros n i Hn. apply fw_u2 in Hn; [|lia].
  unfold same, bind, get_bytes.
  destruct (same_pool_loop major n (S (length bs)) (S (length (bs ++ t))) bs t 1 i) as [(e & -> & Hs)| -> ];
    [lia|unfold blen in *; lia|rewrite app_length; lia|left; exists e; auto|].
  destruct (pool_loop E (S (length bs)) major n 1 bs i) as [[es j]| | |]; auto.
Qed.
End Pool.

(** ** Attributes *)
Section Attributes.
Variable E : env.
Variable p : pool.
Variable opts : parse_options.

Lemma st_any : stable (read_cp_ref_any p).
Proof. unfold read_cp_ref_any. st. Qed.
Ltac sp := repeat (st; try apply st_any).
Lemma st_cp_utf8 : stable (read_cp_utf8 p).
Proof. unfold read_cp_utf8, bad_type. sp. Qed.
Lemma st_cp_utf8_opt : stable (read_cp_utf8_opt p).
Proof. unfold read_cp_utf8_opt, bad_type. sp. Qed.
Lemma st_classinfo : stable (read_cp_classinfo p).
Proof. unfold read_cp_classinfo, bad_type. sp. Qed.
Lemma st_classinfo_opt : stable (read_cp_classinfo_opt p).
Proof. unfold read_cp_classinfo_opt, bad_type. sp. Qed.
Lemma st_moduleinfo : stable (read_cp_moduleinfo p).
Proof. unfold read_cp_moduleinfo, bad_type. sp. Qed.
Lemma st_packageinfo : stable (read_cp_packageinfo p).
Proof. unfold read_cp_packageinfo, bad_type. sp. Qed.
Lemma st_nameandtype_opt : stable (read_cp_nameandtype_opt p).
Proof. unfold read_cp_nameandtype_opt, bad_type. sp. Qed.
Lemma st_literalconstant : stable (read_cp_literalconstant p).
Proof. unfold read_cp_literalconstant, bad_type. sp. Qed.
Lemma st_integer : stable (read_cp_integer p).
Proof. unfold read_cp_integer, bad_type. sp. Qed.
Lemma st_float : stable (read_cp_float p).
Proof. unfold read_cp_float, bad_type. sp. Qed.
Lemma st_long : stable (read_cp_long p).
Proof. unfold read_cp_long, bad_type. sp. Qed.
Lemma st_double : stable (read_cp_double p).
Proof. unfold read_cp_double, bad_type. sp. Qed.
Lemma st_methodhandle : stable (read_cp_methodhandle p).
Proof. unfold read_cp_methodhandle, bad_type. sp. Qed.
Lemma st_bootstrap_argument : stable (read_cp_bootstrap_argument p).
Proof. unfold read_cp_bootstrap_argument, bad_type. sp. Qed.
Lemma st_field_descriptor : stable (read_cp_field_descriptor p).
Proof. unfold read_cp_field_descriptor. st. apply st_cp_utf8. Qed.
Lemma st_exact_flags all e : stable (read_exact_flags all e).
Proof. unfold read_exact_flags. st. Qed.
Ltac sq := repeat (st; try first [apply st_cp_utf8|apply st_cp_utf8_opt|apply st_classinfo|apply st_classinfo_opt|apply st_moduleinfo|apply st_packageinfo
  |apply st_nameandtype_opt|apply st_literalconstant|apply st_integer|apply st_float|apply st_long|apply st_double|apply st_methodhandle
  |apply st_bootstrap_argument|apply st_field_descriptor|apply st_exact_flags]).

Lemma st_exception_entry i : stable (read_exception_entry p i).
Proof. unfold read_exception_entry. sq. Qed.
Lemma st_code rec : stable rec -> stable (read_code_data E p opts rec).
Proof.
  intro Hrec. unfold read_code_data. sq. intros bs t ix. match goal with |- same (bind get_bytes ?k) _ _ _ => change (truncated (k bs bs ix) \/ k (bs ++ t) (bs ++ t) ix = k bs bs ix) end.
  apply sim_bind; [apply st_get_ix|]. intros i i' Hi. assert (i = ix /\ i' = ix) as [-> ->] by (unfold get_ix in Hi; split; congruence).
  apply sim_bind; [apply st_lift|]. intros e i' Hi'. assert (i' = ix) as -> by (unfold lift in Hi'; destruct (usize_result E (ix + a1)); congruence). clear Hi Hi'.
  rewrite blen_app. destruct (blen bs <? e) eqn:H.
  - left. eexists. split; [reflexivity|]. eexists. reflexivity.
  - replace (blen bs + blen t <? e) with false by lia. rewrite slice_more by lia. match goal with |- truncated (?m bs ix) \/ _ => change (same m bs t ix) end.
    match goal with |- same ?m _ _ _ => assert (Hst : stable m); [|apply Hst] end. sq. apply st_exception_entry.
Qed.
Lemma st_verification : stable (read_verification p).
Proof. unfold read_verification. sq. Qed.
Lemma st_stack_map : stable (read_stackmaptable_data p).
Proof. unfold read_stackmaptable_data, read_stack_map_entry. sq; apply st_verification. Qed.
Lemma st_exceptions : stable (read_exceptions_data p).
Proof. unfold read_exceptions_data. sq. Qed.
Lemma st_innerclasses : stable (read_innerclasses_data p).
Proof. unfold read_innerclasses_data, read_inner_class. sq. Qed.
Lemma st_linenumber : stable read_linenumber_data.
Proof. unfold read_linenumber_data, read_line_number. sq. Qed.
Lemma st_localvariable : stable (read_localvariable_data p).
Proof. unfold read_localvariable_data, read_local_variable. sq. Qed.
Lemma st_localvariabletype : stable (read_localvariabletype_data p).
Proof. unfold read_localvariabletype_data, read_local_variable_type. sq. Qed.
Lemma st_annotation_with rec : stable rec -> stable (read_annotation_with p rec).
Proof. intro Hr. unfold read_annotation_with. sq. Qed.
Lemma st_element_value stk : stable (read_element_value p stk).
Proof. induction stk as [|stk IH]; cbn [read_element_value]; [apply st_panic|]. unfold read_element_value_with. sq. apply st_annotation_with, IH. Qed.
Lemma st_annotation stk : stable (read_annotation p stk).
Proof. apply st_annotation_with, st_element_value. Qed.
Lemma st_annotation_data stk : stable (read_annotation_data p stk).
Proof. unfold read_annotation_data. sq. apply st_annotation. Qed.
Lemma st_parameter_annotation stk : stable (read_parameter_annotation_data p stk).
Proof. unfold read_parameter_annotation_data. sq. apply st_annotation. Qed.
Lemma st_target i : stable (read_type_annotation_target i).
Proof. unfold read_type_annotation_target, read_local_var_target. sq. Qed.
Lemma st_type_annotation stk : stable (read_type_annotation_data p stk).
Proof. unfold read_type_annotation_data, read_type_annotation, read_path_entry. sq; [apply st_target|apply st_annotation]. Qed.
Lemma st_bootstrap : stable (read_bootstrapmethods_data p).
Proof. unfold read_bootstrapmethods_data, read_bootstrap_method. sq. Qed.
Lemma st_methodparameters : stable (read_methodparameters_data p).
Proof. unfold read_methodparameters_data, read_method_parameter. sq. Qed.
Lemma st_module : stable (read_module_data p).
Proof. unfold read_module_data, read_module_require, read_module_export, read_module_open, read_module_provide. sq. Qed.
Lemma st_record rec : stable rec -> stable (read_record_data p rec).
Proof. intro Hr. unfold read_record_data, read_record_component. sq. Qed.

Lemma same_debug_extension i length bs t ix e : usize_result E (ix + length) = Ok e -> e <= blen bs ->
  same (read_source_debug_extension E i length) bs t ix.
Proof.
  intros He Hb. unfold same, read_source_debug_extension. unfold bind, get_bytes, get_ix, lift. rewrite He, slice_more by exact Hb. right.
  destruct (slice bs ix e) as [d| | |]; try reflexivity. unfold set_ix. destruct (cesu8 E d); reflexivity.
Qed.
Lemma same_other length bs t ix e : usize_result E (ix + length) = Ok e -> e <= blen bs -> same (read_other_attribute E length) bs t ix.
Proof.
  intros He Hb. unfold same, read_other_attribute. unfold bind, get_bytes, get_ix, lift. rewrite He. right. unfold set_ix.
  destruct (usize_sub E e length); try reflexivity. rewrite slice_more by exact Hb. reflexivity.
Qed.
Lemma same_dispatch {A} name (cases : list (string * parser A)) d bs t ix :
  Forall (fun c => same (snd c) bs t ix) cases -> same d bs t ix -> same (dispatch name cases d) bs t ix.
Proof. intros Hc Hd. induction Hc as [|[s q] cases Hq _ IH]; cbn [dispatch]; auto. destruct (str_eqb name (lit s)); auto. Qed.
Lemma same_attr_data rec stk name i length bs t ix e : stable rec -> usize_result E (ix + length) = Ok e -> e <= blen bs ->
  same (read_attr_data E p opts rec stk name i length) bs t ix.
Proof.
  intros Hrec He Hb. unfold read_attr_data. cbv zeta. apply same_dispatch.
  - repeat match goal with |- Forall _ (_ :: _) => constructor | |- Forall _ [] => constructor end; cbn [snd];
      try (match goal with |- same ?m bs t ix => assert (Hst : stable m); [|apply Hst] end; unfold ensure_length;
        sq; first [apply st_code, Hrec|apply st_stack_map|apply st_exceptions|apply st_innerclasses|apply st_linenumber|apply st_localvariable
          |apply st_localvariabletype|apply st_annotation_data|apply st_parameter_annotation|apply st_type_annotation|apply st_element_value|apply st_bootstrap
          |apply st_methodparameters|apply st_module|apply st_record, Hrec]; fail).
    all: try (match goal with |- same ?m _ _ _ => assert (Hst : stable m); [|apply Hst] end; unfold ensure_length, read_modulepackages_data, read_nestmembers_data,
      read_permitted_subclasses_data; sq; fail).
    apply same_bind; [apply (same_debug_extension _ _ _ _ _ e He Hb)|]. intros a ix' _. apply st_ret.
  - apply same_bind; [apply (same_other _ _ _ _ e He Hb)|]. intros a ix' _. apply st_ret.
Qed.
Lemma st_attribute rec stk i : stable rec -> stable (read_attribute E p opts rec stk i).
Proof.
  intro Hrec. unfold read_attribute. sq. intros bs t ix. match goal with |- same (bind get_bytes ?k) _ _ _ => change (truncated (k bs bs ix) \/ k (bs ++ t) (bs ++ t) ix = k bs bs ix) end.
  apply sim_bind; [apply st_get_ix|]. intros i' i'' Hi. assert (i' = ix /\ i'' = ix) as [-> ->] by (unfold get_ix in Hi; split; congruence).
  apply sim_bind; [apply st_lift|]. intros e i' Hi'. assert (i' = ix /\ usize_result E (ix + a0) = Ok e) as [-> He] by (unfold lift in Hi'; destruct (usize_result E (ix + a0)); split; congruence). clear Hi Hi'.
  rewrite blen_app. destruct (blen bs <? e) eqn:H.
  - left. eexists. split; [reflexivity|]. eexists. reflexivity.
  - replace (blen bs + blen t <? e) with false by lia. match goal with |- truncated (?m bs ix) \/ _ => change (same m bs t ix) end.
    apply same_bind; [apply (same_attr_data _ _ _ _ _ _ _ _ e Hrec He); lia|]. intros d ix' _.
    match goal with |- same ?m _ _ _ => assert (Hst : stable m); [|apply Hst] end. sq.
Qed.
Lemma st_attributes stk : stable (read_attributes E p opts stk).
Proof. induction stk as [|stk IH]; cbn [read_attributes]; [apply st_panic|]. st. apply st_attribute, IH. Qed.

(** ** Members *)
Lemma st_fields : stable (read_fields E p opts).
Proof.
  unfold read_fields. apply st_bind; [apply st_u2|intro n]. generalize 0 (@nil (str * field_desc)). induction (N.to_nat n) as [|k IH]; intros i seen; cbn [fields_loop]; [apply st_ret|].
  sq; [apply st_attributes|apply IH].
Qed.
Lemma st_methods b major : stable (read_methods E p opts b major).
Proof.
  unfold read_methods. apply st_bind; [apply st_u2|intro n]. generalize 0 (@nil (str * method_desc)). induction (N.to_nat n) as [|k IH]; intros i seen; cbn [methods_loop]; [apply st_ret|].
  sq; [apply st_attributes|apply IH].
Qed.
Lemma st_interfaces : stable (read_interfaces p).
Proof. unfold read_interfaces. sq. Qed.
Lemma st_this : stable (read_this_class p).
Proof. unfold read_this_class. sq. Qed.
Lemma st_super : stable (read_super_class p).
Proof. unfold read_super_class. sq. Qed.
End Attributes.
