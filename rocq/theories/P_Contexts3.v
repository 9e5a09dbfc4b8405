(** * The contexts of an error have been paid for by bytes that were read *)
From Verif Require Import Base M_Names M_Descriptors M_ConstantPool M_Bytecode M_Attributes M_Class S_Env P_Reserve4 P_Early P_Contexts P_Contexts2.
From Coq Require Import ZifyBool ZifyNat ZifyN.

Section Paid.
Variable E : env.
(** A result has moved at least [d] bytes on, inside the input; an error has at
    most one context for three of the bytes behind the beginning, with [k] bytes lent. *)
Definition paid (d k : N) {A} (m : parser A) : Prop := forall bs ix, sane E bs -> ix <= blen bs ->
  match m bs ix with
  | Ok (_, ix') => ix + d <= ix' <= blen bs
  | Err e => 3 * N.of_nat (length (contexts e)) + ix <= blen bs + k
  | _ => True
  end.
Lemma p_more {A} d k d' k' (m : parser A) : paid d' k' m -> d <= d' -> k' <= k -> paid d k m.
Proof. intros H Hd Hk bs ix Hs Hi. specialize (H bs ix Hs Hi). destruct (m bs ix) as [[a i]|e| |]; auto; lia. Qed.
Lemma p_bind {A B} d1 d d' k (m : parser A) (f : A -> parser B) : paid d1 k m -> (forall a, paid d' (k + d1) (f a)) -> d <= d1 + d' -> paid d k (bind m f).
Proof.
  intros Hm Hf Hd bs ix Hs Hi. unfold bind. specialize (Hm bs ix Hs Hi). destruct (m bs ix) as [[a i]|e| |]; auto.
  specialize (Hf a bs i Hs ltac:(lia)). destruct (f a bs i) as [[b j]|e| |]; auto; lia.
Qed.
Lemma p_ret {A} k (a : A) : paid 0 k (ret a).
Proof. intros bs ix Hs Hi. cbn. lia. Qed.
Lemma p_panic {A} d k q : paid d k (fun _ _ => @Panic (A * N) q).
Proof. intros bs ix Hs Hi. exact I. Qed.
Lemma p_lift {A} n k (m : outcome A) : few n m -> 3 * N.of_nat n <= k -> paid 0 k (lift m).
Proof. intros H Hn bs ix Hs Hi. unfold lift. destruct m; auto; [lia|]. specialize (H e eq_refl). lia. Qed.
Lemma p_pfail {A} d k m : paid d k (@pfail A m).
Proof. intros bs ix Hs Hi. cbn. lia. Qed.
Lemma p_pctx {A} d k k' c (m : parser A) : paid d k' m -> k' + 3 <= k -> paid d k (pctx c m).
Proof.
  intros H Hk bs ix Hs Hi. unfold pctx, ctx. specialize (H bs ix Hs Hi). destruct (m bs ix) as [[a i]|e| |]; auto.
  cbn [contexts with_context]. rewrite app_length. cbn [length]. lia.
Qed.
Lemma p_guard k b m : paid 0 k (guard b m).
Proof. unfold guard. destruct b; [apply p_ret|apply p_pfail]. Qed.
Lemma p_for {A} k (body : N -> parser A) : (forall i, paid 0 k (body i)) -> forall n i, paid 0 k (for_from n i body).
Proof.
  intros H. induction n as [|n IH]; intro i; cbn [for_from]; [apply p_ret|]. apply (p_bind 0 0 0); [apply H| |lia]. intro a.
  apply (p_bind 0 0 0); [eapply p_more; [apply IH|lia|lia]| |lia]. intro. apply p_ret.
Qed.
Lemma p_for_n {A} k n (body : N -> parser A) : (forall i, paid 0 k (body i)) -> paid 0 k (for_n n body).
Proof. intro H. apply p_for, H. Qed.
Lemma p_get_ix k : paid 0 k get_ix.
Proof. intros bs ix Hs Hi. cbn. lia. Qed.
Lemma p_get_bytes k : paid 0 k get_bytes.
Proof. intros bs ix Hs Hi. cbn. lia. Qed.
Lemma byte_cases bs i : (exists b, byte_at bs i = Ok b) \/ byte_at bs i = Panic PSlice.
Proof. unfold byte_at. destruct (nth_error bs (N.to_nat i)); eauto. Qed.
Ltac pr := intros bs ix Hs Hi; match goal with |- context [?r bs ix] => unfold r end; destruct (_ <? _) eqn:H; [cbn; lia|];
  unfold obind; repeat (match goal with |- context [byte_at ?l ?i] => destruct (byte_cases l i) as [(? & -> ) | -> ] end; try exact I); lia.
Lemma p_u1 k : paid 1 k read_u1.
Proof. pr. Qed.
Lemma p_u2 k : paid 2 k read_u2.
Proof. pr. Qed.
Lemma p_u4 k : paid 4 k read_u4.
Proof. pr. Qed.
Lemma p_u8 k : paid 8 k read_u8.
Proof. pr. Qed.

Lemma p_bind_u4 {B} k (f : N -> parser B) : (forall n, n < 2 ^ 32 -> paid 0 (k + 4) (f n)) -> paid 0 k (bind read_u4 f).
Proof.
  intros Hf bs ix Hs Hi. unfold bind. pose proof (p_u4 k bs ix Hs Hi) as H. destruct (read_u4 bs ix) as [[n i]|e| |] eqn:Hr; auto.
  specialize (Hf n (u4_range bs ix n i Hr) bs i Hs ltac:(lia)). destruct (f n bs i) as [[b j]|e| |]; auto; lia.
Qed.
Ltac norm_k := match goal with |- paid ?d ?k _ => let k' := eval vm_compute in k in change (paid d k') with (paid d k'); change k with k' end.
Ltac small := solve [vm_compute; first [reflexivity | discriminate]].
Ltac p0 := first
  [ apply p_ret | apply p_pfail | apply p_guard | apply p_get_ix | apply p_get_bytes | apply p_panic | apply p_u1 | apply p_u2 | apply p_u4 | apply p_u8 ].
(** One step; [leaf] proves [paid] of the readers of constants, with [2] bytes. *)
Ltac pp leaf := repeat match goal with
  | |- paid 0 _ (bind read_u1 _) => eapply (p_bind 1 0 0); [apply p_u1|intro|small]
  | |- paid 0 _ (bind read_u2 _) => eapply (p_bind 2 0 0); [apply p_u2|intro|small]
  | |- paid 0 _ (bind read_u4 _) => eapply (p_bind 4 0 0); [apply p_u4|intro|small]
  | |- paid 0 ?k (bind (pctx _ ?m) _) => eapply (p_bind 2 0 0); [eapply (p_pctx 2 k (k - 3)); [solve [leaf]|small]|intro|small]
  | |- paid 0 _ (bind ?m _) => eapply (p_bind 2 0 0); [solve [leaf]|intro|small]
  | |- paid 0 _ (bind _ _) => eapply (p_bind 0 0 0); [|intro|small]
  | |- paid 0 _ (ret _) => apply p_ret
  | |- paid 0 ?k (pctx _ _) => eapply (p_pctx 0 k (k - 3)); [|small]
  | |- paid 0 _ (for_n _ _) => apply p_for_n; intro
  | |- paid 0 _ (match ?x with _ => _ end) => destruct x
  | |- paid 0 _ (let _ := _ in _) => cbv zeta
  | |- paid 0 ?k _ => first [apply p_pfail | apply p_guard | apply p_get_ix | apply p_get_bytes | apply p_panic | apply p_u1 | apply (p_more 0 k 2 k); [solve [leaf]|small|small] ]
  end.

Section Pool.
Variable p : pool.
Variable opts : parse_options.
Ltac qh := first [apply q_slice|apply q_i32|apply q_u16|apply q_usize|apply q_capacity|apply q_peel|apply q_peel_utf8|apply q_pool_get|apply q_loadable
  |apply q_method_handle|apply q_member_ref|apply q_ensure_type|apply q_field_descriptor|apply q_method_descriptor|apply q_array_descriptor|apply q_class_name|apply q_string_literal
  |solve [repeat first [apply q_ok | apply q_peel | apply q_peel_utf8 | apply q_string_literal | apply q_method_handle | apply q_nat | apply q_bind; [|intro]]]].
Ltac pl := apply (p_lift 0); [qh|lia].
Lemma p_any k : paid 2 k (read_cp_ref_any p).
Proof. unfold read_cp_ref_any. eapply (p_bind 2 2 0); [apply p_u2|intro; pl|small]. Qed.
Ltac pc := unfold bad_type; eapply (p_bind 2 2 0); [apply p_any| |small]; intro; repeat match goal with
  | |- paid 0 _ (match ?x with _ => _ end) => destruct x
  | |- paid 0 _ (ret _) => apply p_ret
  | |- paid 0 _ (pfail _) => apply p_pfail
  | |- paid 0 _ (lift _) => pl
  | |- paid 0 _ (bind _ _) => eapply (p_bind 0 0 0); [pl|intro|small]
  end.
Lemma p_cp_utf8 k : paid 2 k (read_cp_utf8 p).
Proof. unfold read_cp_utf8. pc. Qed.
Lemma p_cp_utf8_opt k : paid 2 k (read_cp_utf8_opt p).
Proof. unfold read_cp_utf8_opt. pc. Qed.
Lemma p_classinfo k : paid 2 k (read_cp_classinfo p).
Proof. unfold read_cp_classinfo. pc. Qed.
Lemma p_classinfo_opt k : paid 2 k (read_cp_classinfo_opt p).
Proof. unfold read_cp_classinfo_opt. pc. Qed.
Lemma p_moduleinfo k : paid 2 k (read_cp_moduleinfo p).
Proof. unfold read_cp_moduleinfo. pc. Qed.
Lemma p_packageinfo k : paid 2 k (read_cp_packageinfo p).
Proof. unfold read_cp_packageinfo. pc. Qed.
Lemma p_nameandtype_opt k : paid 2 k (read_cp_nameandtype_opt p).
Proof. unfold read_cp_nameandtype_opt. pc. Qed.
Lemma p_literalconstant k : paid 2 k (read_cp_literalconstant p).
Proof. unfold read_cp_literalconstant. pc. Qed.
Lemma p_integer k : paid 2 k (read_cp_integer p).
Proof. unfold read_cp_integer. pc. Qed.
Lemma p_float k : paid 2 k (read_cp_float p).
Proof. unfold read_cp_float. pc. Qed.
Lemma p_long k : paid 2 k (read_cp_long p).
Proof. unfold read_cp_long. pc. Qed.
Lemma p_double k : paid 2 k (read_cp_double p).
Proof. unfold read_cp_double. pc. Qed.
Lemma p_methodhandle k : paid 2 k (read_cp_methodhandle p).
Proof. unfold read_cp_methodhandle. pc. Qed.
Lemma p_bootstrap_argument k : paid 2 k (read_cp_bootstrap_argument p).
Proof. unfold read_cp_bootstrap_argument. pc. Qed.
Lemma p_field_descriptor k : paid 2 k (read_cp_field_descriptor p).
Proof. unfold read_cp_field_descriptor. eapply (p_bind 2 2 0); [apply p_cp_utf8|intro; pl|small]. Qed.
Lemma p_exact_flags all e k : 3 * N.of_nat (length (contexts e)) <= k -> paid 2 k (read_exact_flags all e).
Proof.
  intro H. unfold read_exact_flags. eapply (p_bind 2 2 0); [apply p_u2| |small]. intro n. destruct (from_bits all n); [apply p_ret|].
  intros bs ix Hs Hi. cbn [lift]. lia.
Qed.
Ltac leaf := first [apply p_cp_utf8|apply p_cp_utf8_opt|apply p_classinfo|apply p_classinfo_opt|apply p_moduleinfo|apply p_packageinfo
  |apply p_nameandtype_opt|apply p_literalconstant|apply p_integer|apply p_float|apply p_long|apply p_double|apply p_methodhandle
  |apply p_bootstrap_argument|apply p_field_descriptor|apply p_u2|apply p_exact_flags; small].
Ltac sq := pp leaf; try (pl; fail).

Lemma p_exception_entry i : paid 0 0 (read_exception_entry p i).
Proof. unfold read_exception_entry. sq. Qed.
Lemma p_verification : paid 0 2 (read_verification p).
Proof. unfold read_verification. sq. Qed.
Lemma p_stack_map : paid 0 4 (read_stackmaptable_data p).
Proof. unfold read_stackmaptable_data, read_stack_map_entry. sq. all: eapply p_more; [apply p_verification|small|small]. Qed.
Lemma p_exceptions : paid 0 3 (read_exceptions_data p).
Proof. unfold read_exceptions_data. sq. Qed.
Lemma p_innerclasses : paid 0 3 (read_innerclasses_data p).
Proof. unfold read_innerclasses_data, read_inner_class. sq. Qed.
Lemma p_linenumber : paid 0 3 read_linenumber_data.
Proof. unfold read_linenumber_data, read_line_number. sq. Qed.
Lemma p_localvariable : paid 0 3 (read_localvariable_data p).
Proof. unfold read_localvariable_data, read_local_variable. sq. Qed.
Lemma p_localvariabletype : paid 0 3 (read_localvariabletype_data p).
Proof. unfold read_localvariabletype_data, read_local_variable_type. sq. Qed.
Lemma p_annotation_with rec : paid 0 3 rec -> paid 0 3 (read_annotation_with p rec).
Proof. intro Hr. unfold read_annotation_with. sq. eapply p_more; [exact Hr|small|small]. Qed.
Lemma p_element_value stk : paid 0 3 (read_element_value p stk).
Proof.
  induction stk as [|stk IH]; cbn [read_element_value]; [apply p_panic|]. unfold read_element_value_with. sq.
  all: first [apply (p_lift 0); [apply q_ok_and|small] | eapply p_more; [apply p_annotation_with, IH|small|small] | eapply p_more; [apply IH|small|small] ].
Qed.
Ltac more l := eapply p_more; [apply l|small|small].
Lemma p_annotation stk : paid 0 3 (read_annotation p stk).
Proof. apply p_annotation_with, p_element_value. Qed.
Lemma p_annotation_data stk : paid 0 4 (read_annotation_data p stk).
Proof. unfold read_annotation_data. sq. more p_annotation. Qed.
Lemma p_parameter_annotation stk : paid 0 3 (read_parameter_annotation_data p stk).
Proof. unfold read_parameter_annotation_data. sq. more p_annotation. Qed.
Lemma p_target i : paid 0 3 (read_type_annotation_target i).
Proof. unfold read_type_annotation_target, read_local_var_target. sq. Qed.
Lemma p_type_annotation stk : paid 0 3 (read_type_annotation_data p stk).
Proof. unfold read_type_annotation_data, read_type_annotation, read_path_entry. sq; [more p_target|more p_annotation]. Qed.
Lemma p_bootstrap : paid 0 3 (read_bootstrapmethods_data p).
Proof. unfold read_bootstrapmethods_data, read_bootstrap_method. sq. Qed.
Lemma p_methodparameters : paid 0 3 (read_methodparameters_data p).
Proof. unfold read_methodparameters_data, read_method_parameter. sq. Qed.
Lemma p_module : paid 0 3 (read_module_data p).
Proof. unfold read_module_data, read_module_require, read_module_export, read_module_open, read_module_provide. sq. Qed.
Lemma p_record rec : paid 0 3 rec -> paid 0 3 (read_record_data p rec).
Proof. intro Hr. unfold read_record_data, read_record_component. sq. eapply p_more; [exact Hr|small|small]. Qed.

Lemma slice_cases bs i j : (exists w, slice bs i j = Ok w /\ i <= j <= blen bs) \/ slice bs i j = Panic PSlice.
Proof. unfold slice. destruct ((i <=? j) && (j <=? blen bs)) eqn:H; [left; eexists; split; [reflexivity|lia]|auto]. Qed.
Lemma usize_cases n : (exists e, usize_result E n = Ok e) \/ usize_result E n = Panic POverflow.
Proof. unfold usize_result. destruct (n <=? usize_max E); eauto. destruct (overflow_checks E); eauto. Qed.
Lemma p_code rec : paid 0 3 rec -> paid 0 3 (read_code_data E p opts rec).
Proof.
  intro Hrec. unfold read_code_data. eapply (p_bind 2 0 0); [apply p_u2|intro|small]. eapply (p_bind 2 0 0); [apply p_u2|intro|small]. eapply (p_bind 4 0 0); [apply p_u4|intro|small].
  intros bs ix Hs Hi. unfold bind at 1 2 3, get_bytes, get_ix, lift. destruct (usize_cases (ix + a1)) as [(e & -> )| -> ]; [|exact I].
  destruct (blen bs <? e); [cbn; lia|]. unfold bind at 1 2. destruct (slice_cases bs ix e) as [(w & -> & Hw)| -> ]; [|exact I].
  unfold set_ix. match goal with |- context [match ?m bs e with _ => _ end] => assert (H : paid 0 11 m) end.
  - sq; [eapply p_more; [apply p_exception_entry|small|small]|eapply p_more; [exact Hrec|small|small]|apply (p_lift 2); [apply q_bytecode|small]].
  - specialize (H bs e Hs ltac:(lia)). match goal with |- context [match ?m with _ => _ end] => destruct m as [[c i]|r| |] end; auto; lia.
Qed.
Lemma p_debug_extension i length : paid 0 3 (read_source_debug_extension E i length).
Proof.
  unfold read_source_debug_extension. intros bs ix Hs Hi. unfold bind, get_bytes, get_ix, lift. destruct (usize_cases (ix + length)) as [(e & -> )| -> ]; [|exact I].
  destruct (slice_cases bs ix e) as [(w & -> & Hw)| -> ]; [|exact I]. unfold set_ix. destruct (cesu8 E w); [unfold ret; lia|cbn [contexts with_context new_err app Datatypes.length]; lia].
Qed.
Lemma p_other length : length < 2 ^ 32 -> paid 0 3 (read_other_attribute E length).
Proof.
  intro Hlen. unfold read_other_attribute. intros bs ix Hs Hi. unfold bind, get_bytes, get_ix, lift. destruct (usize_cases (ix + length)) as [(e & He)| -> ]; [|exact I].
  rewrite He. unfold set_ix, usize_sub. pose proof (sane_32 E bs Hs) as H32. pose proof (sane_usize E bs Hs) as Hu.
  assert (Hb : blen bs <= usize_max E) by (pose proof (N.div_le_upper_bound (usize_max E) 2 (usize_max E)); lia).
  unfold usize_result in He. destruct (ix + length <=? usize_max E) eqn:H.
  - assert (e = ix + length) as -> by congruence. destruct (length <=? ix + length) eqn:Hl; [|lia].
    destruct (slice_cases bs (ix + length - length) (ix + length)) as [(w & -> & Hw)| -> ]; [lia|exact I].
  - destruct (overflow_checks E); [discriminate|]. assert (e = ix + length - (usize_max E + 1)) as ->.
    { assert ((ix + length) mod (usize_max E + 1) = e) as <- by congruence. symmetry. apply (N.mod_unique _ _ 1); lia. }
    destruct (length <=? ix + length - (usize_max E + 1)) eqn:Hl; [lia|].
    match goal with |- context [slice bs ?i ?j] => destruct (slice_cases bs i j) as [(w & -> & Hw)| -> ] end; [lia|exact I].
Qed.
Lemma p_dispatch {A} k name (cases : list (string * parser A)) d : Forall (fun c => paid 0 k (snd c)) cases -> paid 0 k d -> paid 0 k (dispatch name cases d).
Proof. intros Hc Hd. induction Hc as [|[s q] cases Hq _ IH]; cbn [dispatch]; auto. destruct (str_eqb name (lit s)); auto. Qed.
Ltac mores l := eapply p_more; [apply l|small|small].
Lemma p_attr_data rec stk name i length : length < 2 ^ 32 -> paid 0 3 rec -> paid 0 8 (read_attr_data E p opts rec stk name i length).
Proof.
  intros Hlen Hrec. unfold read_attr_data. cbv zeta. apply p_dispatch.
  - repeat match goal with |- Forall _ (_ :: _) => constructor | |- Forall _ [] => constructor end; cbn [snd]; unfold ensure_length, read_modulepackages_data, read_nestmembers_data,
      read_permitted_subclasses_data; sq;
        first [mores (p_code _ Hrec)|mores p_stack_map|mores p_exceptions|mores p_innerclasses|mores p_linenumber|mores p_localvariable
          |mores p_localvariabletype|mores p_annotation_data|mores p_parameter_annotation|mores p_type_annotation|mores p_element_value|mores p_bootstrap
          |mores p_methodparameters|mores p_module|mores (p_record _ Hrec)|mores p_debug_extension].
  - eapply (p_bind 0 0 0); [mores (p_other length Hlen)|intro; apply p_ret|small].
Qed.
Lemma p_attribute rec stk i : paid 0 3 rec -> paid 0 3 (read_attribute E p opts rec stk i).
Proof. intro Hrec. unfold read_attribute. eapply (p_bind 2 0 0); [eapply (p_pctx 2 3 0); [apply p_cp_utf8|small]|intro name|small].
  apply p_bind_u4. intros len Hlen. sq. mores (p_attr_data _ stk name i len Hlen Hrec). Qed.
Lemma p_attributes stk : paid 0 3 (read_attributes E p opts stk).
Proof. induction stk as [|stk IH]; cbn [read_attributes]; [apply p_panic|]. sq. mores (p_attribute _ stk i IH). Qed.

(** Members *)
Lemma p_fields : paid 0 4 (read_fields E p opts).
Proof.
  unfold read_fields. eapply (p_bind 2 0 0); [apply p_u2|intro n|small]. generalize 0 at 2. generalize (@nil (str * field_desc)). induction (N.to_nat n) as [|m IH]; intros seen i; cbn [fields_loop]; [apply p_ret|].
  sq; [mores (p_attributes (stack E))|eapply p_more; [apply IH|small|small]].
Qed.
Lemma p_methods b major : paid 0 4 (read_methods E p opts b major).
Proof.
  unfold read_methods. eapply (p_bind 2 0 0); [apply p_u2|intro n|small]. generalize 0 at 2. generalize (@nil (str * method_desc)). induction (N.to_nat n) as [|m IH]; intros seen i; cbn [methods_loop]; [apply p_ret|].
  sq; [mores (p_attributes (stack E))|eapply p_more; [apply IH|small|small]].
Qed.
Lemma p_interfaces : paid 0 4 (read_interfaces p).
Proof. unfold read_interfaces. sq. Qed.
Lemma p_this : paid 0 4 (read_this_class p).
Proof. unfold read_this_class. sq. Qed.
Lemma p_super : paid 0 4 (read_super_class p).
Proof. unfold read_super_class. sq. Qed.
End Pool.

Lemma p_hush {A} k (m : parser A) : hush m -> forward m -> paid 0 k m.
Proof.
  intros H Hf bs ix Hs Hi. pose proof (H bs ix) as Hq. destruct (m bs ix) as [[a i]|e| |] eqn:Hm; auto; [pose proof (Hf bs ix a i Hi Hm); lia|].
  specialize (Hq e eq_refl). lia.
Qed.
Lemma p_pool_loop major count : forall fuel cp k, paid 0 k (pool_loop E fuel major count cp).
Proof.
  induction fuel as [|fuel IH]; intros cp k; cbn [pool_loop]; destruct (cp <? count); try apply p_ret; [intros bs ix Hs Hi; exact I|].
  repeat match goal with
  | |- paid 0 _ (bind read_u1 _) => eapply (p_bind 1 0 0); [apply p_u1|intro|small]
  | |- paid 0 _ (bind (read_entry _ _ _) _) => eapply (p_bind 0 0 0); [apply p_hush; [apply h_entry|apply fw_entry]|intro|small]
  | |- paid 0 _ (bind (lift _) _) => eapply (p_bind 0 0 0); [apply (p_lift 0); [apply q_u16|lia]|intro|small]
  | |- paid 0 _ (bind (pool_loop _ _ _ _ _) _) => eapply (p_bind 0 0 0); [apply IH|intro|small]
  | |- paid 0 _ (ret _) => apply p_ret
  | |- paid 0 _ (if _ then _ else _) => destruct (_ || _)
  end.
Qed.
Lemma p_pool major : paid 0 1 (read_constant_pool E major).
Proof.
  unfold read_constant_pool. eapply (p_bind 2 0 0); [apply p_u2|intro n|small]. eapply (p_bind 0 0 0); [apply p_get_bytes|intro bs|small].
  eapply (p_bind 0 0 0); [apply p_pool_loop|intro es|small]. eapply (p_bind 0 0 0); [apply (p_lift 0); [apply q_resolve|small]|intro p|small].
  eapply (p_bind 0 0 0); [apply (p_lift 1); [apply q_validate|small]|intro|small]. apply p_ret.
Qed.
Lemma q_found x attrs : forall n, few 0 (bootstrap_found x attrs n).
Proof. induction attrs as [|a attrs IH]; intro n; cbn [bootstrap_found]; [apply q_ok|]. destruct (attr_dat a); try apply IH. destruct (_ <=? x); [apply q_fail|apply IH]. Qed.
Lemma q_bootstrap es attrs : few 0 (validate_bootstrap_methods es attrs).
Proof.
  induction es as [|e es IH]; cbn [validate_bootstrap_methods]; [apply q_ok|]. destruct e; try apply IH; (apply q_bind; [apply q_found|intro n; destruct (negb _); [apply q_fail|apply IH]]).
Qed.
Lemma p_flags b f major k : paid 0 k (check_module_flags b f major).
Proof. unfold check_module_flags. destruct b; [|apply p_ret]. eapply (p_bind 0 0 0); [apply p_guard|intro; apply p_guard|small]. Qed.
Lemma p_contents b super ifs fs ms k : paid 0 k (check_module_contents b super ifs fs ms).
Proof.
  unfold check_module_contents. destruct b; [|apply p_ret]. destruct super; [apply p_pfail|].
  eapply (p_bind 0 0 0); [apply p_guard|intro|small]. eapply (p_bind 0 0 0); [apply p_guard|intro; apply p_guard|small].
Qed.
Lemma p_class opts : paid 0 0 (class_parser E opts).
Proof.
  unfold class_parser. pp ltac:(fail).
  all: first [apply p_flags|apply p_contents|eapply p_more; [apply p_pool|small|small]|eapply p_more; [apply p_this|small|small]|eapply p_more; [apply p_super|small|small]
    |eapply p_more; [apply p_interfaces|small|small]|eapply p_more; [apply p_fields|small|small]|eapply p_more; [apply p_methods|small|small]
    |eapply p_more; [apply p_attributes|small|small]|apply (p_lift 0); [apply q_bootstrap|small]].
Qed.
End Paid.
