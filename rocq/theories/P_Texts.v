(** * Every text of a parsed class comes from a decodable constant. *)
From Verif Require Import Base M_Names M_Descriptors M_ConstantPool M_Bytecode M_Attributes M_Class
  S_Lang S_Names S_Format S_Texts P_Reads P_Tac P_Pool3 P_Pool4.
From Coq Require Import ZifyBool ZifyNat ZifyN.

Section Texts.
Variable dec : list byte -> option str.
Variable cs : list constant.
Variable wraps want : bool.
Notation sl := (slots_of cs).
Notation good := (grounded dec cs).
Definition says (L : lang) (T : list text) : Prop := forall w, L w -> Forall (good w) T.

Lemma good_l u v t : good u t -> good (u ++ v) t.
Proof. destruct t; cbn; auto. intros (pre & raw & post & -> & H). exists pre, raw, (post ++ v). rewrite <- !app_assoc. auto. Qed.
Lemma good_r u v t : good v t -> good (u ++ v) t.
Proof. destruct t; cbn; auto. intros (pre & raw & post & -> & H). exists (u ++ pre), raw, post. rewrite <- !app_assoc. auto. Qed.
Lemma says_nil L : says L []. Proof. intros w _. constructor. Qed.
Lemma says_app L M T U : says L T -> says M U -> says (L +++ M) (T ++ U).
Proof.
  intros H1 H2 w (u & v & -> & Hu & Hv). apply Forall_app. split.
  - eapply Forall_impl; [apply good_l|]. auto.
  - eapply Forall_impl; [apply good_r|]. auto.
Qed.
Lemma says_l L M T : says L T -> says (L +++ M) T.
Proof. intros H w (u & v & -> & Hu & _). eapply Forall_impl; [apply good_l|]. auto. Qed.
Lemma says_r L M T : says M T -> says (L +++ M) T.
Proof. intros H w (u & v & -> & _ & Hv). eapply Forall_impl; [apply good_r|]. auto. Qed.
Lemma says_cons L M t U : says L [t] -> says M U -> says (L +++ M) (t :: U).
Proof. intros H1 H2. apply (says_app L M [t] U); auto. Qed.
Lemma says_alt L M T : says L T -> says M T -> says (L or M) T.
Proof. intros H1 H2 w [H|H]; auto. Qed.
Lemma says_many {A} (F : A -> lang) f l : (forall a, says (F a) (f a)) -> says (many F l) (flat_map f l).
Proof. intro H. induction l as [|a l IH]; [apply says_nil|]. cbn [many flat_map]. apply says_app; auto. Qed.
Lemma says_table {A} cnt (F : A -> lang) f l : (forall a, says (F a) (f a)) -> says (table cnt F l) (flat_map f l).
Proof. intro H. apply says_r, says_many, H. Qed.
Lemma flat_single {A B} (f : A -> B) l : flat_map (fun a => [f a]) l = map f l.
Proof. induction l as [|a l IH]; cbn; congruence. Qed.
Lemma says_table_map {A} cnt (F : A -> lang) f l : (forall a, says (F a) [f a]) -> says (table cnt F l) (map f l).
Proof. intro H. rewrite <- flat_single. apply says_table, H. Qed.

(** What an index stands for. *)
Definition means {A} (R : N -> A -> Prop) (f : A -> list text) : Prop := forall i a w, R i a -> Forall (good w) (f a).
Lemma says_ref {A} (R : N -> A -> Prop) f a : means R f -> says (ref R a) (f a).
Proof. intros H w (i & _ & Hi). eapply H; eauto. Qed.
Lemma says_ref1 {A} (R : N -> A -> Prop) f a : means R f -> says (ref1 R a) (f a).
Proof. intros H w (i & _ & Hi). eapply H; eauto. Qed.
Lemma says_opt {A} (R : N -> A -> Prop) f o : means R f -> says (opt_ref R o) (match o with Some a => f a | None => [] end).
Proof. intro H. destruct o; cbn [opt_ref]; [apply says_ref, H|apply says_nil]. Qed.
Lemma means_that {A} (R : N -> A -> Prop) P f : means R f -> means (that R P) f.
Proof. intros H i a w [Hi _]. eapply H; eauto. Qed.
Lemma at_index_In i c : at_index sl i c -> In c cs.
Proof. intro H. apply in_slots. eauto. Qed.
Lemma utf8_in i s : utf8_at dec sl i s -> exists raw, In (CUtf8 raw) cs /\ dec raw = Some s.
Proof. intros (raw & Hi & Hd). exists raw. split; auto. eapply at_index_In; eauto. Qed.
Lemma mean_utf8 : means (utf8_at dec sl) (fun s => [TString s]).
Proof. intros i s w H. constructor; [|constructor]. eapply utf8_in; eauto. Qed.
Lemma mean_class : means (class_at dec sl) (fun s => [TString s]).
Proof. intros i s w (j & _ & H). eapply mean_utf8; eauto. Qed.
Lemma mean_module : means (module_at dec sl) (fun s => [TString s]).
Proof. intros i s w (j & _ & H). eapply mean_utf8; eauto. Qed.
Lemma mean_package : means (package_at dec sl) (fun s => [TString s]).
Proof. intros i s w (j & _ & H). eapply mean_utf8; eauto. Qed.
Lemma mean_method_type : means (method_type_at dec sl) (fun s => [TString s]).
Proof. intros i s w (j & _ & H). eapply mean_utf8; eauto. Qed.
Lemma mean_nt : means (name_and_type_at dec sl) nt_texts.
Proof. intros i nt w (n & d & _ & H1 & H2). constructor; [eapply utf8_in; eauto|]. eapply mean_utf8; eauto. Qed.
Lemma mean_literal : means (literal_at dec sl) literal_texts.
Proof.
  intros i l w H. destruct l; cbn [literal_at literal_texts] in *; try (constructor; fail); (apply Forall_cons; [|constructor]).
  - destruct H as (j & _ & H). eapply utf8_in; eauto.
  - destruct H as (j & H1 & H2 & H3). split; auto. exists j. split; auto. eapply at_index_In; eauto.
Qed.
Lemma mean_member k i c nt w : member_at dec sl k i c nt -> Forall (good w) (TString c :: nt_texts nt).
Proof. intros (a & b & _ & H1 & H2). apply Forall_app with (l1 := [_]). split; [eapply mean_class; eauto|eapply mean_nt; eauto]. Qed.
Lemma mean_member_ref ks : means (member_ref_at dec sl ks) member_texts.
Proof. intros i m w (k & _ & H). eapply mean_member; eauto. Qed.
Lemma mean_handle : means (method_handle_at dec sl) handle_texts.
Proof. intros i h w (m & _ & H). eapply mean_member; eauto. Qed.
Lemma mean_dynamic : means (dynamic_at dec sl) (fun d => nt_texts (dyn_name_and_type d)).
Proof. intros i h w (m & _ & H). eapply mean_nt; eauto. Qed.
Lemma mean_indy : means (invoke_dynamic_at dec sl) (fun d => nt_texts (indy_name_and_type d)).
Proof. intros i h w (m & _ & H). eapply mean_nt; eauto. Qed.
Lemma mean_loadable : means (loadable_at dec sl) loadable_texts.
Proof.
  intros i [] w H; cbn [loadable_at loadable_texts] in *;
  [eapply mean_literal|eapply mean_class|eapply mean_handle|eapply mean_method_type|eapply (mean_dynamic i d)]; eauto.
Qed.
Lemma mean_argument : means (bootstrap_arg_at dec sl) argument_texts.
Proof.
  intros i [] w H; cbn [bootstrap_arg_at argument_texts] in *; [eapply mean_literal|eapply mean_class|eapply mean_handle|eapply mean_method_type]; eauto.
Qed.
Lemma mean_array_type : means (object_array_type_at dec sl) array_type_texts.
Proof.
  intros i t w (s & (j & _ & H) & Ht). apply utf8_in in H. destruct H as (raw & H1 & H2). destruct t; cbn [array_type_texts]; (apply Forall_cons; [|constructor]).
  - destruct Ht as (_ & _ & ->). exists raw, []. rewrite app_nil_r. auto.
  - destruct Ht as [-> _]. exists raw. auto.
Qed.
Lemma mean_field_desc : means (field_desc_at dec sl) (fun d => [TField d]).
Proof.
  intros i d w (s & H & _ & rest & ->). apply utf8_in in H. destruct H as (raw & H1 & H2). constructor; [|constructor]. exists raw, rest. auto.
Qed.
Lemma mean_method_desc : means (method_desc_at dec sl) (fun d => [TMethod d]).
Proof.
  intros i d w (s & H & _ & rest & -> & _). apply utf8_in in H. destruct H as (raw & H1 & H2). constructor; [|constructor]. exists raw, rest. auto.
Qed.
Lemma mean_item i it w : item_at dec sl i it -> Forall (good w) (item_texts it).
Proof.
  destruct it; cbn [item_at item_texts]; intro H;
  [eapply mean_literal|eapply mean_class|eapply mean_member|eapply mean_member|eapply mean_member|eapply mean_nt|eapply mean_handle|eapply mean_method_type
  |eapply (mean_dynamic i d)|eapply (mean_indy i d)|eapply mean_module|eapply mean_package]; eauto.
Qed.
Hint Resolve mean_utf8 mean_class mean_module mean_package mean_method_type mean_nt mean_literal mean_member_ref mean_handle mean_dynamic mean_indy
  mean_loadable mean_argument mean_array_type mean_field_desc mean_method_desc means_that : means.

Ltac leaf := first
  [ apply says_nil
  | match goal with
    | |- says (ref _ ?a) [TString ?a] => apply (says_ref _ (fun s => [TString s])); auto with means
    | |- says (ref _ ?a) [TField ?a] => apply (says_ref _ (fun s => [TField s])); auto with means
    | |- says (ref _ ?a) [TMethod ?a] => apply (says_ref _ (fun s => [TMethod s])); auto with means
    | |- says (opt_ref _ ?a) (opt_string ?a) => apply (says_opt _ (fun s => [TString s])); auto with means
    | |- says (ref _ ?a) (?f ?a) => apply (says_ref _ f); auto with means
    | |- says (ref1 _ ?a) (?f ?a) => apply (says_ref1 _ f); auto with means
    end ].
Lemma says_insn o op : says (insn_lang dec sl wraps o op) (opcode_texts op).
Proof.
  destruct op; cbn [insn_lang opcode_texts]; try apply says_nil; try (apply says_r; leaf); try (apply says_r; apply says_l; leaf).
  apply says_r, says_l. apply (says_ref _ (fun d => nt_texts (indy_name_and_type d))). auto with means.
Qed.
Lemma says_insns ops : forall o, says (insns_lang dec sl wraps o ops) (flat_map (fun oo => opcode_texts (snd oo)) ops).
Proof.
  induction ops as [|[off op] ops IH]; intro o; [apply says_nil|]. cbn [insns_lang flat_map]. intros w (_ & u & v & -> & Hu & Hv). apply Forall_app. split.
  - eapply Forall_impl; [apply good_l|]. eapply says_insn; eauto.
  - eapply Forall_impl; [apply good_r|]. eapply IH; eauto.
Qed.
Lemma says_annotation_with V a : (forall v, says (V v) (value_texts v)) -> says (annotation_with dec sl V a) (annotation_texts a).
Proof.
  intro HV. destruct a as [t els]. change (annotation_texts (mk_ann t els)) with (TField t :: flat_map (fun nv => TString (fst nv) :: value_texts (snd nv)) els).
  unfold annotation_with. cbn [ann_type ann_elements]. apply says_cons; [leaf|]. apply says_table. intros [n v]. cbn [fst snd]. apply says_cons; [leaf|apply HV].
Qed.
Lemma says_element d : forall v, says (element_lang dec sl d v) (value_texts v).
Proof.
  induction d as [|d IH]; intro v; [intros w []|]. cbn [element_lang]. destruct v; cbn [element_with value_texts]; try apply says_nil; try (apply says_r; leaf).
  - apply says_r, says_cons; leaf.
  - apply says_r, says_annotation_with, IH.
  - apply says_r. apply (says_table _ _ value_texts), IH.
Qed.
Lemma says_annotation d a : says (annotation_lang dec sl d a) (annotation_texts a).
Proof. apply says_annotation_with, says_element. Qed.
Lemma says_type_annotation d a : says (type_annotation_lang dec sl d a) (annotation_texts (ta_annotation a)).
Proof. unfold type_annotation_lang. apply says_r, says_r, says_annotation. Qed.
Lemma says_verification v : says (verification_lang dec sl v) (verification_texts v).
Proof. destruct v; try apply says_nil. cbn [verification_lang verification_texts]. apply says_r. leaf. Qed.
Lemma says_frame e : says (stack_map_lang dec sl e) (frame_texts e).
Proof.
  destruct e; cbn [stack_map_lang frame_texts]; try apply says_nil.
  - apply says_alt; apply says_r, says_r, says_verification.
  - apply says_r, says_r, says_r. apply says_many, says_verification.
  - apply says_r, says_r, says_app; apply says_table, says_verification.
Qed.
Lemma says_module m : says (module_lang dec sl m) (module_texts m).
Proof.
  unfold module_lang, module_texts. apply says_cons; [leaf|]. apply says_r. apply says_app; [leaf|].
  apply says_app; [apply says_table; intro; unfold require_lang; apply says_cons; [leaf|]; apply says_r; leaf|].
  apply says_app; [apply says_table; intro; unfold export_lang; apply says_cons; [leaf|]; apply says_r, says_table_map; intro; leaf|].
  apply says_app; [apply says_table; intro; unfold open_lang; apply says_cons; [leaf|]; apply says_r, says_table_map; intro; leaf|].
  apply says_app; [apply says_table_map; intro; leaf|].
  apply says_table; intro; unfold provide_lang; apply says_cons; [leaf|]. apply says_table_map; intro; leaf.
Qed.
Lemma says_code A c : (forall l, says (A l) (flat_map attribute_texts l)) -> says (code_lang dec sl wraps want A c) (code_texts c).
Proof.
  intros HA. destruct c as [ms ml code bc ex l]. unfold code_lang. cbn [cd_max_stack cd_max_locals cd_code cd_exception_table cd_attributes cd_bytecode].
  change (code_texts (mk_code ms ml code bc ex l)) with (match bc with Some b => flat_map (fun oo => opcode_texts (snd oo)) (opcodes b) | None => [] end
    ++ flat_map (fun h => opt_string (ex_catch_type h)) ex ++ flat_map attribute_texts l).
  intros w H. destruct H as (u1 & v1 & -> & _ & u2 & v2 & -> & _ & u3 & v3 & -> & _ & u4 & v4 & -> & Hc & u5 & v5 & -> & Hex & u6 & v6 & -> & Hl & _ & Hbc).
  change (u4 = code) in Hc. subst u4. apply Forall_app. split; [|apply Forall_app; split].
  - destruct bc as [b|]; [|constructor]. destruct Hbc as (_ & Hbc & _). apply says_insns in Hbc.
    do 3 (eapply Forall_impl; [apply good_r|]). eapply Forall_impl; [apply good_l|]. exact Hbc.
  - do 4 (eapply Forall_impl; [apply good_r|]). eapply Forall_impl; [apply good_l|]. revert Hex. apply says_table. intro. unfold exception_lang. do 3 apply says_r. leaf.
  - do 5 (eapply Forall_impl; [apply good_r|]). eapply Forall_impl; [apply good_l|]. apply HA, Hl.
Qed.
Lemma says_record A r : (forall l, says (A l) (flat_map attribute_texts l)) -> says (record_component_lang dec sl A r) (record_texts r).
Proof.
  intro HA. destruct r as [n t l]. unfold record_component_lang. cbn [rc_name rc_descriptor rc_attributes].
  change (record_texts (mk_rc n t l)) with (TString n :: TField t :: flat_map attribute_texts l). apply says_cons; [leaf|]. apply says_cons; [leaf|apply HA].
Qed.
Lemma says_contents A d a : (forall l, says (A l) (flat_map attribute_texts l)) -> says (snd (contents dec sl wraps want A d a)) (data_texts a).
Proof.
  intro HA. destruct a; cbn [contents snd data_texts]; try apply says_nil; try leaf.
  all: try (apply says_table_map; intro; leaf).
  - apply says_code, HA.
  - apply says_table, says_frame.
  - apply says_table. intro. unfold inner_class_lang. apply says_cons; [leaf|]. apply says_app; [leaf|]. apply says_l. leaf.
  - apply says_cons; [leaf|]. apply (says_opt _ nt_texts). auto with means.
  - intros w H. constructor; [|constructor]. exists [], w, []. rewrite app_nil_r. auto.
  - apply says_table. intro. unfold local_variable_lang. apply says_r, says_r. apply says_cons; [leaf|]. apply says_l. leaf.
  - apply says_table. intro. unfold local_variable_type_lang. apply says_r, says_r. apply says_cons; [leaf|]. apply says_l. leaf.
  - apply says_table, says_annotation.
  - apply says_table, says_annotation.
  - apply says_table. intro. apply says_table, says_annotation.
  - apply says_table. intro. apply says_table, says_annotation.
  - apply says_table, says_type_annotation.
  - apply says_table, says_type_annotation.
  - apply says_element.
  - apply says_table. intro. unfold bootstrap_method_lang. apply says_app; [apply (says_ref _ handle_texts); auto with means|].
    apply says_table. intro. apply (says_ref _ argument_texts). auto with means.
  - apply says_table. intro. unfold method_parameter_lang. apply says_l. leaf.
  - apply says_module.
  - change (data_texts (ARecord l)) with (flat_map record_texts l). apply says_table. intro. apply says_record, HA.
Qed.
Lemma says_attribute A d a : (forall l, says (A l) (flat_map attribute_texts l)) -> says (attribute_with dec sl wraps want A d a) (attribute_texts a).
Proof.
  intros HA. destruct a as [n dt]. unfold attribute_with. cbn [attr_name attr_dat]. change (attribute_texts (mk_attr n dt)) with (TString n :: data_texts dt).
  apply says_cons; [leaf|]. intros w (len & body & -> & _ & Hb & _). eapply Forall_impl; [apply good_r|]. eapply says_contents; eauto.
Qed.
Lemma says_attributes d : forall l, says (attributes_lang dec sl wraps want d l) (flat_map attribute_texts l).
Proof. induction d as [|d IH]; intro l; [intros w []|]. cbn [attributes_lang]. apply says_table. intro. apply says_attribute, IH. Qed.
Theorem says_class d c : says (class_lang dec wraps want d cs c) (class_texts c).
Proof.
  intros w (H & _). revert w H. unfold class_texts. do 5 apply says_r. apply says_cons; [leaf|]. apply says_app; [leaf|].
  apply says_app; [apply says_table_map; intro; leaf|].
  apply says_app; [apply says_table; intro; unfold field_lang; apply says_r, says_cons; [leaf|]; apply says_cons; [leaf|apply says_attributes]|].
  apply says_app; [apply says_table; intro; unfold method_lang; apply says_r, says_cons; [leaf|]; apply says_cons; [leaf|apply says_attributes]|].
  apply says_attributes.
Qed.
End Texts.
