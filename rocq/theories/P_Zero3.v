(** * The parser with borrowing behaves like the parser without it: attributes. *)
From Verif Require Import Base M_Names M_Descriptors M_ConstantPool M_Bytecode M_Attributes M_Class M_Cesu8
  Z_Cow Z_Descriptors Z_ConstantPool Z_Bytecode Z_Attributes Z_Plain Z_Class S_Lang S_ZeroCopy P_Reads P_Names P_ZeroUtf P_Zero P_Zero2.

(** Numbers in the file *)
Definition roomy (bs : list byte) : env :=
  {| overflow_checks := true; usize_max := 2 ^ 32 + 2 * blen bs; alloc_limit := blen bs; stack := 0; cesu8 := from_java_cesu8; cesu8_err := [] |}.
Lemma roomy_fits bs : fits (roomy bs) bs.
Proof. constructor; cbn [roomy usize_max alloc_limit]; [lia| |lia]. apply N.div_le_lower_bound; lia. Qed.
Lemma number_span bs ix ix' k v : span bs ix ix' (uint k v) -> number_at bs ix k v /\ ix' = ix + N.of_nat k.
Proof. intros (pre & w & post & -> & -> & -> & Hl & Hv). split; [exists w; split; [now exists pre, post|auto]|]. unfold blen. now rewrite Hl. Qed.
Lemma read_u1_number bs ix v ix' : read_u1 bs ix = Ok (v, ix') -> number_at bs ix 1 v /\ ix' = ix + 1.
Proof.
  intro H. apply number_span. apply (reads_u1 (roomy bs)); auto using roomy_fits. unfold read_u1 in H. destruct (N.ltb_spec (blen bs) (ix + 1)); [discriminate|lia].
Qed.
Lemma read_u2_number bs ix v ix' : read_u2 bs ix = Ok (v, ix') -> number_at bs ix 2 v /\ ix' = ix + 2.
Proof.
  intro H. apply number_span. apply (reads_u2 (roomy bs)); auto using roomy_fits. unfold read_u2 in H. destruct (N.ltb_spec (blen bs) (ix + 2)); [discriminate|lia].
Qed.
Lemma read_u4_number bs ix v ix' : read_u4 bs ix = Ok (v, ix') -> number_at bs ix 4 v /\ ix' = ix + 4.
Proof.
  intro H. apply number_span. apply (reads_u4 (roomy bs)); auto using roomy_fits. unfold read_u4 in H. destruct (N.ltb_spec (blen bs) (ix + 4)); [discriminate|lia].
Qed.
Lemma read_u8_number bs ix v ix' : read_u8 bs ix = Ok (v, ix') -> number_at bs ix 8 v /\ ix' = ix + 8.
Proof.
  intro H. apply number_span. apply (reads_u8 (roomy bs)); auto using roomy_fits. unfold read_u8 in H. destruct (N.ltb_spec (blen bs) (ix + 8)); [discriminate|lia].
Qed.

Lemma slice_lies bs i j raw : slice bs i j = Ok raw -> lies_at bs i raw /\ blen raw = j - i /\ i <= j.
Proof.
  unfold slice. destruct (_ && _) eqn:Hb; [|discriminate]. intros [= <-]. apply andb_prop in Hb as (H1 & H2). apply N.leb_le in H1, H2. unfold blen in *.
  assert (Hl : length (firstn (N.to_nat (j - i)) (skipn (N.to_nat i) bs)) = N.to_nat (j - i)) by (rewrite firstn_length, skipn_length; lia).
  split; [|split; [|auto]]. 2: { rewrite Hl. lia. }
  exists (firstn (N.to_nat i) bs), (skipn (N.to_nat (j - i)) (skipn (N.to_nat i) bs)). rewrite !firstn_skipn. split; [auto|]. unfold blen. rewrite firstn_length. lia.
Qed.
Lemma number_at_small bs k n v : number_at bs k n v -> v < 256 ^ N.of_nat n.
Proof.
  intros (w & _ & <- & <-). unfold be. assert (H : forall w acc, fold_left (fun acc b => acc * 256 + Byte.to_N b) w acc < (acc + 1) * 256 ^ N.of_nat (length w)).
  { clear. induction w as [|b w IH]; intro acc; cbn [fold_left length]. { cbn. lia. } eapply N.lt_le_trans; [apply IH|]. rewrite Nat2N.inj_succ, N.pow_succ_r'.
    pose proof (Byte.to_N_bounded b). nia. }
  specialize (H w 0). now rewrite N.add_0_l, N.mul_1_l in H.
Qed.
(** The same at one place, and in one file. *)
Definition sima {A B} bs ix (R : A -> B -> Prop) (z : parser A) (m : parser B) : Prop :=
  simo (fun a b => R (fst a) (fst b) /\ snd a = snd b) (z bs ix) (m bs ix).
Definition simb {A B} bs (R : A -> B -> Prop) z m : Prop := forall ix, @sima A B bs ix R z m.
Lemma sim_simb {A B} bs (R : A -> B -> Prop) z m : sim R z m -> simb bs R z m.
Proof. intros H ix. apply H. Qed.
Lemma sima_bind {A B A' B'} bs ix (R : A -> B -> Prop) (S : A' -> B' -> Prop) z m h g :
  sima bs ix R z m -> (forall a b ix', R a b -> z bs ix = Ok (a, ix') -> sima bs ix' S (h a) (g b)) -> sima bs ix S (bind z h) (bind m g).
Proof.
  intros H K. unfold sima, bind in *. destruct (z bs ix) as [(a, i)| | |] eqn:Hz, (m bs ix) as [(b, j)| | |]; cbn in *; try contradiction; auto.
  destruct H as (H & ->). now apply K.
Qed.
Lemma simb_bind {A B A' B'} bs (R : A -> B -> Prop) (S : A' -> B' -> Prop) z m h g :
  simb bs R z m -> (forall a b, R a b -> simb bs S (h a) (g b)) -> simb bs S (bind z h) (bind m g).
Proof. intros H K ix. eapply sima_bind; [apply H|]. intros a b ix' Hr _. now apply K. Qed.
Lemma simb_ret {A B} bs (R : A -> B -> Prop) a b : R a b -> simb bs R (ret a) (ret b).
Proof. intro H. apply sim_simb, sim_ret, H. Qed.
Lemma simb_pctx {A B} bs (R : A -> B -> Prop) c z m : simb bs R z m -> simb bs R (pctx c z) (pctx c m).
Proof. intros H ix. apply simo_ctx, H. Qed.

Section Good.
Variable E : env.
Hypothesis E32 : 2 ^ 32 <= usize_max E + 1.
Hypothesis Ecesu8 : cesu8 E = from_java_cesu8.
Variable bytes : list byte.
Variable good : cow -> Prop.
Hypothesis good_sub : forall t j k u, good t -> sub_cow t j k = Ok u -> good u.
Variable p : pool.
Hypothesis Hp : Forall good (flat_map entry_texts p).
(** The contents of a SourceDebugExtension attribute. *)
Hypothesis good_debug : forall i raw t, debug_text p bytes i raw -> uncopied_from (cesu8 E) bytes i raw t -> good t.
Variable parse_bytecode : bool.
Local Notation mp := (plain_pool p).
Local Notation rel := (rel good).
Local Notation simb := (simb bytes).

Lemma simb_for_n {A B} (f : A -> B) t count (h : N -> parser A) g : (forall i, simb (rel f t) (h i) (g i)) ->
  simb (rel (map f) (flat_map t)) (for_n count h) (for_n count g).
Proof.
  intro H. unfold for_n. generalize 0 as i. induction (N.to_nat count) as [|n IH]; intro i; cbn [for_from].
  - apply simb_ret. split; auto. constructor.
  - eapply simb_bind; [apply H|]. intros a b (<- & Ha). eapply simb_bind; [apply IH|]. intros l l' (<- & Hl).
    apply simb_ret. split; auto. cbn [flat_map]. apply Forall_app; auto.
Qed.
Lemma for_n_one count (h : N -> parser cow) g : (forall i, sim (rel chars one) (h i) (g i)) -> sim (rel (map chars) (fun l => l)) (for_n count h) (for_n count g).
Proof.
  intro H. eapply sim_weaken; [|apply sim_for_n, H]. intros l ? (<- & Hl). split; [auto|]. rewrite flat_one in Hl. exact Hl.
Qed.

Lemma field_descriptor_sim : sim (rel plain_field_desc field_texts) (read_cp_field_descriptor p) (M_Attributes.read_cp_field_descriptor mp).
Proof. eapply sim_bind; [apply cp_utf8_sim, Hp|]. intros d ? (<- & Hd). apply sim_lift, field_desc_sim; auto. now apply one_inv. Qed.

Ltac reader := first
  [ apply cp_utf8_sim, Hp | apply cp_utf8_opt_sim, Hp | apply cp_classinfo_sim, Hp | apply cp_classinfo_opt_sim, Hp | apply cp_moduleinfo_sim, Hp | apply cp_packageinfo_sim, Hp
  | apply cp_nt_opt_sim, Hp | apply cp_literal_sim, Hp | exact (cp_integer_sim good p Hp) | exact (cp_float_sim good p Hp) | exact (cp_long_sim good p Hp) | exact (cp_double_sim good p Hp)
  | apply cp_methodhandle_sim, Hp | apply cp_bootstrap_argument_sim, Hp | apply field_descriptor_sim
  | apply sim_pctx; reader ].
Ltac same := eapply sim_bind; [apply sim_same|]; intros ? _ <-.
Ltac rd := eapply sim_bind; [reader|]; let H := fresh "H" in (intros ? ? (<- & H) || intros ? _ <-); try apply one_inv in H.
Ltac finish := apply sim_ret; split; [reflexivity|]; cbn [opt_string]; repeat (first [assumption | apply Forall_nil | apply Forall_app; split | apply Forall_cons]).

Lemma exception_sim i : sim (rel plain_exception (fun h => opt_string (ex_catch_type h))) (read_exception_entry p i) (M_Attributes.read_exception_entry mp i).
Proof. unfold read_exception_entry, M_Attributes.read_exception_entry. do 3 same. rd. finish. Qed.
Lemma verification_sim : sim (rel plain_verification verification_texts) (read_verification p) (M_Attributes.read_verification mp).
Proof.
  unfold read_verification, M_Attributes.read_verification. same. destruct a as [|q]; [finish|]. do 4 (try (destruct q as [q|q|]; try apply sim_pfail)); try finish.
  - rd. finish.
  - same. finish.
Qed.
Lemma frame_sim i : sim (rel plain_frame frame_texts) (read_stack_map_entry p i) (M_Attributes.read_stack_map_entry mp i).
Proof.
  unfold read_stack_map_entry, M_Attributes.read_stack_map_entry. same. destruct (_ <=? _); [finish|]. destruct (_ <=? _). { eapply sim_bind; [apply sim_pctx, verification_sim|]. intros v ? (<- & Hv). finish. }
  destruct (_ <=? _); [apply sim_pctx, sim_pfail|]. destruct (_ =? _). { same. eapply sim_bind; [apply sim_pctx, verification_sim|]. intros v ? (<- & Hv). finish. }
  destruct (_ <=? _). { same. finish. } destruct (_ =? _). { same. finish. }
  destruct (_ <=? _). { same. eapply sim_bind; [apply sim_for_n; intro; apply sim_pctx, verification_sim|]. intros v ? (<- & Hv). finish. }
  do 2 same. eapply sim_bind; [apply sim_for_n; intro; apply sim_pctx, verification_sim|]. intros v ? (<- & Hv). same.
  eapply sim_bind; [apply sim_for_n; intro; apply sim_pctx, verification_sim|]. intros w ? (<- & Hw). finish.
Qed.
Lemma stackmap_sim : sim (rel (map plain_frame) (flat_map frame_texts)) (read_stackmaptable_data p) (M_Attributes.read_stackmaptable_data mp).
Proof. unfold read_stackmaptable_data, M_Attributes.read_stackmaptable_data. same. apply sim_for_n, frame_sim. Qed.
Lemma exceptions_sim : sim (rel (map chars) (fun l => l)) (read_exceptions_data p) (M_Attributes.read_exceptions_data mp).
Proof. unfold read_exceptions_data, M_Attributes.read_exceptions_data. same. apply for_n_one. intro. reader. Qed.
Lemma inner_sim i : sim (rel plain_inner (fun c => ic_inner_class_info c :: opt_string (ic_outer_class_info c) ++ opt_string (ic_inner_name c))) (read_inner_class p i) (M_Attributes.read_inner_class mp i).
Proof. unfold read_inner_class, M_Attributes.read_inner_class. do 3 rd. same. finish. Qed.
Lemma innerclasses_sim : sim (rel (map plain_inner) (flat_map (fun c => ic_inner_class_info c :: opt_string (ic_outer_class_info c) ++ opt_string (ic_inner_name c)))) (read_innerclasses_data p) (M_Attributes.read_innerclasses_data mp).
Proof. unfold read_innerclasses_data, M_Attributes.read_innerclasses_data. same. apply sim_for_n, inner_sim. Qed.
Lemma localvariable_sim : sim (rel (map plain_local) (flat_map (fun v => lv_name v :: field_texts (lv_descriptor v)))) (read_localvariable_data p) (M_Attributes.read_localvariable_data mp).
Proof.
  unfold read_localvariable_data, M_Attributes.read_localvariable_data. same. apply sim_for_n. intro i. unfold read_local_variable, M_Attributes.read_local_variable. do 2 same. rd. same. rd. same. finish.
Qed.
Lemma localvariabletype_sim : sim (rel (map plain_local_type) (flat_map (fun v => [lvt_name v; lvt_signature v]))) (read_localvariabletype_data p) (M_Attributes.read_localvariabletype_data mp).
Proof.
  unfold read_localvariabletype_data, M_Attributes.read_localvariabletype_data. same. apply sim_for_n. intro i. unfold read_local_variable_type, M_Attributes.read_local_variable_type. do 2 same. rd. same. rd. same. finish.
Qed.

(** ** Annotations *)
Section Annotations.
Variable rec : parser element_value.
Variable mrec : parser M_Attributes.element_value.
Hypothesis Hrec : sim (rel plain_value value_texts) rec mrec.
Lemma annotation_with_sim : sim (rel plain_annotation annotation_texts) (read_annotation_with p rec) (M_Attributes.read_annotation_with mp mrec).
Proof.
  unfold read_annotation_with, M_Attributes.read_annotation_with. rd. same.
  eapply sim_bind; [eapply (sim_for_n good (fun nv => (chars (fst nv), plain_value (snd nv))) (fun nv => fst nv :: value_texts (snd nv)))|].
  - intro i. rd. eapply sim_bind; [apply sim_pctx, Hrec|]. intros v ? (<- & Hv). finish.
  - intros l ? (<- & Hl). finish.
Qed.
Lemma element_with_sim : sim (rel plain_value value_texts) (read_element_value_with p rec) (M_Attributes.read_element_value_with mp mrec).
Proof.
  unfold read_element_value_with, M_Attributes.read_element_value_with. same.
  do 8 (destruct (_ =? _); [eapply sim_bind; [reader|]; intros ? _ <-; finish|]).
  destruct (_ =? _). { rd. finish. } destruct (_ =? _). { do 2 rd. finish. } destruct (_ =? _). { rd. do 2 same. finish. }
  destruct (_ =? _). { eapply sim_bind; [apply annotation_with_sim|]. intros v ? (<- & Hv). finish. }
  destruct (_ =? _); [|apply sim_pfail]. same. eapply sim_bind; [apply sim_for_n; intro; apply sim_pctx, Hrec|]. intros v ? (<- & Hv). finish.
Qed.
End Annotations.
Lemma element_sim n : sim (rel plain_value value_texts) (read_element_value p n) (M_Attributes.read_element_value mp n).
Proof. induction n as [|n IH]; cbn [read_element_value M_Attributes.read_element_value]; [apply sim_panic|]. now apply element_with_sim. Qed.
Lemma annotation_sim n : sim (rel plain_annotation annotation_texts) (read_annotation p n) (M_Attributes.read_annotation mp n).
Proof. apply annotation_with_sim, element_sim. Qed.
Lemma annotations_sim n : sim (rel (map plain_annotation) (flat_map annotation_texts)) (read_annotation_data p n) (M_Attributes.read_annotation_data mp n).
Proof. unfold read_annotation_data, M_Attributes.read_annotation_data. same. apply sim_for_n. intro. apply sim_pctx, annotation_sim. Qed.
Lemma parameter_annotations_sim n : sim (rel (map (map plain_annotation)) (flat_map (flat_map annotation_texts))) (read_parameter_annotation_data p n) (M_Attributes.read_parameter_annotation_data mp n).
Proof. unfold read_parameter_annotation_data, M_Attributes.read_parameter_annotation_data. same. apply sim_for_n. intro. same. apply sim_for_n. intro. apply sim_pctx, annotation_sim. Qed.
Lemma type_annotations_sim n : sim (rel (map plain_type_annotation) (flat_map (fun a => annotation_texts (ta_annotation a)))) (read_type_annotation_data p n) (M_Attributes.read_type_annotation_data mp n).
Proof.
  unfold read_type_annotation_data, M_Attributes.read_type_annotation_data. same. apply sim_for_n. intro i. unfold read_type_annotation, M_Attributes.read_type_annotation. do 3 same.
  eapply sim_bind; [apply sim_pctx, annotation_sim|]. intros v ? (<- & Hv). finish.
Qed.
Lemma bootstrapmethods_sim : sim (rel (map plain_bootstrap) (flat_map (fun b => handle_texts (bm_method b) ++ flat_map argument_texts (bm_arguments b)))) (read_bootstrapmethods_data p) (M_Attributes.read_bootstrapmethods_data mp).
Proof.
  unfold read_bootstrapmethods_data, M_Attributes.read_bootstrapmethods_data. same. apply sim_for_n. intro i. unfold read_bootstrap_method, M_Attributes.read_bootstrap_method. rd. same.
  eapply sim_bind; [apply sim_for_n; intro; reader|]. intros v ? (<- & Hv). finish.
Qed.
Lemma methodparameters_sim : sim (rel (map plain_parameter) (flat_map (fun m => opt_string (mp_name m)))) (read_methodparameters_data p) (M_Attributes.read_methodparameters_data mp).
Proof.
  unfold read_methodparameters_data, M_Attributes.read_methodparameters_data. same. apply sim_for_n. intro i. unfold read_method_parameter, M_Attributes.read_method_parameter.
  eapply sim_bind; [reader|]. intros n ? (<- & Hn). eapply (sim_bind eq). { destruct n; apply sim_same. } intros _ _ _. same. finish.
Qed.
Lemma module_require_sim i : sim (rel plain_require (fun r => rq_name r :: opt_string (rq_version r))) (read_module_require p i) (M_Attributes.read_module_require mp i).
Proof. unfold read_module_require, M_Attributes.read_module_require. rd. same. rd. finish. Qed.
Ltac ones := eapply sim_bind; [apply for_n_one; intro; reader|]; intros ? ? (<- & ?).
Lemma module_export_sim i : sim (rel plain_export (fun x => xp_package_name x :: xp_exports_to x)) (read_module_export p i) (M_Attributes.read_module_export mp i).
Proof. unfold read_module_export, M_Attributes.read_module_export. rd. do 2 same. ones. finish. Qed.
Lemma module_open_sim i : sim (rel plain_open (fun x => op_package_name x :: op_opens_to x)) (read_module_open p i) (M_Attributes.read_module_open mp i).
Proof. unfold read_module_open, M_Attributes.read_module_open. rd. do 2 same. ones. finish. Qed.
Lemma module_provide_sim i : sim (rel plain_provide (fun x => pv_service_interface_name x :: pv_provides_with x)) (read_module_provide p i) (M_Attributes.read_module_provide mp i).
Proof. unfold read_module_provide, M_Attributes.read_module_provide. rd. same. ones. finish. Qed.
Lemma module_sim : sim (rel plain_module module_texts) (read_module_data p) (M_Attributes.read_module_data mp).
Proof.
  unfold read_module_data, M_Attributes.read_module_data. rd. same. rd. same.
  eapply sim_bind; [apply sim_for_n, module_require_sim|]; intros ? ? (<- & ?). same.
  eapply sim_bind; [apply sim_for_n, module_export_sim|]; intros ? ? (<- & ?). same.
  eapply sim_bind; [apply sim_for_n, module_open_sim|]; intros ? ? (<- & ?). same. ones. same.
  eapply sim_bind; [apply sim_for_n, module_provide_sim|]; intros ? ? (<- & ?). apply sim_ret. split; [reflexivity|].
  unfold module_texts. cbn [md_name md_version md_requires md_exports md_opens md_uses md_provides]. repeat (first [assumption | apply Forall_app; split | apply Forall_cons]).
Qed.
Lemma modulepackages_sim : sim (rel (map chars) (fun l => l)) (read_modulepackages_data p) (M_Attributes.read_modulepackages_data mp).
Proof. unfold read_modulepackages_data, M_Attributes.read_modulepackages_data. same. apply for_n_one. intro. reader. Qed.
Lemma nestmembers_sim : sim (rel (map chars) (fun l => l)) (read_nestmembers_data p) (M_Attributes.read_nestmembers_data mp).
Proof. unfold read_nestmembers_data, M_Attributes.read_nestmembers_data. same. apply for_n_one. intro. reader. Qed.
Lemma permitted_sim : sim (rel (map chars) (fun l => l)) (read_permitted_subclasses_data p) (M_Attributes.read_permitted_subclasses_data mp).
Proof. unfold read_permitted_subclasses_data, M_Attributes.read_permitted_subclasses_data. same. apply for_n_one. intro. reader. Qed.

(** ** SourceDebugExtension *)
Definition debug_at (ix length : N) : Prop := exists k n name, ix = k + 6 /\ number_at bytes k 2 n /\ nth_error p (N.to_nat n) = Some (EUtf8 name)
    /\ chars name = lit "SourceDebugExtension" /\ number_at bytes (k + 2) 4 length.
Lemma debug_sim ix i length : debug_at ix length -> sima bytes ix (rel chars one) (read_source_debug_extension E i length) (M_Attributes.read_source_debug_extension E i length).
Proof.
  intros (k & n & name & -> & Hn & Hname & Hc & Hl). unfold read_source_debug_extension, M_Attributes.read_source_debug_extension.
  unfold sima, bind, get_bytes, get_ix, lift, set_ix. destruct (usize_result E (k + 6 + length)) as [e| | |] eqn:He; try reflexivity.
  destruct (slice bytes (k + 6) e) as [data| | |] eqn:Hd; try reflexivity. destruct (slice_lies _ _ _ _ Hd) as (Hlies & Hlen & Hle).
  assert (He' : e = k + 6 + length).
  { pose proof (number_at_small _ _ _ _ Hl) as Hs. change (256 ^ N.of_nat 4) with (2 ^ 32) in Hs. revert He. unfold usize_result. destruct (N.leb_spec (k + 6 + length) (usize_max E)); [congruence|].
    destruct (overflow_checks E); [discriminate|]. intros [= <-].
    assert (Hk : k + 6 <= usize_max E \/ usize_max E < k + 6) by lia. exfalso.
    destruct (N.eq_dec ((k + 6 + length) mod (usize_max E + 1)) (k + 6 + length - (usize_max E + 1))) as [Heq|Hne].
    - lia.
    - pose proof (N.mod_lt (k + 6 + length) (usize_max E + 1) ltac:(lia)). assert (k + 6 <= usize_max E) by lia. apply Hne. symmetry. apply (N.mod_unique _ _ 1); lia. }
  assert (Hu : forall t, from_java_cesu8_cow (cesu8 E) data (k + 6) = Some t -> good t).
  { intros t Ht. eapply good_debug; [|eapply cow_uncopied; eauto]. split; [auto|]. exists k, n, name. repeat (split; [assumption||reflexivity|]). rewrite Hlen. replace (e - (k + 6)) with length by lia. auto. }
  rewrite (cow_chars (cesu8 E) data (k + 6) Ecesu8). destruct (from_java_cesu8_cow _ _ _) as [t|]; cbn [option_map]; [|reflexivity].
  cbn. split; [|reflexivity]. split; [reflexivity|]. apply one_good. auto.
Qed.

(** ** Attributes *)
Section Attributes.
Variable rec : parser (list attr_info).
Variable mrec : parser (list M_Attributes.attr_info).
Hypothesis Hrec : simb (rel (map plain_attr) (flat_map attribute_texts)) rec mrec.
Ltac bsame := eapply simb_bind; [apply sim_simb, sim_same|]; intros ? _ <-.
Lemma code_sim : simb (rel plain_code_data code_texts) (read_code_data E p parse_bytecode rec) (M_Attributes.read_code_data E mp parse_bytecode mrec).
Proof.
  unfold read_code_data, M_Attributes.read_code_data. do 6 bsame. destruct (_ <? _); [apply sim_simb, sim_pfail|]. do 3 bsame.
  eapply simb_bind; [apply sim_simb, sim_for_n, exception_sim|]. intros x ? (<- & Hx). eapply simb_bind; [apply simb_pctx, Hrec|]. intros l ? (<- & Hl).
  eapply (simb_bind _ (rel (option_map plain_code) (opt (fun b => flat_map (fun oo => opcode_texts (snd oo)) (opcodes b))))).
  - destruct parse_bytecode; [|apply simb_ret; split; [reflexivity|constructor]]. apply sim_simb. eapply sim_bind; [apply sim_pctx, sim_lift, bytecode_sim; [exact good_sub|exact Hp]|].
    intros b ? (<- & Hb). apply sim_ret. split; [reflexivity|exact Hb].
  - intros b ? (<- & Hb). apply simb_ret. split; [reflexivity|]. cbn [code_texts]. apply Forall_app; split; [exact Hb|]. apply Forall_app; auto.
Qed.
Lemma record_sim : simb (rel (map plain_record) (flat_map record_texts)) (read_record_data p rec) (M_Attributes.read_record_data mp mrec).
Proof.
  unfold read_record_data, M_Attributes.read_record_data. bsame. apply simb_for_n. intro i. unfold read_record_component, M_Attributes.read_record_component.
  eapply simb_bind; [apply sim_simb; reader|]. intros n ? (<- & Hn). bsame. eapply simb_bind; [apply sim_simb; reader|]. intros d ? (<- & Hd).
  eapply simb_bind; [apply simb_pctx, Hrec|]. intros l ? (<- & Hl). apply simb_ret. split; [reflexivity|]. cbn [record_texts]. apply one_inv in Hn. constructor; auto. apply Forall_app; auto.
Qed.

Lemma dispatch_sim {A B} ix (R : A -> B -> Prop) name lz lm dz dm :
  Forall2 (fun z m => fst z = fst m /\ (name = lit (fst z) -> sima bytes ix R (snd z) (snd m))) lz lm -> sima bytes ix R dz dm ->
  sima bytes ix R (dispatch name lz dz) (dispatch name lm dm).
Proof.
  intros H Hd. induction H as [|(s, z) (s', m) lz lm (Hs & Hz) _ IH]; cbn [dispatch]; [auto|]. cbn in Hs. subst s'. destruct (str_eqb_spec name (lit s)); auto.
Qed.
Lemma attr_data_sim ix stk name i length : (chars name = lit "SourceDebugExtension" -> debug_at ix length) ->
  sima bytes ix (rel plain_data data_texts) (read_attr_data E p parse_bytecode rec stk name i length) (M_Attributes.read_attr_data E mp parse_bytecode mrec stk (chars name) i length).
Proof.
  intro Hdebug. unfold read_attr_data, M_Attributes.read_attr_data. cbv zeta. apply dispatch_sim.
  2: { eapply sima_bind; [apply sim_same|]. intros ? ? ? <- _. apply simb_ret. split; [reflexivity|constructor]. }
  repeat (apply Forall2_cons; [split; [reflexivity|]; cbn [fst snd]; intro Hname|]); [..|apply Forall2_nil];
    try (match goal with |- sima _ _ ?R ?z ?m => enough (H : sim R z m) by apply H end;
         try (eapply sim_bind; [apply sim_same|]; intros _ _ _);
         try (eapply sim_bind; [first
           [ reader | apply sim_pctx, stackmap_sim | apply sim_pctx, exceptions_sim | apply sim_pctx, innerclasses_sim | apply sim_pctx, localvariable_sim | apply sim_pctx, localvariabletype_sim
           | apply sim_pctx, annotations_sim | apply sim_pctx, parameter_annotations_sim | apply sim_pctx, type_annotations_sim | apply sim_pctx, element_sim | apply sim_pctx, bootstrapmethods_sim
           | apply sim_pctx, methodparameters_sim | apply sim_pctx, module_sim | apply sim_pctx, modulepackages_sim | apply sim_pctx, nestmembers_sim | apply sim_pctx, permitted_sim ]|];
           let H := fresh "H" in intros ? ? (<- & H); try (eapply sim_bind; [reader|]; let H' := fresh "H" in intros ? ? (<- & H')));
         apply sim_ret; split; [reflexivity|]; first [constructor; fail | assumption | apply Forall_app; split; assumption]).
  - eapply sima_bind; [apply simb_pctx, code_sim|]. intros c ? ? (<- & Hc) _. apply simb_ret. split; [reflexivity|exact Hc].
  - match goal with |- sima _ _ ?R ?z ?m => enough (H : sim R z m) by apply H end. same. eapply sim_bind; [reader|]. intros c ? (<- & Hc). eapply sim_bind; [reader|]. intros m ? (<- & Hm).
    apply one_inv in Hc. apply sim_ret. split; [reflexivity|]. cbn [data_texts]. constructor; [auto|exact Hm].
  - eapply sima_bind; [apply debug_sim, Hdebug, Hname|]. intros c ? ? (<- & Hc) _. apply simb_ret. split; [reflexivity|exact Hc].
  - eapply sima_bind; [apply sim_same|]. intros l ? ? <- _. apply simb_ret. split; [reflexivity|constructor].
  - eapply sima_bind; [apply simb_pctx, record_sim|]. intros c ? ? (<- & Hc) _. apply simb_ret. split; [reflexivity|exact Hc].
Qed.
Lemma attribute_sim stk i : simb (rel plain_attr attribute_texts) (read_attribute E p parse_bytecode rec stk i) (M_Attributes.read_attribute E mp parse_bytecode mrec stk i).
Proof.
  intro ix. unfold read_attribute, M_Attributes.read_attribute. eapply sima_bind; [apply (sim_pctx _ _ _ _ (cp_utf8_sim good p Hp))|]. intros name ? i1 (<- & Hname) Hr.
  assert (Hd : exists n, number_at bytes ix 2 n /\ nth_error p (N.to_nat n) = Some (EUtf8 name) /\ i1 = ix + 2).
  { unfold pctx, ctx in Hr. destruct (read_cp_utf8 p bytes ix) as [[x i0]| | |] eqn:Hq; try discriminate. injection Hr as -> ->. clear Hname.
    unfold read_cp_utf8, read_cp_ref_any, bind in Hq. destruct (read_u2 bytes ix) as [[n i2]| | |] eqn:Hn; try discriminate. apply read_u2_number in Hn as (Hn & ->).
    unfold lift, pool_get in Hq. destruct (_ <=? n) eqn:Hle in Hq; [discriminate|]. destruct (nth_error p (N.to_nat n)) as [e|] eqn:He; [|discriminate].
    destruct e; try discriminate. injection Hq as <- <-. eauto. }
  destruct Hd as (n & Hn & He & ->). apply one_inv in Hname.
  eapply sima_bind; [apply sim_same|]. intros length _ i2 <- Hlen. apply read_u4_number in Hlen as (Hlen & ->).
  eapply sima_bind; [apply sim_same|]. intros bs _ i3 <- Hbs. injection Hbs as <- <-.
  eapply sima_bind; [apply sim_same|]. intros j _ i3 <- Hj. injection Hj as <- <-.
  eapply sima_bind; [apply sim_same|]. intros e _ i3 <- Hj. unfold lift in Hj. destruct (usize_result E _); try discriminate. injection Hj as -> <-.
  destruct (_ <? _); [apply sim_pfail|]. eapply sima_bind.
  - apply attr_data_sim. intro Hc. exists ix, n, name. split; [lia|]. auto.
  - intros d ? i4 (<- & Hdata) _. revert i4. match goal with |- forall i, sima _ i ?R ?z ?m => change (simb R z m) end. bsame. destruct (negb _); [apply sim_simb, sim_pfail|].
    apply simb_ret. split; [reflexivity|]. cbn [attribute_texts]. auto.
Qed.
End Attributes.
Lemma attributes_sim stk : simb (rel (map plain_attr) (flat_map attribute_texts)) (read_attributes E p parse_bytecode stk) (M_Attributes.read_attributes E mp parse_bytecode stk).
Proof.
  induction stk as [|n IH]; cbn [read_attributes M_Attributes.read_attributes]. { apply sim_simb, sim_panic. }
  eapply simb_bind; [apply sim_simb, sim_same|]. intros c _ <-. apply simb_for_n. intro i. now apply attribute_sim.
Qed.
End Good.
