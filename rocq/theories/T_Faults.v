(** * C53: an error is about the first place at which the file departs from the format, and says which. *)
From Verif Require Import Data Base M_Names M_Descriptors M_ConstantPool M_Bytecode M_Attributes M_Class
  S_Lang S_Names S_Format S_Env S_Faults P_Names P_Descriptors P_Reads P_Tac P_Refs P_Attributes P_Attr2 P_Attr3 P_Pool3 P_Pool4 P_Class P_Class2 P_Class3 P_Faults P_Faults2 P_Faults3.
From Coq Require Import ZifyBool ZifyNat ZifyN.

Section WithEnv.
Variable E : env.
Hypothesis Hstk : (2 <= stack E)%nat.
Variable opts : parse_options.
Notation dec := (cesu8 E).
Notation wraps := (negb (overflow_checks E)).
Notation pool cs := (pool_of dec (slots_of cs)).
Notation A cs := (attribute_lang dec wraps opts (stack E) cs).

(** ** Reaching a place *)
(** After the bytes [w] the parser is about to do [k]. *)
Definition reaches (w : list byte) (k : parser class_file) : Prop :=
  forall v, fits E (w ++ v) -> class_parser E opts (w ++ v) 0 = k (w ++ v) (blen w).
Lemma reach_step {X} w (p : parser X) k L a u : reaches w (bind p k) -> reads E p L -> L a u -> reaches (w ++ u) (k a).
Proof.
  intros H Hp Ha v Hf. pose proof Hf as Hf'. rewrite <- app_assoc in Hf' |- *. rewrite H; auto.
  rewrite (step_ok E p k L w a u v); auto. rewrite <- app_assoc. reflexivity.
Qed.
Lemma reach_magic w : magic w -> reaches w (after_magic E opts).
Proof.
  intro H. change w with ([] ++ w). eapply (reach_step [] magic_parser (fun _ => after_magic E opts) _ tt w); [|apply reads_magic_parser|exact H].
  intros v _. apply class_parser_unfold; auto.
Qed.
Lemma reach_versions minor major w : (magic +++ u2 minor +++ u2 major) w -> reaches w (after_versions E opts minor major).
Proof.
  intros (u & v & -> & Hm & Hv). eapply (reach_step u versions_parser (fun v => after_versions E opts (fst v) (snd v)) _ (minor, major) v);
    [apply reach_magic; exact Hm|apply reads_versions_parser|exact Hv].
Qed.
Lemma reach_pool minor major cs w : opening dec wraps minor major cs w -> reaches w (after_pool E opts minor major (pool cs)).
Proof.
  intros (u & v & -> & Hm & Hv). eapply (reach_step u (read_constant_pool E major) (fun p => after_pool E opts minor major p) _ (pool cs) v);
    [apply reach_versions; exact Hm|apply reads_constant_pool; exact Hstk|]. exists cs. auto.
Qed.
Lemma opening_valid minor major cs w : opening dec wraps minor major cs w -> Forall (valid_constant dec (slots_of cs) major) cs.
Proof. intros (u & v & -> & _ & (n & _ & _ & H)). exact H. Qed.
Lemma flags_valid minor major cs flags w : to_flags dec wraps minor major cs flags w -> Forall (valid_constant dec (slots_of cs) major) cs.
Proof. intros (u & v & -> & H & _). eapply opening_valid; eauto. Qed.
Lemma super_valid minor major cs flags this super w : to_super dec wraps minor major cs flags this super w -> Forall (valid_constant dec (slots_of cs) major) cs.
Proof. intros (u & v & -> & (u' & v' & -> & H & _) & _). eapply flags_valid; eauto. Qed.
Lemma interfaces_valid minor major cs flags this super ifs w : to_interfaces dec wraps minor major cs flags this super ifs w -> Forall (valid_constant dec (slots_of cs) major) cs.
Proof. intros (u & v & -> & H & _). eapply super_valid; eauto. Qed.
Lemma reach_flags minor major cs flags w : to_flags dec wraps minor major cs flags w -> reaches w (after_flags E opts minor major (pool cs) flags).
Proof.
  intros (u & v & -> & Hm & Hv). eapply (reach_step u (flags_parser major) (fun f => after_flags E opts minor major (pool cs) f) _ flags v);
    [apply reach_pool; exact Hm|apply reads_flags_parser; exact Hstk|exact Hv].
Qed.
Lemma reach_this minor major cs flags this w : (to_flags dec wraps minor major cs flags +++ class_ref dec cs this) w ->
  reaches w (after_this E opts minor major (pool cs) flags this).
Proof.
  intros (u & v & -> & Hm & Hv). eapply (reach_step u (read_this_class (pool cs)) (fun f => after_this E opts minor major (pool cs) flags f) _ this v);
    [apply reach_flags; exact Hm|apply (reads_this_class E cs major); eapply flags_valid; exact Hm|exact Hv].
Qed.
Lemma reach_super minor major cs flags this super w : to_super dec wraps minor major cs flags this super w ->
  reaches w (after_super E opts minor major (pool cs) flags this super).
Proof.
  intros H. pose proof (super_valid _ _ _ _ _ _ _ H) as Hval. destruct H as (u & v & -> & Hm & Hv).
  eapply (reach_step u (read_super_class (pool cs)) (fun f => after_super E opts minor major (pool cs) flags this f) _ super v);
    [apply reach_this; exact Hm|apply (reads_super_class E cs major); exact Hval|exact Hv].
Qed.
Lemma reach_interfaces minor major cs flags this super ifs w : to_interfaces dec wraps minor major cs flags this super ifs w ->
  reaches w (after_interfaces E opts minor major (pool cs) flags this super ifs).
Proof.
  intros H. pose proof (interfaces_valid _ _ _ _ _ _ _ _ H) as Hval. destruct H as (u & v & -> & Hm & Hv).
  eapply (reach_step u (read_interfaces (pool cs)) (fun f => after_interfaces E opts minor major (pool cs) flags this super f) _ ifs v);
    [apply reach_super; exact Hm|apply (reads_interfaces E cs major); exact Hval|exact Hv].
Qed.
Lemma reach_fields minor major cs flags this super ifs fs w : to_fields dec wraps opts (stack E) minor major cs flags this super ifs fs w ->
  reaches w (after_fields E opts minor major (pool cs) flags this super ifs fs).
Proof.
  intros (u & v & -> & Hm & (u' & v' & -> & Hn & Hf & Hd)).
  eapply (reach_step u (read_fields E (pool cs) opts) (fun f => after_fields E opts minor major (pool cs) flags this super ifs f) _ fs (u' ++ v'));
    [apply reach_interfaces; exact Hm|apply reads_fields|]. split; [exact Hd|]. apply cat_intro; auto.
Qed.
Lemma ii_eq flags : contains flags ACC_INTERFACE = N.testbit flags ACC_INTERFACE_bit.
Proof. change ACC_INTERFACE with (2 ^ 9). apply testbit_contains. Qed.
Lemma mod_eq flags : contains flags ACC_MODULE = N.testbit flags ACC_MODULE_bit.
Proof. change ACC_MODULE with (2 ^ 15). apply testbit_contains. Qed.
Lemma reach_methods minor major cs flags this super ifs fs ms w : to_methods dec wraps opts (stack E) minor major cs flags this super ifs fs ms w ->
  reaches w (after_methods E opts minor major (pool cs) flags this super ifs fs ms).
Proof.
  intros (u & v & -> & Hm & (u' & v' & -> & Hn & Hf & Hd & Hr)). rewrite <- ii_eq in Hf.
  eapply (reach_step u (read_methods E (pool cs) opts (contains flags ACC_INTERFACE) major) (fun f => after_methods E opts minor major (pool cs) flags this super ifs fs f) _ ms (u' ++ v'));
    [apply reach_fields; exact Hm|apply reads_methods|]. split; [exact Hd|]. split; [exact Hr|]. apply cat_intro; auto.
Qed.
Lemma reach_attributes minor major cs flags this super ifs fs ms l w :
  (to_methods dec wraps opts (stack E) minor major cs flags this super ifs fs ms +++ u2 (count_of_list l) +++ many (A cs) l) w ->
  reaches w (after_attributes minor major (pool cs) flags this super ifs fs ms l).
Proof.
  intros (u & v & -> & Hm & Hl). apply attributes_lang_unfold in Hl; auto.
  eapply (reach_step u (pctx (lit "class") (read_attributes E (pool cs) opts (stack E))) (fun l => after_attributes minor major (pool cs) flags this super ifs fs ms l) _ l v);
    [apply reach_methods; exact Hm|apply reads_pctx, reads_attributes|exact Hl].
Qed.

(** ** A file that is not accepted has a fault *)
Notation faulty := (fault dec wraps opts (stack E)).
Definition found (bs : list byte) : Prop := exists p w rest, bs = w ++ rest /\ faulty p w rest.
Lemma found_attrs cs o w rest : owner_at dec wraps opts (stack E) cs o w -> attrs_fault E opts cs rest -> found (w ++ rest).
Proof.
  intros Ho [Hno|(n & l & u & v & -> & Hu & Hlt & Hno)].
  - exists (AtAttributeCount o), w, rest. split; auto. econstructor; eauto.
  - exists (AtAttribute o (count_of_list l)), (w ++ u), v. split; [rewrite app_assoc; reflexivity|]. eapply fault_attribute; eauto. apply cat_intro; auto.
Qed.
Lemma bad_attributes minor major cs flags this super ifs fs ms l w rest : fits E (w ++ rest) ->
  (to_methods dec wraps opts (stack E) minor major cs flags this super ifs fs ms +++ u2 (count_of_list l) +++ many (A cs) l) w ->
  ~ is_ok (after_attributes minor major (pool cs) flags this super ifs fs ms l (w ++ rest) (blen w)) -> found (w ++ rest).
Proof.
  intros Hf Hw Hbad. destruct rest as [|b rest].
  - exists AtRules, w, []. split; auto. eapply fault_rules; eauto. intro c. intros [Hm Hb]. apply Hbad. rewrite app_nil_r.
    unfold after_attributes. unfold bind at 1, get_bytes at 1. unfold bind at 1, get_ix at 1. rewrite N.eqb_refl. cbn [guard]. rewrite bind_ret.
    assert (Hc : check_module_contents (contains flags ACC_MODULE) super ifs fs ms w (blen w) = Ok (tt, blen w)).
    { apply (reads_module_contents E); [rewrite app_nil_r in Hf; auto|lia|]. exists w, [], []. rewrite !app_nil_r. rewrite blen_nil, N.add_0_r. do 3 (split; [auto|]). split; [reflexivity|].
      rewrite mod_eq. intro Hf'. specialize (Hm Hf'). cbn in Hm. tauto. }
    unfold bind at 1. rewrite Hc. unfold bind at 1, lift at 1.
    apply (bootstrap_rules_iff E cs c eq_refl) in Hb. cbn [class_attributes c] in Hb. rewrite Hb. exact I.
  - exists AtEnd, w, (b :: rest). split; auto. destruct Hw as (u & v & -> & Hm & Hl). eapply (fault_end _ _ _ _ cs l); [|discriminate]. apply cat_intro; auto. econstructor. exact Hm.
Qed.
Lemma bad_methods minor major cs flags this super ifs fs ms w rest : fits E (w ++ rest) ->
  to_methods dec wraps opts (stack E) minor major cs flags this super ifs fs ms w ->
  ~ is_ok (after_methods E opts minor major (pool cs) flags this super ifs fs ms (w ++ rest) (blen w)) -> found (w ++ rest).
Proof.
  intros Hf Hw Hbad. apply (step_bad E _ _ _ _ _ (reads_pctx _ _ _ _ (reads_attributes E cs opts (stack E)))) in Hbad; auto.
  destruct Hbad as [[Hbad _]|(a & u & v & -> & Ha & _ & Hbad)].
  - apply (attrs_bad E Hstk) in Hbad; auto. apply (found_attrs cs OfClass); [eapply owner_class; exact Hw|exact Hbad].
  - rewrite app_assoc. apply attributes_lang_unfold in Ha; auto. eapply bad_attributes; eauto; [rewrite <- app_assoc; exact Hf|]. apply cat_intro; auto.
Qed.
Lemma bad_fields minor major cs flags this super ifs fs w rest : fits E (w ++ rest) ->
  to_fields dec wraps opts (stack E) minor major cs flags this super ifs fs w ->
  ~ is_ok (after_fields E opts minor major (pool cs) flags this super ifs fs (w ++ rest) (blen w)) -> found (w ++ rest).
Proof.
  intros Hf Hw Hbad. unfold after_fields in Hbad. rewrite ii_eq in Hbad. set (ii := N.testbit flags ACC_INTERFACE_bit) in *.
  apply (step_bad E _ _ _ _ _ (reads_methods E cs opts ii major)) in Hbad; auto.
  destruct Hbad as [[Hbad _]|(ms & u & v & -> & (Hd & Hr & u1 & u2' & -> & Hn & Ha) & _ & Hbad)].
  2:{ rewrite app_assoc. eapply bad_methods; eauto; [rewrite <- app_assoc; exact Hf|]. apply cat_intro; auto. apply cat_intro; auto. split; auto. }
  unfold read_methods in Hbad. apply (step_bad E _ _ _ _ _ (reads_u2 E)) in Hbad; auto. destruct Hbad as [[_ Hbad]|(n & u & v & -> & Hn & _ & Hbad)].
  { exists AtMethodCount, w, rest. split; auto. econstructor; eauto. }
  apply (members_bad E Hstk opts _ _ _ cs method_id (fun h => (snd (fst h), snd h)) method_of (fun _ _ => eq_refl) _ (method_head_parser (pool cs) ii major)
    (reads_method_head E Hstk cs ii major) (fun i => lit "class method " ++ show_N i) _ (methods_loop_unfold E opts (pool cs) ii major) (fun _ _ _ _ => eq_refl) _ 0 [] []) in Hbad;
    [|intro; tauto|rewrite <- app_assoc; exact Hf].
  destruct Hbad as (gs & u' & v' & -> & Hgs & Hlen & Hbad). cbn [app] in Hbad.
  apply members_methods in Hgs; [|constructor|constructor]. destruct Hgs as (Hgs & Hd & Hr). cbn [app] in Hd, Hr.
  assert (Hlt : count_of_list gs < n) by (unfold count_of_list; lia).
  destruct Hbad as [Hbad|(h & w1 & w2 & -> & Hh & Hbad)].
  - exists (AtHead (OfMethod (count_of_list gs))), (w ++ u ++ u'), v'. split; [rewrite <- !app_assoc; reflexivity|].
    eapply fault_method; eauto. apply cat_intro; eauto. apply cat_intro; auto. split; auto.
  - replace (w ++ u ++ u' ++ w1 ++ w2) with ((w ++ u ++ u' ++ w1) ++ w2) by (rewrite <- !app_assoc; reflexivity).
    eapply (found_attrs cs (OfMethod (count_of_list gs))); [|exact Hbad]. econstructor; eauto.
    apply cat_intro; eauto. apply cat_intro; auto. apply cat_intro; eauto. split; auto.
Qed.
Lemma bad_interfaces minor major cs flags this super ifs w rest : fits E (w ++ rest) ->
  to_interfaces dec wraps minor major cs flags this super ifs w ->
  ~ is_ok (after_interfaces E opts minor major (pool cs) flags this super ifs (w ++ rest) (blen w)) -> found (w ++ rest).
Proof.
  intros Hf Hw Hbad. apply (step_bad E _ _ _ _ _ (reads_fields E cs opts)) in Hbad; auto.
  destruct Hbad as [[Hbad _]|(fs & u & v & -> & (Hd & u1 & u2' & -> & Hn & Ha) & _ & Hbad)].
  2:{ rewrite app_assoc. eapply bad_fields; eauto; [rewrite <- app_assoc; exact Hf|]. apply cat_intro; auto. apply cat_intro; auto. split; auto. }
  unfold read_fields in Hbad. apply (step_bad E _ _ _ _ _ (reads_u2 E)) in Hbad; auto. destruct Hbad as [[_ Hbad]|(n & u & v & -> & Hn & _ & Hbad)].
  { exists AtFieldCount, w, rest. split; auto. econstructor; eauto. }
  apply (members_bad E Hstk opts _ _ _ cs field_id (fun h => (snd (fst h), snd h)) field_of (fun _ _ => eq_refl) _ (field_head_parser (pool cs))
    (reads_field_head E cs) (fun i => lit "class field " ++ show_N i) _ (fields_loop_unfold E opts (pool cs)) (fun _ _ _ _ => eq_refl) _ 0 [] []) in Hbad;
    [|intro; tauto|rewrite <- app_assoc; exact Hf].
  destruct Hbad as (gs & u' & v' & -> & Hgs & Hlen & Hbad). cbn [app] in Hbad.
  apply members_fields in Hgs; [|constructor]. destruct Hgs as (Hgs & Hd). cbn [app] in Hd.
  assert (Hlt : count_of_list gs < n) by (unfold count_of_list; lia).
  destruct Hbad as [Hbad|(h & w1 & w2 & -> & Hh & Hbad)].
  - exists (AtHead (OfField (count_of_list gs))), (w ++ u ++ u'), v'. split; [rewrite <- !app_assoc; reflexivity|].
    eapply fault_field; eauto. apply cat_intro; eauto. apply cat_intro; auto. split; auto.
  - replace (w ++ u ++ u' ++ w1 ++ w2) with ((w ++ u ++ u' ++ w1) ++ w2) by (rewrite <- !app_assoc; reflexivity).
    eapply (found_attrs cs (OfField (count_of_list gs))); [|exact Hbad]. econstructor; eauto.
    apply cat_intro; eauto. apply cat_intro; auto. apply cat_intro; eauto. split; auto.
Qed.
Lemma bad_super minor major cs flags this super w rest : fits E (w ++ rest) ->
  to_super dec wraps minor major cs flags this super w ->
  ~ is_ok (after_super E opts minor major (pool cs) flags this super (w ++ rest) (blen w)) -> found (w ++ rest).
Proof.
  intros Hf Hw Hbad. pose proof (super_valid _ _ _ _ _ _ _ Hw) as Hval. apply (step_bad E _ _ _ _ _ (reads_interfaces E cs major Hval)) in Hbad; auto.
  destruct Hbad as [[Hbad _]|(ifs & u & v & -> & Ha & _ & Hbad)].
  2:{ rewrite app_assoc. eapply bad_interfaces; eauto; [rewrite <- app_assoc; exact Hf|]. apply cat_intro; auto. }
  unfold read_interfaces in Hbad. apply (step_bad E _ _ _ _ _ (reads_u2 E)) in Hbad; auto. destruct Hbad as [[_ Hbad]|(n & u & v & -> & Hn & _ & Hbad)].
  { exists AtInterfaceCount, w, rest. split; auto. econstructor; eauto. }
  unfold for_n in Hbad. apply (for_from_bad E (class_ref dec cs)) in Hbad; [|intro; apply (reads_class_name E cs major Hval)|rewrite <- app_assoc; exact Hf].
  destruct Hbad as (l & u' & v' & -> & Hl & Hlen & Hbad).
  apply (reads_not_ok E _ _ ((w ++ u) ++ u') v' (reads_class_name E cs major Hval _)) in Hbad; [|rewrite <- !app_assoc; exact Hf].
  exists (AtInterface (count_of_list l)), (w ++ u ++ u'), v'. split; [rewrite <- !app_assoc; reflexivity|].
  eapply fault_interface; eauto; [apply cat_intro; eauto; apply cat_intro; eauto|unfold count_of_list; lia].
Qed.
Lemma bad_flags minor major cs flags w rest : fits E (w ++ rest) -> to_flags dec wraps minor major cs flags w ->
  ~ is_ok (after_flags E opts minor major (pool cs) flags (w ++ rest) (blen w)) -> found (w ++ rest).
Proof.
  intros Hf Hw Hbad. pose proof (flags_valid _ _ _ _ _ Hw) as Hval. apply (step_bad E _ _ _ _ _ (reads_this_class E cs major Hval)) in Hbad; auto.
  destruct Hbad as [[_ Hbad]|(this & u & v & -> & Ha & _ & Hbad)]; [exists AtThisClass, w, rest; split; auto; econstructor; eauto|].
  apply (step_bad E _ _ _ _ _ (reads_super_class E cs major Hval)) in Hbad; [|rewrite <- app_assoc; exact Hf].
  assert (Hw' : (to_flags dec wraps minor major cs flags +++ class_ref dec cs this) (w ++ u)) by (apply cat_intro; auto).
  destruct Hbad as [[_ Hbad]|(super & u' & v' & -> & Ha' & _ & Hbad)]; [exists AtSuperClass, (w ++ u), v; split; [rewrite app_assoc; auto|]; econstructor; eauto|].
  rewrite !app_assoc in *. eapply bad_super; eauto. apply cat_intro; auto.
Qed.
Lemma bad_class bs : fits E bs -> ~ is_ok (class_parser E opts bs 0) -> found bs.
Proof.
  intros Hf Hbad. rewrite class_parser_unfold in Hbad; auto. change bs with ([] ++ bs) in *. apply (step_bad E _ _ _ [] bs (reads_magic_parser E)) in Hbad; auto.
  destruct Hbad as [[_ Hbad]|([] & u & v & Heq & Ha & _ & Hbad)].
  { exists AtMagic, [], bs. split; auto. constructor. intro Hm. apply Hbad. exists tt. exact Hm. }
  cbn [app] in *. subst bs. apply (step_bad E _ _ _ _ _ (reads_versions_parser E)) in Hbad; auto.
  destruct Hbad as [[_ Hbad]|([minor major] & u' & v' & -> & Hv & _ & Hbad)].
  { exists AtVersions, u, v. split; auto. constructor; auto. intros (minor & major & Hm). apply Hbad. exists (minor, major). exact Hm. }
  assert (Hw : (magic +++ u2 minor +++ u2 major) (u ++ u')) by (apply cat_intro; auto). cbn [fst snd] in Hbad.
  apply (step_bad E _ _ _ _ _ (reads_constant_pool E Hstk major)) in Hbad; [|rewrite <- app_assoc; exact Hf].
  destruct Hbad as [[Hbad _]|(p & u2' & v2 & -> & (cs & -> & Hp) & _ & Hbad)].
  { rewrite app_assoc in Hf |- *. apply (pool_bad E Hstk) in Hbad; auto. destruct Hbad as [Hno|(n & cs & x & y & -> & Hx & [(i & Hd & Hno)|[Hfl Hno]])].
    - exists AtPoolCount, (u ++ u'), v'. split; auto. econstructor; eauto.
    - exists (AtConstant i), ((u ++ u') ++ x), y. split; [rewrite app_assoc; reflexivity|]. eapply fault_constant; eauto. apply cat_intro; eauto.
    - exists AtConstants, ((u ++ u') ++ x), y. split; [rewrite app_assoc; reflexivity|]. eapply fault_constants; eauto. apply cat_intro; eauto. }
  assert (Hw' : opening dec wraps minor major cs ((u ++ u') ++ u2')) by (apply cat_intro; auto).
  apply (step_bad E _ _ _ _ _ (reads_flags_parser E Hstk major)) in Hbad; [|rewrite <- !app_assoc; exact Hf].
  rewrite !app_assoc in *. destruct Hbad as [[_ Hbad]|(flags & u3 & v3 & -> & Hfl & _ & Hbad)].
  { exists AtFlags, ((u ++ u') ++ u2'), v2. split; auto. econstructor; eauto. }
  rewrite app_assoc in *. eapply bad_flags; eauto. apply cat_intro; auto.
Qed.
(** ** A fault is not accepted, and the error tells of it *)
(** The parser stops at the step [p]. *)
Definition stops_as {X} (w rest : list byte) (r : outcome X) : Prop := fails_as (class_parser E opts (w ++ rest) 0) r.
Definition told {X} (r : outcome X) (says : str -> Prop) : Prop := ~ is_ok r /\ forall e, r = Err e -> says (display_err e).
Lemma told_stops {X Y} (r : outcome X) (r' : outcome Y) says : fails_as r r' -> told r' says -> told r says.
Proof. intros Has [Hno Ht]. split; [eapply fails_as_not_ok; eauto|]. intros e He. apply Ht. eapply fails_as_err; eauto. Qed.
Lemma told_more {X} (r : outcome X) (P Q : str -> Prop) : told r P -> (forall t, P t -> Q t) -> told r Q.
Proof. intros [H1 H2] H. split; auto. Qed.
Lemma stuck {X} w rest (p : parser X) k L (says : str -> Prop) : reaches w (bind p k) -> fits E (w ++ rest) -> reads E p L -> ~ (exists a, starts_with (L a) rest) ->
  (forall e, p (w ++ rest) (blen w) = Err e -> says (display_err e)) -> told (class_parser E opts (w ++ rest) 0) says.
Proof.
  intros Hr Hf Hp Hno Hs. rewrite (Hr rest Hf). eapply told_stops; [apply bind_fails_as|]. split; auto. apply (reads_not_ok E p L w rest Hp Hf). exact Hno.
Qed.
Lemma stuck_as {X Y} w rest (p : parser X) k (r : outcome Y) (says : str -> Prop) : reaches w (bind p k) -> fits E (w ++ rest) ->
  fails_as (p (w ++ rest) (blen w)) r -> told r says -> told (class_parser E opts (w ++ rest) 0) says.
Proof. intros Hr Hf Has Ht. rewrite (Hr rest Hf). eapply told_stops; [|exact Ht]. eapply fails_as_trans; [apply bind_fails_as|exact Has]. Qed.

(** *** Texts of the steps *)
Lemma says_ctx {X} c t (p : parser X) bs ix e : pctx (t ++ c) p bs ix = Err e -> ends_with (display_err e) c.
Proof. intro H. apply pctx_bad in H. destruct H as (e' & _ & ->). rewrite display_ctx. eexists. rewrite !app_assoc. reflexivity. Qed.
Lemma bind_err {X Y} (p : parser X) (k : X -> parser Y) bs ix e : bind p k bs ix = Err e -> p bs ix = Err e \/ exists a ix', p bs ix = Ok (a, ix') /\ k a bs ix' = Err e.
Proof. unfold bind. destruct (p bs ix) as [[a ix']| | |]; intro H; try discriminate; [right; exists a, ix'; auto|left; congruence]. Qed.
Lemma guard_err b t bs ix e : guard b t bs ix = Err e -> display_err e = t.
Proof. unfold guard. destruct b; [discriminate|]. intros [= <-]. apply display_new. Qed.
Lemma cut2_text bs ix e : read_u2 bs ix = Err e -> cut_short (display_err e) ix.
Proof. intro H. apply cut2 in H. destruct H as (t & -> & H). rewrite display_new. exact H. Qed.
Lemma magic_says bs ix e : magic_parser bs ix = Err e -> cut_short (display_err e) ix \/ display_err e = lit "Unexpected magic header".
Proof.
  intro H. apply bind_err in H. destruct H as [H|(a & ix' & _ & H)]; [left|right; eapply guard_err; eauto].
  apply cut4 in H. destruct H as (t & -> & H). rewrite display_new. exact H.
Qed.
Lemma versions_says bs ix e : versions_parser bs ix = Err e -> cut_short (display_err e) ix \/ cut_short (display_err e) (ix + 2).
Proof.
  intro H. apply bind_err in H. destruct H as [H|(a & ix' & H1 & H)]; [left; apply (cut2_text bs); auto|]. apply u2_Ok_ix in H1. subst ix'.
  apply bind_err in H. destruct H as [H|(a' & ix' & H1 & H)]; [right; apply (cut2_text bs); auto|discriminate].
Qed.
Lemma flags_says major bs ix e : flags_parser major bs ix = Err e -> cut_short (display_err e) ix
  \/ exists tail, display_err e = lit "Found invalid MODULE class access flag on class file of major version " ++ tail
      \/ display_err e = lit "Found invalid class access flags " ++ tail ++ lit "; no other flags should be set with MODULE".
Proof.
  intro H. apply bind_err in H. destruct H as [H|(a & ix' & H1 & H)]; [left; apply (cut2_text bs); auto|right].
  cbv zeta in H. apply bind_err in H. destruct H as [H|(a' & ix2 & H2 & H)]; [|discriminate]. unfold check_module_flags in H.
  destruct (contains _ ACC_MODULE); [|discriminate]. apply bind_err in H. destruct H as [H|(a' & ix2 & H2 & H)]; apply guard_err in H; eauto.
Qed.
(** Messages of a field descriptor *)
Definition desc_err {X} (r : outcome X) : Prop := forall e, r = Err e -> exists m, In m descriptor_messages /\ display_err e = lit m.
Lemma de_fail {X} m : In m descriptor_messages -> desc_err (fail (lit m) : outcome X).
Proof. intros H e [= <-]. exists m. split; auto. apply display_new. Qed.
Lemma de_bind {X Y} (r : outcome X) (k : X -> outcome Y) : desc_err r -> (forall a, desc_err (k a)) -> desc_err (obind r k).
Proof. intros Hr Hk e. destruct r; cbn [obind]; try discriminate; [apply Hk|]. intros [= <-]. apply Hr. reflexivity. Qed.
Lemma de_ok {X} (a : X) : desc_err (Ok a). Proof. intros e. discriminate. Qed.
Lemma de_panic {X} x : desc_err (Panic x : outcome X). Proof. intros e. discriminate. Qed.
Lemma de_diverge {X} : desc_err (Diverge : outcome X). Proof. intros e. discriminate. Qed.
Lemma de_from : forall s i, desc_err (str_from s i).
Proof. induction s as [|c s IH]; intro i; cbn [str_from]; destruct (i =? 0); try apply de_ok; try apply de_panic. destruct (_ <=? i); [apply IH|apply de_panic]. Qed.
Lemma de_to : forall s i, desc_err (str_to s i).
Proof.
  induction s as [|c s IH]; intro i; cbn [str_to]; destruct (i =? 0); try apply de_ok; try apply de_panic.
  destruct (_ <=? i); [apply de_bind; [apply IH|intro; apply de_ok]|apply de_panic].
Qed.
Lemma de_slice s i j : desc_err (str_slice s i j).
Proof. unfold str_slice. destruct (j <? i); [apply de_panic|]. apply de_bind; [apply de_from|intro; apply de_to]. Qed.
Ltac in_messages := apply de_fail; cbn; tauto.
Lemma de_segment data : forall rest ix, desc_err (segment_loop data rest ix).
Proof.
  induction rest as [|c rest IH]; intro ix; cbn [segment_loop]; [apply de_ok|].
  repeat match goal with |- context [if ?b then _ else _] => destruct b end; auto; try in_messages. apply de_bind; [apply de_slice|intro; apply de_ok].
Qed.
Lemma de_class fuel : forall data i j, desc_err (class_descriptor_loop fuel data i j).
Proof.
  induction fuel as [|fuel IH]; intros data i j; cbn [class_descriptor_loop]; [apply de_diverge|]. apply de_bind; [apply de_from|]. intro r. apply de_bind; [apply de_segment|].
  intros [seg [c|]]; [|in_messages]. repeat match goal with |- context [if ?b then _ else _] => destruct b end; auto; [apply de_slice|apply de_panic].
Qed.
Lemma de_field data index : forall chars dims, desc_err (field_descriptor_loop data index chars dims).
Proof.
  induction chars as [|c chars IH]; intro dims; cbn [field_descriptor_loop]; [in_messages|]. cbv zeta.
  destruct (c =? ch "["); [destruct (255 <? dims + 1); [in_messages|apply IH]|]. apply de_bind; [|intro; apply de_ok].
  repeat match goal with |- context [if ?b then _ else _] => destruct b end; try apply de_ok; [apply de_bind; [apply de_class|intro; apply de_ok]|in_messages].
Qed.
Lemma field_head_says p i seen bs ix e : field_head_parser p i seen bs ix = Err e -> let text := display_err e in
  cut_short text ix \/ ends_with text (lit " class field " ++ show_N i)
  \/ text = lit "Class field " ++ show_N i ++ lit " is duplicate of previously-encountered field"
  \/ exists m, In m descriptor_messages /\ text = lit m.
Proof.
  intros H text. apply bind_err in H. destruct H as [H|(fl & ix1 & _ & H)]; [left; apply (cut2_text bs); auto|right].
  apply bind_err in H. destruct H as [H|(name & ix2 & _ & H)]; [left; eapply (says_ctx _ (lit "name of")); exact H|].
  apply bind_err in H. destruct H as [H|([] & ix3 & _ & H)]; [left; apply guard_err in H; exists (lit "Invalid unqualified name for"); exact H|].
  apply bind_err in H. destruct H as [H|(d & ix4 & _ & H)]; [left; eapply (says_ctx _ (lit "descriptor of")); exact H|right].
  apply bind_err in H. destruct H as [H|(fd & ix5 & _ & H)]; [right|].
  - unfold lift in H. destruct (parse_field_descriptor d 0) as [| | |] eqn:Hd; try discriminate. injection H as ->. revert Hd. unfold parse_field_descriptor.
    apply (de_bind (str_from d 0) (fun chars => field_descriptor_loop d 0 chars 0)); [apply de_from|intro; apply de_field].
  - apply bind_err in H. destruct H as [H|([] & ix6 & _ & H)]; [left; apply guard_err in H; exact H|discriminate].
Qed.
Lemma method_head_says p ii major i seen bs ix e : method_head_parser p ii major i seen bs ix = Err e -> let text := display_err e in
  cut_short text ix \/ ends_with text (lit " class method " ++ show_N i)
  \/ ends_with text (lit " init method " ++ show_N i) \/ ends_with text (lit " clinit method " ++ show_N i)
  \/ text = lit "Class method " ++ show_N i ++ lit " is duplicate of previously-encountered method".
Proof.
  intros H text. apply bind_err in H. destruct H as [H|(fl & ix1 & _ & H)]; [left; apply (cut2_text bs); auto|right].
  apply bind_err in H. destruct H as [H|(name & ix2 & _ & H)]; [left; eapply (says_ctx _ (lit "name of")); exact H|].
  cbv zeta in H. apply bind_err in H. destruct H as [H|([] & ix3 & _ & H)]; [left; apply guard_err in H; exists (lit "Invalid unqualified name for"); exact H|].
  apply bind_err in H. destruct H as [H|(d & ix4 & _ & H)]; [left; eapply (says_ctx _ (lit "descriptor of")); exact H|right].
  apply bind_err in H. destruct H as [H|([] & ix5 & _ & H)]; [left; apply guard_err in H; exists (lit "Non-void method descriptor for"); exact H|right].
  apply bind_err in H. destruct H as [H|([] & ix6 & _ & H)]; [left; apply guard_err in H; exists (lit "Non-void method descriptor for"); exact H|].
  apply bind_err in H. destruct H as [H|([] & ix7 & _ & H)]; [left; apply guard_err in H; exists (lit "Arguments found in descriptor for"); exact H|right].
  apply bind_err in H. destruct H as [H|([] & ix8 & _ & H)]; [apply guard_err in H; exact H|discriminate].
Qed.
Lemma found_says x attrs : forall n e, bootstrap_found x attrs n = Err e -> display_err e = lit "Constant pool item contained invalid index into BootstrapMethods class attribute".
Proof.
  induction attrs as [|a attrs IH]; intros n e H; cbn [bootstrap_found] in H; [discriminate|]. destruct (attr_dat a); eauto.
  destruct (_ <=? x); eauto. injection H as <-. apply display_new.
Qed.
Lemma bootstrap_says es attrs e : validate_bootstrap_methods es attrs = Err e ->
  display_err e = lit "Constant pool item contained invalid index into BootstrapMethods class attribute"
  \/ exists n, n <> 1 /\ display_err e = lit "Found unexpected number of BootstrapMethods attributes in class; found " ++ show_N n ++ lit ", expected 1".
Proof.
  induction es as [|x es IH]; cbn [validate_bootstrap_methods]; [discriminate|].
  assert (Hx : forall y, (let* found := bootstrap_found y attrs 0 in if negb (found =? 1) then fail (lit "Found unexpected number of BootstrapMethods attributes in class; found "
                  ++ show_N found ++ lit ", expected 1") else validate_bootstrap_methods es attrs) = Err e ->
    display_err e = lit "Constant pool item contained invalid index into BootstrapMethods class attribute"
    \/ exists n, n <> 1 /\ display_err e = lit "Found unexpected number of BootstrapMethods attributes in class; found " ++ show_N n ++ lit ", expected 1").
  { intro y. destruct (bootstrap_found y attrs 0) as [n|e'| |] eqn:Hb; cbn [obind]; try discriminate.
    - destruct (N.eqb_spec n 1); cbn [negb]; auto. intros [= <-]. right. exists n. split; auto. apply display_new.
    - intros [= <-]. left. eapply found_says; eauto. }
  destruct x; auto; apply Hx.
Qed.

(** *** Each place *)
Notation P_ o := (owner_at dec wraps opts (stack E) o).
Lemma stop_attributes cs o w : owner_at dec wraps opts (stack E) cs o w -> forall rest, fits E (w ++ rest) ->
  fails_as (class_parser E opts (w ++ rest) 0) (pctx (owner_label o) (read_attributes E (pool cs) opts (stack E)) (w ++ rest) (blen w)).
Proof.
  intros Ho rest Hf. destruct Ho as [minor major flags this super ifs n fs head i -> Hlt w (w0 & w1 & -> & H0 & u & u' & -> & Hn & u1 & u2' & -> & [Hfs Hd] & Hh)
    |minor major flags this super ifs fs n ms head i -> Hlt w (w0 & w1 & -> & H0 & u & u' & -> & Hn & u1 & u2' & -> & (Hms & Hd & Hr) & Hh)|minor major flags this super ifs fs ms w H0].
  - replace ((w0 ++ u ++ u1 ++ u2') ++ rest) with (w0 ++ u ++ u1 ++ u2' ++ rest) in * by (rewrite <- !app_assoc; reflexivity).
    rewrite (reach_interfaces _ _ _ _ _ _ _ _ H0 _ Hf). eapply fails_as_trans; [apply bind_fails_as|]. unfold read_fields. rewrite (step_ok E _ _ u2 w0 n u _ (reads_u2 E)); auto.
    assert (Hm : field_members E opts cs [] fs u1) by (apply members_fields; [constructor|split; auto]).
    pose proof (attrs_fails_as E Hstk opts _ _ _ cs field_id (fun h => (snd (fst h), snd h)) field_of (fun _ _ => eq_refl) _ (field_head_parser (pool cs))
      (reads_field_head E cs) (fun i => lit "class field " ++ show_N i) _ (fields_loop_unfold E opts (pool cs)) (fun _ _ _ _ => eq_refl) fs u1 (N.to_nat n) head u2' rest (w0 ++ u) Hm) as Has.
    replace (w0 ++ u ++ u1 ++ u2' ++ rest) with ((w0 ++ u) ++ u1 ++ u2' ++ rest) in * by (rewrite <- !app_assoc; reflexivity).
    replace ((w0 ++ u) ++ u1 ++ u2' ++ rest) with (((w0 ++ u) ++ u1 ++ u2') ++ rest) in * by (rewrite <- !app_assoc; reflexivity).
    replace (w0 ++ u ++ u1 ++ u2') with ((w0 ++ u) ++ u1 ++ u2') by (rewrite <- !app_assoc; reflexivity).
    apply Has; auto. unfold count_of_list in Hlt. lia.
  - replace ((w0 ++ u ++ u1 ++ u2') ++ rest) with (w0 ++ u ++ u1 ++ u2' ++ rest) in * by (rewrite <- !app_assoc; reflexivity).
    rewrite (reach_fields _ _ _ _ _ _ _ _ _ H0 _ Hf). eapply fails_as_trans; [apply bind_fails_as|]. unfold read_methods. rewrite (step_ok E _ _ u2 w0 n u _ (reads_u2 E)); auto.
    rewrite ii_eq. set (ii := N.testbit flags ACC_INTERFACE_bit) in *.
    assert (Hm : method_members E opts cs major ii [] ms u1) by (apply members_methods; [constructor|constructor|split; auto]).
    pose proof (attrs_fails_as E Hstk opts _ _ _ cs method_id (fun h => (snd (fst h), snd h)) method_of (fun _ _ => eq_refl) _ (method_head_parser (pool cs) ii major)
      (reads_method_head E Hstk cs ii major) (fun i => lit "class method " ++ show_N i) _ (methods_loop_unfold E opts (pool cs) ii major) (fun _ _ _ _ => eq_refl) ms u1 (N.to_nat n) head u2' rest (w0 ++ u) Hm) as Has.
    replace (w0 ++ u ++ u1 ++ u2' ++ rest) with ((w0 ++ u) ++ u1 ++ u2' ++ rest) in * by (rewrite <- !app_assoc; reflexivity).
    replace ((w0 ++ u) ++ u1 ++ u2' ++ rest) with (((w0 ++ u) ++ u1 ++ u2') ++ rest) in * by (rewrite <- !app_assoc; reflexivity).
    replace (w0 ++ u ++ u1 ++ u2') with ((w0 ++ u) ++ u1 ++ u2') by (rewrite <- !app_assoc; reflexivity).
    apply Has; auto. unfold count_of_list in Hlt. lia.
  - rewrite (reach_methods _ _ _ _ _ _ _ _ _ _ H0 _ Hf). apply bind_fails_as.
Qed.
Lemma fault_told p w rest : fits E (w ++ rest) -> faulty p w rest -> told (class_parser E opts (w ++ rest) 0) (reports p (blen w)).
Proof.
  intros Hf H. destruct H as [rest Hno|w rest Hw Hno|minor major w rest Hw Hno|minor major n cs i w rest Hw Hd Hno|minor major n cs w rest Hw Hfl Hno|minor major cs w rest Hw Hno|minor major cs flags w rest Hw Hno|minor major cs flags this w rest Hw Hno
    |minor major cs flags this super w rest Hw Hno|minor major cs flags this super n ifs i w rest Hw Hi Hlt Hno|minor major cs flags this super ifs w rest Hw Hno
    |minor major cs flags this super ifs n fs i w rest Hw Hi Hlt Hno|minor major cs flags this super ifs fs w rest Hw Hno|minor major cs flags this super ifs fs n ms i w rest Hw Hi Hlt Hno
    |cs o w rest Hw Hno|cs o n l j w rest Hw Hj Hlt Hno|cs l w rest Hw Hne|minor major cs flags this super ifs fs ms l w Hw Hno]; cbn [reports].
  - eapply (stuck [] rest magic_parser (fun _ => after_magic E opts)); [intros v _; apply class_parser_unfold; auto|auto|apply reads_magic_parser| |].
    + intros (_ & Hm). apply Hno. exact Hm.
    + intros e He. apply magic_says in He. exact He.
  - assert (blen w = 4) by (destruct Hw as [Hl _]; unfold blen; lia).
    eapply (stuck w rest versions_parser); [apply reach_magic; exact Hw|auto|apply reads_versions_parser| |].
    + intros ([minor major] & Hm). apply Hno. exists minor, major. exact Hm.
    + intros e He. apply versions_says in He. rewrite H in He. exact He.
  - eapply (stuck_as w rest (read_constant_pool E major)); [apply reach_versions; exact Hw|auto|apply bind_fails_as|]. split; [apply (reads_not_ok E _ u2 w rest (reads_u2 E)); auto|]. apply cut2_text.
  - destruct Hw as (w0 & w1 & -> & H0 & Hu). rewrite <- app_assoc in *.
    eapply (stuck_as w0 (w1 ++ rest) (read_constant_pool E major)); [apply reach_versions; exact H0|auto|apply fails_as_refl|]. exact (constant_told E Hstk major w0 n cs w1 rest i Hf Hu Hd Hno).
  - destruct Hw as (w0 & w1 & -> & H0 & Hu). rewrite <- app_assoc in *.
    eapply (stuck_as w0 (w1 ++ rest) (read_constant_pool E major)); [apply reach_versions; exact H0|auto|apply fails_as_refl|]. exact (constants_told E Hstk major w0 n cs w1 rest Hf Hu Hfl Hno).
  - eapply (stuck w rest (flags_parser major)); [apply reach_pool; exact Hw|auto|apply reads_flags_parser; auto|exact Hno|].
    intros e He. apply flags_says in He. exact He.
  - eapply (stuck w rest (read_this_class (pool cs))); [apply reach_flags; exact Hw|auto|apply (reads_this_class E cs major); eapply flags_valid; exact Hw|exact Hno|].
    intros e He. apply pctx_bad in He. destruct He as (e' & _ & ->). rewrite display_ctx. destruct (contexts e'); [exists (display_err e' ++ lit " for")|exists (display_err e' ++ lit " of")]; rewrite <- !app_assoc; reflexivity.
  - eapply (stuck w rest (read_super_class (pool cs))); [apply reach_this; exact Hw|auto|apply (reads_super_class E cs major)|exact Hno|].
    + destruct Hw as (u & v & -> & Hw & _). eapply flags_valid; exact Hw.
    + intros e He. apply pctx_bad in He. destruct He as (e' & _ & ->). rewrite display_ctx. destruct (contexts e'); [exists (display_err e' ++ lit " for")|exists (display_err e' ++ lit " of")]; rewrite <- !app_assoc; reflexivity.
  - eapply (stuck_as w rest (read_interfaces (pool cs))); [apply reach_super; exact Hw|auto|apply bind_fails_as|]. split; [apply (reads_not_ok E _ u2 w rest (reads_u2 E)); auto|]. apply cut2_text.
  - pose proof Hw as Hw'. destruct Hw' as (w0 & w1 & -> & H0 & u & u' & -> & Hn & Hl).
    replace ((w0 ++ u ++ u') ++ rest) with (w0 ++ u ++ u' ++ rest) in * by (rewrite <- !app_assoc; reflexivity).
    pose proof (super_valid _ _ _ _ _ _ _ H0) as Hval.
    eapply (stuck_as w0 (u ++ u' ++ rest) (read_interfaces (pool cs))); [apply reach_super; exact H0|auto| |].
    + unfold read_interfaces. rewrite (step_ok E _ _ u2 w0 n u _ (reads_u2 E)); auto. unfold for_n.
      apply (for_from_fails_as E (class_ref dec cs) _ (fun j => reads_class_name E cs major Hval _) ifs (N.to_nat n) 0 (w0 ++ u) u' rest); auto; [unfold count_of_list in Hi; lia|rewrite <- app_assoc; auto].
    + split.
      * apply (reads_not_ok E _ (class_ref dec cs) ((w0 ++ u) ++ u') rest (reads_class_name E cs major Hval _)); auto. rewrite <- !app_assoc. auto.
      * intros e He. apply pctx_bad in He. destruct He as (e' & _ & ->). rewrite display_ctx. subst i. rewrite N.add_0_l.
        destruct (contexts e'); [exists (display_err e' ++ lit " for")|exists (display_err e' ++ lit " of")]; rewrite <- !app_assoc; reflexivity.
  - eapply (stuck_as w rest (read_fields E (pool cs) opts)); [apply reach_interfaces; exact Hw|auto|apply bind_fails_as|]. split; [apply (reads_not_ok E _ u2 w rest (reads_u2 E)); auto|]. apply cut2_text.
  - destruct Hw as (w0 & w1 & -> & H0 & u & u1 & -> & Hn & Hfs & Hd).
    replace ((w0 ++ u ++ u1) ++ rest) with (w0 ++ u ++ u1 ++ rest) in * by (rewrite <- !app_assoc; reflexivity).
    assert (Hm : field_members E opts cs [] fs u1) by (apply members_fields; [constructor|split; auto]).
    destruct (head_fails_as E Hstk opts _ _ _ cs field_id (fun h => (snd (fst h), snd h)) field_of (fun _ _ => eq_refl) _ (field_head_parser (pool cs))
      (reads_field_head E cs) (fun i => lit "class field " ++ show_N i) _ (fields_loop_unfold E opts (pool cs)) (fun _ _ _ _ => eq_refl) fs u1 (N.to_nat n) rest (w0 ++ u) Hm) as (seen & Hseen & Has);
      [unfold count_of_list in Hi; lia|rewrite <- app_assoc; exact Hf|].
    eapply (stuck_as w0 (u ++ u1 ++ rest) (read_fields E (pool cs) opts)); [apply reach_interfaces; exact H0|auto| |].
    + unfold read_fields. rewrite (step_ok E _ _ u2 w0 n u _ (reads_u2 E)); auto. exact Has.
    + split.
      * apply (reads_not_ok E _ (field_head dec cs fs) ((w0 ++ u) ++ u1) rest (reads_field_head E cs _ _ _ Hseen)); auto. rewrite <- !app_assoc. auto.
      * intros e He. apply field_head_says in He. rewrite <- app_assoc in He. subst i. exact He.
  - eapply (stuck_as w rest (read_methods E (pool cs) opts (contains flags ACC_INTERFACE) major)); [apply reach_fields; exact Hw|auto|apply bind_fails_as|]. split; [apply (reads_not_ok E _ u2 w rest (reads_u2 E)); auto|]. apply cut2_text.
  - destruct Hw as (w0 & w1 & -> & H0 & u & u1 & -> & Hn & Hms & Hd & Hr).
    replace ((w0 ++ u ++ u1) ++ rest) with (w0 ++ u ++ u1 ++ rest) in * by (rewrite <- !app_assoc; reflexivity). set (ii := N.testbit flags ACC_INTERFACE_bit) in *.
    assert (Hm : method_members E opts cs major ii [] ms u1) by (apply members_methods; [constructor|constructor|split; auto]).
    destruct (head_fails_as E Hstk opts _ _ _ cs method_id (fun h => (snd (fst h), snd h)) method_of (fun _ _ => eq_refl) _ (method_head_parser (pool cs) ii major)
      (reads_method_head E Hstk cs ii major) (fun i => lit "class method " ++ show_N i) _ (methods_loop_unfold E opts (pool cs) ii major) (fun _ _ _ _ => eq_refl) ms u1 (N.to_nat n) rest (w0 ++ u) Hm) as (seen & Hseen & Has);
      [unfold count_of_list in Hi; lia|rewrite <- app_assoc; exact Hf|].
    eapply (stuck_as w0 (u ++ u1 ++ rest) (read_methods E (pool cs) opts (contains flags ACC_INTERFACE) major)); [apply reach_fields; exact H0|auto| |].
    + unfold read_methods. rewrite (step_ok E _ _ u2 w0 n u _ (reads_u2 E)); auto. rewrite ii_eq. exact Has.
    + split.
      * apply (reads_not_ok E _ (method_head dec cs major ii ms) ((w0 ++ u) ++ u1) rest (reads_method_head E Hstk cs _ _ _ _ _ Hseen)); auto. rewrite <- !app_assoc. auto.
      * intros e He. apply method_head_says in He. rewrite <- app_assoc in He. subst i. exact He.
  - eapply told_stops; [apply (stop_attributes cs o w Hw rest Hf)|]. apply (attrs_cut E Hstk opts cs (owner_label o) w rest Hf Hno).
  - destruct Hw as (w0 & w1 & -> & Ho & Hu). rewrite <- app_assoc in *. eapply told_stops; [apply (stop_attributes cs o w0 Ho (w1 ++ rest) Hf)|].
    destruct (attrs_at E Hstk opts cs (owner_label o) w0 w1 rest n l Hf Hu) as [H1 H2]; [subst j; auto|auto|]. split; [exact H1|]. intros e He. destruct (H2 e He) as (e' & -> & Hab).
    subst j. apply (about_display _ _ _ _ Hab).
  - destruct Hw as (w0 & w1 & -> & Ho & Hl). inversion Ho as [| |minor major flags this super ifs fs ms w H0]; subst.
    assert (Hw : (to_methods dec wraps opts (stack E) minor major cs flags this super ifs fs ms +++ u2 (count_of_list l) +++ many (A cs) l) (w0 ++ w1)) by (apply cat_intro; auto).
    rewrite (reach_attributes _ _ _ _ _ _ _ _ _ _ _ Hw rest Hf). unfold after_attributes. unfold bind at 1, get_bytes at 1. unfold bind at 1, get_ix at 1.
    eapply told_stops; [apply bind_fails_as|]. destruct (N.eqb_spec (blen (w0 ++ w1)) (blen ((w0 ++ w1) ++ rest))) as [He|_].
    + exfalso. rewrite (blen_app (w0 ++ w1) rest) in He. destruct rest; [congruence|]. unfold blen in He. cbn [length] in He. lia.
    + split; [cbn; auto|]. intros e He. apply guard_err in He. exact He.
  - rewrite app_nil_r in *. pose proof (reach_attributes _ _ _ _ _ _ _ _ _ _ _ Hw []) as Hr. rewrite app_nil_r in Hr. rewrite (Hr Hf). clear Hr.
    unfold after_attributes. unfold bind at 1, get_bytes at 1. unfold bind at 1, get_ix at 1. rewrite N.eqb_refl. cbn [guard]. rewrite bind_ret.
    assert (Hmf : N.testbit flags ACC_MODULE_bit = true -> 53 <= major /\ flags = 0x8000).
    { destruct Hw as (? & ? & _ & (? & ? & _ & (? & ? & _ & (? & ? & _ & (? & ? & _ & (? & ? & _ & (? & ? & _ & _ & [_ Hm]) & _) & _) & _) & _) & _) & _). exact Hm. }
    unfold bind at 1. destruct (check_module_contents (contains flags ACC_MODULE) super ifs fs ms w (blen w)) as [[[] ix]|e| |] eqn:Hc.
    + apply (reads_module_contents E) in Hc; auto; [|lia]. destruct Hc as (? & ? & ? & _ & _ & _ & -> & Hc). rewrite mod_eq in Hc.
      unfold bind at 1, lift at 1. destruct (validate_bootstrap_methods (pool cs) l) as [[]|e| |] eqn:Hb.
      * exfalso. apply Hno. split; [|apply (bootstrap_rules_iff E cs); [reflexivity|exact Hb]]. intro Hm. cbn in Hm |- *. destruct (Hmf Hm) as [? ?]. destruct (Hc Hm) as (? & ? & ? & ?). auto 10.
      * split; [cbn; auto|]. intros e' [= <-]. right; right. apply bootstrap_says in Hb. exact Hb.
      * split; [cbn; auto|]. discriminate.
      * split; [cbn; auto|]. discriminate.
    + split; [cbn; auto|]. intros e' [= <-]. unfold check_module_contents in Hc. destruct (contains flags ACC_MODULE); [|discriminate]. destruct super as [s|].
      * injection Hc as <-. left. rewrite display_new. exists (lit "Found non-empty super_class " ++ s). rewrite <- app_assoc. reflexivity.
      * right; left. apply bind_err in Hc. destruct Hc as [Hc|([] & ix1 & _ & Hc)].
        { apply guard_err in Hc. rewrite Hc. exists (lit "Found " ++ show_N (count_of ifs) ++ lit " interfaces"). rewrite <- !app_assoc. reflexivity. }
        apply bind_err in Hc. destruct Hc as [Hc|([] & ix2 & _ & Hc)].
        { apply guard_err in Hc. rewrite Hc. exists (lit "Found " ++ show_N (count_of fs) ++ lit " fields"). rewrite <- !app_assoc. reflexivity. }
        apply guard_err in Hc. rewrite Hc. exists (lit "Found " ++ show_N (count_of ms) ++ lit " methods"). rewrite <- !app_assoc. reflexivity.
    + split; [cbn; auto|]. discriminate.
    + split; [cbn; auto|]. discriminate.
Qed.
End WithEnv.

(** ** C53, first half: a file that is not accepted departs from the format at some place. *)
Theorem C53_fault E opts bs : sane E bs -> (forall c, parse_class_with_options E opts bs <> Ok c) ->
  exists p w rest, bs = w ++ rest /\ fault (cesu8 E) (wrapping E) opts (stack E) p w rest.
Proof.
  intros Hs Hbad. apply (bad_class E (sane_stack _ _ Hs) opts bs (sane_fits _ _ Hs)). intro Hok. unfold parse_class_with_options in Hbad.
  destruct (class_parser E opts bs 0) as [[c ix]| | |]; try contradiction. apply (Hbad c). reflexivity.
Qed.
(** ** C53, second half: a file with a fault is not accepted, and the error says where the fault is. *)
Theorem C53_told E opts p w rest : sane E (w ++ rest) -> fault (cesu8 E) (wrapping E) opts (stack E) p w rest ->
  (forall c, parse_class_with_options E opts (w ++ rest) <> Ok c)
  /\ forall e, parse_class_with_options E opts (w ++ rest) = Err e -> reports p (blen w) (display_err e).
Proof.
  intros Hs Hp. destruct (fault_told E (sane_stack _ _ Hs) opts p w rest (sane_fits _ _ Hs) Hp) as [Hno Ht]. unfold parse_class_with_options.
  destruct (class_parser E opts (w ++ rest) 0) as [[c ix]|e| |]; cbn [obind]; (split; [intro c'; try discriminate|intros e' He; try discriminate]).
  - contradiction Hno. exact I.
  - injection He as <-. apply Ht. reflexivity.
Qed.

(** C53: an error is about a place at which the file departs from the format, and says which. *)
Theorem C53_error E opts bs e : sane E bs -> parse_class_with_options E opts bs = Err e ->
  exists p w rest, bs = w ++ rest /\ fault (cesu8 E) (wrapping E) opts (stack E) p w rest /\ reports p (blen w) (display_err e).
Proof.
  intros Hs He. destruct (C53_fault E opts bs Hs) as (p & w & rest & -> & Hp); [intros c Hc; congruence|]. exists p, w, rest. split; auto. split; auto.
  exact (proj2 (C53_told E opts p w rest Hs Hp) e He).
Qed.

(** Example: the super class is index 1, a Utf8 constant. *)
Definition wrong_super : list byte := unhex "cafebabe0000003400030100014107000100210002000100000000000000".
Example C53_meets : sane debug64 wrong_super /\ wrong_super = firstn 21 wrong_super ++ skipn 21 wrong_super
  /\ fault (cesu8 debug64) (wrapping debug64) true (stack debug64) AtSuperClass (firstn 21 wrong_super) (skipn 21 wrong_super)
  /\ match parse_class debug64 wrong_super with Err e => display_err e = lit "Unexpected constant pool reference type for super_class" | _ => False end.
Proof.
  split; [apply ampleb_ample; vm_compute; reflexivity|]. split; [vm_compute; reflexivity|]. split; [|vm_compute; reflexivity].
  assert (Hw : firstn 21 wrong_super = (((unhex "cafebabe" ++ unhex "0000" ++ unhex "0034") ++ unhex "0003" ++ unhex "01000141" ++ unhex "070001" ++ []) ++ unhex "0021") ++ unhex "0002")
    by (vm_compute; reflexivity).
  assert (Hr : skipn 21 wrong_super = [x00; x01; x00; x00; x00; x00; x00; x00; x00]) by (vm_compute; reflexivity). rewrite Hw, Hr. clear Hw Hr.
  apply (fault_super _ _ _ _ 0 52 [CUtf8 [x41]; CClass 1] 0x21 (lit "A")).
  - apply cat_intro.
    + apply cat_intro.
      * apply cat_intro; [apply cat_intro; [split; vm_compute; reflexivity|apply cat_intro; split; vm_compute; reflexivity]|].
        exists 3. split; [|split].
        { apply cat_intro; [split; vm_compute; reflexivity|]. cbn [many]. apply cat_intro; [|apply cat_intro; [|reflexivity]].
          - split; [lia|]. exists [x01], [x00; x01; x41]. split; auto. split; [split; reflexivity|]. exists [x00; x01], [x41]. split; auto. split; [split; reflexivity|]. split; reflexivity.
          - split; [lia|]. exists [x07], [x00; x01]. split; auto. split; split; reflexivity. }
        { cbn. lia. }
        { repeat constructor. exists (lit "A"). split; [exists [x41]; split; vm_compute; reflexivity|]. left. exists [lit "A"]. split; [discriminate|]. split; [|reflexivity].
          repeat constructor; [discriminate|]. intros c Hc Hin. destruct Hin as [<-|[]]. vm_compute in Hc. repeat destruct Hc as [Hc|Hc]; try discriminate; contradiction. }
      * split; [exists 0x21; split; [split; vm_compute; reflexivity|]|intro H; vm_compute in H; discriminate].
        intro b. change 0x21 with (N.land class_bits 0x21) at 1. rewrite N.land_spec. apply Bool.andb_comm.
    + exists 2. split; [split; vm_compute; reflexivity|]. split.
      * exists 1. split; [reflexivity|]. exists [x41]. split; vm_compute; reflexivity.
      * exists [lit "A"]. split; [discriminate|]. split; [|reflexivity]. repeat constructor; [discriminate|].
        intros c Hc Hin. destruct Hin as [<-|[]]. vm_compute in Hc. repeat destruct Hc as [Hc|Hc]; try discriminate; contradiction.
  - intros ([super|] & u & v & Heq & H).
    + destruct H as (i & [Hl Hi] & (k & Hk & _) & _). destruct u as [|b1 [|b2 [|]]]; try discriminate Hl. cbn [app] in Heq. injection Heq as <- <- _. vm_compute in Hi. subst i. discriminate Hk.
    + destruct H as [Hl Hi]. destruct u as [|b1 [|b2 [|]]]; try discriminate Hl. cbn [app] in Heq. injection Heq as <- <- _. vm_compute in Hi. discriminate Hi.
Qed.
(** FINDING: the text about the descriptor of a field does not say which field. *)
Example C53_unnamed_field : match parse_class debug64 (unhex "cafebabe00000034000501000141070001010001780100015100210002000200000001000000030004000000000000") with
  Err e => display_err e = lit "Unexpected field type" | _ => False end.
Proof. vm_compute. reflexivity. Qed.
