(** * When the readers of attributes panic, exactly. *)
From Verif Require Import Base M_Names M_Descriptors M_ConstantPool M_Bytecode M_Attributes M_Class
  S_Lang S_Names S_Format S_Pool S_Items S_Safe S_Faults S_Panics P_Names P_Descriptors P_Reads P_Pool2 P_Pool3 P_Pool4 P_Refs P_Tac P_Bytecode
  P_Attributes P_Attr2 P_Attr3 P_Safe P_Safe2 P_Safe3 P_Faults P_Panics.
From Coq Require Import ZifyBool ZifyNat ZifyN.

(** A loop panics in one of its rounds. *)
Lemma for_panics {A} E (F : A -> lang) body : (forall j, reads E (body j) F) -> forall n i pre rest x, fits E (pre ++ rest) ->
  (for_from n i body (pre ++ rest) (blen pre) = Panic x <->
   exists l u v, rest = u ++ v /\ many F l u /\ (length l < n)%nat /\ body (i + N.of_nat (length l)) ((pre ++ u) ++ v) (blen (pre ++ u)) = Panic x).
Proof.
  intro Hb. induction n as [|n IH]; intros i pre rest x Hf; cbn [for_from].
  - split; [discriminate|]. intros (l & u & v & _ & _ & H & _). lia.
  - rewrite (panic_bind_at E _ _ F); auto; [|apply Hb]. split.
    + intros [H|(a & u & v & -> & Ha & H)].
      * exists [], [], rest. split; auto. split; [reflexivity|]. split; [cbn [length]; lia|]. rewrite app_nil_r. cbn [length]. rewrite N.add_0_r. exact H.
      * rewrite panic_bind_calm in H by (intros; discriminate). apply IH in H; [|rewrite <- app_assoc; auto]. destruct H as (l & u' & v' & -> & Hl & Hn & H).
        exists (a :: l), (u ++ u'), v'. split; [rewrite app_assoc; auto|]. split; [exists u, u'; auto|]. split; [cbn [length]; lia|].
        rewrite app_assoc. replace (i + N.of_nat (length (a :: l))) with (i + 1 + N.of_nat (length l)) by (cbn [length]; lia). exact H.
    + intros ([|a l] & u & v & -> & Hl & Hn & H).
      * left. change (u = []) in Hl. subst u. rewrite app_nil_r in H. cbn [length] in H. rewrite N.add_0_r in H. exact H.
      * right. destruct Hl as (u1 & u2' & -> & Ha & Hl). exists a, u1, (u2' ++ v). split; [rewrite app_assoc; auto|]. split; auto.
        rewrite panic_bind_calm by (intros; discriminate). apply IH; [rewrite <- !app_assoc in *; auto|]. exists l, u2', v. split; auto. split; auto. split; [cbn [length] in Hn; lia|].
        rewrite app_assoc in H. replace (i + 1 + N.of_nat (length l)) with (i + N.of_nat (length (a :: l))) by (cbn [length]; lia). exact H.
Qed.

Section Attributes.
Variable E : env.
Variable cs : list constant.
Variable major : N.
Variable opts : bool.
Notation dec := (cesu8 E).
Notation sl := (slots_of cs).
Notation P := (pool_of dec sl).
Notation checks := (overflow_checks E).
Notation wraps := (negb (overflow_checks E)).
Hypothesis Hvalid : Forall (valid_constant dec sl major) cs.
Notation bytecode_breaks := (bytecode_breaks dec checks (usize_max E) (alloc_limit E) sl).
Notation code_breaks := (code_breaks dec checks opts (usize_max E) (alloc_limit E) sl).
Notation attribute_breaks := (attribute_breaks dec checks opts (usize_max E) (alloc_limit E) sl).
Notation attributes_break := (attributes_break dec checks opts (usize_max E) (alloc_limit E) sl).

Definition roomy (bs : list byte) : Prop := fits E bs /\ blen bs + 2 ^ 32 <= usize_max E.
Lemma roomy_fits bs : roomy bs -> fits E bs.
Proof. intros [H _]. exact H. Qed.
Lemma roomy_machine bs : roomy bs -> 2 ^ 32 <= usize_max E + 1 /\ blen bs <= usize_max E / 2.
Proof. intros [[H1 H2 H3] _]. auto. Qed.
Lemma roomy_index bs : roomy bs -> usize_max E < blen bs + 2 ^ 32 -> if checks then none POverflow else none PSlice.
Proof. intros [_ H] H'. lia. Qed.
Lemma no_code bs : false = true -> forall code, (exists pre lw post, bs = pre ++ lw ++ code ++ post /\ u4 (N.of_nat (length code)) lw) -> ends none (fun _ => True) (bytecode_from E code P).
Proof. discriminate. Qed.

(** ** The contents of the attributes *)
Lemma nameandtype_panics pre rest x : fits E (pre ++ rest) ->
  (read_cp_nameandtype_opt P (pre ++ rest) (blen pre) = Panic x <->
   x = PNotUtf8 /\ exists i n d raw, starts_with (u2 i) rest /\ at_index sl i (CNameAndType n d) /\ at_index sl d (CUtf8 raw) /\ dec raw = None).
Proof.
  intro Hf. unfold read_cp_nameandtype_opt. rewrite (panic_step E _ _ (fun e w => exists i, u2 i w /\ entry_at dec cs i e)); auto;
    [|apply reads_pool_get|eapply calm_at, run_ref_any].
  assert (Hcase : forall i n d bs ix, at_index sl i (CNameAndType n d) ->
    ((m <- lift (peel_utf8 P (Resolved n)) ;; t <- lift (peel_utf8 P (Resolved d)) ;; ret (Some (mk_nat m t))) bs ix = Panic x <->
     x = PNotUtf8 /\ exists raw, at_index sl d (CUtf8 raw) /\ dec raw = None)).
  { intros i n d bs ix Hi. assert (Hv : valid_constant dec sl major (CNameAndType n d)).
    { rewrite Forall_forall in Hvalid. apply Hvalid, P_Pool4.in_slots. eauto. }
    destruct Hv as ((s & Hs & _) & raw & Hr). apply peel_utf8_Ok in Hs. unfold bind at 1, lift at 1. rewrite Hs.
    assert (Hd : peel_utf8 P (Resolved d) = match dec raw with Some t => Ok t | None => Panic PNotUtf8 end).
    { unfold peel_utf8. pose proof (at_index_entry dec cs _ _ Hr) as He. apply peel_entry in He. rewrite He. cbn [obind entry_of]. destruct (dec raw); reflexivity. }
    unfold bind, lift. rewrite Hd. destruct (dec raw) as [t|] eqn:Hdec.
    - split; [discriminate|]. intros (_ & raw' & Hr' & Hn). unfold at_index in *. rewrite Hr in Hr'. injection Hr' as <-. congruence.
    - split; [intros [= <-]; split; eauto|]. intros (-> & _). reflexivity. }
  split.
  - intros (e & u & v & -> & (i & Hu & He) & H). apply entry_at_cases in He. destruct He as [[_ ->]|[[_ ->]|(c & Hi & ->)]]; try discriminate.
    destruct c; cbn [entry_of] in H; try discriminate; try (destruct (dec raw); discriminate).
    apply (Hcase _ _ _ _ _ Hi) in H. destruct H as (-> & raw & Hr & Hn). split; auto. exists i, name, desc, raw. split; [exists u, v; auto|auto].
  - intros (-> & i & n & d & raw & (u & v & -> & Hu) & Hi & Hr & Hn). exists (entry_of dec (CNameAndType n d)), u, v. split; auto. split.
    + exists i. split; auto. apply at_index_entry, Hi.
    + cbn [entry_of]. apply (Hcase _ _ _ _ _ Hi). split; eauto.
Qed.
Lemma enclosing_panics c1 c2 pre rest x : fits E (pre ++ rest) ->
  ((class_name <- pctx c1 (read_cp_classinfo P) ;; method <- pctx c2 (read_cp_nameandtype_opt P) ;; ret (AEnclosingMethod class_name method)) (pre ++ rest) (blen pre) = Panic x <->
   enclosing_breaks dec sl x rest).
Proof.
  intro Hf. rewrite (panic_step E _ _ (ref (class_at dec sl))); auto; [|apply reads_pctx, reads_cp_classinfo|rewrite panic_pctx; eapply calm_at, run_cp_classinfo; eauto].
  unfold enclosing_breaks. split.
  - intros (c & u & v & -> & Hc & H). rewrite panic_bind_calm in H by (intros; discriminate). rewrite panic_pctx in H. apply nameandtype_panics in H; [|rewrite <- app_assoc; auto].
    destruct H as (-> & i & n & d & raw & (u' & v' & -> & Hu) & H). split; auto. exists c, i, n, d, raw. split; [exists (u ++ u'), v'; split; [rewrite app_assoc; auto|exists u, u'; auto]|exact H].
  - intros (-> & c & i & n & d & raw & (w & v' & -> & u & u' & -> & Hc & Hu) & H). exists c, u, (u' ++ v'). split; [rewrite app_assoc; auto|]. split; auto.
    rewrite panic_bind_calm by (intros; discriminate). rewrite panic_pctx. apply nameandtype_panics; [rewrite <- !app_assoc in *; auto|]. split; auto. exists i, n, d, raw. split; [exists u', v'; auto|exact H].
Qed.
(** Bytes of a given length. *)
Lemma take_panics {B} len (msg : N -> str) (k : list byte -> parser B) pre rest x : roomy (pre ++ rest) -> len < 2 ^ 32 ->
  ((bs <- get_bytes ;; ix <- get_ix ;; e <- lift (usize_result E (ix + len)) ;;
    if blen bs <? e then pfail (msg ix) else code <- lift (slice bs ix e) ;; _ <- set_ix e ;; k code) (pre ++ rest) (blen pre) = Panic x <->
   exists code v, rest = code ++ v /\ blen code = len /\ k code ((pre ++ code) ++ v) (blen (pre ++ code)) = Panic x).
Proof.
  intros [Hf Hr] Hlen. unfold bind at 1, get_bytes at 1. unfold bind at 1, get_ix at 1. unfold bind at 1, lift at 1. unfold usize_result.
  rewrite blen_app in *. replace (blen pre + len <=? usize_max E) with true by lia.
  destruct (N.ltb_spec (blen pre + blen rest) (blen pre + len)) as [Hb|Hb].
  - split; [discriminate|]. intros (code & v & -> & Hc & _). rewrite blen_app in Hb. lia.
  - destruct (split_at rest len ltac:(lia)) as (code & v & -> & Hc).
    assert (Hs : slice (pre ++ code ++ v) (blen pre) (blen pre + len) = Ok code) by (apply slice_Ok; exists pre, code, v; rewrite Hc; split; auto; split; auto; split; [reflexivity|reflexivity]).
    unfold bind at 1, lift at 1. rewrite Hs. unfold bind at 1, set_ix at 1. rewrite app_assoc, <- Hc, <- blen_app. split.
    + intro H. exists code, v. auto.
    + intros (code' & v' & He & Hc' & H). apply app_eq_blen in He; [|lia]. destruct He as [<- <-]. exact H.
Qed.

Section Nested.
Variable rec : parser (list attr_info).
Variable A : list attr_info -> lang.
Variable B : panic -> list byte -> Prop.
Hypothesis Hrec : reads E rec A.
Variable x : panic.
(** The nested readers panic as they should on what is left. *)
Definition exact_after (n : nat) : Prop := forall pre rest, roomy (pre ++ rest) -> (length rest < n)%nat -> (rec (pre ++ rest) (blen pre) = Panic x <-> B x rest).

Lemma code_panics pre rest : roomy (pre ++ rest) -> exact_after (length rest) -> (read_code_data E P opts rec (pre ++ rest) (blen pre) = Panic x <-> code_breaks A B x rest).
Proof.
  intros Hr Hx. pose proof (roomy_fits _ Hr) as Hf. unfold read_code_data. unfold S_Panics.code_breaks. split.
  - intro H. apply (panic_step E _ _ u2) in H; [|apply reads_u2|auto|eapply calm_at, run_u2]. destruct H as (ms & w1 & r1 & -> & Hms & H).
    apply (panic_step E _ _ u2) in H; [|apply reads_u2|rewrite <- !app_assoc; auto|eapply calm_at, run_u2]. destruct H as (ml & w2 & r2 & -> & Hml & H).
    apply (panic_step E _ _ u4) in H; [|apply reads_u4|rewrite <- !app_assoc; auto|eapply calm_at, run_u4]. destruct H as (len & w3 & r3 & -> & Hlen & H).
    apply (take_panics len (fun ix => lit "Unexpected end of stream reading code attribute at index " ++ show_N ix)) in H; [|rewrite <- !app_assoc; auto|apply uint_bound in Hlen; exact Hlen].
    destruct H as (code & r4 & -> & Hcl & H).
    apply (panic_step E _ _ u2) in H; [|apply reads_u2|rewrite <- !app_assoc; auto|eapply calm_at, run_u2]. destruct H as (n & w5 & r5 & -> & Hn & H).
    apply (panic_step E _ _ (fun l w => N.of_nat (length l) = n /\ many (exception_lang dec sl) l w)) in H; [|apply reads_for_n; intro; apply reads_exception_entry|rewrite <- !app_assoc; auto|].
    2:{ eapply calm_at, runs_for_n; [rewrite !blen_app; lia|]. intros. eapply (run_exception_entry E _ none cs major false); eauto; [|apply roomy_index|apply no_code]; try apply roomy_machine; rewrite <- !app_assoc; auto. }
    destruct H as (ex & w6 & r6 & -> & [<- Hex] & H).
    apply (panic_bind_at E _ _ A) in H; [|apply reads_pctx, Hrec|rewrite <- !app_assoc; auto].
    exists ms, ml, code, ex, (w1 ++ w2 ++ w3 ++ code ++ w5 ++ w6), r6. split; [rewrite <- !app_assoc; auto|]. split.
    { apply cat_intro; auto. apply cat_intro; auto. apply cat_intro; [unfold blen in Hcl; rewrite Hcl; exact Hlen|]. apply cat_intro; [reflexivity|]. exists w5, w6. auto. }
    destruct H as [H|(at' & w7 & r7 & -> & Hat & H)].
    + left. rewrite panic_pctx in H. apply Hx in H; auto; [rewrite <- !app_assoc; auto|]. destruct Hms as [Hms _]. rewrite !app_length. lia.
    + right. rewrite panic_bind_calm in H by (intros; discriminate). destruct opts; [|discriminate]. rewrite panic_bind_calm in H by (intros; discriminate). rewrite panic_pctx, panic_lift in H.
      split; auto. split; [exists at', w7, r7; auto|]. apply (bytecode_panics E cs major Hvalid) in H; auto. eapply (fits_sub E (pre ++ w1 ++ w2 ++ w3) code (w5 ++ w6 ++ w7 ++ r7)). rewrite <- !app_assoc. exact Hf.
  - intros (ms & ml & code & ex & w & r6 & -> & (w1 & y1 & -> & Hms & w2 & y2 & -> & Hml & w3 & y3 & -> & Hlen & w4 & y4 & -> & Hw4 & w5 & w6 & -> & Hn & Hex) & H).
    red in Hw4. subst w4. repeat rewrite <- app_assoc in Hr, Hf. repeat rewrite <- app_assoc.
    apply (panic_step E _ _ u2); [apply reads_u2|auto|eapply calm_at, run_u2|]. exists ms, w1, (w2 ++ w3 ++ code ++ w5 ++ w6 ++ r6). split; auto. split; auto.
    apply (panic_step E _ _ u2); [apply reads_u2|rewrite <- !app_assoc; auto|eapply calm_at, run_u2|]. exists ml, w2, (w3 ++ code ++ w5 ++ w6 ++ r6). split; auto. split; auto.
    apply (panic_step E _ _ u4); [apply reads_u4|rewrite <- !app_assoc; auto|eapply calm_at, run_u4|]. eexists _, w3, (code ++ w5 ++ w6 ++ r6). split; auto. split; [exact Hlen|].
    apply (take_panics _ (fun ix => lit "Unexpected end of stream reading code attribute at index " ++ show_N ix)); [rewrite <- !app_assoc; auto|apply uint_bound in Hlen; exact Hlen|].
    exists code, (w5 ++ w6 ++ r6). split; auto. split; [reflexivity|].
    apply (panic_step E _ _ u2); [apply reads_u2|rewrite <- !app_assoc; auto|eapply calm_at, run_u2|]. eexists _, w5, (w6 ++ r6). split; auto. split; [exact Hn|].
    apply (panic_step E _ _ (fun l w => N.of_nat (length l) = N.of_nat (length ex) /\ many (exception_lang dec sl) l w)); [apply reads_for_n; intro; apply reads_exception_entry|rewrite <- !app_assoc; auto| |].
    { eapply calm_at, runs_for_n; [rewrite !blen_app; lia|]. intros. eapply (run_exception_entry E _ none cs major false); eauto; [|apply roomy_index|apply no_code]; try apply roomy_machine; rewrite <- !app_assoc; auto. }
    exists ex, w6, r6. split; auto. split; auto. apply (panic_bind_at E _ _ A); [apply reads_pctx, Hrec|rewrite <- !app_assoc; auto|].
    destruct H as [H|(Ho & (at' & w7 & r7 & -> & Hat) & H)].
    + left. rewrite panic_pctx. apply Hx; auto; [rewrite <- !app_assoc; auto|]. destruct Hms as [Hms _]. rewrite !app_length. lia.
    + right. exists at', w7, r7. split; auto. split; auto. rewrite panic_bind_calm by (intros; discriminate). rewrite Ho. rewrite panic_bind_calm by (intros; discriminate). rewrite panic_pctx, panic_lift.
      apply (bytecode_panics E cs major Hvalid); [|exact H]. apply (fits_sub E (pre ++ w1 ++ w2 ++ w3) code (w5 ++ w6 ++ w7 ++ r7)). rewrite <- !app_assoc. exact Hf.
Qed.

Lemma component_panics i pre rest : roomy (pre ++ rest) -> exact_after (length rest) -> (read_record_component P rec i (pre ++ rest) (blen pre) = Panic x <->
  exists name descriptor u v, rest = u ++ v /\ (ref (that (utf8_at dec sl) unqualified) name +++ ref (field_desc_at dec sl) descriptor) u /\ B x v).
Proof.
  intros Hr Hx. pose proof (roomy_fits _ Hr) as Hf. unfold read_record_component. split.
  - intro H. apply (panic_step E _ _ (ref (utf8_at dec sl))) in H; [|apply reads_pctx, reads_cp_utf8|auto|rewrite panic_pctx; eapply calm_at, run_cp_utf8; eauto].
    destruct H as (name & w1 & r1 & -> & Hn & H). unfold bind at 1, guard at 1 in H. destruct (is_unqualified_name name) eqn:Hq; [|discriminate]. cbn [ret] in H. unfold ret at 1 in H.
    apply (panic_step E _ _ (ref (field_desc_at dec sl))) in H; [|apply reads_pctx, reads_cp_field_descriptor|rewrite <- !app_assoc; auto|].
    2:{ rewrite panic_pctx. eapply calm_at, (run_field_descriptor E _ none cs major false); eauto; [|apply roomy_index|apply no_code]; try apply roomy_machine; rewrite <- !app_assoc; auto. }
    destruct H as (d & w2 & r2 & -> & Hd & H). rewrite panic_bind_calm in H by (intros; discriminate). rewrite panic_pctx in H.
    exists name, d, (w1 ++ w2), r2. split; [rewrite app_assoc; auto|]. split.
    + exists w1, w2. split; auto. split; auto. apply ref_that. split; auto. apply is_unqualified_name_iff, Hq.
    + apply Hx in H; auto; [rewrite <- !app_assoc; auto|]. destruct Hn as (j & [Hl _] & _). rewrite !app_length. lia.
  - intros (name & d & w & r2 & -> & (w1 & w2 & -> & Hn & Hd) & H). apply ref_that in Hn. destruct Hn as [Hn Hq]. repeat rewrite <- app_assoc in Hr, Hf. rewrite <- app_assoc.
    apply (panic_step E _ _ (ref (utf8_at dec sl))); [apply reads_pctx, reads_cp_utf8|auto|rewrite panic_pctx; eapply calm_at, run_cp_utf8; eauto|].
    exists name, w1, (w2 ++ r2). split; auto. split; auto. unfold bind at 1, guard at 1. rewrite (proj2 (is_unqualified_name_iff name) Hq). unfold ret at 1.
    apply (panic_step E _ _ (ref (field_desc_at dec sl))); [apply reads_pctx, reads_cp_field_descriptor|rewrite <- !app_assoc; auto| |].
    { rewrite panic_pctx. eapply calm_at, (run_field_descriptor E _ none cs major false); eauto; [|apply roomy_index|apply no_code]; try apply roomy_machine; rewrite <- !app_assoc; auto. }
    exists d, w2, r2. split; auto. split; auto. rewrite panic_bind_calm by (intros; discriminate). rewrite panic_pctx.
    apply Hx; auto; [rewrite <- !app_assoc; auto|]. destruct Hn as (j & [Hl _] & _). rewrite !app_length. lia.
Qed.
Lemma record_panics pre rest : roomy (pre ++ rest) -> exact_after (length rest) -> (read_record_data P rec (pre ++ rest) (blen pre) = Panic x <-> record_breaks dec sl A B x rest).
Proof.
  intros Hr Hx. pose proof (roomy_fits _ Hr) as Hf. unfold read_record_data, record_breaks, for_n. split.
  - intro H. apply (panic_step E _ _ u2) in H; [|apply reads_u2|auto|eapply calm_at, run_u2]. destruct H as (n & w1 & r1 & -> & Hn & H).
    apply (for_panics E (record_component_lang dec sl A)) in H; [|intro; apply reads_record_component; auto|rewrite <- !app_assoc; auto].
    destruct H as (l & w2 & r2 & -> & Hl & Hlt & H). apply component_panics in H; [|rewrite <- !app_assoc; auto|].
    2:{ intros p' r' Hr' Hl'. apply Hx; auto. rewrite !app_length. lia. }
    destruct H as (name & d & w3 & r3 & -> & H3 & H). exists n, l, name, d, (w1 ++ w2 ++ w3), r3. split; [rewrite <- !app_assoc; auto|]. split.
    { apply cat_intro; auto. apply cat_intro; auto. }
    split; auto. unfold count_of_list. lia.
  - intros (n & l & name & d & w & r3 & -> & (w1 & y1 & -> & Hn & w2 & w3 & -> & Hl & H3) & Hlt & H). repeat rewrite <- app_assoc in Hr, Hf. repeat rewrite <- app_assoc.
    apply (panic_step E _ _ u2); [apply reads_u2|auto|eapply calm_at, run_u2|]. exists n, w1, (w2 ++ w3 ++ r3). split; auto. split; auto.
    apply (for_panics E (record_component_lang dec sl A)); [intro; apply reads_record_component; auto|rewrite <- !app_assoc; auto|].
    exists l, w2, (w3 ++ r3). split; auto. split; auto. split; [unfold count_of_list in Hlt; lia|]. apply component_panics; [rewrite <- !app_assoc; auto| |].
    + intros p' r' Hr' Hl'. apply Hx; auto. rewrite !app_length in *. lia.
    + exists name, d, w3, r3. auto.
Qed.

(** ** Dispatch on the name *)
Lemma dispatch_skip {T} name s (q : parser T) l d : str_eqb name (lit s) = false -> dispatch name ((s, q) :: l) d = dispatch name l d.
Proof. intro H. cbn [dispatch]. rewrite H. reflexivity. Qed.
Lemma dispatch_hit {T} s (q : parser T) l d : dispatch (lit s) ((s, q) :: l) d = q.
Proof. cbn [dispatch]. rewrite str_eqb_refl. reflexivity. Qed.
Lemma dispatch_calm {T} bs ix name cases (d : parser T) : Forall (fun sp => name <> lit (fst sp) \/ runs_at bs none ix any_result (snd sp)) cases -> runs_at bs none ix any_result d ->
  runs_at bs none ix any_result (dispatch name cases d).
Proof.
  intros H Hd. induction H as [|[s q] l [Hn|Hq] _ IH]; cbn [dispatch]; auto; cbn [fst snd] in *; destruct (str_eqb_spec name (lit s)); auto. contradiction.
Qed.
Ltac side := first [eassumption | lia].
Ltac calmly := first
  [ apply run_u1 | apply run_u2 | apply run_u4 | apply runs_pctx; calmly
  | eapply run_cp_utf8; side | eapply run_cp_classinfo; side | eapply run_cp_literalconstant; side
  | eapply run_ensure_length; side
  | eapply run_stackmaptable_data; side | eapply run_exceptions_data; side | eapply run_innerclasses_data; side | eapply run_linenumber_data; side
  | eapply run_localvariable_data; side | eapply run_localvariabletype_data; side | eapply run_bootstrapmethods_data; side | eapply run_methodparameters_data; side
  | eapply run_module_data; side | eapply run_modulepackages_data; side | eapply run_nestmembers_data; side | eapply run_permitted_subclasses_data; side
  | eapply run_annotation_data; side | eapply run_parameter_annotation_data; side | eapply run_type_annotation_data; side
  | eapply run_element_value; side | eapply run_source_debug_extension; side | eapply run_other_attribute; side ].
Lemma other_calm bs ix stk name i len : roomy bs -> ix + len <= blen bs -> len < 2 ^ 32 -> blen bs < ix + N.of_nat stk ->
  name <> lit "EnclosingMethod" -> name <> lit "Code" -> name <> lit "Record" ->
  runs_at bs none ix any_result (read_attr_data E P opts rec stk name i len).
Proof.
  intros Hr Hb Hlen Hd H1 H2 H3. assert (Hix : ix <= blen bs) by lia. pose proof (roomy_machine _ Hr) as Hm. pose proof (roomy_index _ Hr) as Hi. pose proof (no_code bs) as Hc.
  assert (Hdeep : deep bs none ix stk) by (left; exact Hd).
  assert (Hb' : ix + len <= blen bs \/ checks = false /\ usize_max E < blen bs + 2 ^ 32) by (left; exact Hb).
  unfold read_attr_data. apply dispatch_calm.
  - repeat (apply Forall_cons || apply Forall_nil); cbn [fst snd]; try (left; assumption); right.
    all: repeat first [apply runs_ret_any; lia | eapply runs_bind; [solve [calmly]|intros]].
  - eapply runs_bind; [calmly|]. intros; apply runs_ret_any; lia.
Qed.
Lemma attr_data_panics stk name i len pre rest : roomy (pre ++ rest) -> len <= blen rest -> len < 2 ^ 32 -> (length rest < stk)%nat -> exact_after (length rest) ->
  (read_attr_data E P opts rec stk name i len (pre ++ rest) (blen pre) = Panic x <->
   (name = lit "EnclosingMethod" /\ len = 4 /\ enclosing_breaks dec sl x rest) \/ (name = lit "Code" /\ code_breaks A B x rest) \/ (name = lit "Record" /\ record_breaks dec sl A B x rest)).
Proof.
  intros Hr Hle Hlen Hstk Hx. pose proof (roomy_fits _ Hr) as Hf.
  assert (D : forall s t, lit s = lit t -> s <> t -> False) by (intros s t H1 H2; apply lit_inj in H1; contradiction).
  destruct (str_eqb_spec name (lit "EnclosingMethod")) as [->|N1].
  { unfold read_attr_data. repeat (rewrite dispatch_skip by (vm_compute; reflexivity)). rewrite dispatch_hit.
    assert (He : (_ <- pctx ((lit "EnclosingMethod" ++ lit " attribute " ++ show_N i)) (ensure_length len 4) ;;
        class_name <- pctx (lit "class info of EnclosingMethod" ++ lit " attribute " ++ show_N i) (read_cp_classinfo P) ;;
        method <- pctx (lit "method info of EnclosingMethod" ++ lit " attribute " ++ show_N i) (read_cp_nameandtype_opt P) ;;
        ret (AEnclosingMethod class_name method)) (pre ++ rest) (blen pre) = Panic x <-> len = 4 /\ enclosing_breaks dec sl x rest).
    { unfold bind at 1, pctx at 1, ensure_length. destruct (N.eqb_spec len 4) as [Hl|Hl]; cbn [negb].
      - unfold ret at 1, ctx at 1. rewrite enclosing_panics by auto. tauto.
      - split; [discriminate|]. intros [H _]. contradiction. }
    rewrite He. split; [intros [H1 H2]; left; auto|]. intros [(_ & H)|[[H _]|[H _]]]; [exact H|exfalso; eapply D; [exact H|discriminate]..]. }
  destruct (str_eqb_spec name (lit "Code")) as [->|N2].
  { unfold read_attr_data. repeat (rewrite dispatch_skip by (vm_compute; reflexivity)). rewrite dispatch_hit.
    rewrite panic_bind_calm by (intros; discriminate). rewrite panic_pctx, code_panics by auto.
    split; [auto|]. intros [[H _]|[[_ H]|[H _]]]; [contradiction|exact H|exfalso; eapply D; [exact H|discriminate]]. }
  destruct (str_eqb_spec name (lit "Record")) as [->|N3].
  { unfold read_attr_data. repeat (rewrite dispatch_skip by (vm_compute; reflexivity)). rewrite dispatch_hit.
    rewrite panic_bind_calm by (intros; discriminate). rewrite panic_pctx, record_panics by auto.
    split; [auto|]. intros [[H _]|[[H _]|[_ H]]]; [contradiction..|exact H]. }
  split; [|intros [[H _]|[[H _]|[H _]]]; contradiction]. intro H. exfalso. revert H. eapply calm_at, other_calm; auto; rewrite blen_app; [lia|unfold blen in *; lia].
Qed.
Lemma attribute_panics stk i pre rest : roomy (pre ++ rest) -> (length rest < stk)%nat -> exact_after (length rest) ->
  (read_attribute E P opts rec stk i (pre ++ rest) (blen pre) = Panic x <-> attribute_breaks A B x rest).
Proof.
  intros Hr Hstk Hx. pose proof (roomy_fits _ Hr) as Hf. unfold read_attribute.
  assert (Htail : forall name len pre' v, roomy (pre' ++ v) -> (length v < length rest)%nat -> len < 2 ^ 32 ->
    ((bs <- get_bytes ;; ix <- get_ix ;; expected_end_ix <- lift (usize_result E (ix + len)) ;;
      if blen bs <? expected_end_ix then pfail (lit "Unexpected end of stream reading attributes at index " ++ show_N ix)
      else data <- read_attr_data E P opts rec stk name i len ;; end_ix <- get_ix ;;
        if negb (expected_end_ix =? end_ix) then pfail (lit "Length mismatch when reading attribute " ++ show_N i) else ret (mk_attr name data)) (pre' ++ v) (blen pre') = Panic x
     <-> len <= N.of_nat (length v) /\
       ((name = lit "EnclosingMethod" /\ len = 4 /\ enclosing_breaks dec sl x v) \/ (name = lit "Code" /\ code_breaks A B x v) \/ (name = lit "Record" /\ record_breaks dec sl A B x v)))).
  { intros name len pre' v Hr' Hlt Hlen. destruct Hr' as [Hf' Hu]. unfold bind at 1, get_bytes at 1. unfold bind at 1, get_ix at 1. unfold bind at 1, lift at 1. unfold usize_result.
    pose proof Hu as Hu'. rewrite blen_app in Hu'. replace (blen pre' + len <=? usize_max E) with true by lia. rewrite blen_app.
    destruct (N.ltb_spec (blen pre' + blen v) (blen pre' + len)) as [Hb|Hb].
    - split; [discriminate|]. intros [H _]. unfold blen in *. lia.
    - rewrite panic_bind_calm.
      + rewrite attr_data_panics; [|split; auto|lia|auto|lia|].
        * split; [intro H; split; [unfold blen in *; lia|exact H]|tauto].
        * intros p' r' Hp' Hl'. apply Hx; auto. lia.
      + intros d ix'. unfold bind, get_ix. destruct (negb (blen pre' + len =? ix')); discriminate. }
  split.
  - intro H. apply (panic_step E _ _ (ref (utf8_at dec sl))) in H; [|apply reads_pctx, reads_cp_utf8|auto|rewrite panic_pctx; eapply calm_at, run_cp_utf8; eauto].
    destruct H as (name & w1 & r1 & -> & Hn & H).
    apply (panic_step E _ _ u4) in H; [|apply reads_u4|rewrite <- !app_assoc; auto|eapply calm_at, run_u4]. destruct H as (len & w2 & r2 & -> & Hlen & H).
    apply Htail in H; [|rewrite <- !app_assoc; auto|destruct Hlen as [Hl _]; rewrite !app_length; lia|apply uint_bound in Hlen; exact Hlen]. destruct H as [Hle H].
    exists name, len, (w1 ++ w2), r2. split; [rewrite app_assoc; auto|]. split; [exists w1, w2; auto|auto].
  - intros (name & len & w & r2 & -> & (w1 & w2 & -> & Hn & Hlen) & Hle & H). repeat rewrite <- app_assoc in *.
    apply (panic_step E _ _ (ref (utf8_at dec sl))); [apply reads_pctx, reads_cp_utf8|auto|rewrite panic_pctx; eapply calm_at, run_cp_utf8; eauto|].
    exists name, w1, (w2 ++ r2). split; auto. split; auto.
    apply (panic_step E _ _ u4); [apply reads_u4|rewrite <- !app_assoc; auto|eapply calm_at, run_u4|]. exists len, w2, r2. split; auto. split; auto.
    apply Htail; [rewrite <- !app_assoc; auto|destruct Hlen as [Hl _]; rewrite !app_length; lia|apply uint_bound in Hlen; exact Hlen|auto].
Qed.
End Nested.

Theorem attributes_panics x : forall stk pre rest, roomy (pre ++ rest) -> (length rest < stk)%nat ->
  (read_attributes E P opts stk (pre ++ rest) (blen pre) = Panic x <-> attributes_break stk x rest).
Proof.
  induction stk as [|stk IH]; intros pre rest Hr Hstk; [lia|]. pose proof (roomy_fits _ Hr) as Hf. cbn [read_attributes S_Panics.attributes_break]. unfold for_n.
  assert (Hone : forall j, reads E (read_attribute E P opts (read_attributes E P opts stk) stk j) (attribute_with dec sl wraps opts (attributes_lang dec sl wraps opts stk) stk)) by (intro; apply reads_attribute, reads_attributes).
  split.
  - intro H. apply (panic_step E _ _ u2) in H; [|apply reads_u2|auto|eapply calm_at, run_u2]. destruct H as (n & w1 & r1 & -> & Hn & H).
    apply (for_panics E _ _ Hone) in H; [|rewrite <- !app_assoc; auto]. destruct H as (l & w2 & r2 & -> & Hl & Hlt & H). destruct Hn as [Hn Hn']. rewrite !app_length in Hstk.
    apply (attribute_panics _ (attributes_lang dec sl wraps opts stk) (attributes_break stk)) in H; [|apply reads_attributes|rewrite <- !app_assoc; auto|lia|intros p' r' Hp' Hl'; apply IH; auto; lia].
    exists n, l, (w1 ++ w2), r2. split; [rewrite app_assoc; auto|]. split; [exists w1, w2; split; auto; split; auto; split; auto|]. split; [unfold count_of_list; lia|exact H].
  - intros (n & l & w & r2 & -> & (w1 & w2 & -> & Hn & Hl) & Hlt & H). repeat rewrite <- app_assoc in *. rewrite !app_length in Hstk.
    apply (panic_step E _ _ u2); [apply reads_u2|auto|eapply calm_at, run_u2|]. exists n, w1, (w2 ++ r2). split; auto. split; auto.
    apply (for_panics E _ _ Hone); [rewrite <- !app_assoc; auto|]. exists l, w2, r2. split; auto. split; auto. split; [unfold count_of_list in Hlt; lia|].
    destruct Hn as [Hn Hn']. apply (attribute_panics _ (attributes_lang dec sl wraps opts stk) (attributes_break stk)); [apply reads_attributes|rewrite <- !app_assoc; auto|lia|intros p' r' Hp' Hl'; apply IH; auto; lia|exact H].
Qed.
End Attributes.
