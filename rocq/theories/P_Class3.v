(** * Class files: the acceptance theorem in terms of [class_format]; prefixes. *)
From Verif Require Import Base M_Names M_Descriptors M_ConstantPool M_Bytecode M_Attributes M_Class S_Lang S_Names S_Format S_Env
  P_Reads P_Tac P_Names P_Descriptors P_Pool P_Pool2 P_Pool3 P_Pool4 P_Refs P_Attributes P_Attr3 P_Class P_Class2 P_Depth.
From Coq Require Import ZifyBool ZifyNat ZifyN.

Lemma sane_fits E bs : sane E bs -> fits E bs.
Proof. intros [? ? ? ?]. constructor; auto. Qed.

Theorem parse_format E opts bs c : ample E bs ->
  (parse_class_with_options E opts bs = Ok c <-> class_format (cesu8 E) (wrapping E) opts c bs).
Proof.
  intro H. pose proof (ample_sane _ _ H) as Hs. rewrite (parse_Ok E opts (sane_stack _ _ Hs) bs c (sane_fits _ _ Hs)).
  rewrite (class_format_iff _ _ _ (stack E)); [reflexivity|apply H].
Qed.
(** Acceptance implies the format whatever the stack. *)
Theorem parse_sound E opts bs c : sane E bs -> parse_class_with_options E opts bs = Ok c ->
  class_format (cesu8 E) (wrapping E) opts c bs.
Proof.
  intros Hs H. apply (parse_Ok E opts (sane_stack _ _ Hs) bs c (sane_fits _ _ Hs)) in H. destruct H as [cs H].
  exists (stack E), cs. exact H.
Qed.

(** ** No accepted file is a proper prefix of another *)
Lemma reads_det {A} E (p : parser A) L u v u' v' a b : reads E p L -> fits E (u ++ v) -> u ++ v = u' ++ v' ->
  L a u -> L b u' -> a = b /\ u = u' /\ v = v'.
Proof.
  intros Hp Hfit Heq Ha Hb.
  assert (H1 : p (u ++ v) 0 = Ok (a, blen u)).
  { apply Hp; auto; [lia|]. exists [], u, v. auto. }
  assert (H2 : p (u ++ v) 0 = Ok (b, blen u')).
  { apply Hp; auto; [lia|]. exists [], u', v'. auto. }
  rewrite H1 in H2. injection H2 as -> Hl. split; auto. apply app_eq_blen in Heq; auto.
Qed.

Section WithEnv.
Variable E : env.
Variable opts : parse_options.
Hypothesis Hstk : (2 <= stack E)%nat.
Notation dec := (cesu8 E).
Notation wraps := (negb (overflow_checks E)).

Lemma reads_bind_img {X A B} (p : parser A) (f : X -> A) (k : A -> parser B) (L : X -> lang) (M : X -> B -> lang) :
  reads E p (fun a w => exists x, a = f x /\ L x w) ->
  (forall x, (exists w, L x w) -> reads E (k (f x)) (M x)) -> reads E (bind p k) (fun b w => exists x, (L x +++ M x b) w).
Proof.
  intros Hp Hk ix bs b ix' Hfit Hix. rewrite bind_Ok. split.
  - intros (a & ix1 & H1 & H2). apply Hp in H1; auto. pose proof (span_le _ _ _ _ H1).
    destruct H1 as (pre & w & post & -> & -> & -> & x & -> & Hw). apply Hk in H2; eauto; try lia.
    destruct H2 as (pre' & w' & post' & Heq & Hl & -> & HM).
    rewrite app_assoc in Heq. apply app_eq_blen in Heq; [|rewrite blen_app; lia]. destruct Heq as [<- ->].
    exists pre, (w ++ w'), post'. rewrite blen_app, <- !app_assoc. repeat split; auto; [lia|]. exists x. apply cat_intro; auto.
  - intros (pre & w & post & -> & -> & -> & x & u & v & -> & Hu & Hv). exists (f x), (blen pre + blen u). split.
    + apply Hp; auto. exists pre, u, (v ++ post). rewrite <- app_assoc. repeat split; eauto.
    + apply Hk; eauto; [rewrite !blen_app; lia|]. exists (pre ++ u), v, post. rewrite <- !app_assoc, !blen_app. repeat split; auto; lia.
Qed.

(** The class file without the checks at its end. *)
Definition body_parser : parser (N * N * pool * N * str * option str * list str * list field_info * list method_info * list attr_info) :=
  magic <- read_u4 ;; minor <- read_u2 ;; major <- read_u2 ;; p <- read_constant_pool E major ;; n <- read_u2 ;;
  this <- read_this_class p ;; super <- read_super_class p ;; ifs <- read_interfaces p ;; fs <- read_fields E p opts ;;
  ms <- read_methods E p opts (contains (from_bits_truncate class_flags n) ACC_INTERFACE) major ;;
  attributes <- read_attributes E p opts (stack E) ;;
  ret (minor, major, p, n, this, super, ifs, fs, ms, attributes).
Lemma reads_body : exists L, reads E body_parser L.
Proof.
  eexists. unfold body_parser.
  eapply reads_bind; [apply reads_u4|]. intros magic _.
  eapply reads_bind; [apply reads_u2|]. intros minor _. eapply reads_bind; [apply reads_u2|]. intros major _.
  eapply (reads_bind_img _ (fun cs => pool_of dec (slots_of cs))); [apply reads_constant_pool; exact Hstk|].
  intros cs (w & count & _ & _ & Hvalid).
  eapply reads_bind; [apply reads_u2|]. intros n _.
  eapply reads_bind; [apply (reads_this_class E cs major Hvalid)|]. intros this _.
  eapply reads_bind; [apply (reads_super_class E cs major Hvalid)|]. intros su _.
  eapply reads_bind; [apply (reads_interfaces E cs major Hvalid)|]. intros ifs _.
  eapply reads_bind; [apply reads_fields|]. intros fs _.
  eapply reads_bind; [apply reads_methods|]. intros ms _.
  eapply reads_bind; [apply reads_attributes|]. intros attrs _. apply reads_ret.
Qed.
Lemma guard_keeps b m bs ix u ix' : guard b m bs ix = Ok (u, ix') -> b = true /\ ix' = ix.
Proof. destruct b; cbn; [intros [= _ <-]; auto|discriminate]. Qed.
Lemma flags_keeps m f major bs ix u ix' : check_module_flags m f major bs ix = Ok (u, ix') -> ix' = ix.
Proof.
  unfold check_module_flags. destruct m; [|intros [= _ <-]; auto]. intro H. apply bind_Ok in H.
  destruct H as (? & ? & H1 & H2). apply guard_keeps in H1. apply guard_keeps in H2. intuition congruence.
Qed.
Lemma contents_keeps m s i f ms bs ix u ix' : check_module_contents m s i f ms bs ix = Ok (u, ix') -> ix' = ix.
Proof.
  unfold check_module_contents. destruct m; [|intros [= _ <-]; auto]. destruct s; [discriminate|]. intro H. apply bind_Ok in H.
  destruct H as (? & ? & H1 & H2). apply bind_Ok in H2. destruct H2 as (? & ? & H2 & H3).
  apply guard_keeps in H1. apply guard_keeps in H2. apply guard_keeps in H3. intuition congruence.
Qed.
Lemma bind_intro {A B} (p : parser A) (k : A -> parser B) bs ix a ix1 r : p bs ix = Ok (a, ix1) -> k a bs ix1 = r -> bind p k bs ix = r.
Proof. intros H1 H2. unfold bind. rewrite H1. exact H2. Qed.

(** An accepted class file is read by [body_parser]. *)
Lemma class_body ix bs c : class_parser E opts bs 0 = Ok (c, ix) -> ix = blen bs /\ exists x, body_parser bs 0 = Ok (x, ix).
Proof.
  unfold class_parser. cbv zeta. intro H.
  apply bind_Ok in H. destruct H as (magic & i1 & H1 & H).
  apply bind_Ok in H. destruct H as (? & i2 & H2 & H). apply guard_keeps in H2. destruct H2 as [_ ->].
  apply bind_Ok in H. destruct H as (minor & i3 & H3 & H).
  apply bind_Ok in H. destruct H as (major & i4 & H4 & H).
  apply bind_Ok in H. destruct H as (P & i5 & H5 & H).
  apply bind_Ok in H. destruct H as (n & i6 & H6 & H).
  apply bind_Ok in H. destruct H as (? & i7 & H7 & H). apply flags_keeps in H7. subst i7.
  apply bind_Ok in H. destruct H as (this & i8 & H8 & H).
  apply bind_Ok in H. destruct H as (su & i9 & H9 & H).
  apply bind_Ok in H. destruct H as (ifs & i10 & H10 & H).
  apply bind_Ok in H. destruct H as (fs & i11 & H11 & H).
  apply bind_Ok in H. destruct H as (ms & i12 & H12 & H).
  apply bind_Ok in H. destruct H as (attrs & i13 & H13 & H). apply ctx_Ok in H13.
  apply bind_Ok in H. destruct H as (? & i14 & H14 & H). injection H14 as <- <-.
  apply bind_Ok in H. destruct H as (? & i15 & H15 & H). injection H15 as <- <-.
  apply bind_Ok in H. destruct H as (? & i16 & H16 & H). apply guard_keeps in H16. destruct H16 as [Heq ->].
  apply bind_Ok in H. destruct H as (? & i17 & H17 & H). apply contents_keeps in H17. subst i17.
  apply bind_Ok in H. destruct H as (? & i18 & H18 & H). apply lift_Ok in H18. destruct H18 as [_ ->].
  injection H as _ <-. apply N.eqb_eq in Heq. split; auto.
  exists (minor, major, P, n, this, su, ifs, fs, ms, attrs). unfold body_parser.
  do 11 (eapply bind_intro; [eassumption|]). reflexivity.
Qed.

Theorem no_prefix bs s c c' : fits E (bs ++ s) -> parse_class_with_options E opts bs = Ok c ->
  parse_class_with_options E opts (bs ++ s) = Ok c' -> s = [].
Proof.
  intros Hfit H1 H2. destruct reads_body as [L HL]. unfold parse_class_with_options in *.
  apply obind_Ok in H1, H2. destruct H1 as ([c1 i1] & H1 & _), H2 as ([c2 i2] & H2 & _).
  apply class_body in H1, H2. destruct H1 as (-> & x1 & H1), H2 as (-> & x2 & H2).
  assert (Hfit1 : fits E bs) by (destruct Hfit as [? ? ?]; constructor; rewrite ?blen_app in *; auto; lia).
  apply HL in H1; auto; [|lia]. apply HL in H2; auto; [|lia].
  assert (H3 : span (bs ++ s) 0 (blen bs) (L x1)).
  { destruct H1 as (pre & w & post & -> & H & H' & HLw). exists pre, w, (post ++ s). rewrite <- !app_assoc. auto. }
  apply HL in H2; auto; [|lia]. apply HL in H3; auto; [|lia]. rewrite H2 in H3. injection H3 as _ H3.
  rewrite blen_app in H3. destruct s; auto. unfold blen in H3. cbn in H3. lia.
Qed.
End WithEnv.
