(** * Failing parsers: where they fail and with which text (for C53). *)
From Verif Require Import Base M_Names M_Descriptors M_ConstantPool M_Bytecode M_Attributes M_Class
  S_Lang S_Names S_Format S_Faults P_Names P_Descriptors P_Reads P_Tac P_Refs P_Attributes P_Attr2 P_Attr3 P_Pool3 P_Pool4 P_Class P_Class2.
From Coq Require Import ZifyBool ZifyNat ZifyN.

(** [r] fails as [r'] does, if [r'] fails. *)
Definition fails_as {A B} (r : outcome A) (r' : outcome B) : Prop :=
  match r' with Ok _ => True | Err e => r = Err e | Panic x => r = Panic x | Diverge => r = Diverge end.
Definition is_ok {A} (r : outcome A) : Prop := match r with Ok _ => True | _ => False end.
Lemma fails_as_refl {A} (r : outcome A) : fails_as r r.
Proof. destruct r; cbn; auto. Qed.
Lemma fails_as_trans {A B C} (r : outcome A) (r' : outcome B) (r'' : outcome C) : fails_as r r' -> fails_as r' r'' -> fails_as r r''.
Proof. destruct r''; cbn; auto; intros H ->; exact H. Qed.
Lemma fails_as_not_ok {A B} (r : outcome A) (r' : outcome B) : fails_as r r' -> ~ is_ok r' -> ~ is_ok r.
Proof. destruct r'; cbn; auto; intros ->; auto. Qed.
(** If [r] fails as [r'] and [r'] does not succeed, both fail with the same error. *)
Lemma fails_as_err {A B} (r : outcome A) (r' : outcome B) e : fails_as r r' -> ~ is_ok r' -> r = Err e -> r' = Err e.
Proof. destruct r'; cbn; intros H N1 ->; try discriminate; [contradiction N1; exact I|congruence]. Qed.

Lemma bind_fails_as {A B} (p : parser A) (k : A -> parser B) bs ix : fails_as (bind p k bs ix) (p bs ix).
Proof. unfold bind. destruct (p bs ix) as [[]| | |]; cbn; auto. Qed.

(** One step. *)
Lemma step_ok {A B} E (p : parser A) (k : A -> parser B) L pre a u v : reads E p L -> fits E (pre ++ u ++ v) -> L a u ->
  bind p k (pre ++ u ++ v) (blen pre) = k a ((pre ++ u) ++ v) (blen (pre ++ u)).
Proof.
  intros Hp Hf Ha. unfold bind. assert (H : p (pre ++ u ++ v) (blen pre) = Ok (a, blen pre + blen u)).
  { apply Hp; auto; [rewrite !blen_app; lia|]. exists pre, u, v. auto. }
  rewrite H, blen_app, <- app_assoc. reflexivity.
Qed.
Lemma reads_not_ok {A} E (p : parser A) L pre rest : reads E p L -> fits E (pre ++ rest) ->
  (~ is_ok (p (pre ++ rest) (blen pre)) <-> ~ exists a, starts_with (L a) rest).
Proof.
  intros Hp Hf. split.
  - intros H (a & u & v & -> & Ha). apply H. assert (Hk : p (pre ++ u ++ v) (blen pre) = Ok (a, blen pre + blen u)).
    { apply Hp; auto; [rewrite !blen_app; lia|]. exists pre, u, v. auto. }
    rewrite Hk. exact I.
  - intros H Hok. destruct (p (pre ++ rest) (blen pre)) as [[a ix]| | |] eqn:Hk; try contradiction.
    apply Hp in Hk; auto; [|rewrite blen_app; lia]. destruct Hk as (pre' & u & v & Heq & Hb & -> & Ha).
    apply app_eq_blen in Heq; auto. destruct Heq as [<- ->]. apply H. exists a, u, v. auto.
Qed.
(** A failing sequence: the first part fails, or the second does after it. *)
Lemma step_bad {A B} E (p : parser A) (k : A -> parser B) L pre rest : reads E p L -> fits E (pre ++ rest) ->
  ~ is_ok (bind p k (pre ++ rest) (blen pre)) ->
  (~ is_ok (p (pre ++ rest) (blen pre)) /\ ~ exists a, starts_with (L a) rest)
  \/ exists a u v, rest = u ++ v /\ L a u /\ bind p k (pre ++ rest) (blen pre) = k a ((pre ++ u) ++ v) (blen (pre ++ u))
     /\ ~ is_ok (k a ((pre ++ u) ++ v) (blen (pre ++ u))).
Proof.
  intros Hp Hf Hbad. destruct (p (pre ++ rest) (blen pre)) as [[a ix]| | |] eqn:Hk.
  - right. pose proof Hk as Hk'. apply Hp in Hk'; auto; [|rewrite blen_app; lia]. destruct Hk' as (pre' & u & v & Heq & Hb & -> & Ha).
    apply app_eq_blen in Heq; auto. destruct Heq as [<- ->]. exists a, u, v. split; auto. split; auto.
    rewrite <- (step_ok E p k L); auto.
  - left. split; [cbn; auto|]. apply (reads_not_ok E p L pre rest Hp Hf). rewrite Hk. cbn. auto.
  - left. split; [cbn; auto|]. apply (reads_not_ok E p L pre rest Hp Hf). rewrite Hk. cbn. auto.
  - left. split; [cbn; auto|]. apply (reads_not_ok E p L pre rest Hp Hf). rewrite Hk. cbn. auto.
Qed.

(** ** Loops *)
Lemma for_from_fails_as {A} E (F : A -> lang) body : (forall j, reads E (body j) F) -> forall l n i pre u v, many F l u -> (length l < n)%nat ->
  fits E (pre ++ u ++ v) ->
  fails_as (for_from n i body (pre ++ u ++ v) (blen pre)) (body (i + N.of_nat (length l)) ((pre ++ u) ++ v) (blen (pre ++ u))).
Proof.
  intros Hb l. induction l as [|a l IH]; intros n i pre u v Hm Hn Hf; (destruct n as [|n]; [cbn in Hn; lia|]); cbn [for_from length].
  - unfold many, eps in Hm. subst u. cbn [app]. rewrite N.add_0_r, app_nil_r. apply bind_fails_as.
  - destruct Hm as (u1 & u2 & -> & Ha & Hm). rewrite <- app_assoc in *.
    rewrite (step_ok E _ _ F pre a u1 (u2 ++ v)); auto.
    eapply fails_as_trans; [apply bind_fails_as|].
    replace (i + N.of_nat (S (length l))) with (i + 1 + N.of_nat (length l)) by lia.
    rewrite (app_assoc pre u1 u2). apply IH; auto; [cbn in Hn; lia|rewrite <- app_assoc; exact Hf].
Qed.
Lemma for_from_bad {A} E (F : A -> lang) body : (forall j, reads E (body j) F) -> forall n i pre rest, fits E (pre ++ rest) ->
  ~ is_ok (for_from n i body (pre ++ rest) (blen pre)) ->
  exists l u v, rest = u ++ v /\ many F l u /\ (length l < n)%nat /\ ~ is_ok (body (i + N.of_nat (length l)) ((pre ++ u) ++ v) (blen (pre ++ u))).
Proof.
  intro Hb. induction n as [|n IH]; intros i pre rest Hf Hbad; cbn [for_from] in Hbad; [contradiction Hbad; exact I|].
  apply (step_bad E _ _ F) in Hbad; auto. destruct Hbad as [[Hbad _]|(a & u & v & -> & Ha & _ & Hq)].
  - exists [], [], rest. split; auto. split; [reflexivity|]. split; [cbn; lia|]. cbn [length]. rewrite N.add_0_r, app_nil_r. exact Hbad.
  - assert (Hbad' : ~ is_ok (for_from n (i + 1) body ((pre ++ u) ++ v) (blen (pre ++ u)))).
    { intro Hok. apply Hq. unfold bind. destruct (for_from n (i + 1) body ((pre ++ u) ++ v) (blen (pre ++ u))) as [[]| | |]; try contradiction. exact I. }
    apply IH in Hbad'; [|rewrite <- app_assoc; exact Hf]. destruct Hbad' as (l & u' & v' & -> & Hm & Hl & Hbad').
    exists (a :: l), (u ++ u'), v'. split; [rewrite app_assoc; reflexivity|]. split; [cbn [many]; apply cat_intro; auto|]. split; [cbn; lia|].
    rewrite app_assoc. replace (i + N.of_nat (length (a :: l))) with (i + 1 + N.of_nat (length l)) by (cbn [length]; lia). exact Hbad'.
Qed.

(** ** Texts *)
Lemma display_ctx e c : display_err (with_context e c) = display_err e ++ (match contexts e with [] => lit " for " | _ => lit " of " end) ++ c.
Proof.
  destruct e as [m cs]. unfold display_err, with_context. cbn [msg contexts]. rewrite <- !app_assoc. f_equal.
  assert (H : forall cs k, display_contexts k (cs ++ [c]) = display_contexts k cs ++ (match cs with [] => k | _ => lit " of " end) ++ c).
  { clear. induction cs as [|x cs IH]; intro k; cbn [app display_contexts]; [rewrite app_nil_r; reflexivity|].
    rewrite IH. rewrite <- !app_assoc. destruct cs; reflexivity. }
  apply H.
Qed.
Lemma pctx_bad {A} c (p : parser A) bs ix e : pctx c p bs ix = Err e -> exists e', p bs ix = Err e' /\ e = with_context e' c.
Proof. unfold pctx, ctx. destruct (p bs ix); try discriminate. intros [= <-]. eauto. Qed.
Lemma pctx_ok {A} c (p : parser A) bs ix : is_ok (pctx c p bs ix) <-> is_ok (p bs ix).
Proof. unfold pctx, ctx. destruct (p bs ix); cbn; tauto. Qed.

Lemma cut1 bs ix e : read_u1 bs ix = Err e -> exists t, e = new_err t /\ cut_short t ix.
Proof.
  unfold read_u1, byte_at. destruct (_ <? _); [|destruct (nth_error _ _); discriminate]. intros [= <-]. eexists. split; [reflexivity|]. exists "u1"%string. cbn [In]. split; auto.
Qed.
Lemma cut2 bs ix e : read_u2 bs ix = Err e -> exists t, e = new_err t /\ cut_short t ix.
Proof.
  unfold read_u2, byte_at. destruct (_ <? _); [|repeat (destruct (nth_error _ _); cbn [obind]); discriminate]. intros [= <-]. eexists. split; [reflexivity|]. exists "u2"%string. cbn [In]. split; auto.
Qed.
Lemma cut4 bs ix e : read_u4 bs ix = Err e -> exists t, e = new_err t /\ cut_short t ix.
Proof.
  unfold read_u4, byte_at. destruct (_ <? _); [|repeat (destruct (nth_error _ _); cbn [obind]); discriminate]. intros [= <-]. eexists. split; [reflexivity|]. exists "u4"%string. cbn [In]. split; auto.
Qed.
Lemma display_new t : display_err (new_err t) = t.
Proof. unfold display_err, new_err. cbn. apply app_nil_r. Qed.

(** The error names attribute [i] last. *)
Definition named (i : N) (e : perr) : Prop := exists m cs t, e = mk_perr m (cs ++ [t ++ lit " attribute " ++ show_N i]).
Definition errs_named {A} (i : N) (q : parser A) : Prop := forall bs ix e, q bs ix = Err e -> named i e.
Lemma en_bind {A B} i (p : parser A) (k : A -> parser B) : errs_named i p -> (forall a, errs_named i (k a)) -> errs_named i (bind p k).
Proof. intros Hp Hk bs ix e. unfold bind. destruct (p bs ix) as [[a ix']| | |] eqn:H; try discriminate; [apply Hk|intros [= <-]; eapply Hp; eauto]. Qed.
Lemma en_ret {A} i (a : A) : errs_named i (ret a).
Proof. intros bs ix e. discriminate. Qed.
Lemma en_pctx {A} i t (p : parser A) : errs_named i (pctx (t ++ lit " attribute " ++ show_N i) p).
Proof. intros bs ix e H. apply pctx_bad in H. destruct H as ([m cs] & _ & ->). exists m, cs, t. reflexivity. Qed.
Lemma en_pctx' {A} i c t (p : parser A) : c = t ++ lit " attribute " -> errs_named i (pctx (c ++ show_N i) p).
Proof. intros ->. rewrite <- app_assoc. apply en_pctx. Qed.
Lemma en_lift {A} i (m : outcome A) : (forall e, m <> Err e) -> errs_named i (lift m).
Proof. intros H bs ix e. unfold lift. destruct m; try discriminate. intros [= ->]. destruct (H e); reflexivity. Qed.
Lemma en_get_bytes i : errs_named i get_bytes. Proof. intros bs ix e. discriminate. Qed.
Lemma en_get_ix i : errs_named i get_ix. Proof. intros bs ix e. discriminate. Qed.
Lemma en_set_ix i n : errs_named i (set_ix n). Proof. intros bs ix e. discriminate. Qed.
Lemma en_dispatch {A} i name (cases : list (string * parser A)) default :
  Forall (fun sq => errs_named i (snd sq)) cases -> errs_named i default -> errs_named i (dispatch name cases default).
Proof. intros Hc Hd. induction Hc as [|[s q] cases Hq _ IH]; cbn [dispatch]; auto. destruct (str_eqb name (lit s)); auto. Qed.

Lemma usize_result_no_err E n e : usize_result E n <> Err e.
Proof. unfold usize_result. repeat (destruct (_ : bool)); discriminate. Qed.
Lemma usize_sub_no_err E a b e : usize_sub E a b <> Err e.
Proof. unfold usize_sub. repeat (destruct (_ : bool)); discriminate. Qed.
Lemma slice_no_err bs i j e : slice bs i j <> Err e.
Proof. unfold slice. repeat (destruct (_ : bool)); discriminate. Qed.

Lemma attr_data_errs E p pb rec stk name i len : errs_named i (read_attr_data E p pb rec stk name i len).
Proof.
  unfold read_attr_data. cbv zeta. apply en_dispatch.
  - repeat (apply Forall_cons; [cbn [snd]|]); [..|apply Forall_nil].
    all: repeat (first [apply en_ret|apply en_pctx|apply en_get_bytes|apply en_get_ix|apply en_set_ix
      |apply en_lift; intros ?; (apply usize_result_no_err || apply slice_no_err)|apply en_bind; [|intro]]).
    match goal with |- errs_named _ (match ?x with _ => _ end) => destruct x end; [apply en_ret|].
    intros bs ix e [= <-]. exists (cesu8_err E), [], (lit "modified utf8 data of SourceDebugExtension"). reflexivity.
  - unfold read_other_attribute. repeat (first [apply en_bind; [|intro]|apply en_ret|apply en_get_bytes|apply en_get_ix|apply en_set_ix|apply en_lift; intros ?;
      (apply usize_result_no_err || apply slice_no_err || apply usize_sub_no_err)]).
Qed.

(** What an error about attribute [i], at byte [ix], says. *)
Definition about_attribute (i ix : N) (e : perr) : Prop :=
  named i e
  \/ e = new_err (lit "Length mismatch when reading attribute " ++ show_N i)
  \/ (exists t, e = new_err t /\ cut_short t (ix + 2))
  \/ e = new_err (lit "Unexpected end of stream reading attributes at index " ++ show_N (ix + 6)).
Lemma u2_Ok_ix bs ix a ix' : read_u2 bs ix = Ok (a, ix') -> ix' = ix + 2.
Proof. unfold read_u2, byte_at. destruct (_ <? _); [discriminate|]. repeat (destruct (nth_error _ _); cbn [obind]; try discriminate). intros [= _ <-]. reflexivity. Qed.
Lemma u4_Ok_ix bs ix a ix' : read_u4 bs ix = Ok (a, ix') -> ix' = ix + 4.
Proof. unfold read_u4, byte_at. destruct (_ <? _); [discriminate|]. repeat (destruct (nth_error _ _); cbn [obind]; try discriminate). intros [= _ <-]. reflexivity. Qed.
Lemma cp_utf8_Ok_ix p bs ix a ix' : read_cp_utf8 p bs ix = Ok (a, ix') -> ix' = ix + 2.
Proof.
  unfold read_cp_utf8, read_cp_ref_any, bind, lift. destruct (read_u2 bs ix) as [[n ix1]| | |] eqn:H; try discriminate. apply u2_Ok_ix in H.
  destruct (pool_get p n) as [e| | |]; try discriminate. destruct e; try discriminate. intros [= _ <-]. exact H.
Qed.
Lemma attribute_errs E p pb rec stk i bs ix e : read_attribute E p pb rec stk i bs ix = Err e -> about_attribute i ix e.
Proof.
  unfold read_attribute. unfold bind at 1. destruct (pctx _ _ bs ix) as [[name ix1]|x| |] eqn:H1; try discriminate.
  2:{ intros [= <-]. left. revert H1. apply (en_pctx' i _ (lit "name field of")). reflexivity. }
  assert (ix1 = ix + 2) as ->. { unfold pctx, ctx in H1. destruct (read_cp_utf8 p bs ix) as [[]| | |] eqn:Hr; try discriminate. injection H1 as _ <-. apply (cp_utf8_Ok_ix p bs ix s). exact Hr. }
  unfold bind at 1. destruct (read_u4 bs (ix + 2)) as [[len ix2]|x| |] eqn:H2; try discriminate.
  2:{ intros [= <-]. right; right; left. apply cut4 in H2. exact H2. }
  apply u4_Ok_ix in H2. assert (ix2 = ix + 6) as -> by lia. unfold bind at 1, get_bytes at 1. unfold bind at 1, get_ix at 1.
  unfold bind at 1, lift at 1. destruct (usize_result E (ix + 6 + len)) as [n|x| |] eqn:Hu; try discriminate; [|destruct (usize_result_no_err _ _ _ Hu)].
  destruct (blen bs <? n); [intros [= <-]; right; right; right; reflexivity|].
  unfold bind at 1. destruct (read_attr_data E p pb rec stk name i len bs (ix + 6)) as [[data ix3]|x| |] eqn:H3; try discriminate.
  2:{ intros [= <-]. left. apply attr_data_errs in H3. exact H3. }
  unfold bind at 1, get_ix at 1. destruct (negb (n =? ix3)); [intros [= <-]; right; left; reflexivity|discriminate].
Qed.

Section WithEnv.
Variable E : env.
Hypothesis Hstk : (2 <= stack E)%nat.
Variable opts : parse_options.
Notation dec := (cesu8 E).
Notation wraps := (negb (overflow_checks E)).
Notation pool cs := (pool_of dec (slots_of cs)).
Notation A cs := (attribute_lang dec wraps opts (stack E) cs).

(** ** Attribute tables *)
Lemma stack_S : stack E = S (Nat.pred (stack E)). Proof. lia. Qed.
Lemma reads_one_attribute cs j : reads E (read_attribute E (pool cs) opts (read_attributes E (pool cs) opts (Nat.pred (stack E))) (Nat.pred (stack E)) j) (A cs).
Proof. unfold attribute_lang. apply reads_attribute. apply reads_attributes. Qed.
Lemma attributes_unfold cs : read_attributes E (pool cs) opts (stack E) =
  (count <- read_u2 ;; for_n count (read_attribute E (pool cs) opts (read_attributes E (pool cs) opts (Nat.pred (stack E))) (Nat.pred (stack E)))).
Proof. rewrite stack_S at 1. reflexivity. Qed.
Lemma attributes_lang_unfold cs l w : attributes_lang dec (slots_of cs) wraps opts (stack E) l w <-> (u2 (count_of_list l) +++ many (A cs) l) w.
Proof. rewrite stack_S at 1. reflexivity. Qed.

Definition attrs_fault (cs : list constant) (rest : list byte) : Prop :=
  (~ exists n, starts_with (u2 n) rest)
  \/ exists n l u v, rest = u ++ v /\ (u2 n +++ many (A cs) l) u /\ count_of_list l < n /\ ~ exists a, starts_with (A cs a) v.
Lemma attrs_bad cs c pre rest : fits E (pre ++ rest) -> ~ is_ok (pctx c (read_attributes E (pool cs) opts (stack E)) (pre ++ rest) (blen pre)) -> attrs_fault cs rest.
Proof.
  intros Hf Hbad. rewrite pctx_ok, attributes_unfold in Hbad. apply (step_bad E _ _ u2 _ _ (reads_u2 E)) in Hbad; auto.
  destruct Hbad as [[_ Hbad]|(n & u & v & -> & Hn & _ & Hbad)]; [left; exact Hbad|right]. unfold for_n in Hbad.
  apply (for_from_bad E (A cs)) in Hbad; [|apply reads_one_attribute|rewrite <- app_assoc; exact Hf].
  destruct Hbad as (l & u' & v' & -> & Hl & Hlen & Hbad). exists n, l, (u ++ u'), v'. split; [rewrite app_assoc; reflexivity|]. split; [apply cat_intro; auto|].
  split; [unfold count_of_list; lia|]. apply (reads_not_ok E _ _ ((pre ++ u) ++ u') v' (reads_one_attribute cs _)) in Hbad; auto. rewrite <- !app_assoc. exact Hf.
Qed.
Lemma attrs_cut cs c pre rest : fits E (pre ++ rest) -> (~ exists n, starts_with (u2 n) rest) ->
  let r := pctx c (read_attributes E (pool cs) opts (stack E)) (pre ++ rest) (blen pre) in
  ~ is_ok r /\ forall e, r = Err e -> exists t, cut_short t (blen pre) /\ display_err e = t ++ lit " for " ++ c.
Proof.
  intros Hf Hno r. assert (Hbad : ~ is_ok (read_u2 (pre ++ rest) (blen pre))) by (apply (reads_not_ok E _ u2 _ _ (reads_u2 E)); auto).
  pose proof (bind_fails_as read_u2 (fun count => for_n count (read_attribute E (pool cs) opts (read_attributes E (pool cs) opts (Nat.pred (stack E))) (Nat.pred (stack E)))) (pre ++ rest) (blen pre)) as Has.
  rewrite <- attributes_unfold in Has. split; [unfold r; rewrite pctx_ok; exact (fails_as_not_ok _ _ Has Hbad)|].
  intros e He. apply pctx_bad in He. destruct He as (e' & He & ->). apply (fails_as_err _ _ _ Has Hbad) in He. apply cut2 in He. destruct He as (t & -> & Ht).
  exists t. split; auto. rewrite display_ctx, display_new. reflexivity.
Qed.
Lemma attrs_at cs c pre u v n l : fits E (pre ++ u ++ v) -> (u2 n +++ many (A cs) l) u -> count_of_list l < n -> (~ exists a, starts_with (A cs a) v) ->
  let r := pctx c (read_attributes E (pool cs) opts (stack E)) (pre ++ u ++ v) (blen pre) in
  ~ is_ok r /\ forall e, r = Err e -> exists e', e = with_context e' c /\ about_attribute (count_of_list l) (blen (pre ++ u)) e'.
Proof.
  intros Hf (u1 & u2' & -> & Hn & Hl) Hlt Hno. rewrite <- app_assoc in *. intro r. set (body := read_attribute E (pool cs) opts (read_attributes E (pool cs) opts (Nat.pred (stack E))) (Nat.pred (stack E))).
  assert (Has : fails_as (read_attributes E (pool cs) opts (stack E) (pre ++ u1 ++ u2' ++ v) (blen pre)) (body (count_of_list l) (((pre ++ u1) ++ u2') ++ v) (blen ((pre ++ u1) ++ u2')))).
  { rewrite attributes_unfold. rewrite (step_ok E _ _ u2 pre n u1 (u2' ++ v) (reads_u2 E)); auto. unfold for_n. fold body.
    apply (for_from_fails_as E (A cs) body (reads_one_attribute cs) l (N.to_nat n) 0 (pre ++ u1) u2' v); auto; [unfold count_of_list in Hlt; lia|rewrite <- app_assoc; exact Hf]. }
  assert (Hbad : ~ is_ok (body (count_of_list l) (((pre ++ u1) ++ u2') ++ v) (blen ((pre ++ u1) ++ u2')))).
  { apply (reads_not_ok E _ _ _ _ (reads_one_attribute cs _)); auto. rewrite <- !app_assoc. exact Hf. }
  split; [unfold r; rewrite pctx_ok; exact (fails_as_not_ok _ _ Has Hbad)|]. intros e He. apply pctx_bad in He. destruct He as (e' & He & ->). exists e'. split; auto.
  apply (fails_as_err _ _ _ Has Hbad) in He. apply attribute_errs in He. rewrite (app_assoc pre). exact He.
Qed.
Lemma about_display i ix e c : about_attribute i ix e ->
  let text := display_err (with_context e c) in
  ends_with text (lit " attribute " ++ show_N i ++ lit " of " ++ c)
  \/ text = lit "Length mismatch when reading attribute " ++ show_N i ++ lit " for " ++ c
  \/ (exists t, cut_short t (ix + 2) /\ text = t ++ lit " for " ++ c)
  \/ text = lit "Unexpected end of stream reading attributes at index " ++ show_N (ix + 6) ++ lit " for " ++ c.
Proof.
  intros H text. unfold text. rewrite display_ctx. destruct H as [(m & cs & t & ->)|[ -> |[(t & -> & Ht)| -> ]]].
  - left. replace (contexts _) with (cs ++ [t ++ lit " attribute " ++ show_N i]) by reflexivity.
    change (mk_perr m (cs ++ [t ++ lit " attribute " ++ show_N i])) with (with_context (mk_perr m cs) (t ++ lit " attribute " ++ show_N i)). rewrite display_ctx.
    set (k := match contexts (mk_perr m cs) with [] => _ | _ => _ end). exists (display_err (mk_perr m cs) ++ k ++ t).
    rewrite <- !app_assoc. do 5 f_equal. destruct cs; reflexivity.
  - right; left. rewrite display_new, <- app_assoc. reflexivity.
  - right; right; left. exists t. split; auto. rewrite display_new. reflexivity.
  - right; right; right. rewrite display_new, <- app_assoc. reflexivity.
Qed.
End WithEnv.
