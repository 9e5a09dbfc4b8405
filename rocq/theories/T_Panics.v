(** * C02: exactly which files make a parse panic. *)
From Verif Require Import Data Base M_Names M_Descriptors M_ConstantPool M_Bytecode M_Attributes M_Class
  S_Lang S_Names S_Format S_Env S_Pool S_Items S_Safe S_Faults S_Panics P_Names P_Descriptors P_Reads P_Tac P_Refs P_Attributes P_Attr2 P_Attr3 P_Pool P_Pool2 P_Pool3 P_Pool4
  P_Class P_Class2 P_Class3 P_Layout P_Safe P_Safe2 P_Safe3 P_Safe5 P_Safe6 P_Faults P_Faults2 P_Faults3 P_Panics P_Panics2 T_Faults T_Safe T_Cycles Sample T_Bytecode.
From Coq Require Import ZifyBool ZifyNat ZifyN.

(** ** Readers that never panic *)
Definition quiet {A} (p : parser A) : Prop := forall bs ix x, p bs ix <> Panic x.
Lemma quiet_ret {A} (a : A) : quiet (ret a). Proof. intros bs ix x. discriminate. Qed.
Lemma quiet_bind {A B} (p : parser A) (k : A -> parser B) : quiet p -> (forall a, quiet (k a)) -> quiet (bind p k).
Proof. intros Hp Hk bs ix x. unfold bind. destruct (p bs ix) as [[a ix']| | |] eqn:H; try discriminate; [apply Hk|]. intro H'. apply (Hp bs ix x). congruence. Qed.
Lemma quiet_pctx {A} c (p : parser A) : quiet p -> quiet (pctx c p).
Proof. intros Hp bs ix x. rewrite panic_pctx. apply Hp. Qed.
Lemma quiet_guard b m : quiet (guard b m).
Proof. intros bs ix x. unfold guard. destruct b; discriminate. Qed.
Lemma quiet_lift {A} (m : outcome A) : (forall x, m <> Panic x) -> quiet (lift m).
Proof. intros H bs ix x. rewrite panic_lift. apply H. Qed.
Lemma quiet_runs {A} (p : parser A) : (forall bs ix, exists R, runs_at bs none ix R p) -> quiet p.
Proof. intros H bs ix x. destruct (H bs ix) as (R & HR). eapply calm_at, HR. Qed.
Lemma quiet_decides {A} (m : outcome A) Q : decides m Q -> quiet (lift m).
Proof. intro H. apply quiet_lift. intros x. apply (calm Q), ends_decides, H. Qed.
Lemma quiet_for {A} (body : N -> parser A) : (forall j, quiet (body j)) -> forall n i, quiet (for_from n i body).
Proof. intros Hb. induction n as [|n IH]; intro i; cbn [for_from]; [apply quiet_ret|]. apply quiet_bind; [apply Hb|intro]. apply quiet_bind; [apply IH|intro; apply quiet_ret]. Qed.
Lemma quiet_u2 : quiet read_u2. Proof. apply quiet_runs. intros. eexists. apply run_u2. Qed.
Lemma quiet_u4 : quiet read_u4. Proof. apply quiet_runs. intros. eexists. apply run_u4. Qed.
Lemma quiet_magic : quiet magic_parser. Proof. apply quiet_bind; [apply quiet_u4|intro; apply quiet_guard]. Qed.
Lemma quiet_versions : quiet versions_parser. Proof. apply quiet_bind; [apply quiet_u2|intro]. apply quiet_bind; [apply quiet_u2|intro; apply quiet_ret]. Qed.
Lemma quiet_flags major : quiet (flags_parser major).
Proof.
  apply quiet_bind; [apply quiet_u2|intro]. cbv zeta. apply quiet_bind; [|intro; apply quiet_ret]. unfold check_module_flags.
  destruct (contains _ _); [apply quiet_bind; [|intro]; apply quiet_guard|apply quiet_ret].
Qed.
Lemma quiet_entry E major : quiet (entry_reader E major).
Proof. apply quiet_runs. intros. eexists. apply run_entry_reader. Qed.

(** An outcome that is neither a result nor a panic. *)
Definition hush {A} (r : outcome A) : Prop := ~ is_ok r /\ forall x, r <> Panic x.
Lemma fails_panics {A B} (r : outcome A) (r' : outcome B) x : fails_as r r' -> ~ is_ok r' -> (r = Panic x <-> r' = Panic x).
Proof. unfold fails_as. destruct r'; cbn; intros H Hno; try (contradiction Hno; exact I); rewrite H; split; congruence. Qed.
Lemma hush_stops {A B} (r : outcome A) (r' : outcome B) : fails_as r r' -> hush r' -> hush r.
Proof. intros Has [Hno Hq]. split; [eapply fails_as_not_ok; eauto|]. intros x H. apply (Hq x). apply (fails_panics r r' x Has Hno). exact H. Qed.

Section WithPool.
Variable E : env.
Variable cs : list constant.
Variable major : N.
Notation dec := (cesu8 E).
Notation pool cs := (pool_of dec (slots_of cs)).
Hypothesis Hvalid : Forall (valid_constant dec (slots_of cs) major) cs.
Lemma quiet_utf8 : quiet (read_cp_utf8 (pool cs)).
Proof. apply quiet_runs. intros. eexists. eapply run_cp_utf8; eauto. Qed.
Lemma quiet_class : quiet (read_cp_classinfo (pool cs)).
Proof. apply quiet_runs. intros. eexists. eapply run_cp_classinfo; eauto. Qed.
Lemma quiet_class_opt : quiet (read_cp_classinfo_opt (pool cs)).
Proof. apply quiet_runs. intros. eexists. eapply run_cp_classinfo_opt; eauto. Qed.
Lemma quiet_class_name s : quiet (lift (class_name_try_from s)).
Proof. eapply quiet_decides, class_name_try_from_spec. Qed.
Lemma quiet_this : quiet (read_this_class (pool cs)).
Proof. apply quiet_pctx, quiet_bind; [apply quiet_class|intro; apply quiet_class_name]. Qed.
Lemma quiet_super : quiet (read_super_class (pool cs)).
Proof. apply quiet_pctx, quiet_bind; [apply quiet_class_opt|]. intros [s|]; [|apply quiet_ret]. apply quiet_bind; [apply quiet_class_name|intro; apply quiet_ret]. Qed.
Lemma quiet_field_head i seen : quiet (field_head_parser (pool cs) i seen).
Proof.
  unfold field_head_parser. repeat first [apply quiet_ret|apply quiet_u2|apply quiet_guard|apply quiet_pctx, quiet_utf8|eapply quiet_decides, parse_field_descriptor_0|apply quiet_bind; [|intro]].
Qed.
Lemma quiet_method_head ii i seen : quiet (method_head_parser (pool cs) ii major i seen).
Proof.
  unfold method_head_parser. cbv zeta. repeat first [apply quiet_ret|apply quiet_u2|apply quiet_guard|apply quiet_pctx, quiet_utf8|eapply quiet_decides, parse_method_descriptor_spec|apply quiet_pctx|apply quiet_utf8|apply quiet_bind; [|intro]].
Qed.
End WithPool.

Section WithEnv.
Variable E : env.
Variable opts : parse_options.
Notation dec := (cesu8 E).
Notation wraps := (negb (overflow_checks E)).
Notation pool cs := (pool_of dec (slots_of cs)).
Notation breaks := (breaks dec (overflow_checks E) opts (usize_max E) (alloc_limit E) (stack E)).
Notation faulty := (fault dec wraps opts (stack E)).

(** ** What comes before an attribute table is not empty *)
Definition long (w : list byte) : Prop := (1 <= length w)%nat.
Lemma long_cat (L M : lang) : (forall w, L w -> long w) -> forall w, (L +++ M) w -> long w.
Proof. intros H w (u & v & -> & Hu & _). apply H in Hu. unfold long in *. rewrite app_length. lia. Qed.
Lemma long_interfaces minor major cs flags this super ifs w : to_interfaces dec wraps minor major cs flags this super ifs w -> long w.
Proof. revert w. do 6 (apply long_cat). intros w [H _]. unfold long. rewrite H. lia. Qed.
Lemma long_owner cs o w : owner_at dec wraps opts (stack E) cs o w -> long w.
Proof.
  intros [minor major flags this super ifs n fs head i _ _ v H|minor major flags this super ifs fs n ms head i _ _ v H|minor major flags this super ifs fs ms v H]; revert v H.
  - apply long_cat. apply long_interfaces.
  - do 2 apply long_cat. apply long_interfaces.
  - do 2 apply long_cat. apply long_interfaces.
Qed.
Lemma owner_valid cs o w : owner_at dec wraps opts (stack E) cs o w -> exists major, Forall (valid_constant dec (slots_of cs) major) cs.
Proof.
  intros [minor major flags this super ifs n fs head i _ _ v H|minor major flags this super ifs fs n ms head i _ _ v H|minor major flags this super ifs fs ms v H]; exists major.
  - destruct H as (u & v' & -> & H & _). eapply interfaces_valid; exact H.
  - destruct H as (u & v' & -> & (u' & v2 & -> & H & _) & _). eapply interfaces_valid; exact H.
  - destruct H as (u & v' & -> & (u' & v2 & -> & H & _) & _). eapply interfaces_valid; exact H.
Qed.

(** ** Each place *)
Hypothesis Hstk : (2 <= stack E)%nat.
Lemma attributes_place x cs o w rest : owner_at dec wraps opts (stack E) cs o w -> roomy E (w ++ rest) -> (length (w ++ rest) <= stack E)%nat ->
  (pctx (owner_label o) (read_attributes E (pool cs) opts (stack E)) (w ++ rest) (blen w) = Panic x
   <-> attributes_break dec (overflow_checks E) opts (usize_max E) (alloc_limit E) (slots_of cs) (stack E) x rest).
Proof.
  intros Ho Hr Hd. rewrite panic_pctx. destruct (owner_valid _ _ _ Ho) as (major & Hv). apply (attributes_panics E cs major opts Hv); auto.
  apply long_owner in Ho. unfold long in Ho. rewrite app_length in Hd. lia.
Qed.
Lemma attributes_found x cs o w rest : owner_at dec wraps opts (stack E) cs o w ->
  attributes_break dec (overflow_checks E) opts (usize_max E) (alloc_limit E) (slots_of cs) (stack E) x rest ->
  exists w' rest', w ++ rest = w' ++ rest' /\ breaks x w' rest'.
Proof.
  intros Ho H. assert (Hd : stack E = S (Nat.pred (stack E))) by lia. rewrite Hd in H. cbn [attributes_break] in H. destruct H as (n & l & u & v & -> & Hu & Hlt & H).
  exists (w ++ u), v. split; [rewrite app_assoc; reflexivity|]. eapply breaks_attribute; [|exact Hlt|exact H]. exists w, u. split; [reflexivity|]. split; [exact Ho|exact Hu].
Qed.

Lemma index_place x major pre n cs u v i : fits E (pre ++ u ++ v) -> (u2 n +++ many (constant_lang major) cs) u -> due wraps n 1 cs i ->
  (~ exists c, starts_with (constant_at wraps major i c) v) ->
  (read_constant_pool E major (pre ++ u ++ v) (blen pre) = Panic x <->
   x = POverflow /\ overflow_checks E = true /\ exists c, starts_with (constant_lang major c) v /\ 65536 <= i + width c).
Proof.
  intros Hf (u1 & u2' & -> & Hn & Hm) Hd Hno. rewrite <- app_assoc in *. set (r := read_constant_pool E major _ _). assert (Hb : n < 65536) by (apply uint_bound in Hn; exact Hn).
  destruct (pool_loop_fails E Hstk major n cs Hb (S (length ((pre ++ u1) ++ u2' ++ v))) 1 i (pre ++ u1) u2' v) as (fuel & Hfuel & Has); auto;
    [rewrite <- app_assoc; exact Hf|rewrite (app_length (pre ++ u1)); lia|].
  assert (Hr : fails_as r (pool_loop E fuel major n i (((pre ++ u1) ++ u2') ++ v) (blen ((pre ++ u1) ++ u2')))).
  { unfold r, read_constant_pool. rewrite (step_ok E _ _ u2 pre n u1 (u2' ++ v) (reads_u2 E)); auto. unfold bind at 1, get_bytes at 1.
    eapply fails_as_trans; [apply bind_fails_as|exact Has]. }
  destruct fuel as [|fuel]; [lia|]. pose proof (due_lt _ _ _ _ _ Hd) as Hi.
  assert (Hf' : fits E (((pre ++ u1) ++ u2') ++ v)) by (rewrite <- !app_assoc; exact Hf).
  rewrite pool_loop_unfold in Hr by auto.
  destruct (entry_reader E major (((pre ++ u1) ++ u2') ++ v) (blen ((pre ++ u1) ++ u2'))) as [[te ix]|y|y|] eqn:He.
  - pose proof He as He'. apply (reads_entry E major) in He'; auto; [|rewrite (blen_app _ v); lia]. destruct He' as (pre' & w & post & Heq & Hlen & -> & c & -> & Hw).
    apply app_eq_blen in Heq; auto. destruct Heq as [<- ->].
    assert (Hover : is_wide c = true /\ 65536 <= i + 2 /\ wraps = false).
    { destruct wraps eqn:Hwr; [exfalso; apply Hno; exists c, w, post; split; auto; split; auto|]. unfold constant_at, width in Hno.
      destruct (is_wide c) eqn:Hc; [|exfalso; apply Hno; exists c, w, post; split; auto; split; auto; left; unfold width; rewrite Hc; lia].
      split; auto. split; auto. destruct (N.lt_ge_cases (i + 2) 65536); auto. exfalso; apply Hno; exists c, w, post; split; auto; split; auto; left; unfold width; rewrite Hc; lia. }
    destruct Hover as (Hwide & Htop & Hwr). unfold bind at 1 in Hr. rewrite He in Hr. cbn [fst snd] in Hr. rewrite tag_wide, Hwide in Hr.
    unfold bind at 1, lift at 1 in Hr. rewrite u16_small in Hr by lia. unfold bind at 1, lift at 1 in Hr. replace (i + 1 + 1) with 65536 in Hr by lia.
    assert (Ho : overflow_checks E = true) by (destruct (overflow_checks E); [reflexivity|discriminate Hwr]).
    assert (Hp : u16_result E 65536 = Panic POverflow). { unfold u16_result. simpl. rewrite Ho. reflexivity. }
    rewrite Hp in Hr. cbn [fails_as] in Hr. rewrite Hr. split.
    + intros [= <-]. split; auto. split; auto. exists c. split; [exists w, post; auto|]. unfold width. rewrite Hwide. lia.
    + intros (-> & _). reflexivity.
  - unfold bind at 1 in Hr. rewrite He in Hr. cbn [fails_as] in Hr. rewrite Hr. split; [discriminate|]. intros (_ & _ & c & (w & post & -> & Hw) & _). exfalso.
    assert (H : entry_reader E major (((pre ++ u1) ++ u2') ++ w ++ post) (blen ((pre ++ u1) ++ u2')) = Ok ((tag_of c, raw_of dec c), blen ((pre ++ u1) ++ u2') + blen w))
      by (apply (reads_entry E major); auto; [rewrite (blen_app _ (w ++ post)); lia|]; exists ((pre ++ u1) ++ u2'), w, post; repeat split; auto; exists c; auto). congruence.
  - exfalso. exact (quiet_entry E major _ _ _ He).
  - unfold bind at 1 in Hr. rewrite He in Hr. cbn [fails_as] in Hr. rewrite Hr. split; [discriminate|]. intros (_ & _ & c & (w & post & -> & Hw) & _). exfalso.
    assert (H : entry_reader E major (((pre ++ u1) ++ u2') ++ w ++ post) (blen ((pre ++ u1) ++ u2')) = Ok ((tag_of c, raw_of dec c), blen ((pre ++ u1) ++ u2') + blen w))
      by (apply (reads_entry E major); auto; [rewrite (blen_app _ (w ++ post)); lia|]; exists ((pre ++ u1) ++ u2'), w, post; repeat split; auto; exists c; auto). congruence.
Qed.
Lemma constants_place x major pre n cs u v : fits E (pre ++ u ++ v) -> (u2 n +++ many (constant_lang major) cs) u -> fills wraps n 1 cs ->
  read_constant_pool E major (pre ++ u ++ v) (blen pre) = Panic x -> x = PStackOverflow.
Proof.
  intros Hf (u1 & u2' & -> & Hn & Hm) Hfl. rewrite <- app_assoc in *. assert (Hb : n < 65536) by (apply uint_bound in Hn; exact Hn).
  assert (Hl : pool_loop E (S (length ((pre ++ u1) ++ u2' ++ v))) major n 1 ((pre ++ u1) ++ u2' ++ v) (blen (pre ++ u1)) = Ok (flat_map (expand E) cs, blen (pre ++ u1) + blen u2')).
  { apply pool_loop_spec; auto; [rewrite <- app_assoc; exact Hf|rewrite !blen_app; lia|unfold blen; lia|]. exists (pre ++ u1), u2', v. repeat split; auto. exists cs. auto. }
  unfold read_constant_pool. rewrite (step_ok E _ _ u2 pre n u1 (u2' ++ v) (reads_u2 E)); auto. unfold bind at 1, get_bytes at 1. unfold bind at 1. rewrite Hl. unfold bind, lift.
  destruct (resolve_constant_pool (EZero :: flat_map (expand E) cs)) as [P|y|y|] eqn:Hres; try discriminate.
  - apply (resolve_pool_Ok E Hstk) in Hres. destruct Hres as [-> Hrefs].
    pose proof (ends_validate dec cs Hrefs (stack E) major ltac:(lia) (pool cs) 0 ltac:(auto)) as Hv. unfold validate_constant_pool.
    destruct (validate_from _ _ _ _ _); try discriminate. cbn [ends] in Hv. destruct Hv as [-> _]. congruence.
  - intros _. pose proof (ends_resolve (fun _ => False) (plen (EZero :: flat_map (expand E) cs)) (EZero :: flat_map (expand E) cs) 0) as Hr.
    unfold resolve_constant_pool in Hres. rewrite Hres in Hr. contradiction.
Qed.

(** A fault at a place other than these is an error. *)
Lemma hush_stuck {X} w rest (p : parser X) k L : reaches E opts w (bind p k) -> fits E (w ++ rest) -> reads E p L -> ~ (exists a, starts_with (L a) rest) -> quiet p ->
  hush (class_parser E opts (w ++ rest) 0).
Proof.
  intros Hr Hf Hp Hno Hq. rewrite (Hr rest Hf). eapply hush_stops; [apply bind_fails_as|]. split; [|apply Hq]. apply (reads_not_ok E p L w rest Hp Hf). exact Hno.
Qed.
Lemma hush_stuck_as {X Y} w rest (p : parser X) k (r : outcome Y) : reaches E opts w (bind p k) -> fits E (w ++ rest) ->
  fails_as (p (w ++ rest) (blen w)) r -> hush r -> hush (class_parser E opts (w ++ rest) 0).
Proof. intros Hr Hf Has Ht. rewrite (Hr rest Hf). eapply hush_stops; [|exact Ht]. eapply fails_as_trans; [apply bind_fails_as|exact Has]. Qed.
Lemma hush_u2 w rest : fits E (w ++ rest) -> ~ (exists n, starts_with (u2 n) rest) -> hush (read_u2 (w ++ rest) (blen w)).
Proof. intros Hf Hno. split; [apply (reads_not_ok E _ u2 w rest (reads_u2 E)); auto|apply quiet_u2]. Qed.

Lemma fault_panics x p w rest : ample E (w ++ rest) -> roomy E (w ++ rest) -> faulty p w rest -> class_parser E opts (w ++ rest) 0 = Panic x ->
  exists w' rest', w ++ rest = w' ++ rest' /\ breaks x w' rest'.
Proof.
  intros Ham Hr H Hpan. pose proof (roomy_fits _ _ Hr) as Hf. pose proof (ample_stack _ _ Ham) as Hdeep.
  assert (Hh : hush (class_parser E opts (w ++ rest) 0) -> exists w' rest', w ++ rest = w' ++ rest' /\ breaks x w' rest') by (intros [_ Hq]; destruct (Hq x Hpan)).
  destruct H as [rest Hno|w rest Hw Hno|minor major w rest Hw Hno|minor major n cs i w rest Hw Hd Hno|minor major n cs w rest Hw Hfl Hno|minor major cs w rest Hw Hno|minor major cs flags w rest Hw Hno|minor major cs flags this w rest Hw Hno
    |minor major cs flags this super w rest Hw Hno|minor major cs flags this super n ifs i w rest Hw Hi Hlt Hno|minor major cs flags this super ifs w rest Hw Hno
    |minor major cs flags this super ifs n fs i w rest Hw Hi Hlt Hno|minor major cs flags this super ifs fs w rest Hw Hno|minor major cs flags this super ifs fs n ms i w rest Hw Hi Hlt Hno
    |cs o w rest Hw Hno|cs o n l j w rest Hw Hj Hlt Hno|cs l w rest Hw Hne|minor major cs flags this super ifs fs ms l w Hw Hno].
  - apply Hh. eapply (hush_stuck [] rest magic_parser (fun _ => after_magic E opts)); [intros v _; apply class_parser_unfold; auto|auto|apply reads_magic_parser| |apply quiet_magic].
    intros (_ & Hm). apply Hno. exact Hm.
  - apply Hh. eapply (hush_stuck w rest versions_parser); [apply reach_magic; exact Hw|auto|apply reads_versions_parser| |apply quiet_versions].
    intros ([minor major] & Hm). apply Hno. exists minor, major. exact Hm.
  - apply Hh. eapply (hush_stuck_as w rest (read_constant_pool E major)); [apply reach_versions; exact Hw|auto|apply bind_fails_as|]. apply hush_u2; auto.
  - clear Hh. pose proof Hw as Hw'. destruct Hw' as (w0 & w1 & -> & H0 & Hu). rewrite <- app_assoc in *.
    rewrite (reach_versions E opts _ _ _ H0 _ Hf) in Hpan. unfold after_versions in Hpan.
    destruct (constant_told E Hstk major w0 n cs w1 rest i Hf Hu Hd Hno) as [Hbad _].
    apply (fails_panics _ _ x (bind_fails_as _ _ _ _) Hbad) in Hpan. apply (index_place x major w0 n cs w1 rest i Hf Hu Hd Hno) in Hpan.
    destruct Hpan as (-> & Ho & c & Hc & Htop). exists (w0 ++ w1), rest. split; [apply app_assoc|]. eapply breaks_index; eauto.
  - clear Hh. pose proof Hw as Hw'. destruct Hw' as (w0 & w1 & -> & H0 & Hu). rewrite <- app_assoc in *. pose proof Hpan as Hpan'.
    rewrite (reach_versions E opts _ _ _ H0 _ Hf) in Hpan. unfold after_versions in Hpan.
    destruct (constants_told E Hstk major w0 n cs w1 rest Hf Hu Hfl Hno) as [Hbad _].
    apply (fails_panics _ _ x (bind_fails_as _ _ _ _) Hbad) in Hpan. apply (constants_place x major w0 n cs w1 rest Hf Hu Hfl) in Hpan. subst x.
    assert (Hpar : parse_class_with_options E opts (w0 ++ w1 ++ rest) = Panic PStackOverflow) by (unfold parse_class_with_options; rewrite Hpan'; reflexivity).
    apply (C04_overflow_iff E opts _ Ham) in Hpar.
    destruct Hpar as (minor' & major' & count' & cs' & ws & rest' & i & c & (m & v & nw & Hm & Hv & Hn & Hbs & Hws) & Hfl' & Hgood & Hi & Hpb & Hlo). rewrite Hbs.
    exists ((m ++ v) ++ nw ++ concat ws), rest'. split; [rewrite <- !app_assoc; reflexivity|]. apply (breaks_cycle dec (overflow_checks E) opts (usize_max E) (alloc_limit E) (stack E) minor' major' count' cs' i c); auto.
    apply cat_intro; [apply (cat_intro magic (u2 minor' +++ u2 major') m v); [exact Hm|exact Hv]|]. apply cat_intro; [exact Hn|]. apply many_concat. exists ws. auto.
  - apply Hh. eapply (hush_stuck w rest (flags_parser major)); [apply reach_pool; auto; exact Hw|auto|apply reads_flags_parser; auto|exact Hno|apply quiet_flags].
  - apply Hh. pose proof (flags_valid E _ _ _ _ _ Hw) as Hv.
    eapply (hush_stuck w rest (read_this_class (pool cs))); [apply reach_flags; auto; exact Hw|auto|apply (reads_this_class E cs major Hv)|exact Hno|apply (quiet_this E cs major Hv)].
  - apply Hh. assert (Hv : Forall (valid_constant dec (slots_of cs) major) cs) by (destruct Hw as (u & v & _ & Hw & _); eapply flags_valid; exact Hw).
    eapply (hush_stuck w rest (read_super_class (pool cs))); [apply reach_this; auto; exact Hw|auto|apply (reads_super_class E cs major Hv)|exact Hno|apply (quiet_super E cs major Hv)].
  - apply Hh. eapply (hush_stuck_as w rest (read_interfaces (pool cs))); [apply reach_super; auto; exact Hw|auto|apply bind_fails_as|]. apply hush_u2; auto.
  - apply Hh. pose proof Hw as Hw'. destruct Hw' as (w0 & w1 & -> & H0 & u & u' & -> & Hn & Hl).
    replace ((w0 ++ u ++ u') ++ rest) with (w0 ++ u ++ u' ++ rest) in * by (rewrite <- !app_assoc; reflexivity).
    pose proof (super_valid E _ _ _ _ _ _ _ H0) as Hval.
    eapply (hush_stuck_as w0 (u ++ u' ++ rest) (read_interfaces (pool cs))); [apply reach_super; auto; exact H0|auto| |].
    + unfold read_interfaces. rewrite (step_ok E _ _ u2 w0 n u _ (reads_u2 E)); auto. unfold for_n.
      apply (for_from_fails_as E (class_ref dec cs) _ (fun j => reads_class_name E cs major Hval _) ifs (N.to_nat n) 0 (w0 ++ u) u' rest); auto; [unfold count_of_list in Hi; lia|rewrite <- app_assoc; auto].
    + split.
      * apply (reads_not_ok E _ (class_ref dec cs) ((w0 ++ u) ++ u') rest (reads_class_name E cs major Hval _)); auto. rewrite <- !app_assoc. auto.
      * intro y. apply quiet_pctx. apply quiet_bind; [apply (quiet_class E cs major Hval)|intro; apply quiet_class_name].
  - apply Hh. eapply (hush_stuck_as w rest (read_fields E (pool cs) opts)); [apply reach_interfaces; auto; exact Hw|auto|apply bind_fails_as|]. apply hush_u2; auto.
  - apply Hh. destruct Hw as (w0 & w1 & -> & H0 & u & u1 & -> & Hn & Hfs & Hd).
    replace ((w0 ++ u ++ u1) ++ rest) with (w0 ++ u ++ u1 ++ rest) in * by (rewrite <- !app_assoc; reflexivity). pose proof (interfaces_valid E _ _ _ _ _ _ _ _ H0) as Hval.
    assert (Hm : field_members E opts cs [] fs u1) by (apply members_fields; [constructor|split; auto]).
    destruct (head_fails_as E Hstk opts _ _ _ cs field_id (fun h => (snd (fst h), snd h)) field_of (fun _ _ => eq_refl) _ (field_head_parser (pool cs))
      (reads_field_head E cs) (fun i => lit "class field " ++ show_N i) _ (fields_loop_unfold E opts (pool cs)) (fun _ _ _ _ => eq_refl) fs u1 (N.to_nat n) rest (w0 ++ u) Hm) as (seen & Hseen & Has);
      [unfold count_of_list in Hi; lia|rewrite <- app_assoc; exact Hf|].
    eapply (hush_stuck_as w0 (u ++ u1 ++ rest) (read_fields E (pool cs) opts)); [apply reach_interfaces; auto; exact H0|auto| |].
    + unfold read_fields. rewrite (step_ok E _ _ u2 w0 n u _ (reads_u2 E)); auto. exact Has.
    + split; [|intro y; apply (quiet_field_head E cs major Hval)].
      apply (reads_not_ok E _ (field_head dec cs fs) ((w0 ++ u) ++ u1) rest (reads_field_head E cs _ _ _ Hseen)); auto. rewrite <- !app_assoc. auto.
  - apply Hh. eapply (hush_stuck_as w rest (read_methods E (pool cs) opts (contains flags ACC_INTERFACE) major)); [apply reach_fields; auto; exact Hw|auto|apply bind_fails_as|]. apply hush_u2; auto.
  - apply Hh. destruct Hw as (w0 & w1 & -> & H0 & u & u1 & -> & Hn & Hms & Hd & Hrr).
    replace ((w0 ++ u ++ u1) ++ rest) with (w0 ++ u ++ u1 ++ rest) in * by (rewrite <- !app_assoc; reflexivity). set (ii := N.testbit flags ACC_INTERFACE_bit) in *.
    assert (Hval : Forall (valid_constant dec (slots_of cs) major) cs) by (destruct H0 as (? & ? & _ & H0 & _); eapply interfaces_valid; exact H0).
    assert (Hm : method_members E opts cs major ii [] ms u1) by (apply members_methods; [constructor|constructor|split; auto]).
    destruct (head_fails_as E Hstk opts _ _ _ cs method_id (fun h => (snd (fst h), snd h)) method_of (fun _ _ => eq_refl) _ (method_head_parser (pool cs) ii major)
      (reads_method_head E Hstk cs ii major) (fun i => lit "class method " ++ show_N i) _ (methods_loop_unfold E opts (pool cs) ii major) (fun _ _ _ _ => eq_refl) ms u1 (N.to_nat n) rest (w0 ++ u) Hm) as (seen & Hseen & Has);
      [unfold count_of_list in Hi; lia|rewrite <- app_assoc; exact Hf|].
    eapply (hush_stuck_as w0 (u ++ u1 ++ rest) (read_methods E (pool cs) opts (contains flags ACC_INTERFACE) major)); [apply reach_fields; auto; exact H0|auto| |].
    + unfold read_methods. rewrite (step_ok E _ _ u2 w0 n u _ (reads_u2 E)); auto. rewrite ii_eq. exact Has.
    + split; [|intro y; apply (quiet_method_head E cs major Hval)].
      apply (reads_not_ok E _ (method_head dec cs major ii ms) ((w0 ++ u) ++ u1) rest (reads_method_head E Hstk cs _ _ _ _ _ Hseen)); auto. rewrite <- !app_assoc. auto.
  - clear Hh. destruct (attrs_cut E Hstk opts cs (owner_label o) w rest Hf Hno) as [Hbad _].
    apply (fails_panics _ _ x (stop_attributes E Hstk opts cs o w Hw rest Hf) Hbad) in Hpan. apply (attributes_place x cs o w rest Hw Hr Hdeep) in Hpan. eapply attributes_found; eauto.
  - clear Hh. destruct Hw as (w0 & w1 & -> & Ho & Hu). rewrite <- app_assoc in *. subst j.
    destruct (attrs_at E Hstk opts cs (owner_label o) w0 w1 rest n l Hf Hu Hlt Hno) as [Hbad _].
    apply (fails_panics _ _ x (stop_attributes E Hstk opts cs o w0 Ho (w1 ++ rest) Hf) Hbad) in Hpan. apply (attributes_place x cs o w0 _ Ho Hr Hdeep) in Hpan. eapply attributes_found; eauto.
  - apply Hh. destruct Hw as (w0 & w1 & -> & Ho & Hl). inversion Ho as [| |minor major flags this super ifs fs ms w H0]; subst.
    assert (Hw : (to_methods dec wraps opts (stack E) minor major cs flags this super ifs fs ms +++ u2 (count_of_list l) +++ many (attribute_lang dec wraps opts (stack E) cs) l) (w0 ++ w1)) by (apply cat_intro; auto).
    rewrite (reach_attributes E Hstk opts _ _ _ _ _ _ _ _ _ _ _ Hw rest Hf). unfold after_attributes. unfold bind at 1, get_bytes at 1. unfold bind at 1, get_ix at 1.
    eapply hush_stops; [apply bind_fails_as|]. destruct (N.eqb_spec (blen (w0 ++ w1)) (blen ((w0 ++ w1) ++ rest))) as [He|_].
    + exfalso. rewrite (blen_app (w0 ++ w1) rest) in He. destruct rest; [congruence|]. unfold blen in He. cbn [length] in He. lia.
    + split; [cbn; auto|discriminate].
  - exfalso. rewrite (reach_attributes E Hstk opts _ _ _ _ _ _ _ _ _ _ _ Hw [] Hf) in Hpan. revert Hpan. unfold after_attributes. unfold bind at 1, get_bytes at 1. unfold bind at 1, get_ix at 1.
    apply quiet_bind; [apply quiet_guard|intro]. apply quiet_bind.
    + unfold check_module_contents. destruct (contains _ _); [|apply quiet_ret]. destruct super; [discriminate|]. repeat (apply quiet_bind; [apply quiet_guard|intro]). apply quiet_guard.
    + intro. apply quiet_bind; [|intro; apply quiet_ret]. apply quiet_lift. intro y. eapply calm, ends_bootstrap.
Qed.

Lemma breaks_panic x w rest : ample E (w ++ rest) -> roomy E (w ++ rest) -> breaks x w rest -> class_parser E opts (w ++ rest) 0 = Panic x.
Proof.
  intros Ham Hr H. pose proof (roomy_fits _ _ Hr) as Hf. pose proof (ample_stack _ _ Ham) as Hdeep. destruct H as [minor major n cs i c w rest Hw Hd Hc Htop Ho|minor major n cs i c w rest Hw Hfl Hgood Hi Hpb Hlo|cs o n l x w rest Hw Hlt Hb].
  - destruct Hw as (w0 & w1 & -> & H0 & Hu). rewrite <- app_assoc in *. rewrite (reach_versions E opts _ _ _ H0 _ Hf). unfold after_versions.
    assert (Hno : ~ exists c, starts_with (constant_at wraps major i c) rest).
    { intros (c' & u' & v' & Heq' & Hu' & [Hw'|Hw']); [|rewrite Ho in Hw'; discriminate]. destruct Hc as (u & v & -> & Hc).
      destruct (constant_split major c c' u v u' v' Heq' Hc Hu') as (<- & _). lia. }
    destruct (constant_told E Hstk major w0 n cs w1 rest i Hf Hu Hd Hno) as [Hbad _].
    apply (fails_panics _ _ POverflow (bind_fails_as _ _ _ _) Hbad). apply (index_place POverflow major w0 n cs w1 rest i Hf Hu Hd Hno). eauto.
  - assert (Hp : parse_class_with_options E opts (w ++ rest) = Panic PStackOverflow).
    { apply (C04_overflow_iff E opts _ Ham). destruct Hw as (w0 & w1 & -> & (m & v & -> & Hm & Hv) & (nw & u & -> & Hn & Hcs)). apply many_concat in Hcs. destruct Hcs as (ws & Hws & ->).
      exists minor, major, n, cs, ws, rest, i, c. split; auto. exists m, v, nw. do 3 (split; auto). split; auto. rewrite <- !app_assoc. reflexivity. }
    unfold parse_class_with_options in Hp. destruct (class_parser E opts (w ++ rest) 0) as [[]| | |]; cbn [obind] in Hp; congruence.
  - destruct Hw as (w0 & w1 & -> & How & Hu). rewrite <- app_assoc in *.
    assert (Hp : pctx (owner_label o) (read_attributes E (pool cs) opts (stack E)) (w0 ++ w1 ++ rest) (blen w0) = Panic x).
    { apply (attributes_place x cs o w0 _ How Hr Hdeep). assert (Hd : stack E = S (Nat.pred (stack E))) by lia. rewrite Hd. cbn [attributes_break].
      exists n, l, w1, rest. split; auto. }
    apply (fails_panics _ _ x (stop_attributes E Hstk opts cs o w0 How (w1 ++ rest) Hf)); [rewrite Hp; cbn; auto|exact Hp].
Qed.
End WithEnv.

(** ** C02, exactly: on a machine with 64-bit indices and a stack as deep as the input is long, a parse panics if and only if some
    beginning of the input is as the format demands and what follows is one of the three kinds that [breaks] lists. *)
Theorem C02_exact E opts bs x : ample E bs -> blen bs + 2 ^ 32 <= usize_max E ->
  (parse_class_with_options E opts bs = Panic x <->
   exists w rest, bs = w ++ rest /\ breaks (cesu8 E) (overflow_checks E) opts (usize_max E) (alloc_limit E) (stack E) x w rest).
Proof.
  intros Ham Hb. pose proof (ample_sane _ _ Ham) as Hs. assert (Hr : roomy E bs) by (split; [apply sane_fits; auto|auto]). split.
  - intro H. destruct (C53_fault E opts bs Hs) as (p & w & rest & -> & Hp); [intros c Hc; congruence|].
    apply (fault_panics E opts (sane_stack _ _ Hs) x p w rest Ham Hr Hp).
    unfold parse_class_with_options in H. destruct (class_parser E opts (w ++ rest) 0) as [[]| | |]; cbn [obind] in H; congruence.
  - intros (w & rest & -> & H). unfold parse_class_with_options. rewrite (breaks_panic E opts (sane_stack _ _ Hs) x w rest Ham Hr H). reflexivity.
Qed.
Lemma debug64_roomy bs : ampleb debug64 bs = true -> ample debug64 bs /\ blen bs + 2 ^ 32 <= usize_max debug64.
Proof.
  intro H. apply ampleb_ample in H. split; auto. pose proof (sane_alloc _ _ (ample_sane _ _ H)) as Ha. change (alloc_limit debug64) with (2 ^ 40) in Ha.
  change (usize_max debug64) with (2 ^ 64 - 1). change (2 ^ 64 - 1) with 18446744073709551615. change (2 ^ 40) with 1099511627776 in Ha. change (2 ^ 32) with 4294967296. lia.
Qed.
(** Examples: an undecodable descriptor, a far jump, a huge switch, a cycle; and a file that does not break. *)
Example C02_exact_meets :
  (forall bs x, In (bs, x) [(bad_enclosing, PNotUtf8); (far_jump, POverflow); (huge_switch, POverflow); (nt_cycle, PStackOverflow)] ->
     ample debug64 bs /\ blen bs + 2 ^ 32 <= usize_max debug64
     /\ exists w rest, bs = w ++ rest /\ breaks (cesu8 debug64) (overflow_checks debug64) true (usize_max debug64) (alloc_limit debug64) (stack debug64) x w rest)
  /\ ample debug64 sample /\ forall x, ~ exists w rest, sample = w ++ rest /\ breaks (cesu8 debug64) (overflow_checks debug64) true (usize_max debug64) (alloc_limit debug64) (stack debug64) x w rest.
Proof.
  split.
  - intros bs x Hin.
    assert (Ha : ampleb debug64 bs = true /\ parse_class_with_options debug64 true bs = Panic x).
    { repeat destruct Hin as [Hin|Hin]; try contradiction; injection Hin as <- <-; (split; [vm_compute; reflexivity|vm_compute; reflexivity]). }
    destruct Ha as [Ha Hp]. apply debug64_roomy in Ha. destruct Ha as [Ha Hb]. split; auto. split; auto. apply (C02_exact debug64 true bs x Ha Hb). exact Hp.
  - assert (Ha : ampleb debug64 sample = true) by (vm_compute; reflexivity). apply debug64_roomy in Ha. destruct Ha as [Ha Hb]. split; auto.
    intros x H. apply (C02_exact debug64 true sample x Ha Hb) in H. revert H. vm_compute. discriminate.
Qed.
