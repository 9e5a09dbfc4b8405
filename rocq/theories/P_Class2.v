(** * Class files: [parse_class_with_options] accepts exactly [class_lang]. *)
From Verif Require Import Base M_Names M_Descriptors M_ConstantPool M_Bytecode M_Attributes M_Class S_Lang S_Names S_Format
  P_Reads P_Tac P_Names P_Descriptors P_Pool P_Pool2 P_Pool3 P_Pool4 P_Refs P_Insn P_Insn2 P_Bytecode P_Attributes P_Attr2 P_Attr3 P_Class.
From Coq Require Import ZifyBool ZifyNat ZifyN.

(** ** Parsers that must end at the end of the input *)
Definition ends {A} (E : env) (p : parser A) (L : A -> lang) : Prop :=
  forall ix bs a ix', fits E bs -> ix <= blen bs ->
    (p bs ix = Ok (a, ix') <-> ix' = blen bs /\ exists pre w, bs = pre ++ w /\ ix = blen pre /\ L a w).
Lemma ends_ext {A} E (p : parser A) L M : ends E p L -> (forall a w, L a w <-> M a w) -> ends E p M.
Proof.
  intros H HLM ix bs a ix' Hfit Hix. rewrite (H ix bs a ix' Hfit Hix).
  split; intros (-> & pre & w & -> & H1 & H2); (split; [reflexivity|]); exists pre, w; repeat split; auto; apply HLM; auto.
Qed.
Lemma ends_bind {A B} E (p : parser A) (k : A -> parser B) L M : reads E p L ->
  (forall a, (exists w, L a w) -> ends E (k a) (M a)) -> ends E (bind p k) (fun b w => exists a, (L a +++ M a b) w).
Proof.
  intros Hp Hk ix bs b ix' Hfit Hix. rewrite bind_Ok. split.
  - intros (a & ix1 & H1 & H2). apply Hp in H1; auto. pose proof (span_le _ _ _ _ H1).
    destruct H1 as (pre & w & post & -> & -> & -> & Hw). apply Hk in H2; eauto; try lia.
    destruct H2 as (-> & pre' & w' & Heq & Hl & HM). split; auto.
    rewrite app_assoc in Heq. apply app_eq_blen in Heq; [|rewrite blen_app; lia]. destruct Heq as [<- ->].
    exists pre, (w ++ w'). repeat split; auto. exists a. apply cat_intro; auto.
  - intros (-> & pre & w & -> & -> & a & u & v & -> & Hu & Hv). exists a, (blen pre + blen u). split.
    + apply Hp; auto. exists pre, u, v. auto.
    + apply Hk; eauto; [rewrite !blen_app; lia|]. split; auto. exists (pre ++ u), v. rewrite <- app_assoc, blen_app. auto.
Qed.
Lemma ends_guard {B} E b m (k : parser B) M : (b = true -> ends E k M) -> ends E (_ <- guard b m ;; k) (fun x w => b = true /\ M x w).
Proof.
  intros Hk. destruct b; unfold guard.
  - eapply ends_ext; [exact (Hk eq_refl)|]. intuition.
  - intros ix bs a ix' Hfit Hix. split; [discriminate|]. intros (_ & ? & ? & _ & _ & ? & _). discriminate.
Qed.
Lemma ends_lift {A B} E (m : outcome A) (k : A -> parser B) M : (forall a, m = Ok a -> ends E (k a) (M a)) ->
  ends E (bind (lift m) k) (fun b w => exists a, m = Ok a /\ M a b w).
Proof.
  intros Hk. eapply ends_ext; [eapply ends_bind; [apply reads_lift|]; intros a (w & _ & Ha); exact (Hk a Ha)|].
  intros b w. split.
  - intros (a & u & v & -> & [-> Ha] & H). eauto.
  - intros (a & Ha & H). exists a. apply cat_nil_l; auto.
Qed.
Lemma ends_here {B} E m (k : parser B) M : reads E k (fun b => only_if (M b)) ->
  ends E (bs <- get_bytes ;; ix <- get_ix ;; _ <- guard (ix =? blen bs) (m ix) ;; k) (fun b => only_if (M b)).
Proof.
  intros Hk ix bs b ix' Hfit Hix. unfold bind at 1 2, get_bytes, get_ix. destruct (N.eqb_spec ix (blen bs)) as [->|Hne]; cbn [guard].
  - change ((_ <- ret tt ;; k) bs (blen bs)) with (k bs (blen bs)). rewrite (Hk (blen bs) bs b ix' Hfit Hix). split.
    + intros (pre & w & post & -> & H1 & H2 & -> & H3). rewrite blen_nil in H2. split; [lia|].
      exists (pre ++ post), []. cbn [app] in *. rewrite app_nil_r. repeat split; auto.
    + intros (-> & pre & w & -> & H1 & -> & H3). exists pre, [], []. cbn [app]. rewrite blen_nil. repeat split; auto. lia.
  - split; [discriminate|]. intros (-> & pre & w & -> & H1 & -> & H3). rewrite app_nil_r in Hne. congruence.
Qed.

Section WithEnv.
Variable E : env.
Notation dec := (cesu8 E).
Notation wraps := (negb (overflow_checks E)).

Section Names.
Variable cs : list constant.
Notation sl := (slots_of cs).
Notation P := (pool_of dec sl).
Variable major : N.
Hypothesis Hvalid : Forall (valid_constant dec sl major) cs.

Lemma class_at_valid i s : class_at dec sl i s -> binary_name s \/ array_descriptor s.
Proof.
  intros (u & Hu & Hs). assert (Hin : In (CClass u) cs) by (apply in_slots; eauto).
  pose proof (proj1 (Forall_forall _ _) Hvalid _ Hin) as (s' & Hs' & H). cbn [valid_constant] in *.
  destruct Hs as (raw & Hr & Hd). destruct Hs' as (raw' & Hr' & Hd'). unfold at_index in *. rewrite Hr in Hr'.
  injection Hr' as <-. rewrite Hd in Hd'. injection Hd' as <-. exact H.
Qed.
Lemma reads_class_name c : reads E (pctx c (s <- read_cp_classinfo P ;; lift (class_name_try_from s)))
  (ref (that (class_at dec sl) class_name)).
Proof.
  eapply reads_pctx. eapply reads_ext; [eapply reads_bind; [apply reads_cp_classinfo|intros; apply reads_lift]|].
  intros n w. split.
  - intros (s & u & v & -> & Hu & -> & H). rewrite app_nil_r.
    apply (decides_iff _ _ (class_name_try_from_spec s)) in H. destruct H as [-> H]. apply ref_that. split; auto.
    apply loose_valid; auto. destruct Hu as (i & _ & Hi). eapply class_at_valid; eauto.
  - intro H. apply ref_that in H. destruct H as [Hu H]. exists n. apply cat_nil_r; auto.
    apply (decides_iff _ _ (class_name_try_from_spec n)). split; auto. apply loose_valid; auto.
    destruct Hu as (i & _ & Hi). eapply class_at_valid; eauto.
Qed.
Lemma reads_this_class : reads E (read_this_class P) (ref (that (class_at dec sl) class_name)).
Proof. apply reads_class_name. Qed.
Lemma reads_super_class : reads E (read_super_class P) (opt_ref (that (class_at dec sl) class_name)).
Proof.
  unfold read_super_class. eapply reads_pctx. eapply reads_ext.
  - eapply reads_bind; [apply reads_cp_classinfo_opt|]. intros o _.
    instantiate (1 := fun o r => only_if (match o with None => r = None | Some s => r = Some s /\ loose_class_name s end)).
    destruct o as [s|]; [|apply reads_ret].
    eapply reads_ext; [eapply reads_lift_bind; intros; apply reads_ret|]. intros r w. split.
    + intros (n & H & -> & ->). apply (decides_iff _ _ (class_name_try_from_spec s)) in H. destruct H as [-> H].
      split; auto.
    + intros (-> & -> & H). exists s. split; [|split; auto]. apply (decides_iff _ _ (class_name_try_from_spec s)). auto.
  - intros r w. split.
    + intros (o & u & v & -> & Hu & -> & H). rewrite app_nil_r. destruct o as [s|]; [destruct H as [-> H]|subst r]; auto.
      cbn [opt_ref] in *. apply ref_that. split; auto. apply loose_valid; auto. destruct Hu as (i & _ & Hi). eapply class_at_valid; eauto.
    + intro H. exists r. destruct r as [s|]; cbn [opt_ref] in *.
      * apply ref_that in H. destruct H as [Hu H]. apply cat_nil_r; auto. split; auto. apply loose_valid; auto.
        destruct Hu as (i & _ & Hi). eapply class_at_valid; eauto.
      * apply cat_nil_r; auto.
Qed.
Lemma reads_interfaces : reads E (read_interfaces P) (table u2 (ref (that (class_at dec sl) class_name))).
Proof. unfold read_interfaces. eapply reads_table; [apply reads_u2|]. intro. apply reads_class_name. Qed.
End Names.

(** ** Bootstrap methods *)
Definition tables_of (attrs : list attr_info) : list (list bootstrap_method) :=
  flat_map (fun a => match attr_dat a with ABootstrapMethods l => [l] | _ => [] end) attrs.
Lemma bootstrap_found_Ok x : forall attrs found r, bootstrap_found x attrs found = Ok r <->
  (r = found + N.of_nat (length (tables_of attrs)) /\ forall l, In l (tables_of attrs) -> x < N.of_nat (length l)).
Proof.
  induction attrs as [|a attrs IH]; intros found r; cbn [bootstrap_found].
  - cbn. split; [intros [= <-]; split; [lia|tauto]|]. intros [-> _]. f_equal. lia.
  - unfold tables_of. cbn [flat_map]. fold (tables_of attrs).
    destruct (attr_dat a); try (cbn [app]; apply IH).
    cbn [app length]. destruct (N.leb_spec (N.of_nat (length l)) x) as [Hle|Hlt].
    + split; [discriminate|]. intros [_ H]. specialize (H l (or_introl eq_refl)). lia.
    + rewrite IH. split; intros [H1 H2]; (split; [lia|]).
      * intros l' [<-|Hl]; auto.
      * intros l' Hl. apply H2. right; auto.
Qed.
Lemma found_once x attrs : (exists r, bootstrap_found x attrs 0 = Ok r /\ r = 1) <->
  exists l, tables_of attrs = [l] /\ x < N.of_nat (length l).
Proof.
  split.
  - intros (r & H & ->). apply bootstrap_found_Ok in H. destruct H as [H1 H2].
    destruct (tables_of attrs) as [|l [|l' rest]]; cbn [length] in H1; try lia. exists l. split; auto. apply H2. left; auto.
  - intros (l & Hl & Hx). exists 1. split; auto. apply bootstrap_found_Ok. rewrite Hl. split; [reflexivity|]. intros l' [<-|[]]; auto.
Qed.
Definition bootstrap_index (e : entry) : option N :=
  match e with EDynamic x _ | EInvokeDynamic x _ => Some x | _ => None end.
Lemma validate_bootstrap_Ok es attrs : validate_bootstrap_methods es attrs = Ok tt <->
  forall e x, In e es -> bootstrap_index e = Some x -> exists l, tables_of attrs = [l] /\ x < N.of_nat (length l).
Proof.
  induction es as [|e es IH]; cbn [validate_bootstrap_methods].
  - split; auto. intros _ e x [].
  - assert (Hskip : bootstrap_index e = None -> ((forall e' x, In e' es -> bootstrap_index e' = Some x -> exists l, tables_of attrs = [l] /\ x < N.of_nat (length l))
      <-> (forall e' x, In e' (e :: es) -> bootstrap_index e' = Some x -> exists l, tables_of attrs = [l] /\ x < N.of_nat (length l)))).
    { intro Hn. split; intros H e' x; [intros [<-|Hi] Hx; [congruence|eauto]|intros Hi; apply H; right; auto]. }
    assert (Hhit : forall x, bootstrap_index e = Some x -> ((let* found := bootstrap_found x attrs 0 in
          if negb (found =? 1) then
            fail (lit "Found unexpected number of BootstrapMethods attributes in class; found "
                  ++ show_N found ++ lit ", expected 1")
          else validate_bootstrap_methods es attrs) = Ok tt
      <-> (forall e' x, In e' (e :: es) -> bootstrap_index e' = Some x -> exists l, tables_of attrs = [l] /\ x < N.of_nat (length l)))).
    { intros x Hx. rewrite obind_Ok. split.
      - intros (r & H1 & H2). destruct (N.eqb_spec r 1) as [->|]; [|discriminate]. cbn [negb] in H2.
        assert (H3 := proj1 (found_once x attrs) (ex_intro _ _ (conj H1 eq_refl))). rewrite IH in H2.
        intros e' x' [<-|Hi] Hx'; [|eauto]. rewrite Hx in Hx'. injection Hx' as <-. exact H3.
      - intro H. destruct (proj2 (found_once x attrs) (H e x (or_introl eq_refl) Hx)) as (r & H1 & ->).
        exists 1. split; auto. cbn. apply IH. intros e' x' Hi. apply H. right; auto. }
    destruct e; try (rewrite IH; apply Hskip; reflexivity); apply Hhit; reflexivity.
Qed.

Lemma pool_bootstrap cs x : (exists e, In e (pool_of dec (slots_of cs)) /\ bootstrap_index e = Some x) <->
  exists nt, In (CDynamic x nt) cs \/ In (CInvokeDynamic x nt) cs.
Proof.
  unfold pool_of, slots_of. split.
  - intros (e & [<-|He] & Hx); [discriminate|]. apply in_map_iff in He. destruct He as ([c|] & <- & Hc); [|discriminate].
    apply in_flat_map in Hc. destruct Hc as (c' & Hc' & Hc).
    assert (c' = c) as -> by (destruct (is_wide c'); cbn in Hc; intuition congruence).
    destruct c; cbn [entry_of bootstrap_index] in Hx; try discriminate; try (destruct (dec raw); discriminate);
    injection Hx as ->; eauto.
  - intros (nt & [H|H]); eexists; (split; [right; apply in_map_iff; eexists; split; [reflexivity|]; apply in_flat_map;
      eexists; split; [exact H|left; reflexivity]|reflexivity]).
Qed.

(** ** The class file *)
Lemma testbit_contains flags k : contains flags (2 ^ k) = N.testbit flags k.
Proof.
  unfold contains. destruct (N.testbit flags k) eqn:Hb.
  - apply N.eqb_eq. apply N.bits_inj. intro b. rewrite N.land_spec, N.pow2_bits_eqb.
    destruct (N.eqb_spec k b) as [<-|]; [rewrite Hb; reflexivity|apply Bool.andb_false_r].
  - apply N.eqb_neq. intro H. assert (H1 : N.testbit (N.land flags (2 ^ k)) k = true) by (rewrite H, N.pow2_bits_true; auto).
    rewrite N.land_spec, Hb in H1. discriminate.
Qed.

Variable opts : parse_options.
Hypothesis Hstk : (2 <= stack E)%nat.

Lemma class_bits_eq : class_flags = class_bits. Proof. reflexivity. Qed.

Lemma reads_module_flags m flags major : reads E (check_module_flags m flags major)
  (fun _ => only_if (m = true -> 53 <= major /\ flags = 0x8000)).
Proof.
  unfold check_module_flags. destruct m.
  - eapply reads_ext; [eapply reads_guard_bind; intros _; apply reads_guard|]. intros [] w. unfold only_if.
    change ACC_MODULE with 0x8000. destruct (N.ltb_spec major 53), (N.eqb_spec flags 0x8000); cbn; intuition (try discriminate; lia).
  - eapply reads_ext; [apply reads_ret|]. intros [] w. unfold only_if. intuition discriminate.
Qed.
Lemma count_0 {X} (l : list X) : (count_of l =? 0) = true <-> l = [].
Proof. unfold count_of. rewrite N.eqb_eq. destruct l; cbn; split; intro; try discriminate; auto. Qed.
Lemma reads_module_contents m su ifs fs ms : reads E (check_module_contents m su ifs fs ms)
  (fun _ => only_if (m = true -> su = None /\ ifs = [] /\ fs = [] /\ ms = [])).
Proof.
  unfold check_module_contents. destruct m.
  - destruct su as [s|].
    + eapply reads_ext; [apply reads_pfail|]. intros [] w. unfold only_if. intuition discriminate.
    + eapply reads_ext; [do 2 (eapply reads_guard_bind; intros _); apply reads_guard|]. intros [] w. unfold only_if.
      rewrite !count_0. intuition.
  - eapply reads_ext; [apply reads_ret|]. intros [] w. unfold only_if. intuition discriminate.
Qed.

(** The pool is read first; the rest depends on its constants. *)
Lemma ends_bind_img {X A B} (p : parser A) (f : X -> A) (k : A -> parser B) (L : X -> lang) (M : X -> B -> lang) :
  reads E p (fun a w => exists x, a = f x /\ L x w) ->
  (forall x, (exists w, L x w) -> ends E (k (f x)) (M x)) -> ends E (bind p k) (fun b w => exists x, (L x +++ M x b) w).
Proof.
  intros Hp Hk ix bs b ix' Hfit Hix. rewrite bind_Ok. split.
  - intros (a & ix1 & H1 & H2). apply Hp in H1; auto. pose proof (span_le _ _ _ _ H1).
    destruct H1 as (pre & w & post & -> & -> & -> & x & -> & Hw). apply Hk in H2; eauto; try lia.
    destruct H2 as (-> & pre' & w' & Heq & Hl & HM). split; auto.
    rewrite app_assoc in Heq. apply app_eq_blen in Heq; [|rewrite blen_app; lia]. destruct Heq as [<- ->].
    exists pre, (w ++ w'). repeat split; auto. exists x. apply cat_intro; auto.
  - intros (-> & pre & w & -> & -> & x & u & v & -> & Hu & Hv). exists (f x), (blen pre + blen u). split.
    + apply Hp; auto. exists pre, u, v. repeat split; eauto.
    + apply Hk; eauto; [rewrite !blen_app; lia|]. split; auto. exists (pre ++ u), v. rewrite <- app_assoc, blen_app. auto.
Qed.

Section Rest.
Variables (minor major : N) (cs : list constant).
Notation sl := (slots_of cs).
Notation P := (pool_of dec sl).
Hypothesis Hvalid : Forall (valid_constant dec sl major) cs.

(** What follows the pool *)
Definition rest_parser : parser class_file :=
  raw_flags <- read_u2 ;;
  let flags := from_bits_truncate class_flags raw_flags in
  let is_module := contains flags ACC_MODULE in
  _ <- check_module_flags is_module flags major ;;
  this <- read_this_class P ;;
  super <- read_super_class P ;;
  ifs <- read_interfaces P ;;
  fs <- read_fields E P opts ;;
  ms <- read_methods E P opts (contains flags ACC_INTERFACE) major ;;
  attributes <- pctx (lit "class") (read_attributes E P opts (stack E)) ;;
  bs <- get_bytes ;;
  ix <- get_ix ;;
  _ <- guard (ix =? blen bs)
         (lit "Extra bytes found at index " ++ show_N ix ++ lit " after reading class file") ;;
  _ <- check_module_contents is_module super ifs fs ms ;;
  _ <- lift (validate_bootstrap_methods P attributes) ;;
  ret (mk_class major minor P flags this super ifs fs ms attributes).
Definition rest_lang (c : class_file) : lang := fun w =>
  let in_interface := N.testbit (access_flags c) ACC_INTERFACE_bit in
  (flags_keep class_bits (access_flags c)
   +++ ref (that (class_at dec sl) class_name) (this_class c)
   +++ opt_ref (that (class_at dec sl) class_name) (super_class c)
   +++ table u2 (ref (that (class_at dec sl) class_name)) (interfaces c)
   +++ table u2 (field_lang dec sl wraps opts (stack E)) (fields c)
   +++ table u2 (method_lang dec sl wraps opts (stack E) in_interface) (methods c)
   +++ attributes_lang dec sl wraps opts (stack E) (class_attributes c)) w
  /\ minor_version c = minor /\ major_version c = major
  /\ constant_pool c = P
  /\ NoDup (map (fun f => (f_name f, f_descriptor f)) (fields c))
  /\ NoDup (map (fun m => (m_name m, m_descriptor m)) (methods c))
  /\ Forall (method_rules major) (methods c)
  /\ module_rules c
  /\ bootstrap_rules cs c.

Lemma bootstrap_rules_iff c : constant_pool c = P ->
  validate_bootstrap_methods P (class_attributes c) = Ok tt <-> bootstrap_rules cs c.
Proof.
  intro HP. rewrite validate_bootstrap_Ok. unfold bootstrap_rules. change (bootstrap_tables c) with (tables_of (class_attributes c)). split.
  - intros H b nt Hin. destruct (proj2 (pool_bootstrap cs b)) as (e & He & Hx); eauto.
  - intros H e x He Hx. destruct (proj1 (pool_bootstrap cs x)) as (nt & Hnt); eauto.
Qed.

Lemma ends_rest : ends E rest_parser rest_lang.
Proof.
  unfold rest_parser. cbv zeta.
  eapply ends_ext.
  - eapply ends_bind; [apply reads_u2|]. intros n _.
    eapply ends_bind; [apply reads_module_flags|]. intros v0 _.
    eapply ends_bind; [apply (reads_this_class cs major Hvalid)|]. intros this _.
    eapply ends_bind; [apply (reads_super_class cs major Hvalid)|]. intros su _.
    eapply ends_bind; [apply (reads_interfaces cs major Hvalid)|]. intros ifs _.
    eapply ends_bind; [apply reads_fields|]. intros fs _.
    eapply ends_bind; [apply reads_methods|]. intros ms _.
    eapply ends_bind; [apply reads_pctx, reads_attributes|]. intros attrs _.
    apply (ends_here E (fun ix => (lit "Extra bytes found at index " ++ show_N ix ++ lit " after reading class file"))).
    eapply reads_ext.
    + eapply reads_bind; [apply reads_module_contents|]. intros v1 _. eapply reads_lift_bind. intros v2 _. apply reads_ret.
    + intros b w. instantiate (1 := fun b => (contains (from_bits_truncate class_flags n) ACC_MODULE = true -> su = None /\ ifs = [] /\ fs = [] /\ ms = [])
         /\ validate_bootstrap_methods P attrs = Ok tt /\ b = mk_class major minor P (from_bits_truncate class_flags n) this su ifs fs ms attrs).
      split.
      * intros ([] & u & v & -> & [-> H1] & [] & H2 & -> & H3). split; auto.
      * intros (-> & H1 & H2 & H3). exists tt. apply cat_nil_l; [auto|]. exists tt. split; [auto|]. split; auto.
  - intros c w. unfold rest_lang. split.
    + intros (n & u0 & v0 & -> & Hn & [] & u1 & v1 & -> & [-> Hmod] & this & u2 & v2 & -> & Hthis & su & u3 & v3 & -> & Hsu
        & ifs & u4 & v4 & -> & Hifs & fs & u5 & v5 & -> & [Hnf Hfs] & ms & u6 & v6 & -> & (Hnm & Hrm & Hms) & attrs & u7 & v7 & -> & Hattrs & -> & Hmod2 & Hboot & ->).
      cbn [access_flags this_class super_class interfaces fields methods class_attributes minor_version major_version constant_pool app].
      rewrite app_nil_r. split.
      { repeat apply cat_intro; auto.
        - exists n. split; auto. intro b. unfold from_bits_truncate. rewrite class_bits_eq, N.land_spec. reflexivity.
        - rewrite <- testbit_contains. exact Hms. }
      do 6 (split; [assumption || reflexivity|]). split.
      * intro Hm. change 0x8000 with (2 ^ 15). unfold ACC_MODULE_bit in Hm. cbn [access_flags] in Hm. rewrite <- testbit_contains in Hm.
        destruct (Hmod Hm), (Hmod2 Hm) as (? & ? & ? & ?). cbn. repeat split; auto.
      * apply bootstrap_rules_iff; auto.
    + destruct c as [maj mnr p flags this su ifs fs ms attrs].
      cbn [access_flags this_class super_class interfaces fields methods class_attributes minor_version major_version constant_pool].
      intros (Hw & -> & -> & -> & Hnf & Hnm & Hrm & Hmod & Hboot).
      destruct Hw as (u0 & v0 & -> & (n & Hn & Hbits) & u1 & v1 & -> & Hthis & u2 & v2 & -> & Hsu & u3 & v3 & -> & Hifs & u4 & v4 & -> & Hfs
        & u5 & v5 & -> & Hms & Hattrs).
      assert (flags = from_bits_truncate class_flags n) as ->.
      { apply N.bits_inj. intro b. rewrite Hbits. unfold from_bits_truncate. rewrite class_bits_eq, N.land_spec. reflexivity. }
      assert (Hmod' : contains (from_bits_truncate class_flags n) ACC_MODULE = true ->
        (53 <= major /\ from_bits_truncate class_flags n = 0x8000) /\ su = None /\ ifs = [] /\ fs = [] /\ ms = []).
      { intro Hm. destruct Hmod as (? & ? & ? & ? & ? & ?); [|cbn in *; auto 10].
        unfold ACC_MODULE_bit. cbn [access_flags]. rewrite <- testbit_contains. exact Hm. }
      exists n. apply cat_intro; auto. exists tt. apply cat_nil_l; [intro Hm; apply Hmod'; auto|].
      exists this. apply cat_intro; auto. exists su. apply cat_intro; auto. exists ifs. apply cat_intro; auto.
      exists fs. apply cat_intro; [split; auto|]. exists ms. apply cat_intro.
      { split; [auto|split; auto]. rewrite <- testbit_contains in Hms. exact Hms. }
      exists attrs. apply cat_nil_r; auto. split; [intro Hm; apply Hmod'; auto|]. split; auto.
      apply bootstrap_rules_iff in Hboot; auto.
Qed.
End Rest.

Theorem ends_class : ends E (class_parser E opts) (fun c w => exists cs, class_lang dec wraps opts (stack E) cs c w).
Proof.
  unfold class_parser. eapply ends_ext.
  - eapply ends_bind; [apply reads_u4|]. intros magic _. eapply ends_guard. intros _.
    eapply ends_bind; [apply reads_u2|]. intros minor _. eapply ends_bind; [apply reads_u2|]. intros major _.
    eapply (ends_bind_img _ (fun cs => pool_of dec (slots_of cs))); [apply reads_constant_pool; exact Hstk|].
    intros cs (w & count & _ & _ & Hv). exact (ends_rest minor major cs Hv).
  - intros c w. unfold class_lang, rest_lang. split.
    + intros (magic & w0 & v0 & -> & Hm & Hmagic & minor & w1 & v1 & -> & Hminor & major & w2 & v2 & -> & Hmajor & cs
        & w3 & v3 & -> & Hcs & Hrest & Hmi & Hma & H). apply N.eqb_eq in Hmagic. subst magic minor major. exists cs.
      split; [repeat apply cat_intro; auto|exact H].
    + intros (cs & Hw & H). destruct Hw as (w0 & v0 & -> & Hm & w1 & v1 & -> & Hminor & w2 & v2 & -> & Hmajor & w3 & v3 & -> & Hcs & Hrest).
      exists 0xCAFEBABE. apply cat_intro; auto. split; auto. eexists. apply cat_intro; [exact Hminor|].
      eexists. apply cat_intro; [exact Hmajor|]. exists cs. apply cat_intro; auto.
Qed.

Theorem parse_Ok bs c : fits E bs ->
  (parse_class_with_options E opts bs = Ok c <-> exists cs, class_lang dec wraps opts (stack E) cs c bs).
Proof.
  intro Hfit. unfold parse_class_with_options. rewrite obind_Ok. split.
  - intros ([c' ix] & H & [= <-]). apply ends_class in H; auto; [|lia]. destruct H as (_ & pre & w & -> & H0 & H).
    destruct pre; [exact H|]. unfold blen in H0. cbn in H0. lia.
  - intro H. exists (c, blen bs). split; auto. apply ends_class; auto; [lia|]. split; auto. exists [], bs. auto.
Qed.
End WithEnv.
