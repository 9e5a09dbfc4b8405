(** * Property theorems: changed files (C59).

    Vocabulary: [S_Rewrite], [S_Format], [S_Pool], [S_Env]. *)
From Verif Require Import Base M_Names M_Descriptors M_ConstantPool M_Bytecode M_Attributes M_Class M_Cesu8 Data Sample
  S_Lang S_Names S_Format S_Pool S_Within S_Env S_Rewrite P_Reads P_Tac P_Attr3 P_Pool4 P_Class P_Class2 P_Class3 P_Layout P_Within T_Class T_Members.
From Coq Require Import ZifyBool ZifyNat ZifyN.

(** ** Versions *)
Lemma two_bytes_u2 n : n < 65536 -> u2 n (two_bytes n).
Proof.
  intro Hn. unfold two_bytes.
  assert (H1 : n / 256 < 256) by (apply N.div_lt_upper_bound; lia). assert (H2 : n mod 256 < 256) by (apply N.mod_lt; lia).
  destruct (Byte.of_N (n / 256)) as [a|] eqn:Ha; [|apply Byte.of_N_None_iff in Ha; lia].
  destruct (Byte.of_N (n mod 256)) as [b|] eqn:Hb; [|apply Byte.of_N_None_iff in Hb; lia].
  apply Byte.to_of_N in Ha, Hb. split; [reflexivity|]. unfold be. cbn [fold_left]. rewrite Ha, Hb.
  pose proof (N.div_mod n 256 ltac:(lia)). lia.
Qed.
Lemma constant_version m m' c w : constant_lang m c w -> (constant_lang m' c w <-> introduced c <= m').
Proof. destruct c; cbn [constant_lang introduced]; unfold tagged; tauto. Qed.
Lemma constants_version m m' cs ws : Forall2 (constant_lang m) cs ws ->
  (Forall2 (constant_lang m') cs ws <-> forall x, In x cs -> introduced x <= m').
Proof.
  intro H. induction H as [|c w cs ws Hc Hcs IH]; [split; [intros _ x []|constructor]|]. split.
  - intros H' x [<-|Hx]; inversion H'; subst; [eapply constant_version; eauto|]. apply IH; auto.
  - intro Hx. constructor; [apply (constant_version m); auto; apply Hx; left; auto|apply IH; intros x Hi; apply Hx; right; auto].
Qed.
Lemma valid_version dec cs m m' c : valid_constant dec (slots_of cs) m c ->
  (valid_constant dec (slots_of cs) m' c <->
   forall k i a b, c = CMethodHandle k i -> at_index (slots_of cs) i (CInterfaceMethodref a b) -> k = InvokeStatic \/ k = InvokeSpecial -> 52 <= m').
Proof.
  intro H. destruct c; try (split; [intros _ ? ? ? ? Hx; discriminate Hx|intros _; exact H]).
  cbn [valid_constant] in *. destruct H as (t & Ht & Hk). split.
  - intros (t' & Ht' & Hk') k i a b [= -> ->] Hat Hor. unfold at_index in *. rewrite Ht' in Hat. injection Hat as ->.
    destruct Hor as [->| ->]; exact Hk'.
  - intro Hx. exists t. split; auto. destruct t; destruct kind; cbn in *; try contradiction; auto; eapply Hx; eauto.
Qed.

Lemma class_allowed dec wraps want d cs c bs : class_lang dec wraps want d cs c bs -> allowed_in cs c (major_version c).
Proof.
  intro Hc. destruct (class_starts _ _ _ _ _ _ _ Hc) as (count & ws & rest & (m & vv & n & _ & _ & _ & _ & Hws) & _ & Hval & _).
  destruct Hc as (_ & _ & _ & _ & Hmr & Hmod & _). rewrite Forall_forall in Hval, Hmr. split; [|split; [|split]].
  - apply (constants_version (major_version c) (major_version c) cs ws); auto.
  - intros k i a b Hin Hat Hor. eapply (valid_version dec cs _ (major_version c)); eauto.
  - intro Hb. apply Hmod in Hb. apply Hb.
  - intros mm Hmm Hname Hpar. destruct (Hmr mm Hmm) as [_ Hx]. destruct (Hx Hname) as [_ Hy]. apply N.lt_nge. auto.
Qed.
Lemma class_versions dec wraps want d cs c bs minor v : class_lang dec wraps want d cs c bs -> minor < 65536 -> v < 65536 ->
  (class_lang dec wraps want d cs (class_with_versions minor v c) (with_versions minor v bs) <-> allowed_in cs c v).
Proof.
  intros Hc Hminor Hv.
  assert (Hst := class_starts _ _ _ _ _ _ _ Hc). destruct Hst as (count & ws & rest & (m & vv & n & Hm & Hvv & Hn & -> & Hws) & Hf & Hval & Hrest).
  destruct Hc as (_ & HP & Hnd & Hnd' & Hmr & Hmod & Hboot).
  assert (Hw : with_versions minor v (m ++ vv ++ n ++ concat ws ++ rest) = m ++ two_bytes minor ++ two_bytes v ++ n ++ concat ws ++ rest).
  { destruct Hm as [Hm _]. destruct Hvv as (v1 & v2 & -> & [Hv1 _] & [Hv2 _]).
    destruct m as [|? [|? [|? [|? [|]]]]]; try discriminate Hm. destruct v1 as [|? [|? [|]]]; try discriminate Hv1.
    destruct v2 as [|? [|? [|]]]; try discriminate Hv2. reflexivity. }
  rewrite Hw. rewrite Forall_forall in Hval, Hmr. split.
  - intro Hc'. exact (class_allowed _ _ _ _ _ _ _ Hc').
  - intros (Hi & Hh & Hmo & Hcl). split; [|split; [|split; [|split; [|split; [|split]]]]]; cbn [class_with_versions minor_version major_version constant_pool access_flags this_class
      super_class interfaces fields methods class_attributes]; auto.
    + apply cat_intro; auto. apply cat_intro; [apply two_bytes_u2; auto|]. apply cat_intro; [apply two_bytes_u2; auto|].
      rewrite app_assoc. apply cat_intro; [|exact Hrest].
      exists count. split; [|split; auto].
      * apply cat_intro; auto. apply many_concat. exists ws. split; auto. apply (constants_version (major_version c)); auto.
      * apply Forall_forall. intros x Hx. apply (valid_version dec cs (major_version c)); auto. intros k i a b ->. eauto.
    + apply Forall_forall. intros mm Hmm. destruct (Hmr mm Hmm) as [H1 H2]. split; auto. intro Hname. destruct (H2 Hname) as [H3 H4].
      split; auto. intro H51. destruct (parameters (m_descriptor mm)) as [|p ps] eqn:Hp; auto. exfalso.
      apply (N.lt_nge v 51); auto. apply (Hcl mm); auto. congruence.
    + intro Hb. destruct (Hmod Hb) as (_ & H1 & H2 & H3 & H4 & H5). repeat split; auto.
Qed.

(** Giving a file other version numbers gives the same class with these numbers, or an error if the class
    uses what the version does not have. *)
Lemma with_versions_length minor v bs : (8 <= length bs)%nat -> minor < 65536 -> v < 65536 -> length (with_versions minor v bs) = length bs.
Proof.
  intros Hl Hm Hv. unfold with_versions. rewrite !app_length, firstn_length, skipn_length.
  destruct (two_bytes_u2 minor Hm) as [-> _]. destruct (two_bytes_u2 v Hv) as [-> _]. lia.
Qed.
Lemma class_long dec wraps want d cs c bs : class_lang dec wraps want d cs c bs -> (8 <= length bs)%nat.
Proof.
  intros [H _]. destruct H as (w0 & v0 & -> & [Hm _] & w1 & v1 & -> & [H1 _] & w2 & v2 & -> & [H2 _] & _). rewrite !app_length. lia.
Qed.
Lemma ample_length E bs bs' : length bs' = length bs -> ample E bs -> ample E bs'.
Proof. intros Hl [[H1 H2 H3 H4] H5]. unfold blen in *. constructor; [constructor|]; unfold blen; rewrite ?Hl; auto. Qed.
(** What follows the constants denotes one class only. *)
Lemma fits_suffix E a b : fits E (a ++ b) -> fits E b.
Proof. intros [H1 H2 H3]. rewrite blen_app in *. constructor; [exact H1|lia|lia]. Qed.
Lemma rules_0 major m : method_rules major m -> method_rules 0 m.
Proof. intros [H1 H2]. split; auto. intro Hn. destruct (H2 Hn) as [H3 _]. split; auto. lia. Qed.
Definition body (E : env) (opts : bool) (cs : list constant) (c : class_file) : lang :=
  flags_keep class_bits (access_flags c)
  +++ ref (that (class_at (cesu8 E) (slots_of cs)) class_name) (this_class c)
  +++ opt_ref (that (class_at (cesu8 E) (slots_of cs)) class_name) (super_class c)
  +++ table u2 (ref (that (class_at (cesu8 E) (slots_of cs)) class_name)) (interfaces c)
  +++ table u2 (field_lang (cesu8 E) (slots_of cs) (wrapping E) opts (stack E)) (fields c)
  +++ table u2 (method_lang (cesu8 E) (slots_of cs) (wrapping E) opts (stack E) (N.testbit (access_flags c) ACC_INTERFACE_bit)) (methods c)
  +++ attributes_lang (cesu8 E) (slots_of cs) (wrapping E) opts (stack E) (class_attributes c).
Definition members_ok (c : class_file) : Prop :=
  NoDup (map (fun f => (f_name f, f_descriptor f)) (fields c)) /\ NoDup (map (fun m => (m_name m, m_descriptor m)) (methods c))
  /\ Forall (method_rules (major_version c)) (methods c).
Lemma body_det E opts cs major c c' w : (2 <= stack E)%nat -> fits E w -> Forall (valid_constant (cesu8 E) (slots_of cs) major) cs ->
  members_ok c -> members_ok c' -> body E opts cs c w -> body E opts cs c' w ->
  access_flags c = access_flags c' /\ this_class c = this_class c' /\ super_class c = super_class c' /\ interfaces c = interfaces c'
  /\ fields c = fields c' /\ methods c = methods c' /\ class_attributes c = class_attributes c'.
Proof.
  intros Hstk Hfit Hval (Hnf & Hnm & Hr) (Hnf' & Hnm' & Hr')
    (w0 & r0 & -> & (f & Hf & Hb) & w1 & r1 & -> & H1 & w2 & r2 & -> & H2 & w3 & r3 & -> & H3 & w4 & r4 & -> & H4 & w5 & r5 & -> & H5 & H6)
    (w0' & r0' & He & (f' & Hf' & Hb') & w1' & r1' & -> & H1' & w2' & r2' & -> & H2' & w3' & r3' & -> & H3' & w4' & r4' & -> & H4' & w5' & r5' & -> & H5' & H6').
  destruct (reads_det E _ _ _ _ _ _ _ _ (reads_u2 E) Hfit He Hf Hf') as (-> & -> & He1). apply fits_suffix in Hfit.
  assert (Hfl : access_flags c = access_flags c') by (apply N.bits_inj; intro b; rewrite Hb, Hb'; reflexivity).
  destruct (reads_det E _ _ _ _ _ _ _ _ (reads_this_class E cs major Hval) Hfit He1 H1 H1') as (E1 & -> & He2). apply fits_suffix in Hfit.
  destruct (reads_det E _ _ _ _ _ _ _ _ (reads_super_class E cs major Hval) Hfit He2 H2 H2') as (E2 & -> & He3). apply fits_suffix in Hfit.
  destruct (reads_det E _ _ _ _ _ _ _ _ (reads_interfaces E cs major Hval) Hfit He3 H3 H3') as (E3 & -> & He4). apply fits_suffix in Hfit.
  destruct (reads_det E _ _ _ _ _ _ _ _ (reads_fields E cs opts) Hfit He4 (conj Hnf H4) (conj Hnf' H4')) as (E4 & -> & He5). apply fits_suffix in Hfit.
  rewrite <- Hfl in H5'.
  assert (Hr0 : Forall (method_rules 0) (methods c)) by (eapply Forall_impl; [intro; apply rules_0|exact Hr]).
  assert (Hr0' : Forall (method_rules 0) (methods c')) by (eapply Forall_impl; [intro; apply rules_0|exact Hr']).
  destruct (reads_det E _ _ _ _ _ _ _ _ (reads_methods E cs opts (N.testbit (access_flags c) ACC_INTERFACE_bit) 0) Hfit He5
    (conj Hnm (conj Hr0 H5)) (conj Hnm' (conj Hr0' H5'))) as (E5 & -> & He6). apply fits_suffix in Hfit. subst r5'.
  rewrite <- (app_nil_r r5) in Hfit.
  destruct (reads_det E _ _ _ [] _ [] _ _ (reads_attributes E cs opts (stack E)) Hfit eq_refl H6 H6') as (E6 & _). repeat (split; [assumption|]). assumption.
Qed.

Theorem C59_versions E opts bs c cs minor v : ample E bs -> parse_class_with_options E opts bs = Ok c -> constants_of E bs cs ->
  minor < 65536 -> v < 65536 ->
  (allowed_in cs c v -> parse_class_with_options E opts (with_versions minor v bs) = Ok (class_with_versions minor v c))
  /\ (~ allowed_in cs c v -> forall c', parse_class_with_options E opts (with_versions minor v bs) <> Ok c').
Proof.
  intros Ha H Hcs Hminor Hv. pose proof (ample_sane _ _ Ha) as Hs.
  destruct (proj1 (parse_Ok E opts (sane_stack _ _ Hs) bs c (sane_fits _ _ Hs)) H) as (cs' & Hc).
  assert (cs' = cs) as -> by (eapply constants_unique; [eapply class_constants; eauto|exact Hcs]).
  pose proof (class_versions _ _ _ _ _ _ _ minor v Hc Hminor Hv) as Hiff.
  assert (Hlong : (8 <= length bs)%nat) by (eapply class_long; eauto).
  assert (Ha' : ample E (with_versions minor v bs)) by (eapply ample_length; [apply with_versions_length; auto|exact Ha]).
  split.
  - intro Hal. apply C01_parse_iff_format; auto. exists (stack E), cs. apply Hiff, Hal.
  - intros Hno c' H'. apply Hno.
    pose proof (ample_sane _ _ Ha') as Hs'.
    destruct (proj1 (parse_Ok E opts (sane_stack _ _ Hs') _ c' (sane_fits _ _ Hs')) H') as (cs' & Hc').
    pose proof (class_starts _ _ _ _ _ _ _ Hc) as (count & ws & rest & (m & vv & n & Hm & Hvv & Hn & He & Hws) & Hf & Hval & Hrest).
    pose proof (class_starts _ _ _ _ _ _ _ Hc') as (count' & ws' & rest' & (m' & vv' & n' & Hm' & Hvv' & Hn' & He' & Hws') & Hf' & Hval' & Hrest').
    assert (Hmv : vv' = two_bytes minor ++ two_bytes v /\ n ++ concat ws ++ rest = n' ++ concat ws' ++ rest').
    { rewrite He in He'. destruct Hm as [Hm _], Hm' as [Hm' _]. destruct Hvv as (v1 & v2 & -> & [Hv1 _] & [Hv2 _]).
      destruct (two_bytes_u2 minor Hminor) as [Hb1 _]. destruct (two_bytes_u2 v Hv) as [Hb2 _].
      destruct m as [|? [|? [|? [|? [|]]]]]; try discriminate Hm. destruct v1 as [|? [|? [|]]]; try discriminate Hv1.
      destruct v2 as [|? [|? [|]]]; try discriminate Hv2. unfold with_versions in He'. cbn [firstn skipn app] in He'.
      destruct m' as [|? [|? [|? [|? [|]]]]]; try discriminate Hm'. cbn [app] in He'. injection He' as _ _ _ _ He'.
      rewrite !app_assoc in He'. rewrite <- !(app_assoc (two_bytes minor ++ two_bytes v)) in He'. rewrite <- !(app_assoc vv') in He'.
      apply app_eq_len in He'; [destruct He' as [-> He']; split; [reflexivity|]; rewrite <- !app_assoc in He'; exact He'|].
      rewrite app_length, Hb1, Hb2. destruct Hvv' as (x & y & -> & [Hx _] & [Hy _]). rewrite app_length. lia. }
    destruct Hmv as [-> Hpool].
    assert (Hmaj : major_version c' = v).
    { destruct Hvv' as (x & y & Hxy & [Hx _] & [Hy Hy']). destruct (two_bytes_u2 minor Hminor) as [Hb1 _]. destruct (two_bytes_u2 v Hv) as [Hb2 Hb2'].
      apply app_eq_len in Hxy; [|congruence]. destruct Hxy as [_ <-]. congruence. }
    assert (Htop : u2 65535 [xff; xff]) by (split; reflexivity). assert (Hzero : u2 0 [x00; x00]) by (split; reflexivity).
    assert (Hall : forall x, introduced x <= 65535) by (intros []; vm_compute; discriminate).
    assert (S1 : starts_with_pool ([xca; xfe; xba; xbe] ++ [x00; x00; xff; xff] ++ n ++ concat ws ++ rest) 0 65535 count cs ws rest).
    { exists [xca; xfe; xba; xbe], [x00; x00; xff; xff], n. split; [split; reflexivity|]. split; [exists [x00; x00], [xff; xff]; auto|].
      split; auto. split; auto. apply (constants_version (major_version c)); auto. }
    assert (S2 : starts_with_pool ([xca; xfe; xba; xbe] ++ [x00; x00; xff; xff] ++ n ++ concat ws ++ rest) 0 65535 count' cs' ws' rest').
    { exists [xca; xfe; xba; xbe], [x00; x00; xff; xff], n'. split; [split; reflexivity|]. split; [exists [x00; x00], [xff; xff]; auto|].
      split; auto. split; [rewrite Hpool; reflexivity|]. apply (constants_version (major_version c')); auto. }
    destruct (pool_unique _ _ _ _ _ _ _ _ _ _ _ _ _ _ S1 S2 Hf Hf') as (_ & _ & <- & <- & <- & <-).
    assert (Hok : members_ok c) by (destruct Hc as (_ & _ & ? & ? & ? & _); split; auto).
    assert (Hok' : members_ok c') by (destruct Hc' as (_ & _ & ? & ? & ? & _); split; auto).
    assert (Hfit : fits E rest).
    { pose proof (sane_fits _ _ Hs) as Hfit. rewrite He in Hfit. do 4 apply fits_suffix in Hfit. exact Hfit. }
    destruct (body_det E opts cs _ c c' rest (sane_stack _ _ Hs) Hfit Hval Hok Hok' Hrest Hrest') as (Hfl & _ & _ & _ & _ & Hme & _).
    pose proof (class_allowed _ _ _ _ _ _ _ Hc') as Hal. rewrite Hmaj in Hal. unfold allowed_in in *. rewrite Hfl, Hme. exact Hal.
Qed.
Example C59_meets : ample debug64 sample /\ parse_class_with_options debug64 true sample = Ok sample_parsed /\ constants_of debug64 sample sample_constants
  /\ major_version sample_parsed = 61 /\ allowed_in sample_constants sample_parsed 52 /\ ~ allowed_in sample_constants sample_parsed 50.
Proof.
  split; [apply ampleb_ample; vm_compute; reflexivity|]. split; [exact sample_parse|]. split; [exact sample_of|]. split; [reflexivity|]. split.
  - split; [|split; [|split]].
    + intros x Hx. assert (Hall : forallb (fun x => introduced x <=? 52) sample_constants = true) by (vm_compute; reflexivity).
      rewrite forallb_forall in Hall. apply N.leb_le, Hall, Hx.
    + intros. lia.
    + intro Hb. vm_compute in Hb. discriminate.
    + intros m Hm Hn. assert (Hall : forallb (fun m => negb (str_eqb (m_name m) (lit "<clinit>"))) (methods sample_parsed) = true) by (vm_compute; reflexivity).
      rewrite forallb_forall in Hall. specialize (Hall m Hm). rewrite Hn in Hall. vm_compute in Hall. discriminate.
  - intros (Hi & _). specialize (Hi (CMethodHandle InvokeStatic 25) ltac:(vm_compute; tauto)). vm_compute in Hi. apply Hi. reflexivity.
Qed.
