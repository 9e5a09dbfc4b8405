(** * Property theorems: format checking (C58).

    Vocabulary: [S_Jvms] (the rules of the JVM specification), [S_Format], [S_Pool], [S_Within], [S_Env]. *)
From Verif Require Import Base M_Names M_Descriptors M_ConstantPool M_Bytecode M_Attributes M_Class M_Cesu8 Data Sample
  S_Lang S_Names S_Format S_Pool S_Within S_Env S_Jvms P_Reads P_Tac P_Descriptors P_Pool4 P_Class3 P_Layout P_Within P_Jvms
  T_Class T_Members.
From Coq Require Import ZifyBool ZifyNat ZifyN.

(** ** What indices denote is unique *)
Section Pool.
Variable dec : list byte -> option str.
Variable cs : list constant.
Lemma at_unique i a b : at_index (slots_of cs) i a -> at_index (slots_of cs) i b -> a = b.
Proof. unfold at_index. congruence. Qed.
Lemma utf8_unique i s t : utf8_at dec (slots_of cs) i s -> utf8_at dec (slots_of cs) i t -> s = t.
Proof. intros (r & Hr & Hd) (r' & Hr' & Hd'). pose proof (at_unique _ _ _ Hr Hr') as [= <-]. congruence. Qed.
Lemma named_unique nt n d n' d' : named dec cs nt n d -> named dec cs nt n' d' -> n = n' /\ d = d'.
Proof.
  intros (i & j & Ha & Hi & Hj) (i' & j' & Ha' & Hi' & Hj'). pose proof (at_unique _ _ _ Ha Ha') as [= <- <-].
  split; eapply utf8_unique; eauto.
Qed.
Lemma member_unique m n n' : member_named dec cs m n -> member_named dec cs m n' -> n = n'.
Proof.
  intros (c & nt & i & j & Hm & Hnt & Hi) (c' & nt' & i' & j' & Hm' & Hnt' & Hi').
  assert (nt = nt') as <- by (destruct Hm as [Hm|[Hm|Hm]], Hm' as [Hm'|[Hm'|Hm']]; pose proof (at_unique _ _ _ Hm Hm') as Hx; congruence).
  pose proof (at_unique _ _ _ Hnt Hnt') as [= <- <-]. eapply utf8_unique; eauto.
Qed.
Lemma at_in i c : at_index (slots_of cs) i c -> In c cs.
Proof. intro H. destruct (at_index_inv _ _ _ H) as (k & Hk & _). eapply nth_error_In; eauto. Qed.

(** ** From cafebabe's rules to those of the specification *)
Lemma described_named major nt P : Forall (valid_constant dec (slots_of cs) major) cs -> described dec (slots_of cs) nt P ->
  exists name s, named dec cs nt name s /\ unqualified name /\ P s.
Proof.
  intros Hall (n & d & s & Hat & Hs & HP). rewrite Forall_forall in Hall. pose proof (Hall _ (at_in _ _ Hat)) as Hv. cbn in Hv.
  destruct Hv as [(name & Hn & Hu) _]. exists name, s. split; [exists n, d; auto|]. auto.
Qed.
Lemma target_named major k m c : Forall (valid_constant dec (slots_of cs) major) cs -> at_index (slots_of cs) m c -> handle_target major k c ->
  j_target cs major k m /\ exists name, member_named dec cs m name.
Proof.
  intros Hall Hat Ht.
  assert (Hn : forall nt P, described dec (slots_of cs) nt P -> exists name n d, at_index (slots_of cs) nt (CNameAndType n d) /\ utf8_at dec (slots_of cs) n name).
  { intros nt P Hd. destruct (described_named _ _ _ Hall Hd) as (name & s & (n & d & H1 & H2 & _) & _). eauto. }
  rewrite Forall_forall in Hall. pose proof (Hall _ (at_in _ _ Hat)) as Hv.
  destruct c; try (destruct k; contradiction); cbn in Hv; destruct Hv as [_ Hd]; destruct (Hn _ _ Hd) as (name & n & d & Hnt & Hname);
    (split; [destruct k; cbn in *; try contradiction; eauto|exists name; exists cls, nt, n, d; auto]).
Qed.

Lemma jvms_missing count major boots modular :
  Forall (valid_constant dec (slots_of cs) major) cs ->
  (forall b nt, In (CDynamic b nt) cs \/ In (CInvokeDynamic b nt) cs -> b < boots) ->
  (jvms_pool dec cs count major boots modular <-> forall u, passes dec cs count modular u).
Proof.
  intros Hall Hboot. pose proof Hall as Hall'. rewrite Forall_forall in Hall'. split.
  - intros [Hj Hlast]. rewrite Forall_forall in Hj. intro u. destruct u; cbn [passes].
    + intros raw b Hin Hb. specialize (Hj _ Hin). cbn in Hj. rewrite Forall_forall in Hj. auto.
    + intros c nt name d Hnd Hd. split; intro Hin; specialize (Hj _ Hin); cbn in Hj; destruct Hj as (_ & name' & d' & Hnd' & [Hd' _] & Hname);
        destruct (named_unique _ _ _ _ _ Hnd Hnd') as [-> Ht]; apply method_inj in Ht; subst; auto.
    + intros n i d [Hin|Hin] Hi Hd; specialize (Hj _ Hin); cbn in Hj.
      * destruct Hj as [_ (s & Hs & [(fd & _ & ->)|(md & [Hm Hle] & ->)])]; pose proof (utf8_unique _ _ _ Hi Hs) as Ht.
        -- exfalso. eapply field_not_method; eauto.
        -- apply method_inj in Ht; subst; auto.
      * destruct Hj as (md & Hs & Hm & Hle). pose proof (utf8_unique _ _ _ Hi Hs) as Ht. apply method_inj in Ht; subst; auto.
    + intros n i Hin. specialize (Hj _ Hin). cbn in Hj. destruct Hj as [_ (s & Hs & Ht)]. exists s. split; auto.
      destruct Ht as [Ht|(md & [Hm _] & ->)]; eauto.
    + intros k m name Hin Hm. specialize (Hj _ Hin). cbn in Hj. destruct Hj as [_ (name' & Hm' & Hn)].
      rewrite (member_unique _ _ _ Hm Hm'). exact Hn.
    + intros n [Hin|Hin]; specialize (Hj _ Hin); apply Hj.
    + exact Hlast.
  - intro Hp. split; [|exact (Hp LastIndex)]. apply Forall_forall. intros c Hin. pose proof (Hall' _ Hin) as Hv.
    assert (Hmeth : forall nt, described dec (slots_of cs) nt method_descriptor ->
      exists name d, named dec cs nt name (method_text d) /\ unqualified name /\ j_method d).
    { intros nt Hd. destruct (described_named _ _ _ Hall Hd) as (name & s & Hn & Hu & (md & Hmd & ->)).
      apply method_valid_split in Hmd. destruct Hmd as [Hmd _]. exists name, md. split; auto. split; auto. split; auto.
      destruct Hn as (n & i & Ha & _ & Hi). apply (Hp ParameterCount n i md); auto. left. eapply at_in; eauto. }
    assert (Hfield : forall nt, described dec (slots_of cs) nt field_descriptor ->
      exists name d, named dec cs nt name (field_text d) /\ unqualified name /\ j_field d).
    { intros nt Hd. destruct (described_named _ _ _ Hall Hd) as (name & s & Hn & Hu & (fd & Hfd & ->)).
      apply field_valid_split in Hfd. exists name, fd. intuition. }
    destruct c; cbn [valid_constant jvms_constant] in *; auto.
    + apply Forall_forall. intros b Hb. exact (Hp TextBytes _ _ Hin Hb).
    + destruct Hv as (s & Hs & [Hb|(d & Hd & Hpos & ->)]); [eauto|]. exists (field_text d). split; auto. right. exists d.
      apply field_valid_split in Hd. intuition.
    + destruct Hv as [Hc Hd]. auto.
    + destruct Hv as [Hc Hd]. split; auto. destruct (Hmeth _ Hd) as (name & d & Hn & _ & Hm). exists name, d. split; auto. split; auto.
      destruct (Hp MethodrefName cls nt name d Hn (proj1 Hm)) as [Hx _]. auto.
    + destruct Hv as [Hc Hd]. split; auto. destruct (Hmeth _ Hd) as (name & d & Hn & _ & Hm). exists name, d. split; auto. split; auto.
      destruct (Hp MethodrefName cls nt name d Hn (proj1 Hm)) as [_ Hx]. auto.
    + destruct Hv as [Hn Hd]. split; auto. destruct (Hp NameAndTypeDescriptor _ _ Hin) as (s & Hs & Ht). exists s. split; auto.
      destruct Ht as [Ht|(md & Hm & ->)]; auto. right. exists md. split; auto. split; auto. apply (Hp ParameterCount name desc md); auto.
    + destruct Hv as (c & Hat & Ht). destruct (target_named _ _ _ _ Hall Hat Ht) as [H1 (name & H2)]. split; auto. exists name. split; auto.
      exact (Hp HandleName _ _ _ Hin H2).
    + destruct Hv as (s & Hs & (md & Hmd & ->)). apply method_valid_split in Hmd. exists md. split; auto. split; [apply Hmd|].
      apply (Hp ParameterCount 0 desc md); [auto|auto|apply Hmd].
    + split; [eapply Hboot; eauto|]. auto.
    + split; [eapply Hboot; eauto|]. auto.
    + split; auto. apply (Hp ModuleOnly name); auto.
    + split; auto. apply (Hp ModuleOnly name); auto.
Qed.

(** ** From the rules of the specification to cafebabe's *)
Lemma array_is_no_name d : 0 < dimensions d -> ~ binary_name (field_text d).
Proof.
  intros Hd Hb. apply (binary_no (ch "[")) in Hb; [|vm_compute; tauto]. apply Hb. rewrite dims_brackets.
  destruct (N.to_nat (dimensions d)) eqn:Hn; [lia|]. cbn. auto.
Qed.
Lemma jvms_plain major boots modular c : jvms_constant dec cs major boots modular c ->
  (valid_constant dec (slots_of cs) major c <-> plain dec cs c).
Proof.
  assert (Hfield : forall nt, (exists name d, named dec cs nt name (field_text d) /\ unqualified name /\ j_field d) ->
    (described dec (slots_of cs) nt field_descriptor <->
     forall name d, named dec cs nt name (field_text d) -> j_field d -> Forall (without "<>") (names_of d))).
  { intros nt (name & d & Hn & _ & Hj). split.
    - intros (n & i & s & Hat & Hs & (fd & Hfd & ->)) name' d' Hn' Hj'. destruct Hn' as (n' & i' & Hat' & _ & Hs').
      pose proof (at_unique _ _ _ Hat Hat') as [= <- <-]. pose proof (utf8_unique _ _ _ Hs Hs') as Ht.
      apply field_valid_split in Hfd. destruct Hfd as [Hfd Hp]. rewrite <- (app_nil_r (field_text fd)), <- (app_nil_r (field_text d')) in Ht.
      apply field_inj in Ht; auto. destruct Ht as [-> _]. exact Hp.
    - intro Hp. specialize (Hp _ _ Hn Hj). destruct Hn as (n & i & Hat & _ & Hs). exists n, i, (field_text d). split; auto. split; auto.
      exists d. split; auto. apply field_valid_split. auto. }
  assert (Hmeth : forall nt (Q : str -> method_desc -> Prop), (exists name d, named dec cs nt name (method_text d) /\ j_method d /\ Q name d) ->
    (described dec (slots_of cs) nt method_descriptor <->
     forall name d, named dec cs nt name (method_text d) -> j_method_form d -> Forall (without "<>") (method_names_of d))).
  { intros nt Q (name & d & Hn & [Hj _] & _). split.
    - intros (n & i & s & Hat & Hs & (fd & Hfd & ->)) name' d' Hn' Hj'. destruct Hn' as (n' & i' & Hat' & _ & Hs').
      pose proof (at_unique _ _ _ Hat Hat') as [= <- <-]. pose proof (utf8_unique _ _ _ Hs Hs') as Ht.
      apply method_valid_split in Hfd. destruct Hfd as [Hfd Hp]. apply method_inj in Ht; auto. subst. exact Hp.
    - intro Hp. specialize (Hp _ _ Hn Hj). destruct Hn as (n & i & Hat & _ & Hs). exists n, i, (method_text d). split; auto. split; auto.
      exists d. split; auto. apply method_valid_split. auto. }
  destruct c; cbn [jvms_constant valid_constant plain]; intro H; try tauto.
  - destruct H as (s & Hs & H). split.
    + intros (s' & Hs' & Hv) d Hd Hj. pose proof (utf8_unique _ _ _ Hd Hs') as Ht. subst s'.
      destruct Hv as [Hb|(d' & Hd' & Hpos & Ht)].
      * unfold names_of. destruct (fd_type d) eqn:Ht; auto. exfalso. apply (binary_no (ch ";")) in Hb; [|vm_compute; tauto].
        apply Hb. rewrite dims_brackets, Ht. cbn [type_text]. rewrite !in_app_iff. right. right. right. cbn. auto.
      * apply field_valid_split in Hd'. destruct Hd' as [Hd' Hp]. rewrite <- (app_nil_r (field_text d)), <- (app_nil_r (field_text d')) in Ht.
        apply field_inj in Ht; auto. destruct Ht as [-> _]. exact Hp.
    + intro Hp. exists s. split; auto. destruct H as [Hb|(d & Hj & Hpos & ->)]; auto. right. exists d. split; auto.
      apply field_valid_split. auto.
  - destruct H as [Hc H]. specialize (Hfield _ H). tauto.
  - destruct H as [Hc H]. specialize (Hmeth _ _ H). tauto.
  - destruct H as [Hc H]. specialize (Hmeth _ _ H). tauto.
  - split; auto. intros _. destruct H as [H1 (s & (r & Hr & _) & _)]. split; auto. exists r. auto.
  - split; auto. intros _. destruct H as [H _]. destruct kind; cbn in H |- *;
      repeat match goal with
      | H : _ \/ _ |- _ => destruct H as [H|H]
      | H : _ /\ _ |- _ => destruct H
      | H : exists _, _ |- _ => destruct H
      end; eexists; (split; [eassumption|]); cbn; auto.
  - destruct H as (md & Hs & [Hj _]). split.
    + intros (s & Hs' & (d & Hd & ->)) d' Hd' Hj'. pose proof (utf8_unique _ _ _ Hd' Hs') as Ht. apply method_valid_split in Hd. destruct Hd as [Hd Hp].
      apply method_inj in Ht; auto. subst. exact Hp.
    + intro Hp. exists (method_text md). split; auto. exists md. split; auto. apply method_valid_split. auto.
  - destruct H as [_ H]. auto.
  - destruct H as [_ (name & d & Hn & Hu & Hj)]. apply (Hmeth _ (fun n _ => unqualified n)). eauto.
Qed.
End Pool.

(** ** C58 *)
(** How many bootstrap methods a class has; whether it declares a module. *)
Definition bootstrap_count (c : class_file) : N :=
  match flat_map (fun a => match attr_dat a with ABootstrapMethods l => [l] | _ => [] end) (class_attributes c) with
  | [l] => N.of_nat (length l)
  | _ => 0
  end.
Definition declares_module (c : class_file) : bool := N.testbit (access_flags c) 15.

(** The constants of an accepted file follow the JVM specification if and only if they pass the
    seven rules listed in [unchecked]: all other rules of 4.4 are checked. *)
Theorem C58_all_but_seven_partial E opts bs c minor major count cs ws rest : sane E bs -> parse_class_with_options E opts bs = Ok c ->
  starts_with_pool bs minor major count cs ws rest -> fills (wrapping E) count 1 cs ->
  (jvms_pool (cesu8 E) cs count major (bootstrap_count c) (declares_module c)
   <-> forall u, passes (cesu8 E) cs count (declares_module c) u).
Proof.
  intros Hs H Hst Hf. apply jvms_missing; [eapply C09_references_valid; eauto|].
  intros b nt Hin. destruct (accepted_with E opts bs c cs Hs H) as (d & Hc); [exists minor, major, count, ws, rest; auto|].
  destruct Hc as (_ & _ & _ & _ & _ & _ & Hb). destruct (Hb b nt Hin) as (l & Hl & Hlt). unfold bootstrap_tables in Hl.
  unfold bootstrap_count. rewrite Hl. exact Hlt.
Qed.

(** A file of version 61 with the count [n], the constants encoded as [ws], class [2], and nothing else. *)
Definition file_with (n : byte) (ws : list (list byte)) : list byte :=
  [xca; xfe; xba; xbe] ++ [x00; x00; x00; x3d] ++ [x00; n] ++ concat ws ++ unhex "0021 0002 0000 0000 0000 0000 0000".
Definition first_two : list constant := [CUtf8 [x41]; CClass 1].
Definition first_bytes : list (list byte) := [[x01; x00; x01; x41]; [x07; x00; x01]].

Lemma file_starts n k cs ws : u2 k [x00; n] -> Forall2 (constant_lang 61) cs ws ->
  starts_with_pool (file_with n (first_bytes ++ ws)) 0 61 k (first_two ++ cs) (first_bytes ++ ws) (unhex "0021 0002 0000 0000 0000 0000 0000").
Proof.
  intros Hk Hw. exists [xca; xfe; xba; xbe], [x00; x00; x00; x3d], [x00; n].
  split; [piece|]. split; [piece|]. split; [exact Hk|]. split; [reflexivity|]. apply Forall2_app; auto. pieces.
Qed.

Definition counterexample (u : unchecked) : byte * N * list constant * list (list byte) :=
  match u with
  | TextBytes => (x04, 4, [CUtf8 [x00]], [[x01; x00; x01; x00]])
  | MethodrefName => (x07, 7,
      [CUtf8 [x3c; x78; x3e]; CUtf8 [x28; x29; x56]; CNameAndType 3 4; CMethodref 2 5],
      [[x01; x00; x03; x3c; x78; x3e]; [x01; x00; x03; x28; x29; x56]; [x0c; x00; x03; x00; x04]; [x0a; x00; x02; x00; x05]])
  | ParameterCount => (x05, 5,
      [CUtf8 ([x28] ++ repeat x49 256 ++ [x29; x56]); CMethodType 3],
      [[x01; x01; x03; x28] ++ repeat x49 256 ++ [x29; x56]; [x10; x00; x03]])
  | NameAndTypeDescriptor => (x05, 5, [CUtf8 [x78]; CNameAndType 3 3], [[x01; x00; x01; x78]; [x0c; x00; x03; x00; x03]])
  | HandleName => (x08, 8,
      [CUtf8 [x3c; x69; x6e; x69; x74; x3e]; CUtf8 [x28; x29; x56]; CNameAndType 3 4; CMethodref 2 5; CMethodHandle InvokeVirtual 6],
      [[x01; x00; x06; x3c; x69; x6e; x69; x74; x3e]; [x01; x00; x03; x28; x29; x56]; [x0c; x00; x03; x00; x04]; [x0a; x00; x02; x00; x05];
       [x0f; x05; x00; x06]])
  | ModuleOnly => (x04, 4, [CPackage 1], [[x14; x00; x01]])
  | LastIndex => (x04, 4, [CLong 7], [[x05; x00; x00; x00; x00; x00; x00; x00; x07]])
  end.

(** What a text at a given index is. *)
Lemma utf8_is dec cs i s raw t : utf8_at dec (slots_of cs) i s -> nth_error (slots_of cs) (N.to_nat i) = Some (Some (CUtf8 raw)) -> dec raw = Some t -> s = t.
Proof. intros (r & Hr & Hd) H H'. unfold at_index in Hr. rewrite H in Hr. injection Hr as <-. congruence. Qed.
Lemma no_param_void : j_method_form (mk_md [] RVoid). Proof. split; constructor. Qed.

Definition example_constants (u : unchecked) : list constant := first_two ++ snd (fst (counterexample u)).
Definition example_count (u : unchecked) : N := snd (fst (fst (counterexample u))).
Definition example_file (u : unchecked) : list byte := file_with (fst (fst (fst (counterexample u)))) (first_bytes ++ snd (counterexample u)).

Lemma void_text d : j_method_form d -> method_text d = lit "()V" -> d = mk_md [] RVoid.
Proof. intros Hd H. apply method_inj; auto using no_param_void. Qed.
Lemma x_no_method d : method_text d <> lit "x". Proof. intro H. discriminate H. Qed.
Lemma x_no_field d : field_text d <> lit "x".
Proof.
  rewrite dims_brackets. destruct (N.to_nat (dimensions d)); cbn [repeat app]; [|discriminate].
  destruct (fd_type d); cbn [type_text]; discriminate.
Qed.
Lemma named_is dec cs nt name desc n i rn tn ri ti : named dec cs nt name desc ->
  nth_error (slots_of cs) (N.to_nat nt) = Some (Some (CNameAndType n i)) ->
  nth_error (slots_of cs) (N.to_nat n) = Some (Some (CUtf8 rn)) -> dec rn = Some tn ->
  nth_error (slots_of cs) (N.to_nat i) = Some (Some (CUtf8 ri)) -> dec ri = Some ti -> name = tn /\ desc = ti.
Proof.
  intros (n' & i' & Ha & Hn & Hi) H H1 H2 H3 H4. unfold at_index in Ha. rewrite H in Ha. injection Ha as <- <-.
  split; eapply utf8_is; eauto.
Qed.

Lemma example_passes u v : v <> u -> passes (cesu8 debug64) (example_constants u) (example_count u) false v.
Proof.
  intro Hne. destruct v; cbn [passes].
  - intros raw b Hin Hb.
    assert (Hall : forallb (fun c => match c with CUtf8 raw => forallb (fun b => negb (Byte.to_N b =? 0) && (Byte.to_N b <? 0xF0)) raw | _ => true end)
      (example_constants u) = true) by (destruct u; try congruence; vm_compute; reflexivity).
    rewrite forallb_forall in Hall. specialize (Hall _ Hin). cbn in Hall. rewrite forallb_forall in Hall. specialize (Hall _ Hb). lia.
  - intros c nt name d Hnd Hd. destruct u; try congruence; (split; intro Hin; [|exfalso; cbn in Hin; intuition discriminate]);
      try (exfalso; cbn in Hin; intuition discriminate).
    cbn in Hin. repeat (destruct Hin as [Hin|Hin]; [try discriminate Hin|]); [|destruct Hin]. injection Hin as <- <-.
    destruct (named_is _ _ _ _ _ 3 4 [x3c; x69; x6e; x69; x74; x3e] (lit "<init>") [x28; x29; x56] (lit "()V") Hnd) as [-> Ht]; [reflexivity..|].
    right. split; auto. rewrite (void_text _ Hd Ht). reflexivity.
  - intros n i d Hin Hi Hd. destruct u; try congruence;
      try (exfalso; destruct Hin as [Hin|Hin]; cbn in Hin; intuition discriminate).
    + destruct Hin as [Hin|Hin]; [|exfalso; cbn in Hin; intuition discriminate].
      assert (i = 4) as -> by (cbn in Hin; intuition congruence).
      rewrite (void_text _ Hd (utf8_is _ _ _ _ _ (lit "()V") Hi eq_refl eq_refl)). discriminate.
    + destruct Hin as [Hin|Hin]; [|exfalso; cbn in Hin; intuition discriminate].
      assert (i = 3) as -> by (cbn in Hin; intuition congruence).
      exfalso. exact (x_no_method d (utf8_is _ _ _ _ _ (lit "x") Hi eq_refl eq_refl)).
    + destruct Hin as [Hin|Hin]; [|exfalso; cbn in Hin; intuition discriminate].
      assert (i = 4) as -> by (cbn in Hin; intuition congruence).
      rewrite (void_text _ Hd (utf8_is _ _ _ _ _ (lit "()V") Hi eq_refl eq_refl)). discriminate.
  - intros n i Hin. destruct u; try congruence; try (exfalso; cbn in Hin; intuition discriminate).
    all: assert (i = 4) as -> by (cbn in Hin; intuition congruence).
    all: exists (lit "()V"); split; [exists [x28; x29; x56]; split; reflexivity|]; right; exists (mk_md [] RVoid); split; [apply no_param_void|reflexivity].
  - intros k m name Hin Hm. destruct u; try congruence; exfalso; cbn in Hin; intuition discriminate.
  - intros n Hin. destruct u; try congruence; exfalso; destruct Hin as [Hin|Hin]; cbn in Hin; intuition discriminate.
  - intros k x Hk. destruct u; try congruence;
      (do 8 (destruct k as [|k]; [cbn in Hk; try discriminate Hk; injection Hk as <-; vm_compute; discriminate|])); destruct k; discriminate Hk.
Qed.

Lemma example_fails u : ~ passes (cesu8 debug64) (example_constants u) (example_count u) false u.
Proof.
  destruct u; cbn [passes]; intro H.
  - destruct (H [x00] x00) as [Hx _]; [cbn; auto|cbn; auto|]. apply Hx. reflexivity.
  - destruct (H 2 5 (lit "<x>") (mk_md [] RVoid)) as [Hx _].
    + exists 3, 4. split; [reflexivity|]. split; eexists; split; reflexivity.
    + apply no_param_void.
    + destruct Hx as [[_ Hx]|[Hx _]]; [cbn; tauto| |discriminate Hx]. apply (Hx (ch "<")); vm_compute; tauto.
  - specialize (H 0 3 (mk_md (repeat (mk_fd 0 FInteger) 256) RVoid)).
    assert (Hle : parameter_units (mk_md (repeat (mk_fd 0 FInteger) 256) RVoid) <= 255).
    { apply H; [cbn; tauto|eexists; split; [reflexivity|vm_compute; reflexivity]|].
      split; [|exact I]. apply Forall_forall. intros p Hp. apply repeat_spec in Hp. subst. split; [discriminate|exact I]. }
    vm_compute in Hle. apply Hle. reflexivity.
  - destruct (H 3 3) as (s & Hs & Ht); [cbn; tauto|]. rewrite (utf8_is _ _ _ _ _ (lit "x") Hs eq_refl eq_refl) in Ht.
    destruct Ht as [(fd & _ & Ht)|(md & _ & Ht)]; [exact (x_no_field _ (eq_sym Ht))|exact (x_no_method _ (eq_sym Ht))].
  - destruct (H InvokeVirtual 6 (lit "<init>")) as [Hx _]; [cbn; tauto| |apply Hx; reflexivity].
    exists 2, 5, 3, 4. split; [right; left; reflexivity|]. split; [reflexivity|]. eexists; split; reflexivity.
  - discriminate (H 1). cbn. tauto.
  - specialize (H 2%nat (CLong 7) eq_refl). vm_compute in H. apply H. reflexivity.
Qed.

(** None of the seven is checked: for each there is an accepted file that violates it and no other. *)
Theorem C58_seven_missing u : exists bs c minor major count cs ws rest, sane debug64 bs /\ parse_class debug64 bs = Ok c
  /\ starts_with_pool bs minor major count cs ws rest /\ fills (wrapping debug64) count 1 cs
  /\ ~ jvms_pool (cesu8 debug64) cs count major (bootstrap_count c) (declares_module c)
  /\ ~ passes (cesu8 debug64) cs count (declares_module c) u
  /\ forall v, v <> u -> passes (cesu8 debug64) cs count (declares_module c) v.
Proof.
  assert (Hs : sane debug64 (example_file u)) by (apply ample_sane, ampleb_ample; destruct u; vm_compute; reflexivity).
  assert (Hp : exists c, parse_class debug64 (example_file u) = Ok c /\ declares_module c = false).
  { assert (Hb : match parse_class debug64 (example_file u) with Ok c => declares_module c = false | _ => False end) by (destruct u; vm_compute; reflexivity).
    destruct (parse_class debug64 (example_file u)) as [c| | |]; try contradiction. exists c. auto. }
  destruct Hp as (c & Hp & Hm).
  assert (Hst : starts_with_pool (example_file u) 0 61 (example_count u) (example_constants u) (first_bytes ++ snd (counterexample u))
    (unhex "0021 0002 0000 0000 0000 0000 0000")).
  { apply file_starts; [destruct u; piece|]. destruct u; cbn [counterexample fst snd]; pieces. }
  assert (Hf : fills (wrapping debug64) (example_count u) 1 (example_constants u)) by (destruct u; vm_compute; intuition discriminate).
  exists (example_file u), c, 0, 61, (example_count u), (example_constants u), (first_bytes ++ snd (counterexample u)),
    (unhex "0021 0002 0000 0000 0000 0000 0000").
  split; auto. split; auto. split; auto. split; auto.
  assert (Hn : ~ passes (cesu8 debug64) (example_constants u) (example_count u) (declares_module c) u) by (rewrite Hm; apply example_fails).
  split.
  { intro Hj. apply Hn. apply (C58_all_but_seven_partial debug64 true _ _ _ _ _ _ _ _ Hs Hp Hst Hf). exact Hj. }
  split; auto. rewrite Hm. intros v Hv. apply example_passes, Hv.
Qed.

(** The other way: a constant the specification allows is valid for cafebabe if and only if no class name in
    a descriptor it depends on contains < or >. *)
Theorem C58_stricter dec cs count major boots modular c : jvms_pool dec cs count major boots modular -> In c cs ->
  (valid_constant dec (slots_of cs) major c <-> plain dec cs c).
Proof. intros [Hj _] Hin. rewrite Forall_forall in Hj. eapply jvms_plain, Hj, Hin. Qed.
(** So a file may follow the specification and be rejected: here for a reference to a field of type a<b. *)
Definition angle_constants : list constant :=
  first_two ++ [CUtf8 [x66]; CUtf8 [x4c; x61; x3c; x62; x3b]; CNameAndType 3 4; CFieldref 2 5].
Definition angle_bytes : list (list byte) :=
  [[x01; x00; x01; x66]; [x01; x00; x05; x4c; x61; x3c; x62; x3b]; [x0c; x00; x03; x00; x04]; [x09; x00; x02; x00; x05]].
Theorem C58_stricter_refuted : exists bs minor major count cs ws rest, ample debug64 bs
  /\ starts_with_pool bs minor major count cs ws rest /\ fills (wrapping debug64) count 1 cs
  /\ jvms_pool (cesu8 debug64) cs count major 0 false /\ exists e, parse_class debug64 bs = Err e.
Proof.
  exists (file_with x07 (first_bytes ++ angle_bytes)), 0, 61, 7, angle_constants, (first_bytes ++ angle_bytes),
    (unhex "0021 0002 0000 0000 0000 0000 0000").
  split; [apply ampleb_ample; vm_compute; reflexivity|]. split; [apply file_starts; [piece|pieces]|].
  split; [vm_compute; intuition discriminate|].
  assert (Hseg : forall s, s <> [] -> (forall x, In x (lit ".;[/") -> existsb (N.eqb x) s = false) -> unqualified s).
  { intros s Hs H. split; auto. intros x Hx Hi. specialize (H x Hx). rewrite <- Bool.not_true_iff_false in H. apply H.
    apply existsb_exists. exists x. split; auto. apply N.eqb_refl. }
  assert (Hu : forall s, s <> [] -> forallb (fun x => negb (existsb (N.eqb x) s)) (lit ".;[/") = true -> unqualified s).
  { intros s Hs H. apply Hseg; auto. intros x Hx. rewrite forallb_forall in H. specialize (H x Hx). destruct (existsb _ _); auto; discriminate. }
  assert (Hb : forall s, s <> [] -> forallb (fun x => negb (existsb (N.eqb x) s)) (lit ".;[/") = true -> binary_name s).
  { intros s Hs H. exists [s]. split; [discriminate|]. split; [constructor; auto|reflexivity]. }
  assert (Hn : named (cesu8 debug64) angle_constants 5 (lit "f") (field_text (mk_fd 0 (FObject (lit "a<b"))))).
  { exists 3, 4. split; [reflexivity|]. split; eexists; split; reflexivity. }
  assert (Hj : j_field (mk_fd 0 (FObject (lit "a<b")))) by (split; [discriminate|apply Hb; [discriminate|vm_compute; reflexivity]]).
  assert (Hf : unqualified (lit "f")) by (apply Hu; [discriminate|vm_compute; reflexivity]).
  split.
  - split.
    + apply Forall_cons; [|apply Forall_cons; [|apply Forall_cons; [|apply Forall_cons; [|apply Forall_cons; [|apply Forall_cons; [|apply Forall_nil]]]]]].
      * repeat apply Forall_cons; try apply Forall_nil; split; vm_compute; (discriminate || reflexivity).
      * exists (lit "A"). split; [eexists; split; reflexivity|]. left. apply Hb; [discriminate|vm_compute; reflexivity].
      * repeat apply Forall_cons; try apply Forall_nil; split; vm_compute; (discriminate || reflexivity).
      * repeat apply Forall_cons; try apply Forall_nil; split; vm_compute; (discriminate || reflexivity).
      * destruct Hn as (n & d & Ha & H1 & H2). unfold at_index in Ha. vm_compute in Ha. injection Ha as <- <-. split; [eauto|].
        eexists. split; [exact H2|]. left. eauto.
      * split; [exists 1; reflexivity|]. exists (lit "f"), (mk_fd 0 (FObject (lit "a<b"))). auto.
    + intros k x Hk. do 6 (destruct k as [|k]; [cbn in Hk; injection Hk as <-; vm_compute; discriminate|]). destruct k; discriminate Hk.
  - assert (Hr : match parse_class debug64 (file_with x07 (first_bytes ++ angle_bytes)) with Err _ => True | _ => False end) by (vm_compute; exact I).
    destruct (parse_class debug64 (file_with x07 (first_bytes ++ angle_bytes))) as [|e| |]; try contradiction. eauto.
Qed.

(** ** Proper lengths of attributes *)
Lemma uint_length k n w : uint k n w -> len w = N.of_nat k. Proof. intros [H _]. unfold len. rewrite H. reflexivity. Qed.
Lemma flags_keep_length m f w : flags_keep m f w -> len w = 2. Proof. intros (v & H & _). exact (uint_length _ _ _ H). Qed.
Lemma flags_exact_length m f w : flags_exact m f w -> len w = 2.
Proof. intro H. unfold flags_exact in H. destruct H as [H _]. exact (uint_length _ _ _ H). Qed.
Lemma ref_length {A} (R : N -> A -> Prop) a w : ref R a w -> len w = 2. Proof. intros (i & H & _). exact (uint_length _ _ _ H). Qed.
Lemma opt_ref_length {A} (R : N -> A -> Prop) o w : opt_ref R o w -> len w = 2.
Proof. destruct o; [apply ref_length|exact (uint_length 2 0 w)]. Qed.
Lemma len_app {A} (a b : list A) : len (a ++ b) = len a + len b. Proof. unfold len. rewrite app_length. lia. Qed.
Lemma many_sum {A} (F : A -> lang) (f : A -> N) l : (forall a w, In a l -> F a w -> len w = f a) ->
  forall w, many F l w -> len w = S_Jvms.sum f l.
Proof.
  induction l as [|a l IH]; intros HF w H; cbn [many] in H.
  - red in H. subst. reflexivity.
  - destruct H as (u & v & -> & Hu & Hv). rewrite len_app. cbn [S_Jvms.sum fold_right].
    rewrite (HF a u (or_introl eq_refl) Hu). f_equal. apply IH; auto. intros b w Hb. apply HF. right. exact Hb.
Qed.
Lemma sum_const {A} k (l : list A) : S_Jvms.sum (fun _ => k) l = k * len l.
Proof. unfold S_Jvms.sum, len. induction l as [|a l IH]; cbn [fold_right length]; lia. Qed.
Lemma table_sum {A} k (F : A -> lang) (f : A -> N) l w : (forall a w, In a l -> F a w -> len w = f a) ->
  table (uint k) F l w -> len w = N.of_nat k + S_Jvms.sum f l.
Proof. intros HF (u & v & -> & Hu & Hv). rewrite len_app, (uint_length _ _ _ Hu), (many_sum F f l HF v Hv). reflexivity. Qed.
Lemma table_rows_length {A} k (F : A -> lang) n l w : (forall a w, F a w -> len w = n) -> table (uint k) F l w -> len w = N.of_nat k + n * len l.
Proof. intros HF H. rewrite <- sum_const. eapply table_sum; eauto. Qed.

Ltac parts := repeat match goal with
  | H : (_ +++ _) _ |- _ => destruct H as (? & ? & -> & ? & ?)
  | H : u1 _ _ |- _ => apply uint_length in H
  | H : u2 _ _ |- _ => apply uint_length in H
  | H : flags_keep _ _ _ |- _ => apply flags_keep_length in H
  | H : flags_exact _ _ _ |- _ => apply flags_exact_length in H
  | H : ref _ _ _ |- _ => apply ref_length in H
  | H : opt_ref _ _ _ |- _ => apply opt_ref_length in H
  | H : table u2 (ref _) _ _ |- _ => apply (table_rows_length _ _ 2) in H; [|intros ? ? ?; eapply ref_length; eassumption]
  end; rewrite ?len_app; cbn [N.of_nat Pos.of_succ_nat Pos.succ] in *; try assumption; try lia.
Lemma some_inj {A} (a b : A) : Some a = Some b -> a = b. Proof. congruence. Qed.
Lemma proper dec sl wraps want A d a n w : proper_length a = Some n -> snd (contents dec sl wraps want A d a) w -> len w = n.
Proof.
  destruct a; cbn [proper_length contents snd]; intros Hn H; try discriminate Hn; apply some_inj in Hn; subst n; parts.
  - apply (table_rows_length _ _ 8) in H; [parts|]. intros e v Hv. unfold inner_class_lang in Hv. parts.
  - red in H. subst. reflexivity.
  - apply (table_rows_length _ _ 4) in H; [parts|]. intros e v Hv. unfold line_number_lang in Hv. parts.
  - apply (table_rows_length _ _ 10) in H; [parts|]. intros e v Hv. unfold local_variable_lang in Hv. parts.
  - apply (table_rows_length _ _ 10) in H; [parts|]. intros e v Hv. unfold local_variable_type_lang in Hv. parts.
  - red in H. subst. reflexivity.
  - apply (table_sum _ _ (fun b => 4 + 2 * len (bm_arguments b))) in H; [parts|]. intros b v _ Hv. unfold bootstrap_method_lang in Hv. parts.
  - apply (table_rows_length _ _ 4) in H; [parts|]. intros e v Hv. unfold method_parameter_lang in Hv. parts.
  - unfold module_lang in H. parts.
    repeat match goal with H : table u2 _ _ _ |- _ => revert H end. intros Hr Hx Ho Hp.
    apply (table_rows_length _ _ 6) in Hr; [|intros e v Hv; unfold require_lang in Hv; parts].
    apply (table_sum _ _ (fun e => 6 + 2 * len (xp_exports_to e))) in Hx; [|intros e v _ Hv; unfold export_lang in Hv; parts].
    apply (table_sum _ _ (fun e => 6 + 2 * len (op_opens_to e))) in Ho; [|intros e v _ Hv; unfold open_lang in Hv; parts].
    apply (table_sum _ _ (fun e => 4 + 2 * len (pv_provides_with e))) in Hp; [|intros e v _ Hv; unfold provide_lang in Hv; parts].
    parts.
Qed.

(** JVMS 4.8: recognised attributes have the proper length, wherever they are in an accepted file. *)
Theorem C58_attribute_lengths E opts bs c cs a n : sane E bs -> parse_class_with_options E opts bs = Ok c -> constants_of E bs cs ->
  within c a -> proper_length (attr_dat a) = Some n ->
  exists pre n1 n2 lw body post, bs = pre ++ [n1; n2] ++ lw ++ body ++ post
    /\ utf8_at (cesu8 E) (slots_of cs) (be [n1; n2]) (attr_name a) /\ u4 n lw /\ len body = n.
Proof.
  intros Hs H Hcs Hw Hn. destruct (accepted_with _ _ _ _ _ Hs H Hcs) as (d & Hc).
  destruct (within_part _ _ _ _ _ _ _ _ Hc Hw) as (d' & pre & u & post & -> & Hu). destruct Hu as (nw & v & -> & (i & [Hi Hi'] & Hname) & lw & body & -> & Hl & Hb & _).
  pose proof (proper _ _ _ _ _ _ _ _ _ Hn Hb) as Hlen.
  destruct nw as [|n1 [|n2 [|]]]; try discriminate Hi. exists pre, n1, n2, lw, body, post. rewrite <- !app_assoc. split; [reflexivity|].
  subst i. split; auto. unfold len in Hlen. rewrite Hlen in Hl. auto.
Qed.
Example C58_meets : sane debug64 sample /\ parse_class_with_options debug64 true sample = Ok sample_parsed
  /\ starts_with_pool sample 0 61 57 sample_constants sample_pieces sample_rest /\ fills (wrapping debug64) 57 1 sample_constants
  /\ In (CMethodHandle InvokeStatic 25) sample_constants /\ In (CInterfaceMethodref 6 21) sample_constants
  /\ bootstrap_count sample_parsed = 1
  /\ exists a, within sample_parsed a /\ exists l, attr_dat a = ABootstrapMethods l /\ proper_length (attr_dat a) = Some (2 + S_Jvms.sum (fun b => 4 + 2 * len (bm_arguments b)) l).
Proof.
  split; [exact sample_sane|]. split; [exact sample_parse|]. split; [exact sample_starts|]. split; [exact sample_fills|].
  split; [vm_compute; tauto|]. split; [vm_compute; tauto|]. split; [vm_compute; reflexivity|].
  assert (Hf : exists a, find (fun a => match attr_dat a with ABootstrapMethods _ => true | _ => false end) (class_attributes sample_parsed) = Some a)
    by (vm_compute; eauto).
  destruct Hf as (a & Hf). exists a. apply find_some in Hf. destruct Hf as [Hin Hd]. split; [apply of_class; exact Hin|].
  destruct (attr_dat a); try discriminate Hd. eexists. split; reflexivity.
Qed.
