(** * Class files: [parse_class_with_options] accepts exactly [class_lang]. *)
From Verif Require Import Base M_Names M_Descriptors M_ConstantPool M_Bytecode M_Attributes M_Class S_Lang S_Names S_Format
  P_Reads P_Tac P_Names P_Descriptors P_Pool P_Pool2 P_Pool3 P_Pool4 P_Refs P_Insn P_Insn2 P_Bytecode P_Attributes P_Attr2 P_Attr3.
From Coq Require Import ZifyBool ZifyNat ZifyN.

(** ** Class names: what [ClassName::try_from] lets through, cut down by the pool *)
Lemma slashes_nonempty segs : segs <> [] -> Forall (fun s : str => s <> []) segs -> slashes segs <> [].
Proof.
  destruct segs as [|s [|t segs]]; intros Hn Hf; [congruence| |]; inversion Hf; subst; cbn [slashes]; auto.
  destruct s; [congruence|discriminate].
Qed.
Lemma last_app {A} (l : list A) l' d : l' <> [] -> last (l ++ l') d = last l' d.
Proof.
  induction l as [|a l IH]; intro H; auto. cbn [app]. rewrite <- (IH H).
  destruct (l ++ l') eqn:E; [|reflexivity]. apply app_eq_nil in E. destruct E; congruence.
Qed.
Lemma binary_name_last s : binary_name s -> last s 0 <> ch "/".
Proof.
  intros (segs & Hn & Hf & ->). induction segs as [|s segs IH]; [congruence|]. clear Hn.
  inversion Hf as [|? ? [Hne Hw] Hf']; subst. destruct segs as [|t segs].
  - cbn [slashes]. intro H. apply (Hw (ch "/")); [vm_compute; tauto|]. rewrite <- H.
    clear - Hne. induction s as [|a [|b s] IH]; [congruence|left; reflexivity|right; apply IH; discriminate].
  - change (slashes (s :: t :: segs)) with (s ++ lit "/" ++ slashes (t :: segs)).
    assert (Hs : slashes (t :: segs) <> []).
    { apply slashes_nonempty; [discriminate|]. eapply Forall_impl; [|exact Hf']. intros a []; auto. }
    rewrite app_assoc, last_app by exact Hs. apply IH; [discriminate|exact Hf'].
Qed.
Lemma class_name_no_bracket s : class_name s -> ~ In (ch "[") s.
Proof.
  intros (segs & Hn & Hf & ->). induction segs as [|s segs IH]; [congruence|]. clear Hn.
  inversion Hf as [|? ? [Hne Hw] Hf']; subst. destruct segs as [|t segs].
  - cbn [slashes]. apply Hw. vm_compute; tauto.
  - change (slashes (s :: t :: segs)) with (s ++ lit "/" ++ slashes (t :: segs)). intro H.
    apply in_app_or in H. destruct H as [H|H]; [revert H; apply Hw; vm_compute; tauto|].
    apply in_app_or in H. destruct H as [[H|[]]|H]; [discriminate|]. revert H. apply IH; [discriminate|exact Hf'].
Qed.
Lemma array_descriptor_head s : array_descriptor s -> In (ch "[") s.
Proof.
  intros (d & _ & Hd & ->). unfold field_text. destruct (N.to_nat (dimensions d)) eqn:E; [lia|]. left. reflexivity.
Qed.
Lemma loose_valid s : binary_name s \/ array_descriptor s -> (loose_class_name s <-> class_name s).
Proof.
  intro Hs. unfold loose_class_name. split; [|auto].
  intros [->|[H|(t & -> & Ht)]]; auto; exfalso; destruct Hs as [Hs|Hs].
  - destruct Hs as (segs & Hn & Hf & Hs). symmetry in Hs. revert Hs. apply slashes_nonempty; auto.
    eapply Forall_impl; [|exact Hf]. intros a []; auto.
  - apply array_descriptor_head in Hs. destruct Hs.
  - apply binary_name_last in Hs. rewrite last_app in Hs by discriminate. apply Hs. reflexivity.
  - apply array_descriptor_head in Hs. apply in_app_or in Hs. destruct Hs as [Hs|[Hs|[]]]; [|discriminate].
    revert Hs. apply class_name_no_bracket; auto.
Qed.

(** ** Equality of descriptors *)
Lemma field_type_eqb_spec a b : reflect (a = b) (field_type_eqb a b).
Proof.
  destruct a, b; cbn [field_type_eqb]; try (constructor; congruence).
  match goal with |- reflect _ (str_eqb ?x ?y) => destruct (str_eqb_spec x y) end; constructor; congruence.
Qed.
Lemma field_desc_eqb_spec a b : reflect (a = b) (field_desc_eqb a b).
Proof.
  destruct a as [d t], b as [d' t']. unfold field_desc_eqb. cbn [dimensions fd_type].
  destruct (N.eqb_spec d d'); cbn [andb]; [|constructor; congruence].
  destruct (field_type_eqb_spec t t'); constructor; congruence.
Qed.
Lemma return_desc_eqb_spec a b : reflect (a = b) (return_desc_eqb a b).
Proof.
  destruct a as [x|], b as [y|]; cbn [return_desc_eqb]; try (constructor; congruence).
  destruct (field_desc_eqb_spec x y); constructor; congruence.
Qed.
Lemma list_eqb_spec {A} (eqb : A -> A -> bool) : (forall a b, reflect (a = b) (eqb a b)) ->
  forall a b, reflect (a = b) (list_eqb eqb a b).
Proof.
  intros H a. induction a as [|x a IH]; intros [|y b]; cbn [list_eqb]; try (constructor; congruence).
  destruct (H x y); cbn [andb]; [|constructor; congruence]. destruct (IH b); constructor; congruence.
Qed.
Lemma method_desc_eqb_spec a b : reflect (a = b) (method_desc_eqb a b).
Proof.
  destruct a as [ps r], b as [ps' r']. unfold method_desc_eqb. cbn [parameters return_type].
  destruct (list_eqb_spec _ field_desc_eqb_spec ps ps'); cbn [andb]; [|constructor; congruence].
  destruct (return_desc_eqb_spec r r'); constructor; congruence.
Qed.
Lemma field_id_mem_iff x seen : field_id_mem x seen = true <-> In x seen.
Proof.
  unfold field_id_mem. rewrite existsb_exists. split.
  - intros (y & Hy & H). apply andb_prop in H. destruct H as [H1 H2].
    destruct (str_eqb_spec (fst x) (fst y)); [|discriminate]. destruct (field_desc_eqb_spec (snd x) (snd y)); [|discriminate].
    destruct x, y; cbn in *; subst; auto.
  - intro H. exists x. split; auto. destruct (str_eqb_spec (fst x) (fst x)); [|congruence].
    destruct (field_desc_eqb_spec (snd x) (snd x)); [reflexivity|congruence].
Qed.
Lemma method_id_mem_iff x seen : method_id_mem x seen = true <-> In x seen.
Proof.
  unfold method_id_mem. rewrite existsb_exists. split.
  - intros (y & Hy & H). apply andb_prop in H. destruct H as [H1 H2].
    destruct (str_eqb_spec (fst x) (fst y)); [|discriminate]. destruct (method_desc_eqb_spec (snd x) (snd y)); [|discriminate].
    destruct x, y; cbn in *; subst; auto.
  - intro H. exists x. split; auto. destruct (str_eqb_spec (fst x) (fst x)); [|congruence].
    destruct (method_desc_eqb_spec (snd x) (snd x)); [reflexivity|congruence].
Qed.

(** [ids] repeats neither itself nor anything in [seen]. *)
Definition fresh_ids {A} (seen ids : list A) : Prop := NoDup ids /\ forall x, In x ids -> ~ In x seen.
Lemma fresh_cons {A} (seen : list A) x ids :
  fresh_ids seen (x :: ids) <-> ~ In x seen /\ fresh_ids (x :: seen) ids.
Proof.
  unfold fresh_ids. split.
  - intros [H1 H2]. inversion H1; subst. split; [apply H2; left; auto|]. split; auto.
    intros y Hy [->|Hs]; [auto|]. apply (H2 y); auto. right; auto.
  - intros (H1 & H2 & H3). split.
    + constructor; auto. intro Hx. apply (H3 x Hx). left; auto.
    + intros y [<-|Hy]; auto. intro Hs. apply (H3 y Hy). right; auto.
Qed.

Section WithEnv.
Variable E : env.
Variable cs : list constant.
Notation dec := (cesu8 E).
Notation wraps := (negb (overflow_checks E)).
Notation sl := (slots_of cs).
Notation P := (pool_of dec sl).
Variable opts : parse_options.

#[local] Hint Resolve reads_cp_utf8 reads_cp_utf8_opt reads_cp_classinfo reads_cp_classinfo_opt
  reads_cp_field_descriptor reads_attributes : reads.

Definition field_id (f : field_info) := (f_name f, f_descriptor f).
Definition method_id (m : method_info) := (m_name m, m_descriptor m).
Notation F := (field_lang dec sl wraps opts (stack E)).

Lemma negb_mem {b : bool} {Q : Prop} : (b = true <-> Q) -> (negb b = true <-> ~ Q).
Proof. destruct b; cbn; intuition congruence. Qed.

Lemma truncate_bits all n f : f = from_bits_truncate all n <->
  forall bit, N.testbit f bit = (N.testbit n bit && N.testbit all bit)%bool.
Proof.
  unfold from_bits_truncate. split.
  - intros -> bit. apply N.land_spec.
  - intro H. apply N.bits_inj. intro bit. rewrite H, N.land_spec. reflexivity.
Qed.

Lemma reads_fields_loop n : forall i seen, reads E (fields_loop E P opts n i seen)
  (fun l w => length l = n /\ fresh_ids seen (map field_id l) /\ many F l w).
Proof.
  induction n as [|n IH]; intros i seen; cbn [fields_loop].
  - eapply reads_ext; [apply reads_ret|]. intros l w. unfold only_if. split.
    + intros [-> ->]. repeat split; auto. constructor.
    + intros (H1 & _ & H2). destruct l; [|discriminate]. split; auto.
  - eapply reads_ext.
    + eapply reads_bind; [rd|]. intros flags _. eapply reads_unqualified. intro name.
      eapply reads_bind; [rd|]. intros d _. eapply reads_lift_bind. intros fd Hfd.
      eapply reads_guard_bind. intros _. eapply reads_bind; [rd|]. intros attrs _.
      eapply reads_bind; [apply IH|]. intros rest _. rd.
    + intros l w. split.
      * intros (flags & w1 & r1 & -> & H1 & name & w2 & r2 & -> & H2 & d & w3 & r3 & -> & H3 & fd & Hfd & Hg & attrs & w4 & r4 & -> & H4
          & rest & w5 & r5 & -> & (H5 & H6 & H7) & -> & ->). rewrite app_nil_r. cbn [length map]. split; [lia|].
        split.
        { apply fresh_cons. split; auto. apply (negb_mem (field_id_mem_iff _ _)). exact Hg. }
        cbn [many]. rewrite !app_assoc. apply cat_intro; auto. rewrite <- !app_assoc.
        unfold field_lang. cbn [f_access_flags f_name f_descriptor f_attributes].
        apply cat_intro; [exists flags; split; [auto|]; apply truncate_bits; reflexivity|].
        apply cat_intro; auto. apply cat_intro; auto. destruct H3 as (j & Hj & H3). exists j. split; auto. exists d. split; auto.
        apply (decides_iff _ _ (parse_field_descriptor_0 d)); auto.
      * intros (H1 & H2 & H3). destruct l as [|f rest]; [discriminate|]. cbn [length map many] in *.
        apply fresh_cons in H2. destruct H2 as [H2 H4]. destruct H3 as (wf & wr & -> & Hf & Hr).
        destruct f as [fl name fd attrs]. unfold field_lang in Hf. cbn [f_access_flags f_name f_descriptor f_attributes field_id] in *.
        destruct Hf as (w1 & r1 & -> & (flags & Hfl & Hbits) & w2 & r2 & -> & Hn & w3 & w4 & -> & (j & Hj & d & Hd & Hfd) & Ha).
        rewrite <- !app_assoc. exists flags. apply cat_intro; auto. exists name. apply cat_intro; auto.
        exists d. apply cat_intro; [exists j; auto|]. exists fd. split.
        { apply (decides_iff _ _ (parse_field_descriptor_0 d)); auto. }
        split; [apply (negb_mem (field_id_mem_iff _ _)); exact H2|].
        exists attrs. apply cat_intro; auto. exists rest. apply cat_nil_r; [split; [lia|auto]|].
        f_equal. f_equal. apply truncate_bits. exact Hbits.
Qed.
Lemma reads_fields : reads E (read_fields E P opts) (fun l w => NoDup (map field_id l) /\ table u2 F l w).
Proof.
  unfold read_fields. eapply reads_ext.
  - eapply reads_bind; [rd|]. intros n _. apply reads_fields_loop.
  - intros l w. unfold table, fresh_ids. split.
    + intros (n & u & v & -> & Hn & Hl & [Hd _] & Hm). split; auto. apply cat_intro; auto.
      replace (N.of_nat (length l)) with n by lia. auto.
    + intros (Hd & u & v & -> & Hn & Hm). exists (N.of_nat (length l)). apply cat_intro; auto. rewrite Nat2N.id. auto.
Qed.

Lemma reads_methods_loop in_interface major n : forall i seen,
  reads E (methods_loop E P opts in_interface major n i seen)
  (fun l w => length l = n /\ fresh_ids seen (map method_id l) /\ Forall (method_rules major) l
     /\ many (method_lang dec sl wraps opts (stack E) in_interface) l w).
Proof.
  induction n as [|n IH]; intros i seen; cbn [methods_loop].
  - eapply reads_ext; [apply reads_ret|]. intros l w. unfold only_if. split.
    + intros [-> ->]. repeat split; auto. constructor.
    + intros (H1 & _ & _ & H2). destruct l; [|discriminate]. split; auto.
  - cbv zeta. eapply reads_ext.
    + eapply reads_bind; [rd|]. intros flags _. eapply reads_bind; [rd|]. intros name _.
      eapply reads_guard_bind. intros _. eapply reads_bind; [rd|]. intros md _.
      do 4 (eapply reads_guard_bind; intros _). eapply reads_bind; [rd|]. intros attrs _.
      eapply reads_bind; [apply IH|]. intros rest _. rd.
    + assert (Hrules : forall fl name md attrs, method_name in_interface name ->
        ((negb (negb in_interface && str_eqb name (lit "<init>") && negb (return_desc_eqb (return_type md) RVoid)) = true
         /\ negb (str_eqb name (lit "<clinit>") && negb (return_desc_eqb (return_type md) RVoid)) = true
         /\ negb (str_eqb name (lit "<clinit>") && (51 <=? major) && negb (match parameters md with [] => true | _ => false end)) = true)
         <-> method_rules major (mk_method fl name md attrs))).
      { intros fl name md attrs Hname. unfold method_rules. cbn [m_name m_descriptor].
        assert (Hin : in_interface = true -> name <> lit "<init>").
        { intros -> ->. destruct Hname as [[_ H]|[[_ H]|H]]; [|discriminate|discriminate].
          apply (H (ch "<")); vm_compute; tauto. }
        destruct (return_desc_eqb_spec (return_type md) RVoid) as [Hr|Hr];
        destruct (str_eqb_spec name (lit "<init>")) as [Hi|Hi];
        destruct (str_eqb_spec name (lit "<clinit>")) as [Hc|Hc];
        destruct (N.leb_spec 51 major) as [Hm|Hm];
        destruct (parameters md) as [|? ?] eqn:Hps;
        destruct in_interface; cbn; try (exfalso; apply Hin; auto; fail);
        intuition (try congruence; try lia). }
      intros l w. split.
      * intros (flags & w1 & r1 & -> & H1 & name & w2 & r2 & -> & H2 & Hname & md & w3 & r3 & -> & (d & w3' & w3'' & -> & H3 & -> & Hmd)
          & G1 & G2 & G3 & Hg & attrs & w4 & r4 & -> & H4 & rest & w5 & r5 & -> & (H5 & H6 & H7 & H8) & -> & ->).
        rewrite !app_nil_r. cbn [length map]. apply is_unqualified_method_name_iff in Hname. rewrite Bool.negb_involutive in Hname.
        split; [lia|]. split.
        { apply fresh_cons. split; auto. apply (negb_mem (method_id_mem_iff _ _)). exact Hg. }
        split; [constructor; auto; apply Hrules; auto|].
        cbn [many]. rewrite !app_assoc. apply cat_intro; auto. rewrite <- !app_assoc.
        unfold method_lang. cbn [m_access_flags m_name m_descriptor m_attributes].
        apply cat_intro; [exists flags; split; [auto|]; apply truncate_bits; reflexivity|].
        apply cat_intro; [apply ref_that; auto|]. apply cat_intro; auto. destruct H3 as (j & Hj & H3). exists j. split; auto. exists d. split; auto.
        apply (decides_iff _ _ (parse_method_descriptor_spec d)); auto.
      * intros (H1 & H2 & Hru & H3). destruct l as [|f rest]; [discriminate|]. cbn [length map many] in *.
        apply fresh_cons in H2. destruct H2 as [H2 H4]. destruct H3 as (wf & wr & -> & Hf & Hr).
        inversion Hru as [|? ? Hru1 Hru2]; subst.
        destruct f as [fl name md attrs]. unfold method_lang in Hf. cbn [m_access_flags m_name m_descriptor m_attributes method_id] in *.
        destruct Hf as (w1 & r1 & -> & (flags & Hfl & Hbits) & w2 & r2 & -> & Hn & w3 & w4 & -> & (j & Hj & d & Hd & Hfd) & Ha).
        apply ref_that in Hn. destruct Hn as [Hn Hname].
        apply Hrules in Hru1; auto. destruct Hru1 as (G1 & G2 & G3).
        rewrite <- !app_assoc. exists flags. apply cat_intro; auto. exists name. apply cat_intro; auto.
        split; [apply is_unqualified_method_name_iff; rewrite Bool.negb_involutive; auto|].
        exists md. apply cat_intro.
        { exists d. apply cat_nil_r; [exists j; auto|]. apply (decides_iff _ _ (parse_method_descriptor_spec d)); auto. }
        split; [exact G1|]. split; [exact G2|]. split; [exact G3|].
        split; [apply (negb_mem (method_id_mem_iff _ _)); exact H2|].
        exists attrs. apply cat_intro; auto. exists rest. apply cat_nil_r; [split; [lia|auto]|].
        f_equal. f_equal. apply truncate_bits. exact Hbits.
Qed.
Lemma reads_methods in_interface major : reads E (read_methods E P opts in_interface major)
  (fun l w => NoDup (map method_id l) /\ Forall (method_rules major) l
     /\ table u2 (method_lang dec sl wraps opts (stack E) in_interface) l w).
Proof.
  unfold read_methods. eapply reads_ext.
  - eapply reads_bind; [rd|]. intros n _. apply reads_methods_loop.
  - intros l w. unfold table, fresh_ids. split.
    + intros (n & u & v & -> & Hn & Hl & [Hd _] & Hr & Hm). split; auto. split; auto. apply cat_intro; auto.
      replace (N.of_nat (length l)) with n by lia. auto.
    + intros (Hd & Hr & u & v & -> & Hn & Hm). exists (N.of_nat (length l)). apply cat_intro; auto. rewrite Nat2N.id. auto.
Qed.
End WithEnv.
