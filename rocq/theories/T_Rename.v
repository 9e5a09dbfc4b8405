(** * Property theorems: flags, names and descriptors are independent of everything else (C79).

    Vocabulary: [S_Rename], [S_Combine] ([whole_rules]), [S_Names], [S_Format], [S_Pool], [S_Env]. *)
From Verif Require Import Base M_Names M_Descriptors M_ConstantPool M_Bytecode M_Attributes M_Class M_Cesu8 Data Sample
  S_Lang S_Names S_Format S_Pool S_Within S_Env S_Rewrite S_Combine S_Rename P_Reads P_Tac P_Pool4 P_Class2 P_Class3 P_Layout P_Within T_Class T_Members T_Rewrite T_Rewrite2 T_Combine.
From Coq Require Import ZifyBool ZifyNat ZifyN.

(** In as many bytes. *)
Definition as_long (L : lang) (w : list byte) : Prop := exists w', length w' = length w /\ L w'.
Lemma as_long_self (L : lang) w : L w -> as_long L w. Proof. exists w. auto. Qed.
Lemma as_long_cat (L M : lang) u v : as_long L u -> as_long M v -> as_long (L +++ M) (u ++ v).
Proof.
  intros (u' & Hu & HL) (v' & Hv & HM). exists (u' ++ v'). rewrite !app_length. split; [lia|]. apply cat_intro; auto.
Qed.
Lemma many_as_long {A} (R : A -> A -> Prop) (F F' : A -> lang) : (forall a a' u, R a a' -> F a u -> as_long (F' a') u) ->
  forall l l' w, Forall2 R l l' -> many F l w -> as_long (many F' l') w.
Proof.
  intros HR l l' w H. revert w. induction H as [|a a' l l' Ha H IH]; intros w Hw.
  - apply as_long_self. exact Hw.
  - destruct Hw as (u & v & -> & Hu & Hv). cbn [many]. apply as_long_cat; [eapply HR; eauto|auto].
Qed.
Lemma table_as_long {A} (C : N -> lang) (R : A -> A -> Prop) (F F' : A -> lang) : (forall a a' u, R a a' -> F a u -> as_long (F' a') u) ->
  forall l l' w, Forall2 R l l' -> table C F l w -> as_long (table C F' l') w.
Proof.
  intros HR l l' w H (u & v & -> & Hu & Hv).
  assert (El : length l' = length l) by (clear - H; induction H; cbn; congruence).
  unfold table. rewrite El. apply as_long_cat; [apply as_long_self; auto|]. eapply many_as_long; eauto.
Qed.
Lemma u2_len n w : u2 n w -> length w = 2%nat. Proof. intros [H _]. exact H. Qed.
Lemma two_bytes_len n : n < 65536 -> length (two_bytes n) = 2%nat. Proof. intro Hn. exact (u2_len _ _ (two_bytes_u2 n Hn)). Qed.
Lemma any_len {A} (L : A -> lang) P w n : (forall a w, L a w -> length w = n) -> any L P w -> length w = n.
Proof. intros H (a & Ha & _). eapply H; eauto. Qed.
Lemma offered {A} (R : N -> A -> Prop) a w : offers R a -> length w = 2%nat -> as_long (ref R a) w.
Proof. intros (i & Hi & HR) Hw. exists (two_bytes i). rewrite Hw. split; [apply two_bytes_len; exact Hi|]. exists i. split; [apply two_bytes_u2; exact Hi|exact HR]. Qed.
Lemma offers_that {A} (R : N -> A -> Prop) (P : A -> Prop) a : offers R a -> P a -> offers (that R P) a.
Proof. intros (i & Hi & HR) HP. exists i. split; [exact Hi|]. split; assumption. Qed.
Lemma flagged named f w : only_bits named f -> length w = 2%nat -> as_long (flags_keep named f) w.
Proof.
  intros [Hf Hb] Hw. exists (two_bytes f). rewrite Hw. split; [apply two_bytes_len; exact Hf|]. exists f. split; [apply two_bytes_u2; exact Hf|].
  intro b. specialize (Hb b). destruct (N.testbit f b), (N.testbit named b); auto. discriminate (Hb eq_refl).
Qed.
Lemma flags_len named f w : flags_keep named f w -> length w = 2%nat. Proof. intros (x & H & _). eapply u2_len; eauto. Qed.
Lemma ref_len {A} (R : N -> A -> Prop) a w : ref R a w -> length w = 2%nat. Proof. intros (x & H & _). eapply u2_len; eauto. Qed.
Lemma opt_ref_len {A} (R : N -> A -> Prop) a w : opt_ref R a w -> length w = 2%nat. Proof. destruct a; [apply ref_len|apply u2_len]. Qed.
Lemma refs_exist {A} (R : N -> A -> Prop) l : Forall (offers R) l -> exists w, length w = (2 * length l)%nat /\ many (ref R) l w.
Proof.
  induction 1 as [|a l (i & Hi & Ha) _ (v & Hv & IH)]; [exists []; split; reflexivity|].
  exists (two_bytes i ++ v). split; [rewrite app_length, two_bytes_len by exact Hi; cbn [length]; lia|]. apply cat_intro; [|exact IH].
  exists i. split; [apply two_bytes_u2; exact Hi|exact Ha].
Qed.
Lemma refs_len {A} (R : N -> A -> Prop) l w : many (ref R) l w -> length w = (2 * length l)%nat.
Proof.
  revert w. induction l as [|a l IH]; intros w H; [unfold many, eps in H; subst; reflexivity|].
  destruct H as (u & v & -> & Hu & Hv). rewrite app_length, (ref_len _ _ _ Hu), (IH _ Hv). cbn [length]. lia.
Qed.

(** Flags, names and descriptors of the class and of its members, its superclass and its interfaces can be
    exchanged for any others that the constants offer: there is a file for it, in which only the table of
    interfaces may have another length, and it is accepted exactly if the rules about the class as a whole are met. *)
Theorem C79_renamed E opts bs c cs c' :
  ample E bs -> parse_class_with_options E opts bs = Ok c -> constants_of E bs cs ->
  renamed (cesu8 E) cs c c' ->
  exists bs', (length bs' + 2 * length (interfaces c) = length bs + 2 * length (interfaces c'))%nat /\ constants_of E bs' cs
    /\ (ample E bs' -> (parse_class_with_options E opts bs' = Ok c' <-> whole_rules cs c')).
Proof.
  intros Ha H Hcs [T1 T2 T3 T4 T5 T6 T7 T7' T8 T9 T10]. pose proof (ample_sane _ _ Ha) as Hs.
  destruct (proj1 (parse_Ok E opts (sane_stack _ _ Hs) bs c (sane_fits _ _ Hs)) H) as (cs0 & Hc).
  assert (cs0 = cs) as -> by (eapply constants_unique; [eapply class_constants; eauto|exact Hcs]).
  apply parts_class in Hc. destruct Hc as [Hc _].
  assert (Hnew : exists bs', (length bs' + 2 * length (interfaces c) = length bs + 2 * length (interfaces c'))%nat
     /\ parts_lang (cesu8 E) (wrapping E) opts (stack E) cs c' bs').
  { destruct Hc as ((w0 & r0 & -> & H0 & w1 & r1 & -> & H1 & w2 & r2 & -> & H2 & w3 & r3 & -> & H3 & w4 & r4 & -> & H4 & w5 & r5 & -> & H5 & w6 & r6 & -> & H6
      & w7 & r7 & -> & H7 & w8 & r8 & -> & H8 & w9 & r9 & -> & H9 & H10) & Hpool).
    destruct (flagged _ _ w4 T4 (flags_len _ _ _ H4)) as (w4' & L4 & H4').
    destruct T5 as [T5 T5']. destruct (offered _ _ w5 (offers_that _ _ _ T5 T5') (ref_len _ _ _ H5)) as (w5' & L5 & H5').
    assert (Hsup : as_long (opt_ref (that (class_at (cesu8 E) (slots_of cs)) class_name) (super_class c')) w6).
    { pose proof (opt_ref_len _ _ _ H6) as L6. destruct (super_class c') as [s|].
      - destruct (T6 s eq_refl) as [U V]. apply offered; [apply offers_that; assumption|exact L6].
      - exists (two_bytes 0). rewrite L6. split; [reflexivity|]. apply two_bytes_u2. reflexivity. }
    destruct Hsup as (w6' & L6 & H6').
    destruct (refs_exist (that (class_at (cesu8 E) (slots_of cs)) class_name) (interfaces c')) as (v7 & L7 & H7').
    { revert T7. apply Forall_impl. intros s [U V]. apply offers_that; assumption. }
    destruct H7 as (n7 & x7 & -> & Hn7 & H7). apply refs_len in H7. pose proof (u2_len _ _ Hn7) as Ln7.
    assert (H7'' : table u2 (ref (that (class_at (cesu8 E) (slots_of cs)) class_name)) (interfaces c') (two_bytes (N.of_nat (length (interfaces c'))) ++ v7))
      by (apply cat_intro; [apply two_bytes_u2; exact T7'|exact H7']).
    eapply (table_as_long u2 (renamed_field (cesu8 E) cs) _ (field_lang (cesu8 E) (slots_of cs) (wrapping E) opts (stack E))) in H8; [|clear H8|exact T8].
    2:{ intros f f' u (E1 & E2 & E2' & E3 & Ht) (p & q & -> & Hp & p2 & q2 & -> & Hp2 & p3 & q3 & -> & Hp3 & Hq). unfold field_lang. rewrite Ht.
        apply as_long_cat; [apply flagged; [exact E1|eapply flags_len; eauto]|].
        apply as_long_cat; [apply offered; [apply offers_that; assumption|eapply ref_len; eauto]|].
        apply as_long_cat; [apply offered; [assumption|eapply ref_len; eauto]|]. apply as_long_self. exact Hq. }
    eapply (table_as_long u2 (renamed_method (cesu8 E) cs (N.testbit (access_flags c') 9)) _
      (method_lang (cesu8 E) (slots_of cs) (wrapping E) opts (stack E) (N.testbit (access_flags c') ACC_INTERFACE_bit))) in H9; [|clear H9|exact T9].
    2:{ intros f f' u (E1 & E2 & E2' & E3 & Ht) (p & q & -> & Hp & p2 & q2 & -> & Hp2 & p3 & q3 & -> & Hp3 & Hq). unfold method_lang. rewrite Ht.
        apply as_long_cat; [apply flagged; [exact E1|eapply flags_len; eauto]|].
        apply as_long_cat; [apply offered; [apply offers_that; assumption|eapply ref_len; eauto]|].
        apply as_long_cat; [apply offered; [assumption|eapply ref_len; eauto]|]. apply as_long_self. exact Hq. }
    destruct H8 as (w8' & L8 & H8'), H9 as (w9' & L9 & H9').
    exists (w0 ++ w1 ++ w2 ++ w3 ++ w4' ++ w5' ++ w6' ++ (two_bytes (N.of_nat (length (interfaces c'))) ++ v7) ++ w8' ++ w9' ++ r9).
    split; [rewrite !app_length, two_bytes_len by exact T7'; lia|]. split; [|congruence]. rewrite T1, T2, T10.
    do 10 (apply cat_intro; [assumption|]). assumption. }
  destruct Hnew as (bs' & Hle & Hc'). exists bs'. split; [exact Hle|].
  assert (Hcs' : constants_of E bs' cs).
  { destruct (parts_starts _ _ _ _ _ _ _ Hc') as (count & ws & rest & S1 & Hf & _). do 5 eexists. split; eassumption. }
  split; [exact Hcs'|]. intro Ha'. pose proof (ample_sane _ _ Ha') as Hs'.
  pose proof (parse_Ok E opts (sane_stack _ _ Hs') bs' c' (sane_fits _ _ Hs')) as P. split.
  - intro Hp. apply P in Hp. destruct Hp as (cs1 & Hp).
    assert (cs1 = cs) as -> by (eapply constants_unique; [eapply class_constants; eauto|exact Hcs']).
    apply parts_class in Hp. apply Hp.
  - intro Hw. apply P. exists cs. apply parts_class. auto.
Qed.
(** The sample with other flags, as [java/lang/Object] without a superclass, with two interfaces, other names of its
    fields and methods exchanged; [d] is the descriptor of the method that is then [<init>]. *)
Definition int_type : field_desc := {| dimensions := 0; fd_type := FInteger |}.
Definition returns (r : return_desc) : method_desc := {| parameters := []; return_type := r |}.
Definition sample_renamed (d : method_desc) : class_file :=
  mk_class (major_version sample_parsed) (minor_version sample_parsed) (constant_pool sample_parsed) 0x21
    (lit "java/lang/Object") None [lit "Sample"; lit "java/lang/Runnable"]
    (map (fun p => mk_field 2 (fst p) int_type (f_attributes (snd p))) (combine [lit "hi"; lit "run"] (fields sample_parsed)))
    (map (fun p => mk_method 4 (fst (fst p)) (snd (fst p)) (m_attributes (snd p)))
       (combine [(lit "hashCode", returns RVoid); (lit "<init>", d)] (methods sample_parsed)))
    (class_attributes sample_parsed).
Lemma without_check bad s : forallb (fun c => negb (existsb (N.eqb c) s)) (lit bad) = true -> without bad s.
Proof.
  intros H c Hc Hs. rewrite forallb_forall in H. specialize (H c Hc). apply Bool.negb_true_iff in H.
  assert (Ht : existsb (N.eqb c) s = true) by (apply existsb_exists; exists c; split; [exact Hs|apply N.eqb_refl]). congruence.
Qed.
Ltac named := split; [discriminate|apply without_check; reflexivity].
Lemma few_bits named f : f < 65536 -> N.land f named = f -> only_bits named f.
Proof. intros Hf H. split; [exact Hf|]. intros b Hb. rewrite <- H, N.land_spec in Hb. destruct (N.testbit named b); auto. rewrite Bool.andb_false_r in Hb. discriminate. Qed.
Definition any_text := utf8_at (cesu8 debug64) (slots_of sample_constants).
Lemma at_1 : any_text 1 (lit "Sample"). Proof. eexists. split; [reflexivity|vm_compute; reflexivity]. Qed.
Lemma at_3 : any_text 3 (lit "java/lang/Object"). Proof. eexists. split; [reflexivity|vm_compute; reflexivity]. Qed.
Lemma at_5 : any_text 5 (lit "java/lang/Runnable"). Proof. eexists. split; [reflexivity|vm_compute; reflexivity]. Qed.
Lemma at_7 : any_text 7 (lit "hi"). Proof. eexists. split; [reflexivity|vm_compute; reflexivity]. Qed.
Lemma at_12 : any_text 12 (lit "I"). Proof. eexists. split; [reflexivity|vm_compute; reflexivity]. Qed.
Lemma at_15 : any_text 15 (lit "hashCode"). Proof. eexists. split; [reflexivity|vm_compute; reflexivity]. Qed.
Lemma at_16 : any_text 16 (lit "()I"). Proof. eexists. split; [reflexivity|vm_compute; reflexivity]. Qed.
Lemma at_19 : any_text 19 (lit "run"). Proof. eexists. split; [reflexivity|vm_compute; reflexivity]. Qed.
Lemma at_20 : any_text 20 (lit "()V"). Proof. eexists. split; [reflexivity|vm_compute; reflexivity]. Qed.
Lemma at_41 : any_text 41 (lit "<init>"). Proof. eexists. split; [reflexivity|vm_compute; reflexivity]. Qed.
Lemma class_here i j s : at_index (slots_of sample_constants) i (CClass j) -> any_text j s -> i < 65536 -> class_name s ->
  a_class (cesu8 debug64) sample_constants s.
Proof. intros Hi Hj Hlt Hn. split; [exists i; split; [exact Hlt|exists j; auto]|exact Hn]. Qed.
Lemma offered_at {A} (R : N -> A -> Prop) i a : R i a -> i < 65536 -> offers R a. Proof. exists i. auto. Qed.
Lemma int_here : offers (field_desc_at (cesu8 debug64) (slots_of sample_constants)) int_type.
Proof. apply (offered_at _ 12); [|reflexivity]. exists (lit "I"). split; [exact at_12|]. split; [split; [vm_compute; discriminate|exact I]|]. exists []. reflexivity. Qed.
Lemma void_here : offers (method_desc_at (cesu8 debug64) (slots_of sample_constants)) (returns RVoid).
Proof. apply (offered_at _ 20); [|reflexivity]. exists (lit "()V"). split; [exact at_20|]. split; [split; [constructor|exact I]|]. exists []. split; reflexivity. Qed.
Lemma returns_here : offers (method_desc_at (cesu8 debug64) (slots_of sample_constants)) (returns (RReturn int_type)).
Proof.
  apply (offered_at _ 16); [|reflexivity]. exists (lit "()I"). split; [exact at_16|]. split; [split; [constructor|split; [vm_compute; discriminate|exact I]]|].
  exists []. split; reflexivity.
Qed.
Lemma sample_class : class_name (lit "Sample").
Proof. exists [lit "Sample"]. split; [discriminate|]. split; [constructor; [named|constructor]|reflexivity]. Qed.
Lemma object_class : class_name (lit "java/lang/Object").
Proof. exists [lit "java"; lit "lang"; lit "Object"]. split; [discriminate|]. split; [|reflexivity]. constructor; [named|constructor; [named|constructor; [named|constructor]]]. Qed.
Lemma runnable_class : class_name (lit "java/lang/Runnable").
Proof. exists [lit "java"; lit "lang"; lit "Runnable"]. split; [discriminate|]. split; [|reflexivity]. constructor; [named|constructor; [named|constructor; [named|constructor]]]. Qed.
Lemma sample_renames d : offers (method_desc_at (cesu8 debug64) (slots_of sample_constants)) d ->
  renamed (cesu8 debug64) sample_constants sample_parsed (sample_renamed d).
Proof.
  intro Hd. constructor.
  - reflexivity.
  - reflexivity.
  - reflexivity.
  - apply few_bits; reflexivity.
  - apply (class_here 4 3); [reflexivity|exact at_3|reflexivity|exact object_class].
  - intros s Hs. discriminate Hs.
  - constructor; [apply (class_here 2 1); [reflexivity|exact at_1|reflexivity|exact sample_class]|].
    constructor; [apply (class_here 6 5); [reflexivity|exact at_5|reflexivity|exact runnable_class]|constructor].
  - reflexivity.
  - constructor; [|constructor; [|constructor]];
    (split; [apply few_bits; reflexivity|split; [|split; [named|split; [exact int_here|reflexivity]]]]).
    + apply (offered_at _ 7); [exact at_7|reflexivity].
    + apply (offered_at _ 19); [exact at_19|reflexivity].
  - constructor; [|constructor; [|constructor]];
    (split; [apply few_bits; reflexivity|split; [|split; [|split; [|reflexivity]]]]).
    + apply (offered_at _ 15); [exact at_15|reflexivity].
    + left. named.
    + exact void_here.
    + apply (offered_at _ 41); [exact at_41|reflexivity].
    + right. left. split; reflexivity.
    + exact Hd.
  - reflexivity.
Qed.
(** With this descriptor the method is a constructor that returns something. *)
Example C79_meets : let c' := sample_renamed (returns RVoid) in let wrong := sample_renamed (returns (RReturn int_type)) in
  ample debug64 sample /\ parse_class_with_options debug64 true sample = Ok sample_parsed /\ constants_of debug64 sample sample_constants
  /\ renamed (cesu8 debug64) sample_constants sample_parsed c' /\ whole_rules sample_constants c'
  /\ renamed (cesu8 debug64) sample_constants sample_parsed wrong /\ ~ whole_rules sample_constants wrong
  /\ (length (interfaces c') = 2 /\ length (interfaces sample_parsed) = 1)%nat
  /\ forall bs', length bs' = (length sample + 2)%nat -> ample debug64 bs'.
Proof.
  intros c' wrong. split; [apply ampleb_ample; vm_compute; reflexivity|]. split; [exact sample_parse|]. split; [exact sample_of|].
  split; [apply sample_renames, void_here|]. split; [|split; [apply sample_renames, returns_here|split; [|split; [split; reflexivity|]]]].
  - assert (Hb : bootstrap_rules sample_constants sample_parsed).
    { eapply bootstrap_fits, (rules_hold sample); [apply ampleb_ample; vm_compute; reflexivity|exact sample_parse|exact sample_of]. }
    constructor.
    + vm_compute. repeat constructor; cbn; intuition discriminate.
    + vm_compute. repeat constructor; cbn; intuition discriminate.
    + constructor; [|constructor; [|constructor]]; split; intro Hx; try reflexivity; try (vm_compute in Hx; discriminate Hx).
    + intro Hx. vm_compute in Hx. discriminate Hx.
    + exact Hb.
  - intros [_ _ Hm _ _]. inversion Hm as [|m l _ Hl]; subst. inversion Hl as [|m' l' [Hi _] _]; subst.
    specialize (Hi eq_refl). vm_compute in Hi. discriminate Hi.
  - intros bs' Hl. apply (ample_length debug64 (sample ++ [x00; x00])); [rewrite app_length; exact Hl|].
    apply ampleb_ample. vm_compute. reflexivity.
Qed.
