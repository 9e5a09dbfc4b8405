(** * Property theorems: simple attributes can be written from the constants (C80).

    Vocabulary: [S_Written], [S_Rename] ([offers], [only_bits]), [S_Anywhere] ([attribute_count]), [S_Within], [S_Format], [S_Pool], [S_Env]. *)
From Verif Require Import Base M_Names M_Descriptors M_ConstantPool M_Bytecode M_Attributes M_Class M_Cesu8 Data Sample
  S_Lang S_Names S_Format S_Pool S_Within S_Env S_Rewrite S_Combine S_Anywhere S_Rename S_Written P_Reads P_Tac P_Pool4 P_Class2 P_Class3 P_Depth P_Layout P_Within
  T_Class T_Members T_Unknown T_Rewrite T_Rewrite2 T_Anywhere T_Combine T_Rename.
From Coq Require Import ZifyBool ZifyNat ZifyN.

(** In so many bytes. *)
Definition in_bytes (k : nat) (L : lang) : Prop := exists w, length w = k /\ L w.
Lemma in_cat (L M : lang) j k : in_bytes j L -> in_bytes k M -> in_bytes (j + k) (L +++ M).
Proof. intros (u & Hu & HL) (v & Hv & HM). exists (u ++ v). rewrite app_length. split; [lia|]. apply cat_intro; auto. Qed.
Lemma in_u2 n : n < 65536 -> in_bytes 2 (u2 n).
Proof. intro H. exists (two_bytes n). split; [apply two_bytes_len; exact H|apply two_bytes_u2; exact H]. Qed.
Lemma in_ref {A} (R : N -> A -> Prop) a : offers R a -> in_bytes 2 (ref R a).
Proof. intros H. destruct (offered R a [x00; x00] H eq_refl) as (w & Hw & HR). exists w. auto. Qed.
Lemma in_opt {A} (R : N -> A -> Prop) o : if_any (offers R) o -> in_bytes 2 (opt_ref R o).
Proof. intro H. destruct o as [a|]; [apply in_ref; apply H; reflexivity|apply in_u2; reflexivity]. Qed.
Lemma in_flags named f : only_bits named f -> in_bytes 2 (flags_keep named f).
Proof. intro H. destruct (flagged named f [x00; x00] H eq_refl) as (w & Hw & HR). exists w. auto. Qed.
Lemma in_exact named f : only_bits named f -> in_bytes 2 (flags_exact named f).
Proof. intros [H Hb]. destruct (in_u2 f H) as (w & Hw & Hu). exists w. split; [exact Hw|]. split; auto. Qed.
Definition BIG : nat := N.to_nat 660000.
Lemma in_table {A} (P : A -> Prop) (F : A -> lang) k l : (k <= 10)%nat -> (forall a, P a -> in_bytes k (F a)) -> rows_of P l ->
  exists w, (length w <= BIG)%nat /\ table u2 F l w.
Proof.
  intros Hk HF [Hl Hlt]. destruct (table_exists F k l) as (w & Lw & Hw).
  - eapply Forall_impl; [|exact Hl]. intros a Ha. destruct (HF a Ha) as (u & Lu & Hu). exists u. split; [lia|exact Hu].
  - exact Hlt.
  - exists w. split; [|exact Hw]. unfold BIG. nia.
Qed.
Lemma in_big k L : in_bytes k L -> (k <= 10)%nat -> exists w, (length w <= BIG)%nat /\ L w.
Proof. intros (w & Hw & HL) Hk. exists w. split; [unfold BIG; lia|exact HL]. Qed.
Section Exists.
Variables (dec : list byte -> option str) (cs : list constant) (wraps want : bool).
Notation sl := (slots_of cs).
Lemma data_exists A d name a : written_data dec cs name a ->
  exists w, (length w <= BIG)%nat /\ contents_lang dec sl wraps want A d (lit name) a w.
Proof.
  assert (Hc : forall k, fst (contents dec sl wraps want A d a) = name -> match a with AOther _ => False | _ => True end ->
    (k <= 10)%nat -> in_bytes k (snd (contents dec sl wraps want A d a)) ->
    exists w, (length w <= BIG)%nat /\ contents_lang dec sl wraps want A d (lit name) a w).
  { intros k Hn Ho Hk Hb. destruct (in_big _ _ Hb Hk) as (w & Lw & Hw). exists w. split; [exact Lw|]. split; [exact Hw|].
    destruct a; try contradiction; rewrite <- Hn; reflexivity. }
  assert (Ht : (exists w, (length w <= BIG)%nat /\ snd (contents dec sl wraps want A d a) w) ->
    fst (contents dec sl wraps want A d a) = name -> match a with AOther _ => False | _ => True end ->
    exists w, (length w <= BIG)%nat /\ contents_lang dec sl wraps want A d (lit name) a w).
  { intros (w & Lw & Hw) Hn Ho. exists w. split; [exact Lw|]. split; [exact Hw|].
    destruct a; try contradiction; rewrite <- Hn; reflexivity. }
  intro H. destruct H as [l H|l H|l H|c m H H'| |s H|s H|l H|l H|l H| |l H H'|l H|s H|s H|l H|l H]; cbn [contents fst snd] in Hc, Ht.
  - apply (Hc 2%nat); [reflexivity|exact I|lia|]. apply in_ref, H.
  - apply Ht; [|reflexivity|exact I]. apply (in_table _ _ 2) with (3 := H); [lia|intros; apply in_ref; assumption].
  - apply Ht; [|reflexivity|exact I]. apply (in_table _ (inner_class_lang dec sl) 8) with (3 := H); [lia|].
    intros x (X1 & X2 & X3 & X4). apply (in_cat _ _ 2 6); [apply in_ref; assumption|]. apply (in_cat _ _ 2 4); [apply in_opt; assumption|].
    apply (in_cat _ _ 2 2); [apply in_opt; assumption|apply in_flags; assumption].
  - apply (Hc 4%nat); [reflexivity|exact I|lia|]. apply (in_cat _ _ 2 2); [apply in_ref; assumption|apply in_opt; assumption].
  - apply (Hc 0%nat); [reflexivity|exact I|lia|]. exists []. split; reflexivity.
  - apply (Hc 2%nat); [reflexivity|exact I|lia|]. apply in_ref, H.
  - apply (Hc 2%nat); [reflexivity|exact I|lia|]. apply in_ref, H.
  - apply Ht; [|reflexivity|exact I]. apply (in_table _ line_number_lang 4) with (3 := H); [lia|].
    intros x (X1 & X2). apply (in_cat _ _ 2 2); apply in_u2; assumption.
  - apply Ht; [|reflexivity|exact I]. apply (in_table _ (local_variable_lang dec sl) 10) with (3 := H); [lia|].
    intros x (X1 & X2 & X3 & X4 & X5 & X6). apply (in_cat _ _ 2 8); [apply in_u2; assumption|]. apply (in_cat _ _ 2 6); [apply in_u2; assumption|].
    apply (in_cat _ _ 2 4); [apply in_ref, offers_that; assumption|]. apply (in_cat _ _ 2 2); [apply in_ref; assumption|apply in_u2; assumption].
  - apply Ht; [|reflexivity|exact I]. apply (in_table _ (local_variable_type_lang dec sl) 10) with (3 := H); [lia|].
    intros x (X1 & X2 & X3 & X4 & X5 & X6). apply (in_cat _ _ 2 8); [apply in_u2; assumption|]. apply (in_cat _ _ 2 6); [apply in_u2; assumption|].
    apply (in_cat _ _ 2 4); [apply in_ref, offers_that; assumption|]. apply (in_cat _ _ 2 2); [apply in_ref; assumption|apply in_u2; assumption].
  - apply (Hc 0%nat); [reflexivity|exact I|lia|]. exists []. split; reflexivity.
  - apply Ht; [|reflexivity|exact I].
    destruct (rows_exist (method_parameter_lang dec sl) 4 l) as (v & Lv & Hv).
    { eapply Forall_impl; [|exact H]. intros x (X1 & X2).
      assert (Hx : in_bytes 4 (method_parameter_lang dec sl x)).
      { apply (in_cat _ _ 2 2); [apply in_opt; intros y Hy; destruct (X1 y Hy); apply offers_that; assumption|apply in_exact; assumption]. }
      destruct Hx as (u & Lu & Hu). exists u. split; [lia|exact Hu]. }
    destruct (uint_exists 1 (N.of_nat (length l))) as (n & Hn); [exact H'|].
    exists (n ++ v). split; [rewrite app_length, (proj1 Hn); unfold BIG; lia|]. apply cat_intro; assumption.
  - apply Ht; [|reflexivity|exact I]. apply (in_table _ _ 2) with (3 := H); [lia|intros; apply in_ref; assumption].
  - apply (Hc 2%nat); [reflexivity|exact I|lia|]. apply in_ref, H.
  - apply (Hc 2%nat); [reflexivity|exact I|lia|]. apply in_ref, H.
  - apply Ht; [|reflexivity|exact I]. apply (in_table _ _ 2) with (3 := H); [lia|intros; apply in_ref; assumption].
  - apply Ht; [|reflexivity|exact I]. apply (in_table _ _ 2) with (3 := H); [lia|intros; apply in_ref; assumption].
Qed.
Lemma written_exists A d a : written dec cs a ->
  exists w, (length w <= 6 + BIG)%nat /\ attribute_with dec sl wraps want A d a w.
Proof.
  intros (name & Hn & Ho & Hd). destruct (data_exists A d name _ Hd) as (body & Lb & Hb).
  destruct (in_ref _ _ Ho) as (nw & Ln & Hnw).
  destruct (uint_exists 4 (N.of_nat (length body))) as (len & Hlen); [unfold BIG in Lb; change (256 ^ N.of_nat 4) with 4294967296; lia|].
  exists (nw ++ len ++ body). split; [rewrite !app_length, Ln, (proj1 Hlen); lia|]. unfold attribute_with. rewrite Hn.
  apply cat_intro; [exact Hnw|]. exists len, body. auto.
Qed.
End Exists.

(** The attributes of the class, its fields and its methods can be exchanged for any that are written from the
    constants and any that the class has somewhere: as long as the bootstrap methods that the constants need
    are there, the file for it is accepted if it is not too long, and gives exactly that class. *)
Theorem C80_written E opts bs c cs c' :
  ample E bs -> parse_class_with_options E opts bs = Ok c -> constants_of E bs cs ->
  rewritten (cesu8 E) cs c c' -> bootstrap_rules cs c' ->
  exists bs', N.of_nat (length bs') <= N.of_nat (length bs) + N.of_nat (attribute_count c') * (N.of_nat (length bs) + 660006)
    /\ constants_of E bs' cs /\ (ample E bs' -> parse_class_with_options E opts bs' = Ok c').
Proof.
  intros Ha H Hcs [T1 T2 T3 T4 T5 T6 T7 T8 T9 T10] Hboot. pose proof (ample_sane _ _ Ha) as Hs.
  destruct (proj1 (parse_Ok E opts (sane_stack _ _ Hs) bs c (sane_fits _ _ Hs)) H) as (cs0 & Hc).
  assert (cs0 = cs) as -> by (eapply constants_unique; [eapply class_constants; eauto|exact Hcs]).
  set (M := (length bs + (6 + BIG))%nat).
  set (Attrs := attributes_lang (cesu8 E) (slots_of cs) (wrapping E) opts).
  assert (Hsup : forall a, at_hand (cesu8 E) cs c a -> exists w, (length w <= M)%nat /\ attribute_with (cesu8 E) (slots_of cs) (wrapping E) opts (Attrs M) M a w).
  { intros a [Hw|Hw].
    - destruct (within_part _ _ _ _ _ _ _ a Hc Hw) as (d' & Hp). destruct (part_short _ _ Hp) as (u & Lu & Hu).
      exists u. split; [unfold M; lia|]. revert Hu. apply (attribute_upto (cesu8 E) (slots_of cs) (wrapping E) opts M); [apply attributes_depth|apply element_depth|unfold M; lia].
    - destruct (written_exists (cesu8 E) cs (wrapping E) opts (Attrs M) M a Hw) as (w & Lw & Hww). exists w. split; [unfold M; lia|exact Hww]. }
  assert (Hlist : forall l, at_hand_list (cesu8 E) cs c l -> exists w, (length w <= 2 + length l * M)%nat /\ Attrs (S M) l w).
  { intros l [Hl Hlt]. apply (table_exists _ M l); [|exact Hlt]. eapply Forall_impl; [|exact Hl]. exact Hsup. }
  assert (Hnew : exists bs', (length bs' <= length bs + attribute_count c' * M)%nat /\ class_lang (cesu8 E) (wrapping E) opts (S M) cs c' bs').
  { clear Hsup. clearbody M.
    destruct Hc as ((w0 & r0 & -> & H0 & w1 & r1 & -> & H1 & w2 & r2 & -> & H2 & w3 & r3 & -> & H3 & w4 & r4 & -> & H4 & w5 & r5 & -> & H5 & w6 & r6 & -> & H6
      & w7 & r7 & -> & H7 & w8 & r8 & -> & H8 & w9 & r9 & -> & H9 & H10) & Hpool & Hnf & Hnm & Hmr & Hmod & _).
    eapply (table_with u2 _ (fun f => length (f_attributes f) * M)%nat _ (field_lang (cesu8 E) (slots_of cs) (wrapping E) opts (S M))) in H8;
      [|clear H8|exact T8].
    2:{ intros f f' u (E1 & E2 & E3 & Ht) (p & q & -> & Hp & p2 & q2 & -> & Hp2 & p3 & q3 & -> & Hp3 & Hq). unfold field_lang. rewrite E1, E2, E3.
        destruct (Hlist _ Ht) as (q' & Lq & Hq'). apply attributes_two in Hq. exists (p ++ p2 ++ p3 ++ q'). split; [rewrite !app_length; lia|].
        do 3 (apply cat_intro; [assumption|]). exact Hq'. }
    eapply (table_with u2 _ (fun f => length (m_attributes f) * M)%nat _
      (method_lang (cesu8 E) (slots_of cs) (wrapping E) opts (S M) (N.testbit (access_flags c) ACC_INTERFACE_bit))) in H9; [|clear H9|exact T9].
    2:{ intros f f' u (E1 & E2 & E3 & Ht) (p & q & -> & Hp & p2 & q2 & -> & Hp2 & p3 & q3 & -> & Hp3 & Hq). unfold method_lang. rewrite E1, E2, E3.
        destruct (Hlist _ Ht) as (q' & Lq & Hq'). apply attributes_two in Hq. exists (p ++ p2 ++ p3 ++ q'). split; [rewrite !app_length; lia|].
        do 3 (apply cat_intro; [assumption|]). exact Hq'. }
    destruct (Hlist _ T10) as (v10 & L10 & H10'). apply attributes_two in H10.
    destruct H8 as (v8 & L8 & H8'). destruct H9 as (v9 & L9 & H9'). rewrite (sum_scale (fun f => length (f_attributes f))) in L8. rewrite (sum_scale (fun f => length (m_attributes f))) in L9.
    exists (w0 ++ w1 ++ w2 ++ w3 ++ w4 ++ w5 ++ w6 ++ w7 ++ v8 ++ v9 ++ v10). split; [unfold attribute_count; rewrite !app_length; lia|].
    split; [rewrite T1, T2, T4, T5, T6, T7; do 8 (apply cat_intro; [assumption|]); do 2 (apply cat_intro; [assumption|]); exact H10'|].
    split; [congruence|].
    split; [|split; [|split; [|split; [|exact Hboot]]]].
    - erewrite refurnished_same; [exact Hnf| |exact T8]. intros a b (_ & E1 & E2 & _). congruence.
    - erewrite refurnished_same; [exact Hnm| |exact T9]. intros a b (_ & E1 & E2 & _). congruence.
    - rewrite T1. clear - T9 Hmr. induction T9 as [|m m' l l' (_ & E1 & E2 & _) H IH]; [constructor|]. inversion Hmr as [|? ? [R1 R2] Hr]; subst.
      constructor; [|auto]. split; rewrite E1, E2; assumption.
    - intro Hx. rewrite T4 in Hx. destruct (Hmod Hx) as (M1 & M2 & M3 & M4 & M5 & M6). rewrite M5 in T8. rewrite M6 in T9.
      inversion T8. inversion T9. rewrite T1, T4, T6, T7. auto 10. }
  destruct Hnew as (bs' & Hle & Hc'). exists bs'. split; [|split; [eapply class_constants; exact Hc'|]].
  - assert (HM : N.of_nat M = N.of_nat (length bs) + 660006) by (unfold M, BIG; lia). rewrite <- HM. clear - Hle. clearbody M. lia.
  - intro Ha'. apply C01_parse_iff_format; [exact Ha'|]. exists (S M), cs. exact Hc'.
Qed.
(** The sample with other attributes: on each field an integer constant, whatever its type, and a line number far
    beyond any code; on each method its code and local variables and parameters that it does not have. *)
Definition field_extras : list attr_info :=
  [mk_attr (lit "ConstantValue") (AConstantValue (LInteger (-70000))); mk_attr (lit "LineNumberTable") (ALineNumberTable [mk_ln 65535 9])].
Definition method_extras : list attr_info :=
  [mk_attr (lit "LocalVariableTable") (ALocalVariableTable [mk_lv 0 65535 (lit "arg") int_type 300]);
   mk_attr (lit "MethodParameters") (AMethodParameters [mk_mp None 0x10; mk_mp (Some (lit "arg")) 0])].
Definition sample_rewritten : class_file := Eval vm_compute in
  mk_class (major_version sample_parsed) (minor_version sample_parsed) (constant_pool sample_parsed) (access_flags sample_parsed)
    (this_class sample_parsed) (super_class sample_parsed) (interfaces sample_parsed)
    (map (fun f => mk_field (f_access_flags f) (f_name f) (f_descriptor f) field_extras) (fields sample_parsed))
    (map (fun m => mk_method (m_access_flags m) (m_name m) (m_descriptor m) (method_extras ++ m_attributes m)) (methods sample_parsed))
    (class_attributes sample_parsed).
Lemma text_at i raw s : at_index (slots_of sample_constants) i (CUtf8 raw) -> cesu8 debug64 raw = Some s -> any_text i s.
Proof. intros H Hs. exists raw. auto. Qed.
Lemma field_extras_written : Forall (written (cesu8 debug64) sample_constants) field_extras.
Proof.
  constructor; [|constructor; [|constructor]].
  - exists "ConstantValue"%string. split; [reflexivity|]. split; [apply (offered_at _ 44); [eapply text_at; [reflexivity|vm_compute; reflexivity]|reflexivity]|].
    apply wr_constant. apply (offered_at _ 33); reflexivity.
  - exists "LineNumberTable"%string. split; [reflexivity|]. split; [apply (offered_at _ 34); [eapply text_at; [reflexivity|vm_compute; reflexivity]|reflexivity]|].
    apply wr_lines. split; [|reflexivity]. constructor; [|constructor]. split; reflexivity.
Qed.
Lemma arg_here : offers (utf8_at (cesu8 debug64) (slots_of sample_constants)) (lit "arg") /\ unqualified (lit "arg").
Proof. split; [apply (offered_at _ 35); [eapply text_at; [reflexivity|vm_compute; reflexivity]|reflexivity]|named]. Qed.
Lemma method_extras_written : Forall (written (cesu8 debug64) sample_constants) method_extras.
Proof.
  destruct arg_here as [A1 A2]. constructor; [|constructor; [|constructor]].
  - exists "LocalVariableTable"%string. split; [reflexivity|]. split; [apply (offered_at _ 36); [eapply text_at; [reflexivity|vm_compute; reflexivity]|reflexivity]|].
    apply wr_locals. split; [|reflexivity]. constructor; [|constructor]. split; [reflexivity|]. split; [reflexivity|]. split; [reflexivity|].
    split; [exact A1|]. split; [exact A2|exact int_here].
  - exists "MethodParameters"%string. split; [reflexivity|]. split; [apply (offered_at _ 40); [eapply text_at; [reflexivity|vm_compute; reflexivity]|reflexivity]|].
    apply wr_parameters; [|reflexivity]. constructor; [|constructor; [|constructor]].
    + split; [intros s Hs; discriminate Hs|apply few_bits; reflexivity].
    + split; [intros s Hs; cbn [mp_name] in Hs; injection Hs as <-; auto|apply few_bits; reflexivity].
Qed.
Example C80_meets : ample debug64 sample /\ parse_class_with_options debug64 true sample = Ok sample_parsed
  /\ constants_of debug64 sample sample_constants /\ rewritten (cesu8 debug64) sample_constants sample_parsed sample_rewritten
  /\ bootstrap_rules sample_constants sample_rewritten
  /\ map (fun f => length (f_attributes f)) (fields sample_rewritten) = [2; 2]%nat
  /\ map (fun m => length (m_attributes m)) (methods sample_rewritten) = [3; 4]%nat
  /\ map (fun f => f_descriptor f) (fields sample_rewritten)
     = [int_type; {| dimensions := 0; fd_type := FObject (lit "java/lang/String") |}].
Proof.
  assert (Ha : ample debug64 sample) by (apply ampleb_ample; vm_compute; reflexivity).
  split; [exact Ha|]. split; [exact sample_parse|]. split; [exact sample_of|].
  split; [|split; [|repeat split; vm_compute; reflexivity]].
  - constructor; [reflexivity|reflexivity|vm_compute; reflexivity|reflexivity|vm_compute; reflexivity|vm_compute; reflexivity|vm_compute; reflexivity| | |].
    + assert (E : fields sample_rewritten = map (fun f => mk_field (f_access_flags f) (f_name f) (f_descriptor f) field_extras) (fields sample_parsed))
        by (vm_compute; reflexivity).
      rewrite E. clear E. induction (fields sample_parsed) as [|f l IH]; [constructor|]. constructor; [|exact IH].
      split; [reflexivity|split; [reflexivity|split; [reflexivity|split; [|reflexivity]]]].
      eapply Forall_impl; [|exact field_extras_written]. intros a Hw. right. exact Hw.
    + assert (E : methods sample_rewritten = map (fun m => mk_method (m_access_flags m) (m_name m) (m_descriptor m) (method_extras ++ m_attributes m)) (methods sample_parsed))
        by (vm_compute; reflexivity).
      rewrite E. clear E.
      assert (Hlt : Forall (fun m => N.of_nat (length (method_extras ++ m_attributes m)) < 65536) (methods sample_parsed)) by (repeat constructor; vm_compute; reflexivity).
      assert (Hin : forall m a, In m (methods sample_parsed) -> In a (m_attributes m) -> within sample_parsed a) by (intros m a Hm Hi; eapply of_method; eauto).
      revert Hlt Hin. generalize (methods sample_parsed). induction l as [|m l IH]; intros Hlt Hin; [constructor|]. inversion Hlt; subst. constructor.
      * split; [reflexivity|split; [reflexivity|split; [reflexivity|split; [|assumption]]]]. apply Forall_app. split.
        -- eapply Forall_impl; [|exact method_extras_written]. intros a Hw. right. exact Hw.
        -- apply Forall_forall. intros a Hi. left. apply (Hin m); [left; reflexivity|exact Hi].
      * apply IH; [assumption|]. intros m' a Hm Hi. apply (Hin m'); [right; exact Hm|exact Hi].
    + split; [|vm_compute; reflexivity].
      assert (E : class_attributes sample_rewritten = class_attributes sample_parsed) by (vm_compute; reflexivity). rewrite E.
      apply Forall_forall. intros a Hi. left. apply of_class, Hi.
  - assert (Hb : bootstrap_rules sample_constants sample_parsed)
      by (eapply bootstrap_fits, (rules_hold sample); [exact Ha|exact sample_parse|exact sample_of]).
    assert (E : bootstrap_tables sample_rewritten = bootstrap_tables sample_parsed) by (vm_compute; reflexivity).
    intros b nt Hi. rewrite E. exact (Hb b nt Hi).
Qed.
