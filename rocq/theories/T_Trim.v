(** * Property theorems: attributes may be left out at any depth (C75).

    Vocabulary: [S_Trim], [S_Rewrite] ([select], [row_numbers]), [S_Format], [S_Pool], [S_Env]. *)
From Verif Require Import Base M_Names M_Descriptors M_ConstantPool M_Bytecode M_Attributes M_Class M_Cesu8 Data Sample
  S_Lang S_Names S_Format S_Pool S_Within S_Env S_Rewrite S_Trim P_Reads P_Tac P_Pool4 P_Class2 P_Class3 P_Layout P_Within T_Class T_Members T_Unknown T_Rewrite T_Rewrite2.
From Coq Require Import Permutation ZifyBool ZifyNat ZifyN.

(** In no more bytes. *)
Definition shorter (L : lang) (w : list byte) : Prop := exists w', (length w' <= length w)%nat /\ L w'.
Lemma shorter_self (L : lang) w : L w -> shorter L w. Proof. exists w. auto. Qed.
Lemma shorter_cat (L M : lang) u v : shorter L u -> shorter M v -> shorter (L +++ M) (u ++ v).
Proof.
  intros (u' & Hu & HL) (v' & Hv & HM). exists (u' ++ v'). rewrite !app_length. split; [lia|]. apply cat_intro; auto.
Qed.
Lemma many_shorter {A} (R : A -> A -> Prop) (F F' : A -> lang) : (forall a a' u, R a a' -> F a u -> shorter (F' a') u) ->
  forall l l' w, Forall2 R l l' -> many F l w -> shorter (many F' l') w.
Proof.
  intros HR l l' w H. revert w. induction H as [|a a' l l' Ha H IH]; intros w Hw.
  - apply shorter_self. exact Hw.
  - destruct Hw as (u & v & -> & Hu & Hv). cbn [many]. apply shorter_cat; [eapply HR; eauto|auto].
Qed.
Lemma table_shorter {A} (C : N -> lang) (R : A -> A -> Prop) (F F' : A -> lang) : (forall a a' u, R a a' -> F a u -> shorter (F' a') u) ->
  forall l l' w, Forall2 R l l' -> table C F l w -> shorter (table C F' l') w.
Proof.
  intros HR l l' w H (u & v & -> & Hu & Hv).
  assert (El : length l' = length l) by (clear - H; induction H; cbn; congruence).
  unfold table. rewrite El. apply shorter_cat; [apply shorter_self; auto|]. eapply many_shorter; eauto.
Qed.
Section Trim.
Variables (dec : list byte -> option str) (sl : slots) (wraps want : bool).
Notation Attrs := (attributes_lang dec sl wraps want).
Lemma trim_list d : (forall l l' w, trimmed_list l l' -> Attrs d l w -> shorter (Attrs d l') w) ->
  forall a a' w, trimmed a a' -> attribute_with dec sl wraps want (Attrs d) d a w -> shorter (attribute_with dec sl wraps want (Attrs d) d a') w.
Proof.
  intros IH a a' w H Hw. destruct H as [a|name s l code bc ex attrs attrs' ks Hks Hat|name rs rs' Hrs].
  - apply shorter_self. exact Hw.
  - destruct Hw as (nw & v & -> & Hn & len & body & -> & Hlen & Hc & Hname). cbn [attr_name attr_dat contents snd] in *.
    destruct Hc as (w1 & r1 & -> & H1 & w2 & r2 & -> & H2 & w3 & r3 & -> & H3 & w4 & r4 & -> & H4 & w5 & r5 & -> & H5 & w6 & r6 & -> & H6 & H7).
    cbn [cd_max_stack cd_max_locals cd_code cd_bytecode cd_exception_table cd_attributes] in *.
    destruct (IH attrs attrs' w6) as (w6' & L6 & H6'); [exists ks; auto|exact H6|].
    set (body' := w1 ++ w2 ++ w3 ++ w4 ++ w5 ++ w6' ++ r6).
    assert (Lb : (length body' <= length (w1 ++ w2 ++ w3 ++ w4 ++ w5 ++ w6 ++ r6))%nat) by (unfold body'; rewrite !app_length; lia).
    pose proof (uint_bound _ _ _ Hlen) as Hb. change (256 ^ N.of_nat 4) with 4294967296 in Hb.
    destruct (uint_exists 4 (N.of_nat (length body'))) as (len' & Hlen'); [change (256 ^ N.of_nat 4) with 4294967296; lia|].
    exists (nw ++ len' ++ body'). split; [pose proof (proj1 Hlen); pose proof (proj1 Hlen'); unfold body' in *; rewrite !app_length in *; lia|].
    apply cat_intro; [exact Hn|]. exists len', body'. split; [reflexivity|]. split; [exact Hlen'|]. split; [|exact Hname].
    cbn [attr_name attr_dat contents snd]. unfold body'. unfold code_lang. cbn [cd_max_stack cd_max_locals cd_code cd_bytecode cd_exception_table cd_attributes].
    do 6 (apply cat_intro; [assumption|]). assumption.
  - destruct Hw as (nw & v & -> & Hn & len & body & -> & Hlen & Hc & Hname). cbn [attr_name attr_dat contents snd] in *.
    eapply (table_shorter u2 _ _ (record_component_lang dec sl (Attrs d))) in Hc; [|clear Hc|exact Hrs].
    + destruct Hc as (body' & Lb & Hb').
      pose proof (uint_bound _ _ _ Hlen) as Hb. change (256 ^ N.of_nat 4) with 4294967296 in Hb.
      destruct (uint_exists 4 (N.of_nat (length body'))) as (len' & Hlen'); [change (256 ^ N.of_nat 4) with 4294967296; lia|].
      exists (nw ++ len' ++ body'). split; [pose proof (proj1 Hlen); pose proof (proj1 Hlen'); rewrite !app_length; lia|].
      apply cat_intro; [exact Hn|]. exists len', body'. split; [reflexivity|]. split; [exact Hlen'|]. split; [exact Hb'|exact Hname].
    + intros r r' u (E1 & E2 & ks & Hks & Hat) (p & q & -> & Hp & p2 & q2 & -> & Hp2 & Hq). unfold record_component_lang. rewrite E1, E2.
      apply shorter_cat; [apply shorter_self; exact Hp|]. apply shorter_cat; [apply shorter_self; exact Hp2|].
      eapply IH; [|exact Hq]. exists ks. auto.
Qed.
Lemma trim_attributes d : forall l l' w, trimmed_list l l' -> Attrs d l w -> shorter (Attrs d l') w.
Proof.
  induction d as [|d IH]; intros l l' w (ks & Hks & Hat) H; [destruct H|].
  destruct (attributes_rows _ _ _ _ _ _ _ H) as (ws & -> & El & Hlt & Hrows). specialize (Hrows ks Hks). rewrite <- El in Hks, Hlt.
  pose proof (counted_length ks ws Hlt Hks) as Hle. cbn [attributes_lang] in Hrows |- *.
  destruct (table_shorter u2 _ _ _ (trim_list d IH) _ _ _ Hat Hrows) as (w' & Hw' & Hl). exists w'. split; [lia|exact Hl].
Qed.
End Trim.

Lemma trimmed_same {A B} (R : A -> A -> Prop) (f : A -> B) l l' : (forall a b, R a b -> f b = f a) -> Forall2 R l l' -> map f l' = map f l.
Proof. intros HR H. induction H; cbn; [reflexivity|]. f_equal; auto. Qed.

(** Attributes can be left out and reordered wherever there are attributes; as long as the bootstrap
    methods that the constants need are there, a file that is not longer is accepted and gives the
    trimmed class. *)
Theorem C75_trimmed E opts bs c cs c' :
  ample E bs -> parse_class_with_options E opts bs = Ok c -> constants_of E bs cs ->
  trimmed_class c c' -> bootstrap_rules cs c' ->
  exists bs', (length bs' <= length bs)%nat /\ constants_of E bs' cs /\ parse_class_with_options E opts bs' = Ok c'.
Proof.
  intros Ha H Hcs [T1 T2 T3 T4 T5 T6 T7 T8 T9 T10] Hboot. pose proof (ample_sane _ _ Ha) as Hs.
  destruct (proj1 (parse_Ok E opts (sane_stack _ _ Hs) bs c (sane_fits _ _ Hs)) H) as (cs0 & Hc).
  assert (cs0 = cs) as -> by (eapply constants_unique; [eapply class_constants; eauto|exact Hcs]).
  assert (Hnew : shorter (fun w => class_lang (cesu8 E) (wrapping E) opts (stack E) cs c' w) bs).
  { destruct Hc as ((w0 & r0 & -> & H0 & w1 & r1 & -> & H1 & w2 & r2 & -> & H2 & w3 & r3 & -> & H3 & w4 & r4 & -> & H4 & w5 & r5 & -> & H5 & w6 & r6 & -> & H6
      & w7 & r7 & -> & H7 & w8 & r8 & -> & H8 & w9 & r9 & -> & H9 & H10) & Hpool & Hnf & Hnm & Hmr & Hmod & _).
    eapply (table_shorter u2 trimmed_field _ (field_lang (cesu8 E) (slots_of cs) (wrapping E) opts (stack E))) in H8; [|clear H8|exact T8].
    2:{ intros f f' u (E1 & E2 & E3 & Ht) (p & q & -> & Hp & p2 & q2 & -> & Hp2 & p3 & q3 & -> & Hp3 & Hq). unfold field_lang. rewrite E1, E2, E3.
        do 3 (apply shorter_cat; [apply shorter_self; assumption|]). eapply trim_attributes; eauto. }
    eapply (table_shorter u2 trimmed_method _ (method_lang (cesu8 E) (slots_of cs) (wrapping E) opts (stack E) (N.testbit (access_flags c) ACC_INTERFACE_bit))) in H9; [|clear H9|exact T9].
    2:{ intros m m' u (E1 & E2 & E3 & Ht) (p & q & -> & Hp & p2 & q2 & -> & Hp2 & p3 & q3 & -> & Hp3 & Hq). unfold method_lang. rewrite E1, E2, E3.
        do 3 (apply shorter_cat; [apply shorter_self; assumption|]). eapply trim_attributes; eauto. }
    eapply trim_attributes in H10; [|exact T10].
    assert (Hall : shorter (u4 0xCAFEBABE +++ u2 (minor_version c) +++ u2 (major_version c)
       +++ pool_lang (cesu8 E) (wrapping E) (major_version c) cs +++ flags_keep class_bits (access_flags c)
       +++ ref (that (class_at (cesu8 E) (slots_of cs)) class_name) (this_class c)
       +++ opt_ref (that (class_at (cesu8 E) (slots_of cs)) class_name) (super_class c)
       +++ table u2 (ref (that (class_at (cesu8 E) (slots_of cs)) class_name)) (interfaces c)
       +++ table u2 (field_lang (cesu8 E) (slots_of cs) (wrapping E) opts (stack E)) (fields c')
       +++ table u2 (method_lang (cesu8 E) (slots_of cs) (wrapping E) opts (stack E) (N.testbit (access_flags c) ACC_INTERFACE_bit)) (methods c')
       +++ attributes_lang (cesu8 E) (slots_of cs) (wrapping E) opts (stack E) (class_attributes c'))
      (w0 ++ w1 ++ w2 ++ w3 ++ w4 ++ w5 ++ w6 ++ w7 ++ w8 ++ w9 ++ r9)).
    { do 8 (apply shorter_cat; [apply shorter_self; assumption|]). do 2 (apply shorter_cat; [assumption|]). assumption. }
    destruct Hall as (w & Hw & Hl). exists w. split; [exact Hw|].
    split; [rewrite T1, T2, T4, T5, T6, T7; exact Hl|]. split; [congruence|].
    assert (Em : map (fun m => (m_name m, m_descriptor m)) (methods c') = map (fun m => (m_name m, m_descriptor m)) (methods c)).
    { eapply trimmed_same; [|exact T9]. intros a b (_ & E1 & E2 & _). congruence. }
    split; [|split; [|split; [|split; [|exact Hboot]]]].
    - erewrite trimmed_same; [exact Hnf| |exact T8]. intros a b (_ & E1 & E2 & _). congruence.
    - rewrite Em. exact Hnm.
    - rewrite T1. clear - T9 Hmr. induction T9 as [|m m' l l' (_ & E1 & E2 & _) H IH]; [constructor|]. inversion Hmr as [|? ? [R1 R2] Hr]; subst.
      constructor; [|auto]. split; rewrite E1, E2; assumption.
    - intro Hx. rewrite T4 in Hx. destruct (Hmod Hx) as (M1 & M2 & M3 & M4 & M5 & M6). rewrite M5 in T8. rewrite M6 in T9.
      inversion T8. inversion T9. rewrite T1, T4, T6, T7. auto 10. }
  destruct Hnew as (bs' & Hle & Hc'). exists bs'. split; [exact Hle|]. split; [eapply class_constants; exact Hc'|].
  assert (Hs' : sane E bs') by (destruct Hs as [H1 H2 H3 H4]; unfold blen in *; constructor; unfold blen; auto; lia).
  apply (parse_Ok E opts (sane_stack _ _ Hs') bs' c' (sane_fits _ _ Hs')). exists cs. exact Hc'.
Qed.
(** The sample without ConstantValue, LineNumberTable, the annotation of its record component and two attributes
    of the class, some of the others reordered. *)
Definition sample_trimmed : class_file := Eval vm_compute in
  mk_class (major_version sample_parsed) (minor_version sample_parsed) (constant_pool sample_parsed) (access_flags sample_parsed)
    (this_class sample_parsed) (super_class sample_parsed) (interfaces sample_parsed)
    (map (fun f => mk_field (f_access_flags f) (f_name f) (f_descriptor f) []) (fields sample_parsed))
    (map (fun m => mk_method (m_access_flags m) (m_name m) (m_descriptor m)
       (map (fun a => match attr_dat a with
          | ACode (mk_code s l code bc ex attrs) => mk_attr (attr_name a) (ACode (mk_code s l code bc ex (select [1]%nat attrs)))
          | _ => a end) (rev (m_attributes m)))) (methods sample_parsed))
    (map (fun a => match attr_dat a with
       | ARecord rs => mk_attr (attr_name a) (ARecord (map (fun r => match r with mk_rc n d _ => mk_rc n d [] end) rs))
       | _ => a end) (select [2; 0]%nat (class_attributes sample_parsed))).
Lemma no_rows n : row_numbers n []. Proof. split; [constructor|intros _ []]. Qed.
Example C75_meets : ample debug64 sample /\ parse_class_with_options debug64 true sample = Ok sample_parsed
  /\ constants_of debug64 sample sample_constants /\ trimmed_class sample_parsed sample_trimmed
  /\ bootstrap_rules sample_constants sample_trimmed
  /\ flat_map f_attributes (fields sample_parsed) <> [] /\ flat_map f_attributes (fields sample_trimmed) = []
  /\ length (flat_map m_attributes (methods sample_trimmed)) = 3%nat.
Proof.
  split; [apply ampleb_ample; vm_compute; reflexivity|]. split; [exact sample_parse|]. split; [exact sample_of|].
  split; [|split; [|split; [vm_compute; discriminate|split; vm_compute; reflexivity]]].
  - constructor; [reflexivity|reflexivity|vm_compute; reflexivity|reflexivity|vm_compute; reflexivity|vm_compute; reflexivity|vm_compute; reflexivity| | |].
    + repeat constructor; vm_compute; try reflexivity; exists []; (split; [apply no_rows|vm_compute; constructor]).
    + unfold sample_trimmed. cbn [methods]. unfold sample_parsed. cbn [methods].
      constructor; [|constructor; [|constructor]]; (split; [reflexivity|split; [reflexivity|split; [reflexivity|]]]).
      * exists [0]%nat. split; [split; [repeat constructor; auto|intros k [<-|[]]; vm_compute; lia]|]. vm_compute select.
        constructor; [|constructor]. apply tr_code with (ks := []); [apply no_rows|constructor].
      * exists [1; 0]%nat. split; [split; [repeat constructor; cbn; intuition discriminate|intros k [<-|[<-|[]]]; vm_compute; lia]|]. vm_compute select.
        constructor; [apply tr_same|]. constructor; [|constructor].
        apply tr_code with (ks := [1]%nat); [split; [repeat constructor; auto|intros k [<-|[]]; vm_compute; lia]|]. vm_compute select. constructor; [apply tr_same|constructor].
    + exists [2; 0]%nat. split; [split; [repeat constructor; cbn; intuition discriminate|intros k [<-|[<-|[]]]; vm_compute; lia]|]. vm_compute select.
      constructor; [apply tr_same|]. constructor; [|constructor]. apply tr_record. constructor; [|constructor].
      split; [reflexivity|]. split; [reflexivity|]. exists []. split; [apply no_rows|constructor].
  - assert (Hd : forallb (fun x => match x with CDynamic b _ | CInvokeDynamic b _ => b <? 1 | _ => true end) sample_constants = true) by (vm_compute; reflexivity).
    rewrite forallb_forall in Hd.
    assert (Hl : exists l, bootstrap_tables sample_trimmed = [l] /\ 1 <= N.of_nat (length l)) by (eexists; split; [vm_compute; reflexivity|vm_compute; discriminate]).
    destruct Hl as (l & El & Hlen). intros b nt Hi. exists l. split; [exact El|].
    destruct Hi as [Hi|Hi]; specialize (Hd _ Hi); cbn in Hd; lia.
Qed.
