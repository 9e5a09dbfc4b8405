(** * Property theorems: code and the tables that refer to it are independent (C77).

    Vocabulary: [S_Exchange], [S_Rewrite] ([select], [row_numbers]), [S_Format], [S_Pool], [S_Env]. *)
From Verif Require Import Base M_Names M_Descriptors M_ConstantPool M_Bytecode M_Attributes M_Class M_Cesu8 Data Sample
  S_Lang S_Names S_Format S_Pool S_Within S_Env S_Rewrite S_Exchange P_Reads P_Tac P_Pool4 P_Class2 P_Class3 P_Layout P_Within T_Class T_Members T_Unknown T_Rewrite T_Rewrite2 T_Trim.
From Coq Require Import Permutation ZifyBool ZifyNat ZifyN.

Section Exchange.
Variables (dec : list byte -> option str) (sl : slots) (wraps want : bool).
Notation Attrs := (attributes_lang dec sl wraps want).
Notation exch := (exchanged dec sl wraps want).
Lemma exchange_list d : (forall l l' w, Forall2 exch l l' -> Attrs d l w -> shorter (Attrs d l') w) ->
  forall a a' w, exch a a' -> attribute_with dec sl wraps want (Attrs d) d a w -> shorter (attribute_with dec sl wraps want (Attrs d) d a') w.
Proof.
  intros IH a a' w H Hw. destruct H as [a|name s l code bc s' l' code' bc' ex ks attrs attrs' Hs Hl Hcode Hbc Hks Hat|name rs rs' Hrs].
  - apply shorter_self. exact Hw.
  - destruct Hw as (nw & v & -> & Hn & len & body & -> & Hlen & Hc & Hname). cbn [attr_name attr_dat contents snd] in *.
    destruct Hc as (w1 & r1 & -> & H1 & w2 & r2 & -> & H2 & w3 & r3 & -> & H3 & w4 & r4 & -> & H4 & w5 & r5 & -> & H5 & w6 & r6 & -> & H6 & H7).
    cbn [cd_max_stack cd_max_locals cd_code cd_bytecode cd_exception_table cd_attributes] in *.
    destruct (IH attrs attrs' w6 Hat H6) as (w6' & L6 & H6').
    unfold raw in H4. subst w4. destruct H7 as [-> _].
    destruct (table_rows _ _ _ H5) as (ws & -> & El & Hlt & Hrows). specialize (Hrows ks Hks). rewrite <- El in Hks, Hlt.
    pose proof (counted_length ks ws Hlt Hks) as Hle.
    pose proof (two_bytes_u2 _ Hs) as Us. pose proof (two_bytes_u2 _ Hl) as Ul.
    pose proof (uint_bound _ _ _ H3) as Hb3. change (256 ^ N.of_nat 4) with 4294967296 in Hb3.
    destruct (uint_exists 4 (N.of_nat (length code'))) as (w3' & H3'); [change (256 ^ N.of_nat 4) with 4294967296; lia|].
    set (body' := two_bytes s' ++ two_bytes l' ++ w3' ++ code' ++ counted (select ks ws) ++ w6' ++ []).
    assert (Lb : (length body' <= length (w1 ++ w2 ++ w3 ++ code ++ counted ws ++ w6 ++ []))%nat).
    { unfold body'. pose proof (proj1 H1). pose proof (proj1 H2). pose proof (proj1 H3). pose proof (proj1 H3'). pose proof (proj1 Us). pose proof (proj1 Ul).
      rewrite !app_length. lia. }
    pose proof (uint_bound _ _ _ Hlen) as Hb. change (256 ^ N.of_nat 4) with 4294967296 in Hb.
    destruct (uint_exists 4 (N.of_nat (length body'))) as (len' & Hlen'); [change (256 ^ N.of_nat 4) with 4294967296; lia|].
    exists (nw ++ len' ++ body'). split; [rewrite (app_length nw), (app_length len'), (app_length nw (len ++ _)), (app_length len); pose proof (proj1 Hlen); pose proof (proj1 Hlen'); lia|].
    apply cat_intro; [exact Hn|]. exists len', body'. split; [reflexivity|]. split; [exact Hlen'|]. split; [|exact Hname].
    cbn [attr_name attr_dat contents snd]. unfold body'. unfold code_lang. cbn [cd_max_stack cd_max_locals cd_code cd_bytecode cd_exception_table cd_attributes].
    apply cat_intro; [exact Us|]. apply cat_intro; [exact Ul|]. apply cat_intro; [exact H3'|]. apply cat_intro; [reflexivity|].
    apply cat_intro; [exact Hrows|]. apply cat_intro; [exact H6'|]. split; [reflexivity|exact Hbc].
  - destruct Hw as (nw & v & -> & Hn & len & body & -> & Hlen & Hc & Hname). cbn [attr_name attr_dat contents snd] in *.
    eapply (table_shorter u2 _ _ (record_component_lang dec sl (Attrs d))) in Hc; [|clear Hc|exact Hrs].
    + destruct Hc as (body' & Lb & Hb').
      pose proof (uint_bound _ _ _ Hlen) as Hb. change (256 ^ N.of_nat 4) with 4294967296 in Hb.
      destruct (uint_exists 4 (N.of_nat (length body'))) as (len' & Hlen'); [change (256 ^ N.of_nat 4) with 4294967296; lia|].
      exists (nw ++ len' ++ body'). split; [pose proof (proj1 Hlen); pose proof (proj1 Hlen'); rewrite !app_length; lia|].
      apply cat_intro; [exact Hn|]. exists len', body'. split; [reflexivity|]. split; [exact Hlen'|]. split; [exact Hb'|exact Hname].
    + intros r r' u (E1 & E2 & Hat) (p & q & -> & Hp & p2 & q2 & -> & Hp2 & Hq). unfold record_component_lang. rewrite E1, E2.
      apply shorter_cat; [apply shorter_self; exact Hp|]. apply shorter_cat; [apply shorter_self; exact Hp2|].
      eapply IH; [|exact Hq]. exact Hat.
Qed.
Lemma exchange_attributes d : forall l l' w, Forall2 exch l l' -> Attrs d l w -> shorter (Attrs d l') w.
Proof.
  induction d as [|d IH]; intros l l' w Hat H; [destruct H|]. exact (table_shorter u2 _ _ _ (exchange_list d IH) _ _ _ Hat H).
Qed.
End Exchange.

Lemma exchanged_tables dec sl wraps want l l' : Forall2 (exchanged dec sl wraps want) l l' ->
  flat_map boots l' = flat_map boots l.
Proof.
  induction 1 as [|a a' l l' Ha H IH]; [reflexivity|]. cbn [flat_map]. rewrite IH. f_equal. destruct Ha; reflexivity.
Qed.

(** Code can be replaced by other code that is not longer, decoded or not, whatever the exception table, the
    line numbers, the local variables and the stack maps beside it say: a file that is not longer is accepted
    and gives the class with the other code. *)
Theorem C77_exchanged E opts bs c cs c' :
  ample E bs -> parse_class_with_options E opts bs = Ok c -> constants_of E bs cs ->
  exchanged_class (cesu8 E) (slots_of cs) (wrapping E) opts c c' ->
  exists bs', (length bs' <= length bs)%nat /\ constants_of E bs' cs /\ parse_class_with_options E opts bs' = Ok c'.
Proof.
  intros Ha H Hcs [T1 T2 T3 T4 T5 T6 T7 T8 T9 T10]. pose proof (ample_sane _ _ Ha) as Hs.
  destruct (proj1 (parse_Ok E opts (sane_stack _ _ Hs) bs c (sane_fits _ _ Hs)) H) as (cs0 & Hc).
  assert (cs0 = cs) as -> by (eapply constants_unique; [eapply class_constants; eauto|exact Hcs]).
  assert (Hnew : shorter (fun w => class_lang (cesu8 E) (wrapping E) opts (stack E) cs c' w) bs).
  { destruct Hc as ((w0 & r0 & -> & H0 & w1 & r1 & -> & H1 & w2 & r2 & -> & H2 & w3 & r3 & -> & H3 & w4 & r4 & -> & H4 & w5 & r5 & -> & H5 & w6 & r6 & -> & H6
      & w7 & r7 & -> & H7 & w8 & r8 & -> & H8 & w9 & r9 & -> & H9 & H10) & Hpool & Hnf & Hnm & Hmr & Hmod & Hboot).
    eapply (table_shorter u2 (exchanged_field (cesu8 E) (slots_of cs) (wrapping E) opts) _ (field_lang (cesu8 E) (slots_of cs) (wrapping E) opts (stack E))) in H8; [|clear H8|exact T8].
    2:{ intros f f' u (E1 & E2 & E3 & Ht) (p & q & -> & Hp & p2 & q2 & -> & Hp2 & p3 & q3 & -> & Hp3 & Hq). unfold field_lang. rewrite E1, E2, E3.
        do 3 (apply shorter_cat; [apply shorter_self; assumption|]). eapply exchange_attributes; eauto. }
    eapply (table_shorter u2 (exchanged_method (cesu8 E) (slots_of cs) (wrapping E) opts) _ (method_lang (cesu8 E) (slots_of cs) (wrapping E) opts (stack E) (N.testbit (access_flags c) ACC_INTERFACE_bit))) in H9; [|clear H9|exact T9].
    2:{ intros m m' u (E1 & E2 & E3 & Ht) (p & q & -> & Hp & p2 & q2 & -> & Hp2 & p3 & q3 & -> & Hp3 & Hq). unfold method_lang. rewrite E1, E2, E3.
        do 3 (apply shorter_cat; [apply shorter_self; assumption|]). eapply exchange_attributes; eauto. }
    eapply exchange_attributes in H10; [|exact T10].
    assert (Hall : shorter (u4 0xCAFEBABE +++ u2 (minor_version c) +++ u2 (major_version c)
       +++ pool_lang (cesu8 E) (wrapping E) (major_version c) cs +++ flags_keep class_bits (access_flags c)
       +++ ref (that (class_at (cesu8 E) (slots_of cs)) class_name) (this_class c)
       +++ opt_ref (that (class_at (cesu8 E) (slots_of cs)) class_name) (super_class c)
       +++ table u2 (ref (that (class_at (cesu8 E) (slots_of cs)) class_name)) (interfaces c)
       +++ table u2 (field_lang (cesu8 E) (slots_of cs) (wrapping E) opts (stack E)) (fields c')
       +++ table u2 (method_lang (cesu8 E) (slots_of cs) (wrapping E) opts (stack E) (N.testbit (access_flags c) ACC_INTERFACE_bit)) (methods c')
       +++ attributes_lang (cesu8 E) (slots_of cs) (wrapping E) opts (stack E) (class_attributes c'))
      (w0 ++ w1 ++ w2 ++ w3 ++ w4 ++ w5 ++ w6 ++ w7 ++ w8 ++ w9 ++ r9)).
    { do 8 (apply shorter_cat; [apply shorter_self; assumption|]). do 2 (apply shorter_cat; [assumption|]). assumption. }
    destruct Hall as (w & Hw & Hl). exists w. split; [exact Hw|].
    split; [rewrite T1, T2, T4, T5, T6, T7; exact Hl|]. split; [congruence|].
    assert (Em : map (fun m => (m_name m, m_descriptor m)) (methods c') = map (fun m => (m_name m, m_descriptor m)) (methods c)).
    { eapply trimmed_same; [|exact T9]. intros a b (_ & E1 & E2 & _). congruence. }
    split; [|split; [|split; [|split]]].
    - erewrite trimmed_same; [exact Hnf| |exact T8]. intros a b (_ & E1 & E2 & _). congruence.
    - rewrite Em. exact Hnm.
    - rewrite T1. clear - T9 Hmr. induction T9 as [|m m' l l' (_ & E1 & E2 & _) H IH]; [constructor|]. inversion Hmr as [|? ? [R1 R2] Hr]; subst.
      constructor; [|auto]. split; rewrite E1, E2; assumption.
    - intro Hx. rewrite T4 in Hx. destruct (Hmod Hx) as (M1 & M2 & M3 & M4 & M5 & M6). rewrite M5 in T8. rewrite M6 in T9.
      inversion T8. inversion T9. rewrite T1, T4, T6, T7. auto 10.
    - intros b nt Hi. unfold bootstrap_tables. change (fun a => match attr_dat a with ABootstrapMethods l => [l] | _ => [] end) with boots.
      rewrite (exchanged_tables _ _ _ _ _ _ T10). exact (Hboot b nt Hi). }
  destruct Hnew as (bs' & Hle & Hc'). exists bs'. split; [exact Hle|]. split; [eapply class_constants; exact Hc'|].
  assert (Hs' : sane E bs') by (destruct Hs as [H1 H2 H3 H4]; unfold blen in *; constructor; unfold blen; auto; lia).
  apply (parse_Ok E opts (sane_stack _ _ Hs') bs' c' (sane_fits _ _ Hs')). exists cs. exact Hc'.
Qed.
(** The sample with two instructions in the place of all its code: the line numbers of the second method go on
    to offset 15, its local variable covers 112 bytes and an exception handler is beyond the code. *)
Definition short_code : list byte := [x00; xb1].
Definition short_bytecode : byte_code := mk_bc [(0, OpNop); (1, OpReturn)].
Definition sample_exchanged : class_file := Eval vm_compute in
  mk_class (major_version sample_parsed) (minor_version sample_parsed) (constant_pool sample_parsed) (access_flags sample_parsed)
    (this_class sample_parsed) (super_class sample_parsed) (interfaces sample_parsed) (fields sample_parsed)
    (map (fun m => mk_method (m_access_flags m) (m_name m) (m_descriptor m)
       (map (fun a => match attr_dat a with
          | ACode (mk_code s l code bc ex attrs) => mk_attr (attr_name a) (ACode (mk_code 0 1 short_code (Some short_bytecode) ex attrs))
          | _ => a end) (m_attributes m))) (methods sample_parsed))
    (class_attributes sample_parsed).
Lemma short_is_code dec sl wraps : is_code dec sl wraps true short_code (Some short_bytecode).
Proof.
  split; [reflexivity|]. split.
  - split; [reflexivity|]. exists [x00], [xb1]. split; [reflexivity|]. split; [split; reflexivity|].
    split; [reflexivity|]. exists [xb1], []. split; [reflexivity|]. split; [split; reflexivity|reflexivity].
  - intros o op [H|[H|[]]]; injection H as <- <-; (split; [reflexivity|intros j []]).
Qed.
Lemma Forall2_same {A} (R : A -> A -> Prop) l : (forall a, R a a) -> Forall2 R l l.
Proof. intro H. induction l; constructor; auto. Qed.
Example C77_meets : ample debug64 sample /\ parse_class_with_options debug64 true sample = Ok sample_parsed
  /\ constants_of debug64 sample sample_constants
  /\ exchanged_class (cesu8 debug64) (slots_of sample_constants) (wrapping debug64) true sample_parsed sample_exchanged
  /\ sample_exchanged <> sample_parsed
  /\ existsb (fun m => existsb (fun a => match attr_dat a with
       | ACode cd => existsb (fun e => N.of_nat (length (cd_code cd)) <? ex_handler_pc e) (cd_exception_table cd) | _ => false end)
       (m_attributes m)) (methods sample_exchanged) = true.
Proof.
  split; [apply ampleb_ample; vm_compute; reflexivity|]. split; [exact sample_parse|]. split; [exact sample_of|].
  split; [|split; [|vm_compute; reflexivity]].
  - constructor; [reflexivity|reflexivity|vm_compute; reflexivity|reflexivity|vm_compute; reflexivity|vm_compute; reflexivity|vm_compute; reflexivity| | |].
    + replace (fields sample_exchanged) with (fields sample_parsed) by (vm_compute; reflexivity). apply Forall2_same.
      intro f. repeat (split; [reflexivity|]). apply Forall2_same. apply exc_same.
    + assert (E : methods sample_exchanged = map (fun m => mk_method (m_access_flags m) (m_name m) (m_descriptor m)
         (map (fun a => match attr_dat a with
            | ACode (mk_code s l code bc ex attrs) => mk_attr (attr_name a) (ACode (mk_code 0 1 short_code (Some short_bytecode) (select (seq 0 (length ex)) ex) attrs))
            | _ => a end) (m_attributes m))) (methods sample_parsed)) by (vm_compute; reflexivity).
      rewrite E.
      assert (Hlen : Forall (fun m => Forall (fun a => match attr_dat a with ACode cd => (2 <= length (cd_code cd))%nat | _ => True end) (m_attributes m)) (methods sample_parsed)).
      { repeat constructor; vm_compute; try exact I; repeat constructor. }
      clear E. induction Hlen as [|m l Hm Hl IH]; [constructor|]. constructor; [|exact IH]. repeat (split; [reflexivity|]). cbn [m_attributes].
      clear - Hm. induction Hm as [|a l Ha Hl IH]; [constructor|]. constructor; [|exact IH].
      destruct a as [n d]. cbn [attr_dat attr_name] in *. destruct d; try apply exc_same. match goal with cd : code_data |- _ => destruct cd as [s l1 code bc ex attrs] end.
      apply exc_code; [reflexivity|reflexivity|exact Ha|apply short_is_code| |apply Forall2_same, exc_same].
      split; [apply seq_NoDup|intros k Hk; apply in_seq in Hk; lia].
    + replace (class_attributes sample_exchanged) with (class_attributes sample_parsed) by (vm_compute; reflexivity). apply Forall2_same, exc_same.
  - intro E. apply (f_equal (fun c => map (fun m => length (flat_map (fun a => match attr_dat a with ACode cd => cd_code cd | _ => [] end) (m_attributes m))) (methods c))) in E.
    vm_compute in E. discriminate E.
Qed.
