(** * Property theorems: rows of any table may be left out (C78).

    Vocabulary: [S_Fewer], [S_Rewrite] ([select], [row_numbers]), [S_Format], [S_Pool], [S_Env]. *)
From Verif Require Import Base M_Names M_Descriptors M_ConstantPool M_Bytecode M_Attributes M_Class M_Cesu8 Data Sample
  S_Lang S_Names S_Format S_Pool S_Within S_Env S_Rewrite S_Fewer P_Reads P_Tac P_Pool4 P_Class2 P_Class3 P_Layout P_Within T_Class T_Members T_Unknown T_Rewrite T_Rewrite2 T_Trim.
From Coq Require Import Permutation ZifyBool ZifyNat ZifyN.

Lemma shorter_then (L M : lang) w : shorter L w -> (forall u, L u -> shorter M u) -> shorter M w.
Proof. intros (u & Hu & HL) H. destruct (H u HL) as (v & Hv & HM). exists v. split; [lia|exact HM]. Qed.
(** Every smaller number can be written in as many bytes. *)
Definition counts (C : N -> lang) : Prop := forall n m w, m <= n -> C n w -> exists w', length w' = length w /\ C m w'.
Lemma counts_uint k : counts (uint k).
Proof.
  intros n m w Hm H. pose proof (uint_bound _ _ _ H) as Hb. destruct (uint_exists k m) as (w' & Hw'); [lia|].
  exists w'. split; [|exact Hw']. destruct H as [-> _], Hw' as [-> _]. reflexivity.
Qed.
Lemma table_select {A} C (F : A -> lang) l ks w : counts C -> row_numbers (length l) ks -> table C F l w -> shorter (table C F (select ks l)) w.
Proof.
  intros HC Hks (u & v & -> & Hu & Hv). apply many_concat in Hv. destruct Hv as (ws & Hws & ->).
  assert (El : length ws = length l) by (clear - Hws; induction Hws; cbn; congruence).
  destruct (HC (N.of_nat (length l)) (N.of_nat (length ks)) u) as (u' & Lu & Hu'); [apply row_count in Hks; lia|exact Hu|].
  exists (u' ++ concat (select ks ws)). split.
  - rewrite !app_length. rewrite <- El in Hks. pose proof (select_concat ks ws Hks). lia.
  - unfold table. rewrite (select_length _ _ Hks). apply cat_intro; [exact Hu'|]. apply many_concat. exists (select ks ws). split; [|reflexivity].
    apply select_Forall2, Hws.
Qed.
Lemma table_rows_of {A} C (F : A -> lang) l l' w : counts C -> rows l l' -> table C F l w -> shorter (table C F l') w.
Proof. intros HC (ks & Hks & ->). apply table_select; auto. Qed.
Lemma table_rows_then {A} C (R : A -> A -> Prop) (F F' : A -> lang) l l1 l' w : counts C ->
  (forall a a' u, R a a' -> F a u -> shorter (F' a') u) -> rows l l1 -> Forall2 R l1 l' -> table C F l w -> shorter (table C F' l') w.
Proof.
  intros HC HR Hl HF Hw. eapply shorter_then; [eapply table_rows_of; eauto|]. intros u Hu. eapply table_shorter; eauto.
Qed.
Section Fewer.
Variables (dec : list byte -> option str) (sl : slots) (wraps want : bool).
Notation Attrs := (attributes_lang dec sl wraps want).
Notation attr d := (attribute_with dec sl wraps want (Attrs d) d).
(** Attributes with shorter contents. *)
Lemma shorter_attribute d name a a' w :
  (forall u, snd (contents dec sl wraps want (Attrs d) d a) u -> shorter (snd (contents dec sl wraps want (Attrs d) d a')) u) ->
  (forall r, a' <> AOther r) -> (forall r, a <> AOther r) ->
  fst (contents dec sl wraps want (Attrs d) d a') = fst (contents dec sl wraps want (Attrs d) d a) ->
  attr d (mk_attr name a) w -> shorter (attr d (mk_attr name a')) w.
Proof.
  intros Hsh Hno Hno' Hfst (nw & v & -> & Hn & len & body & -> & Hlen & Hc & Hname). cbn [attr_name attr_dat] in *.
  destruct (Hsh body Hc) as (body' & Lb & Hb').
  pose proof (uint_bound _ _ _ Hlen) as Hb. change (256 ^ N.of_nat 4) with 4294967296 in Hb.
  destruct (uint_exists 4 (N.of_nat (length body'))) as (len' & Hlen'); [change (256 ^ N.of_nat 4) with 4294967296; lia|].
  exists (nw ++ len' ++ body'). split; [pose proof (proj1 Hlen); pose proof (proj1 Hlen'); rewrite !app_length; lia|].
  apply cat_intro; [exact Hn|]. exists len', body'. split; [reflexivity|]. split; [exact Hlen'|]. cbn [attr_name attr_dat]. split; [exact Hb'|].
  assert (En : name = lit (fst (contents dec sl wraps want (Attrs d) d a'))).
  { rewrite Hfst. destruct a; try exact Hname. exfalso. exact (Hno' _ eq_refl). }
  destruct a'; try exact En. exfalso. exact (Hno _ eq_refl).
Qed.
Lemma fewer_attribute d : (forall l l' w, fewer_list l l' -> Attrs d l w -> shorter (Attrs d l') w) ->
  forall a a' w, fewer a a' -> attr d a w -> shorter (attr d a') w.
Proof.
  intros IH a a' w H. destruct H as [a|name x x' Hr|name s l code bc ex ex' attrs attrs1 attrs' Hex Hat Hf|name rs rs1 rs' Hrs Hf].
  - apply shorter_self.
  - apply shorter_attribute; [|destruct Hr; discriminate|destruct Hr; discriminate|destruct Hr; reflexivity].
    intros u. destruct Hr; cbn [contents snd]; try (apply table_rows_of; [apply counts_uint|assumption]).
    + apply (table_rows_then _ rows _ _ _ _ _ _ (counts_uint _)) with (2 := H) (3 := H0). intros x y v Hxy. apply table_rows_of; [apply counts_uint|assumption].
    + apply (table_rows_then _ rows _ _ _ _ _ _ (counts_uint _)) with (2 := H) (3 := H0). intros x y v Hxy. apply table_rows_of; [apply counts_uint|assumption].
    + intros (w1 & r1 & -> & H1' & w2 & r2 & -> & H2' & w3 & r3 & -> & H3' & w4 & r4 & -> & H4' & w5 & r5 & -> & H5' & w6 & r6 & -> & H6' & w7 & w8 & -> & H7' & H8').
      unfold module_lang. cbn [md_name md_access_flags md_version md_requires md_exports md_opens md_uses md_provides] in *.
      do 3 (apply shorter_cat; [apply shorter_self; assumption|]).
      do 4 (apply shorter_cat; [eapply table_rows_of; [apply counts_uint|eassumption|assumption]|]). eapply table_rows_of; [apply counts_uint|eassumption|assumption].
  - apply shorter_attribute; [|discriminate|discriminate|reflexivity]. cbn [contents snd].
    intros u (w1 & r1 & -> & H1 & w2 & r2 & -> & H2 & w3 & r3 & -> & H3 & w4 & r4 & -> & H4 & w5 & r5 & -> & H5 & w6 & r6 & -> & H6 & H7).
    cbn [cd_max_stack cd_max_locals cd_code cd_bytecode cd_exception_table cd_attributes] in *.
    unfold code_lang. cbn [cd_max_stack cd_max_locals cd_code cd_bytecode cd_exception_table cd_attributes].
    do 4 (apply shorter_cat; [apply shorter_self; assumption|]).
    apply shorter_cat; [eapply table_rows_of; [apply counts_uint|eassumption|assumption]|].
    apply shorter_cat; [apply (IH attrs attrs' w6); [exists attrs1; auto|exact H6]|]. apply shorter_self. exact H7.
  - apply shorter_attribute; [|discriminate|discriminate|reflexivity]. cbn [contents snd]. intro u.
    eapply (table_rows_then u2) with (3 := Hrs) (4 := Hf); [apply counts_uint|].
    intros r r' v (E1 & E2 & attrs1 & Ha1 & Ha2) (p & q & -> & Hp & p2 & q2 & -> & Hp2 & Hq). unfold record_component_lang. rewrite E1, E2.
    apply shorter_cat; [apply shorter_self; exact Hp|]. apply shorter_cat; [apply shorter_self; exact Hp2|].
    apply (IH (rc_attributes r)); [exists attrs1; auto|exact Hq].
Qed.
Lemma fewer_attributes d : forall l l' w, fewer_list l l' -> Attrs d l w -> shorter (Attrs d l') w.
Proof.
  induction d as [|d IH]; intros l l' w (l1 & Hl & HF) H; [destruct H|].
  eapply (table_rows_then u2) with (3 := Hl) (4 := HF); [apply counts_uint|apply (fewer_attribute d IH)|exact H].
Qed.
End Fewer.

Lemma rows_map {A B} (f : A -> B) l l' : rows l l' -> rows (map f l) (map f l').
Proof. intros (ks & Hks & ->). exists ks. rewrite map_length. split; [exact Hks|apply select_map]. Qed.
Lemma rows_NoDup {A} (l l' : list A) : rows l l' -> NoDup l -> NoDup l'.
Proof. intros (ks & Hks & ->) H. apply select_NoDup; auto. Qed.
Lemma rows_Forall {A} (P : A -> Prop) l l' : rows l l' -> Forall P l -> Forall P l'.
Proof. intros (ks & Hks & ->). apply select_Forall. Qed.
Lemma rows_nil {A} (l : list A) : rows [] l -> l = [].
Proof. intros ([|k ks] & [_ H] & ->); [reflexivity|]. specialize (H k (or_introl eq_refl)). cbn in H. lia. Qed.

(** Rows of any tables can be left out and reordered; as long as the bootstrap methods that the constants
    need are there, a file that is not longer is accepted and gives the class with what is left. *)
Theorem C78_fewer E opts bs c cs c' :
  ample E bs -> parse_class_with_options E opts bs = Ok c -> constants_of E bs cs ->
  fewer_class c c' -> bootstrap_rules cs c' ->
  exists bs', (length bs' <= length bs)%nat /\ constants_of E bs' cs /\ parse_class_with_options E opts bs' = Ok c'.
Proof.
  intros Ha H Hcs [T1 T2 T3 T4 T5 T6 T7 (fs & Tf & T8) (ms & Tm & T9) T10] Hboot. pose proof (ample_sane _ _ Ha) as Hs.
  destruct (proj1 (parse_Ok E opts (sane_stack _ _ Hs) bs c (sane_fits _ _ Hs)) H) as (cs0 & Hc).
  assert (cs0 = cs) as -> by (eapply constants_unique; [eapply class_constants; eauto|exact Hcs]).
  assert (Hnew : shorter (fun w => class_lang (cesu8 E) (wrapping E) opts (stack E) cs c' w) bs).
  { destruct Hc as ((w0 & r0 & -> & H0 & w1 & r1 & -> & H1 & w2 & r2 & -> & H2 & w3 & r3 & -> & H3 & w4 & r4 & -> & H4 & w5 & r5 & -> & H5 & w6 & r6 & -> & H6
      & w7 & r7 & -> & H7 & w8 & r8 & -> & H8 & w9 & r9 & -> & H9 & H10) & Hpool & Hnf & Hnm & Hmr & Hmod & _).
    eapply table_rows_of in H7; [|apply counts_uint|exact T7].
    eapply (table_rows_then u2 fewer_field _ (field_lang (cesu8 E) (slots_of cs) (wrapping E) opts (stack E))) in H8; [|apply counts_uint|clear H8|exact Tf|exact T8].
    2:{ intros f f' u (E1 & E2 & E3 & Ht) (p & q & -> & Hp & p2 & q2 & -> & Hp2 & p3 & q3 & -> & Hp3 & Hq). unfold field_lang. rewrite E1, E2, E3.
        do 3 (apply shorter_cat; [apply shorter_self; assumption|]). eapply fewer_attributes; eauto. }
    eapply (table_rows_then u2 fewer_method _ (method_lang (cesu8 E) (slots_of cs) (wrapping E) opts (stack E) (N.testbit (access_flags c) ACC_INTERFACE_bit))) in H9;
      [|apply counts_uint|clear H9|exact Tm|exact T9].
    2:{ intros m m' u (E1 & E2 & E3 & Ht) (p & q & -> & Hp & p2 & q2 & -> & Hp2 & p3 & q3 & -> & Hp3 & Hq). unfold method_lang. rewrite E1, E2, E3.
        do 3 (apply shorter_cat; [apply shorter_self; assumption|]). eapply fewer_attributes; eauto. }
    eapply fewer_attributes in H10; [|exact T10].
    assert (Hall : shorter (u4 0xCAFEBABE +++ u2 (minor_version c) +++ u2 (major_version c)
       +++ pool_lang (cesu8 E) (wrapping E) (major_version c) cs +++ flags_keep class_bits (access_flags c)
       +++ ref (that (class_at (cesu8 E) (slots_of cs)) class_name) (this_class c)
       +++ opt_ref (that (class_at (cesu8 E) (slots_of cs)) class_name) (super_class c)
       +++ table u2 (ref (that (class_at (cesu8 E) (slots_of cs)) class_name)) (interfaces c')
       +++ table u2 (field_lang (cesu8 E) (slots_of cs) (wrapping E) opts (stack E)) (fields c')
       +++ table u2 (method_lang (cesu8 E) (slots_of cs) (wrapping E) opts (stack E) (N.testbit (access_flags c) ACC_INTERFACE_bit)) (methods c')
       +++ attributes_lang (cesu8 E) (slots_of cs) (wrapping E) opts (stack E) (class_attributes c'))
      (w0 ++ w1 ++ w2 ++ w3 ++ w4 ++ w5 ++ w6 ++ w7 ++ w8 ++ w9 ++ r9)).
    { do 7 (apply shorter_cat; [apply shorter_self; assumption|]). do 3 (apply shorter_cat; [assumption|]). assumption. }
    destruct Hall as (w & Hw & Hl). exists w. split; [exact Hw|].
    split; [rewrite T1, T2, T4, T5, T6; exact Hl|]. split; [congruence|].
    split; [|split; [|split; [|split; [|exact Hboot]]]].
    - erewrite trimmed_same; [| |exact T8]; [|intros a b (_ & E1 & E2 & _); congruence].
      eapply rows_NoDup; [apply rows_map, Tf|exact Hnf].
    - erewrite trimmed_same; [| |exact T9]; [|intros a b (_ & E1 & E2 & _); congruence].
      eapply rows_NoDup; [apply rows_map, Tm|exact Hnm].
    - rewrite T1. apply (rows_Forall _ _ _ Tm) in Hmr. clear - T9 Hmr. induction T9 as [|m m' l l' (_ & E1 & E2 & _) H IH]; [constructor|].
      inversion Hmr as [|? ? [R1 R2] Hr]; subst. constructor; [|auto]. split; rewrite E1, E2; assumption.
    - intro Hx. rewrite T4 in Hx. destruct (Hmod Hx) as (M1 & M2 & M3 & M4 & M5 & M6). rewrite M4 in T7. apply rows_nil in T7.
      rewrite M5 in Tf. rewrite M6 in Tm. apply rows_nil in Tf, Tm. subst fs ms. inversion T8. inversion T9. rewrite T1, T4, T6. auto 10. }
  destruct Hnew as (bs' & Hle & Hc'). exists bs'. split; [exact Hle|]. split; [eapply class_constants; exact Hc'|].
  assert (Hs' : sane E bs') by (destruct Hs as [H1 H2 H3 H4]; unfold blen in *; constructor; unfold blen; auto; lia).
  apply (parse_Ok E opts (sane_stack _ _ Hs') bs' c' (sane_fits _ _ Hs')). exists cs. exact Hc'.
Qed.
(** The sample with its second field only, its methods in the other order, one line number, without the annotations
    of the record component, inner classes and exception handlers. *)
Definition lighter (a : attr_info) : attr_info :=
  match attr_dat a with
  | ALineNumberTable l => mk_attr (attr_name a) (ALineNumberTable (select (seq 1 (length l - 1)) l))
  | AInnerClasses l => mk_attr (attr_name a) (AInnerClasses [])
  | ARuntimeVisibleAnnotations l => mk_attr (attr_name a) (ARuntimeVisibleAnnotations [])
  | _ => a
  end.
Definition light (a : attr_info) : attr_info :=
  match attr_dat a with
  | ACode (mk_code s l code bc ex attrs) => mk_attr (attr_name a) (ACode (mk_code s l code bc [] (map lighter attrs)))
  | ARecord rs => mk_attr (attr_name a) (ARecord (map (fun r => mk_rc (rc_name r) (rc_descriptor r) (map lighter (rc_attributes r))) rs))
  | _ => lighter a
  end.
Definition sample_fewer : class_file := Eval vm_compute in
  mk_class (major_version sample_parsed) (minor_version sample_parsed) (constant_pool sample_parsed) (access_flags sample_parsed)
    (this_class sample_parsed) (super_class sample_parsed) [] (select [1]%nat (fields sample_parsed))
    (map (fun m => mk_method (m_access_flags m) (m_name m) (m_descriptor m) (map light (m_attributes m))) (select [1; 0]%nat (methods sample_parsed)))
    (map light (class_attributes sample_parsed)).
Lemma rows_none {A} (l : list A) : rows l [].
Proof. exists []. split; [apply no_rows|reflexivity]. Qed.
Lemma rows_all {A} (l : list A) : rows l l.
Proof. exists (seq 0 (length l)). split; [split; [apply seq_NoDup|intros k Hk; apply in_seq in Hk; lia]|symmetry; apply select_all]. Qed.
Lemma all_fewer (f : attr_info -> attr_info) l : (forall a, fewer a (f a)) -> Forall2 fewer l (map f l).
Proof. intro H. induction l; cbn; constructor; auto. Qed.
Lemma lighter_fewer a : fewer a (lighter a).
Proof.
  destruct a as [n x]. unfold lighter. cbn [attr_dat attr_name]. destruct x; try apply fw_same; apply fw_rows; constructor; try apply rows_none.
  exists (seq 1 (length l - 1)). split; [|reflexivity]. split; [apply seq_NoDup|]. intros k Hk. apply in_seq in Hk. lia.
Qed.
Lemma light_fewer a : fewer a (light a).
Proof.
  destruct a as [n x]. unfold light. cbn [attr_dat attr_name]. destruct x; try apply lighter_fewer.
  - destruct c as [s l code bc ex attrs]. eapply fw_code; [apply rows_none|apply rows_all|apply all_fewer, lighter_fewer].
  - eapply fw_record; [apply rows_all|]. induction l as [|r l IH]; cbn [map]; constructor; [|exact IH].
    split; [reflexivity|]. split; [reflexivity|]. exists (rc_attributes r). split; [apply rows_all|apply all_fewer, lighter_fewer].
Qed.
Example C78_meets : ample debug64 sample /\ parse_class_with_options debug64 true sample = Ok sample_parsed
  /\ constants_of debug64 sample sample_constants /\ fewer_class sample_parsed sample_fewer
  /\ bootstrap_rules sample_constants sample_fewer
  /\ length (fields sample_fewer) = 1%nat /\ map m_name (methods sample_fewer) = rev (map m_name (methods sample_parsed))
  /\ methods sample_fewer <> rev (methods sample_parsed) /\ class_attributes sample_fewer <> class_attributes sample_parsed.
Proof.
  split; [apply ampleb_ample; vm_compute; reflexivity|]. split; [exact sample_parse|]. split; [exact sample_of|].
  assert (Hone : row_numbers 2 [1]%nat) by (split; [repeat constructor; auto|intros k [<-|[]]; lia]).
  assert (Htwo : row_numbers 2 [1; 0]%nat) by (split; [repeat constructor; cbn; intuition discriminate|intros k [<-|[<-|[]]]; lia]).
  split; [|split; [|split; [reflexivity|split; [vm_compute; reflexivity|split]]]].
  - constructor; [reflexivity|reflexivity|vm_compute; reflexivity|reflexivity|vm_compute; reflexivity|vm_compute; reflexivity|apply rows_none| | |].
    + exists (select [1]%nat (fields sample_parsed)). split; [exists [1]%nat; split; [exact Hone|reflexivity]|].
      replace (fields sample_fewer) with (select [1]%nat (fields sample_parsed)) by (vm_compute; reflexivity).
      induction (select [1]%nat (fields sample_parsed)) as [|f l IH]; constructor; [|exact IH]. repeat (split; [reflexivity|]).
      exists (f_attributes f). split; [apply rows_all|]. rewrite <- (map_id (f_attributes f)) at 2. apply all_fewer. apply fw_same.
    + exists (select [1; 0]%nat (methods sample_parsed)). split; [exists [1; 0]%nat; split; [exact Htwo|reflexivity]|].
      replace (methods sample_fewer) with (map (fun m => mk_method (m_access_flags m) (m_name m) (m_descriptor m) (map light (m_attributes m))) (select [1; 0]%nat (methods sample_parsed)))
        by (vm_compute; reflexivity).
      induction (select [1; 0]%nat (methods sample_parsed)) as [|f l IH]; cbn [map]; constructor; [|exact IH]. repeat (split; [reflexivity|]).
      exists (m_attributes f). split; [apply rows_all|apply all_fewer, light_fewer].
    + exists (class_attributes sample_parsed). split; [apply rows_all|].
      replace (class_attributes sample_fewer) with (map light (class_attributes sample_parsed)) by (vm_compute; reflexivity). apply all_fewer, light_fewer.
  - assert (Hd : forallb (fun x => match x with CDynamic b _ | CInvokeDynamic b _ => b <? 1 | _ => true end) sample_constants = true) by (vm_compute; reflexivity).
    rewrite forallb_forall in Hd.
    assert (Hl : exists l, bootstrap_tables sample_fewer = [l] /\ 1 <= N.of_nat (length l)) by (eexists; split; [vm_compute; reflexivity|vm_compute; discriminate]).
    destruct Hl as (l & El & Hlen). intros b nt Hi. exists l. split; [exact El|].
    destruct Hi as [Hi|Hi]; specialize (Hd _ Hi); cbn in Hd; lia.
  - intro E. apply (f_equal (flat_map (fun m => flat_map (fun a => match attr_dat a with ACode cd => cd_exception_table cd | _ => [] end) (m_attributes m)))) in E.
    vm_compute in E. discriminate E.
  - intro E. apply (f_equal (flat_map (fun a => match attr_dat a with AInnerClasses l => l | _ => [] end))) in E. vm_compute in E. discriminate E.
Qed.
