(** * Property theorems: an attribute means the same wherever it stands (C76).

    Vocabulary: [S_Anywhere], [S_Within], [S_Format], [S_Pool], [S_Env]. *)
From Verif Require Import Base M_Names M_Descriptors M_ConstantPool M_Bytecode M_Attributes M_Class M_Cesu8 Data Sample
  S_Lang S_Names S_Format S_Pool S_Within S_Env S_Rewrite S_Anywhere P_Reads P_Tac P_Pool4 P_Class2 P_Class3 P_Depth P_Layout P_Within T_Class T_Members T_Unknown T_Rewrite T_Rewrite2.
From Coq Require Import Permutation ZifyBool ZifyNat ZifyN.

Lemma part_short w (L : lang) : part w L -> exists u, (length u <= length w)%nat /\ L u.
Proof. intros (a & u & b & -> & H). exists u. split; auto. rewrite !app_length. lia. Qed.
Lemma rows_exist {A} (F : A -> lang) M l : Forall (fun a => exists w, (length w <= M)%nat /\ F a w) l ->
  exists w, (length w <= length l * M)%nat /\ many F l w.
Proof.
  induction 1 as [|a l (u & Hu & Ha) _ (v & Hv & IH)]; [exists []; split; [cbn; lia|reflexivity]|].
  exists (u ++ v). split; [rewrite app_length; cbn [length]; lia|]. apply cat_intro; auto.
Qed.
Lemma table_exists {A} (F : A -> lang) M l : Forall (fun a => exists w, (length w <= M)%nat /\ F a w) l -> N.of_nat (length l) < 65536 ->
  exists w, (length w <= 2 + length l * M)%nat /\ table u2 F l w.
Proof.
  intros H Hlt. destruct (rows_exist F M l H) as (v & Hv & Hm). exists (two_bytes (N.of_nat (length l)) ++ v).
  pose proof (two_bytes_u2 _ Hlt) as Hn. split; [rewrite app_length, (proj1 Hn); lia|]. apply cat_intro; auto.
Qed.
Lemma many_with {A} (R : A -> A -> Prop) (K : A -> nat) (F F' : A -> lang) :
  (forall a a' u, R a a' -> F a u -> exists u', (length u' <= length u + K a')%nat /\ F' a' u') ->
  forall l l' w, Forall2 R l l' -> many F l w -> exists w', (length w' <= length w + list_sum (map K l'))%nat /\ many F' l' w'.
Proof.
  intros HR l l' w H. revert w. induction H as [|a a' l l' Ha H IH]; intros w Hw.
  - exists w. split; [lia|exact Hw].
  - destruct Hw as (u & v & -> & Hu & Hv). destruct (HR a a' u Ha Hu) as (u' & Lu & Hu'). destruct (IH v Hv) as (v' & Lv & Hv').
    exists (u' ++ v'). split; [rewrite !app_length; cbn [map]; change (list_sum (K a' :: map K l')) with (K a' + list_sum (map K l'))%nat; lia|]. apply cat_intro; auto.
Qed.
Lemma table_with {A} (C : N -> lang) (R : A -> A -> Prop) (K : A -> nat) (F F' : A -> lang) :
  (forall a a' u, R a a' -> F a u -> exists u', (length u' <= length u + K a')%nat /\ F' a' u') ->
  forall l l' w, Forall2 R l l' -> table C F l w -> exists w', (length w' <= length w + list_sum (map K l'))%nat /\ table C F' l' w'.
Proof.
  intros HR l l' w H (u & v & -> & Hu & Hv). assert (El : length l' = length l) by (clear - H; induction H; cbn; congruence).
  destruct (many_with R K F F' HR l l' v H Hv) as (v' & Lv & Hv'). exists (u ++ v'). split; [rewrite !app_length; lia|].
  unfold table. rewrite El. apply cat_intro; auto.
Qed.
Lemma sum_scale {A} (f : A -> nat) M l : list_sum (map (fun a => f a * M)%nat l) = (list_sum (map f l) * M)%nat.
Proof. induction l as [|a l IH]; [reflexivity|]. cbn [map]. change (list_sum (?x :: ?r)) with (x + list_sum r)%nat. unfold list_sum in *. cbn [fold_right]. rewrite IH. lia. Qed.
Lemma attributes_two dec sl wraps want d l w : attributes_lang dec sl wraps want d l w -> (2 <= length w)%nat.
Proof. destruct d; [intros []|]. intro H. eapply table_u2_len; try exact H; try exact dec; try exact sl; auto. Qed.
Lemma refurnished_same {A B} (R : A -> A -> Prop) (f : A -> B) l l' : (forall a b, R a b -> f b = f a) -> Forall2 R l l' -> map f l' = map f l.
Proof. intros HR H. induction H; cbn; [reflexivity|]. f_equal; auto. Qed.

(** Any attributes of accepted files over the same constants, from any depth, can be put into any table of
    attributes of the class, its fields and its methods, any number of times: each is read as it was read
    where it comes from. *)
Theorem C76_anywhere E opts bs c cs M (donors : list (list byte * class_file)) c' :
  ample E bs -> parse_class_with_options E opts bs = Ok c -> constants_of E bs cs ->
  Forall (fun d => ample E (fst d) /\ parse_class_with_options E opts (fst d) = Ok (snd d) /\ constants_of E (fst d) cs
    /\ (length (fst d) <= M)%nat) donors ->
  refurnished (map snd donors) c c' -> bootstrap_rules cs c' ->
  exists bs', (length bs' <= length bs + attribute_count c' * M)%nat /\ constants_of E bs' cs
    /\ (ample E bs' -> parse_class_with_options E opts bs' = Ok c').
Proof.
  intros Ha H Hcs Hdon [T1 T2 T3 T4 T5 T6 T7 T8 T9 T10] Hboot. pose proof (ample_sane _ _ Ha) as Hs.
  destruct (proj1 (parse_Ok E opts (sane_stack _ _ Hs) bs c (sane_fits _ _ Hs)) H) as (cs0 & Hc).
  assert (cs0 = cs) as -> by (eapply constants_unique; [eapply class_constants; eauto|exact Hcs]).
  set (Attrs := attributes_lang (cesu8 E) (slots_of cs) (wrapping E) opts).
  assert (Hsup : forall a, supplied (map snd donors) a -> exists w, (length w <= M)%nat /\ attribute_with (cesu8 E) (slots_of cs) (wrapping E) opts (Attrs M) M a w).
  { intros a (c0 & Hin & Hw). apply in_map_iff in Hin. destruct Hin as ((bs0 & c1) & E1 & Hin). cbn [snd] in E1. subst c1.
    rewrite Forall_forall in Hdon. destruct (Hdon _ Hin) as (Ha0 & H0 & Hcs0 & Hlen). cbn [fst snd] in *. pose proof (ample_sane _ _ Ha0) as Hs0.
    destruct (proj1 (parse_Ok E opts (sane_stack _ _ Hs0) bs0 c0 (sane_fits _ _ Hs0)) H0) as (cs1 & Hc0).
    assert (cs1 = cs) as -> by (eapply constants_unique; [eapply class_constants; eauto|exact Hcs0]).
    destruct (within_part _ _ _ _ _ _ _ a Hc0 Hw) as (d' & Hp). destruct (part_short _ _ Hp) as (u & Lu & Hu).
    exists u. split; [lia|]. revert Hu. apply (attribute_upto (cesu8 E) (slots_of cs) (wrapping E) opts M); [apply attributes_depth|apply element_depth|lia]. }
  assert (Hlist : forall l, supplied_list (map snd donors) l -> exists w, (length w <= 2 + length l * M)%nat /\ Attrs (S M) l w).
  { intros l [Hl Hlt]. apply (table_exists _ M l); [|exact Hlt]. eapply Forall_impl; [|exact Hl]. exact Hsup. }
  assert (Hnew : exists bs', (length bs' <= length bs + attribute_count c' * M)%nat /\ class_lang (cesu8 E) (wrapping E) opts (S M) cs c' bs').
  { destruct Hc as ((w0 & r0 & -> & H0 & w1 & r1 & -> & H1 & w2 & r2 & -> & H2 & w3 & r3 & -> & H3 & w4 & r4 & -> & H4 & w5 & r5 & -> & H5 & w6 & r6 & -> & H6
      & w7 & r7 & -> & H7 & w8 & r8 & -> & H8 & w9 & r9 & -> & H9 & H10) & Hpool & Hnf & Hnm & Hmr & Hmod & _).
    eapply (table_with u2 (refurnished_field (map snd donors)) (fun f => length (f_attributes f) * M)%nat _ (field_lang (cesu8 E) (slots_of cs) (wrapping E) opts (S M))) in H8;
      [|clear H8|exact T8].
    2:{ intros f f' u (E1 & E2 & E3 & Ht) (p & q & -> & Hp & p2 & q2 & -> & Hp2 & p3 & q3 & -> & Hp3 & Hq). unfold field_lang. rewrite E1, E2, E3.
        destruct (Hlist _ Ht) as (q' & Lq & Hq'). apply attributes_two in Hq. exists (p ++ p2 ++ p3 ++ q'). split; [rewrite !app_length; lia|].
        do 3 (apply cat_intro; [assumption|]). exact Hq'. }
    eapply (table_with u2 (refurnished_method (map snd donors)) (fun f => length (m_attributes f) * M)%nat _
      (method_lang (cesu8 E) (slots_of cs) (wrapping E) opts (S M) (N.testbit (access_flags c) ACC_INTERFACE_bit))) in H9; [|clear H9|exact T9].
    2:{ intros f f' u (E1 & E2 & E3 & Ht) (p & q & -> & Hp & p2 & q2 & -> & Hp2 & p3 & q3 & -> & Hp3 & Hq). unfold method_lang. rewrite E1, E2, E3.
        destruct (Hlist _ Ht) as (q' & Lq & Hq'). apply attributes_two in Hq. exists (p ++ p2 ++ p3 ++ q'). split; [rewrite !app_length; lia|].
        do 3 (apply cat_intro; [assumption|]). exact Hq'. }
    destruct (Hlist _ T10) as (v10 & L10 & H10'). apply attributes_two in H10.
    destruct H8 as (v8 & L8 & H8'). destruct H9 as (v9 & L9 & H9'). rewrite (sum_scale (fun f => length (f_attributes f))) in L8. rewrite (sum_scale (fun f => length (m_attributes f))) in L9.
    exists (w0 ++ w1 ++ w2 ++ w3 ++ w4 ++ w5 ++ w6 ++ w7 ++ v8 ++ v9 ++ v10). split; [unfold attribute_count; rewrite !app_length; lia|].
    split; [rewrite T1, T2, T4, T5, T6, T7; do 8 (apply cat_intro; [assumption|]); do 2 (apply cat_intro; [assumption|]); exact H10'|].
    split; [congruence|].
    split; [|split; [|split; [|split; [|exact Hboot]]]].
    - erewrite refurnished_same; [exact Hnf| |exact T8]. intros a b (_ & E1 & E2 & _). congruence.
    - erewrite refurnished_same; [exact Hnm| |exact T9]. intros a b (_ & E1 & E2 & _). congruence.
    - rewrite T1. clear - T9 Hmr. induction T9 as [|m m' l l' (_ & E1 & E2 & _) H IH]; [constructor|]. inversion Hmr as [|? ? [R1 R2] Hr]; subst.
      constructor; [|auto]. split; rewrite E1, E2; assumption.
    - intro Hx. rewrite T4 in Hx. destruct (Hmod Hx) as (M1 & M2 & M3 & M4 & M5 & M6). rewrite M5 in T8. rewrite M6 in T9.
      inversion T8. inversion T9. rewrite T1, T4, T6, T7. auto 10. }
  destruct Hnew as (bs' & Hle & Hc'). exists bs'. split; [exact Hle|]. split; [eapply class_constants; exact Hc'|].
  intro Ha'. apply C01_parse_iff_format; [exact Ha'|]. exists (S M), cs. exact Hc'.
Qed.
(** The sample with its attributes in other places: the line numbers of its code as an attribute of the class, the
    annotations of its record component on both fields, its code three times in each method. *)
Definition inner_attributes (a : attr_info) : list attr_info :=
  match attr_dat a with ACode cd => cd_attributes cd | ARecord l => flat_map rc_attributes l | _ => [] end.
Definition sample_refurnished : class_file := Eval vm_compute in
  let code := firstn 1 (flat_map m_attributes (methods sample_parsed)) in
  mk_class (major_version sample_parsed) (minor_version sample_parsed) (constant_pool sample_parsed) (access_flags sample_parsed)
    (this_class sample_parsed) (super_class sample_parsed) (interfaces sample_parsed)
    (map (fun f => mk_field (f_access_flags f) (f_name f) (f_descriptor f) (flat_map inner_attributes (class_attributes sample_parsed))) (fields sample_parsed))
    (map (fun m => mk_method (m_access_flags m) (m_name m) (m_descriptor m) (code ++ code ++ code)) (methods sample_parsed))
    (class_attributes sample_parsed ++ firstn 1 (flat_map inner_attributes (flat_map m_attributes (methods sample_parsed)))).
Example C76_meets : ample debug64 sample /\ parse_class_with_options debug64 true sample = Ok sample_parsed
  /\ constants_of debug64 sample sample_constants
  /\ Forall (fun d => ample debug64 (fst d) /\ parse_class_with_options debug64 true (fst d) = Ok (snd d) /\ constants_of debug64 (fst d) sample_constants
       /\ (length (fst d) <= 813)%nat) [(sample, sample_parsed)]
  /\ refurnished (map snd [(sample, sample_parsed)]) sample_parsed sample_refurnished
  /\ bootstrap_rules sample_constants sample_refurnished
  /\ map (fun f => length (f_attributes f)) (fields sample_refurnished) = [1; 1]%nat
  /\ map (fun m => length (m_attributes m)) (methods sample_refurnished) = [3; 3]%nat /\ length (class_attributes sample_refurnished) = 5%nat.
Proof.
  assert (Ha : ample debug64 sample) by (apply ampleb_ample; vm_compute; reflexivity).
  split; [exact Ha|]. split; [exact sample_parse|]. split; [exact sample_of|].
  split; [constructor; [|constructor]; split; [exact Ha|split; [exact sample_parse|split; [exact sample_of|vm_compute; lia]]]|].
  assert (Hcl : forall a, In a (class_attributes sample_parsed) -> supplied [sample_parsed] a).
  { intros a Hin. exists sample_parsed. split; [left; reflexivity|apply of_class, Hin]. }
  assert (Hme : forall a, In a (flat_map m_attributes (methods sample_parsed)) -> supplied [sample_parsed] a).
  { intros a Hin. apply in_flat_map in Hin. destruct Hin as (m & Hm & Hin). exists sample_parsed. split; [left; reflexivity|eapply of_method; eauto]. }
  assert (Hin : forall a b, supplied [sample_parsed] a -> In b (inner_attributes a) -> supplied [sample_parsed] b).
  { intros a b (c & Hc & Hw) Hb. exists c. split; [exact Hc|]. eapply nested; [exact Hw|]. destruct a as [n d]. unfold inner_attributes in Hb. cbn [attr_dat] in Hb.
    destruct d; try contradiction Hb; [apply inside_code, Hb|]. apply in_flat_map in Hb. destruct Hb as (r & Hr & Hb). eapply inside_record; eauto. }
  assert (Hfirst : forall n (l : list attr_info), Forall (supplied [sample_parsed]) l -> Forall (supplied [sample_parsed]) (firstn n l)).
  { intros n l H. rewrite <- (firstn_skipn n l) in H. apply Forall_app in H. apply H. }
  assert (Hall : forall l, Forall (supplied [sample_parsed]) l -> Forall (supplied [sample_parsed]) (flat_map inner_attributes l)).
  { intros l H. apply Forall_forall. intros b Hb. apply in_flat_map in Hb. destruct Hb as (a & Hl & Hb). rewrite Forall_forall in H. eauto. }
  set (code := firstn 1 (flat_map m_attributes (methods sample_parsed))).
  assert (Hcode : Forall (supplied [sample_parsed]) code) by (apply Hfirst, Forall_forall, Hme).
  assert (Hc3 : Forall (supplied [sample_parsed]) (code ++ code ++ code)) by (apply Forall_app; split; [|apply Forall_app; split]; exact Hcode).
  assert (Hann : Forall (supplied [sample_parsed]) (flat_map inner_attributes (class_attributes sample_parsed))) by (apply Hall, Forall_forall, Hcl).
  split; [constructor; [reflexivity|reflexivity|vm_compute; reflexivity|reflexivity|vm_compute; reflexivity|vm_compute; reflexivity|vm_compute; reflexivity| | |]|].
  - assert (E : fields sample_refurnished = map (fun f => mk_field (f_access_flags f) (f_name f) (f_descriptor f) (flat_map inner_attributes (class_attributes sample_parsed))) (fields sample_parsed))
      by (vm_compute; reflexivity).
    rewrite E. clear E. induction (fields sample_parsed) as [|f l IH]; [constructor|]. constructor; [|exact IH].
    split; [reflexivity|split; [reflexivity|split; [reflexivity|split; [exact Hann|vm_compute; reflexivity]]]].
  - assert (E : methods sample_refurnished = map (fun m => mk_method (m_access_flags m) (m_name m) (m_descriptor m) (code ++ code ++ code)) (methods sample_parsed))
      by (vm_compute; reflexivity).
    rewrite E. clear E. assert (Hlt : N.of_nat (length (code ++ code ++ code)) < 65536) by (vm_compute; reflexivity).
    clear - Hc3 Hlt. clearbody code. induction (methods sample_parsed) as [|f l IH]; [constructor|]. constructor; [|exact IH].
    split; [reflexivity|split; [reflexivity|split; [reflexivity|split; [exact Hc3|exact Hlt]]]].
  - split; [|vm_compute; reflexivity].
    assert (E : class_attributes sample_refurnished = class_attributes sample_parsed ++ firstn 1 (flat_map inner_attributes (flat_map m_attributes (methods sample_parsed))))
      by (vm_compute; reflexivity).
    rewrite E. apply Forall_app. split; [apply Forall_forall, Hcl|]. apply Hfirst, Hall, Forall_forall, Hme.
  - split; [|repeat split; vm_compute; reflexivity].
    assert (Hd : forallb (fun x => match x with CDynamic b _ | CInvokeDynamic b _ => b <? 1 | _ => true end) sample_constants = true) by (vm_compute; reflexivity).
    rewrite forallb_forall in Hd.
    assert (Hl : exists l, bootstrap_tables sample_refurnished = [l] /\ 1 <= N.of_nat (length l)) by (eexists; split; [vm_compute; reflexivity|vm_compute; discriminate]).
    destruct Hl as (l & El & Hlen). intros b nt Hi. exists l. split; [exact El|].
    destruct Hi as [Hi|Hi]; specialize (Hd _ Hi); cbn in Hd; lia.
Qed.
