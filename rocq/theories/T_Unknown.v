(** * Property theorems: unknown attributes are transparent (C24). *)
From Verif Require Import Base M_Names M_Descriptors M_ConstantPool M_Bytecode M_Attributes M_Class M_Cesu8 Data
  S_Lang S_Names S_Format S_Pool S_Within S_Frame S_Grow S_Env P_Reads P_Tac P_Depth P_Class2 P_Class3 P_Layout P_Within P_Grow T_Class T_Members P_Code T_Attributes.
From Coq Require Import ZifyBool ZifyNat ZifyN.

Lemma uint_exists k n : n < 256 ^ N.of_nat k -> exists w, uint k n w.
Proof. intro H. apply C32_unsigned_bijective in H. destruct H as (w & H & _). eauto. Qed.

Section Exists.
Variable dec : list byte -> option str.
Variable sl : slots.
Variable wraps want : bool.
Lemma grow_exists name payload i l l' : i < 65536 -> utf8_at dec sl i name -> ~ In name (map lit predefined) ->
  adds name payload l l' -> forall d w, attributes_lang dec sl wraps want d l w ->
  N.of_nat (length w) + 6 + N.of_nat (length payload) < 2 ^ 32 ->
  exists w', grows dec sl name payload l w l' w' /\ length w' = (length w + 6 + length payload)%nat.
Proof.
  intros Hi Hn Hp Ha. induction Ha as [l1 l2 Hlt|l1 l2 n s m code bc ex l l' Ha IH|l1 l2 n r1 r2 rn rd l l' Ha IH]; intros d w H Hw;
    (destruct d as [|d]; [destruct H|]); destruct H as (cw & v & -> & Hc & Hm);
    apply many_concat in Hm; destruct Hm as (ws & Hws & ->); apply Forall2_app_inv_l in Hws;
    destruct Hws as (ws1 & ws2 & H1 & H2 & ->); rewrite concat_app in *;
    pose proof (F2_len _ _ _ H1) as Hl1; pose proof (rows_extent _ _ (attribute_extends _ _ _ _ _ _) _ _ H1) as He1.
  - pose proof (F2_len _ _ _ H2) as Hl2. pose proof (rows_extent _ _ (attribute_extends _ _ _ _ _ _) _ _ H2) as He2.
    destruct (uint_exists 2 (N.of_nat (length (l1 ++ l2)) + 1)) as (cw' & Hc'); [change (256 ^ N.of_nat 2) with 65536; lia|].
    destruct (uint_exists 2 i) as (nw & Hnw); [exact Hi|].
    destruct (uint_exists 4 (N.of_nat (length payload))) as (lw & Hlw); [change (256 ^ N.of_nat 4) with (2 ^ 32); lia|].
    exists (cw' ++ concat ws1 ++ (nw ++ lw ++ payload) ++ concat ws2). split.
    + apply grow_here with (i := i); auto.
    + rewrite !app_length. rewrite (proj1 Hc), (proj1 Hc'), (proj1 Hnw), (proj1 Hlw). lia.
  - inversion H2 as [|a w l2' ws2' Hatt H2']; subst. pose proof (F2_len _ _ _ H2') as Hl2. pose proof (rows_extent _ _ (attribute_extends _ _ _ _ _ _) _ _ H2') as He2.
    destruct Hatt as (nw & v & -> & Hnw & lw & body & -> & Hlw & Hbody & Hname). cbn [attr_dat contents snd] in Hbody.
    destruct (code_parts _ _ _ _ _ _ _ _ _ _ _ _ Hbody) as (head & t & -> & Hh & Ht & _). cbn [concat] in *.
    assert (Hsz : N.of_nat (length t) + 6 + N.of_nat (length payload) < 2 ^ 32) by (rewrite !app_length in Hw; lia).
    destruct (IH _ _ Ht Hsz) as (t' & Hg & Hlt).
    destruct (uint_exists 4 (N.of_nat (length (head ++ t')))) as (lw' & Hlw'); [change (256 ^ N.of_nat 4) with (2 ^ 32); rewrite !app_length in *; lia|].
    exists (cw ++ concat ws1 ++ (nw ++ lw' ++ head ++ t') ++ concat ws2'). split.
    + apply grow_code; auto. { rewrite app_length in Hc. cbn [length] in Hc. replace (length l1 + 1 + length l2)%nat with (length l1 + S (length l2))%nat by lia. exact Hc. } exact (ref_len _ _ _ Hnw).
    + rewrite !app_length, Hlt. rewrite (proj1 Hlw), (proj1 Hlw'). lia.
  - inversion H2 as [|a w l2' ws2' Hatt H2']; subst. pose proof (F2_len _ _ _ H2') as Hl2. pose proof (rows_extent _ _ (attribute_extends _ _ _ _ _ _) _ _ H2') as He2.
    destruct Hatt as (nw & v & -> & Hnw & lw & body & -> & Hlw & Hbody & Hname). cbn [attr_dat contents snd] in Hbody.
    destruct Hbody as (kw & v & -> & Hk & Hrows). apply many_concat in Hrows; destruct Hrows as (rs & Hrs & ->); apply Forall2_app_inv_l in Hrs.
    destruct Hrs as (rs1 & rs2 & R1 & R2 & ->). inversion R2 as [|a w r2' rs2' Hcomp R2']; subst. rewrite concat_app in *. cbn [concat] in *.
    destruct Hcomp as (n1 & v & -> & Hn1 & n2 & t & -> & Hn2 & Ht). cbn [rc_attributes rc_name rc_descriptor] in *.
    assert (Hsz : N.of_nat (length t) + 6 + N.of_nat (length payload) < 2 ^ 32) by (rewrite !app_length in Hw; lia).
    destruct (IH _ _ Ht Hsz) as (t' & Hg & Hlt).
    destruct (uint_exists 4 (N.of_nat (length (kw ++ concat rs1 ++ ((n1 ++ n2) ++ t') ++ concat rs2')))) as (lw' & Hlw'); [change (256 ^ N.of_nat 4) with (2 ^ 32); rewrite !app_length in *; lia|].
    exists (cw ++ concat ws1 ++ (nw ++ lw' ++ kw ++ concat rs1 ++ ((n1 ++ n2) ++ t') ++ concat rs2') ++ concat ws2'). split.
    + rewrite (app_assoc n1) in *. apply grow_record; auto.
      * rewrite app_length in Hc. cbn [length] in Hc. replace (length l1 + 1 + length l2)%nat with (length l1 + S (length l2))%nat by lia. exact Hc.
      * exact (ref_len _ _ _ Hnw).
      * exact (u2_len _ _ Hk).
      * rewrite app_length, (ref_len _ _ _ Hn1), (ref_len _ _ _ Hn2). reflexivity.
      * symmetry. exact (F2_len _ _ _ R1).
      * symmetry. exact (F2_len _ _ _ R2').
      * exact (rows_extent _ _ (component_extends _ _ _ _ _) _ _ R1).
      * exact (rows_extent _ _ (component_extends _ _ _ _ _) _ _ R2').
    + rewrite !app_length, Hlt. rewrite (proj1 Hlw), (proj1 Hlw'). lia.
Qed.
Definition tables_of (l : list attr_info) := flat_map (fun a => match attr_dat a with ABootstrapMethods l => [l] | _ => [] end) l.
Lemma grows_tables name payload l w l' w' : grows dec sl name payload l w l' w' -> tables_of l' = tables_of l.
Proof. intros []; unfold tables_of; rewrite !flat_map_app; reflexivity. Qed.
End Exists.

(** ** C24 *)
(** The attribute list [l] of the class [c] stands in the file as [T], between [pre] and [post].  Whenever the
    bytes [T] change by the insertion of an unknown attribute (see [S_Grow]), at any depth, the parser accepts the changed file
    and returns the same class except that [l] is replaced by [l'], which is [l] with this attribute inserted as raw bytes at that place.  Conversely an
    attribute with any unknown name from the pool and any contents can be inserted anywhere in [l], as
    long as the counts and lengths can be written. *)
Definition transparent (E : env) (opts : bool) (cs : list constant) (bs : list byte) (l : list attr_info) (put : list attr_info -> class_file) : Prop :=
  exists pre T post, bs = pre ++ T ++ post /\ list_extent T
    /\ (forall name payload l' T', grows (cesu8 E) (slots_of cs) name payload l T l' T' -> sane E (pre ++ T' ++ post) ->
          parse_class_with_options E opts (pre ++ T' ++ post) = Ok (put l'))
    /\ (forall name payload i l', i < 65536 -> utf8_at (cesu8 E) (slots_of cs) i name -> ~ In name (map lit predefined) ->
          adds name payload l l' -> N.of_nat (length T) + 6 + N.of_nat (length payload) < 2 ^ 32 ->
          exists T', grows (cesu8 E) (slots_of cs) name payload l T l' T' /\ length T' = (length T + 6 + length payload)%nat).

Lemma accepted_stack E opts bs c cs : sane E bs -> parse_class_with_options E opts bs = Ok c -> constants_of E bs cs ->
  class_lang (cesu8 E) (wrapping E) opts (stack E) cs c bs.
Proof.
  intros Hs H Hcs. apply (parse_Ok E opts (sane_stack _ _ Hs) bs c (sane_fits _ _ Hs)) in H. destruct H as (cs' & H).
  rewrite (constants_unique _ _ _ _ Hcs (class_constants _ _ _ _ _ _ H)). exact H.
Qed.

Theorem C24_class_attributes E opts bs c cs : sane E bs -> parse_class_with_options E opts bs = Ok c -> constants_of E bs cs ->
  transparent E opts cs bs (class_attributes c) (with_class_attributes c).
Proof.
  intros Hs H Hcs. pose proof (accepted_stack _ _ _ _ _ Hs H Hcs) as Hc. destruct Hc as (Hc & HP & Hf & Hm & Hr & Hmod & Hboot).
  destruct Hc as (u0 & v0 & -> & K0 & u1 & v1 & -> & K1 & u2 & v2 & -> & K2 & u3 & v3 & -> & K3 & u4 & v4 & -> & K4 & u5 & v5 & -> & K5
    & u6 & v6 & -> & K6 & u7 & v7 & -> & K7 & u8 & v8 & -> & K8 & u9 & T & -> & K9 & HT).
  exists (u0 ++ u1 ++ u2 ++ u3 ++ u4 ++ u5 ++ u6 ++ u7 ++ u8 ++ u9), T, []. rewrite app_nil_r, <- !app_assoc. split; [reflexivity|]. split; [eapply list_extends; eauto|]. split.
  - intros name payload l' T' Hg Hs'. rewrite app_nil_r, <- !app_assoc in *.
    apply (parse_Ok E opts (sane_stack _ _ Hs') _ _ (sane_fits _ _ Hs')). exists cs. split.
    + repeat (apply cat_intro; [assumption|]). eapply grow_lang; eauto.
    + repeat (split; [assumption|]). intros b nt Hin. destruct (Hboot b nt Hin) as (l & Hl & Hlt). exists l. split; [|exact Hlt].
      rewrite <- Hl. exact (grows_tables _ _ _ _ _ _ _ _ Hg).
  - intros. eapply grow_exists; eauto.
Qed.

Theorem C24_field_attributes E opts bs c cs f1 f f2 : sane E bs -> parse_class_with_options E opts bs = Ok c -> constants_of E bs cs ->
  fields c = f1 ++ f :: f2 ->
  transparent E opts cs bs (f_attributes f) (fun l => with_fields c (f1 ++ with_field_attributes f l :: f2)).
Proof.
  intros Hs H Hcs Hfs. pose proof (accepted_stack _ _ _ _ _ Hs H Hcs) as Hc. destruct Hc as (Hc & HP & Hf & Hm & Hr & Hmod & Hboot).
  destruct Hc as (u0 & v0 & -> & K0 & u1 & v1 & -> & K1 & u2 & v2 & -> & K2 & u3 & v3 & -> & K3 & u4 & v4 & -> & K4 & u5 & v5 & -> & K5
    & u6 & v6 & -> & K6 & u7 & v7 & -> & K7 & u8 & v8 & -> & K8 & HT).
  rewrite Hfs in K8. destruct K8 as (cw & v & -> & Hcw & Hrows). apply many_concat in Hrows. destruct Hrows as (ws & Hws & ->).
  apply Forall2_app_inv_l in Hws. destruct Hws as (ws1 & ws2 & H1 & H2 & ->). inversion H2 as [|? w ? ws2' Hrow H2']; subst.
  destruct Hrow as (a0 & b0 & -> & A0 & a1 & b1 & -> & A1 & a2 & T & -> & A2 & A3).
  exists (u0 ++ u1 ++ u2 ++ u3 ++ u4 ++ u5 ++ u6 ++ u7 ++ cw ++ concat ws1 ++ a0 ++ a1 ++ a2), T, (concat ws2' ++ v8).
  rewrite concat_app. cbn [concat]. rewrite <- !app_assoc. split; [reflexivity|]. split; [eapply list_extends; eauto|]. split.
  - intros name payload l' T' Hg Hs'. rewrite <- !app_assoc in *.
    apply (parse_Ok E opts (sane_stack _ _ Hs') _ _ (sane_fits _ _ Hs')). exists cs. split.
    + repeat (apply cat_intro; [assumption|]). cbn [with_fields fields].
      replace (cw ++ concat ws1 ++ a0 ++ a1 ++ a2 ++ T' ++ concat ws2' ++ v8) with ((cw ++ concat ws1 ++ (a0 ++ a1 ++ a2 ++ T') ++ concat ws2') ++ v8) by (rewrite <- !app_assoc; reflexivity).
      apply cat_intro; [|exact HT]. apply cat_intro; [rewrite app_length in *; exact Hcw|]. apply join_mid; [exact H1| |apply concat_many, H2'].
      repeat (apply cat_intro; [assumption|]). eapply grow_lang; eauto.
    + split; [exact HP|]. split; [cbn [with_fields fields]; rewrite Hfs in Hf; rewrite map_app in *; exact Hf|]. split; [exact Hm|]. split; [exact Hr|]. split; [|exact Hboot].
      intro Hb. destruct (Hmod Hb) as (_ & _ & _ & _ & Hnil & _). rewrite Hfs in Hnil. destruct f1; discriminate Hnil.
  - intros. eapply grow_exists; eauto.
Qed.

Theorem C24_method_attributes E opts bs c cs m1 m m2 : sane E bs -> parse_class_with_options E opts bs = Ok c -> constants_of E bs cs ->
  methods c = m1 ++ m :: m2 ->
  transparent E opts cs bs (m_attributes m) (fun l => with_methods c (m1 ++ with_method_attributes m l :: m2)).
Proof.
  intros Hs H Hcs Hms. pose proof (accepted_stack _ _ _ _ _ Hs H Hcs) as Hc. destruct Hc as (Hc & HP & Hf & Hm & Hr & Hmod & Hboot).
  destruct Hc as (u0 & v0 & -> & K0 & u1 & v1 & -> & K1 & u2 & v2 & -> & K2 & u3 & v3 & -> & K3 & u4 & v4 & -> & K4 & u5 & v5 & -> & K5
    & u6 & v6 & -> & K6 & u7 & v7 & -> & K7 & u8 & v8 & -> & K8 & u9 & v9 & -> & K9 & HT).
  rewrite Hms in K9. destruct K9 as (cw & v & -> & Hcw & Hrows). apply many_concat in Hrows. destruct Hrows as (ws & Hws & ->).
  apply Forall2_app_inv_l in Hws. destruct Hws as (ws1 & ws2 & H1 & H2 & ->). inversion H2 as [|? w ? ws2' Hrow H2']; subst.
  destruct Hrow as (a0 & b0 & -> & A0 & a1 & b1 & -> & A1 & a2 & T & -> & A2 & A3).
  exists (u0 ++ u1 ++ u2 ++ u3 ++ u4 ++ u5 ++ u6 ++ u7 ++ u8 ++ cw ++ concat ws1 ++ a0 ++ a1 ++ a2), T, (concat ws2' ++ v9).
  rewrite concat_app. cbn [concat]. rewrite <- !app_assoc. split; [reflexivity|]. split; [eapply list_extends; eauto|]. split.
  - intros name payload l' T' Hg Hs'. rewrite <- !app_assoc in *.
    apply (parse_Ok E opts (sane_stack _ _ Hs') _ _ (sane_fits _ _ Hs')). exists cs. split.
    + repeat (apply cat_intro; [assumption|]). cbn [with_methods methods].
      replace (cw ++ concat ws1 ++ a0 ++ a1 ++ a2 ++ T' ++ concat ws2' ++ v9) with ((cw ++ concat ws1 ++ (a0 ++ a1 ++ a2 ++ T') ++ concat ws2') ++ v9) by (rewrite <- !app_assoc; reflexivity).
      apply cat_intro; [|exact HT]. apply cat_intro; [rewrite app_length in *; exact Hcw|]. apply join_mid; [exact H1| |apply concat_many, H2'].
      repeat (apply cat_intro; [assumption|]). eapply grow_lang; eauto.
    + split; [exact HP|]. split; [exact Hf|]. split; [cbn [with_methods methods]; rewrite Hms in Hm; rewrite map_app in *; exact Hm|].
      split; [cbn [with_methods methods major_version]; rewrite Hms in Hr; apply Forall_app in Hr; destruct Hr as [Hr1 Hr2]; apply Forall_app; split; [exact Hr1|];
              inversion Hr2; subst; constructor; assumption|]. split; [|exact Hboot].
      intro Hb. destruct (Hmod Hb) as (_ & _ & _ & _ & _ & Hnil). rewrite Hms in Hnil. destruct m1; discriminate Hnil.
  - intros. eapply grow_exists; eauto.
Qed.

(** A concrete use: an attribute "A" with three bytes is inserted into the smallest class. *)
Definition smallest : list byte := unhex "cafebabe000000340003010001410700010021000200000000000000000000".
Example C24_meets : exists c l' bs', sane debug64 smallest /\ parse_class debug64 smallest = Ok c /\ constants_of debug64 smallest [CUtf8 [x41]; CClass 1]
  /\ adds (lit "A") [x01; x02; x03] (class_attributes c) l'
  /\ parse_class debug64 bs' = Ok (with_class_attributes c l') /\ length bs' = (length smallest + 9)%nat.
Proof.
  destruct (parse_class debug64 smallest) as [c| | |] eqn:H; [|exfalso; revert H; vm_compute; discriminate..].
  assert (Hs : sane debug64 smallest) by (apply ample_sane, ampleb_ample; vm_compute; reflexivity).
  assert (Hcs : constants_of debug64 smallest [CUtf8 [x41]; CClass 1]).
  { exists 0, 52, 3, [[x01; x00; x01; x41]; [x07; x00; x01]], (skipn 17 smallest). split; [|cbn; lia].
    exists [xca; xfe; xba; xbe], [x00; x00; x00; x34], [x00; x03].
    split; [split; vm_compute; reflexivity|]. split; [exists [x00; x00], [x00; x34]; repeat split|].
    split; [split; reflexivity|]. split; [vm_compute; reflexivity|].
    constructor; [|constructor; [|constructor]].
    - split; [lia|]. exists [x01], [x00; x01; x41]. repeat split. exists [x00; x01], [x41]. repeat split.
    - split; [lia|]. exists [x07], [x00; x01]. repeat split. }
  assert (Hl : match parse_class debug64 smallest with Ok c => length (class_attributes c) | _ => 5%nat end = 0%nat) by (vm_compute; reflexivity).
  rewrite H in Hl. destruct (C24_class_attributes debug64 true smallest c _ Hs H Hcs) as (pre & T & post & Hbs & _ & Hgo & Hex).
  assert (Ha : adds (lit "A") [x01; x02; x03] (class_attributes c) ([] ++ mk_attr (lit "A") (AOther [x01; x02; x03]) :: class_attributes c)).
  { apply (add_here _ _ [] (class_attributes c)). rewrite app_length, Hl. reflexivity. }
  assert (Hlen : (length pre + (length T + length post) = 31)%nat) by (rewrite <- !app_length, <- Hbs; vm_compute; reflexivity).
  assert (Hn : utf8_at (cesu8 debug64) (slots_of [CUtf8 [x41]; CClass 1]) 1 (lit "A")) by (exists [x41]; split; vm_compute; reflexivity).
  assert (Hp : ~ In (lit "A") (map lit predefined)).
  { intro Hin. cbn in Hin. repeat (destruct Hin as [Hin|Hin]; [discriminate Hin|]). destruct Hin. }
  destruct (Hex _ _ 1 _ eq_refl Hn Hp Ha) as (T' & Hg & HT'); [cbn [length]; change (2 ^ 32) with 4294967296; lia|].
  eexists c, _, (pre ++ T' ++ post). split; [exact Hs|]. split; [reflexivity|]. split; [exact Hcs|]. split; [exact Ha|]. split.
  - apply (Hgo _ _ _ _ Hg). cbn [length] in HT'.
    constructor; unfold blen; rewrite ?app_length, ?HT'; cbn; lia.
  - rewrite !app_length, HT'. cbn [length]. change (length smallest) with 31%nat. lia.
Qed.
