(** * Lemmas for C66: attribute tables, members and classes. *)
From Verif Require Import Base M_Names M_Descriptors M_ConstantPool M_Bytecode M_Attributes M_Class M_Cesu8
  S_Lang S_Names S_Format S_Pool S_Env P_Class3 T_Class Sample T_Members S_Utf T_Jvms.
From Verif Require Import S_Conforming P_Conforming.
From Coq Require Import ZifyBool ZifyNat ZifyN.

Definition is_boot (a : str * list byte) : bool := if list_eq_dec N.eq_dec (fst a) (lit "BootstrapMethods") then true else false.

Section WithPool.
Variable major : N.
Variable cs : list constant.
Local Notation sl := (slots_of cs).
Hypothesis Hok : Forall (constant_ok none major cs) cs.
Variable wraps want : bool.

Lemma names_rows A d n : In n predefined -> exists r, In r (rows none cs A d) /\ r_name r = n.
Proof.
  intro Hin. assert (H : In n (map r_name (rows none cs A d))).
  { unfold rows. cbv zeta. cbn [map r_name]. unfold predefined in Hin. cbn [In] in Hin.
    repeat (destruct Hin as [<-|Hin]; [repeat first [left; reflexivity|right]|]). destruct Hin. }
  apply in_map_iff in H. destruct H as (r & Hr & Hi). eauto.
Qed.
Definition same_attribute (A' : list attr_info -> lang) (d : nat) (a : str * list byte) (x : attr_info) : Prop :=
  attr_name x = fst a /\ contents_lang dec sl wraps want A' d (fst a) (attr_dat x) (snd a).
Lemma attribute_covered A A' d p a w : (forall p, covers (A p) A') -> attribute none major cs A d p a w ->
  exists x, attribute_with dec sl wraps want A' d x w /\ same_attribute A' d a x.
Proof.
  intros HA (u & v & -> & (i & Hi & Ht) & lw & v1 & -> & Hl & body & v2 & -> & -> & -> & Hr). rewrite app_nil_r. destruct a as [name body]. cbn [fst snd] in *.
  assert (H : exists x, contents_lang dec sl wraps want A' d name x body).
  { destruct (in_dec (list_eq_dec N.eq_dec) name (map lit predefined)) as [Hin|Hn].
    - apply in_map_iff in Hin. destruct Hin as (n & <- & Hin). destruct (names_rows A d n Hin) as (r & Hin' & <-).
      apply (cov_row major cs Hok wraps want A A' HA d r Hin'). apply Hr; auto.
    - exists (AOther body). split; [reflexivity|exact Hn]. }
  destruct H as (x & Hx). exists (mk_attr name x). split; [|split; auto]. exists u, (lw ++ body). split; auto. split.
  - exists i. split; auto. apply text_utf8, Ht.
  - exists lw, body. auto.
Qed.
Lemma many_key {K A} (G : K -> lang) (F : A -> lang) (R : K -> A -> Prop) : (forall k w, G k w -> exists a, F a w /\ R k a) ->
  forall ks w, many G ks w -> exists l, many F l w /\ Forall2 R ks l.
Proof.
  intro HG. induction ks as [|k ks IH]; intros w H; cbn [many] in H.
  - exists []. split; auto.
  - destruct H as (u & v & -> & Hu & Hv). destruct (HG _ _ Hu) as (a & Ha & Hk), (IH _ Hv) as (l & Hl & Hm).
    exists (a :: l). split; [exists u, v; auto|constructor; auto].
Qed.
Lemma forall2_length {A B} (R : A -> B -> Prop) l l' : Forall2 R l l' -> length l = length l'.
Proof. induction 1; cbn; auto. Qed.
Lemma table_key {K A} (G : K -> lang) (F : A -> lang) (R : K -> A -> Prop) : (forall k w, G k w -> exists a, F a w /\ R k a) ->
  forall cnt ks w, table cnt G ks w -> exists l, table cnt F l w /\ Forall2 R ks l.
Proof.
  intros HG cnt ks w (u & v & -> & Hu & Hv). destruct (many_key G F R HG ks v Hv) as (l & Hl & Hf). exists l. split; auto.
  exists u, v. rewrite <- (forall2_length _ _ _ Hf). auto.
Qed.
Lemma table_covered d : forall p l w, attribute_table none major cs d p l w ->
  exists xs, attributes_lang dec sl wraps want d xs w /\ exists A' d', Forall2 (same_attribute A' d') l xs.
Proof.
  induction d as [|d IH]; intros p l w H; [destruct H|]. cbn [attribute_table] in H.
  destruct (table_key _ (attribute_with dec sl wraps want (attributes_lang dec sl wraps want d) d) (same_attribute (attributes_lang dec sl wraps want d) d)
    (fun a w Ha => attribute_covered _ _ d p a w (fun p w Hw => match Hw with ex_intro _ l Hl => match IH p l w Hl with ex_intro _ xs (conj H1 _) => ex_intro _ xs H1 end end) Ha)
    u2 l w H) as (xs & H1 & H2). exists xs. split; [exact H1|eauto].
Qed.
Lemma tables_covered d p : covers (attribute_tables none major cs d p) (attributes_lang dec sl wraps want d).
Proof. intros w (l & Hl). destruct (table_covered d p l w Hl) as (xs & H & _). eauto. Qed.

Lemma boot_contents A' d name x body : contents_lang dec sl wraps want A' d name x body ->
  (if is_boot (name, body) then exists l, x = ABootstrapMethods l /\ (u2 (N.of_nat (length l)) +++ fun _ => True) body else forall l, x <> ABootstrapMethods l).
Proof.
  intros [Hc Hn]. unfold is_boot. cbn [fst]. destruct (list_eq_dec N.eq_dec name (lit "BootstrapMethods")) as [-> |Hne].
  - destruct x; try (exfalso; revert Hn; vm_compute; discriminate).
    + exists l. split; auto. destruct Hc as (u & v & -> & Hu & _). exists u, v. auto.
    + exfalso. apply Hn. vm_compute. tauto.
  - intros l ->. apply Hne. exact Hn.
Qed.
Definition boot_of (a : attr_info) : list (list bootstrap_method) := match attr_dat a with ABootstrapMethods l => [l] | _ => [] end.
Lemma boots_related A' d l xs : Forall2 (same_attribute A' d) l xs ->
  Forall2 (fun body l => (u2 (N.of_nat (length l)) +++ fun _ => True) body) (map snd (filter is_boot l)) (flat_map boot_of xs).
Proof.
  induction 1 as [|[name body] [xn x] l xs [Hn Hc] _ IH]; cbn [filter flat_map]; [constructor|]. cbn [fst snd attr_name attr_dat] in *.
  apply boot_contents in Hc. destruct (is_boot (name, body)).
  - destruct Hc as (bl & -> & Hu). cbn [map snd boot_of attr_dat app]. constructor; auto.
  - replace (boot_of (mk_attr xn x)) with (@nil (list bootstrap_method)); [exact IH|]. unfold boot_of. cbn [attr_dat]. destruct x; auto. exfalso. eapply Hc. reflexivity.
Qed.

Lemma field_covered d f w : field_entry none major cs d f w -> exists x, field_lang dec sl wraps want d x w
  /\ f = (f_name x, field_text (f_descriptor x)).
Proof.
  intros (w1 & v & -> & H1 & w2 & v2 & -> & (i & Hi & Ht) & w3 & v3 & -> & [-> Hun] & w4 & v4 & -> & (j & Hj & Hd) & w5 & v5 & -> & [-> (fd & He & Hf)] & H6).
  destruct (covers_keep field_bits _ H1) as (fl & Hfl), (tables_covered d InField _ H6) as (xs & Hxs). destruct f as [name desc]. cbn [fst snd] in *. subst desc.
  exists (mk_field fl name fd xs). split; auto. exists w1, (w2 ++ w4 ++ v5). split; auto. split; auto. exists w2, (w4 ++ v5). split; auto. split.
  - exists i. split; auto. split; auto. apply text_utf8, Ht.
  - exists w4, v5. split; auto. split; auto. exists j. split; auto. exists (field_text fd). split; [apply text_utf8, Hd|].
    split; [apply field_type_valid, Hf|]. exists []. rewrite app_nil_r. reflexivity.
Qed.
Lemma method_covered d b m w : method_entry none major cs d b m w -> exists x, method_lang dec sl wraps want d b x w
  /\ m = (m_name x, method_text (m_descriptor x)) /\ method_rules major x.
Proof.
  intros (w1 & v & -> & H1 & w2 & v2 & -> & (i & Hi & Ht) & w3 & v3 & -> & [-> Hun] & w4 & v4 & -> & (j & Hj & Hd) & w5 & v5 & -> & [-> (md & He & Hm & Hr1 & Hr2)] & H6).
  destruct (covers_keep method_bits _ H1) as (fl & Hfl), (tables_covered d InMethod _ H6) as (xs & Hxs). destruct m as [name desc]. cbn [fst snd] in *. subst desc.
  exists (mk_method fl name md xs). split; [|split; [reflexivity|]].
  - exists w1, (w2 ++ w4 ++ v5). split; auto. split; auto. exists w2, (w4 ++ v5). split; auto. split.
    + exists i. split; auto. split; [apply text_utf8, Ht|exact Hun].
    + exists w4, v5. split; auto. split; auto. exists j. split; auto. exists (method_text md). split; [apply text_utf8, Hd|].
      split; [apply method_type_valid, Hm|]. exists []. rewrite app_nil_r. auto.
  - unfold method_rules. cbn [m_name m_descriptor]. split; [auto|]. intro Hc. split; auto.
Qed.
Lemma own_class_at i : own_class none cs i -> exists s, that (class_at dec sl) class_name i s.
Proof.
  intros (n & s & Hn & Ht & Hb & Ha). exists s. split; [exists n; split; auto; apply text_utf8, Ht|].
  apply P_Jvms.class_name_split. split; auto. apply angles, Ha.
Qed.
End WithPool.

Lemma fills_total wraps cs : forall i, i + total cs < 65536 -> fills wraps (i + total cs) i cs.
Proof.
  induction cs as [|c cs IH]; intros i H; cbn [total fold_right fills] in *; [lia|]. fold (total cs) in *.
  assert (1 <= width c) by (unfold width; destruct (is_wide c); lia). split; [lia|].
  destruct (N.ltb_spec (i + width c) 65536); [|lia]. replace (i + (width c + total cs)) with (i + width c + total cs) by lia. apply IH. lia.
Qed.
Lemma keys_nodup {A B K} (R : K -> A -> Prop) (key : A -> B) (h : B -> K) ks l : (forall k a, R k a -> k = h (key a)) ->
  Forall2 R ks l -> NoDup ks -> NoDup (map key l).
Proof.
  intros HR HF HN. apply (NoDup_map_inv h). replace (map h (map key l)) with ks; auto.
  induction HF as [|k a ks l Hka _ IH]; auto. cbn [map]. inversion HN; subst. rewrite <- IH by auto. f_equal. apply HR, Hka.
Qed.

Theorem conforming_class want bs : conforming none bs -> forall wraps, exists c, class_format dec wraps want c bs.
Proof.
  intros (d & minor & major & cs & flags & super & ifs & fs & ms & atts & Hw & Hok & Hsup & Hif & Hfs & Hms & Hmod & Hboot) wraps.
  destruct Hw as (wm & v & -> & Hm & wmi & v1 & -> & Hmi & wma & v2 & -> & Hma & wc & v3 & -> & Hc & wcs & v4 & -> & Hcs & wfl & v5 & -> & Hfl
    & wt & v6 & -> & (it & Hit & Ht) & ws & v7 & -> & Hs & wif & v8 & -> & Hwif & wf & v9 & -> & Hwf & wms & wat & -> & Hwms & Hat).
  destruct (own_class_at cs it Ht) as (this & Hthis).
  assert (Hsuper : exists so, opt_ref (that (class_at dec (slots_of cs)) class_name) so ws /\ (super = 0 -> so = None)).
  { destruct (N.eq_dec super 0) as [-> |Hne]; [exists None; auto|]. destruct Hsup as [Hsup|Hsup]; [contradiction|].
    destruct (own_class_at cs _ Hsup) as (s & Hs'). exists (Some s). split; [exists super; auto|contradiction]. }
  destruct Hsuper as (so & Hso & Hso0).
  assert (Hinter : exists l, table u2 (ref (that (class_at dec (slots_of cs)) class_name)) l wif /\ length l = length ifs).
  { destruct Hwif as (a & b & -> & Ha & Hb).
    assert (H : exists l, many (ref (that (class_at dec (slots_of cs)) class_name)) l b /\ length l = length ifs).
    { clear - Hb Hif. revert b Hb. induction ifs as [|i ifs IH]; intros b Hb; [exists []; auto|]. destruct Hb as (x & y & -> & Hx & Hy).
      apply Forall_cons_iff in Hif. destruct Hif as [Hi Hif]. destruct (own_class_at cs _ Hi) as (s & Hs). destruct (IH Hif _ Hy) as (l & Hl & Hlen).
      exists (s :: l). split; [|cbn; lia]. exists x, y. split; auto. split; auto. exists i. auto. }
    destruct H as (l & Hl & Hlen). exists l. split; auto. exists a, b. rewrite Hlen. auto. }
  destruct Hinter as (inter & Hinter & Hilen).
  destruct (table_key _ _ _ (fun f w H => field_covered major cs Hok wraps want d f w H) _ _ _ Hwf) as (fields' & Hfields & Hff).
  destruct (table_key _ _ _ (fun f w H => method_covered major cs Hok wraps want d (N.testbit flags 9) f w H) _ _ _ Hwms) as (methods' & Hmethods & Hmf).
  destruct (table_covered major cs Hok wraps want d InClass atts wat Hat) as (xs & Hxs & A' & d' & Hsame).
  set (c := mk_class major minor (pool_of dec (slots_of cs)) (N.land flags class_bits) this so inter fields' methods' xs).
  exists c, d, cs.
  assert (Hbit9 : N.testbit (access_flags c) ACC_INTERFACE_bit = N.testbit flags 9).
  { cbn [access_flags c]. rewrite N.land_spec. apply Bool.andb_true_r. }
  split; [|split; [reflexivity|split; [|split; [|split; [|split]]]]].
  - rewrite Hbit9. cbn [access_flags this_class super_class interfaces fields methods class_attributes minor_version major_version c].
    exists wm. eexists. split; [reflexivity|]. split; auto. exists wmi. eexists. split; [reflexivity|]. split; auto.
    exists wma. eexists. split; [reflexivity|]. split; auto. exists (wc ++ wcs). eexists. split; [rewrite <- app_assoc; reflexivity|]. split.
    { exists (1 + total cs). split; [exists wc, wcs; auto|]. split; [|exact (pool_valid major cs Hok)]. apply fills_total.
      destruct Hc as [Hl Hc]. pose proof (P_Reads.be_bound wc) as Hb. rewrite Hl, Hc in Hb. exact Hb. }
    exists wfl. eexists. split; [reflexivity|]. split; [exists flags; split; auto; intro bit; apply N.land_spec|].
    exists wt. eexists. split; [reflexivity|]. split; [exists it; auto|].
    exists ws. eexists. split; [reflexivity|]. split; auto. exists wif. eexists. split; [reflexivity|]. split; auto.
    exists wf. eexists. split; [reflexivity|]. split; auto. exists wms. eexists. split; [reflexivity|]. split; auto.
  - cbn [fields c]. eapply (keys_nodup _ (fun f => (f_name f, f_descriptor f)) (fun k => (fst k, field_text (snd k)))); [|exact Hff|exact Hfs].
    cbn [fst snd]. auto.
  - cbn [methods c]. eapply (keys_nodup _ (fun f => (m_name f, m_descriptor f)) (fun k => (fst k, method_text (snd k)))); [|exact Hmf|exact Hms].
    cbn [fst snd]. intros k a [H _]. exact H.
  - cbn [methods major_version c]. clear - Hmf. induction Hmf as [|k m ms ms' [_ H] _ IH]; constructor; auto.
  - intro Hbit. cbn [access_flags c] in Hbit. rewrite N.land_spec in Hbit. apply Bool.andb_true_iff in Hbit. destruct Hbit as [Hbit _].
    destruct (Hmod Hbit) as (H1 & H2 & H3 & -> & -> & ->). cbn [major_version access_flags super_class interfaces fields methods c].
    split; auto. split; auto. split; auto. inversion Hff; subst. inversion Hmf; subst. destruct inter; [auto|discriminate Hilen].
  - intros b nt Hin. destruct (Hboot b nt Hin) as (w & k & Hf & Hk & Hlt). apply boots_related in Hsame. change (map snd (filter is_boot atts) = [w]) in Hf. rewrite Hf in Hsame.
    change (bootstrap_tables c) with (flat_map boot_of xs). destruct (flat_map boot_of xs) as [|l [|]]; inversion Hsame as [|? ? ? ? Hl Hnil]; subst; [|inversion Hnil].
    exists l. split; auto. destruct Hl as (a & r & -> & [Ha1 Ha2] & _), Hk as (a' & r' & He & [Ha1' Ha2'] & _).
    destruct a as [|x [|y [|]]]; try discriminate Ha1. destruct a' as [|x' [|y' [|]]]; try discriminate Ha1'. injection He as -> -> _. lia.
Qed.
