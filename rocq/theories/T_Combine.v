(** * Property theorems: rows of two classes over the same constants can be put into one file (C74).

    Vocabulary: [S_Combine], [S_Rewrite] ([select], [counted], [class_with]), [S_Format], [S_Pool], [S_Env]. *)
From Verif Require Import Base M_Names M_Descriptors M_ConstantPool M_Bytecode M_Attributes M_Class M_Cesu8 Data Sample
  S_Lang S_Names S_Format S_Pool S_Within S_Env S_Rewrite S_Combine P_Reads P_Tac P_Pool4 P_Attr3 P_Class P_Class2 P_Class3 P_Layout P_Within T_Class T_Members T_Rewrite T_Rewrite2.
From Coq Require Import Permutation ZifyBool ZifyNat ZifyN.

(** ** Tables whose rows come from two tables *)
Lemma select_some_length {A} ks (l : list A) : (forall k, In k ks -> (k < length l)%nat) -> length (select ks l) = length ks.
Proof.
  induction ks as [|k ks IH]; intro H; [reflexivity|]. destruct (select_row k l) as (a & Ha); [apply H; left; auto|].
  rewrite (select_cons _ _ _ _ Ha). cbn. f_equal. apply IH. intros j Hj. apply H. right. auto.
Qed.
Lemma table_pieces {A} (F : A -> lang) l w : table u2 F l w ->
  exists ws, w = counted ws /\ length ws = length l /\ Forall2 F l ws.
Proof.
  intros (nw & v & -> & Hn & Hv). apply many_concat in Hv. destruct Hv as (ws & Hws & ->).
  assert (Hlt : N.of_nat (length l) < 65536) by (apply uint_bound in Hn; cbn in Hn; lia).
  assert (Hlen : length ws = length l) by (clear - Hws; induction Hws; cbn; congruence).
  exists ws. unfold counted. rewrite Hlen. split; auto. f_equal. eapply uint_bytes; [exact Hn|apply two_bytes_u2; auto].
Qed.
Lemma table_some {A} (F : A -> lang) l ws ks : Forall2 F l ws -> some_rows (length ws) ks ->
  table u2 F (select ks l) (counted (select ks ws)).
Proof.
  intros H [Hk Hlt]. assert (Hlen : length ws = length l) by (clear - H; induction H; cbn; congruence).
  unfold table, counted. rewrite !select_some_length by (rewrite <- ?Hlen; auto). apply cat_intro; [apply two_bytes_u2; auto|].
  apply many_concat. exists (select ks ws). split; auto. apply select_Forall2, H.
Qed.

(** ** Tables say what their rows are *)
Lemma many_det {A} E (F : A -> lang) (ok : A -> Prop) :
  (forall a b u v u' v', fits E (u ++ v) -> u ++ v = u' ++ v' -> ok a -> ok b -> F a u -> F b u' -> a = b /\ u = u' /\ v = v') ->
  forall l l' u v u' v', fits E (u ++ v) -> u ++ v = u' ++ v' -> length l = length l' -> Forall ok l -> Forall ok l' ->
    many F l u -> many F l' u' -> l = l' /\ u = u' /\ v = v'.
Proof.
  intros Hdet. induction l as [|a l IH]; intros [|b l'] u v u' v' Hfit He Hlen Hok Hok' H H'; try discriminate.
  - unfold many, eps in H, H'. subst u u'. auto.
  - destruct H as (p & q & -> & Hp & Hq), H' as (p' & q' & -> & Hp' & Hq'). rewrite <- !app_assoc in *. inversion Hok; subst. inversion Hok'; subst.
    destruct (Hdet a b p (q ++ v) p' (q' ++ v')) as (-> & -> & He1); auto.
    destruct (IH l' q v q' v') as (-> & -> & ->); auto. eapply fits_suffix; eauto.
Qed.
Lemma table_det {A} E (F : A -> lang) (ok : A -> Prop) :
  (forall a b u v u' v', fits E (u ++ v) -> u ++ v = u' ++ v' -> ok a -> ok b -> F a u -> F b u' -> a = b /\ u = u' /\ v = v') ->
  forall l l' u v u' v', fits E (u ++ v) -> u ++ v = u' ++ v' -> Forall ok l -> Forall ok l' ->
    table u2 F l u -> table u2 F l' u' -> l = l' /\ u = u' /\ v = v'.
Proof.
  intros Hdet l l' u v u' v' Hfit He Hok Hok' (p & q & -> & Hp & Hq) (p' & q' & -> & Hp' & Hq'). rewrite <- !app_assoc in *.
  destruct (reads_det E _ _ _ _ _ _ _ _ (reads_u2 E) Hfit He Hp Hp') as (Hn & -> & He1). apply fits_suffix in Hfit.
  destruct (many_det E F ok Hdet l l' q v q' v') as (-> & -> & ->); auto. lia.
Qed.
Section Rows.
Variable E : env.
Variable cs : list constant.
Variable opts : bool.
Lemma field_det a b u v u' v' : fits E (u ++ v) -> u ++ v = u' ++ v' ->
  field_lang (cesu8 E) (slots_of cs) (wrapping E) opts (stack E) a u -> field_lang (cesu8 E) (slots_of cs) (wrapping E) opts (stack E) b u' ->
  a = b /\ u = u' /\ v = v'.
Proof.
  intros Hfit He Ha Hb.
  assert (H1 : forall x w, field_lang (cesu8 E) (slots_of cs) (wrapping E) opts (stack E) x w ->
    length [x] = 1%nat /\ fresh_ids [] (map field_id [x]) /\ many (field_lang (cesu8 E) (slots_of cs) (wrapping E) opts (stack E)) [x] w).
  { intros x w Hx. split; [reflexivity|]. split; [split; [repeat constructor; auto|intros ? _ []]|]. exists w, []. rewrite app_nil_r. split; [reflexivity|]. split; [exact Hx|reflexivity]. }
  destruct (reads_det E _ _ u v u' v' [a] [b] (reads_fields_loop E cs opts 1 0 []) Hfit He (H1 _ _ Ha) (H1 _ _ Hb)) as (E1 & ? & ?).
  split; [congruence|auto].
Qed.
Lemma method_det ii a b u v u' v' : fits E (u ++ v) -> u ++ v = u' ++ v' -> method_rules 0 a -> method_rules 0 b ->
  method_lang (cesu8 E) (slots_of cs) (wrapping E) opts (stack E) ii a u -> method_lang (cesu8 E) (slots_of cs) (wrapping E) opts (stack E) ii b u' ->
  a = b /\ u = u' /\ v = v'.
Proof.
  intros Hfit He Ra Rb Ha Hb.
  assert (H1 : forall x w, method_rules 0 x -> method_lang (cesu8 E) (slots_of cs) (wrapping E) opts (stack E) ii x w ->
    length [x] = 1%nat /\ fresh_ids [] (map method_id [x]) /\ Forall (method_rules 0) [x] /\ many (method_lang (cesu8 E) (slots_of cs) (wrapping E) opts (stack E) ii) [x] w).
  { intros x w Rx Hx. split; [reflexivity|]. split; [split; [repeat constructor; auto|intros ? _ []]|]. split; [auto|].
    exists w, []. rewrite app_nil_r. split; [reflexivity|]. split; [exact Hx|reflexivity]. }
  destruct (reads_det E _ _ u v u' v' [a] [b] (reads_methods_loop E cs opts ii 0 1 0 []) Hfit He (H1 _ _ Ra Ha) (H1 _ _ Rb Hb)) as (E1 & ? & ?).
  split; [congruence|auto].
Qed.
Lemma body_says major c c' w : (2 <= stack E)%nat -> fits E w -> Forall (valid_constant (cesu8 E) (slots_of cs) major) cs ->
  Forall (method_rules 0) (methods c) -> Forall (method_rules 0) (methods c') -> body E opts cs c w -> body E opts cs c' w ->
  access_flags c = access_flags c' /\ this_class c = this_class c' /\ super_class c = super_class c' /\ interfaces c = interfaces c'
  /\ fields c = fields c' /\ methods c = methods c' /\ class_attributes c = class_attributes c'.
Proof.
  intros Hstk Hfit Hval Hr0 Hr0'
    (w0 & r0 & -> & (f & Hf & Hb) & w1 & r1 & -> & H1 & w2 & r2 & -> & H2 & w3 & r3 & -> & H3 & w4 & r4 & -> & H4 & w5 & r5 & -> & H5 & H6)
    (w0' & r0' & He & (f' & Hf' & Hb') & w1' & r1' & -> & H1' & w2' & r2' & -> & H2' & w3' & r3' & -> & H3' & w4' & r4' & -> & H4' & w5' & r5' & -> & H5' & H6').
  destruct (reads_det E _ _ _ _ _ _ _ _ (reads_u2 E) Hfit He Hf Hf') as (-> & -> & He1). apply fits_suffix in Hfit.
  assert (Hfl : access_flags c = access_flags c') by (apply N.bits_inj; intro b; rewrite Hb, Hb'; reflexivity).
  destruct (reads_det E _ _ _ _ _ _ _ _ (reads_this_class E cs major Hval) Hfit He1 H1 H1') as (E1 & -> & He2). apply fits_suffix in Hfit.
  destruct (reads_det E _ _ _ _ _ _ _ _ (reads_super_class E cs major Hval) Hfit He2 H2 H2') as (E2 & -> & He3). apply fits_suffix in Hfit.
  destruct (reads_det E _ _ _ _ _ _ _ _ (reads_interfaces E cs major Hval) Hfit He3 H3 H3') as (E3 & -> & He4). apply fits_suffix in Hfit.
  destruct (table_det E _ (fun _ => True) (fun a b u v u' v' hf he _ _ ha hb => field_det a b u v u' v' hf he ha hb) _ _ _ _ _ _ Hfit He4
    ltac:(apply Forall_forall; auto) ltac:(apply Forall_forall; auto) H4 H4') as (E4 & -> & He5). apply fits_suffix in Hfit.
  rewrite <- Hfl in H5'.
  destruct (table_det E _ (method_rules 0) (method_det _) _ _ _ _ _ _ Hfit He5 Hr0 Hr0' H5 H5') as (E5 & -> & He6). apply fits_suffix in Hfit. subst r5'.
  rewrite <- (app_nil_r r5) in Hfit.
  destruct (reads_det E _ _ _ [] _ [] _ _ (reads_attributes E cs opts (stack E)) Hfit eq_refl H6 H6') as (E6 & _). repeat (split; [assumption|]). assumption.
Qed.
End Rows.

(** ** Two classes *)
(** Everything but the rules about the class as a whole. *)
Definition parts_lang (dec : list byte -> option str) (wraps want : bool) (d : nat) (cs : list constant) (c : class_file) : lang := fun bs =>
  (u4 0xCAFEBABE +++ u2 (minor_version c) +++ u2 (major_version c) +++ pool_lang dec wraps (major_version c) cs
   +++ flags_keep class_bits (access_flags c)
   +++ ref (that (class_at dec (slots_of cs)) class_name) (this_class c)
   +++ opt_ref (that (class_at dec (slots_of cs)) class_name) (super_class c)
   +++ table u2 (ref (that (class_at dec (slots_of cs)) class_name)) (interfaces c)
   +++ table u2 (field_lang dec (slots_of cs) wraps want d) (fields c)
   +++ table u2 (method_lang dec (slots_of cs) wraps want d (N.testbit (access_flags c) ACC_INTERFACE_bit)) (methods c)
   +++ attributes_lang dec (slots_of cs) wraps want d (class_attributes c)) bs
  /\ constant_pool c = pool_of dec (slots_of cs).
Lemma parts_class dec wraps want d cs c bs : class_lang dec wraps want d cs c bs <-> parts_lang dec wraps want d cs c bs /\ whole_rules cs c.
Proof.
  unfold class_lang, parts_lang. split.
  - intros (H1 & H2 & H3 & H4 & H5 & H6 & H7). split; [auto|constructor; auto].
  - intros [[H1 H2] [H3 H4 H5 H6 H7]]. auto 10.
Qed.
Lemma parts_starts dec wraps want d cs c bs : parts_lang dec wraps want d cs c bs ->
  exists count ws rest, starts_with_pool bs (minor_version c) (major_version c) count cs ws rest
   /\ fills wraps count 1 cs /\ Forall (valid_constant dec (slots_of cs) (major_version c)) cs
   /\ (flags_keep class_bits (access_flags c)
       +++ ref (that (class_at dec (slots_of cs)) class_name) (this_class c)
       +++ opt_ref (that (class_at dec (slots_of cs)) class_name) (super_class c)
       +++ table u2 (ref (that (class_at dec (slots_of cs)) class_name)) (interfaces c)
       +++ table u2 (field_lang dec (slots_of cs) wraps want d) (fields c)
       +++ table u2 (method_lang dec (slots_of cs) wraps want d (N.testbit (access_flags c) ACC_INTERFACE_bit)) (methods c)
       +++ attributes_lang dec (slots_of cs) wraps want d (class_attributes c)) rest.
Proof.
  intros [H _]. destruct H as (w0 & v0 & -> & Hm & w1 & v1 & -> & Hminor & w2 & v2 & -> & Hmajor & w3 & v3 & -> & Hcs & Hrest).
  destruct Hcs as (count & (u & v & -> & Hu & Hv) & Hf & Hval). apply many_concat in Hv. destruct Hv as (ws & Hws & ->).
  exists count, ws, v3. split; [|auto]. exists w0, (w1 ++ w2), u. split; auto. split; [apply cat_intro; auto|]. split; auto.
  split; auto. rewrite <- !app_assoc. reflexivity.
Qed.
Lemma parts_det E opts cs c cs' c' bs : (2 <= stack E)%nat -> fits E bs ->
  Forall (method_rules 0) (methods c) -> Forall (method_rules 0) (methods c') ->
  parts_lang (cesu8 E) (wrapping E) opts (stack E) cs c bs -> parts_lang (cesu8 E) (wrapping E) opts (stack E) cs' c' bs ->
  cs = cs' /\ c = c'.
Proof.
  intros Hstk Hfit Hr Hr' Hc Hc'.
  destruct (parts_starts _ _ _ _ _ _ _ Hc) as (count & ws & rest & S1 & Hf & Hval & Hrest).
  destruct (parts_starts _ _ _ _ _ _ _ Hc') as (count' & ws' & rest' & S2 & Hf' & Hval' & Hrest').
  destruct (pool_unique _ _ _ _ _ _ _ _ _ _ _ _ _ _ S1 S2 Hf Hf') as (Hmi & Hma & <- & <- & <- & <-). split; auto.
  destruct S1 as (m & vv & n & _ & _ & _ & -> & _). do 4 apply fits_suffix in Hfit.
  destruct Hc as (_ & Hp), Hc' as (_ & Hp').
  destruct (body_says E cs opts _ c c' rest Hstk Hfit Hval Hr Hr' Hrest Hrest') as (E1 & E2 & E3 & E4 & E5 & E6 & E7).
  destruct c, c'; cbn in *. congruence.
Qed.
(** Where the rows of a class are. *)
Lemma class_pieces dec wraps want d cs c bs : class_lang dec wraps want d cs c bs ->
  exists head wi wf wm wa, bs = head ++ counted wi ++ counted wf ++ counted wm ++ counted wa
    /\ Forall2 (ref (that (class_at dec (slots_of cs)) class_name)) (interfaces c) wi
    /\ Forall2 (field_lang dec (slots_of cs) wraps want d) (fields c) wf
    /\ Forall2 (method_lang dec (slots_of cs) wraps want d (N.testbit (access_flags c) ACC_INTERFACE_bit)) (methods c) wm
    /\ (exists k, d = S k /\ Forall2 (attribute_with dec (slots_of cs) wraps want (attributes_lang dec (slots_of cs) wraps want k) k) (class_attributes c) wa)
    /\ forall i f m a vi vf vm va,
       table u2 (ref (that (class_at dec (slots_of cs)) class_name)) i vi ->
       table u2 (field_lang dec (slots_of cs) wraps want d) f vf ->
       table u2 (method_lang dec (slots_of cs) wraps want d (N.testbit (access_flags c) ACC_INTERFACE_bit)) m vm ->
       attributes_lang dec (slots_of cs) wraps want d a va ->
       parts_lang dec wraps want d cs (class_with i f m a c) (head ++ vi ++ vf ++ vm ++ va).
Proof.
  intros ((w0 & r0 & -> & H0 & w1 & r1 & -> & H1 & w2 & r2 & -> & H2 & w3 & r3 & -> & H3 & w4 & r4 & -> & H4 & w5 & r5 & -> & H5 & w6 & r6 & -> & H6
    & w7 & r7 & -> & H7 & w8 & r8 & -> & H8 & w9 & r9 & -> & H9 & H10) & Hpool & _).
  destruct (table_pieces _ _ _ H7) as (wi & -> & _ & Ri). destruct (table_pieces _ _ _ H8) as (wf & -> & _ & Rf).
  destruct (table_pieces _ _ _ H9) as (wm & -> & _ & Rm). destruct d as [|k]; [destruct H10|].
  pose proof H10 as H11. cbn [attributes_lang] in H11. destruct (table_pieces _ _ _ H11) as (wa & -> & _ & Ra).
  exists (w0 ++ w1 ++ w2 ++ w3 ++ w4 ++ w5 ++ w6), wi, wf, wm, wa. split; [rewrite <- !app_assoc; reflexivity|].
  split; auto. split; auto. split; auto. split; [eauto|]. intros i f m a vi vf vm va Hi Hf Hm Ha. split; [|exact Hpool].
  cbn [class_with minor_version major_version constant_pool access_flags this_class super_class interfaces fields methods class_attributes].
  rewrite <- !app_assoc. do 9 (apply cat_intro; [assumption|]). apply cat_intro; assumption.
Qed.
Lemma rules_0_all major l : Forall (method_rules major) l -> Forall (method_rules 0) l.
Proof. apply Forall_impl. intro. apply rules_0. Qed.

(** Interfaces, fields, methods and attributes of two classes with the same constants, both interfaces or
    both not, may be mixed: the file denotes the class with the chosen rows, and nothing else, and it is
    accepted exactly if that class meets the rules about the class as a whole. *)
Theorem C74_combined E opts bs c bs2 c2 cs :
  ample E bs -> ample E bs2 -> parse_class_with_options E opts bs = Ok c -> parse_class_with_options E opts bs2 = Ok c2 ->
  constants_of E bs cs -> constants_of E bs2 cs -> N.testbit (access_flags c) 9 = N.testbit (access_flags c2) 9 ->
  exists head wi wf wm wa head2 wi2 wf2 wm2 wa2,
    bs = head ++ counted wi ++ counted wf ++ counted wm ++ counted wa
    /\ bs2 = head2 ++ counted wi2 ++ counted wf2 ++ counted wm2 ++ counted wa2
    /\ length wi = length (interfaces c) /\ length wf = length (fields c) /\ length wm = length (methods c) /\ length wa = length (class_attributes c)
    /\ length wi2 = length (interfaces c2) /\ length wf2 = length (fields c2) /\ length wm2 = length (methods c2) /\ length wa2 = length (class_attributes c2)
    /\ forall ki kf km ka,
       some_rows (length (wi ++ wi2)) ki -> some_rows (length (wf ++ wf2)) kf ->
       some_rows (length (wm ++ wm2)) km -> some_rows (length (wa ++ wa2)) ka ->
       let bs' := head ++ counted (select ki (wi ++ wi2)) ++ counted (select kf (wf ++ wf2))
                    ++ counted (select km (wm ++ wm2)) ++ counted (select ka (wa ++ wa2)) in
       let c' := class_with (select ki (interfaces c ++ interfaces c2)) (select kf (fields c ++ fields c2))
                    (select km (methods c ++ methods c2)) (select ka (class_attributes c ++ class_attributes c2)) c in
       ample E bs' ->
       (parse_class_with_options E opts bs' = Ok c' <-> whole_rules cs c')
       /\ forall x, parse_class_with_options E opts bs' = Ok x -> x = c'.
Proof.
  intros Ha Ha2 H H2 Hcs Hcs2 Hii. pose proof (ample_sane _ _ Ha) as Hs. pose proof (ample_sane _ _ Ha2) as Hs2.
  destruct (proj1 (parse_Ok E opts (sane_stack _ _ Hs) bs c (sane_fits _ _ Hs)) H) as (cs0 & Hc).
  assert (cs0 = cs) as -> by (eapply constants_unique; [eapply class_constants; eauto|exact Hcs]).
  destruct (proj1 (parse_Ok E opts (sane_stack _ _ Hs2) bs2 c2 (sane_fits _ _ Hs2)) H2) as (cs0 & Hc2).
  assert (cs0 = cs) as -> by (eapply constants_unique; [eapply class_constants; eauto|exact Hcs2]).
  destruct (class_pieces _ _ _ _ _ _ _ Hc) as (head & wi & wf & wm & wa & Hbs & Fi & Ff & Fm & (k & Hk & Fa) & Hall).
  destruct (class_pieces _ _ _ _ _ _ _ Hc2) as (head2 & wi2 & wf2 & wm2 & wa2 & Hbs2 & Fi2 & Ff2 & Fm2 & (k2 & Hk2 & Fa2) & _).
  assert (k2 = k) as -> by congruence.
  assert (Hfl : forall A B (R : A -> B -> Prop) l l', Forall2 R l l' -> length l' = length l) by (clear; induction 1; cbn; congruence).
  exists head, wi, wf, wm, wa, head2, wi2, wf2, wm2, wa2. split; auto. split; auto.
  do 8 (split; [eapply Hfl; eassumption|]). intros ki kf km ka Ki Kf Km Ka bs' c' Ha'. pose proof (ample_sane _ _ Ha') as Hs'.
  unfold ACC_INTERFACE_bit in *. rewrite <- Hii in Fm2.
  assert (Hparts : parts_lang (cesu8 E) (wrapping E) opts (stack E) cs c' bs').
  { apply Hall.
    - apply table_some; auto. apply Forall2_app; auto.
    - apply table_some; auto. apply Forall2_app; auto.
    - apply table_some; auto. apply Forall2_app; auto.
    - rewrite Hk. cbn [attributes_lang]. apply table_some; auto. apply Forall2_app; auto. }
  assert (Hm0 : Forall (method_rules 0) (methods c')).
  { destruct Hc as (_ & _ & _ & _ & Hr & _), Hc2 as (_ & _ & _ & _ & Hr2 & _). unfold c'. cbn [class_with methods].
    apply select_Forall, Forall_app. split; eapply rules_0_all; eauto. }
  pose proof (parse_Ok E opts (sane_stack _ _ Hs') bs') as P.
  assert (Honly : forall x, parse_class_with_options E opts bs' = Ok x -> x = c' /\ whole_rules cs x).
  { intros x Hx. apply (P x (sane_fits _ _ Hs')) in Hx. destruct Hx as (cs' & Hx). apply parts_class in Hx. destruct Hx as [Hx Hw].
    destruct (parts_det E opts _ _ _ _ _ (sane_stack _ _ Hs') (sane_fits _ _ Hs') (rules_0_all _ _ (methods_fit _ _ Hw)) Hm0 Hx Hparts) as [-> ->]. auto. }
  split; [split|].
  - intro Hx. apply (Honly _ Hx).
  - intro Hw. apply (P c' (sane_fits _ _ Hs')). exists cs. apply parts_class. auto.
  - intros x Hx. apply (Honly _ Hx).
Qed.
(** All members of both: nothing but names in common is in the way. *)
Lemma select_first {A} (a b : list A) : select (seq 0 (length a)) (a ++ b) = a.
Proof.
  assert (H : forall l p, select (seq (length p) (length l)) (p ++ l ++ b) = l); [|exact (H a [])].
  induction l as [|x l IH]; intro p; [reflexivity|]. cbn [length seq].
  erewrite select_cons by (rewrite nth_error_app2, Nat.sub_diag by lia; reflexivity). f_equal.
  rewrite <- (app_length_succ p x). specialize (IH (p ++ [x])). rewrite <- app_assoc in IH. exact IH.
Qed.
Lemma first_rows n m : (n <= m)%nat -> N.of_nat n < 65536 -> some_rows m (seq 0 n).
Proof. intros Hn Hlt. split; [intros k Hk; apply in_seq in Hk; lia|]. rewrite seq_length. exact Hlt. Qed.
Theorem C74_union E opts bs c bs2 c2 cs :
  ample E bs -> ample E bs2 -> parse_class_with_options E opts bs = Ok c -> parse_class_with_options E opts bs2 = Ok c2 ->
  constants_of E bs cs -> constants_of E bs2 cs -> N.testbit (access_flags c) 9 = N.testbit (access_flags c2) 9 ->
  major_version c2 = major_version c -> N.testbit (access_flags c) 15 = false ->
  (forall f g, In f (fields c) -> In g (fields c2) -> (f_name f, f_descriptor f) <> (f_name g, f_descriptor g)) ->
  (forall m g, In m (methods c) -> In g (methods c2) -> (m_name m, m_descriptor m) <> (m_name g, m_descriptor g)) ->
  exists head wi wf wm wa head2 wi2 wf2 wm2 wa2,
    bs = head ++ counted wi ++ counted wf ++ counted wm ++ counted wa
    /\ bs2 = head2 ++ counted wi2 ++ counted wf2 ++ counted wm2 ++ counted wa2
    /\ length wf = length (fields c) /\ length wm = length (methods c) /\ length wi = length (interfaces c)
    /\ length wf2 = length (fields c2) /\ length wm2 = length (methods c2) /\ length wi2 = length (interfaces c2)
    /\ let bs' := head ++ counted (wi ++ wi2) ++ counted (wf ++ wf2) ++ counted (wm ++ wm2) ++ counted wa in
       N.of_nat (length (wi ++ wi2)) < 65536 -> N.of_nat (length (wf ++ wf2)) < 65536 -> N.of_nat (length (wm ++ wm2)) < 65536 ->
       ample E bs' ->
       parse_class_with_options E opts bs'
         = Ok (class_with (interfaces c ++ interfaces c2) (fields c ++ fields c2) (methods c ++ methods c2) (class_attributes c) c).
Proof.
  intros Ha Ha2 H H2 Hcs Hcs2 Hii Hmaj Hmod Hf Hm.
  destruct (C74_combined E opts bs c bs2 c2 cs Ha Ha2 H H2 Hcs Hcs2 Hii)
    as (head & wi & wf & wm & wa & head2 & wi2 & wf2 & wm2 & wa2 & E1 & E2 & Li & Lf & Lm & La & Li2 & Lf2 & Lm2 & La2 & Hall).
  exists head, wi, wf, wm, wa, head2, wi2, wf2, wm2, wa2. do 8 (split; [assumption|]). intros bs' Bi Bf Bm Ha'.
  pose proof (ample_sane _ _ Ha) as Hs. pose proof (ample_sane _ _ Ha2) as Hs2.
  destruct (proj1 (parse_Ok E opts (sane_stack _ _ Hs) bs c (sane_fits _ _ Hs)) H) as (cs0 & Hc).
  assert (cs0 = cs) as -> by (eapply constants_unique; [eapply class_constants; eauto|exact Hcs]).
  destruct (proj1 (parse_Ok E opts (sane_stack _ _ Hs2) bs2 c2 (sane_fits _ _ Hs2)) H2) as (cs0 & Hc2).
  assert (cs0 = cs) as -> by (eapply constants_unique; [eapply class_constants; eauto|exact Hcs2]).
  assert (Hba : N.of_nat (length (class_attributes c)) < 65536).
  { destruct (core_rows _ _ _ _ _ _ _ (proj1 (proj1 (core_class _ _ _ _ _ _ _) Hc))) as (? & ? & ? & ? & va & _ & _ & _ & _ & Lva & _ & _ & _ & Bva & _). lia. }
  apply parts_class in Hc. apply parts_class in Hc2. destruct Hc as [_ [R1 R2 R3 R4 R5]], Hc2 as [_ [Q1 Q2 Q3 Q4 Q5]].
  specialize (Hall (seq 0 (length (wi ++ wi2))) (seq 0 (length (wf ++ wf2))) (seq 0 (length (wm ++ wm2))) (seq 0 (length wa))).
  rewrite !select_all, select_first in Hall.
  assert (Hi' : length (wi ++ wi2) = length (interfaces c ++ interfaces c2)) by (rewrite !app_length; congruence).
  assert (Hf' : length (wf ++ wf2) = length (fields c ++ fields c2)) by (rewrite !app_length; congruence).
  assert (Hm' : length (wm ++ wm2) = length (methods c ++ methods c2)) by (rewrite !app_length; congruence).
  assert (Hsel : forall k, k = length (class_attributes c) -> select (seq 0 k) (class_attributes c ++ class_attributes c2) = class_attributes c)
    by (intros k ->; apply select_first).
  rewrite (Hsel _ La), Hi', Hf', Hm', !select_all in Hall. rewrite <- Hi', <- Hf', <- Hm' in Hall.
  destruct Hall as [Hiff _]; [apply first_rows; [lia|assumption]|apply first_rows; [lia|assumption]|apply first_rows; [lia|assumption]|
    apply first_rows; [rewrite app_length; lia|rewrite La; exact Hba]|exact Ha'|].
  apply Hiff. constructor; cbn [class_with fields methods major_version].
  - rewrite map_app. apply nodup_both; auto. intros x Hx Hy. apply in_map_iff in Hx, Hy. destruct Hx as (f & <- & Hin), Hy as (g & Eg & Hg).
    apply (Hf f g Hin Hg). auto.
  - rewrite map_app. apply nodup_both; auto. intros x Hx Hy. apply in_map_iff in Hx, Hy. destruct Hx as (f & <- & Hin), Hy as (g & Eg & Hg).
    apply (Hm f g Hin Hg). auto.
  - apply Forall_app. split; [assumption|]. rewrite <- Hmaj. assumption.
  - intro Hx. cbn [class_with access_flags] in Hx. unfold ACC_MODULE_bit in Hx. congruence.
  - exact R5.
Qed.
(** The sample with other flags for its first field; the sample with another name besides. *)
Definition set_byte (k : nat) (b : byte) (l : list byte) : list byte := firstn k l ++ b :: skipn (S k) l.
Definition mixed_rest : list byte := Eval vm_compute in set_byte 13 x02 sample_rest.
Definition mixed : list byte := Eval vm_compute in firstn (length sample - length sample_rest) sample ++ mixed_rest.
Definition donor_rest : list byte := Eval vm_compute in set_byte 3 x04 mixed_rest.
Definition donor : list byte := Eval vm_compute in firstn (length sample - length sample_rest) sample ++ donor_rest.
Definition donor_parsed : class_file := Eval vm_compute in
  match parse_class_with_options debug64 true donor with Ok c => c | _ => sample_parsed end.
Definition mixed_parsed : class_file := Eval vm_compute in
  match parse_class_with_options debug64 true mixed with Ok c => c | _ => sample_parsed end.
Lemma of_rest bs rest : bs = firstn (length sample - length sample_rest) sample ++ rest -> constants_of debug64 bs sample_constants.
Proof.
  intros ->. pose proof sample_starts as (m & v & n & Hm & Hv & Hn & He & Hp).
  exists (minor_version sample_parsed), (major_version sample_parsed), 57, sample_pieces, rest. split; [|exact sample_fills].
  exists m, v, n. split; auto. split; auto. split; auto. split; [|exact Hp].
  assert (Hl : length sample = length (m ++ v ++ n ++ concat sample_pieces ++ sample_rest)) by (rewrite <- He; reflexivity).
  rewrite He. rewrite He in Hl. clear He. rewrite !app_length in *.
  replace (_ - _)%nat with (length (m ++ v ++ n ++ concat sample_pieces)) by (rewrite !app_length; lia).
  rewrite !app_assoc. rewrite firstn_app, Nat.sub_diag, firstn_all. cbn [firstn]. rewrite app_nil_r. reflexivity.
Qed.
Lemma rules_hold bs c cs : ample debug64 bs -> parse_class_with_options debug64 true bs = Ok c -> constants_of debug64 bs cs -> whole_rules cs c.
Proof.
  intros Ha H Hcs. pose proof (ample_sane _ _ Ha) as Hs.
  destruct (proj1 (parse_Ok debug64 true (sane_stack _ _ Hs) bs c (sane_fits _ _ Hs)) H) as (cs0 & Hc).
  assert (cs0 = cs) as -> by (eapply constants_unique; [eapply class_constants; eauto|exact Hcs]).
  apply parts_class in Hc. apply Hc.
Qed.
(** The first field of the donor and the second one of the sample go together; the first fields of both have the same name. *)
Example C74_meets : let c2 := donor_parsed in let c := sample_parsed in
  let with_fields l := class_with (interfaces c) l (methods c) (class_attributes c) c in
  ample debug64 sample /\ ample debug64 donor
  /\ parse_class_with_options debug64 true sample = Ok c /\ parse_class_with_options debug64 true donor = Ok c2
  /\ constants_of debug64 sample sample_constants /\ constants_of debug64 donor sample_constants
  /\ N.testbit (access_flags c) 9 = N.testbit (access_flags c2) 9 /\ this_class c <> this_class c2
  /\ some_rows 4 [2; 1]%nat /\ ample debug64 mixed
  /\ map f_access_flags (select [2; 1]%nat (fields c ++ fields c2)) = [2; 2] /\ map f_access_flags (fields c) = [26; 2]
  /\ whole_rules sample_constants (with_fields (select [2; 1]%nat (fields c ++ fields c2)))
  /\ some_rows 4 [0; 2]%nat /\ ~ whole_rules sample_constants (with_fields (select [0; 2]%nat (fields c ++ fields c2))).
Proof.
  intros c2 c with_fields. split; [apply ampleb_ample; vm_compute; reflexivity|]. split; [apply ampleb_ample; vm_compute; reflexivity|].
  split; [exact sample_parse|]. split; [vm_compute; reflexivity|]. split; [exact sample_of|].
  split; [apply (of_rest donor donor_rest); vm_compute; reflexivity|]. split; [reflexivity|]. split; [vm_compute; discriminate|].
  split; [split; [intros k [<-|[<-|[]]]; lia|reflexivity]|]. split; [apply ampleb_ample; vm_compute; reflexivity|].
  split; [vm_compute; reflexivity|]. split; [vm_compute; reflexivity|].
  split; [|split; [split; [intros k [<-|[<-|[]]]; lia|reflexivity]|]].
  - apply (rules_hold mixed); [apply ampleb_ample; vm_compute; reflexivity|vm_compute; reflexivity|apply (of_rest mixed mixed_rest); vm_compute; reflexivity].
  - intros [Hn _ _ _ _]. vm_compute in Hn. inversion Hn as [|a l Hx _]. apply Hx. left. reflexivity.
Qed.
(** The sample without its second field; the sample with that field and no methods, of another name. *)
Definition one_rest : list byte := Eval vm_compute in
  firstn 10 sample_rest ++ [x00; x01] ++ firstn 16 (skipn 12 sample_rest) ++ skipn 36 sample_rest.
Definition one : list byte := Eval vm_compute in firstn (length sample - length sample_rest) sample ++ one_rest.
Definition other_rest : list byte := Eval vm_compute in
  set_byte 3 x04 (firstn 10 sample_rest) ++ [x00; x01] ++ firstn 8 (skipn 28 sample_rest) ++ [x00; x00] ++ skipn 257 sample_rest.
Definition other : list byte := Eval vm_compute in firstn (length sample - length sample_rest) sample ++ other_rest.
Definition one_parsed : class_file := Eval vm_compute in
  match parse_class_with_options debug64 true one with Ok c => c | _ => sample_parsed end.
Definition other_parsed : class_file := Eval vm_compute in
  match parse_class_with_options debug64 true other with Ok c => c | _ => sample_parsed end.
Example C74_meets_union : let c := one_parsed in let c2 := other_parsed in
  ample debug64 one /\ ample debug64 other
  /\ parse_class_with_options debug64 true one = Ok c /\ parse_class_with_options debug64 true other = Ok c2
  /\ constants_of debug64 one sample_constants /\ constants_of debug64 other sample_constants
  /\ N.testbit (access_flags c) 9 = N.testbit (access_flags c2) 9 /\ major_version c2 = major_version c /\ N.testbit (access_flags c) 15 = false
  /\ (forall f g, In f (fields c) -> In g (fields c2) -> (f_name f, f_descriptor f) <> (f_name g, f_descriptor g))
  /\ (forall m g, In m (methods c) -> In g (methods c2) -> (m_name m, m_descriptor m) <> (m_name g, m_descriptor g))
  /\ length (fields c) = 1%nat /\ length (fields c2) = 1%nat /\ this_class c <> this_class c2.
Proof.
  intros c c2. split; [apply ampleb_ample; vm_compute; reflexivity|]. split; [apply ampleb_ample; vm_compute; reflexivity|].
  split; [vm_compute; reflexivity|]. split; [vm_compute; reflexivity|].
  split; [apply (of_rest one one_rest); vm_compute; reflexivity|]. split; [apply (of_rest other other_rest); vm_compute; reflexivity|].
  split; [reflexivity|]. split; [reflexivity|]. split; [reflexivity|].
  split; [intros f g [<-|[]] [<-|[]]; vm_compute; discriminate|]. split; [intros m g _ []|].
  split; [reflexivity|]. split; [reflexivity|vm_compute; discriminate].
Qed.
