(** * Property theorems: removing and reordering members (C60).

    Vocabulary: [S_Rewrite], [S_Format], [S_Pool], [S_Env]. *)
From Verif Require Import Base M_Names M_Descriptors M_ConstantPool M_Bytecode M_Attributes M_Class M_Cesu8 Data Sample
  S_Lang S_Names S_Format S_Pool S_Within S_Env S_Rewrite P_Reads P_Tac P_Pool4 P_Class2 P_Class3 P_Layout P_Within T_Class T_Members T_Rewrite.
From Coq Require Import Permutation ZifyBool ZifyNat ZifyN.

(** ** Selections *)
Lemma select_cons {A} k ks (l : list A) a : nth_error l k = Some a -> select (k :: ks) l = a :: select ks l.
Proof. intro H. unfold select. cbn [flat_map]. rewrite H. reflexivity. Qed.
Lemma row_cons n k ks : row_numbers n (k :: ks) -> (k < n)%nat /\ ~ In k ks /\ row_numbers n ks.
Proof. intros [Hn Hb]. inversion Hn; subst. split; [apply Hb; left; auto|]. split; auto. split; auto. intros j Hj. apply Hb. right. auto. Qed.
Lemma select_row {A} k (l : list A) : (k < length l)%nat -> exists a, nth_error l k = Some a.
Proof. intro H. destruct (nth_error l k) eqn:He; eauto. apply nth_error_None in He. lia. Qed.
Lemma select_length {A} ks (l : list A) : row_numbers (length l) ks -> length (select ks l) = length ks.
Proof.
  induction ks as [|k ks IH]; intro H; [reflexivity|]. apply row_cons in H. destruct H as (Hk & _ & H).
  destruct (select_row _ _ Hk) as (a & Ha). rewrite (select_cons _ _ _ _ Ha). cbn. auto.
Qed.
Lemma row_count n ks : row_numbers n ks -> (length ks <= n)%nat.
Proof.
  intros [Hn Hb]. assert (Hi : incl ks (seq 0 n)) by (intros k Hk; apply in_seq; specialize (Hb k Hk); lia).
  apply (NoDup_incl_length Hn) in Hi. rewrite seq_length in Hi. exact Hi.
Qed.
Lemma select_Forall2 {A B} (R : A -> B -> Prop) ks : forall l m, Forall2 R l m -> Forall2 R (select ks l) (select ks m).
Proof.
  intros l m H. assert (Hnth : forall k, match nth_error l k, nth_error m k with Some a, Some b => R a b | None, None => True | _, _ => False end).
  { intro k. revert k. induction H as [|a b l m Hab H IH]; intros [|k]; cbn; auto. apply IH. }
  induction ks as [|k ks IH]; [constructor|]. specialize (Hnth k). unfold select. cbn [flat_map].
  destruct (nth_error l k), (nth_error m k); try contradiction; cbn [app]; [constructor|]; auto.
Qed.
Lemma select_map {A B} (f : A -> B) ks l : map f (select ks l) = select ks (map f l).
Proof.
  induction ks as [|k ks IH]; [reflexivity|]. unfold select in *. cbn [flat_map]. rewrite map_app, IH. f_equal.
  destruct (nth_error l k) eqn:H; [rewrite (map_nth_error _ _ _ H); reflexivity|].
  apply nth_error_None in H. rewrite <- (map_length f) in H. apply nth_error_None in H. rewrite H. reflexivity.
Qed.
Lemma select_In {A} ks (l : list A) a : In a (select ks l) <-> exists k, In k ks /\ nth_error l k = Some a.
Proof.
  unfold select. rewrite in_flat_map. split; intros (k & Hk & H); exists k; (split; [exact Hk|]).
  - destruct (nth_error l k); [destruct H as [->|[]]; auto|destruct H].
  - rewrite H. left. auto.
Qed.
Lemma select_incl {A} ks (l : list A) : incl (select ks l) l.
Proof. intros a Ha. apply select_In in Ha. destruct Ha as (k & _ & Hk). eapply nth_error_In; eauto. Qed.
Lemma select_Forall {A} (P : A -> Prop) ks l : Forall P l -> Forall P (select ks l).
Proof. rewrite !Forall_forall. intros H a Ha. apply H, (select_incl ks l a Ha). Qed.
Lemma select_NoDup {A} ks (l : list A) : NoDup l -> row_numbers (length l) ks -> NoDup (select ks l).
Proof.
  intro Hl. induction ks as [|k ks IH]; intro H; [constructor|]. apply row_cons in H. destruct H as (Hk & Hni & H).
  destruct (select_row _ _ Hk) as (a & Ha). rewrite (select_cons _ _ _ _ Ha). constructor; auto. intro Hin. apply select_In in Hin.
  destruct Hin as (j & Hj & He). apply Hni. assert (j = k); [|subst; auto].
  eapply NoDup_nth_error; eauto; [apply nth_error_Some; congruence|congruence].
Qed.
Lemma select_app {A} ks ks2 (l : list A) : select (ks ++ ks2) l = select ks l ++ select ks2 l.
Proof. apply flat_map_app. Qed.
Lemma app_length_succ {A} (p : list A) a : length (p ++ [a]) = S (length p).
Proof. rewrite app_length. cbn. lia. Qed.
Lemma select_all {A} (l : list A) : select (seq 0 (length l)) l = l.
Proof.
  assert (H : forall p l', l' = p ++ l -> select (seq (length p) (length l)) l' = l); [|apply (H []); reflexivity].
  induction l as [|a l IH]; intros p l' ->; [reflexivity|]. cbn [length seq].
  erewrite select_cons by (rewrite nth_error_app2, Nat.sub_diag by lia; reflexivity). f_equal.
  rewrite <- (app_length_succ p a). apply IH. rewrite <- app_assoc. reflexivity.
Qed.
Lemma nodup_both {A} (a b : list A) : NoDup a -> NoDup b -> (forall x, In x a -> ~ In x b) -> NoDup (a ++ b).
Proof.
  intros Ha Hb. induction Ha as [|x a Hx Ha IH]; intro H; auto. cbn. constructor.
  - rewrite in_app_iff. intros [?|?]; auto. eapply H; eauto. left. auto.
  - apply IH. intros y Hy. apply H. right. auto.
Qed.
Lemma select_perm {A} ks (l : list A) : row_numbers (length l) ks -> exists r, Permutation (select ks l ++ r) l.
Proof.
  intros [Hn Hb]. set (rest := filter (fun k => negb (existsb (Nat.eqb k) ks)) (seq 0 (length l))). exists (select rest l).
  rewrite <- select_app. apply (Permutation_trans (l' := select (seq 0 (length l)) l)); [|rewrite select_all; reflexivity]. apply Permutation_flat_map.
  assert (Hin : forall k, In k rest <-> (k < length l)%nat /\ ~ In k ks).
  { intro k. unfold rest. rewrite filter_In, in_seq, Bool.negb_true_iff, <- Bool.not_true_iff_false, existsb_exists. split.
    - intros [H1 H2]. split; [lia|]. intro Hk. apply H2. exists k. split; auto. apply Nat.eqb_refl.
    - intros [H1 H2]. split; [lia|]. intros (j & Hj & He). apply Nat.eqb_eq in He. subst. auto. }
  apply NoDup_Permutation.
  - apply nodup_both; auto; [apply NoDup_filter, seq_NoDup|]. intros k Hk. rewrite Hin. tauto.
  - apply seq_NoDup.
  - intro k. rewrite in_app_iff, Hin, in_seq. specialize (Hb k). destruct (in_dec Nat.eq_dec k ks); intuition lia.
Qed.
Lemma concat_length {A} (l : list (list A)) : length (concat l) = list_sum (map (@length A) l).
Proof. induction l as [|a l IH]; [reflexivity|]. cbn [concat map]. rewrite app_length, IH. reflexivity. Qed.
Lemma select_concat {A} ks (l : list (list A)) : row_numbers (length l) ks -> (length (concat (select ks l)) <= length (concat l))%nat.
Proof.
  intro H. destruct (select_perm _ _ H) as (r & Hr). rewrite !concat_length.
  apply (Permutation_map (@length A)) in Hr. rewrite map_app in Hr.
  assert (Hs : forall a b, Permutation a b -> list_sum a = list_sum b) by (clear; unfold list_sum; induction 1; cbn; lia).
  apply Hs in Hr. rewrite <- Hr, list_sum_app. lia.
Qed.

(** ** Tables *)
Lemma be_snoc w b : be (w ++ [b]) = be w * 256 + Byte.to_N b.
Proof. unfold be. rewrite fold_left_app. reflexivity. Qed.
Lemma uint_bytes k : forall n w w', uint k n w -> uint k n w' -> w = w'.
Proof.
  induction k as [|k IH]; intros n w w' [Hl Hb] [Hl' Hb'].
  - destruct w, w'; try discriminate; auto.
  - destruct (exists_last (l := w)) as (v & b & ->); [intros ->; discriminate|]. destruct (exists_last (l := w')) as (v' & b' & ->); [intros ->; discriminate|].
    rewrite app_length in *. cbn in Hl, Hl'. rewrite be_snoc in *. pose proof (Byte.to_N_bounded b). pose proof (Byte.to_N_bounded b').
    assert (Hv : be v = be v') by lia. assert (Hbb : Byte.to_N b = Byte.to_N b') by lia. f_equal.
    + apply (IH (be v)); split; auto; lia.
    + f_equal. apply (f_equal Byte.of_N) in Hbb. rewrite !Byte.of_to_N in Hbb. congruence.
Qed.
Lemma table_rows {A} (F : A -> lang) l w : table u2 F l w ->
  exists ws, w = counted ws /\ length ws = length l /\ N.of_nat (length l) < 65536 /\
    forall ks, row_numbers (length l) ks -> table u2 F (select ks l) (counted (select ks ws)).
Proof.
  intros (nw & v & -> & Hn & Hv). apply many_concat in Hv. destruct Hv as (ws & Hws & ->).
  assert (Hlt : N.of_nat (length l) < 65536) by (apply uint_bound in Hn; cbn in Hn; lia).
  assert (Hlen : length ws = length l) by (clear - Hws; induction Hws; cbn; congruence).
  exists ws. unfold counted. rewrite Hlen. split; [|split; [|split; [exact Hlt|]]]; auto.
  - f_equal. eapply uint_bytes; [exact Hn|apply two_bytes_u2; auto].
  - intros ks Hks. unfold table. rewrite (select_length _ _ Hks). rewrite select_length by (rewrite Hlen; auto). apply cat_intro.
    + apply two_bytes_u2. apply row_count in Hks. lia.
    + apply many_concat. exists (select ks ws). split; auto. apply select_Forall2, Hws.
Qed.
Lemma attributes_rows dec sl wraps want d l w : attributes_lang dec sl wraps want d l w ->
  exists ws, w = counted ws /\ length ws = length l /\ N.of_nat (length l) < 65536 /\
    forall ks, row_numbers (length l) ks -> attributes_lang dec sl wraps want d (select ks l) (counted (select ks ws)).
Proof. destruct d; [intros []|]. apply table_rows. Qed.
Lemma counted_length ks (ws : list (list byte)) : N.of_nat (length ws) < 65536 -> row_numbers (length ws) ks ->
  (length (counted (select ks ws)) <= length (counted ws))%nat.
Proof.
  intros Hlt Hks. unfold counted. rewrite !app_length. pose proof (select_concat _ _ Hks). rewrite (select_length _ _ Hks).
  assert (H1 := two_bytes_u2 (N.of_nat (length ws)) Hlt). apply row_count in Hks.
  assert (H2 := two_bytes_u2 (N.of_nat (length ks)) ltac:(lia)). destruct H1 as [-> _], H2 as [-> _]. lia.
Qed.

(** ** Removing and reordering the rows of a class *)
(** Everything but the rule about bootstrap methods. *)
Definition core_lang (dec : list byte -> option str) (wraps want : bool) (d : nat) (cs : list constant) (c : class_file) : lang := fun bs =>
  (u4 0xCAFEBABE +++ u2 (minor_version c) +++ u2 (major_version c) +++ pool_lang dec wraps (major_version c) cs
   +++ flags_keep class_bits (access_flags c)
   +++ ref (that (class_at dec (slots_of cs)) class_name) (this_class c)
   +++ opt_ref (that (class_at dec (slots_of cs)) class_name) (super_class c)
   +++ table u2 (ref (that (class_at dec (slots_of cs)) class_name)) (interfaces c)
   +++ table u2 (field_lang dec (slots_of cs) wraps want d) (fields c)
   +++ table u2 (method_lang dec (slots_of cs) wraps want d (N.testbit (access_flags c) ACC_INTERFACE_bit)) (methods c)
   +++ attributes_lang dec (slots_of cs) wraps want d (class_attributes c)) bs
  /\ constant_pool c = pool_of dec (slots_of cs)
  /\ members_ok c /\ module_rules c.
Lemma core_class dec wraps want d cs c bs : class_lang dec wraps want d cs c bs <-> core_lang dec wraps want d cs c bs /\ bootstrap_rules cs c.
Proof. unfold class_lang, core_lang, members_ok. tauto. Qed.
Lemma core_starts dec wraps want d cs c bs : core_lang dec wraps want d cs c bs ->
  exists count ws rest, starts_with_pool bs (minor_version c) (major_version c) count cs ws rest
   /\ fills wraps count 1 cs /\ Forall (valid_constant dec (slots_of cs) (major_version c)) cs
   /\ (flags_keep class_bits (access_flags c)
       +++ ref (that (class_at dec (slots_of cs)) class_name) (this_class c)
       +++ opt_ref (that (class_at dec (slots_of cs)) class_name) (super_class c)
       +++ table u2 (ref (that (class_at dec (slots_of cs)) class_name)) (interfaces c)
       +++ table u2 (field_lang dec (slots_of cs) wraps want d) (fields c)
       +++ table u2 (method_lang dec (slots_of cs) wraps want d (N.testbit (access_flags c) ACC_INTERFACE_bit)) (methods c)
       +++ attributes_lang dec (slots_of cs) wraps want d (class_attributes c)) rest.
Proof.
  intros [H _]. destruct H as (w0 & v0 & -> & Hm & w1 & v1 & -> & Hminor & w2 & v2 & -> & Hmajor & w3 & v3 & -> & Hcs & Hrest).
  destruct Hcs as (count & (u & v & -> & Hu & Hv) & Hf & Hval). apply many_concat in Hv. destruct Hv as (ws & Hws & ->).
  exists count, ws, v3. split; [|auto]. exists w0, (w1 ++ w2), u. split; auto. split; [apply cat_intro; auto|]. split; auto.
  split; auto. rewrite <- !app_assoc. reflexivity.
Qed.
Lemma core_det E opts cs c cs' c' bs : (2 <= stack E)%nat -> fits E bs ->
  core_lang (cesu8 E) (wrapping E) opts (stack E) cs c bs -> core_lang (cesu8 E) (wrapping E) opts (stack E) cs' c' bs ->
  cs = cs' /\ c = c'.
Proof.
  intros Hstk Hfit Hc Hc'.
  destruct (core_starts _ _ _ _ _ _ _ Hc) as (count & ws & rest & S1 & Hf & Hval & Hrest).
  destruct (core_starts _ _ _ _ _ _ _ Hc') as (count' & ws' & rest' & S2 & Hf' & Hval' & Hrest').
  destruct (pool_unique _ _ _ _ _ _ _ _ _ _ _ _ _ _ S1 S2 Hf Hf') as (Hmi & Hma & <- & <- & <- & <-). split; auto.
  destruct S1 as (m & vv & n & _ & _ & _ & -> & _). do 4 apply fits_suffix in Hfit.
  destruct Hc as (_ & Hp & Hok & _), Hc' as (_ & Hp' & Hok' & _).
  destruct (body_det E opts cs _ c c' rest Hstk Hfit Hval Hok Hok' Hrest Hrest') as (E1 & E2 & E3 & E4 & E5 & E6 & E7).
  destruct c, c'; cbn in *. congruence.
Qed.
Lemma core_rows dec wraps want d cs c bs : core_lang dec wraps want d cs c bs ->
  exists head wi wf wm wa, bs = head ++ counted wi ++ counted wf ++ counted wm ++ counted wa
    /\ length wi = length (interfaces c) /\ length wf = length (fields c) /\ length wm = length (methods c) /\ length wa = length (class_attributes c)
    /\ N.of_nat (length wi) < 65536 /\ N.of_nat (length wf) < 65536 /\ N.of_nat (length wm) < 65536 /\ N.of_nat (length wa) < 65536
    /\ forall ki kf km ka, row_numbers (length wi) ki -> row_numbers (length wf) kf -> row_numbers (length wm) km -> row_numbers (length wa) ka ->
       let c' := class_with (select ki (interfaces c)) (select kf (fields c)) (select km (methods c)) (select ka (class_attributes c)) c in
       core_lang dec wraps want d cs c' (head ++ counted (select ki wi) ++ counted (select kf wf) ++ counted (select km wm) ++ counted (select ka wa)).
Proof.
  intros ((w0 & r0 & -> & H0 & w1 & r1 & -> & H1 & w2 & r2 & -> & H2 & w3 & r3 & -> & H3 & w4 & r4 & -> & H4 & w5 & r5 & -> & H5 & w6 & r6 & -> & H6
    & w7 & r7 & -> & H7 & w8 & r8 & -> & H8 & w9 & r9 & -> & H9 & H10) & Hpool & (Hnf & Hnm & Hmr) & Hmod).
  destruct (table_rows _ _ _ H7) as (wi & -> & Li & Bi & Ri). destruct (table_rows _ _ _ H8) as (wf & -> & Lf & Bf & Rf).
  destruct (table_rows _ _ _ H9) as (wm & -> & Lm & Bm & Rm). destruct (attributes_rows _ _ _ _ _ _ _ H10) as (wa & -> & La & Ba & Ra).
  exists (w0 ++ w1 ++ w2 ++ w3 ++ w4 ++ w5 ++ w6), wi, wf, wm, wa. split; [rewrite <- !app_assoc; reflexivity|].
  split; auto. split; auto. split; auto. split; auto. split; [lia|]. split; [lia|]. split; [lia|]. split; [lia|].
  intros ki kf km ka Ki Kf Km Ka c'. rewrite Li in Ki. rewrite Lf in Kf. rewrite Lm in Km. rewrite La in Ka.
  split; [|split; [|split; [split; [|split]|]]]; auto; unfold c'; cbn [class_with minor_version major_version constant_pool access_flags this_class
      super_class interfaces fields methods class_attributes]; auto.
  - rewrite <- !app_assoc. do 7 (apply cat_intro; [assumption|]). apply cat_intro; [apply Ri; auto|]. apply cat_intro; [apply Rf; auto|].
    apply cat_intro; [apply Rm; auto|]. apply Ra; auto.
  - rewrite select_map. apply select_NoDup; auto. rewrite map_length. auto.
  - rewrite select_map. apply select_NoDup; auto. rewrite map_length. auto.
  - apply select_Forall; auto.
  - intro Hx. destruct (Hmod Hx) as (M1 & M2 & M3 & M4 & M5 & M6).
    split; auto. split; auto. split; auto. rewrite M4, M5, M6.
    assert (Hnil : forall A ks, select ks (@nil A) = []) by (intros A ks; induction ks as [|[|k] ks IH]; cbn; auto).
    split; [apply Hnil|split; apply Hnil].
Qed.

(** ** Bootstrap methods *)
Definition boots (a : attr_info) : list (list bootstrap_method) := match attr_dat a with ABootstrapMethods l => [l] | _ => [] end.
Lemma boots_is a : (boots a = [] <-> ~ is_bootstrap a) /\ (is_bootstrap a -> exists l, boots a = [l]).
Proof.
  unfold boots, is_bootstrap. split; [split|]; destruct (attr_dat a); try discriminate; try (intros _ (l' & Hl'); discriminate);
    try (intros (l' & Hl'); discriminate); eauto. intro H. exfalso. apply H. eauto.
Qed.
Lemma flat_one {A B} (g : A -> list B) l x : (forall a, g a = [] \/ exists y, g a = [y]) -> flat_map g l = [x] ->
  exists k a, nth_error l k = Some a /\ g a = [x] /\ forall j b, nth_error l j = Some b -> g b <> [] -> j = k.
Proof.
  intro Hg. induction l as [|a l IH]; cbn; [discriminate|]. intro H. destruct (Hg a) as [Ha|(y & Ha)]; rewrite Ha in H.
  - destruct (IH H) as (k & b & Hk & Hb & Hu). exists (S k), b. split; auto. split; auto. intros [|j] b' Hj Hne; [injection Hj as <-; contradiction|].
    f_equal. eapply Hu; eauto.
  - injection H as -> Hnil. exists 0%nat, a. split; auto. split; auto. intros [|j] b Hj Hne; auto. exfalso. apply Hne.
    cbn in Hj. apply nth_error_In in Hj. clear - Hj Hnil. induction l as [|c l IH]; [destruct Hj|]. cbn in Hnil. apply app_eq_nil in Hnil.
    destruct Hnil as [H1 H2], Hj as [->|Hj]; auto.
Qed.
Lemma select_one {A B} (g : A -> list B) l x k a ks : nth_error l k = Some a -> g a = [x] ->
  (forall j b, nth_error l j = Some b -> g b <> [] -> j = k) -> NoDup ks ->
  (In k ks -> flat_map g (select ks l) = [x]) /\ (~ In k ks -> flat_map g (select ks l) = []).
Proof.
  intros Hk Ha Hu Hn.
  assert (Hskip : forall ks, ~ In k ks -> flat_map g (select ks l) = []).
  { clear ks Hn. intro ks. induction ks as [|j ks IH]; intro Hni; [reflexivity|]. change (j :: ks) with ([j] ++ ks). rewrite select_app, flat_map_app.
    rewrite IH by (intro; apply Hni; right; auto). rewrite app_nil_r. unfold select. cbn [flat_map]. rewrite app_nil_r.
    destruct (nth_error l j) as [b|] eqn:Hj; [|reflexivity]. cbn. rewrite app_nil_r. destruct (g b) eqn:Hb; auto. exfalso. apply Hni. left.
    eapply Hu; eauto. congruence. }
  split; auto. intro Hin. apply in_split in Hin. destruct Hin as (k1 & k2 & ->). rewrite select_app, flat_map_app, (select_cons _ _ _ _ Hk).
  cbn [flat_map]. rewrite Ha. apply NoDup_remove_2 in Hn. rewrite in_app_iff in Hn. rewrite !Hskip by tauto. reflexivity.
Qed.
Lemma boot_rows cs c i f m ka : bootstrap_rules cs c -> NoDup ka ->
  (bootstrap_rules cs (class_with i f m (select ka (class_attributes c)) c) <-> keeps_bootstrap cs c ka).
Proof.
  intros Hb Hn. assert (Hg : forall a, boots a = [] \/ exists y, boots a = [y]) by (intro a; unfold boots; destruct (attr_dat a); eauto).
  split.
  - intros Hb' (x & Hx & b & nt & Hd) k a Hk Ha. assert (Hi : In (CDynamic b nt) cs \/ In (CInvokeDynamic b nt) cs) by (destruct Hd; subst; auto).
    destruct (Hb b nt Hi) as (l & Hl & _). destruct (Hb' b nt Hi) as (l' & Hl' & _). unfold bootstrap_tables in Hl, Hl'. cbn [class_with class_attributes] in Hl'.
    destruct (flat_one boots _ _ Hg Hl) as (k0 & a0 & Hk0 & Ha0 & Hu). destruct (select_one boots _ _ _ _ ka Hk0 Ha0 Hu Hn) as [_ S].
    assert (k = k0) as -> by (eapply Hu; eauto; intro; eapply boots_is; eauto).
    destruct (in_dec Nat.eq_dec k0 ka) as [|Hni]; auto. specialize (S Hni). unfold boots in S. congruence.
  - intros Hkeep b nt Hi. destruct (Hb b nt Hi) as (l & Hl & Hlt). exists l. split; auto. unfold bootstrap_tables in *. cbn [class_with class_attributes].
    destruct (flat_one boots _ _ Hg Hl) as (k0 & a0 & Hk0 & Ha0 & Hu). destruct (select_one boots _ _ _ _ ka Hk0 Ha0 Hu Hn) as [S _].
    apply S. unfold keeps_bootstrap in Hkeep. apply (fun h => Hkeep h k0 a0).
    + destruct Hi as [Hi|Hi]; eexists; (split; [exact Hi|exists b, nt; auto]).
    + exact Hk0.
    + unfold boots in Ha0. exists l. destruct (attr_dat a0); try discriminate. congruence.
Qed.

Theorem C60_rows E opts bs c cs : ample E bs -> parse_class_with_options E opts bs = Ok c -> constants_of E bs cs ->
  exists head wi wf wm wa, bs = head ++ counted wi ++ counted wf ++ counted wm ++ counted wa
    /\ length wi = length (interfaces c) /\ length wf = length (fields c) /\ length wm = length (methods c) /\ length wa = length (class_attributes c)
    /\ forall ki kf km ka, row_numbers (length wi) ki -> row_numbers (length wf) kf -> row_numbers (length wm) km -> row_numbers (length wa) ka ->
       let bs' := head ++ counted (select ki wi) ++ counted (select kf wf) ++ counted (select km wm) ++ counted (select ka wa) in
       let c' := class_with (select ki (interfaces c)) (select kf (fields c)) (select km (methods c)) (select ka (class_attributes c)) c in
       (keeps_bootstrap cs c ka -> parse_class_with_options E opts bs' = Ok c')
       /\ (~ keeps_bootstrap cs c ka -> forall x, parse_class_with_options E opts bs' <> Ok x).
Proof.
  intros Ha H Hcs. pose proof (ample_sane _ _ Ha) as Hs.
  destruct (proj1 (parse_Ok E opts (sane_stack _ _ Hs) bs c (sane_fits _ _ Hs)) H) as (cs' & Hc).
  assert (cs' = cs) as -> by (eapply constants_unique; [eapply class_constants; eauto|exact Hcs]).
  apply core_class in Hc. destruct Hc as [Hc Hb].
  destruct (core_rows _ _ _ _ _ _ _ Hc) as (head & wi & wf & wm & wa & He & Li & Lf & Lm & La & Bi & Bf & Bm & Ba & Hall).
  exists head, wi, wf, wm, wa. split; auto. split; auto. split; auto. split; auto. split; auto.
  intros ki kf km ka Ki Kf Km Ka bs' c'. specialize (Hall ki kf km ka Ki Kf Km Ka).
  assert (Hlen : (length bs' <= length bs)%nat).
  { unfold bs'. rewrite He, !app_length. pose proof (counted_length _ _ Bi Ki). pose proof (counted_length _ _ Bf Kf).
    pose proof (counted_length _ _ Bm Km). pose proof (counted_length _ _ Ba Ka). lia. }
  assert (Hs' : sane E bs').
  { destruct Hs as [H1 H2 H3 H4]. unfold blen in *. constructor; unfold blen; auto; lia. }
  pose proof (parse_Ok E opts (sane_stack _ _ Hs') bs') as P.
  pose proof (boot_rows cs c (select ki (interfaces c)) (select kf (fields c)) (select km (methods c)) ka Hb (proj1 Ka)) as Hiff.
  split.
  - intro Hk. apply (P c' (sane_fits _ _ Hs')). exists cs. apply core_class. split; [exact Hall|]. apply Hiff, Hk.
  - intros Hk x Hx. apply Hk, Hiff. apply (P x (sane_fits _ _ Hs')) in Hx. destruct Hx as (cs' & Hx). apply core_class in Hx. destruct Hx as [Hx Hbx].
    destruct (core_det E opts _ _ _ _ _ (sane_stack _ _ Hs') (sane_fits _ _ Hs') Hall Hx) as [<- <-]. exact Hbx.
Qed.
(** The sample has two fields or more to swap, and dropping its table of bootstrap methods is an error. *)
Example C60_meets : ample debug64 sample /\ parse_class_with_options debug64 true sample = Ok sample_parsed /\ constants_of debug64 sample sample_constants
  /\ (2 <= length (methods sample_parsed))%nat /\ row_numbers 2 [1; 0]%nat /\ ~ keeps_bootstrap sample_constants sample_parsed []
  /\ keeps_bootstrap sample_constants sample_parsed (seq 0 (length (class_attributes sample_parsed))).
Proof.
  split; [apply ampleb_ample; vm_compute; reflexivity|]. split; [exact sample_parse|]. split; [exact sample_of|]. split; [vm_compute; lia|].
  split; [|split].
  - split; [repeat constructor; cbn; intuition discriminate|]. intros k [<-|[<-|[]]]; lia.
  - intro H. assert (Hd : exists x, In x sample_constants /\ is_dynamic x).
    { assert (Hx : existsb (fun x => match x with CDynamic _ _ | CInvokeDynamic _ _ => true | _ => false end) sample_constants = true) by (vm_compute; reflexivity).
      apply existsb_exists in Hx. destruct Hx as (x & Hx & Ht). exists x. split; auto. destruct x; try discriminate; unfold is_dynamic; eauto. }
    specialize (H Hd).
    assert (Hb : existsb (fun a => match attr_dat a with ABootstrapMethods _ => true | _ => false end) (class_attributes sample_parsed) = true) by (vm_compute; reflexivity).
    apply existsb_exists in Hb. destruct Hb as (a & Hin & Ht). apply In_nth_error in Hin. destruct Hin as (k & Hk).
    apply (H k a Hk). unfold is_bootstrap. destruct (attr_dat a); try discriminate. eauto.
  - intros _ k a Hk _. apply in_seq. split; [lia|]. apply nth_error_Some. congruence.
Qed.
