(** * The parser with borrowing behaves like the parser without it: the constant pool and the class. *)
From Verif Require Import Base M_Names M_Descriptors M_ConstantPool M_Bytecode M_Attributes M_Class M_Cesu8
  Z_Cow Z_Descriptors Z_ConstantPool Z_Bytecode Z_Attributes Z_Plain Z_Class S_Lang S_ZeroCopy P_Reads P_Names P_ZeroUtf P_Zero P_Zero2 P_Zero3.

Section Class.
Variable E : env.
Hypothesis E32 : 2 ^ 32 <= usize_max E + 1.
Hypothesis Ecesu8 : cesu8 E = from_java_cesu8.
Variable bytes : list byte.

(** ** Reading the pool *)
Section ReadPool.
Local Notation good := (uncopied_constant (cesu8 E) bytes).
Local Notation rel := (rel good).
Lemma good_constant_sub t j k u : good t -> sub_cow t j k = Ok u -> good u.
Proof. intros (i & raw & Hc & Hu) H. exists i, raw. split; [auto|]. eapply sub_cow_uncopied; eauto. Qed.

Ltac same := eapply sim_bind; [apply sim_same|]; intros ? _ <-.
Ltac easy_ret := apply sim_ret; (split; [reflexivity|constructor]).
Lemma constant_utf8_sim count cp_ix k : number_at bytes 8 2 count -> constant_begins bytes count cp_ix k -> cp_ix < count -> number_at bytes k 1 1 ->
  sima bytes (k + 1) (rel plain_entry entry_texts) (read_constant_utf8 E) (M_ConstantPool.read_constant_utf8 E).
Proof.
  intros Hcount Hk Hlt Htag. unfold read_constant_utf8, M_ConstantPool.read_constant_utf8. eapply sima_bind; [apply sim_same|]. intros len _ i <- Hl. apply read_u2_number in Hl as (Hlen & ->).
  unfold sima, bind, get_bytes, get_ix, lift, set_ix. destruct (_ <? _); [reflexivity|]. destruct (slice _ _ _) as [data| | |] eqn:Hd; try reflexivity.
  destruct (slice_lies _ _ _ _ Hd) as (Hlies & Hb & Hle). replace (k + 1 + 2) with (k + 3) in * by lia.
  rewrite (cow_chars (cesu8 E) data (k + 3) Ecesu8). destruct (from_java_cesu8_cow _ _ _) as [t|] eqn:Ht; cbn [option_map]; cbn; (split; [|reflexivity]); (split; [reflexivity|]); [|constructor].
  apply one_good. exists (k + 3), data. split.
  - split; [auto|]. exists count, cp_ix, k. repeat (split; [auto|]). rewrite Hb. replace (k + 3 + len - (k + 3)) with len by lia. auto.
  - eapply cow_uncopied; eauto.
Qed.
Lemma entry_sim major tag count cp_ix k : number_at bytes 8 2 count -> constant_begins bytes count cp_ix k -> cp_ix < count -> number_at bytes k 1 tag ->
  sima bytes (k + 1) (rel plain_entry entry_texts) (read_entry E major tag) (M_ConstantPool.read_entry E major tag).
Proof.
  intros Hcount Hk Hlt Htag. unfold read_entry, M_ConstantPool.read_entry. cbv zeta.
  assert (Hu : forall R : entry -> M_ConstantPool.entry -> Prop, sima bytes (k + 1) R
    (pfail_at (fun ix => lit "Unexpected constant pool entry type " ++ show_N tag ++ lit " at index " ++ show_N (ix - 1) ++ lit " for classfile major version " ++ show_N major))
    (pfail_at (fun ix => lit "Unexpected constant pool entry type " ++ show_N tag ++ lit " at index " ++ show_N (ix - 1) ++ lit " for classfile major version " ++ show_N major))) by (intro; apply sim_pfail_at).
  destruct tag as [|q]; [apply Hu|]. do 5 (try (destruct q as [q|q|]; try apply Hu)); try (destruct (_ <=? _); [|apply Hu]).
  all: try (apply (constant_utf8_sim count cp_ix); assumption).
  all: match goal with |- sima _ _ ?R ?z ?m => enough (H : sim R z m) by apply H end.
  all: match goal with |- sim _ ?z ?m => unfold z, m end.
  all: do 3 (try same); try easy_ret.
Qed.
Lemma entry_size major tag ix e ix' : read_entry E major tag bytes ix = Ok (e, ix') ->
  exists len, (tag = 1 -> number_at bytes ix 2 len) /\ ix' = ix + constant_size tag len.
Proof.
  intro H. destruct (N.eq_dec tag 1) as [->|Hne].
  - cbn [read_entry] in H. unfold read_constant_utf8, bind, get_bytes, get_ix, lift, set_ix in H.
    destruct (read_u2 bytes ix) as [[len i]| | |] eqn:Hl; try discriminate. apply read_u2_number in Hl as (Hlen & ->). destruct (_ <? _); [discriminate|].
    destruct (slice _ _ _); try discriminate. exists len. split; [auto|]. cbn [constant_size]. destruct (from_java_cesu8_cow _ _ _); injection H as <- <-; lia.
  - exists 0. split; [contradiction|]. revert H. unfold read_entry. cbv zeta.
    assert (Hu : pfail_at (fun ix => lit "Unexpected constant pool entry type " ++ show_N tag ++ lit " at index " ++ show_N (ix - 1) ++ lit " for classfile major version " ++ show_N major) bytes ix = Ok (e, ix') ->
      ix' = ix + constant_size tag 0) by discriminate.
    destruct tag as [|q]; [exact Hu|]. do 5 (try (destruct q as [q|q|]; try exact Hu)); try contradiction; try (destruct (_ <=? _); [|exact Hu]).
    all: match goal with |- ?z _ _ = _ -> _ => unfold z end; unfold read_unresolved_cp_ref, bind, ret; intro H; cbn [constant_size].
    all: repeat match type of H with
      | match (match read_u1 ?b ?i with _ => _ end) with _ => _ end = _ => destruct (read_u1 b i) as [[? ?]| | |] eqn:?; try discriminate
      | match (match read_u2 ?b ?i with _ => _ end) with _ => _ end = _ => destruct (read_u2 b i) as [[? ?]| | |] eqn:?; try discriminate
      | match read_u1 ?b ?i with _ => _ end = _ => destruct (read_u1 b i) as [[? ?]| | |] eqn:?; try discriminate
      | match read_u2 ?b ?i with _ => _ end = _ => destruct (read_u2 b i) as [[? ?]| | |] eqn:?; try discriminate
      | match read_u4 ?b ?i with _ => _ end = _ => destruct (read_u4 b i) as [[? ?]| | |] eqn:?; try discriminate
      | match read_u8 ?b ?i with _ => _ end = _ => destruct (read_u8 b i) as [[? ?]| | |] eqn:?; try discriminate
      end.
    all: repeat match goal with Hr : read_u2 _ _ = _ |- _ => apply read_u2_number in Hr as (_ & ->) | Hr : read_u1 _ _ = _ |- _ => apply read_u1_number in Hr as (_ & ->)
      | Hr : read_u4 _ _ = _ |- _ => apply read_u4_number in Hr as (_ & ->) | Hr : read_u8 _ _ = _ |- _ => apply read_u8_number in Hr as (_ & ->) end.
    all: try (injection H as <- <-; lia).
    (* method handles *)
    destruct n as [|n]; [discriminate|]. do 4 (try (destruct n as [n|n|]; try discriminate));
      (destruct (read_u2 bytes (ix + 1)) as [[? ?]| | |] eqn:Hr; try discriminate; apply read_u2_number in Hr as (_ & ->); injection H as <- <-; lia).
Qed.
Lemma u16_mod n m : u16_result E n = Ok m -> m = n mod 65536.
Proof. unfold u16_result. destruct (N.ltb_spec n 65536); [intros [= <-]; now rewrite N.mod_small|]. destruct (overflow_checks E); congruence. Qed.
Lemma pool_loop_sim fuel major count : number_at bytes 8 2 count -> forall cp_ix ix, constant_begins bytes count cp_ix ix ->
  sima bytes ix (rel (map plain_entry) (flat_map entry_texts)) (pool_loop E fuel major count cp_ix) (M_ConstantPool.pool_loop E fuel major count cp_ix).
Proof.
  intro Hcount. induction fuel as [|fuel IH]; intros cp_ix ix Hix; cbn [pool_loop M_ConstantPool.pool_loop]; (destruct (N.ltb_spec cp_ix count) as [Hlt|_]; [|apply sim_ret; split; [reflexivity|constructor]]). { exact I. }
  eapply sima_bind; [apply sim_same|]. intros tag _ i <- Ht. apply read_u1_number in Ht as (Ht & ->).
  eapply sima_bind; [now apply (entry_sim major tag count cp_ix)|]. intros e ? i (<- & He) Hr. apply entry_size in Hr as (len & Hlen & ->).
  pose proof (next_constant bytes count cp_ix ix tag len Hix Hlt Ht Hlen) as Hnext.
  eapply sima_bind; [apply sim_same|]. intros c _ i <- Hi. unfold lift in Hi. destruct (u16_result E (cp_ix + 1)) eqn:Hu; try discriminate. injection Hi as -> <-. apply u16_mod in Hu.
  destruct (_ || _).
  - eapply sima_bind; [apply sim_same|]. intros c' _ i <- Hi. unfold lift in Hi. destruct (u16_result E (c + 1)) eqn:Hu'; try discriminate. injection Hi as -> <-. apply u16_mod in Hu'.
    eapply sima_bind; [apply IH|].
    { replace c' with ((cp_ix + 2) mod 65536); [exact Hnext|]. rewrite Hu', Hu, N.add_mod_idemp_l by discriminate. f_equal. lia. }
    intros es ? i (<- & Hes) _. apply sim_ret. split; [reflexivity|]. cbn [flat_map]. apply Forall_app; auto.
  - eapply sima_bind; [apply IH; rewrite Hu; exact Hnext|]. intros es ? i (<- & Hes) _. apply sim_ret. split; [reflexivity|]. cbn [flat_map]. apply Forall_app; auto.
Qed.
Lemma resolve_entry_sim e i len : Forall good (entry_texts e) -> simo (rel plain_entry entry_texts) (resolve_entry e i len) (M_ConstantPool.resolve_entry (plain_entry e) i len).
Proof.
  intro He. destruct e; cbn [plain_entry resolve_entry M_ConstantPool.resolve_entry]; try (apply simo_ok; split; [reflexivity|exact He || constructor]);
    repeat (eapply simo_bind; [apply simo_same|]; intros ? _ <-); apply simo_ok; (split; [reflexivity|constructor]).
Qed.
Lemma resolve_from_sim len es : Forall good (flat_map entry_texts es) -> forall i,
  simo (rel (map plain_entry) (flat_map entry_texts)) (resolve_from len i es) (M_ConstantPool.resolve_from len i (map plain_entry es)).
Proof.
  induction es as [|e es IH]; cbn [flat_map map]; intros H i; cbn [resolve_from M_ConstantPool.resolve_from]. { apply simo_ok. split; [reflexivity|constructor]. }
  apply Forall_app in H as (He & Hes). eapply simo_bind; [now apply resolve_entry_sim|]. intros e' ? (<- & He'). eapply simo_bind; [now apply IH|]. intros r ? (<- & Hr).
  apply simo_ok. split; [reflexivity|]. cbn [flat_map]. apply Forall_app; auto.
Qed.
Lemma read_pool_sim major : sima bytes 8 (rel plain_pool (flat_map entry_texts)) (read_constant_pool E major) (M_ConstantPool.read_constant_pool E major).
Proof.
  unfold read_constant_pool, M_ConstantPool.read_constant_pool. eapply sima_bind; [apply sim_same|]. intros count _ i <- Hc. apply read_u2_number in Hc as (Hc & ->).
  eapply sima_bind; [apply sim_same|]. intros bs _ i <- Hbs. injection Hbs as <- <-. change (8 + 2) with 10.
  eapply sima_bind; [apply pool_loop_sim; [exact Hc|apply first_constant]|]. intros es ? i (<- & Hes) _.
  match goal with |- sima _ _ ?R ?z ?m => enough (H : sim R z m) by apply H end.
  eapply (sim_bind (rel plain_pool (flat_map entry_texts))).
  - apply sim_lift. unfold resolve_constant_pool, M_ConstantPool.resolve_constant_pool. replace (M_ConstantPool.plen (M_ConstantPool.EZero :: map plain_entry es)) with (plen (EZero :: es)).
    + apply (resolve_from_sim _ (EZero :: es)). exact Hes.
    + unfold M_ConstantPool.plen, plen. cbn [length]. now rewrite map_length.
  - intros q ? (<- & Hq). same. apply sim_ret. split; [reflexivity|exact Hq].
Qed.
End ReadPool.

(** ** The class *)
Section WithPool.
Variable p : pool.
Hypothesis Hp0 : Forall (uncopied_constant (cesu8 E) bytes) (flat_map entry_texts p).
Local Notation mp := (plain_pool p).
Local Notation good := (uncopied (cesu8 E) p bytes).
Local Notation rel := (rel good).
Local Notation simb := (simb bytes).
Lemma good_sub t j k u : good t -> sub_cow t j k = Ok u -> good u.
Proof. intros (i & raw & Hc & Hu) H. exists i, raw. split; [auto|]. eapply sub_cow_uncopied; eauto. Qed.
Lemma Hp : Forall good (flat_map entry_texts p).
Proof. eapply Forall_impl; [|exact Hp0]. intros t (i & raw & Hc & Hu). exists i, raw. auto. Qed.
Lemma good_debug i raw t : debug_text p bytes i raw -> uncopied_from (cesu8 E) bytes i raw t -> good t.
Proof. intros H1 H2. exists i, raw. auto. Qed.
Variable opts : parse_options.
Lemma class_attributes_sim stk : simb (rel (map plain_attr) (flat_map attribute_texts)) (read_attributes E p opts stk) (M_Attributes.read_attributes E mp opts stk).
Proof. apply attributes_sim; [exact E32|exact Ecesu8|exact good_sub|exact Hp|exact good_debug]. Qed.

Ltac same := eapply sim_bind; [apply sim_same|]; intros ? _ <-.
Ltac bsame := eapply simb_bind; [apply sim_simb, sim_same|]; intros ? _ <-.
Lemma class_name_read_sim : sim (rel chars one) (s <- read_cp_classinfo p ;; lift (class_name_try_from s)) (s <- M_ConstantPool.read_cp_classinfo mp ;; lift (M_Descriptors.class_name_try_from s)).
Proof. eapply sim_bind; [apply cp_classinfo_sim, Hp|]. intros s ? (<- & Hs). apply one_inv in Hs. now apply sim_lift, class_name_sim. Qed.
Lemma interfaces_sim : sim (rel (map chars) (fun l => l)) (read_interfaces p) (M_Class.read_interfaces mp).
Proof. unfold read_interfaces, M_Class.read_interfaces. same. apply for_n_one. intro. apply sim_pctx, class_name_read_sim. Qed.
Lemma this_sim : sim (rel chars one) (read_this_class p) (M_Class.read_this_class mp).
Proof. apply sim_pctx, class_name_read_sim. Qed.
Lemma super_sim : sim (rel (option_map chars) opt_string) (read_super_class p) (M_Class.read_super_class mp).
Proof.
  apply sim_pctx. eapply sim_bind; [apply cp_classinfo_opt_sim, Hp|]. intros [s|] ? (<- & Hs); cbn [option_map]. 2: { apply sim_ret. split; [reflexivity|constructor]. }
  eapply sim_bind; [apply sim_lift, (class_name_sim good), (one_inv good), Hs|]. intros n ? (<- & Hn). apply sim_ret. split; [reflexivity|exact Hn].
Qed.
Lemma fields_loop_sim n : forall i seen,
  simb (rel (map plain_field) (flat_map (fun f => f_name f :: field_texts (f_descriptor f) ++ flat_map attribute_texts (f_attributes f)))) (fields_loop E p opts n i seen)
    (M_Class.fields_loop E mp opts n i (map (fun y => (chars (fst y), plain_field_desc (snd y))) seen)).
Proof.
  induction n as [|n IH]; intros i seen; cbn [fields_loop M_Class.fields_loop]. { apply simb_ret. split; [reflexivity|constructor]. }
  bsame. eapply simb_bind; [apply sim_simb, sim_pctx, cp_utf8_sim, Hp|]. intros name ? (<- & Hname). apply one_inv in Hname. bsame.
  eapply simb_bind; [apply sim_simb, sim_pctx, cp_utf8_sim, Hp|]. intros d ? (<- & Hd). apply one_inv in Hd.
  eapply simb_bind; [apply sim_simb, sim_lift, field_desc_sim; [exact good_sub|exact Hd]|]. intros descriptor ? (<- & Hdesc).
  eapply (simb_bind _ eq). { apply sim_simb. unfold field_id_mem. apply sim_same. } intros _ _ _.
  eapply simb_bind; [apply simb_pctx, class_attributes_sim|]. intros l ? (<- & Hl).
  eapply simb_bind; [apply (IH _ ((name, descriptor) :: seen))|]. intros rest ? (<- & Hrest). apply simb_ret. split; [reflexivity|].
  cbn [flat_map f_name f_descriptor f_attributes]. apply Forall_app; split; [|exact Hrest]. constructor; [exact Hname|]. apply Forall_app; auto.
Qed.
Lemma methods_loop_sim inf major n : forall i seen,
  simb (rel (map plain_method) (flat_map (fun f => m_name f :: method_texts (m_descriptor f) ++ flat_map attribute_texts (m_attributes f)))) (methods_loop E p opts inf major n i seen)
    (M_Class.methods_loop E mp opts inf major n i (map (fun y => (chars (fst y), plain_method_desc (snd y))) seen)).
Proof.
  induction n as [|n IH]; intros i seen; cbn [methods_loop M_Class.methods_loop]. { apply simb_ret. split; [reflexivity|constructor]. }
  bsame. eapply simb_bind; [apply sim_simb, sim_pctx, cp_utf8_sim, Hp|]. intros name ? (<- & Hname). apply one_inv in Hname. cbv zeta. bsame.
  eapply (simb_bind _ (rel plain_method_desc method_texts)).
  { apply simb_pctx. eapply simb_bind; [apply sim_simb, cp_utf8_sim, Hp|]. intros d ? (<- & Hd). apply one_inv in Hd. apply sim_simb, sim_lift, method_desc_sim; [exact good_sub|exact Hd]. }
  intros descriptor ? (<- & Hdesc). bsame. bsame.
  eapply (simb_bind _ eq). { apply sim_simb. destruct descriptor as [[|] ?]; apply sim_same. } intros _ _ _.
  eapply (simb_bind _ eq). { apply sim_simb. unfold method_id_mem. apply sim_same. } intros _ _ _.
  eapply simb_bind; [apply simb_pctx, class_attributes_sim|]. intros l ? (<- & Hl).
  eapply simb_bind; [apply (IH _ ((name, descriptor) :: seen))|]. intros rest ? (<- & Hrest). apply simb_ret. split; [reflexivity|].
  cbn [flat_map m_name m_descriptor m_attributes]. apply Forall_app; split; [|exact Hrest]. constructor; [exact Hname|]. apply Forall_app; auto.
Qed.
Definition good_class (c : class_file) : Prop :=
  constant_pool c = p /\ Forall good (class_texts c).
Lemma rest_sim major minor :
  simb (fun c m => plain_class c = m /\ constant_pool c = p /\ Forall good (class_texts c))
    (raw_flags <- read_u2 ;;
     let flags := from_bits_truncate class_flags raw_flags in
     let is_module := contains flags ACC_MODULE in
     _ <- check_module_flags is_module flags major ;;
     this <- read_this_class p ;;
     super <- read_super_class p ;;
     ifs <- read_interfaces p ;;
     fs <- read_fields E p opts ;;
     ms <- read_methods E p opts (contains flags ACC_INTERFACE) major ;;
     attributes <- pctx (lit "class") (read_attributes E p opts (stack E)) ;;
     bs <- get_bytes ;;
     ix <- get_ix ;;
     _ <- guard (ix =? blen bs) (lit "Extra bytes found at index " ++ show_N ix ++ lit " after reading class file") ;;
     _ <- check_module_contents is_module (option_map chars super) (map chars ifs) (map plain_field fs) (map plain_method ms) ;;
     _ <- lift (validate_bootstrap_methods (plain_pool p) (map plain_attr attributes)) ;;
     ret (mk_class major minor p flags this super ifs fs ms attributes))
    (raw_flags <- read_u2 ;;
     let flags := from_bits_truncate class_flags raw_flags in
     let is_module := contains flags ACC_MODULE in
     _ <- check_module_flags is_module flags major ;;
     this <- M_Class.read_this_class mp ;;
     super <- M_Class.read_super_class mp ;;
     ifs <- M_Class.read_interfaces mp ;;
     fs <- M_Class.read_fields E mp opts ;;
     ms <- M_Class.read_methods E mp opts (contains flags ACC_INTERFACE) major ;;
     attributes <- pctx (lit "class") (M_Attributes.read_attributes E mp opts (stack E)) ;;
     bs <- get_bytes ;;
     ix <- get_ix ;;
     _ <- guard (ix =? blen bs) (lit "Extra bytes found at index " ++ show_N ix ++ lit " after reading class file") ;;
     _ <- check_module_contents is_module super ifs fs ms ;;
     _ <- lift (validate_bootstrap_methods mp attributes) ;;
     ret (M_Class.mk_class major minor mp flags this super ifs fs ms attributes)).
Proof.
  bsame. cbv zeta. bsame. eapply simb_bind; [apply sim_simb, this_sim|]. intros this ? (<- & Hthis). eapply simb_bind; [apply sim_simb, super_sim|]. intros super ? (<- & Hsuper).
  eapply simb_bind; [apply sim_simb, interfaces_sim|]. intros ifs ? (<- & Hifs).
  eapply simb_bind. { unfold read_fields, M_Class.read_fields. bsame. apply (fields_loop_sim _ _ []). } intros fs ? (<- & Hfs).
  eapply simb_bind. { unfold read_methods, M_Class.read_methods. bsame. apply (methods_loop_sim _ _ _ _ []). } intros ms ? (<- & Hms).
  eapply simb_bind; [apply simb_pctx, class_attributes_sim|]. intros l ? (<- & Hl). do 5 bsame. apply simb_ret. split; [reflexivity|]. split; [reflexivity|].
  unfold class_texts. cbn [constant_pool this_class super_class interfaces fields methods class_attributes]. apply one_inv in Hthis.
  apply Forall_app; split; [exact Hp|]. constructor; [auto|]. repeat (apply Forall_app; split; [assumption|]). assumption.
Qed.
End WithPool.

(** The parser with borrowing: the same outcome, and no text is copied needlessly. *)
Lemma class_sim opts : simo (fun c m => plain_class c = m /\ Forall (uncopied (cesu8 E) (constant_pool c) bytes) (class_texts c) /\ Forall (uncopied_constant (cesu8 E) bytes) (flat_map entry_texts (constant_pool c)))
  (parse_class_with_options E opts bytes) (M_Class.parse_class_with_options E opts bytes).
Proof.
  unfold parse_class_with_options, M_Class.parse_class_with_options.
  enough (H : sima bytes 0 (fun c m => plain_class c = m /\ Forall (uncopied (cesu8 E) (constant_pool c) bytes) (class_texts c) /\ Forall (uncopied_constant (cesu8 E) bytes) (flat_map entry_texts (constant_pool c)))
    (class_parser E opts) (M_Class.class_parser E opts)) by (eapply simo_bind; [exact H|]; intros a b (Hr & _); exact Hr).
  unfold class_parser, M_Class.class_parser. eapply sima_bind; [apply sim_same|]. intros magic _ i <- Hm. apply read_u4_number in Hm as (_ & ->).
  eapply sima_bind; [apply sim_same|]. intros u _ i <- Hg. unfold guard, ret, pfail in Hg. destruct (_ =? _); [|discriminate]. injection Hg as <- <-.
  eapply sima_bind; [apply sim_same|]. intros minor _ i <- Hm. apply read_u2_number in Hm as (_ & ->).
  eapply sima_bind; [apply sim_same|]. intros major _ i <- Hm. apply read_u2_number in Hm as (_ & ->). change (0 + 4 + 2 + 2) with 8.
  eapply sima_bind; [apply read_pool_sim|]. intros p ? i (<- & Hp0) _.
  pose proof (rest_sim p Hp0 opts major minor i) as H. eapply simo_weaken; [|exact H]. cbn beta. intros a b ((H1 & H2 & H3) & H4). split; [|exact H4]. split; [exact H1|]. rewrite H2. auto.
Qed.
End Class.
