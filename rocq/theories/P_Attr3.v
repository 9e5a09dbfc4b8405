(** * Attribute tables *)
From Verif Require Import Base M_Names M_Descriptors M_ConstantPool M_Bytecode M_Attributes S_Lang S_Names S_Format
  P_Reads P_Tac P_Names P_Descriptors P_Pool P_Pool2 P_Pool3 P_Refs P_Insn P_Insn2 P_Bytecode P_Attributes P_Attr2.
From Coq Require Import ZifyBool ZifyNat ZifyN.

Lemma lit_inj s t : lit s = lit t -> s = t.
Proof.
  revert t. induction s as [|a s IH]; intros [|b t]; try discriminate; auto.
  unfold lit. cbn [list_ascii_of_string map]. intros [= H1 H2]. f_equal; [|apply IH; exact H2].
  rewrite <- (ascii_N_embedding a), <- (ascii_N_embedding b), H1. reflexivity.
Qed.

Lemma ref_blen {A} (R : N -> A -> Prop) a w : ref R a w -> blen w = 2.
Proof. intros (i & [H _] & _). unfold blen. lia. Qed.
Lemma opt_ref_blen {A} (R : N -> A -> Prop) a w : opt_ref R a w -> blen w = 2.
Proof. destruct a; [apply ref_blen|]. intros [H _]. unfold blen. lia. Qed.

Section WithEnv.
Variable E : env.
Variable cs : list constant.
Notation dec := (cesu8 E).
Notation wraps := (negb (overflow_checks E)).
Notation sl := (slots_of cs).
Notation P := (pool_of dec sl).

(** What [q] does, seen by a caller that demands it to end at [ix + len] *)
Definition reads_len {A} (q : parser A) (len : N) (L : A -> lang) : Prop :=
  forall bs ix e a, fits E bs -> ix <= blen bs -> usize_result E (ix + len) = Ok e -> e <= blen bs ->
    (q bs ix = Ok (a, e) <-> e = ix + len /\ span bs ix e (L a)).

Lemma usize_end bs ix len e : fits E bs -> ix <= blen bs -> len < 2 ^ 32 -> usize_result E (ix + len) = Ok e ->
  e = ix + len \/ e < ix.
Proof.
  intros [H1 H2 H3] Hix Hlen. unfold usize_result. destruct (N.leb_spec (ix + len) (usize_max E)) as [Hle|Hgt].
  - intros [= <-]. auto.
  - destruct (overflow_checks E); [discriminate|]. intros [= <-]. right.
    assert (usize_max E / 2 * 2 <= usize_max E) by (pose proof (N.div_mod' (usize_max E) 2); lia).
    set (M := usize_max E + 1) in *.
    assert (Hm : (ix + len) mod M = ix + len - M).
    { symmetry. apply N.mod_unique with 1; lia. }
    rewrite Hm. lia.
Qed.

Lemma reads_len_reads {A} (q : parser A) len L : len < 2 ^ 32 -> reads E q L -> reads_len q len L.
Proof.
  intros Hlen Hq bs ix e a Hfit Hix He Hb. rewrite (Hq ix bs a e Hfit Hix). split.
  - intro H. split; auto. apply span_le in H. destruct (usize_end _ _ _ _ Hfit Hix Hlen He); auto. lia.
  - tauto.
Qed.
Lemma reads_len_ext {A} (q : parser A) len L M : reads_len q len L -> (forall a w, L a w <-> M a w) -> reads_len q len M.
Proof.
  intros H HLM bs ix e a Hfit Hix He Hb. rewrite (H bs ix e a Hfit Hix He Hb). unfold span.
  split; intros (-> & pre & w & post & -> & H1 & H2 & H3); (split; [reflexivity|]); exists pre, w, post; repeat split; auto; apply HLM; auto.
Qed.
Lemma reads_len_ensure {A} (q : parser A) len k c L : len < 2 ^ 32 -> reads E q L -> (forall a w, L a w -> blen w = k) ->
  reads_len (_ <- pctx c (ensure_length len k) ;; q) len L.
Proof.
  intros Hlen Hq HL. pose proof (reads_len_reads q len L Hlen Hq) as H.
  intros bs ix e a Hfit Hix He Hb. unfold ensure_length. destruct (N.eqb_spec len k) as [->|Hne]; cbn [negb].
  - exact (H bs ix e a Hfit Hix He Hb).
  - split; [discriminate|]. intros (-> & pre & w & post & -> & H1 & H2 & H3). apply HL in H3. lia.
Qed.

Lemma reads_len_bind_ret {A B} (q : parser A) len (f : A -> B) L : reads_len q len L ->
  reads_len (x <- q ;; ret (f x)) len (fun b w => exists a, b = f a /\ L a w).
Proof.
  intros H bs ix e b Hfit Hix He Hb. rewrite bind_Ok. split.
  - intros (a & ix1 & H1 & [= <- <-]). apply H in H1; auto. destruct H1 as [-> H1]. split; auto.
    eapply span_ext; [|exact H1]. eauto.
  - intros (-> & pre & w & post & -> & H1 & H2 & a & -> & H3). exists a, (ix + len). split; [|reflexivity].
    apply H; auto. split; auto. exists pre, w, post. auto.
Qed.

Lemma slice_Ok bs i j w : slice bs i j = Ok w <-> span bs i j (raw w).
Proof.
  split.
  - intro H. apply slice_inv in H. destruct H as (pre & post & -> & -> & ->). exists pre, w, post. unfold raw. auto.
  - intros (pre & w' & post & -> & -> & -> & ->). apply slice_mid; auto.
Qed.

Lemma reads_len_sde len i : len < 2 ^ 32 ->
  reads_len (read_source_debug_extension E i len) len (fun s w => dec w = Some s).
Proof.
  intros Hlen bs ix e a Hfit Hix He Hb. unfold read_source_debug_extension, bind, get_bytes, get_ix, lift, set_ix.
  rewrite He. split.
  - destruct (slice bs ix e) as [data| | |] eqn:Hs; try discriminate. apply slice_Ok in Hs. cbn.
    destruct (dec data) as [s|] eqn:Hd; [|discriminate]. intros [= <-].
    pose proof (span_le _ _ _ _ Hs). destruct (usize_end _ _ _ _ Hfit Hix Hlen He); [|lia]. split; auto.
    eapply span_ext; [|exact Hs]. intros w ->. exact Hd.
  - intros (-> & pre & w & post & -> & H1 & H2 & H3).
    assert (Hs : slice (pre ++ w ++ post) ix (ix + len) = Ok w).
    { apply slice_Ok. exists pre, w, post. unfold raw. auto. }
    rewrite Hs, H3. reflexivity.
Qed.
Lemma reads_len_other len : len < 2 ^ 32 -> reads_len (read_other_attribute E len) len (fun r => raw r).
Proof.
  intros Hlen bs ix e a Hfit Hix He Hb. unfold read_other_attribute, bind, get_bytes, get_ix, lift, set_ix.
  rewrite He. destruct (usize_end _ _ _ _ Hfit Hix Hlen He) as [->|Hlt].
  - unfold usize_sub. replace (len <=? ix + len) with true by lia. replace (ix + len - len) with ix by lia.
    destruct (slice bs ix (ix + len)) as [data| | |] eqn:Hs.
    + apply slice_Ok in Hs as Hs'. split.
      * intros [= <-]. auto.
      * intros [_ H]. apply slice_Ok in H. rewrite Hs in H. injection H as ->. reflexivity.
    + split; [discriminate|]. intros [_ H]. apply slice_Ok in H. congruence.
    + split; [discriminate|]. intros [_ H]. apply slice_Ok in H. congruence.
    + split; [discriminate|]. intros [_ H]. apply slice_Ok in H. congruence.
  - split; [|lia]. intro H. exfalso.
    destruct (usize_sub E e len) as [s| | |] eqn:Hu; try discriminate.
    destruct (slice bs s e) as [data| | |] eqn:Hs; try discriminate. apply slice_Ok in Hs. apply span_le in Hs.
    unfold usize_sub in Hu. unfold usize_result in He. destruct Hfit as [F1 F2 F3].
    assert (usize_max E / 2 * 2 <= usize_max E) by (pose proof (N.div_mod' (usize_max E) 2); lia).
    destruct (N.leb_spec (ix + len) (usize_max E)); [injection He as <-; lia|].
    destruct (overflow_checks E); [discriminate|]. injection He as He.
    assert (Hm : (ix + len) mod (usize_max E + 1) = ix + len - (usize_max E + 1)).
    { symmetry. apply N.mod_unique with 1; lia. }
    rewrite Hm in He. destruct (N.leb_spec len e); injection Hu as <-; lia.
Qed.

Section Nested.
Variable pb : bool.
Variable rec : parser (list attr_info).
Variable A : list attr_info -> lang.
Hypothesis Hrec : reads E rec A.
Variable stk : nat.

(** The attributes with one of the predefined names *)
Definition kind_lang (s : string) (a : attr_data) : lang := fun w =>
  match a with
  | AOther _ => False
  | _ => s = fst (contents dec sl wraps pb A stk a) /\ snd (contents dec sl wraps pb A stk a) w
  end.

Lemma reads_dispatch name len cases default L :
  Forall (fun sq => reads_len (snd sq) len (kind_lang (fst sq))) cases ->
  reads_len default len (fun a w => exists r, a = AOther r /\ L r w) ->
  map fst cases = predefined -> L = raw ->
  reads_len (dispatch name cases default) len (contents_lang dec sl wraps pb A stk name).
Proof.
  intros Hc Hd Hp ->. unfold contents_lang.
  assert (Hgen : forall cs1 cs2, cases = cs1 ++ cs2 -> ~ In name (map lit (map fst cs1)) ->
    reads_len (dispatch name cs2 default) len (fun a w => snd (contents dec sl wraps pb A stk a) w /\
      match a with AOther _ => ~ In name (map lit predefined) | _ => name = lit (fst (contents dec sl wraps pb A stk a)) end)).
  { intros cs1 cs2. revert cs1. induction cs2 as [|[s q] cs2 IH]; intros cs1 Heq Hn.
    - rewrite app_nil_r in Heq. subst cs1. rewrite Hp in Hn. cbn [dispatch]. eapply reads_len_ext; [exact Hd|].
      intros a w. split.
      + intros (r & -> & H). split; auto.
      + intros [H1 H2]. destruct a; try (exfalso; apply Hn; rewrite H2; apply in_map; unfold predefined; cbn [In contents fst]; tauto).
        exists raw; split; auto.
    - cbn [dispatch]. destruct (str_eqb_spec name (lit s)) as [->|Hne].
      + eapply reads_len_ext; [apply (proj1 (Forall_forall _ _) Hc (s, q)); rewrite Heq; apply in_or_app; right; left; reflexivity|].
        intros a w. cbn [fst]. unfold kind_lang. split.
        * intro H. destruct a; try (destruct H as [-> H]; split; [exact H|reflexivity]). destruct H.
        * intros [H1 H2]. destruct a; try (apply lit_inj in H2; split; [exact H2|exact H1]).
          apply H2. rewrite <- Hp, Heq. rewrite !map_app. apply in_or_app. right. left. reflexivity.
      + apply (IH (cs1 ++ [(s, q)])); [rewrite Heq, <- app_assoc; reflexivity|].
        rewrite !map_app. intro Hin. apply in_app_or in Hin. destruct Hin as [Hin|[Hin|[]]]; auto. }
  apply (Hgen [] cases); auto.
Qed.

Lemma kind_intro {X} s (f : X -> attr_data) (L : X -> lang) (q : parser attr_data) len :
  reads_len q len (fun b w => exists a, b = f a /\ L a w) ->
  (forall x w, kind_lang s (f x) w <-> L x w) ->
  (forall a w, kind_lang s a w -> exists x, a = f x) -> reads_len q len (kind_lang s).
Proof.
  intros H H1 H2. eapply reads_len_ext; [exact H|]. intros a w. split.
  - intros (x & -> & Hx). apply H1; auto.
  - intro Ha. destruct (H2 _ _ Ha) as [x ->]. exists x. split; auto. apply H1; auto.
Qed.
Lemma kind_intro0 s (c : attr_data) (q : parser attr_data) len :
  reads_len q len (fun b w => b = c /\ w = []) ->
  (forall w, kind_lang s c w <-> w = []) ->
  (forall a w, kind_lang s a w -> a = c) -> reads_len q len (kind_lang s).
Proof.
  intros H H1 H2. eapply reads_len_ext; [exact H|]. intros a w. split.
  - intros (-> & Hx). apply H1; auto.
  - intro Ha. pose proof (H2 _ _ Ha); subst a. split; auto. apply H1; auto.
Qed.

#[local] Hint Resolve reads_cp_utf8 reads_cp_utf8_opt reads_cp_classinfo reads_cp_classinfo_opt reads_cp_moduleinfo
  reads_cp_packageinfo reads_cp_nameandtype_opt reads_cp_literalconstant reads_cp_integer reads_cp_float reads_cp_long
  reads_cp_double reads_cp_methodhandle reads_cp_bootstrap_argument reads_exact_flags
  reads_cp_field_descriptor reads_exception_entry reads_line_number reads_local_variable reads_local_variable_type reads_inner_class
  reads_local_var_target reads_bootstrap_method reads_module_require reads_module_export reads_module_open
  reads_module_provide reads_module_data reads_method_parameter reads_stack_map_entry reads_type_annotation_target
  reads_path_entry reads_element reads_annotation reads_type_annotation reads_record_component reads_code_data Hrec : reads.

Ltac kind_iff := let H := fresh in intros ? ?; unfold kind_lang; cbn [contents fst snd]; split; [intros [_ H]; exact H|intro H; split; [reflexivity|exact H]].
Ltac kind_inv := let H := fresh in let a := fresh "a" in intros a ? H; unfold kind_lang in H; destruct a; cbn [contents fst snd] in H;
  first [contradiction | destruct H as [H _]; discriminate H | eexists; reflexivity | reflexivity].

Ltac kind_iff0 := let H := fresh in intros ?; unfold kind_lang; cbn [contents fst snd]; split; [intros [_ H]; exact H|intro H; split; [reflexivity|exact H]].
Lemma reads_leaf' op : reads E (ret op) (fun (b : attr_data) w => b = op /\ w = []).
Proof. eapply reads_ext; [apply reads_ret|]. unfold only_if. intuition. Qed.
Lemma reads_enclosing c1 c2 c3 len : len < 2 ^ 32 ->
  reads_len (_ <- pctx c1 (ensure_length len 4) ;;
      class_name <- pctx c2 (read_cp_classinfo P) ;;
      method <- pctx c3 (read_cp_nameandtype_opt P) ;;
      ret (AEnclosingMethod class_name method)) len (kind_lang "EnclosingMethod").
Proof.
  intro Hlen. eapply kind_intro with (f := fun x => AEnclosingMethod (fst x) (snd x))
    (L := fun x => ref (class_at dec sl) (fst x) +++ opt_ref (name_and_type_at dec sl) (snd x)).
  - eapply reads_len_ensure; [exact Hlen| |].
    + eapply reads_ext; [rd|]. intros a w. split.
      * intro H. fwd. eexists (_, _). cbn [fst snd]. split; [reflexivity|]. apply cat_intro; eassumption.
      * intros ([c m] & -> & H). cbn [fst snd] in *. fwd. bwd.
    + intros a w ([c m] & -> & u & v & -> & Hu & Hv). rewrite blen_app, (ref_blen _ _ _ Hu), (opt_ref_blen _ _ _ Hv). reflexivity.
  - intros [c m] w. cbn [fst snd]. revert w. intro w. unfold kind_lang; cbn [contents fst snd]; split; [intros [_ H]; exact H|intro H; split; [reflexivity|exact H]].
  - intros a w H. unfold kind_lang in H. destruct a; cbn [contents fst snd] in H;
    first [contradiction | destruct H as [H _]; discriminate H | eexists (_, _); reflexivity].
Qed.

Lemma reads_attr_data name i len : len < 2 ^ 32 ->
  reads_len (read_attr_data E P pb rec stk name i len) len (contents_lang dec sl wraps pb A stk name).
Proof.
  intro Hlen. unfold read_attr_data. cbv zeta. apply reads_dispatch with (L := raw); [|apply reads_len_bind_ret, reads_len_other, Hlen|reflexivity|reflexivity].
  repeat (apply Forall_cons; [cbn [fst snd]|]); [..|apply Forall_nil].
  all: lazymatch goal with
       | |- reads_len (bind _ (fun _ => ret _)) _ (kind_lang "Synthetic") =>
           eapply kind_intro0; [apply reads_len_ensure; [exact Hlen|apply reads_leaf'|intros ? ? [_ ->]; reflexivity]|kind_iff0|kind_inv]
       | |- reads_len (bind _ (fun _ => ret _)) _ (kind_lang "Deprecated") =>
           eapply kind_intro0; [apply reads_len_ensure; [exact Hlen|apply reads_leaf'|intros ? ? [_ ->]; reflexivity]|kind_iff0|kind_inv]
       | |- reads_len (bind _ _) _ (kind_lang "EnclosingMethod") => apply reads_enclosing; exact Hlen
       | |- reads_len (bind _ _) _ (kind_lang "SourceDebugExtension") =>
           eapply kind_intro; [eapply reads_len_bind_ret, reads_len_sde, Hlen|kind_iff|kind_inv]
       | |- reads_len (bind (pctx _ (ensure_length _ _)) _) _ _ =>
           eapply kind_intro; [eapply reads_len_ensure; [exact Hlen|eapply reads_one; rd|
             let H := fresh in intros ? ? (? & _ & H); exact (ref_blen _ _ _ H)]|kind_iff|kind_inv]
       | |- _ => idtac
       end.
  all: try (eapply kind_intro; [eapply reads_len_bind_ret, reads_len_reads, reads_pctx; [exact Hlen|] | kind_iff | kind_inv]).
  all: lazymatch goal with
       | |- reads _ (read_stackmaptable_data _) _ => eapply reads_table; [rd|intro; rd]
       | |- reads _ (read_record_data _ _) _ => eapply reads_table; [rd|intro; apply reads_record_component; exact Hrec]
       | |- reads _ (read_code_data _ _ _ _) _ => apply reads_code_data; exact Hrec
       | |- reads _ (read_parameter_annotation_data _ _) _ => eapply reads_table; [rd|intro; eapply reads_table; [rd|intro; rd]]
       | |- reads _ (read_element_value _ _) _ => apply reads_element
       | |- reads _ (read_module_data _) _ => apply reads_module_data
       | |- reads _ (read_methodparameters_data _) _ => eapply reads_table; [rd|intro; rd]
       | |- reads _ _ _ => eapply reads_table; [rd|intro; rd]
       | |- _ => idtac
       end.
Qed.

Lemma reads_attribute i : reads E (read_attribute E P pb rec stk i) (attribute_with dec sl wraps pb A stk).
Proof.
  unfold read_attribute, attribute_with. eapply reads_ext.
  - eapply reads_bind; [rd|]. intros name _.
    instantiate (1 := fun name a w => exists data, a = mk_attr name data /\ exists ln body, w = ln ++ body /\
      u4 (N.of_nat (length body)) ln /\ contents_lang dec sl wraps pb A stk name data body).
    intros ix bs a ix' Hfit Hix. split.
    + intro H. apply bind_Ok in H. destruct H as (len & ix1 & H1 & H). apply reads_u4 with (1 := Hfit) in H1; auto.
      pose proof (span_le _ _ _ _ H1) as Hle. assert (Hlen : len < 2 ^ 32).
      { destruct H1 as (? & w & ? & _ & _ & _ & H1). apply uint_bound in H1. exact H1. }
      unfold bind at 1 2, get_bytes, get_ix in H.
      apply bind_Ok in H. destruct H as (e & ix2 & He & H). apply lift_Ok in He. destruct He as [He ->].
      destruct (N.ltb_spec (blen bs) e) as [|Hb]; [discriminate|].
      apply bind_Ok in H. destruct H as (data & ix3 & Hd & H). unfold bind at 1, get_ix in H.
      destruct (N.eqb_spec e ix3) as [<-|]; [|discriminate]. injection H as <- <-.
      apply reads_attr_data in Hd; auto; try lia. destruct Hd as [-> Hd].
      destruct H1 as (pre & ln & post & -> & -> & -> & H1).
      destruct Hd as (pre' & body & post' & Heq & Hp & Hq & Hd).
      rewrite app_assoc in Heq. apply app_eq_blen in Heq; [|rewrite blen_app; lia].
      destruct Heq as [<- ->]. exists pre, (ln ++ body), post'. rewrite <- app_assoc, !blen_app. repeat split; auto; try lia.
      exists data. split; auto. exists ln, body. split; auto. split; auto.
      replace (N.of_nat (length body)) with len by (unfold blen in *; lia). auto.
    + intros (pre & w & post & -> & -> & -> & data & -> & ln & body & -> & H1 & Hd).
      set (len := N.of_nat (length body)) in *. assert (Hlen : len < 2 ^ 32) by (apply uint_bound in H1; exact H1).
      assert (Hl : blen body = len) by reflexivity.
      apply bind_Ok. exists len, (blen pre + blen ln). split.
      { apply reads_u4 with (1 := Hfit); auto. exists pre, ln, (body ++ post). rewrite <- app_assoc. auto. }
      unfold bind at 1 2, get_bytes, get_ix. apply bind_Ok. exists (blen pre + blen ln + len), (blen pre + blen ln).
      assert (Hu : usize_result E (blen pre + blen ln + len) = Ok (blen pre + blen ln + len)).
      { apply usize_result_ok. destruct Hfit as [F1 F2 F3]. rewrite !blen_app in F2.
        pose proof (N.div_mod' (usize_max E) 2). lia. }
      split; [apply lift_Ok; auto|].
      assert (Hbl : blen (pre ++ (ln ++ body) ++ post) = blen pre + blen ln + len + blen post) by (rewrite !blen_app; lia).
      replace (_ <? _) with false by lia.
      apply bind_Ok. exists data, (blen pre + blen ln + len). split.
      { apply reads_attr_data; auto; try lia. split; auto. exists (pre ++ ln), body, post. rewrite <- !app_assoc, blen_app. repeat split; auto; apply Hd. }
      unfold bind at 1, get_ix. rewrite N.eqb_refl. cbn [negb]. unfold ret. rewrite blen_app, Hl. do 2 f_equal. lia.
  - intros [name data] w. cbn [attr_name attr_dat]. split.
    + intros (n & u & v & -> & Hu & d & [= -> ->] & H). apply cat_intro; auto.
    + intros (u & v & -> & Hu & H). exists name. apply cat_intro; auto. exists data. auto.
Qed.
End Nested.

Theorem reads_attributes pb stk : reads E (read_attributes E P pb stk) (attributes_lang dec sl wraps pb stk).
Proof.
  induction stk as [|stk IH]; cbn [read_attributes attributes_lang].
  - apply reads_never. discriminate.
  - eapply reads_table; [apply reads_u2|]. intro j. apply reads_attribute. exact IH.
Qed.
End WithEnv.
