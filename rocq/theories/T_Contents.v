(** * Property theorems: what attributes contain (C48 C49 C50 C51).  Vocabulary: [S_Contents]. *)
From Verif Require Import Base M_Names M_Descriptors M_ConstantPool M_Bytecode M_Attributes M_Class M_Cesu8 Data Sample
  S_Lang S_Names S_Format S_Pool S_Within S_Env S_Contents P_Reads P_Tac P_Class3 P_Layout P_Within P_Code P_Flat T_Class T_Members T_Bytecode.
From Coq Require Import ZifyBool ZifyNat ZifyN.

(** ** C48 *)
(** An attribute is given the kind its name says, and the kind for unknown attributes iff its name is not listed. *)
Theorem C48_kind_by_name E opts bs c a : sane E bs -> parse_class_with_options E opts bs = Ok c -> within c a ->
  (forall name is, In (name, is) kinds -> (attr_name a = lit name <-> is (attr_dat a) = true))
  /\ ((exists r, attr_dat a = AOther r) <-> forall name is, In (name, is) kinds -> attr_name a <> lit name).
Proof.
  intros Hs H Hw. destruct (constants_exist _ _ _ _ Hs H) as (cs & Hcs). destruct (accepted_with _ _ _ _ _ Hs H Hcs) as (d & Hc).
  destruct (within_part _ _ _ _ _ _ _ _ Hc Hw) as (d' & pre & u & post & _ & Hu). destruct Hu as (x & y & _ & _ & len & body & _ & _ & _ & Hn).
  clear - Hn. destruct a as [n dat]. cbn [attr_name attr_dat] in *.
  assert (H1 : forall name is, In (name, is) kinds -> (n = lit name <-> is dat = true)).
  { destruct dat; cbn [contents fst] in Hn; try rewrite Hn; intros name is Hin; unfold kinds in Hin; cbn [In] in Hin;
    repeat (destruct Hin as [Hin|Hin]; [injection Hin as <- <-; (split; intro Hx; first [reflexivity|discriminate Hx|exfalso; apply Hn; rewrite Hx; vm_compute; tauto])|]); destruct Hin. }
  split; [exact H1|]. split.
  - intros [r ->] name is Hin Hx. apply (H1 _ _ Hin) in Hx. unfold kinds in Hin. cbn [In] in Hin.
    repeat (destruct Hin as [Hin|Hin]; [injection Hin as <- <-; discriminate Hx|]). destruct Hin.
  - intro Hall. destruct dat; try (eexists; reflexivity); exfalso;
    (eapply Hall; [|exact Hn]; unfold kinds; cbn [In contents fst]; repeat first [left; reflexivity|right]).
Qed.
Example C48_meets : sane debug64 sample /\ parse_class_with_options debug64 true sample = Ok sample_parsed
  /\ within sample_parsed (mk_attr (lit "Custom") (AOther [x01; x02; x03])) /\ exists l, within sample_parsed (mk_attr (lit "LineNumberTable") (ALineNumberTable l)).
Proof.
  split; [exact sample_sane|]. split; [exact sample_parse|]. split; [apply of_class; do 3 right; left; reflexivity|].
  eexists. eapply nested; [eapply of_method; [right; left; reflexivity|left; reflexivity]|]. apply inside_code. left. reflexivity.
Qed.

(** ** C49 *)
Section Rows.
Variable dec : list byte -> option str.
Variable cs : list constant.
Notation sl := (slots_of cs).
Lemma at_0 c : ~ at_index sl 0 c.
Proof. unfold at_index, slots_of. cbn. discriminate. Qed.
Lemma u2_w2 n w : u2 n w -> exists a b, w = [a; b] /\ n = w2 a b.
Proof. apply u2_bytes. Qed.
Lemma ref_row {A} (R : N -> A -> Prop) s w : ref R s w -> index_row R s w.
Proof. intros (i & Hi & HR). apply u2_w2 in Hi. destruct Hi as (a & b & -> & ->). exists a, b. auto. Qed.
Lemma opt_row {A} (R : N -> A -> Prop) o w : (forall s, ~ R 0 s) -> opt_ref R o w -> exists a b, w = [a; b] /\ perhaps R (w2 a b) o.
Proof.
  intros H0 H. destruct o as [s|]; cbn [opt_ref perhaps] in *.
  - apply ref_row in H. destruct H as (a & b & -> & H). exists a, b. split; auto. split; auto. intro Hz. rewrite Hz in H. apply (H0 _ H).
  - apply u2_w2 in H. destruct H as (a & b & -> & H). exists a, b. auto.
Qed.
Lemma class_0 s : ~ class_at dec sl 0 s.
Proof. intros (j & Hj & _). apply (at_0 _ Hj). Qed.
Lemma utf8_0 s : ~ utf8_at dec sl 0 s.
Proof. intros (j & Hj & _). apply (at_0 _ Hj). Qed.
Lemma desc_row i d : field_desc_at dec sl i d -> described_at dec sl i d.
Proof. intros (s & Hs & _ & tail & ->). exists (field_text d ++ tail), tail. auto. Qed.
Ltac two H := let a := fresh "a" in let b := fresh "b" in apply u2_w2 in H; destruct H as (a & b & -> & H).
Ltac twor H := let a := fresh "a" in let b := fresh "b" in apply ref_row in H; destruct H as (a & b & -> & H).

Lemma line_rows e w : line_number_lang e w -> line_row e w.
Proof. intros (u & v & -> & Hu & Hv). two Hu. two Hv. unfold line_row. do 4 eexists. split; [reflexivity|]. auto. Qed.
Lemma variable_rows e w : local_variable_lang dec sl e w -> variable_row dec sl e w.
Proof.
  intros (u & v & -> & Hu & u1 & v1 & -> & Hu1 & u2 & v2 & -> & Hu2 & u3 & v3 & -> & Hu3 & Hv). two Hu. two Hu1. twor Hu2. twor Hu3. two Hv.
  destruct Hu2 as [Hu2 _]. apply desc_row in Hu3. unfold variable_row. do 10 eexists. split; [reflexivity|]. auto.
Qed.
Lemma variable_type_rows e w : local_variable_type_lang dec sl e w -> variable_type_row dec sl e w.
Proof.
  intros (u & v & -> & Hu & u1 & v1 & -> & Hu1 & u2 & v2 & -> & Hu2 & u3 & v3 & -> & Hu3 & Hv). two Hu. two Hu1. twor Hu2. twor Hu3. two Hv.
  destruct Hu2 as [Hu2 _]. unfold variable_type_row. do 10 eexists. split; [reflexivity|]. auto.
Qed.
Lemma exception_rows e w : exception_lang dec sl e w -> exception_row dec sl e w.
Proof.
  intros (u & v & -> & Hu & u1 & v1 & -> & Hu1 & u2 & v2 & -> & Hu2 & Hv). two Hu. two Hu1. two Hu2.
  apply (opt_row _ _ _ class_0) in Hv. destruct Hv as (x & y & -> & Hv). unfold exception_row. do 8 eexists. split; [reflexivity|]. auto.
Qed.
Lemma inner_rows e w : inner_class_lang dec sl e w -> inner_row dec sl e w.
Proof.
  intros (u & v & -> & Hu & u1 & v1 & -> & Hu1 & u2 & v2 & -> & Hu2 & written & Hv & Hf). twor Hu. two Hv.
  apply (opt_row _ _ _ class_0) in Hu1. destruct Hu1 as (x & y & -> & Hu1). apply (opt_row _ _ _ utf8_0) in Hu2. destruct Hu2 as (x' & y' & -> & Hu2).
  unfold inner_row. do 8 eexists. split; [reflexivity|]. unfold inner_class_bits in Hf. subst written.
  repeat (split; [first [eassumption|reflexivity]|]). apply N.bits_inj. intro i. rewrite N.land_spec. apply Hf.
Qed.
Lemma parameter_rows e w : method_parameter_lang dec sl e w -> parameter_row dec sl e w.
Proof.
  intros (u & v & -> & Hu & Hv). apply opt_row in Hu; [|intros s [Hx _]; exact (utf8_0 _ Hx)]. destruct Hu as (x & y & -> & Hu).
  destruct Hv as [Hv _]. two Hv. unfold parameter_row. do 4 eexists. split; [reflexivity|]. split; [|exact Hv].
  destruct (mp_name e); cbn [perhaps] in *; auto. destruct Hu as [H1 [H2 _]]. auto.
Qed.
Lemma many_rows {A} (F : A -> lang) (G : A -> list byte -> Prop) l w : (forall a u, F a u -> G a u) -> many F l w ->
  exists ws, w = concat ws /\ Forall2 G l ws.
Proof.
  intros HFG H. apply many_concat in H. destruct H as (ws & Hws & ->). exists ws. split; auto. induction Hws; constructor; auto.
Qed.
Lemma table_rows {A} (F : A -> lang) (G : A -> list byte -> Prop) l w : (forall a u, F a u -> G a u) -> table u2 F l w ->
  exists cw ws, w = cw ++ concat ws /\ length cw = 2%nat /\ be cw = N.of_nat (length l) /\ Forall2 G l ws.
Proof.
  intros HFG (cw & v & -> & [H1 H2] & H). apply (many_rows _ _ _ _ HFG) in H. destruct H as (ws & -> & H). eauto 10.
Qed.
Lemma bootstrap_rows e w : bootstrap_method_lang dec sl e w -> bootstrap_row dec sl e w.
Proof.
  intros (u & v & -> & Hu & Hv). twor Hu. destruct Hv as (cw & v' & -> & Hc & Hv). two Hc.
  apply (many_rows _ _ _ _ (ref_row _)) in Hv. destruct Hv as (ws & -> & Hv). unfold bootstrap_row. do 5 eexists. split; [reflexivity|]. auto.
Qed.
Lemma contents_rows wraps want A d a w : is_table a = true -> snd (contents dec sl wraps want A d a) w ->
  exists cw ws, w = cw ++ concat ws /\ length cw = count_bytes a /\ be cw = N.of_nat (length ws) /\ rows dec sl a ws.
Proof.
  assert (Hgo : forall {A} (F : A -> lang) (G : A -> list byte -> Prop) l w, (forall a u, F a u -> G a u) -> table u2 F l w ->
    exists cw ws, w = cw ++ concat ws /\ length cw = 2%nat /\ be cw = N.of_nat (length ws) /\ Forall2 G l ws).
  { intros B F G l x HFG Hx. destruct (table_rows F G l x HFG Hx) as (cw & ws & H1 & H2 & H3 & H4). exists cw, ws. split; auto. split; auto. split; auto.
    rewrite <- (Forall2_len _ _ _ H4). exact H3. }
  destruct a; try discriminate; intros _ H; cbn [contents snd count_bytes rows] in *.
  - exact (Hgo _ _ _ _ _ (ref_row _) H).
  - exact (Hgo _ _ _ _ _ inner_rows H).
  - exact (Hgo _ _ _ _ _ line_rows H).
  - exact (Hgo _ _ _ _ _ variable_rows H).
  - exact (Hgo _ _ _ _ _ variable_type_rows H).
  - exact (Hgo _ _ _ _ _ bootstrap_rows H).
  - destruct H as (cw & v & -> & [H1 H2] & H). apply (many_rows _ _ _ _ parameter_rows) in H. destruct H as (ws & -> & H). exists cw, ws.
    split; auto. split; auto. split; auto. rewrite <- (Forall2_len _ _ _ H). exact H2.
  - exact (Hgo _ _ _ _ _ (ref_row _) H).
  - exact (Hgo _ _ _ _ _ (ref_row _) H).
  - exact (Hgo _ _ _ _ _ (ref_row _) H).
Qed.
End Rows.
(** The attribute consists of its name, its length, the number of rows and the rows, in the order of the list returned. *)
Theorem C49_rows E opts bs c cs a : sane E bs -> parse_class_with_options E opts bs = Ok c -> constants_of E bs cs ->
  within c a -> is_table (attr_dat a) = true ->
  exists pre n1 n2 lw cw ws post, bs = pre ++ n1 :: n2 :: lw ++ cw ++ concat ws ++ post
    /\ utf8_at (cesu8 E) (slots_of cs) (w2 n1 n2) (attr_name a) /\ u4 (N.of_nat (length (cw ++ concat ws))) lw
    /\ length cw = count_bytes (attr_dat a) /\ be cw = N.of_nat (length ws) /\ rows (cesu8 E) (slots_of cs) (attr_dat a) ws.
Proof.
  intros Hs H Hcs Hw Ht. destruct (accepted_with _ _ _ _ _ Hs H Hcs) as (d & Hc).
  destruct (within_part _ _ _ _ _ _ _ _ Hc Hw) as (d' & pre & u & post & -> & Hu). destruct Hu as (nw & v & -> & Hn & lw & body & -> & Hl & Hb & _).
  apply ref_row in Hn. destruct Hn as (n1 & n2 & -> & Hn). apply (contents_rows _ _ _ _ _ _ _ _ Ht) in Hb. destruct Hb as (cw & ws & -> & H1 & H2 & H3).
  exists pre, n1, n2, lw, cw, ws, post. rewrite <- !app_assoc. cbn [app]. auto 10.
Qed.
(** The exception table of a method, which follows the code. *)
Theorem C49_exception_table E opts bs c cs n cd : sane E bs -> parse_class_with_options E opts bs = Ok c -> constants_of E bs cs ->
  within c (mk_attr n (ACode cd)) ->
  exists pre cw ws post, bs = pre ++ cd_code cd ++ cw ++ concat ws ++ post /\ u2 (N.of_nat (length ws)) cw
    /\ Forall2 (exception_row (cesu8 E) (slots_of cs)) (cd_exception_table cd) ws.
Proof.
  intros Hs H Hcs Hw. destruct (code_part _ _ _ _ _ _ _ Hs H Hcs Hw) as (d & pre & u & post & -> & Hu). unfold code_lang in Hu.
  destruct Hu as (stk & v1 & -> & H1 & loc & v2 & -> & H2 & cl & v3 & -> & H3 & code & v4 & -> & H4 & v5 & v6 & -> & H5 & v7 & v8 & -> & H6 & -> & _).
  destruct (table_rows _ _ _ _ (exception_rows _ _) H5) as (cw & ws & -> & Hl & Hb & Hr). red in H4. subst code.
  exists (pre ++ stk ++ loc ++ cl), cw, ws, (v7 ++ post). rewrite app_nil_r, <- !app_assoc. split; auto. split; auto.
  split; auto. rewrite <- (Forall2_len _ _ _ Hr). exact Hb.
Qed.
Example C49_meets : sane debug64 sample /\ parse_class_with_options debug64 true sample = Ok sample_parsed
  /\ constants_of debug64 sample sample_constants
  /\ (exists n l, within sample_parsed (mk_attr n (ALineNumberTable l)) /\ map (fun e => (ln_start_pc e, ln_line_number e)) l = [(0, 10); (15, 11)])
  /\ (exists n l, within sample_parsed (mk_attr n (ABootstrapMethods l)) /\ map (fun e => length (bm_arguments e)) l = [1%nat])
  /\ exists n cd, within sample_parsed (mk_attr n (ACode cd)) /\ length (cd_exception_table cd) = 1%nat.
Proof.
  split; [exact sample_sane|]. split; [exact sample_parse|]. split; [exact sample_of|]. split; [|split].
  - eexists _, _. split; [eapply nested; [eapply of_method; [right; left; reflexivity|left; reflexivity]|apply inside_code; left; reflexivity]|reflexivity].
  - eexists _, _. split; [apply of_class; do 2 right; left; reflexivity|reflexivity].
  - eexists _, _. split; [eapply of_method; [right; left; reflexivity|left; reflexivity]|reflexivity].
Qed.

(** ** C50 *)
Section Values.
Variable dec : list byte -> option str.
Variable cs : list constant.
Notation sl := (slots_of cs).
Lemma value_rows d v w : element_lang dec sl d v w -> value_row dec sl v w.
Proof.
  destruct d as [|d]; [intros []|]. cbn [element_lang]. unfold element_with, value_row.
  destruct v; intro H; apply u1_cons in H; destruct H as (t & w' & -> & Ht & H).
  all: try (apply ref_row in H; destruct H as (a & b & -> & H); exists t, a, b; tauto).
  - destruct H as (u & u' & -> & Hu & Hu'). apply ref_row in Hu, Hu'. destruct Hu as (a & b & -> & Hu), Hu' as (a' & b' & -> & Hu').
    exists t, a, b, a', b'. split; auto. split; auto. split; auto. apply desc_row, Hu.
  - apply ref_row in H. destruct H as (x & y & -> & H & Hr). exists t, x, y. auto.
  - destruct H as (u & u' & -> & Hu & cw & r & -> & Hc & _). apply ref_row in Hu. destruct Hu as (x & y & -> & Hu). apply u2_w2 in Hc. destruct Hc as (x' & y' & -> & Hc).
    exists t, x, y, x', y', r. split; auto. split; auto. split; auto. apply desc_row, Hu.
  - destruct H as (cw & r & -> & Hc & _). apply u2_w2 in Hc. destruct Hc as (x' & y' & -> & Hc). exists t, x', y', r. auto.
Qed.
Lemma annotation_value d x n v w : annotation_lang dec sl d x w -> In (n, v) (ann_elements x) -> part w (element_lang dec sl d v).
Proof.
  intros H Hin. unfold annotation_lang, annotation_with in H. apply (part_cat_r _ _ _ _ H). intros u Hu.
  apply (part_table _ _ _ _ _ Hin) in Hu. apply (part_trans _ _ _ Hu). intros u' Hu'. apply (part_cat_r _ _ _ _ Hu'). intros u'' Hu''. apply part_here, Hu''.
Qed.
Lemma annotations_part wraps want A d a x w : snd (contents dec sl wraps want A d a) w -> In x (annotations a) -> part w (annotation_lang dec sl d x).
Proof.
  intros H Hin. destruct a; cbn [annotations type_annotations map] in Hin; try (destruct Hin; fail); cbn [contents snd] in H.
  1-2: apply (part_table _ _ _ _ _ Hin H).
  1-2: apply in_concat in Hin; destruct Hin as (l' & Hl & Hx); apply (part_table _ _ _ _ _ Hl) in H; apply (part_trans _ _ _ H); intros u Hu; apply (part_table _ _ _ _ _ Hx Hu).
  1-2: apply in_map_iff in Hin; destruct Hin as (t & <- & Ht); apply (part_table _ _ _ _ _ Ht) in H; apply (part_trans _ _ _ H); intros u Hu;
    do 2 (apply (part_cat_r _ _ _ _ Hu); clear Hu u; intros u Hu); apply part_here, Hu.
Qed.
Lemma value_part wraps want A d a v w : value_in a v -> snd (contents dec sl wraps want A d a) w -> exists d', part w (element_lang dec sl d' v).
Proof.
  intros Hv H. induction Hv as [v ->|x n v Hx Hv|vs v Hv IH Hin|x n v Hv IH Hin].
  - exists d. apply part_here, H.
  - exists d. apply (annotations_part _ _ _ _ _ _ _ H) in Hx. apply (part_trans _ _ _ Hx). intros u Hu. eapply annotation_value; eauto.
  - destruct IH as (d' & IH). apply (part_trans_ex _ _ _ IH). intros u Hu. destruct d' as [|d']; [destruct Hu|]. exists d'. cbn [element_lang element_with] in Hu.
    apply (part_cat_r _ _ _ _ Hu). intros u' Hu'. eapply part_table; eauto.
  - destruct IH as (d' & IH). apply (part_trans_ex _ _ _ IH). intros u Hu. destruct d' as [|d']; [destruct Hu|]. exists d'. cbn [element_lang element_with] in Hu.
    apply (part_cat_r _ _ _ _ Hu). intros u' Hu'. eapply annotation_value; eauto.
Qed.
End Values.
(** Every value of every annotation, at any depth: the tag says the type, the index refers to a constant of the matching kind with that value. *)
Theorem C50_annotation_values E opts bs c cs a v : sane E bs -> parse_class_with_options E opts bs = Ok c -> constants_of E bs cs ->
  within c a -> value_in (attr_dat a) v ->
  exists pre w post, bs = pre ++ w ++ post /\ value_row (cesu8 E) (slots_of cs) v w.
Proof.
  intros Hs H Hcs Hw Hv. destruct (part_contents _ _ _ _ _ _ Hs H Hcs Hw) as (d & Hp).
  destruct (part_trans_ex _ _ _ Hp (fun u Hu => value_part _ _ _ _ _ _ _ _ _ Hv Hu)) as (d' & pre & w & post & -> & Hx).
  exists pre, w, post. split; auto. eapply value_rows; eauto.
Qed.
(** The value of a constant field: index of a numeric or String constant with that value. *)
Theorem C50_constant_value E opts bs c cs n l : sane E bs -> parse_class_with_options E opts bs = Ok c -> constants_of E bs cs ->
  within c (mk_attr n (AConstantValue l)) ->
  exists pre n1 n2 lw a b post, bs = pre ++ n1 :: n2 :: lw ++ a :: b :: post /\ u4 2 lw /\ utf8_at (cesu8 E) (slots_of cs) (w2 n1 n2) n /\
  match l with
  | LInteger v => at_index (slots_of cs) (w2 a b) (CInteger v)
  | LFloat v => at_index (slots_of cs) (w2 a b) (CFloat v)
  | LLong v => at_index (slots_of cs) (w2 a b) (CLong v)
  | LDouble v => at_index (slots_of cs) (w2 a b) (CDouble v)
  | LString s => exists j raw, at_index (slots_of cs) (w2 a b) (CString j) /\ at_index (slots_of cs) j (CUtf8 raw) /\ cesu8 E raw = Some s
  | LStringBytes raw => exists j, at_index (slots_of cs) (w2 a b) (CString j) /\ at_index (slots_of cs) j (CUtf8 raw) /\ cesu8 E raw = None
  end.
Proof.
  intros Hs H Hcs Hw. destruct (accepted_with _ _ _ _ _ Hs H Hcs) as (d & Hc).
  destruct (within_part _ _ _ _ _ _ _ _ Hc Hw) as (d' & pre & u & post & -> & Hu). destruct Hu as (nw & v & -> & Hn & lw & body & -> & Hl & Hb & _).
  cbn [attr_dat contents snd attr_name] in *. apply ref_row in Hn, Hb. destruct Hn as (n1 & n2 & -> & Hn), Hb as (a & b & -> & Hb).
  exists pre, n1, n2, lw, a, b, post. split; [rewrite <- !app_assoc; reflexivity|]. split; [exact Hl|].
  split; auto. destruct l; auto. destruct Hb as (j & Hj & raw & Hr & Hx). eauto.
Qed.
Example C50_meets : sane debug64 sample /\ parse_class_with_options debug64 true sample = Ok sample_parsed
  /\ constants_of debug64 sample sample_constants
  /\ (exists a, within sample_parsed a /\ value_in (attr_dat a) (EvInt (-70000)))
  /\ exists n, within sample_parsed (mk_attr n (AConstantValue (LInteger (-70000)))).
Proof.
  split; [exact sample_sane|]. split; [exact sample_parse|]. split; [exact sample_of|]. split.
  - eexists. split; [eapply nested; [apply of_class; left; reflexivity|eapply inside_record; [left; reflexivity|left; reflexivity]]|].
    eapply value_array; [eapply value_top; [left; reflexivity|left; reflexivity]|left; reflexivity].
  - eexists. eapply of_field; [left; reflexivity|left; reflexivity].
Qed.

(** ** C51 *)
Lemma between_byte a b L w : (between a b +++ L) w -> exists k w', w = k :: w' /\ a <= Byte.to_N k <= b /\ L w'.
Proof. intros (u & v & -> & (n & Hn & Hb) & Hv). apply u1_bytes in Hn. destruct Hn as (k & -> & ->). exists k, v. auto. Qed.
Lemma target_rows t w : target_lang t w -> target_row t w.
Proof.
  unfold target_row. destruct t; cbn [target_lang]; intro H.
  - apply between_byte in H. destruct H as (k & w' & -> & Hk & H). apply u1_bytes in H. destruct H as (a & -> & ->). exists k, [a]. split; [reflexivity|split; [lia|eauto]].
  - apply u1_cons in H. destruct H as (k & w' & -> & Hk & H). apply u2_w2 in H. destruct H as (a & b & -> & ->). exists k, [a; b]. split; [reflexivity|split; [lia|eauto]].
  - apply between_byte in H. destruct H as (k & w' & -> & Hk & u & v & -> & Hu & Hv). apply u1_bytes in Hu, Hv. destruct Hu as (a & -> & ->), Hv as (b & -> & ->). exists k, [a; b]. split; [reflexivity|split; [lia|]]. exists a, b. auto.
  - destruct H as (n & Hn & Hb). apply u1_bytes in Hn. destruct Hn as (k & -> & ->). exists k, []. split; [reflexivity|split; [lia|auto]].
  - apply u1_cons in H. destruct H as (k & w' & -> & Hk & H). apply u1_bytes in H. destruct H as (a & -> & ->). exists k, [a]. split; [reflexivity|split; [lia|eauto]].
  - apply u1_cons in H. destruct H as (k & w' & -> & Hk & H). apply u2_w2 in H. destruct H as (a & b & -> & ->). exists k, [a; b]. split; [reflexivity|split; [lia|eauto]].
  - apply between_byte in H. destruct H as (k & w' & -> & Hk & cw & v & -> & Hc & H). apply u2_w2 in Hc. destruct Hc as (a & b & -> & Hc).
    eapply many_rows in H; [destruct H as (ws & -> & H); exists k, (a :: b :: concat ws); split; [reflexivity|]; split; [lia|]; exists a, b, ws; split; [reflexivity|]; split; [auto|exact H]|].
    intros e u (u1 & v1 & -> & Hu1 & u2 & v2 & -> & Hu2 & Hu3). apply u2_w2 in Hu1, Hu2, Hu3. destruct Hu1 as (x1 & y1 & -> & Hu1), Hu2 as (x2 & y2 & -> & Hu2), Hu3 as (x3 & y3 & -> & Hu3).
    do 6 eexists. split; [reflexivity|]. auto.
  - apply u1_cons in H. destruct H as (k & w' & -> & Hk & H). apply u2_w2 in H. destruct H as (a & b & -> & ->). exists k, [a; b]. split; [reflexivity|split; [lia|eauto]].
  - apply between_byte in H. destruct H as (k & w' & -> & Hk & H). apply u2_w2 in H. destruct H as (a & b & -> & ->). exists k, [a; b]. split; [reflexivity|split; [lia|eauto]].
  - apply between_byte in H. destruct H as (k & w' & -> & Hk & u & v & -> & Hu & Hv). apply u2_w2 in Hu. apply u1_bytes in Hv. destruct Hu as (a & b & -> & ->), Hv as (e & -> & ->). exists k, [a; b; e]. split; [reflexivity|split; [lia|]]. exists a, b, e. auto.
Qed.
Lemma path_rows e w : path_lang e w -> path_row e w.
Proof.
  intros (u & v & -> & Hu & Hv). apply u1_bytes in Hu, Hv. destruct Hu as (a & -> & Hu), Hv as (b & -> & Hv). exists a, b. split; [reflexivity|]. split; [exact Hv|].
  rewrite <- Hu. destruct (pe_kind e); reflexivity.
Qed.
(** Every type annotation: the target type and what it says, the path, and the type of the annotation. *)
Theorem C51_type_annotations E opts bs c cs a t : sane E bs -> parse_class_with_options E opts bs = Ok c -> constants_of E bs cs ->
  within c a -> In t (type_annotations (attr_dat a)) ->
  exists pre w post, bs = pre ++ w ++ post /\ type_annotation_row (cesu8 E) (slots_of cs) t w.
Proof.
  intros Hs H Hcs Hw Ht. destruct (part_contents _ _ _ _ _ _ Hs H Hcs Hw) as (d & Hp).
  assert (Hq : part bs (type_annotation_lang (cesu8 E) (slots_of cs) d t)).
  { apply (part_trans _ _ _ Hp). intros u Hu. destruct (attr_dat a); cbn [type_annotations] in Ht; try (destruct Ht; fail); cbn [contents snd] in Hu; exact (part_table _ _ _ _ _ Ht Hu). }
  destruct Hq as (pre & w & post & -> & Hq). exists pre, w, post. split; auto.
  destruct Hq as (tw & v & -> & Htw & pw & aw & -> & (nw & v' & -> & Hn & Hpath) & u & v2 & -> & Hd & cw & rest & -> & _).
  apply u1_bytes in Hn. destruct Hn as (n & -> & Hn). apply (many_rows _ _ _ _ path_rows) in Hpath. destruct Hpath as (ws & -> & Hpath).
  apply ref_row in Hd. destruct Hd as (x & y & -> & Hd). exists tw, n, ws, x, y, (cw ++ rest). split; [rewrite <- !app_assoc; reflexivity|].
  split; [apply target_rows; auto|]. split; auto. split; auto. apply desc_row, Hd.
Qed.
(** A class with two type annotations: of a local variable with a path of two steps, and of a formal parameter. *)
Definition type_annotated : list byte := unhex
  "cafebabe000000340005010001410700010100054c466f6f3b01001d52756e74696d6556697369626c6554797065416e6e6f
   746174696f6e73002100020000000000000000000100040000001b0002400001000300040005020000030100030000160700
   00030000".
Example C51_meets : sane debug64 type_annotated /\ exists c cs a, parse_class_with_options debug64 true type_annotated = Ok c
  /\ constants_of debug64 type_annotated cs /\ within c a
  /\ map ta_target_type (type_annotations (attr_dat a)) = [TgLocalVar [mk_lvtg 3 4 5]; TgFormalParameter 7]
  /\ map (fun t => length (ta_target_path t)) (type_annotations (attr_dat a)) = [2%nat; 0%nat].
Proof.
  assert (Hs : sane debug64 type_annotated) by (apply ample_sane, ampleb_ample; vm_compute; reflexivity). split; [exact Hs|].
  destruct (parse_class_with_options debug64 true type_annotated) as [c| | |] eqn:H; [|exfalso; revert H; vm_compute; discriminate..].
  destruct (constants_exist _ _ _ _ Hs H) as (cs & Hcs). vm_compute in H. injection H as <-. eexists _, cs, _. split; [reflexivity|]. split; [exact Hcs|].
  split; [apply of_class; left; reflexivity|]. split; reflexivity.
Qed.
