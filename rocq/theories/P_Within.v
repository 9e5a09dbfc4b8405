(** * Where the attributes, fields and methods of an accepted class are in the file. *)
From Verif Require Import Base S_Lang S_Names S_Format S_Within P_Reads P_Tac P_Depth.
From Verif Require Import M_Bytecode M_Attributes M_Class.

(** Some part of [w] belongs to [L]. *)
Definition part (w : list byte) (L : lang) : Prop := exists pre u post, w = pre ++ u ++ post /\ L u.

Lemma part_here w (L : lang) : L w -> part w L.
Proof. intro H. exists [], w, []. rewrite app_nil_r. auto. Qed.
Lemma part_app_l u v L : part u L -> part (u ++ v) L.
Proof. intros (a & b & c & -> & H). exists a, b, (c ++ v). rewrite <- !app_assoc. auto. Qed.
Lemma part_app_r u v L : part v L -> part (u ++ v) L.
Proof. intros (a & b & c & -> & H). exists (u ++ a), b, c. rewrite <- !app_assoc. auto. Qed.
Lemma part_trans w L M : part w L -> (forall u, L u -> part u M) -> part w M.
Proof. intros (a & b & c & -> & H) HM. apply part_app_r, part_app_l, HM, H. Qed.
Lemma part_cat_l (L M N : lang) w : (L +++ M) w -> (forall u, L u -> part u N) -> part w N.
Proof. intros (u & v & -> & Hu & Hv) H. apply part_app_l; auto. Qed.
Lemma part_cat_r (L M N : lang) w : (L +++ M) w -> (forall u, M u -> part u N) -> part w N.
Proof. intros (u & v & -> & Hu & Hv) H. apply part_app_r; auto. Qed.
Lemma part_many {A} (F : A -> lang) l a w : In a l -> many F l w -> part w (F a).
Proof.
  revert w. induction l as [|b l IH]; intros w Hin H; [destruct Hin|]. destruct H as (u & v & -> & Hu & Hv). destruct Hin as [->|Hin].
  - apply part_app_l, part_here, Hu.
  - apply part_app_r; auto.
Qed.
Lemma part_table {A} cnt (F : A -> lang) l a w : In a l -> table cnt F l w -> part w (F a).
Proof. intros Hin H. apply (part_cat_r _ _ _ _ H). intro u. apply part_many; auto. Qed.

Section WithPool.
Variable dec : list byte -> option str.
Variable wraps want : bool.
Section Pool.
Variable sl : slots.
Notation attribute d := (attribute_with dec sl wraps want (attributes_lang dec sl wraps want d) d).

Lemma part_attributes d l a w : In a l -> attributes_lang dec sl wraps want d l w -> exists d', part w (attribute d' a).
Proof. destruct d; [intros _ []|]. intros Hin H. exists d. eapply part_table; eauto. Qed.
Lemma part_body (A : list attr_info -> lang) d a w : attribute_with dec sl wraps want A d a w ->
  part w (fun u => snd (contents dec sl wraps want A d (attr_dat a)) u).
Proof.
  intros (u & v & -> & _ & len & body & -> & _ & H & _). apply part_app_r, part_app_r, part_here, H.
Qed.
Lemma part_trans_ex {X} w (L : lang) (M : X -> lang) : part w L -> (forall u, L u -> exists x, part u (M x)) -> exists x, part w (M x).
Proof. intros (a & b & c & -> & H) HM. destruct (HM _ H) as [x Hx]. exists x. apply part_app_r, part_app_l, Hx. Qed.
Lemma inside_part d a b w : inside a b -> attribute d a w -> exists d', part w (attribute d' b).
Proof.
  intros Hin Ha. apply part_body in Ha. apply (part_trans_ex _ _ _ Ha). intros u Hu. destruct Hin as [n cd b Hb|n l r b Hr Hb]; cbn [attr_dat contents snd] in Hu.
  - unfold code_lang in Hu.
    assert (Hp : part u (attributes_lang dec sl wraps want d (cd_attributes cd))).
    { do 5 (apply (part_cat_r _ _ _ _ Hu); clear Hu u; intros u Hu). apply (part_cat_l _ _ _ _ Hu). intros v Hv. apply part_here, Hv. }
    apply (part_trans_ex _ _ _ Hp). intros v Hv. eapply part_attributes; eauto.
  - apply (part_table _ _ _ _ _ Hr) in Hu. apply (part_trans_ex _ _ _ Hu). intros v Hv.
    assert (Hp : part v (attributes_lang dec sl wraps want d (rc_attributes r))).
    { do 2 (apply (part_cat_r _ _ _ _ Hv); clear Hv v; intros v Hv). apply part_here, Hv. }
    apply (part_trans_ex _ _ _ Hp). intros x Hx. eapply part_attributes; eauto.
Qed.
End Pool.

Lemma class_part_field d cs c bs f : class_lang dec wraps want d cs c bs -> In f (fields c) ->
  part bs (field_lang dec (slots_of cs) wraps want d f).
Proof.
  intros [H _] Hin. do 8 (apply (part_cat_r _ _ _ _ H); clear H bs; intros bs H).
  apply (part_cat_l _ _ _ _ H). intros u Hu. eapply part_table; eauto.
Qed.
Lemma class_part_method d cs c bs m : class_lang dec wraps want d cs c bs -> In m (methods c) ->
  part bs (method_lang dec (slots_of cs) wraps want d (N.testbit (access_flags c) ACC_INTERFACE_bit) m).
Proof.
  intros [H _] Hin. do 9 (apply (part_cat_r _ _ _ _ H); clear H bs; intros bs H).
  apply (part_cat_l _ _ _ _ H). intros u Hu. eapply part_table; eauto.
Qed.
Theorem within_part d cs c bs a : class_lang dec wraps want d cs c bs -> within c a ->
  exists d', part bs (attribute_with dec (slots_of cs) wraps want (attributes_lang dec (slots_of cs) wraps want d') d' a).
Proof.
  intros Hc Hw. induction Hw as [a Ha|f a Hf Ha|m a Hm Ha|a b Hw IH Hb].
  - destruct Hc as [H _].
    assert (Hp : part bs (attributes_lang dec (slots_of cs) wraps want d (class_attributes c))).
    { do 10 (apply (part_cat_r _ _ _ _ H); clear H bs; intros bs H). apply part_here, H. }
    apply (part_trans_ex _ _ _ Hp). intros u Hu. eapply part_attributes; eauto.
  - apply (class_part_field _ _ _ _ _ Hc) in Hf. apply (part_trans_ex _ _ _ Hf). intros u Hu.
    assert (Hp : part u (attributes_lang dec (slots_of cs) wraps want d (f_attributes f))).
    { do 3 (apply (part_cat_r _ _ _ _ Hu); clear Hu u; intros u Hu). apply part_here, Hu. }
    apply (part_trans_ex _ _ _ Hp). intros v Hv. eapply part_attributes; eauto.
  - apply (class_part_method _ _ _ _ _ Hc) in Hm. apply (part_trans_ex _ _ _ Hm). intros u Hu.
    assert (Hp : part u (attributes_lang dec (slots_of cs) wraps want d (m_attributes m))).
    { do 3 (apply (part_cat_r _ _ _ _ Hu); clear Hu u; intros u Hu). apply part_here, Hu. }
    apply (part_trans_ex _ _ _ Hp). intros v Hv. eapply part_attributes; eauto.
  - destruct IH as [d' IH]. apply (part_trans_ex _ _ _ IH). intros u Hu. eapply inside_part; eauto.
Qed.
End WithPool.
