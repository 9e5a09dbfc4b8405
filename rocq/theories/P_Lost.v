(** * What parsing forgets: the format, piece by piece. *)
From Verif Require Import Base M_Descriptors M_ConstantPool M_Bytecode M_Attributes M_Class S_Lang S_Names S_Format S_Lost P_Reads P_Tac P_Assemble.
From Coq Require Import ZifyBool ZifyNat ZifyN.

Section Lost.
Variable dec : list byte -> option str.
Variable sl : slots.
Variable wraps want : bool.
Notation alike := (alike dec sl).
Definition det2 (P : list byte -> list byte -> Prop) (L L' : lang) : Prop := forall w w', L w -> L' w' -> alike P w w'.
Notation det P L := (det2 P L L).

Lemma alike_weaken (P Q : list byte -> list byte -> Prop) w w' : (forall u u', P u u' -> Q u u') -> alike P w w' -> alike Q w w'.
Proof.
  intros H Ha. induction Ha; [apply alike_same|eapply alike_index; eassumption|apply alike_piece; auto|apply alike_both; assumption].
Qed.
Lemma det_weaken P L L' : det2 nothing L L' -> det2 P L L'.
Proof. intros H w w' Hw Hw'. eapply alike_weaken; [|exact (H w w' Hw Hw')]. intros ? ? []. Qed.
Lemma det_rigid P L : rigid L -> det P L.
Proof. intros H w w' Hw Hw'. rewrite (H _ _ Hw Hw'). apply alike_same. Qed.
Lemma det_cat P L L' M M' : det2 P L L' -> det2 P M M' -> det2 P (L +++ M) (L' +++ M').
Proof. intros H1 H2 w w' (u & v & -> & Hu & Hv) (u' & v' & -> & Hu' & Hv'). apply alike_both; [apply H1|apply H2]; assumption. Qed.
Lemma det_many {A} P (F F' : A -> lang) l : (forall a, det2 P (F a) (F' a)) -> det2 P (many F l) (many F' l).
Proof. intro H. induction l as [|a l IH]; [apply det_rigid, rigid_eps|]. cbn [many]. apply det_cat; auto. Qed.
Lemma det_table {A} P k (F F' : A -> lang) l : (forall a, det2 P (F a) (F' a)) -> det2 P (table (uint k) F l) (table (uint k) F' l).
Proof. intro H. apply det_cat; [apply det_rigid, rigid_uint|apply det_many, H]. Qed.
Lemma det_ref {A} P (R : N -> A -> Prop) a : (forall i j, R i a -> R j a -> lookalike dec sl i j) -> det P (ref R a).
Proof. intros H w w' (i & Hi & Ri) (j & Hj & Rj). exact (alike_index _ _ _ i j w w' Hi Hj (H i j Ri Rj)). Qed.
Lemma det_opt {A} P (R : N -> A -> Prop) o : (forall a, det P (ref R a)) -> det P (opt_ref R o).
Proof. intro H. destruct o; cbn; [apply H|apply det_rigid, rigid_uint]. Qed.

(** ** Indices *)
Definition says {A} (R : N -> A -> Prop) : Prop := forall a i j, R i a -> R j a -> lookalike dec sl i j.
Lemma says_utf8 : says (utf8_at dec sl). Proof. intros s i j. apply same_text. Qed.
Lemma says_item {A} (R : N -> A -> Prop) (f : A -> cp_item) : (forall i a, R i a -> item_at dec sl i (f a)) -> says R.
Proof. intros H a i j Hi Hj. exact (same_item _ _ _ _ _ (H i a Hi) (H j a Hj)). Qed.
Lemma says_class : says (class_at dec sl). Proof. apply (says_item _ ItClassInfo). intros i a H. exact H. Qed.
Lemma says_module : says (module_at dec sl). Proof. apply (says_item _ ItModuleInfo). intros i a H. exact H. Qed.
Lemma says_package : says (package_at dec sl). Proof. apply (says_item _ ItPackageInfo). intros i a H. exact H. Qed.
Lemma says_nat : says (name_and_type_at dec sl). Proof. apply (says_item _ ItNameAndType). intros i a H. exact H. Qed.
Lemma says_handle : says (method_handle_at dec sl). Proof. apply (says_item _ ItMethodHandle). intros i a H. exact H. Qed.
Lemma says_literal : says (literal_at dec sl). Proof. apply (says_item _ ItLiteral). intros i a H. exact H. Qed.
Lemma says_int : says (fun i z => at_index sl i (CInteger z)). Proof. apply (says_item _ (fun z => ItLiteral (LInteger z))). intros i a H. exact H. Qed.
Lemma says_long : says (fun i z => at_index sl i (CLong z)). Proof. apply (says_item _ (fun z => ItLiteral (LLong z))). intros i a H. exact H. Qed.
Lemma says_float : says (fun i z => at_index sl i (CFloat z)). Proof. apply (says_item _ (fun z => ItLiteral (LFloat z))). intros i a H. exact H. Qed.
Lemma says_double : says (fun i z => at_index sl i (CDouble z)). Proof. apply (says_item _ (fun z => ItLiteral (LDouble z))). intros i a H. exact H. Qed.
Lemma says_argument : says (bootstrap_arg_at dec sl).
Proof.
  apply (says_item _ (fun a => match a with BaLiteral l => ItLiteral l | BaClassInfo s => ItClassInfo s | BaMethodHandle h => ItMethodHandle h | BaMethodType s => ItMethodType s end)).
  intros i []; exact (fun H => H).
Qed.
Lemma says_that {A} (R : N -> A -> Prop) P : says R -> says (that R P).
Proof. intros H a i j [Hi _] [Hj _]. exact (H a i j Hi Hj). Qed.
Lemma says_field : says (field_desc_at dec sl).
Proof. intros d i j (s & Hs & Hd) (t & Ht & He). exact (same_field_descriptor _ _ _ _ d s t Hs Ht Hd He). Qed.
Lemma says_method : says (method_desc_at dec sl).
Proof. intros d i j (s & Hs & Hd) (t & Ht & He). exact (same_method_descriptor _ _ _ _ d s t Hs Ht Hd He). Qed.

Lemma det_says {A} P (R : N -> A -> Prop) a : says R -> det P (ref R a).
Proof. intro H. apply det_ref. intros i j. apply H. Qed.
Ltac says := first [apply says_that; says | exact says_utf8 | exact says_class | exact says_module | exact says_package | exact says_nat | exact says_handle
  | exact says_literal | exact says_int | exact says_long | exact says_float | exact says_double | exact says_argument | exact says_field | exact says_method].
Ltac rigs := first [apply rigid_uint | apply rigid_sint | apply rigid_only | apply rigid_eps].
Lemma rigid_exact named f : rigid (flags_exact named f).
Proof. intros w w' [H _] [H' _]. exact (rigid_uint _ _ _ _ H H'). Qed.
Lemma rigid_raw b : rigid (raw b). Proof. intros w w' -> ->. reflexivity. Qed.
Ltac det1 := first [apply det_says; says | apply det_rigid; first [rigs|apply rigid_exact|apply rigid_raw] | apply det_opt; intro
  | apply det_table; intro | apply det_cat].
Ltac dets := unfold u1, u2, u4, u8, s1, s2, s4, s8 in *; repeat det1.

Lemma det_exception P e : det P (exception_lang dec sl e). Proof. unfold exception_lang. dets. Qed.
Lemma det_verification P v : det P (verification_lang dec sl v). Proof. destruct v; cbn [verification_lang]; dets. Qed.
Lemma det_frame e : det frames (stack_map_lang dec sl e).
Proof.
  assert (Hv : forall v, det frames (verification_lang dec sl v)) by apply det_verification.
  destruct e as [d|d v|d k|d vs|d lo st]; cbn [stack_map_lang].
  - intros w w' [(u & v & -> & Hu & -> & Hd)|H] [(u' & v' & -> & Hu' & -> & Hd')|H']; rewrite ?app_nil_r.
    + apply (det_rigid _ _ (rigid_uint 1 d)); assumption.
    + apply alike_piece. left. exists d. auto.
    + apply alike_piece. right. exists d. auto.
    + revert w w' H H'. change (det frames (u1 251 +++ u2 d)). dets.
  - intros w w' [(u & x & -> & Hu & y & z & -> & (-> & Hd) & Hz)|(u & x & -> & Hu & y & z & -> & Hy & Hz)]
      [(u' & x' & -> & Hu' & y' & z' & -> & (-> & Hd') & Hz')|(u' & x' & -> & Hu' & y' & z' & -> & Hy' & Hz')]; cbn [app]; rewrite ?(app_assoc u y z), ?(app_assoc u' y' z');
      (apply alike_both; [|apply (Hv v); assumption]).
    + apply (det_rigid _ _ (rigid_uint 1 (64 + d))); assumption.
    + apply alike_piece. left. exists d. split; [assumption|]. right. split; [assumption|]. exists u', y'. auto.
    + apply alike_piece. right. exists d. split; [assumption|]. right. split; [assumption|]. exists u, y. auto.
    + apply alike_both; [apply (det_rigid _ _ (rigid_uint 1 247))|apply (det_rigid _ _ (rigid_uint 2 d))]; assumption.
  - dets.
  - dets. apply det_many. intro. apply Hv.
  - dets; apply Hv.
Qed.
Lemma det_flags named f : det (flags named) (flags_keep named f).
Proof. intros w w' H H'. apply alike_piece. exists f. auto. Qed.
Lemma det_inner c : det (flags inner_class_bits) (inner_class_lang dec sl c).
Proof. unfold inner_class_lang. dets. apply det_flags. Qed.
Lemma det_line P l : det P (line_number_lang l). Proof. unfold line_number_lang. dets. Qed.
Lemma det_local P l : det P (local_variable_lang dec sl l). Proof. unfold local_variable_lang. dets. Qed.
Lemma det_local_type P l : det P (local_variable_type_lang dec sl l). Proof. unfold local_variable_type_lang. dets. Qed.

Lemma det_annotation_with P V V' a : (forall v, det2 P (V v) (V' v)) -> det2 P (annotation_with dec sl V a) (annotation_with dec sl V' a).
Proof. intro H. unfold annotation_with. apply det_cat; [dets|]. apply det_table. intro. apply det_cat; [dets|]. apply H. Qed.
Lemma det_element P d : forall d' v, det2 P (element_lang dec sl d v) (element_lang dec sl d' v).
Proof.
  induction d as [|d IH]; intros d' v; [intros w w' []|]. destruct d' as [|d']; [intros w w' _ []|].
  cbn [element_lang]. destruct v; cbn [element_with]; dets; apply IH.
Qed.
Lemma det_annotation P d d' a : det2 P (annotation_lang dec sl d a) (annotation_lang dec sl d' a).
Proof. apply det_annotation_with. apply det_element. Qed.
Lemma det_target t : det target (target_lang t).
Proof.
  assert (Hb : forall lo hi, In (lo, hi) [(0x00, 0x01); (0x11, 0x12); (0x13, 0x15); (0x40, 0x41); (0x43, 0x46); (0x47, 0x4b)] -> det target (between lo hi)).
  { intros lo hi Hin w w' (k & Hk & Hr) (k' & Hk' & Hr'). apply alike_piece. exists k, k', lo, hi. auto. }
  destruct t; cbn [target_lang]; dets; try (apply Hb; cbn; tauto).
  all: unfold local_var_target_lang; dets.
Qed.
Lemma det_type_annotation d d' a : det2 target (type_annotation_lang dec sl d a) (type_annotation_lang dec sl d' a).
Proof. unfold type_annotation_lang. apply det_cat; [apply det_target|]. apply det_cat; [|apply det_annotation]. unfold path_lang. dets. Qed.
Lemma det_bootstrap P b : det P (bootstrap_method_lang dec sl b). Proof. unfold bootstrap_method_lang. dets. Qed.
Lemma det_parameter P m : det P (method_parameter_lang dec sl m). Proof. unfold method_parameter_lang. dets. Qed.
Lemma det_module P m : det P (module_lang dec sl m).
Proof. unfold module_lang, require_lang, export_lang, open_lang, provide_lang. dets. Qed.

(** ** Attributes *)
Notation attribute_alike := (attribute_alike dec sl).
Notation contents_alike := (contents_alike dec sl).
Section Nested.
Variable A A' : list attr_info -> lang.
Hypothesis HA : forall l, det2 attribute_alike (A l) (A' l).
Lemma det_component r : det2 attribute_alike (record_component_lang dec sl A r) (record_component_lang dec sl A' r).
Proof. unfold record_component_lang. apply det_cat; [dets|]. apply det_cat; [dets|apply HA]. Qed.
Lemma det_code c : det2 attribute_alike (code_lang dec sl wraps want A c) (code_lang dec sl wraps want A' c).
Proof.
  unfold code_lang, u2, u4. do 4 (apply det_cat; [dets|]). apply det_cat; [apply det_table; intro; apply det_exception|].
  apply det_cat; [apply HA|]. apply det_rigid, rigid_only.
Qed.
Lemma contents_say d d' name a w w' : contents_lang dec sl wraps want A d name a w -> contents_lang dec sl wraps want A' d' name a w' -> contents_alike name w w'.
Proof.
  intros [H Hn] [H' _].
  destruct a; cbn [contents snd fst] in H, H', Hn; try rewrite Hn;
    try solve [apply plain_alike; revert w w' H H'; match goal with |- forall w w', ?L w -> ?L' w' -> _ => change (det2 nothing L L') end; dets;
      first [apply det_exception|apply det_line|apply det_local|apply det_local_type|apply det_annotation|apply det_bootstrap|apply det_parameter|apply det_module|apply det_element]].
  - apply code_alike. apply (det_code _ w w' H H').
  - apply frames_alike. revert w w' H H'. apply det_table. intro. apply det_frame.
  - apply classes_alike. revert w w' H H'. apply det_table. intro. apply det_inner.
  - exact (text_alike _ _ _ _ _ H H').
  - apply visible_alike. revert w w' H H'. apply det_table. intro. apply det_type_annotation.
  - apply invisible_alike. revert w w' H H'. apply det_table. intro. apply det_type_annotation.
  - apply record_alike. revert w w' H H'. apply det_table. intro. apply det_component.
Qed.
Lemma det_attribute d d' a : det2 attribute_alike (attribute_with dec sl wraps want A d a) (attribute_with dec sl wraps want A' d' a).
Proof.
  intros w w' (n & x & -> & (i & Hi & Ri) & l & body & -> & Hl & Hc) (n' & x' & -> & (i' & Hi' & Ri') & l' & body' & -> & Hl' & Hc').
  apply alike_piece. apply (attributes_say_the_same dec sl (attr_name a) i i'); try assumption. exact (contents_say _ _ _ _ _ _ Hc Hc').
Qed.
End Nested.
Lemma det_attributes d : forall d' l, det2 attribute_alike (attributes_lang dec sl wraps want d l) (attributes_lang dec sl wraps want d' l).
Proof.
  induction d as [|d IH]; intros d' l; [intros w w' []|]. destruct d' as [|d']; [intros w w' _ []|].
  cbn [attributes_lang]. apply det_table. intro a. apply det_attribute. apply IH.
Qed.
Lemma det_member_attributes named d d' l : det2 (member_alike dec sl named) (attributes_lang dec sl wraps want d l) (attributes_lang dec sl wraps want d' l).
Proof.
  intros w w' H H'. eapply alike_weaken; [|exact (det_attributes d d' l w w' H H')]. intros u u' Hu. right. exact Hu.
Qed.
Lemma det_member_flags named f : det (member_alike dec sl named) (flags_keep named f).
Proof. intros w w' H H'. apply alike_piece. left. exists f. auto. Qed.
Lemma det_field d d' f : det2 (member_alike dec sl field_bits) (field_lang dec sl wraps want d f) (field_lang dec sl wraps want d' f).
Proof. unfold field_lang. apply det_cat; [apply det_member_flags|]. do 2 (apply det_cat; [dets|]). apply det_member_attributes. Qed.
Lemma det_method d d' b m : det2 (member_alike dec sl method_bits) (method_lang dec sl wraps want d b m) (method_lang dec sl wraps want d' b m).
Proof. unfold method_lang. apply det_cat; [apply det_member_flags|]. do 2 (apply det_cat; [dets|]). apply det_member_attributes. Qed.
End Lost.
