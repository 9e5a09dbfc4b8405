(** * The number of values of a class is bounded by the length of the file. *)
From Verif Require Import Base M_Names M_Descriptors M_ConstantPool M_Bytecode M_Attributes M_Class
  S_Lang S_Names S_Format S_Env S_Size P_Reads P_Tac P_Depth P_Safe6.
From Coq Require Import ZifyBool ZifyNat ZifyN.

Definition sized (L : lang) (n : nat) : Prop := forall w, L w -> (n <= length w)%nat.
Lemma sized_0 L : sized L 0. Proof. intros w _. lia. Qed.
Lemma sized_le L n m : sized L n -> (m <= n)%nat -> sized L m.
Proof. intros H Hm w Hw. apply H in Hw. lia. Qed.
Lemma sized_cat L M n m : sized L n -> sized M m -> sized (L +++ M) (n + m).
Proof. intros H1 H2 w (u & v & -> & Hu & Hv). apply H1 in Hu. apply H2 in Hv. rewrite app_length. lia. Qed.
Lemma sized_alt L M n : sized L n -> sized M n -> sized (L or M) n.
Proof. intros H1 H2 w [H|H]; auto. Qed.
Lemma sized_any {A} (L : A -> lang) P n : (forall a, sized (L a) n) -> sized (any L P) n.
Proof. intros H w (a & Ha & _). eapply H; eauto. Qed.
Lemma sized_if (P : Prop) L n : (P -> sized L n) -> sized (only_if P +++ L) n.
Proof. intros H w (u & v & -> & [-> HP] & Hv). apply H; auto. Qed.
Lemma sized_uint k n : sized (uint k n) k. Proof. intros w [H _]. lia. Qed.
Lemma sized_sint k n : sized (sint k n) k. Proof. intros w [H _]. lia. Qed.
Lemma sized_ref {A} (R : N -> A -> Prop) a : sized (ref R a) 2. Proof. intros w H. apply ref_len in H. lia. Qed.
Lemma sized_opt_ref {A} (R : N -> A -> Prop) a : sized (opt_ref R a) 2.
Proof. destruct a; cbn [opt_ref]; [|apply sized_uint]. intros w (i & Hi & _). apply (sized_uint _ _ _ Hi). Qed.
Lemma sized_flags b f : sized (flags_keep b f) 2. Proof. intros w (n & H & _). apply (sized_uint _ _ _ H). Qed.
Lemma sized_flags_exact b f : sized (flags_exact b f) 2. Proof. intros w (H & _). apply (sized_uint _ _ _ H). Qed.
Lemma sized_many {A} (F : A -> lang) f l : (forall a, sized (F a) (f a)) -> sized (many F l) (total f l).
Proof. intro H. induction l as [|a l IH]; [apply sized_0|]. cbn [many total map list_sum]. apply (sized_cat _ _ _ _ (H a) IH). Qed.
Lemma total_length {A} (l : list A) : total (fun _ => 1%nat) l = length l.
Proof. induction l as [|a l IH]; cbn; auto. Qed.
Lemma sized_rows {A} (F : A -> lang) l : (forall a, sized (F a) 1) -> sized (many F l) (length l).
Proof. intro H. rewrite <- total_length. apply sized_many, H. Qed.
Lemma sized_table {A} cnt (F : A -> lang) f l : (forall a, sized (F a) (f a)) -> sized (table cnt F l) (total f l).
Proof. intro H. apply (sized_cat _ _ 0 _ (sized_0 _)). apply sized_many, H. Qed.
Lemma sized_table_rows {A} cnt (F : A -> lang) l : (forall a, sized (F a) 1) -> sized (table cnt F l) (length l).
Proof. intro H. rewrite <- total_length. apply sized_table, H. Qed.
Lemma sized_table2 {A} (F : A -> lang) f l : (forall a, sized (F a) (f a)) -> sized (table u2 F l) (2 + total f l).
Proof. intro H. apply sized_cat; [apply sized_uint|apply sized_many, H]. Qed.
Lemma sized_table2_rows {A} (F : A -> lang) l : (forall a, sized (F a) 1) -> sized (table u2 F l) (2 + length l).
Proof. intro H. rewrite <- total_length. apply sized_table2, H. Qed.

(** Computes some lower bound for the length. *)
Ltac szd := first
  [ apply sized_uint | apply sized_sint | apply sized_ref | apply sized_opt_ref | apply sized_flags | apply sized_flags_exact
  | eapply sized_cat; [szd|szd] | eapply sized_any; intro; szd | apply sized_0 ].
Ltac sz := eapply sized_le; [szd|lia].

Section Sizes.
Variable dec : list byte -> option str.
Variable sl : list (option constant).
Variable wraps want : bool.

Lemma sized_annotation_with V a : (forall v, sized (V v) (value_size v)) -> sized (annotation_with dec sl V a) (annotation_size a).
Proof.
  intro HV. destruct a as [t els]. change (annotation_size (mk_ann t els)) with (1 + total (fun nv => 1 + value_size (snd nv))%nat els)%nat. cbn [annotation_with ann_type ann_elements]. eapply sized_le; [eapply sized_cat; [apply sized_ref|]|].
  - apply (sized_table _ _ (fun nv => 1 + value_size (snd nv))%nat). intros [n v]. eapply sized_le; [eapply sized_cat; [apply sized_ref|apply HV]|]. cbn; lia.
  - cbn [ann_elements]; lia.
Qed.
Lemma sized_element d : forall v, sized (element_lang dec sl d v) (value_size v).
Proof.
  induction d as [|d IH]; intros v; [intros w []|]. cbn [element_lang]. destruct v; cbn [element_with value_size]; try sz.
  - eapply sized_le; [eapply sized_cat; [apply sized_uint|apply sized_annotation_with, IH]|lia].
  - eapply sized_le; [eapply sized_cat; [apply sized_uint|apply sized_table, IH]|lia].
Qed.
Lemma sized_annotation d a : sized (annotation_lang dec sl d a) (annotation_size a).
Proof. apply sized_annotation_with, sized_element. Qed.
Lemma sized_type_annotation d a : sized (type_annotation_lang dec sl d a) (type_annotation_size a).
Proof.
  unfold type_annotation_lang, type_annotation_size. rewrite <- Nat.add_assoc. apply sized_cat; [|apply sized_cat; [|apply sized_annotation]].
  - destruct (ta_target_type a); cbn [target_lang target_size]; unfold between; try sz.
    apply sized_cat; [|apply sized_table_rows; intro; unfold local_var_target_lang; sz]. eapply sized_any. intro. apply sized_uint.
  - apply sized_table_rows. intro. unfold path_lang. sz.
Qed.
Lemma sized_verification v : sized (verification_lang dec sl v) 1.
Proof. destruct v; cbn [verification_lang]; sz. Qed.
Lemma sized_frame e : sized (stack_map_lang dec sl e) (frame_size e).
Proof.
  destruct e; cbn [stack_map_lang frame_size].
  - apply sized_alt; sz.
  - apply sized_alt; (eapply sized_le; [eapply sized_cat; [apply sized_uint|eapply sized_cat; [apply sized_0|apply sized_verification]]|lia]).
  - apply sized_if. intros _. sz.
  - apply sized_if. intros _. eapply sized_le; [eapply sized_cat; [apply sized_uint|eapply sized_cat; [apply sized_uint|apply sized_rows, sized_verification]]|lia].
  - eapply sized_le; [eapply sized_cat; [apply sized_uint|eapply sized_cat; [apply sized_uint|eapply sized_cat; apply sized_table_rows, sized_verification]]|lia].
Qed.
Lemma sized_insn o op : sized (insn_lang dec sl wraps o op) (opcode_size op).
Proof.
  destruct op; cbn [insn_lang opcode_size]; unfold op0, jump, local; try sz.
  all: try (repeat apply sized_alt; sz).
  - eapply sized_le; [eapply sized_cat; [apply sized_uint|eapply sized_cat; [apply sized_0|eapply sized_cat; [apply sized_0|eapply sized_cat; [apply sized_0|
      apply sized_rows; intro; sz]]]]|lia].
  - eapply sized_le; [eapply sized_cat; [apply sized_uint|eapply sized_cat; [apply sized_0|eapply sized_cat; [apply sized_0|eapply sized_cat; [apply sized_0|
      eapply sized_cat; [apply sized_0|eapply sized_cat; [apply sized_0|apply sized_rows; intro; sz]]]]]]|lia].
Qed.
Lemma sized_insns ops : forall o, sized (insns_lang dec sl wraps o ops) (total (fun oo => opcode_size (snd oo)) ops).
Proof.
  induction ops as [|[off op] ops IH]; intro o; [apply sized_0|]. cbn [insns_lang]. intros w (_ & u & v & -> & Hu & Hv).
  apply sized_insn in Hu. apply IH in Hv. rewrite app_length. change (total (fun oo => opcode_size (snd oo)) ((off, op) :: ops)) with (opcode_size op + total (fun oo => opcode_size (snd oo)) ops)%nat. lia.
Qed.

Lemma sized_code A c : (forall l, sized (A l) (total attribute_size l)) -> sized (code_lang dec sl wraps want A c) (code_size c).
Proof.
  intros HA w H. destruct c as [ms ml code bc ex l]. unfold code_lang in H. cbn [cd_max_stack cd_max_locals cd_code cd_exception_table cd_attributes cd_bytecode] in H.
  destruct H as (u1 & v1 & -> & _ & u2 & v2 & -> & _ & u3 & v3 & -> & _ & u4 & v4 & -> & Hc & u5 & v5 & -> & Hex & u6 & v6 & -> & Hl & _ & Hbc).
  change (u4 = code) in Hc. subst u4. apply HA in Hl.
  assert (He : (length ex <= length u5)%nat) by (revert Hex; apply sized_table_rows; intro; unfold exception_lang; sz).
  rewrite !app_length. change (code_size (mk_code ms ml code bc ex l)) with
    (match bc with Some b => total (fun oo => opcode_size (snd oo)) (opcodes b) | None => 0 end + length ex + total attribute_size l)%nat.
  destruct bc as [b|]; [|lia]. destruct Hbc as (_ & Hbc & _). apply sized_insns in Hbc. lia.
Qed.
Lemma sized_record A r : (forall l, sized (A l) (total attribute_size l)) -> sized (record_component_lang dec sl A r) (record_size r).
Proof.
  intros HA. destruct r as [n t l]. unfold record_component_lang. cbn [rc_name rc_descriptor rc_attributes].
  change (record_size (mk_rc n t l)) with (1 + total attribute_size l)%nat.
  eapply sized_le; [eapply sized_cat; [apply sized_ref|eapply sized_cat; [apply sized_ref|apply HA]]|lia].
Qed.
Lemma sized_module m : sized (module_lang dec sl m) (module_size m).
Proof.
  unfold module_lang, module_size. eapply sized_le.
  - eapply sized_cat; [apply sized_0|]. eapply sized_cat; [apply sized_0|]. eapply sized_cat; [apply sized_0|].
    eapply sized_cat; [apply sized_table_rows; intro; unfold require_lang; sz|].
    eapply sized_cat; [apply (sized_table _ _ (fun e => 1 + length (xp_exports_to e))%nat); intro; unfold export_lang;
      eapply sized_le; [eapply sized_cat; [apply sized_ref|eapply sized_cat; [apply sized_0|apply sized_table_rows; intro; sz]]|lia]|].
    eapply sized_cat; [apply (sized_table _ _ (fun e => 1 + length (op_opens_to e))%nat); intro; unfold open_lang;
      eapply sized_le; [eapply sized_cat; [apply sized_ref|eapply sized_cat; [apply sized_0|apply sized_table_rows; intro; sz]]|lia]|].
    eapply sized_cat; [apply sized_table_rows; intro; sz|].
    apply (sized_table _ _ (fun e => 1 + length (pv_provides_with e))%nat); intro; unfold provide_lang.
    eapply sized_le; [eapply sized_cat; [apply sized_ref|apply sized_table_rows; intro; sz]|lia].
  - lia.
Qed.
Lemma sized_contents A d a : (forall l, sized (A l) (total attribute_size l)) -> sized (snd (contents dec sl wraps want A d a)) (data_size a).
Proof.
  intro HA. destruct a; cbn [contents snd]; try apply sized_0; try (apply sized_table_rows; intro; first [sz | unfold inner_class_lang; sz | unfold line_number_lang; sz
    | unfold local_variable_lang; sz | unfold local_variable_type_lang; sz | unfold method_parameter_lang; sz]).
  - apply sized_code, HA.
  - apply sized_table, sized_frame.
  - apply sized_table. intro. apply sized_annotation.
  - apply sized_table. intro. apply sized_annotation.
  - apply sized_table. intro. eapply sized_le; [apply (sized_table2 _ annotation_size); intro; apply sized_annotation|lia].
  - apply sized_table. intro. eapply sized_le; [apply (sized_table2 _ annotation_size); intro; apply sized_annotation|lia].
  - apply sized_table. intro. apply sized_type_annotation.
  - apply sized_table. intro. apply sized_type_annotation.
  - apply sized_element.
  - apply sized_table. intro. unfold bootstrap_method_lang. eapply sized_le; [eapply sized_cat; [apply sized_ref|apply sized_table_rows; intro; sz]|lia].
  - apply sized_module.
  - change (data_size (ARecord l)) with (total record_size l). apply sized_table. intro. apply sized_record, HA.
Qed.
Lemma sized_attribute A d a : (forall l, sized (A l) (total attribute_size l)) -> sized (attribute_with dec sl wraps want A d a) (attribute_size a).
Proof.
  intros HA. destruct a as [n dt]. unfold attribute_with. cbn [attr_name attr_dat]. change (attribute_size (mk_attr n dt)) with (1 + data_size dt)%nat.
  eapply sized_le; [eapply sized_cat; [apply sized_ref|]|]; [|instantiate (1 := data_size dt); lia].
  intros w (len & body & -> & _ & Hb & _). apply (sized_contents A d dt HA) in Hb. rewrite app_length. lia.
Qed.
Lemma sized_attributes d : forall l, sized (attributes_lang dec sl wraps want d l) (total attribute_size l).
Proof. induction d as [|d IH]; intro l; [intros w []|]. cbn [attributes_lang]. apply sized_table. intro. apply sized_attribute, IH. Qed.
End Sizes.

Theorem sized_class dec wraps want d cs c bs : class_lang dec wraps want d cs c bs -> (class_size c <= length bs)%nat.
Proof.
  intros (H & HP & _). destruct H as (u0 & v0 & -> & K0 & u1 & v1 & -> & K1 & u2 & v2 & -> & K2 & u3 & v3 & -> & K3 & u4 & v4 & -> & K4 & u5 & v5 & -> & K5
    & u6 & v6 & -> & K6 & u7 & v7 & -> & K7 & u8 & v8 & -> & K8 & u9 & T & -> & K9 & HT).
  rewrite !app_length. unfold class_size. rewrite HP.
  destruct K3 as (count & (a & b & -> & _ & Hmany) & _). apply many_blen in Hmany. unfold pool_of, slots_of in *. cbn [length] in *. rewrite map_length in *. apply sized_uint in K0.
  assert (L7 : (length (interfaces c) <= length u7)%nat) by (revert K7; apply sized_table_rows; intro; sz).
  assert (L8 : (total (fun f => 1 + total attribute_size (f_attributes f)) (fields c) <= length u8)%nat).
  { revert K8. apply sized_table. intro. unfold field_lang. eapply sized_le; [eapply sized_cat; [apply sized_flags|eapply sized_cat; [apply sized_ref|eapply sized_cat; [apply sized_ref|apply sized_attributes]]]|lia]. }
  assert (L9 : (total (fun f => 1 + total attribute_size (m_attributes f)) (methods c) <= length u9)%nat).
  { revert K9. apply sized_table. intro. unfold method_lang. eapply sized_le; [eapply sized_cat; [apply sized_flags|eapply sized_cat; [apply sized_ref|eapply sized_cat; [apply sized_ref|apply sized_attributes]]]|lia]. }
  apply sized_attributes in HT. rewrite app_length. lia.
Qed.
