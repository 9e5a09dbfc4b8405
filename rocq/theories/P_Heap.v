(** * The number of texts of a class is bounded by the length of the file. *)
From Verif Require Import Base M_Names M_Descriptors M_ConstantPool M_Bytecode M_Attributes M_Class
  S_Lang S_Names S_Format S_Env S_Size S_Texts P_Reads P_Tac P_Depth P_Safe6 P_Size.
From Coq Require Import ZifyBool ZifyNat ZifyN.

(** In half texts; the characters of a debug text count as texts. *)
Definition cost (t : text) : nat := match t with TDebug s => 2 * N.to_nat (str_len s) | _ => 2 end.
Notation costs := (total cost).
Lemma total_app {A} (f : A -> nat) l m : total f (l ++ m) = (total f l + total f m)%nat.
Proof. unfold total. rewrite map_app, list_sum_app. reflexivity. Qed.
Lemma total_cons {A} (f : A -> nat) x l : total f (x :: l) = (f x + total f l)%nat.
Proof. reflexivity. Qed.
Lemma total_nil {A} (f : A -> nat) : total f [] = 0%nat.
Proof. reflexivity. Qed.
Lemma total_flat_map {A B} (g : B -> nat) (f : A -> list B) l : total g (flat_map f l) = total (fun a => total g (f a)) l.
Proof. induction l as [|a l IH]; cbn [flat_map]; [reflexivity|]. rewrite total_app, IH. reflexivity. Qed.
Lemma total_map {A B} (g : B -> nat) (f : A -> B) l : total g (map f l) = total (fun a => g (f a)) l.
Proof. unfold total. rewrite map_map. reflexivity. Qed.

(** Words of [L] have at least [n] thirds of a byte. *)
Definition light (L : lang) (n : nat) : Prop := forall w, L w -> (n <= 3 * length w)%nat.
Lemma light_sized L n m : sized L n -> (m <= 3 * n)%nat -> light L m.
Proof. intros H Hle w Hw. apply H in Hw. lia. Qed.
Lemma light_0 L : light L 0. Proof. intros w _. lia. Qed.
Lemma light_le L n m : light L n -> (m <= n)%nat -> light L m.
Proof. intros H Hle w Hw. apply H in Hw. lia. Qed.
Lemma light_cat L M n m : light L n -> light M m -> light (L +++ M) (n + m).
Proof. intros HL HM w (u & v & -> & Hu & Hv). apply HL in Hu. apply HM in Hv. rewrite app_length. lia. Qed.
Lemma light_alt L M n : light L n -> light M n -> light (L or M) n.
Proof. intros HL HM w [H|H]; auto. Qed.
Lemma light_if (P : Prop) L n : (P -> light L n) -> light (only_if P +++ L) n.
Proof. intros H w (u & v & -> & (Hu & HP) & Hv). cbn in Hu. rewrite app_length. apply (H HP) in Hv. lia. Qed.
Lemma light_uint k n : light (uint k n) (3 * k). Proof. eapply light_sized; [apply sized_uint|lia]. Qed.
Lemma light_sint k n : light (sint k n) (3 * k). Proof. eapply light_sized; [apply sized_sint|lia]. Qed.
Lemma light_ref {A} (R : N -> A -> Prop) a : light (ref R a) 6. Proof. eapply light_sized; [apply sized_ref|lia]. Qed.
Lemma light_ref1 {A} (R : N -> A -> Prop) a : light (ref1 R a) 3.
Proof. eapply light_sized; [unfold ref1; eapply sized_any; intro; apply sized_uint|lia]. Qed.
Lemma light_opt_ref {A} (R : N -> A -> Prop) a : light (opt_ref R a) 6. Proof. eapply light_sized; [apply sized_opt_ref|lia]. Qed.
Lemma light_flags b f : light (flags_keep b f) 6. Proof. eapply light_sized; [apply sized_flags|lia]. Qed.
Lemma light_flags_exact b f : light (flags_exact b f) 6. Proof. eapply light_sized; [apply sized_flags_exact|lia]. Qed.
Lemma light_any {A} (L : A -> lang) P n : (forall a, light (L a) n) -> light (any L P) n.
Proof. intros H w (a & Ha & _). exact (H a w Ha). Qed.
Lemma light_many {A} (F : A -> lang) f l : (forall a, light (F a) (costs (f a))) -> light (many F l) (costs (flat_map f l)).
Proof. intro H. rewrite total_flat_map. induction l as [|a l IH]; [apply light_0|]. cbn [many total map list_sum]. apply (light_cat _ _ _ _ (H a) IH). Qed.
Lemma light_table {A} cnt (F : A -> lang) f l : (forall a, light (F a) (costs (f a))) -> light (table cnt F l) (costs (flat_map f l)).
Proof. intro H. apply (light_cat _ _ 0 _ (light_0 _)). apply light_many, H. Qed.
Lemma light_table2 {A} (F : A -> lang) f l : (forall a, light (F a) (costs (f a))) -> light (table u2 F l) (6 + costs (flat_map f l)).
Proof. intro H. apply light_cat; [apply light_uint|apply light_many, H]. Qed.
Lemma flat_map_single {A B} (f : A -> B) l : flat_map (fun a => [f a]) l = map f l.
Proof. induction l as [|a l IH]; cbn; [auto|now rewrite IH]. Qed.
Lemma light_refs {A} cnt (R : N -> A -> Prop) (f : A -> text) l : (forall a, cost (f a) <= 6)%nat -> light (table cnt (ref R) l) (costs (map f l)).
Proof. intro H. rewrite <- flat_map_single. apply (light_table _ _ (fun a => [f a])). intro a. eapply light_le; [apply light_ref|]. rewrite total_cons, total_nil. specialize (H a). lia. Qed.
Ltac lt := first
  [ apply light_uint | apply light_sint | apply light_ref | apply light_ref1 | apply light_opt_ref | apply light_flags | apply light_flags_exact
  | eapply light_cat; [lt|lt] | eapply light_any; intro; lt | apply light_0 ].
Ltac texts := repeat first [rewrite total_app | rewrite total_cons | rewrite total_nil]; cbn [cost].
Ltac lz := eapply light_le; [lt|texts; lia].

Lemma opt_cost o : (costs (opt_string o) <= 2)%nat.
Proof. destruct o; cbn [opt_string]; texts; lia. Qed.
Lemma nt_cost n : costs (nt_texts n) = 4%nat. Proof. reflexivity. Qed.
Lemma literal_cost l : (costs (literal_texts l) <= 2)%nat.
Proof. destruct l; cbn [literal_texts]; texts; lia. Qed.
Lemma loadable_cost l : (costs (loadable_texts l) <= 6)%nat.
Proof. destruct l; cbn [loadable_texts]; unfold handle_texts, nt_texts; texts; try lia. pose proof (literal_cost l). lia. Qed.
Lemma argument_cost l : (costs (argument_texts l) <= 6)%nat.
Proof. destruct l; cbn [argument_texts]; unfold handle_texts, nt_texts; texts; try lia. pose proof (literal_cost l). lia. Qed.
Lemma array_type_cost t : costs (array_type_texts t) = 2%nat.
Proof. destruct t; reflexivity. Qed.

Section Costs.
Variable dec : list byte -> option str.
Hypothesis dec_len : forall w s, dec w = Some s -> (N.to_nat (str_len s) <= length w)%nat.
Variable sl : list (option constant).
Variable wraps want : bool.

Lemma light_annotation_with V a : (forall v, light (V v) (costs (value_texts v))) -> light (annotation_with dec sl V a) (costs (annotation_texts a)).
Proof.
  intro HV. destruct a as [t els]. change (annotation_texts (mk_ann t els)) with (TField t :: flat_map (fun nv => TString (fst nv) :: value_texts (snd nv)) els).
  cbn [annotation_with ann_type ann_elements]. eapply light_le; [eapply light_cat; [apply light_ref|]|].
  - apply (light_table _ _ (fun nv => TString (fst nv) :: value_texts (snd nv))). intros [n v]. eapply light_le; [eapply light_cat; [apply light_ref|apply HV]|]. cbn [fst snd]. texts. lia.
  - cbn [ann_elements]. texts. lia.
Qed.
Lemma light_element d : forall v, light (element_lang dec sl d v) (costs (value_texts v)).
Proof.
  induction d as [|d IH]; intros v; [intros w []|]. cbn [element_lang]. destruct v; cbn [element_with value_texts]; try lz.
  - eapply light_le; [eapply light_cat; [apply light_uint|apply light_annotation_with, IH]|lia].
  - eapply light_le; [eapply light_cat; [apply light_uint|apply light_table, IH]|lia].
Qed.
Lemma light_annotation d a : light (annotation_lang dec sl d a) (costs (annotation_texts a)).
Proof. apply light_annotation_with, light_element. Qed.
Lemma light_type_annotation d a : light (type_annotation_lang dec sl d a) (costs (annotation_texts (ta_annotation a))).
Proof. unfold type_annotation_lang. eapply light_le; [eapply light_cat; [apply light_0|eapply light_cat; [apply light_0|apply light_annotation]]|lia]. Qed.
Lemma light_verification v : light (verification_lang dec sl v) (costs (verification_texts v)).
Proof. destruct v; cbn [verification_lang verification_texts]; lz. Qed.
Lemma light_frame e : light (stack_map_lang dec sl e) (costs (frame_texts e)).
Proof.
  destruct e; cbn [stack_map_lang frame_texts]; texts.
  - apply light_0.
  - apply light_alt; (eapply light_le; [eapply light_cat; [apply light_0|eapply light_cat; [apply light_0|apply light_verification]]|lia]).
  - apply light_0.
  - eapply light_le; [eapply light_cat; [apply light_0|eapply light_cat; [apply light_0|eapply light_cat; [apply light_0|apply light_many, light_verification]]]|lia].
  - eapply light_le; [eapply light_cat; [apply light_0|eapply light_cat; [apply light_0|eapply light_cat; apply light_table, light_verification]]|lia].
Qed.
Lemma light_insn o op : light (insn_lang dec sl wraps o op) (costs (opcode_texts op)).
Proof.
  destruct op; cbn [insn_lang opcode_texts]; try apply light_0;
    (eapply light_le; [lt|]; unfold member_texts, nt_texts; texts; try lia).
  all: first [rewrite array_type_cost; lia | match goal with |- context [loadable_texts ?l] => pose proof (loadable_cost l); lia end].
Qed.
Lemma light_insns ops : forall o, light (insns_lang dec sl wraps o ops) (costs (flat_map (fun oo => opcode_texts (snd oo)) ops)).
Proof.
  induction ops as [|[off op] ops IH]; intro o; [apply light_0|]. cbn [insns_lang flat_map snd]. intros w (_ & u & v & -> & Hu & Hv).
  apply light_insn in Hu. apply IH in Hv. rewrite app_length, total_app. lia.
Qed.
Lemma light_code A c : (forall l, light (A l) (costs (flat_map attribute_texts l))) -> light (code_lang dec sl wraps want A c) (costs (code_texts c)).
Proof.
  intros HA w H. destruct c as [ms ml code bc ex l]. unfold code_lang in H. cbn [cd_max_stack cd_max_locals cd_code cd_exception_table cd_attributes cd_bytecode] in H.
  destruct H as (u1 & v1 & -> & _ & u2 & v2 & -> & _ & u3 & v3 & -> & _ & u4 & v4 & -> & Hc & u5 & v5 & -> & Hex & u6 & v6 & -> & Hl & _ & Hbc).
  change (u4 = code) in Hc. subst u4. apply HA in Hl.
  assert (He : (costs (flat_map (fun h => opt_string (ex_catch_type h)) ex) <= 3 * length u5)%nat).
  { revert Hex. apply (light_table _ _ (fun h => opt_string (ex_catch_type h))). intro h. unfold exception_lang. eapply light_le; [lt|]. pose proof (opt_cost (ex_catch_type h)). lia. }
  rewrite !app_length. change (code_texts (mk_code ms ml code bc ex l)) with
    (match bc with Some b => flat_map (fun oo => opcode_texts (snd oo)) (opcodes b) | None => [] end ++ flat_map (fun h => opt_string (ex_catch_type h)) ex ++ flat_map attribute_texts l).
  rewrite !total_app. destruct bc as [b|]; [|rewrite total_nil; lia]. destruct Hbc as (_ & Hbc & _). apply light_insns in Hbc. lia.
Qed.
Lemma light_record A r : (forall l, light (A l) (costs (flat_map attribute_texts l))) -> light (record_component_lang dec sl A r) (costs (record_texts r)).
Proof.
  intros HA. destruct r as [n t l]. unfold record_component_lang. cbn [rc_name rc_descriptor rc_attributes].
  change (record_texts (mk_rc n t l)) with (TString n :: TField t :: flat_map attribute_texts l).
  eapply light_le; [eapply light_cat; [apply light_ref|eapply light_cat; [apply light_ref|apply HA]]|texts; lia].
Qed.
Lemma light_module m : light (module_lang dec sl m) (costs (module_texts m)).
Proof.
  unfold module_lang, module_texts. eapply light_le.
  - eapply light_cat; [apply light_ref|]. eapply light_cat; [apply light_0|]. eapply light_cat; [apply light_opt_ref|].
    eapply light_cat; [apply (light_table _ _ (fun r => TString (rq_name r) :: opt_string (rq_version r))); intro r; unfold require_lang;
      eapply light_le; [lt|texts; pose proof (opt_cost (rq_version r)); lia]|].
    eapply light_cat; [apply (light_table _ _ (fun x => TString (xp_package_name x) :: map TString (xp_exports_to x))); intro; unfold export_lang;
      eapply light_le; [eapply light_cat; [apply light_ref|eapply light_cat; [apply light_0|apply (light_refs _ _ TString); intro; cbn [cost]; lia]]|texts; lia]|].
    eapply light_cat; [apply (light_table _ _ (fun x => TString (op_package_name x) :: map TString (op_opens_to x))); intro; unfold open_lang;
      eapply light_le; [eapply light_cat; [apply light_ref|eapply light_cat; [apply light_0|apply (light_refs _ _ TString); intro; cbn [cost]; lia]]|texts; lia]|].
    eapply light_cat; [apply (light_refs _ _ TString); intro; cbn [cost]; lia|].
    apply (light_table _ _ (fun x => TString (pv_service_interface_name x) :: map TString (pv_provides_with x))); intro; unfold provide_lang.
    eapply light_le; [eapply light_cat; [apply light_ref|apply (light_refs _ _ TString); intro; cbn [cost]; lia]|texts; lia].
  - texts. pose proof (opt_cost (md_version m)). lia.
Qed.
Ltac one := apply (light_refs _ _ TString); intro; cbn [cost]; lia.
Lemma light_contents A d a : (forall l, light (A l) (costs (flat_map attribute_texts l))) -> light (snd (contents dec sl wraps want A d a)) (costs (data_texts a)).
Proof.
  intro HA. destruct a; cbn [contents snd data_texts]; try apply light_0; try one; try lz.
  - eapply light_le; [apply light_ref|]. pose proof (literal_cost l). lia.
  - apply light_code, HA.
  - apply light_table, light_frame.
  - apply (light_table _ _ (fun c => TString (ic_inner_class_info c) :: opt_string (ic_outer_class_info c) ++ opt_string (ic_inner_name c))). intro c. unfold inner_class_lang.
    eapply light_le; [lt|]. texts. pose proof (opt_cost (ic_outer_class_info c)). pose proof (opt_cost (ic_inner_name c)). lia.
  - eapply light_le; [lt|]. match goal with |- context [match ?x with Some _ => _ | None => _ end] => destruct x end; unfold nt_texts; texts; lia.
  - intros w Hw. apply dec_len in Hw. texts. lia.
  - apply (light_table _ _ (fun v => [TString (lv_name v); TField (lv_descriptor v)])). intro c. unfold local_variable_lang. lz.
  - apply (light_table _ _ (fun v => [TString (lvt_name v); TString (lvt_signature v)])). intro c. unfold local_variable_type_lang. lz.
  - apply light_table. intro. apply light_annotation.
  - apply light_table. intro. apply light_annotation.
  - apply light_table. intro. apply light_table. intro. apply light_annotation.
  - apply light_table. intro. apply light_table. intro. apply light_annotation.
  - apply (light_table _ _ (fun a => annotation_texts (ta_annotation a))). intro. apply light_type_annotation.
  - apply (light_table _ _ (fun a => annotation_texts (ta_annotation a))). intro. apply light_type_annotation.
  - apply light_element.
  - apply (light_table _ _ (fun b => handle_texts (bm_method b) ++ flat_map argument_texts (bm_arguments b))). intro. unfold bootstrap_method_lang.
    eapply light_le; [eapply light_cat; [apply light_ref|apply (light_table _ _ argument_texts); intro b; eapply light_le; [apply light_ref|apply argument_cost]]|].
    unfold handle_texts, nt_texts. texts. lia.
  - apply (light_table _ _ (fun m => opt_string (mp_name m))). intro m. unfold method_parameter_lang. eapply light_le; [lt|]. pose proof (opt_cost (mp_name m)). lia.
  - apply light_module.
  - change (data_texts (ARecord l)) with (flat_map record_texts l). apply light_table. intro. apply light_record, HA.
Qed.
Lemma light_attribute A d a : (forall l, light (A l) (costs (flat_map attribute_texts l))) -> light (attribute_with dec sl wraps want A d a) (costs (attribute_texts a)).
Proof.
  intros HA. destruct a as [n dt]. unfold attribute_with. cbn [attr_name attr_dat]. change (attribute_texts (mk_attr n dt)) with (TString n :: data_texts dt).
  eapply light_le; [eapply light_cat; [apply light_ref|]|]; [|instantiate (1 := costs (data_texts dt)); texts; lia].
  intros w (len & body & -> & _ & Hb & _). apply (light_contents A d dt HA) in Hb. rewrite app_length. lia.
Qed.
Lemma light_attributes d : forall l, light (attributes_lang dec sl wraps want d l) (costs (flat_map attribute_texts l)).
Proof. induction d as [|d IH]; intro l; [intros w []|]. cbn [attributes_lang]. apply light_table. intro. apply light_attribute, IH. Qed.
End Costs.

(** A method has its descriptor's parameters; the texts of the constant pool. *)
Definition utf8_size (c : constant) : nat := match c with CUtf8 raw => length raw | _ => 0 end.
Theorem light_class dec wraps want d cs c bs : (forall w s, dec w = Some s -> (N.to_nat (str_len s) <= length w)%nat) ->
  class_lang dec wraps want d cs c bs -> (costs (class_texts c) + 3 * total utf8_size cs <= 3 * length bs)%nat.
Proof.
  intros Hdec (H & HP & _). destruct H as (u0 & v0 & -> & K0 & u1 & v1 & -> & K1 & u2 & v2 & -> & K2 & u3 & v3 & -> & K3 & u4 & v4 & -> & K4 & u5 & v5 & -> & K5
    & u6 & v6 & -> & K6 & u7 & v7 & -> & K7 & u8 & v8 & -> & K8 & u9 & T & -> & K9 & HT).
  rewrite !app_length. unfold class_texts.
  assert (L3 : (total utf8_size cs <= length u3)%nat).
  { destruct K3 as (count & (a & b & -> & _ & Hmany) & _). rewrite app_length. enough (total utf8_size cs <= length b)%nat by lia. revert Hmany. apply sized_many. intros k w Hw.
    destruct k; cbn [utf8_size]; try lia. destruct Hw as (_ & x & y & -> & _ & u & v & -> & _ & Hr). change (v = raw) in Hr. subst v. rewrite !app_length. lia. }
  assert (L5 : (6 <= 3 * length u5)%nat) by (revert K5; apply light_ref).
  assert (L6 : (6 <= 3 * length u6)%nat) by (revert K6; apply light_opt_ref).
  assert (L7 : (costs (map TString (interfaces c)) <= 3 * length u7)%nat) by (revert K7; apply (light_refs _ _ TString); intro; cbn [cost]; lia).
  assert (L8 : (costs (flat_map (fun f => TString (f_name f) :: TField (f_descriptor f) :: flat_map attribute_texts (f_attributes f)) (fields c)) <= 3 * length u8)%nat).
  { revert K8. apply (light_table _ _ (fun f => TString (f_name f) :: TField (f_descriptor f) :: flat_map attribute_texts (f_attributes f))). intro. unfold field_lang.
    eapply light_le; [eapply light_cat; [apply light_flags|eapply light_cat; [apply light_ref|eapply light_cat; [apply light_ref|apply light_attributes, Hdec]]]|texts; lia]. }
  assert (L9 : (costs (flat_map (fun m => TString (m_name m) :: TMethod (m_descriptor m) :: flat_map attribute_texts (m_attributes m)) (methods c)) <= 3 * length u9)%nat).
  { revert K9. apply (light_table _ _ (fun m => TString (m_name m) :: TMethod (m_descriptor m) :: flat_map attribute_texts (m_attributes m))). intro. unfold method_lang.
    eapply light_le; [eapply light_cat; [apply light_flags|eapply light_cat; [apply light_ref|eapply light_cat; [apply light_ref|apply light_attributes, Hdec]]]|texts; lia]. }
  apply (light_attributes _ Hdec) in HT. texts. pose proof (opt_cost (super_class c)). lia.
Qed.
