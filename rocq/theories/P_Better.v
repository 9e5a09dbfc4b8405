(** * More stack, more memory, fewer checks: the result stays the same. *)
From Verif Require Import Base M_Names M_Descriptors M_ConstantPool M_Bytecode M_Attributes M_Class S_Better.
From Coq Require Import ZifyBool ZifyNat ZifyN.

Section Better.
Variables E1 E2 : env.
Hypothesis HE : better E1 E2.
Notation apx := (same_or_lack E1 E2).
Definition papx {A} (p q : parser A) : Prop := forall bs ix, apx (p bs ix) (q bs ix).

Lemma apx_refl {A} (o : outcome A) : apx o o. Proof. left; auto. Qed.
Lemma apx_bind {A B} (m1 m2 : outcome A) (f1 f2 : A -> outcome B) : apx m1 m2 -> (forall a, m1 = Ok a -> apx (f1 a) (f2 a)) -> apx (obind m1 f1) (obind m2 f2).
Proof. intros [<-|(x & -> & Hx)] Hf; [|right; exists x; auto]. destruct m1; cbn; auto; left; auto. Qed.
Lemma apx_ctx {A} c (m1 m2 : outcome A) : apx m1 m2 -> apx (ctx c m1) (ctx c m2).
Proof. intros [<-|(x & -> & Hx)]; [left; auto|right; exists x; auto]. Qed.
Lemma papx_refl {A} (p : parser A) : papx p p. Proof. intros bs ix. apply apx_refl. Qed.
Lemma papx_bind {A B} (p1 p2 : parser A) (f1 f2 : A -> parser B) : papx p1 p2 -> (forall a, papx (f1 a) (f2 a)) -> papx (bind p1 f1) (bind p2 f2).
Proof.
  intros Hp Hf bs ix. unfold bind. destruct (Hp bs ix) as [<-|(x & -> & Hx)]; [|right; exists x; auto].
  destruct (p1 bs ix) as [[a ix']| | |]; [apply Hf|left; auto..].
Qed.
Lemma papx_pctx {A} c (p1 p2 : parser A) : papx p1 p2 -> papx (pctx c p1) (pctx c p2).
Proof. intros H bs ix. apply apx_ctx, H. Qed.
Lemma papx_lift {A} (m1 m2 : outcome A) : apx m1 m2 -> papx (lift m1) (lift m2).
Proof. intros [<-|(x & -> & Hx)] bs ix; [left; auto|right; exists x; auto]. Qed.
Lemma papx_for_from {A} (b1 b2 : N -> parser A) n : (forall i, papx (b1 i) (b2 i)) -> forall i, papx (for_from n i b1) (for_from n i b2).
Proof.
  intro Hb. induction n as [|n IH]; intro i; cbn [for_from]; [apply papx_refl|]. apply papx_bind; auto. intro a. apply papx_bind; auto. intro. apply papx_refl.
Qed.
Lemma papx_for_n {A} (b1 b2 : N -> parser A) n : (forall i, papx (b1 i) (b2 i)) -> papx (for_n n b1) (for_n n b2).
Proof. intro Hb. apply papx_for_from, Hb. Qed.

(** Arithmetic and allocation. *)
Lemma apx_checks {A} (o : outcome A) : apx (if overflow_checks E1 then Panic POverflow else o) (if overflow_checks E2 then Panic POverflow else o).
Proof.
  destruct HE as [Hc _ _ _ _ _]. destruct (overflow_checks E1) eqn:H1, (overflow_checks E2) eqn:H2.
  - left; auto.
  - right. exists POverflow. split; auto. apply lack_checks; auto.
  - specialize (Hc eq_refl). discriminate.
  - left; auto.
Qed.
Lemma apx_i32 z : apx (i32_result E1 z) (i32_result E2 z).
Proof. unfold i32_result. destruct (in_i32 z); [apply apx_refl|apply apx_checks]. Qed.
Lemma apx_u16 n : apx (u16_result E1 n) (u16_result E2 n).
Proof. unfold u16_result. destruct (n <? 65536); [apply apx_refl|apply apx_checks]. Qed.
Lemma apx_usize n : apx (usize_result E1 n) (usize_result E2 n).
Proof. unfold usize_result. rewrite (better_usize _ _ HE). destruct (n <=? usize_max E2); [apply apx_refl|apply apx_checks]. Qed.
Lemma apx_usize_sub a b : apx (usize_sub E1 a b) (usize_sub E2 a b).
Proof. unfold usize_sub. rewrite (better_usize _ _ HE). destruct (b <=? a); [apply apx_refl|apply apx_checks]. Qed.
Lemma apx_capacity n size : apx (with_capacity E1 n size) (with_capacity E2 n size).
Proof.
  unfold with_capacity. rewrite (better_usize _ _ HE). destruct (usize_max E2 / 2 <? n * size); [apply apx_refl|].
  pose proof (better_alloc _ _ HE) as Ha. destruct (N.ltb_spec (alloc_limit E1) (n * size)).
  - destruct (N.ltb_spec (alloc_limit E2) (n * size)); [apply apx_refl|]. right. exists PAlloc. split; auto. apply lack_alloc. lia.
  - replace (alloc_limit E2 <? n * size) with false by lia. apply apx_refl.
Qed.

Ltac step :=
  match goal with
  | |- papx ?p ?p => apply papx_refl
  | |- same_or_lack _ _ ?p ?p => apply apx_refl
  | |- papx (bind _ _) (bind _ _) => apply papx_bind; [|intro]
  | |- papx (pctx _ _) (pctx _ _) => apply papx_pctx
  | |- papx (for_n _ _) (for_n _ _) => apply papx_for_n; intro
  | |- papx (lift _) (lift _) => apply papx_lift
  | |- papx (if ?b then _ else _) (if ?b then _ else _) => destruct b
  | |- papx (match ?b with Some _ => _ | None => _ end) (match ?b with Some _ => _ | None => _ end) => destruct b
  | |- same_or_lack _ _ (i32_result _ _) _ => apply apx_i32
  | |- same_or_lack _ _ (u16_result _ _) _ => apply apx_u16
  | |- same_or_lack _ _ (usize_result _ _) _ => apply apx_usize
  | |- same_or_lack _ _ (usize_sub _ _ _) _ => apply apx_usize_sub
  | |- same_or_lack _ _ (with_capacity _ _ _) _ => apply apx_capacity
  | |- same_or_lack _ _ (obind _ _) (obind _ _) => apply apx_bind; [|intros ? _]
  | |- same_or_lack _ _ (ctx _ _) (ctx _ _) => apply apx_ctx
  end.
Ltac go := repeat (cbv zeta; step).

(** ** Bytecode *)
Lemma apx_tableswitch : papx (read_tableswitch E1) (read_tableswitch E2). Proof. unfold read_tableswitch. go. Qed.
Lemma apx_lookupswitch : papx (read_lookupswitch E1) (read_lookupswitch E2). Proof. unfold read_lookupswitch. go. Qed.
Lemma apx_insn p : papx (read_insn E1 p) (read_insn E2 p).
Proof.
  unfold read_insn. apply papx_bind; [apply papx_refl|]. intro v.
  destruct v as [|v]; [apply papx_refl|].
  do 8 (try destruct v as [v|v|]); try apply papx_refl; first [apply apx_tableswitch|apply apx_lookupswitch].
Qed.
Lemma apx_opcodes p fuel : papx (opcodes_loop E1 p fuel) (opcodes_loop E2 p fuel).
Proof.
  induction fuel as [|fuel IH]; intros bs ix; cbn [opcodes_loop]; destruct (ix <? blen bs); try apply apx_refl.
  refine (papx_bind _ _ _ _ (apx_insn p) _ bs ix). intro op. apply papx_bind; [exact IH|intro; apply papx_refl].
Qed.
Lemma apx_jump bc s j : apx (validate_jump E1 bc s j) (validate_jump E2 bc s j).
Proof. unfold validate_jump. go. Qed.
Lemma apx_all bc s js : apx (validate_all E1 bc s js) (validate_all E2 bc s js).
Proof. induction js as [|[c j] js IH]; cbn [validate_all]; [apply apx_refl|]. go; [apply apx_jump|exact IH]. Qed.
Lemma apx_opcode_jumps bc o op : apx (validate_opcode_jumps E1 bc o op) (validate_opcode_jumps E2 bc o op).
Proof.
  unfold validate_opcode_jumps. destruct (i32_of_usize o); [|apply apx_refl]. destruct op; try apply apx_refl; try apply apx_jump; go; try apply apx_jump; apply apx_all.
Qed.
Lemma apx_jumps bc ops : apx (validate_jumps E1 bc ops) (validate_jumps E2 bc ops).
Proof. induction ops as [|[o op] ops IH]; cbn [validate_jumps]; [apply apx_refl|]. go; [apply apx_opcode_jumps|exact IH]. Qed.
Lemma apx_bytecode code p : apx (bytecode_from E1 code p) (bytecode_from E2 code p).
Proof.
  unfold bytecode_from. apply apx_bind; [|intros ops _; cbv zeta; go; apply apx_jumps].
  unfold read_opcodes. go. apply apx_opcodes.
Qed.

(** ** Attributes: [s1] levels of stack are at most [s2]. *)
Variable p : pool.
Variable opts : bool.
Definition less (s1 s2 : nat) : Prop := s1 = s2 \/ (s1 < s2)%nat /\ lack E1 E2 PStackOverflow.
Lemma less_S s1 s2 : less (S s1) (S s2) -> less s1 s2.
Proof. unfold less. intros [H|[H1 H2]]; [left; lia|right; split; auto; lia]. Qed.
Lemma apx_element s1 : forall s2, less s1 s2 -> papx (read_element_value p s1) (read_element_value p s2).
Proof.
  induction s1 as [|s1 IH]; intros s2 Hs; cbn [read_element_value].
  - destruct Hs as [<-|[_ H]]; [apply papx_refl|]. intros bs ix. right. eauto.
  - destruct s2 as [|s2]; [exfalso; destruct Hs as [|[]]; lia|]. apply less_S in Hs. specialize (IH s2 Hs). cbn [read_element_value].
    unfold read_element_value_with, read_annotation_with. go; exact IH.
Qed.
Lemma apx_annotation s1 s2 : less s1 s2 -> papx (read_annotation p s1) (read_annotation p s2).
Proof. intro H. unfold read_annotation, read_annotation_with. go. apply apx_element, H. Qed.
Lemma apx_annotations s1 s2 : less s1 s2 -> papx (read_annotation_data p s1) (read_annotation_data p s2).
Proof. intro H. unfold read_annotation_data. go. apply apx_annotation, H. Qed.
Lemma apx_parameter_annotations s1 s2 : less s1 s2 -> papx (read_parameter_annotation_data p s1) (read_parameter_annotation_data p s2).
Proof. intro H. unfold read_parameter_annotation_data. go. apply apx_annotation, H. Qed.
Lemma apx_type_annotations s1 s2 : less s1 s2 -> papx (read_type_annotation_data p s1) (read_type_annotation_data p s2).
Proof. intro H. unfold read_type_annotation_data, read_type_annotation. go. apply apx_annotation, H. Qed.
Lemma apx_code r1 r2 : papx r1 r2 -> papx (read_code_data E1 p opts r1) (read_code_data E2 p opts r2).
Proof. intro H. unfold read_code_data. go; try exact H. apply apx_bytecode. Qed.
Lemma apx_record r1 r2 : papx r1 r2 -> papx (read_record_data p r1) (read_record_data p r2).
Proof. intro H. unfold read_record_data, read_record_component. go. exact H. Qed.
Lemma apx_source i n : papx (read_source_debug_extension E1 i n) (read_source_debug_extension E2 i n).
Proof. unfold read_source_debug_extension. go. rewrite (better_cesu8 _ _ HE), (better_err _ _ HE). apply papx_refl. Qed.
Lemma apx_other n : papx (read_other_attribute E1 n) (read_other_attribute E2 n).
Proof. unfold read_other_attribute. go. Qed.
Lemma apx_dispatch {A} name (l1 l2 : list (string * parser A)) d1 d2 :
  Forall2 (fun x y => fst x = fst y /\ papx (snd x) (snd y)) l1 l2 -> papx d1 d2 -> papx (dispatch name l1 d1) (dispatch name l2 d2).
Proof. intros H Hd. induction H as [|[s1 q1] [s2 q2] l1 l2 [Hs Hq] _ IH]; cbn [dispatch]; auto. cbn in Hs. subst s2. destruct (str_eqb name (lit s1)); auto. Qed.
Lemma apx_attr_data r1 r2 s1 s2 name i n : papx r1 r2 -> less s1 s2 ->
  papx (read_attr_data E1 p opts r1 s1 name i n) (read_attr_data E2 p opts r2 s2 name i n).
Proof.
  intros Hr Hs. unfold read_attr_data. cbv zeta. apply apx_dispatch.
  - repeat (apply Forall2_cons || apply Forall2_nil); cbn [fst snd]; split; try reflexivity;
    try apply papx_refl; (apply papx_bind; [try apply papx_pctx|intro; apply papx_refl]);
    first [apply apx_code, Hr | apply apx_source | apply apx_annotations, Hs | apply apx_parameter_annotations, Hs
          | apply apx_type_annotations, Hs | apply apx_element, Hs | apply apx_record, Hr].
  - go. apply apx_other.
Qed.
Lemma apx_attribute r1 r2 s1 s2 i : papx r1 r2 -> less s1 s2 ->
  papx (read_attribute E1 p opts r1 s1 i) (read_attribute E2 p opts r2 s2 i).
Proof. intros Hr Hs. unfold read_attribute. go. apply apx_attr_data; auto. Qed.
Lemma apx_attributes s1 : forall s2, less s1 s2 -> papx (read_attributes E1 p opts s1) (read_attributes E2 p opts s2).
Proof.
  induction s1 as [|s1 IH]; intros s2 Hs; cbn [read_attributes].
  - destruct Hs as [<-|[_ H]]; [apply papx_refl|]. intros bs ix. right. eauto.
  - destruct s2 as [|s2]; [exfalso; destruct Hs as [|[]]; lia|]. apply less_S in Hs. cbn [read_attributes]. go. apply apx_attribute; auto.
Qed.
Lemma less_stack : less (stack E1) (stack E2).
Proof. pose proof (better_stack _ _ HE). destruct (Nat.eq_dec (stack E1) (stack E2)); [left; auto|right]. split; [lia|]. apply lack_stack. lia. Qed.
Lemma apx_class_attributes : papx (read_attributes E1 p opts (stack E1)) (read_attributes E2 p opts (stack E2)).
Proof. apply apx_attributes, less_stack. Qed.
Lemma apx_fields n : forall i seen, papx (fields_loop E1 p opts n i seen) (fields_loop E2 p opts n i seen).
Proof. induction n as [|n IH]; intros i seen; cbn [fields_loop]; [apply papx_refl|]. go; [apply apx_class_attributes|apply IH]. Qed.
Lemma apx_methods itf mj n : forall i seen, papx (methods_loop E1 p opts itf mj n i seen) (methods_loop E2 p opts itf mj n i seen).
Proof. induction n as [|n IH]; intros i seen; cbn [methods_loop]; [apply papx_refl|]. go; [apply apx_class_attributes|apply IH]. Qed.
End Better.

Section Pool.
Variables E1 E2 : env.
Hypothesis HE : better E1 E2.
Notation apx := (same_or_lack E1 E2).
Notation papx := (papx E1 E2).
Ltac step :=
  match goal with
  | |- P_Better.papx _ _ ?p ?p => apply papx_refl
  | |- same_or_lack _ _ ?p ?p => apply apx_refl
  | |- P_Better.papx _ _ (bind _ _) (bind _ _) => apply papx_bind; [|intro]
  | |- P_Better.papx _ _ (pctx _ _) (pctx _ _) => apply papx_pctx
  | |- P_Better.papx _ _ (lift _) (lift _) => apply papx_lift
  | |- P_Better.papx _ _ (if ?b then _ else _) (if ?b then _ else _) => destruct b
  | |- same_or_lack _ _ (u16_result _ _) _ => apply apx_u16; auto
  | |- same_or_lack _ _ (obind _ _) (obind _ _) => apply apx_bind; [|intros ? _]
  | |- same_or_lack _ _ (ctx _ _) (ctx _ _) => apply apx_ctx
  end.
Ltac go := repeat (cbv zeta; step).
Lemma apx_entry major tag : papx (read_entry E1 major tag) (read_entry E2 major tag).
Proof.
  unfold read_entry. cbv zeta. destruct tag as [|n]; [apply papx_refl|]. do 5 (try destruct n as [n|n|]); try apply papx_refl.
  unfold read_constant_utf8. go. rewrite (better_cesu8 _ _ HE). apply papx_refl.
Qed.
Lemma apx_pool_loop fuel major count : forall i, papx (pool_loop E1 fuel major count i) (pool_loop E2 fuel major count i).
Proof.
  induction fuel as [|fuel IH]; intro i; cbn [pool_loop]; destruct (i <? count); try apply papx_refl. go; try apply apx_entry; apply IH.
Qed.
Lemma apx_method_descriptor p s1 : forall s2 e, less E1 E2 s1 s2 -> apx (validate_method_descriptor s1 p e) (validate_method_descriptor s2 p e).
Proof.
  induction s1 as [|s1 IH]; intros s2 e Hs; cbn [validate_method_descriptor].
  - destruct Hs as [<-|[_ H]]; [apply apx_refl|]. right. eauto.
  - destruct s2 as [|s2]; [exfalso; destruct Hs as [|[]]; lia|]. apply less_S in Hs. cbn [validate_method_descriptor]. destruct e; try apply apx_refl. go. apply IH, Hs.
Qed.
Lemma apx_validate_entry p major e : apx (validate_entry (stack E1) p major e) (validate_entry (stack E2) p major e).
Proof. destruct e; cbn [validate_entry]; try apply apx_refl; go; apply apx_method_descriptor, less_stack; auto. Qed.
Lemma apx_validate_from p major es : forall i, apx (validate_from (stack E1) p major i es) (validate_from (stack E2) p major i es).
Proof. induction es as [|e es IH]; intro i; cbn [validate_from]; [apply apx_refl|]. go; [apply apx_validate_entry|apply IH]. Qed.
Lemma apx_constant_pool major : papx (read_constant_pool E1 major) (read_constant_pool E2 major).
Proof. unfold read_constant_pool, validate_constant_pool. go; [apply apx_pool_loop|apply apx_validate_from]. Qed.
Theorem apx_class opts : papx (class_parser E1 opts) (class_parser E2 opts).
Proof.
  unfold class_parser, read_fields, read_methods. go; [apply apx_constant_pool|apply apx_fields; auto|apply apx_methods; auto|apply apx_class_attributes; auto].
Qed.
Theorem apx_parse opts bs : apx (parse_class_with_options E1 opts bs) (parse_class_with_options E2 opts bs).
Proof. unfold parse_class_with_options. go. apply apx_class. Qed.
End Pool.
