(** * Forgetting the capacities gives back the readers of M_*.v *)
From Verif Require Import Base M_Names M_Descriptors M_ConstantPool M_Bytecode M_Attributes M_Class
  R_Base R_Bytecode R_Attributes R_Class.

Definition erases {A} (t : tparser A) (m : parser A) : Prop := forall bs ix, fst (t bs ix) = m bs ix.

Lemma er_plain {A} (m : parser A) : erases (plain m) m.
Proof. intros bs ix; reflexivity. Qed.
Lemma er_bind {A B} (t : tparser A) m (f : A -> tparser B) g :
  erases t m -> (forall a, erases (f a) (g a)) -> erases (tbind t f) (bind m g).
Proof.
  intros Ht Hf bs ix. unfold tbind, bind. rewrite <- (Ht bs ix).
  destruct (t bs ix) as [[[a ix']| | |] l]; cbn; auto.
  rewrite <- (Hf a bs ix'). destruct (f a bs ix'); reflexivity.
Qed.
Lemma er_reserve {B} n (f : unit -> tparser B) g : (forall a, erases (f a) g) -> erases (tbind (reserve n) f) g.
Proof.
  intros Hf bs ix. unfold tbind, reserve. rewrite <- (Hf tt bs ix). destruct (f tt bs ix); reflexivity.
Qed.
Lemma er_ctx {A} c (t : tparser A) m : erases t m -> erases (tctx c t) (pctx c m).
Proof. intros H bs ix. unfold tctx, pctx. rewrite <- (H bs ix). destruct (t bs ix); reflexivity. Qed.
Lemma er_lift {A} (t : traced A) m : fst t = m -> erases (tlift t) (lift m).
Proof. intros <- bs ix. unfold tlift. destruct t; reflexivity. Qed.
Lemma er_if {A} (b : bool) (t t' : tparser A) m m' :
  erases t m -> erases t' m' -> erases (if b then t else t') (if b then m else m').
Proof. destruct b; auto. Qed.
Lemma er_for_from {A} n : forall i (b : N -> tparser A) b', (forall i, erases (b i) (b' i)) ->
  erases (tfor_from n i b) (for_from n i b').
Proof.
  induction n as [|n IH]; intros i b b' H; [apply er_plain|].
  apply er_bind; [apply H|]. intro x. apply er_bind; [apply IH, H|]. intro. apply er_plain.
Qed.
Lemma er_for {A} n (b : N -> tparser A) b' : (forall i, erases (b i) (b' i)) ->
  erases (tfor_n n b) (for_n n b').
Proof. intro H. apply er_reserve. intros _. apply er_for_from, H. Qed.
Lemma er_dispatch {A} name (cs : list (string * tparser A)) cs' d d' :
  Forall2 (fun c c' => fst c = fst c' /\ erases (snd c) (snd c')) cs cs' -> erases d d' ->
  erases (tdispatch name cs d) (dispatch name cs' d').
Proof.
  intros H Hd. induction H as [|[s q] [s' q'] cs cs' [H1 H2] _ IH]; cbn in *; auto.
  subst s'. apply er_if; auto.
Qed.

Create HintDb er.
#[export] Hint Resolve er_plain : er.
Ltac head t := match t with ?f _ => head f | _ => t end.
Ltac er := repeat first
  [ solve [auto with er nocore]
  | simple apply er_for; intro
  | simple apply er_reserve; intro
  | simple apply er_bind; [|intro]
  | simple apply er_ctx
  | simple apply er_if
  | match goal with |- forall _, _ => intro end
  | progress cbv zeta ].

Section Bytecode.
Variable E : env.
Variable p : pool.

Lemma er_tableswitch : erases (r_tableswitch E) (read_tableswitch E).
Proof.
  unfold r_tableswitch, read_tableswitch. er. destruct (usize_of_i32 _); er.
Qed.
Lemma er_lookupswitch : erases (r_lookupswitch E) (read_lookupswitch E).
Proof.
  unfold r_lookupswitch, read_lookupswitch. er. destruct (usize_of_i32 _); er.
Qed.
Lemma read_insn_switch code ix v ix' : read_u1 code ix = Ok (v, ix') ->
  (v = 0xaa -> read_insn E p code ix = read_tableswitch E code ix') /\
  (v = 0xab -> read_insn E p code ix = read_lookupswitch E code ix').
Proof. intro H. split; intros ->; unfold read_insn, bind at 1; rewrite H; reflexivity. Qed.
Lemma er_insn : erases (r_insn E p) (read_insn E p).
Proof.
  intros code ix. unfold r_insn.
  destruct (read_u1 code ix) as [[v ix']| | |] eqn:H; try reflexivity.
  destruct (read_insn_switch code ix v ix' H) as [H1 H2].
  destruct (N.eq_dec v 0xaa) as [->|N1]; [rewrite (H1 eq_refl); apply er_tableswitch|].
  destruct (N.eq_dec v 0xab) as [->|N2]; [rewrite (H2 eq_refl); apply er_lookupswitch|].
  destruct v as [|v]; [reflexivity|].
  repeat (destruct v as [v|v|]; try reflexivity; try congruence).
Qed.
Lemma er_opcodes_loop fuel : erases (r_opcodes_loop E p fuel) (opcodes_loop E p fuel).
Proof.
  induction fuel as [|fuel IH]; intros code ix; cbn [r_opcodes_loop opcodes_loop];
    destruct (ix <? blen code); try reflexivity.
  apply er_bind; [apply er_insn|]. intro. apply er_bind; [exact IH|]. intro. apply er_plain.
Qed.
Lemma er_bytecode code : fst (r_bytecode_from E p code) = bytecode_from E code p.
Proof.
  unfold r_bytecode_from, bytecode_from, read_opcodes.
  rewrite <- (er_opcodes_loop (S (length code)) code 0).
  destruct (r_opcodes_loop E p (S (length code)) code 0) as [r l]. reflexivity.
Qed.
End Bytecode.

Section Attributes.
Variable E : env.
Variable p : pool.
Variable opts : bool.

Lemma er_code_data rec rec' : erases rec rec' -> erases (r_code_data E p opts rec) (read_code_data E p opts rec').
Proof.
  intro H. unfold r_code_data, read_code_data. er.
  apply er_lift, er_bytecode.
Qed.
Lemma er_stack_map_entry i : erases (r_stack_map_entry p i) (read_stack_map_entry p i).
Proof. unfold r_stack_map_entry, read_stack_map_entry. er. Qed.
Lemma er_annotation_with rec rec' : erases rec rec' ->
  erases (r_annotation_with p rec) (read_annotation_with p rec').
Proof. intro H. unfold r_annotation_with, read_annotation_with. er. Qed.
Lemma er_element_value_with rec rec' : erases rec rec' ->
  erases (r_element_value_with p rec) (read_element_value_with p rec').
Proof.
  intro H. unfold r_element_value_with, read_element_value_with.
  apply er_bind; [apply er_plain|]. intro v. er.
  apply er_annotation_with, H.
Qed.
Lemma er_element_value stk : erases (r_element_value p stk) (read_element_value p stk).
Proof. induction stk; [apply er_plain|]. apply er_element_value_with, IHstk. Qed.
Lemma er_annotation stk : erases (r_annotation p stk) (read_annotation p stk).
Proof. apply er_annotation_with, er_element_value. Qed.
Lemma er_target i : erases (r_type_annotation_target i) (read_type_annotation_target i).
Proof.
  intros bs ix. unfold r_type_annotation_target.
  destruct (read_u1 bs ix) as [[v ix']| | |] eqn:H; try reflexivity.
  assert (H1 : v = 0x40 \/ v = 0x41 -> read_type_annotation_target i bs ix
    = (localvar_count <- read_u2 ;;
       l <- for_n localvar_count (fun _ => read_local_var_target) ;;
       ret (TgLocalVar l)) bs ix').
  { intro Hv. unfold read_type_annotation_target, bind at 1. rewrite H. destruct Hv as [-> | ->]; reflexivity. }
  destruct (N.eq_dec v 0x40) as [->|N1]; [rewrite H1 by auto; apply er_bind; er|].
  destruct (N.eq_dec v 0x41) as [->|N2]; [rewrite H1 by auto; apply er_bind; er|].
  clear H1. destruct v as [|v]; [reflexivity|].
  repeat (destruct v as [v|v|]; try reflexivity; try congruence).
Qed.
Hint Resolve er_target er_annotation er_stack_map_entry : er.
Lemma er_type_annotation stk i : erases (r_type_annotation p stk i) (read_type_annotation p stk i).
Proof. unfold r_type_annotation, read_type_annotation. er. Qed.
Lemma er_bootstrap_method i : erases (r_bootstrap_method p i) (read_bootstrap_method p i).
Proof. unfold r_bootstrap_method, read_bootstrap_method. er. Qed.
Lemma er_module_export i : erases (r_module_export p i) (read_module_export p i).
Proof. unfold r_module_export, read_module_export. er. Qed.
Lemma er_module_open i : erases (r_module_open p i) (read_module_open p i).
Proof. unfold r_module_open, read_module_open. er. Qed.
Lemma er_module_provide i : erases (r_module_provide p i) (read_module_provide p i).
Proof. unfold r_module_provide, read_module_provide. er. Qed.
Hint Resolve er_type_annotation er_bootstrap_method er_module_export er_module_open er_module_provide : er.
Lemma er_module_data : erases (r_module_data p) (read_module_data p).
Proof. unfold r_module_data, read_module_data. er. Qed.
Lemma er_record_component rec rec' i : erases rec rec' ->
  erases (r_record_component p rec i) (read_record_component p rec' i).
Proof. intro H. unfold r_record_component, read_record_component. er. Qed.
Lemma er_element stk : erases (r_element_value p stk) (read_element_value p stk).
Proof. apply er_element_value. Qed.
Hint Resolve er_module_data er_element : er.

Lemma er_attr_data rec rec' stk name i length : erases rec rec' ->
  erases (r_attr_data E p opts rec stk name i length) (read_attr_data E p opts rec' stk name i length).
Proof.
  intro H. unfold r_attr_data, read_attr_data.
  apply er_dispatch; [|er].
  repeat (apply Forall2_cons; [split; [reflexivity|]; cbn [snd]|]); try apply Forall2_nil; er.
  all: first [ apply er_code_data, H | unfold r_record_data, read_record_data; er; apply er_record_component, H
             | match goal with |- erases ?a ?b => let x := head a in let y := head b in unfold x, y end; er ].
Qed.
Lemma er_attribute rec rec' stk i : erases rec rec' ->
  erases (r_attribute E p opts rec stk i) (read_attribute E p opts rec' stk i).
Proof. intro H. unfold r_attribute, read_attribute. 
  er. apply er_attr_data, H. Qed.
Lemma er_attributes stk : erases (r_attributes E p opts stk) (read_attributes E p opts stk).
Proof.
  induction stk; [apply er_plain|]. cbn [r_attributes read_attributes]. er. apply er_attribute, IHstk.
Qed.
End Attributes.
#[export] Hint Resolve er_attributes : er.

Section Class.
Variable E : env.
Variable opts : bool.
Lemma er_constant_pool major : erases (r_constant_pool E major) (read_constant_pool E major).
Proof. unfold r_constant_pool, read_constant_pool. er. Qed.
Lemma er_interfaces p : erases (r_interfaces p) (read_interfaces p).
Proof. unfold r_interfaces, read_interfaces. er. Qed.
Lemma er_fields_loop p n : forall i seen, erases (r_fields_loop E p opts n i seen) (fields_loop E p opts n i seen).
Proof.
  induction n as [|n IH]; intros; [apply er_plain|]. cbn [r_fields_loop fields_loop]. er.
Qed.
Lemma er_fields p : erases (r_fields E p opts) (read_fields E p opts).
Proof. unfold r_fields, read_fields. er. apply er_fields_loop. Qed.
Lemma er_methods_loop p itf major n : forall i seen,
  erases (r_methods_loop E p opts itf major n i seen) (methods_loop E p opts itf major n i seen).
Proof.
  induction n as [|n IH]; intros; [apply er_plain|]. cbn [r_methods_loop methods_loop]. er.
Qed.
Lemma er_methods p itf major : erases (r_methods E p opts itf major) (read_methods E p opts itf major).
Proof. unfold r_methods, read_methods. er. apply er_methods_loop. Qed.
Hint Resolve er_constant_pool er_interfaces er_fields er_methods : er.
Lemma er_class : erases (r_class E opts) (class_parser E opts).
Proof. unfold r_class, class_parser. er. Qed.
(** The outcome is that of [parse_class_with_options]. *)
Lemma er_parse bs : fst (r_parse E opts bs) = parse_class_with_options E opts bs.
Proof.
  unfold r_parse, parse_class_with_options. rewrite <- (er_class bs 0).
  destruct (r_class E opts bs 0); reflexivity.
Qed.
End Class.
