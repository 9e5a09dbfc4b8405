(** * The texts of a class with and without borrowing information. *)
From Verif Require Import Base M_Names M_Descriptors M_ConstantPool M_Bytecode M_Attributes M_Class M_Cesu8
  Z_Cow Z_Descriptors Z_ConstantPool Z_Bytecode Z_Attributes Z_Plain Z_Class S_Lang S_ZeroCopy.
From Verif Require S_Texts.
Import S_Texts(TString, TBytes, TField, TMethod, TDebug, text).

(** The strings in a text. *)
Definition field_strings (d : M_Descriptors.field_desc) : list str := match M_Descriptors.fd_type d with M_Descriptors.FObject s => [s] | _ => [] end.
Definition method_strings (d : M_Descriptors.method_desc) : list str :=
  flat_map field_strings (M_Descriptors.parameters d) ++ match M_Descriptors.return_type d with M_Descriptors.RReturn d => field_strings d | M_Descriptors.RVoid => [] end.
Definition strings (t : text) : list str :=
  match t with
  | TString s => [s]
  | TBytes _ => []
  | TField d => field_strings d
  | TMethod d => method_strings d
  | TDebug s => [s]
  end.
Notation SS := (flat_map strings).

Lemma link_flat {A B} (f : A -> list cow) (g : B -> list text) (p : A -> B) l :
  Forall (fun a => map chars (f a) = SS (g (p a))) l -> map chars (flat_map f l) = SS (flat_map g (map p l)).
Proof. induction 1 as [|a l Ha _ IH]; [reflexivity|]. cbn [flat_map map]. rewrite map_app, flat_map_app, Ha, IH. reflexivity. Qed.
Lemma link_all {A B} (f : A -> list cow) (g : B -> list text) (p : A -> B) l :
  (forall a, map chars (f a) = SS (g (p a))) -> map chars (flat_map f l) = SS (flat_map g (map p l)).
Proof. intro H. apply link_flat, Forall_forall. auto. Qed.
Lemma link_list l : map chars l = SS (map TString (map chars l)).
Proof. induction l as [|a l IH]; [reflexivity|]. cbn. now rewrite <- IH. Qed.
Lemma link_opt o : map chars (opt_string o) = SS (S_Texts.opt_string (option_map chars o)).
Proof. destruct o; reflexivity. Qed.
Lemma link_field d : map chars (field_texts d) = field_strings (plain_field_desc d).
Proof. destruct d as [n [| | | | | | | |s]]; reflexivity. Qed.
Lemma link_method d : map chars (method_texts d) = method_strings (plain_method_desc d).
Proof.
  destruct d as [ps r]. unfold method_texts, method_strings. cbn [parameters return_type plain_method_desc M_Descriptors.parameters M_Descriptors.return_type]. rewrite map_app. f_equal.
  - induction ps as [|a ps IH]; [reflexivity|]. cbn [flat_map map]. rewrite map_app, IH, link_field. reflexivity.
  - destruct r; [apply link_field|reflexivity].
Qed.
Lemma link_literal l : map chars (literal_texts l) = SS (S_Texts.literal_texts (plain_literal l)).
Proof. destruct l; reflexivity. Qed.
Lemma link_loadable l : map chars (loadable_texts l) = SS (S_Texts.loadable_texts (plain_loadable l)).
Proof. destruct l; try reflexivity. apply link_literal. Qed.
Lemma link_argument l : map chars (argument_texts l) = SS (S_Texts.argument_texts (plain_argument l)).
Proof. destruct l; try reflexivity. apply link_literal. Qed.
Lemma link_array_type l : map chars (array_type_texts l) = SS (S_Texts.array_type_texts (plain_array_type l)).
Proof. destruct l; [|reflexivity]. cbn. rewrite app_nil_r. apply link_field. Qed.
Lemma link_opcode l : map chars (opcode_texts l) = SS (S_Texts.opcode_texts (plain_opcode l)).
Proof. destruct l; first [reflexivity | apply link_loadable | apply link_array_type]. Qed.
Ltac lk := repeat first [progress cbn [map flat_map strings app] | rewrite map_app | rewrite flat_map_app].
Section Values.
Let P v := map chars (value_texts v) = SS (S_Texts.value_texts (plain_value v)).
Let Q a := map chars (annotation_texts a) = SS (S_Texts.annotation_texts (plain_annotation a)).
Lemma link_ann t els : Forall (fun nv => P (snd nv)) els -> Q (mk_ann t els).
Proof.
  intro H. unfold Q. change (annotation_texts (mk_ann t els)) with (field_texts t ++ flat_map (fun nv => (fst nv) :: value_texts (snd nv)) els).
  change (S_Texts.annotation_texts (plain_annotation (mk_ann t els))) with (TField (plain_field_desc t) :: flat_map (fun nv => TString (fst nv) :: S_Texts.value_texts (snd nv)) (map (fun nv => (chars (fst nv), plain_value (snd nv))) els)).
  lk. rewrite link_field. f_equal. apply link_flat. eapply Forall_impl; [|exact H]. intros [n v] Hv. cbn [fst snd map]. cbn [flat_map strings app]. now rewrite Hv.
Qed.
Lemma link_array vs : Forall P vs -> P (EvArray vs).
Proof. intro H. unfold P. change (map chars (flat_map value_texts vs) = SS (flat_map S_Texts.value_texts (map plain_value vs))). apply link_flat, H. Qed.
Fixpoint link_value (v : element_value) : P v :=
  match v as v return P v with
  | EvAnnotation a => link_annotation a
  | EvArray vs => link_array vs ((fix go l : Forall P l := match l with [] => Forall_nil _ | x :: r => Forall_cons _ (link_value x) (go r) end) vs)
  | EvEnum t c => ltac:(unfold P; cbn [value_texts plain_value S_Texts.value_texts]; lk; rewrite link_field; reflexivity)
  | EvByte _ | EvChar _ | EvDouble _ | EvFloat _ | EvInt _ | EvLong _ | EvShort _ | EvBoolean _ | EvString _ | EvClass _ => eq_refl
  end
with link_annotation (a : annotation) : Q a :=
  match a as a return Q a with
  | mk_ann t els => link_ann t els ((fix go (l : list (cow * element_value)) : Forall (fun nv => P (snd nv)) l := match l with [] => Forall_nil _ | x :: r => Forall_cons (P := fun nv => P (snd nv)) x (match x as x return P (snd x) with (_, v) => link_value v end) (go r) end) els)
  end.
End Values.
Lemma link_verification v : map chars (verification_texts v) = SS (S_Texts.verification_texts (plain_verification v)).
Proof. destruct v; reflexivity. Qed.
Lemma link_frame v : map chars (frame_texts v) = SS (S_Texts.frame_texts (plain_frame v)).
Proof.
  destruct v; cbn [frame_texts plain_frame S_Texts.frame_texts]; try reflexivity.
  - apply link_verification.
  - apply link_all, link_verification.
  - lk. f_equal; apply link_all, link_verification.
Qed.
Lemma link_module m : map chars (module_texts m) = SS (S_Texts.module_texts (plain_module m)).
Proof.
  destruct m as [n f v r x o u p]. unfold module_texts, S_Texts.module_texts. cbn [md_name md_version md_requires md_exports md_opens md_uses md_provides plain_module
    M_Attributes.md_name M_Attributes.md_version M_Attributes.md_requires M_Attributes.md_exports M_Attributes.md_opens M_Attributes.md_uses M_Attributes.md_provides].
  lk. f_equal. rewrite <- link_list. f_equal; [apply link_opt|]. f_equal; [|f_equal; [|f_equal; [|f_equal]]]; apply link_all; intros a; cbn [map flat_map strings app]; f_equal.
  - apply link_opt.
  - cbn [plain_export M_Attributes.xp_exports_to]. apply link_list.
  - cbn [plain_open M_Attributes.op_opens_to]. apply link_list.
  - cbn [plain_provide M_Attributes.pv_provides_with]. apply link_list.
Qed.
Section Attrs.
Let PA a := map chars (attribute_texts a) = SS (S_Texts.attribute_texts (plain_attr a)).
Let PD a := map chars (data_texts a) = SS (S_Texts.data_texts (plain_data a)).
Let PC a := map chars (code_texts a) = SS (S_Texts.code_texts (plain_code_data a)).
Let PR a := map chars (record_texts a) = SS (S_Texts.record_texts (plain_record a)).
Lemma link_code s l code b x attributes : Forall PA attributes -> PC (mk_code s l code b x attributes).
Proof.
  intro H. unfold PC. change (map chars (match b with Some b => flat_map (fun oo => opcode_texts (snd oo)) (opcodes b) | None => [] end
      ++ flat_map (fun h => opt_string (ex_catch_type h)) x ++ flat_map attribute_texts attributes)
    = SS (match option_map plain_code b with Some b => flat_map (fun oo => S_Texts.opcode_texts (snd oo)) (M_Bytecode.opcodes b) | None => [] end
      ++ flat_map (fun h => S_Texts.opt_string (M_Attributes.ex_catch_type h)) (map plain_exception x) ++ flat_map S_Texts.attribute_texts (map plain_attr attributes))).
  lk. f_equal; [|f_equal].
  - destruct b as [[ops]|]; [|reflexivity]. cbn [option_map plain_code opcodes M_Bytecode.opcodes]. apply link_all. intros [o op]. apply link_opcode.
  - apply link_all. intro. apply link_opt.
  - apply link_flat, H.
Qed.
Lemma link_record n d attributes : Forall PA attributes -> PR (mk_rc n d attributes).
Proof.
  intro H. unfold PR. change (map chars (n :: field_texts d ++ flat_map attribute_texts attributes)
    = SS (TString (chars n) :: TField (plain_field_desc d) :: flat_map S_Texts.attribute_texts (map plain_attr attributes))). lk. rewrite link_field. do 2 f_equal. apply link_flat, H.
Qed.
Lemma link_records l : Forall PR l -> PD (ARecord l).
Proof. intro H. unfold PD. change (map chars (flat_map record_texts l) = SS (flat_map S_Texts.record_texts (map plain_record l))). apply link_flat, H. Qed.
Lemma link_attr n d : PD d -> PA (mk_attr n d).
Proof. intro H. unfold PA. change (map chars (n :: data_texts d) = SS (TString (chars n) :: S_Texts.data_texts (plain_data d))). lk. now rewrite H. Qed.
Lemma link_simple (a : attr_data) : (forall c, a <> ACode c) -> (forall l, a <> ARecord l) -> PD a.
Proof.
  intros HC HR. unfold PD. destruct a; cbn [data_texts plain_data S_Texts.data_texts]; try reflexivity; try apply link_list.
  - apply link_literal.
  - now destruct (HC c).
  - apply link_all, link_frame.
  - apply link_all. intro a. lk. f_equal. f_equal; apply link_opt.
  - lk. f_equal. match goal with |- context [option_map plain_nt ?o] => destruct o; reflexivity end.
  - apply link_all. intro a. lk. rewrite link_field, app_nil_r. reflexivity.
  - apply link_all. intro a. reflexivity.
  - apply link_all, link_annotation.
  - apply link_all, link_annotation.
  - apply (link_all _ _ (map plain_annotation)). intro. apply link_all, link_annotation.
  - apply (link_all _ _ (map plain_annotation)). intro. apply link_all, link_annotation.
  - apply link_all. intro. apply link_annotation.
  - apply link_all. intro. apply link_annotation.
  - apply link_value.
  - apply link_all. intros [m l']. cbn [bm_method bm_arguments plain_bootstrap M_Attributes.bm_method M_Attributes.bm_arguments]. lk. do 3 f_equal. apply link_all, link_argument.
  - apply link_all. intro. apply link_opt.
  - apply link_module.
  - now destruct (HR l).
Qed.
Fixpoint link_data (a : attr_data) : PD a :=
  match a as a return PD a with
  | ACode c => link_code_data c
  | ARecord l => link_records l ((fix go l : Forall PR l := match l with [] => Forall_nil _ | x :: r => Forall_cons _ (link_rec x) (go r) end) l)
  | _ => ltac:(apply link_simple; discriminate)
  end
with link_code_data (c : code_data) : PC c :=
  match c as c return PC c with mk_code s l code b x attributes =>
    link_code s l code b x attributes ((fix go l : Forall PA l := match l with [] => Forall_nil _ | x :: r => Forall_cons _ (link_attribute x) (go r) end) attributes) end
with link_rec (r : record_component) : PR r :=
  match r as r return PR r with mk_rc n d attributes =>
    link_record n d attributes ((fix go l : Forall PA l := match l with [] => Forall_nil _ | x :: r => Forall_cons _ (link_attribute x) (go r) end) attributes) end
with link_attribute (a : attr_info) : PA a :=
  match a as a return PA a with mk_attr n d => link_attr n d (link_data d) end.
End Attrs.
Theorem link_class c : map chars (class_texts c) = map chars (flat_map entry_texts (constant_pool c)) ++ SS (S_Texts.class_texts (plain_class c)).
Proof.
  unfold class_texts, S_Texts.class_texts. rewrite map_app. f_equal. cbn [plain_class M_Class.this_class M_Class.super_class
    M_Class.interfaces M_Class.fields M_Class.methods M_Class.class_attributes]. lk. f_equal. rewrite <- link_list. f_equal; [apply link_opt|]. f_equal.
  f_equal; [|f_equal]; apply link_all; try (intro; apply link_attribute); intro a; lk; f_equal.
  - rewrite link_field. f_equal. apply link_all. intro. apply link_attribute.
  - rewrite link_method. f_equal. apply link_all. intro. apply link_attribute.
Qed.
