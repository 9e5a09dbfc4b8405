(** * Formats with more constants: what a pool denotes, a larger pool denotes too. *)
From Verif Require Import Base S_Lang S_Names S_Format P_Tac.
From Verif Require Import M_ConstantPool M_Bytecode M_Attributes M_Class.

Definition sub (L M : lang) : Prop := forall w, L w -> M w.
Lemma sub_refl L : sub L L.
Proof. intros w H; exact H. Qed.
Lemma sub_cat L L' M M' : sub L L' -> sub M M' -> sub (L +++ M) (L' +++ M').
Proof. intros HL HM w (u & v & -> & Hu & Hv). apply cat_intro; [apply HL|apply HM]; assumption. Qed.
Lemma sub_alt L L' M M' : sub L L' -> sub M M' -> sub (L or M) (L' or M').
Proof. intros HL HM w [H|H]; [left; apply HL, H|right; apply HM, H]. Qed.
Lemma sub_many {A} (F G : A -> lang) l : (forall a, sub (F a) (G a)) -> sub (many F l) (many G l).
Proof. intro H. induction l as [|a l IH]; cbn [many]; [apply sub_refl|apply sub_cat; auto]. Qed.
Lemma sub_table {A} cnt (F G : A -> lang) l : (forall a, sub (F a) (G a)) -> sub (table cnt F l) (table cnt G l).
Proof. intro H. apply sub_cat; [apply sub_refl|apply sub_many, H]. Qed.
Lemma sub_ref {A} (R R' : N -> A -> Prop) a : (forall i b, R i b -> R' i b) -> sub (ref R a) (ref R' a).
Proof. intros H w (i & Hw & Hi). exists i. auto. Qed.
Lemma sub_ref1 {A} (R R' : N -> A -> Prop) a : (forall i b, R i b -> R' i b) -> sub (ref1 R a) (ref1 R' a).
Proof. intros H w (i & Hw & Hi). exists i. auto. Qed.
Lemma sub_opt_ref {A} (R R' : N -> A -> Prop) o : (forall i b, R i b -> R' i b) -> sub (opt_ref R o) (opt_ref R' o).
Proof. intro H. destruct o; cbn [opt_ref]; [apply sub_ref, H|apply sub_refl]. Qed.
Lemma sub_only (P P' : Prop) : (P -> P') -> sub (only_if P) (only_if P').
Proof. intros H w [-> HP]. split; auto. Qed.

Section Larger.
Variable dec : list byte -> option str.
Variables sl sl' : slots.
Hypothesis Hsl : forall i c, at_index sl i c -> at_index sl' i c.

Lemma utf8_more i s : utf8_at dec sl i s -> utf8_at dec sl' i s.
Proof. intros (r & H & Hd). exists r. auto. Qed.
Lemma class_more i s : class_at dec sl i s -> class_at dec sl' i s.
Proof. intros (j & H & Hd). exists j. split; auto. apply utf8_more, Hd. Qed.
Lemma module_more i s : module_at dec sl i s -> module_at dec sl' i s.
Proof. intros (j & H & Hd). exists j. split; auto. apply utf8_more, Hd. Qed.
Lemma package_more i s : package_at dec sl i s -> package_at dec sl' i s.
Proof. intros (j & H & Hd). exists j. split; auto. apply utf8_more, Hd. Qed.
Lemma method_type_more i s : method_type_at dec sl i s -> method_type_at dec sl' i s.
Proof. intros (j & H & Hd). exists j. split; auto. apply utf8_more, Hd. Qed.
Lemma name_and_type_more i nt : name_and_type_at dec sl i nt -> name_and_type_at dec sl' i nt.
Proof. intros (n & d & H & H1 & H2). exists n, d. split; auto. split; apply utf8_more; auto. Qed.
Lemma literal_more i l : literal_at dec sl i l -> literal_at dec sl' i l.
Proof.
  destruct l; cbn [literal_at]; auto.
  - intros (j & H & Hd). exists j. split; auto. apply utf8_more, Hd.
  - intros (j & H & Hd & He). exists j. auto.
Qed.
Lemma member_more k i c nt : member_at dec sl k i c nt -> member_at dec sl' k i c nt.
Proof. intros (a & b & H & H1 & H2). exists a, b. split; auto. split; [apply class_more, H1|apply name_and_type_more, H2]. Qed.
Lemma member_ref_more ks i m : member_ref_at dec sl ks i m -> member_ref_at dec sl' ks i m.
Proof. intros (k & H & H1). exists k. split; auto. apply member_more, H1. Qed.
Lemma method_handle_more i m : method_handle_at dec sl i m -> method_handle_at dec sl' i m.
Proof. intros (k & H & H1). exists k. split; auto. apply member_more, H1. Qed.
Lemma dynamic_more i m : dynamic_at dec sl i m -> dynamic_at dec sl' i m.
Proof. intros (k & H & H1). exists k. split; auto. apply name_and_type_more, H1. Qed.
Lemma invoke_dynamic_more i m : invoke_dynamic_at dec sl i m -> invoke_dynamic_at dec sl' i m.
Proof. intros (k & H & H1). exists k. split; auto. apply name_and_type_more, H1. Qed.
Lemma loadable_more i l : loadable_at dec sl i l -> loadable_at dec sl' i l.
Proof.
  destruct l; cbn [loadable_at];
    [apply literal_more|apply class_more|apply method_handle_more|apply method_type_more|apply dynamic_more].
Qed.
Lemma bootstrap_arg_more i l : bootstrap_arg_at dec sl i l -> bootstrap_arg_at dec sl' i l.
Proof. destruct l; cbn [bootstrap_arg_at]; [apply literal_more|apply class_more|apply method_handle_more|apply method_type_more]. Qed.
Lemma object_array_more i t : object_array_type_at dec sl i t -> object_array_type_at dec sl' i t.
Proof. intros (s & H & H1). exists s. split; auto. apply class_more, H. Qed.
Lemma described_more i P : described dec sl i P -> described dec sl' i P.
Proof. intros (n & d & s & H & H1 & H2). exists n, d, s. split; auto. split; auto. apply utf8_more, H1. Qed.
Lemma field_desc_more i d : field_desc_at dec sl i d -> field_desc_at dec sl' i d.
Proof. intros (s & H & H1). exists s. split; auto. apply utf8_more, H. Qed.
Lemma method_desc_more i d : method_desc_at dec sl i d -> method_desc_at dec sl' i d.
Proof. intros (s & H & H1). exists s. split; auto. apply utf8_more, H. Qed.
Lemma that_more {A} (R R' : N -> A -> Prop) P i a : (forall j b, R j b -> R' j b) -> that R P i a -> that R' P i a.
Proof. intros H [H1 H2]. split; auto. Qed.
Lemma valid_more major c : valid_constant dec sl major c -> valid_constant dec sl' major c.
Proof.
  assert (Hu : forall i, is_utf8 sl i -> is_utf8 sl' i) by (intros i (r & H); exists r; auto).
  assert (Hc : forall i, is_class sl i -> is_class sl' i) by (intros i (r & H); exists r; auto).
  assert (Ht : forall i (P : str -> Prop), (exists s, utf8_at dec sl i s /\ P s) -> exists s, utf8_at dec sl' i s /\ P s)
    by (intros i P (s & H & HP); exists s; split; auto; apply utf8_more, H).
  destruct c; cbn [valid_constant]; auto; try (apply Ht); try (apply described_more).
  - intros [H1 H2]. split; auto. apply described_more, H2.
  - intros [H1 H2]. split; auto. apply described_more, H2.
  - intros [H1 H2]. split; auto. apply described_more, H2.
  - intros [H1 H2]. split; auto.
  - intros (c & H1 & H2). exists c. auto.
Qed.

Ltac more :=
  repeat match goal with
    | |- sub ?L ?L => exact (sub_refl L)
    | |- sub (_ +++ _) (_ +++ _) => simple apply sub_cat
    | |- sub (_ or _) (_ or _) => simple apply sub_alt
    | |- sub (opt_ref _ _) (opt_ref _ _) => simple apply sub_opt_ref; intros ? ?
    | |- sub (ref _ _) (ref _ _) => simple apply sub_ref; intros ? ?
    | |- sub (ref1 _ _) (ref1 _ _) => simple apply sub_ref1; intros ? ?
    | |- sub (table _ _ _) (table _ _ _) => simple apply sub_table; intro
    end.
Ltac at_more :=
  match goal with
  | |- utf8_at _ _ _ _ -> _ => simple apply utf8_more
  | |- class_at _ _ _ _ -> _ => simple apply class_more
  | |- module_at _ _ _ _ -> _ => simple apply module_more
  | |- package_at _ _ _ _ -> _ => simple apply package_more
  | |- name_and_type_at _ _ _ _ -> _ => simple apply name_and_type_more
  | |- literal_at _ _ _ _ -> _ => simple apply literal_more
  | |- member_ref_at _ _ _ _ _ -> _ => simple apply member_ref_more
  | |- method_handle_at _ _ _ _ -> _ => simple apply method_handle_more
  | |- invoke_dynamic_at _ _ _ _ -> _ => simple apply invoke_dynamic_more
  | |- loadable_at _ _ _ _ -> _ => simple apply loadable_more
  | |- bootstrap_arg_at _ _ _ _ -> _ => simple apply bootstrap_arg_more
  | |- object_array_type_at _ _ _ _ -> _ => simple apply object_array_more
  | |- field_desc_at _ _ _ _ -> _ => simple apply field_desc_more
  | |- method_desc_at _ _ _ _ -> _ => simple apply method_desc_more
  | |- at_index _ _ _ -> _ => apply Hsl
  | |- that _ _ _ _ -> _ => simple apply that_more; intros ? ?; at_more
  end.

Lemma insn_more wraps o op : sub (insn_lang dec sl wraps o op) (insn_lang dec sl' wraps o op).
Proof. destruct op; cbn [insn_lang]; more; at_more. Qed.
Lemma insns_more wraps ops : forall o, sub (insns_lang dec sl wraps o ops) (insns_lang dec sl' wraps o ops).
Proof.
  induction ops as [|[off op] ops IH]; intro o; cbn [insns_lang]; [apply sub_refl|].
  intros w (Ho & u & v & -> & Hu & Hv). split; auto. exists u, v. split; auto. split; [apply insn_more, Hu|apply IH, Hv].
Qed.
Lemma exception_more e : sub (exception_lang dec sl e) (exception_lang dec sl' e).
Proof. unfold exception_lang. more; at_more. Qed.
Lemma verification_more v : sub (verification_lang dec sl v) (verification_lang dec sl' v).
Proof. destruct v; cbn [verification_lang]; more; at_more. Qed.
Lemma stack_map_more e : sub (stack_map_lang dec sl e) (stack_map_lang dec sl' e).
Proof. destruct e; cbn [stack_map_lang]; more; try apply verification_more. apply sub_many. intro. apply verification_more. Qed.
Lemma annotation_more V V' a : (forall v, sub (V v) (V' v)) -> sub (annotation_with dec sl V a) (annotation_with dec sl' V' a).
Proof. intro HV. unfold annotation_with. more; try at_more; apply HV. Qed.
Lemma element_more d : forall v, sub (element_lang dec sl d v) (element_lang dec sl' d v).
Proof.
  induction d as [|d IH]; intro v; cbn [element_lang]; [apply sub_refl|].
  destruct v; cbn [element_with]; more; try at_more; try (apply annotation_more); apply IH.
Qed.
Lemma type_annotation_more d a : sub (type_annotation_lang dec sl d a) (type_annotation_lang dec sl' d a).
Proof. unfold type_annotation_lang. more. apply annotation_more, element_more. Qed.
Lemma bootstrap_method_more b : sub (bootstrap_method_lang dec sl b) (bootstrap_method_lang dec sl' b).
Proof. unfold bootstrap_method_lang. more; at_more. Qed.
Lemma module_lang_more m : sub (module_lang dec sl m) (module_lang dec sl' m).
Proof. unfold module_lang, require_lang, export_lang, open_lang, provide_lang. more; at_more. Qed.
Lemma code_more wraps want A A' c : (forall l, sub (A l) (A' l)) -> sub (code_lang dec sl wraps want A c) (code_lang dec sl' wraps want A' c).
Proof.
  intro HA. unfold code_lang. more; try apply exception_more; try apply HA. apply sub_only.
  destruct (cd_bytecode c); auto. intros [H1 [H2 H3]]. split; auto. split; auto. apply insns_more, H2.
Qed.
Lemma contents_more wraps want A A' d name a : (forall l, sub (A l) (A' l)) ->
  sub (contents_lang dec sl wraps want A d name a) (contents_lang dec sl' wraps want A' d name a).
Proof.
  intros HA w [H1 H2]. split; [|destruct a; exact H2]. revert w H1 H2.
  assert (Hs : sub (snd (contents dec sl wraps want A d a)) (snd (contents dec sl' wraps want A' d a))); [|intros w Hw _; apply Hs, Hw].
  destruct a; cbn [contents snd]; more; try at_more.
  all: match goal with
    | |- sub (code_lang _ _ _ _ _ _) _ => apply code_more; exact HA
    | |- sub (stack_map_lang _ _ _) _ => apply stack_map_more
    | |- sub (annotation_lang _ _ _ _) _ => apply annotation_more; exact (element_more d)
    | |- sub (type_annotation_lang _ _ _ _) _ => apply type_annotation_more
    | |- sub (element_lang _ _ _ _) _ => apply element_more
    | |- sub (bootstrap_method_lang _ _ _) _ => apply bootstrap_method_more
    | |- sub (module_lang _ _ _) _ => apply module_lang_more
    | |- _ => unfold inner_class_lang, local_variable_lang, local_variable_type_lang, method_parameter_lang, record_component_lang; more; try at_more
    end.
  apply HA.
Qed.
Lemma attributes_more wraps want d : forall l, sub (attributes_lang dec sl wraps want d l) (attributes_lang dec sl' wraps want d l).
Proof.
  induction d as [|d IH]; intro l; cbn [attributes_lang]; [apply sub_refl|]. more. unfold attribute_with. more; [at_more|].
  intros w (len & b & -> & Hl & Hb). exists len, b. split; auto. split; auto. revert Hb. apply contents_more, IH.
Qed.
Lemma field_more wraps want d f : sub (field_lang dec sl wraps want d f) (field_lang dec sl' wraps want d f).
Proof. unfold field_lang. more; try at_more. apply attributes_more. Qed.
Lemma method_more wraps want d i m : sub (method_lang dec sl wraps want d i m) (method_lang dec sl' wraps want d i m).
Proof. unfold method_lang. more; try at_more. apply attributes_more. Qed.
End Larger.
