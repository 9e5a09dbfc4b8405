(** * Formats over other constants: what is written with one pool can be written,
    in as many bytes, with another pool that offers as much. *)
From Verif Require Import Base S_Lang S_Names S_Format S_Pool S_Renumber P_Tac.
From Verif Require Import M_ConstantPool M_Bytecode M_Attributes M_Class.

Lemma be_unsnoc w b : be (w ++ [b]) = be w * 256 + Byte.to_N b.
Proof. unfold be. rewrite fold_left_app. reflexivity. Qed.
Lemma u1_exists n : n < 256 -> exists w, u1 n w /\ length w = 1%nat.
Proof.
  intro H. destruct (Byte.of_N n) as [b|] eqn:Hb.
  - exists [b]. split; [|reflexivity]. split; [reflexivity|]. apply Byte.to_of_N in Hb. unfold be. cbn [fold_left]. lia.
  - apply Byte.of_N_None_iff in Hb. lia.
Qed.
Lemma u2_exists n : n < 65536 -> exists w, u2 n w /\ length w = 2%nat.
Proof.
  intro H. assert (H1 : n / 256 < 256) by (apply N.div_lt_upper_bound; lia).
  assert (H2 : n mod 256 < 256) by (apply N.mod_lt; lia).
  destruct (Byte.of_N (n / 256)) as [a|] eqn:Ha; [|apply Byte.of_N_None_iff in Ha; lia].
  destruct (Byte.of_N (n mod 256)) as [b|] eqn:Hb; [|apply Byte.of_N_None_iff in Hb; lia].
  exists [a; b]. split; [|reflexivity]. split; [reflexivity|]. apply Byte.to_of_N in Ha, Hb. unfold be. cbn [fold_left].
  rewrite Ha, Hb. pose proof (N.div_mod n 256). lia.
Qed.
Lemma u1_below n w : u1 n w -> n < 256.
Proof.
  intros [Hl <-]. destruct w as [|a [|]]; try discriminate. unfold be. cbn [fold_left]. pose proof (Byte.to_N_bounded a). lia.
Qed.
Lemma u2_below n w : u2 n w -> n < 65536.
Proof.
  intros [Hl <-]. destruct w as [|a [|b [|]]]; try discriminate. unfold be. cbn [fold_left].
  pose proof (Byte.to_N_bounded a). pose proof (Byte.to_N_bounded b). lia.
Qed.

Definition moves (L M : lang) : Prop := forall w, L w -> exists w', M w' /\ length w' = length w.
Lemma moves_refl L : moves L L.
Proof. intros w H. eauto. Qed.
Lemma moves_cat L L' M M' : moves L L' -> moves M M' -> moves (L +++ M) (L' +++ M').
Proof.
  intros HL HM w (u & v & -> & Hu & Hv). destruct (HL _ Hu) as (u' & Hu' & E1). destruct (HM _ Hv) as (v' & Hv' & E2).
  exists (u' ++ v'). split; [apply cat_intro; assumption|]. rewrite !app_length. congruence.
Qed.
Lemma moves_alt L L' M M' : moves L L' -> moves M M' -> moves (L or M) (L' or M').
Proof.
  intros HL HM w [H|H]; [destruct (HL _ H) as (w' & Hw & E1)|destruct (HM _ H) as (w' & Hw & E1)]; exists w'; split; auto; [left|right]; auto.
Qed.
Lemma moves_many {A} (F G : A -> lang) l : (forall a, moves (F a) (G a)) -> moves (many F l) (many G l).
Proof. intro H. induction l as [|a l IH]; cbn [many]; [apply moves_refl|apply moves_cat; auto]. Qed.
Lemma moves_table {A} cnt (F G : A -> lang) l : (forall a, moves (F a) (G a)) -> moves (table cnt F l) (table cnt G l).
Proof. intro H. apply moves_cat; [apply moves_refl|apply moves_many, H]. Qed.
Definition sends (bound : N) {A} (R R' : N -> A -> Prop) : Prop :=
  forall a i, i < bound -> R i a -> exists i', i' < bound /\ R' i' a.
Lemma moves_ref {A} (R R' : N -> A -> Prop) a : sends 65536 R R' -> moves (ref R a) (ref R' a).
Proof.
  intros H w (i & Hw & Hi). destruct (H _ _ (u2_below _ _ Hw) Hi) as (i' & Hlt & Hi'). destruct (u2_exists _ Hlt) as (w' & Hw' & E1).
  exists w'. split; [exists i'; auto|]. destruct Hw. congruence.
Qed.
Lemma moves_ref1 {A} (R R' : N -> A -> Prop) a : sends 256 R R' -> moves (ref1 R a) (ref1 R' a).
Proof.
  intros H w (i & Hw & Hi). destruct (H _ _ (u1_below _ _ Hw) Hi) as (i' & Hlt & Hi'). destruct (u1_exists _ Hlt) as (w' & Hw' & E1).
  exists w'. split; [exists i'; auto|]. destruct Hw. congruence.
Qed.
Lemma moves_opt_ref {A} (R R' : N -> A -> Prop) o : sends 65536 R R' -> moves (opt_ref R o) (opt_ref R' o).
Proof. intro H. destruct o; cbn [opt_ref]; [apply moves_ref, H|apply moves_refl]. Qed.

(** Tables whose rows change. *)
Lemma many_become {A} (F G : A -> lang) (R : A -> A -> Prop) l w :
  (forall a u, F a u -> exists a' u', G a' u' /\ length u' = length u /\ R a a') -> many F l w ->
  exists l' w', many G l' w' /\ length w' = length w /\ Forall2 R l l'.
Proof.
  intro H. revert w. induction l as [|a l IH]; intros w Hw; cbn [many] in Hw.
  - exists [], []. rewrite Hw. repeat split. constructor.
  - destruct Hw as (u & v & -> & Hu & Hv). destruct (H _ _ Hu) as (a' & u' & Hu' & E1 & Hr). destruct (IH _ Hv) as (l' & v' & Hv' & E2 & Hrs).
    exists (a' :: l'), (u' ++ v'). split; [cbn [many]; apply cat_intro; assumption|]. rewrite !app_length. split; [congruence|constructor; auto].
Qed.
Lemma same_length {A} (R : A -> A -> Prop) l l' : Forall2 R l l' -> length l' = length l.
Proof. induction 1; cbn [length]; congruence. Qed.
Lemma table_become {A} cnt (F G : A -> lang) (R : A -> A -> Prop) l w :
  (forall a u, F a u -> exists a' u', G a' u' /\ length u' = length u /\ R a a') -> table cnt F l w ->
  exists l' w', table cnt G l' w' /\ length w' = length w /\ Forall2 R l l'.
Proof.
  intros H (u & v & -> & Hu & Hv). destruct (many_become _ _ _ _ _ H Hv) as (l' & v' & Hv' & E1 & Hr).
  exists l', (u ++ v'). split; [|rewrite !app_length; auto]. apply cat_intro; auto. rewrite (same_length _ _ _ Hr). exact Hu.
Qed.

Section Other.
Variable dec : list byte -> option str.
Variables sl sl' : slots.
Hypothesis Ho : offers dec sl sl'.

Lemma utf8_sent : sends 65536 (utf8_at dec sl) (utf8_at dec sl').
Proof. intros s i. apply (offers_text _ _ _ Ho). Qed.
Lemma item_sent it i : i < 65536 -> item_at dec sl i it -> exists i', i' < 65536 /\ item_at dec sl' i' it.
Proof. apply (offers_item _ _ _ Ho). Qed.
Lemma class_sent : sends 65536 (class_at dec sl) (class_at dec sl').
Proof. intros s i. exact (item_sent (ItClassInfo s) i). Qed.
Lemma module_sent : sends 65536 (module_at dec sl) (module_at dec sl').
Proof. intros s i. exact (item_sent (ItModuleInfo s) i). Qed.
Lemma package_sent : sends 65536 (package_at dec sl) (package_at dec sl').
Proof. intros s i. exact (item_sent (ItPackageInfo s) i). Qed.
Lemma name_and_type_sent : sends 65536 (name_and_type_at dec sl) (name_and_type_at dec sl').
Proof. intros s i. exact (item_sent (ItNameAndType s) i). Qed.
Lemma literal_sent : sends 65536 (literal_at dec sl) (literal_at dec sl').
Proof. intros s i. exact (item_sent (ItLiteral s) i). Qed.
Lemma integer_sent : sends 65536 (fun i z => at_index sl i (CInteger z)) (fun i z => at_index sl' i (CInteger z)).
Proof. intros s i. exact (item_sent (ItLiteral (LInteger s)) i). Qed.
Lemma long_sent : sends 65536 (fun i z => at_index sl i (CLong z)) (fun i z => at_index sl' i (CLong z)).
Proof. intros s i. exact (item_sent (ItLiteral (LLong s)) i). Qed.
Lemma float_sent : sends 65536 (fun i z => at_index sl i (CFloat z)) (fun i z => at_index sl' i (CFloat z)).
Proof. intros s i. exact (item_sent (ItLiteral (LFloat s)) i). Qed.
Lemma double_sent : sends 65536 (fun i z => at_index sl i (CDouble z)) (fun i z => at_index sl' i (CDouble z)).
Proof. intros s i. exact (item_sent (ItLiteral (LDouble s)) i). Qed.
Lemma method_handle_sent : sends 65536 (method_handle_at dec sl) (method_handle_at dec sl').
Proof. intros s i. exact (item_sent (ItMethodHandle s) i). Qed.
Lemma invoke_dynamic_sent : sends 65536 (invoke_dynamic_at dec sl) (invoke_dynamic_at dec sl').
Proof. intros s i. exact (item_sent (ItInvokeDynamic s) i). Qed.
Lemma member_ref_sent ks : sends 65536 (member_ref_at dec sl ks) (member_ref_at dec sl' ks).
Proof.
  intros m i Hi (k & Hk & H).
  assert (exists i', i' < 65536 /\ member_at dec sl' k i' (mr_class_name m) (mr_name_and_type m)) as (i' & Hlt & H').
  { destruct k; [exact (item_sent (ItFieldRef m) i Hi H)|exact (item_sent (ItMethodRef m) i Hi H)|exact (item_sent (ItInterfaceMethodRef m) i Hi H)]. }
  exists i'. split; auto. exists k. auto.
Qed.
Lemma loadable_sent : sends 65536 (loadable_at dec sl) (loadable_at dec sl').
Proof.
  intros l i Hi H. destruct l as [l|s|h|s|d].
  - exact (item_sent (ItLiteral l) i Hi H).
  - exact (item_sent (ItClassInfo s) i Hi H).
  - exact (item_sent (ItMethodHandle h) i Hi H).
  - exact (item_sent (ItMethodType s) i Hi H).
  - exact (item_sent (ItDynamic d) i Hi H).
Qed.
Lemma loadable_short_sent : sends 256 (loadable_at dec sl) (loadable_at dec sl').
Proof. intros l i. apply (offers_short _ _ _ Ho). Qed.
Lemma bootstrap_arg_sent : sends 65536 (bootstrap_arg_at dec sl) (bootstrap_arg_at dec sl').
Proof.
  intros l i Hi H. destruct l as [l|s|h|s].
  - exact (item_sent (ItLiteral l) i Hi H).
  - exact (item_sent (ItClassInfo s) i Hi H).
  - exact (item_sent (ItMethodHandle h) i Hi H).
  - exact (item_sent (ItMethodType s) i Hi H).
Qed.
Lemma object_array_sent : sends 65536 (object_array_type_at dec sl) (object_array_type_at dec sl').
Proof. intros t i Hi (s & H & H1). destruct (class_sent s i Hi H) as (i' & Hlt & H'). exists i'. split; auto. exists s. auto. Qed.
Lemma field_desc_sent : sends 65536 (field_desc_at dec sl) (field_desc_at dec sl').
Proof. intros t i Hi (s & H & H1). destruct (utf8_sent s i Hi H) as (i' & Hlt & H'). exists i'. split; auto. exists s. auto. Qed.
Lemma method_desc_sent : sends 65536 (method_desc_at dec sl) (method_desc_at dec sl').
Proof. intros t i Hi (s & H & H1). destruct (utf8_sent s i Hi H) as (i' & Hlt & H'). exists i'. split; auto. exists s. auto. Qed.
Lemma that_sent {A} (R R' : N -> A -> Prop) P : sends 65536 R R' -> sends 65536 (that R P) (that R' P).
Proof. intros H a i Hi [H1 H2]. destruct (H a i Hi H1) as (i' & Hlt & H'). exists i'. split; auto. split; auto. Qed.

Ltac sent :=
  match goal with
  | |- sends _ (utf8_at _ _) _ => exact utf8_sent
  | |- sends _ (class_at _ _) _ => exact class_sent
  | |- sends _ (module_at _ _) _ => exact module_sent
  | |- sends _ (package_at _ _) _ => exact package_sent
  | |- sends _ (name_and_type_at _ _) _ => exact name_and_type_sent
  | |- sends _ (literal_at _ _) _ => exact literal_sent
  | |- sends _ (member_ref_at _ _ _) _ => apply member_ref_sent
  | |- sends _ (method_handle_at _ _) _ => exact method_handle_sent
  | |- sends _ (invoke_dynamic_at _ _) _ => exact invoke_dynamic_sent
  | |- sends 256 (loadable_at _ _) _ => exact loadable_short_sent
  | |- sends _ (loadable_at _ _) _ => exact loadable_sent
  | |- sends _ (bootstrap_arg_at _ _) _ => exact bootstrap_arg_sent
  | |- sends _ (object_array_type_at _ _) _ => exact object_array_sent
  | |- sends _ (field_desc_at _ _) _ => exact field_desc_sent
  | |- sends _ (method_desc_at _ _) _ => exact method_desc_sent
  | |- sends _ (that _ _) _ => simple apply that_sent; sent
  | |- sends _ (fun _ _ => at_index _ _ (CInteger _)) _ => exact integer_sent
  | |- sends _ (fun _ _ => at_index _ _ (CLong _)) _ => exact long_sent
  | |- sends _ (fun _ _ => at_index _ _ (CFloat _)) _ => exact float_sent
  | |- sends _ (fun _ _ => at_index _ _ (CDouble _)) _ => exact double_sent
  end.
Ltac moves :=
  repeat match goal with
    | |- moves ?L ?L => exact (moves_refl L)
    | |- moves (_ +++ _) (_ +++ _) => simple apply moves_cat
    | |- moves (_ or _) (_ or _) => simple apply moves_alt
    | |- moves (opt_ref _ _) (opt_ref _ _) => simple apply moves_opt_ref
    | |- moves (ref _ _) (ref _ _) => simple apply moves_ref
    | |- moves (ref1 _ _) (ref1 _ _) => simple apply moves_ref1
    | |- moves (table _ _ _) (table _ _ _) => simple apply moves_table; intro
    end.

Lemma insn_moves wraps o op : moves (insn_lang dec sl wraps o op) (insn_lang dec sl' wraps o op).
Proof. destruct op; cbn [insn_lang]; moves; sent. Qed.
Lemma insns_moves wraps ops : forall o, moves (insns_lang dec sl wraps o ops) (insns_lang dec sl' wraps o ops).
Proof.
  induction ops as [|[off op] ops IH]; intro o; cbn [insns_lang]; [apply moves_refl|].
  intros w (Heq & u & v & -> & Hu & Hv). destruct (insn_moves _ _ _ _ Hu) as (u' & Hu' & E1). destruct (IH _ _ Hv) as (v' & Hv' & E2).
  exists (u' ++ v'). split; [|rewrite !app_length; congruence]. split; auto. exists u', v'. split; auto. split; auto. rewrite E1. exact Hv'.
Qed.
Lemma exception_moves e : moves (exception_lang dec sl e) (exception_lang dec sl' e).
Proof. unfold exception_lang. moves; sent. Qed.
Lemma verification_moves v : moves (verification_lang dec sl v) (verification_lang dec sl' v).
Proof. destruct v; cbn [verification_lang]; moves; sent. Qed.
Lemma stack_map_moves e : moves (stack_map_lang dec sl e) (stack_map_lang dec sl' e).
Proof. destruct e; cbn [stack_map_lang]; moves; try apply verification_moves. apply moves_many. intro. apply verification_moves. Qed.
Lemma annotation_moves V V' a : (forall v, moves (V v) (V' v)) -> moves (annotation_with dec sl V a) (annotation_with dec sl' V' a).
Proof. intro HV. unfold annotation_with. moves; try sent; apply HV. Qed.
Lemma element_moves d : forall v, moves (element_lang dec sl d v) (element_lang dec sl' d v).
Proof.
  induction d as [|d IH]; intro v; cbn [element_lang]; [apply moves_refl|].
  destruct v; cbn [element_with]; moves; try sent; try (apply annotation_moves); apply IH.
Qed.
Lemma type_annotation_moves d a : moves (type_annotation_lang dec sl d a) (type_annotation_lang dec sl' d a).
Proof. unfold type_annotation_lang. moves. apply annotation_moves, element_moves. Qed.
Lemma bootstrap_method_moves b : moves (bootstrap_method_lang dec sl b) (bootstrap_method_lang dec sl' b).
Proof. unfold bootstrap_method_lang. moves; sent. Qed.
Lemma module_lang_moves m : moves (module_lang dec sl m) (module_lang dec sl' m).
Proof. unfold module_lang, require_lang, export_lang, open_lang, provide_lang. moves; sent. Qed.

(** Attributes, which contain the bytes of code. *)
Definition becomes (A A' : list attr_info -> lang) : Prop :=
  forall l w, A l w -> exists l' w', A' l' w' /\ length w' = length w /\ Forall2 recoded l l'.
Lemma code_moves wraps want A A' name c w : becomes A A' -> code_lang dec sl wraps want A c w ->
  exists c' w', code_lang dec sl' wraps want A' c' w' /\ length w' = length w
    /\ recoded (mk_attr name (ACode c)) (mk_attr name (ACode c')).
Proof.
  intros HA. unfold code_lang. destruct c as [s l code bc ex attrs]. cbn [cd_max_stack cd_max_locals cd_code cd_bytecode cd_exception_table cd_attributes].
  intros (w1 & r1 & -> & H1 & w2 & r2 & -> & H2 & w3 & r3 & -> & H3 & w4 & r4 & -> & H4 & w5 & r5 & -> & H5 & w6 & w7 & -> & H6 & H7 & H8).
  assert (exists code', length code' = length code /\ (bc = None -> code' = code)
            /\ match bc with Some bc => want = true /\ code_format dec sl' wraps bc code' | None => want = false end) as (code' & E1 & E2 & H9).
  { destruct bc as [bc|]; [|exists code; auto]. destruct H8 as (Hw & Hc & Hj). destruct (insns_moves _ _ _ _ Hc) as (code' & Hc' & E1).
    exists code'. split; auto. split; [discriminate|]. split; auto. split; auto. }
  assert (Hex : moves (table u2 (exception_lang dec sl) ex) (table u2 (exception_lang dec sl') ex)) by (apply moves_table; apply exception_moves).
  destruct (Hex _ H5) as (w5' & H5' & E5). destruct (HA _ _ H6) as (attrs' & w6' & H6' & E6 & Hr).
  exists (mk_code s l code' bc ex attrs'), (w1 ++ w2 ++ w3 ++ code' ++ w5' ++ w6' ++ []).
  cbn [cd_max_stack cd_max_locals cd_code cd_bytecode cd_exception_table cd_attributes]. split; [|split].
  - do 2 (apply cat_intro; [assumption|]). rewrite E1. apply cat_intro; [assumption|]. apply cat_intro; [reflexivity|].
    apply cat_intro; [assumption|]. apply cat_intro; [assumption|]. split; [reflexivity|exact H9].
  - rewrite H4, H7. rewrite !app_length. lia.
  - constructor; auto.
Qed.
Lemma record_component_moves A A' r w : becomes A A' -> record_component_lang dec sl A r w ->
  exists r' w', record_component_lang dec sl' A' r' w' /\ length w' = length w
    /\ rc_name r' = rc_name r /\ rc_descriptor r' = rc_descriptor r /\ Forall2 recoded (rc_attributes r) (rc_attributes r').
Proof.
  intro HA. destruct r as [n dsc attrs]. unfold record_component_lang. cbn [rc_name rc_descriptor rc_attributes].
  intros (w1 & r1 & -> & H1 & w2 & w3 & -> & H2 & H3). destruct (HA _ _ H3) as (attrs' & w3' & H3' & E3 & Hr).
  assert (M1 : moves (ref (that (utf8_at dec sl) unqualified) n) (ref (that (utf8_at dec sl') unqualified) n)) by (moves; sent).
  assert (M2 : moves (ref (field_desc_at dec sl) dsc) (ref (field_desc_at dec sl') dsc)) by (moves; sent).
  destruct (M1 _ H1) as (w1' & H1' & E1). destruct (M2 _ H2) as (w2' & H2' & E2).
  exists (mk_rc n dsc attrs'), (w1' ++ w2' ++ w3'). cbn [rc_name rc_descriptor rc_attributes]. split; [|split; [rewrite !app_length; lia|auto]].
  apply cat_intro; [assumption|]. apply cat_intro; assumption.
Qed.
Lemma contents_moves wraps want A A' d name a w : becomes A A' -> contents_lang dec sl wraps want A d name a w ->
  exists a' w', contents_lang dec sl' wraps want A' d name a' w' /\ length w' = length w
    /\ recoded (mk_attr name a) (mk_attr name a').
Proof.
  intros HA [H1 H2].
  assert (Hs : (forall c, a <> ACode c) -> (forall l, a <> ARecord l) ->
    moves (snd (contents dec sl wraps want A d a)) (snd (contents dec sl' wraps want A' d a))).
  { intros Hc Hr. destruct a; cbn [contents snd]; moves; try sent; try (exfalso; eapply Hc; reflexivity); try (exfalso; eapply Hr; reflexivity).
    all: match goal with
      | |- moves (stack_map_lang _ _ _) _ => apply stack_map_moves
      | |- moves (annotation_lang _ _ _ _) _ => apply annotation_moves; exact (element_moves d)
      | |- moves (type_annotation_lang _ _ _ _) _ => apply type_annotation_moves
      | |- moves (element_lang _ _ _ _) _ => apply element_moves
      | |- moves (bootstrap_method_lang _ _ _) _ => apply bootstrap_method_moves
      | |- moves (module_lang _ _ _) _ => apply module_lang_moves
      | |- _ => unfold inner_class_lang, local_variable_lang, local_variable_type_lang, method_parameter_lang; moves; try sent
      end. }
  assert (Hid : (forall c, a <> ACode c) -> (forall l, a <> ARecord l) -> exists a' w', contents_lang dec sl' wraps want A' d name a' w' /\ length w' = length w
    /\ recoded (mk_attr name a) (mk_attr name a')).
  { intros Hc Hr. destruct (Hs Hc Hr _ H1) as (w' & Hw & E1). exists a, w'. split; [|split; [auto|constructor]]. split; [exact Hw|destruct a; exact H2]. }
  destruct a as [| c| | | | | | | | | | | | | | | | | | | | | | | | | | | | l|]; try (apply Hid; discriminate).
  - destruct (code_moves _ _ _ _ name _ _ HA H1) as (c' & w' & Hw & E1 & Hr). exists (ACode c'), w'. split; auto. split; auto.
  - destruct (table_become u2 _ (record_component_lang dec sl' A') _ _ _ (fun r u => record_component_moves A A' r u HA) H1) as (l' & w' & Hw & E1 & Hr).
    exists (ARecord l'), w'. split; [split; auto|]. split; auto. constructor. exact Hr.
Qed.
Lemma attributes_become wraps want d : becomes (attributes_lang dec sl wraps want d) (attributes_lang dec sl' wraps want d).
Proof.
  induction d as [|d IH]; intros l w Hw; cbn [attributes_lang] in *; [destruct Hw|].
  apply (table_become u2 (attribute_with dec sl wraps want (attributes_lang dec sl wraps want d) d)); auto. clear l w Hw.
  intros [name a] u (w1 & w2 & -> & H1 & len & b & -> & Hl & Hb). cbn [attr_name attr_dat] in *.
  assert (M1 : moves (ref (utf8_at dec sl) name) (ref (utf8_at dec sl') name)) by (moves; sent).
  destruct (M1 _ H1) as (w1' & H1' & E1). destruct (contents_moves _ _ _ _ _ _ _ _ IH Hb) as (a' & b' & Hb' & E2 & Hr).
  exists (mk_attr name a'), (w1' ++ len ++ b'). split; [|split; [rewrite !app_length; lia|exact Hr]].
  apply cat_intro; [exact H1'|]. exists len, b'. split; auto. split; [rewrite E2; exact Hl|exact Hb'].
Qed.
Lemma field_become wraps want d f w : field_lang dec sl wraps want d f w ->
  exists f' w', field_lang dec sl' wraps want d f' w' /\ length w' = length w /\ recoded_field f f'.
Proof.
  destruct f as [fl n dsc attrs]. unfold field_lang, recoded_field. cbn [f_access_flags f_name f_descriptor f_attributes].
  intros (w1 & r1 & -> & H1 & w2 & r2 & -> & H2 & w3 & w4 & -> & H3 & H4). destruct (attributes_become _ _ _ _ _ H4) as (attrs' & w4' & H4' & E4 & Hr).
  assert (M2 : moves (ref (that (utf8_at dec sl) unqualified) n) (ref (that (utf8_at dec sl') unqualified) n)) by (moves; sent).
  assert (M3 : moves (ref (field_desc_at dec sl) dsc) (ref (field_desc_at dec sl') dsc)) by (moves; sent).
  destruct (M2 _ H2) as (w2' & H2' & E2). destruct (M3 _ H3) as (w3' & H3' & E3).
  exists (mk_field fl n dsc attrs'), (w1 ++ w2' ++ w3' ++ w4'). cbn [f_access_flags f_name f_descriptor f_attributes].
  split; [|split; [rewrite !app_length; lia|auto]]. do 3 (apply cat_intro; [assumption|]). assumption.
Qed.
Lemma method_become wraps want d i m w : method_lang dec sl wraps want d i m w ->
  exists m' w', method_lang dec sl' wraps want d i m' w' /\ length w' = length w /\ recoded_method m m'.
Proof.
  destruct m as [fl n dsc attrs]. unfold method_lang, recoded_method. cbn [m_access_flags m_name m_descriptor m_attributes].
  intros (w1 & r1 & -> & H1 & w2 & r2 & -> & H2 & w3 & w4 & -> & H3 & H4). destruct (attributes_become _ _ _ _ _ H4) as (attrs' & w4' & H4' & E4 & Hr).
  assert (M2 : moves (ref (that (utf8_at dec sl) (method_name i)) n) (ref (that (utf8_at dec sl') (method_name i)) n)) by (moves; sent).
  assert (M3 : moves (ref (method_desc_at dec sl) dsc) (ref (method_desc_at dec sl') dsc)) by (moves; sent).
  destruct (M2 _ H2) as (w2' & H2' & E2). destruct (M3 _ H3) as (w3' & H3' & E3).
  exists (mk_method fl n dsc attrs'), (w1 ++ w2' ++ w3' ++ w4'). cbn [m_access_flags m_name m_descriptor m_attributes].
  split; [|split; [rewrite !app_length; lia|auto]]. do 3 (apply cat_intro; [assumption|]). assumption.
Qed.
End Other.
