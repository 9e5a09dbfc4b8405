(** * Property theorems: ParseOptions (C06). *)
From Verif Require Import Base M_Names M_Descriptors M_ConstantPool M_Bytecode M_Attributes M_Class M_Cesu8 Data
  S_Lang S_Names S_Format S_Within S_Strip S_Env P_Reads P_Tac P_Within P_Flat P_Class2 P_Class3 T_Class T_Members P_Code T_Bytecode.

Lemma cat_mono (L L' M M' : lang) w : (forall u, L u -> L' u) -> (forall u, M u -> M' u) -> (L +++ M) w -> (L' +++ M') w.
Proof. intros H1 H2 (u & v & -> & Hu & Hv). apply cat_intro; auto. Qed.
Lemma many_map {A B} (f : A -> B) (F : A -> lang) (G : B -> lang) : (forall a w, F a w -> G (f a) w) -> forall l w, many F l w -> many G (map f l) w.
Proof. intros H l. induction l as [|a l IH]; intros w Hm; [exact Hm|]. revert Hm. apply cat_mono; auto. Qed.
Lemma table_map {A B} cnt (f : A -> B) (F : A -> lang) (G : B -> lang) : (forall a w, F a w -> G (f a) w) -> forall l w, table cnt F l w -> table cnt G (map f l) w.
Proof. intros H l w. unfold table. rewrite map_length. apply cat_mono; auto. intro. apply many_map; auto. Qed.

Section Strip.
Variable dec : list byte -> option str.
Variable wraps : bool.
Section Pool.
Variable sl : slots.
Lemma strip_attribute (A A' : list attr_info -> lang) d a w : (forall l w, A l w -> A' (map strip_attr l) w) ->
  attribute_with dec sl wraps true A d a w -> attribute_with dec sl wraps false A' d (strip_attr a) w.
Proof.
  intros HA. destruct a as [n dat]. unfold attribute_with. cbn [strip_attr attr_name attr_dat]. apply cat_mono; auto.
  intros u (len & body & -> & Hl & Hc & Hn). exists len, body. split; auto. split; auto. unfold contents_lang in *.
  destruct dat; cbn [strip_data contents fst snd] in *; try (split; assumption).
  - split; auto. match goal with |- code_lang _ _ _ _ _ (strip_code ?x) _ => destruct x as [s l co b e at'] end.
    unfold code_lang in *. cbn [strip_code cd_max_stack cd_max_locals cd_code cd_bytecode cd_exception_table cd_attributes] in *.
    revert Hc. apply cat_mono; auto. intro. apply cat_mono; auto. intro. apply cat_mono; auto. intro. apply cat_mono; auto. intro. apply cat_mono; auto.
    intro. apply cat_mono; auto. intros ? [-> _]. split; auto.
  - split; auto. revert Hc. apply table_map. intros [rn rd ra] x. unfold record_component_lang. cbn [strip_component rc_name rc_descriptor rc_attributes].
    apply cat_mono; auto. intro. apply cat_mono; auto.
Qed.
Lemma strip_attributes d : forall l w, attributes_lang dec sl wraps true d l w -> attributes_lang dec sl wraps false d (map strip_attr l) w.
Proof.
  induction d as [|d IH]; intros l w H; [exact H|]. revert H. cbn [attributes_lang]. apply table_map. intros a u. apply strip_attribute; auto.
Qed.
End Pool.
Lemma strip_format d cs c bs : class_lang dec wraps true d cs c bs -> class_lang dec wraps false d cs (strip_class c) bs.
Proof.
  intros (H & HP & Hf & Hm & Hr & Hmod & Hboot). split.
  - revert H. cbn [strip_class access_flags minor_version major_version this_class super_class interfaces fields methods class_attributes].
    do 8 (apply cat_mono; [auto|intro]). apply cat_mono; [|intro; apply cat_mono; [|apply strip_attributes]].
    + intro. apply table_map. intros f x. unfold field_lang. cbn [strip_field f_access_flags f_name f_descriptor f_attributes].
      do 3 (apply cat_mono; [auto|intro]). apply strip_attributes.
    + intro. apply table_map. intros m x. unfold method_lang. cbn [strip_method m_access_flags m_name m_descriptor m_attributes].
      do 3 (apply cat_mono; [auto|intro]). apply strip_attributes.
  - split; [exact HP|]. cbn [strip_class fields methods major_version]. rewrite !map_map. split; [exact Hf|]. split; [exact Hm|].
    split; [clear - Hr; induction Hr; constructor; auto|].
    split.
    + intro Hb. destruct (Hmod Hb) as (H1 & H2 & H3 & H4 & H5 & H6). cbn [strip_class major_version access_flags super_class interfaces fields methods].
      rewrite H5, H6. intuition.
    + intros b nt Hin. destruct (Hboot b nt Hin) as (l & Hl & Hlt). exists l. split; auto. rewrite <- Hl. unfold bootstrap_tables. cbn [strip_class class_attributes].
      clear. induction (class_attributes c) as [|[n dat] l IH]; auto. cbn [map flat_map strip_attr attr_dat]. rewrite IH. destruct dat; reflexivity.
Qed.
End Strip.

(** ** C06 *)
(** A file accepted with bytecode parsing is accepted without, and the result is the same class
    with all [bytecode] fields set to [None] (see [S_Strip]). *)
Theorem C06_off_strips E bs c : sane E bs -> parse_class_with_options E true bs = Ok c ->
  parse_class_with_options E false bs = Ok (strip_class c).
Proof.
  intros Hs H. apply (parse_Ok E true (sane_stack _ _ Hs) bs c (sane_fits _ _ Hs)) in H. destruct H as [cs H].
  apply (parse_Ok E false (sane_stack _ _ Hs) bs _ (sane_fits _ _ Hs)). exists cs. apply strip_format, H.
Qed.
(** A file not accepted without bytecode parsing is not accepted with it. *)
Theorem C06_off_fails_on_fails E bs : sane E bs -> (forall c, parse_class_with_options E false bs <> Ok c) ->
  forall c, parse_class_with_options E true bs <> Ok c.
Proof. intros Hs H c Hc. apply (H (strip_class c)). apply C06_off_strips; auto. Qed.
(** With bytecode parsing every Code attribute at any depth has bytecode, without it none has. *)
Theorem C06_bytecode_iff_option E opts bs c n cd : sane E bs -> parse_class_with_options E opts bs = Ok c ->
  within c (mk_attr n (ACode cd)) -> (opts = true <-> exists bc, cd_bytecode cd = Some bc) /\ (opts = false <-> cd_bytecode cd = None).
Proof.
  intros Hs H Hw. destruct (constants_exist _ _ _ _ Hs H) as (cs & Hcs). destruct (code_part _ _ _ _ _ _ _ Hs H Hcs Hw) as (d & pre & u & post & -> & Hu).
  unfold code_lang in Hu. destruct Hu as (w1 & v1 & -> & _ & w2 & v2 & -> & _ & w3 & v3 & -> & _ & w4 & v4 & -> & Hraw & w5 & v5 & -> & _ & w6 & v6 & -> & _ & -> & Hx).
  destruct (cd_bytecode cd) as [bc|]; [destruct Hx as [-> _]|subst opts]; split; split; intro Hy; try discriminate Hy; eauto. destruct Hy; discriminate.
Qed.
Example C06_meets : sane debug64 object_class /\ exists c cd n bc, parse_class_with_options debug64 true object_class = Ok c
  /\ within c (mk_attr n (ACode cd)) /\ cd_bytecode cd = Some bc.
Proof.
  split; [apply ample_sane, ampleb_ample; vm_compute; reflexivity|].
  destruct (find_within (parse_class_with_options debug64 true object_class) (fun a => match attr_dat a with ACode cd => match cd_bytecode cd with Some _ => true | _ => false end | _ => false end))
    as (c & [n dat] & H & Hw & HP); [vm_compute; reflexivity|]. cbn [attr_dat] in HP. destruct dat as [|cd| | | | | | | | | | | | | | | | | | | | | | | | | | | | |]; try discriminate HP.
  destruct (cd_bytecode cd) as [bc|] eqn:Hb; [|discriminate HP]. exists c, cd, n, bc. auto.
Qed.
