(** * Property theorems: releasing a class needs no more stack than parsing it (C52) *)
From Verif Require Import Base M_Names M_Descriptors M_ConstantPool M_Bytecode M_Attributes M_Class M_Cesu8 Data Sample M_Drop M_DropData
  S_Lang S_Names S_Format S_Pool S_Within S_Env S_Drop S_Strip S_Grow P_Reads P_Tac P_Class3 P_Layout P_Depth T_Class T_Members T_Unknown T_Drop T_Deep.
From Coq Require Import ZifyBool ZifyNat ZifyN.

Section Formats.
Variable dec : list byte -> option str.
Variable sl : slots.
Variables wraps want : bool.

Lemma each_many {A} (F : A -> lang) f l : forall w, (forall a u, F a u -> f a = Ok tt) -> many F l w -> each f l = Ok tt.
Proof.
  induction l as [|a l IH]; intros w Hf H; [reflexivity|]. destruct H as (u & v & -> & Hu & Hv). cbn [each]. rewrite (Hf _ _ Hu). exact (IH _ Hf Hv).
Qed.
Lemma each_table {A} n (F : A -> lang) f l w : (forall a u, F a u -> f a = Ok tt) -> table n F l w -> each f l = Ok tt.
Proof. intros Hf (u & v & -> & _ & H). eapply each_many; eauto. Qed.

Lemma annotation_drops (V : element_value -> lang) f a w : (forall v u, V v u -> f v = Ok tt) -> annotation_with dec sl V a w -> drop_annotation_with f a = Ok tt.
Proof.
  intros Hf (u & v & -> & _ & H). eapply each_table; [|exact H]. intros nv u' (x & y & -> & _ & Hy). eapply Hf, Hy.
Qed.
Lemma value_drops d : forall v w, element_lang dec sl d v w -> drop_value d v = Ok tt.
Proof.
  induction d as [|d IH]; intros v w H; [destruct H|]. destruct v; try reflexivity.
  - destruct H as (u & u' & -> & _ & H). cbn [drop_value]. eapply annotation_drops; eauto.
  - destruct H as (u & u' & -> & _ & H). cbn [drop_value]. eapply each_table; eauto.
Qed.
Lemma annotations_drop d a w : annotation_lang dec sl d a w -> drop_annotation d a = Ok tt.
Proof. apply annotation_drops, value_drops. Qed.

Lemma data_drops (A : list attr_info -> lang) f d a w : (forall l u, A l u -> f l = Ok tt) -> snd (contents dec sl wraps want A d a) w -> drop_data f d a = Ok tt.
Proof.
  intros Hf H. destruct a; try reflexivity; cbn [contents snd drop_data] in *.
  - destruct H as (stk & v1 & -> & H1 & loc & v2 & -> & H2 & cl & v3 & -> & H3 & code & v4 & -> & H4 & v5 & v6 & -> & H5 & v7 & v8 & -> & H6 & _). eapply Hf, H6.
  - eapply each_table; [apply annotations_drop|exact H].
  - eapply each_table; [apply annotations_drop|exact H].
  - eapply each_table; [|exact H]. intros a u. apply each_table, annotations_drop.
  - eapply each_table; [|exact H]. intros a u. apply each_table, annotations_drop.
  - eapply each_table; [|exact H]. intros a u (x1 & y1 & -> & _ & x2 & y2 & -> & _ & Ha). eapply annotations_drop, Ha.
  - eapply each_table; [|exact H]. intros a u (x1 & y1 & -> & _ & x2 & y2 & -> & _ & Ha). eapply annotations_drop, Ha.
  - eapply value_drops, H.
  - eapply each_table; [|exact H]. intros a u (x1 & y1 & -> & _ & x2 & y2 & -> & _ & Ha). eapply Hf, Ha.
Qed.
Lemma attributes_drop d : forall l w, attributes_lang dec sl wraps want d l w -> drop_attributes d l = Ok tt.
Proof.
  induction d as [|d IH]; intros l w H; [destruct H|]. cbn [drop_attributes attributes_lang] in *. eapply each_table; [|exact H].
  intros a u (x & y & -> & _ & len & body & -> & _ & Hb & _). eapply data_drops; eauto.
Qed.
End Formats.

Lemma class_drops dec wraps want d cs c bs freed : class_lang dec wraps want d cs c bs -> drop_pool d (constant_pool c) = Ok freed -> drop_class d c = Ok freed.
Proof.
  intros (Hc & _) Hp. unfold drop_class. rewrite Hp.
  destruct Hc as (u0 & v0 & -> & K0 & u1 & v1 & -> & K1 & u2 & v2 & -> & K2 & u3 & v3 & -> & K3 & u4 & v4 & -> & K4 & u5 & v5 & -> & K5
    & u6 & v6 & -> & K6 & u7 & v7 & -> & K7 & u8 & v8 & -> & K8 & u9 & T & -> & K9 & HT).
  assert (Hf : each (fun f => drop_attributes d (f_attributes f)) (fields c) = Ok tt).
  { eapply each_table; [|exact K8]. intros f u (x1 & y1 & -> & _ & x2 & y2 & -> & _ & x3 & y3 & -> & _ & Ha). eapply attributes_drop, Ha. }
  assert (Hm : each (fun m => drop_attributes d (m_attributes m)) (methods c) = Ok tt).
  { eapply each_table; [|exact K9]. intros m u (x1 & y1 & -> & _ & x2 & y2 & -> & _ & x3 & y3 & -> & _ & Ha). eapply attributes_drop, Ha. }
  cbn [bind]. rewrite Hf, Hm, (attributes_drop _ _ _ _ _ _ _ HT).
  reflexivity.
Qed.

(** The stack that was enough for parsing is enough for releasing the class (the pool needs four levels, C44). *)
Theorem C52_parse_suffices E opts bs c stk : sane E bs -> parse_class_with_options E opts bs = Ok c -> (stack E <= stk)%nat -> (4 <= stk)%nat ->
  exists fs, drop_class stk c = Ok fs /\ all_freed (constant_pool c) fs.
Proof.
  intros Hs H Hk H4. destruct (constants_exist _ _ _ _ Hs H) as [cs Hcs]. pose proof (accepted_stack _ _ _ _ _ Hs H Hcs) as Hc.
  apply (class_more _ _ _ _ _ _ _ _ Hk) in Hc. destruct (C44_accepted _ _ _ _ stk Hs H H4) as (fs & Hf & Ha). exists fs. split; [|exact Ha]. eapply class_drops; eauto.
Qed.
(** As many levels as the file has bytes are enough. *)
Theorem C52_length_suffices E opts bs c stk : sane E bs -> parse_class_with_options E opts bs = Ok c -> (length bs <= stk)%nat ->
  exists fs, drop_class stk c = Ok fs /\ all_freed (constant_pool c) fs.
Proof.
  intros Hs H Hk. destruct (constants_exist _ _ _ _ Hs H) as [cs Hcs]. pose proof (accepted_stack _ _ _ _ _ Hs H Hcs) as Hc.
  apply (class_depth _ _ _ _ _ _ _ _ Hk) in Hc.
  assert (H4 : (4 <= stk)%nat).
  { destruct Hc as (Hc & _). destruct Hc as (u & v & -> & [Hu _] & _). rewrite app_length in Hk. lia. }
  destruct (C44_accepted _ _ _ _ stk Hs H H4) as (fs & Hf & Ha). exists fs. split; [|exact Ha]. eapply class_drops; eauto.
Qed.

(** No fixed number of levels is enough. *)
Lemma nest_overflows n : forall stk, (stk <= n)%nat -> drop_value stk (nest n) = Panic PStackOverflow.
Proof.
  induction n as [|n IH]; intros [|stk] H; try reflexivity; [lia|]. cbn [nest drop_value each]. rewrite IH by lia. reflexivity.
Qed.
Theorem C52_any_depth n : 3 * N.of_nat n + 3 < 2 ^ 32 -> exists bs c, blen bs = 3 * N.of_nat n + 60 /\
  (forall E opts, cesu8 E = from_java_cesu8 -> sane E bs -> (n + 2 <= stack E)%nat -> parse_class_with_options E opts bs = Ok c) /\
  forall stk, (stk < n + 2)%nat -> drop_class stk c = Panic PStackOverflow.
Proof.
  intro Hn. destruct (C36_nested n Hn) as (bs & Hl & H). exists bs, (nested_class n). split; [exact Hl|]. split; [intros E opts Hd Hs; apply H; assumption|].
  intros stk Hk. unfold drop_class.
  assert (Hp : drop_pool stk (constant_pool plain_class) = Panic PStackOverflow \/ exists fs, drop_pool stk (constant_pool plain_class) = Ok fs).
  { destruct stk as [|[|[|[|stk]]]]; [left; vm_compute; reflexivity|left; vm_compute; reflexivity|right; eexists; vm_compute; reflexivity..|].
    right. destruct (C44_accepted debug64 true plain plain_class (S (S (S (S stk))))) as (fs & Hf & _); [apply ample_sane, ampleb_ample; vm_compute; reflexivity|apply (plain_parses true true)|lia|eauto]. }
  change (constant_pool (nested_class n)) with (constant_pool plain_class). destruct Hp as [-> | (fs & ->)]; [reflexivity|].
  assert (Hf0 : fields (nested_class n) = []) by (vm_compute; reflexivity). assert (Hm0 : methods (nested_class n) = []) by (vm_compute; reflexivity).
  rewrite Hf0, Hm0. cbn [each]. change (class_attributes (nested_class n)) with [mk_attr (lit "AnnotationDefault") (AAnnotationDefault (nest n))].
  destruct stk as [|stk]; [reflexivity|]. cbn [drop_attributes each attr_dat drop_data]. rewrite nest_overflows by lia. reflexivity.
Qed.
Example C52_meets : sane debug64 sample /\ parse_class_with_options debug64 true sample = Ok sample_parsed
  /\ drop_class 3 sample_parsed = Panic PStackOverflow /\ exists fs, drop_class 4 sample_parsed = Ok fs.
Proof. split; [exact sample_sane|]. split; [exact sample_parse|]. split; [vm_compute; reflexivity|]. eexists. vm_compute. reflexivity. Qed.
