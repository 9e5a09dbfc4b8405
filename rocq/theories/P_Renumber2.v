(** * A pool in another order offers as much; the class over it. *)
From Verif Require Import Base S_Lang S_Names S_Format S_Pool S_Renumber P_Tac P_Renumber.
From Verif Require Import M_ConstantPool M_Bytecode M_Attributes M_Class.
From Coq Require Import Permutation.

Lemma class_become dec wraps want d cs cs' c m vv n concat_ws rest wp :
  (u4 0xCAFEBABE) m -> (u2 (minor_version c) +++ u2 (major_version c)) vv ->
  class_lang dec wraps want d cs c (m ++ vv ++ n ++ concat_ws ++ rest) ->
  (flags_keep class_bits (access_flags c)
   +++ ref (that (class_at dec (slots_of cs)) class_name) (this_class c)
   +++ opt_ref (that (class_at dec (slots_of cs)) class_name) (super_class c)
   +++ table u2 (ref (that (class_at dec (slots_of cs)) class_name)) (interfaces c)
   +++ table u2 (field_lang dec (slots_of cs) wraps want d) (fields c)
   +++ table u2 (method_lang dec (slots_of cs) wraps want d (N.testbit (access_flags c) ACC_INTERFACE_bit)) (methods c)
   +++ attributes_lang dec (slots_of cs) wraps want d (class_attributes c)) rest ->
  offers dec (slots_of cs) (slots_of cs') -> pool_lang dec wraps (major_version c) cs' wp -> bootstrap_rules cs' c ->
  exists c' rest', class_lang dec wraps want d cs' c' (m ++ vv ++ wp ++ rest') /\ length rest' = length rest
    /\ same_but_pool c c' /\ constant_pool c' = pool_of dec (slots_of cs').
Proof.
  intros Hm Hvv Hc Hrest Ho Hp Hb. destruct Hc as (_ & _ & Hnd & Hnd' & Hmr & Hmod & _).
  destruct Hrest as (w1 & r1 & -> & H1 & w2 & r2 & -> & H2 & w3 & r3 & -> & H3 & w4 & r4 & -> & H4 & w5 & r5 & -> & H5 & w6 & w7 & -> & H6 & H7).
  assert (Hcl : sends 65536 (that (class_at dec (slots_of cs)) class_name) (that (class_at dec (slots_of cs')) class_name))
    by (apply that_sent; apply class_sent; exact Ho).
  destruct (moves_ref _ _ _ Hcl _ H2) as (w2' & H2' & E2). destruct (moves_opt_ref _ _ _ Hcl _ H3) as (w3' & H3' & E3).
  destruct (moves_table u2 _ _ (interfaces c) (fun a => moves_ref _ _ a Hcl) _ H4) as (w4' & H4' & E4).
  destruct (table_become u2 _ (field_lang dec (slots_of cs') wraps want d) _ _ _ (fun f u => field_become dec _ _ Ho wraps want d f u) H5) as (fs & w5' & H5' & E5 & R5).
  destruct (table_become u2 _ (method_lang dec (slots_of cs') wraps want d (N.testbit (access_flags c) ACC_INTERFACE_bit)) _ _ _
      (fun f u => method_become dec _ _ Ho wraps want d _ f u) H6) as (ms & w6' & H6' & E6 & R6).
  destruct (attributes_become dec _ _ Ho _ _ _ _ _ H7) as (attrs & w7' & H7' & E7 & R7).
  exists (mk_class (major_version c) (minor_version c) (pool_of dec (slots_of cs')) (access_flags c) (this_class c) (super_class c) (interfaces c) fs ms attrs).
  exists (w1 ++ w2' ++ w3' ++ w4' ++ w5' ++ w6' ++ w7').
  assert (Ef : map (fun f => (f_name f, f_descriptor f)) fs = map (fun f => (f_name f, f_descriptor f)) (fields c)).
  { clear - R5. induction R5 as [|f f' l l' (E1 & E2 & E3 & _) _ IH]; cbn [map]; [reflexivity|]. rewrite IH, E2, E3. reflexivity. }
  assert (Em : map (fun f => (m_name f, m_descriptor f)) ms = map (fun f => (m_name f, m_descriptor f)) (methods c)).
  { clear - R6. induction R6 as [|f f' l l' (E1 & E2 & E3 & _) _ IH]; cbn [map]; [reflexivity|]. rewrite IH, E2, E3. reflexivity. }
  split; [|split; [rewrite !app_length; lia|split; [constructor; cbn; auto|reflexivity]]].
  split; [|split; [|split; [|split; [|split; [|split]]]]]; cbn [minor_version major_version constant_pool access_flags this_class super_class interfaces fields methods class_attributes].
  - destruct Hvv as (v1 & v2 & -> & Hv1 & Hv2). rewrite <- (app_assoc v1). do 10 (apply cat_intro; [assumption|]). assumption.
  - reflexivity.
  - rewrite Ef. exact Hnd.
  - rewrite Em. exact Hnd'.
  - clear - R6 Hmr. revert Hmr. induction R6 as [|f f' l l' (E1 & E2 & E3 & _) _ IH]; intro Hmr; constructor.
    + pose proof (Forall_inv Hmr) as Hf. unfold method_rules in *. rewrite E2, E3. exact Hf.
    + apply IH, (Forall_inv_tail Hmr).
  - intro Hbit. cbn [access_flags] in Hbit. destruct (Hmod Hbit) as (G1 & G2 & G3 & G4 & G5 & G6). cbn. repeat split; auto.
    + rewrite G5 in R5. inversion R5. reflexivity.
    + rewrite G6 in R6. inversion R6. reflexivity.
  - intros b nt Hin. destruct (Hb b nt Hin) as (l & Hl & Hlt). exists l. split; auto. rewrite <- Hl. unfold bootstrap_tables. cbn [class_attributes].
    clear - R7. induction R7 as [|a a' l l' Hr _ IH]; cbn [flat_map]; [reflexivity|]. rewrite IH. f_equal. destruct Hr; reflexivity.
Qed.

(** ** Reordering *)
Section Order.
Variable dec : list byte -> option str.
Variable new : N -> N.
Variables cs cs' : list constant.
Hypothesis Hr : renumbered new cs cs'.
Let sl := slots_of cs.
Let sl' := slots_of cs'.

Lemma at_new i c : at_index sl i c -> at_index sl' (new i) (renumber new c).
Proof. apply (moved _ _ _ Hr). Qed.
Lemma utf8_new i s : utf8_at dec sl i s -> utf8_at dec sl' (new i) s.
Proof. intros (r & H & Hd). exists r. split; auto. exact (at_new _ _ H). Qed.
Lemma class_new i s : class_at dec sl i s -> class_at dec sl' (new i) s.
Proof. intros (j & H & Hd). exists (new j). split; [exact (at_new _ _ H)|apply utf8_new, Hd]. Qed.
Lemma method_type_new i s : method_type_at dec sl i s -> method_type_at dec sl' (new i) s.
Proof. intros (j & H & Hd). exists (new j). split; [exact (at_new _ _ H)|apply utf8_new, Hd]. Qed.
Lemma name_and_type_new i nt : name_and_type_at dec sl i nt -> name_and_type_at dec sl' (new i) nt.
Proof. intros (n & d & H & H1 & H2). exists (new n), (new d). split; [exact (at_new _ _ H)|]. split; apply utf8_new; auto. Qed.
Lemma member_new k i c nt : member_at dec sl k i c nt -> member_at dec sl' k (new i) c nt.
Proof.
  intros (a & b & H & H1 & H2). exists (new a), (new b). split; [|split; [apply class_new, H1|apply name_and_type_new, H2]].
  apply at_new in H. destruct k; exact H.
Qed.
Lemma literal_new i l : literal_at dec sl i l -> literal_at dec sl' (new i) l.
Proof.
  destruct l; cbn [literal_at]; try exact (at_new i _).
  - intros (j & H & Hd). exists (new j). split; [exact (at_new _ _ H)|apply utf8_new, Hd].
  - intros (j & H & Hd & He). exists (new j). split; [exact (at_new _ _ H)|]. split; [exact (at_new _ _ Hd)|exact He].
Qed.
Lemma handle_new i h : method_handle_at dec sl i h -> method_handle_at dec sl' (new i) h.
Proof. intros (m & H & H1). exists (new m). split; [exact (at_new _ _ H)|apply member_new, H1]. Qed.
Lemma dynamic_new i h : dynamic_at dec sl i h -> dynamic_at dec sl' (new i) h.
Proof. intros (m & H & H1). exists (new m). split; [exact (at_new _ _ H)|apply name_and_type_new, H1]. Qed.
Lemma item_new i it : item_at dec sl i it -> item_at dec sl' (new i) it.
Proof.
  destruct it; cbn [item_at]; try apply member_new.
  - apply literal_new.
  - apply class_new.
  - apply name_and_type_new.
  - apply handle_new.
  - apply method_type_new.
  - apply dynamic_new.
  - intros (m & H & H1). exists (new m). split; [exact (at_new _ _ H)|apply name_and_type_new, H1].
  - intros (j & H & Hd). exists (new j). split; [exact (at_new _ _ H)|apply utf8_new, Hd].
  - intros (j & H & Hd). exists (new j). split; [exact (at_new _ _ H)|apply utf8_new, Hd].
Qed.
Lemma loadable_new i l : loadable_at dec sl i l -> loadable_at dec sl' (new i) l.
Proof. destruct l; cbn [loadable_at]; [apply literal_new|apply class_new|apply handle_new|apply method_type_new|apply dynamic_new]. Qed.
Lemma loadable_is i l : loadable_at dec sl i l -> exists c, at_index sl i c /\ short_loadable c.
Proof.
  destruct l as [[]| | | |]; cbn [loadable_at literal_at]; intro H.
  1-4: eexists; split; [exact H|exact I].
  all: destruct H as (j & H & _); eexists; split; [exact H|exact I].
Qed.
Lemma renumbered_offers : offers dec sl sl'.
Proof.
  constructor.
  - intros i s Hi H. exists (new i). split; [apply (two_byte _ _ _ Hr), Hi|apply utf8_new, H].
  - intros i s Hi H. exists (new i). split; [apply (two_byte _ _ _ Hr), Hi|apply item_new, H].
  - intros i s Hi H. exists (new i). split; [|apply loadable_new, H]. destruct (loadable_is _ _ H) as (c & Hc & Hs).
    exact (one_byte _ _ _ Hr _ _ Hc Hs Hi).
Qed.
Lemma described_new i P : described dec sl i P -> described dec sl' (new i) P.
Proof. intros (n & d & s & H & H1 & H2). exists (new n), (new d), s. split; [exact (at_new _ _ H)|]. split; auto. apply utf8_new, H1. Qed.
Lemma handle_target_new major k c : handle_target major k c -> handle_target major k (renumber new c).
Proof. destruct k, c; exact (fun H => H). Qed.
Lemma valid_new major c : valid_constant dec sl major c -> valid_constant dec sl' major (renumber new c).
Proof.
  assert (Hu : forall i, is_utf8 sl i -> is_utf8 sl' (new i)) by (intros i (r & H); exists r; exact (at_new _ _ H)).
  assert (Hc : forall i, is_class sl i -> is_class sl' (new i)) by (intros i (r & H); exists (new r); exact (at_new _ _ H)).
  assert (Ht : forall i (P : str -> Prop), (exists s, utf8_at dec sl i s /\ P s) -> exists s, utf8_at dec sl' (new i) s /\ P s)
    by (intros i P (s & H & HP); exists s; split; auto; apply utf8_new, H).
  destruct c; cbn [valid_constant renumber]; auto; try (apply Ht); try (apply described_new).
  1-3: intros [H1 H2]; split; [auto|apply described_new, H2].
  - intros [H1 H2]. split; auto.
  - intros (c & H1 & H2). exists (renumber new c). split; [exact (at_new _ _ H1)|apply handle_target_new, H2].
Qed.
Lemma all_valid major : Forall (valid_constant dec sl major) cs -> Forall (valid_constant dec sl' major) cs'.
Proof.
  intro H. rewrite Forall_forall in *. intros c' Hin. destruct (nothing_else _ _ _ Hr _ Hin) as (c & Hc & ->). apply valid_new, H, Hc.
Qed.
Lemma bootstrap_new c : bootstrap_rules cs c -> bootstrap_rules cs' c.
Proof.
  intros H b nt Hin.
  assert (exists nt0, In (CDynamic b nt0) cs \/ In (CInvokeDynamic b nt0) cs) as (nt0 & Hin0); [|eapply H; eauto].
  assert (Hp : forall x, In x cs' -> exists c0, renumber new c0 = x /\ In c0 cs).
  { intros x Hx. destruct (nothing_else _ _ _ Hr _ Hx) as (c0 & Hc & ->). eauto. }
  destruct Hin as [Hin|Hin]; destruct (Hp _ Hin) as (c0 & E & H0); destruct c0; try discriminate E; cbn [renumber] in E;
    match goal with H : In (?f ?b' ?n) cs |- _ => assert (b' = b) as -> by congruence end; eauto.
Qed.
Lemma moves_u2 n : moves (u2 n) (u2 (new n)).
Proof.
  intros w H. destruct (u2_exists (new n)) as (w' & Hw & E1); [apply (two_byte _ _ _ Hr), (u2_below _ _ H)|].
  exists w'. split; auto. destruct H. congruence.
Qed.
Lemma moves_only P : moves (only_if P) (only_if P).
Proof. apply moves_refl. Qed.
Lemma constant_moves major c : moves (constant_lang major c) (constant_lang major (renumber new c)).
Proof.
  assert (Ht : forall t v L L', moves L L' -> moves (tagged t v major L) (tagged t v major L')).
  { intros t v L L' HL w (Hv & H). destruct (moves_cat _ _ _ _ (moves_refl (u1 t)) HL _ H) as (w' & Hw & E1). exists w'. split; auto. split; auto. }
  destruct c; cbn [constant_lang renumber]; try apply moves_refl; apply Ht; repeat apply moves_cat; try apply moves_refl; apply moves_u2.
Qed.
Lemma encodings_exist major ws : Permutation (map (renumber new) cs) cs' -> Forall2 (constant_lang major) cs ws ->
  exists ws', Forall2 (constant_lang major) cs' ws' /\ length (concat ws') = length (concat ws).
Proof.
  intros Hp H.
  assert (exists vs, Forall2 (constant_lang major) (map (renumber new) cs) vs /\ length (concat vs) = length (concat ws)) as (vs & Hvs & E1).
  { assert (Hg : forall l, Forall2 (constant_lang major) l ws -> exists vs, Forall2 (constant_lang major) (map (renumber new) l) vs /\ length (concat vs) = length (concat ws)); [|exact (Hg _ H)]. clear H.
    intros l H. induction H as [|c w l ws Hc _ IH]; cbn [map].
    - exists []. split; [constructor|reflexivity].
    - destruct IH as (vs & Hvs & E1). destruct (constant_moves _ _ _ Hc) as (w' & Hw & E2). exists (w' :: vs).
      split; [constructor; auto|]. cbn [concat]. rewrite !app_length. congruence. }
  rewrite <- E1. clear - Hvs Hp. revert vs Hvs.
  induction Hp as [|x l l' _ IH|x y l|l l' l'' _ IH1 _ IH2]; intros vs Hvs.
  - inversion Hvs; subst. exists []. split; [constructor|reflexivity].
  - inversion Hvs as [|? v ? vs0 Hv Hvs0]; subst. destruct (IH _ Hvs0) as (ws & Hws & E1). exists (v :: ws). split; [constructor; auto|].
    cbn [concat]. rewrite !app_length. congruence.
  - inversion Hvs as [|? v ? vs0 Hv Hvs0]; subst. inversion Hvs0 as [|? v' ? vs1 Hv' Hvs1]; subst. exists (v' :: v :: vs1).
    split; [repeat (constructor; auto)|]. cbn [concat]. rewrite !app_length. lia.
  - destruct (IH1 _ Hvs) as (ws1 & H1 & E1). destruct (IH2 _ H1) as (ws2 & H2 & E2). exists ws2. split; auto. congruence.
Qed.
End Order.
