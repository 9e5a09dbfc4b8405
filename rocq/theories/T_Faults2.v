(** * C53: the place at which a file departs from the format is unique. *)
From Verif Require Import Data Base M_Names M_Descriptors M_ConstantPool M_Bytecode M_Attributes M_Class
  S_Lang S_Names S_Format S_Env S_Faults P_Names P_Descriptors P_Reads P_Tac P_Refs P_Attributes P_Attr2 P_Attr3 P_Pool P_Pool3 P_Pool4 P_Class P_Class2 P_Class3 P_Faults P_Faults2 P_Faults3 P_Layout T_Faults.
From Coq Require Import ZifyBool ZifyNat ZifyN.

Section WithEnv.
Variable E : env.
Hypothesis Hstk : (2 <= stack E)%nat.
Variable opts : parse_options.
Notation dec := (cesu8 E).
Notation wraps := (negb (overflow_checks E)).
Notation A cs := (attribute_lang dec wraps opts (stack E) cs).

(** ** The places as states: what is known after the bytes so far *)
Inductive state :=
| SMagic | SVersions | SCount (minor major : N) | SPool (minor major n : N) (cs : list constant) (i : N)
| SFlags (minor major : N) (cs : list constant)
| SThis (minor major : N) (cs : list constant) (flags : N)
| SSuper (minor major : N) (cs : list constant) (flags : N) (this : str)
| SIfCount (minor major : N) (cs : list constant) (flags : N) (this : str) (super : option str)
| SIfs (minor major : N) (cs : list constant) (flags : N) (this : str) (super : option str) (n : N) (ifs : list str)
| SFieldCount (minor major : N) (cs : list constant) (flags : N) (this : str) (super : option str) (ifs : list str)
| SFields (minor major : N) (cs : list constant) (flags : N) (this : str) (super : option str) (ifs : list str) (n : N) (fs : list field_info)
| SMethodCount (minor major : N) (cs : list constant) (flags : N) (this : str) (super : option str) (ifs : list str) (fs : list field_info)
| SMethods (minor major : N) (cs : list constant) (flags : N) (this : str) (super : option str) (ifs : list str) (fs : list field_info) (n : N) (ms : list method_info)
| SAttrCount (cs : list constant) (o : owner) (k : list attr_info -> state)
| SAttrs (cs : list constant) (o : owner) (k : list attr_info -> state) (n : N) (l : list attr_info)
| SEnd (cs : list constant) (c : class_file).

Definition SClassAttrs minor major cs flags this super ifs fs ms : state :=
  SAttrCount cs OfClass (fun l => SEnd cs (mk_class major minor (pool_of dec (slots_of cs)) flags this super ifs fs ms l)).
Definition SFieldAttrs minor major cs flags this super ifs n fs h : state :=
  SAttrCount cs (OfField (count_of_list fs)) (fun l => SFields minor major cs flags this super ifs n (fs ++ [field_of h l])).
Definition SMethodAttrs minor major cs flags this super ifs fs n ms h : state :=
  SAttrCount cs (OfMethod (count_of_list ms)) (fun l => SMethods minor major cs flags this super ifs fs n (ms ++ [method_of h l])).
Notation ii flags := (N.testbit flags ACC_INTERFACE_bit).

Inductive step : state -> list byte -> state -> Prop :=
| st_magic w : magic w -> step SMagic w SVersions
| st_versions minor major w : (u2 minor +++ u2 major) w -> step SVersions w (SCount minor major)
| st_count minor major n w : u2 n w -> step (SCount minor major) w (SPool minor major n [] 1)
| st_constant minor major n cs i c w : i < n -> constant_at wraps major i c w ->
    step (SPool minor major n cs i) w (SPool minor major n (cs ++ [c]) (next_index i c))
| st_constants minor major n cs i : n <= i -> Forall (valid_constant dec (slots_of cs) major) cs ->
    step (SPool minor major n cs i) [] (SFlags minor major cs)
| st_flags minor major cs flags w : class_flags_lang major flags w -> step (SFlags minor major cs) w (SThis minor major cs flags)
| st_this minor major cs flags this w : class_ref dec cs this w -> step (SThis minor major cs flags) w (SSuper minor major cs flags this)
| st_super minor major cs flags this super w : class_opt_ref dec cs super w ->
    step (SSuper minor major cs flags this) w (SIfCount minor major cs flags this super)
| st_ifcount minor major cs flags this super n w : u2 n w ->
    step (SIfCount minor major cs flags this super) w (SIfs minor major cs flags this super n [])
| st_if minor major cs flags this super n ifs name w : count_of_list ifs < n -> class_ref dec cs name w ->
    step (SIfs minor major cs flags this super n ifs) w (SIfs minor major cs flags this super n (ifs ++ [name]))
| st_ifs minor major cs flags this super n ifs : n <= count_of_list ifs ->
    step (SIfs minor major cs flags this super n ifs) [] (SFieldCount minor major cs flags this super ifs)
| st_fieldcount minor major cs flags this super ifs n w : u2 n w ->
    step (SFieldCount minor major cs flags this super ifs) w (SFields minor major cs flags this super ifs n [])
| st_field minor major cs flags this super ifs n fs h w : count_of_list fs < n -> field_head dec cs fs h w ->
    step (SFields minor major cs flags this super ifs n fs) w (SFieldAttrs minor major cs flags this super ifs n fs h)
| st_fields minor major cs flags this super ifs n fs : n <= count_of_list fs ->
    step (SFields minor major cs flags this super ifs n fs) [] (SMethodCount minor major cs flags this super ifs fs)
| st_methodcount minor major cs flags this super ifs fs n w : u2 n w ->
    step (SMethodCount minor major cs flags this super ifs fs) w (SMethods minor major cs flags this super ifs fs n [])
| st_method minor major cs flags this super ifs fs n ms h w : count_of_list ms < n -> method_head dec cs major (ii flags) ms h w ->
    step (SMethods minor major cs flags this super ifs fs n ms) w (SMethodAttrs minor major cs flags this super ifs fs n ms h)
| st_methods minor major cs flags this super ifs fs n ms : n <= count_of_list ms ->
    step (SMethods minor major cs flags this super ifs fs n ms) [] (SClassAttrs minor major cs flags this super ifs fs ms)
| st_attrcount cs o k n w : u2 n w -> step (SAttrCount cs o k) w (SAttrs cs o k n [])
| st_attr cs o k n l a w : count_of_list l < n -> A cs a w -> step (SAttrs cs o k n l) w (SAttrs cs o k n (l ++ [a]))
| st_attrs cs o k n l : n <= count_of_list l -> step (SAttrs cs o k n l) [] (k l).

Definition place_of (s : state) (rest : list byte) : place :=
  match s with
  | SMagic => AtMagic | SVersions => AtVersions | SCount _ _ => AtPoolCount
  | SPool _ _ n _ i => if i <? n then AtConstant i else AtConstants
  | SFlags _ _ _ => AtFlags | SThis _ _ _ _ => AtThisClass | SSuper _ _ _ _ _ => AtSuperClass
  | SIfCount _ _ _ _ _ _ => AtInterfaceCount | SIfs _ _ _ _ _ _ _ ifs => AtInterface (count_of_list ifs)
  | SFieldCount _ _ _ _ _ _ _ => AtFieldCount | SFields _ _ _ _ _ _ _ _ fs => AtHead (OfField (count_of_list fs))
  | SMethodCount _ _ _ _ _ _ _ _ => AtMethodCount | SMethods _ _ _ _ _ _ _ _ _ ms => AtHead (OfMethod (count_of_list ms))
  | SAttrCount _ o _ => AtAttributeCount o | SAttrs _ o _ _ l => AtAttribute o (count_of_list l)
  | SEnd _ _ => match rest with [] => AtRules | _ => AtEnd end
  end.
Definition stuck_at (s : state) (rest : list byte) : Prop := forall u v s', rest = u ++ v -> ~ step s u s'.

(** Constants are valid when they are first used. *)
Fixpoint inv (s : state) : Prop :=
  match s with
  | SFlags _ major cs | SThis _ major cs _ | SSuper _ major cs _ _ | SIfCount _ major cs _ _ _ | SIfs _ major cs _ _ _ _ _ =>
      Forall (valid_constant dec (slots_of cs) major) cs
  | SAttrCount _ _ k | SAttrs _ _ k _ _ => forall l, inv (k l)
  | _ => True
  end.
Lemma same_ids_refl {X} (l : list X) : same_ids l l. Proof. intro x. tauto. Qed.

Lemma step_det s u s1 : step s u s1 -> inv s -> forall v u' v' s2, step s u' s2 -> fits E (u ++ v) -> u ++ v = u' ++ v' -> s1 = s2 /\ u = u' /\ v = v'.
Proof.
  intros H Hi v u' v' s2 H2 Hf Heq. destruct H; inversion H2; subst; try (exfalso; lia); try (split; [reflexivity|split; [reflexivity|exact Heq]]); cbn [inv] in Hi.
  all: first
    [ match goal with H1 : magic _, H3 : magic _ |- _ => destruct (reads_det E _ _ _ _ _ _ tt tt (reads_magic_parser E) Hf Heq H1 H3) as (_ & -> & ->); auto end
    | match goal with H1 : constant_at _ _ _ _ _, H3 : constant_at _ _ _ _ _ |- _ =>
        destruct (constant_split _ _ _ _ _ _ _ Heq (proj1 H1) (proj1 H3)) as (-> & -> & ->); auto end
    | match goal with H1 : class_flags_lang _ _ _, H3 : class_flags_lang _ _ _ |- _ =>
        destruct (reads_det E _ _ _ _ _ _ _ _ (reads_flags_parser E Hstk _) Hf Heq H1 H3) as (-> & -> & ->); auto end
    | match goal with H1 : class_ref _ _ _ _, H3 : class_ref _ _ _ _ |- _ =>
        destruct (reads_det E _ _ _ _ _ _ _ _ (reads_this_class E _ _ Hi) Hf Heq H1 H3) as (-> & -> & ->); auto end
    | match goal with H1 : class_opt_ref _ _ _ _, H3 : class_opt_ref _ _ _ _ |- _ =>
        destruct (reads_det E _ _ _ _ _ _ _ _ (reads_super_class E _ _ Hi) Hf Heq H1 H3) as (-> & -> & ->); auto end
    | match goal with H1 : u2 _ _, H3 : u2 _ _ |- _ => destruct (uint_split _ _ _ _ _ _ _ Heq H1 H3) as (-> & -> & ->); auto end
    | match goal with H1 : field_head _ _ _ _ _, H3 : field_head _ _ _ _ _ |- _ =>
        destruct (reads_det E _ _ _ _ _ _ _ _ (reads_field_head E _ 0 _ _ (same_ids_refl _)) Hf Heq H1 H3) as (-> & -> & ->); auto end
    | match goal with H1 : method_head _ _ _ _ _ _ _, H3 : method_head _ _ _ _ _ _ _ |- _ =>
        destruct (reads_det E _ _ _ _ _ _ _ _ (reads_method_head E Hstk _ _ _ 0 _ _ (same_ids_refl _)) Hf Heq H1 H3) as (-> & -> & ->); auto end
    | match goal with H1 : attribute_lang _ _ _ _ _ _ _, H3 : attribute_lang _ _ _ _ _ _ _ |- _ =>
        destruct (reads_det E _ _ _ _ _ _ _ _ (reads_one_attribute E opts _ 0) Hf Heq H1 H3) as (-> & -> & ->); auto end
    | idtac ].
  destruct (reads_det E _ _ _ _ _ _ (minor, major) (minor0, major0) (reads_versions_parser E) Hf Heq H) as (He & -> & ->); [assumption|]. injection He as -> ->. auto.
Qed.
Lemma step_inv s u s' : step s u s' -> inv s -> inv s'.
Proof. destruct 1; cbn [inv SFieldAttrs SMethodAttrs SClassAttrs]; unfold SFieldAttrs, SMethodAttrs, SClassAttrs; cbn [inv]; auto. Qed.

(** ** Walks *)
Inductive walk : state -> list byte -> state -> Prop :=
| walk_0 s : walk s [] s
| walk_S s u s1 v s2 : step s u s1 -> walk s1 v s2 -> walk s (u ++ v) s2.
Lemma walk_app s u s1 v s2 : walk s u s1 -> walk s1 v s2 -> walk s (u ++ v) s2.
Proof. induction 1; intro Hw; auto. rewrite <- app_assoc. econstructor; eauto. Qed.
Lemma walk_one s u s' : step s u s' -> walk s u s'.
Proof. intro H. rewrite <- (app_nil_r u). econstructor; [eassumption|constructor]. Qed.
Lemma walk_snoc s u s1 v s2 : walk s u s1 -> step s1 v s2 -> walk s (u ++ v) s2.
Proof. intros H H'. eapply walk_app; [eassumption|apply walk_one; assumption]. Qed.
Lemma walk_eps s u s1 s2 : walk s u s1 -> step s1 [] s2 -> walk s u s2.
Proof. intros H H'. rewrite <- (app_nil_r u). eapply walk_snoc; eauto. Qed.

Lemma walk_det s w s1 : walk s w s1 -> inv s -> forall rest w' s2 rest', walk s w' s2 -> fits E (w ++ rest) -> w ++ rest = w' ++ rest' ->
  stuck_at s1 rest -> stuck_at s2 rest' -> s1 = s2 /\ w = w' /\ rest = rest'.
Proof.
  induction 1 as [s|s u s1 v s2 Hs Hw IH]; intros Hi rest w' s' rest' Hw' Hf Heq Hst Hst'.
  - inversion Hw' as [|? u ? v ? Hs1 Hw1]; subst; [auto|]. exfalso. cbn [app] in Heq. rewrite <- app_assoc in Heq. exact (Hst _ _ _ Heq Hs1).
  - inversion Hw' as [|? u' ? v' ? Hs1 Hw1]; subst.
    + exfalso. cbn [app] in Heq. rewrite <- app_assoc in Heq. exact (Hst' _ _ _ (eq_sym Heq) Hs).
    + rewrite <- app_assoc in Heq, Hf. rewrite <- app_assoc in Heq. destruct (step_det _ _ _ Hs Hi _ _ _ _ Hs1 Hf Heq) as (<- & <- & Heq').
      destruct (IH (step_inv _ _ _ Hs Hi) rest v' s' rest' Hw1) as (<- & <- & <-); auto. apply (fits_sub E u _ []). rewrite app_nil_r. exact Hf.
Qed.

(** ** Where faults are *)
Lemma walk_versions minor major w : (magic +++ u2 minor +++ u2 major) w -> walk SMagic w (SCount minor major).
Proof. intros (u & v & -> & Hm & Hv). eapply walk_S; [apply st_magic; exact Hm|]. apply walk_one, st_versions, Hv. Qed.
Lemma walk_count minor major n w : ((magic +++ u2 minor +++ u2 major) +++ u2 n) w -> walk SMagic w (SPool minor major n [] 1).
Proof. intros (u & v & -> & Hm & Hv). eapply walk_snoc; [apply walk_versions; exact Hm|]. apply st_count, Hv. Qed.
Lemma walk_due minor major n cs : forall cs0 i j w, many (constant_lang major) cs w -> due wraps n i cs j ->
  walk (SPool minor major n cs0 i) w (SPool minor major n (cs0 ++ cs) j).
Proof.
  induction cs as [|c cs IH]; intros cs0 i j w Hm Hd.
  - destruct Hd as [-> _]. cbn in Hm. unfold eps in Hm. subst. rewrite app_nil_r. constructor.
  - destruct Hm as (u & v & -> & Hu & Hv). apply due_inv in Hd. destruct Hd as (Hi & Hw & Hd). econstructor; [eapply (st_constant _ _ _ _ _ c); [exact Hi|split; [exact Hu|exact Hw]]|].
    replace (cs0 ++ c :: cs) with ((cs0 ++ [c]) ++ cs) by (rewrite <- app_assoc; reflexivity). apply IH; auto.
Qed.
Lemma walk_fills minor major n cs : forall cs0 i w, many (constant_lang major) cs w -> fills wraps n i cs ->
  exists j, n <= j /\ walk (SPool minor major n cs0 i) w (SPool minor major n (cs0 ++ cs) j).
Proof.
  induction cs as [|c cs IH]; intros cs0 i w Hm Hd.
  - cbn in Hm, Hd. unfold eps in Hm. subst. exists i. rewrite app_nil_r. split; auto. constructor.
  - destruct Hm as (u & v & -> & Hu & Hv). cbn [fills] in Hd. destruct Hd as [Hi Hd]. cbv zeta in Hd.
    assert (Hd' : (i + width c < 65536 \/ wraps = true) /\ fills wraps n (next_index i c) cs) by (unfold next_index; destruct (N.ltb_spec (i + width c) 65536); tauto).
    destruct Hd' as [Hw Hd']. destruct (IH (cs0 ++ [c]) _ _ Hv Hd') as (j & Hj & Hwalk). exists j. split; auto.
    econstructor; [eapply (st_constant _ _ _ _ _ c); [exact Hi|split; [exact Hu|exact Hw]]|]. rewrite <- app_assoc in Hwalk. exact Hwalk.
Qed.
Lemma walk_opening minor major cs w : opening dec wraps minor major cs w -> walk SMagic w (SFlags minor major cs).
Proof.
  intros (u & v & -> & Hm & (n & (u1 & u2' & -> & Hn & Hcs) & Hfi & Hval)). destruct (walk_fills minor major n cs [] 1 _ Hcs Hfi) as (j & Hj & Hw).
  eapply walk_app; [apply walk_versions; exact Hm|]. eapply walk_S; [apply st_count; exact Hn|]. eapply walk_eps; [exact Hw|]. apply st_constants; auto.
Qed.
Lemma walk_flags minor major cs flags w : to_flags dec wraps minor major cs flags w -> walk SMagic w (SThis minor major cs flags).
Proof. intros (u & v & -> & Hm & Hv). eapply walk_snoc; [apply walk_opening; exact Hm|]. apply st_flags, Hv. Qed.
Lemma walk_this minor major cs flags this w : (to_flags dec wraps minor major cs flags +++ class_ref dec cs this) w -> walk SMagic w (SSuper minor major cs flags this).
Proof. intros (u & v & -> & Hm & Hv). eapply walk_snoc; [apply walk_flags; exact Hm|]. apply st_this, Hv. Qed.
Lemma walk_super minor major cs flags this super w : to_super dec wraps minor major cs flags this super w -> walk SMagic w (SIfCount minor major cs flags this super).
Proof. intros (u & v & -> & Hm & Hv). eapply walk_snoc; [apply walk_this; exact Hm|]. apply st_super, Hv. Qed.
Lemma count_snoc {X} (l : list X) x : count_of_list (l ++ [x]) = count_of_list l + 1.
Proof. unfold count_of_list. rewrite app_length. cbn [length]. lia. Qed.
Lemma count_app {X} (l l' : list X) : count_of_list (l ++ l') = count_of_list l + count_of_list l'.
Proof. unfold count_of_list. rewrite app_length. lia. Qed.
Lemma count_cons {X} (l : list X) x : count_of_list (x :: l) = count_of_list l + 1.
Proof. unfold count_of_list. cbn [length]. lia. Qed.
Lemma count_nil {X} : count_of_list (@nil X) = 0. Proof. reflexivity. Qed.
Lemma walk_ifs minor major cs flags this super n ifs : forall ifs0 w, many (class_ref dec cs) ifs w -> count_of_list ifs0 + count_of_list ifs <= n ->
  walk (SIfs minor major cs flags this super n ifs0) w (SIfs minor major cs flags this super n (ifs0 ++ ifs)).
Proof.
  induction ifs as [|x l IH]; intros ifs0 w Hm Hn; rewrite ?count_cons in Hn.
  - cbn in Hm. unfold eps in Hm. subst. rewrite app_nil_r. constructor.
  - destruct Hm as (u & v & -> & Hu & Hv). econstructor; [eapply (st_if _ _ _ _ _ _ _ _ x); [lia|exact Hu]|].
    replace (ifs0 ++ x :: l) with ((ifs0 ++ [x]) ++ l) by (rewrite <- app_assoc; reflexivity). apply IH; auto. rewrite count_snoc. lia.
Qed.
Lemma walk_attrs cs o k n l : forall l0 w, many (A cs) l w -> count_of_list l0 + count_of_list l <= n ->
  walk (SAttrs cs o k n l0) w (SAttrs cs o k n (l0 ++ l)).
Proof.
  induction l as [|x l IH]; intros ifs0 w Hm Hn; rewrite ?count_cons in Hn.
  - cbn in Hm. unfold eps in Hm. subst. rewrite app_nil_r. constructor.
  - destruct Hm as (u & v & -> & Hu & Hv). econstructor; [eapply (st_attr _ _ _ _ _ x); [lia|exact Hu]|].
    replace (ifs0 ++ x :: l) with ((ifs0 ++ [x]) ++ l) by (rewrite <- app_assoc; reflexivity). apply IH; auto. rewrite count_snoc. lia.
Qed.
Lemma walk_attributes cs o k l w : attributes_lang dec (slots_of cs) wraps opts (stack E) l w -> walk (SAttrCount cs o k) w (k l).
Proof.
  intro H. apply attributes_lang_unfold in H; auto. destruct H as (u & v & -> & Hu & Hv). econstructor; [apply st_attrcount; exact Hu|].
  eapply walk_eps; [eapply (walk_attrs _ _ _ _ l []); [exact Hv|rewrite count_nil; lia]|]. apply st_attrs. cbn [app]. lia.
Qed.
Lemma walk_interfaces minor major cs flags this super ifs w : to_interfaces dec wraps minor major cs flags this super ifs w ->
  walk SMagic w (SFieldCount minor major cs flags this super ifs).
Proof.
  intros (u & v & -> & Hm & (u1 & u2' & -> & Hn & Hl)). eapply walk_app; [apply walk_super; exact Hm|]. econstructor; [apply st_ifcount; exact Hn|].
  eapply walk_eps; [eapply (walk_ifs _ _ _ _ _ _ _ ifs []); [exact Hl|rewrite count_nil; lia]|]. apply st_ifs. cbn [app]. lia.
Qed.
Lemma walk_field_members minor major cs flags this super ifs n ms gs u : field_members E opts cs ms gs u -> count_of_list ms + count_of_list gs <= n ->
  walk (SFields minor major cs flags this super ifs n ms) u (SFields minor major cs flags this super ifs n (ms ++ gs)).
Proof.
  unfold field_members. induction 1 as [ms|ms h a gs u v w Hh Ha Hm IH]; intro Hn; [rewrite app_nil_r; constructor|]. rewrite count_cons in Hn.
  econstructor; [apply st_field; [lia|exact Hh]|]. unfold SFieldAttrs. eapply walk_app; [apply walk_attributes; exact Ha|]. cbv beta.
  replace (ms ++ field_of h a :: gs) with ((ms ++ [field_of h a]) ++ gs) by (rewrite <- app_assoc; reflexivity). apply IH. rewrite count_snoc. lia.
Qed.
Lemma walk_some_fields minor major cs flags this super ifs n fs u : some_fields dec wraps opts (stack E) cs fs u -> count_of_list fs <= n ->
  walk (SFields minor major cs flags this super ifs n []) u (SFields minor major cs flags this super ifs n fs).
Proof. intros [Hm Hd] Hn. apply (walk_field_members _ _ _ _ _ _ _ _ []); [|rewrite count_nil; lia]. apply members_fields; [constructor|]. split; auto. Qed.
Lemma walk_method_members minor major cs flags this super ifs fs n ms gs u : method_members E opts cs major (ii flags) ms gs u -> count_of_list ms + count_of_list gs <= n ->
  walk (SMethods minor major cs flags this super ifs fs n ms) u (SMethods minor major cs flags this super ifs fs n (ms ++ gs)).
Proof.
  unfold method_members. induction 1 as [ms|ms h a gs u v w Hh Ha Hm IH]; intro Hn; [rewrite app_nil_r; constructor|]. rewrite count_cons in Hn.
  econstructor; [apply st_method; [lia|exact Hh]|]. unfold SMethodAttrs. eapply walk_app; [apply walk_attributes; exact Ha|]. cbv beta.
  replace (ms ++ method_of h a :: gs) with ((ms ++ [method_of h a]) ++ gs) by (rewrite <- app_assoc; reflexivity). apply IH. rewrite count_snoc. lia.
Qed.
Lemma walk_some_methods minor major cs flags this super ifs fs n ms u : some_methods dec wraps opts (stack E) cs major (ii flags) ms u -> count_of_list ms <= n ->
  walk (SMethods minor major cs flags this super ifs fs n []) u (SMethods minor major cs flags this super ifs fs n ms).
Proof. intros (Hm & Hd & Hr) Hn. apply (walk_method_members _ _ _ _ _ _ _ _ _ []); [|rewrite count_nil; lia]. apply members_methods; [constructor|constructor|]. split; auto. Qed.
Lemma walk_fields minor major cs flags this super ifs fs w : to_fields dec wraps opts (stack E) minor major cs flags this super ifs fs w ->
  walk SMagic w (SMethodCount minor major cs flags this super ifs fs).
Proof.
  intros (u & v & -> & Hm & (u1 & u2' & -> & Hn & Hl)). eapply walk_app; [apply walk_interfaces; exact Hm|]. econstructor; [apply st_fieldcount; exact Hn|].
  eapply walk_eps; [apply walk_some_fields; [exact Hl|apply N.le_refl]|]. apply st_fields. lia.
Qed.
Lemma walk_methods minor major cs flags this super ifs fs ms w : to_methods dec wraps opts (stack E) minor major cs flags this super ifs fs ms w ->
  walk SMagic w (SClassAttrs minor major cs flags this super ifs fs ms).
Proof.
  intros (u & v & -> & Hm & (u1 & u2' & -> & Hn & Hl)). eapply walk_app; [apply walk_fields; exact Hm|]. econstructor; [apply st_methodcount; exact Hn|].
  eapply walk_eps; [apply walk_some_methods; [exact Hl|apply N.le_refl]|]. apply st_methods. lia.
Qed.
Lemma walk_owner cs o w : owner_at dec wraps opts (stack E) cs o w -> exists k, walk SMagic w (SAttrCount cs o k).
Proof.
  intros H. inversion H as [minor major flags this super ifs n fs head i Hi Hlt w0 Hw|minor major flags this super ifs fs n ms head i Hi Hlt w0 Hw|minor major flags this super ifs fs ms w0 Hw]; subst.
  - destruct Hw as (u & v & -> & Hm & (u1 & u2' & -> & Hn & (u3 & u4' & -> & Hl & Hh))). eexists. eapply walk_app; [apply walk_interfaces; exact Hm|].
    econstructor; [apply st_fieldcount; exact Hn|]. eapply walk_snoc; [apply walk_some_fields; [exact Hl|lia]|]. apply st_field; [lia|exact Hh].
  - destruct Hw as (u & v & -> & Hm & (u1 & u2' & -> & Hn & (u3 & u4' & -> & Hl & Hh))). eexists. eapply walk_app; [apply walk_fields; exact Hm|].
    econstructor; [apply st_methodcount; exact Hn|]. eapply walk_snoc; [apply walk_some_methods; [exact Hl|lia]|]. apply st_method; [lia|exact Hh].
  - eexists. apply (walk_methods _ _ _ _ _ _ _ _ _ _ Hw).
Qed.
Notation faulty := (fault dec wraps opts (stack E)).
Lemma stuck_end cs c rest : stuck_at (SEnd cs c) rest.
Proof. intros u v s' _ H. inversion H. Qed.
Ltac by_step Hno := let H := fresh in let a := fresh in let b := fresh in let s' := fresh in intros a b s' -> H; inversion H; subst; first [exfalso; lia|apply Hno; eexists; eexists; eexists; split; [reflexivity|eassumption]|idtac].
Lemma fault_stuck p w rest : faulty p w rest -> exists s, walk SMagic w s /\ stuck_at s rest /\ place_of s rest = p.
Proof.
  intros H. destruct H as [rest Hno|w rest Hw Hno|minor major w rest Hw Hno|minor major n cs i w rest Hw Hd Hno|minor major n cs w rest Hw Hfi Hno|minor major cs w rest Hw Hno
    |minor major cs flags w rest Hw Hno|minor major cs flags this w rest Hw Hno|minor major cs flags this super w rest Hw Hno|minor major cs flags this super n ifs i w rest Hw Hi Hlt Hno
    |minor major cs flags this super ifs w rest Hw Hno|minor major cs flags this super ifs n fs i w rest Hw Hi Hlt Hno|minor major cs flags this super ifs fs w rest Hw Hno
    |minor major cs flags this super ifs fs n ms i w rest Hw Hi Hlt Hno|cs o w rest Hw Hno|cs o n l j w rest Hw Hj Hlt Hno|cs l w rest Hw Hne|minor major cs flags this super ifs fs ms l w Hw Hno].
  - exists SMagic. split; [constructor|]. split; [|reflexivity]. intros u v s' -> H. inversion H; subst. apply Hno. exists u, v. auto.
  - exists SVersions. split; [apply walk_one, st_magic, Hw|]. split; [|reflexivity]. intros u v s' -> H. inversion H; subst. apply Hno. exists minor, major, u, v. auto.
  - eexists. split; [apply walk_versions; exact Hw|]. split; [|reflexivity]. by_step Hno.
  - exists (SPool minor major n cs i). pose proof (due_lt _ _ _ _ _ Hd) as Hlt. split; [|split].
    + destruct Hw as (u & v & -> & Hm & (u1 & u2' & -> & Hn & Hl)). rewrite app_assoc. eapply walk_app; [apply walk_count; apply cat_intro; eauto|]. apply (walk_due _ _ _ _ []); auto.
    + by_step Hno.
    + cbn [place_of]. replace (i <? n) with true by lia. reflexivity.
  - destruct Hw as (u & v & -> & Hm & (u1 & u2' & -> & Hn & Hl)). destruct (walk_fills minor major n cs [] 1 _ Hl Hfi) as (j & Hj & Hwalk).
    exists (SPool minor major n cs j). split; [|split].
    + rewrite app_assoc. eapply walk_app; [apply walk_count; apply cat_intro; eauto|exact Hwalk].
    + by_step Hno. contradiction.
    + cbn [place_of]. replace (j <? n) with false by lia. reflexivity.
  - eexists. split; [apply walk_opening; exact Hw|]. split; [|reflexivity]. by_step Hno.
  - eexists. split; [apply walk_flags; exact Hw|]. split; [|reflexivity]. by_step Hno.
  - eexists. split; [apply walk_this; exact Hw|]. split; [|reflexivity]. by_step Hno.
  - eexists. split; [apply walk_super; exact Hw|]. split; [|reflexivity]. by_step Hno.
  - destruct Hw as (u & v & -> & Hm & (u1 & u2' & -> & Hn & Hl)). subst i. exists (SIfs minor major cs flags this super n ifs). split; [|split; [by_step Hno|reflexivity]].
    eapply walk_app; [apply walk_super; exact Hm|]. econstructor; [apply st_ifcount; exact Hn|]. apply (walk_ifs _ _ _ _ _ _ _ ifs []); [exact Hl|rewrite count_nil; lia].
  - eexists. split; [apply walk_interfaces; exact Hw|]. split; [|reflexivity]. by_step Hno.
  - destruct Hw as (u & v & -> & Hm & (u1 & u2' & -> & Hn & Hl)). subst i. exists (SFields minor major cs flags this super ifs n fs). split; [|split; [by_step Hno|reflexivity]].
    eapply walk_app; [apply walk_interfaces; exact Hm|]. econstructor; [apply st_fieldcount; exact Hn|]. apply walk_some_fields; [exact Hl|lia].
  - eexists. split; [apply walk_fields; exact Hw|]. split; [|reflexivity]. by_step Hno.
  - destruct Hw as (u & v & -> & Hm & (u1 & u2' & -> & Hn & Hl)). subst i. exists (SMethods minor major cs flags this super ifs fs n ms). split; [|split; [by_step Hno|reflexivity]].
    eapply walk_app; [apply walk_fields; exact Hm|]. econstructor; [apply st_methodcount; exact Hn|]. apply walk_some_methods; [exact Hl|lia].
  - destruct (walk_owner _ _ _ Hw) as (k & Hk). eexists. split; [exact Hk|]. split; [|reflexivity]. by_step Hno.
  - destruct Hw as (u & v & -> & Hm & (u1 & u2' & -> & Hn & Hl)). destruct (walk_owner _ _ _ Hm) as (k & Hk). subst j. exists (SAttrs cs o k n l). split; [|split; [by_step Hno|reflexivity]].
    eapply walk_app; [exact Hk|]. econstructor; [apply st_attrcount; exact Hn|]. apply (walk_attrs _ _ _ _ l []); [exact Hl|rewrite count_nil; lia].
  - destruct Hw as (u & v & -> & Ho & Hl). apply attributes_lang_unfold in Hl; auto. inversion Ho as [| |minor major flags this super ifs fs ms w0 Hm]; subst.
    eexists. split; [eapply walk_app; [apply (walk_methods _ _ _ _ _ _ _ _ _ _ Hm)|apply walk_attributes; exact Hl]|]. split; [apply stuck_end|].
    cbn [place_of]. destruct rest; [congruence|reflexivity].
  - destruct Hw as (u & v & -> & Hm & Hl). apply attributes_lang_unfold in Hl; auto.
    eexists. split; [eapply walk_app; [apply (walk_methods _ _ _ _ _ _ _ _ _ _ Hm)|apply walk_attributes; exact Hl]|]. split; [apply stuck_end|]. reflexivity.
Qed.
End WithEnv.

(** C53: a file departs from the format at one place only. *)
Theorem C53_unique E opts p w rest p' w' rest' : sane E (w ++ rest) -> w ++ rest = w' ++ rest' ->
  fault (cesu8 E) (wrapping E) opts (stack E) p w rest -> fault (cesu8 E) (wrapping E) opts (stack E) p' w' rest' ->
  p = p' /\ w = w' /\ rest = rest'.
Proof.
  intros Hs Heq Hp Hp'. apply (fault_stuck E (sane_stack _ _ Hs)) in Hp, Hp'. destruct Hp as (s & Hw & Hst & <-), Hp' as (s' & Hw' & Hst' & <-).
  destruct (walk_det E (sane_stack _ _ Hs) opts _ _ _ Hw I rest w' s' rest' Hw' (sane_fits _ _ Hs) Heq Hst Hst') as (<- & <- & <-). auto.
Qed.
(** C53 in one: a file is not accepted if and only if it departs from the format, and it does so at exactly one place. *)
Theorem C53_exactly E opts bs : sane E bs ->
  ((forall c, parse_class_with_options E opts bs <> Ok c) <->
   exists! pwr : place * (list byte * list byte), let '(p, (w, rest)) := pwr in bs = w ++ rest /\ fault (cesu8 E) (wrapping E) opts (stack E) p w rest).
Proof.
  intro Hs. split.
  - intro Hno. destruct (C53_fault E opts bs Hs Hno) as (p & w & rest & -> & Hp). exists (p, (w, rest)). split; [auto|]. intros (p' & w' & rest') [Heq Hp'].
    destruct (C53_unique E opts p w rest p' w' rest' Hs Heq Hp Hp') as (<- & <- & <-). reflexivity.
  - intros ((p & w & rest) & [-> Hp] & _). exact (proj1 (C53_told E opts p w rest Hs Hp)).
Qed.
(** Example: the only fault of [wrong_super] is that of its super class, at byte 21. *)
Example C53_unique_meets p w rest : wrong_super = w ++ rest -> fault (cesu8 debug64) (wrapping debug64) true (stack debug64) p w rest -> p = AtSuperClass /\ length w = 21%nat.
Proof.
  intros Heq Hp. destruct C53_meets as (Hs & Heq0 & Hp0 & _). rewrite Heq in Hs. rewrite Heq in Heq0 at 1.
  destruct (C53_unique debug64 true _ _ _ _ _ _ Hs Heq0 Hp Hp0) as (-> & -> & _). split; [reflexivity|]. vm_compute. reflexivity.
Qed.
