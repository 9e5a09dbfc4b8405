(** * The parser with borrowing behaves like the parser without it: descriptors, the constant pool and bytecode. *)
From Verif Require Import Base M_Names M_Descriptors M_ConstantPool M_Bytecode M_Attributes M_Class M_Cesu8
  Z_Cow Z_Descriptors Z_ConstantPool Z_Bytecode Z_Attributes Z_Plain Z_Class S_ZeroCopy P_ZeroUtf.

(** Two computations with the same outcome, whose results are related. *)
Definition simo {A B} (R : A -> B -> Prop) (x : outcome A) (y : outcome B) : Prop :=
  match x, y with
  | Ok a, Ok b => R a b
  | Err e, Err e' => e = e'
  | Panic q, Panic q' => q = q'
  | Diverge, Diverge => True
  | _, _ => False
  end.
Definition sim {A B} (R : A -> B -> Prop) (z : parser A) (m : parser B) : Prop :=
  forall bs ix, simo (fun a b => R (fst a) (fst b) /\ snd a = snd b) (z bs ix) (m bs ix).

Lemma simo_same {A} (x : outcome A) : simo eq x x.
Proof. destruct x; cbn; auto. Qed.
Lemma simo_ok {A B} (R : A -> B -> Prop) a b : R a b -> simo R (Ok a) (Ok b).
Proof. auto. Qed.
Lemma simo_weaken {A B} (R S : A -> B -> Prop) x y : (forall a b, R a b -> S a b) -> simo R x y -> simo S x y.
Proof. destruct x, y; cbn; auto. Qed.
Lemma simo_bind {A B A' B'} (R : A -> B -> Prop) (S : A' -> B' -> Prop) x y h g :
  simo R x y -> (forall a b, R a b -> simo S (h a) (g b)) -> simo S (obind x h) (obind y g).
Proof. destruct x, y; cbn; intros; subst; auto; contradiction. Qed.
Lemma simo_ctx {A B} (R : A -> B -> Prop) c x y : simo R x y -> simo R (ctx c x) (ctx c y).
Proof. destruct x, y; cbn; intros; subst; auto. Qed.
Lemma simo_unwrap {A B} (R : A -> B -> Prop) x y : simo R x y -> simo R (unwrap x) (unwrap y).
Proof. destruct x, y; cbn; intros; subst; auto; contradiction. Qed.

Lemma sim_same {A} (x : parser A) : sim eq x x.
Proof. intros bs ix. destruct (x bs ix); cbn; auto. Qed.
Lemma sim_ret {A B} (R : A -> B -> Prop) a b : R a b -> sim R (ret a) (ret b).
Proof. intros H bs ix. cbn. auto. Qed.
Lemma sim_weaken {A B} (R S : A -> B -> Prop) x y : (forall a b, R a b -> S a b) -> sim R x y -> sim S x y.
Proof. intros H Hs bs ix. eapply simo_weaken; [|apply Hs]. cbn. intuition. Qed.
Lemma sim_bind {A B A' B'} (R : A -> B -> Prop) (S : A' -> B' -> Prop) z m h g :
  sim R z m -> (forall a b, R a b -> sim S (h a) (g b)) -> sim S (bind z h) (bind m g).
Proof.
  intros H K bs ix. unfold bind. specialize (H bs ix). destruct (z bs ix) as [(a, i)| | |], (m bs ix) as [(b, j)| | |]; cbn in *; try contradiction; auto.
  destruct H as (H & ->). now apply K.
Qed.
Lemma sim_lift {A B} (R : A -> B -> Prop) x y : simo R x y -> sim R (lift x) (lift y).
Proof. intros H bs ix. unfold lift. destruct x, y; cbn in *; auto. Qed.
Lemma sim_pctx {A B} (R : A -> B -> Prop) c z m : sim R z m -> sim R (pctx c z) (pctx c m).
Proof. intros H bs ix. apply simo_ctx, H. Qed.
Lemma sim_pfail {A B} (R : A -> B -> Prop) c : sim R (pfail c) (pfail c).
Proof. intros bs ix. reflexivity. Qed.
Lemma sim_pfail_at {A B} (R : A -> B -> Prop) c : sim R (pfail_at c) (pfail_at c).
Proof. intros bs ix. reflexivity. Qed.
Lemma sim_panic {A B} (R : A -> B -> Prop) q : sim R (fun _ _ => Panic q) (fun _ _ => Panic q).
Proof. intros bs ix. reflexivity. Qed.

Section Good.
Variable good : cow -> Prop.
Hypothesis good_sub : forall t j k u, good t -> sub_cow t j k = Ok u -> good u.

(** The results are the same without borrowing, and their texts are good. *)
Definition rel {A B} (f : A -> B) (t : A -> list cow) (a : A) (b : B) : Prop := f a = b /\ Forall good (t a).

Lemma rel_flat {A B} (f : A -> B) t l : Forall (fun a => Forall good (t a)) l -> rel (map f) (flat_map t) l (map f l).
Proof. intro H. split; [auto|]. induction H; cbn [flat_map]; auto. apply Forall_app; auto. Qed.
Lemma sim_for_n {A B} (f : A -> B) t count (h : N -> parser A) g : (forall i, sim (rel f t) (h i) (g i)) ->
  sim (rel (map f) (flat_map t)) (for_n count h) (for_n count g).
Proof.
  intro H. unfold for_n. generalize 0 as i. induction (N.to_nat count) as [|n IH]; intro i; cbn [for_from].
  - apply sim_ret. split; auto. constructor.
  - eapply sim_bind; [apply H|]. intros a b (<- & Ha). eapply sim_bind; [apply IH|]. intros l l' (<- & Hl).
    apply sim_ret. split; auto. cbn [flat_map]. apply Forall_app; auto.
Qed.

(** ** Descriptors *)
Definition one (s : cow) : list cow := [s].
Lemma one_good s : good s -> Forall good (one s). Proof. unfold one; auto. Qed.
Lemma one_inv s : Forall good (one s) -> good s. Proof. unfold one. intro H. now inversion H. Qed.
Lemma flat_one l : flat_map one l = l.
Proof. induction l; cbn; congruence. Qed.

Lemma sub_cow_sim t j k : good t -> simo (rel chars one) (sub_cow t j k) (str_slice (chars t) j k).
Proof.
  intro Ht. pose proof (fun u => good_sub t j k u Ht) as Hu. unfold sub_cow in *. destruct t as [s a|s]; cbn [chars];
    destruct (str_slice s j k); cbn [obind simo] in *; auto; (split; [reflexivity|]); apply one_good; eauto.
Qed.
Lemma class_name_sim t : good t -> simo (rel chars one) (class_name_try_from t) (M_Descriptors.class_name_try_from (chars t)).
Proof.
  intro Ht. unfold class_name_try_from, M_Descriptors.class_name_try_from. eapply simo_bind; [apply simo_same|]. intros _ _ _. apply simo_ok. split; auto. now apply one_good.
Qed.
Lemma class_descriptor_sim t index : good t -> simo (rel chars one) (parse_class_descriptor t index) (M_Descriptors.parse_class_descriptor (chars t) index).
Proof.
  intro Ht. unfold parse_class_descriptor, M_Descriptors.parse_class_descriptor. generalize index at 2 4 as next. induction (S (length (chars t))) as [|n IH]; intro next; cbn [class_descriptor_loop M_Descriptors.class_descriptor_loop]; [exact I|].
  eapply simo_bind; [apply simo_same|]. intros rest _ <-. eapply simo_bind; [apply simo_same|]. intros (seg, [c|]) _ <-; [|reflexivity].
  destruct (_ =? _). { now apply sub_cow_sim. } destruct (_ =? _); [apply IH|reflexivity].
Qed.
Lemma field_desc_sim t index : good t -> simo (rel plain_field_desc field_texts) (parse_field_descriptor t index) (M_Descriptors.parse_field_descriptor (chars t) index).
Proof.
  intro Ht. unfold parse_field_descriptor, M_Descriptors.parse_field_descriptor. eapply simo_bind; [apply simo_same|]. intros cs _ <-.
  generalize 0 as dims. induction cs as [|c cs IH]; intro dims; cbn [field_descriptor_loop M_Descriptors.field_descriptor_loop]; [reflexivity|].
  destruct (_ =? _). { cbv zeta. destruct (_ <? _); [reflexivity|apply IH]. }
  eapply (simo_bind (rel plain_type (fun ty => match ty with FObject s => [s] | _ => [] end))).
  - repeat match goal with |- simo _ (if ?x then _ else _) _ => destruct x; [apply simo_ok; split; [reflexivity|constructor]|] end.
    destruct (_ =? _); [|reflexivity]. eapply simo_bind; [now apply class_descriptor_sim|]. intros n ? (<- & Hn). apply simo_ok. split; [reflexivity|exact Hn].
  - intros ty ? (<- & Hty). apply simo_ok. split; [reflexivity|exact Hty].
Qed.
Lemma return_desc_sim t index : good t -> simo (rel plain_return_desc return_texts) (parse_return_descriptor t index) (M_Descriptors.parse_return_descriptor (chars t) index).
Proof.
  intro Ht. unfold parse_return_descriptor, M_Descriptors.parse_return_descriptor. eapply simo_bind; [apply simo_same|]. intros cs _ <-.
  destruct (str_eqb _ _). { apply simo_ok. split; [reflexivity|constructor]. }
  eapply simo_bind; [now apply field_desc_sim|]. intros d ? (<- & Hd). apply simo_ok. split; [reflexivity|exact Hd].
Qed.
Lemma params_sim t n index : good t -> simo (rel (fun r => (map plain_field_desc (fst r), snd r)) (fun r => flat_map field_texts (fst r))) (params_loop n t index) (M_Descriptors.params_loop n (chars t) index).
Proof.
  intro Ht. revert index. induction n as [|n IH]; intro index; cbn [params_loop M_Descriptors.params_loop]; [exact I|].
  eapply simo_bind; [apply simo_same|]. intros close _ <-. destruct close. { apply simo_ok. split; [reflexivity|constructor]. }
  eapply simo_bind; [now apply field_desc_sim|]. intros d ? (<- & Hd). eapply simo_bind; [apply IH|]. intros r ? (<- & Hr).
  apply simo_ok. split; [reflexivity|]. cbn [fst flat_map]. apply Forall_app; auto.
Qed.
Lemma method_desc_sim t index : good t -> simo (rel plain_method_desc method_texts) (parse_method_descriptor t index) (M_Descriptors.parse_method_descriptor (chars t) index).
Proof.
  intro Ht. unfold parse_method_descriptor, M_Descriptors.parse_method_descriptor. eapply simo_bind; [apply simo_same|]. intros bad _ <-. destruct bad; [reflexivity|]. cbv zeta.
  eapply simo_bind; [now apply params_sim|]. intros r ? (<- & Hr). cbn [fst snd]. eapply simo_bind; [now apply return_desc_sim|]. intros d ? (<- & Hd).
  apply simo_ok. split; [reflexivity|]. unfold method_texts. apply Forall_app; auto.
Qed.
Definition opt {A B} (t : A -> list B) (o : option A) : list B := match o with Some a => t a | None => [] end.
Lemma array_desc_sim t : good t -> simo (rel (option_map plain_field_desc) (opt field_texts)) (parse_array_descriptor t) (M_Descriptors.parse_array_descriptor (chars t)).
Proof.
  intro Ht. unfold parse_array_descriptor, M_Descriptors.parse_array_descriptor. eapply simo_bind; [apply simo_same|]. intros none _ <-. destruct none.
  { apply simo_ok. split; [reflexivity|constructor]. }
  eapply simo_bind; [now apply field_desc_sim|]. intros d ? (<- & Hd). unfold field_desc_byte_len. destruct (negb _); [reflexivity|]. apply simo_ok. split; [reflexivity|exact Hd].
Qed.

(** ** The constant pool *)
Section Pool.
Variable p : pool.
Hypothesis Hp : Forall good (flat_map entry_texts p).
Local Notation mp := (plain_pool p).

Lemma pool_entry_good i e : nth_error p i = Some e -> Forall good (entry_texts e).
Proof. intro H. apply nth_error_In in H. rewrite Forall_forall in *. intros t Ht. apply Hp. apply in_flat_map. eauto. Qed.
Lemma plain_nth i : nth_error mp i = option_map plain_entry (nth_error p i).
Proof. apply nth_error_map. Qed.
Lemma plain_len : M_ConstantPool.plen mp = plen p.
Proof. unfold M_ConstantPool.plen, plen, plain_pool. now rewrite map_length. Qed.

Lemma peel_sim r : simo (rel plain_entry entry_texts) (peel p r) (M_ConstantPool.peel mp r).
Proof.
  unfold peel, M_ConstantPool.peel. destruct r; [reflexivity|]. rewrite plain_nth. destruct (nth_error p _) eqn:H; cbn [option_map]; [|reflexivity].
  apply simo_ok. split; [reflexivity|]. eapply pool_entry_good; eauto.
Qed.
Lemma utf8_sim e : Forall good (entry_texts e) -> simo (rel chars one) (utf8 e) (M_ConstantPool.utf8 (plain_entry e)).
Proof. intro H. destruct e; try reflexivity. apply simo_ok. split; [reflexivity|exact H]. Qed.
Lemma string_literal_sim e : Forall good (entry_texts e) -> simo (rel plain_literal literal_texts) (string_literal e) (M_ConstantPool.string_literal (plain_entry e)).
Proof. intro H. destruct e; try reflexivity; apply simo_ok; (split; [reflexivity|exact H]). Qed.
Lemma peel_utf8_sim r : simo (rel chars one) (peel_utf8 p r) (M_ConstantPool.peel_utf8 mp r).
Proof. eapply simo_bind; [apply peel_sim|]. intros e ? (<- & He). now apply utf8_sim. Qed.
Lemma classinfo_sim e : simo (rel chars one) (classinfo p e) (M_ConstantPool.classinfo mp (plain_entry e)).
Proof. destruct e; try reflexivity. apply peel_utf8_sim. Qed.
Lemma nt_sim e : simo (rel plain_nt nt_texts) (get_name_and_type p e) (M_ConstantPool.get_name_and_type mp (plain_entry e)).
Proof.
  destruct e; try reflexivity. cbn [get_name_and_type M_ConstantPool.get_name_and_type plain_entry]. eapply simo_bind; [apply peel_utf8_sim|]. intros n ? (<- & Hn).
  eapply simo_bind; [apply peel_utf8_sim|]. intros d ? (<- & Hd). apply simo_ok. split; [reflexivity|]. apply one_inv in Hn, Hd. unfold nt_texts. auto.
Qed.
Lemma pool_get_sim i : simo (rel plain_entry entry_texts) (pool_get p i) (M_ConstantPool.pool_get mp i).
Proof.
  unfold pool_get, M_ConstantPool.pool_get. rewrite plain_len, plain_nth. destruct (_ <=? _); [reflexivity|]. destruct (nth_error p _) eqn:H; cbn [option_map]; [|reflexivity].
  apply simo_ok. split; [reflexivity|]. eapply pool_entry_good; eauto.
Qed.
Lemma cp_ref_any_sim : sim (rel plain_entry entry_texts) (read_cp_ref_any p) (M_ConstantPool.read_cp_ref_any mp).
Proof. eapply sim_bind; [apply sim_same|]. intros i _ <-. apply sim_lift, pool_get_sim. Qed.
Lemma bad_type_sim {A B} (R : A -> B -> Prop) : sim R bad_type M_ConstantPool.bad_type.
Proof. apply sim_pfail. Qed.

Ltac any := unfold read_cp_utf8, read_cp_utf8_opt, read_cp_classinfo, read_cp_classinfo_opt, read_cp_moduleinfo, read_cp_packageinfo, read_cp_nameandtype_opt, read_cp_literalconstant,
    read_cp_integer, read_cp_float, read_cp_long, read_cp_double, M_ConstantPool.read_cp_utf8, M_ConstantPool.read_cp_utf8_opt, M_ConstantPool.read_cp_classinfo, M_ConstantPool.read_cp_classinfo_opt,
    M_ConstantPool.read_cp_moduleinfo, M_ConstantPool.read_cp_packageinfo, M_ConstantPool.read_cp_nameandtype_opt, M_ConstantPool.read_cp_literalconstant,
    M_ConstantPool.read_cp_integer, M_ConstantPool.read_cp_float, M_ConstantPool.read_cp_long, M_ConstantPool.read_cp_double;
  eapply sim_bind; [apply cp_ref_any_sim|]; intros e ? (<- & He); destruct e; cbn [plain_entry]; try apply bad_type_sim.
Ltac easy_ret := apply sim_ret; (split; [reflexivity|]); try constructor; auto.
Lemma cp_utf8_sim : sim (rel chars one) (read_cp_utf8 p) (M_ConstantPool.read_cp_utf8 mp).
Proof. any. easy_ret. apply (one_inv _ He). Qed.
Lemma cp_utf8_opt_sim : sim (rel (option_map chars) opt_string) (read_cp_utf8_opt p) (M_ConstantPool.read_cp_utf8_opt mp).
Proof. any; easy_ret. apply (one_inv _ He). Qed.
Lemma cp_classinfo_sim : sim (rel chars one) (read_cp_classinfo p) (M_ConstantPool.read_cp_classinfo mp).
Proof. any. apply sim_lift, peel_utf8_sim. Qed.
Lemma cp_classinfo_opt_sim : sim (rel (option_map chars) opt_string) (read_cp_classinfo_opt p) (M_ConstantPool.read_cp_classinfo_opt mp).
Proof. any. { easy_ret. } eapply sim_bind; [apply sim_lift, peel_utf8_sim|]. intros n ? (<- & Hn). easy_ret. apply (one_inv _ Hn). Qed.
Lemma cp_moduleinfo_sim : sim (rel chars one) (read_cp_moduleinfo p) (M_ConstantPool.read_cp_moduleinfo mp).
Proof. any. apply sim_lift, peel_utf8_sim. Qed.
Lemma cp_packageinfo_sim : sim (rel chars one) (read_cp_packageinfo p) (M_ConstantPool.read_cp_packageinfo mp).
Proof. any. apply sim_lift, peel_utf8_sim. Qed.
Lemma cp_nt_opt_sim : sim (rel (option_map plain_nt) (opt nt_texts)) (read_cp_nameandtype_opt p) (M_ConstantPool.read_cp_nameandtype_opt mp).
Proof.
  any. { easy_ret. } eapply sim_bind; [apply sim_lift, peel_utf8_sim|]. intros n ? (<- & Hn). eapply sim_bind; [apply sim_lift, peel_utf8_sim|]. intros d ? (<- & Hd).
  apply one_inv in Hn, Hd. apply sim_ret. split; [reflexivity|]. repeat constructor; auto.
Qed.
Lemma cp_literal_sim : sim (rel plain_literal literal_texts) (read_cp_literalconstant p) (M_ConstantPool.read_cp_literalconstant mp).
Proof. any; try easy_ret. apply sim_lift. eapply simo_bind; [apply peel_sim|]. intros t ? (<- & Ht). now apply string_literal_sim. Qed.
Lemma cp_integer_sim : sim eq (read_cp_integer p) (M_ConstantPool.read_cp_integer mp).
Proof. any. now apply sim_ret. Qed.
Lemma cp_float_sim : sim eq (read_cp_float p) (M_ConstantPool.read_cp_float mp).
Proof. any. now apply sim_ret. Qed.
Lemma cp_long_sim : sim eq (read_cp_long p) (M_ConstantPool.read_cp_long mp).
Proof. any. now apply sim_ret. Qed.
Lemma cp_double_sim : sim eq (read_cp_double p) (M_ConstantPool.read_cp_double mp).
Proof. any. now apply sim_ret. Qed.

Ltac next := eapply simo_bind; [first [apply peel_utf8_sim | apply peel_sim | apply classinfo_sim | apply nt_sim | now apply string_literal_sim]|]; let n := fresh "x" in let H := fresh "Hx" in intros n ? (<- & H).
Lemma member_sim c m : simo (rel plain_member member_texts) (make_member_ref p c m) (M_ConstantPool.make_member_ref mp c m).
Proof. unfold make_member_ref, M_ConstantPool.make_member_ref. do 4 next. apply simo_ok. split; [reflexivity|]. apply one_inv in Hx0. constructor; auto. Qed.
Lemma cp_memberref_sim allowed : sim (rel plain_member member_texts) (read_cp_memberref p allowed) (M_ConstantPool.read_cp_memberref mp allowed).
Proof.
  eapply sim_bind; [apply cp_ref_any_sim|]. intros e ? (<- & He). eapply sim_bind; [apply sim_lift, simo_same|]. intros _ _ _.
  destruct e; cbn [plain_entry]; try apply bad_type_sim; apply sim_lift, member_sim.
Qed.
Lemma cp_invokedynamic_sim : sim (rel plain_indy (fun d => nt_texts (indy_name_and_type d))) (read_cp_invokedynamic p) (M_ConstantPool.read_cp_invokedynamic mp).
Proof.
  eapply sim_bind; [apply cp_ref_any_sim|]. intros e ? (<- & He). destruct e; cbn [plain_entry]; try apply bad_type_sim. apply sim_lift. do 2 next.
  apply simo_ok. split; [reflexivity|auto].
Qed.
Lemma handle_sim k y : simo (rel plain_handle handle_texts) (make_method_handle p k y) (M_ConstantPool.make_method_handle mp k y).
Proof.
  unfold make_method_handle, M_ConstantPool.make_method_handle. cbv zeta. next. destruct x; cbn [plain_entry]; try reflexivity;
    (do 4 next; apply simo_ok; split; [reflexivity|]; apply one_inv in Hx1; constructor; auto).
Qed.
Lemma loadable_sim i : simo (rel plain_loadable loadable_texts) (get_cp_loadable p i) (M_ConstantPool.get_cp_loadable mp i).
Proof.
  unfold get_cp_loadable, M_ConstantPool.get_cp_loadable. eapply simo_bind; [apply pool_get_sim|]. intros e ? (<- & He).
  destruct e; cbn [plain_entry]; try reflexivity; try (apply simo_ok; split; [reflexivity|constructor]).
  - next. apply simo_ok. split; [reflexivity|exact Hx].
  - do 2 next. apply simo_ok. split; [reflexivity|exact Hx0].
  - eapply simo_bind; [apply handle_sim|]. intros h ? (<- & Hh). apply simo_ok. split; [reflexivity|exact Hh].
  - next. apply simo_ok. split; [reflexivity|exact Hx].
  - do 2 next. apply simo_ok. split; [reflexivity|exact Hx0].
Qed.
Lemma cp_methodhandle_sim : sim (rel plain_handle handle_texts) (read_cp_methodhandle p) (M_ConstantPool.read_cp_methodhandle mp).
Proof.
  eapply sim_bind; [apply cp_ref_any_sim|]. intros e ? (<- & He). destruct e; cbn [plain_entry]; try apply bad_type_sim. apply sim_lift, handle_sim.
Qed.
Lemma cp_bootstrap_argument_sim : sim (rel plain_argument argument_texts) (read_cp_bootstrap_argument p) (M_ConstantPool.read_cp_bootstrap_argument mp).
Proof.
  eapply sim_bind; [apply cp_ref_any_sim|]. intros e ? (<- & He). destruct e; cbn [plain_entry]; try apply bad_type_sim; try (apply sim_ret; split; [reflexivity|constructor]); apply sim_lift.
  - next. apply simo_ok. split; [reflexivity|exact Hx].
  - do 2 next. apply simo_ok. split; [reflexivity|exact Hx0].
  - eapply simo_bind; [apply handle_sim|]. intros h ? (<- & Hh). apply simo_ok. split; [reflexivity|exact Hh].
  - next. apply simo_ok. split; [reflexivity|exact Hx].
Qed.
Lemma cp_object_array_type_sim : sim (rel plain_array_type array_type_texts) (read_cp_object_array_type p) (M_ConstantPool.read_cp_object_array_type mp).
Proof.
  eapply sim_bind; [apply cp_ref_any_sim|]. intros e ? (<- & He). destruct e; cbn [plain_entry]; try apply bad_type_sim.
  eapply sim_bind; [apply sim_lift, peel_utf8_sim|]. intros n ? (<- & Hn). eapply sim_bind; [apply sim_lift, array_desc_sim, one_inv, Hn|]. intros [d|] ? (<- & Hd); apply sim_ret; (split; [reflexivity|]); auto.
Qed.
Lemma item_sim e : simo (rel (option_map plain_item) (opt item_texts)) (item_of p e) (M_ConstantPool.item_of mp (plain_entry e)).
Proof.
  destruct e; cbn [plain_entry item_of M_ConstantPool.item_of]; try reflexivity; try (apply simo_ok; split; [reflexivity|constructor]).
  - next. apply simo_ok. split; [reflexivity|exact Hx].
  - do 2 next. apply simo_ok. split; [reflexivity|exact Hx0].
  - eapply simo_bind; [apply member_sim|]. intros h ? (<- & Hh). apply simo_ok. split; [reflexivity|exact Hh].
  - eapply simo_bind; [apply member_sim|]. intros h ? (<- & Hh). apply simo_ok. split; [reflexivity|exact Hh].
  - eapply simo_bind; [apply member_sim|]. intros h ? (<- & Hh). apply simo_ok. split; [reflexivity|exact Hh].
  - do 2 next. apply simo_ok. split; [reflexivity|]. apply one_inv in Hx, Hx0. repeat constructor; auto.
  - eapply simo_bind; [apply simo_unwrap, handle_sim|]. intros h ? (<- & Hh). apply simo_ok. split; [reflexivity|exact Hh].
  - next. apply simo_ok. split; [reflexivity|exact Hx].
  - do 2 next. apply simo_ok. split; [reflexivity|exact Hx0].
  - do 2 next. apply simo_ok. split; [reflexivity|exact Hx0].
  - next. apply simo_ok. split; [reflexivity|exact Hx].
  - next. apply simo_ok. split; [reflexivity|exact Hx].
Qed.
Lemma iter_next_sim i : simo (rel (fun r => (option_map plain_item (fst r), snd r)) (fun r => opt item_texts (fst r))) (iter_next p i) (M_ConstantPool.iter_next mp i).
Proof.
  unfold iter_next, M_ConstantPool.iter_next. replace (length mp) with (length p) by (symmetry; apply map_length). generalize (S (length p)) as n. intro n; revert i.
  induction n as [|n IH]; intro i; cbn [iter_next_loop M_ConstantPool.iter_next_loop]; [exact I|]. rewrite plain_len. destruct (_ <? _).
  2: { apply simo_ok. split; [reflexivity|constructor]. }
  cbv zeta. rewrite plain_nth. destruct (nth_error p _); cbn [option_map]; [|reflexivity]. eapply simo_bind; [apply item_sim|]. intros [it|] ? (<- & Hit); cbn [option_map].
  - apply simo_ok. split; [reflexivity|exact Hit].
  - apply IH.
Qed.
Lemma iter_run_sim n : forall i, simo (rel (map (option_map plain_item)) (flat_map (opt item_texts))) (iter_run_from p n i) (M_Class.iter_run_from mp n i).
Proof.
  induction n as [|n IH]; intro i; cbn [iter_run_from M_Class.iter_run_from]. { apply simo_ok. split; [reflexivity|constructor]. }
  eapply simo_bind; [apply iter_next_sim|]. intros r ? (<- & Hr). cbn [fst snd]. eapply simo_bind; [apply IH|]. intros l ? (<- & Hl).
  apply simo_ok. split; [reflexivity|]. cbn [flat_map]. apply Forall_app; auto.
Qed.
End Pool.
End Good.
