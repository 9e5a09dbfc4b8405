(** * Property theorems: comparing descriptors (C62).

    Vocabulary: [S_Traits]; [Display] is [show_*] of M_Descriptors, on the characters. *)
From Verif Require Import Base M_Names M_Descriptors S_Names S_Utf P_Names P_Descriptors.
From Verif Require Import Z_Cow Z_Descriptors M_Traits S_Traits.
From Coq Require Import ZifyBool ZifyNat ZifyN.

(** ** UTF-8 keeps the order of code points *)
Lemma scalar_bound c : is_scalar c -> c < 0x110000.
Proof. unfold is_scalar. lia. Qed.
Lemma cmp_app x a y b : length x = length y -> bytes_cmp (x ++ a) (y ++ b) = match bytes_cmp x y with Eq => bytes_cmp a b | c => c end.
Proof.
  revert y. induction x as [|u x IH]; intros [|v y] H; try discriminate; cbn [app bytes_cmp]; auto. destruct (u ?= v); auto.
Qed.
Lemma cmp_refl x : bytes_cmp x x = Eq.
Proof. induction x; cbn; auto. rewrite N.compare_refl. auto. Qed.
Lemma cmp_opp x y : bytes_cmp y x = CompOpp (bytes_cmp x y).
Proof. revert y. induction x as [|u x IH]; intros [|v y]; cbn; auto. rewrite N.compare_antisym. destruct (u ?= v); cbn; auto. Qed.
Lemma char_lt c d a b : d < 0x110000 -> c < d -> bytes_cmp (utf8_encode_char c ++ a) (utf8_encode_char d ++ b) = Lt.
Proof.
  intros Hd Hc. unfold utf8_encode_char.
  destruct (N.ltb_spec c 0x80), (N.ltb_spec d 0x80); try lia; [cbn [app bytes_cmp]; replace (c ?= d) with Lt by (symmetry; apply N.compare_lt_iff; lia); auto| |].
  - assert (Hl : forall x y l m, x < y -> bytes_cmp (x :: l) (y :: m) = Lt) by (intros; cbn; replace (x ?= y) with Lt by (symmetry; apply N.compare_lt_iff; lia); auto).
    destruct (N.ltb_spec d 0x800); [apply Hl; lia|]. destruct (N.ltb_spec d 0x10000); apply Hl; lia.
  - assert (Hl : forall x y l m, x < y -> bytes_cmp (x :: l) (y :: m) = Lt) by (intros; cbn; replace (x ?= y) with Lt by (symmetry; apply N.compare_lt_iff; lia); auto).
    assert (He : forall x y l m, x = y -> bytes_cmp l m = Lt -> bytes_cmp (x :: l) (y :: m) = Lt) by (intros; subst; cbn; rewrite N.compare_refl; auto).
    pose proof (N.div_mod c 64 ltac:(lia)). pose proof (N.div_mod d 64 ltac:(lia)).
    pose proof (N.mod_lt c 64 ltac:(lia)). pose proof (N.mod_lt d 64 ltac:(lia)).
    assert (D1 : c / 4096 = c / 64 / 64) by (rewrite N.div_div by lia; reflexivity).
    assert (D2 : d / 4096 = d / 64 / 64) by (rewrite N.div_div by lia; reflexivity).
    assert (D3 : c / 262144 = c / 64 / 64 / 64) by (rewrite !N.div_div by lia; reflexivity).
    assert (D4 : d / 262144 = d / 64 / 64 / 64) by (rewrite !N.div_div by lia; reflexivity).
    rewrite D3, D4, D1, D2. clear D1 D2 D3 D4.
    set (c1 := c / 64) in *. set (d1 := d / 64) in *. set (c0 := c mod 64) in *. set (d0 := d mod 64) in *.
    pose proof (N.div_mod c1 64 ltac:(lia)). pose proof (N.div_mod d1 64 ltac:(lia)).
    pose proof (N.mod_lt c1 64 ltac:(lia)). pose proof (N.mod_lt d1 64 ltac:(lia)).
    set (c2 := c1 / 64) in *. set (d2 := d1 / 64) in *. set (c1' := c1 mod 64) in *. set (d1' := d1 mod 64) in *.
    pose proof (N.div_mod c2 64 ltac:(lia)). pose proof (N.div_mod d2 64 ltac:(lia)).
    pose proof (N.mod_lt c2 64 ltac:(lia)). pose proof (N.mod_lt d2 64 ltac:(lia)).
    set (c3 := c2 / 64) in *. set (d3 := d2 / 64) in *. set (c2' := c2 mod 64) in *. set (d2' := d2 mod 64) in *.
    clearbody c0 d0 c1' d1' c2' d2' c3 d3 c2 d2 c1 d1.
    destruct (N.ltb_spec c 0x800), (N.ltb_spec d 0x800); try lia; cbn [app].
    + destruct (N.lt_trichotomy c1 d1) as [|[|]]; [apply Hl; lia|apply He; [lia|apply Hl; lia]|lia].
    + destruct (N.ltb_spec d 0x10000); apply Hl; lia.
    + destruct (N.ltb_spec c 0x10000), (N.ltb_spec d 0x10000); try lia.
      * destruct (N.lt_trichotomy c2 d2) as [|[|]]; [apply Hl; lia| |lia]. apply He; [lia|].
        destruct (N.lt_trichotomy c1' d1') as [|[|]]; [apply Hl; lia| |lia]. apply He; [lia|]. apply Hl; lia.
      * apply Hl; lia.
      * destruct (N.lt_trichotomy c3 d3) as [|[|]]; [apply Hl; lia| |lia]. apply He; [lia|].
        destruct (N.lt_trichotomy c2' d2') as [|[|]]; [apply Hl; lia| |lia]. apply He; [lia|].
        destruct (N.lt_trichotomy c1' d1') as [|[|]]; [apply Hl; lia| |lia]. apply He; [lia|]. apply Hl; lia.
Qed.
Lemma encode_nonempty c : exists x l, utf8_encode_char c = x :: l.
Proof. unfold utf8_encode_char. destruct (_ <? _); [eauto|]. destruct (_ <? _); [eauto|]. destruct (_ <? _); eauto. Qed.
Lemma same_prefix_cmp p a b : bytes_cmp (p ++ a) (p ++ b) = bytes_cmp a b.
Proof. rewrite cmp_app by auto. rewrite cmp_refl. reflexivity. Qed.
Lemma bytes_precede s : forall t, Forall is_scalar s -> Forall is_scalar t ->
  match bytes_cmp (as_bytes s) (as_bytes t) with Eq => s = t | Lt => precedes s t | Gt => precedes t s end.
Proof.
  induction s as [|c s IH]; intros [|d t] Hs Ht; unfold as_bytes; cbn [flat_map].
  - reflexivity.
  - destruct (encode_nonempty d) as (x & l & ->). cbn. constructor.
  - destruct (encode_nonempty c) as (x & l & ->). cbn. constructor.
  - apply Forall_cons_iff in Hs, Ht. destruct Hs as [Hc Hs], Ht as [Hd Ht]. fold (as_bytes s) (as_bytes t). destruct (N.lt_trichotomy c d) as [Hlt|[<-|Hlt]].
    + rewrite (char_lt c d _ _ (scalar_bound _ Hd) Hlt). constructor. exact Hlt.
    + rewrite same_prefix_cmp. specialize (IH t Hs Ht). destruct (bytes_cmp _ _); [congruence|apply precedes_tail; auto|apply precedes_tail; auto].
    + rewrite cmp_opp, (char_lt d c _ _ (scalar_bound _ Hc) Hlt). cbn. constructor. exact Hlt.
Qed.
Lemma precedes_irrefl s : ~ precedes s s.
Proof. induction s as [|c s IH]; intro H; inversion H; subst; [lia|auto]. Qed.
Lemma precedes_trans s : forall t u, precedes s t -> precedes t u -> precedes s u.
Proof.
  induction s as [|c s IH]; intros t u H1 H2.
  - inversion H1; subst. inversion H2; subst; constructor.
  - inversion H1; subst; inversion H2; subst; first [apply precedes_head; lia|apply precedes_tail; eauto].
Qed.
Lemma bytes_inj s t : Forall is_scalar s -> Forall is_scalar t -> as_bytes s = as_bytes t -> s = t.
Proof. intros Hs Ht He. pose proof (bytes_precede s t Hs Ht) as H. rewrite He, cmp_refl in H. exact H. Qed.
Lemma all_eq_spec {A} (eq : A -> A -> bool) (P : A -> Prop) : (forall x y, P x -> P y -> (eq x y = true <-> x = y)) ->
  forall a b, Forall P a -> Forall P b -> (slice_eq eq a b = true <-> a = b).
Proof.
  intro Heq. assert (H : forall a b, Forall P a -> Forall P b -> (all_eq eq a b = true <-> a = b)).
  { induction a as [|x a IH]; intros [|y b] Ha Hb; cbn [all_eq]; try (split; congruence).
    inversion Ha; subst. inversion Hb; subst. rewrite Bool.andb_true_iff, Heq, IH by auto. split; [intros [-> ->]; auto|intros [= -> ->]; auto]. }
  intros a b Ha Hb. unfold slice_eq. rewrite Bool.andb_true_iff, Nat.eqb_eq, (H a b Ha Hb). split; [tauto|intros ->; auto].
Qed.

(** ** Class names have no semicolon *)
Definition no_semi (s : str) : Prop := ~ In (ch ";") s.
Lemma loop_chars fuel data index : forall next,
  match class_descriptor_loop fuel data index next with Ok n => Ok (chars n) | Err e => Err e | Panic p => Panic p | Diverge => Diverge end
  = M_Descriptors.class_descriptor_loop fuel (chars data) index next.
Proof.
  induction fuel as [|fuel IH]; intro next; cbn [class_descriptor_loop M_Descriptors.class_descriptor_loop]; [reflexivity|].
  destruct (str_from (chars data) next) as [r| | |]; cbn [obind]; auto. destruct (parse_unqualified_segment r) as [[seg [c|]]| | |]; cbn [obind]; auto.
  destruct (_ =? _); [|destruct (_ =? _); auto]. unfold sub_cow. destruct data as [s k|s]; cbn [chars]; destruct (str_slice s _ _); cbn [obind]; reflexivity.
Qed.

Lemma boundary s : forall i r, str_from s i = Ok r -> exists a, s = a ++ r /\ i = str_len a.
Proof.
  induction s as [|c s IH]; intros i r; cbn [str_from].
  - destruct (N.eqb_spec i 0) as [->|]; [intros [= <-]; exists []; auto|discriminate].
  - destruct (N.eqb_spec i 0) as [->|]; [intros [= <-]; exists []; auto|]. destruct (N.leb_spec (char_len c) i); [|discriminate].
    intro H'. destruct (IH _ _ H') as (a & -> & He). exists (c :: a). split; auto. cbn [str_len]. lia.
Qed.
Lemma segment_no_semi s : class_segment s -> no_semi s.
Proof.
  intros [_ H] Hin. apply without_forallb in H. rewrite forallb_forall in H. specialize (H _ Hin). vm_compute in H. discriminate.
Qed.
Lemma join_no_semi a b : no_semi a -> no_semi b -> no_semi (a ++ ch "/" :: b).
Proof. unfold no_semi. rewrite in_app_iff. cbn [In]. intros Ha Hb [H|[H|H]]; auto. discriminate. Qed.
Lemma loose_no_semi : forall n s, (length s <= n)%nat -> loose_class_name s -> no_semi s.
Proof.
  induction n as [|n IH]; intros s Hl H; apply loose_rec in H; (destruct H as [->|[H|(a & b & -> & Ha & Hb)]]; [intros []|apply segment_no_semi, H|]).
  - rewrite app_length in Hl. cbn in Hl. lia.
  - rewrite app_length in Hl. cbn in Hl. apply join_no_semi; [apply segment_no_semi, Ha|apply IH; auto; lia].
Qed.
Lemma strict_no_semi : forall n s, (length s <= n)%nat -> class_name s -> no_semi s.
Proof.
  induction n as [|n IH]; intros s Hl H; apply class_name_rec in H; (destruct H as [H|(a & b & -> & Ha & Hb)]; [apply segment_no_semi, H|]).
  - rewrite app_length in Hl. cbn in Hl. lia.
  - rewrite app_length in Hl. cbn in Hl. apply join_no_semi; [apply segment_no_semi, Ha|apply IH; auto; lia].
Qed.
Lemma made_no_semi n : made n -> no_semi (chars n).
Proof.
  intros [v m H|data i m H].
  - unfold class_name_try_from in H. destruct (class_name_loop _ _ _) as [[]| | |] eqn:Hl; try discriminate. injection H as <-.
    pose proof (class_name_loop_spec (S (length (chars v))) [] (chars v) ltac:(lia)) as Hs. cbn [app str_len] in Hs. rewrite Hl in Hs.
    eapply loose_no_semi; eauto.
  - pose proof (loop_chars (S (length (chars data))) data i i) as Hl. unfold parse_class_descriptor in H. rewrite H in Hl.
    assert (Hb : exists r, str_from (chars data) i = Ok r).
    { cbn [M_Descriptors.class_descriptor_loop] in Hl. destruct (str_from (chars data) i); try discriminate; eauto. }
    destruct Hb as (r & Hr). destruct (boundary _ _ _ Hr) as (a & He & ->).
    pose proof (class_descriptor_loop_spec (S (length (chars data))) a [] r) as Hs. cbn [app str_len] in Hs. rewrite N.add_0_r, <- He in Hs.
    rewrite <- Hl in Hs. destruct Hs as (m' & tl & [_ Hm] & -> & _); [rewrite He, app_length; lia|].
    cbn [app] in *. eapply strict_no_semi; eauto.
Qed.

(** ** Values and their texts *)
Lemma semi_split a b r r' : no_semi a -> no_semi b -> a ++ ch ";" :: r = b ++ ch ";" :: r' -> a = b /\ r = r'.
Proof.
  unfold no_semi. revert b. induction a as [|x a IH]; intros [|y b] Ha Hb H; cbn [app] in H.
  - injection H as ->. auto.
  - injection H as <- _. exfalso. apply Hb. left. auto.
  - injection H as -> _. exfalso. apply Ha. left. auto.
  - injection H as <- H. destruct (IH b) as [-> ->]; auto; intro; [apply Ha|apply Hb]; right; auto.
Qed.
(** The descriptor without the borrowing information determines the text and is determined by it. *)
Definition plain_ok_type (t : M_Descriptors.field_type) : Prop := match t with M_Descriptors.FObject n => no_semi n | _ => True end.
Lemma type_inj t t' r r' : plain_ok_type t -> plain_ok_type t' -> show_field_type t ++ r = show_field_type t' ++ r' -> t = t' /\ r = r'.
Proof.
  destruct t, t'; cbn [show_field_type plain_ok_type]; intros Ht Ht' H; try (vm_compute in H; discriminate H);
    try (cbn [lit app] in H; injection H as H; split; auto; fail).
  change (lit "L") with [ch "L"] in H. change (lit ";") with [ch ";"] in H. rewrite <- !app_assoc in H. cbn [app] in H. injection H as H.
  apply semi_split in H; auto. destruct H as [-> ->]. auto.
Qed.
Lemma type_first t r : exists c q, show_field_type t ++ r = c :: q /\ c <> ch "[" /\ c <> ch ")" /\ c <> ch "V".
Proof. destruct t; cbn [show_field_type lit app]; eexists _, _; (split; [reflexivity|]); vm_compute; repeat split; discriminate. Qed.
Lemma field_value_inj d d' r r' : plain_ok_type (M_Descriptors.fd_type d) -> plain_ok_type (M_Descriptors.fd_type d') ->
  show_field_desc d ++ r = show_field_desc d' ++ r' -> d = d' /\ r = r'.
Proof.
  destruct d as [n t], d' as [n' t']. unfold show_field_desc. cbn [M_Descriptors.dimensions M_Descriptors.fd_type]. intros Ht Ht' H. rewrite <- !app_assoc in H.
  assert (Hn : forall m m', repeat (ch "[") m ++ show_field_type t ++ r = repeat (ch "[") m' ++ show_field_type t' ++ r' -> m = m' /\ t = t' /\ r = r').
  { induction m as [|m IH]; intros [|m'] He; cbn [repeat app] in He.
    - split; auto. apply type_inj; auto.
    - exfalso. destruct (type_first t r) as (c & q & Hq & Hc & _). rewrite Hq in He. injection He as He _. auto.
    - exfalso. destruct (type_first t' r') as (c & q & Hq & Hc & _). rewrite Hq in He. injection He as He _. auto.
    - injection He as He. destruct (IH _ He) as (-> & ? & ?). auto. }
  destruct (Hn _ _ H) as (He & -> & ->). split; auto. f_equal. apply N2Nat.inj, He.
Qed.
Lemma field_first d r : exists c q, show_field_desc d ++ r = c :: q /\ c <> ch ")" /\ c <> ch "V".
Proof.
  unfold show_field_desc. rewrite <- app_assoc. destruct (N.to_nat _) as [|m]; cbn [repeat app].
  - destruct (type_first (M_Descriptors.fd_type d) r) as (c & q & Hq & _ & H1 & H2). rewrite Hq. eauto.
  - eexists _, _. split; [reflexivity|]. vm_compute. split; discriminate.
Qed.
Definition plain_ok (d : M_Descriptors.field_desc) : Prop := plain_ok_type (M_Descriptors.fd_type d).
Lemma return_value_inj a b : (forall d, a = M_Descriptors.RReturn d -> plain_ok d) -> (forall d, b = M_Descriptors.RReturn d -> plain_ok d) ->
  show_return_desc a = show_return_desc b -> a = b.
Proof.
  destruct a as [d|], b as [e|]; cbn [show_return_desc]; intros Ha Hb H; auto.
  - f_equal. assert (H' : show_field_desc d ++ [] = show_field_desc e ++ []) by (rewrite !app_nil_r; exact H).
    eapply field_value_inj in H' as [-> _]; auto; [exact (Ha _ eq_refl)|exact (Hb _ eq_refl)].
  - exfalso. destruct (field_first d []) as (c & q & Hq & _ & Hc). rewrite app_nil_r in Hq. rewrite Hq in H. injection H as H _. auto.
  - exfalso. destruct (field_first e []) as (c & q & Hq & _ & Hc). rewrite app_nil_r in Hq. rewrite Hq in H. injection H as H _. auto.
Qed.

Lemma params_value_inj ps : forall ps' r r', Forall plain_ok ps -> Forall plain_ok ps' ->
  flat_map show_field_desc ps ++ ch ")" :: r = flat_map show_field_desc ps' ++ ch ")" :: r' -> ps = ps' /\ r = r'.
Proof.
  induction ps as [|d ps IH]; intros [|e ps'] r r' Hp Hp' H; cbn [flat_map app] in H.
  - injection H as ->. auto.
  - exfalso. rewrite <- app_assoc in H. edestruct (field_first e) as (c & q & Hq & Hc & _). rewrite Hq in H. injection H as H _. auto.
  - exfalso. rewrite <- app_assoc in H. edestruct (field_first d) as (c & q & Hq & Hc & _). rewrite Hq in H. injection H as H _. auto.
  - apply Forall_cons_iff in Hp, Hp'. destruct Hp as [Hd Hp], Hp' as [He Hp']. rewrite <- !app_assoc in H.
    apply field_value_inj in H; auto. destruct H as [-> H]. destruct (IH _ _ _ Hp Hp' H) as [-> ->]. auto.
Qed.
Lemma method_value_inj a b : Forall plain_ok (M_Descriptors.parameters a) -> Forall plain_ok (M_Descriptors.parameters b) ->
  (forall d, M_Descriptors.return_type a = M_Descriptors.RReturn d -> plain_ok d) -> (forall d, M_Descriptors.return_type b = M_Descriptors.RReturn d -> plain_ok d) ->
  show_method_desc a = show_method_desc b -> a = b.
Proof.
  destruct a as [ps r], b as [qs s]. unfold show_method_desc. cbn [M_Descriptors.parameters M_Descriptors.return_type]. intros Hp Hq Hr Hs H.
  change (lit "(") with [ch "("] in H. change (lit ")") with [ch ")"] in H. cbn [app] in H. injection H as H.
  apply params_value_inj in H; auto. destruct H as [-> H]. f_equal. apply return_value_inj; auto.
Qed.

(** ** Equality *)
Lemma cow_eq_spec a b : text a -> text b -> (cow_eq a b = true <-> chars a = chars b).
Proof.
  intros Ha Hb. unfold cow_eq. rewrite (all_eq_spec N.eqb (fun _ => True)); [|intros; apply N.eqb_eq|apply Forall_forall; auto|apply Forall_forall; auto].
  split; [apply bytes_inj; auto|intros ->; auto].
Qed.
Lemma type_eq_spec a b : type_value a -> type_value b -> (field_type_eq a b = true <-> plain_type a = plain_type b).
Proof.
  destruct a, b; cbn [type_value]; intros Ha Hb; try (split; [reflexivity || (intro H; vm_compute in H; discriminate H)|reflexivity || (intro H; discriminate H)]).
  unfold field_type_eq, class_name_eq. cbn [type_discriminant]. rewrite N.eqb_refl. cbn [andb plain_type]. rewrite cow_eq_spec by tauto. split; congruence.
Qed.
Lemma field_eq_spec a b : field_value a -> field_value b -> (field_desc_eq a b = true <-> plain_field_desc a = plain_field_desc b).
Proof.
  intros [_ Ha] [_ Hb]. unfold field_desc_eq, plain_field_desc. rewrite Bool.andb_true_iff, N.eqb_eq, type_eq_spec by auto. split; [intros [-> ->]; auto|intros [= -> ->]; auto].
Qed.
Lemma return_eq_spec a b : return_value a -> return_value b -> (return_desc_eq a b = true <-> plain_return_desc a = plain_return_desc b).
Proof.
  destruct a, b; cbn [return_value return_desc_eq plain_return_desc]; intros Ha Hb; try (split; congruence). rewrite field_eq_spec by auto. split; congruence.
Qed.
Lemma method_eq_spec a b : method_value a -> method_value b -> (method_desc_eq a b = true <-> plain_method_desc a = plain_method_desc b).
Proof.
  intros [Ha Hr] [Hb Hs]. unfold method_desc_eq, plain_method_desc. rewrite Bool.andb_true_iff, return_eq_spec by auto.
  assert (Hp : slice_eq field_desc_eq (parameters a) (parameters b) = true <-> map plain_field_desc (parameters a) = map plain_field_desc (parameters b)).
  { clear Hr Hs. revert Ha Hb. generalize (parameters a) (parameters b). unfold slice_eq. clear a b. induction l as [|x l IH]; intros [|y m] Ha Hb; cbn [length Nat.eqb all_eq map];
      try (split; [discriminate|discriminate]); [split; auto|].
    apply Forall_cons_iff in Ha, Hb. destruct Ha as [Hx Ha], Hb as [Hy Hb]. specialize (IH m Ha Hb).
    rewrite Bool.andb_true_iff in IH |- *. rewrite Bool.andb_true_iff, field_eq_spec by auto. split; [intros (H1 & -> & H3); f_equal; tauto|].
    intro H. assert (H1 : plain_field_desc x = plain_field_desc y) by congruence. assert (H2 : map plain_field_desc l = map plain_field_desc m) by congruence. tauto. }
  rewrite Hp. split; [intros [-> ->]; auto|intros [= -> ->]; auto].
Qed.
Lemma value_plain d : field_value d -> plain_ok (plain_field_desc d).
Proof. intros [_ H]. unfold plain_ok, plain_field_desc. destruct (fd_type d); cbn in *; auto. apply made_no_semi, H. Qed.
Lemma return_plain r d : return_value r -> plain_return_desc r = M_Descriptors.RReturn d -> plain_ok d.
Proof. destruct r; cbn; [|discriminate]. intros H [= <-]. apply value_plain, H. Qed.

(** Values compare equal if and only if they print the same; borrowed and owned texts make no difference. *)
Theorem C62_equality :
  (forall a b, made a -> made b -> text a -> text b -> (class_name_eq a b = true <-> chars a = chars b))
  /\ (forall a b, field_value a -> field_value b ->
        (field_desc_eq a b = true <-> show_field_desc (plain_field_desc a) = show_field_desc (plain_field_desc b)))
  /\ (forall a b, return_value a -> return_value b ->
        (return_desc_eq a b = true <-> show_return_desc (plain_return_desc a) = show_return_desc (plain_return_desc b)))
  /\ (forall a b, method_value a -> method_value b ->
        (method_desc_eq a b = true <-> show_method_desc (plain_method_desc a) = show_method_desc (plain_method_desc b))).
Proof.
  split; [|split; [|split]].
  - intros a b _ _ Ha Hb. apply cow_eq_spec; auto.
  - intros a b Ha Hb. rewrite field_eq_spec by auto. split; [congruence|]. intro H.
    assert (H' : show_field_desc (plain_field_desc a) ++ [] = show_field_desc (plain_field_desc b) ++ []) by (rewrite !app_nil_r; exact H).
    apply field_value_inj in H'; [tauto|apply value_plain, Ha|apply value_plain, Hb].
  - intros a b Ha Hb. rewrite return_eq_spec by auto. split; [congruence|]. apply return_value_inj; intros d; apply return_plain; auto.
  - intros a b Ha Hb. rewrite method_eq_spec by auto. split; [congruence|]. destruct Ha as [Ha Hr], Hb as [Hb Hs].
    apply method_value_inj; cbn [plain_method_desc M_Descriptors.parameters M_Descriptors.return_type].
    + rewrite Forall_map. eapply Forall_impl; [intro; apply value_plain|exact Ha].
    + rewrite Forall_map. eapply Forall_impl; [intro; apply value_plain|exact Hb].
    + intros d. apply return_plain, Hr.
    + intros d. apply return_plain, Hs.
Qed.

(** ** Hashing *)
Lemma type_hash_spec a b r r' : type_value a -> type_value b -> (field_type_hash a ++ r = field_type_hash b ++ r' <-> plain_type a = plain_type b /\ r = r').
Proof.
  intros Ha Hb. destruct a, b; cbn [field_type_hash type_discriminant app plain_type type_value class_name_hash cow_hash] in *; split;
    try (intro H; discriminate H); try (intros [H _]; discriminate H); try (intros [= ->]; auto; fail); try (intros [_ ->]; auto; fail).
  - intros [= H ->]. split; auto. f_equal. apply bytes_inj; auto; tauto.
  - intros [[= ->] ->]. auto.
Qed.
Lemma field_hash_spec a b r r' : field_value a -> field_value b -> (field_desc_hash a ++ r = field_desc_hash b ++ r' <-> plain_field_desc a = plain_field_desc b /\ r = r').
Proof.
  intros [_ Ha] [_ Hb]. unfold field_desc_hash, plain_field_desc. cbn [app]. pose proof (type_hash_spec _ _ r r' Ha Hb) as H. split.
  - intro He. assert (Hd : dimensions a = dimensions b) by congruence. rewrite Hd.
    apply (f_equal (@tl _)) in He. cbn [tl] in He. apply H in He. destruct He as [-> ->]. auto.
  - intros [[= -> He] Hr]. f_equal. apply H. auto.
Qed.
Lemma params_hash_spec ps : forall qs r r', Forall field_value ps -> Forall field_value qs -> length ps = length qs ->
  (flat_map field_desc_hash ps ++ r = flat_map field_desc_hash qs ++ r' <-> map plain_field_desc ps = map plain_field_desc qs /\ r = r').
Proof.
  induction ps as [|d ps IH]; intros [|e qs] r r' Hp Hq Hl; try discriminate; cbn [flat_map map app]; [tauto|].
  apply Forall_cons_iff in Hp, Hq. destruct Hp as [Hd Hp], Hq as [He Hq]. rewrite <- !app_assoc, field_hash_spec, (IH qs) by auto.
  split; [intros (-> & -> & ->); auto|]. intros [H ->]. split; [congruence|split; [congruence|auto]].
Qed.
(** Equal values feed a hasher the same, different values feed it differently. *)
Theorem C62_hash :
  (forall a b, made a -> made b -> text a -> text b -> (class_name_hash a = class_name_hash b <-> class_name_eq a b = true))
  /\ (forall a b, field_value a -> field_value b -> (field_desc_hash a = field_desc_hash b <-> field_desc_eq a b = true))
  /\ (forall a b, return_value a -> return_value b -> (return_desc_hash a = return_desc_hash b <-> return_desc_eq a b = true))
  /\ (forall a b, method_value a -> method_value b -> (method_desc_hash a = method_desc_hash b <-> method_desc_eq a b = true)).
Proof.
  assert (Hf : forall a b, field_value a -> field_value b -> (field_desc_hash a = field_desc_hash b <-> field_desc_eq a b = true)).
  { intros a b Ha Hb. rewrite field_eq_spec by auto. pose proof (field_hash_spec a b [] [] Ha Hb) as H. rewrite !app_nil_r in H. tauto. }
  assert (Hr : forall a b, return_value a -> return_value b -> (return_desc_hash a = return_desc_hash b <-> return_desc_eq a b = true)).
  { intros [d|] [e|] Ha Hb; cbn [return_value return_desc_hash return_desc_eq] in *; try (split; [discriminate|discriminate]); [|tauto].
    rewrite <- Hf by auto. split; [congruence|intros ->; auto]. }
  split; [|split; [|split]]; auto.
  - intros a b _ _ Ha Hb. unfold class_name_eq, class_name_hash, cow_hash. rewrite cow_eq_spec by auto. split; [intros [= H]; apply bytes_inj; auto|intros ->; auto].
  - intros a b [Ha Hra] [Hb Hrb]. rewrite method_eq_spec by (split; auto). unfold method_desc_hash, plain_method_desc. split.
    + intros H. assert (Hl : N.of_nat (length (parameters a)) = N.of_nat (length (parameters b))) by congruence. apply (f_equal (@tl _)) in H. cbn [tl] in H. apply Nat2N.inj in Hl. rewrite params_hash_spec in H by auto. destruct H as [-> H]. f_equal. apply return_eq_spec; auto. apply Hr; auto.
    + intro H. assert (Hp : map plain_field_desc (parameters a) = map plain_field_desc (parameters b)) by congruence.
      assert (Hq : plain_return_desc (return_type a) = plain_return_desc (return_type b)) by congruence. assert (Hl : length (parameters a) = length (parameters b)) by (apply (f_equal (@length _)) in Hp; rewrite !map_length in Hp; exact Hp).
      rewrite Hl. f_equal. apply params_hash_spec; auto. split; auto. apply Hr; auto. apply return_eq_spec; auto.
Qed.

(** ** Order *)
(** Class names are ordered as in a dictionary of code points; this is a strict total order whose equality is [==]. *)
Theorem C62_order a b : text a -> text b ->
  (class_name_cmp a b = Lt <-> precedes (chars a) (chars b)) /\ (class_name_cmp a b = Gt <-> precedes (chars b) (chars a))
  /\ (class_name_cmp a b = Eq <-> class_name_eq a b = true).
Proof.
  intros Ha Hb. pose proof (bytes_precede _ _ Ha Hb) as H. unfold class_name_eq. rewrite cow_eq_spec by auto. fold (class_name_cmp a b) in H.
  pose proof (precedes_irrefl (chars a)). pose proof (precedes_irrefl (chars b)). pose proof (precedes_trans (chars a) (chars b) (chars a)).
  destruct (class_name_cmp a b); (split; [|split]); (split; intro G; try discriminate G; auto; exfalso; rewrite ?H, ?G in *; tauto).
Qed.
Theorem C62_total : (forall s, ~ precedes s s) /\ (forall s t u, precedes s t -> precedes t u -> precedes s u)
  /\ (forall s t, precedes s t \/ s = t \/ precedes t s).
Proof.
  split; [exact precedes_irrefl|split; [exact precedes_trans|]]. induction s as [|c s IH]; intros [|d t]; [auto|left; constructor|right; right; constructor|].
  destruct (N.lt_trichotomy c d) as [H|[<-|H]]; [left; apply precedes_head; auto| |right; right; apply precedes_head; auto].
  destruct (IH t) as [H|[->|H]]; [left; apply precedes_tail; auto|auto|right; right; apply precedes_tail; auto].
Qed.
(** A borrowed and an owned name, from a descriptor and from [try_from]; a name outside the basic plane sorts after one in it. *)
Example C62_meets :
  let a := Borrowed (lit "java/lang/Object") 5 in let b := Owned (lit "java/lang/Object") in
  made a /\ made b /\ text a /\ text b /\ class_name_eq a b = true
  /\ method_value (mk_md [mk_fd 2 (FObject a); mk_fd 0 FInteger] (RReturn (mk_fd 1 (FObject b))))
  /\ method_desc_eq (mk_md [mk_fd 2 (FObject a)] RVoid) (mk_md [mk_fd 2 (FObject b)] RVoid) = true
  /\ method_desc_eq (mk_md [mk_fd 2 (FObject a)] RVoid) (mk_md [mk_fd 1 (FObject b)] RVoid) = false
  /\ made (Owned [0x1F600]) /\ text (Owned [0x1F600]) /\ class_name_cmp (Owned [0xFFFD]) (Owned [0x1F600]) = Lt.
Proof.
  intros a b. assert (Ht : forall c, forallb (fun x => x <? 128) (chars c) = true -> text c).
  { intros c Hc. apply Forall_forall. intros x Hx. rewrite forallb_forall in Hc. specialize (Hc x Hx). left. lia. }
  assert (Ma : made a) by (eapply (made_by_parsing (Borrowed (lit "Ljava/lang/Object;") 4) 1); vm_compute; reflexivity).
  assert (Mb : made b) by (eapply (made_by_try_from b); vm_compute; reflexivity).
  assert (Ta : text a) by (apply Ht; vm_compute; reflexivity). assert (Tb : text b) by (apply Ht; vm_compute; reflexivity).
  split; auto. split; auto. split; auto. split; auto. split; [vm_compute; reflexivity|]. split; [|split; [vm_compute; reflexivity|split; [vm_compute; reflexivity|]]].
  - split; [|split; [reflexivity|split; auto]]. apply Forall_cons; [split; [reflexivity|split; auto]|]. apply Forall_cons; [split; [reflexivity|exact I]|constructor].
  - split; [apply (made_by_try_from (Owned [0x1F600])); vm_compute; reflexivity|]. split; [constructor; [right; lia|constructor]|vm_compute; reflexivity].
Qed.
