(** * Recursion depth: C36. *)
From Verif Require Import Base M_Names M_Descriptors M_ConstantPool M_Bytecode M_Attributes M_Class M_Cesu8 Data
  S_Lang S_Names S_Format S_Pool S_Items S_Env S_Safe S_Better S_Grow P_Reads P_Tac P_Class2 P_Class3 P_Depth P_Layout P_Safe6 P_Better P_Deep
  T_Class T_Members T_Unknown T_Safe.
From Coq Require Import ZifyBool ZifyNat ZifyN.

(** With a stack of as many levels as the input has bytes, any further stack makes no difference: the outcome is the same
    — a class, an error or a panic. So the recursion of the parser is never deeper than the input is long, but for the cycles of C04,
    which exhaust every stack. *)
Definition with_stack (E : env) (levels : nat) : env :=
  {| overflow_checks := overflow_checks E; usize_max := usize_max E; alloc_limit := alloc_limit E; stack := levels; cesu8 := cesu8 E; cesu8_err := cesu8_err E |}.
Theorem C36_length_suffices E opts bs n : sane E bs -> (length bs <= stack E <= n)%nat ->
  parse_class_with_options (with_stack E n) opts bs = parse_class_with_options E opts bs.
Proof.
  intros Hs Hn. assert (HB : better E (with_stack E n)) by (constructor; cbn; auto; lia).
  destruct (parse_deep E (with_stack E n) opts bs HB Hs ltac:(lia)) as [H|(x & _ & Hl & Hx)]; [auto|exfalso].
  inversion Hl; subst; cbn in *; try congruence; lia.
Qed.

(** Arrays of arrays in an annotation. *)
Fixpoint nest (n : nat) : element_value := match n with O => EvArray [] | S n' => EvArray [nest n'] end.
Fixpoint nest_bytes (n : nat) : list byte := match n with O => [x5b; x00; x00] | S n' => x5b :: x00 :: x01 :: nest_bytes n' end.
Lemma nest_length n : length (nest_bytes n) = (3 * n + 3)%nat.
Proof. induction n as [|n IH]; [reflexivity|]. cbn [nest_bytes length]. lia. Qed.
Lemma nest_lang dec sl n : element_lang dec sl (S n) (nest n) (nest_bytes n).
Proof.
  induction n as [|n IH].
  - exists [x5b], [x00; x00]. split; [reflexivity|]. split; [split; reflexivity|]. exists [x00; x00], []. split; [reflexivity|]. split; split; reflexivity.
  - exists [x5b], ([x00; x01] ++ nest_bytes n ++ []). split; [rewrite app_nil_r; reflexivity|]. split; [split; reflexivity|].
    exists [x00; x01], (nest_bytes n ++ []). split; [reflexivity|]. split; [split; reflexivity|]. exists (nest_bytes n), []. split; [reflexivity|]. split; [exact IH|reflexivity].
Qed.
Lemma nest_depth dec sl n : forall d w, element_lang dec sl d (nest n) w -> (n < d)%nat.
Proof.
  induction n as [|n IH]; intros [|d] w H; try contradiction; [lia|].
  destruct H as (u & v & -> & _ & u2 & v2 & -> & _ & u3 & v3 & -> & H & _). apply IH in H. lia.
Qed.

(** A class with one attribute, an AnnotationDefault. *)
Definition plain : list byte := unhex
  "cafebabe00000034000401000141070001010011416e6e6f746174696f6e44656661756c740021000200000000000000000000".
Definition plain_class : class_file := match parse_class debug64 plain with Ok c => c | _ => mk_class 0 0 [] 0 [] None [] [] [] [] end.
Definition nested_class (n : nat) : class_file :=
  with_class_attributes plain_class [mk_attr (lit "AnnotationDefault") (AAnnotationDefault (nest n))].
Lemma plain_parses checks opts : parse_class_with_options (machine checks (2 ^ 64 - 1) 20000) opts plain = Ok plain_class.
Proof. destruct checks, opts; vm_compute; reflexivity. Qed.

Definition default_name : list byte := unhex "416e6e6f746174696f6e44656661756c74".
Definition plain_cs : list constant := [CUtf8 [x41]; CClass 1; CUtf8 default_name].
Lemma plain_constants E : constants_of E plain plain_cs.
Proof.
  exists 0, 52, 4, [[x01; x00; x01; x41]; [x07; x00; x01]; x01 :: x00 :: x11 :: default_name], (skipn 37 plain). split; [|cbn; lia].
  exists [xca; xfe; xba; xbe], [x00; x00; x00; x34], [x00; x04].
  split; [split; vm_compute; reflexivity|]. split; [exists [x00; x00], [x00; x34]; repeat split|].
  split; [split; reflexivity|]. split; [vm_compute; reflexivity|].
  constructor; [|constructor; [|constructor; [|constructor]]].
  - split; [lia|]. exists [x01], [x00; x01; x41]. repeat split. exists [x00; x01], [x41]. repeat split.
  - split; [lia|]. exists [x07], [x00; x01]. repeat split.
  - split; [lia|]. exists [x01], (x00 :: x11 :: default_name). repeat split. exists [x00; x11], default_name. repeat split.
Qed.
(** Everything of [plain] before its empty list of attributes. *)
Definition plain_head : list byte := firstn 49 plain.
Lemma plain_with wraps want d l T : attributes_lang from_java_cesu8 (slots_of plain_cs) wraps want d l T ->
  class_lang from_java_cesu8 wraps want d plain_cs (with_class_attributes plain_class l) (plain_head ++ T).
Proof.
  intro Hl. set (E := machine (negb wraps) (2 ^ 64 - 1) 20000). assert (Hw : wrapping E = wraps) by (destruct wraps; reflexivity).
  assert (Hs : sane E plain) by (apply ample_sane, ampleb_ample; destruct wraps; vm_compute; reflexivity).
  pose proof (accepted_stack E want plain plain_class plain_cs Hs (plain_parses (negb wraps) want) (plain_constants E)) as Hc.
  rewrite Hw in Hc. change (cesu8 E) with from_java_cesu8 in Hc. destruct Hc as (Hc & HP & Hf & Hm & Hr & Hmod & Hboot).
  assert (Hf0 : fields plain_class = []) by (vm_compute; reflexivity). assert (Hm0 : methods plain_class = []) by (vm_compute; reflexivity).
  assert (Ha0 : class_attributes plain_class = []) by (vm_compute; reflexivity).
  destruct Hc as (u0 & v0 & Hb & K0 & u1 & v1 & -> & K1 & u2 & v2 & -> & K2 & u3 & v3 & -> & K3 & u4 & v4 & -> & K4 & u5 & v5 & -> & K5
    & u6 & v6 & -> & K6 & u7 & v7 & -> & K7 & u8 & v8 & -> & K8 & u9 & T0 & -> & K9 & HT).
  rewrite Ha0 in HT. assert (HT0 : length T0 = 2%nat).
  { destruct (stack E) eqn:Hst in HT; [contradiction|]. destruct HT as (x & y & -> & [Hx _] & Hy). change (y = []) in Hy. subst y. rewrite app_nil_r. exact Hx. }
  replace (plain_head ++ T) with (u0 ++ u1 ++ u2 ++ u3 ++ u4 ++ u5 ++ u6 ++ u7 ++ u8 ++ u9 ++ T).
  - split.
    + cbn [with_class_attributes minor_version major_version access_flags this_class super_class interfaces fields methods class_attributes].
      rewrite Hf0, Hm0 in *. repeat (apply cat_intro; [assumption|]). exact Hl.
    + split; [exact HP|]. repeat (split; [assumption|]). intros b nt [Hin|Hin]; cbn in Hin; repeat (destruct Hin as [Hin|Hin]; [discriminate|]); destruct Hin.
  - replace plain_head with (u0 ++ u1 ++ u2 ++ u3 ++ u4 ++ u5 ++ u6 ++ u7 ++ u8 ++ u9); [rewrite <- !app_assoc; reflexivity|].
    replace (u0 ++ u1 ++ u2 ++ u3 ++ u4 ++ u5 ++ u6 ++ u7 ++ u8 ++ u9 ++ T0) with ((u0 ++ u1 ++ u2 ++ u3 ++ u4 ++ u5 ++ u6 ++ u7 ++ u8 ++ u9) ++ T0) in Hb by (rewrite <- !app_assoc; reflexivity).
    assert (Hlen : length plain = 51%nat) by (vm_compute; reflexivity). pose proof Hlen as Hl2. rewrite Hb, app_length, HT0 in Hl2.
    set (X := u0 ++ _) in *. assert (HX : (49 = length X)%nat) by lia. unfold plain_head. rewrite Hb, HX, firstn_app, Nat.sub_diag, firstn_all, firstn_O, app_nil_r. reflexivity.
Qed.

(** The depth is bounded by nothing else: for every [n] (up to the limit of 2^32 bytes of an attribute) there is a file of 3 [n] + 60
    bytes that is accepted by machines whose stack has [n] + 2 levels and that overflows every smaller stack. *)
Lemma C36_nested n : 3 * N.of_nat n + 3 < 2 ^ 32 -> exists bs, blen bs = 3 * N.of_nat n + 60 /\
  forall E opts, cesu8 E = from_java_cesu8 -> sane E bs ->
    ((n + 2 <= stack E)%nat -> parse_class_with_options E opts bs = Ok (nested_class n)) /\
    ((stack E < n + 2)%nat -> parse_class_with_options E opts bs = Panic PStackOverflow).
Proof.
  intro Hn. destruct (uint_exists 4 (N.of_nat (length (nest_bytes n)))) as (lw & Hlw).
  { change (256 ^ N.of_nat 4) with (2 ^ 32). rewrite nest_length. lia. }
  set (T := [x00; x01] ++ ([x00; x03] ++ lw ++ nest_bytes n) ++ []).
  set (l := [mk_attr (lit "AnnotationDefault") (AAnnotationDefault (nest n))]).
  assert (HT : forall wraps want d, (n + 2 <= d)%nat -> attributes_lang from_java_cesu8 (slots_of plain_cs) wraps want d l T).
  { intros wraps want [|d] Hd; [lia|]. cbn [attributes_lang]. exists [x00; x01], (([x00; x03] ++ lw ++ nest_bytes n) ++ []). split; [reflexivity|].
    split; [split; reflexivity|]. exists ([x00; x03] ++ lw ++ nest_bytes n), []. split; [reflexivity|]. split; [|reflexivity].
    exists [x00; x03], (lw ++ nest_bytes n). split; [reflexivity|]. split.
    { exists 3. split; [split; reflexivity|]. exists default_name. split; vm_compute; reflexivity. }
    exists lw, (nest_bytes n). split; [reflexivity|]. split; [exact Hlw|]. split; [|reflexivity].
    cbn [contents snd attr_dat]. eapply element_more; [|apply nest_lang]. lia. }
  exists (plain_head ++ T). split.
  { unfold blen, T. rewrite !app_length, nest_length. destruct Hlw as [-> _]. change (length plain_head) with 49%nat. cbn [length]. lia. }
  intros E opts Hd Hs.
  assert (Hiff : parse_class_with_options E opts (plain_head ++ T) = Ok (nested_class n) <-> (n + 2 <= stack E)%nat).
  { rewrite (parse_Ok E opts (sane_stack _ _ Hs) _ _ (sane_fits _ _ Hs)), Hd. split.
    - intros (cs & Hc & _). destruct Hc as (u0 & v0 & _ & _ & u1 & v1 & _ & _ & u2 & v2 & _ & _ & u3 & v3 & _ & _ & u4 & v4 & _ & _ & u5 & v5 & _ & _
        & u6 & v6 & _ & _ & u7 & v7 & _ & _ & u8 & v8 & _ & _ & u9 & T0 & _ & _ & H0).
      cbn [nested_class with_class_attributes class_attributes] in H0. destruct (stack E) as [|k]; [contradiction|].
      destruct H0 as (a1 & b1 & _ & _ & a2 & b2 & _ & (a3 & b3 & _ & _ & (len & body & _ & _ & H0 & _)) & _). cbn [contents snd attr_dat] in H0.
      apply nest_depth in H0. lia.
    - intro Hk. exists plain_cs. apply plain_with, HT, Hk. }
  split; [apply Hiff|]. intro Hlt. set (E2 := with_stack E (n + 2)).
  assert (HB : better E E2) by (constructor; cbn; auto; lia).
  assert (Hs2 : sane E2 (plain_head ++ T)) by (destruct Hs; constructor; cbn; auto; lia).
  assert (H2 : parse_class_with_options E2 opts (plain_head ++ T) = Ok (nested_class n)).
  { apply (parse_Ok E2 opts (sane_stack _ _ Hs2) _ _ (sane_fits _ _ Hs2)). change (cesu8 E2) with (cesu8 E). rewrite Hd. exists plain_cs. apply plain_with, HT. cbn. lia. }
  destruct (apx_parse E E2 HB opts (plain_head ++ T)) as [H|(x & Hx & Hl)].
  - rewrite H2 in H. apply Hiff in H. lia.
  - inversion Hl; subst; cbn in *; try congruence; lia.
Qed.
Theorem C36_any_depth n : 3 * N.of_nat n + 3 < 2 ^ 32 -> exists bs c, blen bs = 3 * N.of_nat n + 60 /\
  forall E opts, cesu8 E = from_java_cesu8 -> sane E bs ->
    ((n + 2 <= stack E)%nat -> parse_class_with_options E opts bs = Ok c) /\
    ((stack E < n + 2)%nat -> parse_class_with_options E opts bs = Panic PStackOverflow).
Proof. intro Hn. destruct (C36_nested n Hn) as (bs & Hl & H). exists bs, (nested_class n). split; auto. Qed.
Example C36_meets : 3 * N.of_nat (N.to_nat 300000) + 3 < 2 ^ 32 /\ sane debug64 plain /\ (length plain <= stack debug64 <= stack debug64 + 1)%nat.
Proof.
  split; [rewrite N2Nat.id; lia|]. split; [apply ample_sane, ampleb_ample; vm_compute; reflexivity|]. split; [apply Nat.leb_le; vm_compute; reflexivity|lia].
Qed.
