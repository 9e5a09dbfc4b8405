(** * Panics, termination, memory and 32-bit targets: C02, C03, C04, C39, C40. *)
From Verif Require Import Base M_Names M_Descriptors M_ConstantPool M_Bytecode M_Attributes M_Class M_Cesu8 Data Sample
  S_Lang S_Names S_Format S_Pool S_Items S_Env S_Safe P_Names P_Descriptors P_Reads P_Tac P_Pool P_Pool2 P_Pool3 P_Pool4
  P_Bytecode P_Class3 P_Layout P_Safe P_Safe5 P_Safe6 S_Better P_Better T_Class T_Members T_Bytecode T_Unknown T_Iter.
From Coq Require Import ZifyBool ZifyNat ZifyN.

(** ** C02 *)
(** A parse ends with a class, with an error, or with a panic that has one of the causes listed in S_Safe. *)
Theorem C02_panics_only_if_partial E opts bs x : sane E bs -> parse_class_with_options E opts bs = Panic x -> cause E opts bs x.
Proof. intros Hs H. pose proof (panic_cause E opts bs Hs) as Hc. rewrite H in Hc. exact Hc. Qed.
Lemma reserves_small dec cs wraps code n : reserves dec cs wraps code n -> (0 <= n <= 2 ^ 34)%Z.
Proof.
  intros [(low & high & _ & H)|(k & Hk & H)]; [lia|]. destruct Hk as (ops & w & gap & dw & nw & rest & _ & _ & _ & _ & Hk). destruct Hk as (_ & Hk & _).
  change (2 ^ Z.of_nat (8 * 4 - 1))%Z with (2 ^ 31)%Z in Hk. lia.
Qed.
(** On a 64-bit machine with a stack as deep as the input is long and enough memory, in a build without overflow checks,
    only two things in a file can make the parser fail other than by an error: a NameAndType whose descriptor
    cannot be decoded, and a cycle of NameAndTypes. *)
Theorem C02_release_partial E opts bs : ample E bs -> overflow_checks E = false -> blen bs + 2 ^ 34 <= usize_max E / 2 -> 2 ^ 34 <= alloc_limit E ->
  (forall cs c, pool_in (wrapping E) bs cs -> In c cs -> ~ undecodable (cesu8 E) cs c) ->
  (forall cs i, pool_in (wrapping E) bs cs -> ~ endless cs i) ->
  (exists c, parse_class_with_options E opts bs = Ok c) \/ exists e, parse_class_with_options E opts bs = Err e.
Proof.
  intros [Hs Hst] Ho Hu Ha Hdec Hend. pose proof (panic_cause E opts bs Hs) as Hc.
  destruct (parse_class_with_options E opts bs) as [c|e|x|]; [eauto|eauto| |contradiction]. exfalso.
  assert (Hu' : blen bs + 2 ^ 34 <= usize_max E) by (eapply N.le_trans; [exact Hu|apply N.div_le_upper_bound; lia]).
  cbn in Hc. inversion Hc; subst; try congruence; try lia.
  - eapply Hdec; eauto.
  - eapply Hend; eauto.
  - match goal with H : reserves _ _ _ _ _ |- _ => apply reserves_small in H end. lia.
  - match goal with H : reserves _ _ _ _ _ |- _ => apply reserves_small in H end. lia.
Qed.
(** The same for builds with overflow checks, for files with fewer than 65535 constants and without jumps to offsets above 2^31 and
    without tableswitches of 2^31 jumps (or parsed without bytecode). *)
Theorem C02_debug_partial E opts bs : ample E bs -> blen bs + 2 ^ 34 <= usize_max E / 2 -> 2 ^ 34 <= alloc_limit E ->
  (opts = true -> forall cs code, pool_in (wrapping E) bs cs -> code_in bs code ->
    (forall o j, jump_in (cesu8 E) cs (wrapping E) code o j -> (Z.of_N o + j < 2 ^ 31)%Z) /\
    (forall low high, tableswitch_in (cesu8 E) cs (wrapping E) code low high -> (high - low + 1 < 2 ^ 31)%Z)) -> (forall minor major cs ws rest, ~ starts_with_pool bs minor major 65535 cs ws rest) ->
  (forall cs c, pool_in (wrapping E) bs cs -> In c cs -> ~ undecodable (cesu8 E) cs c) ->
  (forall cs i, pool_in (wrapping E) bs cs -> ~ endless cs i) ->
  (exists c, parse_class_with_options E opts bs = Ok c) \/ exists e, parse_class_with_options E opts bs = Err e.
Proof.
  intros [Hs Hst] Hu Ha Hfar Hcnt Hdec Hend. pose proof (panic_cause E opts bs Hs) as Hc.
  destruct (parse_class_with_options E opts bs) as [c|e|x|]; [eauto|eauto| |contradiction]. exfalso.
  assert (Hu' : blen bs + 2 ^ 34 <= usize_max E) by (eapply N.le_trans; [exact Hu|apply N.div_le_upper_bound; lia]).
  cbn in Hc. inversion Hc; subst; try congruence; try lia.
  - eapply Hdec; eauto.
  - eapply Hend; eauto.
  - eapply Hcnt; eauto.
  - destruct (Hfar eq_refl cs code) as [Hj _]; auto. specialize (Hj _ _ ltac:(eassumption)). lia.
  - destruct (Hfar eq_refl cs code) as [_ Hr]; auto. specialize (Hr _ _ ltac:(eassumption)). lia.
  - match goal with H : reserves _ _ _ _ _ |- _ => apply reserves_small in H end. lia.
  - match goal with H : reserves _ _ _ _ _ |- _ => apply reserves_small in H end. lia.
Qed.
(** The pool of a file is unique, so that the premises above are decided by computing. *)
Lemma pool_in_unique wraps bs cs cs' : pool_in wraps bs cs -> pool_in wraps bs cs' -> cs = cs'.
Proof.
  intros (mi & ma & co & ws & rest & (m & v & n & Hm & Hv & Hn & Hbs & Hws) & Hf) (mi' & ma' & co' & ws' & rest' & (m' & v' & n' & Hm' & Hv' & Hn' & Hbs' & Hws') & Hf').
  rewrite Hbs in Hbs'. apply app_eq_blen in Hbs'; [|destruct Hm as [Hm _], Hm' as [Hm' _]; unfold blen; lia]. destruct Hbs' as [<- Hbs'].
  destruct Hv as (v1 & v2 & -> & Hv1 & Hv2). destruct Hv' as (v1' & v2' & -> & Hv1' & Hv2'). rewrite <- !app_assoc in Hbs'.
  apply app_eq_blen in Hbs'; [|destruct Hv1 as [Hx _], Hv1' as [Hy _]; unfold blen; lia]. destruct Hbs' as [<- Hbs'].
  apply app_eq_blen in Hbs'; [|destruct Hv2 as [Hx _], Hv2' as [Hy _]; unfold blen; lia]. destruct Hbs' as [<- Hbs'].
  apply app_eq_blen in Hbs'; [|destruct Hn as [Hx _], Hn' as [Hy _]; unfold blen; lia]. destruct Hbs' as [<- Hbs'].
  assert (ma' = ma) by (destruct Hv2 as [_ <-], Hv2' as [_ <-]; auto). assert (co' = co) by (destruct Hn as [_ <-], Hn' as [_ <-]; auto). subst ma' co'.
  clear - Hws Hws' Hf Hf' Hbs'. revert Hf Hf' Hbs'. generalize 1. revert cs' ws' Hws'.
  induction Hws as [|c w cs ws Hc Hws IH]; intros cs' ws' Hws' i Hf Hf' Hbs.
  - destruct Hws' as [|c' w' cs' ws']; auto. cbn [fills] in Hf, Hf'. destruct Hf' as [Hf' _]. lia.
  - destruct Hws' as [|c' w' cs' ws' Hc' Hws']; [cbn [fills] in Hf, Hf'; destruct Hf as [Hf _]; lia|].
    cbn [concat] in Hbs. rewrite <- !app_assoc in Hbs.
    destruct (constant_split _ _ _ _ _ _ _ Hbs Hc Hc') as (<- & <- & Hrest).
    f_equal. cbn [fills] in Hf, Hf'. cbv zeta in Hf, Hf'. destruct Hf as [_ Hf], Hf' as [_ Hf']. destruct (i + width c <? 65536).
    + eapply IH; eauto.
    + destruct Hf as [_ Hf], Hf' as [_ Hf']. eapply IH; eauto.
Qed.

(** The constants of [sample], seen by both kinds of builds. *)
Lemma sample_pool wraps : pool_in wraps sample sample_constants.
Proof.
  exists 0, 61, 57, sample_pieces, sample_rest. split; [exact sample_starts|]. destruct wraps; vm_compute; intuition discriminate.
Qed.
Lemma sample_decodable wraps cs c : pool_in wraps sample cs -> In c cs -> ~ undecodable from_java_cesu8 cs c.
Proof.
  intros Hp Hc (n & d & r & -> & Hat & Hd). rewrite (pool_in_unique _ _ _ _ Hp (sample_pool wraps)) in *.
  destruct (sample_named _ _ Hc) as (r' & s & Hr & Hs). pose proof (at_fun _ _ _ _ Hat Hr) as He. injection He as ->. congruence.
Qed.
Lemma sample_ends wraps cs i : pool_in wraps sample cs -> ~ endless cs i.
Proof.
  intros Hp He. rewrite (pool_in_unique _ _ _ _ Hp (sample_pool wraps)) in *. destruct (He 2%nat) as (n & d & Hat & n' & d' & Hat' & _).
  assert (Hin : In (CNameAndType n d) sample_constants).
  { unfold at_index in Hat. apply nth_error_In in Hat. unfold slots_of in Hat. cbn [In] in Hat. destruct Hat as [Hat|Hat]; [discriminate|].
    apply in_flat_map in Hat. destruct Hat as (x & Hx & Hat). destruct (is_wide x); cbn [In] in Hat; intuition congruence. }
  destruct (sample_named _ _ Hin) as (r & s & Hr & _). pose proof (at_fun _ _ _ _ Hat' Hr). discriminate.
Qed.
(** A file on which a parse panics, and [sample], to which the theorems on builds without and with overflow checks apply:
    it has NameAndTypes (for fields, methods and an invokedynamic). *)
Definition bad_enclosing : list byte := unhex
  "cafebabe00000034000601000141070001010001ff0c0001000301000f456e636c6f73696e674d6574686f64002100020000000000000000000100050000000400020004".
Example C02_panics_meets : sane debug64 bad_enclosing /\ parse_class_with_options debug64 true bad_enclosing = Panic PNotUtf8.
Proof. split; [apply ample_sane, ampleb_ample; vm_compute; reflexivity|vm_compute; reflexivity]. Qed.
Example C02_release_meets : ample release64 sample /\ overflow_checks release64 = false /\ blen sample + 2 ^ 34 <= usize_max release64 / 2
  /\ 2 ^ 34 <= alloc_limit release64
  /\ (forall cs c, pool_in (wrapping release64) sample cs -> In c cs -> ~ undecodable (cesu8 release64) cs c)
  /\ (forall cs i, pool_in (wrapping release64) sample cs -> ~ endless cs i).
Proof.
  split; [apply ampleb_ample; vm_compute; reflexivity|]. split; [reflexivity|]. split; [vm_compute; discriminate|]. split; [vm_compute; discriminate|].
  split; [intros; eapply sample_decodable; eauto|intros; eapply sample_ends; eauto].
Qed.
(** A method that jumps with a goto; without the bytes that start instructions with 32-bit operands. *)
Definition near_jump : list byte := unhex
  "cafebabe000000340006010001410700010100016d010003282956010004436f6465002100020000000000000001000900030004000100050000001000000000
   00000004a70003b1000000000000".
Definition near_constants : list constant := [CUtf8 [x41]; CClass 1; CUtf8 [x6d]; CUtf8 [x28; x29; x56]; CUtf8 (unhex "436f6465")].
Lemma near_pool wraps : pool_in wraps near_jump near_constants.
Proof.
  exists 0, 52, 6, [unhex "01000141"; unhex "070001"; unhex "0100016d"; unhex "010003282956"; unhex "010004436f6465"], (skipn 34 near_jump). split.
  - exists [xca; xfe; xba; xbe], [x00; x00; x00; x34], [x00; x06]. split; [piece|]. split; [piece|]. split; [piece|]. split; [vm_compute; reflexivity|]. pieces.
  - destruct wraps; vm_compute; intuition discriminate.
Qed.
Lemma near_target dec sl wraps o op w j : insn_lang dec sl wraps o op w -> In j (targets op) ->
  (j < 2 ^ 15)%Z \/ In xaa w \/ In xab w \/ In xc8 w \/ In xc9 w.
Proof.
  assert (H16 : forall n w, s2 n w -> (n < 2 ^ 15)%Z) by (intros n w' (_ & H & _); exact (proj2 H)).
  assert (Hb : forall n L w b, (u1 n +++ L) w -> Byte.to_N b = n -> In b w).
  { intros n L w' b (u & v & -> & [Hl Hu] & _) Hn. destruct u as [|y [|]]; try discriminate Hl. cbn in Hu. left.
    apply (f_equal Byte.of_N) in Hn. rewrite Byte.of_to_N in Hn. assert (Hy : Byte.of_N (Byte.to_N y) = Byte.of_N n) by (rewrite <- Hu; f_equal; lia).
    rewrite Byte.of_to_N in Hy. congruence. }
  intros H Hj. destruct op; cbn [targets In] in Hj; try contradiction; cbn [insn_lang] in H.
  all: try (destruct Hj as [<-|[]]; try (destruct H as [H|H]); first [left; destruct H as (u & v & -> & _ & H); exact (H16 _ _ H)|right; right; right; left; eapply Hb; [exact H|reflexivity]|right; right; right; right; eapply Hb; [exact H|reflexivity]]).
  - right; right; left. eapply Hb; [exact H|reflexivity].
  - right; left. eapply Hb; [exact H|reflexivity].
Qed.
Lemma insns_part dec sl wraps ops : forall o w o' op, insns_lang dec sl wraps o ops w -> In (o', op) ops ->
  o' < o + N.of_nat (length w) /\ exists pre u post, w = pre ++ u ++ post /\ insn_lang dec sl wraps o' op u.
Proof.
  induction ops as [|[off op'] ops IH]; intros o w o' op Hw Hin; [destruct Hin|]. destruct Hw as (-> & u & v & -> & Hu & Hv). rewrite app_length. destruct Hin as [[= -> ->]|Hin].
  - split; [|exists [], u, v; auto]. assert (length u <> 0%nat); [|lia]. intro H0. destruct u; [|discriminate]. clear - Hu. destruct op; cbn in Hu; repeat (destruct Hu as [Hu|Hu]); 
    try (destruct Hu as (a & b & Hab & [Ha _] & _); symmetry in Hab; apply app_eq_nil in Hab; destruct Hab as [-> _]; discriminate Ha).
    all: try (destruct Hu as [Hu _]; discriminate Hu).
  - destruct (IH _ _ _ _ Hv Hin) as [Hlt (pre & x & post & -> & Hx)]. split; [lia|]. exists (u ++ pre), x, post. rewrite <- app_assoc. auto.
Qed.
Example C02_debug_meets : ample debug64 near_jump /\ blen near_jump + 2 ^ 34 <= usize_max debug64 / 2 /\ 2 ^ 34 <= alloc_limit debug64
  /\ (true = true -> forall cs code, pool_in (wrapping debug64) near_jump cs -> code_in near_jump code ->
    (forall o j, jump_in (cesu8 debug64) cs (wrapping debug64) code o j -> (Z.of_N o + j < 2 ^ 31)%Z) /\
    (forall low high, tableswitch_in (cesu8 debug64) cs (wrapping debug64) code low high -> (high - low + 1 < 2 ^ 31)%Z))
  /\ (forall minor major cs ws rest, ~ starts_with_pool near_jump minor major 65535 cs ws rest)
  /\ (forall cs c, pool_in (wrapping debug64) near_jump cs -> In c cs -> ~ undecodable (cesu8 debug64) cs c)
  /\ (forall cs i, pool_in (wrapping debug64) near_jump cs -> ~ endless cs i).
Proof.
  split; [apply ampleb_ample; vm_compute; reflexivity|]. split; [vm_compute; discriminate|]. split; [vm_compute; discriminate|].
  assert (Hno : forall b, In b [xaa; xab; xc8; xc9] -> ~ In b near_jump).
  { intros b Hb Hin. assert (Hx : existsb (fun b => existsb (Byte.eqb b) near_jump) [xaa; xab; xc8; xc9] = true).
    { apply existsb_exists. exists b. split; auto. apply existsb_exists. exists b. split; auto. destruct b; reflexivity. }
    revert Hx. vm_compute. discriminate. }
  split; [|split; [|split]].
  - intros _ cs code _ (pre & lw & post & Hb & _). assert (Hsub : forall b, In b code -> In b near_jump) by (intros b H; rewrite Hb, !in_app_iff; auto).
    assert (Hlen : N.of_nat (length code) <= N.of_nat (length near_jump)) by (rewrite Hb, !app_length; lia).
    assert (H78 : N.of_nat (length near_jump) = 78) by (vm_compute; reflexivity). rewrite H78 in Hlen. split.
    + intros o j (ops & op & Hops & Hin & Hj). destruct (insns_part _ _ _ _ _ _ _ _ Hops Hin) as [Hlt (x & u & y & -> & Hu)].
      destruct (near_target _ _ _ _ _ _ _ Hu Hj) as [H|H]; [lia|]. exfalso.
      assert (Hu' : forall b, In b u -> In b near_jump) by (intros b Hb'; apply Hsub; rewrite !in_app_iff; auto).
      destruct H as [H|[H|[H|H]]]; apply Hu' in H; revert H; apply Hno; cbn; tauto.
    + intros low high (ops & w & gap & dw & lo & hi & rest & -> & _). exfalso. apply (Hno xaa); [cbn; tauto|]. apply Hsub. rewrite !in_app_iff. right. left. left. reflexivity.
  - intros minor major cs ws rest (m & v & n & [Hm _] & (v1 & v2 & -> & [Hv1 _] & [Hv2 _]) & [Hn Hv] & Hbs & _).
    destruct m as [|? [|? [|? [|? [|]]]]]; try discriminate Hm. destruct v1 as [|? [|? [|]]]; try discriminate Hv1.
    destruct v2 as [|? [|? [|]]]; try discriminate Hv2. destruct n as [|n1 [|n2 [|]]]; try discriminate Hn.
    apply (f_equal (fun l => firstn 2 (skipn 8 l))) in Hbs. assert (H6 : firstn 2 (skipn 8 near_jump) = [x00; x06]) by (vm_compute; reflexivity).
    rewrite H6 in Hbs. cbn [skipn firstn app] in Hbs. injection Hbs as <- <-. discriminate Hv.
  - intros cs c Hp Hin. rewrite (pool_in_unique _ _ _ _ Hp (near_pool _)) in *. intros (n & d & r & -> & _). unfold near_constants in Hin. cbn [In] in Hin. intuition discriminate.
  - intros cs i Hp He. rewrite (pool_in_unique _ _ _ _ Hp (near_pool _)) in *. destruct (He 1%nat) as (n & d & Hat & _).
    unfold at_index in Hat. apply nth_error_In in Hat. unfold near_constants, slots_of in Hat. cbn [flat_map is_wide app In] in Hat. intuition discriminate.
Qed.
(** The file is accepted. *)
Example C02_debug_result : exists c, parse_class_with_options debug64 true near_jump = Ok c.
Proof. eexists. vm_compute. reflexivity. Qed.

(** The claim without these conditions is false. First: a NameAndType with an undecodable descriptor, named by an
    EnclosingMethod attribute; in debug and release builds. *)
Theorem C02_text_refuted : exists bs, ample debug64 bs /\ parse_class debug64 bs = Panic PNotUtf8 /\ parse_class release64 bs = Panic PNotUtf8.
Proof.
  exists bad_enclosing. split; [apply ampleb_ample; vm_compute; reflexivity|]. split; vm_compute; reflexivity.
Qed.
(** Second: arithmetic in bytecode, in debug builds: the target of a goto_w, the size of a tableswitch. *)
Definition far_jump : list byte := unhex
  "cafebabe000000340006010001410700010100016d010003282956010004436f64650021000200000000000000010009000300040001000500000012000000000000000600c87fffffff000000000000".
Theorem C02_jump_refuted : exists bs, ample debug64 bs /\ parse_class debug64 bs = Panic POverflow.
Proof. exists far_jump. split; [apply ampleb_ample|]; vm_compute; reflexivity. Qed.
Theorem C02_tableswitch_refuted : exists bs, ample debug64 bs /\ parse_class debug64 bs = Panic POverflow.
Proof. exists huge_switch. split; [apply ampleb_ample|]; vm_compute; reflexivity. Qed.

(** Third: the index of the constant pool is a u16. Whatever follows, a Long or Double at index 65534 of a pool with
    count 65535 panics in a debug build. *)
Lemma loop_panics E bs major fuel : fits E bs -> overflow_checks E = true -> forall i pre w post cs c,
  bs = pre ++ w ++ post -> many (constant_lang major) (cs ++ [c]) w -> is_wide c = true ->
  i + fold_right (fun c n => width c + n) 0 cs = 65534 -> (length w < fuel)%nat ->
  pool_loop E fuel major 65535 i bs (blen pre) = Panic POverflow.
Proof.
  intros Hfit Ho. induction fuel as [|fuel IH]; intros i pre w post cs c Hbs Hm Hw Hsum Hf; [lia|].
  assert (Hhead : forall c1 (w1 w2 : list byte), constant_lang major c1 w1 -> w = w1 ++ w2 ->
     entry_reader E major bs (blen pre) = Ok ((tag_of c1, raw_of (cesu8 E) c1), blen pre + blen w1)).
  { intros c1 w1 w2 Hc1 ->. apply (reads_entry E major); auto; [rewrite Hbs, !blen_app; lia|]. exists pre, w1, (w2 ++ post).
    rewrite <- app_assoc in Hbs. split; auto. split; auto. split; auto. exists c1. auto. }
  assert (Hi : i < 65535) by lia. rewrite pool_loop_entries by lia. unfold bind at 1.
  destruct cs as [|c1 cs]; cbn [app many fold_right] in *.
  - destruct Hm as (w1 & w2 & -> & Hw1 & ->). rewrite (Hhead c w1 [] Hw1 eq_refl). cbn [fst snd]. rewrite tag_wide, Hw.
    replace (i + 2) with 65536 by lia. unfold u16_result. cbn. rewrite Ho. reflexivity.
  - destruct Hm as (w1 & w2 & -> & Hw1 & Hm). rewrite (Hhead c1 w1 w2 Hw1 eq_refl). cbn [fst snd]. rewrite tag_wide.
    assert (Hlen : (length w2 < fuel)%nat). { apply (constant_nonempty E) in Hw1. unfold blen in Hw1. rewrite app_length in Hf. lia. }
    rewrite <- app_assoc in Hbs. rewrite app_assoc in Hbs.
    pose proof (IH (i + width c1) (pre ++ w1) w2 post cs c Hbs Hm Hw ltac:(lia) Hlen) as Hnext. rewrite blen_app in Hnext.
    unfold width in Hnext, Hsum. destruct (is_wide c1).
    + rewrite u16_small by lia. unfold bind, lift. rewrite Hnext. reflexivity.
    + unfold bind. rewrite Hnext. reflexivity.
Qed.
Theorem C02_count_panics E opts bs minor major cs c ws rest : sane E bs -> overflow_checks E = true ->
  starts_with_pool bs minor major 65535 (cs ++ [c]) ws rest -> index_of (cs ++ [c]) (length cs) = 65534 -> is_wide c = true ->
  parse_class_with_options E opts bs = Panic POverflow.
Proof.
  intros Hs Ho (m & v & n & Hm & (v1 & v2 & -> & Hv1 & Hv2) & Hn & Hbs & Hws) Hidx Hw. pose proof (sane_fits _ _ Hs) as Hfit.
  assert (Hr4 : forall pre x z post, u4 x z -> bs = pre ++ z ++ post -> read_u4 bs (blen pre) = Ok (x, blen pre + blen z)).
  { intros pre x z post Hx Hb. apply (reads_u4 E); auto; [rewrite Hb, !blen_app; lia|]. exists pre, z, post. auto. }
  assert (Hr2 : forall pre x z post, u2 x z -> bs = pre ++ z ++ post -> read_u2 bs (blen pre) = Ok (x, blen pre + blen z)).
  { intros pre x z post Hx Hb. apply (reads_u2 E); auto; [rewrite Hb, !blen_app; lia|]. exists pre, z, post. auto. }
  unfold parse_class_with_options, class_parser. unfold bind at 1. pose proof (Hr4 [] _ _ _ Hm Hbs) as H1. change (blen []) with 0 in H1. rewrite H1.
  unfold bind at 1, guard at 1. rewrite N.eqb_refl. unfold ret at 1. unfold bind at 1.
  rewrite <- !app_assoc in Hbs. pose proof (Hr2 m _ _ _ Hv1 Hbs) as H2. change (0 + blen m) with (blen m). rewrite H2.
  unfold bind at 1. pose proof (Hr2 (m ++ v1) _ _ _ Hv2 ltac:(rewrite <- app_assoc; exact Hbs)) as H3. rewrite !blen_app in H3. rewrite H3.
  unfold bind at 1, read_constant_pool, bind at 1. pose proof (Hr2 (m ++ v1 ++ v2) _ _ _ Hn ltac:(rewrite <- !app_assoc; exact Hbs)) as H4.
  rewrite !blen_app, N.add_assoc in H4. rewrite H4. unfold bind at 1, get_bytes at 1. unfold bind at 1.
  rewrite <- !N.add_assoc, <- !blen_app.
  rewrite (loop_panics E bs major (S (length bs)) Hfit Ho 1 (m ++ v1 ++ v2 ++ n) (concat ws) rest cs c); auto.
  - rewrite Hbs, <- !app_assoc. reflexivity.
  - apply many_concat. eauto.
  - unfold index_of in Hidx. rewrite firstn_app, firstn_all, Nat.sub_diag in Hidx. cbn [firstn] in Hidx. rewrite app_nil_r in Hidx. exact Hidx.
  - rewrite Hbs, !app_length. lia.
Qed.

(** Such files exist: 65533 empty Utf8 constants and a Long. *)
Theorem C02_count_refuted : exists bs, sane debug64 bs /\ parse_class debug64 bs = Panic POverflow /\ exists rest,
  starts_with_pool bs 0 52 65535 (repeat (CUtf8 []) (N.to_nat 65533) ++ [CLong 0]) (repeat [x01; x00; x00] (N.to_nat 65533) ++ [[x05; x00; x00; x00; x00; x00; x00; x00; x00]]) rest.
Proof.
  set (ws := repeat [x01; x00; x00] (N.to_nat 65533) ++ [[x05; x00; x00; x00; x00; x00; x00; x00; x00]]).
  set (cs := repeat (CUtf8 []) (N.to_nat 65533)). set (bs := [xca; xfe; xba; xbe] ++ [x00; x00; x00; x34] ++ [xff; xff] ++ concat ws ++ []).
  assert (Hws : Forall2 (constant_lang 52) (cs ++ [CLong 0]) ws).
  { apply Forall2_app.
    - unfold cs. generalize (N.to_nat 65533). intro k. induction k as [|k IH]; cbn [repeat]; constructor; auto.
      split; [lia|]. exists [x01], [x00; x00]. split; auto. split; [split; reflexivity|]. exists [x00; x00], []. split; auto. split; split; reflexivity.
    - constructor; [|constructor]. split; [lia|]. exists [x05], [x00; x00; x00; x00; x00; x00; x00; x00]. split; auto. split; [split; reflexivity|]. apply (u8_s8 0). split; reflexivity. }
  assert (Hst : starts_with_pool bs 0 52 65535 (cs ++ [CLong 0]) ws []).
  { exists [xca; xfe; xba; xbe], [x00; x00; x00; x34], [xff; xff]. split; [split; reflexivity|].
    split; [exists [x00; x00], [x00; x34]; split; auto; split; split; reflexivity|]. split; [split; reflexivity|]. split; [reflexivity|exact Hws]. }
  assert (Hs : sane debug64 bs).
  { constructor; [apply N.leb_le|apply N.leb_le|apply N.leb_le|apply Nat.leb_le]; vm_compute; reflexivity. }
  exists bs. split; [exact Hs|]. split; [|exists []; exact Hst].
  eapply (C02_count_panics debug64 true); [exact Hs|reflexivity|exact Hst| |reflexivity]. vm_compute. reflexivity.
Qed.

(** ** C03 *)
(** Every loop of the model has as fuel the length of what it works on, plus one, and [Diverge] is the outcome of
    running out of it. *)
Theorem C03_parse_terminates E opts bs : sane E bs -> parse_class_with_options E opts bs <> Diverge.
Proof. intros Hs H. pose proof (panic_cause E opts bs Hs) as Hc. rewrite H in Hc. exact Hc. Qed.
Theorem C03_iteration_terminates c n : constantpool_iter_run c n <> Diverge.
Proof.
  unfold constantpool_iter_run. generalize 0, (constant_pool c). clear c. intros i p.
  assert (Hitem : forall e, item_of p e <> Diverge).
  { assert (Hp : forall r, peel p r <> Diverge) by (intros []; cbn [peel]; [discriminate|]; destruct (nth_error _ _); discriminate).
    assert (Hu : forall r, peel_utf8 p r <> Diverge) by (intro r; unfold peel_utf8; specialize (Hp r); destruct (peel p r) as [[]| | |]; cbn; congruence).
    assert (Hb : forall A B (m : outcome A) (f : A -> outcome B), m <> Diverge -> (forall a, f a <> Diverge) -> obind m f <> Diverge) by (intros A B [] f H1 H2; cbn; congruence || auto).
    assert (Hn : forall e, get_name_and_type p e <> Diverge) by (intros []; cbn [get_name_and_type]; try discriminate; repeat (apply Hb; [auto|intro]); discriminate).
    assert (Hc : forall e, classinfo p e <> Diverge) by (intros []; cbn [classinfo]; try discriminate; apply (Hu x)).
    assert (Hm : forall c m, make_member_ref p c m <> Diverge) by (intros c m; unfold make_member_ref; repeat (apply Hb; [auto|intro]); discriminate).
    assert (Hs : forall e, string_literal e <> Diverge) by (intros []; discriminate).
    assert (Hh : forall k x, unwrap (make_method_handle p k x) <> Diverge).
    { intros k x. assert (Hh : make_method_handle p k x <> Diverge).
      { unfold make_method_handle. cbv zeta. apply Hb; auto. intros []; try discriminate; repeat (apply Hb; [auto|intro]); discriminate. }
      destruct (make_method_handle p k x); cbn; congruence. }
    intro e. destruct e; cbn [item_of]; try discriminate; repeat (apply Hb; [auto|intro]); discriminate. }
  assert (Hnext : forall j, iter_next p j <> Diverge).
  { intro j. unfold iter_next. assert (H : forall fuel k, plen p <= k + 1 + N.of_nat fuel -> iter_next_loop p (S fuel) k <> Diverge).
    { induction fuel as [|fuel IH]; intros k Hk; cbn [iter_next_loop].
      - replace (k + 1 <? plen p) with false by lia. discriminate.
      - destruct (k + 1 <? plen p); [|discriminate]. destruct (nth_error _ _) as [e|]; [|discriminate].
        specialize (Hitem e). destruct (item_of p e) as [[]| | |]; cbn [obind]; try congruence. apply IH. lia. }
    apply H. unfold plen. lia. }
  revert i. induction n as [|n IH]; intro i; cbn [iter_run_from]; [discriminate|]. specialize (Hnext i).
  destruct (iter_next p i) as [[r j]| | |]; cbn; try congruence. specialize (IH j). destruct (iter_run_from p n j); cbn; congruence.
Qed.
(** Looking up an offset terminates on any [ByteCode] value, sorted or not. *)
Theorem C03_lookup_terminates bc offset : get_opcode_index bc offset <> Diverge.
Proof.
  unfold get_opcode_index.
  assert (H : forall fuel min max, (N.to_nat (max - min) < fuel)%nat -> search_loop fuel (opcodes bc) offset min max <> Diverge).
  { induction fuel as [|fuel IH]; intros min max Hf; cbn [search_loop]; [lia|].
    destruct (N.ltb_spec min max) as [Hlt|]; [|discriminate]. cbv zeta. destruct (nth_error _ _) as [[o op]|]; [|discriminate].
    destruct (o =? offset); [discriminate|]. pose proof (N.div_mod (min + max) 2 ltac:(lia)). pose proof (N.mod_lt (min + max) 2 ltac:(lia)).
    destruct (offset <? o); [apply IH; lia|]. destruct (N.eqb_spec min ((min + max) / 2)); [discriminate|]. apply IH. lia. }
  apply H. lia.
Qed.
(** The functions on names and descriptors terminate, and do not panic either. *)
Theorem C03_names_terminate s : (exists r, class_name_try_from s = Ok r) \/ exists e, class_name_try_from s = Err e.
Proof. pose proof (class_name_try_from_spec s) as H. destruct (class_name_try_from s); cbn in H; eauto; contradiction. Qed.
Theorem C03_descriptors_terminate s :
  ((exists r, parse_field_descriptor s 0 = Ok r) \/ exists e, parse_field_descriptor s 0 = Err e)
  /\ ((exists r, parse_method_descriptor s 0 = Ok r) \/ exists e, parse_method_descriptor s 0 = Err e).
Proof.
  split.
  - pose proof (parse_field_descriptor_0 s) as H. destruct (parse_field_descriptor s 0); cbn in H; eauto; contradiction.
  - pose proof (parse_method_descriptor_spec s) as H. destruct (parse_method_descriptor s 0); cbn in H; eauto; contradiction.
Qed.

Example C03_meets : sane debug64 sample /\ parse_class_with_options debug64 true sample = Ok sample_parsed.
Proof. split; [exact sample_sane|exact sample_parse]. Qed.

(** ** C04 *)
(** Validation of the constant pool overflows a stack as deep as the input is long only if NameAndTypes form a cycle
    that a Methodref, InterfaceMethodref or InvokeDynamic leads to. *)
Theorem C04_only_cycles_partial E opts bs : ample E bs -> parse_class_with_options E opts bs = Panic PStackOverflow ->
  exists cs c i, pool_in (wrapping E) bs cs /\ In c cs /\ method_constant c i /\ endless cs i.
Proof.
  intros [Hs Hst] H. apply C02_panics_only_if_partial in H; auto. inversion H; subst; [|lia]. eauto 8.
Qed.
(** [nt_cycle], below, is an example: *)
Example C04_only_cycles_meets : let nt_cycle := unhex "cafebabe000000340006010001410700010a000200040c000100050c000100040021000200000000000000000000" in
  ample debug64 nt_cycle /\ parse_class_with_options debug64 true nt_cycle = Panic PStackOverflow.
Proof. split; [apply ampleb_ample; vm_compute; reflexivity|vm_compute; reflexivity]. Qed.
(** Such a cycle overflows every stack. *)
Definition nt_cycle : list byte := unhex "cafebabe000000340006010001410700010a000200040c000100050c000100040021000200000000000000000000".
Definition nt_cycle_constants : list constant := [CUtf8 [x41]; CClass 1; CMethodref 2 4; CNameAndType 1 5; CNameAndType 1 4].
Lemma nt_cycle_starts : starts_with_pool nt_cycle 0 52 6 nt_cycle_constants
  [[x01; x00; x01; x41]; [x07; x00; x01]; [x0a; x00; x02; x00; x04]; [x0c; x00; x01; x00; x05]; [x0c; x00; x01; x00; x04]] (skipn 32 nt_cycle).
Proof.
  exists [xca; xfe; xba; xbe], [x00; x00; x00; x34], [x00; x06]. split; [split; reflexivity|].
  split; [exists [x00; x00], [x00; x34]; split; auto; split; split; reflexivity|]. split; [split; reflexivity|]. split; [vm_compute; reflexivity|].
  repeat constructor; try (cbv; discriminate).
  - exists [x01], [x00; x01; x41]. split; auto. split; [split; reflexivity|]. exists [x00; x01], [x41]. split; auto. split; split; reflexivity.
  - exists [x07], [x00; x01]. split; auto. split; split; reflexivity.
  - exists [x0a], [x00; x02; x00; x04]. split; auto. split; [split; reflexivity|]. exists [x00; x02], [x00; x04]. split; auto. split; split; reflexivity.
  - exists [x0c], [x00; x01; x00; x05]. split; auto. split; [split; reflexivity|]. exists [x00; x01], [x00; x05]. split; auto. split; split; reflexivity.
  - exists [x0c], [x00; x01; x00; x04]. split; auto. split; [split; reflexivity|]. exists [x00; x01], [x00; x04]. split; auto. split; split; reflexivity.
Qed.
(** On any machine, with any stack. *)
Theorem C04_cycle_refuted E opts : sane E nt_cycle -> cesu8 E [x41] = Some [ch "A"] ->
  parse_class_with_options E opts nt_cycle = Panic PStackOverflow.
Proof.
  intros Hs HA. pose proof (sane_fits _ _ Hs) as Hfit.
  unfold parse_class_with_options, class_parser. unfold bind at 1. replace (read_u4 nt_cycle 0) with (Ok (0xCAFEBABE, 4)) by (vm_compute; reflexivity).
  unfold bind at 1, guard at 1. rewrite N.eqb_refl. unfold ret at 1. unfold bind at 1.
  replace (read_u2 nt_cycle 4) with (Ok (0, 6)) by (vm_compute; reflexivity). unfold bind at 1.
  replace (read_u2 nt_cycle 6) with (Ok (52, 8)) by (vm_compute; reflexivity). unfold bind at 1, read_constant_pool, bind at 1.
  replace (read_u2 nt_cycle 8) with (Ok (6, 10)) by (vm_compute; reflexivity). unfold bind at 1, get_bytes at 1. unfold bind at 1.
  set (cs := nt_cycle_constants). set (P := pool_of (cesu8 E) (slots_of cs)).
  destruct nt_cycle_starts as (m & v & n & Hm & Hv & Hn & Hbs & Hws).
  assert (Hl : pool_loop E (S (length nt_cycle)) 52 6 1 nt_cycle 10 = Ok (flat_map (expand E) cs, 32)).
  { apply pool_loop_spec; [reflexivity|exact Hfit|apply N.leb_le; reflexivity|apply N.ltb_lt; reflexivity|].
    eexists (firstn 10 nt_cycle), _, (skipn 32 nt_cycle). split; [|split; [reflexivity|split; [|exists cs; split; [reflexivity|split; [apply many_concat; eexists; split; [exact Hws|reflexivity]|]]]]].
    - vm_compute; reflexivity.
    - vm_compute; reflexivity.
    - cbn. lia. }
  rewrite Hl. unfold bind at 1, lift at 1.
  assert (Hr : resolve_constant_pool (EZero :: flat_map (expand E) cs) = Ok P).
  { cbn [flat_map cs nt_cycle_constants app expand is_wide raw_of]. rewrite HA. unfold P, cs, nt_cycle_constants, pool_of, slots_of. cbn [flat_map is_wide app map entry_of]. rewrite HA. vm_compute. reflexivity. }
  rewrite Hr. unfold bind at 1, lift at 1.
  assert (HP : P = [EZero; EUtf8 [ch "A"]; EClassInfo (Resolved 1); EMethodRef (Resolved 2) (Resolved 4); ENameAndType (Resolved 1) (Resolved 5); ENameAndType (Resolved 1) (Resolved 4)]).
  { unfold P, cs, nt_cycle_constants, pool_of, slots_of. cbn [flat_map is_wide app map entry_of]. rewrite HA. reflexivity. }
  assert (Hrec : forall k, validate_method_descriptor k P (ENameAndType (Resolved 1) (Resolved 5)) = Panic PStackOverflow
     /\ validate_method_descriptor k P (ENameAndType (Resolved 1) (Resolved 4)) = Panic PStackOverflow).
  { induction k as [|k [IH1 IH2]]; [split; reflexivity|]. split; cbn [validate_method_descriptor].
    - replace (peel P (Resolved 5)) with (Ok (ENameAndType (Resolved 1) (Resolved 4))) by (rewrite HP; reflexivity). exact IH2.
    - replace (peel P (Resolved 4)) with (Ok (ENameAndType (Resolved 1) (Resolved 5))) by (rewrite HP; reflexivity). exact IH1. }
  assert (Hv' : validate_constant_pool E P 52 = Panic PStackOverflow).
  { unfold validate_constant_pool. rewrite HP at 2. cbn [validate_from]. cbn [validate_entry ctx obind].
    replace (ensure_ref_type P (Resolved 1) T_UTF8) with (Ok tt) by (rewrite HP; reflexivity). cbn [obind].
    replace (peel P (Resolved 1)) with (Ok (EUtf8 [ch "A"])) by (rewrite HP; reflexivity). cbn [obind].
    replace (validate_classinfo_name (EUtf8 [ch "A"])) with (Ok tt) by reflexivity. cbn [ctx obind].
    replace (ensure_ref_type P (Resolved 2) T_CLASS_INFO) with (Ok tt) by (rewrite HP; reflexivity). cbn [obind].
    replace (ensure_ref_type P (Resolved 4) T_NAME_AND_TYPE) with (Ok tt) by (rewrite HP; reflexivity). cbn [obind].
    replace (peel P (Resolved 4)) with (Ok (ENameAndType (Resolved 1) (Resolved 5))) by (rewrite HP; reflexivity). cbn [obind].
    rewrite (proj1 (Hrec (stack E))). reflexivity. }
  rewrite Hv'. reflexivity.
Qed.
Example C04_cycle_meets : sane debug64 nt_cycle /\ cesu8 debug64 [x41] = Some [ch "A"].
Proof. split; [apply ample_sane, ampleb_ample|]; vm_compute; reflexivity. Qed.

(** ** C39 *)
(** Only the table of a switch instruction can make an allocation fail: memory is requested up front for as many rows as
    the instruction claims, up to 16 GiB. *)
Theorem C39_only_switches_partial E opts bs : sane E bs ->
  parse_class_with_options E opts bs = Panic PAlloc \/ parse_class_with_options E opts bs = Panic PCapacity ->
  opts = true /\ exists cs code n, pool_in (wrapping E) bs cs /\ code_in bs code /\ reserves (cesu8 E) cs (wrapping E) code n
    /\ (n <= 2 ^ 34 /\ (Z.of_N (alloc_limit E) < n \/ Z.of_N (usize_max E / 2) < n))%Z.
Proof.
  intros Hs [H|H]; apply C02_panics_only_if_partial in H; auto; inversion H; subst; (split; [reflexivity|]); exists cs, code, n;
  match goal with H : reserves _ _ _ _ _ |- _ => pose proof (reserves_small _ _ _ _ _ H) end; repeat (split; [assumption|]); lia.
Qed.
(** The claim of a bound linear in the input is false: 86 bytes make the parser request 16 GiB. *)
Definition many_pairs : list byte := unhex
  "cafebabe000000340006010001410700010100016d010003282956010004436f64650021000200000000000000010009000300040001000500000018000000000000000cab000000000000007fffffff000000000000".
(** A release build on a 64-bit machine that grants at most [limit] bytes to one allocation. *)
Definition limited (limit : N) : env :=
  {| overflow_checks := false; usize_max := 2 ^ 64 - 1; alloc_limit := limit; stack := N.to_nat 20000; cesu8 := from_java_cesu8; cesu8_err := [] |}.
Theorem C39_linear_refuted limit : 86 <= limit -> limit < 2 ^ 34 - 8 ->
  let E := limited limit in
  ample E many_pairs /\ blen many_pairs = 86 /\ parse_class E many_pairs = Panic PAlloc.
Proof.
  intros H1 H2 E. split; [constructor; [constructor|]|split].
  - apply N.leb_le; vm_compute; reflexivity.
  - apply N.leb_le; vm_compute; reflexivity.
  - change (blen many_pairs) with 86. exact H1.
  - apply Nat.leb_le; vm_compute; reflexivity.
  - apply Nat.leb_le; vm_compute; reflexivity.
  - reflexivity.
  - assert (HX : parse_class (limited 17179869175) many_pairs = Panic PAlloc) by (vm_compute; reflexivity).
    assert (HB : better E (limited 17179869175)) by (constructor; cbn; auto; lia).
    destruct (apx_parse _ _ HB default_options many_pairs) as [Heq|(x & Hx & Hl)].
    + exact (eq_trans Heq HX).
    + inversion Hl; subst; cbn in *; try discriminate; try lia. exact Hx.
Qed.

Example C39_only_switches_meets : sane (limited (2 ^ 33)) many_pairs /\ parse_class_with_options (limited (2 ^ 33)) true many_pairs = Panic PAlloc.
Proof. destruct (C39_linear_refuted (2 ^ 33)) as (H1 & _ & H2); [lia|lia|]. split; [apply ample_sane, H1|exact H2]. Qed.

(** ** C40 *)
(** The width of a machine word does not change which files are accepted, nor the class they denote. *)
Theorem C40_same_classes E1 E2 opts bs c : ample E1 bs -> ample E2 bs -> cesu8 E1 = cesu8 E2 ->
  overflow_checks E1 = overflow_checks E2 ->
  (parse_class_with_options E1 opts bs = Ok c <-> parse_class_with_options E2 opts bs = Ok c).
Proof.
  intros H1 H2 Hc Ho. rewrite (parse_format E1 opts bs c H1), (parse_format E2 opts bs c H2). unfold wrapping.
  rewrite Hc, Ho. reflexivity.
Qed.

Definition debug32 : env := machine true (2 ^ 32 - 1) 20000.
Definition release32 : env := machine false (2 ^ 32 - 1) 20000.
Example C40_same_classes_meets : ample debug32 smallest /\ ample debug64 smallest /\ cesu8 debug32 = cesu8 debug64 /\
  overflow_checks debug32 = overflow_checks debug64 /\ exists c, parse_class debug32 smallest = Ok c.
Proof.
  repeat split; try reflexivity; try (apply ampleb_ample; vm_compute; reflexivity); try (apply (ampleb_ample _ smallest); vm_compute; reflexivity).
  apply accepted_Ok. vm_compute. reflexivity.
Qed.
(** With words of 64 bits (enough for the input and any 32-bit length) no index computation wraps or goes out of range; an arithmetic overflow can
    only come from the pool counter or a jump. *)
Theorem C40_wide_words_partial E opts bs : sane E bs -> blen bs + 2 ^ 32 <= usize_max E ->
  parse_class_with_options E opts bs <> Panic PSlice /\
  (overflow_checks E = false -> parse_class_with_options E opts bs <> Panic POverflow) /\
  (opts = false -> parse_class_with_options E opts bs = Panic POverflow ->
    exists minor major cs c ws rest, starts_with_pool bs minor major 65535 (cs ++ [c]) ws rest /\
      index_of (cs ++ [c]) (length cs) = 65534 /\ is_wide c = true).
Proof.
  intros Hs Hu. repeat split.
  - intro H. apply C02_panics_only_if_partial in H; auto. inversion H; subst; lia.
  - intros Ho H. apply C02_panics_only_if_partial in H; auto. inversion H; subst; congruence.
  - intros -> H. apply C02_panics_only_if_partial in H; auto. inversion H; subst; try discriminate; [|lia].
    do 6 eexists. eauto.
Qed.
Example C40_wide_words_meets : sane release64 far_jump /\ blen far_jump + 2 ^ 32 <= usize_max release64 /\ overflow_checks release64 = false.
Proof. split; [apply ample_sane, ampleb_ample; vm_compute; reflexivity|]. split; [vm_compute; discriminate|reflexivity]. Qed.
(** With words of 32 bits, an attribute length near 2^32 makes the computation [*ix + length] overflow: a build with
    checks panics there, a build without them slices the input with a start after its end. *)
Definition long_attribute : list byte := unhex
  "cafebabe000000340004010001410700010100015800210002000000000000000000010003ffffffff00".
Theorem C40_narrow_words_refuted :
  ample debug32 long_attribute /\ parse_class debug32 long_attribute = Panic POverflow /\
  ample release32 long_attribute /\ parse_class release32 long_attribute = Panic PSlice /\
  exists e, parse_class debug64 long_attribute = Err e.
Proof.
  split; [apply ampleb_ample; vm_compute; reflexivity|]. split; [vm_compute; reflexivity|].
  split; [apply ampleb_ample; vm_compute; reflexivity|]. split; [vm_compute; reflexivity|].
  destruct (parse_class debug64 long_attribute) as [c|e|x|] eqn:H; [|eauto|..]; exfalso; revert H; vm_compute; discriminate.
Qed.
(** The same overflow never leads to a wrong result: with either width, whatever is accepted is a file of the format, and denotes that class. *)
Theorem C40_never_a_wrong_class E1 E2 opts bs c : sane E1 bs -> ample E2 bs -> cesu8 E1 = cesu8 E2 -> overflow_checks E1 = overflow_checks E2 ->
  parse_class_with_options E1 opts bs = Ok c -> parse_class_with_options E2 opts bs = Ok c.
Proof.
  intros H1 H2 Hc Ho H. apply parse_sound in H; auto. apply (parse_format E2 opts bs c H2). unfold wrapping in *. rewrite <- Hc, <- Ho. exact H.
Qed.

(** ** C42 *)
(** Running on a better machine — more stack, more memory, no overflow checks — gives the same result, except that a panic
    for what the weaker machine lacks may be replaced by some other outcome. *)
Theorem C42_better_machine E1 E2 opts bs : better E1 E2 ->
  parse_class_with_options E1 opts bs = parse_class_with_options E2 opts bs \/
  exists x, parse_class_with_options E1 opts bs = Panic x /\ lack E1 E2 x.
Proof. intro H. exact (apx_parse E1 E2 H opts bs). Qed.
(** In particular an accepted class and a reported error do not depend on the stack size, the memory limit and the build mode. *)
Corollary C42_results_are_stable E1 E2 opts bs : better E1 E2 ->
  (forall c, parse_class_with_options E1 opts bs = Ok c -> parse_class_with_options E2 opts bs = Ok c) /\
  (forall e, parse_class_with_options E1 opts bs = Err e -> parse_class_with_options E2 opts bs = Err e).
Proof. intro H. split; intros a Ha; destruct (C42_better_machine E1 E2 opts bs H) as [He|(x & Hx & _)]; congruence. Qed.
Example C42_better_meets : better debug64 release64 /\ (exists c, parse_class debug64 smallest = Ok c) /\
  better (limited 86) (limited (2 ^ 34)) /\ parse_class (limited 86) many_pairs = Panic PAlloc /\
  exists e, parse_class (limited (2 ^ 34)) many_pairs = Err e.
Proof.
  split; [constructor; cbn; auto; try discriminate; lia|]. split; [apply accepted_Ok; vm_compute; reflexivity|].
  split; [constructor; cbn; auto; lia|]. split; [vm_compute; reflexivity|].
  destruct (parse_class (limited (2 ^ 34)) many_pairs) as [c|e|x|] eqn:H; [|eauto|..]; exfalso; revert H; vm_compute; discriminate.
Qed.
