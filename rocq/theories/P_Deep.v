(** * A stack as deep as the input is long is as good as any deeper one. *)
From Verif Require Import Base M_Names M_Descriptors M_ConstantPool M_Bytecode M_Attributes M_Class
  S_Lang S_Names S_Format S_Pool S_Items S_Env S_Safe S_Better P_Names P_Descriptors P_Reads P_Tac P_Pool P_Pool2 P_Pool3 P_Pool4 P_Refs
  P_Class3 P_Layout P_Safe P_Safe2 P_Safe3 P_Safe4 P_Safe5 P_Safe6 P_Better.
From Coq Require Import ZifyBool ZifyNat ZifyN.

Section Validate.
Variable dec : list byte -> option str.
Variable cs : list constant.
Notation sl := (slots_of cs).
Notation P := (pool_of dec sl).
Hypothesis Hrefs : forall i c, at_index sl i c -> good_refs i (plen P) c.

Lemma endless_overflows s : forall i c t e, at_index sl i c -> In t (refs_of c) -> entry_at dec cs t e -> endless cs t ->
  validate_method_descriptor s P e = Panic PStackOverflow.
Proof.
  induction s as [|s IH]; intros i c t e Hi Ht He Hend; cbn [validate_method_descriptor]; [reflexivity|].
  destruct (Hend 1%nat) as (n & d & Hnt & _).
  assert (e = ENameAndType (Resolved n) (Resolved d)) as ->.
  { pose proof (at_index_entry dec cs _ _ Hnt) as He'. unfold entry_at in *. rewrite He in He'. injection He' as ->. reflexivity. }
  destruct (peel_good dec cs Hrefs t _ d Hnt) as (e' & -> & He'); [right; left; reflexivity|]. cbn [obind].
  apply (IH t _ d e' Hnt); [right; left; reflexivity|exact He'|].
  intro m. destruct (Hend (S m)) as (n' & d' & Hnt' & Hm). unfold at_index in *. rewrite Hnt in Hnt'. injection Hnt' as <- <-. exact Hm.
Qed.
Lemma method_descriptor_deep s1 s2 i c t e : at_index sl i c -> In t (refs_of c) -> entry_at dec cs t e ->
  (length sl < s1)%nat -> validate_method_descriptor s1 P e = Panic PStackOverflow -> validate_method_descriptor s2 P e = Panic PStackOverflow.
Proof.
  intros Hi Ht He Hs H. pose proof (ends_method_descriptor dec cs Hrefs s1 i c t e Hi Ht He) as Hend. rewrite H in Hend. destruct Hend as [_ Hch].
  eapply endless_overflows; eauto. eapply chain_endless; eauto.
Qed.
Lemma validate_entry_deep s1 s2 major c i : (length sl < s1)%nat -> at_index sl i c ->
  validate_entry s1 P major (entry_of dec c) = Panic PStackOverflow -> validate_entry s2 P major (entry_of dec c) = Panic PStackOverflow.
Proof.
  intros Hs Hi. destruct c; cbn [entry_of validate_entry]; auto.
  all: try (destruct (dec _); cbn [validate_entry]; auto; fail).
  all: intro H; repeat match goal with
    | H : obind (peel P (Resolved ?t)) _ = _ |- _ =>
        let He := fresh "He" in let Hp := fresh "Hp" in let e := fresh "e" in
        destruct (peel_good dec cs Hrefs i _ t Hi) as (e & Hp & He); [cbn [refs_of]; auto with datatypes|];
        rewrite Hp in H |- *; cbn [obind] in H |- *
    | H : obind ?m _ = Panic _ |- _ => destruct m; cbn [obind] in H |- *; try discriminate; auto
    end; auto.
  all: eapply method_descriptor_deep; eauto; cbn [refs_of]; auto with datatypes.
Qed.
Lemma validate_deep s1 s2 major E1 E2 : (length sl < s1)%nat -> (1 <= s1)%nat -> better E1 E2 -> stack E1 = s1 -> stack E2 = s2 -> forall es i, (forall e, In e es -> In e P) ->
  validate_from s1 P major i es = Panic PStackOverflow -> validate_from s2 P major i es = Panic PStackOverflow.
Proof.
  intros Hs H1 HE <- <- es. induction es as [|e es IH]; intros i Hin H; cbn [validate_from] in H |- *; [discriminate|].
  assert (He : In e P) by (apply Hin; left; auto). apply In_nth_error in He. destruct He as (k & Hk).
  assert (Hat : entry_at dec cs (N.of_nat k) e) by (unfold entry_at; rewrite Nat2N.id; exact Hk).
  destruct (validate_entry (stack E1) P major e) as [[]| |x|] eqn:Hv; try discriminate H.
  - destruct (apx_validate_entry E1 E2 HE P major e) as [Heq|(x & Hx & _)]; [|congruence]. rewrite <- Heq, Hv. cbn [ctx obind] in H |- *.
    apply IH; auto. intros e' H'. apply Hin. right. exact H'.
  - cbn in H. injection H as ->. assert (validate_entry (stack E2) P major e = Panic PStackOverflow) as ->; [|reflexivity].
    apply entry_at_cases in Hat. destruct Hat as [[_ ->]|[[_ ->]|(c & Hc & ->)]]; try discriminate Hv.
    eapply validate_entry_deep; eauto.
Qed.
End Validate.

Section Deep.
Variables E1 E2 : env.
Hypothesis HE : better E1 E2.
Variable bs : list byte.
Hypothesis Hsane : sane E1 bs.
Hypothesis Hdeep : (length bs <= stack E1)%nat.

Lemma pool_deep major ix : 4 <= ix <= blen bs -> read_constant_pool E1 major bs ix = Panic PStackOverflow -> read_constant_pool E2 major bs ix = Panic PStackOverflow.
Proof.
  intros Hix. pose proof (sane_fits _ _ Hsane) as Hfit. pose proof (sane_stack _ _ Hsane) as Hst. unfold read_constant_pool, bind, lift, get_bytes.
  destruct (read_u2 bs ix) as [[count i4]| | |] eqn:H4; auto. apply (reads_u2 E1) in H4; auto; [|lia]. destruct H4 as (p4 & w4 & q4 & Hbs4 & Hp4 & -> & Hw4).
  assert (Hc : count < 65536) by (apply uint_bound in Hw4; exact Hw4).
  assert (Hi4 : ix + blen w4 <= blen bs) by (rewrite Hbs4, Hp4, !blen_app; lia).
  intro H.
  pose proof (ends_pool_loop E1 bs major count (S (length bs)) Hfit Hc 1 (ix + blen w4) Hi4 ltac:(unfold blen; lia)) as Hloop.
  destruct (apx_pool_loop E1 E2 HE (S (length bs)) major count 1 bs (ix + blen w4)) as [<-|(x & Hx & _)].
  2:{ rewrite Hx in H, Hloop. cbn in Hloop. destruct Hloop as (-> & _). discriminate. }
  destruct (pool_loop E1 (S (length bs)) major count 1 bs (ix + blen w4)) as [[es i5]| | x |] eqn:H5; auto.
  apply pool_loop_spec in H5; auto; [|unfold blen; lia]. destruct H5 as (p5 & w5 & q5 & Hb5 & Hl5 & -> & cs & -> & Hmany & Hfills).
  destruct (resolve_constant_pool _) as [P| | |] eqn:H6; auto.
  apply (resolve_pool_Ok E1 Hst) in H6. destruct H6 as [-> Hrefs].
  assert (Hv : validate_constant_pool E1 (pool_of (cesu8 E1) (slots_of cs)) major = Panic PStackOverflow).
  { destruct (validate_constant_pool E1 (pool_of (cesu8 E1) (slots_of cs)) major); try discriminate; congruence. }
  assert (Hv2 : validate_constant_pool E2 (pool_of (cesu8 E1) (slots_of cs)) major = Panic PStackOverflow).
  { unfold validate_constant_pool in *. eapply validate_deep with (s1 := stack E1) (E1 := E1); eauto; [|lia].
    pose proof (many_blen _ _ _ Hmany) as Hml. rewrite Hb5, !app_length in Hdeep. unfold blen in *. lia. }
  rewrite Hv2. reflexivity.
Qed.
Lemma bind_panics {A B} (p : parser A) (k : A -> parser B) ix x : bind p k bs ix = Panic x ->
  p bs ix = Panic x \/ exists a ix', p bs ix = Ok (a, ix') /\ k a bs ix' = Panic x.
Proof. unfold bind. destruct (p bs ix) as [[a ix']| | |]; intro H; try discriminate; [right; eauto|left; congruence]. Qed.
Lemma panics_bind {A B} (p : parser A) (k : A -> parser B) ix x : p bs ix = Panic x -> bind p k bs ix = Panic x.
Proof. unfold bind. intros ->. reflexivity. Qed.

Theorem class_deep opts : class_parser E1 opts bs 0 = Panic PStackOverflow -> class_parser E2 opts bs 0 = Panic PStackOverflow.
Proof.
  pose proof (sane_fits _ _ Hsane) as Hfit. unfold class_parser. intro H.
  apply bind_panics in H. destruct H as [H|(magic & i1 & H1 & H)]; [apply panics_bind, H|]. eapply bind_intro; [exact H1|].
  apply (reads_u4 E1) in H1; auto; [|lia]. destruct H1 as (p1 & w1 & q1 & Hb1 & Hp1 & -> & Hw1).
  apply bind_panics in H. destruct H as [H|([] & i2 & H2 & H)]; [apply panics_bind, H|]. eapply bind_intro; [exact H2|].
  apply guard_keeps in H2. destruct H2 as [_ ->].
  assert (L1 : 0 + blen w1 <= blen bs) by (rewrite Hb1, !blen_app; lia). assert (L4 : 4 <= 0 + blen w1) by (destruct Hw1 as [Hw1 _]; unfold blen; lia).
  apply bind_panics in H. destruct H as [H|(minor & i3 & H3 & H)]; [apply panics_bind, H|]. eapply bind_intro; [exact H3|].
  apply (reads_u2 E1) in H3; auto. destruct H3 as (p3 & w3 & q3 & Hb3 & Hp3 & -> & Hw3).
  assert (L3 : 0 + blen w1 + blen w3 <= blen bs) by (rewrite Hb3, Hp3, !blen_app; lia).
  apply bind_panics in H. destruct H as [H|(major & i4 & H4 & H)]; [apply panics_bind, H|]. eapply bind_intro; [exact H4|].
  apply (reads_u2 E1) in H4; auto. destruct H4 as (p4 & w4 & q4 & Hb4 & Hp4 & -> & Hw4).
  assert (L5 : 0 + blen w1 + blen w3 + blen w4 <= blen bs) by (rewrite Hb4, Hp4, !blen_app; lia).
  apply bind_panics in H. destruct H as [H|(P & i5 & H5 & H)]; [apply panics_bind, pool_deep; auto; lia|].
  exfalso. apply (reads_constant_pool E1 (sane_stack _ _ Hsane)) in H5; auto. destruct H5 as (p5 & w5 & q5 & Hb5 & Hp5 & -> & cs & -> & (count & _ & _ & Hval)).
  destruct Hsane as [H32 Hus Hal Hst].
  pose proof (run_body E1 bs (fun x => x <> PStackOverflow) cs major opts Hval ltac:(discriminate) (conj H32 Hus)) as Hb.
  specialize (Hb ltac:(destruct (overflow_checks E1); discriminate)).
  assert (Hcode : opts = true -> forall code, (exists pre lw post, bs = pre ++ lw ++ code ++ post /\ u4 (N.of_nat (length code)) lw) ->
    ends (fun x => x <> PStackOverflow) (fun _ => True) (bytecode_from E1 code (pool_of (cesu8 E1) (slots_of cs)))).
  { intros _ code (pre & lw & post & Hc & _). assert (Hl : blen code <= blen bs) by (rewrite Hc, !blen_app; lia).
    apply (ends_bytecode E1 code (fun x => x <> PStackOverflow) cs major Hval); try discriminate. constructor; lia. }
  specialize (Hb Hcode).
  specialize (Hb (fun flags super ifs fs ms attributes this => mk_class major minor (pool_of (cesu8 E1) (slots_of cs)) flags this super ifs fs ms attributes)
    (0 + blen w1 + blen w3 + blen w4 + blen w5)).
  specialize (Hb ltac:(rewrite Hb5, Hp5, !blen_app; lia) ltac:(left; unfold blen in *; lia)).
  unfold runs_at in Hb. match type of Hb with ends _ _ ?m => change (m = Panic PStackOverflow) in H end. rewrite H in Hb. cbn in Hb. congruence.
Qed.
End Deep.

(** On a machine with a stack as deep as the input is long, more stack makes no difference. *)
Theorem parse_deep E1 E2 opts bs : better E1 E2 -> sane E1 bs -> (length bs <= stack E1)%nat ->
  parse_class_with_options E1 opts bs = parse_class_with_options E2 opts bs \/
  exists x, parse_class_with_options E1 opts bs = Panic x /\ lack E1 E2 x /\ x <> PStackOverflow.
Proof.
  intros HE Hs Hd. destruct (apx_parse E1 E2 HE opts bs) as [H|(x & Hx & Hl)]; [left; exact H|].
  assert (x = PStackOverflow \/ x <> PStackOverflow) as [->|Hn] by (destruct x; auto; right; discriminate); [left|right; eauto].
  unfold parse_class_with_options in *. pose proof (class_deep E1 E2 HE bs Hs Hd opts) as Hc.
  destruct (class_parser E1 opts bs 0) as [[c ix]| |x|]; try discriminate. cbn in Hx. injection Hx as ->. rewrite Hc; reflexivity.
Qed.
