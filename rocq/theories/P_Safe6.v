(** * Every panic of a parse has one of the causes of S_Safe. *)
From Verif Require Import Base M_Names M_Descriptors M_ConstantPool M_Bytecode M_Attributes M_Class
  S_Lang S_Names S_Format S_Pool S_Items S_Env S_Safe P_Names P_Descriptors P_Reads P_Tac P_Pool P_Pool2 P_Pool3 P_Pool4 P_Refs
  P_Class3 P_Layout P_Safe P_Safe2 P_Safe3 P_Safe4 P_Safe5.
From Coq Require Import ZifyBool ZifyNat ZifyN.

Lemma many_split {A} (F : A -> lang) l w : many F l w -> exists ws, w = concat ws /\ Forall2 F l ws.
Proof.
  revert w; induction l as [|a l IH]; intros w H; [exists []; split; auto|]. destruct H as (u & v & -> & Hu & Hv).
  apply IH in Hv. destruct Hv as (ws & -> & Hws). exists (u :: ws). split; auto.
Qed.
Lemma many_blen major cs w : many (constant_lang major) cs w -> (length (slots_of cs) <= 1 + length w)%nat.
Proof.
  unfold slots_of. cbn [length]. revert w. induction cs as [|c cs IH]; intros w H; [cbn; lia|]. destruct H as (u & v & -> & Hu & Hv). apply IH in Hv.
  cbn [flat_map]. rewrite !app_length. assert (length (if is_wide c then [Some c; None] else [Some c]) <= length u)%nat; [|lia].
  destruct (is_wide c) eqn:Hw; cbn [length].
  - destruct c; try discriminate; destruct Hu as [_ (t & z & -> & Ht & Hz)]; rewrite app_length; destruct Ht as [-> _];
    [apply s8_u8 in Hz; destruct Hz as (? & Hz & _)|]; destruct Hz as [-> _]; lia.
  - apply (constant_nonempty debug64) in Hu. unfold blen in Hu. lia.
Qed.

Section Parse.
Variable E : env.
Variable opts : bool.
Variable bs : list byte.
Hypothesis Hsane : sane E bs.
Notation Q := (cause E opts bs).

Lemma ends_parse : ends Q (fun _ => True) (class_parser E opts bs 0).
Proof.
  pose proof (sane_fits _ _ Hsane) as Hfit. destruct Hsane as [H32 Hus Hal Hst].
  unfold class_parser, bind at 1.
  pose proof (run_u4 bs Q 0) as Hr. unfold runs_at in Hr. destruct (read_u4 bs 0) as [[magic i1]| | |] eqn:H1; cbn in Hr; try contradiction; try exact I; auto. clear Hr.
  apply (reads_u4 E) in H1; auto; [|lia]. destruct H1 as (p1 & w1 & q1 & Hbs & Hp1 & -> & Hw1). destruct p1; [|discriminate]. cbn [app] in Hbs. clear Hp1.
  unfold bind at 1. destruct (guard _ _ bs (0 + blen w1)) as [[[] i2]| | |] eqn:H2; try (unfold guard in H2; destruct (magic =? _); discriminate); [|exact I].
  apply guard_keeps in H2. destruct H2 as [Hm ->]. apply N.eqb_eq in Hm. subst magic.
  unfold bind at 1. pose proof (run_u2 bs Q (0 + blen w1)) as Hr. unfold runs_at in Hr.
  destruct (read_u2 bs (0 + blen w1)) as [[minor i2]| | |] eqn:H2; cbn in Hr; try contradiction; try exact I; auto. clear Hr.
  apply (reads_u2 E) in H2; auto; [|rewrite Hbs, blen_app; lia]. destruct H2 as (p2 & w2 & q2 & Hbs2 & Hp2 & -> & Hw2).
  rewrite Hbs in Hbs2. apply app_eq_blen in Hbs2; [|lia]. destruct Hbs2 as [<- ->].
  unfold bind at 1. pose proof (run_u2 bs Q (0 + blen w1 + blen w2)) as Hr. unfold runs_at in Hr.
  destruct (read_u2 bs (0 + blen w1 + blen w2)) as [[major i3]| | |] eqn:H3; cbn in Hr; try contradiction; try exact I; auto. clear Hr.
  apply (reads_u2 E) in H3; auto; [|rewrite Hbs, !blen_app; lia]. destruct H3 as (p3 & w3 & q3 & Hbs3 & Hp3 & -> & Hw3).
  rewrite Hbs, app_assoc in Hbs3. apply app_eq_blen in Hbs3; [|rewrite blen_app; lia]. destruct Hbs3 as [<- ->].
  set (ix := 0 + blen w1 + blen w2 + blen w3).
  assert (Hix : ix <= blen bs) by (unfold ix; rewrite Hbs, !blen_app; lia).
  (* the pool *)
  assert (Hpool : ends Q (fun r => exists cs, fst r = pool_of (cesu8 E) (slots_of cs) /\ Forall (valid_constant (cesu8 E) (slots_of cs) major) cs
     /\ pool_in (wrapping E) bs cs /\ 10 <= snd r <= blen bs) (read_constant_pool E major bs ix)).
  { unfold read_constant_pool. unfold bind at 1. pose proof (run_u2 bs Q ix) as Hr. unfold runs_at in Hr.
    destruct (read_u2 bs ix) as [[count i4]| | |] eqn:H4; cbn in Hr; try contradiction; try exact I; auto. clear Hr.
    apply (reads_u2 E) in H4; auto. destruct H4 as (p4 & w4 & q4 & Hbs4 & Hp4 & -> & Hw4).
    rewrite Hbs in Hbs4. replace (w1 ++ w2 ++ w3 ++ q3) with ((w1 ++ w2 ++ w3) ++ q3) in Hbs4 by (rewrite <- !app_assoc; reflexivity).
    apply app_eq_blen in Hbs4; [|rewrite !blen_app; unfold ix in *; lia]. destruct Hbs4 as [<- ->].
    assert (Hc : count < 65536) by (apply uint_bound in Hw4; exact Hw4).
    assert (Hi4 : ix + blen w4 <= blen bs) by (unfold ix; rewrite Hbs, !blen_app; lia).
    unfold bind at 1, get_bytes at 1. unfold bind at 1.
    assert (Hstart : forall cs w post, many (constant_lang major) cs w -> q4 = w ++ post ->
       exists ws, starts_with_pool bs minor major count cs ws post).
    { intros cs w post Hmany ->. apply many_split in Hmany. destruct Hmany as (ws & -> & Hws). exists ws, w1, (w2 ++ w3), w4.
      split; [exact Hw1|]. split; [apply cat_intro; auto|]. split; [exact Hw4|]. split; [|exact Hws]. rewrite Hbs, <- !app_assoc. reflexivity. }
    assert (Hq4 : forall p w post, bs = p ++ w ++ post -> ix + blen w4 = blen p -> q4 = w ++ post).
    { intros p w post Hb Hl. rewrite Hbs in Hb. replace (w1 ++ w2 ++ w3 ++ w4 ++ q4) with ((w1 ++ w2 ++ w3 ++ w4) ++ q4) in Hb by (rewrite <- !app_assoc; reflexivity).
      apply app_eq_blen in Hb; [|rewrite !blen_app; unfold ix in *; lia]. tauto. }
    pose proof (ends_pool_loop E bs major count (S (length bs)) Hfit Hc 1 (ix + blen w4) Hi4 ltac:(unfold blen; lia)) as Hloop.
    destruct (pool_loop E (S (length bs)) major count 1 bs (ix + blen w4)) as [[es i5]| | x |] eqn:H5; cbn in Hloop; try contradiction; try exact I.
    2:{ cbn. destruct Hloop as (-> & Hov & -> & p & w & post & cs & c & Hb & Hl & Hmany & Hwide & Hsum).
        destruct (Hstart _ _ _ Hmany (Hq4 _ _ _ Hb Hl)) as (ws & Hws). eapply cause_count; eauto.
        unfold index_of. rewrite firstn_app, firstn_all, Nat.sub_diag. cbn [firstn]. rewrite app_nil_r. exact Hsum. }
    apply pool_loop_spec in H5; auto; [|unfold blen; lia]. destruct H5 as (p5 & w5 & q5 & Hb5 & Hl5 & -> & cs & -> & Hmany & Hfills).
    pose proof (Hq4 _ _ _ Hb5 Hl5) as Hq. destruct (Hstart _ _ _ Hmany Hq) as (ws & Hws).
    assert (Hin : pool_in (wrapping E) bs cs) by (exists minor, major, count, ws, q5; auto).
    unfold bind at 1, lift at 1. pose proof (ends_resolve Q (plen (EZero :: flat_map (expand E) cs)) (EZero :: flat_map (expand E) cs) 0) as Hres.
    fold (resolve_constant_pool (EZero :: flat_map (expand E) cs)) in Hres.
    destruct (resolve_constant_pool _) as [P| | |] eqn:H6; cbn in Hres; try contradiction; try exact I; auto. clear Hres.
    apply (resolve_pool_Ok E Hst) in H6. destruct H6 as [-> Hrefs].
    unfold bind at 1, lift at 1. pose proof (ends_validate (cesu8 E) cs Hrefs (stack E) major ltac:(lia) (pool_of (cesu8 E) (slots_of cs)) 0 ltac:(auto)) as Hv.
    change (validate_from (stack E) (pool_of (cesu8 E) (slots_of cs)) major 0 (pool_of (cesu8 E) (slots_of cs)))
      with (validate_constant_pool E (pool_of (cesu8 E) (slots_of cs)) major) in Hv.
    destruct (validate_constant_pool E _ major) as [[]| |x|] eqn:H7; cbn in Hv; try contradiction; try exact I.
    2:{ cbn. destruct Hv as (-> & c & nt & Hc1 & Hc2 & Hch). destruct (Nat.ltb_spec (stack E) (length bs)) as [Hd|Hd]; [apply cause_depth; auto|].
        eapply cause_cycle; eauto. eapply chain_endless; [|exact Hch]. pose proof (many_blen _ _ _ Hmany) as Hml.
        rewrite Hbs, Hq, !app_length in Hd. destruct Hw1 as [Hw1 _]. lia. }
    cbn. exists cs. split; auto. split; [apply (validate_pool_Ok E Hst); auto|]. split; auto.
    destruct Hw1 as [Hw1 _]. destruct Hw2 as [Hw2 _]. destruct Hw3 as [Hw3 _]. destruct Hw4 as [Hw4 _]. unfold ix, blen in *. lia. }
  unfold bind at 1. destruct (read_constant_pool E major bs ix) as [[P i4]| | |]; cbn in Hpool; try contradiction; try exact I; auto.
  destruct Hpool as (cs & -> & Hval & Hin & H10).
  assert (HQ_utf8 : (exists c, In c cs /\ undecodable (cesu8 E) cs c) -> Q PNotUtf8) by (intros (c & Hc1 & Hc2); eapply cause_text; eauto).
  assert (HQ_index : usize_max E < blen bs + 2 ^ 32 -> if overflow_checks E then Q POverflow else Q PSlice).
  { intro H. destruct (overflow_checks E) eqn:Ho; [apply cause_index_checked|apply cause_index_wrapped]; auto. }
  assert (Hdeep : deep bs Q i4 (stack E)).
  { unfold deep. destruct (Nat.ltb_spec (stack E) (length bs)) as [Hd|Hd]; [right; apply cause_depth; auto|left]. unfold blen. lia. }
  assert (HQ_code : opts = true -> forall code, code_in bs code -> ends Q (fun _ => True) (bytecode_from E code (pool_of (cesu8 E) (slots_of cs)))).
  { intros Ho code Hcode. assert (Hfc : fits E code).
    { destruct Hcode as (pre & lw & post & Hb & _). assert (Hl : blen code <= blen bs) by (rewrite Hb, !blen_app; lia). destruct Hfit. constructor; lia. }
    apply (ends_bytecode E code Q cs major Hval Hfc); intros; [eapply cause_jump|eapply cause_range|eapply cause_capacity|eapply cause_alloc]; eauto. }
  pose proof (run_body E bs Q cs major opts Hval HQ_utf8 (conj H32 Hus) HQ_index HQ_code
    (fun flags super ifs fs ms attributes this => mk_class major minor (pool_of (cesu8 E) (slots_of cs)) flags this super ifs fs ms attributes)
    i4 ltac:(lia) Hdeep) as Hb.
  unfold runs_at in Hb. eapply ends_weaken; [exact Hb|]. intros; exact I.
Qed.

Theorem panic_cause : ends Q (fun _ => True) (parse_class_with_options E opts bs).
Proof.
  unfold parse_class_with_options. pose proof ends_parse as H. destruct (class_parser E opts bs 0) as [[c ix]| | |]; cbn in H |- *; auto.
Qed.
End Parse.
