(** * Instructions: [read_insn] reads [insn_lang]. *)
From Verif Require Import Base M_Names M_Descriptors M_ConstantPool M_Bytecode S_Lang S_Names S_Format
  P_Reads P_Tac P_Names P_Descriptors P_Pool P_Pool2 P_Pool3 P_Refs.
From Coq Require Import ZifyBool ZifyNat ZifyN.

(** ** Loops with large counts *)
Lemma many_blen {A} (F : A -> lang) sz : (forall a w, F a w -> blen w = sz) ->
  forall l w, many F l w -> blen w = N.of_nat (length l) * sz.
Proof.
  intros HF l. induction l as [|a l IH]; intros w H.
  - change (w = []) in H. subst w. rewrite blen_nil. simpl. lia.
  - destruct H as (u & v & -> & Hu & Hv). rewrite blen_app, (HF _ _ Hu), (IH _ Hv).
    cbn [length]. lia.
Qed.

Lemma for_fuel_spec {A} E (F : A -> lang) (body : N -> parser A) sz :
  0 < sz -> (forall a w, F a w -> blen w = sz) -> (forall j, reads E (body j) F) ->
  forall fuel i count bs ix l ix', fits E bs -> ix <= blen bs -> blen bs < ix + N.of_nat fuel -> i <= count ->
  (for_fuel fuel i count body bs ix = Ok (l, ix') <->
   span bs ix ix' (fun w => i + N.of_nat (length l) = count /\ many F l w)).
Proof.
  intros Hsz HF Hb. induction fuel as [|fuel IH]; intros i count bs ix l ix' Hfit Hix Hfuel Hi; [lia|].
  cbn [for_fuel]. destruct (N.ltb_spec i count) as [Hlt|Hge].
  - split.
    + intro H. apply bind_Ok in H. destruct H as (x & ix1 & H1 & H).
      apply bind_Ok in H. destruct H as (xs & ix2 & H2 & H). injection H as <- <-.
      apply Hb in H1; auto. pose proof (span_le _ _ _ _ H1) as Hle.
      destruct H1 as (pre & w & post & -> & -> & -> & Hw). pose proof (HF _ _ Hw) as Hlen.
      apply IH in H2; auto; try lia.
      destruct H2 as (pre' & w' & post' & Heq & Hl & -> & Hc & Hm).
      rewrite app_assoc in Heq. apply app_eq_blen in Heq; [|rewrite blen_app; lia].
      destruct Heq as [<- ->]. exists pre, (w ++ w'), post'. rewrite <- app_assoc, blen_app.
      repeat split; auto; try lia. { cbn [length]. lia. } apply cat_intro; auto.
    + intros (pre & w & post & -> & -> & -> & Hc & Hm). destruct l as [|x xs]; [cbn [length] in Hc; lia|].
      destruct Hm as (u & v & -> & Hu & Hv). pose proof (HF _ _ Hu) as Hlen.
      apply bind_Ok. exists x, (blen pre + blen u). split.
      { apply Hb; auto. exists pre, u, (v ++ post). rewrite <- app_assoc. auto. }
      apply bind_Ok. exists xs, (blen pre + blen (u ++ v)). split; [|reflexivity].
      apply IH; auto; try lia; [rewrite !blen_app; lia|].
      exists (pre ++ u), v, post. rewrite <- !app_assoc, !blen_app. cbn [length] in Hc. repeat split; auto; lia.
  - assert (i = count) as -> by lia. unfold ret. split.
    + intros [= <- <-].
      destruct (split_at bs ix Hix) as (pre & post & -> & <-). exists pre, [], post. rewrite blen_nil.
      cbn [length app]. repeat split; auto; lia.
    + intros (pre & w & post & -> & -> & -> & Hc & Hm). destruct l; [|cbn [length] in Hc; lia].
      change (w = []) in Hm. subst w. rewrite blen_nil. do 2 f_equal. lia.
Qed.

Lemma reads_big {A B} E (F : A -> lang) (body : N -> parser A) sz count (k : list A -> parser B) M :
  0 < sz -> (forall a w, F a w -> blen w = sz) -> (forall j, reads E (body j) F) ->
  (forall l, reads E (k l) (M l)) ->
  reads E (_ <- lift (with_capacity E count sz) ;; l <- for_big count body ;; k l)
    (fun b w => exists l, ((fun w => N.of_nat (length l) = count /\ many F l w) +++ M l b) w).
Proof.
  intros Hsz HF Hb Hk.
  assert (Hbig : reads E (l <- for_big count body ;; k l)
    (fun b w => exists l, ((fun w => N.of_nat (length l) = count /\ many F l w) +++ M l b) w)).
  { eapply reads_bind; [|intros l _; apply Hk]. intros ix bs l ix' Hfit Hix. unfold for_big.
    rewrite (for_fuel_spec E F body sz) by (auto; unfold blen; lia). reflexivity. }
  intros ix bs b ix' Hfit Hix. split.
  - intro H. apply bind_Ok in H. destruct H as ([] & ix1 & H1 & H). apply lift_Ok in H1. destruct H1 as [_ ->].
    apply Hbig in H; auto.
  - intro H. apply bind_Ok. exists tt, ix. split; [|apply Hbig; auto]. apply lift_Ok. split; auto.
    destruct H as (pre & w & post & -> & -> & -> & l & u & v & -> & [Hl Hm] & _).
    apply (many_blen F sz HF) in Hm. destruct Hfit as [_ Hu Ha]. rewrite !blen_app in *.
    unfold with_capacity. replace (usize_max E / 2 <? count * sz) with false by lia.
    replace (alloc_limit E <? count * sz) with false by lia. reflexivity.
Qed.

(** ** Padding *)
Lemma align4_eq o : N.ldiff (o + 1 + 3) 3 = o + 1 + (3 - o mod 4) mod 4.
Proof.
  change 3 with (N.ones 2) at 2. rewrite N.ldiff_ones_r, N.shiftr_div_pow2, N.shiftl_mul_pow2.
  change (2 ^ 2) with 4. pose proof (N.div_mod' o 4). pose proof (N.mod_lt o 4 ltac:(lia)).
  set (q := o / 4) in *. set (r := o mod 4) in *.
  assert (Hr : r = 0 \/ r = 1 \/ r = 2 \/ r = 3) by lia.
  replace (o + 1 + 3) with (4 * (q + 1) + r) by lia.
  assert (Hd : (4 * (q + 1) + r) / 4 = q + 1) by (symmetry; apply N.div_unique with r; lia).
  rewrite Hd. destruct Hr as [Hr|[Hr|[Hr|Hr]]]; rewrite Hr; cbn; lia.
Qed.

Lemma reads_at_align {B} E o (f : N -> parser B) L :
  reads E (bind read_u4 f) L ->
  reads_at E (o + 1) (_ <- align4 ;; bind read_u4 f) (fun b => pad o +++ L b).
Proof.
  intros Hk bs b ix' Hfit Hix. unfold align4, pad, blob.
  set (n := (3 - o mod 4) mod 4).
  assert (Hal : (_ <- (ix <- get_ix ;; set_ix (N.ldiff (ix + 3) 3)) ;; bind read_u4 f) bs (o + 1)
    = bind read_u4 f bs (o + 1 + n)).
  { unfold bind at 1 2, get_ix, set_ix. rewrite align4_eq. reflexivity. }
  rewrite Hal. destruct (N.leb_spec (o + 1 + n) (blen bs)) as [Hin|Hout].
  - rewrite (Hk _ bs b ix' Hfit Hin). split.
    + intros (pre & w & post & -> & Hp & -> & HL). rewrite blen_app in Hin.
      destruct (split_at pre (o + 1)) as (p1 & p2 & -> & Hp1); [lia|].
      rewrite blen_app in Hp. exists p1, (p2 ++ w), post. rewrite <- !app_assoc, blen_app. repeat split; auto; try lia.
      apply cat_intro; auto. unfold blen in *. lia.
    + intros (pre & w & post & -> & Hp & -> & u & v & -> & Hu & HL).
      exists (pre ++ u), v, post. rewrite <- !app_assoc, !blen_app. unfold blen in *. repeat split; auto; lia.
  - split.
    + intro H. apply bind_Ok in H. destruct H as (x & ix1 & H & _). unfold read_u4, fail in H.
      replace (blen bs <? o + 1 + n + 4) with true in H by lia. discriminate.
    + intros (pre & w & post & -> & Hp & -> & u & v & -> & Hu & HL). rewrite !blen_app in Hout.
      unfold blen in *. lia.
Qed.

Lemma s4_blen z w : s4 z w -> blen w = 4.
Proof. intros [H _]. unfold blen. lia. Qed.

Section WithEnv.
Variable E : env.
Let dec := cesu8 E.
Let wraps := negb (overflow_checks E).
Variable cs : list constant.
Let sl := slots_of cs.
Let P := pool_of dec sl.

Lemma i32_sub_add low high r : (- 2 ^ 31 <= low < 2 ^ 31 -> - 2 ^ 31 <= high < 2 ^ 31 -> low <= high ->
  ((exists d, i32_result E (high - low) = Ok d /\ i32_result E (d + 1) = Ok r) /\ 0 <= r) <->
  ((high - low + 1 < 2 ^ 31 /\ r = high - low + 1) \/ (wraps = true /\ low = - 2 ^ 31 /\ high = 2 ^ 31 - 1 /\ r = 0)))%Z.
Proof.
  intros Hl Hh Hle. unfold i32_result, in_i32, wraps.
  change (- 2 ^ 31)%Z with (-2147483648)%Z in *. change (2 ^ 31)%Z with 2147483648%Z in *. change (2 ^ 32)%Z with 4294967296%Z in *.
  assert (Has : forall z, (0 <= z < 4294967296)%Z -> as_i32 (Z.to_N z) = if (z <? 2147483648)%Z then z else (z - 4294967296)%Z).
  { intros z Hz. unfold as_i32, to_signed. change (2 ^ (32 - 1)) with 2147483648. change (2 ^ Z.of_N 32)%Z with 4294967296%Z.
    rewrite Z2N.id by lia. replace (Z.to_N z <? 2147483648) with (z <? 2147483648)%Z by lia. reflexivity. }
  assert (Hmod : forall z, (2147483648 <= z < 4294967296)%Z -> as_i32 (Z.to_N (z mod 4294967296)) = (z - 4294967296)%Z).
  { intros z Hz. rewrite Z.mod_small by lia. rewrite Has by lia. replace (z <? 2147483648)%Z with false by lia. reflexivity. }
  destruct (Z.ltb_spec (high - low) 2147483648) as [H1|H1].
  - replace (-2147483648 <=? high - low)%Z with true by lia. cbn [andb].
    split.
    + intros [(d & [= <-] & H) Hr].
      replace (-2147483648 <=? high - low + 1)%Z with true in H by lia. cbn [andb] in H.
      destruct (Z.ltb_spec (high - low + 1) 2147483648).
      * injection H as <-. left. lia.
      * destruct (overflow_checks E); [discriminate|]. rewrite Hmod in H by lia. injection H as <-. lia.
    + intros [[H2 ->]|(_ & -> & -> & ->)]; [|lia]. split; [|lia]. exists (high - low)%Z. split; auto.
      replace (-2147483648 <=? high - low + 1)%Z with true by lia. replace (high - low + 1 <? 2147483648)%Z with true by lia. reflexivity.
  - replace (-2147483648 <=? high - low)%Z with true by lia. cbn [andb].
    destruct (overflow_checks E); cbn [negb].
    + split; [intros [(d & [=] & _) _]|]. intros [[H2 _]|[H2 _]]; [lia|discriminate].
    + rewrite Hmod by lia. split.
      * intros [(d & [= <-] & H) Hr].
        replace (-2147483648 <=? high - low - 4294967296 + 1)%Z with true in H by lia.
        replace (high - low - 4294967296 + 1 <? 2147483648)%Z with true in H by lia. cbn [andb] in H.
        injection H as <-. right. lia.
      * intros [[H2 _]|(_ & -> & -> & ->)]; [lia|]. split; [|lia]. eexists. split; reflexivity.
Qed.

Lemma s4_range z w : s4 z w -> (- 2 ^ 31 <= z < 2 ^ 31)%Z.
Proof. intros (_ & H & _). exact H. Qed.

Lemma reads_tableswitch o : reads_at E (o + 1) (read_tableswitch E)
  (fun op => pad o +++ fun w => exists t, op = OpTableswitch t /\
     (s4 (rg_default t) +++ s4 (rg_low t) +++ s4 (rg_high t)
      +++ only_if (table_size wraps (rg_low t) (rg_high t) (length (jumps t))) +++ many s4 (jumps t)) w).
Proof.
  unfold read_tableswitch. apply reads_at_align.
  eapply reads_ext.
  - eapply reads_bind; [apply reads_u4|]. intros d _. cbv zeta.
    eapply reads_bind; [apply reads_u4|]. intros lo _.
    eapply reads_bind; [apply reads_u4|]. intros hi _.
    instantiate (1 := fun hi op w => (as_i32 lo <= as_i32 hi)%Z /\
      exists dd r, i32_result E (as_i32 hi - as_i32 lo) = Ok dd /\ i32_result E (dd + 1) = Ok r /\ (0 <= r)%Z /\
      exists js, N.of_nat (length js) = Z.to_N r /\ many s4 js w /\ op = OpTableswitch (mk_range (as_i32 d) (as_i32 lo) (as_i32 hi) js)).
    destruct (Z.ltb_spec (as_i32 hi) (as_i32 lo)).
    + eapply reads_ext; [apply reads_pfail_at|]. intros op w. split; [intros []|]. intros [? _]. lia.
    + eapply reads_ext.
      * eapply reads_lift_bind. intros dd Hdd. eapply reads_lift_bind. intros r Hr.
        instantiate (1 := fun r op w => (0 <= r)%Z /\
          exists js, N.of_nat (length js) = Z.to_N r /\ many s4 js w /\ op = OpTableswitch (mk_range (as_i32 d) (as_i32 lo) (as_i32 hi) js)).
        unfold usize_of_i32. destruct (Z.ltb_spec r 0).
        -- eapply reads_ext; [apply reads_pfail_at|]. intros op w. split; [intros []|]. intros [? _]. lia.
        -- eapply reads_ext.
           ++ apply (reads_big E s4) with (M := fun js op => only_if (op = OpTableswitch (mk_range (as_i32 d) (as_i32 lo) (as_i32 hi) js))).
              ** lia.
              ** intros; eapply s4_blen; eauto.
              ** intro. apply reads_s4.
              ** intros. apply reads_ret.
           ++ intros op w. split.
              ** intros (l & u & v & -> & [H1 H2] & -> & ->). rewrite app_nil_r. split; auto. exists l; auto.
              ** intros (_ & js & H1 & H2 & ->). exists js. apply cat_nil_r; auto.
      * intros op w. split.
        -- intros (dd & H1 & r & H2 & H3 & js & H4). split; auto. exists dd, r. repeat split; auto. exists js; auto.
        -- intros (_ & dd & r & H1 & H2 & H3 & js & H4). exists dd. split; auto. exists r. split; auto. split; auto. exists js; auto.
  - intros op w. split.
    + intros (d & u & v & -> & Hd & lo & u1 & v1 & -> & Hlo & hi & u2 & v2 & -> & Hhi & Hle & dd & r & H1 & H2 & H3 & js & Hn & Hm & ->).
      eexists. split; [reflexivity|]. cbn [rg_default rg_low rg_high jumps].
      apply u4_s4 in Hd. apply u4_s4 in Hlo. apply u4_s4 in Hhi.
      repeat (apply cat_intro; [assumption|]). apply cat_nil_l; auto.
      apply s4_range in Hlo. apply s4_range in Hhi.
      destruct (proj1 (i32_sub_add _ _ r Hlo Hhi Hle)) as [[H4 ->]|(H4 & H5 & H6 & ->)]; [split; [eauto|lia]| |].
      * left. lia.
      * right. lia.
    + intros (t & -> & H). destruct t as [d lo hi js]. cbn [rg_default rg_low rg_high jumps] in H.
      destruct H as (u & v & -> & Hd & u1 & v1 & -> & Hlo & u2 & v2 & -> & Hhi & u3 & v3 & -> & [-> Hs] & Hm).
      pose proof (s4_range _ _ Hlo) as Rlo. pose proof (s4_range _ _ Hhi) as Rhi.
      apply s4_u4 in Hd. destruct Hd as (d' & Hd & ->). apply s4_u4 in Hlo. destruct Hlo as (lo' & Hlo & ->).
      apply s4_u4 in Hhi. destruct Hhi as (hi' & Hhi & ->).
      exists d'. apply cat_intro; auto. exists lo'. apply cat_intro; auto. exists hi'. apply cat_intro; auto.
      cbn [app].
      assert (Hle : (as_i32 lo' <= as_i32 hi')%Z).
      { destruct Hs as [Hs|(_ & -> & -> & _)]; [tauto|lia]. }
      split; auto.
      destruct (proj2 (i32_sub_add (as_i32 lo') (as_i32 hi') (Z.of_nat (length js)) Rlo Rhi Hle)) as [(dd & H1 & H2) H3].
      { destruct Hs as [(_ & Hs1 & Hs2)|(Hs1 & Hs2 & Hs3 & Hs4)]; [left; lia|right; rewrite Hs4; auto]. }
      exists dd, (Z.of_nat (length js)). repeat split; auto. exists js. repeat split; auto. lia.
Qed.

Lemma reads_lookupswitch o : reads_at E (o + 1) (read_lookupswitch E)
  (fun op => pad o +++ fun w => exists t, op = OpLookupswitch t /\
     (s4 (lk_default t) +++ s4 (Z.of_nat (length (match_offsets t)))
      +++ many (fun mo => s4 (fst mo) +++ s4 (snd mo)) (match_offsets t)) w).
Proof.
  unfold read_lookupswitch. apply reads_at_align.
  set (F := fun mo : Z * Z => s4 (fst mo) +++ s4 (snd mo)).
  eapply reads_ext.
  - eapply reads_bind; [apply reads_u4|]. intros d _. cbv zeta.
    eapply reads_bind; [apply reads_u4|]. intros np _.
    instantiate (1 := fun np op w => (0 <= as_i32 np)%Z /\
      exists ps, N.of_nat (length ps) = Z.to_N (as_i32 np) /\ many F ps w /\ op = OpLookupswitch (mk_lookup (as_i32 d) ps)).
    destruct (Z.ltb_spec (as_i32 np) 0).
    + eapply reads_ext; [apply reads_pfail_at|]. intros op w. split; [intros []|]. intros [? _]. lia.
    + unfold usize_of_i32. replace (as_i32 np <? 0)%Z with false by lia.
      eapply reads_ext.
      * apply (reads_big E F) with (M := fun ps op => only_if (op = OpLookupswitch (mk_lookup (as_i32 d) ps))).
        -- lia.
        -- intros a w (u & v & -> & Hu & Hv). rewrite blen_app, (s4_blen _ _ Hu), (s4_blen _ _ Hv). reflexivity.
        -- intro. eapply reads_ext; [rd|]. intros [m f] w. unfold F. cbn [fst snd]. split.
           ++ intro H1. fwd. injection H1 as -> ->. apply cat_intro; apply u4_s4; assumption.
           ++ intros (u & v & -> & Hu & Hv). apply s4_u4 in Hu. destruct Hu as (m' & Hu & ->).
              apply s4_u4 in Hv. destruct Hv as (f' & Hv & ->).
              exists m'. apply cat_intro; auto. exists f'. apply cat_nil_r; auto.
        -- intros. apply reads_ret.
      * intros op w. split.
        -- intros (l & u & v & -> & [H1 H2] & -> & ->). rewrite app_nil_r. split; auto. exists l; auto.
        -- intros (_ & js & H1 & H2 & ->). exists js. apply cat_nil_r; auto.
  - intros op w. split.
    + intros (d & u & v & -> & Hd & np & u1 & v1 & -> & Hnp & Hle & ps & Hn & Hm & ->).
      eexists. split; [reflexivity|]. cbn [lk_default match_offsets].
      apply u4_s4 in Hd. apply u4_s4 in Hnp.
      apply cat_intro; auto. apply cat_intro; auto. replace (Z.of_nat (length ps)) with (as_i32 np) by lia. auto.
    + intros (t & -> & H). destruct t as [d ps]. cbn [lk_default match_offsets] in H.
      destruct H as (u & v & -> & Hd & u1 & v1 & -> & Hnp & Hm).
      apply s4_u4 in Hd. destruct Hd as (d' & Hd & ->). apply s4_u4 in Hnp. destruct Hnp as (np & Hnp & Hlen).
      exists d'. apply cat_intro; auto. exists np. apply cat_intro; auto. split; [lia|].
      exists ps. repeat split; auto. lia.
Qed.

(** ** wide *)
Definition wide_lang (op : opcode) : lang :=
  match op with
  | OpIload i => u1 0x15 +++ u2 i
  | OpLload i => u1 0x16 +++ u2 i
  | OpFload i => u1 0x17 +++ u2 i
  | OpDload i => u1 0x18 +++ u2 i
  | OpAload i => u1 0x19 +++ u2 i
  | OpIstore i => u1 0x36 +++ u2 i
  | OpLstore i => u1 0x37 +++ u2 i
  | OpFstore i => u1 0x38 +++ u2 i
  | OpDstore i => u1 0x39 +++ u2 i
  | OpAstore i => u1 0x3a +++ u2 i
  | OpIinc i k => u1 0x84 +++ u2 i +++ s2 k
  | OpRet i => u1 0xa9 +++ u2 i
  | _ => fun _ => False
  end.

Ltac fin := first [ assumption | apply u1_s1; assumption | apply u2_s2; assumption | apply u4_s4; assumption
                  | apply u1_byte; reflexivity | apply cat_intro; fin ].

Lemma reads_wide : reads E read_wide wide_lang.
Proof.
  unfold read_wide. apply reads_tagged.
  - intro b. destruct b; cbn [Byte.to_N]; (eexists; split; [rd|]); intros op w H; fwd; cbn [wide_lang];
    (apply u1_cons_intro; [reflexivity|]); fin.
  - intros op w H. destruct op; cbn [wide_lang] in H; try contradiction;
    apply u1_cons in H; destruct H as (b & w' & -> & Hb & H); exists b, w'; (split; [reflexivity|]); rewrite Hb;
    (eexists; split; [rd|]).
    all: try (destruct H as (u & v & -> & H1 & H2); apply s2_u2 in H2; destruct H2 as (k & H2 & ->);
      eexists; apply cat_intro; [eassumption|]; eexists; apply cat_nil_r; [eassumption|reflexivity]).
    all: eexists; apply cat_nil_r; [eassumption|reflexivity].
Qed.

Lemma reads_newarray : reads E read_newarray (fun op w => exists t, op = OpNewarray t /\ u1 (array_code t) w).
Proof.
  unfold read_newarray. apply reads_tagged.
  - intro b. destruct b; cbn [Byte.to_N]; (eexists; split; [rd|]); intros op w H; fwd;
    (eexists; split; [reflexivity|]); apply u1_byte; reflexivity.
  - intros op w (t & -> & H). apply (cat_nil_r _ True) in H; auto. apply u1_cons in H.
    destruct H as (b & w' & -> & Hb & H). exists b, w'. split; auto. rewrite Hb. destruct H as [-> _].
    destruct t; cbn [array_code]; (eexists; split; [rd|]); eexists; apply cat_nil_l; auto; split; auto.
Qed.
End WithEnv.
