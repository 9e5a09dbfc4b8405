(** * Property theorems: additional constants (C61).

    Vocabulary: [S_Rewrite], [S_Format], [S_Pool], [S_Env]. *)
From Verif Require Import Base M_Names M_Descriptors M_ConstantPool M_Bytecode M_Attributes M_Class M_Cesu8 Data Sample
  S_Lang S_Names S_Format S_Pool S_Within S_Env S_Rewrite P_Reads P_Tac P_Mono P_Pool4 P_Class2 P_Class3 P_Layout P_Within T_Class T_Members T_Rewrite T_Rewrite2.
From Coq Require Import ZifyBool ZifyNat ZifyN.

Lemma slots_more cs x i c : at_index (slots_of cs) i c -> at_index (slots_of (cs ++ [x])) i c.
Proof.
  unfold at_index, slots_of. rewrite flat_map_app. intro H. change (None :: ?a ++ ?b) with ((None :: a) ++ b).
  rewrite nth_error_app1; [exact H|]. apply nth_error_Some. congruence.
Qed.
Lemma width_pos c : 1 <= width c.
Proof. unfold width. destruct (is_wide c); lia. Qed.
Lemma fills_more wraps x : forall cs i count, fills wraps count i cs -> i + fold_right (fun c n => width c + n) 0 cs = count ->
  count + width x < 65536 -> fills wraps (count + width x) i (cs ++ [x]).
Proof.
  pose proof (width_pos x) as Hx.
  induction cs as [|c cs IH]; intros i count Hf He Hlt; cbn [fills app fold_right] in *.
  - split; [lia|]. replace (i + width x <? 65536) with true by lia. lia.
  - destruct Hf as [Hi Hf]. split; [lia|]. pose proof (width_pos c).
    assert (Hj : i + width c <? 65536 = true) by (clear - He Hlt; lia). rewrite Hj in *. apply IH; auto. lia.
Qed.
Lemma class_more_constants dec wraps want d cs c m vv n count ws rest x w :
  let bs := m ++ vv ++ n ++ concat ws ++ rest in
  let bs' := m ++ vv ++ two_bytes (count + width x) ++ concat (ws ++ [w]) ++ rest in
  let c' := class_with_pool (pool_of dec (slots_of (cs ++ [x]))) c in
  class_lang dec wraps want d cs c bs -> starts_with_pool bs (minor_version c) (major_version c) count cs ws rest ->
  u4 0xCAFEBABE m -> (u2 (minor_version c) +++ u2 (major_version c)) vv -> u2 count n ->
  index_of cs (length cs) = count -> count + width x < 65536 -> constant_lang (major_version c) x w ->
  valid_constant dec (slots_of (cs ++ [x])) (major_version c) x -> bootstrapped x c ->
  class_lang dec wraps want d (cs ++ [x]) c' bs'.
Proof.
  intros bs bs' c' Hc Hst Hm Hvv Hn Hidx Hlt Hw Hv Hboot. pose proof (slots_more cs x) as Hsl.
  destruct (class_starts _ _ _ _ _ _ _ Hc) as (count' & ws' & rest' & S & Hf & Hval & Hrest).
  assert (Hst' : exists k, fills wraps k 1 cs /\ k = count /\ ws' = ws /\ rest' = rest).
  { destruct S as (m' & vv' & n' & Hm' & Hvv' & Hn' & He & Hws'). destruct Hst as (m2 & vv2 & n2 & _ & _ & _ & _ & Hws).
    assert (S1 : starts_with_pool bs (minor_version c) (major_version c) count' cs ws' rest') by (exists m', vv', n'; auto).
    assert (Hn0 : n = n' /\ m = m' /\ vv = vv').
    { destruct Hm as [Hm _], Hm' as [Hm' _]. unfold bs in He.
      apply app_eq_len in He; [|congruence]. destruct He as [-> He].
      assert (length vv = length vv').
      { destruct Hvv as (? & ? & -> & [? _] & [? _]). destruct Hvv' as (? & ? & -> & [? _] & [? _]). rewrite !app_length. lia. }
      apply app_eq_len in He; [|auto]. destruct He as [-> He].
      destruct Hn as [Hn _], Hn' as [Hn' _]. apply app_eq_len in He; [|congruence]. destruct He as [-> He]. auto. }
    destruct Hn0 as (-> & -> & ->). assert (count' = count) as -> by (eapply uint_det; eauto).
    assert (S2 : starts_with_pool bs (minor_version c) (major_version c) count cs ws rest) by (exists m', vv', n'; auto).
    exists count. destruct (pool_unique _ _ _ _ _ _ _ _ _ _ _ _ _ _ S1 S2 Hf Hf) as (_ & _ & _ & _ & -> & ->). auto. }
  destruct Hst' as (k & Hf' & -> & -> & ->). clear S Hf.
  assert (Hws : Forall2 (constant_lang (major_version c)) cs ws) by (destruct Hst as (? & ? & ? & _ & _ & _ & _ & ?); auto).
  destruct Hc as (_ & _ & Hnd & Hnd' & Hmr & Hmod & Hb).
  split; [|split; [|split; [|split; [|split; [|split]]]]]; unfold c'; cbn [class_with_pool minor_version major_version constant_pool access_flags this_class
      super_class interfaces fields methods class_attributes]; auto.
  - unfold bs'. destruct Hvv as (v1 & v2 & -> & Hv1 & Hv2). rewrite <- (app_assoc v1). do 3 (apply cat_intro; [assumption|]).
    rewrite (app_assoc (two_bytes _)). apply cat_intro.
    + exists (count + width x). split; [|split].
      * apply cat_intro; [apply two_bytes_u2; auto|]. apply many_concat. exists (ws ++ [w]). split; auto. apply Forall2_app; auto.
      * apply fills_more; auto. unfold index_of in Hidx. rewrite firstn_all in Hidx. exact Hidx.
      * apply Forall_app. split; [|constructor; auto]. eapply Forall_impl; [|exact Hval]. intros y. apply valid_more, Hsl.
    + assert (Hcl : forall i s, that (class_at dec (slots_of cs)) class_name i s -> that (class_at dec (slots_of (cs ++ [x]))) class_name i s).
      { intros i s. apply that_more. intros j b. apply class_more, Hsl. }
      revert Hrest. generalize rest. apply sub_cat; [apply sub_refl|]. apply sub_cat; [apply sub_ref, Hcl|]. apply sub_cat; [apply sub_opt_ref, Hcl|].
      apply sub_cat; [apply sub_table; intro; apply sub_ref, Hcl|]. apply sub_cat; [apply sub_table; intro; apply field_more, Hsl|].
      apply sub_cat; [apply sub_table; intro; apply method_more, Hsl|]. apply attributes_more, Hsl.
  - intros b nt Hin. rewrite !in_app_iff in Hin. change (exists l, bootstrap_tables c = [l] /\ b < N.of_nat (length l)).
    destruct Hin as [[Hin|[Hx|[]]]|[Hin|[Hx|[]]]]; eauto.
Qed.
Lemma pool_more dec cs x : pool_of dec (slots_of (cs ++ [x])) = pool_of dec (slots_of cs) ++ entry_of dec x :: (if is_wide x then [EUnused] else []).
Proof.
  unfold slots_of. cbn [pool_of]. rewrite flat_map_app, map_app. cbn [flat_map app]. rewrite app_nil_r. destruct (is_wide x); reflexivity.
Qed.

(** Writing one more constant at the end of the pool. *)
Theorem C61_constant E opts bs c cs ws rest count x w : let bs' := firstn 8 bs ++ two_bytes (count + width x) ++ concat (ws ++ [w]) ++ rest in
  ample E bs -> ample E bs' -> parse_class_with_options E opts bs = Ok c -> constants_of E bs cs ->
  starts_with_pool bs (minor_version c) (major_version c) count cs ws rest ->
  index_of cs (length cs) = count -> count + width x < 65536 -> constant_lang (major_version c) x w ->
  let ok := valid_constant (cesu8 E) (slots_of (cs ++ [x])) (major_version c) x /\ bootstrapped x c in
  (ok -> parse_class_with_options E opts bs'
         = Ok (class_with_pool (constant_pool c ++ entry_of (cesu8 E) x :: (if is_wide x then [EUnused] else [])) c))
  /\ (~ ok -> forall c', parse_class_with_options E opts bs' <> Ok c').
Proof.
  intros bs' Ha Ha' H Hcs Hst Hidx Hlt Hw ok. pose proof (ample_sane _ _ Ha) as Hs. pose proof (ample_sane _ _ Ha') as Hs'.
  destruct (proj1 (parse_Ok E opts (sane_stack _ _ Hs) bs c (sane_fits _ _ Hs)) H) as (cs' & Hc).
  assert (cs' = cs) as -> by (eapply constants_unique; [eapply class_constants; eauto|exact Hcs]).
  assert (Hst0 := Hst). destruct Hst0 as (m & vv & n & Hm & Hvv & Hn & He & Hws).
  assert (Hb8 : firstn 8 bs = m ++ vv).
  { rewrite He. destruct Hm as [Hm _]. destruct Hvv as (v1 & v2 & -> & [H1 _] & [H2 _]).
    rewrite app_assoc, firstn_app. replace (8 - length (m ++ v1 ++ v2))%nat with 0%nat by (rewrite !app_length; lia).
    rewrite firstn_all2 by (rewrite !app_length; lia). cbn [firstn]. rewrite app_nil_r. reflexivity. }
  assert (Hbs' : bs' = m ++ vv ++ two_bytes (count + width x) ++ concat (ws ++ [w]) ++ rest) by (unfold bs'; rewrite Hb8, <- app_assoc; reflexivity).
  assert (Hp : constant_pool c = pool_of (cesu8 E) (slots_of cs)) by (destruct Hc as (_ & Hp & _); exact Hp).
  split.
  - intros [Hv Hboot]. rewrite Hp, <- pool_more, Hbs'. apply C01_parse_iff_format; [rewrite <- Hbs'; exact Ha'|].
    exists (stack E), (cs ++ [x]). rewrite He in Hc, Hst. eapply class_more_constants; eauto.
  - intros Hno c' H'. apply Hno.
    destruct (proj1 (parse_Ok E opts (sane_stack _ _ Hs') bs' c' (sane_fits _ _ Hs')) H') as (cs' & Hc').
    destruct (class_starts _ _ _ _ _ _ _ Hc) as (count1 & ws1 & rest1 & S1 & Hf1 & Hval1 & Hrest1).
    assert (Hf : fills (wrapping E) count 1 cs).
    { destruct S1 as (m' & vv' & n' & Hm' & Hvv' & Hn' & He' & Hws'). rewrite He in He'.
      destruct Hm as [Hm _], Hm' as [Hm' _]. apply app_eq_len in He'; [|congruence]. destruct He' as [-> He'].
      assert (length vv = length vv').
      { destruct Hvv as (? & ? & -> & [? _] & [? _]). destruct Hvv' as (? & ? & -> & [? _] & [? _]). rewrite !app_length. lia. }
      apply app_eq_len in He'; [|auto]. destruct He' as [-> He'].
      assert (Hl : length n = length n') by (destruct Hn as [Hn _], Hn' as [Hn' _]; congruence). apply app_eq_len in He'; [|auto]. destruct He' as [-> He'].
      assert (count1 = count) as -> by (eapply uint_det; eauto). exact Hf1. }
    destruct (class_starts _ _ _ _ _ _ _ Hc') as (count2 & ws2 & rest2 & S2 & Hf2 & Hval2 & Hrest2).
    assert (S3 : starts_with_pool bs' (minor_version c) (major_version c) (count + width x) (cs ++ [x]) (ws ++ [w]) rest).
    { exists m, vv, (two_bytes (count + width x)). split; auto. split; auto. split; [apply two_bytes_u2; auto|]. split; auto. apply Forall2_app; auto. }
    assert (Hf3 : fills (wrapping E) (count + width x) 1 (cs ++ [x])).
    { apply fills_more; auto. unfold index_of in Hidx. rewrite firstn_all in Hidx. exact Hidx. }
    destruct (pool_unique _ _ _ _ _ _ _ _ _ _ _ _ _ _ S3 S2 Hf3 Hf2) as (Hmi & Hma & <- & <- & <- & <-).
    rewrite <- Hma in Hval2. apply Forall_app in Hval2. destruct Hval2 as [_ Hx]. pose proof (Forall_inv Hx) as Hv.
    split; [exact Hv|]. intros b nt Hd.
    assert (Hb : bootstrap_rules (cs ++ [x]) c') by (destruct Hc' as (_ & _ & _ & _ & _ & _ & Hb); exact Hb).
    destruct (Hb b nt) as (l & Hl & Hbl); [rewrite !in_app_iff; destruct Hd as [->| ->]; [left|right]; right; left; reflexivity|].
    exists l. split; auto. rewrite <- Hl. unfold bootstrap_tables. f_equal.
    pose proof (slots_more cs x) as Hsl. pose proof (pool_unique _ _ _ _ _ _ _ _ _ _ _ _ _ _ Hst S1 Hf Hf1) as (_ & _ & _ & _ & <- & <-).
    assert (Hok : members_ok c) by (destruct Hc as (_ & _ & ? & ? & ? & _); split; auto).
    assert (Hok' : members_ok c') by (destruct Hc' as (_ & _ & ? & ? & ? & _); split; auto).
    assert (Hfit : fits E rest).
    { pose proof (sane_fits _ _ Hs) as Hfit. rewrite He in Hfit. do 4 apply fits_suffix in Hfit. exact Hfit. }
    assert (Hrest1' : body E opts (cs ++ [x]) c rest).
    { assert (Hcl : forall i s, that (class_at (cesu8 E) (slots_of cs)) class_name i s -> that (class_at (cesu8 E) (slots_of (cs ++ [x]))) class_name i s).
      { intros i s. apply that_more. intros j b0. apply class_more, Hsl. }
      revert Hrest1. generalize rest. apply sub_cat; [apply sub_refl|]. apply sub_cat; [apply sub_ref, Hcl|]. apply sub_cat; [apply sub_opt_ref, Hcl|].
      apply sub_cat; [apply sub_table; intro; apply sub_ref, Hcl|]. apply sub_cat; [apply sub_table; intro; apply field_more, Hsl|].
      apply sub_cat; [apply sub_table; intro; apply method_more, Hsl|]. apply attributes_more, Hsl. }
    assert (Hvalall : Forall (valid_constant (cesu8 E) (slots_of (cs ++ [x])) (major_version c)) (cs ++ [x])).
    { apply Forall_app. split; [|constructor; auto]. eapply Forall_impl; [|exact Hval1]. intros y. apply valid_more, Hsl. }
    destruct (body_det E opts (cs ++ [x]) _ c c' rest (sane_stack _ _ Hs) Hfit Hvalall Hok Hok' Hrest1' Hrest2) as (_ & _ & _ & _ & _ & _ & Hat).
    exact Hat.
Qed.
(** A wide constant that is accepted, and a String constant that refers to itself and is not. *)
Example C61_meets : let long := [x05; x00; x00; x00; x00; x00; x00; x00; x07] in
  ample debug64 sample /\ ample debug64 (firstn 8 sample ++ two_bytes (57 + 2) ++ concat (sample_pieces ++ [long]) ++ sample_rest)
  /\ parse_class_with_options debug64 true sample = Ok sample_parsed /\ constants_of debug64 sample sample_constants
  /\ starts_with_pool sample (minor_version sample_parsed) (major_version sample_parsed) 57 sample_constants sample_pieces sample_rest
  /\ index_of sample_constants (length sample_constants) = 57
  /\ constant_lang (major_version sample_parsed) (CLong 7) long
  /\ (valid_constant (cesu8 debug64) (slots_of (sample_constants ++ [CLong 7])) (major_version sample_parsed) (CLong 7) /\ bootstrapped (CLong 7) sample_parsed)
  /\ ~ valid_constant (cesu8 debug64) (slots_of (sample_constants ++ [CString 57])) (major_version sample_parsed) (CString 57).
Proof.
  intro long. split; [apply ampleb_ample; vm_compute; reflexivity|]. split; [apply ampleb_ample; vm_compute; reflexivity|].
  split; [exact sample_parse|]. split; [exact sample_of|]. split; [exact sample_starts|]. split; [vm_compute; reflexivity|]. split; [|split].
  - split; [vm_compute; discriminate|]. exists [x05], (tl long). split; [reflexivity|]. split; [split; reflexivity|].
    split; [reflexivity|]. split; [vm_compute; split; [discriminate|reflexivity]|vm_compute; reflexivity].
  - split; [exact I|]. intros b nt [H|H]; discriminate H.
  - intros (r & H). vm_compute in H. discriminate.
Qed.
