(** * Running time: descriptors cost a number of steps linear in their length *)
From Verif Require Import Base M_Names M_Descriptors S_Names P_Names P_Descriptors W_Base W_Descriptors P_Work.
From Coq Require Import ZifyBool ZifyNat ZifyN.

(** What a segment costs, with what it is. *)
Lemma segment_loop_cost pre rest : forallb good pre = true ->
  match w_segment_loop (pre ++ rest) rest (str_len pre) with
  | (Ok (seg, Some c), n) => str_len pre + n <= str_len seg + 1
  | (_, n) => n <= 1 + str_len rest
  end.
Proof.
  revert pre; induction rest as [|c rest IH]; intros pre Hpre; cbn [w_segment_loop].
  - cbn. lia.
  - pose proof (segment_loop_spec pre (c :: rest) Hpre) as Hspec. cbn [segment_loop] in Hspec.
    pose proof (char_len_pos c) as Hc. cbn [str_len].
    destruct ((c =? ch "/") && (str_len pre =? 0)); [cbn [after steps fail]; lia|].
    destruct ((c =? ch ";") && (str_len pre =? 0)); [cbn [after steps fail]; lia|].
    destruct ((c =? ch "/") || (c =? ch ";")) eqn:Hs.
    + cbn [after steps]. destruct (str_slice (pre ++ c :: rest) 0 (str_len pre)) as [seg| | |] eqn:He; cbn [obind] in *; try lia.
      unfold str_slice in He. destruct (str_len pre <? 0); [discriminate|]. rewrite str_from_0 in He. cbn [obind] in He.
      rewrite N.sub_0_r, str_to_app in He. injection He as <-. lia.
    + destruct ((c =? ch ".") || (c =? ch "[") || (c =? ch "<") || (c =? ch ">")) eqn:Hb; [cbn [after steps fail]; lia|].
      assert (Hg : forallb good (pre ++ [c]) = true).
      { rewrite forallb_app, Hpre. cbn [forallb andb].
        apply orb_false_iff in Hs. rewrite !orb_false_iff in Hb. destruct Hb as [[[Hb1 Hb2] Hb3] Hb4]. destruct Hs as [H1 H2].
        change (negb ((c =? ch ".") || ((c =? ch ";") || ((c =? ch "[") || ((c =? ch "/")
             || ((c =? ch "<") || ((c =? ch ">") || false)))))) && true = true).
        rewrite H1, H2, Hb1, Hb2, Hb3, Hb4. reflexivity. }
      specialize (IH (pre ++ [c]) Hg).
      replace (pre ++ c :: rest) with ((pre ++ [c]) ++ rest) by (rewrite <- app_assoc; reflexivity).
      replace (str_len pre + char_len c) with (str_len (pre ++ [c])) by (rewrite str_len_app; simpl; lia).
      destruct (w_segment_loop _ rest _) as [[[seg [x|]]| | |] n]; cbn [after]; rewrite ?str_len_app in IH; cbn [str_len] in IH; try lia.
Qed.

Lemma segment_cost c :
  match w_unqualified_segment c with
  | (Ok (seg, Some x), n) => n <= str_len seg + 1
  | (_, n) => n <= 1 + str_len c
  end.
Proof.
  pose proof (segment_loop_cost [] c eq_refl) as H. unfold w_unqualified_segment. change (str_len []) with 0 in H. cbn [app] in H.
  destruct (w_segment_loop c c 0) as [[[seg [x|]]| | |] n]; lia.
Qed.

Lemma class_descriptor_loop_cost fuel a b c : (length c < fuel)%nat ->
  match w_class_descriptor_loop fuel (a ++ b ++ c) (str_len a) (str_len a + str_len b) with
  | (Ok n, k) => k + 4 * str_len b <= 4 * str_len n + str_len b + 4
  | (_, k) => k <= 4 * str_len c + 4
  end.
Proof.
  revert b c; induction fuel as [|fuel IH]; intros b c Hf; [lia|].
  cbn [w_class_descriptor_loop].
  replace (a ++ b ++ c) with ((a ++ b) ++ c) by (rewrite app_assoc; reflexivity).
  replace (str_len a + str_len b) with (str_len (a ++ b)) by (rewrite str_len_app; reflexivity).
  rewrite str_from_app. cbn [mbind steps].
  pose proof (segment_spec c) as Hs. pose proof (segment_cost c) as Hk. rewrite <- (fg_segment c) in Hs.
  destruct (w_unqualified_segment c) as [[[seg [x|]]|e|q|] k]; cbn [fst] in Hs; cbn [mbind]; try contradiction; cbn [steps fail]; try lia.
  destruct Hs as (tl & -> & Hne & Hg & Hx).
  assert (Hl : 1 <= str_len seg). { destruct seg; [congruence|]. cbn. pose proof (char_len_pos c). lia. }
  destruct Hx as [-> | ->].
  - replace (ch "/" =? ch ";") with false by reflexivity. rewrite N.eqb_refl.
    replace ((a ++ b) ++ seg ++ ch "/" :: tl) with (a ++ (b ++ seg ++ [ch "/"]) ++ tl) by (rewrite <- !app_assoc; reflexivity).
    replace (str_len (a ++ b) + (str_len seg + 1)) with (str_len a + str_len (b ++ seg ++ [ch "/"]))
        by (rewrite !str_len_app; change (str_len [ch "/"]) with 1; lia).
    specialize (IH (b ++ seg ++ [ch "/"]) tl). rewrite app_length in Hf. simpl in Hf. specialize (IH ltac:(lia)).
    rewrite !str_len_app in *. cbn [str_len] in *. change (char_len (ch "/")) with 1 in *.
    destruct (w_class_descriptor_loop fuel _ _ _) as [[n|e|q|] k']; lia.
  - rewrite N.eqb_refl.
    replace ((a ++ b) ++ seg ++ ch ";" :: tl) with (a ++ (b ++ seg) ++ ch ";" :: tl) by (rewrite <- !app_assoc; reflexivity).
    replace (str_len (a ++ b) + str_len seg) with (str_len a + str_len (b ++ seg)) by (rewrite !str_len_app; lia).
    rewrite str_slice_app. cbn [steps]. rewrite !str_len_app. lia.
Qed.
Lemma class_descriptor_cost a c :
  match w_class_descriptor (a ++ c) (str_len a) with
  | (Ok n, k) => k <= 4 * str_len n + 4
  | (_, k) => k <= 4 * str_len c + 4
  end.
Proof.
  unfold w_class_descriptor. pose proof (class_descriptor_loop_cost (S (length (a ++ c))) a [] c) as H.
  rewrite app_length in H. simpl app in H. rewrite app_length. change (str_len []) with 0 in H. rewrite !N.add_0_r in H.
  specialize (H ltac:(lia)). destruct (w_class_descriptor_loop _ _ _ _) as [[n|e|q|] k]; lia.
Qed.

Lemma field_loop_cost pre dims chars : dims <= 255 ->
  match w_field_descriptor_loop (pre ++ repeat (ch "[") (N.to_nat dims) ++ chars) (str_len pre) chars dims with
  | (Ok d, k) => k + dims <= 4 * str_len (field_text d) + 2
  | (_, k) => k <= 4 * str_len chars + 6
  end.
Proof.
  revert dims; induction chars as [|c chars IH]; intros dims Hd; cbn [w_field_descriptor_loop].
  - cbn. lia.
  - cbn [str_len]. pose proof (char_len_pos c) as Hc'. destruct (N.eqb_spec c (ch "[")) as [->|Hc].
    + destruct (N.ltb_spec 255 (dims + 1)).
      * cbn. lia.
      * replace (repeat (ch "[") (N.to_nat dims) ++ ch "[" :: chars)
          with (repeat (ch "[") (N.to_nat (dims + 1)) ++ chars).
        2:{ replace (N.to_nat (dims + 1)) with (S (N.to_nat dims)) by lia.
            cbn [repeat]. rewrite repeat_cons, <- app_assoc. reflexivity. }
        specialize (IH (dims + 1) ltac:(lia)).
        destruct (w_field_descriptor_loop _ _ _ _) as [[n|e|q|] k]; cbn [after]; lia.
    + rewrite (N.mod_small dims) by lia.
      destruct (N.eqb_spec c (ch "L")) as [->|HL].
      * assert (HE : forall (x1 x2 x3 x4 x5 x6 x7 x8 x9 : metered field_type),
          (if ch "L" =? ch "B" then x1 else if ch "L" =? ch "C" then x2 else if ch "L" =? ch "D" then x3 else if ch "L" =? ch "F" then x4
           else if ch "L" =? ch "I" then x5 else if ch "L" =? ch "J" then x6 else if ch "L" =? ch "S" then x7 else if ch "L" =? ch "Z" then x8
           else x9) = x9) by reflexivity.
        rewrite HE. clear HE.
        replace (pre ++ repeat (ch "[") (N.to_nat dims) ++ ch "L" :: chars)
             with ((pre ++ repeat (ch "[") (N.to_nat dims) ++ [ch "L"]) ++ chars)
             by (rewrite <- !app_assoc; reflexivity).
        replace (str_len pre + dims + 1) with (str_len (pre ++ repeat (ch "[") (N.to_nat dims) ++ [ch "L"])).
        2:{ rewrite !str_len_app, str_len_brackets. change (str_len [ch "L"]) with 1. lia. }
        pose proof (class_descriptor_cost (pre ++ repeat (ch "[") (N.to_nat dims) ++ [ch "L"]) chars) as HP.
        destruct (w_class_descriptor _ _) as [[n|e|q|] k]; cbn [mbind mok steps after]; try lia.
        all: try (rewrite dims_brackets; cbn [dimensions fd_type type_text]; rewrite !str_len_app, str_len_brackets;
        change (str_len (lit "L")) with 1; change (str_len (lit ";")) with 1; lia).
      * repeat match goal with
        | |- context [if c =? ?x then _ else _] => destruct (c =? x)
        end;
        unfold fail; cbn [mbind mok steps after]; try lia;
        rewrite dims_brackets; cbn [dimensions fd_type type_text]; rewrite !str_len_app, str_len_brackets;
          match goal with |- context [str_len (lit ?x)] => change (str_len (lit x)) with 1 end; lia.
Qed.
Lemma field_cost pre s :
  match w_parse_field_descriptor (pre ++ s) (str_len pre) with
  | (Ok d, k) => k <= 4 * str_len (field_text d) + 3
  | (_, k) => k <= 4 * str_len s + 7
  end.
Proof.
  unfold w_parse_field_descriptor. rewrite str_from_app. cbn [mbind steps].
  pose proof (field_loop_cost pre 0 s ltac:(lia)) as H. cbn [N.to_nat repeat app] in H.
  destruct (w_field_descriptor_loop _ _ _ _) as [[n|e|q|] k]; lia.
Qed.

Lemma params_cost fuel pre s : (length s < fuel)%nat ->
  match w_params_loop fuel (pre ++ s) (str_len pre) with
  | (Ok (ps, ix), k) => k <= 8 * str_len (concat (map field_text ps)) + 1
  | (_, k) => k <= 8 * str_len s + 8
  end.
Proof.
  revert pre s; induction fuel as [|fuel IH]; intros pre s Hf; [lia|]. cbn [w_params_loop].
  assert (Hclose : exists k, (if str_len pre <? str_len (pre ++ s)
             then let~ b := steps 1 (str_byte_at (pre ++ s) (str_len pre)) in mok (b =? ch ")") else steps 1 (Ok false))
     = (Ok (match s with c :: _ => c =? ch ")" | [] => false end), k) /\ k <= 1).
  { destruct s as [|c s].
    - rewrite app_nil_r, N.ltb_irrefl. exists 1. split; [reflexivity|lia].
    - destruct (N.ltb_spec (str_len pre) (str_len (pre ++ c :: s))) as [H|H].
      + destruct (str_byte_at_app pre c s (ch ")") eq_refl) as (b & -> & Hiff). cbn [mbind mok steps]. eexists. split; [|shelve].
        f_equal. f_equal. destruct (N.eqb_spec b (ch ")")), (N.eqb_spec c (ch ")")); auto; tauto.
        Unshelve. lia.
      + rewrite str_len_app in H. simpl in H. pose proof (char_len_pos c). lia. }
  destruct Hclose as (k0 & -> & Hk0). cbn [mbind].
  destruct (match s with c :: _ => c =? ch ")" | [] => false end).
  { cbn [mok steps map concat str_len]. lia. }
  pose proof (field_cost pre s) as Hk. pose proof (parse_field_descriptor_spec pre s) as H.
  rewrite <- (fg_field (pre ++ s) (str_len pre)) in H.
  destruct (w_parse_field_descriptor (pre ++ s) (str_len pre)) as [[d|e|q|] k]; cbn [fst decides] in H; try contradiction; cbn [mbind]; try lia.
  destruct H as [[Hv [rest ->]] _]. rewrite field_byte_len, <- str_len_app.
  replace (pre ++ field_text d ++ rest) with ((pre ++ field_text d) ++ rest) by (rewrite <- app_assoc; auto).
  assert (Hne : 1 <= str_len (field_text d)).
  { pose proof (field_text_nonempty d) as Hne. destruct (field_text d) as [|c t]; [congruence|]. cbn. pose proof (char_len_pos c). lia. }
  assert (Hl : (length rest < fuel)%nat).
  { rewrite app_length in Hf. pose proof (field_text_nonempty d). destruct (field_text d); [congruence|]. simpl in Hf. lia. }
  specialize (IH (pre ++ field_text d) rest Hl). rewrite !str_len_app in *.
  destruct (w_params_loop fuel _ _) as [[[ps ix]|e|q|] k1]; cbn [mbind mok steps fst snd map concat]; rewrite ?str_len_app; lia.
Qed.

Lemma return_cost pre s : snd (w_parse_return_descriptor (pre ++ s) (str_len pre)) <= 4 * str_len s + 8.
Proof.
  unfold w_parse_return_descriptor. rewrite str_from_app. cbn [mbind steps].
  destruct (str_eqb s (lit "V")); [cbn [mok steps snd]; lia|].
  pose proof (field_cost pre s) as Hk. pose proof (parse_field_descriptor_spec pre s) as H.
  rewrite <- (fg_field (pre ++ s) (str_len pre)) in H.
  destruct (w_parse_field_descriptor (pre ++ s) (str_len pre)) as [[d|e|q|] k]; cbn [fst decides] in H; try contradiction; cbn [mbind mok steps snd]; try lia.
  destruct H as [[_ [rest ->]] _]. rewrite str_len_app. lia.
Qed.

(** A method descriptor *)
Lemma method_cost s : snd (w_parse_method_descriptor s 0) <= 8 * str_len s + 12.
Proof.
  unfold w_parse_method_descriptor.
  assert (Hopen : exists k, (if str_len s <=? 0 then steps 1 (Ok true) else let~ b := steps 1 (str_byte_at s 0) in mok (negb (b =? ch "(")))
     = (Ok (match s with c :: _ => negb (c =? ch "(") | [] => true end), k) /\ k <= 1).
  { destruct s as [|c s]; [exists 1; split; [reflexivity|lia]|].
    destruct (N.leb_spec (str_len (c :: s)) 0) as [H|H].
    - simpl in H. pose proof (char_len_pos c). lia.
    - destruct (str_byte_at_app [] c s (ch "(") eq_refl) as (b & Hb & Hiff).
      simpl app in Hb. change (str_len []) with 0 in Hb. rewrite Hb. cbn [mbind mok steps]. eexists. split; [|shelve].
      f_equal. f_equal. f_equal. destruct (N.eqb_spec b (ch "(")), (N.eqb_spec c (ch "(")); auto; tauto.
      Unshelve. lia. }
  destruct Hopen as (k0 & -> & Hk0). cbn [mbind].
  destruct s as [|c s]; [cbn [steps snd str_len]; lia|].
  destruct (N.eqb_spec c (ch "(")) as [->|Hc]; cbn [negb]; [|cbn [steps snd str_len]; lia].
  pose proof (params_loop_spec (S (length (ch "(" :: s))) [ch "("] s ltac:(simpl; lia)) as HP.
  pose proof (params_cost (S (length (ch "(" :: s))) [ch "("] s ltac:(simpl; lia)) as HK.
  rewrite <- fg_params in HP.
  change ([ch "("] ++ s) with (ch "(" :: s) in HP, HK. change (str_len [ch "("]) with 1 in HP, HK.
  simpl (0 + 1).
  destruct (w_params_loop _ _ _) as [[[ps ix]|e|q|] k1]; cbn [fst] in HP; cbn [mbind fst snd]; try contradiction; [|cbn [str_len]; lia].
  destruct HP as (rest & [HF He] & -> & Hu). subst s.
  replace (ch "(" :: concat (map field_text ps) ++ ch ")" :: rest)
      with (([ch "("] ++ concat (map field_text ps) ++ [ch ")"]) ++ rest)
      by (rewrite <- !app_assoc; reflexivity).
  replace (str_len ([ch "("] ++ concat (map field_text ps)) + 1)
      with (str_len ([ch "("] ++ concat (map field_text ps) ++ [ch ")"])).
  2:{ rewrite !str_len_app. change (str_len [ch ")"]) with 1. lia. }
  pose proof (return_cost ([ch "("] ++ concat (map field_text ps) ++ [ch ")"]) rest) as HR.
  rewrite !str_len_app in *. change (str_len [ch ")"]) with 1 in *. change (str_len [ch "("]) with 1 in *.
  destruct (w_parse_return_descriptor _ _) as [[r|e|q|] k2]; cbn [mbind mok steps snd] in *; lia.
Qed.
Lemma field_cost_0 s : snd (w_parse_field_descriptor s 0) <= 4 * str_len s + 7.
Proof.
  pose proof (field_cost [] s) as H. pose proof (parse_field_descriptor_0 s) as HP. rewrite <- (fg_field s 0) in HP.
  cbn [app] in H. change (str_len []) with 0 in H.
  destruct (w_parse_field_descriptor s 0) as [[d|e|q|] k]; cbn [fst decides snd] in *; try lia.
  destruct HP as [[_ [rest ->]] _]. rewrite str_len_app. lia.
Qed.
Lemma return_cost_0 s : snd (w_parse_return_descriptor s 0) <= 4 * str_len s + 8.
Proof. exact (return_cost [] s). Qed.
Lemma is_field_cost s : snd (w_is_field_descriptor s) <= 4 * str_len s + 8.
Proof. unfold w_is_field_descriptor, w_ok_and. pose proof (field_cost_0 s). destruct (w_parse_field_descriptor s 0). cbn [snd] in *. lia. Qed.
Lemma is_array_cost s : snd (w_is_array_descriptor s) <= 4 * str_len s + 9.
Proof.
  unfold w_is_array_descriptor. pose proof (is_field_cost s). destruct (w_is_field_descriptor s) as [[[]|e|q|] k]; cbn [mbind snd] in *; try lia.
  - destruct (str_byte_at s 0); cbn [mbind steps mok snd]; lia.
  - cbn [mok steps snd]. lia.
Qed.
Lemma is_return_cost s : snd (w_is_return_descriptor s) <= 4 * str_len s + 9.
Proof. unfold w_is_return_descriptor, w_ok_and. pose proof (return_cost_0 s). destruct (w_parse_return_descriptor s 0). cbn [snd] in *. lia. Qed.
Lemma array_cost s : snd (w_parse_array_descriptor s) <= 4 * str_len s + 10.
Proof.
  unfold w_parse_array_descriptor. destruct s as [|c s]; [cbn; lia|].
  destruct (str_byte_at (c :: s) 0); cbn [mbind steps mok snd]; try lia.
  destruct (negb _); [cbn [mok steps snd]; lia|]. pose proof (field_cost_0 (c :: s)) as H.
  destruct (w_parse_field_descriptor (c :: s) 0) as [[d|e|q|] k]; cbn [mbind snd] in *; try lia.
  destruct (negb _); cbn [mok steps snd]; lia.
Qed.
Lemma params_count ps : N.of_nat (length ps) <= str_len (concat (map field_text ps)).
Proof.
  induction ps as [|d ps IH]; [reflexivity|]. cbn [length map concat]. rewrite str_len_app.
  pose proof (field_text_nonempty d) as Hne. destruct (field_text d) as [|c t]; [congruence|]. cbn. pose proof (char_len_pos c). lia.
Qed.
Lemma method_parsed s d : parse_method_descriptor s 0 = Ok d -> method_desc_byte_len d <= str_len s /\ N.of_nat (length (parameters d)) <= str_len s.
Proof.
  intro H. pose proof (parse_method_descriptor_spec s) as HP. rewrite H in HP. destruct HP as [[_ (rest & -> & _)] _].
  rewrite method_byte_len, str_len_app. split; [lia|]. unfold method_text. rewrite !str_len_app. pose proof (params_count (parameters d)). lia.
Qed.
Lemma field_parsed s d : parse_field_descriptor s 0 = Ok d -> field_desc_byte_len d <= str_len s.
Proof.
  intro H. pose proof (parse_field_descriptor_0 s) as HP. rewrite H in HP. destruct HP as [[_ [rest ->]] _].
  rewrite field_byte_len, str_len_app. lia.
Qed.
Lemma is_method_cost s : snd (w_is_method_descriptor s) <= 9 * str_len s + 13.
Proof.
  unfold w_is_method_descriptor. pose proof (method_cost s) as H. pose proof (method_parsed s) as HP. rewrite <- (fg_method s 0) in HP.
  destruct (w_parse_method_descriptor s 0) as [[d|e|q|] k]; cbn [fst snd] in *; try lia. destruct (HP d eq_refl). lia.
Qed.

Lemma class_name_loop_cost fuel pre s : (length s < fuel)%nat -> snd (w_class_name_loop fuel (pre ++ s) (str_len pre)) <= 2 * str_len s + 2.
Proof.
  revert pre s; induction fuel as [|fuel IH]; intros pre s Hf; [lia|]. cbn [w_class_name_loop].
  rewrite str_from_app. cbn [mbind steps].
  pose proof (segment_spec s) as Hs. pose proof (segment_cost s) as Hk. rewrite <- (fg_segment s) in Hs.
  destruct (w_unqualified_segment s) as [[[seg [x|]]|e|q|] k]; cbn [fst] in Hs; cbn [mbind]; try contradiction; cbn [steps mok snd]; try lia.
  destruct Hs as (tl & -> & Hne & Hg & Hx).
  assert (Hl : 1 <= str_len seg). { destruct seg; [congruence|]. cbn. pose proof (char_len_pos c). lia. }
  rewrite str_len_app. cbn [str_len].
  destruct Hx as [-> | ->].
  - replace (ch "/" =? ch ";") with false by reflexivity. rewrite N.eqb_refl.
    replace (pre ++ seg ++ ch "/" :: tl) with ((pre ++ seg ++ [ch "/"]) ++ tl) by (rewrite <- !app_assoc; reflexivity).
    replace (str_len pre + (str_len seg + 1)) with (str_len (pre ++ seg ++ [ch "/"]))
        by (rewrite !str_len_app; change (str_len [ch "/"]) with 1; lia).
    rewrite app_length in Hf. simpl in Hf. specialize (IH (pre ++ seg ++ [ch "/"]) tl ltac:(lia)).
    change (char_len (ch "/")) with 1. destruct (w_class_name_loop fuel _ _) as [r k']; cbn [snd] in *. lia.
  - rewrite N.eqb_refl. cbn [steps snd]. change (char_len (ch ";")) with 1. lia.
Qed.
Lemma class_name_cost s : snd (w_class_name_try_from s) <= 2 * str_len s + 2.
Proof.
  unfold w_class_name_try_from. pose proof (class_name_loop_cost (S (length s)) [] s ltac:(lia)) as H. cbn [app] in H. change (str_len []) with 0 in H.
  destruct (w_class_name_loop _ _ _) as [[u|e|q|] k]; cbn [mbind mok steps snd] in *; lia.
Qed.
