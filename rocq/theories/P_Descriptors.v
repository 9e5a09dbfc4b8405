(** * Descriptors: the parsers of descriptors.rs decide the grammar. *)
From Verif Require Import Base M_Names M_Descriptors S_Names P_Names.
From Coq Require Import ZifyBool ZifyNat ZifyN.

(** [m] computes the unique [a] with [P a], or reports that there is none; it never panics. *)
Definition decides {A} (m : outcome A) (P : A -> Prop) : Prop :=
  match m with
  | Ok a => P a /\ (forall b, P b -> b = a)
  | Err _ => forall a, ~ P a
  | Panic _ | Diverge => False
  end.
Lemma decides_iff {A} (m : outcome A) P : decides m P -> forall a, m = Ok a <-> P a.
Proof.
  intros H a. destruct m as [b|e|q|]; simpl in H; try tauto.
  - destruct H as [H1 H2]. split; [intros [= ->]; auto|]. intro Ha. rewrite (H2 a Ha); auto.
  - split; [discriminate|]. intro Ha. exfalso; eapply H; eauto.
Qed.
Lemma decides_ext {A} (m : outcome A) (P Q : A -> Prop) :
  (forall a, P a <-> Q a) -> decides m P -> decides m Q.
Proof.
  intros H. destruct m; simpl; auto.
  - intros [H1 H2]. split; [apply H; auto|]. intros b Hb. apply H2, H; auto.
  - intros H1 a Ha. apply (H1 a), H; auto.
Qed.
Lemma decides_ctx {A} c (m : outcome A) P : decides m P -> decides (ctx c m) P.
Proof. destruct m; auto. Qed.

(** ** Byte indices of strings *)
Lemma char_len_pos c : 0 < char_len c.
Proof.
  unfold char_len. destruct (c <? 0x80), (c <? 0x800), (c <? 0x10000); reflexivity.
Qed.
Lemma str_len_app a b : str_len (a ++ b) = str_len a + str_len b.
Proof. induction a as [|c a IH]; simpl; [reflexivity|]. rewrite IH. lia. Qed.
Lemma str_len_length s : N.of_nat (length s) <= str_len s.
Proof.
  induction s as [|c s IH]; simpl; [lia|]. pose proof (char_len_pos c). lia.
Qed.
Lemma str_len_zero s : str_len s = 0 -> s = [].
Proof. destruct s as [|c s]; auto. simpl. pose proof (char_len_pos c). lia. Qed.

Lemma str_from_app pre rest : str_from (pre ++ rest) (str_len pre) = Ok rest.
Proof.
  induction pre as [|c pre IH]; cbn [app str_len].
  - destruct rest; reflexivity.
  - cbn [str_from]. pose proof (char_len_pos c).
    destruct (N.eqb_spec (char_len c + str_len pre) 0); [lia|].
    destruct (N.leb_spec (char_len c) (char_len c + str_len pre)); [|lia].
    replace (char_len c + str_len pre - char_len c) with (str_len pre) by lia. exact IH.
Qed.
Lemma str_to_app a b : str_to (a ++ b) (str_len a) = Ok a.
Proof.
  induction a as [|c a IH]; cbn [app str_len].
  - destruct b; reflexivity.
  - cbn [str_to]. pose proof (char_len_pos c).
    destruct (N.eqb_spec (char_len c + str_len a) 0); [lia|].
    destruct (N.leb_spec (char_len c) (char_len c + str_len a)); [|lia].
    replace (char_len c + str_len a - char_len c) with (str_len a) by lia.
    rewrite IH. reflexivity.
Qed.
Lemma str_slice_app a b c : str_slice (a ++ b ++ c) (str_len a) (str_len a + str_len b) = Ok b.
Proof.
  unfold str_slice. destruct (N.ltb_spec (str_len a + str_len b) (str_len a)); [lia|].
  rewrite str_from_app. cbn [obind].
  replace (str_len a + str_len b - str_len a) with (str_len b) by lia. apply str_to_app.
Qed.
Lemma str_from_0 s : str_from s 0 = Ok s.
Proof. destruct s; reflexivity. Qed.

(** ** Segments *)
Definition good (c : char) : bool := negb (in_lit (lit ".;[/<>") c).
Lemma class_segment_good s : class_segment s <-> s <> [] /\ forallb good s = true.
Proof. unfold class_segment. rewrite without_forallb. reflexivity. Qed.

(** What [parse_unqualified_segment] does on [s ++ rest] where [s] is good. *)
Lemma segment_loop_spec pre rest : forallb good pre = true ->
  match segment_loop (pre ++ rest) rest (str_len pre) with
  | Ok (seg, None) => seg = pre ++ rest /\ forallb good seg = true
  | Ok (seg, Some c) => exists tl, pre ++ rest = seg ++ c :: tl /\ seg <> [] /\ forallb good seg = true
                        /\ (c = ch "/" \/ c = ch ";")
  | Err _ => exists seg c tl, pre ++ rest = seg ++ c :: tl /\ forallb good seg = true /\ good c = false
             /\ ((c = ch "/" \/ c = ch ";") -> seg = [])
  | _ => False
  end.
Proof.
  revert pre; induction rest as [|c rest IH]; intros pre Hpre; cbn [segment_loop].
  - rewrite app_nil_r. auto.
  - destruct (N.eqb_spec c (ch "/")) as [->|H1]; [destruct (N.eqb_spec (str_len pre) 0) as [H0|H0]|];
      cbn [andb orb].
    + apply str_len_zero in H0. subst pre. exists [], (ch "/"), rest. repeat split; auto.
    + replace (ch "/" =? ch ";") with false by reflexivity. cbn [andb].
      unfold str_slice. destruct (N.ltb_spec (str_len pre) 0); [lia|].
      rewrite str_from_0. cbn [obind]. replace (str_len pre - 0) with (str_len pre) by lia.
      rewrite str_to_app. cbn [obind]. exists rest. repeat split; auto.
      intros ->. apply H0; reflexivity.
    + destruct (N.eqb_spec c (ch ";")) as [->|H2]; [destruct (N.eqb_spec (str_len pre) 0) as [H0|H0]|];
        cbn [andb orb].
      * apply str_len_zero in H0. subst pre. exists [], (ch ";"), rest. repeat split; auto.
      * unfold str_slice. destruct (N.ltb_spec (str_len pre) 0); [lia|].
        rewrite str_from_0. cbn [obind]. replace (str_len pre - 0) with (str_len pre) by lia.
        rewrite str_to_app. cbn [obind]. exists rest. repeat split; auto.
        intros ->. apply H0; reflexivity.
      * destruct ((c =? ch ".") || (c =? ch "[") || (c =? ch "<") || (c =? ch ">")) eqn:Hb.
        -- exists pre, c, rest. repeat split; auto.
           ++ rewrite !orb_true_iff, !N.eqb_eq in Hb.
              destruct Hb as [[[->| ->]| ->]| ->]; reflexivity.
           ++ intros [Hc|Hc]; congruence.
        -- replace (pre ++ c :: rest) with ((pre ++ [c]) ++ rest) by (rewrite <- app_assoc; reflexivity).
           replace (str_len pre + char_len c) with (str_len (pre ++ [c]))
             by (rewrite str_len_app; simpl; lia).
           apply IH. rewrite forallb_app, Hpre. cbn [forallb andb].
           rewrite !orb_false_iff in Hb. destruct Hb as [[[Hb1 Hb2] Hb3] Hb4].
           apply N.eqb_neq in H1, H2.
           change (negb ((c =? ch ".") || ((c =? ch ";") || ((c =? ch "[") || ((c =? ch "/")
             || ((c =? ch "<") || ((c =? ch ">") || false)))))) && true = true).
           rewrite H1, H2, Hb1, Hb2, Hb3, Hb4. reflexivity.
Qed.

Lemma segment_spec rest :
  match parse_unqualified_segment rest with
  | Ok (seg, None) => seg = rest /\ forallb good seg = true
  | Ok (seg, Some c) => exists tl, rest = seg ++ c :: tl /\ seg <> [] /\ forallb good seg = true
                        /\ (c = ch "/" \/ c = ch ";")
  | Err _ => exists seg c tl, rest = seg ++ c :: tl /\ forallb good seg = true /\ good c = false
             /\ ((c = ch "/" \/ c = ch ";") -> seg = [])
  | _ => False
  end.
Proof. exact (segment_loop_spec [] rest eq_refl). Qed.

(** The first bad character of a string determines the good prefix. *)
Lemma good_split_unique a b c d x y :
  forallb good a = true -> forallb good b = true -> good c = false -> good d = false ->
  a ++ c :: x = b ++ d :: y -> a = b /\ c = d /\ x = y.
Proof.
  revert b; induction a as [|u a IH]; intros [|v b] Ha Hb Hc Hd H; simpl in *.
  - injection H as -> ->; auto.
  - injection H as -> _. rewrite Hc in Hb. discriminate.
  - injection H as -> _. rewrite Hd in Ha. discriminate.
  - injection H as -> H. apply andb_true_iff in Ha, Hb.
    destruct (IH b) as (-> & -> & ->); tauto.
Qed.
Lemma good_nil_bad a b c x : forallb good a = true -> good c = false -> a = b ++ c :: x -> False.
Proof. intros Ha Hc ->. rewrite forallb_app in Ha. simpl in Ha. rewrite Hc, andb_false_r in Ha. discriminate. Qed.

Lemma good_slash : good (ch "/") = false. Proof. reflexivity. Qed.
Lemma good_semi : good (ch ";") = false. Proof. reflexivity. Qed.

(** ** Class names inside descriptors *)
Lemma class_name_rec s : class_name s <->
  class_segment s \/ exists a b, s = a ++ ch "/" :: b /\ class_segment a /\ class_name b.
Proof.
  split.
  - intros (segs & Hn & HF & ->). destruct segs as [|a segs]; [congruence|].
    inversion HF as [|? ? Ha HF']; subst. destruct segs as [|b segs]; [left; auto|].
    right. exists a, (slashes (b :: segs)). split; [reflexivity|]. split; auto.
    exists (b :: segs). repeat split; auto. discriminate.
  - intros [H|(a & b & -> & Ha & segs & Hn & HF & ->)].
    + exists [s]. repeat split; auto. discriminate.
    + exists (a :: segs). repeat split; [discriminate|auto|].
      rewrite slashes_cons by auto. reflexivity.
Qed.

(** The text of a class name followed by a semicolon, and what remains. *)
Definition class_then_semi (c m tl : str) : Prop := c = m ++ ch ";" :: tl /\ class_name m.

Lemma class_descriptor_loop_spec fuel a b c : (length c < fuel)%nat ->
  match class_descriptor_loop fuel (a ++ b ++ c) (str_len a) (str_len a + str_len b) with
  | Ok n => exists m tl, class_then_semi c m tl /\ n = b ++ m
            /\ (forall m' tl', class_then_semi c m' tl' -> m' = m /\ tl' = tl)
  | Err _ => forall m tl, ~ class_then_semi c m tl
  | _ => False
  end.
Proof.
  revert b c; induction fuel as [|fuel IH]; intros b c Hf; [lia|].
  cbn [class_descriptor_loop].
  replace (a ++ b ++ c) with ((a ++ b) ++ c) by (rewrite app_assoc; reflexivity).
  replace (str_len a + str_len b) with (str_len (a ++ b)) by (rewrite str_len_app; reflexivity).
  rewrite str_from_app. cbn [obind].
  pose proof (segment_spec c) as Hs.
  destruct (parse_unqualified_segment c) as [[seg [x|]]|e|q|]; cbn [obind]; try contradiction.
  - destruct Hs as (tl & -> & Hne & Hg & Hx).
    destruct Hx as [-> | ->]; cbn [N.eqb].
    + (* slash *)
      replace (ch "/" =? ch ";") with false by reflexivity. rewrite N.eqb_refl.
      replace ((a ++ b) ++ seg ++ ch "/" :: tl) with (a ++ (b ++ seg ++ [ch "/"]) ++ tl)
        by (rewrite <- !app_assoc; reflexivity).
      replace (str_len (a ++ b) + (str_len seg + 1)) with (str_len a + str_len (b ++ seg ++ [ch "/"]))
        by (rewrite !str_len_app; change (str_len [ch "/"]) with 1; lia).
      specialize (IH (b ++ seg ++ [ch "/"]) tl). rewrite app_length in Hf. simpl in Hf.
      specialize (IH ltac:(lia)).
      destruct (class_descriptor_loop fuel _ _ _) as [n|e|q|]; try contradiction.
      * destruct IH as (m & tl2 & [-> Hm] & -> & Hu).
        exists (seg ++ ch "/" :: m), tl2. split; [split|split].
        -- rewrite <- app_assoc. reflexivity.
        -- apply class_name_rec. right. exists seg, m. repeat split; auto; apply class_segment_good; auto.
        -- rewrite <- !app_assoc. reflexivity.
        -- intros m' tl' [He Hm']. apply class_name_rec in Hm'.
           destruct Hm' as [Hseg|(s2 & m2 & -> & Hs2 & Hm2)].
           ++ apply class_segment_good in Hseg. destruct Hseg as [_ Hg'].
              apply good_split_unique in He; auto. destruct He as (_ & He & _). discriminate.
           ++ apply class_segment_good in Hs2. destruct Hs2 as [_ Hg'].
              rewrite <- app_assoc in He. apply good_split_unique in He; auto.
              destruct He as (<- & _ & He). destruct (Hu m2 tl') as [-> ->]; auto. split; auto.
      * intros m tl2 [He Hm]. apply class_name_rec in Hm.
        destruct Hm as [Hseg|(s2 & m2 & -> & Hs2 & Hm2)].
        -- apply class_segment_good in Hseg. destruct Hseg as [_ Hg'].
           apply good_split_unique in He; auto. destruct He as (_ & He & _). discriminate.
        -- apply class_segment_good in Hs2. destruct Hs2 as [_ Hg'].
           rewrite <- app_assoc in He. apply good_split_unique in He; auto.
           destruct He as (<- & _ & He). apply (IH m2 tl2). split; auto.
    + (* semicolon *)
      rewrite N.eqb_refl.
      replace ((a ++ b) ++ seg ++ ch ";" :: tl) with (a ++ (b ++ seg) ++ ch ";" :: tl)
        by (rewrite <- !app_assoc; reflexivity).
      replace (str_len (a ++ b) + str_len seg) with (str_len a + str_len (b ++ seg))
        by (rewrite !str_len_app; lia).
      rewrite str_slice_app.
      exists seg, tl. split; [split; auto|split; auto].
      * apply class_name_rec. left. apply class_segment_good; auto.
      * intros m' tl' [He Hm']. apply class_name_rec in Hm'.
        destruct Hm' as [Hseg|(s2 & m2 & -> & Hs2 & Hm2)].
        -- apply class_segment_good in Hseg. destruct Hseg as [_ Hg'].
           apply good_split_unique in He; auto. destruct He as (-> & _ & ->). auto.
        -- apply class_segment_good in Hs2. destruct Hs2 as [_ Hg'].
           rewrite <- app_assoc in He. apply good_split_unique in He; auto.
           destruct He as (_ & He & _). discriminate.
  - (* no terminator *)
    destruct Hs as [-> Hg]. intros m tl [He Hm].
    apply (good_nil_bad _ _ _ _ Hg good_semi He).
  - (* bad character *)
    destruct Hs as (seg & x & tl & -> & Hg & Hx & Himp).
    intros m tl2 [He Hm]. apply class_name_rec in Hm.
    destruct Hm as [Hseg|(s2 & m2 & -> & Hs2 & Hm2)].
    + apply class_segment_good in Hseg. destruct Hseg as [Hne Hg'].
      apply good_split_unique in He; auto. destruct He as (-> & -> & _). apply Hne, Himp; auto.
    + apply class_segment_good in Hs2. destruct Hs2 as [Hne Hg'].
      rewrite <- app_assoc in He. apply good_split_unique in He; auto.
      destruct He as (-> & -> & _). apply Hne, Himp; auto.
Qed.

Lemma parse_class_descriptor_spec a c :
  match parse_class_descriptor (a ++ c) (str_len a) with
  | Ok n => exists tl, class_then_semi c n tl
            /\ (forall m' tl', class_then_semi c m' tl' -> m' = n /\ tl' = tl)
  | Err _ => forall m tl, ~ class_then_semi c m tl
  | _ => False
  end.
Proof.
  unfold parse_class_descriptor.
  pose proof (class_descriptor_loop_spec (S (length (a ++ c))) a [] c) as H.
  rewrite app_length in H. simpl app in H. rewrite app_length.
  replace (str_len a + str_len []) with (str_len a) in H by (simpl; lia).
  specialize (H ltac:(lia)).
  destruct (class_descriptor_loop _ _ _ _); auto.
  destruct H as (m & tl & H1 & -> & H2). exists tl; auto.
Qed.

(** ** Field descriptors *)
Lemma field_text_dims n t : field_text (mk_fd (1 + n) t) = ch "[" :: field_text (mk_fd n t).
Proof.
  unfold field_text. cbn [dimensions fd_type].
  replace (N.to_nat (1 + n)) with (S (N.to_nat n)) by lia. reflexivity.
Qed.
Lemma field_text_0 t : field_text (mk_fd 0 t) = type_text t.
Proof. reflexivity. Qed.

Definition type_char (c : char) : option field_type :=
  if c =? ch "B" then Some FByte
  else if c =? ch "C" then Some FChar
  else if c =? ch "D" then Some FDouble
  else if c =? ch "F" then Some FFloat
  else if c =? ch "I" then Some FInteger
  else if c =? ch "J" then Some FLong
  else if c =? ch "S" then Some FShort
  else if c =? ch "Z" then Some FBoolean
  else None.

Lemma dims_brackets d : field_text d = repeat (ch "[") (N.to_nat (dimensions d)) ++ type_text (fd_type d).
Proof.
  unfold field_text. f_equal. induction (N.to_nat (dimensions d)) as [|n IH]; [reflexivity|].
  simpl. f_equal. exact IH.
Qed.

Lemma type_text_head t : exists c r, type_text t = c :: r /\ c <> ch "[".
Proof. destruct t; eexists _, _; (split; [reflexivity|discriminate]). Qed.

(** The loop started after [dims] brackets. *)
Definition field_rest (dims : N) (chars : str) (d : field_desc) : Prop :=
  exists n t rest, d = mk_fd (dims + n) t /\ dims + n <= 255 /\ type_valid t
    /\ chars = field_text (mk_fd n t) ++ rest.

Lemma field_rest_cons dims chars d :
  field_rest dims (ch "[" :: chars) d <-> field_rest (dims + 1) chars d.
Proof.
  split; intros (n & t & rest & -> & Hn & Ht & He).
  - destruct (N.eq_dec n 0) as [->|Hz].
    + rewrite field_text_0 in He. destruct (type_text_head t) as (c & r & Hc & Hne).
      rewrite Hc in He. injection He as He _. congruence.
    + exists (n - 1), t, rest. replace (dims + 1 + (n - 1)) with (dims + n) by lia.
      repeat split; auto. replace n with (1 + (n - 1)) in He by lia.
      rewrite field_text_dims in He. cbn [app] in He. congruence.
  - exists (1 + n), t, rest. replace (dims + 1 + n) with (dims + (1 + n)) in * by lia.
    repeat split; auto. rewrite field_text_dims. cbn [app]. congruence.
Qed.

Lemma field_rest_type dims c chars d : c <> ch "[" -> dims <= 255 ->
  (field_rest dims (c :: chars) d <->
   exists t, d = mk_fd dims t /\
     (type_char c = Some t \/ (c = ch "L" /\ exists n tl, t = FObject n /\ class_then_semi chars n tl))).
Proof.
  intros Hc Hd. split.
  - intros (n & t & rest & -> & Hn & Ht & He).
    assert (n = 0) as ->.
    { destruct (N.eq_dec n 0); auto. exfalso. replace n with (1 + (n - 1)) in He by lia.
      rewrite field_text_dims in He. injection He as He _. congruence. }
    rewrite field_text_0 in He. replace (dims + 0) with dims by lia. exists t. split; auto.
    destruct t as [| | | | | | | |nm]; try (left; injection He as -> _; reflexivity).
    right. cbn [type_text] in He. injection He as -> He.
    split; auto. exists nm, rest. split; auto. split; auto.
    rewrite He, <- app_assoc. reflexivity.
  - intros (t & -> & [Ht|(-> & n & tl & -> & -> & Hm)]).
    + exists 0, t, chars. replace (dims + 0) with dims by lia.
      unfold type_char in Ht.
      repeat match type of Ht with
      | (if ?b then _ else _) = _ => let Hq := fresh "Hq" in destruct b eqn:Hq;
          [injection Ht as <-; apply N.eqb_eq in Hq; subst c; repeat split; auto|]
      end. discriminate.
    + exists 0, (FObject n), tl. replace (dims + 0) with dims by lia. repeat split; auto.
      rewrite field_text_0. cbn [type_text lit]. simpl. rewrite <- app_assoc. reflexivity.
Qed.

Lemma field_descriptor_loop_spec pre dims chars : dims <= 255 ->
  decides (field_descriptor_loop (pre ++ repeat (ch "[") (N.to_nat dims) ++ chars) (str_len pre) chars dims)
    (field_rest dims chars).
Proof.
  revert dims; induction chars as [|c chars IH]; intros dims Hd; cbn [field_descriptor_loop].
  - intros d (n & t & rest & -> & _ & _ & He). destruct (type_text_head t) as (c & r & Hc & _).
    rewrite dims_brackets in He. cbn [dimensions fd_type] in He. rewrite Hc in He.
    destruct (repeat (ch "[") (N.to_nat n)); discriminate.
  - destruct (N.eqb_spec c (ch "[")) as [->|Hc].
    + destruct (N.ltb_spec 255 (dims + 1)).
      * intros d Hr. apply field_rest_cons in Hr. destruct Hr as (n & t & rest & _ & Hn & _). lia.
      * eapply decides_ext; [intro d; symmetry; apply field_rest_cons|].
        replace (repeat (ch "[") (N.to_nat dims) ++ ch "[" :: chars)
          with (repeat (ch "[") (N.to_nat (dims + 1)) ++ chars).
        2:{ replace (N.to_nat (dims + 1)) with (S (N.to_nat dims)) by lia.
            cbn [repeat]. rewrite repeat_cons, <- app_assoc. reflexivity. }
        apply IH; lia.
    + rewrite (N.mod_small dims) by lia.
      eapply decides_ext; [intro d; symmetry; apply field_rest_type; auto|].
      destruct (type_char c) as [t|] eqn:Ht.
      * assert (HL : c <> ch "L") by (intros ->; discriminate).
        assert (Hg : (if c =? ch "B" then Ok FByte
           else if c =? ch "C" then Ok FChar
           else if c =? ch "D" then Ok FDouble
           else if c =? ch "F" then Ok FFloat
           else if c =? ch "I" then Ok FInteger
           else if c =? ch "J" then Ok FLong
           else if c =? ch "S" then Ok FShort
           else if c =? ch "Z" then Ok FBoolean
           else if c =? ch "L" then
             let* n := parse_class_descriptor (pre ++ repeat (ch "[") (N.to_nat dims) ++ c :: chars) (str_len pre + dims + 1) in Ok (FObject n)
           else fail (lit "Unexpected field type")) = Ok t).
        { unfold type_char in Ht.
          repeat match type of Ht with
          | (if ?b then _ else _) = _ => destruct b; [injection Ht as <-; reflexivity|]
          end. discriminate. }
        rewrite Hg. cbn [obind]. split.
        -- exists t. auto.
        -- intros d (t' & -> & [Ht'|[-> _]]); congruence.
      * assert (Hnone : forall b x, (if c =? b then Some x else type_char c) = None -> c =? b = false)
          by (intros b x; destruct (c =? b); congruence).
        unfold type_char in Ht.
        repeat match type of Ht with
          | (if ?b then _ else _) = _ => destruct b eqn:?Hb; [discriminate|]
          end.
        rewrite ?Hb, ?Hb0, ?Hb1, ?Hb2, ?Hb3, ?Hb4, ?Hb5, ?Hb6.
        destruct (N.eqb_spec c (ch "L")) as [->|HL].
        -- replace (pre ++ repeat (ch "[") (N.to_nat dims) ++ ch "L" :: chars)
             with ((pre ++ repeat (ch "[") (N.to_nat dims) ++ [ch "L"]) ++ chars)
             by (rewrite <- !app_assoc; reflexivity).
           replace (str_len pre + dims + 1) with (str_len (pre ++ repeat (ch "[") (N.to_nat dims) ++ [ch "L"])).
           2:{ rewrite !str_len_app. change (str_len [ch "L"]) with 1.
               assert (Hr : forall k, str_len (repeat (ch "[") k) = N.of_nat k).
               { intro k; induction k as [|k IHk]; [reflexivity|]. cbn [repeat str_len].
                 rewrite IHk. change (char_len (ch "[")) with 1. lia. }
               rewrite Hr. lia. }
           pose proof (parse_class_descriptor_spec (pre ++ repeat (ch "[") (N.to_nat dims) ++ [ch "L"]) chars) as HP.
           destruct (parse_class_descriptor _ _) as [n|e|q|]; cbn [obind]; try contradiction.
           ++ destruct HP as (tl & H1 & H2). split.
              ** exists (FObject n). split; auto. right. split; auto. exists n, tl; auto.
              ** intros d (t' & -> & [Ht'|(_ & n' & tl' & -> & H3)]); [discriminate|].
                 destruct (H2 _ _ H3) as [-> _]. reflexivity.
           ++ intros d (t' & -> & [Ht'|(_ & n' & tl' & -> & H3)]); [discriminate|].
              eapply HP; eauto.
        -- intros d (t' & -> & [Ht'|[-> _]]); [|congruence].
           unfold type_char in Ht'. rewrite ?Hb, ?Hb0, ?Hb1, ?Hb2, ?Hb3, ?Hb4, ?Hb5, ?Hb6 in Ht'. discriminate.
Qed.

Theorem parse_field_descriptor_spec pre s :
  decides (parse_field_descriptor (pre ++ s) (str_len pre)) (field_prefix s).
Proof.
  unfold parse_field_descriptor. rewrite str_from_app. cbn [obind].
  eapply decides_ext; [|exact (field_descriptor_loop_spec pre 0 s ltac:(lia))].
  intros [dm t]. unfold field_rest, field_prefix, field_valid. cbn [dimensions fd_type]. split.
  - intros (n & t' & rest & [= -> ->] & Hn & Ht & ->). simpl (0 + n) in *. eauto.
  - intros [[Hd Ht] [rest ->]]. exists dm, t, rest. repeat split; auto.
Qed.
Theorem parse_field_descriptor_0 s : decides (parse_field_descriptor s 0) (field_prefix s).
Proof. exact (parse_field_descriptor_spec [] s). Qed.

(** ** byte_len and Display agree with the text *)
Lemma show_field_text d : show_field_desc d = field_text d.
Proof. rewrite dims_brackets. unfold show_field_desc. f_equal. Qed.
Lemma type_byte_len t : field_type_byte_len t = str_len (type_text t).
Proof. destruct t; try reflexivity. cbn [field_type_byte_len type_text]. rewrite !str_len_app.
  change (str_len (lit "L")) with 1. change (str_len (lit ";")) with 1. lia. Qed.
Lemma str_len_brackets k : str_len (repeat (ch "[") k) = N.of_nat k.
Proof. induction k as [|k IH]; [reflexivity|]. cbn [repeat str_len]. rewrite IH. change (char_len (ch "[")) with 1. lia. Qed.
Lemma field_byte_len d : field_desc_byte_len d = str_len (field_text d).
Proof.
  unfold field_desc_byte_len. rewrite type_byte_len, dims_brackets, str_len_app, str_len_brackets. lia.
Qed.
Lemma show_return_text r : show_return_desc r = return_text r.
Proof. destruct r; [apply show_field_text|reflexivity]. Qed.
Lemma return_byte_len r : return_desc_byte_len r = str_len (return_text r).
Proof. destruct r; [apply field_byte_len|reflexivity]. Qed.
Lemma show_method_text d : show_method_desc d = method_text d.
Proof.
  unfold show_method_desc, method_text. rewrite show_return_text. do 2 f_equal.
  rewrite flat_map_concat_map. f_equal. apply map_ext. apply show_field_text.
Qed.
Lemma method_byte_len d : method_desc_byte_len d = str_len (method_text d).
Proof.
  unfold method_desc_byte_len, method_text. rewrite return_byte_len, !str_len_app.
  change (str_len (lit "(")) with 1. change (str_len (lit ")")) with 1.
  assert (H : forall l acc, fold_left (fun sum param => sum + field_desc_byte_len param) l acc
    = acc + str_len (concat (map field_text l))).
  { induction l as [|x l IH]; intro acc; cbn [fold_left map concat]; [simpl; lia|].
    rewrite IH, str_len_app, field_byte_len. lia. }
  rewrite H. lia.
Qed.

(** ** Whole-string recognition *)
Lemma prefix_len_eq (a rest : str) : str_len (a ++ rest) =? str_len a = true <-> rest = [].
Proof.
  rewrite N.eqb_eq, str_len_app. split.
  - intro H. apply str_len_zero. lia.
  - intros ->. simpl. lia.
Qed.

Theorem is_field_descriptor_spec s :
  exists b, is_field_descriptor s = Ok b /\ (b = true <-> field_descriptor s).
Proof.
  unfold is_field_descriptor, ok_and. pose proof (parse_field_descriptor_0 s) as H.
  destruct (parse_field_descriptor s 0) as [d|e|q|]; simpl in H; try contradiction.
  - eexists; split; [reflexivity|]. destruct H as [[Hv [rest Hs]] Hu]. rewrite field_byte_len.
    rewrite Hs at 1. rewrite prefix_len_eq. split.
    + intros ->. rewrite app_nil_r in Hs. exists d; auto.
    + intros (d' & Hv' & Hs'). assert (d' = d) as ->.
      { apply Hu. split; auto. exists []. rewrite app_nil_r; auto. }
      rewrite Hs' in Hs. rewrite <- (app_nil_r (field_text d)) in Hs at 1.
      apply app_inv_head in Hs. auto.
  - eexists; split; [reflexivity|]. split; [discriminate|].
    intros (d & Hv & ->). exfalso. apply (H d). split; auto. exists []. rewrite app_nil_r; auto.
Qed.

Lemma as_bytes_head c s : exists b r, as_bytes (c :: s) = b :: r /\ (c < 0x80 -> b = c) /\ (0x80 <= c -> 0x80 <= b).
Proof.
  unfold as_bytes. cbn [flat_map]. unfold utf8_encode_char.
  destruct (N.ltb_spec c 0x80); [eexists _, _; split; [reflexivity|split; [auto|lia]]|].
  destruct (N.ltb_spec c 0x800); [eexists _, _; split; [reflexivity|split; [lia|intros _]]|].
  { apply N.le_trans with 0xC0; [lia|apply N.le_add_r]. }
  destruct (N.ltb_spec c 0x10000); eexists _, _; (split; [reflexivity|split; [lia|intros _]]).
  { apply N.le_trans with 0xE0; [lia|apply N.le_add_r]. }
  { apply N.le_trans with 0xF0; [lia|apply N.le_add_r]. }
Qed.
Lemma str_len_bytes s : str_len s = N.of_nat (length (as_bytes s)).
Proof.
  induction s as [|c s IH]; [reflexivity|]. cbn [str_len]. unfold as_bytes in *. cbn [flat_map].
  rewrite app_length, IH.
  unfold char_len, utf8_encode_char.
  destruct (c <? 0x80), (c <? 0x800), (c <? 0x10000); cbn [length]; lia.
Qed.
Lemma as_bytes_app a b : as_bytes (a ++ b) = as_bytes a ++ as_bytes b.
Proof. unfold as_bytes. apply flat_map_app. Qed.
Lemma str_byte_at_app pre c s k : k < 0x80 ->
  exists b, str_byte_at (pre ++ c :: s) (str_len pre) = Ok b /\ (b = k <-> c = k).
Proof.
  intro Hk. unfold str_byte_at. rewrite as_bytes_app, str_len_bytes, Nat2N.id.
  rewrite nth_error_app2 by lia. rewrite Nat.sub_diag.
  destruct (as_bytes_head c s) as (b & r & -> & H1 & H2). exists b. split; [reflexivity|].
  destruct (N.lt_ge_cases c 0x80); split; intro; subst; try lia; auto.
Qed.

Theorem is_array_descriptor_spec s :
  exists b, is_array_descriptor s = Ok b /\ (b = true <-> array_descriptor s).
Proof.
  unfold is_array_descriptor. destruct (is_field_descriptor_spec s) as (b & -> & Hb).
  cbn [obind]. destruct b.
  - destruct (proj1 Hb eq_refl) as (d & Hv & Hs).
    destruct s as [|c s'].
    { destruct (type_text_head (fd_type d)) as (x & y & Hx & _). rewrite dims_brackets, Hx in Hs.
      destruct (repeat _ _); discriminate. }
    destruct (str_byte_at_app [] c s' (ch "[") eq_refl) as (x & Hx & Hiff).
    change (str_len []) with 0 in Hx. simpl app in Hx. rewrite Hx. cbn [obind].
    eexists; split; [reflexivity|]. rewrite N.eqb_eq, Hiff. split.
    + intros ->. exists d. repeat split; auto; try apply Hv.
      destruct (N.eq_dec (dimensions d) 0) as [Hz|]; [|lia].
      rewrite dims_brackets, Hz in Hs. simpl in Hs.
      destruct (type_text_head (fd_type d)) as (x' & y & Hx' & Hne). rewrite Hx' in Hs. congruence.
    + intros (d' & Hv' & Hd' & Hs'). destruct d' as [n t]. cbn [dimensions] in Hd'.
      replace n with (1 + (n - 1)) in Hs' by lia. rewrite field_text_dims in Hs'. congruence.
  - eexists; split; [reflexivity|]. split; [discriminate|].
    intros (d & Hv & Hd & ->). exfalso. assert (false = true) by (apply Hb; exists d; auto). discriminate.
Qed.

(** ** Return descriptors *)
Definition return_prefix (s : str) (r : return_desc) : Prop :=
  match r with
  | RVoid => s = lit "V"
  | RReturn d => field_prefix s d
  end.
Lemma field_prefix_V rest d : ~ field_prefix (ch "V" :: rest) d.
Proof.
  intros [_ [r Hr]]. rewrite dims_brackets in Hr.
  destruct (N.to_nat (dimensions d)) as [|k]; [|discriminate].
  destruct (fd_type d); discriminate.
Qed.
Theorem parse_return_descriptor_spec pre s :
  decides (parse_return_descriptor (pre ++ s) (str_len pre)) (return_prefix s).
Proof.
  unfold parse_return_descriptor. rewrite str_from_app. cbn [obind].
  destruct (str_eqb_spec s (lit "V")) as [->|Hs].
  - split; [reflexivity|]. intros [d|] Hd; auto. exfalso; eapply field_prefix_V; exact Hd.
  - pose proof (parse_field_descriptor_spec pre s) as H.
    destruct (parse_field_descriptor _ _) as [d|e|q|]; simpl in H; try contradiction; cbn [obind].
    + destruct H as [H1 H2]. split; [exact H1|]. intros [d'|] Hd'; [f_equal; auto|contradiction].
    + intros [d|] Hd; [eapply H; eauto|contradiction].
Qed.
Theorem is_return_descriptor_spec s :
  exists b, is_return_descriptor s = Ok b /\ (b = true <-> return_descriptor s).
Proof.
  unfold is_return_descriptor, ok_and. pose proof (parse_return_descriptor_spec [] s) as H.
  simpl app in H. change (str_len []) with 0 in H.
  destruct (parse_return_descriptor s 0) as [r|e|q|]; simpl in H; try contradiction.
  - eexists; split; [reflexivity|]. destruct H as [Hr Hu]. rewrite return_byte_len.
    destruct r as [d|]; cbn [return_prefix return_text] in *.
    + destruct Hr as [Hv [rest Hs]]. rewrite Hs at 1. rewrite prefix_len_eq. split.
      * intros ->. rewrite app_nil_r in Hs. exists (RReturn d); auto.
      * intros (r & Hrv & Hrs).
        assert (r = RReturn d) as ->.
        { apply Hu. destruct r as [d'|]; [split; auto; exists []; rewrite app_nil_r; auto|exact Hrs]. }
        cbn [return_text] in Hrs. rewrite Hrs in Hs. rewrite <- (app_nil_r (field_text d)) in Hs at 1.
        apply app_inv_head in Hs. auto.
    + subst s. split; [exists RVoid; split; simpl; auto|reflexivity].
  - eexists; split; [reflexivity|]. split; [discriminate|].
    intros (r & Hrv & ->). exfalso. apply (H r). destruct r as [d|]; [|reflexivity].
    split; auto. exists []. rewrite app_nil_r; auto.
Qed.

(** ** Method descriptors *)
(** [params_loop] on [s]: fields, then a closing parenthesis. *)
Definition params_prefix (s : str) (ps : list field_desc) (rest : str) : Prop :=
  Forall field_valid ps /\ s = concat (map field_text ps) ++ ch ")" :: rest.

Lemma field_prefix_rest s d : field_prefix s d -> exists rest, s = field_text d ++ rest /\ field_valid d.
Proof. intros [Hv [rest ->]]; eauto. Qed.
Lemma field_text_nonempty d : field_text d <> [].
Proof.
  rewrite dims_brackets. destruct (type_text_head (fd_type d)) as (c & r & -> & _).
  destruct (repeat _ _); discriminate.
Qed.
Lemma field_prefix_paren rest d : ~ field_prefix (ch ")" :: rest) d.
Proof.
  intros [_ [r Hr]]. rewrite dims_brackets in Hr.
  destruct (N.to_nat (dimensions d)) as [|k]; [|discriminate].
  destruct (fd_type d); discriminate.
Qed.

Lemma params_loop_spec fuel pre s : (length s < fuel)%nat ->
  match params_loop fuel (pre ++ s) (str_len pre) with
  | Ok (ps, ix) => exists rest, params_prefix s ps rest /\ ix = str_len (pre ++ concat (map field_text ps))
      /\ (forall ps' rest', params_prefix s ps' rest' -> ps' = ps /\ rest' = rest)
  | Err _ => forall ps rest, ~ params_prefix s ps rest
  | _ => False
  end.
Proof.
  revert pre s; induction fuel as [|fuel IH]; intros pre s Hf; [lia|]. cbn [params_loop].
  assert (Hclose : (let* close := (if str_len pre <? str_len (pre ++ s)
             then let* b := str_byte_at (pre ++ s) (str_len pre) in Ok (b =? ch ")") else Ok false) in Ok close)
     = Ok (match s with c :: _ => c =? ch ")" | [] => false end)).
  { destruct s as [|c s].
    - rewrite app_nil_r, N.ltb_irrefl. reflexivity.
    - destruct (N.ltb_spec (str_len pre) (str_len (pre ++ c :: s))) as [H|H].
      + destruct (str_byte_at_app pre c s (ch ")") eq_refl) as (b & -> & Hiff). cbn [obind].
        f_equal. destruct (N.eqb_spec b (ch ")")), (N.eqb_spec c (ch ")")); auto; tauto.
      + rewrite str_len_app in H. simpl in H. pose proof (char_len_pos c). lia. }
  destruct (if str_len pre <? str_len (pre ++ s)
             then let* b := str_byte_at (pre ++ s) (str_len pre) in Ok (b =? ch ")") else Ok false)
    as [close|e|q|]; cbn [obind] in Hclose |- *; try discriminate.
  injection Hclose as ->.
  destruct s as [|c s].
  - (* end of string *)
    pose proof (parse_field_descriptor_spec pre []) as H.
    destruct (parse_field_descriptor (pre ++ []) (str_len pre)) as [d|e|q|]; simpl in H; try contradiction; cbn [obind].
    + destruct H as [[_ [rest Hr]] _]. exfalso. symmetry in Hr. apply app_eq_nil in Hr.
      eapply field_text_nonempty; apply Hr.
    + intros ps rest [_ He]. destruct (concat (map field_text ps)); discriminate.
  - destruct (N.eqb_spec c (ch ")")) as [->|Hc].
    + (* closing parenthesis *)
      exists s. split; [split; [constructor|reflexivity]|]. split; [rewrite app_nil_r; reflexivity|].
      intros [|p ps'] rest' [HF He]; [simpl in He; injection He as ->; auto|].
      exfalso. inversion HF; subst. apply (field_prefix_paren s p). split; auto.
      simpl in He. rewrite <- app_assoc in He. eauto.
    + pose proof (parse_field_descriptor_spec pre (c :: s)) as H.
      destruct (parse_field_descriptor (pre ++ c :: s) (str_len pre)) as [d|e|q|]; simpl in H; try contradiction; cbn [obind].
      * destruct H as [[Hv [rest Hr]] Hu].
        rewrite field_byte_len.
        replace (pre ++ c :: s) with ((pre ++ field_text d) ++ rest) by (rewrite <- app_assoc, Hr; auto).
        rewrite <- str_len_app.
        assert (Hlen : (length rest < fuel)%nat).
        { assert (Hl : length (c :: s) = length (field_text d ++ rest)) by (f_equal; exact Hr).
          rewrite app_length in Hl. simpl in Hl, Hf.
          pose proof (field_text_nonempty d). destruct (field_text d); [congruence|]. simpl in Hl. lia. }
        specialize (IH (pre ++ field_text d) rest Hlen).
        destruct (params_loop fuel _ _) as [[ps ix]|e|q|]; cbn [obind fst snd]; try contradiction.
        -- destruct IH as (rest2 & [HF He] & -> & Hu2). exists rest2. split; [|split].
           ++ split; [constructor; auto|]. rewrite Hr, He. cbn [map concat]. rewrite <- app_assoc. auto.
           ++ cbn [map concat]. rewrite <- app_assoc. auto.
           ++ intros [|p' ps'] rest' [HF' He'].
              ** simpl in He'. injection He' as He' _. congruence.
              ** inversion HF'; subst. cbn [map concat] in He'. rewrite <- app_assoc in He'.
                 assert (p' = d) as ->.
                 { apply Hu. split; auto. rewrite He'. eexists; reflexivity. }
                 rewrite He' in Hr. apply app_inv_head in Hr. rewrite <- Hr in Hu2.
                 destruct (Hu2 ps' rest') as [-> ->]; [split; auto|auto].
        -- intros [|p' ps'] rest' [HF' He'].
           ++ simpl in He'. injection He' as He' _. congruence.
           ++ inversion HF'; subst. cbn [map concat] in He'. rewrite <- app_assoc in He'.
              assert (p' = d) as ->.
              { apply Hu. split; auto. rewrite He'. eexists; reflexivity. }
              rewrite He' in Hr. apply app_inv_head in Hr. apply (IH ps' rest'). split; auto.
      * intros [|p' ps'] rest' [HF' He'].
        -- simpl in He'. injection He' as He' _. congruence.
        -- inversion HF'; subst. cbn [map concat] in He'. rewrite <- app_assoc in He'.
           apply (H p'). split; auto. rewrite He'. eexists; reflexivity.
Qed.

Lemma return_prefix_iff s r : return_prefix s r <->
  return_valid r /\ exists rest, s = return_text r ++ rest /\ (r = RVoid -> rest = []).
Proof.
  destruct r as [d|]; cbn [return_prefix return_valid return_text].
  - split.
    + intros [Hv [rest ->]]. split; auto. exists rest. split; auto. discriminate.
    + intros [Hv (rest & -> & _)]. split; eauto.
  - split.
    + intros ->. split; auto. exists []. auto.
    + intros [_ (rest & -> & Hr)]. rewrite Hr; auto.
Qed.

Theorem parse_method_descriptor_spec s : decides (parse_method_descriptor s 0) (method_prefix s).
Proof.
  unfold parse_method_descriptor.
  assert (Hopen : (let* bad := (if str_len s <=? 0 then Ok true else let* b := str_byte_at s 0 in Ok (negb (b =? ch "("))) in Ok bad)
     = Ok (match s with c :: _ => negb (c =? ch "(") | [] => true end)).
  { destruct s as [|c s]; [reflexivity|].
    destruct (N.leb_spec (str_len (c :: s)) 0) as [H|H].
    - simpl in H. pose proof (char_len_pos c). lia.
    - destruct (str_byte_at_app [] c s (ch "(") eq_refl) as (b & Hb & Hiff).
      simpl app in Hb. change (str_len []) with 0 in Hb. rewrite Hb. cbn [obind].
      f_equal. f_equal. destruct (N.eqb_spec b (ch "(")), (N.eqb_spec c (ch "(")); auto; tauto. }
  destruct (if str_len s <=? 0 then Ok true else let* b := str_byte_at s 0 in Ok (negb (b =? ch "(")))
    as [bad|e|q|]; cbn [obind] in Hopen |- *; try discriminate.
  injection Hopen as ->.
  destruct s as [|c s].
  { intros d [_ (rest & He & _)]. discriminate. }
  destruct (N.eqb_spec c (ch "(")) as [->|Hc]; cbn [negb].
  2:{ intros d [_ (rest & He & _)]. injection He as He _. apply Hc. rewrite He. reflexivity. }
  pose proof (params_loop_spec (S (length (ch "(" :: s))) [ch "("] s ltac:(simpl; lia)) as HP.
  change ([ch "("] ++ s) with (ch "(" :: s) in HP. change (str_len [ch "("]) with 1 in HP.
  simpl (0 + 1).
  destruct (params_loop _ _ _) as [[ps ix]|e|q|]; cbn [obind fst snd]; try contradiction.
  - destruct HP as (rest & [HF He] & -> & Hu). subst s.
    replace (ch "(" :: concat (map field_text ps) ++ ch ")" :: rest)
      with (([ch "("] ++ concat (map field_text ps) ++ [ch ")"]) ++ rest)
      by (rewrite <- !app_assoc; reflexivity).
    replace (str_len ([ch "("] ++ concat (map field_text ps)) + 1)
      with (str_len ([ch "("] ++ concat (map field_text ps) ++ [ch ")"])).
    2:{ rewrite !str_len_app. change (str_len [ch ")"]) with 1. lia. }
    pose proof (parse_return_descriptor_spec ([ch "("] ++ concat (map field_text ps) ++ [ch ")"]) rest) as HR.
    destruct (parse_return_descriptor _ _) as [r|e|q|]; simpl in HR; try contradiction; cbn [obind].
    + destruct HR as [Hr Hru]. split.
      * apply return_prefix_iff in Hr. destruct Hr as [Hv (tl & -> & Hvoid)].
        split; [split; auto|]. exists tl. split; auto. unfold method_text. cbn [parameters return_type].
        rewrite <- !app_assoc. reflexivity.
      * intros [ps' r'] [[HF' Hv'] (tl & He' & Hvoid')]. cbn [parameters return_type] in *.
        unfold method_text in He'. cbn [parameters return_type] in He'.
        assert (Heq : concat (map field_text ps) ++ ch ")" :: rest
                      = concat (map field_text ps') ++ ch ")" :: return_text r' ++ tl).
        { rewrite <- !app_assoc in He'. injection He' as He'. rewrite He'. rewrite <- ?app_assoc. reflexivity. }
        destruct (Hu ps' (return_text r' ++ tl)) as [-> Hrest]; [split; auto|].
        f_equal. apply Hru. apply return_prefix_iff. rewrite <- Hrest. split; auto. exists tl; auto.
    + intros [ps' r'] [[HF' Hv'] (tl & He' & Hvoid')]. cbn [parameters return_type] in *.
      unfold method_text in He'. cbn [parameters return_type] in He'.
      assert (Heq : concat (map field_text ps) ++ ch ")" :: rest
                    = concat (map field_text ps') ++ ch ")" :: return_text r' ++ tl).
      { rewrite <- !app_assoc in He'. injection He' as He'. rewrite He'. rewrite <- ?app_assoc. reflexivity. }
      destruct (Hu ps' (return_text r' ++ tl)) as [-> Hrest]; [split; auto|].
      apply (HR r'). apply return_prefix_iff. rewrite <- Hrest. split; auto. exists tl; auto.
  - intros [ps' r'] [[HF' Hv'] (tl & He' & Hvoid')]. cbn [parameters return_type] in *.
    unfold method_text in He'. cbn [parameters return_type] in He'.
    apply (HP ps' (return_text r' ++ tl)). split; auto.
    rewrite <- !app_assoc in He'. injection He' as He'. rewrite He'. rewrite <- ?app_assoc. reflexivity.
Qed.

Theorem is_method_descriptor_spec s :
  exists b, is_method_descriptor s = Ok b /\ (b = true <-> method_descriptor s).
Proof.
  unfold is_method_descriptor, ok_and. pose proof (parse_method_descriptor_spec s) as H.
  destruct (parse_method_descriptor s 0) as [d|e|q|]; simpl in H; try contradiction.
  - eexists; split; [reflexivity|]. destruct H as [[Hv (rest & Hs & _)] Hu]. rewrite method_byte_len.
    rewrite Hs at 1. rewrite prefix_len_eq. split.
    + intros ->. rewrite app_nil_r in Hs. exists d; auto.
    + intros (d' & Hv' & Hs'). assert (d' = d) as ->.
      { apply Hu. split; auto. exists []. rewrite app_nil_r; auto. }
      rewrite Hs' in Hs. rewrite <- (app_nil_r (method_text d)) in Hs at 1.
      apply app_inv_head in Hs. auto.
  - eexists; split; [reflexivity|]. split; [discriminate|].
    intros (d & Hv & ->). exfalso. apply (H d). split; auto. exists []. rewrite app_nil_r; auto.
Qed.

(** ** Array descriptors of class references *)
Theorem parse_array_descriptor_spec s :
  decides (parse_array_descriptor s)
    (fun o => match o with
              | Some d => field_valid d /\ 0 < dimensions d /\ s = field_text d
              | None => forall r, s <> ch "[" :: r
              end).
Proof.
  unfold parse_array_descriptor. destruct s as [|c s].
  { split; [discriminate|]. intros [d|] Hd; auto. destruct Hd as (_ & _ & He).
    exfalso; eapply field_text_nonempty; eauto. }
  destruct (str_byte_at_app [] c s (ch "[") eq_refl) as (b & Hb & Hiff).
  change (str_len []) with 0 in Hb. simpl app in Hb. rewrite Hb. cbn [obind].
  destruct (N.eqb_spec b (ch "[")) as [Hbb|Hbb]; cbn [negb].
  - assert (c = ch "[") as -> by tauto.
    pose proof (parse_field_descriptor_0 (ch "[" :: s)) as H.
    destruct (parse_field_descriptor (ch "[" :: s) 0) as [d|e|q|]; simpl in H; try contradiction; cbn [obind].
    + destruct H as [[Hv [rest Hs]] Hu]. rewrite field_byte_len.
      assert (Hd : 0 < dimensions d).
      { destruct (N.eq_dec (dimensions d) 0) as [Hz|]; [|lia]. exfalso.
        rewrite dims_brackets, Hz in Hs. simpl in Hs.
        destruct (type_text_head (fd_type d)) as (x' & y & Hx' & Hne). rewrite Hx' in Hs.
        injection Hs as Hs _. congruence. }
      destruct (str_len (ch "[" :: s) =? str_len (field_text d)) eqn:Hl; cbn [negb].
      * rewrite Hs in Hl at 1. apply prefix_len_eq in Hl. subst rest. rewrite app_nil_r in Hs.
        split; [repeat split; auto; apply Hv|].
        intros [d'|] Hd'.
        -- destruct Hd' as (Hv' & _ & Hs'). f_equal. apply Hu. split; auto. exists []. rewrite app_nil_r; auto.
        -- exfalso. eapply Hd'; reflexivity.
      * intros [d'|] Hd'.
        -- destruct Hd' as (Hv' & _ & Hs'). assert (d' = d) as ->.
           { apply Hu. split; auto. exists []. rewrite app_nil_r; auto. }
           rewrite Hs' in Hl. rewrite N.eqb_refl in Hl. discriminate.
        -- eapply Hd'; reflexivity.
    + intros [d'|] Hd'.
      * destruct Hd' as (Hv' & _ & Hs'). apply (H d'). split; auto. exists []. rewrite app_nil_r; auto.
      * eapply Hd'; reflexivity.
  - split.
    + intros r [= -> _]. apply Hbb, Hiff. reflexivity.
    + intros [d|] Hd; auto. destruct Hd as (_ & Hd & He). destruct d as [n t]. cbn [dimensions] in Hd.
      replace n with (1 + (n - 1)) in He by lia. rewrite field_text_dims in He.
      injection He as He _. exfalso; tauto.
Qed.

(** ** ClassName::try_from *)
(** Segments, each followed by a slash, and possibly a last one. *)
Definition loose_class_name (s : str) : Prop :=
  s = [] \/ class_name s \/ exists t, s = t ++ lit "/" /\ class_name t.

Lemma loose_rec s : loose_class_name s <->
  s = [] \/ class_segment s \/ exists a b, s = a ++ ch "/" :: b /\ class_segment a /\ loose_class_name b.
Proof.
  unfold loose_class_name. split.
  - intros [->|[H|(t & -> & H)]]; auto; apply class_name_rec in H; destruct H as [H|(a & b & -> & Ha & Hb)].
    + auto.
    + right. right. exists a, b. auto.
    + right. right. exists t, []. auto.
    + right. right. exists a, (b ++ lit "/"). rewrite <- app_assoc. repeat split; try apply Ha. right. right. eauto.
  - intros [->|[H|(a & b & -> & Ha & [->|[H|(t & -> & H)]])]]; auto.
    + right. left. apply class_name_rec; auto.
    + right. right. exists a. split; auto. apply class_name_rec; auto.
    + right. left. apply class_name_rec. right. eauto.
    + right. right. exists (a ++ ch "/" :: t). rewrite <- app_assoc. split; auto.
      apply class_name_rec. right; eauto.
Qed.

Lemma class_name_loop_spec fuel pre s : (length s < fuel)%nat ->
  match class_name_loop fuel (pre ++ s) (str_len pre) with
  | Ok tt => loose_class_name s
  | Err _ => ~ loose_class_name s
  | _ => False
  end.
Proof.
  revert pre s; induction fuel as [|fuel IH]; intros pre s Hf; [lia|]. cbn [class_name_loop].
  rewrite str_from_app. cbn [obind]. pose proof (segment_spec s) as Hs.
  destruct (parse_unqualified_segment s) as [[seg [x|]]|e|q|]; cbn [obind]; try contradiction.
  - destruct Hs as (tl & -> & Hne & Hg & [->| ->]).
    + replace (ch "/" =? ch ";") with false by reflexivity. rewrite N.eqb_refl.
      replace (pre ++ seg ++ ch "/" :: tl) with ((pre ++ seg ++ [ch "/"]) ++ tl)
        by (rewrite <- !app_assoc; reflexivity).
      replace (str_len pre + (str_len seg + 1)) with (str_len (pre ++ seg ++ [ch "/"]))
        by (rewrite !str_len_app; change (str_len [ch "/"]) with 1; lia).
      rewrite app_length in Hf. simpl in Hf. specialize (IH (pre ++ seg ++ [ch "/"]) tl ltac:(lia)).
      destruct (class_name_loop fuel _ _) as [[]|e|q|]; try contradiction.
      * apply loose_rec. right. right. exists seg, tl. repeat split; auto. apply class_segment_good; auto.
      * intro H. apply IH. apply loose_rec in H.
        destruct H as [H|[H|(a & b & He & Ha & Hb)]].
        -- destruct seg; discriminate.
        -- apply class_segment_good in H. destruct H as [_ H]. rewrite forallb_app in H. cbn [forallb] in H.
           rewrite good_slash, andb_false_l, andb_false_r in H. discriminate.
        -- apply class_segment_good in Ha. destruct Ha as [_ Ha].
           apply good_split_unique in He; auto. destruct He as (_ & _ & ->). auto.
    + rewrite N.eqb_refl. unfold fail. intro H. apply loose_rec in H.
      destruct H as [H|[H|(a & b & He & Ha & Hb)]].
      * destruct seg; discriminate.
      * apply class_segment_good in H. destruct H as [_ H]. rewrite forallb_app in H. cbn [forallb] in H.
        rewrite good_semi, andb_false_l, andb_false_r in H. discriminate.
      * apply class_segment_good in Ha. destruct Ha as [_ Ha].
        apply good_split_unique in He; auto. destruct He as (_ & He & _). discriminate.
  - destruct Hs as [-> Hg]. apply loose_rec. destruct s; [left; auto|].
    right. left. apply class_segment_good. split; [discriminate|auto].
  - destruct Hs as (seg & x & tl & -> & Hg & Hx & Himp). intro H. apply loose_rec in H.
    destruct H as [H|[H|(a & b & He & Ha & Hb)]].
    + destruct seg; discriminate.
    + apply class_segment_good in H. destruct H as [_ H]. rewrite forallb_app in H. cbn [forallb] in H.
      rewrite Hx, andb_false_l, andb_false_r in H. discriminate.
    + apply class_segment_good in Ha. destruct Ha as [Hne Ha].
      apply good_split_unique in He; auto. destruct He as (-> & -> & _). apply Hne, Himp; auto.
Qed.

Theorem class_name_try_from_spec s :
  decides (class_name_try_from s) (fun r => r = s /\ loose_class_name s).
Proof.
  unfold class_name_try_from.
  pose proof (class_name_loop_spec (S (length s)) [] s ltac:(lia)) as H.
  simpl app in H. change (str_len []) with 0 in H.
  destruct (class_name_loop _ _ _) as [[]|e|q|]; try contradiction; cbn [obind].
  - split; auto. intros b [-> _]; auto.
  - intros a [_ Ha]; auto.
Qed.
