(** * Layout of the constant pool in the file. *)
From Verif Require Import Base M_ConstantPool S_Lang S_Names S_Format S_Pool P_Reads P_Tac P_Pool P_Pool3 P_Pool4.
From Coq Require Import ZifyBool ZifyNat ZifyN.

Lemma many_concat {A} (F : A -> lang) l w : many F l w <-> exists ws, Forall2 F l ws /\ w = concat ws.
Proof.
  revert w. induction l as [|a l IH]; intro w; cbn [many].
  - split; [intros ->; exists []; auto|]. intros (ws & H & ->). inversion H. reflexivity.
  - split.
    + intros (u & v & -> & Hu & Hv). apply IH in Hv. destruct Hv as (ws & H & ->). exists (u :: ws). auto.
    + intros (ws & H & ->). inversion H; subst. cbn [concat]. apply cat_intro; auto. apply IH. eauto.
Qed.

Lemma u2_num n : u2 n = uint 2 n. Proof. reflexivity. Qed.
Lemma uint_det k n n' w : uint k n w -> uint k n' w -> n = n'.
Proof. intros [_ <-] [_ <-]. reflexivity. Qed.
Lemma uint_split k n n' u v u' v' : u ++ v = u' ++ v' -> uint k n u -> uint k n' u' -> n = n' /\ u = u' /\ v = v'.
Proof.
  intros H Hu Hu'. apply app_eq_len in H; [|rewrite (proj1 Hu), (proj1 Hu'); reflexivity]. destruct H as [<- <-].
  split; auto. eapply uint_det; eauto.
Qed.
Lemma sint_split k n n' u v u' v' : u ++ v = u' ++ v' -> sint k n u -> sint k n' u' -> n = n' /\ u = u' /\ v = v'.
Proof.
  intros H Hu Hu'. apply app_eq_len in H; [|rewrite (proj1 Hu), (proj1 Hu'); reflexivity]. destruct H as [<- <-].
  split; auto. eapply sint_unique; eauto.
Qed.

Definition tag_of (c : constant) : N :=
  match c with
  | CUtf8 _ => 1 | CInteger _ => 3 | CFloat _ => 4 | CLong _ => 5 | CDouble _ => 6 | CClass _ => 7 | CString _ => 8
  | CFieldref _ _ => 9 | CMethodref _ _ => 10 | CInterfaceMethodref _ _ => 11 | CNameAndType _ _ => 12
  | CMethodHandle _ _ => 15 | CMethodType _ => 16 | CDynamic _ _ => 17 | CInvokeDynamic _ _ => 18 | CModule _ => 19 | CPackage _ => 20
  end.
Lemma constant_tag major c w : constant_lang major c w -> exists since t w', In (tag_of c, since) tags /\ since <= major
  /\ w = t :: w' /\ Byte.to_N t = tag_of c.
Proof.
  destruct c; cbn [constant_lang tag_of]; intros [Hs H]; apply u1_cons in H; destruct H as (b & w' & -> & Hb & _);
    eexists; exists b, w'; (split; [cbv; tauto|]); repeat split; auto.
Qed.
Lemma kind_number_inj k k' : kind_number k = kind_number k' -> k = k'.
Proof. destruct k, k'; cbn; intro H; auto; discriminate. Qed.
Lemma raw_split r r' u v u' v' : u ++ v = u' ++ v' -> length r = length r' -> raw r u -> raw r' u' -> r = r' /\ u = u' /\ v = v'.
Proof. intros H Hl -> ->. apply app_eq_len in H; auto. destruct H as [<- <-]. auto. Qed.

(** No two constants share their bytes. *)
Lemma constant_split major c c' u v u' v' : u ++ v = u' ++ v' -> constant_lang major c u -> constant_lang major c' u' ->
  c = c' /\ u = u' /\ v = v'.
Proof.
  intros Heq Hu Hu'.
  assert (Ht : tag_of c = tag_of c').
  { destruct (constant_tag _ _ _ Hu) as (? & t & w & _ & _ & -> & <-), (constant_tag _ _ _ Hu') as (? & t' & w' & _ & _ & -> & <-).
    cbn [app] in Heq. injection Heq as -> _. reflexivity. }
  destruct c, c'; try discriminate Ht; clear Ht; cbn [constant_lang] in *;
  destruct Hu as [_ (a & b & -> & Ha & Hb)], Hu' as [_ (a' & b' & -> & Ha' & Hb')];
  rewrite <- !app_assoc in Heq; destruct (uint_split _ _ _ _ _ _ _ Heq Ha Ha') as (_ & <- & Heq1);
  try (destruct (uint_split _ _ _ _ _ _ _ Heq1 Hb Hb') as (<- & <- & <-); auto; fail);
  try (destruct (sint_split _ _ _ _ _ _ _ Heq1 Hb Hb') as (<- & <- & <-); auto; fail);
  destruct Hb as (b1 & b2 & -> & Hb1 & Hb2), Hb' as (b1' & b2' & -> & Hb1' & Hb2');
  rewrite <- !app_assoc in Heq1; destruct (uint_split _ _ _ _ _ _ _ Heq1 Hb1 Hb1') as (He & <- & Heq2);
  try (destruct (uint_split _ _ _ _ _ _ _ Heq2 Hb2 Hb2') as (<- & <- & <-);
       try apply kind_number_inj in He; subst; auto; fail).
  apply Nat2N.inj in He. destruct (raw_split _ _ _ _ _ _ Heq2 He Hb2 Hb2') as (<- & <- & <-). auto.
Qed.
Lemma Forall2_len {A B} (R : A -> B -> Prop) l m : Forall2 R l m -> length l = length m.
Proof. induction 1; cbn; auto. Qed.
(** The constants of a file are determined by its bytes, as far as their number. *)
Lemma many_constant_split major : forall cs cs' ws ws' v v', concat ws ++ v = concat ws' ++ v' ->
  Forall2 (constant_lang major) cs ws -> Forall2 (constant_lang major) cs' ws' ->
  (exists more wmore, cs = cs' ++ more /\ ws = ws' ++ wmore) \/ (exists more wmore, cs' = cs ++ more /\ ws' = ws ++ wmore).
Proof.
  induction cs as [|c cs IH]; intros cs' ws ws' v v' Heq H H'.
  - right. inversion H; subst. exists cs', ws'. auto.
  - inversion H as [|? w ? ws1 Hc Hcs]; subst. inversion H' as [|c' w' cs1 ws1' Hc' Hcs']; subst.
    + left. exists (c :: cs), (w :: ws1). auto.
    + cbn [concat] in Heq. rewrite <- !app_assoc in Heq.
      destruct (constant_split _ _ _ _ _ _ _ Heq Hc Hc') as (<- & <- & Heq1).
      destruct (IH _ _ _ _ _ Heq1 Hcs Hcs') as [(m & wm & -> & ->)|(m & wm & -> & ->)]; [left|right]; exists m, wm; auto.
Qed.
Lemma fills_end wraps count : forall cs i more, fills wraps count i (cs ++ more) -> fills wraps count i cs -> more = [].
Proof.
  induction cs as [|c cs IH]; intros i more H1 H2; cbn [app fills] in *.
  - destruct more as [|m more]; auto. destruct H1 as [H1 _]. lia.
  - destruct H1 as [_ H1], H2 as [_ H2]. cbv zeta in *. destruct (i + width c <? 65536); [eauto|].
    destruct H1, H2. eauto.
Qed.
Theorem pool_unique bs minor major count cs ws rest minor' major' count' cs' ws' rest' wraps :
  starts_with_pool bs minor major count cs ws rest -> starts_with_pool bs minor' major' count' cs' ws' rest' ->
  fills wraps count 1 cs -> fills wraps count' 1 cs' ->
  minor = minor' /\ major = major' /\ count = count' /\ cs = cs' /\ ws = ws' /\ rest = rest'.
Proof.
  intros (m & v & n & Hm & (v1 & v2 & -> & Hv1 & Hv2) & Hn & -> & Hcs) (m' & v' & n' & Hm' & (v1' & v2' & -> & Hv1' & Hv2') & Hn' & Heq & Hcs') Hf Hf'.
  rewrite <- !app_assoc in Heq.
  destruct (uint_split _ _ _ _ _ _ _ Heq Hm Hm') as (_ & <- & H1).
  destruct (uint_split _ _ _ _ _ _ _ H1 Hv1 Hv1') as (<- & <- & H2).
  destruct (uint_split _ _ _ _ _ _ _ H2 Hv2 Hv2') as (<- & <- & H3).
  destruct (uint_split _ _ _ _ _ _ _ H3 Hn Hn') as (<- & <- & H4).
  assert (cs = cs' /\ ws = ws') as [<- <-].
  { destruct (many_constant_split _ _ _ _ _ _ _ H4 Hcs Hcs') as [(mr & wm & -> & ->)|(mr & wm & -> & ->)].
    - pose proof (fills_end _ _ _ _ _ Hf Hf') as ->. apply Forall2_len in Hcs. apply Forall2_len in Hcs'.
      rewrite !app_length in Hcs. cbn in Hcs. destruct wm; [|cbn in Hcs; lia]. rewrite !app_nil_r. auto.
    - pose proof (fills_end _ _ _ _ _ Hf' Hf) as ->. apply Forall2_len in Hcs. apply Forall2_len in Hcs'.
      rewrite !app_length in Hcs'. cbn in Hcs'. destruct wm; [|cbn in Hcs'; lia]. rewrite !app_nil_r. auto. }
  apply app_inv_head in H4. auto 10.
Qed.

(** ** Indices *)
Lemma tail_cons c cs : slots_of (c :: cs) = None :: Some c :: (if is_wide c then [None] else []) ++ flat_map (fun c => if is_wide c then [Some c; None] else [Some c]) cs.
Proof. unfold slots_of. cbn [flat_map]. destruct (is_wide c); reflexivity. Qed.
Lemma slots_length cs : N.of_nat (length (slots_of cs)) = index_of cs (length cs).
Proof.
  unfold index_of. rewrite firstn_all. unfold slots_of. cbn [length]. induction cs as [|c cs IH]; [reflexivity|].
  cbn [flat_map fold_right]. rewrite app_length. unfold width at 1. destruct (is_wide c); cbn [length]; lia.
Qed.
Lemma at_index_of cs k c : nth_error cs k = Some c -> at_index (slots_of cs) (index_of cs k) c
  /\ (is_wide c = true -> nth_error (slots_of cs) (N.to_nat (index_of cs k + 1)) = Some None).
Proof.
  unfold at_index, index_of, slots_of. replace (N.to_nat (1 + fold_right (fun c n => width c + n) 0 (firstn k cs) + 1))
    with (S (N.to_nat (fold_right (fun c n => width c + n) 0 (firstn k cs) + 1))) by lia.
  replace (N.to_nat (1 + fold_right (fun c n => width c + n) 0 (firstn k cs)))
    with (S (N.to_nat (fold_right (fun c n => width c + n) 0 (firstn k cs)))) by lia. cbn [nth_error].
  revert cs. induction k as [|k IH]; intros [|d cs] H; cbn [nth_error] in H; try discriminate.
  - injection H as <-. cbn [firstn fold_right flat_map]. destruct (is_wide d); cbn; auto. split; auto. discriminate.
  - cbn [firstn fold_right flat_map]. specialize (IH cs H). unfold width at 1 3. destruct (is_wide d); cbn [app].
    + replace (N.to_nat (2 + fold_right (fun c n => width c + n) 0 (firstn k cs)))
        with (S (S (N.to_nat (fold_right (fun c n => width c + n) 0 (firstn k cs))))) by lia.
      replace (N.to_nat (2 + fold_right (fun c n => width c + n) 0 (firstn k cs) + 1))
        with (S (S (N.to_nat (fold_right (fun c n => width c + n) 0 (firstn k cs) + 1)))) by lia. exact IH.
    + replace (N.to_nat (1 + fold_right (fun c n => width c + n) 0 (firstn k cs)))
        with (S (N.to_nat (fold_right (fun c n => width c + n) 0 (firstn k cs)))) by lia.
      replace (N.to_nat (1 + fold_right (fun c n => width c + n) 0 (firstn k cs) + 1))
        with (S (N.to_nat (fold_right (fun c n => width c + n) 0 (firstn k cs) + 1))) by lia. exact IH.
Qed.
Lemma at_index_inv cs i c : at_index (slots_of cs) i c -> exists k, nth_error cs k = Some c /\ i = index_of cs k.
Proof.
  unfold at_index, slots_of, index_of. destruct (N.to_nat i) as [|j] eqn:Hi; [discriminate|]. cbn [nth_error].
  intro H. enough (exists k, nth_error cs k = Some c /\ N.of_nat j = fold_right (fun c n => width c + n) 0 (firstn k cs)) as (k & H1 & H2).
  { exists k. split; auto. lia. }
  clear i Hi. revert j H. induction cs as [|d cs IH]; intros j H; [destruct j; discriminate|].
  cbn [flat_map] in H. destruct (is_wide d) eqn:Hd; cbn [app] in H.
  - destruct j as [|[|j]]; cbn [nth_error] in H; [injection H as <-; exists O; auto|discriminate|].
    destruct (IH _ H) as (k & H1 & H2). exists (S k). split; auto. cbn [firstn fold_right]. unfold width at 1. rewrite Hd. lia.
  - destruct j as [|j]; cbn [nth_error] in H; [injection H as <-; exists O; auto|].
    destruct (IH _ H) as (k & H1 & H2). exists (S k). split; auto. cbn [firstn fold_right]. unfold width at 1. rewrite Hd. lia.
Qed.
(** The number of slots against the count in the file. *)
Lemma fills_count wraps count : forall cs i, (wraps = false \/ count < 65535) -> count < 65536 -> cs <> [] -> fills wraps count i cs ->
  let total := i + fold_right (fun c n => width c + n) 0 cs in
  total = count \/ (total = count + 1 /\ exists pre c, cs = pre ++ [c] /\ is_wide c = true).
Proof.
  induction cs as [|c cs IH]; intros i Hw Hc Hne; [congruence|]. cbn [fills fold_right]. cbv zeta. intros [Hi H].
  assert (Hlt : i + width c < 65536 \/ wraps = true /\ count = 65535).
  { destruct (N.ltb_spec (i + width c) 65536); auto. right. destruct H as [H _]. split; auto. destruct Hw; [congruence|].
    unfold width in *. destruct (is_wide c); lia. }
  destruct Hlt as [Hlt|[-> ->]]; [|destruct Hw; [discriminate|lia]].
  destruct (N.ltb_spec (i + width c) 65536); [|lia]. destruct cs as [|c' cs].
  - cbn [fills fold_right] in *. unfold width in *. destruct (is_wide c) eqn:Hd; [|left; lia].
    destruct (N.eq_dec (i + 2) count); [left; lia|]. right. split; [lia|]. exists [], c. auto.
  - assert (Hne1 : c' :: cs <> []) by discriminate. specialize (IH (i + width c) Hw Hc Hne1 H). cbv zeta in IH.
    destruct IH as [IH|(IH & pre & c0 & Heq & Hw0)]; [left; lia|right]. split; [lia|]. exists (c :: pre), c0. rewrite Heq. auto.
Qed.

(** ** References *)
Lemma valid_target dec sl major c i : valid_constant dec sl major c -> In i (indices c) ->
  exists t, at_index sl i t /\ tag_of t <> tag_of c.
Proof.
  destruct c; cbn [valid_constant indices In]; try (intros _ []; fail); intros H Hin;
    unfold described, is_class, is_utf8, utf8_at in *;
    repeat match goal with H : exists _, _ |- _ => destruct H | H : _ /\ _ |- _ => destruct H end;
    repeat match goal with H : False |- _ => destruct H | H : _ = i |- _ => subst i | H : _ = i \/ _ |- _ => destruct H end;
    try (eexists; split; [eassumption|cbn; discriminate]).
  eexists. split; [eassumption|]. destruct kind, x; cbn in *; try contradiction; discriminate.
Qed.
