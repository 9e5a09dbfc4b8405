(** * C65: what has been read decides (statements in S_Early.v) *)
From Verif Require Import Base M_Names M_Descriptors M_ConstantPool M_Bytecode M_Attributes M_Class P_Reads S_Early P_Early S_Env Sample.
From Coq Require Import ZifyBool ZifyNat ZifyN.

Definition answers {A} (r : outcome A) : Prop := (exists a, r = Ok a) \/ (exists e, r = Err e).

Section Three.
Context {A : Type}.
Variables (n : N).
Definition three (r r' : outcome A) : Prop :=
  truncated r \/ r' = r \/ (answers r /\ r' = Err (extra_bytes n)).
End Three.

Lemma three_bind {A B} (m : parser A) (f : A -> parser B) bs t ix : same m bs t ix ->
  (forall a ix', m bs ix = Ok (a, ix') -> three (blen bs) (f a bs ix') (f a (bs ++ t) ix')) ->
  three (blen bs) (bind m f bs ix) (bind m f (bs ++ t) ix).
Proof.
  intros [(e & He & Hs)|H] Hf; unfold bind.
  - rewrite He. left. exists e. auto.
  - rewrite H. destruct (m bs ix) as [[a ix']| | |]; auto. all: right; left; reflexivity.
Qed.

Lemma answers_bootstrap p l : answers (validate_bootstrap_methods p l).
Proof.
  assert (Hb : forall x l n, answers (bootstrap_found x l n)).
  { intros x l0. induction l0 as [|a l0 IH]; intro n; cbn [bootstrap_found]; [left; eauto|].
    destruct (attr_dat a); try apply IH. destruct (_ <=? x); [right; eexists; reflexivity|apply IH]. }
  induction p as [|e p IH]; cbn [validate_bootstrap_methods]; [left; eauto|].
  destruct e; try exact IH;
    (match goal with |- context [bootstrap_found ?x _ _] => destruct (Hb x l 0) as [[a Ha]|[e' Ha]] end; rewrite Ha; cbn [obind]; [destruct (negb (a =? 1)); [right; eexists; reflexivity|exact IH]|right; eauto]).
Qed.

(** Attributes end inside the input. *)
Lemma attribute_inside E p opts rec stk i bs ix a ix' : read_attribute E p opts rec stk i bs ix = Ok (a, ix') -> ix' <= blen bs.
Proof.
  unfold read_attribute, bind. destruct (pctx _ _ bs ix) as [[name i1]| | |]; try discriminate. destruct (read_u4 bs i1) as [[len i2]| | |]; try discriminate.
  unfold get_bytes, get_ix, lift. destruct (usize_result E (i2 + len)) as [e| | |]; try discriminate. destruct (blen bs <? e) eqn:He; [discriminate|].
  destruct (read_attr_data E p opts rec stk name i len bs i2) as [[d i3]| | |]; try discriminate. destruct (N.eqb_spec e i3) as [->|]; cbn [negb]; [|discriminate].
  intro H. assert (i3 = ix') by (unfold ret in H; congruence). lia.
Qed.
Lemma for_inside {A} (body : N -> parser A) bs : (forall i ix a ix', body i bs ix = Ok (a, ix') -> ix' <= blen bs) ->
  forall n i ix l ix', ix <= blen bs -> for_from n i body bs ix = Ok (l, ix') -> ix' <= blen bs.
Proof.
  intro Hb. induction n as [|n IH]; intros i ix l ix' Hix; cbn [for_from]; unfold bind.
  - intro H. assert (ix = ix') by (unfold ret in H; congruence). lia.
  - destruct (body i bs ix) as [[a j]| | |] eqn:Ha; try discriminate. apply Hb in Ha.
    destruct (for_from n (i + 1) body bs j) as [[l' j']| | |] eqn:Hl; try discriminate. apply IH in Hl; [|exact Ha].
    intro H. assert (j' = ix') by (unfold ret in H; congruence). lia.
Qed.
Lemma u2_inside bs ix a ix' : read_u2 bs ix = Ok (a, ix') -> ix' <= blen bs.
Proof.
  unfold read_u2. destruct (blen bs <? ix + 2) eqn:H; [discriminate|]. unfold obind. destruct (byte_at bs (ix + 0)); try discriminate.
  destruct (byte_at bs (ix + 1)); try discriminate. intro Hr. assert (ix + 2 = ix') by congruence. lia.
Qed.
Lemma attributes_inside E p opts stk bs ix l ix' : read_attributes E p opts stk bs ix = Ok (l, ix') -> ix' <= blen bs.
Proof.
  destruct stk as [|stk]; cbn [read_attributes]; [discriminate|]. unfold bind. destruct (read_u2 bs ix) as [[n i]| | |] eqn:Hn; try discriminate. apply u2_inside in Hn.
  apply for_inside; [|exact Hn]. intros j ix0 a ix1. apply attribute_inside.
Qed.

Lemma class_three E opts bs t : three (blen bs) (class_parser E opts bs 0) (class_parser E opts (bs ++ t) 0).
Proof.
  unfold class_parser.
  apply three_bind; [apply st_u4|]. intros magic i1 H1. apply fw_u4 in H1; [|lia].
  apply three_bind; [apply st_guard|]. intros u2 i2 H2. assert (i2 = i1) as -> by (unfold guard in H2; destruct (magic =? _) in H2; [unfold ret in H2; congruence|discriminate]).
  apply three_bind; [apply st_u2|]. intros minor i3 H3. apply fw_u2 in H3; [|lia].
  apply three_bind; [apply st_u2|]. intros major i4 H4. apply fw_u2 in H4; [|lia].
  apply three_bind; [apply same_pool; lia|]. intros p i5 _.
  apply three_bind; [apply st_u2|]. intros raw i6 _. cbv zeta.
  apply three_bind; [|intros _ i7 _].
  { unfold check_module_flags. match goal with |- same ?m _ _ _ => assert (Hst : stable m); [|apply Hst] end. st. }
  apply three_bind; [apply st_this|]. intros this i8 _.
  apply three_bind; [apply st_super|]. intros super i9 _.
  apply three_bind; [apply st_interfaces|]. intros ifs i10 _.
  apply three_bind; [apply st_fields|]. intros fs i11 _.
  apply three_bind; [apply st_methods|]. intros ms i12 _.
  apply three_bind; [apply st_pctx, st_attributes|]. intros attrs i13 Hlast.
  assert (H13 : i13 <= blen bs).
  { unfold pctx, ctx in Hlast. destruct (read_attributes E p opts (stack E) bs i12) as [[l i]| | |] eqn:Hl; try discriminate. apply attributes_inside in Hl.
    assert (i = i13) by congruence. lia. }
  match goal with |- three _ (bind get_bytes ?k _ _) _ => change (three (blen bs) (k bs bs i13) (k (bs ++ t) (bs ++ t) i13)) end. cbv beta.
  match goal with |- three _ (bind get_ix ?k _ _) (bind get_ix ?k' _ _) => change (three (blen bs) (k i13 bs i13) (k' i13 (bs ++ t) i13)) end. cbv beta.
  rewrite blen_app. destruct (N.eqb_spec i13 (blen bs)) as [->|Hne].
  - destruct t as [|b t]; [rewrite app_nil_r; right; left; replace (blen bs =? blen bs + blen []) with true by (symmetry; apply N.eqb_eq; unfold blen; cbn [length]; lia); reflexivity|].
    right. right. split.
    + match goal with |- answers (bind (guard true _) ?k _ _) => change (answers (k tt bs (blen bs))) end. cbv beta.
      assert (Hm : forall b, answers (check_module_contents b super ifs fs ms bs (blen bs))).
      { intro b0. unfold check_module_contents. destruct b0; [|left; eexists; reflexivity]. destruct super; [right; eexists; reflexivity|].
        unfold bind, guard. repeat (destruct (_ =? 0); [|right; eexists; reflexivity]). left; eexists; reflexivity. }
      match goal with |- answers (bind (check_module_contents ?b _ _ _ _) _ _ _) => destruct (Hm b) as [[[u i] Hc]|[e Hc]] end;
        unfold bind at 1; rewrite Hc; [|right; eauto].
      unfold bind, lift. destruct (answers_bootstrap p attrs) as [[a ->]|[e ->]]; [left; eexists; reflexivity|right; eauto].
    + replace (blen bs =? blen bs + blen (b :: t)) with false by (symmetry; apply N.eqb_neq; unfold blen; cbn [length]; lia). reflexivity.
  - right. left. replace (i13 =? blen bs + blen t) with false by (symmetry; apply N.eqb_neq; lia). reflexivity.
Qed.

(** The result of parsing [bs] followed by [t] in terms of the result for [bs]. *)
Theorem C65_early E opts bs t :
  truncated (parse_class_with_options E opts bs)
  \/ parse_class_with_options E opts (bs ++ t) = parse_class_with_options E opts bs
  \/ (answers (parse_class_with_options E opts bs)
      /\ parse_class_with_options E opts (bs ++ t) = Err (extra_bytes (blen bs))).
Proof.
  unfold parse_class_with_options. destruct (class_three E opts bs t) as [(e & -> & Hs)|[-> |[[[[c i] ->]|[e ->]] ->]]].
  - left. exists e. auto.
  - right. left. reflexivity.
  - right. right. split; [left; eexists|]; reflexivity.
  - right. right. split; [right; eexists|]; reflexivity.
Qed.

Lemma bind_ok {A B} (m : parser A) (f : A -> parser B) bs ix r : bind m f bs ix = Ok r -> exists a i, m bs ix = Ok (a, i) /\ f a bs i = Ok r.
Proof. unfold bind. destruct (m bs ix) as [[a i]| | |]; try discriminate. eauto. Qed.
Lemma class_to_end E opts bs c i : class_parser E opts bs 0 = Ok (c, i) -> i = blen bs.
Proof.
  unfold class_parser. intro H. do 13 (apply bind_ok in H; destruct H as (? & ? & _ & H); cbv zeta in H).
  apply bind_ok in H. destruct H as (bs' & i1 & Hb & H). assert (bs' = bs) as -> by (unfold get_bytes in Hb; congruence).
  apply bind_ok in H. destruct H as (i2 & i3 & Hi & H). assert (i2 = i3) as -> by (unfold get_ix in Hi; congruence).
  apply bind_ok in H. destruct H as (u & i4 & Hg & H). assert (i4 = i3 /\ i3 = blen bs) as [-> ->].
  { unfold guard in Hg. destruct (N.eqb_spec i3 (blen bs)); unfold ret in Hg; [split; congruence|discriminate]. }
  apply bind_ok in H. destruct H as (u' & i5 & Hm & H). assert (i5 = blen bs) as ->.
  { revert Hm. unfold check_module_contents. destruct (contains _ _); [|unfold ret; congruence]. match goal with |- context [match ?o with Some _ => _ | None => _ end] => destruct o end; [discriminate|].
    unfold bind, guard. repeat (destruct (_ =? 0); [|discriminate]). unfold ret. congruence. }
  apply bind_ok in H. destruct H as (u'' & i6 & Hl & H). assert (i6 = blen bs) as -> by (unfold lift in Hl; destruct (validate_bootstrap_methods _ _); congruence).
  unfold ret in H. congruence.
Qed.

(** An accepted file followed by anything. *)
Theorem C65_extra E opts bs t c : parse_class_with_options E opts bs = Ok c -> t <> [] ->
  parse_class_with_options E opts (bs ++ t) = Err (extra_bytes (blen bs)).
Proof.
  intros Hc Ht. unfold parse_class_with_options in *. destruct (class_parser E opts bs 0) as [[c' i]| | |] eqn:Hp; try discriminate.
  destruct (class_three E opts bs t) as [(e & He & Hs)|[He|[_ ->]]]; [congruence| |reflexivity].
  exfalso. rewrite Hp in He. apply class_to_end in Hp, He. rewrite blen_app in He. destruct t; [congruence|]. unfold blen in *. cbn [length] in *. lia.
Qed.

(** A file that is accepted only with [t] is reported as truncated without it. *)
Theorem C65_truncated E opts bs t c : parse_class_with_options E opts (bs ++ t) = Ok c -> t <> [] ->
  exists e, parse_class_with_options E opts bs = Err e /\ says_truncated e.
Proof.
  intros Hc Ht. destruct (C65_early E opts bs t) as [H|[H|[_ H]]]; [exact H| |congruence].
  rewrite Hc in H. symmetry in H. rewrite (C65_extra E opts bs t c H Ht) in Hc. discriminate.
Qed.

(** Nothing that follows turns a panic into something else. *)
Theorem C65_panics E opts bs t q : parse_class_with_options E opts bs = Panic q -> parse_class_with_options E opts (bs ++ t) = Panic q.
Proof.
  intro H. destruct (C65_early E opts bs t) as [(e & He & _)|[He|[[[c He]|[e He]] _]]]; congruence.
Qed.
(** Nothing that follows makes a file acceptable once it is rejected for anything but its end. *)
Theorem C65_final E opts bs t e : parse_class_with_options E opts bs = Err e -> ~ says_truncated e ->
  parse_class_with_options E opts (bs ++ t) = Err e \/ parse_class_with_options E opts (bs ++ t) = Err (extra_bytes (blen bs)).
Proof.
  intros H Hn. destruct (C65_early E opts bs t) as [(e' & He & Hs)|[He|[_ He]]]; [|left; congruence|right; exact He].
  exfalso. apply Hn. assert (e = e') by congruence. subst e'. exact Hs.
Qed.

(** The hypotheses are met: the sample cut at its 100th byte, with a wrong magic
    number, and followed by one byte. *)
Example C65_meets :
  truncated (parse_class_with_options debug64 true (firstn 100 sample))
  /\ (exists e, parse_class_with_options debug64 true (firstn 3 sample ++ firstn 5 sample) = Err e /\ ~ says_truncated e)
  /\ parse_class_with_options debug64 true (sample ++ [Byte.x00]) = Err (extra_bytes (blen sample)).
Proof.
  split; [|split].
  - pose proof sample_parse as Hc. set (c := sample_parsed) in Hc. rewrite <- (firstn_skipn 100 sample) in Hc.
    apply (C65_truncated debug64 true (firstn 100 sample) (skipn 100 sample) c Hc). vm_compute. discriminate.
  - eexists. split; [vm_compute; reflexivity|]. intros (rest & H). vm_compute in H. discriminate.
  - pose proof sample_parse as Hc. set (c := sample_parsed) in Hc. apply (C65_extra debug64 true sample [Byte.x00] c Hc). discriminate.
Qed.
