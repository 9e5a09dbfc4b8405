(** * Nesting depth: the depth index of the formats never matters beyond the length of the input. *)
From Verif Require Import Base S_Lang S_Names S_Format P_Reads P_Tac.
From Verif Require Import M_Bytecode M_Attributes M_Class.
From Coq Require Import ZifyBool ZifyNat ZifyN.

(** [F] implies [G] on strings of at most [n] bytes. *)
Definition upto {A} (n : nat) (F G : A -> lang) : Prop := forall a w, (length w <= n)%nat -> F a w -> G a w.

Lemma upto_refl {A} n (F : A -> lang) : upto n F F.
Proof. intros a w _ H. exact H. Qed.
Lemma upto_weaken {A} n m (F G : A -> lang) : (m <= n)%nat -> upto n F G -> upto m F G.
Proof. intros Hm H a w Hw. apply H. lia. Qed.
Lemma cat_upto n (L L' M M' : lang) w : (forall u, (length u <= n)%nat -> L u -> L' u) ->
  (forall u, (length u <= n)%nat -> M u -> M' u) -> (length w <= n)%nat -> (L +++ M) w -> (L' +++ M') w.
Proof. intros HL HM Hw (u & v & -> & Hu & Hv). rewrite app_length in Hw. apply cat_intro; [apply HL|apply HM]; auto; lia. Qed.
Lemma many_upto {A} n (F G : A -> lang) : upto n F G -> upto n (many F) (many G).
Proof.
  intros H l. induction l as [|a l IH]; intros w Hw Hm; [exact Hm|].
  cbn [many] in *. eapply cat_upto; [..|exact Hm]; eauto.
Qed.
Lemma table_upto {A} n cnt (F G : A -> lang) : upto n F G -> upto n (table cnt F) (table cnt G).
Proof. intros H l w Hw. apply (cat_upto n); auto. intros u Hu. apply (many_upto n); auto. Qed.

Lemma u1_len n w : u1 n w -> length w = 1%nat.
Proof. intros [H _]. exact H. Qed.
Lemma u2_len n w : u2 n w -> length w = 2%nat.
Proof. intros [H _]. exact H. Qed.
Lemma u4_len n w : u4 n w -> length w = 4%nat.
Proof. intros [H _]. exact H. Qed.
Lemma u1_cat_len n L w : (u1 n +++ L) w -> (1 <= length w)%nat.
Proof. intros (u & v & -> & Hu & _). rewrite app_length, (u1_len _ _ Hu). lia. Qed.
Lemma u1_cat_upto n t (L M : lang) w : (forall u, (length u <= n)%nat -> L u -> M u) -> (length w <= S n)%nat ->
  (u1 t +++ L) w -> (u1 t +++ M) w.
Proof.
  intros H Hw (u & v & -> & Hu & Hv). rewrite app_length, (u1_len _ _ Hu) in Hw. apply cat_intro; auto. apply H; auto. lia.
Qed.
Lemma ref_len {A} (R : N -> A -> Prop) a w : ref R a w -> length w = 2%nat.
Proof. intros (i & Hi & _). exact (u2_len _ _ Hi). Qed.

Section Formats.
Variable dec : list byte -> option str.
Variable sl : slots.
Variable wraps want : bool.

Lemma annotation_upto n V V' : upto n V V' -> upto n (annotation_with dec sl V) (annotation_with dec sl V').
Proof.
  intros H a w Hw. apply (cat_upto n); auto. intros u Hu. apply (table_upto n); auto.
  intros nv x Hx. apply (cat_upto n); auto.
Qed.
Lemma element_upto n V V' : upto n V V' -> upto (S n) (element_with dec sl V) (element_with dec sl V').
Proof.
  intros H v w Hw. destruct v; cbn [element_with]; auto.
  - apply (u1_cat_upto n); auto. intros u Hu. apply annotation_upto with (n := n); auto.
  - apply (u1_cat_upto n); auto. intros u Hu. apply table_upto with (n := n); auto.
Qed.
Lemma element_nonempty d v w : element_lang dec sl d v w -> (1 <= length w)%nat.
Proof. destruct d; [intros []|]. destruct v; cbn [element_lang element_with]; apply u1_cat_len. Qed.
(** Values nested at all are nested no deeper than the number of their bytes. *)
Lemma element_depth d : forall d', upto d' (element_lang dec sl d) (element_lang dec sl d').
Proof.
  induction d as [|d IH]; intros d' v w Hw H; [destruct H|].
  pose proof (element_nonempty _ _ _ H). destruct d' as [|d']; [lia|]. cbn [element_lang] in *.
  eapply element_upto; [|exact Hw|exact H]. apply IH.
Qed.

Lemma type_annotation_upto d d' n : upto n (element_lang dec sl d) (element_lang dec sl d') ->
  upto n (type_annotation_lang dec sl d) (type_annotation_lang dec sl d').
Proof.
  intros H a w Hw. apply (cat_upto n); auto. intros u Hu. apply (cat_upto n); auto.
  intros x Hx. apply annotation_upto with (n := n); auto.
Qed.
Lemma code_upto n A A' : upto n A A' -> upto n (code_lang dec sl wraps want A) (code_lang dec sl wraps want A').
Proof.
  intros H a w Hw. unfold code_lang. repeat (apply (cat_upto n); auto; intros ? ?).
Qed.
Lemma record_upto n A A' : upto n A A' -> upto n (record_component_lang dec sl A) (record_component_lang dec sl A').
Proof.
  intros H a w Hw. unfold record_component_lang. repeat (apply (cat_upto n); auto; intros ? ?).
Qed.
Lemma contents_upto n A A' d d' : upto n A A' -> upto n (element_lang dec sl d) (element_lang dec sl d') ->
  forall name, upto n (contents_lang dec sl wraps want A d name) (contents_lang dec sl wraps want A' d' name).
Proof.
  intros HA Hd name a w Hw [H Hname]. split; [|destruct a; exact Hname].
  assert (Hann := annotation_upto n _ _ Hd). fold (annotation_lang dec sl d) in Hann. fold (annotation_lang dec sl d') in Hann.
  assert (Hty := type_annotation_upto _ _ _ Hd).
  destruct a; cbn [contents fst snd] in *; try exact H;
    try (eapply table_upto; [|exact Hw|exact H]; exact Hann || exact Hty || apply table_upto; exact Hann).
  - eapply code_upto; eauto.
  - eapply Hd; eauto.
  - eapply table_upto; [|exact Hw|exact H]. apply record_upto. exact HA.
Qed.
Lemma attribute_upto n A A' d d' : upto n A A' -> upto n (element_lang dec sl d) (element_lang dec sl d') ->
  upto (S n) (attribute_with dec sl wraps want A d) (attribute_with dec sl wraps want A' d').
Proof.
  intros HA Hd a w Hw (u & v & -> & Hu & len & body & -> & Hlen & H).
  apply cat_intro; auto. exists len, body. split; auto. split; auto.
  rewrite !app_length, (ref_len _ _ _ Hu), (u4_len _ _ Hlen) in Hw.
  eapply contents_upto; eauto. lia.
Qed.
Lemma table_u2_len {A} (F : A -> lang) l w : table u2 F l w -> (2 <= length w)%nat.
Proof. intros (u & v & -> & Hu & _). rewrite app_length, (u2_len _ _ Hu). lia. Qed.
Lemma attributes_depth d : forall d', upto d' (attributes_lang dec sl wraps want d) (attributes_lang dec sl wraps want d').
Proof.
  induction d as [|d IH]; intros d' v w Hw H; [destruct H|].
  pose proof (table_u2_len _ _ _ H). destruct d' as [|d']; [lia|]. cbn [attributes_lang] in *.
  eapply table_upto; [|exact Hw|exact H]. apply attribute_upto; [apply IH|apply element_depth].
Qed.

(** More depth never hurts. *)
Lemma element_more d : forall d' v w, (d <= d')%nat -> element_lang dec sl d v w -> element_lang dec sl d' v w.
Proof.
  induction d as [|d IH]; intros d' v w Hd H; [destruct H|]. destruct d' as [|d']; [lia|]. cbn [element_lang] in *.
  eapply element_upto; [|apply Nat.le_succ_diag_r|exact H]. intros v' w' _. apply IH. lia.
Qed.
Lemma attributes_more d : forall d' l w, (d <= d')%nat ->
  attributes_lang dec sl wraps want d l w -> attributes_lang dec sl wraps want d' l w.
Proof.
  induction d as [|d IH]; intros d' v w Hd H; [destruct H|]. destruct d' as [|d']; [lia|]. cbn [attributes_lang] in *.
  eapply table_upto; [|apply Nat.le_refl|exact H]. apply (upto_weaken (S (length w))); [lia|].
  apply attribute_upto; intros ? ? _; [apply IH|apply element_more]; lia.
Qed.
End Formats.

Section Class.
Variable dec : list byte -> option str.
Variable wraps want : bool.

Lemma field_upto sl n d d' : upto n (attributes_lang dec sl wraps want d) (attributes_lang dec sl wraps want d') ->
  upto n (field_lang dec sl wraps want d) (field_lang dec sl wraps want d').
Proof. intros H a w Hw. unfold field_lang. repeat (apply (cat_upto n); auto; intros ? ?). Qed.
Lemma method_upto sl n d d' i : upto n (attributes_lang dec sl wraps want d) (attributes_lang dec sl wraps want d') ->
  upto n (method_lang dec sl wraps want d i) (method_lang dec sl wraps want d' i).
Proof. intros H a w Hw. unfold method_lang. repeat (apply (cat_upto n); auto; intros ? ?). Qed.
Lemma class_upto d d' cs c bs :
  upto (length bs) (attributes_lang dec (slots_of cs) wraps want d) (attributes_lang dec (slots_of cs) wraps want d') ->
  class_lang dec wraps want d cs c bs -> class_lang dec wraps want d' cs c bs.
Proof.
  intros Hd [H1 H2]. split; [|exact H2].
  eapply (cat_upto (length bs)); [..|exact H1]; auto.
  do 7 (intros ? ?; apply (cat_upto (length bs)); auto).
  intros ? ?. apply (cat_upto (length bs)); auto.
  { intros ? ?. apply table_upto with (n := length bs); auto. apply field_upto; auto. }
  intros ? ?. apply (cat_upto (length bs)); auto.
  intros ? ?. apply table_upto with (n := length bs); auto. apply method_upto; auto.
Qed.
Lemma class_depth d d' cs c bs : (length bs <= d')%nat -> class_lang dec wraps want d cs c bs -> class_lang dec wraps want d' cs c bs.
Proof.
  intros Hd. apply class_upto. eapply upto_weaken; [exact Hd|]. apply attributes_depth.
Qed.
Lemma class_more d d' cs c bs : (d <= d')%nat -> class_lang dec wraps want d cs c bs -> class_lang dec wraps want d' cs c bs.
Proof. intros Hd. apply class_upto. intros l w _. apply attributes_more. exact Hd. Qed.
Lemma class_format_iff d c bs : (length bs <= d)%nat ->
  (class_format dec wraps want c bs <-> exists cs, class_lang dec wraps want d cs c bs).
Proof.
  intro Hd. split.
  - intros (d0 & cs & H). exists cs. eapply class_depth; eauto.
  - intros (cs & H). exists d, cs. exact H.
Qed.
End Class.
