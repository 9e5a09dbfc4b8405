(** * Lemmas for C58. *)
From Verif Require Import Base M_Names M_Descriptors M_ConstantPool S_Lang S_Names S_Format S_Pool S_Jvms P_Descriptors.
From Coq Require Import ZifyBool ZifyNat ZifyN.

(** ** Texts of descriptors determine them *)
Lemma binary_no x s : In x (lit ".;[") -> binary_name s -> ~ In x s.
Proof.
  intros Hx (segs & _ & Hf & ->). assert (Hs : x <> ch "/") by (intros ->; vm_compute in Hx; intuition discriminate).
  assert (Hx' : In x (lit ".;[/")) by (clear - Hx; vm_compute in *; tauto).
  induction segs as [|a segs IH]; cbn [slashes]; [tauto|]. inversion Hf as [|? ? [_ Ha] Hf']; subst.
  assert (Ha' : ~ In x a) by (apply Ha; exact Hx').
  destruct segs as [|b segs]; [exact Ha'|]. rewrite !in_app_iff. intros [H|[H|H]]; [tauto| |apply (IH Hf' H)].
  destruct H as [H|[]]; auto.
Qed.
Lemma split_at (x : N) a b r r' : ~ In x a -> ~ In x b -> a ++ x :: r = b ++ x :: r' -> a = b /\ r = r'.
Proof.
  revert b. induction a as [|y a IH]; intros [|z b] Ha Hb H; cbn in *.
  - injection H as <-. auto.
  - injection H as <- H. exfalso. auto.
  - injection H as <- H. exfalso. auto.
  - injection H as <- H. destruct (IH b) as [-> ->]; auto.
Qed.
Definition shown_type (t : field_type) : Prop := match t with FObject n => binary_name n | _ => True end.
Lemma type_inj t t' r r' : shown_type t -> shown_type t' -> type_text t ++ r = type_text t' ++ r' -> t = t' /\ r = r'.
Proof.
  intros H H' He. destruct t, t'; cbn [type_text] in He; cbn [shown_type] in H, H';
    try (injection He as <-; auto; fail); try discriminate He.
  rewrite <- !app_assoc in He. injection He as He.
  apply (split_at (ch ";")) in He; [destruct He as [-> ->]; auto|apply binary_no; auto; vm_compute; tauto..].
Qed.
Lemma type_head t r : exists c q, type_text t ++ r = c :: q /\ c <> ch "[" /\ c <> ch ")" /\ c <> ch "V".
Proof. destruct t; cbn [type_text lit app]; eexists _, _; (split; [reflexivity|]); vm_compute; repeat split; discriminate. Qed.
Lemma field_inj d d' r r' : j_field d -> j_field d' -> field_text d ++ r = field_text d' ++ r' -> d = d' /\ r = r'.
Proof.
  intros [_ H] [_ H'] He. rewrite !dims_brackets, <- !app_assoc in He.
  destruct d as [n t], d' as [n' t']. cbn [dimensions fd_type] in *.
  assert (Hn : N.to_nat n = N.to_nat n').
  { clear H H'. revert He. generalize (N.to_nat n) (N.to_nat n'). intros a. induction a as [|a IH]; intros [|b] He; cbn [repeat app] in He; auto.
    - exfalso. destruct (type_head t r) as (c & q & Hq & Hc & _). rewrite Hq in He. injection He as He _. auto.
    - exfalso. destruct (type_head t' r') as (c & q & Hq & Hc & _). rewrite Hq in He. injection He as He _. auto.
    - injection He as He. f_equal. auto. }
  rewrite Hn in He. apply app_inv_head in He. apply type_inj in He; auto. destruct He as [-> ->].
  split; auto. f_equal. lia.
Qed.
Lemma field_head d r : exists c q, field_text d ++ r = c :: q /\ c <> ch ")" /\ c <> ch "V" /\ c <> ch "(".
Proof.
  rewrite dims_brackets. destruct (N.to_nat (dimensions d)); cbn [repeat app].
  - destruct (fd_type d); cbn [type_text lit app]; eexists _, _; (split; [reflexivity|]); vm_compute; repeat split; discriminate.
  - eexists _, _. split; [reflexivity|]. vm_compute; repeat split; discriminate.
Qed.
Lemma params_inj ps : forall ps' r r', Forall j_field ps -> Forall j_field ps' ->
  concat (map field_text ps) ++ ch ")" :: r = concat (map field_text ps') ++ ch ")" :: r' -> ps = ps' /\ r = r'.
Proof.
  induction ps as [|p ps IH]; intros [|p' ps'] r r' H H' He; cbn [map concat app] in He.
  - injection He as ->. auto.
  - exfalso. rewrite <- app_assoc in He. destruct (field_head p' (concat (map field_text ps') ++ ch ")" :: r')) as (c & q & Hq & Hc & _).
    rewrite Hq in He. injection He as He _. auto.
  - exfalso. rewrite <- app_assoc in He. destruct (field_head p (concat (map field_text ps) ++ ch ")" :: r)) as (c & q & Hq & Hc & _).
    rewrite Hq in He. injection He as He _. auto.
  - rewrite <- !app_assoc in He. inversion H; inversion H'; subst. apply field_inj in He; auto. destruct He as [-> He].
    apply IH in He; auto. destruct He as [-> ->]. auto.
Qed.
Lemma return_inj a b : j_return a -> j_return b -> return_text a = return_text b -> a = b.
Proof.
  destruct a as [d|], b as [d'|]; cbn [j_return return_text]; intros H H' He; auto.
  - rewrite <- (app_nil_r (field_text d)), <- (app_nil_r (field_text d')) in He. apply field_inj in He; auto. destruct He as [-> _]. auto.
  - exfalso. destruct (field_head d []) as (c & q & Hq & _ & Hc & _). rewrite app_nil_r in Hq. rewrite Hq in He. injection He as He _. auto.
  - exfalso. destruct (field_head d' []) as (c & q & Hq & _ & Hc & _). rewrite app_nil_r in Hq. rewrite Hq in He. injection He as He _. auto.
Qed.
Lemma method_inj d d' : j_method_form d -> j_method_form d' -> method_text d = method_text d' -> d = d'.
Proof.
  intros [H1 H2] [H1' H2'] He. destruct d as [ps r], d' as [ps' r']. unfold method_text in He. cbn [parameters return_type] in *.
  injection He as He. apply params_inj in He; auto. destruct He as [-> He]. f_equal. apply return_inj; auto.
Qed.
Lemma field_not_method fd md : field_text fd <> method_text md.
Proof.
  intro He. destruct (field_head fd []) as (c & q & Hq & _ & _ & Hc). rewrite app_nil_r in Hq. rewrite Hq in He. injection He as He _. auto.
Qed.

(** ** cafebabe's descriptors are those without < and > in class names *)
Lemma class_segment_split s : class_segment s <-> unqualified s /\ without "<>" s.
Proof.
  unfold class_segment, unqualified, without. split.
  - intros [Hn Hw]. split; [split; auto|]; intros c Hc; apply Hw; revert Hc; vm_compute; tauto.
  - intros [[Hn Hw] Hw']. split; auto. intros c Hc.
    assert (Hd : In c (lit ".;[/") \/ In c (lit "<>")) by (revert Hc; vm_compute; tauto). destruct Hd; auto.
Qed.
Lemma without_slashes bad segs : ~ In (ch "/") (lit bad) -> without bad (slashes segs) <-> Forall (without bad) segs.
Proof.
  intro Hs. induction segs as [|a [|b segs] IH]; cbn [slashes] in *.
  - split; auto. intros _ c _ [].
  - split; [intro H; constructor; auto|]. intro H. inversion H; auto.
  - split.
    + intro H. assert (H1 : without bad a) by (intros c Hc Hi; apply (H c Hc), in_app_iff; auto).
      constructor; auto. apply IH. intros c Hc Hi. apply (H c Hc). rewrite !in_app_iff. auto.
    + intro H. inversion H as [|? ? Ha Hf]; subst. apply IH in Hf. intros c Hc Hi. rewrite !in_app_iff in Hi.
      destruct Hi as [Hi|[[Hi|[]]|Hi]]; [apply (Ha c Hc Hi)| |apply (Hf c Hc Hi)]. subst c. auto.
Qed.
Lemma class_name_split n : class_name n <-> binary_name n /\ without "<>" n.
Proof.
  assert (Hs : ~ In (ch "/") (lit "<>")) by (vm_compute; intuition discriminate). split.
  - intros (segs & Hne & Hf & ->). split.
    + exists segs. repeat split; auto. eapply Forall_impl; [|exact Hf]. intros a Ha. apply class_segment_split, Ha.
    + apply without_slashes; auto. eapply Forall_impl; [|exact Hf]. intros a Ha. apply class_segment_split, Ha.
  - intros [(segs & Hne & Hf & ->) Hw]. exists segs. repeat split; auto. apply without_slashes in Hw; auto.
    rewrite Forall_forall in *. intros a Ha. apply class_segment_split. auto.
Qed.
Lemma field_valid_split d : field_valid d <-> j_field d /\ Forall (without "<>") (names_of d).
Proof.
  unfold field_valid, type_valid, j_field, names_of. destruct (fd_type d); try (intuition auto; fail).
  rewrite class_name_split. split.
  - intros (H1 & H2 & H3). repeat split; auto.
  - intros ((H1 & H2) & H3). inversion H3; auto.
Qed.
Lemma method_valid_split d : method_valid d <-> j_method_form d /\ Forall (without "<>") (method_names_of d).
Proof.
  unfold method_valid, j_method_form, method_names_of. rewrite Forall_app. split.
  - intros [Hp Hr]. repeat split.
    + eapply Forall_impl; [|exact Hp]. intros p Hv. apply field_valid_split, Hv.
    + destruct (return_type d); cbn in *; auto. apply field_valid_split, Hr.
    + apply Forall_flat_map. eapply Forall_impl; [|exact Hp]. intros p Hv. apply field_valid_split, Hv.
    + destruct (return_type d); cbn in *; auto. apply field_valid_split, Hr.
  - intros [[Hp Hr] [Hn Hn']]. split.
    + apply Forall_flat_map in Hn. rewrite Forall_forall in *. intros p Hi. apply field_valid_split. auto.
    + destruct (return_type d); cbn in *; auto. apply field_valid_split. auto.
Qed.
Lemma class_is_binary n : class_name n -> binary_name n. Proof. intro H. apply class_name_split, H. Qed.
