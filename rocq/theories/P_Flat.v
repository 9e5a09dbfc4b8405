(** * Listing the attributes of a class, for the examples. *)
From Verif Require Import Base S_Within M_Attributes M_Class.

Definition children (a : attr_info) : list attr_info :=
  match attr_dat a with
  | ACode cd => cd_attributes cd
  | ARecord l => flat_map rc_attributes l
  | _ => []
  end.
Fixpoint flat (fuel : nat) (l : list attr_info) : list attr_info :=
  match fuel with
  | O => []
  | S f => flat_map (fun a => a :: flat f (children a)) l
  end.
Definition all_attributes (c : class_file) : list attr_info :=
  flat 10 (class_attributes c ++ flat_map f_attributes (fields c) ++ flat_map m_attributes (methods c)).

Lemma children_inside a b : In b (children a) -> inside a b.
Proof.
  destruct a as [n dat]. unfold children. cbn [attr_dat]. destruct dat; try (intros []; fail).
  - apply inside_code.
  - intro H. apply in_flat_map in H. destruct H as (r & Hr & Hb). eapply inside_record; eauto.
Qed.
Lemma flat_within c fuel : forall l, (forall a, In a l -> within c a) -> forall a, In a (flat fuel l) -> within c a.
Proof.
  induction fuel as [|f IH]; intros l Hl a Ha; [destruct Ha|]. cbn [flat] in Ha. apply in_flat_map in Ha. destruct Ha as (b & Hb & Ha).
  destruct Ha as [<-|Ha]; auto. apply (IH (children b)); auto. intros x Hx. eapply nested; [apply Hl; eauto|]. apply children_inside; auto.
Qed.
Lemma all_within c a : In a (all_attributes c) -> within c a.
Proof.
  apply flat_within. intros b Hb. apply in_app_iff in Hb. destruct Hb as [Hb|Hb]; [apply of_class; auto|].
  apply in_app_iff in Hb. destruct Hb as [Hb|Hb]; apply in_flat_map in Hb; destruct Hb as (x & Hx & Hb); [eapply of_field|eapply of_method]; eauto.
Qed.
(** An attribute with a decidable property is found by computation. *)
Lemma find_within (r : outcome class_file) (P : attr_info -> bool) :
  match r with Ok c => existsb P (all_attributes c) | _ => false end = true -> exists c a, r = Ok c /\ within c a /\ P a = true.
Proof.
  destruct r as [c| | |]; try discriminate. intro H. apply existsb_exists in H. destruct H as (a & Ha & HP). exists c, a. split; auto. split; auto. apply all_within; auto.
Qed.
