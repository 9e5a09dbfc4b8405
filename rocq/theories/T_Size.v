(** * The size of a parsed class: C41. *)
From Verif Require Import Base M_Names M_Descriptors M_ConstantPool M_Bytecode M_Attributes M_Class M_Cesu8 Data
  S_Lang S_Names S_Format S_Env S_Size P_Size P_Class3 T_Class T_Unknown.
From Coq Require Import ZifyBool ZifyNat ZifyN.

(** An accepted class has at most as many values as the file has bytes. *)
Theorem C41_size_bounded E opts bs c : sane E bs -> parse_class_with_options E opts bs = Ok c -> (class_size c <= length bs)%nat.
Proof. intros Hs H. apply parse_sound in H; auto. destruct H as (d & cs & H). eapply sized_class; eauto. Qed.
Example C41_meets : sane debug64 object_class /\ exists c, parse_class debug64 object_class = Ok c /\ (200 < class_size c)%nat.
Proof.
  split; [apply ample_sane, ampleb_ample; vm_compute; reflexivity|].
  destruct (parse_class debug64 object_class) as [c| | |] eqn:H; [|exfalso; revert H; vm_compute; discriminate..]. exists c. split; [reflexivity|].
  assert (Hg : match parse_class debug64 object_class with Ok c => Nat.leb 201 (class_size c) | _ => false end = true) by (vm_compute; reflexivity).
  rewrite H in Hg. apply Nat.leb_le. exact Hg.
Qed.
