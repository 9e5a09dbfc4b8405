(** * The parser with borrowing behaves like the parser without it: bytecode. *)
From Verif Require Import Base M_Names M_Descriptors M_ConstantPool M_Bytecode M_Attributes M_Class M_Cesu8
  Z_Cow Z_Descriptors Z_ConstantPool Z_Bytecode Z_Attributes Z_Plain Z_Class S_ZeroCopy P_ZeroUtf P_Zero.

Section Good.
Variable E : env.
Variable good : cow -> Prop.
Hypothesis good_sub : forall t j k u, good t -> sub_cow t j k = Ok u -> good u.
Variable p : pool.
Hypothesis Hp : Forall good (flat_map entry_texts p).
Local Notation mp := (plain_pool p).
Local Notation rel := (rel good).
Local Notation simop := (sim (rel plain_opcode opcode_texts)).

Ltac easy_ret := apply sim_ret; (split; [reflexivity|constructor]).
Ltac same := eapply sim_bind; [apply sim_same|]; intros ? _ <-.

Lemma tableswitch_sim : simop (read_tableswitch E) (M_Bytecode.read_tableswitch E).
Proof.
  unfold read_tableswitch, M_Bytecode.read_tableswitch. do 4 same. destruct (_ <? _)%Z; [apply sim_pfail_at|]. do 2 same. destruct (usize_of_i32 _); [|apply sim_pfail_at]. do 2 same. easy_ret.
Qed.
Lemma lookupswitch_sim : simop (read_lookupswitch E) (M_Bytecode.read_lookupswitch E).
Proof.
  unfold read_lookupswitch, M_Bytecode.read_lookupswitch. do 3 same. destruct (_ <? _)%Z; [apply sim_pfail_at|]. destruct (usize_of_i32 _); [|apply sim_pfail_at]. do 2 same. easy_ret.
Qed.
Lemma invokeinterface_sim : simop (read_invokeinterface p) (M_Bytecode.read_invokeinterface mp).
Proof.
  unfold read_invokeinterface, M_Bytecode.read_invokeinterface. eapply sim_bind; [apply cp_memberref_sim, Hp|]. intros m ? (<- & Hm). do 2 same. destruct (negb _); [apply sim_pfail_at|].
  apply sim_ret. split; [reflexivity|exact Hm].
Qed.
Lemma invokedynamic_sim : simop (read_invokedynamic_insn p) (M_Bytecode.read_invokedynamic_insn mp).
Proof.
  unfold read_invokedynamic_insn, M_Bytecode.read_invokedynamic_insn. eapply sim_bind; [apply cp_invokedynamic_sim, Hp|]. intros m ? (<- & Hm). same. destruct (negb _); [apply sim_pfail_at|].
  apply sim_ret. split; [reflexivity|exact Hm].
Qed.
Lemma newarray_sim : simop read_newarray M_Bytecode.read_newarray.
Proof. unfold read_newarray, M_Bytecode.read_newarray. do 2 same. easy_ret. Qed.
Ltac arm := first
  [ easy_ret | apply sim_pfail_at
  | apply tableswitch_sim | apply lookupswitch_sim | apply invokeinterface_sim | apply invokedynamic_sim | apply newarray_sim
  | same; first [easy_ret | same; easy_ret | eapply sim_bind; [apply sim_lift, loadable_sim, Hp|]; intros ? ? (<- & ?); apply sim_ret; split; [reflexivity|assumption]]
  | eapply sim_bind; [first [apply cp_memberref_sim, Hp | apply cp_object_array_type_sim; [exact good_sub | exact Hp] | apply cp_classinfo_sim, Hp]|];
      intros ? ? (<- & ?); try same; apply sim_ret; split; [reflexivity|assumption] ].
Lemma wide_sim : simop read_wide M_Bytecode.read_wide.
Proof.
  unfold read_wide, M_Bytecode.read_wide. same. destruct a as [|q]; [apply sim_pfail_at|]. do 8 (try (destruct q as [q|q|]; try apply sim_pfail_at)); try arm.
Qed.
Lemma insn_sim : simop (read_insn E p) (M_Bytecode.read_insn E mp).
Proof.
  unfold read_insn, M_Bytecode.read_insn. same. destruct a as [|q]; [easy_ret|]. do 8 (try (destruct q as [q|q|]; try apply sim_pfail_at)); try arm; try apply wide_sim.
Qed.
Lemma opcodes_sim n : sim (rel (map (fun oo => (fst oo, plain_opcode (snd oo)))) (flat_map (fun oo => opcode_texts (snd oo)))) (opcodes_loop E p n) (M_Bytecode.opcodes_loop E mp n).
Proof.
  induction n as [|n IH]; intros bs ix; cbn [opcodes_loop M_Bytecode.opcodes_loop]; (destruct (_ <? _); [|apply simo_ok; cbn; repeat split; constructor]). { exact I. }
  match goal with |- simo ?R (?z bs ix) (?m bs ix) => enough (H : sim (rel (map (fun oo => (fst oo, plain_opcode (snd oo)))) (flat_map (fun oo => opcode_texts (snd oo)))) z m) by apply H end.
  eapply sim_bind; [apply insn_sim|]. intros op ? (<- & Hop). eapply sim_bind; [apply IH|]. intros l ? (<- & Hl). apply sim_ret. split; [reflexivity|]. cbn [flat_map snd]. apply Forall_app; auto.
Qed.
Lemma bytecode_sim code : simo (rel plain_code (fun b => flat_map (fun oo => opcode_texts (snd oo)) (opcodes b))) (bytecode_from E code p) (M_Bytecode.bytecode_from E code mp).
Proof.
  unfold bytecode_from, M_Bytecode.bytecode_from. eapply (simo_bind (rel (map (fun oo => (fst oo, plain_opcode (snd oo)))) (flat_map (fun oo => opcode_texts (snd oo))))).
  - unfold read_opcodes, M_Bytecode.read_opcodes. eapply simo_bind; [apply opcodes_sim|]. intros a b (H & _). apply simo_ok, H.
  - intros ops ? (<- & Hops). cbv zeta. eapply simo_bind; [apply simo_same|]. intros _ _ _. apply simo_ok. split; [reflexivity|exact Hops].
Qed.
End Good.
