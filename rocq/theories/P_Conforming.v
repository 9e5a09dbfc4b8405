(** * Lemmas for C66. *)
From Verif Require Import Base M_Names M_Descriptors M_ConstantPool M_Bytecode M_Attributes M_Class M_Cesu8
  S_Lang S_Names S_Format S_Pool S_Items S_Utf P_Reads T_Text T_Iter S_Jvms P_Jvms.
From Verif Require Import S_Conforming.
From Coq Require Import ZifyBool ZifyNat ZifyN.

Definition none : deviation -> Prop := fun _ => False.
Definition dec := from_java_cesu8.

(** ** Texts *)
Lemma encodes_dec raw s : encodes none raw s -> dec raw = Some s.
Proof.
  intros [Hf He]. apply C33_decode_encoded; auto. eapply Forall_impl; [|exact Hf]. intros c [H|[[] _]]; auto.
Qed.
Lemma angles s : without_angles none s -> without "<>" s.
Proof. intros [[]|H]; auto. Qed.
Lemma field_type_valid d : field_type_ok none d -> field_valid d.
Proof.
  intros [H1 H2]. split; auto. unfold type_valid. destruct (fd_type d); auto. destruct (H2 _ eq_refl) as [Hb Ha].
  apply class_name_split. split; auto. apply angles, Ha.
Qed.
Lemma return_type_valid r : return_type_ok none r -> return_valid r.
Proof. intro H. destruct r; cbn; auto. apply field_type_valid, H. reflexivity. Qed.
Lemma method_type_valid d : method_type_ok none d -> method_valid d.
Proof.
  intros [H1 H2]. split; [|apply return_type_valid, H2]. eapply Forall_impl; [|exact H1]. apply field_type_valid.
Qed.
Lemma field_ok_descriptor s : field_ok none s -> field_descriptor s.
Proof. intros (d & -> & H). exists d. split; auto. apply field_type_valid, H. Qed.
Lemma method_ok_descriptor s : method_ok none s -> method_descriptor s.
Proof. intros (d & -> & H). exists d. split; auto. apply method_type_valid, H. Qed.
Lemma return_ok_descriptor s : return_ok none s -> return_descriptor s.
Proof. intros (d & -> & H). exists d. split; auto. apply return_type_valid, H. Qed.
Lemma array_ok_descriptor s : array_ok none s -> array_descriptor s.
Proof. intros (d & -> & H & Hd). exists d. split; auto. apply field_type_valid, H. Qed.

(** ** Languages *)
Definition covers {A} (L : lang) (F : A -> lang) : Prop := forall w, L w -> exists a, F a w.
Lemma times_many {A} (F : A -> lang) L : covers L F -> forall n w, times n L w -> exists l, length l = n /\ many F l w.
Proof.
  intro HL. induction n as [|n IH]; intros w H; cbn [times] in H.
  - exists []. auto.
  - destruct H as (u & v & -> & Hu & Hv). destruct (HL _ Hu) as (a & Ha), (IH _ Hv) as (l & Hl & Hm).
    exists (a :: l). split; [cbn; lia|]. exists u, v. auto.
Qed.
Lemma covers_counted {A} (F : A -> lang) L cnt : covers L F -> covers (counted cnt L) (table cnt F).
Proof.
  intros HL w (n & u & v & -> & Hu & Hv). destruct (times_many F L HL n v Hv) as (l & <- & Hm). exists l, u, v. auto.
Qed.
Lemma covers_index {A} (P : N -> Prop) (R : N -> A -> Prop) : (forall i, P i -> exists a, R i a) -> covers (index P) (ref R).
Proof. intros H w (i & Hi & Hp). destruct (H i Hp) as (a & Ha). exists a, i. auto. Qed.
Lemma covers_index1 {A} (P : N -> Prop) (R : N -> A -> Prop) : (forall i, P i -> exists a, R i a) -> covers (index1 P) (ref1 R).
Proof. intros H w (i & Hi & Hp). destruct (H i Hp) as (a & Ha). exists a, i. auto. Qed.
Lemma covers_index_or_0 {A} (P : N -> Prop) (R : N -> A -> Prop) : (forall i, P i -> exists a, R i a) -> covers (index_or_0 P) (opt_ref R).
Proof.
  intros H w (i & Hi & Hp). destruct Hp as [-> |Hp]; [exists None; exact Hi|]. destruct (H i Hp) as (a & Ha). exists (Some a), i. auto.
Qed.
Lemma covers_flags named : covers (flags_of named) (flags_exact named).
Proof. intros w (i & Hi & Hp). exists i. split; auto. Qed.
Lemma covers_uint k : covers (blob (N.of_nat k)) (uint k).
Proof. intros w H. unfold blob in H. exists (be w). split; auto. lia. Qed.
Lemma covers_u1 : covers byte1 u1. Proof. exact (covers_uint 1). Qed.
Lemma covers_u2 : covers bytes2 u2. Proof. exact (covers_uint 2). Qed.
Lemma covers_sint k : (0 < k)%nat -> covers (blob (N.of_nat k)) (sint k).
Proof.
  intros Hk w H. unfold blob in H. assert (Hl : length w = k) by lia. pose proof (be_bound w) as Hb. rewrite Hl in Hb.
  destruct (sint_to_signed k (be w) Hk Hb) as [H1 H2]. eexists. split; [exact Hl|]. split; [exact H1|exact H2].
Qed.
Lemma covers_s1 : covers byte1 s1. Proof. apply (covers_sint 1). lia. Qed.
Lemma covers_s2 : covers bytes2 s2. Proof. apply (covers_sint 2). lia. Qed.
Lemma covers_keep named : covers bytes2 (flags_keep named).
Proof.
  intros w H. destruct (covers_u2 w H) as (n & Hn). exists (N.land n named), n. split; auto. intro bit. apply N.land_spec.
Qed.
Lemma covers_pair {A B} (L M : lang) (F : A -> lang) (G : B -> lang) : covers L F -> covers M G ->
  covers (L +++ M) (fun p => F (fst p) +++ G (snd p)).
Proof.
  intros HL HM w (u & v & -> & Hu & Hv). destruct (HL u Hu) as (a & Ha), (HM v Hv) as (b & Hb). exists (a, b), u, v. auto.
Qed.
Lemma covers_map {A B} (L : lang) (F : A -> lang) (G : B -> lang) (f : A -> B) : covers L F -> (forall a w, F a w -> G (f a) w) -> covers L G.
Proof. intros H Hf w Hw. destruct (H w Hw) as (a & Ha). exists (f a). auto. Qed.

(** ** Constants *)
Section WithPool.
Variable major : N.
Variable cs : list constant.
Local Notation sl := (slots_of cs).
Hypothesis Hok : Forall (constant_ok none major cs) cs.

Lemma text_utf8 i s : text_at none cs i s -> utf8_at dec sl i s.
Proof. intros (raw & Hi & He). exists raw. split; [exact Hi|]. apply encodes_dec, He. Qed.
Lemma described_desc (P Q : str -> Prop) i : (forall s, P s -> Q s) -> described_by none cs P i -> described dec sl i Q.
Proof. intros HPQ (n & d & Hi & s & Hs & HP). exists n, d, s. split; [exact Hi|]. split; [apply text_utf8, Hs|auto]. Qed.
Lemma constant_valid c : constant_ok none major cs c -> valid_constant dec sl major c.
Proof.
  destruct c; cbn [constant_ok valid_constant]; auto.
  - intros (s & Hs & Hp). exists s. split; [apply text_utf8, Hs|]. destruct Hp; auto. right. apply array_ok_descriptor; auto.
  - intros [H1 H2]. split; auto. eapply described_desc; [|exact H2]. apply field_ok_descriptor.
  - intros [H1 H2]. split; auto. eapply described_desc; [|exact H2]. apply method_ok_descriptor.
  - intros [H1 H2]. split; auto. eapply described_desc; [|exact H2]. apply method_ok_descriptor.
  - intros [(s & H1 & H2) H3]. split; auto. exists s. split; [apply text_utf8, H1|auto].
  - intros (c & nt & H). destruct kind; try (eexists; split; [exact H|exact I]);
      (destruct H as [H|[Hm H]]; eexists; (split; [exact H|]); cbn; auto).
  - intros (s & H1 & H2). exists s. split; [apply text_utf8, H1|apply method_ok_descriptor, H2].
  - apply described_desc, field_ok_descriptor.
  - apply described_desc, method_ok_descriptor.
  - intros (s & H1 & H2). exists s. split; [apply text_utf8, H1|auto].
  - intros (s & H1 & H2). exists s. split; [apply text_utf8, H1|auto].
Qed.
Lemma pool_valid : Forall (valid_constant dec sl major) cs.
Proof. eapply Forall_impl; [|exact Hok]. apply constant_valid. Qed.
Lemma item_of_shown i c : at_index sl i c -> shown c = true -> (forall n d, c <> CNameAndType n d) -> exists it, item_at dec sl i it.
Proof.
  intros Hi Hs Hn. destruct (item_exists dec cs major pool_valid i c Hi Hs) as [H|(n & d & raw & -> & _)]; auto. exfalso. eapply Hn. reflexivity.
Qed.
Lemma some_text i : any_text none cs i -> exists s, utf8_at dec sl i s.
Proof. intros (s & Hs & _). exists s. apply text_utf8, Hs. Qed.
Lemma some_that (P Q : str -> Prop) i : (forall s, P s -> Q s) -> a_text none cs P i -> exists s, that (utf8_at dec sl) Q i s.
Proof. intros H (s & Hs & HP). exists s. split; [apply text_utf8, Hs|auto]. Qed.
Lemma some_name i : a_text none cs unqualified i -> exists s, that (utf8_at dec sl) unqualified i s.
Proof. apply some_that. auto. Qed.
Lemma some_field i : a_text none cs (field_ok none) i -> exists d, field_desc_at dec sl i d.
Proof.
  intros (s & Hs & Hf). apply field_ok_descriptor in Hf. destruct Hf as (d & Hd & ->). exists d, (field_text d).
  split; [apply text_utf8, Hs|]. split; auto. exists []. rewrite app_nil_r. reflexivity.
Qed.
Lemma some_class i : any_class cs i -> exists s, class_at dec sl i s.
Proof. intro H. exact (class_exists dec cs major pool_valid i H). Qed.
Ltac use_item Hi := let it := fresh "it" in let H := fresh "H" in
  destruct (item_of_shown _ _ Hi eq_refl) as (it & H); [discriminate|]; destruct it; cbn [item_at] in H.
Ltac other_kind := exfalso; repeat match goal with
  | H : literal_at _ _ _ ?l |- _ => destruct l; cbn [literal_at] in H
  | H : exists _, _ |- _ => destruct H
  | H : _ /\ _ |- _ => destruct H
  | H : member_at _ _ _ _ _ _ |- _ => unfold member_at in H; cbn [member_constant] in H
  | H : class_at _ _ _ _ |- _ => unfold class_at in H
  | H : module_at _ _ _ _ |- _ => unfold module_at in H
  | H : package_at _ _ _ _ |- _ => unfold package_at in H
  | H : method_type_at _ _ _ _ |- _ => unfold method_type_at in H
  | H : name_and_type_at _ _ _ _ |- _ => unfold name_and_type_at in H
  | H : method_handle_at _ _ _ _ |- _ => unfold method_handle_at in H
  | H : dynamic_at _ _ _ _ |- _ => unfold dynamic_at in H
  | H : invoke_dynamic_at _ _ _ _ |- _ => unfold invoke_dynamic_at in H
  | H1 : at_index ?s ?i ?a, H2 : at_index ?s ?i ?b |- _ => pose proof (at_fun cs i a b H1 H2); discriminate
  end.
Lemma some_literal i : of_kind cs literal_constant i -> exists l, literal_at dec sl i l.
Proof.
  intros (c & Hi & Hc). unfold literal_constant, integer, float, long, double in Hc.
  destruct Hc as [(v & ->)|[(v & ->)|[(v & ->)|[(v & ->)|(t & ->)]]]]; use_item Hi; try solve [other_kind]; eauto.
Qed.
Lemma some_handle i : of_kind cs (fun c => exists k m, c = CMethodHandle k m) i -> exists h, method_handle_at dec sl i h.
Proof. intros (c & Hi & (k & m & ->)). use_item Hi; try solve [other_kind]; eauto. Qed.
Lemma some_method_type i d : at_index sl i (CMethodType d) -> exists s, method_type_at dec sl i s.
Proof. intro Hi. use_item Hi; try solve [other_kind]; eauto. Qed.
Lemma some_dynamic i b nt : at_index sl i (CDynamic b nt) -> exists d, dynamic_at dec sl i d.
Proof. intro Hi. use_item Hi; try solve [other_kind]; eauto. Qed.
Lemma some_invoke i : of_kind cs (fun c => exists b nt, c = CInvokeDynamic b nt) i -> exists d, invoke_dynamic_at dec sl i d.
Proof. intros (c & Hi & (k & m & ->)). use_item Hi; try solve [other_kind]; eauto. Qed.
Lemma some_module i : a_module cs i -> exists s, module_at dec sl i s.
Proof. intros (c & Hi & (n & ->)). use_item Hi; try solve [other_kind]; eauto. Qed.
Lemma some_package i : a_package cs i -> exists s, package_at dec sl i s.
Proof. intros (c & Hi & (n & ->)). use_item Hi; try solve [other_kind]; eauto. Qed.
Lemma some_argument i : of_kind cs (argument none) i -> exists a, bootstrap_arg_at dec sl i a.
Proof.
  intros (c & Hi & [Hl [[]|Hn]]). destruct Hl as [Hl|[(n & ->)|[(k & m & ->)|[(d & ->)|(b & nt & ->)]]]].
  - destruct (some_literal i) as (l & Hl'); [exists c; auto|]. exists (BaLiteral l). exact Hl'.
  - destruct (some_class i) as (s & Hs); [exists n; auto|]. exists (BaClassInfo s). exact Hs.
  - destruct (some_handle i) as (h & Hh); [eexists; split; [exact Hi|eauto]|]. exists (BaMethodHandle h). exact Hh.
  - destruct (some_method_type i d Hi) as (s & Hs). exists (BaMethodType s). exact Hs.
  - exfalso. eapply Hn. reflexivity.
Qed.
Lemma some_loadable i : of_kind cs loadable_constant i -> exists a, loadable_at dec sl i a.
Proof.
  intros (c & Hi & Hl). destruct Hl as [Hl|[(n & ->)|[(k & m & ->)|[(d & ->)|(b & nt & ->)]]]].
  - destruct (some_literal i) as (l & Hl'); [exists c; auto|]. exists (LdLiteral l). exact Hl'.
  - destruct (some_class i) as (s & Hs); [exists n; auto|]. exists (LdClassInfo s). exact Hs.
  - destruct (some_handle i) as (h & Hh); [eexists; split; [exact Hi|eauto]|]. exists (LdMethodHandle h). exact Hh.
  - destruct (some_method_type i d Hi) as (s & Hs). exists (LdMethodType s). exact Hs.
  - destruct (some_dynamic i b nt Hi) as (x & Hx). exists (LdDynamic x). exact Hx.
Qed.
Lemma some_fieldref i : of_kind cs fieldref i -> exists m, member_ref_at dec sl [KField] i m.
Proof. intros (c & Hi & (k & nt & ->)). use_item Hi; try solve [other_kind]. exists m, KField. cbn; auto. Qed.
Lemma some_methodref i : of_kind cs methodref i -> exists m, member_ref_at dec sl [KMethod] i m.
Proof. intros (c & Hi & (k & nt & ->)). use_item Hi; try solve [other_kind]. exists m, KMethod. cbn; auto. Qed.
Lemma some_interface i : of_kind cs interface_methodref i -> exists m, member_ref_at dec sl [KInterfaceMethod] i m.
Proof. intros (c & Hi & (k & nt & ->)). use_item Hi; try solve [other_kind]. exists m, KInterfaceMethod. cbn; auto. Qed.
Lemma some_either i : of_kind cs (fun c => methodref c \/ interface_methodref c) i -> exists m, member_ref_at dec sl [KMethod; KInterfaceMethod] i m.
Proof.
  intros (c & Hi & [H|H]).
  - destruct (some_methodref i) as (m & k & Hk & Hm); [exists c; auto|]. exists m, k. split; auto. destruct Hk as [<-|[]]; cbn; auto.
  - destruct (some_interface i) as (m & k & Hk & Hm); [exists c; auto|]. exists m, k. split; auto. destruct Hk as [<-|[]]; cbn; auto.
Qed.
Lemma some_array i : any_class cs i -> exists t, object_array_type_at dec sl i t.
Proof.
  intros (n & Hn). pose proof (valid_at dec cs major pool_valid i _ Hn) as (s & Hs & Hv). assert (Hc : class_at dec sl i s) by (exists n; auto).
  destruct Hv as [Hb|(d & H1 & H2 & ->)].
  - exists (OBinaryName s), s. split; auto. split; auto. intros r ->. apply (binary_no (ch "[") _) in Hb; [|vm_compute; tauto]. apply Hb. left. reflexivity.
  - exists (OArrayType d), (field_text d). auto.
Qed.
Lemma some_nt i : described_by none cs (fun _ => True) i -> exists nt, name_and_type_at dec sl i nt.
Proof. intro H. eapply (nt_exists dec cs major pool_valid i (fun _ => True)). eapply described_desc; [|exact H]. auto. Qed.

(** ** Instructions *)
Definition plain_ops : list (N * M_Bytecode.opcode) :=
  [(0x00, OpNop); (0x01, OpAconstNull); (0x02, OpIconstM1); (0x03, OpIconst0); (0x04, OpIconst1); 
   (0x05, OpIconst2); (0x06, OpIconst3); (0x07, OpIconst4); (0x08, OpIconst5); (0x09, OpLconst0); 
   (0x0a, OpLconst1); (0x0b, OpFconst0); (0x0c, OpFconst1); (0x0d, OpFconst2); (0x0e, OpDconst0); 
   (0x0f, OpDconst1); (0x1a, OpIload 0); (0x1b, OpIload 1); (0x1c, OpIload 2); (0x1d, OpIload 3); 
   (0x1e, OpLload 0); (0x1f, OpLload 1); (0x20, OpLload 2); (0x21, OpLload 3); (0x22, OpFload 0); 
   (0x23, OpFload 1); (0x24, OpFload 2); (0x25, OpFload 3); (0x26, OpDload 0); (0x27, OpDload 1); 
   (0x28, OpDload 2); (0x29, OpDload 3); (0x2a, OpAload 0); (0x2b, OpAload 1); (0x2c, OpAload 2); 
   (0x2d, OpAload 3); (0x2e, OpIaload); (0x2f, OpLaload); (0x30, OpFaload); (0x31, OpDaload); 
   (0x32, OpAaload); (0x33, OpBaload); (0x34, OpCaload); (0x35, OpSaload); (0x3b, OpIstore 0); 
   (0x3c, OpIstore 1); (0x3d, OpIstore 2); (0x3e, OpIstore 3); (0x3f, OpLstore 0); (0x40, OpLstore 1); 
   (0x41, OpLstore 2); (0x42, OpLstore 3); (0x43, OpFstore 0); (0x44, OpFstore 1); (0x45, OpFstore 2); 
   (0x46, OpFstore 3); (0x47, OpDstore 0); (0x48, OpDstore 1); (0x49, OpDstore 2); (0x4a, OpDstore 3); 
   (0x4b, OpAstore 0); (0x4c, OpAstore 1); (0x4d, OpAstore 2); (0x4e, OpAstore 3); (0x4f, OpIastore); 
   (0x50, OpLastore); (0x51, OpFastore); (0x52, OpDastore); (0x53, OpAastore); (0x54, OpBastore); 
   (0x55, OpCastore); (0x56, OpSastore); (0x57, OpPop); (0x58, OpPop2); (0x59, OpDup); (0x5a, OpDupX1); 
   (0x5b, OpDupX2); (0x5c, OpDup2); (0x5d, OpDup2X1); (0x5e, OpDup2X2); (0x5f, OpSwap); (0x60, OpIadd); 
   (0x61, OpLadd); (0x62, OpFadd); (0x63, OpDadd); (0x64, OpIsub); (0x65, OpLsub); (0x66, OpFsub); 
   (0x67, OpDsub); (0x68, OpImul); (0x69, OpLmul); (0x6a, OpFmul); (0x6b, OpDmul); (0x6c, OpIdiv); 
   (0x6d, OpLdiv); (0x6e, OpFdiv); (0x6f, OpDdiv); (0x70, OpIrem); (0x71, OpLrem); (0x72, OpFrem); 
   (0x73, OpDrem); (0x74, OpIneg); (0x75, OpLneg); (0x76, OpFneg); (0x77, OpDneg); (0x78, OpIshl); 
   (0x79, OpLshl); (0x7a, OpIshr); (0x7b, OpLshr); (0x7c, OpIushr); (0x7d, OpLushr); (0x7e, OpIand); 
   (0x7f, OpLand); (0x80, OpIor); (0x81, OpLor); (0x82, OpIxor); (0x83, OpLxor); (0x85, OpI2l); 
   (0x86, OpI2f); (0x87, OpI2d); (0x88, OpL2i); (0x89, OpL2f); (0x8a, OpL2d); (0x8b, OpF2i); (0x8c, OpF2l); 
   (0x8d, OpF2d); (0x8e, OpD2i); (0x8f, OpD2l); (0x90, OpD2f); (0x91, OpI2b); (0x92, OpI2c); (0x93, OpI2s); 
   (0x94, OpLcmp); (0x95, OpFcmpl); (0x96, OpFcmpg); (0x97, OpDcmpl); (0x98, OpDcmpg); (0xac, OpIreturn); 
   (0xad, OpLreturn); (0xae, OpFreturn); (0xaf, OpDreturn); (0xb0, OpAreturn); (0xb1, OpReturn); 
   (0xbe, OpArraylength); (0xbf, OpAthrow); (0xc2, OpMonitorenter); (0xc3, OpMonitorexit)].
Definition branch_ops : list (N * (Z -> M_Bytecode.opcode)) :=
  [(0x99, OpIfeq); (0x9a, OpIfne); (0x9b, OpIflt); (0x9c, OpIfge); (0x9d, OpIfgt); (0x9e, OpIfle); 
   (0x9f, OpIfIcmpeq); (0xa0, OpIfIcmpne); (0xa1, OpIfIcmplt); (0xa2, OpIfIcmpge); (0xa3, OpIfIcmpgt); 
   (0xa4, OpIfIcmple); (0xa5, OpIfAcmpeq); (0xa6, OpIfAcmpne); (0xa7, OpGoto); (0xa8, OpJsr); 
   (0xc6, OpIfnull); (0xc7, OpIfnonnull)].
Definition local_ops : list (N * (N -> M_Bytecode.opcode)) :=
  [(0x15, OpIload); (0x16, OpLload); (0x17, OpFload); (0x18, OpDload); (0x19, OpAload); (0x36, OpIstore); 
   (0x37, OpLstore); (0x38, OpFstore); (0x39, OpDstore); (0x3a, OpAstore); (0xa9, OpRet)].
Definition below256 : list N := map N.of_nat (seq 0 256).
Lemma below_in c : c < 256 -> In c below256.
Proof. intro H. unfold below256. apply in_map_iff. exists (N.to_nat c). split; [lia|]. apply in_seq. lia. Qed.
Lemma u1_below c w : u1 c w -> c < 256.
Proof. intros [Hl <-]. pose proof (be_bound w) as H. rewrite Hl in H. exact H. Qed.
Lemma in_ops {A} (ops : list (N * A)) (p : N -> bool) :
  forallb (fun c => implb (p c) (existsb (fun x => fst x =? c) ops)) below256 = true ->
  forall c w, u1 c w -> p c = true -> exists a, In (c, a) ops.
Proof.
  intros H c w Hu Hp. rewrite forallb_forall in H. specialize (H c (below_in c (u1_below c w Hu))). rewrite Hp in H. cbn [implb] in H.
  apply existsb_exists in H. destruct H as ([c' a] & Hin & He). cbn [fst] in He. apply N.eqb_eq in He. subst c'. eauto.
Qed.
Definition rangeb (a b c : N) : bool := (a <=? c) && (c <=? b).
Definition plainb (c : N) : bool :=
  rangeb 0x00 0x0f c || rangeb 0x1a 0x35 c || rangeb 0x3b 0x83 c || rangeb 0x85 0x98 c || rangeb 0xac 0xb1 c
  || (c =? 0xbe) || (c =? 0xbf) || (c =? 0xc2) || (c =? 0xc3).
Definition branchb (c : N) : bool := rangeb 0x99 0xa8 c || (c =? 0xc6) || (c =? 0xc7).
Definition localb (c : N) : bool := rangeb 0x15 0x19 c || rangeb 0x36 0x3a c || (c =? 0xa9).
Lemma plain_in c w : u1 c w -> plainb c = true -> exists a, In (c, a) plain_ops.
Proof. apply in_ops. vm_compute. reflexivity. Qed.
Lemma branch_in c w : u1 c w -> branchb c = true -> exists a, In (c, a) branch_ops.
Proof. apply in_ops. vm_compute. reflexivity. Qed.
Lemma local_in c w : u1 c w -> localb c = true -> exists a, In (c, a) local_ops.
Proof. apply in_ops. vm_compute. reflexivity. Qed.

Section Insn.
Variable wraps : bool.
Variable o : N.
Local Notation ilang := (insn_lang dec sl wraps o).
Definition is_plain (x : N * M_Bytecode.opcode) : Prop := targets (snd x) = [] /\ forall w, u1 (fst x) w -> ilang (snd x) w.
Lemma plains : Forall is_plain plain_ops.
Proof.
  assert (Hlocal : forall c c0 i w, i <= 3 -> u1 (c0 + i) w -> local c c0 i w).
  { intros c c0 i w Hi H. right. left. exists w, []. rewrite app_nil_r. split; auto. split; auto. split; auto. }
  unfold plain_ops. repeat (apply Forall_cons; [split; [reflexivity|]; cbn [fst snd insn_lang]; intros w H; first [exact H|apply Hlocal; [lia|exact H]]|]). apply Forall_nil.
Qed.
Lemma branches : Forall (fun x => forall t w, targets (snd x t) = [t] /\ ((u1 (fst x) +++ s2 t) w -> ilang (snd x t) w)) branch_ops.
Proof.
  unfold branch_ops. repeat (apply Forall_cons; [intros t w; split; [reflexivity|]; cbn [fst snd insn_lang]; intro H; first [exact H|left; exact H]|]). apply Forall_nil.
Qed.
Lemma locals : Forall (fun x => forall i w, targets (snd x i) = [] /\ ((u1 (fst x) +++ u1 i) w -> ilang (snd x i) w)
  /\ ((u1 0xc4 +++ u1 (fst x) +++ u2 i) w -> ilang (snd x i) w)) local_ops.
Proof.
  unfold local_ops. repeat (apply Forall_cons; [intros i w; split; [reflexivity|]; cbn [fst snd insn_lang]; split; intro H;
    first [left; exact H|right; right; exact H|right; exact H]|]). apply Forall_nil.
Qed.
Lemma rangeb_iff a b c : between a b c <-> rangeb a b c = true.
Proof. unfold between, rangeb. lia. Qed.

Ltac cut H := let u := fresh "u" in let v := fresh "v" in let Hu := fresh "Hu" in let Hv := fresh "Hv" in
  destruct H as (u & v & -> & Hu & Hv).
Ltac glue := eexists _, _; split; [reflexivity|]; split.
Ltac pick t := match goal with H : _ = t |- _ => exact H end.
Lemma insn_covered ts w : N.of_nat (length w) < 65536 -> instruction cs o ts w -> exists op, ilang op w /\ targets op = ts.
Proof.
  intros Hlen H. destruct H as [c w Hc H|w H|w H|w H|c w Hc H|c w Hc H|c w Hc H|w H|w H|c t w Hc H|c t w Hc H|d lo hi ts w Hle Hn H
    |d n ts w Hn H|c w Hc H|w H|c w Hc H|w H|w H|c w Hc H|w H|w H].
  - destruct (plain_in c w H) as (op & Hin). { unfold plainb. rewrite !Bool.orb_true_iff, !N.eqb_eq, <- !rangeb_iff. tauto. }
    pose proof (proj1 (Forall_forall _ _) plains _ Hin) as [H1 H2]. exists op. split; auto.
  - cut H. destruct (covers_s1 _ Hv) as (z & Hz). exists (OpBipush z). split; auto. glue; eauto.
  - cut H. destruct (covers_s2 _ Hv) as (z & Hz). exists (OpSipush z). split; auto. glue; eauto.
  - cut H. destruct (covers_index1 _ _ (some_loadable) _ Hv) as (l & Hl). exists (OpLdc l). split; auto. glue; eauto.
  - cut H. destruct (covers_index _ _ (some_loadable) _ Hv) as (l & Hl).
    destruct Hc as [-> | ->]; [exists (OpLdcW l)|exists (OpLdc2W l)]; (split; auto; glue; eauto).
  - cut H. destruct (covers_u1 _ Hv) as (i & Hi). destruct (local_in c _ Hu) as (op & Hin).
    { unfold localb. rewrite !Bool.orb_true_iff, !N.eqb_eq, <- !rangeb_iff. unfold has_local in Hc. tauto. }
    destruct (proj1 (Forall_forall _ _) locals _ Hin i (u ++ v)) as (H1 & H2 & _). exists (op i). split; auto. apply H2. glue; auto.
  - cut H. cut Hv. destruct (covers_u2 _ Hv0) as (i & Hi). destruct (local_in c _ Hu0) as (op & Hin).
    { unfold localb. rewrite !Bool.orb_true_iff, !N.eqb_eq, <- !rangeb_iff. unfold has_local in Hc. tauto. }
    destruct (proj1 (Forall_forall _ _) locals _ Hin i (u ++ u0 ++ v0)) as (H1 & _ & H2). exists (op i). split; auto. apply H2. glue; auto. glue; auto.
  - cut H. cut Hv. destruct (covers_u1 _ Hu0) as (i & Hi), (covers_s1 _ Hv0) as (k & Hk). exists (OpIinc i k). split; auto. left. glue; auto. glue; auto.
  - cut H. cut Hv. cut Hv0. destruct (covers_u2 _ Hu1) as (i & Hi), (covers_s2 _ Hv) as (k & Hk). exists (OpIinc i k). split; auto.
    right. glue; auto. glue; auto. glue; auto.
  - cut H. destruct (branch_in c _ Hu) as (op & Hin). { unfold branchb. rewrite !Bool.orb_true_iff, !N.eqb_eq, <- !rangeb_iff. tauto. }
    destruct (proj1 (Forall_forall _ _) branches _ Hin t (u ++ v)) as (H1 & H2). exists (op t). split; auto. apply H2. glue; auto.
  - destruct Hc as [-> | ->]; [exists (OpGoto t)|exists (OpJsr t)]; (split; [right; exact H|reflexivity]).
  - exists (OpTableswitch (mk_range d lo hi ts)). split; [|reflexivity]. cbn [insn_lang rg_default rg_low rg_high jumps].
    cut H. cut Hv. cut Hv0. cut Hv. cut Hv0. glue; auto. glue; auto. glue; auto. glue; auto. glue; auto.
    exists [], v. split; auto. split; [|exact Hv]. split; auto. left. split; auto. split; auto.
    assert (Hm : (4 * length ts <= length v)%nat).
    { clear - Hv. revert v Hv. induction ts as [|t ts IH]; intros v Hv; cbn [many length] in *; [lia|]. destruct Hv as (a & b & -> & [Ha _] & Hb).
      apply IH in Hb. rewrite app_length. lia. }
    rewrite !app_length in Hlen. lia.
  - cut H. cut Hv. cut Hv0. cut Hv.
    assert (Hm : exists mo, map snd mo = ts /\ length mo = length ts /\ many (fun mo => s4 (fst mo) +++ s4 (snd mo)) mo v0).
    { clear - Hv0. revert v0 Hv0. induction ts as [|t ts IH]; intros v Hv; cbn [many] in *.
      - exists []. auto.
      - cut Hv. cut Hu. destruct Hu0 as (z & Hz & _). destruct (IH _ Hv0) as (mo & H1 & H2 & H3). exists ((z, t) :: mo). cbn [map snd length].
        split; [congruence|]. split; [lia|]. cbn [many fst snd]. glue; auto. glue; auto. }
    destruct Hm as (mo & H1 & H2 & H3). exists (OpLookupswitch (mk_lookup d mo)). split; [|cbn [targets lk_default match_offsets]; congruence].
    cbn [insn_lang lk_default match_offsets]. rewrite H2, <- Hn. glue; auto. glue; auto. glue; auto. glue; auto.
  - cut H. destruct (covers_index _ _ (some_fieldref) _ Hv) as (m & Hm).
    assert (Hc4 : c = 0xb2 \/ c = 0xb3 \/ c = 0xb4 \/ c = 0xb5) by (unfold between in Hc; lia).
    destruct Hc4 as [-> |[-> |[-> | ->]]]; [exists (OpGetstatic m)|exists (OpPutstatic m)|exists (OpGetfield m)|exists (OpPutfield m)];
      (split; auto; glue; eauto).
  - cut H. destruct (covers_index _ _ (some_methodref) _ Hv) as (m & Hm). exists (OpInvokevirtual m). split; auto. glue; eauto.
  - cut H. destruct (covers_index _ _ (some_either) _ Hv) as (m & Hm).
    destruct Hc as [-> | ->]; [exists (OpInvokespecial m)|exists (OpInvokestatic m)]; (split; auto; glue; eauto).
  - cut H. cut Hv. cut Hv0. destruct (covers_index _ _ (some_interface) _ Hu0) as (m & Hm), (covers_u1 _ Hu1) as (k & Hk).
    exists (OpInvokeinterface m k). split; auto. glue; auto. glue; auto. glue; auto.
  - cut H. cut Hv. destruct (covers_index _ _ (some_invoke) _ Hu0) as (m & Hm). exists (OpInvokedynamic m). split; auto. glue; auto. glue; auto.
  - cut H. destruct Hc as [-> |Hc].
    + destruct (covers_index _ _ (some_class) _ Hv) as (s & Hs). exists (OpNew s). split; auto. glue; auto.
    + destruct (covers_index _ _ (some_array) _ Hv) as (s & Hs).
      destruct Hc as [-> |[-> | ->]]; [exists (OpAnewarray s)|exists (OpCheckcast s)|exists (OpInstanceof s)]; (split; auto; glue; auto).
  - cut H. destruct Hv as (k & Hk & Hb). unfold between in Hb.
    assert (Ht : exists t, array_code t = k).
    { assert (k = 4 \/ k = 5 \/ k = 6 \/ k = 7 \/ k = 8 \/ k = 9 \/ k = 10 \/ k = 11) as H by lia.
      destruct H as [-> |[-> |[-> |[-> |[-> |[-> |[-> | ->]]]]]]];
        [exists ABoolean|exists AChar|exists AFloat|exists ADouble|exists AByte|exists AShort|exists AInt|exists ALong]; reflexivity. }
    destruct Ht as (t & <-). exists (OpNewarray t). split; auto. glue; auto.
  - cut H. cut Hv. destruct (covers_index _ _ (some_array) _ Hu0) as (s & Hs), (covers_u1 _ Hv0) as (k & Hk).
    exists (OpMultianewarray s k). split; auto. glue; auto. glue; auto.
Qed.
End Insn.
Lemma insns_covered wraps l : forall o w, o + N.of_nat (length w) < 65536 -> instructions cs o l w ->
  exists ops, insns_lang dec sl wraps o ops w /\ map (fun x => (fst x, targets (snd x))) ops = l.
Proof.
  induction l as [|[off ts] l IH]; intros o w Hlen H; cbn [instructions] in H.
  - exists []. auto.
  - destruct H as (-> & u & v & -> & Hu & Hv). rewrite app_length in Hlen.
    destruct (insn_covered wraps o ts u) as (op & Hop & Ht); [lia|exact Hu|].
    destruct (IH (o + N.of_nat (length u)) v) as (ops & Hops & Hm); [lia|exact Hv|].
    exists ((o, op) :: ops). split; [split; auto; exists u, v; auto|]. cbn [map fst snd]. congruence.
Qed.
Lemma insns_offsets wraps ops : forall o w, insns_lang dec sl wraps o ops w -> forall x, In x ops -> o <= fst x <= o + N.of_nat (length w).
Proof.
  induction ops as [|[off op] ops IH]; intros o w H x Hx; [destruct Hx|]. destruct H as (-> & u & v & -> & Hu & Hv). rewrite app_length.
  destruct Hx as [<-|Hx]; [cbn [fst]; lia|]. specialize (IH _ _ Hv x Hx). lia.
Qed.
Lemma code_covered wraps w : code_ok cs w -> exists bc, code_format dec sl wraps bc w.
Proof.
  intros (Hlen & l & Hi & Ht). destruct (insns_covered wraps l 0 w) as (ops & Hops & Hm); [lia|exact Hi|].
  exists (mk_bc ops). split; [exact Hops|]. cbn [opcodes]. intros o op Hin.
  pose proof (insns_offsets _ _ _ _ Hops _ Hin) as Ho. cbn [fst] in Ho. split; [lia|]. intros j Hj.
  assert (Hin' : In (o, targets op) l). { rewrite <- Hm. apply in_map_iff. exists (o, op). auto. }
  destruct (Ht o (targets op) j Hin' Hj) as (o' & Ho' & He). exists o'. split; auto.
  rewrite <- Hm, map_map in Ho'. cbn [fst] in Ho'. exact Ho'.
Qed.

(** ** Attributes *)
Ltac one := first
  [ simple apply covers_pair; one
  | simple apply covers_counted; one
  | exact (covers_index _ _ some_class) | exact (covers_index_or_0 _ _ some_class)
  | exact (covers_index _ _ some_text) | exact (covers_index_or_0 _ _ some_text)
  | exact (covers_index _ _ some_field) | exact (covers_index _ _ some_name)
  | exact (covers_index_or_0 _ _ some_name)
  | exact (covers_index _ _ some_module) | exact (covers_index _ _ some_package) | exact (covers_index _ _ some_handle)
  | exact (covers_index _ _ some_argument) | exact (covers_index _ _ some_literal) | exact (covers_index_or_0 _ _ some_nt)
  | exact (covers_flags _) | exact covers_u2 | exact covers_u1 | eassumption ].
Tactic Notation "as_record" uconstr(g) := eapply (covers_map _ _ _ g); [one|intros ? ? H; exact H].

Lemma cov_exception : covers (bytes2 +++ bytes2 +++ bytes2 +++ index_or_0 (any_class cs)) (exception_lang dec sl).
Proof. as_record (fun p => mk_exc (fst p) (fst (snd p)) (fst (snd (snd p))) (snd (snd (snd p)))). Qed.
Lemma cov_inner : covers (index (any_class cs) +++ index_or_0 (any_class cs) +++ index_or_0 (any_text none cs) +++ bytes2) (inner_class_lang dec sl).
Proof.
  eapply covers_map with (f := fun p => mk_ic (fst p) (fst (snd p)) (fst (snd (snd p))) (snd (snd (snd p)))).
  - apply covers_pair; [one|]. apply covers_pair; [one|]. apply covers_pair; [one|]. exact (covers_keep inner_class_bits).
  - intros ? ? H; exact H.
Qed.
Lemma cov_line : covers (bytes2 +++ bytes2) line_number_lang.
Proof. as_record (fun p => mk_ln (fst p) (snd p)). Qed.
Lemma cov_variable : covers (bytes2 +++ bytes2 +++ index (a_text none cs unqualified) +++ index (a_text none cs (field_ok none)) +++ bytes2) (local_variable_lang dec sl).
Proof. as_record (fun p => mk_lv (fst p) (fst (snd p)) (fst (snd (snd p))) (fst (snd (snd (snd p)))) (snd (snd (snd (snd p))))). Qed.
Lemma cov_variable_type : covers (bytes2 +++ bytes2 +++ index (a_text none cs unqualified) +++ index (any_text none cs) +++ bytes2) (local_variable_type_lang dec sl).
Proof. as_record (fun p => mk_lvt (fst p) (fst (snd p)) (fst (snd (snd p))) (fst (snd (snd (snd p)))) (snd (snd (snd (snd p))))). Qed.
Lemma cov_export : covers (exports_ok cs) (export_lang dec sl).
Proof. unfold exports_ok. as_record (fun p => mk_exp (fst p) (fst (snd p)) (snd (snd p))). Qed.
Lemma cov_open : covers (exports_ok cs) (open_lang dec sl).
Proof. unfold exports_ok. as_record (fun p => mk_opn (fst p) (fst (snd p)) (snd (snd p))). Qed.
Lemma cov_require : covers (index (a_module cs) +++ flags_of 0x9060 +++ index_or_0 (any_text none cs)) (require_lang dec sl).
Proof. as_record (fun p => mk_req (fst p) (fst (snd p)) (snd (snd p))). Qed.
Lemma cov_provide : covers (index (any_class cs) +++ counted u2 (index (any_class cs))) (provide_lang dec sl).
Proof. as_record (fun p => mk_prov (fst p) (snd p)). Qed.
Lemma cov_module : covers (module_ok none cs) (module_lang dec sl).
Proof.
  pose proof cov_export as H1. pose proof cov_open as H2. pose proof cov_require as H3. pose proof cov_provide as H4. unfold module_ok.
  eapply covers_map with (f := fun p => mk_mod (fst p) (fst (snd p)) (fst (snd (snd p))) (fst (snd (snd (snd p)))) (fst (snd (snd (snd (snd p)))))
    (fst (snd (snd (snd (snd (snd p)))))) (fst (snd (snd (snd (snd (snd (snd p))))))) (snd (snd (snd (snd (snd (snd (snd p)))))))).
  { do 3 (apply covers_pair; [one|]). apply covers_pair; [apply covers_counted; exact H3|]. apply covers_pair; [apply covers_counted; exact H1|].
  apply covers_pair; [apply covers_counted; exact H2|]. apply covers_pair; [one|]. apply covers_counted. exact H4. }
  intros ? ? H; exact H.
Qed.
Lemma cov_bootstrap : covers (index (of_kind cs (fun c => exists k m, c = CMethodHandle k m)) +++ counted u2 (index (of_kind cs (argument none))))
  (bootstrap_method_lang dec sl).
Proof. as_record (fun p => mk_bm (fst p) (snd p)). Qed.
Lemma cov_parameter : covers (index_or_0 (a_text none cs unqualified) +++ flags_of 0x9010) (method_parameter_lang dec sl).
Proof. as_record (fun p => mk_mp (fst p) (snd p)). Qed.

Ltac cut H := let u := fresh "u" in let v := fresh "v" in let Hu := fresh "Hu" in let Hv := fresh "Hv" in
  destruct H as (u & v & -> & Hu & Hv).
Ltac glue := eexists _, _; split; [reflexivity|]; split.
Lemma cov_verification : covers (verification cs) (verification_lang dec sl).
Proof.
  intros w [(n & Hn & Hb)|[H|H]].
  - assert (Hc : n = 0 \/ n = 1 \/ n = 2 \/ n = 3 \/ n = 4 \/ n = 5 \/ n = 6) by (unfold between in Hb; lia).
    destruct Hc as [-> |[-> |[-> |[-> |[-> |[-> | ->]]]]]];
      [exists VTop|exists VInteger|exists VFloat|exists VDouble|exists VLong|exists VNull|exists VUninitializedThis]; exact Hn.
  - cut H. destruct (covers_index _ _ some_class _ Hv) as (s & Hs). exists (VObject s). glue; auto.
  - cut H. destruct (covers_u2 _ Hv) as (n & Hn). exists (VUninitialized n). glue; auto.
Qed.
Lemma eps_l (P : Prop) (L : lang) w : P -> L w -> (only_if P +++ L) w.
Proof. intros HP HL. exists [], w. split; auto. split; auto. split; auto. Qed.
Lemma cov_frame : covers (frame cs) (stack_map_lang dec sl).
Proof.
  intros w (t & H). unfold between in H. destruct H as [[Hb H]|[[Hb H]|[[-> H]|[[Hb H]|[[Hb H]|[-> H]]]]]].
  - exists (SmSame t). left. exists w, []. rewrite app_nil_r. repeat split; try apply H. lia.
  - cut H. destruct (cov_verification _ Hv) as (x & Hx). exists (SmSameLocals1StackItem (t - 64) x). left.
    replace (64 + (t - 64)) with t by lia. exists u, v. split; auto. split; auto. apply eps_l; auto. lia.
  - cut H. cut Hv. destruct (covers_u2 _ Hu0) as (n & Hn), (cov_verification _ Hv0) as (x & Hx). exists (SmSameLocals1StackItem n x). right. glue; auto. glue; auto.
  - cut H. destruct (covers_u2 _ Hv) as (n & Hn). destruct (N.eq_dec t 251) as [-> |Hne].
    + exists (SmSame n). right. glue; auto.
    + exists (SmChop n (251 - t)). apply eps_l; [lia|]. replace (251 - (251 - t)) with t by lia. glue; auto.
  - cut H. cut Hv. destruct (covers_u2 _ Hu0) as (n & Hn), (times_many _ _ cov_verification _ _ Hv0) as (l & Hl & Hm).
    exists (SmAppend n l). apply eps_l; [lia|]. replace (251 + N.of_nat (length l)) with t by lia. glue; auto. glue; auto.
  - cut H. cut Hv. cut Hv0. destruct (covers_u2 _ Hu0) as (n & Hn), (covers_counted _ _ _ cov_verification _ Hu1) as (l1 & H1), (covers_counted _ _ _ cov_verification _ Hv) as (l2 & H2).
    exists (SmFullFrame n l1 l2). glue; auto. glue; auto. glue; auto.
Qed.
Lemma some_integer i : of_kind cs integer i -> exists z, at_index sl i (CInteger z).
Proof. intros (c & Hi & (v & ->)). eauto. Qed.
Lemma some_float i : of_kind cs float i -> exists z, at_index sl i (CFloat z).
Proof. intros (c & Hi & (v & ->)). eauto. Qed.
Lemma some_long i : of_kind cs long i -> exists z, at_index sl i (CLong z).
Proof. intros (c & Hi & (v & ->)). eauto. Qed.
Lemma some_double i : of_kind cs double i -> exists z, at_index sl i (CDouble z).
Proof. intros (c & Hi & (v & ->)). eauto. Qed.
Lemma some_return i : a_text none cs (return_ok none) i -> exists s, that (utf8_at dec sl) return_descriptor i s.
Proof. apply some_that, return_ok_descriptor. Qed.
Lemma cov_annotation_of V V' : covers V V' -> covers (annotation_of none cs V) (annotation_with dec sl V').
Proof.
  intro HV. unfold annotation_of. eapply (covers_map _ _ _ (fun p => mk_ann (fst p) (snd p))).
  { apply covers_pair; [one|]. apply covers_counted. apply covers_pair; [one|exact HV]. }
  intros ? ? H. exact H.
Qed.
Lemma cov_element d : covers (element none cs d) (element_lang dec sl d).
Proof.
  induction d as [|d IH]; intros w H; [destruct H|]. cbn [element] in H. destruct H as (t & H). cbv zeta in H.
  change (element_lang dec sl (S d)) with (element_with dec sl (element_lang dec sl d)).
  destruct H as [[Ht H]|[[-> H]|[[-> H]|[[-> H]|[[-> H]|[[-> H]|[[-> H]|[[-> H]|[-> H]]]]]]]]]; cut H.
  - destruct (covers_index _ _ some_integer _ Hv) as (z & Hz). cbn in Ht.
    destruct Ht as [<-|[<-|[<-|[<-|[<-|[]]]]]]; [exists (EvByte z)|exists (EvChar z)|exists (EvInt z)|exists (EvShort z)|exists (EvBoolean z)]; (glue; [exact Hu|exact Hz]).
  - destruct (covers_index _ _ some_double _ Hv) as (z & Hz). exists (EvDouble z). glue; [exact Hu|exact Hz].
  - destruct (covers_index _ _ some_float _ Hv) as (z & Hz). exists (EvFloat z). glue; [exact Hu|exact Hz].
  - destruct (covers_index _ _ some_long _ Hv) as (z & Hz). exists (EvLong z). glue; [exact Hu|exact Hz].
  - destruct (covers_index _ _ some_text _ Hv) as (z & Hz). exists (EvString z). glue; [exact Hu|exact Hz].
  - cut Hv. destruct (covers_index _ _ some_field _ Hu0) as (f & Hf), (covers_index _ _ some_text _ Hv0) as (z & Hz). exists (EvEnum f z). glue; [exact Hu|]. glue; auto.
  - destruct (covers_index _ _ some_return _ Hv) as (z & Hz). exists (EvClass z). glue; [exact Hu|exact Hz].
  - destruct (cov_annotation_of _ _ IH _ Hv) as (a & Ha). exists (EvAnnotation a). glue; [exact Hu|exact Ha].
  - destruct (covers_counted _ _ _ IH _ Hv) as (l & Hl). exists (EvArray l). glue; [exact Hu|exact Hl].
Qed.
Lemma cov_annotation d : covers (annotation_ok none cs d) (annotation_lang dec sl d).
Proof. apply cov_annotation_of, cov_element. Qed.
Lemma between_in a b t w : u1 t w -> a <= t <= b -> S_Format.between a b w.
Proof. intros H Hb. exists t. auto. Qed.
Lemma cov_var_target : covers (bytes2 +++ bytes2 +++ bytes2) local_var_target_lang.
Proof. as_record (fun p => mk_lvtg (fst p) (fst (snd p)) (snd (snd p))). Qed.
Lemma cov_target : covers target target_lang.
Proof.
  intros w (t & H). cbv zeta in H.
  destruct H as [[Ht H]|[[Ht H]|[[Ht H]|[[Ht H]|[[Ht H]|[[Ht H]|[[Ht H]|[[Ht H]|[[Ht H]|[Ht H]]]]]]]]]]; cut H; cbn [In] in Ht;
    try match type of Hu with u1 _ ?x => assert (Hb : forall a b, a <= t <= b -> S_Format.between a b x) by (intros a b; apply between_in, Hu) end.
  - destruct (covers_u1 _ Hv) as (i & Hi). exists (TgTypeParameter i). glue; auto. apply Hb. lia.
  - subst t. destruct (covers_u2 _ Hv) as (i & Hi). exists (TgSupertype i). glue; auto.
  - cut Hv. destruct (covers_u1 _ Hu0) as (i & Hi), (covers_u1 _ Hv0) as (j & Hj). exists (TgTypeParameterBound i j). glue; [apply Hb; lia|]. glue; auto.
  - exists TgEmpty. red in Hv. subst v. rewrite app_nil_r. apply Hb. lia.
  - subst t. destruct (covers_u1 _ Hv) as (i & Hi). exists (TgFormalParameter i). glue; auto.
  - subst t. destruct (covers_u2 _ Hv) as (i & Hi). exists (TgThrows i). glue; auto.
  - destruct (covers_counted _ _ _ cov_var_target _ Hv) as (l & Hl). exists (TgLocalVar l). glue; [apply Hb; lia|exact Hl].
  - subst t. destruct (covers_u2 _ Hv) as (i & Hi). exists (TgCatch i). glue; auto.
  - destruct (covers_u2 _ Hv) as (i & Hi). exists (TgOffset i). glue; auto. apply Hb. lia.
  - cut Hv. destruct (covers_u2 _ Hu0) as (i & Hi), (covers_u1 _ Hv0) as (j & Hj). exists (TgTypeArgument i j). glue; [apply Hb; lia|]. glue; auto.
Qed.
Lemma cov_path : covers (index1 (between 0 3) +++ byte1) path_lang.
Proof.
  intros w H. cut H. destruct Hu as (k & Hk & Hb), (covers_u1 _ Hv) as (i & Hi). unfold between in Hb.
  assert (Ht : exists t, path_code t = k).
  { assert (k = 0 \/ k = 1 \/ k = 2 \/ k = 3) as H by lia.
    destruct H as [-> |[-> |[-> | ->]]]; [exists PkDeeperArray|exists PkDeeperNested|exists PkWildcardTypeArgument|exists PkTypeArgument]; reflexivity. }
  destruct Ht as (t & <-). exists (mk_pe t i). glue; auto.
Qed.
Lemma cov_type_annotation d : covers (type_annotation_ok none cs d) (type_annotation_lang dec sl d).
Proof.
  unfold type_annotation_ok. eapply (covers_map _ _ _ (fun p => mk_ta (fst p) (fst (snd p)) (snd (snd p)))).
  { apply covers_pair; [exact cov_target|]. apply covers_pair; [apply covers_counted; exact cov_path|exact (cov_annotation d)]. }
  intros ? ? H. exact H.
Qed.

(** Attributes with their contents *)
Section Contents.
Variable wraps want : bool.
Variable A : place -> lang.
Variable A' : list attr_info -> lang.
Hypothesis HA : forall p, covers (A p) A'.
Lemma cov_code : covers (bytes2 +++ bytes2
      +++ (fun w => exists len code, w = len ++ code /\ u4 (N.of_nat (length code)) len /\ code_ok cs code)
      +++ counted u2 (bytes2 +++ bytes2 +++ bytes2 +++ index_or_0 (any_class cs)) +++ A InCode) (code_lang dec sl wraps want A').
Proof.
  intros w H. cut H. cut Hv. cut Hv0. cut Hv. destruct (covers_u2 _ Hu) as (a & Ha), (covers_u2 _ Hu0) as (b & Hb).
  destruct Hu1 as (len & code & -> & Hlen & Hcode). destruct (covers_counted _ _ _ cov_exception _ Hu2) as (ex & Hex). destruct (HA _ _ Hv0) as (at' & Hat).
  destruct (code_covered wraps code Hcode) as (bc & Hbc).
  exists (mk_code a b code (if want then Some bc else None) ex at'). unfold code_lang. cbn [cd_max_stack cd_max_locals cd_code cd_exception_table cd_attributes cd_bytecode].
  glue; auto. glue; auto. rewrite <- app_assoc. glue; auto. glue; [reflexivity|]. glue; auto. exists v0, []. rewrite app_nil_r. split; auto. split; auto.
  split; auto. destruct want; auto.
Qed.
Lemma cov_component : covers (index (a_text none cs unqualified) +++ index (a_text none cs (field_ok none)) +++ A InRecordComponent)
  (record_component_lang dec sl A').
Proof.
  eapply (covers_map _ _ _ (fun p => mk_rc (fst p) (fst (snd p)) (snd (snd p)))).
  { apply covers_pair; [one|]. apply covers_pair; [one|exact (HA InRecordComponent)]. }
  intros ? ? H. exact H.
Qed.
Ltac row_of f L := match goal with H : _ ?w |- _ => destruct (L w H) as (?a & ?Ha); exists (f a); (split; [exact Ha|reflexivity]) end.
Lemma cov_row d r : In r (rows none cs A d) -> covers (r_contents r) (contents_lang dec sl wraps want A' d (lit (r_name r))).
Proof.
  unfold rows. cbv zeta. intro Hin. cbn [In] in Hin.
  repeat (destruct Hin as [<-|Hin]; [cbn [r_contents r_name]; intros w H|]); [..|destruct Hin].
  - row_of AConstantValue (covers_index _ _ some_literal).
  - row_of ACode cov_code.
  - row_of AStackMapTable (covers_counted _ _ u2 cov_frame).
  - row_of AExceptions (covers_counted _ _ u2 (covers_index _ _ some_class)).
  - row_of AInnerClasses (covers_counted _ _ u2 cov_inner).
  - cut H. destruct (covers_index _ _ some_class _ Hu) as (s & Hs), (covers_index_or_0 _ _ some_nt _ Hv) as (m & Hm). exists (AEnclosingMethod s m).
    split; [|reflexivity]. glue; auto.
  - exists ASynthetic. split; auto.
  - row_of ASignature (covers_index _ _ some_text).
  - row_of ASourceFile (covers_index _ _ some_text).
  - destruct H as (s & Hs). exists (ASourceDebugExtension s). split; [|reflexivity]. apply encodes_dec, Hs.
  - row_of ALineNumberTable (covers_counted _ _ u2 cov_line).
  - row_of ALocalVariableTable (covers_counted _ _ u2 cov_variable).
  - row_of ALocalVariableTypeTable (covers_counted _ _ u2 cov_variable_type).
  - exists ADeprecated. split; auto.
  - row_of ARuntimeVisibleAnnotations (covers_counted _ _ u2 (cov_annotation d)).
  - row_of ARuntimeInvisibleAnnotations (covers_counted _ _ u2 (cov_annotation d)).
  - row_of ARuntimeVisibleParameterAnnotations (covers_counted _ _ u1 (covers_counted _ _ u2 (cov_annotation d))).
  - row_of ARuntimeInvisibleParameterAnnotations (covers_counted _ _ u1 (covers_counted _ _ u2 (cov_annotation d))).
  - row_of ARuntimeVisibleTypeAnnotations (covers_counted _ _ u2 (cov_type_annotation d)).
  - row_of ARuntimeInvisibleTypeAnnotations (covers_counted _ _ u2 (cov_type_annotation d)).
  - row_of AAnnotationDefault (cov_element d).
  - row_of ABootstrapMethods (covers_counted _ _ u2 cov_bootstrap).
  - row_of AMethodParameters (covers_counted _ _ u1 cov_parameter).
  - row_of AModule cov_module.
  - row_of AModulePackages (covers_counted _ _ u2 (covers_index _ _ some_package)).
  - row_of AModuleMainClass (covers_index _ _ some_class).
  - row_of ANestHost (covers_index _ _ some_class).
  - row_of ANestMembers (covers_counted _ _ u2 (covers_index _ _ some_class)).
  - row_of ARecord (covers_counted _ _ u2 cov_component).
  - row_of APermittedSubclasses (covers_counted _ _ u2 (covers_index _ _ some_class)).
Qed.
End Contents.
End WithPool.
