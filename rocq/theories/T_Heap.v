(** * Property theorems: memory held by a parsed class (C55). *)
From Verif Require Import Base M_Names M_Descriptors M_ConstantPool M_Bytecode M_Attributes M_Class M_Cesu8
  S_Lang S_Names S_Format S_Env S_Utf P_Reads P_Tac P_Class3 P_ZeroUtf P_Heap P_Heap2 P_Heap3 P_Heap4 T_Text T_Class Sample.
From Verif Require Import Z_Cow Z_Descriptors Z_ConstantPool Z_Bytecode Z_Attributes Z_Plain Z_Class S_ZeroCopy S_Heap T_ZeroCopy.
From Verif Require S_Texts.
From Coq Require Import ZifyBool ZifyNat ZifyN.

(** The copies of texts and the parameters of method descriptors are at most 98303 times as many as the file has bytes. *)
Theorem C55_bounded_partial E opts bs c : sane E bs -> cesu8 E = from_java_cesu8 -> parse_class_with_options E opts bs = Ok c ->
  2 * (copies c + parameter_count c) <= 3 * 65535 * blen bs.
Proof.
  intros Hs HE H. pose proof (C54_same E opts bs Hs HE) as Hsame. rewrite H in Hsame. apply (parse_sound _ _ _ _ Hs) in Hsame as (d & cs & Hc).
  rewrite HE in Hc. eapply heap_bound, Hc.
Qed.
(** No texts are copied if all those of the file are UTF-8. *)
Theorem C55_utf8_uncopied E opts bs c : sane E bs -> cesu8 E = from_java_cesu8 -> parse_class_with_options E opts bs = Ok c ->
  (forall i raw, constant_text bs i raw \/ debug_text (constant_pool c) bs i raw -> from_utf8 raw <> None) -> copies c = 0.
Proof.
  intros Hs HE H Hu. pose proof (C54_all_borrowed _ _ _ _ Hs HE H Hu) as Hb. unfold copies. induction Hb as [|t l (s & a & ->) _ IH]; [reflexivity|]. exact IH.
Qed.

(** ** Not proportional to the file: interfaces *)
Lemma app_inj_l {A} (a b c d : list A) : a ++ b = c ++ d -> length a = length c -> a = c /\ b = d.
Proof.
  revert c. induction a as [|x a IH]; intros [|y c] H Hl; try discriminate; [auto|]. cbn [app length] in *. injection H as -> H. injection Hl as Hl. destruct (IH c H Hl) as (-> & ->). auto.
Qed.
Lemma lies_unique bs i u v : lies_at bs i u -> lies_at bs i v -> length u = length v -> u = v.
Proof.
  intros (p1 & q1 & H1 & Hp1) (p2 & q2 & H2 & Hp2) Hl. rewrite H1 in H2. unfold blen in *.
  destruct (app_inj_l _ _ _ _ H2) as (_ & H3); [lia|]. destruct (app_inj_l _ _ _ _ H3) as (H4 & _); auto.
Qed.
Lemma number_unique bs i n u v : number_at bs i n u -> number_at bs i n v -> u = v.
Proof. intros (w1 & H1 & L1 & <-) (w2 & H2 & L2 & <-). f_equal. eapply lies_unique; eauto. congruence. Qed.
Lemma lies_number bs i n v w : lies_at bs i w -> uint n v w -> number_at bs i n v.
Proof. intros H (Hl & Hb). exists w. auto. Qed.
Section Crowd.
Variable n m : nat.
Hypothesis Hn : N.of_nat n < 65536.
Hypothesis Hm : N.of_nat m < 65533.
Notation bs := (crowd n m).
Lemma crowd_count : number_at bs 8 2 3.
Proof. eapply lies_number; [|now apply two_u2]. exists (magic ++ two 0 ++ two 52). eexists. split; [|reflexivity]. unfold crowd. rewrite <- !app_assoc. reflexivity. Qed.
Lemma crowd_tag : number_at bs 10 1 1.
Proof. exists [x01]. split; [|split; reflexivity]. exists (magic ++ two 0 ++ two 52 ++ two 3). eexists. split; [|reflexivity]. unfold crowd, utf8_constant. rewrite <- !app_assoc. reflexivity. Qed.
Lemma crowd_len : number_at bs 11 2 (N.of_nat m + 2).
Proof.
  eapply lies_number; [|apply two_u2; lia]. exists (magic ++ two 0 ++ two 52 ++ two 3 ++ [x01]). eexists. split; [|reflexivity]. unfold crowd, utf8_constant. replace (blen (utf (nul_name m))) with (N.of_nat m + 2) by (unfold blen; rewrite nul_length; lia).
  rewrite <- ?app_assoc. cbn [app]. rewrite <- ?app_assoc. reflexivity.
Qed.
Lemma crowd_text : lies_at bs 13 (utf (nul_name m)).
Proof.
  exists (magic ++ two 0 ++ two 52 ++ two 3 ++ [x01] ++ two (blen (utf (nul_name m)))). eexists. split; [|reflexivity]. unfold crowd, utf8_constant.
  rewrite <- ?app_assoc. cbn [app]. rewrite <- ?app_assoc. reflexivity.
Qed.
Lemma crowd_class_tag : number_at bs (15 + N.of_nat m) 1 7.
Proof.
  exists [x07]. split; [|split; reflexivity]. exists (magic ++ two 0 ++ two 52 ++ two 3 ++ [x01] ++ two (blen (utf (nul_name m))) ++ utf (nul_name m)). eexists. split.
  - unfold crowd, utf8_constant. rewrite <- ?app_assoc. cbn [app]. rewrite <- ?app_assoc. reflexivity.
  - unfold blen at 1. rewrite !app_length, nul_length. cbn [length magic two]. lia.
Qed.
Lemma crowd_begins ix i : constant_begins bs 3 ix i -> (ix = 1 /\ i = 10) \/ (ix = 2 /\ i = 15 + N.of_nat m) \/ ix = 3.
Proof.
  induction 1 as [|ix i tag len _ IH Hlt Htag Hlen]; [auto|]. destruct IH as [[-> ->]|[[-> ->]| -> ]]; [| |lia].
  - rewrite (number_unique _ _ _ _ _ Htag crowd_tag) in *. specialize (Hlen eq_refl). rewrite (number_unique _ _ _ _ _ Hlen crowd_len). right. left. split; [reflexivity|]. cbn [constant_size]. lia.
  - rewrite (number_unique _ _ _ _ _ Htag crowd_class_tag) in *. right. right. reflexivity.
Qed.
Lemma crowd_constant_text i raw : constant_text bs i raw -> raw = utf (nul_name m).
Proof.
  intros (Hl & count & ix & k & Hc & Hb & Hlt & -> & Ht & Hlen). rewrite (number_unique _ _ _ _ _ Hc crowd_count) in *. apply crowd_begins in Hb as [[-> ->]|[[-> ->]| -> ]]; [| |lia].
  - pose proof (number_unique _ _ _ _ _ Hlen crowd_len) as Hw. apply (lies_unique _ _ _ _ Hl crowd_text). unfold blen in Hw. rewrite nul_length. lia.
  - pose proof (number_unique _ _ _ _ _ Ht crowd_class_tag). discriminate.
Qed.
Lemma crowd_debug_text c i raw : plain_class c = crowd_class n m -> ~ debug_text (constant_pool c) bs i raw.
Proof.
  intros Hc (_ & k & j & name & _ & _ & Hj & Hname & _). assert (Hp : plain_pool (constant_pool c) = M_Class.constant_pool (crowd_class n m)) by (rewrite <- Hc; reflexivity).
  cbn [crowd_class M_Class.constant_pool] in Hp. apply (map_nth_error plain_entry) in Hj. change (map plain_entry (constant_pool c)) with (plain_pool (constant_pool c)) in Hj. rewrite Hp in Hj.
  unfold crowd_constants, slots_of in Hj. cbn [pool_of flat_map is_wide app map entry_of] in Hj. rewrite (utf_decode _ (nul_basic m)) in Hj.
  cbn [plain_entry] in Hj. rewrite Hname in Hj. destruct (N.to_nat j) as [|[|[|x]]]; cbn [nth_error] in Hj; try discriminate. destruct x; discriminate.
Qed.
Lemma nul_not_utf8 : from_utf8 (utf (nul_name m)) = None.
Proof.
  apply (C54_which_are_utf8 (nul_name m)).
  - eapply Forall_impl; [|apply nul_basic]. intros c Hc. left. exact Hc.
  - apply utf_bytes. eapply Forall_impl; [|apply nul_basic]. cbn. intros; lia.
  - left. auto.
Qed.
Lemma nul_len : str_len (nul_name m) = N.of_nat m + 1.
Proof. unfold nul_name. cbn [str_len]. change (char_len 0) with 1. enough (str_len (repeat (ch "a") m) = N.of_nat m) by lia. clear. induction m as [|k IH]; [reflexivity|]. cbn [repeat str_len]. rewrite IH. change (char_len (ch "a")) with 1. lia. Qed.
Lemma owned_sum l : Forall (fun t => exists s, t = Owned s) l -> sum (map copied l) = strs (map chars l).
Proof. induction 1 as [|t l (s & ->) _ IH]; [reflexivity|]. cbn [map]. rewrite sum_cons, strs_cons, IH. reflexivity. Qed.
Lemma strs_repeat s k : strs (repeat s k) = N.of_nat k * str_len s.
Proof. induction k as [|k IH]; [reflexivity|]. cbn [repeat]. rewrite strs_cons, IH. lia. Qed.
Lemma crowd_copies E opts : ample E bs -> cesu8 E = from_java_cesu8 ->
  exists c, parse_class_with_options E opts bs = Ok c /\ copies c = (N.of_nat n + 2) * (N.of_nat m + 1).
Proof.
  intros Ha HE. pose proof (ample_sane _ _ Ha) as Hs. pose proof (C54_same E opts bs Hs HE) as Hsame.
  assert (Hok : M_Class.parse_class_with_options E opts bs = Ok (crowd_class n m)).
  { apply (parse_format _ _ _ _ Ha). exists 1%nat, (crowd_constants m). rewrite HE. pose proof (crowd_format (wrapping E) opts (N.of_nat n) (N.of_nat m) Hn Hm) as Hf. rewrite !Nat2N.id in Hf. exact Hf. }
  destruct (parse_class_with_options E opts bs) as [c| | |] eqn:Hc; try congruence. assert (Hp : plain_class c = crowd_class n m) by congruence. exists c. split; [reflexivity|].
  unfold copies. rewrite owned_sum.
  - rewrite link_class, strs_app, Hp. assert (Hpool : map chars (flat_map entry_texts (constant_pool c)) = [nul_name m]).
    { assert (Hg : forall q, map chars (flat_map entry_texts q) = flat_map (fun e => match e with M_ConstantPool.EUtf8 s => [s] | _ => [] end) (plain_pool q)).
      { induction q as [|e q IH]; [reflexivity|]. cbn [flat_map plain_pool map]. unfold plain_pool in IH. rewrite map_app, IH. f_equal. destruct e; reflexivity. }
      rewrite Hg. change (plain_pool (constant_pool c)) with (M_Class.constant_pool (plain_class c)). rewrite Hp. unfold crowd_class, crowd_constants, slots_of.
      cbn [M_Class.constant_pool pool_of flat_map is_wide app map entry_of]. rewrite (utf_decode _ (nul_basic m)). reflexivity. }
    rewrite Hpool. unfold S_Texts.class_texts, crowd_class. cbn [M_Class.this_class M_Class.super_class M_Class.interfaces M_Class.fields M_Class.methods M_Class.class_attributes S_Texts.opt_string app flat_map strings].
    rewrite app_nil_r, !strs_cons. replace (SS (map S_Texts.TString (repeat (nul_name m) n))) with (repeat (nul_name m) n).
    + rewrite strs_repeat, nul_len. change (strs []) with 0. lia.
    + clear. induction n as [|k IH]; [reflexivity|]. cbn [repeat map flat_map strings app]. now f_equal.
  - eapply Forall_impl; [|exact (C54_uncopied E opts bs c Hs HE Hc)]. intros t (i & raw & Hf & Ht). destruct t as [s a|s]; [|now exists s]. exfalso. destruct Ht as (Hu & _). apply Hu.
    destruct Hf as [Hf|Hf]; [apply crowd_constant_text in Hf as ->; apply nul_not_utf8|]. now apply (crowd_debug_text c i raw Hp) in Hf.
Qed.
End Crowd.
(** A file of [32 + m + 2 n] bytes, in whose class [(n + 2) (m + 1)] bytes are copied: the class is its own superinterface [n] times, and
    its name is NUL and [m] times "a". *)
Theorem C55_copies_refuted E opts n m : n < 65536 -> m < 65533 -> let bs := crowd (N.to_nat n) (N.to_nat m) in ample E bs -> cesu8 E = from_java_cesu8 ->
  blen bs = 32 + m + 2 * n /\ exists c, parse_class_with_options E opts bs = Ok c /\ copies c = (n + 2) * (m + 1).
Proof.
  intros Hn Hm bs Ha HE. split; [unfold bs; rewrite crowd_length; lia|]. destruct (crowd_copies (N.to_nat n) (N.to_nat m) ltac:(lia) ltac:(lia) E opts Ha HE) as (c & Hc & Hcp). exists c. split; [exact Hc|]. rewrite Hcp. lia.
Qed.
(** A file of [37 + m + 14 n] bytes, all whose texts are UTF-8, in whose class the methods have [n m] parameters: there are [n] methods with the same descriptor. *)
Theorem C55_parameters_refuted E opts n m : n <= 20000 -> m < 65533 -> let bs := wide (N.to_nat n) (N.to_nat m) in ample E bs -> cesu8 E = from_java_cesu8 ->
  blen bs = 37 + m + 14 * n /\ exists c, parse_class_with_options E opts bs = Ok c /\ parameter_count c = n * m.
Proof.
  intros Hn Hm bs Ha HE. split; [unfold bs; rewrite wide_blen; lia|]. pose proof (ample_sane _ _ Ha) as Hs. pose proof (C54_same E opts bs Hs HE) as Hsame.
  assert (Hok : M_Class.parse_class_with_options E opts bs = Ok (wide_class (N.to_nat n) (N.to_nat m))).
  { apply (parse_format _ _ _ _ Ha). exists 1%nat, (wide_constants (N.to_nat n) (N.to_nat m)). rewrite HE. exact (wide_format (wrapping E) opts n m Hn Hm). }
  destruct (parse_class_with_options E opts bs) as [c| | |] eqn:Hc; try congruence. assert (Hp : plain_class c = wide_class (N.to_nat n) (N.to_nat m)) by congruence. exists c. split; [reflexivity|].
  unfold parameter_count. replace (map _ (methods c)) with (map (fun x => N.of_nat (length (M_Descriptors.parameters (M_Class.m_descriptor x)))) (M_Class.methods (plain_class c))).
  - rewrite Hp. cbn [wide_class M_Class.methods]. rewrite map_map. cbn [wide_method M_Class.m_descriptor wide_desc M_Descriptors.parameters]. rewrite repeat_length.
    assert (Hr : forall l : list nat, sum (map (fun _ => N.of_nat (N.to_nat m)) l) = N.of_nat (length l) * m).
    { induction l as [|x l IH]; [reflexivity|]. cbn [map length]. rewrite sum_cons, IH. lia. }
    rewrite Hr, seq_length. lia.
  - cbn [plain_class M_Class.methods]. rewrite map_map. apply map_ext. intros [f nm [ps r] l]. cbn. now rewrite map_length.
Qed.
(** So there is no bound proportional to the size of the file with a factor of 20000. *)
Corollary C55_proportional_refuted : ~ forall E opts bs c, ample E bs -> cesu8 E = from_java_cesu8 -> parse_class_with_options E opts bs = Ok c ->
  copies c <= 20000 * blen bs.
Proof.
  intro H. set (n := 65535). set (m := 65532). set (bs := crowd (N.to_nat n) (N.to_nat m)).
  set (E := {| overflow_checks := true; usize_max := 2 * blen bs + 2 ^ 32; alloc_limit := blen bs; stack := length bs + 2; cesu8 := from_java_cesu8; cesu8_err := [] |}).
  assert (Ha : ample E bs). { constructor; [constructor|]; cbn [E usize_max alloc_limit stack]; try lia. }
  destruct (C55_copies_refuted E true n m ltac:(reflexivity) ltac:(reflexivity) Ha eq_refl) as (Hb & c & Hc & Hcp). specialize (H E true bs c Ha eq_refl Hc). fold bs in Hb. rewrite Hcp, Hb in H. vm_compute in H. contradiction.
Qed.

(** ** Examples *)
(** The bound is not vacuous: a class with an interface list of copies. *)
Example C55_meets_crowd : let bs := crowd 3 4 in ample debug64 bs /\ exists c, parse_class_with_options debug64 true bs = Ok c /\ blen bs = 42 /\ copies c = 25 /\ interfaces c = repeat (Owned (0 :: lit "aaaa")) 3.
Proof. split; [apply ampleb_ample; vm_compute; reflexivity|]. eexists. split; [vm_compute; reflexivity|]. split; [vm_compute; reflexivity|]. split; vm_compute; reflexivity. Qed.
Example C55_meets_wide : let bs := wide 3 4 in ample debug64 bs /\ exists c, parse_class_with_options debug64 true bs = Ok c /\ blen bs = 83 /\ copies c = 0 /\ parameter_count c = 12.
Proof. split; [apply ampleb_ample; vm_compute; reflexivity|]. eexists. split; [vm_compute; reflexivity|]. split; [vm_compute; reflexivity|]. split; vm_compute; reflexivity. Qed.
