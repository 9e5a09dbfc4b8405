(** * A file with one text that has to be decoded and many constants that name it (for C69). *)
From Verif Require Import Base M_Names M_Descriptors M_ConstantPool M_Class M_Cesu8 Z_Cow Z_ConstantPool Z_Bytecode Z_Plain Z_Class
  S_Lang S_Names S_Format S_Pool S_Env S_ZeroCopy P_Reads P_Class3 P_Heap4 T_Iter T_ZeroCopy T_Heap.
From Coq Require Import ZifyBool ZifyNat ZifyN.

(** A class whose name is NUL and [m] letters, and [n + 1] Class constants with this name. *)
Definition choir_constants (n m : nat) : list constant := CUtf8 (utf (nul_name m)) :: repeat (CClass 1) (S n).
Definition choir (n m : nat) : list byte :=
  magic ++ two 0 ++ two 52
  ++ (two (N.of_nat n + 3) ++ utf8_constant (nul_name m) ++ concat (repeat (class_constant 1) (S n)))
  ++ two 0 ++ two 2 ++ two 0
  ++ two 0 ++ two 0 ++ two 0 ++ two 0.
Definition choir_class (n m : nat) : M_Class.class_file :=
  M_Class.mk_class 52 0 (pool_of from_java_cesu8 (slots_of (choir_constants n m))) 0 (nul_name m) None [] [] [] [].
Lemma choir_length n m : blen (choir n m) = 32 + N.of_nat m + 3 * N.of_nat n.
Proof.
  unfold choir, utf8_constant, blen. repeat (rewrite app_length || cbn [length]). rewrite length_concat_repeat, nul_length. cbn [length magic two class_constant]. lia.
Qed.
Lemma fills_repeat wraps count k : forall i, i + N.of_nat k = count -> count < 65536 -> fills wraps count i (repeat (CClass 1) k).
Proof.
  induction k as [|k IH]; intros i Hi Hc; cbn [repeat fills]; [lia|]. cbv zeta. change (width (CClass 1)) with 1. split; [lia|].
  destruct (N.ltb_spec (i + 1) 65536); [|lia]. apply IH; lia.
Qed.
Lemma flat_repeat_slots k : flat_map (fun c => if is_wide c then [Some c; None] else [Some c]) (repeat (CClass 1) k) = repeat (Some (CClass 1)) k.
Proof. induction k as [|k IH]; [reflexivity|]. cbn [repeat flat_map is_wide app]. now rewrite IH. Qed.
Lemma choir_format wraps want n m : N.of_nat n < 65533 -> N.of_nat m < 65533 ->
  class_lang from_java_cesu8 wraps want 1 (choir_constants n m) (choir_class n m) (choir n m).
Proof.
  intros Hn Hm.
  assert (Hu : utf8_at from_java_cesu8 (slots_of (choir_constants n m)) 1 (nul_name m)) by (exists (utf (nul_name m)); split; [reflexivity|apply utf_decode, nul_basic]).
  assert (Hc : that (class_at from_java_cesu8 (slots_of (choir_constants n m))) class_name 2 (nul_name m)).
  { split; [|apply nul_class]. exists 1. split; [reflexivity|exact Hu]. }
  split; [|split; [reflexivity|]].
  - unfold choir, choir_class. cbn [M_Class.major_version M_Class.minor_version M_Class.access_flags M_Class.this_class M_Class.super_class M_Class.interfaces M_Class.fields M_Class.methods M_Class.class_attributes].
    apply cat_i; [split; reflexivity|]. apply cat_i; [now apply two_u2|]. apply cat_i; [now apply two_u2|]. apply cat_i.
    { exists (N.of_nat n + 3). split; [|split].
      - apply cat_i; [apply two_u2; lia|]. unfold choir_constants. cbn [many]. apply cat_i; [apply utf8_constant_lang; unfold blen; rewrite nul_length; lia|].
        apply many_repeat. now apply class_constant_lang.
      - unfold choir_constants. cbn [fills]. cbv zeta. change (width (CUtf8 (utf (nul_name m)))) with 1. split; [lia|]. change (1 + 1 <? 65536) with true. cbv iota. apply fills_repeat; lia.
      - constructor; [exact I|]. apply Forall_forall. intros c Hin. apply repeat_spec in Hin as ->. exists (nul_name m). split; [exact Hu|]. left. apply class_binary, nul_class. }
    apply cat_i; [apply flags_zero|]. apply cat_i; [exists 2; split; [now apply two_u2|exact Hc]|]. apply cat_i; [now apply two_u2|].
    apply cat_i; [|apply cat_i; [|apply cat_i]].
    1,2,3,4: rewrite <- (app_nil_r (two 0)); apply cat_i; [now apply two_u2|reflexivity].
  - split; [constructor|]. split; [constructor|]. split; [constructor|]. split.
    + intro H. rewrite N.bits_0 in H. discriminate.
    + intros b nt H. exfalso. unfold choir_constants in H. destruct H as [[H|H]|[H|H]]; try discriminate; apply repeat_spec in H; discriminate.
Qed.
Lemma map_repeated {A B} (f : A -> B) a k : map f (repeat a k) = repeat (f a) k.
Proof. induction k as [|k IH]; [reflexivity|]. cbn [repeat map]. now rewrite IH. Qed.
Lemma choir_pool n m : M_Class.constant_pool (choir_class n m) =
  M_ConstantPool.EZero :: M_ConstantPool.EUtf8 (nul_name m) :: repeat (M_ConstantPool.EClassInfo (Resolved 1)) (S n).
Proof.
  unfold choir_class, choir_constants. cbn [M_Class.constant_pool]. unfold slots_of. cbn [flat_map is_wide app pool_of map entry_of]. rewrite (utf_decode _ (nul_basic m)).
  do 2 f_equal. change (Some (CClass 1) :: flat_map (fun c => if is_wide c then [Some c; None] else [Some c]) (repeat (CClass 1) n)) with
    (flat_map (fun c => if is_wide c then [Some c; None] else [Some c]) (repeat (CClass 1) (S n))).
  rewrite flat_repeat_slots. rewrite map_repeated. reflexivity.
Qed.

(** ** Its texts *)
Section Choir.
Variable n m : nat.
Hypothesis Hn : N.of_nat n < 65533.
Hypothesis Hm : N.of_nat m < 65533.
Notation bs := (choir n m).
Lemma choir_count : number_at bs 8 2 (N.of_nat n + 3).
Proof. eapply lies_number; [|apply two_u2; lia]. exists (magic ++ two 0 ++ two 52). eexists. split; [|reflexivity]. unfold choir. rewrite <- !app_assoc. reflexivity. Qed.
Lemma choir_tag : number_at bs 10 1 1.
Proof. exists [x01]. split; [|split; reflexivity]. exists (magic ++ two 0 ++ two 52 ++ two (N.of_nat n + 3)). eexists. split; [|reflexivity]. unfold choir, utf8_constant. rewrite <- !app_assoc. reflexivity. Qed.
Lemma choir_len : number_at bs 11 2 (N.of_nat m + 2).
Proof.
  eapply lies_number; [|apply two_u2; lia]. exists (magic ++ two 0 ++ two 52 ++ two (N.of_nat n + 3) ++ [x01]). eexists. split; [|reflexivity]. unfold choir, utf8_constant.
  replace (blen (utf (nul_name m))) with (N.of_nat m + 2) by (unfold blen; rewrite nul_length; lia).
  rewrite <- ?app_assoc. cbn [app]. rewrite <- ?app_assoc. reflexivity.
Qed.
Lemma choir_text : lies_at bs 13 (utf (nul_name m)).
Proof.
  exists (magic ++ two 0 ++ two 52 ++ two (N.of_nat n + 3) ++ [x01] ++ two (blen (utf (nul_name m)))). eexists. split; [|reflexivity]. unfold choir, utf8_constant.
  rewrite <- ?app_assoc. cbn [app]. rewrite <- ?app_assoc. reflexivity.
Qed.
Lemma concat_repeat_split {A} (w : list A) k j : (j <= k)%nat -> concat (repeat w k) = concat (repeat w j) ++ concat (repeat w (k - j)).
Proof. intro H. rewrite <- concat_app, <- repeat_app. do 2 f_equal. lia. Qed.
Lemma choir_class_tag j : (j <= n)%nat -> number_at bs (15 + N.of_nat m + 3 * N.of_nat j) 1 7.
Proof.
  intro Hj. exists [x07]. split; [|split; reflexivity].
  exists (magic ++ two 0 ++ two 52 ++ two (N.of_nat n + 3) ++ [x01] ++ two (blen (utf (nul_name m))) ++ utf (nul_name m) ++ concat (repeat (class_constant 1) j)).
  eexists. split.
  - unfold choir, utf8_constant. rewrite (concat_repeat_split (class_constant 1) (S n) j) by lia. replace (S n - j)%nat with (S (n - j)) by lia. cbn [repeat concat].
    change (class_constant 1) with ([x07] ++ two 1) at 2. rewrite <- ?app_assoc. cbn [app]. rewrite <- ?app_assoc. reflexivity.
  - unfold blen at 1. rewrite !app_length, nul_length, length_concat_repeat. cbn [length magic two class_constant]. lia.
Qed.
Lemma choir_begins ix i : constant_begins bs (N.of_nat n + 3) ix i -> (ix = 1 /\ i = 10) \/ exists j, (j <= S n)%nat /\ ix = 2 + N.of_nat j /\ i = 15 + N.of_nat m + 3 * N.of_nat j.
Proof.
  induction 1 as [|ix i tag len _ IH Hlt Htag Hlen]; [auto|]. right. destruct IH as [[-> ->]|(j & Hj & -> & ->)].
  - exists 0%nat. rewrite (number_unique _ _ _ _ _ Htag choir_tag) in *. specialize (Hlen eq_refl). rewrite (number_unique _ _ _ _ _ Hlen choir_len). split; [lia|]. split; [reflexivity|]. cbn [constant_size]. lia.
  - exists (S j). rewrite (number_unique _ _ _ _ _ Htag (choir_class_tag j ltac:(lia))) in *. change ((7 =? 5) || (7 =? 6)) with false. cbv iota. cbn [constant_size].
    rewrite N.mod_small by lia. lia.
Qed.
Lemma choir_constant_text i raw : constant_text bs i raw -> raw = utf (nul_name m).
Proof.
  intros (Hl & count & ix & k & Hc & Hb & Hlt & -> & Ht & Hlen). rewrite (number_unique _ _ _ _ _ Hc choir_count) in *. apply choir_begins in Hb as [[-> ->]|(j & Hj & -> & ->)].
  - pose proof (number_unique _ _ _ _ _ Hlen choir_len) as Hw. apply (lies_unique _ _ _ _ Hl choir_text). unfold blen in Hw. rewrite nul_length. lia.
  - pose proof (number_unique _ _ _ _ _ Ht (choir_class_tag j ltac:(lia))). discriminate.
Qed.
(** The iterator: [n + 1] names, each of them owned. *)
Lemma choir_items E opts : ample E bs -> cesu8 E = from_java_cesu8 ->
  exists c, parse_class_with_options E opts bs = Ok c /\ constantpool_iter_run c (S n) = Ok (repeat (Some (ItClassInfo (Owned (nul_name m)))) (S n)).
Proof.
  intros Ha HE. pose proof (ample_sane _ _ Ha) as Hs. pose proof (C54_same E opts bs Hs HE) as Hsame.
  assert (Hok : M_Class.parse_class_with_options E opts bs = Ok (choir_class n m)).
  { apply (parse_format _ _ _ _ Ha). exists 1%nat, (choir_constants n m). rewrite HE. exact (choir_format (wrapping E) opts n m Hn Hm). }
  destruct (parse_class_with_options E opts bs) as [c| | |] eqn:Hc; try congruence. assert (Hp : plain_class c = choir_class n m) by congruence. exists c. split; [reflexivity|].
  pose proof (C54_iterator E opts bs c (S n) Hs HE Hc) as Hi. rewrite Hp in Hi.
  assert (Hr : M_Class.constantpool_iter_run (choir_class n m) (S n) = Ok (repeat (Some (M_ConstantPool.ItClassInfo (nul_name m))) (S n))).
  { unfold M_Class.constantpool_iter_run. rewrite choir_pool. set (p := M_ConstantPool.EZero :: _).
    assert (Hres : results p (tl p) = map Ok (repeat (M_ConstantPool.ItClassInfo (nul_name m)) (S n))).
    { unfold p at 2. cbn [tl]. unfold results. cbn [flat_map M_ConstantPool.item_of app].
      assert (He : M_ConstantPool.item_of p (M_ConstantPool.EClassInfo (Resolved 1)) = Ok (Some (M_ConstantPool.ItClassInfo (nul_name m)))) by reflexivity.
      clearbody p. clear - He. induction (S n) as [|k IH]; [reflexivity|]. cbn [repeat flat_map map]. rewrite He. cbn [app]. f_equal. exact IH. }
    pose proof (run_all p _ 0 Hres) as Hrun. rewrite repeat_length, Nat.add_0_r, app_nil_r, map_repeated in Hrun. exact Hrun. }
  rewrite Hr in Hi. destruct (constantpool_iter_run c (S n)) as [items| | |]; try (exfalso; congruence); try discriminate. destruct Hi as (Hitems & Htexts). f_equal.
  assert (Hplain : map (option_map plain_item) items = repeat (Some (M_ConstantPool.ItClassInfo (nul_name m))) (S n)) by congruence. clear - Hplain Htexts Hn Hm.
  revert items Hplain Htexts. induction (S n) as [|k IH]; intros items Hplain Htexts; cbn [repeat] in *; [destruct items; [reflexivity|discriminate]|].
  destruct items as [|o items]; [discriminate|]. cbn [map] in Hplain. assert (H1 : option_map plain_item o = Some (M_ConstantPool.ItClassInfo (nul_name m))) by congruence.
  assert (H2 : map (option_map plain_item) items = repeat (Some (M_ConstantPool.ItClassInfo (nul_name m))) k) by congruence.
  f_equal; [|apply IH; [exact H2|]; intros it Hin; apply Htexts; now right].
  destruct o as [it|]; [|discriminate]. cbn [option_map] in H1. specialize (Htexts it (or_introl eq_refl)). destruct it; cbn [plain_item] in H1; try discriminate.
  assert (Hs : chars s = nul_name m) by congruence. cbn [item_texts] in Htexts. inversion_clear Htexts as [|? ? Hf _]. destruct Hf as (i & raw & Hraw & Hfrom). apply choir_constant_text in Hraw. subst raw.
  destruct s as [s a|s]; cbn [chars] in Hs; subst s; [|reflexivity]. destruct Hfrom as (Hu & _). exfalso. apply Hu. apply (nul_not_utf8 0 m); lia.
Qed.
End Choir.
