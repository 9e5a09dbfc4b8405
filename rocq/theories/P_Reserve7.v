(** * A family of rejected files for which much is reserved *)
From Verif Require Import Base M_Names M_Descriptors M_ConstantPool M_Bytecode M_Attributes M_Class M_Cesu8
  S_Lang S_Env R_Base R_Bytecode R_Attributes R_Class P_Reserve P_Reserve2 P_Reads P_Heap4.
From Coq Require Import ZifyBool ZifyNat ZifyN.

(** [t] fails with an error after reserving at least [k] elements. *)
Definition wastes {A} (t : tparser A) (bs : list byte) (ix k : N) : Prop :=
  (exists e, fst (t bs ix) = Err e) /\ k <= nsum (snd (t bs ix)).
Lemma wa_after {A B} (t : tparser A) (f : A -> tparser B) bs ix a ix' k :
  fst (t bs ix) = Ok (a, ix') -> wastes (f a) bs ix' k -> wastes (tbind t f) bs ix k.
Proof.
  intros H [[e He] Hk]. unfold wastes, tbind. destruct (t bs ix) as [r l]. cbn [fst] in H. subst r.
  destruct (f a bs ix') as [r' l']. cbn [fst snd] in *. split; [exists e; exact He|]. rewrite nsum_app. lia.
Qed.
Lemma wa_first {A B} (t : tparser A) (f : A -> tparser B) bs ix k : wastes t bs ix k -> wastes (tbind t f) bs ix k.
Proof.
  intros [[e He] Hk]. unfold wastes, tbind. destruct (t bs ix) as [r l]. cbn [fst snd] in *. subst r.
  split; [eexists; reflexivity|exact Hk].
Qed.
Lemma wa_ctx {A} c (t : tparser A) bs ix k : wastes t bs ix k -> wastes (tctx c t) bs ix k.
Proof.
  intros [[e He] Hk]. unfold wastes, tctx. destruct (t bs ix) as [r l]. cbn [fst snd] in *. subst r. cbn.
  split; [eexists; reflexivity|exact Hk].
Qed.
Lemma wa_reserve {A} n (t : tparser A) bs ix k : wastes t bs ix k -> wastes (tbind (reserve n) (fun _ => t)) bs ix (n + k).
Proof.
  intros [[e He] Hk]. unfold wastes, tbind, reserve. destruct (t bs ix) as [r l]. cbn [fst snd app nsum] in *. subst r.
  split; [eexists; reflexivity|]. lia.
Qed.
Lemma wa_for {A} n (body : N -> tparser A) bs ix k : 0 < n -> wastes (body 0) bs ix k ->
  wastes (tfor_n n body) bs ix (n + k).
Proof.
  intros Hn Hb. unfold tfor_n. apply wa_reserve. destruct (N.to_nat n) as [|m] eqn:Hm; [lia|]. cbn [tfor_from].
  apply wa_first, Hb.
Qed.
Lemma wa_less {A} (t : tparser A) bs ix k k' : k' <= k -> wastes t bs ix k -> wastes t bs ix k'.
Proof. intros H [He Hk]. split; [exact He|lia]. Qed.

(** ** Reading at a known place *)
Lemma byte_at_app pre b t : byte_at (pre ++ b :: t) (blen pre) = Ok (Byte.to_N b).
Proof. unfold byte_at, blen. rewrite Nat2N.id, nth_error_app2, Nat.sub_diag by lia. reflexivity. Qed.
Lemma byte_at_app1 pre a b t : byte_at (pre ++ a :: b :: t) (blen pre + 1) = Ok (Byte.to_N b).
Proof.
  replace (pre ++ a :: b :: t) with ((pre ++ [a]) ++ b :: t) by now rewrite <- app_assoc.
  replace (blen pre + 1) with (blen (pre ++ [a])) by (rewrite blen_app; reflexivity). apply byte_at_app.
Qed.
Lemma u1_at pre b t : read_u1 (pre ++ b :: t) (blen pre) = Ok (Byte.to_N b, blen pre + 1).
Proof.
  unfold read_u1. rewrite byte_at_app. destruct (N.ltb_spec (blen (pre ++ b :: t)) (blen pre + 1)) as [H|H]; [|reflexivity].
  rewrite blen_app in H. unfold blen in H. cbn [length] in H. lia.
Qed.
Lemma u2_at pre a b t : read_u2 (pre ++ a :: b :: t) (blen pre)
  = Ok (N.lor (N.shiftl (Byte.to_N a) 8) (Byte.to_N b), blen pre + 2).
Proof.
  unfold read_u2. rewrite N.add_0_r, byte_at_app, byte_at_app1.
  destruct (N.ltb_spec (blen (pre ++ a :: b :: t)) (blen pre + 2)) as [H|H]; [|reflexivity].
  rewrite blen_app in H. unfold blen in H. cbn [length] in H. lia.
Qed.
Lemma u4_at pre a b c d t : read_u4 (pre ++ a :: b :: c :: d :: t) (blen pre)
  = Ok (N.lor (N.lor (N.lor (N.shiftl (Byte.to_N a) 24) (N.shiftl (Byte.to_N b) 16)) (N.shiftl (Byte.to_N c) 8)) (Byte.to_N d), blen pre + 4).
Proof.
  unfold read_u4. rewrite N.add_0_r, byte_at_app, byte_at_app1.
  replace (blen pre + 2) with (blen (pre ++ [a]) + 1) by (rewrite blen_app; unfold blen; cbn [length]; lia).
  replace (blen pre + 3) with (blen (pre ++ [a; b]) + 1) by (rewrite blen_app; unfold blen; cbn [length]; lia).
  replace (byte_at (pre ++ a :: b :: c :: d :: t) (blen (pre ++ [a]) + 1)) with (Ok (Byte.to_N c)).
  2: { rewrite <- (byte_at_app1 (pre ++ [a]) b c (d :: t)). now rewrite <- app_assoc. }
  replace (byte_at (pre ++ a :: b :: c :: d :: t) (blen (pre ++ [a; b]) + 1)) with (Ok (Byte.to_N d)).
  2: { rewrite <- (byte_at_app1 (pre ++ [a; b]) c d t). now rewrite <- app_assoc. }
  destruct (N.ltb_spec (blen (pre ++ a :: b :: c :: d :: t)) (blen pre + 4)) as [H|H]; [|reflexivity].
  rewrite blen_app in H. unfold blen in H. cbn [length] in H. lia.
Qed.

(** ** Nested arrays that each announce 65535 elements *)
Fixpoint nest (d : nat) : list byte :=
  match d with O => [x00] | S d' => x5b :: xff :: xff :: nest d' end.
Lemma nest_length d : length (nest d) = (3 * d + 1)%nat.
Proof. induction d; cbn [nest length]; lia. Qed.
Lemma nest_wastes p d : forall k pre, (d <= k)%nat ->
  wastes (r_element_value p (S k)) (pre ++ nest d) (blen pre) (65535 * N.of_nat d).
Proof.
  induction d as [|d IH]; intros k pre Hk.
  - cbn [nest r_element_value]. unfold r_element_value_with.
    eapply wa_after; [cbn [plain fst]; apply u1_at|]. split; [eexists; reflexivity|cbn; lia].
  - destruct k as [|k]; [lia|]. cbn [r_element_value]. unfold r_element_value_with at 1. cbn [nest].
    eapply wa_after; [cbn [plain fst]; apply u1_at|]. cbn [N.eqb].
    change (Byte.to_N x5b =? ch "B") with false. 
    repeat match goal with |- context [Byte.to_N x5b =? ?c] => let b := eval vm_compute in (Byte.to_N x5b =? c) in change (Byte.to_N x5b =? c) with b end. cbv iota.
    replace (blen pre + 1) with (blen (pre ++ [x5b])) by (rewrite blen_app; reflexivity).
    replace (pre ++ x5b :: xff :: xff :: nest d) with ((pre ++ [x5b]) ++ xff :: xff :: nest d) by now rewrite <- app_assoc.
    eapply wa_after; [cbn [plain fst]; apply u2_at|].
    match goal with |- context [tfor_n ?n _] => let b := eval vm_compute in n in change n with b end.
    apply wa_first. replace (65535 * N.of_nat (S d)) with (65535 + 65535 * N.of_nat d) by lia.
    apply wa_for; [lia|]. apply wa_ctx.
    replace (blen (pre ++ [x5b]) + 2) with (blen ((pre ++ [x5b]) ++ [xff; xff])) by (rewrite blen_app; reflexivity).
    replace ((pre ++ [x5b]) ++ xff :: xff :: nest d) with (((pre ++ [x5b]) ++ [xff; xff]) ++ nest d) by now rewrite <- (app_assoc (pre ++ [x5b])).
    apply IH. lia.
Qed.

(** ** A class file with such an annotation value *)
From Verif Require Import S_Names S_Pool S_Format P_Pool2 P_Pool4.
Definition four (n : N) : list byte := two (n / 65536) ++ two (n mod 65536).
Definition nest_pool : list byte := two 4 ++ utf8_constant (lit "A") ++ class_constant 1 ++ utf8_constant (lit "AnnotationDefault").
Definition nest_constants : list constant := [CUtf8 (utf (lit "A")); CClass 1; CUtf8 (utf (lit "AnnotationDefault"))].
Definition nest_head : list byte := magic ++ two 0 ++ two 52 ++ nest_pool ++ two 0 ++ two 2 ++ two 0 ++ two 0 ++ two 0 ++ two 0 ++ two 1 ++ two 3.
Definition nested (d : nat) : list byte := nest_head ++ four (3 * N.of_nat d + 1) ++ nest d.
Lemma nested_length d : blen (nested d) = 3 * N.of_nat d + 58.
Proof.
  unfold nested. rewrite !blen_app. change (blen nest_head) with 53. change (blen (four _)) with 4.
  unfold blen. rewrite nest_length. lia.
Qed.
Lemma rdL {A} E (p : parser A) L bs pre w t ix a : reads E p L -> fits E bs -> bs = pre ++ w ++ t -> ix = blen pre ->
  L a w -> p bs ix = Ok (a, ix + blen w).
Proof.
  intros Hp Hf -> -> HL. apply (Hp (blen pre)); [exact Hf|rewrite blen_app; lia|]. exists pre, w, t. auto.
Qed.
Lemma rd2 E bs pre n t ix : fits E bs -> bs = pre ++ two n ++ t -> ix = blen pre -> n < 65536 -> read_u2 bs ix = Ok (n, ix + 2).
Proof. intros Hf Hb Hi Hn. exact (rdL E _ _ bs pre (two n) t ix n (reads_u2 E) Hf Hb Hi (two_u2 n Hn)). Qed.
Lemma four_u4 n : n < 2 ^ 32 -> u4 n (four n).
Proof.
  intro H. split; [reflexivity|]. unfold four, two, be. cbn [fold_left app].
  assert (H1 : n / 65536 < 65536) by (apply N.div_lt_upper_bound; lia). assert (H2 : n mod 65536 < 65536) by (apply N.mod_lt; lia).
  rewrite !to_byte_of by (try (apply N.mod_lt; lia); apply N.div_lt_upper_bound; lia).
  pose proof (N.div_mod n 65536 ltac:(lia)). pose proof (N.div_mod (n / 65536) 256 ltac:(lia)).
  pose proof (N.div_mod (n mod 65536) 256 ltac:(lia)). lia.
Qed.
Lemma nest_pool_lang wraps : pool_lang from_java_cesu8 wraps 52 nest_constants nest_pool.
Proof.
  exists 4. split; [|split].
  - apply cat_i; [now apply two_u2|]. apply cat_i; [apply utf8_constant_lang; vm_compute; reflexivity|].
    apply cat_i; [now apply class_constant_lang|]. rewrite <- (app_nil_r (utf8_constant _)).
    apply cat_i; [apply utf8_constant_lang; vm_compute; reflexivity|reflexivity].
  - cbn. lia.
  - constructor; [exact I|]. constructor; [|constructor; [exact I|constructor]].
    exists (lit "A"). split; [exists (utf (lit "A")); split; [reflexivity|vm_compute; reflexivity]|]. left.
    exists [lit "A"]. split; [discriminate|]. split; [|reflexivity]. repeat constructor; [discriminate|].
    intros c Hc [<-|[]]. revert Hc. vm_compute. intuition discriminate.
Qed.
Lemma pctx_Ok' {A} c (p : parser A) bs ix r : p bs ix = Ok r -> pctx c p bs ix = Ok r.
Proof. intro H. unfold pctx. rewrite H. reflexivity. Qed.
Lemma wa_plain {A B} (p : parser A) (f : A -> tparser B) bs ix a ix' k :
  p bs ix = Ok (a, ix') -> wastes (f a) bs ix' k -> wastes (tbind (plain p) f) bs ix k.
Proof. intro H. apply wa_after. exact H. Qed.
Theorem nested_wastes E opts d : fits E (nested d) -> cesu8 E = from_java_cesu8 -> (d + 2 <= stack E)%nat -> N.of_nat d < 2 ^ 30 ->
  wastes (r_class E opts) (nested d) 0 (65535 * N.of_nat d).
Proof.
  intros Hf HE Hstk Hd. pose proof (nested_length d) as Hl.
  remember (nested d) as bs eqn:Hbs. unfold r_class.
  eapply wa_plain; [apply (rdL E _ _ bs [] magic (skipn 4 nest_head ++ four (3 * N.of_nat d + 1) ++ nest d) _ _ (reads_u4 E) Hf); [exact Hbs|reflexivity|split; reflexivity]|].
  eapply wa_plain; [reflexivity|].
  eapply wa_plain; [apply (rd2 E bs magic 0 (skipn 6 nest_head ++ four (3 * N.of_nat d + 1) ++ nest d) _ Hf); [exact Hbs|reflexivity|lia]|].
  eapply wa_plain; [apply (rd2 E bs (firstn 6 nest_head) 52 (skipn 8 nest_head ++ four (3 * N.of_nat d + 1) ++ nest d) _ Hf); [exact Hbs|reflexivity|lia]|].
  eapply wa_after.
  { rewrite (er_constant_pool E 52). 
    apply (rdL E _ _ bs (firstn 8 nest_head) nest_pool (skipn 37 nest_head ++ four (3 * N.of_nat d + 1) ++ nest d) _ _ (reads_constant_pool E ltac:(lia) 52) Hf); [exact Hbs|reflexivity|].
    exists nest_constants. split; [reflexivity|]. rewrite HE. apply nest_pool_lang. }
  rewrite HE.
  eapply wa_plain; [apply (rd2 E bs (firstn 37 nest_head) 0 (skipn 39 nest_head ++ four (3 * N.of_nat d + 1) ++ nest d) _ Hf); [exact Hbs|reflexivity|lia]|].
  eapply wa_plain; [reflexivity|].
  set (P := pool_of from_java_cesu8 (slots_of nest_constants)).
  set (tail := four (3 * N.of_nat d + 1) ++ nest d) in *.
  apply (wa_plain _ _ _ _ (lit "A") 41).
  { apply pctx_Ok'. apply bind_Ok. exists (lit "A"), 41. split; [|apply lift_Ok; split; [vm_compute; reflexivity|reflexivity]].
    apply bind_Ok. exists (EClassInfo (Resolved 1)), 41. split.
    - apply bind_Ok. eexists _, _. split; [apply (rd2 E bs (firstn 39 nest_head) 2 (skipn 41 nest_head ++ tail) _ Hf); [exact Hbs|reflexivity|lia]|].
      apply lift_Ok. split; [vm_compute; reflexivity|reflexivity].
    - apply lift_Ok. split; [vm_compute; reflexivity|reflexivity]. }
  apply (wa_plain _ _ _ _ None 43).
  { apply pctx_Ok'. apply bind_Ok. exists None, 43. split; [|reflexivity].
    apply bind_Ok. exists EZero, 43. split; [|reflexivity].
    apply bind_Ok. eexists _, _. split; [apply (rd2 E bs (firstn 41 nest_head) 0 (skipn 43 nest_head ++ tail) _ Hf); [exact Hbs|reflexivity|lia]|].
    apply lift_Ok. split; [vm_compute; reflexivity|reflexivity]. }
  eapply wa_after.
  { rewrite (er_interfaces P). apply bind_Ok. eexists _, _. split; [apply (rd2 E bs (firstn 43 nest_head) 0 (skipn 45 nest_head ++ tail) _ Hf); [exact Hbs|reflexivity|lia]|]. reflexivity. }
  eapply wa_after.
  { rewrite (er_fields E opts P). apply bind_Ok. eexists _, _. split; [apply (rd2 E bs (firstn 45 nest_head) 0 (skipn 47 nest_head ++ tail) _ Hf); [exact Hbs|reflexivity|lia]|]. reflexivity. }
  eapply wa_after.
  { rewrite (er_methods E opts P). apply bind_Ok. eexists _, _. split; [apply (rd2 E bs (firstn 47 nest_head) 0 (skipn 49 nest_head ++ tail) _ Hf); [exact Hbs|reflexivity|lia]|]. reflexivity. }
  apply wa_first, wa_ctx. destruct (stack E) as [|k]; [lia|]. cbn [r_attributes].
  eapply wa_plain; [apply (rd2 E bs (firstn 49 nest_head) 1 (skipn 51 nest_head ++ tail) _ Hf); [exact Hbs|reflexivity|lia]|].
  apply (wa_less _ _ _ (1 + 65535 * N.of_nat d)); [lia|]. apply wa_for; [lia|]. unfold r_attribute.
  apply (wa_plain _ _ _ _ (lit "AnnotationDefault") 53).
  { apply pctx_Ok'. apply bind_Ok. exists (EUtf8 (lit "AnnotationDefault")), 53. split; [|reflexivity].
    apply bind_Ok. eexists _, _. split; [apply (rd2 E bs (firstn 51 nest_head) 3 (skipn 53 nest_head ++ tail) _ Hf); [exact Hbs|reflexivity|lia]|].
    apply lift_Ok. split; [vm_compute; reflexivity|reflexivity]. }
  eapply wa_plain; [apply (rdL E _ _ bs nest_head (four (3 * N.of_nat d + 1)) (nest d) _ _ (reads_u4 E) Hf); [exact Hbs|reflexivity|apply four_u4; lia]|].
  eapply wa_plain; [reflexivity|]. eapply wa_plain; [reflexivity|]. change (53 + blen (four _)) with 57.
  eapply wa_plain.
  { apply lift_Ok. split; [|reflexivity]. unfold usize_result. pose proof (fits_usize _ _ Hf).
    replace (57 + (3 * N.of_nat d + 1) <=? usize_max E) with true by (symmetry; apply N.leb_le; lia). reflexivity. }
  destruct (N.ltb_spec (blen bs) (57 + (3 * N.of_nat d + 1))); [lia|].
  apply wa_first. unfold r_attr_data. cbn [tdispatch].
  repeat match goal with |- context [str_eqb (lit "AnnotationDefault") ?s] => let b := eval vm_compute in (str_eqb (lit "AnnotationDefault") s) in change (str_eqb (lit "AnnotationDefault") s) with b; cbv iota end.
  apply wa_first, wa_ctx. destruct k as [|k]; [lia|].
  rewrite Hbs. unfold nested. rewrite app_assoc. change 57 with (blen (nest_head ++ four (3 * N.of_nat d + 1))).
  apply nest_wastes. lia.
Qed.
