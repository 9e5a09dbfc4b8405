(** * The memory the texts of a class take is bounded. *)
From Verif Require Import Base M_Names M_Descriptors M_ConstantPool M_Bytecode M_Attributes M_Class M_Cesu8
  S_Lang S_Names S_Format S_Env S_Size S_Texts P_Reads P_Tac P_Depth P_Safe6 P_Size P_Texts P_Heap P_Heap2 P_ZeroUtf T_Text.
From Verif Require S_ZeroCopy Z_Class Z_Cow Z_ConstantPool Z_Descriptors S_Heap.
From Coq Require Import ZifyBool ZifyNat ZifyN.

(** ** Decoded texts are not longer *)
Lemma java_len fuel : forall bs s, java_decode fuel bs = Some s -> str_len s <= N.of_nat (length bs).
Proof.
  induction fuel as [|f IH]; intros bs s; cbn [java_decode]; [discriminate|]. destruct bs as [|a bs]; [intros [= <-]; cbn; lia|].
  assert (Hpush : forall c rest k, option_map (cons c) (java_decode f rest) = Some s -> char_len c <= k -> str_len s <= k + N.of_nat (length rest)).
  { intros c rest k H Hk. destruct (java_decode f rest) as [s'|] eqn:Hr; [|discriminate]. injection H as <-. apply IH in Hr. cbn [str_len]. lia. }
  cbn [length]. rewrite Nat2N.inj_succ.
  destruct (a =? 0); [discriminate|]. destruct (a <? 0x80) eqn:H1.
  { intro H. apply (Hpush _ _ 1) in H; [lia|]. unfold char_len. rewrite H1. lia. }
  destruct (a =? 0xC0). { destruct bs as [|b bs]; [discriminate|]. destruct (b =? 0x80); [|discriminate]. intro H. apply (Hpush _ _ 2) in H; cbn [length]; [lia|]. cbn. lia. }
  destruct (_ && _) eqn:H2.
  { destruct bs as [|b bs]; [discriminate|]. destruct (cont b) eqn:Hb; [|discriminate]. intro H. apply (Hpush _ _ 2) in H; cbn [length]; [lia|].
    rewrite andb_true_iff, !N.leb_le in H2. apply cont_range in Hb. rewrite char_len_2; lia. }
  destruct ((0xE0 <=? a) && _) eqn:H3; [|discriminate].
  destruct bs as [|b [|c bs]]; try discriminate. destruct (cont b && cont c) eqn:Hb; [|discriminate]. rewrite andb_true_iff in Hb. destruct Hb as [Hb Hc].
  apply cont_range in Hb, Hc. rewrite andb_true_iff, !N.leb_le in H3.
  match goal with |- (if ?x then _ else _) = _ -> _ => destruct x eqn:H4 end.
  { intro H. apply (Hpush _ _ 3) in H; cbn [length]; [lia|]. rewrite char_len_3; lia. }
  match goal with |- (if ?x then _ else _) = _ -> _ => destruct x eqn:H5; [|discriminate] end.
  destruct bs as [|d [|e [|g bs]]]; try discriminate. match goal with |- (if ?x then _ else _) = _ -> _ => destruct x eqn:H6; [|discriminate] end.
  intro H. apply (Hpush _ _ 4) in H; cbn [length]; [lia|]. unfold char_len. repeat destruct (_ <? _); lia.
Qed.
Lemma decoded_len raw s : from_java_cesu8 raw = Some s -> str_len s <= blen raw.
Proof.
  unfold from_java_cesu8. pose proof (from_utf8_len raw) as Hu. unfold Z_Cow.from_utf8 in Hu. cbv zeta in *. destruct (utf8_decode _ _) as [u|].
  - intros [= <-]. rewrite (Hu u eq_refl). lia.
  - intro H. apply java_len in H. rewrite map_length in H. unfold blen. lia.
Qed.

(** ** The weight of a text *)
Definition strs (l : list str) : N := S_Heap.sum (map str_len l).
Lemma sum_app l m : S_Heap.sum (l ++ m) = S_Heap.sum l + S_Heap.sum m.
Proof. induction l as [|a l IH]; cbn [app S_Heap.sum fold_right]; [reflexivity|]. unfold S_Heap.sum in *. rewrite IH. lia. Qed.
Lemma sum_cons x l : S_Heap.sum (x :: l) = x + S_Heap.sum l. Proof. reflexivity. Qed.
Lemma strs_app l m : strs (l ++ m) = strs l + strs m.
Proof. unfold strs. rewrite map_app, sum_app. reflexivity. Qed.
Lemma strs_cons s l : strs (s :: l) = str_len s + strs l. Proof. reflexivity. Qed.
Lemma str_len_app s t : str_len (s ++ t) = str_len s + str_len t.
Proof. induction s as [|c s IH]; cbn [app str_len]; [reflexivity|]. rewrite IH. lia. Qed.
Definition params (t : text) : N := match t with TMethod d => N.of_nat (length (parameters d)) | _ => 0 end.
Definition weight (t : text) : N := strs (strings t) + params t.
Lemma field_weight d : 1 + strs (field_strings d) <= str_len (field_text d).
Proof.
  unfold field_text, field_strings. rewrite str_len_app. destruct (fd_type d) as [| | | | | | | |n]; cbn [type_text]; rewrite ?strs_cons, ?str_len_app; cbn [strs map S_Heap.sum fold_right]; try (cbn; lia).
  change (str_len (lit "L")) with 1. change (str_len (lit ";")) with 1. change (strs []) with 0. lia.
Qed.
Lemma method_weight d : strs (method_strings d) + N.of_nat (length (parameters d)) <= str_len (method_text d).
Proof.
  unfold method_text, method_strings. rewrite !str_len_app, strs_app.
  assert (H : strs (flat_map field_strings (parameters d)) + N.of_nat (length (parameters d)) <= str_len (concat (map field_text (parameters d)))).
  { induction (parameters d) as [|a l IH]; [cbn; lia|]. cbn [flat_map map concat length]. rewrite strs_app, str_len_app. pose proof (field_weight a). lia. }
  destruct (return_type d); cbn [return_text]; [pose proof (field_weight d0)|change (strs []) with 0]; lia.
Qed.
Lemma text_weight cs bs t : Forall (fun c => N.of_nat (utf8_size c) <= 65535) cs -> grounded from_java_cesu8 cs bs t -> 2 * weight t <= 65535 * N.of_nat (cost t).
Proof.
  intros Hcs Ht. rewrite Forall_forall in Hcs.
  assert (Hraw : forall raw s, In (CUtf8 raw) cs -> from_java_cesu8 raw = Some s -> str_len s <= 65535).
  { intros raw s Hin Hd. apply Hcs in Hin. cbn [utf8_size] in Hin. apply decoded_len in Hd. unfold blen in Hd. lia. }
  unfold weight. destruct t as [s|raw|d|d|s]; cbn [grounded strings params cost] in *.
  - destruct Ht as (raw & Hin & Hd). specialize (Hraw _ _ Hin Hd). rewrite strs_cons. change (strs []) with 0. lia.
  - change (strs []) with 0. lia.
  - destruct Ht as (raw & rest & Hin & Hd). specialize (Hraw _ _ Hin Hd). rewrite str_len_app in Hraw. pose proof (field_weight d). lia.
  - destruct Ht as (raw & rest & Hin & Hd). specialize (Hraw _ _ Hin Hd). rewrite str_len_app in Hraw. pose proof (method_weight d). lia.
  - rewrite strs_cons. change (strs []) with 0. lia.
Qed.
Lemma texts_weight cs bs l : Forall (fun c => N.of_nat (utf8_size c) <= 65535) cs -> Forall (grounded from_java_cesu8 cs bs) l ->
  2 * S_Heap.sum (map weight l) <= 65535 * N.of_nat (total cost l).
Proof.
  intros Hcs H. induction H as [|t l Ht _ IH]; [cbn; lia|]. apply (text_weight _ _ _ Hcs) in Ht. change (S_Heap.sum (map weight (t :: l))) with (weight t + S_Heap.sum (map weight l)). rewrite total_cons. lia.
Qed.
(** ** The class *)
Lemma utf8_sizes major cs w : many (constant_lang major) cs w -> Forall (fun c => N.of_nat (utf8_size c) <= 65535) cs.
Proof.
  revert w. induction cs as [|c cs IH]; intros w H; [constructor|]. destruct H as (u & v & -> & Hu & Hv). constructor; [|eapply IH, Hv].
  destruct c; cbn [utf8_size]; try lia. destruct Hu as (_ & x & y & -> & _ & p & q & -> & (Hp & Hb) & _).
  pose proof (be_bound p) as Hbe. rewrite Hp in Hbe. rewrite Hb in Hbe. cbn in Hbe. lia.
Qed.
Lemma sum_weight l : S_Heap.sum (map weight l) = strs (flat_map strings l) + S_Heap.sum (map params l).
Proof.
  induction l as [|t l IH]; [reflexivity|]. cbn [flat_map]. change (weight t + S_Heap.sum (map weight l) = strs (strings t ++ flat_map strings l) + (params t + S_Heap.sum (map params l))).
  rewrite IH, strs_app. unfold weight. lia.
Qed.
Lemma copied_chars l : S_Heap.sum (map S_Heap.copied l) <= strs (map Z_Cow.chars l).
Proof.
  induction l as [|t l IH]; [cbn; lia|]. change (S_Heap.copied t + S_Heap.sum (map S_Heap.copied l) <= str_len (Z_Cow.chars t) + strs (map Z_Cow.chars l)).
  enough (S_Heap.copied t <= str_len (Z_Cow.chars t)) by lia. destruct t; cbn; lia.
Qed.
Lemma params_flat {A} (f : A -> list text) (g : A -> N) l : (forall a, g a <= S_Heap.sum (map params (f a))) -> S_Heap.sum (map g l) <= S_Heap.sum (map params (flat_map f l)).
Proof.
  intro H. induction l as [|a l IH]; [cbn; lia|]. cbn [flat_map]. rewrite map_app, sum_app. change (g a + S_Heap.sum (map g l) <= S_Heap.sum (map params (f a)) + S_Heap.sum (map params (flat_map f l))). specialize (H a). lia.
Qed.
Lemma pool_weight cs (p : list Z_ConstantPool.entry) : Z_ConstantPool.plain_pool p = pool_of from_java_cesu8 (slots_of cs) ->
  strs (map Z_Cow.chars (flat_map S_ZeroCopy.entry_texts p)) <= N.of_nat (total utf8_size cs).
Proof.
  intro H. set (g := fun e => match e with EUtf8 s => [s] | _ => [] end).
  assert (Hg : forall q, map Z_Cow.chars (flat_map S_ZeroCopy.entry_texts q) = flat_map g (Z_ConstantPool.plain_pool q)).
  { induction q as [|e q IH]; [reflexivity|]. cbn [flat_map Z_ConstantPool.plain_pool map]. unfold Z_ConstantPool.plain_pool in IH. rewrite map_app, IH. f_equal. destruct e; reflexivity. }
  rewrite Hg, H. clear. unfold pool_of, slots_of. cbn [flat_map g app]. induction cs as [|c cs IH]; [cbn; lia|]. cbn [flat_map]. rewrite map_app, flat_map_app, strs_app, total_cons.
  enough (strs (flat_map g (map (fun s => match s with Some c => entry_of from_java_cesu8 c | None => EUnused end) (if is_wide c then [Some c; None] else [Some c]))) <= N.of_nat (utf8_size c)) by lia.
  destruct c; cbn [is_wide map flat_map app entry_of g utf8_size]; try (cbn; lia). destruct (from_java_cesu8 raw) as [s|] eqn:Hd; cbn [g app]; [|cbn; lia].
  apply decoded_len in Hd. rewrite strs_cons. change (strs []) with 0. unfold blen in Hd. lia.
Qed.
Theorem heap_bound wraps want d cs c bs : class_lang from_java_cesu8 wraps want d cs (Z_Class.plain_class c) bs ->
  2 * (S_Heap.copies c + S_Heap.parameter_count c) <= 3 * 65535 * blen bs.
Proof.
  intro H. pose proof H as Hc. apply light_class in Hc; [|intros w s Hw; apply decoded_len in Hw; unfold blen in Hw; lia].
  pose proof (says_class _ _ _ _ _ _ _ H) as Hg. assert (Hcs : Forall (fun c => N.of_nat (utf8_size c) <= 65535) cs).
  { destruct H as ((u0 & v0 & -> & K0 & u1 & v1 & -> & K1 & u2 & v2 & -> & K2 & u3 & v3 & -> & (count & (a & b & -> & _ & Hmany) & _) & _) & _). eapply utf8_sizes, Hmany. }
  apply (texts_weight _ _ _ Hcs) in Hg. rewrite sum_weight in Hg. destruct H as (_ & HP & _). cbn [Z_Class.plain_class constant_pool] in HP. apply pool_weight in HP.
  assert (Hp : S_Heap.parameter_count c <= S_Heap.sum (map params (class_texts (Z_Class.plain_class c)))).
  { unfold class_texts. cbn [Z_Class.plain_class methods]. set (B := flat_map _ (map Z_Class.plain_method _)).
    assert (HB : S_Heap.parameter_count c <= S_Heap.sum (map params B)).
    { unfold B, S_Heap.parameter_count. rewrite flat_map_concat_map, map_map, <- flat_map_concat_map. apply params_flat. intro m.
      cbn [map params]. rewrite !sum_cons. destruct m as [f n dsc l]. cbn. rewrite map_length. lia. }
    cbn [map]. rewrite sum_cons, !map_app, !sum_app. lia. }
  assert (Hcp : S_Heap.copies c <= N.of_nat (total utf8_size cs) + strs (flat_map strings (class_texts (Z_Class.plain_class c)))).
  { unfold S_Heap.copies. eapply N.le_trans; [apply copied_chars|]. rewrite link_class, strs_app. lia. }
  unfold blen. lia.
Qed.
