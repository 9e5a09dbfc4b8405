(** * Property theorems: text (C33). *)
From Verif Require Import Base M_Names M_Descriptors M_ConstantPool M_Bytecode M_Attributes M_Class M_Cesu8 Data
  S_Lang S_Names S_Format S_Pool S_Utf S_Env P_Reads P_Tac P_Pool3 P_Refs P_Class3 P_Layout T_Class T_Members T_Iter.
From Coq Require Import ZifyBool ZifyNat ZifyN.

Lemma scalar_spec c : scalar c = true <-> is_scalar c.
Proof. unfold scalar, is_scalar. lia. Qed.
Definition char_bytes (c : N) : list N := flat_map unit_bytes (utf16 c).
Lemma encode_cons c s : modified_utf8 (c :: s) = char_bytes c ++ modified_utf8 s.
Proof. unfold modified_utf8, char_bytes. cbn [flat_map]. apply flat_map_app. Qed.

(** The four shapes. *)
Lemma char_cases c : is_scalar c ->
  (c = 0 /\ char_bytes c = [0xC0; 0x80])
  \/ (1 <= c < 0x80 /\ char_bytes c = [c])
  \/ (exists a b, 2 <= a < 32 /\ b < 64 /\ c = a * 64 + b /\ char_bytes c = [0xC0 + a; 0x80 + b])
  \/ (exists a b d, a < 16 /\ b < 64 /\ d < 64 /\ c = a * 4096 + b * 64 + d /\ 0x800 <= c /\ (c < 0xD800 \/ 0xDFFF < c) /\ char_bytes c = [0xE0 + a; 0x80 + b; 0x80 + d])
  \/ (exists b d e f, b < 16 /\ d < 64 /\ e < 16 /\ f < 64 /\ c = 0x10000 + (b * 64 + d) * 1024 + (e * 64 + f)
       /\ char_bytes c = [0xED; 0xA0 + b; 0x80 + d; 0xED; 0xB0 + e; 0x80 + f]).
Proof.
  intro H. unfold is_scalar in H. unfold char_bytes, utf16. destruct (N.ltb_spec c 0x10000) as [Hlt|Hge].
  - cbn [flat_map]. rewrite app_nil_r. unfold unit_bytes. destruct (N.leb_spec 1 c), (N.leb_spec c 0x7F); cbn [andb].
    + right; left. split; [lia|reflexivity].
    + destruct (N.leb_spec c 0x7FF).
      * right; right; left. pose proof (N.div_mod c 64 ltac:(lia)). pose proof (N.mod_lt c 64 ltac:(lia)). exists (c / 64), (c mod 64). repeat split; lia.
      * right; right; right; left. pose proof (N.div_mod c 64 ltac:(lia)). pose proof (N.mod_lt c 64 ltac:(lia)).
        pose proof (N.div_mod (c / 64) 64 ltac:(lia)). pose proof (N.mod_lt (c / 64) 64 ltac:(lia)). pose proof (N.div_div c 64 64 ltac:(lia) ltac:(lia)) as Hdd. change (64 * 64) with 4096 in Hdd.
        exists (c / 4096), ((c / 64) mod 64), (c mod 64). repeat split; lia.
    + left. replace c with 0 by lia. split; reflexivity.
    + lia.
  - right; right; right; right. set (x := c - 0x10000). pose proof (N.div_mod x 1024 ltac:(lia)). pose proof (N.mod_lt x 1024 ltac:(lia)).
    assert (Hh : x / 1024 < 1024) by (apply N.div_lt_upper_bound; lia).
    set (h := x / 1024) in *. set (l := x mod 1024) in *.
    pose proof (N.div_mod h 64 ltac:(lia)). pose proof (N.mod_lt h 64 ltac:(lia)). assert (h / 64 < 16) by (apply N.div_lt_upper_bound; lia).
    pose proof (N.div_mod l 64 ltac:(lia)). pose proof (N.mod_lt l 64 ltac:(lia)). assert (l / 64 < 16) by (apply N.div_lt_upper_bound; lia).
    exists (h / 64), (h mod 64), (l / 64), (l mod 64). repeat (split; [lia|]).
    cbn [flat_map app]. unfold unit_bytes.
    assert (Hd : forall y, y < 1024 -> (0xD800 + y) / 4096 = 13 /\ ((0xD800 + y) / 64) mod 64 = 32 + y / 64 /\ (0xD800 + y) mod 64 = y mod 64).
    { intros y Hy. replace (0xD800 + y) with (y + 864 * 64) by lia. rewrite N.mod_add, N.div_add by lia.
      pose proof (N.div_mod y 64 ltac:(lia)). assert (y / 64 < 16) by (apply N.div_lt_upper_bound; lia). split; [|split; auto].
      - replace (y + 864 * 64) with (y + 2048 + 13 * 4096) by lia. rewrite N.div_add by lia. rewrite N.div_small by lia. reflexivity.
      - replace (y / 64 + 864) with (y / 64 + 32 + 13 * 64) by lia. rewrite N.mod_add by lia. rewrite N.mod_small; lia. }
    assert (Hd' : forall y, y < 1024 -> (0xDC00 + y) / 4096 = 13 /\ ((0xDC00 + y) / 64) mod 64 = 48 + y / 64 /\ (0xDC00 + y) mod 64 = y mod 64).
    { intros y Hy. replace (0xDC00 + y) with (y + 880 * 64) by lia. rewrite N.mod_add, N.div_add by lia.
      pose proof (N.div_mod y 64 ltac:(lia)). assert (y / 64 < 16) by (apply N.div_lt_upper_bound; lia). split; [|split; auto].
      - replace (y + 880 * 64) with (y + 3072 + 13 * 4096) by lia. rewrite N.div_add by lia. rewrite N.div_small by lia. reflexivity.
      - replace (y / 64 + 880) with (y / 64 + 48 + 13 * 64) by lia. rewrite N.mod_add by lia. rewrite N.mod_small; lia. }
    destruct (Hd h Hh) as (-> & -> & ->). destruct (Hd' l H1) as (-> & -> & ->).
    replace ((1 <=? 0xD800 + h) && (0xD800 + h <=? 0x7F)) with false by lia. replace (0xD800 + h <=? 0x7FF) with false by lia.
    replace ((1 <=? 0xDC00 + l) && (0xDC00 + l <=? 0x7F)) with false by lia. replace (0xDC00 + l <=? 0x7FF) with false by lia.
    cbn [app]. replace (0x80 + (32 + h / 64)) with (0xA0 + h / 64) by lia. replace (0x80 + (48 + l / 64)) with (0xB0 + l / 64) by lia. reflexivity.
Qed.

Ltac deq b v := replace b with v by (unfold cont, scalar in *; lia).
Lemma java_step fuel c r : is_scalar c -> java_decode (S fuel) (char_bytes c ++ r) = option_map (cons c) (java_decode fuel r).
Proof.
  intro Hc. destruct (char_cases c Hc) as [(-> & ->)|[(H & ->)|[(a & b & Ha & Hb & -> & ->)|[(a & b & d & Ha & Hb & Hd & -> & Hlo & Hs & ->)|(b & d & e & f & Hb & Hd & He & Hf & -> & ->)]]]];
    cbn [app java_decode].
  - reflexivity.
  - deq (c =? 0) false. deq (c <? 0x80) true. reflexivity.
  - deq (0xC0 + a =? 0) false. deq (0xC0 + a <? 0x80) false. deq (0xC0 + a =? 0xC0) false. deq ((0xC2 <=? 0xC0 + a) && (0xC0 + a <=? 0xDF)) true.
    deq (cont (0x80 + b)) true. do 2 f_equal. lia.
  - deq (0xE0 + a =? 0) false. deq (0xE0 + a <? 0x80) false. deq (0xE0 + a =? 0xC0) false. deq ((0xC2 <=? 0xE0 + a) && (0xE0 + a <=? 0xDF)) false.
    deq ((0xE0 <=? 0xE0 + a) && (0xE0 + a <=? 0xEF)) true. deq (cont (0x80 + b)) true. deq (cont (0x80 + d)) true. cbn [andb].
    match goal with |- (if ?x then _ else _) = _ => replace x with true by lia end. do 2 f_equal. lia.
  - change (0xED =? 0) with false. change (0xED <? 0x80) with false. change (0xED =? 0xC0) with false. change ((0xC2 <=? 0xED) && (0xED <=? 0xDF)) with false.
    change ((0xE0 <=? 0xED) && (0xED <=? 0xEF)) with true. cbv iota. deq (cont (0xA0 + b)) true. deq (cont (0x80 + d)) true. cbn [andb].
    match goal with |- (if ?x then _ else _) = _ => replace x with false by lia end.
    match goal with |- (if ?x then _ else _) = _ => replace x with true by lia end.
    match goal with |- (if ?x then _ else _) = _ => replace x with true by (unfold cont; lia) end. do 2 f_equal. lia.
Qed.
Lemma java_all s : Forall is_scalar s -> forall fuel, (length s < fuel)%nat -> java_decode fuel (modified_utf8 s) = Some s.
Proof.
  induction 1 as [|c s Hc Hs IH]; intros [|fuel] Hf; cbn [length] in Hf; try lia; [reflexivity|].
  rewrite encode_cons, java_step by auto. rewrite IH by lia. reflexivity.
Qed.
Lemma utf8_step fuel c r : is_scalar c -> utf8_decode (S fuel) (char_bytes c ++ r) = option_map (cons c) (utf8_decode fuel r)
  \/ utf8_decode (S fuel) (char_bytes c ++ r) = None.
Proof.
  intro Hc. destruct (char_cases c Hc) as [(-> & ->)|[(H & ->)|[(a & b & Ha & Hb & -> & ->)|[(a & b & d & Ha & Hb & Hd & -> & Hlo & Hs & ->)|(b & d & e & f & Hb & Hd & He & Hf & -> & ->)]]]];
    cbn [app utf8_decode].
  - right. reflexivity.
  - left. deq (c <? 0x80) true. reflexivity.
  - left. deq (0xC0 + a <? 0x80) false. deq ((0xC2 <=? 0xC0 + a) && (0xC0 + a <=? 0xDF)) true.
    deq (cont (0x80 + b)) true. do 2 f_equal. lia.
  - left. deq (0xE0 + a <? 0x80) false. deq ((0xC2 <=? 0xE0 + a) && (0xE0 + a <=? 0xDF)) false.
    deq ((0xE0 <=? 0xE0 + a) && (0xE0 + a <=? 0xEF)) true. 
    replace ((0xE0 + a - 0xE0) * 4096 + (0x80 + b - 0x80) * 64 + (0x80 + d - 0x80)) with (a * 4096 + b * 64 + d) by lia.
    match goal with |- (if ?x then _ else _) = _ => replace x with true by (unfold cont, scalar; lia) end. reflexivity.
  - right. change (0xED <? 0x80) with false. change ((0xC2 <=? 0xED) && (0xED <=? 0xDF)) with false.
    change ((0xE0 <=? 0xED) && (0xED <=? 0xEF)) with true. cbv iota.
    match goal with |- (if ?x then _ else _) = _ => replace x with false by (unfold cont, scalar; lia) end. reflexivity.
Qed.
Lemma utf8_all s : Forall is_scalar s -> forall fuel, utf8_decode fuel (modified_utf8 s) = Some s \/ utf8_decode fuel (modified_utf8 s) = None.
Proof.
  induction 1 as [|c s Hc Hs IH]; intros [|fuel]; try (right; reflexivity); [left; reflexivity|].
  rewrite encode_cons. destruct (utf8_step fuel c (modified_utf8 s) Hc) as [->| ->]; auto. destruct (IH fuel) as [->| ->]; auto.
Qed.
Lemma encode_length s : (length s <= length (modified_utf8 s))%nat.
Proof.
  induction s as [|c s IH]; [auto|]. rewrite encode_cons, app_length. enough (1 <= length (char_bytes c))%nat by (cbn [length]; lia).
  unfold char_bytes, utf16. destruct (c <? 0x10000); cbn [flat_map]; rewrite app_length; unfold unit_bytes at 1;
    (destruct (_ && _); [|destruct (_ <=? _)]; cbn [length plus]; lia).
Qed.

(** ** C33 *)
(** The modified UTF-8 encoding of any Unicode text is decoded to that text. *)
Theorem C33_decode_encoded s w : Forall is_scalar s -> map Byte.to_N w = modified_utf8 s -> from_java_cesu8 w = Some s.
Proof.
  intros Hs Hw. unfold from_java_cesu8. rewrite Hw. destruct (utf8_all s Hs (S (length (modified_utf8 s)))) as [->| ->]; auto.
  apply java_all; auto. apply Nat.lt_succ_r, encode_length.
Qed.
(** So different texts have different encodings. *)
Theorem C33_encoding_injective s s' : Forall is_scalar s -> Forall is_scalar s' -> modified_utf8 s = modified_utf8 s' -> s = s'.
Proof.
  intros H H' He. pose proof (java_all s H (S (length s + length s'))). pose proof (java_all s' H' (S (length s + length s'))). rewrite He in H0.
  rewrite H0 in H1 by lia. injection H1; auto. lia.
Qed.

Lemma push_scalar (o : option str) c s : is_scalar c -> (forall s, o = Some s -> Forall is_scalar s) -> option_map (cons c) o = Some s -> Forall is_scalar s.
Proof. intros Hc Ho H. destruct o as [t|]; [|discriminate]. injection H as <-. constructor; auto. Qed.
Lemma utf8_scalars fuel bs s : utf8_decode fuel bs = Some s -> Forall is_scalar s.
Proof.
  revert bs s. induction fuel as [|fuel IH]; intros bs s H; [discriminate|]. cbn [utf8_decode] in H.
  repeat match type of H with
  | (match ?l with [] => _ | _ :: _ => _ end) = _ => destruct l; try discriminate H
  | (if ?b then _ else _) = _ => destruct b eqn:?; try discriminate H
  end; try (injection H as <-; constructor); (eapply push_scalar; [|apply IH|exact H]); unfold cont, scalar, is_scalar in *; lia.
Qed.
Lemma java_scalars fuel bs s : java_decode fuel bs = Some s -> Forall is_scalar s.
Proof.
  revert bs s. induction fuel as [|fuel IH]; intros bs s H; [discriminate|]. cbn [java_decode] in H.
  repeat match type of H with
  | (match ?l with [] => _ | _ :: _ => _ end) = _ => destruct l; try discriminate H
  | (if ?b then _ else _) = _ => destruct b eqn:?; try discriminate H
  end; try (injection H as <-; constructor); (eapply push_scalar; [|apply IH|exact H]); unfold cont, scalar, is_scalar in *; lia.
Qed.
(** Whatever bytes are decoded, the result is Unicode text. *)
Theorem C33_decoded_is_unicode w s : from_java_cesu8 w = Some s -> Forall is_scalar s.
Proof.
  unfold from_java_cesu8. destruct (utf8_decode _ _) as [t|] eqn:H; [intros [= <-]; eapply utf8_scalars; eauto|]. apply java_scalars.
Qed.

(** In an accepted class a Utf8 constant that encodes [s] is [s], and a String constant referring to it is shown as [s]. *)
Theorem C33_constants E opts bs c cs k raw s : sane E bs -> cesu8 E = from_java_cesu8 -> parse_class_with_options E opts bs = Ok c -> constants_of E bs cs ->
  nth_error cs k = Some (CUtf8 raw) -> Forall is_scalar s -> map Byte.to_N raw = modified_utf8 s ->
  nth_error (constant_pool c) (N.to_nat (index_of cs k)) = Some (EUtf8 s)
  /\ forall j it, nth_error cs j = Some (CString (index_of cs k)) -> item_at (cesu8 E) (slots_of cs) (index_of cs j) it -> it = ItLiteral (LString s).
Proof.
  intros Hs HE H Hcs Hk Hsc Hraw. destruct (accepted_pool _ _ _ _ _ Hs H Hcs) as [HP _]. pose proof (C33_decode_encoded s raw Hsc Hraw) as Hd. rewrite <- HE in Hd.
  destruct (at_index_of _ _ _ Hk) as [Hat _]. split.
  - rewrite HP. apply (at_index_entry (cesu8 E)) in Hat. red in Hat. rewrite Hat. cbn [entry_of]. rewrite Hd. reflexivity.
  - intros j it Hj Hit. destruct (at_index_of _ _ _ Hj) as [Hatj _]. eapply C10_item_unique; [exact Hit|]. exists (index_of cs k). split; auto. exists raw. auto.
Qed.
Example C33_meets : let s := [0; 0x41; 0xE9; 0x20AC; 0x1F600] in Forall is_scalar s
  /\ from_java_cesu8 [xc0; x80; x41; xc3; xa9; xe2; x82; xac; xed; xa0; xbd; xed; xb8; x80] = Some s.
Proof. split; [repeat constructor; unfold is_scalar; lia|vm_compute; reflexivity]. Qed.
