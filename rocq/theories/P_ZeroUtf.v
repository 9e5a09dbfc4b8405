(** * UTF-8: slices of a text are the slices of its bytes. *)
From Verif Require Import Base M_Names M_Descriptors M_Cesu8 S_Utf T_Text Z_Cow Z_Descriptors S_ZeroCopy.
From Coq Require Import ZifyBool ZifyNat ZifyN.

Lemma char_len_2 c : 0x80 <= c < 0x800 -> char_len c = 2.
Proof. intro H. unfold char_len. destruct (N.ltb_spec c 0x80); [lia|]. destruct (N.ltb_spec c 0x800); [auto|lia]. Qed.
Lemma char_len_3 c : 0x800 <= c < 0x10000 -> char_len c = 3.
Proof. intro H. unfold char_len. destruct (N.ltb_spec c 0x80); [lia|]. destruct (N.ltb_spec c 0x800); [lia|]. destruct (N.ltb_spec c 0x10000); [auto|lia]. Qed.
Lemma char_len_4 c : 0x10000 <= c -> char_len c = 4.
Proof. intro H. unfold char_len. destruct (N.ltb_spec c 0x80); [lia|]. destruct (N.ltb_spec c 0x800); [lia|]. destruct (N.ltb_spec c 0x10000); [lia|auto]. Qed.
Lemma cont_range b : cont b = true -> 0x80 <= b <= 0xBF.
Proof. unfold cont. rewrite andb_true_iff, !N.leb_le. auto. Qed.
(** One step of the decoder, independent of the bytes that follow. *)
Lemma utf8_front fuel bs c s : utf8_decode fuel bs = Some (c :: s) -> exists f x r, fuel = S f /\ bs = x ++ r /\ N.of_nat (length x) = char_len c
  /\ utf8_decode f r = Some s /\ forall g y, utf8_decode (S g) (x ++ y) = option_map (cons c) (utf8_decode g y).
Proof.
  destruct fuel as [|f]; cbn [utf8_decode]; [discriminate|]. destruct bs as [|a bs]; [discriminate|].
  destruct (a <? 0x80) eqn:H1.
  { destruct (utf8_decode f bs) eqn:Hr; cbn [option_map]; [|discriminate]. intros [= -> ->].
    exists f, [c], bs. split; [reflexivity|]. split; [reflexivity|]. split. { cbn. unfold char_len. deq (c <? 128) true. reflexivity. } split; [auto|].
    intros. cbn [app utf8_decode]. rewrite H1. reflexivity. }
  destruct ((0xC2 <=? a) && (a <=? 0xDF)) eqn:H2.
  { destruct bs as [|b bs]; [discriminate|]. destruct (cont b) eqn:Hb; [|discriminate].
    destruct (utf8_decode f bs) eqn:Hr; cbn [option_map]; [|discriminate]. intros [= <- ->].
    exists f, [a; b], bs. split; [reflexivity|]. split; [reflexivity|]. split.
    { rewrite andb_true_iff, !N.leb_le in H2. apply cont_range in Hb as Hb'. rewrite char_len_2; [reflexivity|lia]. } split; [auto|].
    intros. cbn [app utf8_decode]. rewrite H1, H2, Hb. reflexivity. }
  destruct ((0xE0 <=? a) && (a <=? 0xEF)) eqn:H3.
  { destruct bs as [|b [|d bs]]; try discriminate. cbv zeta. match goal with |- (if ?x then _ else _) = _ -> _ => destruct x eqn:Hb; [|discriminate] end.
    destruct (utf8_decode f bs) eqn:Hr; cbn [option_map]; [|discriminate]. intros [= <- ->].
    exists f, [a; b; d], bs. split; [reflexivity|]. split; [reflexivity|]. split.
    { rewrite andb_true_iff, !N.leb_le in H3. rewrite !andb_true_iff, N.leb_le in Hb. destruct Hb as (((Hb1 & Hb2) & Hb3) & _). apply cont_range in Hb1, Hb2. rewrite char_len_3; [reflexivity|lia]. } split; [auto|].
    intros. cbn [app utf8_decode]. rewrite H1, H2, H3. cbv zeta. rewrite Hb. reflexivity. }
  destruct ((0xF0 <=? a) && (a <=? 0xF4)) eqn:H4; [|discriminate].
  destruct bs as [|b [|d [|e bs]]]; try discriminate. cbv zeta. match goal with |- (if ?x then _ else _) = _ -> _ => destruct x eqn:Hb; [|discriminate] end.
  destruct (utf8_decode f bs) eqn:Hr; cbn [option_map]; [|discriminate]. intros [= <- ->].
  exists f, [a; b; d; e], bs. split; [reflexivity|]. split; [reflexivity|]. split.
  { rewrite !andb_true_iff, !N.leb_le in Hb. destruct Hb as ((_ & Hb3) & _). rewrite char_len_4; [reflexivity|lia]. } split; [auto|].
  intros. cbn [app utf8_decode]. rewrite H1, H2, H3, H4. cbv zeta. rewrite Hb. reflexivity.
Qed.
Lemma utf8_nil fuel bs : utf8_decode fuel bs = Some [] -> bs = [].
Proof.
  destruct fuel; cbn [utf8_decode]; [discriminate|]. destruct bs as [|a bs]; [auto|]. cbv zeta.
  assert (Hp : forall c (o : option str), option_map (cons c) o <> Some []) by (intros c [o|]; discriminate). intro H. exfalso. revert H.
  destruct (a <? 0x80); [apply Hp|]. destruct (_ && _). { destruct bs as [|b bs]; [discriminate|]. destruct (cont b); [apply Hp|discriminate]. }
  destruct ((_ <=? _) && _). { destruct bs as [|b [|d bs]]; try discriminate. match goal with |- (if ?x then _ else _) = _ -> _ => destruct x end; [apply Hp|discriminate]. }
  destruct ((_ <=? _) && _); [|discriminate]. destruct bs as [|b [|d [|e bs]]]; try discriminate. match goal with |- (if ?x then _ else _) = _ -> _ => destruct x end; [apply Hp|discriminate].
Qed.
Lemma char_len_pos c : 1 <= char_len c.
Proof. unfold char_len. repeat destruct (_ <? _); lia. Qed.
(** More fuel changes nothing. *)
Lemma utf8_fuel fuel bs s : utf8_decode fuel bs = Some s -> forall g, (length bs < g)%nat -> utf8_decode g bs = Some s.
Proof.
  revert fuel bs; induction s as [|c s IH]; intros fuel bs H g Hg.
  - apply utf8_nil in H as ->. destruct g; [lia|]. reflexivity.
  - destruct (utf8_front _ _ _ _ H) as (f & x & r & -> & -> & Hx & Hr & Hs). destruct g as [|g]; [lia|].
    rewrite Hs. rewrite (IH f r Hr g). { reflexivity. } rewrite app_length in Hg. pose proof (char_len_pos c). lia.
Qed.

Lemma from_utf8_nil : from_utf8 [] = Some [].
Proof. reflexivity. Qed.
Lemma from_utf8_nil_inv raw : from_utf8 raw = Some [] -> raw = [].
Proof. unfold from_utf8. intro H. apply utf8_nil in H. now apply map_eq_nil in H. Qed.
Lemma from_utf8_cons raw c s : from_utf8 raw = Some (c :: s) -> exists x r, raw = x ++ r /\ blen x = char_len c /\ from_utf8 r = Some s
  /\ forall y t, from_utf8 y = Some t -> from_utf8 (x ++ y) = Some (c :: t).
Proof.
  unfold from_utf8. intro H. destruct (utf8_front _ _ _ _ H) as (f & x & r & Hf & Hraw & Hx & Hr & Hs). apply map_eq_app in Hraw as (x' & r' & -> & Hx' & Hr').
  subst x r. exists x', r'. split; [auto|]. split. { unfold blen. now rewrite <- Hx, map_length. } split. { apply (utf8_fuel _ _ _ Hr). lia. }
  intros y t Hy. rewrite map_app, Hs. rewrite (utf8_fuel _ _ _ Hy). { reflexivity. } rewrite app_length, !map_length. pose proof (char_len_pos c). rewrite map_length in Hx. lia.
Qed.
Lemma blen_app x y : blen (x ++ y) = blen x + blen y.
Proof. unfold blen. rewrite app_length. lia. Qed.

Lemma from_utf8_len raw s : from_utf8 raw = Some s -> blen raw = str_len s.
Proof.
  revert raw; induction s as [|c s IH]; intros raw H. { now apply from_utf8_nil_inv in H as ->. }
  destruct (from_utf8_cons _ _ _ H) as (x & r & -> & Hx & Hr & _). rewrite blen_app, (IH _ Hr). cbn [str_len]. lia.
Qed.
Lemma utf8_str_from s : forall raw i t, from_utf8 raw = Some s -> str_from s i = Ok t -> exists a b, raw = a ++ b /\ blen a = i /\ from_utf8 b = Some t.
Proof.
  induction s as [|c s IH]; intros raw i t H; cbn [str_from]; destruct (N.eqb_spec i 0) as [->|Hi].
  1,3: (intros [= <-]; exists [], raw; auto). { discriminate. }
  destruct (N.leb_spec (char_len c) i); [|discriminate]. intro Ht. destruct (from_utf8_cons _ _ _ H) as (x & r & -> & Hx & Hr & _).
  destruct (IH _ _ _ Hr Ht) as (a & b & -> & Ha & Hb). exists (x ++ a), b. rewrite <- app_assoc. split; [auto|]. split; [|auto]. rewrite blen_app. lia.
Qed.
Lemma utf8_str_to s : forall raw i t, from_utf8 raw = Some s -> str_to s i = Ok t -> exists a b, raw = a ++ b /\ blen a = i /\ from_utf8 a = Some t.
Proof.
  induction s as [|c s IH]; intros raw i t H; cbn [str_to]; destruct (N.eqb_spec i 0) as [->|Hi].
  1,3: (intros [= <-]; exists [], raw; auto). { discriminate. }
  destruct (N.leb_spec (char_len c) i); [|discriminate]. destruct (str_to s (i - char_len c)) as [t'| | |] eqn:Ht; try discriminate. cbn [obind]. intros [= <-].
  destruct (from_utf8_cons _ _ _ H) as (x & r & -> & Hx & Hr & Hc).
  destruct (IH _ _ _ Hr Ht) as (a & b & -> & Ha & Hb). exists (x ++ a), b. rewrite <- app_assoc. split; [auto|]. split; [|auto]. rewrite blen_app. lia.
Qed.
Lemma str_from_suffix s : forall i t, str_from s i = Ok t -> exists b, s = b ++ t.
Proof.
  induction s as [|c s IH]; intros i t; cbn [str_from]; destruct (N.eqb_spec i 0).
  1,3: (intros [= <-]; now exists []). { discriminate. } destruct (_ <=? _); [|discriminate]. intro H. destruct (IH _ _ H) as (b & ->). now exists (c :: b).
Qed.
Lemma str_to_prefix s : forall i t, str_to s i = Ok t -> exists b, s = t ++ b.
Proof.
  induction s as [|c s IH]; intros i t; cbn [str_to]; destruct (N.eqb_spec i 0).
  1,3: (intros [= <-]; eexists; reflexivity). { discriminate. } destruct (_ <=? _); [|discriminate].
  destruct (str_to s (i - char_len c)) as [t'| | |] eqn:Ht; try discriminate. intros [= <-]. destruct (IH _ _ Ht) as (b & ->). now exists b.
Qed.

Lemma lies_at_part bs i a b d : lies_at bs i (a ++ b ++ d) -> lies_at bs (i + blen a) b.
Proof. intros (pre & post & -> & <-). exists (pre ++ a), (d ++ post). rewrite blen_app, <- !app_assoc. auto. Qed.

(** The model of the dependency is what [from_java_cesu8_cow] returns, without borrowing. *)
Lemma cow_chars decode data at_ : decode = from_java_cesu8 -> decode data = option_map chars (from_java_cesu8_cow decode data at_).
Proof.
  intros ->. unfold from_java_cesu8_cow, from_java_cesu8, from_utf8. cbv zeta. destruct (utf8_decode _ _); [reflexivity|].
  destruct (java_decode _ _); reflexivity.
Qed.
(** A decoded field is not copied... *)
Lemma cow_uncopied decode bs i raw t : lies_at bs i raw -> from_java_cesu8_cow decode raw i = Some t -> uncopied_from decode bs i raw t.
Proof.
  unfold from_java_cesu8_cow. intro Hl. destruct (from_utf8 raw) as [s|] eqn:Hs.
  - intros [= <-]. cbn [uncopied_from]. rewrite Hs. split; [discriminate|]. split; [lia|]. rewrite (from_utf8_len _ _ Hs). split; [lia|]. exists raw. rewrite (from_utf8_len _ _ Hs). auto.
  - destruct (decode raw) as [s|] eqn:Hd; [|discriminate]. intros [= <-]. cbn [uncopied_from]. split; [auto|]. exists [], []. now rewrite app_nil_r, Hd.
Qed.
(** ... nor is a slice of one. *)
Lemma sub_cow_uncopied decode bs i raw t j k u : uncopied_from decode bs i raw t -> sub_cow t j k = Ok u -> uncopied_from decode bs i raw u.
Proof.
  unfold sub_cow, str_slice. destruct t as [s a|s]; cbn [uncopied_from]; (destruct (N.ltb_spec k j); [discriminate|]);
    (destruct (str_from s j) as [t| | |] eqn:Ht; try discriminate); cbn [obind]; (destruct (str_to t (k - j)) as [v| | |] eqn:Hv; try discriminate); cbn [obind]; intros Hu [= <-]; cbn [uncopied_from].
  - destruct Hu as (Hn & Hi & Hle & sl & Hsl & Hlen & Hdec). split; [auto|]. split; [lia|].
    destruct (utf8_str_from _ _ _ _ Hdec Ht) as (x & y & -> & Hx & Hy). destruct (utf8_str_to _ _ _ _ Hy Hv) as (y1 & y2 & -> & Hy1 & Hdy).
    pose proof (from_utf8_len _ _ Hdy) as Hl1. rewrite !blen_app in Hlen. split; [lia|].
    exists y1. split; [|split; auto]. subst j. now apply lies_at_part with (d := y2).
  - destruct Hu as (Hn & before & after & Hd). split; [auto|]. destruct (str_from_suffix _ _ _ Ht) as (b & ->). destruct (str_to_prefix _ _ _ Hv) as (b' & ->).
    exists (before ++ b), (b' ++ after). rewrite Hd. now rewrite <- !app_assoc.
Qed.
