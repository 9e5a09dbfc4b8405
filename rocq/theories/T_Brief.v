(** * C72: the length of the text of an error *)
From Verif Require Import Base Data M_Names M_Descriptors M_ConstantPool M_Bytecode M_Attributes M_Class M_Cesu8 S_Env Sample S_Messages P_Heap3 P_Brief P_Brief2 T_Contexts.
From Coq Require Import ZifyBool ZifyNat ZifyN.

(** [str_len] is the number of bytes of a text in UTF-8, as [String::len]. *)

(** Decoding does not make a text longer than the bytes it is read from. *)
Definition decodes_within (E : env) : Prop := forall raw s, cesu8 E raw = Some s -> str_len s <= blen raw.
Lemma machine_decodes_within checks usize levels : decodes_within (machine checks usize levels).
Proof. intros raw s. apply decoded_len. Qed.

(** The message, unless the file chose part of it or it is that of the decoder, and every context fit in a line. *)
Theorem C72_parts_short : forall E opts bs e, blen bs < 2 ^ 64 -> decodes_within E -> parse_class_with_options E opts bs = Err e ->
  (str_len (msg e) <= 200
   \/ (exists name, str_len name <= blen bs /\ msg e = format (lit "Found non-empty super_class {}; expected none for module") [name])
   \/ msg e = cesu8_err E)
  /\ Forall (fun c => str_len c <= 100) (contexts e).
Proof.
  intros E opts bs e Hb Hd H. unfold parse_class_with_options in H. pose proof (h_class E (blen bs) Hb Hd opts bs 0 ltac:(lia) ltac:(lia)) as Hp.
  destruct (class_parser E opts bs 0) as [[a i]|e'| |]; cbn [obind] in H; try discriminate. assert (e' = e) as -> by congruence. exact Hp.
Qed.

Lemma contexts_text cs : forall k, str_len k <= 5 -> Forall (fun c => str_len c <= 100) cs -> str_len (display_contexts k cs) <= 105 * N.of_nat (length cs).
Proof.
  induction cs as [|c cs IH]; intros k Hk H; cbn [display_contexts]; [cbn; lia|]. inversion H; subst. change str_len with slen in *. rewrite !slen_app.
  specialize (IH (lit " of ") ltac:(cbn; lia) ltac:(assumption)). cbn [length]. lia.
Qed.
(** The text of an error, as printed, is at most 36 times as long as the file, but for a constant. *)
Theorem C72_text_bounded : forall E opts bs e, sane E bs -> blen bs < 2 ^ 64 -> decodes_within E -> parse_class_with_options E opts bs = Err e ->
  str_len (display_err e) <= 36 * blen bs + 200 + str_len (cesu8_err E).
Proof.
  intros E opts bs e Hs Hb Hd H. destruct (C72_parts_short E opts bs e Hb Hd H) as [Hm Hc]. pose proof (C71_contexts_bounded E opts bs e Hs H) as Hn.
  apply (contexts_text _ (lit " for ")) in Hc; [|cbn; lia]. unfold display_err. change str_len with slen in *. rewrite slen_app. unfold blen in *.
  assert (slen (msg e) <= 200 + slen (cesu8_err E) + N.of_nat (length bs)); [|lia].
  destruct Hm as [Hm|[(s & Hs' & ->)|Hm]]; [lia| |rewrite Hm; lia].
  match goal with |- slen ?x <= _ => assert (Hx : x = lit "Found non-empty super_class " ++ s ++ lit "; expected none for module") end.
  { cbn. rewrite app_nil_r || idtac. reflexivity. }
  rewrite Hx, !slen_app. change (slen (lit "Found non-empty super_class ")) with 28. change (slen (lit "; expected none for module")) with 26. lia.
Qed.

(** Nothing better than a multiple of the length of the file holds: for files of every length above a constant the
    text is more than five times as long. *)
Lemma contexts_longer a k l : forall n, str_len (display_contexts (lit " of ") (repeat a n ++ l)) = (4 + str_len a) * N.of_nat n + str_len (display_contexts (lit " of ") l)
  /\ (str_len k = 5 -> str_len (display_contexts (lit " of ") (repeat a n ++ l)) <= str_len (display_contexts k (repeat a n ++ l))).
Proof.
  induction n as [|n [IH _]].
  - split; [cbn [repeat app]; lia|]. intro Hk. destruct l as [|x l]; cbn [repeat app display_contexts]; [lia|]. change str_len with slen in *. rewrite !slen_app.
    change (slen (lit " of ")) with 4. lia.
  - cbn [repeat app display_contexts]. change str_len with slen in *. rewrite !slen_app, IH. change (slen (lit " of ")) with 4. split; [lia|]. intro Hk. lia.
Qed.
Theorem C72_text_grows : forall n, 200 <= N.of_nat n -> exists e, parse_class (arrays_machine n) (arrays_file n) = Err e
  /\ 5 * blen (arrays_file n) <= str_len (display_err e).
Proof.
  intros n Hn. exists (arrays_error n). split; [apply arrays_parsed|]. rewrite arrays_file_length. unfold display_err, arrays_error. cbn [msg contexts].
  change str_len with slen. rewrite slen_app.
  destruct (contexts_longer (lit "array index 0") (lit " for ") [lit "AnnotationDefault attribute 0"; lit "class"] n) as [H1 H2]. specialize (H2 eq_refl). rewrite H1 in H2.
  change str_len with slen in *. change (slen (lit "array index 0")) with 13 in H2. lia.
Qed.
(** The hypotheses hold of such a file. *)
Example C72_meets : let n := N.to_nat 1000 in sane (arrays_machine n) (arrays_file n) /\ blen (arrays_file n) < 2 ^ 64 /\ decodes_within (arrays_machine n)
  /\ 200 <= N.of_nat n /\ exists e, parse_class (arrays_machine n) (arrays_file n) = Err e.
Proof.
  intro n. destruct (C71_rate n) as (e & He & _ & _ & Hs). split; [apply Hs; unfold n; rewrite N2Nat.id; reflexivity|].
  split; [rewrite arrays_file_length; unfold n; rewrite N2Nat.id; reflexivity|]. split; [intros raw s; apply decoded_len|].
  split; [unfold n; rewrite N2Nat.id; discriminate|]. eauto.
Qed.
