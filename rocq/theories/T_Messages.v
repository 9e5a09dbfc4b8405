(** * C70: what the text of an error can contain *)
From Verif Require Import Base Data M_Names M_Descriptors M_ConstantPool M_Bytecode M_Attributes M_Class S_Env Sample S_Messages P_Messages P_Messages2.
From Coq Require Import ZifyBool ZifyNat ZifyN.

(** Every error, for every input, with every option and on every machine: its
    contexts are texts of the sources with numbers in their holes, and so is its
    message, up to three cases. *)
Theorem C70_known_texts : forall E opts bs e, parse_class_with_options E opts bs = Err e ->
  (own_message (msg e) \/ tag_message (msg e) \/ super_message (msg e) \/ msg e = cesu8_err E)
  /\ Forall (filled context_texts) (contexts e).
Proof.
  intros E opts bs e H. assert (Hq : quiet E (parse_class_with_options E opts bs)).
  { unfold parse_class_with_options. apply q_bind; [apply h_class|intro; apply q_ok]. }
  exact (Hq e H).
Qed.

(** ** As printed *)
Definition printableb (x : str) : bool := forallb (fun c => (32 <=? c) && (c <=? 126)) x.
Lemma printableb_true x : printableb x = true -> printable x.
Proof. unfold printableb, printable. rewrite forallb_forall, Forall_forall. intros H c Hc. specialize (H c Hc). lia. Qed.
Lemma printable_app a b : printable a -> printable b -> printable (a ++ b).
Proof. intros. apply Forall_app; auto. Qed.
Lemma printable_numeral x : numeral x -> printable x.
Proof.
  intros (ds & _ & Hd & H). assert (printable ds) by (eapply Forall_impl; [|exact Hd]; unfold digit; cbv beta; intros; lia).
  destruct H as [-> | ->]; [assumption|constructor; [lia|assumption]].
Qed.
Lemma format_text n : forall t args, (length t <= n)%nat -> printable t -> Forall printable args -> printable (format t args).
Proof.
  induction n as [|n IH]; intros [|c t] args Hl Ht Ha; try (constructor; fail); [cbn in Hl; lia|].
  inversion Ht as [|? ? Hc Ht']; subst. cbn [length] in Hl.
  assert (Hstep : printable (c :: format t args)) by (constructor; [exact Hc|apply IH; [lia|exact Ht'|exact Ha]]).
  destruct (N.eq_dec c 123) as [-> |Hn].
  - destruct t as [|d t]; [exact Hstep|]. destruct (N.eq_dec d 125) as [-> |Hd].
    + cbn [format]. inversion Ht' as [|? ? Hd Ht'']; subst. cbn [length] in Hl. destruct args as [|a args].
      * repeat (constructor; [lia|]). apply IH; [lia|exact Ht''|constructor].
      * inversion Ha; subst. apply printable_app; [assumption|]. apply IH; [lia|exact Ht''|assumption].
    + assert (He : 123 :: format (d :: t) args = format (123 :: d :: t) args); [clear -Hd|exact (eq_ind _ printable Hstep _ He)].
      destruct d as [|q]; [reflexivity|]. repeat (destruct q as [q|q|]; try reflexivity; try lia).
  - assert (He : c :: format t args = format (c :: t) args); [clear -Hn|exact (eq_ind _ printable Hstep _ He)].
    destruct c as [|q]; [reflexivity|]. repeat (destruct q as [q|q|]; try reflexivity; try lia).
Qed.
Lemma filled_text texts x : forallb (fun t => printableb (lit t)) texts = true -> filled texts x -> printable x.
Proof.
  intros Ht (t & args & Hi & _ & Hn & ->). rewrite forallb_forall in Ht. apply (format_text (length (lit t))); [lia|apply printableb_true, Ht, Hi|].
  eapply Forall_impl; [|exact Hn]. apply printable_numeral.
Qed.
Lemma bars_text l : Forall (fun n => printable (lit n)) l -> printable (with_bars l).
Proof.
  induction 1 as [|n l Hn Hl IH]; cbn [with_bars]; [constructor|]. destruct l; [exact Hn|]. apply printable_app; [exact Hn|].
  apply printable_app; [apply printableb_true; reflexivity|exact IH].
Qed.
Lemma some_of_in l ns n : some_of l ns -> In n l -> In n ns.
Proof. induction 1; cbn; intuition. Qed.
Lemma own_text x : own_message x -> printable x.
Proof.
  intros [H|(l & Hl & ->)]; [apply (filled_text message_texts); [vm_compute; reflexivity|exact H]|].
  apply (format_text 200); [cbv; lia|apply printableb_true; vm_compute; reflexivity|]. constructor; [|constructor]. apply bars_text, Forall_forall.
  intros n Hn. apply (some_of_in _ _ _ Hl) in Hn. assert (Hf : forallb (fun t => printableb (lit t)) flag_names = true) by (vm_compute; reflexivity).
  rewrite forallb_forall in Hf. apply printableb_true, Hf, Hn.
Qed.
Lemma display_text cs : forall k, printable k -> Forall printable cs -> printable (display_contexts k cs).
Proof.
  induction cs as [|c cs IH]; intros k Hk H; cbn [display_contexts]; [constructor|]. inversion H; subst.
  repeat (apply printable_app; [assumption|]). apply IH; [apply printableb_true; reflexivity|assumption].
Qed.

(** An error is printed on one line of printable ASCII, unless the file chose part of its message. *)
Theorem C70_one_line : forall E opts bs e, parse_class_with_options E opts bs = Err e ->
  printable (display_err e) \/ tag_message (msg e) \/ super_message (msg e) \/ msg e = cesu8_err E.
Proof.
  intros E opts bs e H. destruct (C70_known_texts E opts bs e H) as [[Hm|Hm] Hc]; [left|right; exact Hm].
  unfold display_err. apply printable_app; [apply own_text, Hm|]. apply display_text; [apply printableb_true; reflexivity|].
  eapply Forall_impl; [|exact Hc]. intro. apply filled_text. vm_compute. reflexivity.
Qed.

(** ** The other cases are reached, with characters that are not printable *)
Definition bad_module : list byte := Eval vm_compute in unhex "cafebabe00000035000501000b6d6f64756c652d696e666f070001010003610a620700038000000200040000000000000000".
Definition bad_tag : list byte := Eval vm_compute in unhex "cafebabe000000340006010001410700010100106a6176612f6c616e672f4f626a656374070003010011416e6e6f746174696f6e44656661756c7400210002000400000000000000010005000000010a".
Definition bad_extension : list byte := Eval vm_compute in unhex "cafebabe000000340006010001410700010100106a6176612f6c616e672f4f626a656374070003010014536f757263654465627567457874656e73696f6e002100020004000000000000000100050000000180".
Definition line_feed : char := 10.
Theorem C70_super_example : exists e, parse_class debug64 bad_module = Err e
  /\ msg e = lit "Found non-empty super_class a" ++ [line_feed] ++ lit "b; expected none for module" /\ super_message (msg e).
Proof. eexists. split; [vm_compute; reflexivity|]. split; [reflexivity|]. exists (lit "a" ++ [line_feed] ++ lit "b"). reflexivity. Qed.
Theorem C70_tag_example : exists e, parse_class debug64 bad_tag = Err e
  /\ msg e = lit "Unrecognized discriminant " ++ [line_feed] /\ tag_message (msg e)
  /\ contexts e = [lit "AnnotationDefault attribute 0"; lit "class"].
Proof. eexists. split; [vm_compute; reflexivity|]. split; [reflexivity|]. split; [exists line_feed; split; reflexivity|reflexivity]. Qed.
Theorem C70_cesu8_example : exists e, parse_class debug64 bad_extension = Err e
  /\ msg e = cesu8_err debug64 /\ contexts e = [lit "modified utf8 data of SourceDebugExtension attribute 0"; lit "class"].
Proof. eexists. split; [vm_compute; reflexivity|]. split; reflexivity. Qed.
