(** * Property theorems: names, descriptors, errors (C13 C14 C15 C18 C37).

    Vocabulary: [S_Names] (grammars as sets of strings), [Base] (outcomes). *)
From Verif Require Import Base M_Names M_Descriptors S_Names P_Names P_Descriptors.
From Coq Require Import ZifyBool ZifyNat ZifyN.

(** ** C13 *)
(** The public prefix parser: on every string it returns the descriptor whose text
    the string starts with, or an error if there is none. *)
Theorem C13_field_descriptor_parser s d :
  parse_field_descriptor s 0 = Ok d <-> field_valid d /\ exists rest, s = field_text d ++ rest.
Proof. exact (decides_iff _ _ (parse_field_descriptor_0 s) d). Qed.
Print Assumptions C13_field_descriptor_parser.

Theorem C13_field_descriptor_parser_total s :
  (exists d, parse_field_descriptor s 0 = Ok d) \/ (exists e, parse_field_descriptor s 0 = Err e).
Proof. pose proof (parse_field_descriptor_0 s) as H. destruct (parse_field_descriptor s 0); simpl in H; eauto; contradiction. Qed.
Print Assumptions C13_field_descriptor_parser_total.

(** Recognition of whole strings. *)
Theorem C13_field_descriptor_recognition s :
  exists b, is_field_descriptor s = Ok b /\ (b = true <-> field_descriptor s).
Proof. exact (is_field_descriptor_spec s). Qed.
Print Assumptions C13_field_descriptor_recognition.

Theorem C13_array_descriptor_recognition s :
  exists b, is_array_descriptor s = Ok b /\ (b = true <-> array_descriptor s).
Proof. exact (is_array_descriptor_spec s). Qed.
Print Assumptions C13_array_descriptor_recognition.

Example C13_meets : field_descriptor (lit "[[Ljava/lang/Object;") /\ ~ field_descriptor (lit "[[Ljava//Object;").
Proof.
  split.
  - destruct (is_field_descriptor_spec (lit "[[Ljava/lang/Object;")) as (b & Hb & H). apply H.
    vm_compute in Hb. congruence.
  - intro Hd. destruct (is_field_descriptor_spec (lit "[[Ljava//Object;")) as (b & Hb & H). apply H in Hd.
    vm_compute in Hb. congruence.
Qed.
Example C13_256_brackets : is_field_descriptor (repeat (ch "[") 255 ++ lit "I") = Ok true
  /\ is_field_descriptor (repeat (ch "[") 256 ++ lit "I") = Ok false.
Proof. split; vm_compute; reflexivity. Qed.

(** ** C14 *)
Theorem C14_method_descriptor_recognition s :
  exists b, is_method_descriptor s = Ok b /\ (b = true <-> method_descriptor s).
Proof. exact (is_method_descriptor_spec s). Qed.
Print Assumptions C14_method_descriptor_recognition.

(** The value lists exactly the parameters and the return type of the text. *)
Theorem C14_method_descriptor_parser s d :
  parse_method_descriptor s 0 = Ok d <->
  method_valid d /\ exists rest, s = method_text d ++ rest /\ (return_type d = RVoid -> rest = []).
Proof. exact (decides_iff _ _ (parse_method_descriptor_spec s) d). Qed.
Print Assumptions C14_method_descriptor_parser.

Theorem C14_method_descriptor_parser_total s :
  (exists d, parse_method_descriptor s 0 = Ok d) \/ (exists e, parse_method_descriptor s 0 = Err e).
Proof. pose proof (parse_method_descriptor_spec s) as H. destruct (parse_method_descriptor s 0); simpl in H; eauto; contradiction. Qed.
Print Assumptions C14_method_descriptor_parser_total.

Theorem C14_return_descriptor_recognition s :
  exists b, is_return_descriptor s = Ok b /\ (b = true <-> return_descriptor s).
Proof. exact (is_return_descriptor_spec s). Qed.
Print Assumptions C14_return_descriptor_recognition.

Example C14_meets : exists d, parse_method_descriptor (lit "(IDLjava/lang/Thread;)Ljava/lang/Object;") 0 = Ok d
  /\ parameters d = [mk_fd 0 FInteger; mk_fd 0 FDouble; mk_fd 0 (FObject (lit "java/lang/Thread"))].
Proof. eexists. split; vm_compute; reflexivity. Qed.

(** ** C15: formatting and parsing *)
Lemma valid_prefix d : field_valid d -> field_prefix (field_text d) d.
Proof. intro H. split; auto. exists []. rewrite app_nil_r; auto. Qed.
Lemma valid_method_prefix d : method_valid d -> method_prefix (method_text d) d.
Proof. intro H. split; auto. exists []. rewrite app_nil_r; auto. Qed.

Theorem C15_field_descriptor_display_parse s d :
  parse_field_descriptor s 0 = Ok d -> parse_field_descriptor (show_field_desc d) 0 = Ok d.
Proof.
  intro H. apply C13_field_descriptor_parser in H. rewrite show_field_text.
  apply C13_field_descriptor_parser, valid_prefix, H.
Qed.
Print Assumptions C15_field_descriptor_display_parse.

Theorem C15_field_descriptor_parse_display s d :
  parse_field_descriptor s 0 = Ok d -> is_field_descriptor s = Ok true -> show_field_desc d = s.
Proof.
  intros H Hw. unfold is_field_descriptor in Hw. rewrite H in Hw. cbn [ok_and] in Hw.
  apply C13_field_descriptor_parser in H. destruct H as (_ & rest & ->).
  rewrite field_byte_len in Hw. injection Hw as Hw. apply prefix_len_eq in Hw. subst rest.
  rewrite show_field_text, app_nil_r. reflexivity.
Qed.
Print Assumptions C15_field_descriptor_parse_display.

Theorem C15_method_descriptor_display_parse s d :
  parse_method_descriptor s 0 = Ok d -> parse_method_descriptor (show_method_desc d) 0 = Ok d.
Proof.
  intro H. apply C14_method_descriptor_parser in H. rewrite show_method_text.
  apply C14_method_descriptor_parser, valid_method_prefix, H.
Qed.
Print Assumptions C15_method_descriptor_display_parse.

Theorem C15_method_descriptor_parse_display s d :
  parse_method_descriptor s 0 = Ok d -> is_method_descriptor s = Ok true -> show_method_desc d = s.
Proof.
  intros H Hw. unfold is_method_descriptor in Hw. rewrite H in Hw. cbn [ok_and] in Hw.
  apply C14_method_descriptor_parser in H. destruct H as (_ & rest & -> & _).
  rewrite method_byte_len in Hw. assert (Hb : forall b, Ok b = Ok true -> b = true) by (intros b [= ->]; auto).
  apply Hb, prefix_len_eq in Hw. subst rest.
  rewrite show_method_text, app_nil_r. reflexivity.
Qed.
Print Assumptions C15_method_descriptor_parse_display.

(** Formatting distinguishes descriptors. *)
Theorem C15_display_injective d1 d2 :
  field_valid d1 -> field_valid d2 -> show_field_desc d1 = show_field_desc d2 -> d1 = d2.
Proof.
  intros H1 H2 He. rewrite !show_field_text in He.
  pose proof (proj2 (C13_field_descriptor_parser _ _) (valid_prefix _ H1)) as P1.
  pose proof (proj2 (C13_field_descriptor_parser _ _) (valid_prefix _ H2)) as P2.
  rewrite He in P1. congruence.
Qed.
Print Assumptions C15_display_injective.

Example C15_meets : exists d, parse_method_descriptor (lit "([[JLa/b;)V") 0 = Ok d
  /\ show_method_desc d = lit "([[JLa/b;)V" /\ is_method_descriptor (lit "([[JLa/b;)V") = Ok true.
Proof. eexists. repeat split; vm_compute; reflexivity. Qed.

(** ** C18: ClassName::try_from *)
(** The full property is false: it accepts the empty string and a trailing slash. *)
Theorem C18_class_name_refuted :
  ~ (forall s, (exists r, class_name_try_from s = Ok r) <-> class_name s).
Proof.
  intro H. assert (Hc : class_name []) by (apply H; exists []; vm_compute; reflexivity).
  destruct Hc as (segs & Hne & Hf & He). destruct segs as [|a [|b segs]]; [contradiction| |].
  - inversion Hf as [|? ? [Ha _] _]. simpl in He. congruence.
  - cbn [slashes] in He. symmetry in He. apply app_eq_nil in He. destruct He as [-> _].
    inversion Hf as [|? ? [Ha _] _]. congruence.
Qed.
Print Assumptions C18_class_name_refuted.

(** What it does accept: exactly the binary class names, the empty string, and a
    binary class name followed by one slash; and it returns its argument. *)
Theorem C18_class_name_partial s r :
  class_name_try_from s = Ok r <->
  r = s /\ (s = [] \/ class_name s \/ exists t, s = t ++ lit "/" /\ class_name t).
Proof. exact (decides_iff _ _ (class_name_try_from_spec s) r). Qed.
Print Assumptions C18_class_name_partial.
Theorem C18_class_name_total s :
  (exists r, class_name_try_from s = Ok r) \/ (exists e, class_name_try_from s = Err e).
Proof. pose proof (class_name_try_from_spec s) as H. destruct (class_name_try_from s); simpl in H; eauto; contradiction. Qed.
Print Assumptions C18_class_name_total.
Example C18_trailing_slash : class_name_try_from (lit "a/") = Ok (lit "a/").
Proof. vm_compute. reflexivity. Qed.
Example C18_ordinary : class_name_try_from (lit "java/lang/Object") = Ok (lit "java/lang/Object").
Proof. vm_compute. reflexivity. Qed.

(** ** C37: error text *)
(** Specification: the message, then " for " and the first context, then " of " before each other. *)
Definition error_text (m : str) (cs : list str) : str :=
  match cs with
  | [] => m
  | c :: outer => m ++ lit " for " ++ c ++ concat (map (fun x => lit " of " ++ x) outer)
  end.

Lemma display_contexts_of cs : display_contexts (lit " of ") cs = concat (map (fun x => lit " of " ++ x) cs).
Proof. induction cs as [|c cs IH]; cbn [display_contexts map concat]; [reflexivity|]. rewrite IH, <- app_assoc. reflexivity. Qed.

Theorem C37_display m cs :
  display_err (fold_left with_context cs (new_err m)) = error_text m cs.
Proof.
  assert (H : forall l e, fold_left with_context l e = mk_perr (msg e) (contexts e ++ l)).
  { induction l as [|c l IH]; intro e; cbn [fold_left]; [rewrite app_nil_r; destruct e; reflexivity|].
    rewrite IH. unfold with_context. cbn [msg contexts]. rewrite <- app_assoc. reflexivity. }
  rewrite H. unfold display_err, new_err. cbn [msg contexts app].
  destruct cs as [|c cs]; cbn [display_contexts error_text]; [apply app_nil_r|].
  rewrite display_contexts_of. reflexivity.
Qed.
Print Assumptions C37_display.

(** Adding a context only appends text. *)
Theorem C37_context_appends e c : exists connector,
  (connector = lit " for " \/ connector = lit " of ") /\
  display_err (with_context e c) = display_err e ++ connector ++ c.
Proof.
  assert (H : forall cs conn, display_contexts conn (cs ++ [c]) =
    display_contexts conn cs ++ (match cs with [] => conn | _ => lit " of " end) ++ c).
  { induction cs as [|x cs IH]; intro conn; cbn [app display_contexts]; [rewrite app_nil_r; reflexivity|].
    rewrite IH, <- !app_assoc. destruct cs; reflexivity. }
  exists (match contexts e with [] => lit " for " | _ => lit " of " end). split.
  { destruct (contexts e); auto. }
  unfold display_err, with_context. cbn [msg contexts]. rewrite H, <- app_assoc. reflexivity.
Qed.
Print Assumptions C37_context_appends.
Example C37_meets : display_err (fold_left with_context [lit "name"; lit "field 3"; lit "class file"] (new_err (lit "boom")))
  = lit "boom for name of field 3 of class file".
Proof. vm_compute. reflexivity. Qed.
