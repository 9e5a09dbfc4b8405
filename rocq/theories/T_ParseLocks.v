(** * C45: parsing with the threadsafe feature. *)
From Verif Require Import Base M_Names M_Descriptors M_ConstantPool M_Bytecode M_Attributes M_Class M_Cesu8 M_Locks M_ParseLocks Data
  S_Lang S_Names S_Format S_Pool S_Items S_Env S_Safe P_Tac P_Pool2 P_Pool3 P_Pool4 P_Safe P_Locks P_ParseLocks T_Safe T_Members.
From Coq Require Import ZifyBool ZifyNat ZifyN.

(** The functions that read a reference into the pool: whatever the pool and the input, locking changes nothing. *)
Ltac reading f := rewrite (read_through _ _ f); [unfold read_cp_classinfo, read_cp_classinfo_opt, read_cp_moduleinfo, read_cp_packageinfo, read_cp_nameandtype_opt, read_cp_literalconstant, read_cp_memberref, read_cp_invokedynamic, read_cp_methodhandle, read_cp_bootstrap_argument, read_cp_object_array_type; unfold bind; destruct (read_cp_ref_any _ _ _) as [[e ix']| | |]; [|reflexivity..]; destruct e; cbn -[peel_utf8 peel string_literal make_method_handle make_member_ref get_name_and_type parse_array_descriptor]; unfold lift, ret, bind, bad_type, pfail, fail;
  repeat match goal with
  | |- context [ensure_type ?x ?y] => destruct (ensure_type x y); cbn -[peel_utf8 peel string_literal make_method_handle make_member_ref get_name_and_type parse_array_descriptor]
  | |- context [peel_utf8 ?p ?x] => destruct (peel_utf8 p x); cbn -[parse_array_descriptor peel_utf8]
  | |- context [peel ?p ?x] => destruct (peel p x); cbn -[string_literal get_name_and_type]
  | |- context [string_literal ?x] => destruct (string_literal x); cbn
  | |- context [get_name_and_type ?p ?x] => destruct (get_name_and_type p x); cbn
  | |- context [make_method_handle ?p ?x ?y] => destruct (make_method_handle p x y); cbn
  | |- context [make_member_ref ?p ?x ?y] => destruct (make_member_ref p x y); cbn
  | |- context [parse_array_descriptor ?x] => destruct (parse_array_descriptor x) as [[]| | |]; cbn
  end; reflexivity|].
Theorem C45_reads p allowed cp_index bs ix :
  read_g p (on_classinfo p) bs ix = Through (read_cp_classinfo p bs ix)
  /\ read_g p (on_classinfo_opt p) bs ix = Through (read_cp_classinfo_opt p bs ix)
  /\ read_g p (on_moduleinfo p) bs ix = Through (read_cp_moduleinfo p bs ix)
  /\ read_g p (on_packageinfo p) bs ix = Through (read_cp_packageinfo p bs ix)
  /\ read_g p (on_nameandtype_opt p) bs ix = Through (read_cp_nameandtype_opt p bs ix)
  /\ read_g p (on_literal p) bs ix = Through (read_cp_literalconstant p bs ix)
  /\ read_g p (on_memberref p allowed) bs ix = Through (read_cp_memberref p allowed bs ix)
  /\ read_g p (on_invokedynamic p) bs ix = Through (read_cp_invokedynamic p bs ix)
  /\ read_g p (on_methodhandle p) bs ix = Through (read_cp_methodhandle p bs ix)
  /\ read_g p (on_bootstrap_argument p) bs ix = Through (read_cp_bootstrap_argument p bs ix)
  /\ read_g p (on_object_array_type p) bs ix = Through (read_cp_object_array_type p bs ix)
  /\ get_loadable_g p cp_index = Through (get_cp_loadable p cp_index).
Proof.
  assert (Hu : forall i e b r, at_p p i e -> utf8_g p (i, b) r [] = Through (peel_utf8 p r)) by (intros; eapply utf8_through; eauto; apply above_nil).
  assert (Hl : forall i e b r, at_p p i e -> literal_g p (i, b) r [] = Through (let* t := peel p r in string_literal t)) by (intros; eapply literal_through; eauto; apply above_nil).
  assert (Hg : forall A B (m : guarded A) (k : A -> B) o, m [] = Through o -> (lets a := m in simply (Ok (k a))) [] = Through (let* a := o in Ok (k a))).
  { intros A B m k o H. apply gbind_through; auto. }
  split; [|split; [|split; [|split; [|split; [|split; [|split; [|split; [|split; [|split; [|split]]]]]]]]]].
  - reading (fun e => match e with EClassInfo x => peel_utf8 p x | _ => fail (lit "Unexpected constant pool reference type") end).
    intros i e Hi. destruct e; try reflexivity. eapply Hu; eauto.
  - reading (fun e => match e with EZero => Ok None | EClassInfo x => let* s := peel_utf8 p x in Ok (Some s) | _ => fail (lit "Unexpected constant pool reference type") end).
    intros i e Hi. destruct e; try reflexivity. apply Hg. eapply Hu; eauto.
  - reading (fun e => match e with EModuleInfo x => peel_utf8 p x | _ => fail (lit "Unexpected constant pool reference type") end).
    intros i e Hi. destruct e; try reflexivity. eapply Hu; eauto.
  - reading (fun e => match e with EPackageInfo x => peel_utf8 p x | _ => fail (lit "Unexpected constant pool reference type") end).
    intros i e Hi. destruct e; try reflexivity. eapply Hu; eauto.
  - reading (fun e => match e with EZero => Ok None | ENameAndType x y => let* n := peel_utf8 p x in let* d := peel_utf8 p y in Ok (Some (mk_nat n d)) | _ => fail (lit "Unexpected constant pool reference type") end).
    intros i e Hi. destruct e; try reflexivity. apply nt_through; auto. apply above_nil.
  - reading (fun e => match e with EInteger v => Ok (LInteger v) | EFloat v => Ok (LFloat v) | ELong v => Ok (LLong v) | EDouble v => Ok (LDouble v)
      | EString x => let* t := peel p x in string_literal t | _ => fail (lit "Unexpected constant pool reference type") end).
    intros i e Hi. destruct e; try reflexivity. eapply Hl; eauto.
  - reading (fun e => let* _ := ensure_type e allowed in match e with EFieldRef c m | EMethodRef c m | EInterfaceMethodRef c m => make_member_ref p c m | _ => fail (lit "Unexpected constant pool reference type") end).
    intros i e Hi. unfold on_memberref. apply gbind_through; [reflexivity|]. intros _ _.
    destruct e; try reflexivity; unfold make_member_ref; (eapply member_through; [exact Hi|reflexivity|apply above_nil]).
  - reading (fun e => match e with EInvokeDynamic x y => let* t := peel p y in let* nt := get_name_and_type p t in Ok (mk_indy x nt) | _ => fail (lit "Unexpected constant pool reference type") end).
    intros i e Hi. destruct e; try reflexivity. eapply described_through; [exact Hi|reflexivity].
  - reading (fun e => match e with EMethodHandle x y => make_method_handle p x y | _ => fail (lit "Unexpected constant pool reference type") end).
    intros i e Hi. destruct e; try reflexivity. eapply handle_through; [exact Hi|reflexivity].
  - reading (fun e => match e with EInteger v => Ok (BaLiteral (LInteger v)) | EFloat v => Ok (BaLiteral (LFloat v)) | ELong v => Ok (BaLiteral (LLong v)) | EDouble v => Ok (BaLiteral (LDouble v))
      | EString x => let* l := (let* t := peel p x in string_literal t) in Ok (BaLiteral l) | EClassInfo x => let* s := peel_utf8 p x in Ok (BaClassInfo s)
      | EMethodHandle x y => let* h := make_method_handle p x y in Ok (BaMethodHandle h) | EMethodType x => let* s := peel_utf8 p x in Ok (BaMethodType s)
      | _ => fail (lit "Unexpected constant pool reference type") end).
    intros i e Hi. destruct e; try reflexivity; apply Hg.
    + eapply Hu; eauto.
    + eapply Hl; eauto.
    + eapply handle_through; [exact Hi|reflexivity].
    + eapply Hu; eauto.
  - reading (fun e => match e with EClassInfo x => let* name := peel_utf8 p x in let* d := parse_array_descriptor name in
      Ok (match d with Some desc => OArrayType desc | None => OBinaryName name end) | _ => fail (lit "Unexpected constant pool reference type") end).
    intros i e Hi. destruct e; try reflexivity. apply gbind_through; [eapply Hu; eauto|]. intros name _. apply gbind_through; [reflexivity|]. intros; reflexivity.
  - unfold get_loadable_g, get_cp_loadable. destruct (pool_get p cp_index) as [e| | |] eqn:He; cbn [obind]; auto.
    assert (Hi : at_p p cp_index e).
    { unfold pool_get in He. destruct (plen p <=? cp_index); [discriminate|]. unfold at_p. destruct (nth_error p (N.to_nat cp_index)); congruence. }
    destruct e; try reflexivity; cbn [on_loadable].
    + apply Hg. eapply Hu; eauto.
    + rewrite (Hg _ _ _ LdLiteral _ (Hl _ _ false x Hi)). rewrite obind_assoc. reflexivity.
    + apply Hg. eapply handle_through; [exact Hi|reflexivity].
    + apply Hg. eapply Hu; eauto.
    + eapply described_through; [exact Hi|reflexivity].
Qed.

(** The whole parse, for all inputs and machines: with the feature it ends exactly as without, except that where it would overflow the stack
    it may wait for ever for a lock of its own. *)
Theorem C45_parse E opts bs :
  parse_threadsafe E opts bs = Through (parse_class_with_options E opts bs)
  \/ (parse_threadsafe E opts bs = SelfDeadlock /\ parse_class_with_options E opts bs = Panic PStackOverflow).
Proof.
  pose proof (to_pool_fails E opts bs) as H. unfold parse_threadsafe. fold (to_pool E). destruct (to_pool E bs 0) as [[[major p] ix]| | |]; [|left; congruence..].
  assert (Ha : agrees (validate_from_g p (stack E) major 0 p []) (fun s => validate_from s p major 0 p) (stack E)).
  { apply from_agrees. intros k e Hk. unfold at_p. rewrite N.add_0_l, Nat2N.id. exact Hk. }
  unfold validate_constant_pool in H. destruct Ha as [Ha|[Ha Hall]]; rewrite Ha.
  - left. destruct (validate_from (stack E) p major 0 p) as [[]| | |]; congruence.
  - right. rewrite Hall in H. auto.
Qed.
(** In particular every file that is accepted, or rejected with an error, is so with the feature. *)
Corollary C45_same E opts bs : parse_class_with_options E opts bs <> Panic PStackOverflow ->
  parse_threadsafe E opts bs = Through (parse_class_with_options E opts bs).
Proof. intro H. destruct (C45_parse E opts bs) as [H'|[_ H']]; [exact H'|contradiction]. Qed.
(** On a machine whose stack is as deep as the input is long the exception is exact, and is due to a cycle of NameAndTypes. *)
Theorem C45_waits E opts bs : ample E bs ->
  (parse_threadsafe E opts bs = SelfDeadlock <-> parse_class_with_options E opts bs = Panic PStackOverflow)
  /\ (parse_threadsafe E opts bs = SelfDeadlock -> exists cs c i, pool_in (wrapping E) bs cs /\ In c cs /\ method_constant c i /\ endless cs i).
Proof.
  intro Ham. assert (Hsd : parse_threadsafe E opts bs = SelfDeadlock -> parse_class_with_options E opts bs = Panic PStackOverflow).
  { intro H. destruct (C45_parse E opts bs) as [H'|[_ H']]; [congruence|exact H']. }
  split; [|intro H; apply (C04_only_cycles_partial E opts); auto]. split; [exact Hsd|]. intro Hp.
  destruct (C45_parse E opts bs) as [H|[H _]]; [|exact H]. exfalso. rewrite Hp in H. revert H. unfold parse_threadsafe. fold (to_pool E).
  destruct Ham as [Hs Hst]. pose proof (to_pool_ends E bs Hs) as He. destruct (to_pool E bs 0) as [[[major p] ix]| |x|] eqn:Ht; cbn [ends fst snd] in He.
  - destruct He as (cs & -> & Hin & Hlen). set (p := pool_of (cesu8 E) (slots_of cs)) in *.
    assert (Ha : forall k e, nth_error p k = Some e -> at_p p (0 + N.of_nat k) e) by (intros k e Hk; unfold at_p; rewrite N.add_0_l, Nat2N.id; exact Hk).
    pose proof (from_deep p (stack E) major ltac:(lia) p 0 Ha) as Hd. pose proof (from_agrees p (stack E) major p 0 Ha) as Hag.
    destruct (validate_from_g p (stack E) major 0 p []) as [[[]| | |]|]; try discriminate; try congruence.
    destruct Hag as [Hag|[Hag _]]; [|discriminate]. apply through_inj in Hag. symmetry in Hag. intros _.
    apply (validate_pool_Ok E (sane_stack _ _ Hs)) in Hag.
    destruct (C04_only_cycles_partial E opts bs (Build_ample _ _ Hs Hst) Hp) as (cs' & c & i & Hin' & Hc & Hm & Hend).
    rewrite (pool_in_unique _ _ _ _ Hin' Hin) in *. rewrite Forall_forall in Hag. specialize (Hag c Hc).
    destruct (Hend 2%nat) as (n1 & d1 & Hat1 & n2 & d2 & Hat2 & _).
    assert (Hdes : described (cesu8 E) (slots_of cs) i method_descriptor) by (destruct c; cbn [method_constant valid_constant] in *; try contradiction; subst; tauto).
    destruct Hdes as (n & d & s & H1 & (raw & H2 & _) & _). unfold at_index in *. congruence.
  - discriminate.
  - subst x. congruence.
  - contradiction.
Qed.
(** Such files exist; without the feature they overflow the stack (C04). *)
Theorem C45_deadlock_refuted : exists bs, ample debug64 bs /\ parse_threadsafe debug64 true bs = SelfDeadlock.
Proof. exists nt_cycle. split; [apply ampleb_ample; vm_compute; reflexivity|vm_compute; reflexivity]. Qed.
(** A class with bootstrap methods and an InvokeDynamic constant: the hypothesis of C45_same holds, and the class is accepted. *)
Example C45_same_meets : parse_class_with_options debug64 true indy_class <> Panic PStackOverflow
  /\ exists c, parse_threadsafe debug64 true indy_class = Through (Ok c).
Proof.
  destruct (parse_class_with_options debug64 true indy_class) as [c| | |] eqn:H; [|exfalso; revert H; vm_compute; discriminate..].
  split; [discriminate|]. exists c. rewrite <- H. apply C45_same. congruence.
Qed.
Example C45_waits_meets : ample debug64 indy_class /\ ample debug64 nt_cycle.
Proof. split; apply ampleb_ample; vm_compute; reflexivity. Qed.
