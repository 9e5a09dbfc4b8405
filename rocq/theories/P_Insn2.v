(** * [read_insn] reads [insn_lang] *)
From Verif Require Import Base M_Names M_Descriptors M_ConstantPool M_Bytecode S_Lang S_Names S_Format
  P_Reads P_Tac P_Names P_Descriptors P_Pool P_Pool2 P_Pool3 P_Refs P_Insn.
From Coq Require Import ZifyBool ZifyNat ZifyN.

Lemma reads_reads_at {A} E ix (p : parser A) L : reads E p L -> reads_at E ix p L.
Proof. intro H; apply H. Qed.

Section WithEnv.
Variable E : env.
Variable cs : list constant.
Notation dec := (cesu8 E).
Notation wraps := (negb (overflow_checks E)).
Notation sl := (slots_of cs).
Notation P := (pool_of dec sl).

Lemma reads_ldc1 {A} (f : loadable -> A) : reads E (i <- read_u1 ;; l <- lift (get_cp_loadable P i) ;; ret (f l))
  (fun a w => exists l, a = f l /\ ref1 (loadable_at dec sl) l w).
Proof.
  eapply reads_ext; [rd|]. intros a w. split.
  - intro H. fwd. eexists; split; [reflexivity|]. unfold ref1, any. eexists; split; [eassumption|].
    apply get_cp_loadable_Ok; auto.
  - intros (l & -> & i & Hi & H). apply get_cp_loadable_Ok in H.
    exists i. apply (cat_nil_r _ True) in Hi; auto. destruct Hi as (u & v & -> & Hu & -> & _).
    apply cat_intro; auto. exists l. split; auto. split; auto.
Qed.
Lemma reads_ldc2 {A} (f : loadable -> A) : reads E (i <- read_u2 ;; l <- lift (get_cp_loadable P i) ;; ret (f l))
  (fun a w => exists l, a = f l /\ ref (loadable_at dec sl) l w).
Proof.
  eapply reads_ext; [rd|]. intros a w. split.
  - intro H. fwd. eexists; split; [reflexivity|]. unfold ref, any. eexists; split; [eassumption|].
    apply get_cp_loadable_Ok; auto.
  - intros (l & -> & i & Hi & H). apply get_cp_loadable_Ok in H.
    exists i. apply (cat_nil_r _ True) in Hi; auto. destruct Hi as (u & v & -> & Hu & -> & _).
    apply cat_intro; auto. exists l. split; auto. split; auto.
Qed.

Lemma reads_invokeinterface : reads E (read_invokeinterface P)
  (fun op w => exists m c, op = OpInvokeinterface m c /\
     (ref (member_ref_at dec sl [KInterfaceMethod]) m +++ u1 c +++ u1 0) w).
Proof.
  unfold read_invokeinterface. eapply reads_ext.
  - eapply reads_bind; [apply reads_interfacemethodref|]. intros m _.
    eapply reads_bind; [apply reads_u1|]. intros c _.
    eapply reads_bind; [apply reads_u1|]. intros z _.
    instantiate (1 := fun z a => only_if (z = 0 /\ a = OpInvokeinterface m c)).
    destruct (N.eqb_spec z 0); cbn [negb].
    + eapply reads_ext; [apply reads_ret|]. unfold only_if. intuition.
    + eapply reads_ext; [apply reads_pfail_at|]. unfold only_if. intuition.
  - intros a w. split; intro H; fwd; bwd.
Qed.
Lemma reads_invokedynamic_insn : reads E (read_invokedynamic_insn P)
  (fun op w => exists d, op = OpInvokedynamic d /\ (ref (invoke_dynamic_at dec sl) d +++ u2 0) w).
Proof.
  unfold read_invokedynamic_insn. eapply reads_ext.
  - eapply reads_bind; [apply reads_cp_invokedynamic|]. intros m _.
    eapply reads_bind; [apply reads_u2|]. intros z _.
    instantiate (1 := fun z a => only_if (z = 0 /\ a = OpInvokedynamic m)).
    destruct (N.eqb_spec z 0); cbn [negb].
    + eapply reads_ext; [apply reads_ret|]. unfold only_if. intuition.
    + eapply reads_ext; [apply reads_pfail_at|]. unfold only_if. intuition.
  - intros a w. split; intro H; fwd; bwd.
Qed.

(** [x <- p ;; ret (f x)] *)
Lemma reads_one {A B} (p : parser A) (f : A -> B) L : reads E p L ->
  reads E (x <- p ;; ret (f x)) (fun b w => exists a, b = f a /\ L a w).
Proof.
  intro H. eapply reads_ext; [eapply reads_bind; [exact H|intros; apply reads_ret]|]. intros b w. split; intro H1; fwd; bwd.
Qed.
Lemma reads_two {A A' B} (p : parser A) (q : parser A') (f : A -> A' -> B) L M : reads E p L -> reads E q M ->
  reads E (x <- p ;; y <- q ;; ret (f x y)) (fun b w => exists a a', b = f a a' /\ (L a +++ M a') w).
Proof.
  intros H H'. eapply reads_ext; [eapply reads_bind; [exact H|intros; eapply reads_bind; [exact H'|intros; apply reads_ret]]|]. intros b w. split; intro H1; fwd; bwd.
Qed.

Definition leaf (op : opcode) : opcode -> lang := fun a w => a = op /\ w = [].
Lemma reads_leaf op : reads E (ret op) (leaf op).
Proof. eapply reads_ext; [apply reads_ret|]. unfold leaf, only_if. intuition. Qed.

Ltac sub :=
  lazymatch goal with
  | |- reads _ read_u1 _ => apply reads_u1
  | |- reads _ read_u2 _ => apply reads_u2
  | |- reads _ read_u4 _ => apply reads_u4
  | |- reads _ (read_cp_memberref _ T_FIELD_REF) _ => apply reads_fieldref
  | |- reads _ (read_cp_memberref _ T_METHOD_REF) _ => apply reads_methodref
  | |- reads _ (read_cp_memberref _ T_NEW_METHOD_REFS) _ => apply reads_anymethodref
  | |- reads _ (read_cp_classinfo _) _ => apply reads_cp_classinfo
  | |- reads _ (read_cp_object_array_type _) _ => apply reads_cp_object_array_type
  end.
Ltac leafrd o :=
  lazymatch goal with
  | |- reads_at _ _ (read_tableswitch _) _ => apply reads_tableswitch
  | |- reads_at _ _ (read_lookupswitch _) _ => apply reads_lookupswitch
  | |- reads_at _ _ _ _ => apply reads_reads_at;
    lazymatch goal with
    | |- reads _ (ret _) _ => apply reads_leaf
    | |- reads _ (pfail_at _) _ => apply reads_pfail_at
    | |- reads _ (read_wide) _ => apply reads_wide
    | |- reads _ (read_newarray) _ => apply reads_newarray
    | |- reads _ (read_invokeinterface _) _ => apply reads_invokeinterface
    | |- reads _ (read_invokedynamic_insn _) _ => apply reads_invokedynamic_insn
    | |- reads _ (bind _ (fun _ => bind (lift _) _)) _ => first [apply reads_ldc1 | apply reads_ldc2]
    | |- reads _ (bind _ (fun _ => bind _ _)) _ => apply reads_two; sub
    | |- reads _ (bind _ _) _ => apply reads_one; sub
    end
  end.


Ltac val := first [ assumption | apply u1_s1; assumption | apply u2_s2; assumption | apply u4_s4; assumption ].
Ltac snd_one :=
  cbn [insn_lang]; unfold op0, jump, local, alt;
  first [ apply u1_byte; reflexivity
        | apply u1_cons_intro; [reflexivity|]; val
        | apply u1_cons_intro; [reflexivity|]; apply cat_intro; val
        | left; apply u1_cons_intro; [reflexivity|]; val
        | left; apply u1_cons_intro; [reflexivity|]; apply cat_intro; val
        | right; apply u1_cons_intro; [reflexivity|]; val
        | right; left; apply cat_nil_r; [apply u1_byte; reflexivity|lia] ].

Lemma wide_sound o op (b : byte) w : Byte.to_N b = 0xc4 -> wide_lang op w -> insn_lang dec sl wraps o op (b :: w).
Proof.
  intros Hb H. destruct op; cbn [wide_lang] in H; try contradiction;
  cbn [insn_lang]; unfold local, alt; right; first [apply u1_cons_intro; assumption | right; apply u1_cons_intro; assumption].
Qed.

Lemma u1_cons_byte (n : N) (L : lang) w : (u1 n +++ L) w ->
  exists b w', w = b :: w' /\ Byte.of_N n = Some b /\ L w'.
Proof.
  intro H. apply u1_cons in H. destruct H as (b & w' & -> & <- & H). exists b, w'. rewrite Byte.of_to_N. auto.
Qed.
Lemma cases4 i : i <= 3 -> i = 0 \/ i = 1 \/ i = 2 \/ i = 3.
Proof. lia. Qed.

(** One iteration after its first byte. *)
Definition insn_body : N -> parser opcode :=
  ltac:(let t := eval cbv delta [read_insn] in (read_insn E P) in
        let t := eval cbv beta in t in
        match t with bind _ ?f => exact f end).
Lemma read_insn_body : read_insn E P = bind read_u1 insn_body.
Proof. reflexivity. Qed.

(** What follows each opcode byte. *)
Definition after (o : N) (b : byte) : { M | reads_at E (o + 1) (insn_body (Byte.to_N b)) M }.
Proof.
  destruct b; cbn [Byte.to_N insn_body]; (eexists; leafrd o).
Defined.
Definition after_lang o b := proj1_sig (after o b).

Lemma after_sound o b op w : after_lang o b op w -> insn_lang dec sl wraps o op (b :: w).
Proof.
  intro H. destruct b; lazy beta iota zeta delta [after_lang after proj1_sig] in H.
    all: try contradiction.
    all: try (destruct H as [-> ->]; snd_one).
    all: try (destruct H as (? & -> & H); snd_one).
    all: try (destruct H as (? & ? & -> & H); destruct H as (? & ? & -> & ? & H); snd_one).
    + destruct H as (u & v & -> & Hu & t & -> & H). cbn [insn_lang]. apply u1_cons_intro; [reflexivity|].
      apply cat_intro; assumption.
    + destruct H as (u & v & -> & Hu & t & -> & H). cbn [insn_lang]. apply u1_cons_intro; [reflexivity|].
      apply cat_intro; assumption.
    + apply wide_sound; auto.
Qed.
Lemma after_complete o op w : insn_lang dec sl wraps o op w -> exists b w', w = b :: w' /\ after_lang o b op w'.
Proof.
  intro H. destruct op; cbn [insn_lang] in H; unfold op0, jump, local, alt in H;
    repeat match type of H with _ \/ _ => destruct H as [H|H] end;
    try (apply cat_only_r in H; destruct H as [H Hi]; apply cases4 in Hi; destruct Hi as [Hi|[Hi|[Hi|Hi]]]; subst);
    lazymatch type of H with
    | u1 _ _ => apply (cat_nil_r _ True) in H; [|exact I]
    | _ => idtac
    end;
    apply u1_cons_byte in H; destruct H as (b & w' & -> & Hb & H); exists b, w'; (split; [reflexivity|]);
    vm_compute in Hb; injection Hb as <-; lazy beta iota zeta delta [after_lang after proj1_sig].
    all: try (destruct H as [-> _]; split; reflexivity).
    all: try (eexists; split; [reflexivity|assumption]).
    all: try (apply s1_u1 in H; destruct H as (? & H & ->); eexists; split; [reflexivity|assumption]).
    all: try (apply s2_u2 in H; destruct H as (? & H & ->); eexists; split; [reflexivity|assumption]).
    all: try (apply s4_u4 in H; destruct H as (? & H & ->); eexists; split; [reflexivity|assumption]).
    all: try assumption.
    + destruct H as (u & v & -> & H1 & H). apply s1_u1 in H. destruct H as (? & H & ->).
      do 2 eexists. split; [reflexivity|]. apply cat_intro; assumption.
    + do 2 eexists. split; [reflexivity|]. assumption.
    + destruct H as (u & v & -> & H1 & H). apply cat_intro; [assumption|]. eexists. split; [reflexivity|assumption].
    + do 2 eexists. split; [reflexivity|]. assumption.
    + destruct H as (u & v & -> & H1 & H). apply cat_intro; [assumption|]. eexists. split; [reflexivity|assumption].
Qed.

Lemma reads_insn o : reads_at E o (read_insn E P) (insn_lang dec sl wraps o).
Proof.
  rewrite read_insn_body. apply reads_at_tagged.
  - intro b. exists (after_lang o b). split; [exact (proj2_sig (after o b))|]. intros op w. apply after_sound.
  - intros op w H. apply after_complete in H. destruct H as (b & w' & -> & H). exists b, w'. split; [reflexivity|].
    exists (after_lang o b). split; [exact (proj2_sig (after o b))|exact H].
Qed.
End WithEnv.
