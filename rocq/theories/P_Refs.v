(** * Reading references into a valid constant pool. *)
From Verif Require Import Base M_Names M_Descriptors M_ConstantPool S_Lang S_Names S_Format
  P_Reads P_Tac P_Names P_Descriptors P_Pool P_Pool2 P_Pool3.
From Coq Require Import ZifyBool ZifyNat ZifyN.

Section WithEnv.
Variable dec : list byte -> option str.
Variable cs : list constant.
Let sl := slots_of cs.
Let P := pool_of dec sl.

Lemma peel_entry t e : peel P (Resolved t) = Ok e <-> entry_at dec cs t e.
Proof. apply peel_Ok. Qed.

Lemma entry_ex (Q : entry -> Prop) i : ~ Q EZero -> ~ Q EUnused ->
  (exists e, entry_at dec cs i e /\ Q e) <-> (exists c, at_index sl i c /\ Q (entry_of dec c)).
Proof.
  intros Hz Hu. split.
  - intros (e & He & HQ). apply entry_at_cases in He.
    destruct He as [[_ ->]|[[_ ->]|(c & Hc & ->)]]; try contradiction. eauto.
  - intros (c & Hc & HQ). exists (entry_of dec c). split; auto. apply at_index_entry; auto.
Qed.
Lemma peel_ex {A} (g : entry -> outcome A) i a : (g EZero <> Ok a) -> (g EUnused <> Ok a) ->
  (let* t := peel P (Resolved i) in g t) = Ok a <-> exists c, at_index sl i c /\ g (entry_of dec c) = Ok a.
Proof.
  intros Hz Hu. rewrite obind_Ok. rewrite <- (entry_ex (fun e => g e = Ok a)) by auto.
  split; intros (e & He & H); exists e; split; auto; apply peel_entry; auto.
Qed.

Lemma peel_utf8_Ok i s : peel_utf8 P (Resolved i) = Ok s <-> utf8_at dec sl i s.
Proof.
  unfold peel_utf8. rewrite peel_ex by discriminate. unfold utf8_at. split.
  - intros (c & Hc & H). destruct c; cbn [entry_of utf8] in H; try discriminate.
    exists raw. split; auto. destruct (dec raw); cbn [utf8] in H; [congruence|discriminate].
  - intros (raw & H & Hd). exists (CUtf8 raw). split; auto. cbn [entry_of]. rewrite Hd. reflexivity.
Qed.
Lemma classinfo_Ok i s : (let* t := peel P (Resolved i) in classinfo P t) = Ok s <-> class_at dec sl i s.
Proof.
  rewrite peel_ex by discriminate. unfold class_at. split.
  - intros (c & Hc & H). destruct c; cbn [entry_of classinfo] in H; try discriminate;
    [destruct (dec raw); discriminate|]. exists name. split; auto. apply peel_utf8_Ok. exact H.
  - intros (j & H & Hd). exists (CClass j). split; auto. apply peel_utf8_Ok in Hd. exact Hd.
Qed.
Lemma nat_pair_Ok n d nt :
  (let* x := peel_utf8 P (Resolved n) in let* y := peel_utf8 P (Resolved d) in Ok (mk_nat x y)) = Ok nt <->
  utf8_at dec sl n (nt_name nt) /\ utf8_at dec sl d (nt_descriptor nt).
Proof.
  rewrite obind_Ok. split.
  - intros (x & Hx & H). apply obind_Ok in H. destruct H as (y & Hy & [= <-]).
    apply peel_utf8_Ok in Hx. apply peel_utf8_Ok in Hy. auto.
  - intros (Hx & Hy). apply peel_utf8_Ok in Hx. apply peel_utf8_Ok in Hy.
    exists (nt_name nt). split; auto. apply obind_Ok. exists (nt_descriptor nt). split; auto.
    destruct nt; reflexivity.
Qed.
Lemma nt_Ok i nt : (let* t := peel P (Resolved i) in get_name_and_type P t) = Ok nt <-> name_and_type_at dec sl i nt.
Proof.
  rewrite peel_ex by discriminate. unfold name_and_type_at. split.
  - intros (c & Hc & H). destruct c; cbn [entry_of get_name_and_type] in H; try discriminate;
    [destruct (dec raw); discriminate|]. exists name, desc. split; auto. apply nat_pair_Ok. exact H.
  - intros (n & d & H & Hd). exists (CNameAndType n d). split; auto. apply nat_pair_Ok in Hd. exact Hd.
Qed.
Lemma string_Ok i l : (let* t := peel P (Resolved i) in string_literal t) = Ok l <->
  match l with
  | LString s => utf8_at dec sl i s
  | LStringBytes raw => at_index sl i (CUtf8 raw) /\ dec raw = None
  | _ => False
  end.
Proof.
  rewrite peel_ex by discriminate. split.
  - intros (c & Hc & H). destruct c; cbn [entry_of string_literal] in H; try discriminate.
    destruct (dec raw) eqn:Hd; cbn [string_literal] in H; injection H as <-; [exists raw|]; auto.
  - destruct l; try contradiction.
    + intros (raw & H & Hd). exists (CUtf8 raw). split; auto. cbn [entry_of]. rewrite Hd. reflexivity.
    + intros (H & Hd). exists (CUtf8 raw). split; auto. cbn [entry_of]. rewrite Hd. reflexivity.
Qed.

Lemma obind2_Ok {A B C} (m : outcome A) (g : A -> outcome B) (k : B -> outcome C) :
  (let* a := m in let* b := g a in k b) = (let* b := (let* a := m in g a) in k b).
Proof. destruct m; reflexivity. Qed.

Lemma member_ref_Ok c m r : make_member_ref P (Resolved c) (Resolved m) = Ok r <->
  class_at dec sl c (mr_class_name r) /\ name_and_type_at dec sl m (mr_name_and_type r).
Proof.
  unfold make_member_ref.
  rewrite (obind2_Ok (peel P (Resolved c)) (classinfo P)
    (fun cn => let* me := peel P (Resolved m) in let* nt := get_name_and_type P me in Ok (mk_mr cn nt))).
  rewrite obind_Ok. split.
  - intros (s & Hs & H). apply classinfo_Ok in Hs.
    rewrite (obind2_Ok (peel P (Resolved m)) (get_name_and_type P)) in H. apply obind_Ok in H.
    destruct H as (nt & Hn & [= <-]). apply nt_Ok in Hn. auto.
  - intros (Hs & Hn). exists (mr_class_name r). split; [apply classinfo_Ok; auto|].
    rewrite (obind2_Ok (peel P (Resolved m)) (get_name_and_type P)). apply obind_Ok.
    exists (mr_name_and_type r). split; [apply nt_Ok; auto|]. destruct r; reflexivity.
Qed.
Lemma handle_member_Ok k x c m h :
  (let* ce := peel P (Resolved c) in let* cn := classinfo P ce in
   let* me := peel P (Resolved m) in let* nt := get_name_and_type P me in Ok (mk_mh x cn k nt)) = Ok h <->
  mh_kind h = x /\ mh_member_kind h = k /\
  class_at dec sl c (mh_class_name h) /\ name_and_type_at dec sl m (mh_member_ref h).
Proof.
  rewrite (obind2_Ok (peel P (Resolved c)) (classinfo P)
    (fun cn => let* me := peel P (Resolved m) in let* nt := get_name_and_type P me in Ok (mk_mh x cn k nt))).
  rewrite obind_Ok. split.
  - intros (s & Hs & H). apply classinfo_Ok in Hs.
    rewrite (obind2_Ok (peel P (Resolved m)) (get_name_and_type P)) in H. apply obind_Ok in H.
    destruct H as (nt & Hn & [= <-]). apply nt_Ok in Hn. auto.
  - intros (<- & <- & Hs & Hn). exists (mh_class_name h). split; [apply classinfo_Ok; auto|].
    rewrite (obind2_Ok (peel P (Resolved m)) (get_name_and_type P)). apply obind_Ok.
    exists (mh_member_ref h). split; [apply nt_Ok; auto|]. destruct h; reflexivity.
Qed.
Lemma method_handle_Ok x y h : make_method_handle P x (Resolved y) = Ok h <->
  mh_kind h = x /\ member_at dec sl (mh_member_kind h) y (mh_class_name h) (mh_member_ref h).
Proof.
  unfold make_method_handle. rewrite peel_ex by discriminate. unfold member_at. split.
  - intros (c & Hc & H). destruct c; cbn [entry_of] in H; try discriminate H;
    [destruct (dec raw); discriminate H| | |];
    apply handle_member_Ok in H; destruct H as (Hx & Hk & H1 & H2); (split; [exact Hx|]);
    rewrite Hk; exists cls, nt; auto.
  - intros (Hx & c & m & Hc & H1 & H2). exists (member_constant (mh_member_kind h) c m). split; auto.
    destruct (mh_member_kind h) eqn:Hk; cbn [member_constant entry_of]; apply handle_member_Ok; auto.
Qed.

(** ** [read_cp_ref_any] and what is done with the entry *)
Variable E : env.

Lemma reads_pool_get : reads E (read_cp_ref_any P) (fun e w => exists i, u2 i w /\ entry_at dec cs i e).
Proof.
  unfold read_cp_ref_any. eapply reads_ext.
  - eapply reads_bind; [apply reads_u2|]. intros. apply reads_lift.
  - intros e w. split.
    + intros (i & u & v & -> & Hu & -> & H). rewrite app_nil_r. exists i. split; auto. apply plen_get. exact H.
    + intros (i & Hu & H). exists i. apply cat_nil_r; auto. apply plen_get. exact H.
Qed.

Lemma reads_cp {A} (f : entry -> parser A) (g : entry -> outcome A) (R : N -> A -> Prop) :
  (forall e bs ix, f e bs ix = lift (g e) bs ix) ->
  (forall a, g EZero <> Ok a) -> (forall a, g EUnused <> Ok a) ->
  (forall i a, (exists c, at_index sl i c /\ g (entry_of dec c) = Ok a) <-> R i a) ->
  reads E (bind (read_cp_ref_any P) f) (ref R).
Proof.
  intros Hf Hz Hu HR. eapply reads_ext.
  - eapply reads_bind; [apply reads_pool_get|].
    intros e _. instantiate (1 := fun e a => only_if (g e = Ok a)).
    intros ix bs a ix' Hfit Hix. rewrite Hf. apply (reads_lift E (g e)); auto.
  - intros a w. unfold ref, any. split.
    + intros (e & u & v & -> & (i & Hi & He) & -> & Hg). rewrite app_nil_r. exists i. split; auto.
      apply HR. apply (entry_ex (fun e => g e = Ok a)); eauto.
    + intros (i & Hi & HRi). apply HR in HRi. apply (entry_ex (fun e => g e = Ok a)) in HRi; auto.
      destruct HRi as (e & He & Hg). exists e. apply cat_nil_r; eauto.
Qed.

Lemma reads_cp_opt {A} (f : entry -> parser (option A)) (g : entry -> outcome A) (R : N -> A -> Prop) :
  (forall e bs ix, f e bs ix = match e with EZero => Ok (None, ix) | _ => lift (let* a := g e in Ok (Some a)) bs ix end) ->
  (forall a, g EUnused <> Ok a) ->
  (forall i a, (exists c, at_index sl i c /\ g (entry_of dec c) = Ok a) <-> R i a) ->
  reads E (bind (read_cp_ref_any P) f) (opt_ref R).
Proof.
  intros Hf Hu HR. eapply reads_ext.
  - eapply reads_bind; [apply reads_pool_get|].
    intros e _. instantiate (1 := fun e o => only_if (match e with EZero => o = None | _ => (let* a := g e in Ok (Some a)) = Ok o end)).
    intros ix bs o ix' Hfit Hix. rewrite Hf.
    destruct e; try (apply (reads_lift E (let* a := g _ in Ok (Some a))); auto).
    apply (reads_ret E None); auto.
  - intros o w. split.
    + intros (e & u & v & -> & (i & Hi & He) & -> & Hg). rewrite app_nil_r.
      apply entry_at_cases in He as He'. destruct He' as [[-> ->]|[[Hni ->]|(c & Hc & ->)]].
      * subst o. exact Hi.
      * apply obind_Ok in Hg. destruct Hg as (a & Ha & _). exfalso; eapply Hu; eauto.
      * assert (Hg' : (let* a := g (entry_of dec c) in Ok (Some a)) = Ok o).
        { destruct c; try exact Hg. cbn [entry_of] in *. destruct (dec raw); exact Hg. }
        apply obind_Ok in Hg'. destruct Hg' as (a & Ha & [= <-]). exists i. split; auto. apply HR. eauto.
    + intro Ho. destruct o as [a|]; cbn [opt_ref] in Ho.
      * destruct Ho as (i & Hi & HRi). apply HR in HRi. destruct HRi as (c & Hc & Ha).
        exists (entry_of dec c). apply cat_nil_r; [exists i; split; auto; apply at_index_entry; auto|].
        assert (Hg' : (let* a := g (entry_of dec c) in Ok (Some a)) = Ok (Some a)) by (rewrite Ha; reflexivity).
        destruct c; try exact Hg'. cbn [entry_of] in *. destruct (dec raw); exact Hg'.
      * exists EZero. apply cat_nil_r; auto. exists 0. split; auto. apply entry_at_0. reflexivity.
Qed.

Ltac const_cases H :=
  match type of H with context [entry_of dec ?c] => destruct c; cbn [entry_of] in H;
    try match type of H with context [match dec ?r with _ => _ end] => destruct (dec r) eqn:? end; try discriminate H
  end.

Lemma reads_cp_utf8 : reads E (read_cp_utf8 P) (ref (utf8_at dec sl)).
Proof.
  apply (reads_cp _ (fun e => match e with EUtf8 x => Ok x | _ => fail (lit "Unexpected constant pool reference type") end)); try discriminate.
  - intros []; reflexivity.
  - intros i a. split.
    + intros (c & Hc & H). const_cases H. injection H as <-. exists raw; auto.
    + intros (raw & Hc & H). exists (CUtf8 raw). split; auto. cbn [entry_of]. rewrite H. reflexivity.
Qed.
Lemma reads_cp_utf8_opt : reads E (read_cp_utf8_opt P) (opt_ref (utf8_at dec sl)).
Proof.
  apply (reads_cp_opt _ (fun e => match e with EUtf8 x => Ok x | _ => fail (lit "Unexpected constant pool reference type") end)); try discriminate.
  - intros []; reflexivity.
  - intros i a. split.
    + intros (c & Hc & H). const_cases H. injection H as <-. exists raw; auto.
    + intros (raw & Hc & H). exists (CUtf8 raw). split; auto. cbn [entry_of]. rewrite H. reflexivity.
Qed.
Definition get_class (e : entry) : outcome str :=
  match e with EClassInfo x => peel_utf8 P x | _ => fail (lit "Unexpected constant pool reference type") end.
Lemma get_class_Ok i a : (exists c, at_index sl i c /\ get_class (entry_of dec c) = Ok a) <-> class_at dec sl i a.
Proof.
  split.
  - intros (c & Hc & H). const_cases H. apply peel_utf8_Ok in H. exists name; auto.
  - intros (j & Hc & H). exists (CClass j). split; auto. apply peel_utf8_Ok. exact H.
Qed.
Lemma reads_cp_classinfo : reads E (read_cp_classinfo P) (ref (class_at dec sl)).
Proof.
  apply (reads_cp _ get_class); try discriminate.
  - intros []; reflexivity.
  - apply get_class_Ok.
Qed.
Lemma reads_cp_classinfo_opt : reads E (read_cp_classinfo_opt P) (opt_ref (class_at dec sl)).
Proof.
  apply (reads_cp_opt _ get_class); try discriminate.
  - intros []; try reflexivity. intros bs ix. cbn [get_class]. unfold bind, lift.
    destruct (peel_utf8 P x); reflexivity.
  - apply get_class_Ok.
Qed.
Lemma reads_cp_moduleinfo : reads E (read_cp_moduleinfo P) (ref (module_at dec sl)).
Proof.
  apply (reads_cp _ (fun e => match e with EModuleInfo x => peel_utf8 P x | _ => fail (lit "Unexpected constant pool reference type") end)); try discriminate.
  - intros []; reflexivity.
  - intros i a. split.
    + intros (c & Hc & H). const_cases H. apply peel_utf8_Ok in H. exists name; auto.
    + intros (j & Hc & H). exists (CModule j). split; auto. apply peel_utf8_Ok. exact H.
Qed.
Lemma reads_cp_packageinfo : reads E (read_cp_packageinfo P) (ref (package_at dec sl)).
Proof.
  apply (reads_cp _ (fun e => match e with EPackageInfo x => peel_utf8 P x | _ => fail (lit "Unexpected constant pool reference type") end)); try discriminate.
  - intros []; reflexivity.
  - intros i a. split.
    + intros (c & Hc & H). const_cases H. apply peel_utf8_Ok in H. exists name; auto.
    + intros (j & Hc & H). exists (CPackage j). split; auto. apply peel_utf8_Ok. exact H.
Qed.
Lemma reads_cp_nameandtype_opt : reads E (read_cp_nameandtype_opt P) (opt_ref (name_and_type_at dec sl)).
Proof.
  apply (reads_cp_opt _ (fun e => match e with ENameAndType x y => let* n := peel_utf8 P x in let* d := peel_utf8 P y in Ok (mk_nat n d)
     | _ => fail (lit "Unexpected constant pool reference type") end)); try discriminate.
  - intros []; try reflexivity. intros bs ix. unfold bind, lift.
    destruct (peel_utf8 P x); cbn [obind]; try reflexivity. destruct (peel_utf8 P y); reflexivity.
  - intros i a. split.
    + intros (c & Hc & H). const_cases H. apply nat_pair_Ok in H. exists name, desc; auto.
    + intros (n & d & Hc & H). exists (CNameAndType n d). split; auto. apply nat_pair_Ok. exact H.
Qed.
Definition get_literal (e : entry) : outcome literal :=
  match e with
  | EInteger v => Ok (LInteger v)
  | EFloat v => Ok (LFloat v)
  | ELong v => Ok (LLong v)
  | EDouble v => Ok (LDouble v)
  | EString x => let* t := peel P x in string_literal t
  | _ => fail (lit "Unexpected constant pool reference type")
  end.
Lemma get_literal_Ok i l : (exists c, at_index sl i c /\ get_literal (entry_of dec c) = Ok l) <-> literal_at dec sl i l.
Proof.
  split.
  - intros (c & Hc & H). const_cases H; try (injection H as <-; exact Hc).
    cbn [get_literal] in H. apply string_Ok in H. destruct l; try contradiction; cbn [literal_at]; eauto.
  - destruct l; cbn [literal_at]; intro H.
    + exists (CInteger v); auto.
    + exists (CFloat bits); auto.
    + exists (CLong v); auto.
    + exists (CDouble bits); auto.
    + destruct H as (j & Hj & H). exists (CString j). split; auto. apply string_Ok. exact H.
    + destruct H as (j & Hj & H). exists (CString j). split; auto. apply string_Ok. exact H.
Qed.
Lemma reads_cp_literalconstant : reads E (read_cp_literalconstant P) (ref (literal_at dec sl)).
Proof.
  apply (reads_cp _ get_literal); try discriminate.
  - intros []; reflexivity.
  - apply get_literal_Ok.
Qed.
Lemma reads_cp_integer : reads E (read_cp_integer P) (ref (fun i v => at_index sl i (CInteger v))).
Proof.
  apply (reads_cp _ (fun e => match e with EInteger x => Ok x | _ => fail (lit "Unexpected constant pool reference type") end)); try discriminate.
  - intros []; reflexivity.
  - intros i a. split.
    + intros (c & Hc & H). const_cases H. injection H as <-. auto.
    + intros Hc. exists (CInteger a). auto.
Qed.
Lemma reads_cp_float : reads E (read_cp_float P) (ref (fun i v => at_index sl i (CFloat v))).
Proof.
  apply (reads_cp _ (fun e => match e with EFloat x => Ok x | _ => fail (lit "Unexpected constant pool reference type") end)); try discriminate.
  - intros []; reflexivity.
  - intros i a. split.
    + intros (c & Hc & H). const_cases H. injection H as <-. auto.
    + intros Hc. exists (CFloat a). auto.
Qed.
Lemma reads_cp_long : reads E (read_cp_long P) (ref (fun i v => at_index sl i (CLong v))).
Proof.
  apply (reads_cp _ (fun e => match e with ELong x => Ok x | _ => fail (lit "Unexpected constant pool reference type") end)); try discriminate.
  - intros []; reflexivity.
  - intros i a. split.
    + intros (c & Hc & H). const_cases H. injection H as <-. auto.
    + intros Hc. exists (CLong a). auto.
Qed.
Lemma reads_cp_double : reads E (read_cp_double P) (ref (fun i v => at_index sl i (CDouble v))).
Proof.
  apply (reads_cp _ (fun e => match e with EDouble x => Ok x | _ => fail (lit "Unexpected constant pool reference type") end)); try discriminate.
  - intros []; reflexivity.
  - intros i a. split.
    + intros (c & Hc & H). const_cases H. injection H as <-. auto.
    + intros Hc. exists (CDouble a). auto.
Qed.

(** Member references: a mask stands for a list of kinds. *)
Definition kind_mask (k : member_kind) : N :=
  match k with KField => T_FIELD_REF | KMethod => T_METHOD_REF | KInterfaceMethod => T_INTERFACE_METHOD_REF end.
Lemma reads_cp_memberref T ks :
  contains T T_ZERO = false -> contains T T_UNUSED = false ->
  (forall k, contains T (kind_mask k) = true <-> In k ks) ->
  reads E (read_cp_memberref P T) (ref (member_ref_at dec sl ks)).
Proof.
  intros Hz Hu Hk.
  apply (reads_cp _ (fun e => let* _ := ensure_type e T in match e with
    | EFieldRef c m | EMethodRef c m | EInterfaceMethodRef c m => make_member_ref P c m
    | _ => fail (lit "Unexpected constant pool reference type") end)).
  - intros e bs ix. unfold bind, lift. destruct (ensure_type e T); cbn [obind]; try reflexivity. destruct e; reflexivity.
  - intros a. unfold ensure_type. cbn [get_type]. rewrite Hz. discriminate.
  - intros a. unfold ensure_type. cbn [get_type]. rewrite Hu. discriminate.
  - intros i a. unfold member_ref_at, member_at. split.
    + intros (c & Hc & H). apply obind_Ok in H. destruct H as ([] & Ht & H).
      unfold ensure_type in Ht. destruct (contains T (get_type (entry_of dec c))) eqn:Hct; [clear Ht|discriminate Ht].
      const_cases H; apply member_ref_Ok in H.
      * exists KField. split; [apply Hk; auto|]. exists cls, nt. auto.
      * exists KMethod. split; [apply Hk; auto|]. exists cls, nt. auto.
      * exists KInterfaceMethod. split; [apply Hk; auto|]. exists cls, nt. auto.
    + intros (k & Hin & c & m & Hc & H). exists (member_constant k c m). split; auto.
      apply Hk in Hin. apply member_ref_Ok in H.
      destruct k; cbn [member_constant entry_of kind_mask] in *; unfold ensure_type; cbn [get_type]; rewrite Hin; exact H.
Qed.
Lemma reads_fieldref : reads E (read_cp_memberref P T_FIELD_REF) (ref (member_ref_at dec sl [KField])).
Proof. apply reads_cp_memberref; try reflexivity. intros []; vm_compute; intuition congruence. Qed.
Lemma reads_methodref : reads E (read_cp_memberref P T_METHOD_REF) (ref (member_ref_at dec sl [KMethod])).
Proof. apply reads_cp_memberref; try reflexivity. intros []; vm_compute; intuition congruence. Qed.
Lemma reads_interfacemethodref : reads E (read_cp_memberref P T_INTERFACE_METHOD_REF) (ref (member_ref_at dec sl [KInterfaceMethod])).
Proof. apply reads_cp_memberref; try reflexivity. intros []; vm_compute; intuition congruence. Qed.
Lemma reads_anymethodref : reads E (read_cp_memberref P T_NEW_METHOD_REFS) (ref (member_ref_at dec sl [KMethod; KInterfaceMethod])).
Proof. apply reads_cp_memberref; try reflexivity. intros []; vm_compute; intuition congruence. Qed.

Lemma indy_Ok y x d : (let* t := peel P (Resolved y) in let* nt := get_name_and_type P t in Ok (mk_indy x nt)) = Ok d <->
  indy_attr_index d = x /\ name_and_type_at dec sl y (indy_name_and_type d).
Proof.
  rewrite (obind2_Ok (peel P (Resolved y)) (get_name_and_type P)). rewrite obind_Ok. split.
  - intros (nt & Hn & [= <-]). apply nt_Ok in Hn. auto.
  - intros (<- & Hn). exists (indy_name_and_type d). split; [apply nt_Ok; auto|]. destruct d; reflexivity.
Qed.
Lemma dyn_Ok y x d : (let* t := peel P (Resolved y) in let* nt := get_name_and_type P t in Ok (mk_dyn x nt)) = Ok d <->
  dyn_attr_index d = x /\ name_and_type_at dec sl y (dyn_name_and_type d).
Proof.
  rewrite (obind2_Ok (peel P (Resolved y)) (get_name_and_type P)). rewrite obind_Ok. split.
  - intros (nt & Hn & [= <-]). apply nt_Ok in Hn. auto.
  - intros (<- & Hn). exists (dyn_name_and_type d). split; [apply nt_Ok; auto|]. destruct d; reflexivity.
Qed.
Lemma reads_cp_invokedynamic : reads E (read_cp_invokedynamic P) (ref (invoke_dynamic_at dec sl)).
Proof.
  apply (reads_cp _ (fun e => match e with EInvokeDynamic x y => let* t := peel P y in let* nt := get_name_and_type P t in Ok (mk_indy x nt)
     | _ => fail (lit "Unexpected constant pool reference type") end)); try discriminate.
  - intros []; reflexivity.
  - intros i a. split.
    + intros (c & Hc & H). const_cases H. apply indy_Ok in H. destruct H as [<- H]. exists nt; auto.
    + intros (nt & Hc & H). exists (CInvokeDynamic (indy_attr_index a) nt). split; auto. apply indy_Ok. auto.
Qed.
Lemma reads_cp_methodhandle : reads E (read_cp_methodhandle P) (ref (method_handle_at dec sl)).
Proof.
  apply (reads_cp _ (fun e => match e with EMethodHandle x y => make_method_handle P x y
     | _ => fail (lit "Unexpected constant pool reference type") end)); try discriminate.
  - intros []; reflexivity.
  - intros i a. split.
    + intros (c & Hc & H). const_cases H. apply method_handle_Ok in H. destruct H as [<- H]. exists member; auto.
    + intros (m & Hc & H). exists (CMethodHandle (mh_kind a) m). split; auto. apply method_handle_Ok. auto.
Qed.

Lemma ld_map {A B} (m : outcome A) (k : A -> B) b : (let* a := m in Ok (k a)) = Ok b <-> exists a, m = Ok a /\ b = k a.
Proof. rewrite obind_Ok. split; intros (a & Ha & H); exists a; split; auto; congruence. Qed.

Lemma reads_cp_bootstrap_argument : reads E (read_cp_bootstrap_argument P) (ref (bootstrap_arg_at dec sl)).
Proof.
  apply (reads_cp _ (fun e => match e with
    | EInteger v => Ok (BaLiteral (LInteger v))
    | EFloat v => Ok (BaLiteral (LFloat v))
    | ELong v => Ok (BaLiteral (LLong v))
    | EDouble v => Ok (BaLiteral (LDouble v))
    | EString x => let* t := peel P x in let* l := string_literal t in Ok (BaLiteral l)
    | EClassInfo x => let* s := peel_utf8 P x in Ok (BaClassInfo s)
    | EMethodHandle x y => let* h := make_method_handle P x y in Ok (BaMethodHandle h)
    | EMethodType x => let* s := peel_utf8 P x in Ok (BaMethodType s)
    | _ => fail (lit "Unexpected constant pool reference type") end)); try discriminate.
  - intros []; reflexivity.
  - intros i a. split.
    + intros (c & Hc & H). const_cases H; try (injection H as <-; exact Hc).
      * apply ld_map in H. destruct H as (s & Hs & ->). apply peel_utf8_Ok in Hs. exists name; auto.
      * rewrite (obind2_Ok (peel P (Resolved text)) string_literal) in H. apply ld_map in H.
        destruct H as (l & Hl & ->). apply string_Ok in Hl. destruct l; try contradiction; cbn; eauto.
      * apply ld_map in H. destruct H as (h & Hh & ->). apply method_handle_Ok in Hh. destruct Hh as [<- Hh]. exists member; auto.
      * apply ld_map in H. destruct H as (s & Hs & ->). apply peel_utf8_Ok in Hs. exists desc; auto.
    + destruct a as [l|s|h|s]; cbn [bootstrap_arg_at].
      * destruct l; cbn [literal_at]; intro H.
        -- exists (CInteger v); auto.
        -- exists (CFloat bits); auto.
        -- exists (CLong v); auto.
        -- exists (CDouble bits); auto.
        -- destruct H as (j & Hj & H). exists (CString j). split; auto. cbn [entry_of].
           rewrite (obind2_Ok (peel P (Resolved j)) string_literal). apply ld_map. eexists. split; [apply string_Ok|reflexivity]; exact H.
        -- destruct H as (j & Hj & H). exists (CString j). split; auto. cbn [entry_of].
           rewrite (obind2_Ok (peel P (Resolved j)) string_literal). apply ld_map. eexists. split; [apply string_Ok|reflexivity]; exact H.
      * intros (j & Hc & H). exists (CClass j). split; auto. apply ld_map. eexists. split; [apply peel_utf8_Ok; eauto|auto].
      * intros (m & Hc & H). exists (CMethodHandle (mh_kind h) m). split; auto. apply ld_map. eexists. split; [apply method_handle_Ok; eauto|auto].
      * intros (j & Hc & H). exists (CMethodType j). split; auto. apply ld_map. eexists. split; [apply peel_utf8_Ok; eauto|auto].
Qed.

Lemma get_cp_loadable_Ok i l : get_cp_loadable P i = Ok l <-> loadable_at dec sl i l.
Proof.
  unfold get_cp_loadable.
  match goal with |- obind _ ?k = _ <-> _ => set (g := k) end. rewrite obind_Ok.
  assert (Hex : (exists a, pool_get P i = Ok a /\ g a = Ok l) <-> (exists c, at_index sl i c /\ g (entry_of dec c) = Ok l)).
  { rewrite <- (entry_ex (fun e => g e = Ok l)) by discriminate.
    split; intros (e & He & H); exists e; split; auto; apply plen_get; auto. }
  rewrite Hex. subst g. clear Hex. split.
  - intros (c & Hc & H). const_cases H; try (injection H as <-; exact Hc).
    * apply ld_map in H. destruct H as (s & Hs & ->). apply peel_utf8_Ok in Hs. exists name; auto.
    * rewrite (obind2_Ok (peel P (Resolved text)) string_literal) in H. apply ld_map in H.
      destruct H as (ll & Hl & ->). apply string_Ok in Hl. destruct ll; try contradiction; cbn; eauto.
    * apply ld_map in H. destruct H as (h & Hh & ->). apply method_handle_Ok in Hh. destruct Hh as [<- Hh]. exists member; auto.
    * apply ld_map in H. destruct H as (s & Hs & ->). apply peel_utf8_Ok in Hs. exists desc; auto.
    * rewrite (obind2_Ok (peel P (Resolved nt)) (get_name_and_type P)) in H. apply ld_map in H.
      destruct H as (n & Hn & ->). apply nt_Ok in Hn. exists nt. auto.
  - destruct l as [l|s|h|s|d]; cbn [loadable_at].
    * destruct l; cbn [literal_at]; intro H.
      -- exists (CInteger v); auto.
      -- exists (CFloat bits); auto.
      -- exists (CLong v); auto.
      -- exists (CDouble bits); auto.
      -- destruct H as (j & Hj & H). exists (CString j). split; auto. cbn [entry_of].
         rewrite (obind2_Ok (peel P (Resolved j)) string_literal). apply ld_map. eexists. split; [apply string_Ok|reflexivity]; exact H.
      -- destruct H as (j & Hj & H). exists (CString j). split; auto. cbn [entry_of].
         rewrite (obind2_Ok (peel P (Resolved j)) string_literal). apply ld_map. eexists. split; [apply string_Ok|reflexivity]; exact H.
    * intros (j & Hc & H). exists (CClass j). split; auto. apply ld_map. eexists. split; [apply peel_utf8_Ok; eauto|auto].
    * intros (m & Hc & H). exists (CMethodHandle (mh_kind h) m). split; auto. apply ld_map. eexists. split; [apply method_handle_Ok; eauto|auto].
    * intros (j & Hc & H). exists (CMethodType j). split; auto. apply ld_map. eexists. split; [apply peel_utf8_Ok; eauto|auto].
    * intros (nt & Hc & H). exists (CDynamic (dyn_attr_index d) nt). split; auto. cbn [entry_of].
      rewrite (obind2_Ok (peel P (Resolved nt)) (get_name_and_type P)). apply ld_map.
      exists (dyn_name_and_type d). split; [apply nt_Ok; auto|]. destruct d; reflexivity.
Qed.

Lemma reads_cp_object_array_type : reads E (read_cp_object_array_type P) (ref (object_array_type_at dec sl)).
Proof.
  apply (reads_cp _ (fun e => match e with EClassInfo x =>
      let* name := peel_utf8 P x in let* d := parse_array_descriptor name in
      match d with Some desc => Ok (OArrayType desc) | None => Ok (OBinaryName name) end
     | _ => fail (lit "Unexpected constant pool reference type") end)); try discriminate.
  - intros []; try reflexivity. intros bs ix. unfold bind, lift.
    destruct (peel_utf8 P x); cbn [obind]; try reflexivity. destruct (parse_array_descriptor a) as [[d|]| | |]; reflexivity.
  - intros i a. unfold object_array_type_at. split.
    + intros (c & Hc & H). const_cases H. apply obind_Ok in H. destruct H as (s & Hs & H).
      apply peel_utf8_Ok in Hs. exists s. split; [exists name; auto|].
      apply obind_Ok in H. destruct H as (o & Ho & H). pose proof (parse_array_descriptor_spec s) as Hp.
      apply (decides_iff _ _ Hp) in Ho. destruct o as [d|]; injection H as <-; auto.
    + intros (s & (j & Hc & Hs) & H). exists (CClass j). split; auto. cbn [entry_of].
      apply obind_Ok. exists s. split; [apply peel_utf8_Ok; auto|].
      pose proof (parse_array_descriptor_spec s) as Hp. destruct a as [d|n].
      * apply obind_Ok. exists (Some d). split; auto. apply (decides_iff _ _ Hp). auto.
      * destruct H as [<- H]. apply obind_Ok. exists None. split; auto. apply (decides_iff _ _ Hp). auto.
Qed.

(** What the iterator shows. *)
Lemma item_of_Ok i it : (exists c, at_index sl i c /\ item_of P (entry_of dec c) = Ok (Some it)) <-> item_at dec sl i it.
Proof.
  split.
  - intros (c & Hc & H). const_cases H; cbn [item_of] in H; try (injection H as <-; exact Hc).
    * apply ld_map in H. destruct H as (s & Hs & [= ->]). apply peel_utf8_Ok in Hs. exists name; auto.
    * rewrite (obind2_Ok (peel P (Resolved text)) string_literal) in H. apply ld_map in H.
      destruct H as (ll & Hl & [= ->]). apply string_Ok in Hl. destruct ll; try contradiction; cbn; eauto.
    * apply ld_map in H. destruct H as (m & Hm & [= ->]). apply member_ref_Ok in Hm. exists cls, nt; auto.
    * apply ld_map in H. destruct H as (m & Hm & [= ->]). apply member_ref_Ok in Hm. exists cls, nt; auto.
    * apply ld_map in H. destruct H as (m & Hm & [= ->]). apply member_ref_Ok in Hm. exists cls, nt; auto.
    * assert (H' : exists n, (let* x := peel_utf8 P (Resolved name) in let* y := peel_utf8 P (Resolved desc) in Ok (mk_nat x y)) = Ok n /\ it = ItNameAndType n).
      { apply obind_Ok in H. destruct H as (x & Hx & H). apply obind_Ok in H. destruct H as (y & Hy & [= <-]).
        rewrite Hx, Hy. cbn [obind]. eauto. }
      destruct H' as (n & Hn & ->). apply nat_pair_Ok in Hn. exists name, desc; auto.
    * apply ld_map in H. destruct H as (h & Hh & [= ->]). unfold unwrap in Hh.
      destruct (make_method_handle P kind (Resolved member)) eqn:Hm; try discriminate Hh. injection Hh as ->.
      apply method_handle_Ok in Hm. destruct Hm as [<- Hm]. exists member; auto.
    * apply ld_map in H. destruct H as (s & Hs & [= ->]). apply peel_utf8_Ok in Hs. exists desc; auto.
    * rewrite (obind2_Ok (peel P (Resolved nt)) (get_name_and_type P)) in H. apply ld_map in H.
      destruct H as (n & Hn & [= ->]). apply nt_Ok in Hn. exists nt. auto.
    * rewrite (obind2_Ok (peel P (Resolved nt)) (get_name_and_type P)) in H. apply ld_map in H.
      destruct H as (n & Hn & [= ->]). apply nt_Ok in Hn. exists nt. auto.
    * apply ld_map in H. destruct H as (s & Hs & [= ->]). apply peel_utf8_Ok in Hs. exists name; auto.
    * apply ld_map in H. destruct H as (s & Hs & [= ->]). apply peel_utf8_Ok in Hs. exists name; auto.
  - destruct it as [l|s|m|m|m|n|h|s|d|d|s|s]; cbn [item_at].
    * destruct l; cbn [literal_at]; intro H.
      -- exists (CInteger v); auto.
      -- exists (CFloat bits); auto.
      -- exists (CLong v); auto.
      -- exists (CDouble bits); auto.
      -- destruct H as (j & Hj & H). exists (CString j). split; auto. cbn [entry_of item_of].
         rewrite (obind2_Ok (peel P (Resolved j)) string_literal). apply ld_map. eexists. split; [apply string_Ok|reflexivity]; exact H.
      -- destruct H as (j & Hj & H). exists (CString j). split; auto. cbn [entry_of item_of].
         rewrite (obind2_Ok (peel P (Resolved j)) string_literal). apply ld_map. eexists. split; [apply string_Ok|reflexivity]; exact H.
    * intros (j & Hc & H). exists (CClass j). split; auto. apply ld_map. eexists. split; [apply peel_utf8_Ok; eauto|auto].
    * intros (c & nt & Hc & H). exists (CFieldref c nt). split; auto. apply ld_map. eexists. split; [apply member_ref_Ok; eauto|auto].
    * intros (c & nt & Hc & H). exists (CMethodref c nt). split; auto. apply ld_map. eexists. split; [apply member_ref_Ok; eauto|auto].
    * intros (c & nt & Hc & H). exists (CInterfaceMethodref c nt). split; auto. apply ld_map. eexists. split; [apply member_ref_Ok; eauto|auto].
    * intros (a & b & Hc & H). exists (CNameAndType a b). split; auto. cbn [entry_of item_of].
      apply nat_pair_Ok in H. apply obind_Ok in H. destruct H as (x & Hx & H). apply obind_Ok in H. destruct H as (y & Hy & [= <-]).
      rewrite Hx, Hy. reflexivity.
    * intros (m & Hc & H). exists (CMethodHandle (mh_kind h) m). split; auto. apply ld_map. eexists. split; [|reflexivity].
      assert (Hm : make_method_handle P (mh_kind h) (Resolved m) = Ok h) by (apply method_handle_Ok; auto).
      unfold unwrap. rewrite Hm. reflexivity.
    * intros (j & Hc & H). exists (CMethodType j). split; auto. apply ld_map. eexists. split; [apply peel_utf8_Ok; eauto|auto].
    * intros (nt & Hc & H). exists (CDynamic (dyn_attr_index d) nt). split; auto. cbn [entry_of item_of].
      rewrite (obind2_Ok (peel P (Resolved nt)) (get_name_and_type P)). apply ld_map.
      exists (dyn_name_and_type d). split; [apply nt_Ok; auto|]. destruct d; reflexivity.
    * intros (nt & Hc & H). exists (CInvokeDynamic (indy_attr_index d) nt). split; auto. cbn [entry_of item_of].
      rewrite (obind2_Ok (peel P (Resolved nt)) (get_name_and_type P)). apply ld_map.
      exists (indy_name_and_type d). split; [apply nt_Ok; auto|]. destruct d; reflexivity.
    * intros (j & Hc & H). exists (CModule j). split; auto. apply ld_map. eexists. split; [apply peel_utf8_Ok; eauto|auto].
    * intros (j & Hc & H). exists (CPackage j). split; auto. apply ld_map. eexists. split; [apply peel_utf8_Ok; eauto|auto].
Qed.
End WithEnv.
