(** * The constant pool: resolution and validation. *)
From Verif Require Import Base M_Names M_Descriptors M_ConstantPool S_Lang S_Names S_Format
  P_Reads P_Tac P_Names P_Descriptors P_Pool P_Pool2.
From Coq Require Import ZifyBool ZifyNat ZifyN.

Section WithDec.
Variable dec : list byte -> option str.

Definition raw_slot (s : option constant) : entry :=
  match s with Some c => raw_of dec c | None => EUnused end.
Definition slot_entry (s : option constant) : entry :=
  match s with Some c => entry_of dec c | None => EUnused end.
Definition slots_tail (cs : list constant) : slots :=
  flat_map (fun c => if is_wide c then [Some c; None] else [Some c]) cs.
Definition refs_of (c : constant) : list N :=
  match c with
  | CUtf8 _ | CInteger _ | CFloat _ | CLong _ | CDouble _ => []
  | CClass n | CString n | CMethodHandle _ n | CMethodType n | CDynamic _ n | CInvokeDynamic _ n
  | CModule n | CPackage n => [n]
  | CFieldref a b | CMethodref a b | CInterfaceMethodref a b | CNameAndType a b => [a; b]
  end.
Definition good_refs (i len : N) (c : constant) : Prop := Forall (fun t => t <> i /\ t < len) (refs_of c).

Lemma resolve_ref_Ok t i len r : resolve_ref (Unresolved t) i len = Ok r <-> r = Resolved t /\ t <> i /\ t < len.
Proof.
  unfold resolve_ref, fail. destruct (N.eqb_spec t i).
  - split; [discriminate|]. intros (_ & H & _); contradiction.
  - destruct (N.leb_spec len t).
    + split; [discriminate|]. lia.
    + split; [intros [= <-]; auto|]. intros [-> _]; auto.
Qed.

Lemma resolve_entry_Ok c i len e :
  resolve_entry (raw_of dec c) i len = Ok e <-> e = entry_of dec c /\ good_refs i len c.
Proof.
  unfold good_refs.
  destruct c; cbn [raw_of refs_of resolve_entry entry_of];
  try (split; [intros [= <-]; auto|intros [-> _]; reflexivity]).
  { destruct (dec raw); cbn [resolve_entry]; (split; [intros [= <-]; auto|intros [-> _]; reflexivity]). }
  all: split;
    [ intro H; repeat (apply obind_Ok in H; let x := fresh "x" in let Hx := fresh "Hx" in
        destruct H as (x & Hx & H); apply resolve_ref_Ok in Hx; destruct Hx as (-> & ? & ?));
      injection H as <-; auto
    | intros [-> H]; repeat match goal with H : Forall _ (_ :: _) |- _ => inversion_clear H end;
      repeat match goal with H : ?t <> ?i /\ ?t < ?len |- obind (resolve_ref (Unresolved ?t) _ _) _ = _ =>
        rewrite (proj2 (resolve_ref_Ok t i len (Resolved t)) (conj eq_refl H)); cbn [obind] end;
      reflexivity ].
Qed.

Lemma resolve_from_Ok len ss i P :
  resolve_from len i (map raw_slot ss) = Ok P <->
  P = map slot_entry ss /\
  forall k c, nth_error ss k = Some (Some c) -> good_refs (i + N.of_nat k) len c.
Proof.
  revert i P; induction ss as [|s ss IH]; intros i P; cbn [map resolve_from].
  - split; [intros [= <-]; split; auto; intros [|k] c; discriminate|]. intros [-> _]; auto.
  - rewrite obind_Ok.
    assert (Hs : forall e, resolve_entry (raw_slot s) i len = Ok e <->
      e = slot_entry s /\ forall c, s = Some c -> good_refs i len c).
    { intro e. destruct s as [c|]; cbn [raw_slot slot_entry].
      - rewrite resolve_entry_Ok. split; intros [-> H]; split; auto. intros c' [= <-]; auto.
      - cbn [resolve_entry]. split; [intros [= <-]; split; auto; discriminate|]. intros [-> _]; auto. }
    split.
    + intros (e & He & H). apply Hs in He. destruct He as [-> He].
      apply obind_Ok in H. destruct H as (r & Hr & H). injection H as <-.
      apply IH in Hr. destruct Hr as [-> Hr]. split; auto.
      intros [|k] c Hk; cbn [nth_error] in Hk.
      * injection Hk as ->. replace (i + N.of_nat 0) with i by lia. auto.
      * replace (i + N.of_nat (S k)) with (i + 1 + N.of_nat k) by lia. auto.
    + intros [-> H]. exists (slot_entry s). split.
      * apply Hs. split; auto. intros c ->. specialize (H 0%nat c eq_refl).
        replace (i + N.of_nat 0) with i in H by lia. auto.
      * apply obind_Ok. exists (map slot_entry ss). split; auto. apply IH. split; auto.
        intros k c Hk. specialize (H (S k) c Hk). replace (i + 1 + N.of_nat k) with (i + N.of_nat (S k)) by lia. auto.
Qed.

Lemma expand_slots E cs : cesu8 E = dec -> flat_map (expand E) cs = map raw_slot (slots_tail cs).
Proof.
  intro HE. unfold expand, slots_tail. rewrite HE. induction cs as [|c cs IH]; cbn [flat_map]; auto.
  rewrite map_app, IH. destruct (is_wide c); reflexivity.
Qed.

(** ** Looking into the resolved pool *)
Variable cs : list constant.
Let sl := slots_of cs.
Let P := pool_of dec sl.

Lemma pool_of_slots : P = EZero :: map slot_entry (slots_tail cs).
Proof. reflexivity. Qed.

Definition entry_at (i : N) (e : entry) : Prop := nth_error P (N.to_nat i) = Some e.

Lemma entry_at_cases i e : entry_at i e ->
  (i = 0 /\ e = EZero) \/ (i <> 0 /\ e = EUnused) \/ exists c, at_index sl i c /\ e = entry_of dec c.
Proof.
  unfold entry_at. rewrite pool_of_slots. unfold at_index, sl, slots_of. fold (slots_tail cs).
  destruct (N.to_nat i) as [|k] eqn:Hi; cbn [nth_error].
  - intros [= <-]. left. split; [lia|auto].
  - rewrite nth_error_map. destruct (nth_error (slots_tail cs) k) as [[c|]|] eqn:Hk; cbn [option_map slot_entry];
    [| |discriminate].
    + intros [= <-]. right; right. exists c. cbn [nth_error]. auto.
    + intros [= <-]. right; left. split; auto. lia.
Qed.
Lemma at_index_entry i c : at_index sl i c -> entry_at i (entry_of dec c).
Proof.
  unfold entry_at. rewrite pool_of_slots. unfold at_index, sl, slots_of. fold (slots_tail cs).
  destruct (N.to_nat i) as [|k] eqn:Hi; cbn [nth_error]; [discriminate|].
  intro H. rewrite nth_error_map, H. reflexivity.
Qed.
Lemma entry_at_0 i : entry_at i EZero <-> i = 0.
Proof.
  split.
  - intro H. apply entry_at_cases in H. destruct H as [[-> _]|[[_ H]|(c & _ & H)]]; auto; [discriminate|].
    destruct c; try discriminate. cbn [entry_of] in H. destruct (dec raw); discriminate.
  - intros ->. reflexivity.
Qed.

Lemma peel_Ok t e : peel P (Resolved t) = Ok e <-> entry_at t e.
Proof.
  unfold peel, entry_at. destruct (nth_error P (N.to_nat t)); split; intro H; try discriminate; congruence.
Qed.
Lemma plen_get i e : pool_get P i = Ok e <-> entry_at i e.
Proof.
  unfold pool_get, entry_at, plen, fail. destruct (N.leb_spec (N.of_nat (length P)) i) as [H|H].
  - split; [discriminate|]. intro H1. assert (nth_error P (N.to_nat i) <> None) as H2 by congruence.
    apply nth_error_Some in H2. lia.
  - destruct (nth_error P (N.to_nat i)); split; intro H1; try discriminate; congruence.
Qed.

(** Entries by constant. *)
Ltac at_cases :=
  let H := fresh "H" in
  split; [intro H; apply entry_at_cases in H;
    destruct H as [[? H]|[[? H]|(?c & ? & H)]]; try discriminate;
    destruct c as [raw|?|?|?|?|?|?|?|?|?|?|?|?|?|?|?|?]; cbn [entry_of] in H; try discriminate;
    try (destruct (dec raw) eqn:?; discriminate)
  |].

Lemma entry_utf8 i s : entry_at i (EUtf8 s) <-> utf8_at dec sl i s.
Proof.
  split.
  - intro H. apply entry_at_cases in H. destruct H as [[? H]|[[? H]|(c & Hc & H)]]; try discriminate.
    destruct c; cbn [entry_of] in H; try discriminate. destruct (dec raw) eqn:Hd; try discriminate.
    injection H as ->. exists raw. auto.
  - intros (raw & H & Hd). apply at_index_entry in H. cbn [entry_of] in H. rewrite Hd in H. auto.
Qed.
Lemma entry_utf8_bytes i raw : entry_at i (EUtf8Bytes raw) <-> at_index sl i (CUtf8 raw) /\ dec raw = None.
Proof.
  split.
  - intro H. apply entry_at_cases in H. destruct H as [[? H]|[[? H]|(c & Hc & H)]]; try discriminate.
    destruct c; cbn [entry_of] in H; try discriminate. destruct (dec raw0) eqn:Hd; try discriminate.
    injection H as <-. auto.
  - intros (H & Hd). apply at_index_entry in H. cbn [entry_of] in H. rewrite Hd in H. auto.
Qed.
Lemma entry_plain i c : (forall raw, c <> CUtf8 raw) -> entry_at i (entry_of dec c) <-> at_index sl i c.
Proof.
  intro Hn. split; [|apply at_index_entry].
  intro H. apply entry_at_cases in H.
  assert (Hz : entry_of dec c <> EZero /\ entry_of dec c <> EUnused).
  { split; destruct c; cbn [entry_of]; try discriminate; exfalso; eapply Hn; reflexivity. }
  destruct H as [[? H]|[[? H]|(c' & Hc & H)]]; try tauto.
  assert (c = c') as ->; auto.
  destruct c; cbn [entry_of] in H; try (exfalso; eapply Hn; reflexivity);
  destruct c'; cbn [entry_of] in H; try discriminate; try (destruct (dec raw); discriminate);
  injection H; congruence.
Qed.

(** ** Validation *)
Lemma ensure_ref_Ok t T : ensure_ref_type P (Resolved t) T = Ok tt <->
  exists e, entry_at t e /\ contains T (get_type e) = true.
Proof.
  unfold ensure_ref_type, ensure_type. rewrite obind_Ok.
  split; intros (e & He & H); exists e.
  - apply peel_Ok in He. split; auto. destruct (contains T (get_type e)); [auto|discriminate].
  - split; [apply peel_Ok; auto|]. rewrite H. auto.
Qed.

(** Which constants a type mask allows. *)
Definition type_of (c : constant) : N := get_type (entry_of dec c).
Lemma ensure_ref_const t T : contains T T_ZERO = false -> contains T T_UNUSED = false ->
  ensure_ref_type P (Resolved t) T = Ok tt <-> exists c, at_index sl t c /\ contains T (type_of c) = true.
Proof.
  intros Hz Hu. rewrite ensure_ref_Ok. split.
  - intros (e & He & H). apply entry_at_cases in He.
    destruct He as [[_ ->]|[[_ ->]|(c & Hc & ->)]]; cbn [get_type] in H; try congruence. eauto.
  - intros (c & Hc & H). exists (entry_of dec c). split; auto. apply at_index_entry; auto.
Qed.
Lemma type_of_utf8 raw : type_of (CUtf8 raw) = T_UTF8.
Proof. unfold type_of. cbn [entry_of]. destruct (dec raw); reflexivity. Qed.

Lemma ens_utf8 t : ensure_ref_type P (Resolved t) T_UTF8 = Ok tt <-> is_utf8 sl t.
Proof.
  rewrite ensure_ref_const by reflexivity. split.
  - intros (c & Hc & H). destruct c; try discriminate H. exists raw. auto.
  - intros (raw & H). exists (CUtf8 raw). split; auto. rewrite type_of_utf8. reflexivity.
Qed.
Lemma ens_class t : ensure_ref_type P (Resolved t) T_CLASS_INFO = Ok tt <-> is_class sl t.
Proof.
  rewrite ensure_ref_const by reflexivity. split.
  - intros (c & Hc & H). destruct c; try discriminate H; [rewrite type_of_utf8 in H; discriminate H|]. exists name. auto.
  - intros (j & H). exists (CClass j). split; auto.
Qed.
Lemma ens_nt t : ensure_ref_type P (Resolved t) T_NAME_AND_TYPE = Ok tt <-> exists n d, at_index sl t (CNameAndType n d).
Proof.
  rewrite ensure_ref_const by reflexivity. split.
  - intros (c & Hc & H). destruct c; try discriminate H; [rewrite type_of_utf8 in H; discriminate H|]. eauto.
  - intros (n & d & H). exists (CNameAndType n d). split; auto.
Qed.
Definition handle_mask (major : N) (k : ref_kind) : N :=
  match k with
  | GetField | GetStatic | PutField | PutStatic => T_FIELD_REF
  | InvokeVirtual | NewInvokeSpecial => T_METHOD_REF
  | InvokeStatic | InvokeSpecial => if major <? 52 then T_METHOD_REF else T_NEW_METHOD_REFS
  | InvokeInterface => T_INTERFACE_METHOD_REF
  end.
Lemma ens_handle major k t : ensure_ref_type P (Resolved t) (handle_mask major k) = Ok tt <->
  exists c, at_index sl t c /\ handle_target major k c.
Proof.
  assert (Hm : forall c, contains (handle_mask major k) (type_of c) = true <-> handle_target major k c).
  { intro c. destruct c; try (rewrite type_of_utf8);
    destruct k; cbn [handle_mask handle_target]; try (destruct (N.ltb_spec major 52));
    split; intro Hc; try exact I; try (vm_compute in Hc; discriminate Hc); try (vm_compute; reflexivity);
    try contradiction; auto; lia. }
  rewrite ensure_ref_const.
  - split; intros (c & Hc & H); exists c; split; auto; apply Hm; auto.
  - destruct k; cbn [handle_mask]; try (destruct (major <? 52)); reflexivity.
  - destruct k; cbn [handle_mask]; try (destruct (major <? 52)); reflexivity.
Qed.

Lemma entry_str_Ok e s : entry_str e = Ok s <-> e = EUtf8 s.
Proof. destruct e; cbn [entry_str]; unfold fail; split; intro H; try discriminate; congruence. Qed.

Lemma str_check t (chk : str -> outcome bool) (Q : str -> Prop) msg f :
  (forall e, f e = let* x := entry_str e in let* ok := chk x in if (ok : bool) then Ok tt else fail msg) ->
  (forall s, exists b, chk s = Ok b /\ (b = true <-> Q s)) ->
  (let* e := peel P (Resolved t) in f e) = Ok tt <-> exists s, utf8_at dec sl t s /\ Q s.
Proof.
  intros Hf Hchk. rewrite obind_Ok. split.
  - intros (e & He & H). apply peel_Ok in He. rewrite Hf in H.
    apply obind_Ok in H. destruct H as (s & Hs & H). apply entry_str_Ok in Hs. subst e.
    apply entry_utf8 in He. exists s. split; auto.
    destruct (Hchk s) as (b & Hb & Hq). rewrite Hb in H. cbn [obind] in H.
    destruct b; [apply Hq; auto|discriminate].
  - intros (s & Hs & Hq). exists (EUtf8 s). split; [apply peel_Ok, entry_utf8; auto|].
    rewrite Hf. cbn [entry_str obind]. destruct (Hchk s) as (b & Hb & Hq'). rewrite Hb. cbn [obind].
    apply Hq' in Hq. subst b. reflexivity.
Qed.

Lemma check_class t : (let* e := peel P (Resolved t) in validate_classinfo_name e) = Ok tt <->
  exists s, utf8_at dec sl t s /\ (binary_name s \/ array_descriptor s).
Proof.
  apply (str_check t (fun x => if is_binary_name x then Ok true else is_array_descriptor x) _ (lit "Invalid classinfo name")); [reflexivity|].
  intro s. destruct (is_array_descriptor_spec s) as (b & Hb & Hq). pose proof (is_binary_name_iff s).
  destruct (is_binary_name s).
  - exists true. intuition.
  - exists b. split; auto. rewrite Hq. intuition congruence.
Qed.
Lemma bool_check (g : str -> bool) (Q : str -> Prop) : (forall s, g s = true <-> Q s) ->
  forall s, exists b, Ok (g s) = Ok b /\ (b = true <-> Q s).
Proof. intros H s. exists (g s). split; auto. Qed.
Lemma check_binary t : (let* e := peel P (Resolved t) in validate_binary_name e) = Ok tt <->
  exists s, utf8_at dec sl t s /\ binary_name s.
Proof. apply (str_check t (fun x => Ok (is_binary_name x)) _ (lit "Invalid binary name")); [reflexivity|]. apply bool_check, is_binary_name_iff. Qed.
Lemma check_module t : (let* e := peel P (Resolved t) in validate_module_name e) = Ok tt <->
  exists s, utf8_at dec sl t s /\ module_name s.
Proof. apply (str_check t (fun x => Ok (is_module_name x)) _ (lit "Invalid module name")); [reflexivity|]. apply bool_check, is_module_name_iff. Qed.
Lemma check_unqualified t : (let* e := peel P (Resolved t) in validate_unqualified_name e) = Ok tt <->
  exists s, utf8_at dec sl t s /\ unqualified s.
Proof.
  apply (str_check t (fun x => Ok (is_unqualified_name x || is_unqualified_method_name x true false)) _ (lit "Invalid unqualified name")); [reflexivity|].
  apply bool_check, unqualified_or_init.
Qed.

Lemma check_field_nt t n d : at_index sl t (CNameAndType n d) ->
  (let* e := peel P (Resolved t) in validate_field_descriptor P e) = Ok tt <->
  exists s, utf8_at dec sl d s /\ field_descriptor s.
Proof.
  intro Ht. apply at_index_entry in Ht. apply peel_Ok in Ht. rewrite Ht. cbn [obind entry_of validate_field_descriptor].
  apply (str_check d is_field_descriptor _ (lit "Invalid field descriptor")
    (fun t0 => let* x := entry_str t0 in let* ok := is_field_descriptor x in
       if ok then Ok tt else fail (lit "Invalid field descriptor"))); [reflexivity|].
  apply is_field_descriptor_spec.
Qed.
Lemma check_method_utf8 stk t : is_utf8 sl t ->
  (let* e := peel P (Resolved t) in validate_method_descriptor (S stk) P e) = Ok tt <->
  exists s, utf8_at dec sl t s /\ method_descriptor s.
Proof.
  intros (raw & Ht).
  rewrite <- (str_check t is_method_descriptor method_descriptor (lit "Invalid method descriptor")
    (fun t0 => let* x := entry_str t0 in let* ok := is_method_descriptor x in
       if ok then Ok tt else fail (lit "Invalid method descriptor"))).
  - pose proof (at_index_entry _ _ Ht) as He. apply peel_Ok in He. rewrite He. cbn [obind entry_of].
    destruct (dec raw); reflexivity.
  - reflexivity.
  - apply is_method_descriptor_spec.
Qed.

Variable major : N.
Definition nts_valid : Prop := forall i n d, at_index sl i (CNameAndType n d) -> is_utf8 sl d.

Lemma check_method_nt stk t n d : is_utf8 sl d -> at_index sl t (CNameAndType n d) ->
  (let* e := peel P (Resolved t) in validate_method_descriptor (S (S stk)) P e) = Ok tt <->
  exists s, utf8_at dec sl d s /\ method_descriptor s.
Proof.
  intros Hd Ht. rewrite <- (check_method_utf8 stk d) by auto.
  apply at_index_entry in Ht. apply peel_Ok in Ht. rewrite Ht. reflexivity.
Qed.

(** It suffices that the NameAndTypes [c] refers to have a Utf8 descriptor. *)
Lemma validate_entry_local stk c : (2 <= stk)%nat -> (forall nt n d, In nt (refs_of c) -> at_index sl nt (CNameAndType n d) -> is_utf8 sl d) ->
  validate_entry stk P major (entry_of dec c) = Ok tt <-> valid_constant dec sl major c.
Proof.
  intros Hstk Hnt. destruct stk as [|[|stk]]; [lia|lia|].
  assert (Hutf : forall d s, utf8_at dec sl d s -> is_utf8 sl d) by (intros d s (raw & ? & _); exists raw; auto).
  assert (Hfield : forall nt, (let* _ := ensure_ref_type P (Resolved nt) T_NAME_AND_TYPE in
     let* t := peel P (Resolved nt) in validate_field_descriptor P t) = Ok tt <-> described dec sl nt field_descriptor).
  { intro nt. rewrite obind_Ok. split.
    - intros ([] & H1 & H2). apply ens_nt in H1. destruct H1 as (n & d & H1).
      apply (check_field_nt _ _ _ H1) in H2. destruct H2 as (s & Hs & H2). exists n, d, s. auto.
    - intros (n & d & s & H1 & Hs & H2). exists tt. split; [apply ens_nt; eauto|]. apply (check_field_nt _ _ _ H1); eauto. }
  assert (Hmethod : forall nt, In nt (refs_of c) -> (let* _ := ensure_ref_type P (Resolved nt) T_NAME_AND_TYPE in
     let* t := peel P (Resolved nt) in validate_method_descriptor (S (S stk)) P t) = Ok tt <-> described dec sl nt method_descriptor).
  { intros nt Hin. rewrite obind_Ok. split.
    - intros ([] & H1 & H2). apply ens_nt in H1. destruct H1 as (n & d & H1).
      apply (check_method_nt _ _ _ _ (Hnt _ _ _ Hin H1) H1) in H2. destruct H2 as (s & Hs & H2). exists n, d, s. auto.
    - intros (n & d & s & H1 & Hs & H2). exists tt. split; [apply ens_nt; eauto|]. apply (check_method_nt _ _ _ _ (Hnt _ _ _ Hin H1) H1); eauto. }
  assert (Hpair : forall x (m : outcome unit) (Q : Prop), (m = Ok tt <-> Q) ->
     ((let* _ := ensure_ref_type P (Resolved x) T_CLASS_INFO in m) = Ok tt <-> is_class sl x /\ Q)).
  { intros x m Q HQ. rewrite obind_Ok. split.
    - intros ([] & H1 & H2). apply ens_class in H1. tauto.
    - intros (H1 & H2). exists tt. rewrite ens_class. tauto. }
  assert (Hafter : forall x (m : outcome unit) (Q : Prop), (Q -> is_utf8 sl x) -> (is_utf8 sl x -> (m = Ok tt <-> Q)) ->
     ((let* _ := ensure_ref_type P (Resolved x) T_UTF8 in m) = Ok tt <-> Q)).
  { intros x m Q HQu HQ. rewrite obind_Ok. split.
    - intros ([] & H1 & H2). apply ens_utf8 in H1. tauto.
    - intro HQ'. exists tt. rewrite ens_utf8. tauto. }
  assert (Hex : forall x (Q : str -> Prop), (exists s, utf8_at dec sl x s /\ Q s) -> is_utf8 sl x) by (intros x Q (s & Hs & _); eauto).
  destruct c; cbn [entry_of valid_constant]; try (cbn [validate_entry]; tauto).
  - destruct (dec raw); cbn [validate_entry]; tauto.
  - apply Hafter; [apply Hex|intros _; apply check_class].
  - apply ens_utf8.
  - apply Hpair, Hfield.
  - apply Hpair, Hmethod. right; left; auto.
  - apply Hpair, Hmethod. right; left; auto.
  - cbn [validate_entry]. rewrite obind_Ok. split.
    + intros ([] & _ & H). apply obind_Ok in H. destruct H as (e & He & H). apply obind_Ok in H. destruct H as ([] & Hv & H).
      apply ens_utf8 in H. split; auto. apply check_unqualified. apply obind_Ok. eauto.
    + intros [H1 H2]. exists tt. split; [apply ens_utf8; eapply Hex; eauto|].
      apply check_unqualified in H1. apply obind_Ok in H1. destruct H1 as (e & He & H1).
      apply obind_Ok. exists e. split; auto. apply obind_Ok. exists tt. split; auto. apply ens_utf8; auto.
  - apply ens_handle.
  - apply Hafter; [apply Hex|]. intro Hu. apply check_method_utf8; auto.
  - apply Hfield.
  - apply Hmethod. left; auto.
  - apply Hafter; [apply Hex|intros _; apply check_module].
  - apply Hafter; [apply Hex|intros _; apply check_binary].
Qed.
Lemma validate_entry_iff stk c : (2 <= stk)%nat -> nts_valid ->
  validate_entry stk P major (entry_of dec c) = Ok tt <-> valid_constant dec sl major c.
Proof. intros Hstk Hnt. apply validate_entry_local; auto. intros nt n d _. apply Hnt. Qed.
End WithDec.
