(** * The constant pool: where reading it can panic. *)
From Verif Require Import Base M_Names M_Descriptors M_ConstantPool M_Class
  S_Lang S_Names S_Format S_Pool S_Items S_Env S_Safe P_Names P_Descriptors P_Reads P_Tac P_Pool P_Pool2 P_Pool3 P_Pool4 P_Refs P_Safe.
From Coq Require Import ZifyBool ZifyNat ZifyN.

Lemma ends_mono {A} (Q Q' : panic -> Prop) (R : A -> Prop) o : (forall x, Q x -> Q' x) -> ends Q R o -> ends Q' R o.
Proof. destruct o; cbn; auto. Qed.

(** ** One entry *)
Section Entry.
Variable E : env.
Variable bs : list byte.
Variable Q : panic -> Prop.
Notation runs := (runs_at bs Q).

Lemma run_cpref ix : runs ix any_result read_unresolved_cp_ref.
Proof. unfold read_unresolved_cp_ref. eapply runs_bind; [apply run_u2|]. intros; apply runs_ret_any; lia. Qed.
Lemma run_constant_utf8 ix : runs ix any_result (read_constant_utf8 E).
Proof.
  unfold read_constant_utf8. eapply runs_bind; [apply run_u2|]. intros len i1 _ L1.
  eapply runs_bind; [apply runs_get_bytes; lia|]. intros bs' i2 [-> ->] _. eapply runs_bind; [apply runs_get_ix; lia|]. intros ix' i2 [-> ->] _.
  destruct (N.ltb_spec (blen bs) (i1 + len)); [exact I|].
  eapply runs_bind.
  { apply runs_lift with (R := fun _ => True); [lia|]. unfold slice.
    replace ((i1 <=? i1 + len) && (i1 + len <=? blen bs)) with true by lia. exact I. }
  intros data i2 [_ ->] L2. eapply runs_bind; [apply runs_set_ix; lia|]. intros _ i3 -> L3.
  destruct (cesu8 E data); apply runs_ret_any; lia.
Qed.
Lemma run_methodhandle ix : runs ix any_result read_constant_methodhandle.
Proof.
  unfold read_constant_methodhandle. eapply runs_bind; [apply run_u1|]. intros n i1 _ L1. eapply runs_bind with (R := any_result).
  { destruct n as [|n]; [exact I|]. do 4 (try destruct n as [n|n|]); first [exact I|apply runs_ret_any; lia]. }
  intros k i2 _ L2. eapply runs_bind; [apply run_cpref|]. intros; apply runs_ret_any; lia.
Qed.
Lemma run_entry major tag ix : runs ix any_result (read_entry E major tag).
Proof.
  unfold read_entry. cbv zeta.
  destruct tag as [|n]; [exact I|]. do 5 (try destruct n as [n|n|]); try exact I;
  try match goal with |- context [if ?b then _ else _] => destruct b; [|exact I] end;
  open_readers; first [apply run_constant_utf8 | apply run_methodhandle | idtac];
  repeat first [ apply runs_ret_any; lia
    | eapply runs_bind; [first [apply run_cpref|apply run_u2|apply run_u4|apply run_u8]|intros] ].
Qed.
Lemma run_entry_reader major ix : runs ix (fun _ ix' => ix < ix') (entry_reader E major).
Proof.
  unfold entry_reader. eapply runs_bind; [apply run_u1|]. intros t i1 [-> _] L1. eapply runs_bind; [apply run_entry|]. intros e i2 _ L2.
  eapply runs_weaken; [apply runs_ret; lia|]. intros a i3 _ [_ ->]. lia.
Qed.
End Entry.

(** ** The loop over the entries *)
Section Loop.
Variable E : env.
Lemma pool_loop_entries fuel major count i bs ix : i < count -> count < 65536 ->
  pool_loop E (S fuel) major count i bs ix =
  bind (entry_reader E major) (fun te =>
     if (fst te =? 5) || (fst te =? 6) then
       cp_ix <- lift (u16_result E (i + 2)) ;; es <- pool_loop E fuel major count cp_ix ;; ret (snd te :: EUnused :: es)
     else es <- pool_loop E fuel major count (i + 1) ;; ret (snd te :: es)) bs ix.
Proof.
  intros Hi Hc. cbn [pool_loop]. replace (i <? count) with true by lia. unfold entry_reader, bind.
  destruct (read_u1 bs ix) as [[tag ix1]| | |]; auto. destruct (read_entry E major tag bs ix1) as [[e ix2]| | |]; auto.
  rewrite (u16_small E (i + 1)) by lia. unfold lift, ret. cbn [fst snd]. replace (i + 1 + 1) with (i + 2) by lia. reflexivity.
Qed.
(** Reading the table from [ix] on, the next index being [i], the index overflows. *)
Definition overflows bs major count i ix (x : panic) : Prop :=
  x = POverflow /\ overflow_checks E = true /\ count = 65535 /\
  exists pre w post cs c, bs = pre ++ w ++ post /\ ix = blen pre /\ many (constant_lang major) (cs ++ [c]) w
    /\ is_wide c = true /\ i + fold_right (fun c n => width c + n) 0 cs = 65534.

Lemma ends_pool_loop bs major count fuel : fits E bs -> count < 65536 -> forall i ix, ix <= blen bs -> blen bs < ix + N.of_nat fuel ->
  ends (overflows bs major count i ix) (fun r => ix <= snd r <= blen bs) (pool_loop E fuel major count i bs ix).
Proof.
  intros Hfit Hc. induction fuel as [|fuel IH]; intros i ix Hix Hfuel; [lia|].
  destruct (N.ltb_spec i count) as [Hi|Hi]; [|cbn [pool_loop]; replace (i <? count) with false by lia; cbn; lia].
  rewrite pool_loop_entries by auto. unfold bind.
  pose proof (run_entry_reader E bs (fun _ => False) major ix) as Hrun. unfold runs_at in Hrun.
  destruct (entry_reader E major bs ix) as [[te ix1]| | |] eqn:He; cbn in Hrun; try contradiction; [|exact I].
  apply (reads_entry E major) in He; auto. destruct He as (pre & w & post & Hbs & Hpre & Hix1 & c & -> & Hw). cbn [fst snd].
  rewrite tag_wide. assert (Hstep : forall i' x, i' = i + width c -> overflows bs major count i' ix1 x -> overflows bs major count i ix x).
  { intros i' x -> (-> & Hch & -> & pre' & w' & post' & cs & c' & Hbs' & Hpre' & Hm & Hwide & Hsum). split; [auto|]. split; [auto|]. split; [auto|].
    rewrite Hbs in Hbs'. rewrite app_assoc in Hbs'. apply app_eq_blen in Hbs'; [|rewrite blen_app; lia]. destruct Hbs' as [Hp ->].
    exists pre, (w ++ w'), post', (c :: cs), c'. rewrite <- app_assoc. split; [congruence|]. split; [auto|]. split; [cbn [app many]; apply cat_intro; auto|]. split; auto.
    cbn [fold_right]. lia. }
  destruct (is_wide c) eqn:Hw2.
  - destruct (N.ltb_spec (i + 2) 65536) as [Hs|Hs].
    + rewrite u16_small by auto. cbn [lift].
      specialize (IH (i + 2) ix1 ltac:(lia) ltac:(lia)).
      destruct (pool_loop E fuel major count (i + 2) bs ix1) as [[es ix2]| | |]; cbn in IH |- *; auto; [lia|].
      apply (Hstep (i + 2)); auto. unfold width. rewrite Hw2. reflexivity.
    + assert (Hi2 : i = 65534) by lia. subst i. assert (Hcc : count = 65535) by lia. subst count. change (65534 + 2) with 65536.
      unfold u16_result. change (65536 <? 65536) with false. cbv iota. destruct (overflow_checks E) eqn:Hov; cbn [lift].
      * cbn. split; auto. split; auto. split; auto. exists pre, w, post, [], c. split; auto. split; auto.
        split; [exists w, []; rewrite app_nil_r; split; auto; split; [auto|reflexivity]|]. auto.
      * change (65536 mod 65536) with 0. specialize (IH 0 ix1 ltac:(lia) ltac:(lia)).
        destruct (pool_loop E fuel major 65535 0 bs ix1) as [[es ix2]| | |]; cbn in IH |- *; auto; [lia|].
        destruct IH as (_ & IH & _). congruence.
  - specialize (IH (i + 1) ix1 ltac:(lia) ltac:(lia)).
    destruct (pool_loop E fuel major count (i + 1) bs ix1) as [[es ix2]| | |]; cbn in IH |- *; auto; [lia|].
    apply (Hstep (i + 1)); auto. unfold width. rewrite Hw2. reflexivity.
Qed.
End Loop.

(** ** Resolution never panics *)
Lemma ends_resolve_ref Q r i len : ends Q (fun _ => True) (resolve_ref r i len).
Proof. destruct r; cbn [resolve_ref]; [destruct (_ =? _); [exact I|]; destruct (_ <=? _); exact I|exact I]. Qed.
Lemma ends_resolve_entry Q e i len : ends Q (fun _ => True) (resolve_entry e i len).
Proof.
  destruct e; cbn [resolve_entry]; cbv zeta; try exact I;
  repeat first [exact I | eapply ends_bind; [apply ends_resolve_ref|intros ? _ _]].
Qed.
Lemma ends_resolve Q len es : forall i, ends Q (fun _ => True) (resolve_from len i es).
Proof.
  induction es as [|e es IH]; intro i; cbn [resolve_from]; [exact I|]. eapply ends_bind; [apply ends_resolve_entry|]. intros ? _ _.
  eapply ends_bind; [apply IH|]. intros; exact I.
Qed.

(** ** Validation panics only on chains of NameAndTypes *)
Section Validate.
Variable dec : list byte -> option str.
Variable cs : list constant.
Notation sl := (slots_of cs).
Notation P := (pool_of dec sl).
Hypothesis Hrefs : forall i c, at_index sl i c -> good_refs i (plen P) c.

Lemma peel_good i c t : at_index sl i c -> In t (refs_of c) -> exists e, peel P (Resolved t) = Ok e /\ entry_at dec cs t e.
Proof.
  intros Hi Ht. apply Hrefs in Hi. unfold good_refs in Hi. rewrite Forall_forall in Hi. apply Hi in Ht. destruct Ht as [_ Ht].
  unfold peel, entry_at. destruct (nth_error P (N.to_nat t)) as [e|] eqn:He; eauto. apply nth_error_None in He. unfold plen in Ht. lia.
Qed.
Lemma ends_str_check Q (e : entry) (chk : str -> outcome bool) m : (forall s, exists b, chk s = Ok b) ->
  ends Q (fun _ => True) (let* x := entry_str e in let* ok := chk x in if (ok : bool) then Ok tt else fail m).
Proof.
  intro H. eapply ends_bind with (R := fun _ => True); [destruct e; exact I|]. intros s _ _. destruct (H s) as [b ->]. cbn [obind]. destruct b; exact I.
Qed.
Lemma check_Ok (chk : str -> outcome bool) (R : str -> Prop) : (forall s, exists b, chk s = Ok b /\ (b = true <-> R s)) -> forall s, exists b, chk s = Ok b.
Proof. intros H s. destruct (H s) as (b & Hb & _); eauto. Qed.
Lemma ends_ensure Q i c t T : at_index sl i c -> In t (refs_of c) -> ends Q (fun _ => True) (ensure_ref_type P (Resolved t) T).
Proof.
  intros Hi Ht. unfold ensure_ref_type. destruct (peel_good i c t Hi Ht) as (e & -> & _). cbn [obind]. unfold ensure_type. destruct (contains _ _); exact I.
Qed.
(** The recursion of [validate_method_descriptor]. *)
Lemma ends_method_descriptor stk : forall i c t e, at_index sl i c -> In t (refs_of c) -> entry_at dec cs t e ->
  ends (fun x => x = PStackOverflow /\ nt_chain cs stk t) (fun _ => True) (validate_method_descriptor stk P e).
Proof.
  induction stk as [|stk IH]; intros i c t e Hi Ht He; cbn [validate_method_descriptor]; [cbn; auto|].
  assert (Hstr : ends (fun x => x = PStackOverflow /\ nt_chain cs (S stk) t) (fun _ => True)
    (let* x := entry_str e in let* ok := is_method_descriptor x in if (ok : bool) then Ok tt else fail (lit "Invalid method descriptor"))).
  { apply ends_str_check. apply (check_Ok _ _ is_method_descriptor_spec). }
  destruct e; try exact Hstr. clear Hstr.
  apply entry_at_cases in He. destruct He as [[_ He]|[[_ He]|(c' & Hc' & He)]]; try discriminate.
  destruct c' as [raw| | | | | | | | | |n d| | | | | |]; cbn [entry_of] in He; try discriminate; [destruct (dec raw); discriminate|]. injection He as -> ->.
  destruct (peel_good t _ d Hc') as (e' & -> & He'); [right; left; reflexivity|]. cbn [obind].
  eapply ends_mono; [|eapply (IH t _ d e' Hc'); [right; left; reflexivity|exact He']].
  cbn beta. intros x [-> Hch]. split; auto. cbn [nt_chain]. eauto.
Qed.
Lemma ends_validate_entry stk major c i : (1 <= stk)%nat -> at_index sl i c ->
  ends (fun x => x = PStackOverflow /\ exists nt, method_constant c nt /\ nt_chain cs stk nt) (fun _ => True)
    (validate_entry stk P major (entry_of dec c)).
Proof.
  intros Hstk Hi. set (Q := fun x => _).
  assert (Hstr : forall t (f : entry -> outcome unit), In t (refs_of c) -> (forall e, ends Q (fun _ => True) (f e)) ->
    ends Q (fun _ => True) (let* _ := ensure_ref_type P (Resolved t) T_UTF8 in let* e := peel P (Resolved t) in f e)).
  { intros t f Ht Hf. eapply ends_bind; [eapply ends_ensure; eauto|]. intros _ _ _. destruct (peel_good i c t Hi Ht) as (e & -> & _). cbn [obind]. apply Hf. }
  assert (Hclass : forall e, ends Q (fun _ => True) (validate_classinfo_name e)).
  { intro e. apply (ends_str_check Q e (fun x => if is_binary_name x then Ok true else is_array_descriptor x)).
    intro s. destruct (is_binary_name s); [eauto|]. apply (check_Ok _ _ is_array_descriptor_spec). }
  assert (Hname : forall e, ends Q (fun _ => True) (validate_unqualified_name e)).
  { intro e. unfold validate_unqualified_name. eapply ends_bind with (R := fun _ => True); [destruct e; exact I|]. intros s _ _. destruct (_ || _); exact I. }
  assert (Hmod : forall e, ends Q (fun _ => True) (validate_module_name e)).
  { intro e. unfold validate_module_name. eapply ends_bind with (R := fun _ => True); [destruct e; exact I|]. intros s _ _. destruct (is_module_name s); exact I. }
  assert (Hbin : forall e, ends Q (fun _ => True) (validate_binary_name e)).
  { intro e. unfold validate_binary_name. eapply ends_bind with (R := fun _ => True); [destruct e; exact I|]. intros s _ _. destruct (is_binary_name s); exact I. }
  assert (Hnt : forall t (f : entry -> outcome unit), In t (refs_of c) ->
    (forall n d, at_index sl t (CNameAndType n d) -> entry_at dec cs t (ENameAndType (Resolved n) (Resolved d)) -> ends Q (fun _ => True) (f (ENameAndType (Resolved n) (Resolved d)))) ->
    ends Q (fun _ => True) (let* _ := ensure_ref_type P (Resolved t) T_NAME_AND_TYPE in let* e := peel P (Resolved t) in f e)).
  { intros t f Ht Hf. eapply ends_bind; [eapply ends_ensure; eauto|]. intros [] H _. apply ens_nt in H. destruct H as (n & d & H).
    pose proof (at_index_entry dec cs _ _ H) as He. apply peel_Ok in He. rewrite He. cbn [obind]. apply Hf; auto. apply peel_Ok; auto. }
  assert (Hfield : forall t n d, at_index sl t (CNameAndType n d) -> ends Q (fun _ => True) (validate_field_descriptor P (ENameAndType (Resolved n) (Resolved d)))).
  { intros t n d Ht. cbn [validate_field_descriptor]. destruct (peel_good t _ d Ht) as (e' & -> & _); [right; left; reflexivity|]. cbn [obind].
    apply (ends_str_check Q e' is_field_descriptor). apply (check_Ok _ _ is_field_descriptor_spec). }
  assert (Hmethod : forall t, In t (refs_of c) -> method_constant c t -> forall e, entry_at dec cs t e -> ends Q (fun _ => True) (validate_method_descriptor stk P e)).
  { intros t Ht Hm e He. eapply ends_mono; [|eapply (ends_method_descriptor stk i c t e); eauto]. cbn beta. intros x [-> H]. split; eauto. }
  destruct c; cbn [entry_of]; try exact I; [destruct (dec raw); exact I|..]; cbn [validate_entry].
  - apply Hstr; [left; reflexivity|auto].
  - eapply ends_ensure; [exact Hi|left; reflexivity].
  - eapply ends_bind; [eapply ends_ensure; [exact Hi|left; reflexivity]|]. intros _ _ _. apply Hnt; [right; left; reflexivity|]. intros; eauto.
  - eapply ends_bind; [eapply ends_ensure; [exact Hi|left; reflexivity]|]. intros _ _ _. apply Hnt; [right; left; reflexivity|].
    intros; eapply Hmethod; [right; left; reflexivity|reflexivity|eassumption].
  - eapply ends_bind; [eapply ends_ensure; [exact Hi|left; reflexivity]|]. intros _ _ _. apply Hnt; [right; left; reflexivity|].
    intros; eapply Hmethod; [right; left; reflexivity|reflexivity|eassumption].
  - apply Hstr; [left; reflexivity|]. intro e. eapply ends_bind; [apply Hname|]. intros _ _ _. eapply ends_ensure; [exact Hi|right; left; reflexivity].
  - eapply ends_ensure; [exact Hi|left; reflexivity].
  - eapply ends_bind; [eapply ends_ensure; [exact Hi|left; reflexivity]|]. intros [] H _. apply ens_utf8 in H. destruct H as (raw & H).
    pose proof (at_index_entry dec cs _ _ H) as He. apply peel_Ok in He. rewrite He. cbn [obind entry_of]. destruct stk as [|stk]; [lia|].
    destruct (dec raw); cbn [validate_method_descriptor]; apply ends_str_check; apply (check_Ok _ _ is_method_descriptor_spec).
  - apply Hnt; [left; reflexivity|]. intros; eauto.
  - apply Hnt; [left; reflexivity|]. intros; eapply Hmethod; [left; reflexivity|reflexivity|eassumption].
  - apply Hstr; [left; reflexivity|auto].
  - apply Hstr; [left; reflexivity|auto].
Qed.
Lemma ends_validate stk major : (1 <= stk)%nat -> forall es i, (forall e, In e es -> In e P) ->
  ends (fun x => x = PStackOverflow /\ exists c nt, In c cs /\ method_constant c nt /\ nt_chain cs stk nt) (fun _ => True)
    (validate_from stk P major i es).
Proof.
  intros Hstk es. induction es as [|e es IH]; intros i Hin; cbn [validate_from]; [exact I|].
  eapply ends_bind with (R := fun _ => True); [|intros _ _ _; apply IH; intros; apply Hin; right; auto]. apply ends_ctx.
  assert (He : In e P) by (apply Hin; left; auto). apply In_nth_error in He. destruct He as (k & Hk).
  assert (Hat : entry_at dec cs (N.of_nat k) e) by (unfold entry_at; rewrite Nat2N.id; exact Hk).
  apply entry_at_cases in Hat. destruct Hat as [[_ ->]|[[_ ->]|(c & Hc & ->)]]; try exact I.
  eapply ends_mono; [|apply (ends_validate_entry stk major c _ Hstk Hc)]. cbn beta. intros x (-> & nt & H1 & H2). split; auto.
  exists c, nt. split; [apply in_slots; eauto|auto].
Qed.
End Validate.

(** ** A chain of as many NameAndTypes as there are slots never ends *)
Section Chain.
Variable cs : list constant.
Notation sl := (slots_of cs).
(** The index after [n] steps. *)
Fixpoint steps (n : nat) (i j : N) : Prop :=
  match n with
  | O => i = j
  | S n' => exists name desc, at_index sl i (CNameAndType name desc) /\ steps n' desc j
  end.
Lemma chain_steps n : forall i, nt_chain cs n i -> exists l, length l = n /\ (forall k j, nth_error l k = Some j -> steps k i j) /\ Forall (fun j => j < N.of_nat (length sl)) l.
Proof.
  induction n as [|n IH]; intros i H; [exists []; split; [auto|split; [intros [|k] j; discriminate|constructor]]|].
  destruct H as (nm & d & Hi & H). destruct (IH d H) as (l & Hl & Hs & Hb). exists (i :: l). split; [cbn; auto|]. split.
  - intros [|k] j Hk; cbn [nth_error] in Hk; [injection Hk as <-; reflexivity|]. exists nm, d. split; auto.
  - constructor; auto. unfold at_index in Hi. assert (Hn : nth_error sl (N.to_nat i) <> None) by congruence. apply nth_error_Some in Hn. lia.
Qed.
Lemma steps_trans n m : forall i j k, steps n i j -> steps m j k -> steps (n + m) i k.
Proof.
  induction n as [|n IH]; intros i j k H1 H2; cbn [steps Nat.add] in *; [subst; auto|]. destruct H1 as (nm & d & Hi & H1). exists nm, d. eauto.
Qed.
Lemma steps_split n m : forall i k, steps (n + m) i k -> exists j, steps n i j /\ steps m j k.
Proof.
  induction n as [|n IH]; intros i k H; cbn [steps Nat.add] in *; [exists i; auto|]. destruct H as (nm & d & Hi & H). apply IH in H. destruct H as (j & H1 & H2). exists j. split; eauto.
Qed.
Lemma steps_fun n : forall i j k, steps n i j -> steps n i k -> j = k.
Proof.
  induction n as [|n IH]; intros i j k H1 H2; cbn [steps] in *; [congruence|]. destruct H1 as (nm & d & Hi & H1). destruct H2 as (nm' & d' & Hi' & H2).
  unfold at_index in *. assert (d = d') by congruence. subst. eauto.
Qed.
Lemma chain_le m n : (n <= m)%nat -> forall i, nt_chain cs m i -> nt_chain cs n i.
Proof.
  revert n; induction m as [|m IH]; intros [|n] Hle i H; try exact I; [lia|]. destruct H as (nm & d & Hi & H). exists nm, d. split; auto. apply (IH n); auto. lia.
Qed.
Lemma steps_chain n : forall i j, steps n i j -> nt_chain cs n i.
Proof. induction n as [|n IH]; intros i j H; [exact I|]. destruct H as (nm & d & Hi & H). exists nm, d. eauto. Qed.
Lemma loop_endless p i : (0 < p)%nat -> steps p i i -> endless cs i.
Proof.
  intros Hp H n. assert (Hm : steps (n * p) i i).
  { induction n as [|n IH]; [reflexivity|]. cbn [Nat.mul]. eapply steps_trans; eauto. }
  apply (chain_le (n * p)); [nia|]. eapply steps_chain; eauto.
Qed.
Lemma reach_endless n i j : steps n i j -> endless cs j -> endless cs i.
Proof.
  intros H Hj m. revert i H. induction n as [|n IH] in m |- *; intros i H; cbn [steps] in H; [subst; apply Hj|].
  destruct m as [|m]; [exact I|]. destruct H as (nm & d & Hi & H). exists nm, d. split; auto.
Qed.
Lemma not_nodup (l : list N) : ~ NoDup l -> exists a b j, (a < b)%nat /\ nth_error l a = Some j /\ nth_error l b = Some j.
Proof.
  induction l as [|x l IH]; intro H; [exfalso; apply H; constructor|].
  destruct (in_dec N.eq_dec x l) as [Hin|Hin].
  - apply In_nth_error in Hin. destruct Hin as (b & Hb). exists 0%nat, (S b), x. split; [lia|auto].
  - destruct IH as (a & b & j & Hab & Ha & Hb).
    { intro Hn. apply H. constructor; auto. }
    exists (S a), (S b), j. split; [lia|auto].
Qed.
Lemma chain_endless n i : (length sl < n)%nat -> nt_chain cs n i -> endless cs i.
Proof.
  intros Hn H. destruct (chain_steps n i H) as (l & Hl & Hs & Hb).
  destruct (not_nodup l) as (a & b & j & Hab & Ha & Hb').
  { intro Hnd. assert (Hinc : incl l (map N.of_nat (seq 0 (length sl)))).
    { intros x Hx. rewrite Forall_forall in Hb. apply Hb in Hx. apply in_map_iff. exists (N.to_nat x). split; [lia|]. apply in_seq. lia. }
    apply NoDup_incl_length in Hinc; auto. rewrite map_length, seq_length in Hinc. lia. }
  apply Hs in Ha. apply Hs in Hb'. replace b with (a + (b - a))%nat in Hb' by lia. apply steps_split in Hb'. destruct Hb' as (j' & H1 & H2).
  assert (j' = j) by (eapply steps_fun; eauto). subst j'. eapply reach_endless; [exact Ha|]. apply (loop_endless (b - a)); auto. lia.
Qed.
End Chain.
