(** * The constants, one by one (for C53). *)
From Verif Require Import Base M_Names M_Descriptors M_ConstantPool M_Bytecode M_Attributes M_Class
  S_Lang S_Names S_Format S_Faults P_Names P_Descriptors P_Reads P_Tac P_Pool P_Pool2 P_Pool3 P_Pool4 P_Faults P_Faults2.
From Coq Require Import ZifyBool ZifyNat ZifyN.

Section WithEnv.
Variable E : env.
Hypothesis Hstk : (2 <= stack E)%nat.
Notation dec := (cesu8 E).
Notation wraps := (negb (overflow_checks E)).

Lemma pool_loop_unfold fuel major count i bs ix : i < count -> pool_loop E (S fuel) major count i bs ix =
  (te <- entry_reader E major ;;
   j <- lift (u16_result E (i + 1)) ;;
   if (fst te =? 5) || (fst te =? 6) then
     k <- lift (u16_result E (j + 1)) ;; es <- pool_loop E fuel major count k ;; ret (snd te :: EUnused :: es)
   else es <- pool_loop E fuel major count j ;; ret (snd te :: es)) bs ix.
Proof.
  intro Hi. cbn [pool_loop]. replace (i <? count) with true by lia. unfold entry_reader.
  rewrite bind_assoc. apply bind_cong. intros tag ? ?. rewrite bind_assoc. apply bind_cong. intros e ? ?. rewrite bind_ret. reflexivity.
Qed.
(** One constant read: the next index. *)
Definition next_index (i : N) (c : constant) : N := if i + width c <? 65536 then i + width c else i + width c - 65536.
Lemma one_constant fuel major count i c pre u v : fits E (pre ++ u ++ v) -> i < count -> count < 65536 -> constant_at wraps major i c u ->
  exists k, pool_loop E (S fuel) major count i (pre ++ u ++ v) (blen pre)
    = (es <- pool_loop E fuel major count (next_index i c) ;; ret (k es)) ((pre ++ u) ++ v) (blen (pre ++ u)).
Proof.
  intros Hf Hi Hc [Hu Hw]. rewrite pool_loop_unfold by auto.
  rewrite (step_ok E _ _ _ pre (tag_of c, raw_of dec c) u v (reads_entry E major)); auto; [|exists c; auto]. cbn [fst snd]. rewrite tag_wide.
  unfold bind at 1, lift at 1. rewrite u16_small by lia. unfold next_index, width in *. destruct (is_wide c).
  - exists (fun es => raw_of dec c :: EUnused :: es). unfold bind at 1, lift at 1. replace (i + 1 + 1) with (i + 2) by lia. destruct (N.ltb_spec (i + 2) 65536).
    + rewrite u16_small by auto. reflexivity.
    + replace (i + 2) with 65536 by lia. replace (65536 - 65536) with 0 by lia. destruct Hw as [Hw|Hw]; [lia|]. apply u16_top in Hw. rewrite Hw. reflexivity.
  - exists (fun es => raw_of dec c :: es). replace (i + 1 <? 65536) with true by lia. reflexivity.
Qed.
Lemma due_next wr count i c cs j : i < count -> (i + width c < 65536 \/ wr = true) -> due wr count (next_index i c) cs j -> due wr count i (c :: cs) j.
Proof. intros Hi Hw Hd. cbn [due]. split; auto. unfold next_index in Hd. destruct (N.ltb_spec (i + width c) 65536); auto. split; auto. destruct Hw; auto; lia. Qed.
Lemma due_inv wr count i c cs j : due wr count i (c :: cs) j -> i < count /\ (i + width c < 65536 \/ wr = true) /\ due wr count (next_index i c) cs j.
Proof. cbn [due]. unfold next_index. intros [Hi Hd]. split; auto. destruct (N.ltb_spec (i + width c) 65536); auto. destruct Hd; auto. Qed.
Lemma due_lt wr count cs : forall i j, due wr count i cs j -> j < count.
Proof. induction cs as [|c cs IH]; intros i j H; [cbn in H; destruct H; subst; auto|]. apply due_inv in H. destruct H as (_ & _ & H). eauto. Qed.

Lemma pool_loop_bad major count fuel : count < 65536 -> forall i pre rest, fits E (pre ++ rest) -> (length rest < fuel)%nat ->
  ~ is_ok (pool_loop E fuel major count i (pre ++ rest) (blen pre)) ->
  exists cs u v j, rest = u ++ v /\ many (constant_lang major) cs u /\ due wraps count i cs j /\ ~ exists c, starts_with (constant_at wraps major j c) v.
Proof.
  intro Hc. induction fuel as [|fuel IH]; intros i pre rest Hf Hfuel Hbad; [lia|]. destruct (N.ltb_spec i count) as [Hi|Hi].
  2:{ exfalso. apply Hbad. cbn [pool_loop]. replace (i <? count) with false by lia. exact I. }
  assert (Hdec : (exists c, starts_with (constant_at wraps major i c) rest) \/ ~ exists c, starts_with (constant_at wraps major i c) rest).
  { destruct (entry_reader E major (pre ++ rest) (blen pre)) as [[te ix]| | |] eqn:He.
    2-4: right; intros (c & u & v & -> & Hu & _); pose proof (proj2 (reads_not_ok E _ _ pre (u ++ v) (reads_entry E major) Hf)) as H0; clear -He Hu Hf;
      assert (H : entry_reader E major (pre ++ u ++ v) (blen pre) = Ok ((tag_of c, raw_of dec c), blen pre + blen u))
        by (apply (reads_entry E major); auto; [rewrite !blen_app; lia|]; exists pre, u, v; repeat split; auto; exists c; auto); congruence.
    apply (reads_entry E major) in He; auto; [|rewrite blen_app; lia]. destruct He as (pre' & u & v & Heq & Hb & -> & c & -> & Hu).
    apply app_eq_blen in Heq; auto. destruct Heq as [<- ->]. destruct (N.ltb_spec (i + width c) 65536) as [Hw|Hw].
    - left. exists c, u, v. split; auto. split; auto.
    - destruct wraps eqn:Hwr; [left; exists c, u, v; split; auto; split; auto|right]. intros (c' & u' & v' & Heq & Hu' & [Hw'|Hw']); [|discriminate].
      assert (H : entry_reader E major (pre ++ u ++ v) (blen pre) = Ok ((tag_of c, raw_of dec c), blen pre + blen u))
        by (apply (reads_entry E major); auto; [rewrite !blen_app; lia|]; exists pre, u, v; repeat split; auto; exists c; auto).
      assert (H' : entry_reader E major (pre ++ u' ++ v') (blen pre) = Ok ((tag_of c', raw_of dec c'), blen pre + blen u'))
        by (rewrite <- Heq; apply (reads_entry E major); auto; [rewrite !blen_app; lia|]; exists pre, u', v'; rewrite <- Heq; repeat split; auto; exists c'; auto).
      rewrite <- Heq, H in H'. injection H' as Ht _ _. assert (is_wide c = is_wide c') by (rewrite <- !tag_wide, Ht; reflexivity). unfold width in *. rewrite H0 in Hw. lia. }
  destruct Hdec as [(c & u & v & -> & Hu)|Hno]; [|exists [], [], rest, i; split; [reflexivity|]; split; [reflexivity|]; split; [split; auto|auto]].
  destruct (one_constant fuel major count i c pre u v Hf Hi Hc Hu) as (k & Hk). rewrite Hk in Hbad.
  assert (Hbad' : ~ is_ok (pool_loop E fuel major count (next_index i c) ((pre ++ u) ++ v) (blen (pre ++ u)))).
  { intro Hok. apply Hbad. unfold bind. destruct (pool_loop E fuel major count _ _ _) as [[]| | |]; try contradiction. exact I. }
  pose proof (constant_nonempty E _ _ _ (proj1 Hu)) as Hne.
  apply IH in Hbad'; [|rewrite <- app_assoc; exact Hf|rewrite app_length in Hfuel; unfold blen in Hne; lia].
  destruct Hbad' as (cs & u' & v' & j & -> & Hm & Hd & Hno). exists (c :: cs), (u ++ u'), v', j. split; [rewrite app_assoc; reflexivity|].
  split; [apply cat_intro; [apply Hu|auto]|]. split; auto. apply due_next; auto. apply Hu.
Qed.
Lemma pool_loop_fails major count cs : count < 65536 -> forall fuel i j pre u v, fits E (pre ++ u ++ v) -> (length (u ++ v) < fuel)%nat ->
  many (constant_lang major) cs u -> due wraps count i cs j -> exists fuel', (length v < fuel')%nat /\
  fails_as (pool_loop E fuel major count i (pre ++ u ++ v) (blen pre)) (pool_loop E fuel' major count j ((pre ++ u) ++ v) (blen (pre ++ u))).
Proof.
  intro Hc. induction cs as [|c cs IH]; intros fuel i j pre u v Hf Hfuel Hm Hd.
  - cbn in Hm. unfold eps in Hm. subst u. destruct Hd as [-> _]. exists fuel. rewrite app_nil_r. split; auto. apply fails_as_refl.
  - destruct Hm as (u1 & u2 & -> & Hu1 & Hm). apply due_inv in Hd. destruct Hd as (Hi & Hw & Hd). destruct fuel as [|fuel]; [lia|].
    pose proof (constant_nonempty E _ _ _ Hu1) as Hne. rewrite <- app_assoc in *.
    destruct (one_constant fuel major count i c pre u1 (u2 ++ v) Hf Hi Hc) as (k & Hk); [split; auto|]. rewrite Hk.
    destruct (IH fuel (next_index i c) j (pre ++ u1) u2 v) as (fuel' & Hl & Has); auto; [rewrite <- app_assoc; exact Hf|rewrite app_length in Hfuel; unfold blen in Hne; lia|].
    exists fuel'. split; auto. eapply fails_as_trans; [apply bind_fails_as|]. rewrite (app_assoc pre u1 u2). exact Has.
Qed.
(** ** Texts *)
Definition constant_text (ix : N) (text : str) : Prop :=
  (exists n, ix <= n <= ix + 3 /\ cut_short text n)
  \/ text = lit "Unexpected end of stream reading CONSTANT_Utf8 at index " ++ show_N (ix + 3)
  \/ (exists k, text = lit "Unexpected reference kind " ++ show_N k ++ lit " when reading CONSTANT_methodhandle at index " ++ show_N (ix + 1))
  \/ (exists t major, text = lit "Unexpected constant pool entry type " ++ show_N t ++ lit " at index " ++ show_N ix
        ++ lit " for classfile major version " ++ show_N major).
Lemma cut8 bs ix e : read_u8 bs ix = Err e -> exists t, e = new_err t /\ cut_short t ix.
Proof.
  unfold read_u8, byte_at. destruct (_ <? _); [|repeat (destruct (nth_error _ _); cbn [obind]); discriminate]. intros [= <-]. eexists. split; [reflexivity|]. exists "u8"%string. cbn [In]. split; auto.
Qed.
Lemma u1_Ok_ix bs ix a ix' : read_u1 bs ix = Ok (a, ix') -> ix' = ix + 1.
Proof. unfold read_u1, byte_at. destruct (_ <? _); [discriminate|]. destruct (nth_error _ _); cbn [obind]; try discriminate. intros [= _ <-]. reflexivity. Qed.
(** [q] started at [ix + k], [k] from 1 to 3, says what it should. *)
Definition says_constant {X} (k : N) (q : parser X) : Prop := forall bs ix e, q bs (ix + k) = Err e -> constant_text ix (display_err e).
Lemma sc_u2 k : k <= 3 -> says_constant k read_u2.
Proof. intros Hk bs ix e H. apply cut2 in H. destruct H as (t & -> & H). rewrite display_new. left. exists (ix + k). split; auto. lia. Qed.
Lemma sc_u1 k : k <= 3 -> says_constant k read_u1.
Proof. intros Hk bs ix e H. apply cut1 in H. destruct H as (t & -> & H). rewrite display_new. left. exists (ix + k). split; auto. lia. Qed.
Lemma sc_u4 k : k <= 3 -> says_constant k read_u4.
Proof. intros Hk bs ix e H. apply cut4 in H. destruct H as (t & -> & H). rewrite display_new. left. exists (ix + k). split; auto. lia. Qed.
Lemma sc_u8 k : k <= 3 -> says_constant k read_u8.
Proof. intros Hk bs ix e H. apply cut8 in H. destruct H as (t & -> & H). rewrite display_new. left. exists (ix + k). split; auto. lia. Qed.
Lemma sc_ret {X} k (a : X) : says_constant k (ret a).
Proof. intros bs ix e. discriminate. Qed.
Lemma sc_bind2 {X} k (f : N -> parser X) : k <= 3 -> (forall a, says_constant (k + 2) (f a)) -> says_constant k (n <- read_u2 ;; f n).
Proof.
  intros Hk Hf bs ix e. unfold bind. destruct (read_u2 bs (ix + k)) as [[a ix']|x| |] eqn:H; try discriminate; [apply u2_Ok_ix in H; subst ix'; rewrite <- N.add_assoc; apply Hf|].
  intros [= <-]. apply (sc_u2 k Hk bs). exact H.
Qed.
Lemma sc_bind1 {X} k (f : N -> parser X) : k <= 3 -> (forall a, says_constant (k + 1) (f a)) -> says_constant k (n <- read_u1 ;; f n).
Proof.
  intros Hk Hf bs ix e. unfold bind. destruct (read_u1 bs (ix + k)) as [[a ix']|x| |] eqn:H; try discriminate; [apply u1_Ok_ix in H; subst ix'; rewrite <- N.add_assoc; apply Hf|].
  intros [= <-]. apply (sc_u1 k Hk bs). exact H.
Qed.
Lemma sc_last {X Y} k (q : parser X) (f : X -> parser Y) : says_constant k q -> (forall a bs ix e, f a bs ix <> Err e) -> says_constant k (bind q f).
Proof. intros Hq Hf bs ix e. unfold bind. destruct (q bs (ix + k)) as [[a ix']|x| |] eqn:H; try discriminate; [intro H'; destruct (Hf _ _ _ _ H')|]. intros [= <-]. eapply Hq; eauto. Qed.
Lemma sc_ref k : k <= 3 -> says_constant k read_unresolved_cp_ref.
Proof. intro Hk. apply sc_last; [apply sc_u2; auto|intros ? ? ? ?; discriminate]. Qed.
Lemma sc_ref_bind {X} k (f : cpref -> parser X) : k <= 3 -> (forall a, says_constant (k + 2) (f a)) -> says_constant k (n <- read_unresolved_cp_ref ;; f n).
Proof.
  intros Hk Hf bs ix e H. unfold read_unresolved_cp_ref in H. rewrite bind_assoc in H. revert H. apply (sc_bind2 k); auto. intros a bs' ix' e'. rewrite bind_ret. apply Hf.
Qed.
Lemma pfail_at_says {X Y} f (k : X -> parser Y) bs ix e : bind (pfail_at f) k bs ix = Err e -> display_err e = f ix.
Proof. unfold bind, pfail_at. intro H. assert (e = new_err (f ix)) as -> by congruence. apply display_new. Qed.
Lemma slice_no_err' bs i j bs' ix e : lift (slice bs i j) bs' ix <> Err e.
Proof. unfold lift. destruct (slice bs i j) eqn:H; try discriminate. intros _. apply (slice_no_err bs i j e0). exact H. Qed.
Lemma entry_says major bs ix e : entry_reader E major bs ix = Err e -> constant_text ix (display_err e).
Proof.
  unfold entry_reader. unfold bind at 1. destruct (read_u1 bs ix) as [[tag ix1]|x| |] eqn:H1; try discriminate.
  2:{ intros [= <-]. apply cut1 in H1. destruct H1 as (t & -> & H). rewrite display_new. left. exists ix. split; auto. lia. }
  apply u1_Ok_ix in H1. subst ix1.
  assert (Hgo : says_constant 1 (read_entry E major tag)).
  { assert (Hun : says_constant 1 (pfail_at (fun ix => lit "Unexpected constant pool entry type " ++ show_N tag
      ++ lit " at index " ++ show_N (ix - 1) ++ lit " for classfile major version " ++ show_N major) : parser entry)).
    { intros bs' ix' e' [= <-]. rewrite display_new. right; right; right. exists tag, major. replace (ix' + 1 - 1) with ix' by lia. reflexivity. }
    assert (Hutf : says_constant 1 (read_constant_utf8 E)).
    { unfold read_constant_utf8. apply sc_bind2; [lia|]. intros len bs' ix' e'. unfold bind at 1, get_bytes at 1. unfold bind at 1, get_ix at 1. destruct (_ <? _).
      - intros [= <-]. rewrite display_new. right; left. replace (ix' + (1 + 2)) with (ix' + 3) by lia. reflexivity.
      - unfold bind at 1. destruct (lift _ bs' _) as [[data ix2]|x| |] eqn:Hs; try discriminate; [|destruct (slice_no_err' _ _ _ _ _ _ Hs)]. unfold bind at 1, set_ix at 1. destruct (cesu8 E data); discriminate. }
    assert (Hmh : says_constant 1 read_constant_methodhandle).
    { unfold read_constant_methodhandle. apply sc_bind1; [lia|]. intros n.
      assert (Hk : forall kd, says_constant (1 + 1) (k <- ret kd ;; y <- read_unresolved_cp_ref ;; ret (EMethodHandle k y))).
      { intros kd bs' ix' e' H. rewrite bind_ret in H. revert H. apply (sc_ref_bind (1 + 1)); [lia|]. intro. apply sc_ret. }
      assert (Hbad : says_constant (1 + 1) (k <- pfail_at (fun ix => lit "Unexpected reference kind " ++ show_N n
                 ++ lit " when reading CONSTANT_methodhandle at index " ++ show_N (ix - 1)) ;; y <- read_unresolved_cp_ref ;; ret (EMethodHandle k y))).
      { intros bs' ix' e' He. apply pfail_at_says in He. rewrite He. right; right; left. exists n. replace (ix' + (1 + 1) - 1) with (ix' + 1) by lia. reflexivity. }
      destruct n as [|p]; [exact Hbad|]. do 4 (destruct p as [p|p|]; try exact Hbad; try apply Hk). }
    assert (H2 : forall X (f : cpref -> cpref -> X), says_constant 1 (x <- read_unresolved_cp_ref ;; y <- read_unresolved_cp_ref ;; ret (f x y))).
    { intros X f. apply sc_ref_bind; [lia|]. intro. apply sc_ref_bind; [lia|]. intro. apply sc_ret. }
    assert (H1' : forall X (f : cpref -> X), says_constant 1 (x <- read_unresolved_cp_ref ;; ret (f x))).
    { intros X f. apply sc_ref_bind; [lia|]. intro. apply sc_ret. }
    assert (H3 : forall X (f : N -> cpref -> X), says_constant 1 (x <- read_u2 ;; y <- read_unresolved_cp_ref ;; ret (f x y))).
    { intros X f. apply sc_bind2; [lia|]. intro. apply sc_ref_bind; [lia|]. intro. apply sc_ret. }
    assert (H4 : forall X (f : N -> X), says_constant 1 (x <- read_u4 ;; ret (f x))).
    { intros X f. apply sc_last; [apply sc_u4; lia|]. discriminate. }
    assert (H8 : forall X (f : N -> X), says_constant 1 (x <- read_u8 ;; ret (f x))).
    { intros X f. apply sc_last; [apply sc_u8; lia|]. discriminate. }
    unfold read_entry. cbv zeta. set (un := pfail_at _) in *. clearbody un.
    destruct tag as [|p]; [exact Hun|]. do 5 (destruct p as [p|p|]; try exact Hun; try exact Hutf; try apply H1'; try apply H2; try apply H3; try apply H4; try apply H8;
      try (destruct (_ <=? _); [first [exact Hmh|apply H1'|apply H3]|exact Hun])). }
  unfold bind. destruct (read_entry E major tag bs (ix + 1)) as [[en ix2]|x| |] eqn:H2; try discriminate. intros [= <-]. eapply Hgo; eauto.
Qed.

Definition says_at (i : N) {X} (r : outcome X) : Prop := forall e, r = Err e -> exists tail, display_err e = lit "Constant pool entry at index " ++ show_N i ++ tail.
Lemma resolve_ref_says r i len : says_at i (resolve_ref r i len).
Proof.
  unfold says_at, resolve_ref, fail. intros e H. destruct r as [t|t].
  - destruct (t =? i); [|destruct (len <=? t); [|discriminate H]]; match type of H with Err (new_err ?x) = _ => assert (e = new_err x) as -> by congruence end; rewrite display_new; eauto.
  - discriminate H.
Qed.
Lemma sa_bind i {X Y} (r : outcome X) (k : X -> outcome Y) : says_at i r -> (forall a, says_at i (k a)) -> says_at i (obind r k).
Proof. intros Hr Hk e. destruct r; cbn [obind]; try discriminate; [apply Hk|]. intros [= <-]. apply Hr. reflexivity. Qed.
Lemma sa_ok i {X} (a : X) : says_at i (Ok a). Proof. intros e. discriminate. Qed.
Lemma resolve_entry_says en i len : says_at i (resolve_entry en i len).
Proof. destruct en; cbn [resolve_entry]; repeat first [apply sa_ok|apply sa_bind; [apply resolve_ref_says|intro]]. Qed.
Lemma resolve_from_says len : forall es i e, resolve_from len i es = Err e -> exists j tail, display_err e = lit "Constant pool entry at index " ++ show_N j ++ tail.
Proof.
  induction es as [|en es IH]; intros i e; cbn [resolve_from]; [discriminate|]. destruct (resolve_entry en i len) as [en'|x| |] eqn:He; cbn [obind]; try discriminate.
  - destruct (resolve_from len (i + 1) es) as [r|x| |] eqn:Hr; cbn [obind]; try discriminate. intros [= <-]. eauto.
  - intros [= <-]. apply resolve_entry_says in He. eauto.
Qed.
Lemma validate_from_says stk P major : forall es i e, validate_from stk P major i es = Err e -> exists j, ends_with (display_err e) (lit " constant pool entry " ++ show_N j).
Proof.
  induction es as [|en es IH]; intros i e; cbn [validate_from]; [discriminate|]. unfold ctx. destruct (validate_entry stk P major en) as [[]|x| |]; cbn [obind]; try discriminate; [apply IH|].
  intro H. assert (e = with_context x (lit "constant pool entry " ++ show_N i)) as -> by congruence. exists i. rewrite display_ctx.
  destruct (contexts x); [exists (display_err x ++ lit " for")|exists (display_err x ++ lit " of")]; rewrite <- !app_assoc; reflexivity.
Qed.

(** ** The pool as a whole *)
Lemma pool_bad major pre rest : fits E (pre ++ rest) -> ~ is_ok (read_constant_pool E major (pre ++ rest) (blen pre)) ->
  (~ exists n, starts_with (u2 n) rest)
  \/ exists n cs u v, rest = u ++ v /\ (u2 n +++ many (constant_lang major) cs) u
     /\ ((exists i, due wraps n 1 cs i /\ ~ exists c, starts_with (constant_at wraps major i c) v)
         \/ (fills wraps n 1 cs /\ ~ Forall (valid_constant dec (slots_of cs) major) cs)).
Proof.
  intros Hf Hbad. unfold read_constant_pool in Hbad. apply (step_bad E _ _ _ _ _ (reads_u2 E)) in Hbad; auto.
  destruct Hbad as [[_ Hbad]|(n & u & v & -> & Hn & _ & Hbad)]; [left; exact Hbad|right]. unfold bind at 1, get_bytes at 1 in Hbad.
  assert (Hb : n < 65536) by (apply uint_bound in Hn; exact Hn).
  destruct (pool_loop E (S (length ((pre ++ u) ++ v))) major n 1 ((pre ++ u) ++ v) (blen (pre ++ u))) as [[es ix]| | |] eqn:Hl.
  2-4: destruct (pool_loop_bad major n (S (length ((pre ++ u) ++ v))) Hb 1 (pre ++ u) v) as (cs & u' & v' & j & -> & Hm & Hd & Hno);
    [rewrite <- app_assoc; exact Hf|rewrite (app_length (pre ++ u)); lia|rewrite Hl; cbn; auto|];
    exists n, cs, (u ++ u'), v'; split; [rewrite app_assoc; reflexivity|]; split; [apply cat_intro; auto|]; left; eauto.
  pose proof Hl as Hl'. apply pool_loop_spec in Hl'; auto; [|rewrite <- app_assoc; exact Hf|rewrite (blen_app _ v); lia|unfold blen; lia].
  destruct Hl' as (pre' & w' & post' & Heq & Hlen & -> & cs & -> & Hm & Hfl). apply app_eq_blen in Heq; auto. destruct Heq as [<- ->].
  exists n, cs, (u ++ w'), post'. split; [rewrite app_assoc; reflexivity|]. split; [apply cat_intro; auto|]. right. split; [exact Hfl|]. intro Hval. apply Hbad.
  unfold bind at 1. rewrite Hl. unfold bind at 1, lift at 1.
  assert (Hres : resolve_constant_pool (EZero :: flat_map (expand E) cs) = Ok (pool_of dec (slots_of cs))).
  { apply (resolve_pool_Ok E Hstk). split; auto. intros i c Hi. eapply (valid_good_refs E); eauto. rewrite Forall_forall in Hval. apply Hval. apply in_slots; eauto. }
  rewrite Hres. unfold bind at 1, lift at 1. apply (validate_pool_Ok E Hstk) in Hval. rewrite Hval. exact I.
Qed.
Lemma constant_told major pre n cs u v i : fits E (pre ++ u ++ v) -> (u2 n +++ many (constant_lang major) cs) u -> due wraps n 1 cs i ->
  (~ exists c, starts_with (constant_at wraps major i c) v) ->
  let r := read_constant_pool E major (pre ++ u ++ v) (blen pre) in
  ~ is_ok r /\ forall e, r = Err e -> constant_text (blen (pre ++ u)) (display_err e).
Proof.
  intros Hf (u1 & u2' & -> & Hn & Hm) Hd Hno. rewrite <- app_assoc in *. intro r. assert (Hb : n < 65536) by (apply uint_bound in Hn; exact Hn).
  destruct (pool_loop_fails major n cs Hb (S (length ((pre ++ u1) ++ u2' ++ v))) 1 i (pre ++ u1) u2' v) as (fuel & Hfuel & Has); auto;
    [rewrite <- app_assoc; exact Hf|rewrite (app_length (pre ++ u1)); lia|].
  assert (Hr : fails_as r (pool_loop E fuel major n i (((pre ++ u1) ++ u2') ++ v) (blen ((pre ++ u1) ++ u2')))).
  { unfold r, read_constant_pool. rewrite (step_ok E _ _ u2 pre n u1 (u2' ++ v) (reads_u2 E)); auto. unfold bind at 1, get_bytes at 1.
    eapply fails_as_trans; [apply bind_fails_as|exact Has]. }
  rewrite (app_assoc pre u1 u2'). destruct fuel as [|fuel]; [lia|]. pose proof (due_lt _ _ _ _ _ Hd) as Hi.
  assert (Hf' : fits E (((pre ++ u1) ++ u2') ++ v)) by (rewrite <- !app_assoc; exact Hf).
  rewrite pool_loop_unfold in Hr by auto.
  destruct (entry_reader E major (((pre ++ u1) ++ u2') ++ v) (blen ((pre ++ u1) ++ u2'))) as [[te ix]|x|x|] eqn:He.
  - pose proof He as He'. apply (reads_entry E major) in He'; auto; [|rewrite (blen_app _ v); lia]. destruct He' as (pre' & w & post & Heq & Hlen & -> & c & -> & Hw).
    apply app_eq_blen in Heq; auto. destruct Heq as [<- ->].
    assert (Hover : is_wide c = true /\ 65536 <= i + 2 /\ wraps = false).
    { destruct wraps eqn:Hwr; [exfalso; apply Hno; exists c, w, post; split; auto; split; auto|]. unfold constant_at, width in Hno.
      destruct (is_wide c) eqn:Hc; [|exfalso; apply Hno; exists c, w, post; split; auto; split; auto; left; unfold width; rewrite Hc; lia].
      split; auto. split; auto. destruct (N.lt_ge_cases (i + 2) 65536); auto. exfalso; apply Hno; exists c, w, post; split; auto; split; auto; left; unfold width; rewrite Hc; lia. }
    destruct Hover as (Hwide & Htop & Hwr). unfold bind at 1 in Hr. rewrite He in Hr. cbn [fst snd] in Hr. rewrite tag_wide, Hwide in Hr.
    unfold bind at 1, lift at 1 in Hr. rewrite u16_small in Hr by lia. unfold bind at 1, lift at 1 in Hr. replace (i + 1 + 1) with 65536 in Hr by lia.
    assert (Hp : u16_result E 65536 = Panic POverflow). { unfold u16_result. simpl. destruct (overflow_checks E); [reflexivity|discriminate Hwr]. }
    rewrite Hp in Hr. cbn [fails_as] in Hr. rewrite Hr. split; [cbn; auto|]. discriminate.
  - unfold bind at 1 in Hr. rewrite He in Hr. cbn [fails_as] in Hr. rewrite Hr. split; [cbn; auto|]. intros e [= <-]. eapply entry_says; eauto.
  - unfold bind at 1 in Hr. rewrite He in Hr. cbn [fails_as] in Hr. rewrite Hr. split; [cbn; auto|]. discriminate.
  - unfold bind at 1 in Hr. rewrite He in Hr. cbn [fails_as] in Hr. rewrite Hr. split; [cbn; auto|]. discriminate.
Qed.
Lemma constants_told major pre n cs u v : fits E (pre ++ u ++ v) -> (u2 n +++ many (constant_lang major) cs) u -> fills wraps n 1 cs ->
  ~ Forall (valid_constant dec (slots_of cs) major) cs ->
  let r := read_constant_pool E major (pre ++ u ++ v) (blen pre) in
  ~ is_ok r /\ forall e, r = Err e -> exists i, (exists tail, display_err e = lit "Constant pool entry at index " ++ show_N i ++ tail)
      \/ ends_with (display_err e) (lit " constant pool entry " ++ show_N i).
Proof.
  intros Hf (u1 & u2' & -> & Hn & Hm) Hfl Hval. rewrite <- app_assoc in *. intro r. assert (Hb : n < 65536) by (apply uint_bound in Hn; exact Hn).
  assert (Hl : pool_loop E (S (length ((pre ++ u1) ++ u2' ++ v))) major n 1 ((pre ++ u1) ++ u2' ++ v) (blen (pre ++ u1)) = Ok (flat_map (expand E) cs, blen (pre ++ u1) + blen u2')).
  { apply pool_loop_spec; auto; [rewrite <- app_assoc; exact Hf|rewrite !blen_app; lia|unfold blen; lia|]. exists (pre ++ u1), u2', v. repeat split; auto. exists cs. auto. }
  assert (Hr : r = (p <- lift (resolve_constant_pool (EZero :: flat_map (expand E) cs)) ;; _ <- lift (validate_constant_pool E p major) ;; ret p)
    ((pre ++ u1) ++ u2' ++ v) (blen (pre ++ u1) + blen u2')).
  { unfold r, read_constant_pool. rewrite (step_ok E _ _ u2 pre n u1 (u2' ++ v) (reads_u2 E)); auto. unfold bind at 1, get_bytes at 1. unfold bind at 1. rewrite Hl. reflexivity. }
  rewrite Hr. clear Hr r. unfold bind at 1 3, lift at 1 3. unfold bind, lift.
  destruct (resolve_constant_pool (EZero :: flat_map (expand E) cs)) as [P|x| |] eqn:Hres.
  - apply (resolve_pool_Ok E Hstk) in Hres. destruct Hres as [-> _].
    destruct (validate_constant_pool E (pool_of dec (slots_of cs)) major) as [[]|x| |] eqn:Hv.
    + exfalso. apply Hval. apply (validate_pool_Ok E Hstk). exact Hv.
    + split; [cbn; auto|]. intros e [= <-]. apply validate_from_says in Hv. destruct Hv as (j & Hv). exists j. auto.
    + split; [cbn; auto|]. discriminate.
    + split; [cbn; auto|]. discriminate.
  - split; [cbn; auto|]. intros e [= <-]. apply resolve_from_says in Hres. destruct Hres as (j & tail & Hj). exists j. left. eauto.
  - split; [cbn; auto|]. discriminate.
  - split; [cbn; auto|]. discriminate.
Qed.
End WithEnv.
