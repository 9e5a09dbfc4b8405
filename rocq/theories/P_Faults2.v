(** * The parser in steps: members, and what is left to do at each place (for C53). *)
From Verif Require Import Base M_Names M_Descriptors M_ConstantPool M_Bytecode M_Attributes M_Class
  S_Lang S_Names S_Format S_Env S_Faults P_Names P_Descriptors P_Reads P_Tac P_Refs P_Attributes P_Attr2 P_Attr3 P_Pool3 P_Pool4 P_Class P_Class2 P_Class3 P_Faults.
From Coq Require Import ZifyBool ZifyNat ZifyN.

Lemma NoDup_snoc {X} (l : list X) x : NoDup l -> ~ In x l -> NoDup (l ++ [x]).
Proof. intros Hl Hx. apply (NoDup_Add (a := x) (l := l)); auto. rewrite <- (app_nil_r l) at 1. apply Add_app. Qed.
Lemma NoDup_prefix {X} (l l' : list X) : NoDup (l ++ l') -> NoDup l.
Proof.
  induction l as [|x l IH]; intro H; [constructor|]. cbn in H. inversion H; subst. constructor; auto. intro Hin. apply H2. apply in_or_app. auto.
Qed.

Lemma bind_assoc {X Y Z} (p : parser X) (f : X -> parser Y) (g : Y -> parser Z) bs ix : bind (bind p f) g bs ix = bind p (fun a => bind (f a) g) bs ix.
Proof. unfold bind. destruct (p bs ix) as [[]| | |]; reflexivity. Qed.
Lemma bind_cong {X Y} (p : parser X) (f g : X -> parser Y) bs ix : (forall a bs' ix', f a bs' ix' = g a bs' ix') -> bind p f bs ix = bind p g bs ix.
Proof. intro H. unfold bind. destruct (p bs ix) as [[]| | |]; auto. Qed.
Lemma bind_ret {X Y} (a : X) (f : X -> parser Y) bs ix : bind (ret a) f bs ix = f a bs ix.
Proof. reflexivity. Qed.

Section WithEnv.
Variable E : env.
Hypothesis Hstk : (2 <= stack E)%nat.
Variable opts : parse_options.
Notation dec := (cesu8 E).
Notation wraps := (negb (overflow_checks E)).
Notation pool cs := (pool_of dec (slots_of cs)).
Notation A cs := (attribute_lang dec wraps opts (stack E) cs).
Notation F cs := (field_lang dec (slots_of cs) wraps opts (stack E)).

(** ** Loops over members: fields and methods *)
Definition same_ids {X} (seen ids : list X) : Prop := forall x, In x seen <-> In x ids.
Section Members.
Variables X H ID : Type.
Variable cs : list constant.
Variable ident : X -> ID.
Variable hident : H -> ID.
Variable mk : H -> list attr_info -> X.
Hypothesis ident_mk : forall h a, ident (mk h a) = hident h.
Variable head_lang : list X -> H -> lang.
Variable head : N -> list ID -> parser H.
Hypothesis reads_head : forall i seen ms, same_ids seen (map ident ms) -> reads E (head i seen) (head_lang ms).
Variable label : N -> str.
Variable loop : nat -> N -> list ID -> parser (list X).
Hypothesis loop_unfold : forall n i seen bs ix, loop (S n) i seen bs ix =
  (h <- head i seen ;; attributes <- pctx (label i) (read_attributes E (pool cs) opts (stack E)) ;;
   rest <- loop n (i + 1) (hident h :: seen) ;; ret (mk h attributes :: rest)) bs ix.
Hypothesis loop_0 : forall i seen bs ix, loop 0 i seen bs ix = Ok ([], ix).

(** Members [gs] after the members [ms]. *)
Inductive members : list X -> list X -> lang :=
| members_nil ms : members ms [] []
| members_cons ms h a gs u v w : head_lang ms h u -> attributes_lang dec (slots_of cs) wraps opts (stack E) a v ->
    members (ms ++ [mk h a]) gs w -> members ms (mk h a :: gs) (u ++ v ++ w).

Lemma same_ids_snoc seen ms h a : same_ids seen (map ident ms) -> same_ids (hident h :: seen) (map ident (ms ++ [mk h a])).
Proof.
  intros Hs x. rewrite map_app, in_app_iff. cbn [map In]. rewrite ident_mk. specialize (Hs x). tauto.
Qed.
Lemma one_member n i seen ms h a pre u v w : same_ids seen (map ident ms) -> fits E (pre ++ u ++ v ++ w) -> head_lang ms h u ->
  attributes_lang dec (slots_of cs) wraps opts (stack E) a v ->
  loop (S n) i seen (pre ++ u ++ v ++ w) (blen pre) =
  (rest <- loop n (i + 1) (hident h :: seen) ;; ret (mk h a :: rest)) ((pre ++ u ++ v) ++ w) (blen (pre ++ u ++ v)).
Proof.
  intros Hs Hf Hh Ha. rewrite loop_unfold. rewrite (step_ok E _ _ (head_lang ms) pre h u (v ++ w)); auto.
  rewrite (step_ok E _ _ (attributes_lang dec (slots_of cs) wraps opts (stack E)) (pre ++ u) a v w); auto; [|apply reads_pctx, reads_attributes|rewrite <- app_assoc; exact Hf].
  rewrite <- (app_assoc pre u v). reflexivity.
Qed.
Lemma members_fails_as ms gs u : members ms gs u -> forall n i seen pre v, (length gs <= n)%nat -> same_ids seen (map ident ms) -> fits E (pre ++ u ++ v) ->
  exists seen', same_ids seen' (map ident (ms ++ gs)) /\
  fails_as (loop n i seen (pre ++ u ++ v) (blen pre)) (loop (n - length gs) (i + N.of_nat (length gs)) seen' ((pre ++ u) ++ v) (blen (pre ++ u))).
Proof.
  induction 1 as [ms|ms h a gs u v w Hh Ha Hm IH]; intros n i seen pre post Hn Hs Hf.
  - exists seen. rewrite !app_nil_r. split; auto. cbn [length app]. rewrite Nat.sub_0_r, N.add_0_r. apply fails_as_refl.
  - destruct n as [|n]; [cbn in Hn; lia|].
    replace (pre ++ (u ++ v ++ w) ++ post) with (pre ++ u ++ v ++ (w ++ post)) in * by (rewrite <- !app_assoc; reflexivity).
    rewrite (one_member n i seen ms h a pre u v (w ++ post)); auto.
    destruct (IH n (i + 1) (hident h :: seen) (pre ++ u ++ v) post) as (seen' & Hs' & Has); [cbn in Hn; lia|apply same_ids_snoc; auto|rewrite <- !app_assoc; exact Hf|].
    exists seen'. split; [rewrite <- app_assoc in Hs'; exact Hs'|]. eapply fails_as_trans; [apply bind_fails_as|].
    cbn [length]. replace (S n - S (length gs))%nat with (n - length gs)%nat by lia. replace (i + N.of_nat (S (length gs))) with (i + 1 + N.of_nat (length gs)) by lia.
    replace (pre ++ u ++ v ++ w) with ((pre ++ u ++ v) ++ w) by (rewrite <- !app_assoc; reflexivity). exact Has.
Qed.
Lemma members_bad n : forall i seen ms pre rest, same_ids seen (map ident ms) -> fits E (pre ++ rest) -> ~ is_ok (loop n i seen (pre ++ rest) (blen pre)) ->
  exists gs u v, rest = u ++ v /\ members ms gs u /\ (length gs < n)%nat
    /\ ((~ exists h, starts_with (head_lang (ms ++ gs) h) v) \/ exists h u' v', v = u' ++ v' /\ head_lang (ms ++ gs) h u' /\ attrs_fault E opts cs v').
Proof.
  induction n as [|n IH]; intros i seen ms pre rest Hs Hf Hbad; [rewrite loop_0 in Hbad; contradiction Hbad; exact I|].
  rewrite loop_unfold in Hbad. apply (step_bad E _ _ (head_lang ms)) in Hbad; auto. destruct Hbad as [[_ Hbad]|(h & u & v & -> & Hh & _ & Hbad)].
  { exists [], [], rest. split; auto. split; [constructor|]. split; [cbn; lia|]. left. rewrite app_nil_r. exact Hbad. }
  apply (step_bad E _ _ (attributes_lang dec (slots_of cs) wraps opts (stack E))) in Hbad; [|apply reads_pctx, reads_attributes|rewrite <- app_assoc; exact Hf].
  destruct Hbad as [[Hbad _]|(a & u' & v' & -> & Ha & _ & Hbad)].
  { apply attrs_bad in Hbad; auto; [|rewrite <- app_assoc; exact Hf]. exists [], [], (u ++ v). split; auto. split; [constructor|]. split; [cbn; lia|]. right.
    exists h, u, v. rewrite app_nil_r. auto. }
  assert (Hbad' : ~ is_ok (loop n (i + 1) (hident h :: seen) (((pre ++ u) ++ u') ++ v') (blen ((pre ++ u) ++ u')))).
  { intro Hok. apply Hbad. unfold bind. destruct (loop n (i + 1) _ _ _) as [[]| | |]; try contradiction. exact I. }
  apply (IH _ _ (ms ++ [mk h a])) in Hbad'; [|apply same_ids_snoc; auto|rewrite <- !app_assoc; exact Hf].
  destruct Hbad' as (gs & w & z & -> & Hm & Hn & Hz). exists (mk h a :: gs), (u ++ u' ++ w), z. split; [rewrite <- !app_assoc; reflexivity|].
  split; [constructor; auto|]. split; [cbn; lia|]. rewrite <- app_assoc in Hz. exact Hz.
Qed.
(** The loop fails as the head of the next member, or as its attributes. *)
Lemma head_fails_as gs u n v pre : members [] gs u -> (length gs < n)%nat -> fits E (pre ++ u ++ v) ->
  exists seen', same_ids seen' (map ident gs) /\
  fails_as (loop n 0 [] (pre ++ u ++ v) (blen pre)) (head (N.of_nat (length gs)) seen' ((pre ++ u) ++ v) (blen (pre ++ u))).
Proof.
  intros Hm Hn Hf. destruct (members_fails_as _ _ _ Hm n 0 [] pre v) as (seen' & Hs & Has); [lia|intro; tauto|auto|]. exists seen'. split; [exact Hs|].
  eapply fails_as_trans; [exact Has|]. destruct (n - length gs)%nat as [|m] eqn:Hq; [lia|]. rewrite loop_unfold. apply bind_fails_as.
Qed.
Lemma attrs_fails_as gs u n h u' v pre : members [] gs u -> (length gs < n)%nat -> fits E (pre ++ u ++ u' ++ v) -> head_lang gs h u' ->
  fails_as (loop n 0 [] (pre ++ u ++ u' ++ v) (blen pre))
    (pctx (label (N.of_nat (length gs))) (read_attributes E (pool cs) opts (stack E)) ((pre ++ u ++ u') ++ v) (blen (pre ++ u ++ u'))).
Proof.
  intros Hm Hn Hf Hh. destruct (members_fails_as _ _ _ Hm n 0 [] pre (u' ++ v)) as (seen' & Hs & Has); [lia|intro; tauto|auto|].
  eapply fails_as_trans; [exact Has|]. destruct (n - length gs)%nat as [|m] eqn:Hq; [lia|]. rewrite loop_unfold.
  rewrite (step_ok E _ _ (head_lang gs) (pre ++ u) h u' v); auto; [|rewrite <- app_assoc; exact Hf].
  rewrite <- (app_assoc pre u u'). apply bind_fails_as.
Qed.
End Members.

(** ** Fields *)
(** The part of [fields_loop] before the attributes. *)
Definition field_head_parser (p : M_ConstantPool.pool) (i : N) (seen : list (str * field_desc)) : parser (N * str * field_desc) :=
  flags <- read_u2 ;;
  name <- pctx (lit "name of class field " ++ show_N i) (read_cp_utf8 p) ;;
  _ <- guard (is_unqualified_name name) (lit "Invalid unqualified name for class field " ++ show_N i) ;;
  d <- pctx (lit "descriptor of class field " ++ show_N i) (read_cp_utf8 p) ;;
  descriptor <- lift (parse_field_descriptor d 0) ;;
  _ <- guard (negb (field_id_mem (name, descriptor) seen))
         (lit "Class field " ++ show_N i ++ lit " is duplicate of previously-encountered field") ;;
  ret (from_bits_truncate field_flags flags, name, descriptor).
Lemma fields_loop_unfold p n i seen bs ix : fields_loop E p opts (S n) i seen bs ix =
  (head <- field_head_parser p i seen ;;
   attributes <- pctx (lit "class field " ++ show_N i) (read_attributes E p opts (stack E)) ;;
   rest <- fields_loop E p opts n (i + 1) ((snd (fst head), snd head) :: seen) ;;
   ret (mk_field (fst (fst head)) (snd (fst head)) (snd head) attributes :: rest)) bs ix.
Proof.
  cbn [fields_loop]. unfold field_head_parser. unfold bind.
  repeat (match goal with |- context [match ?x with Ok _ => _ | _ => _ end] => match x with context [match _ with _ => _ end] => fail 1 | _ => destruct x as [[]| | |]; try reflexivity end end).
Qed.

#[local] Hint Resolve reads_cp_utf8 reads_cp_utf8_opt reads_cp_classinfo reads_cp_classinfo_opt : reads.
Lemma reads_field_head cs i seen fs : same_ids seen (map field_id fs) -> reads E (field_head_parser (pool cs) i seen) (field_head dec cs fs).
Proof.
  intro Hseen. unfold field_head_parser. eapply reads_ext.
  - eapply reads_bind; [rd|]. intros flags _. eapply reads_unqualified. intro name.
    eapply reads_bind; [rd|]. intros d _. eapply reads_lift_bind. intros fd Hfd.
    eapply reads_guard_bind. intros _. rd.
  - intros [[fl name] fd] w. cbn [field_head]. split.
    + intros (flags & w1 & r1 & -> & H1 & name' & w2 & r2 & -> & H2 & d & w3 & r3 & -> & H3 & fd' & Hfd & Hg & -> & [= -> -> ->]). rewrite app_nil_r. split.
      * apply cat_intro; [exists flags; split; [auto|]; apply truncate_bits; reflexivity|]. apply cat_intro; auto. destruct H3 as (j & Hj & H3). exists j. split; auto.
        exists d. split; auto. apply (decides_iff _ _ (parse_field_descriptor_0 d)); auto.
      * rewrite <- (Hseen (name', fd')). apply (negb_mem (field_id_mem_iff _ _)). exact Hg.
    + intros [(w1 & r1 & -> & (flags & Hfl & Hbits) & w2 & w3 & -> & Hn & (j & Hj & d & Hd & Hfd)) Hnew].
      exists flags. apply cat_intro; auto. exists name. apply cat_intro; auto. exists d, w3, []. split; [rewrite app_nil_r; reflexivity|]. split; [exists j; auto|]. exists fd. split.
      { apply (decides_iff _ _ (parse_field_descriptor_0 d)); auto. }
      split; [apply (negb_mem (field_id_mem_iff _ _)); rewrite (Hseen (name, fd)); exact Hnew|]. split; auto. do 2 f_equal. apply truncate_bits. exact Hbits.
Qed.
Lemma field_split cs f w : F cs f w <-> exists u v, w = u ++ v /\
  (flags_keep field_bits (f_access_flags f) +++ ref (that (utf8_at dec (slots_of cs)) unqualified) (f_name f) +++ ref (field_desc_at dec (slots_of cs)) (f_descriptor f)) u
  /\ attributes_lang dec (slots_of cs) wraps opts (stack E) (f_attributes f) v.
Proof.
  unfold field_lang. split.
  - intros (w1 & r1 & -> & H1 & w2 & r2 & -> & H2 & w3 & w4 & -> & H3 & H4). exists (w1 ++ w2 ++ w3), w4. split; [rewrite <- !app_assoc; reflexivity|].
    split; auto. repeat apply cat_intro; auto.
  - intros (u & v & -> & (w1 & r1 & -> & H1 & w2 & w3 & -> & H2 & H3) & H4). rewrite <- !app_assoc. repeat apply cat_intro; auto.
Qed.


Definition field_of (h : N * str * field_desc) (a : list attr_info) : field_info := mk_field (fst (fst h)) (snd (fst h)) (snd h) a.
Definition field_members (cs : list constant) := members _ _ cs field_of (field_head dec cs).
Lemma members_fields cs ms gs u : NoDup (map field_id ms) ->
  (field_members cs ms gs u <-> many (F cs) gs u /\ NoDup (map field_id (ms ++ gs))).
Proof.
  intro Hms. split.
  - intro H. revert Hms. induction H as [ms|ms h a gs u v w Hh Ha Hm IH]; intro Hms.
    + rewrite app_nil_r. split; auto. reflexivity.
    + destruct h as [[fl name] fd]. destruct Hh as [Hh Hnew]. rewrite <- app_assoc in IH. cbn [app] in IH. destruct IH as [H1 H2].
      { rewrite map_app. cbn [map field_id field_of f_name f_descriptor fst snd]. apply NoDup_snoc; auto. }
      split; auto. cbn [many]. rewrite app_assoc. apply cat_intro; auto. apply field_split. exists u, v. auto.
  - revert ms u Hms. induction gs as [|g gs IH]; intros ms u Hms [Hm Hn].
    + cbn in Hm. unfold eps in Hm. subst. constructor.
    + destruct Hm as (u1 & u2 & -> & Hg & Hm). apply field_split in Hg. destruct Hg as (w & v & -> & Hh & Ha). rewrite <- app_assoc.
      destruct g as [fl name fd attrs]. cbn [f_access_flags f_name f_descriptor f_attributes] in *.
      change (mk_field fl name fd attrs) with (field_of (fl, name, fd) attrs) in *. constructor; auto.
      * split; auto. intro Hin. rewrite map_app in Hn. cbn [map] in Hn. apply NoDup_remove_2 in Hn. apply Hn. apply in_or_app. left. exact Hin.
      * apply IH; [|rewrite <- app_assoc; auto]. rewrite (app_assoc ms [_] gs : ms ++ field_of (fl, name, fd) attrs :: gs = _) in Hn. rewrite map_app in Hn. apply NoDup_prefix in Hn. exact Hn.
Qed.

(** ** Methods *)
Notation Me cs ii := (method_lang dec (slots_of cs) wraps opts (stack E) ii).
Definition method_head_parser (p : M_ConstantPool.pool) (in_interface : bool) (major i : N) (seen : list (str * method_desc)) : parser (N * str * method_desc) :=
  flags <- read_u2 ;;
  name <- pctx (lit "name of class method " ++ show_N i) (read_cp_utf8 p) ;;
  let allow_init := negb in_interface in
  _ <- guard (is_unqualified_method_name name allow_init true)
         (lit "Invalid unqualified name for class method " ++ show_N i) ;;
  descriptor <- pctx (lit "descriptor of class method " ++ show_N i)
                  (d <- read_cp_utf8 p ;; lift (parse_method_descriptor d 0)) ;;
  _ <- guard (negb (allow_init && str_eqb name (lit "<init>")
                    && negb (return_desc_eqb (return_type descriptor) RVoid)))
         (lit "Non-void method descriptor for init method " ++ show_N i) ;;
  _ <- guard (negb (str_eqb name (lit "<clinit>")
                    && negb (return_desc_eqb (return_type descriptor) RVoid)))
         (lit "Non-void method descriptor for clinit method " ++ show_N i) ;;
  _ <- guard (negb (str_eqb name (lit "<clinit>") && (51 <=? major)
                    && negb (match parameters descriptor with [] => true | _ => false end)))
         (lit "Arguments found in descriptor for clinit method " ++ show_N i) ;;
  _ <- guard (negb (method_id_mem (name, descriptor) seen))
         (lit "Class method " ++ show_N i ++ lit " is duplicate of previously-encountered method") ;;
  ret (from_bits_truncate method_flags flags, name, descriptor).
Lemma methods_loop_unfold p ii major n i seen bs ix : methods_loop E p opts ii major (S n) i seen bs ix =
  (head <- method_head_parser p ii major i seen ;;
   attributes <- pctx (lit "class method " ++ show_N i) (read_attributes E p opts (stack E)) ;;
   rest <- methods_loop E p opts ii major n (i + 1) ((snd (fst head), snd head) :: seen) ;;
   ret (mk_method (fst (fst head)) (snd (fst head)) (snd head) attributes :: rest)) bs ix.
Proof.
  cbn [methods_loop]. unfold method_head_parser. cbv zeta.
  repeat (rewrite bind_assoc; apply bind_cong; intros ? ? ?). rewrite bind_ret. reflexivity.
Qed.
Lemma method_guards ii major fl name md attrs : method_name ii name ->
  ((negb (negb ii && str_eqb name (lit "<init>") && negb (return_desc_eqb (return_type md) RVoid)) = true
   /\ negb (str_eqb name (lit "<clinit>") && negb (return_desc_eqb (return_type md) RVoid)) = true
   /\ negb (str_eqb name (lit "<clinit>") && (51 <=? major) && negb (match parameters md with [] => true | _ => false end)) = true)
   <-> method_rules major (mk_method fl name md attrs)).
Proof.
  intros Hname. unfold method_rules. cbn [m_name m_descriptor].
  assert (Hin : ii = true -> name <> lit "<init>").
  { intros -> ->. destruct Hname as [[_ Hn]|[[_ Hn]|Hn]]; [|discriminate|discriminate]. apply (Hn (ch "<")); vm_compute; tauto. }
  destruct (return_desc_eqb_spec (return_type md) RVoid) as [Hr|Hr];
  destruct (str_eqb_spec name (lit "<init>")) as [Hi|Hi];
  destruct (str_eqb_spec name (lit "<clinit>")) as [Hc|Hc];
  destruct (N.leb_spec 51 major) as [Hm|Hm];
  destruct (parameters md) as [|? ?] eqn:Hps;
  destruct ii; cbn; try (exfalso; apply Hin; auto; fail); intuition (try congruence; try lia).
Qed.
Lemma reads_method_head cs ii major i seen ms : same_ids seen (map method_id ms) ->
  reads E (method_head_parser (pool cs) ii major i seen) (method_head dec cs major ii ms).
Proof.
  intro Hseen. unfold method_head_parser. cbv zeta. eapply reads_ext.
  - eapply reads_bind; [rd|]. intros flags _. eapply reads_bind; [rd|]. intros name _.
    eapply reads_guard_bind. intros _. eapply reads_bind; [rd|]. intros md _. do 4 (eapply reads_guard_bind; intros _). rd.
  - intros [[fl name] md] w. cbn [method_head]. split.
    + intros (flags & w1 & r1 & -> & H1 & name' & w2 & r2 & -> & H2 & Hname & md' & w3 & r3 & -> & (d & w3' & w3'' & -> & H3 & -> & Hmd)
          & G1 & G2 & G3 & Hg & -> & [= -> -> ->]). rewrite !app_nil_r. apply is_unqualified_method_name_iff in Hname. rewrite Bool.negb_involutive in Hname. split; [|split].
      * apply cat_intro; [exists flags; split; [auto|]; apply truncate_bits; reflexivity|]. apply cat_intro; [apply ref_that; auto|]. destruct H3 as (j & Hj & H3). exists j. split; auto.
        exists d. split; auto. apply (decides_iff _ _ (parse_method_descriptor_spec d)); auto.
      * rewrite <- (Hseen (name', md')). apply (negb_mem (method_id_mem_iff _ _)). exact Hg.
      * apply (method_guards ii); auto.
    + intros ((w1 & r1 & -> & (flags & Hfl & Hbits) & w2 & w3 & -> & Hn & (j & Hj & d & Hd & Hfd)) & Hnew & Hru).
      apply ref_that in Hn. destruct Hn as [Hn Hname]. apply (method_guards ii) in Hru; auto. destruct Hru as (G1 & G2 & G3).
      exists flags. apply cat_intro; auto. exists name. apply cat_intro; auto. split; [apply is_unqualified_method_name_iff; rewrite Bool.negb_involutive; auto|].
      exists md, w3, []. split; [rewrite app_nil_r; reflexivity|]. split.
      { exists d. apply cat_nil_r; [exists j; auto|]. apply (decides_iff _ _ (parse_method_descriptor_spec d)); auto. }
      split; [exact G1|]. split; [exact G2|]. split; [exact G3|].
      split; [apply (negb_mem (method_id_mem_iff _ _)); rewrite (Hseen (name, md)); exact Hnew|]. split; auto. do 2 f_equal. apply truncate_bits. exact Hbits.
Qed.
Lemma method_split cs ii m w : Me cs ii m w <-> exists u v, w = u ++ v /\
  (flags_keep method_bits (m_access_flags m) +++ ref (that (utf8_at dec (slots_of cs)) (method_name ii)) (m_name m) +++ ref (method_desc_at dec (slots_of cs)) (m_descriptor m)) u
  /\ attributes_lang dec (slots_of cs) wraps opts (stack E) (m_attributes m) v.
Proof.
  unfold method_lang. split.
  - intros (w1 & r1 & -> & H1 & w2 & r2 & -> & H2 & w3 & w4 & -> & H3 & H4). exists (w1 ++ w2 ++ w3), w4. split; [rewrite <- !app_assoc; reflexivity|].
    split; auto. repeat apply cat_intro; auto.
  - intros (u & v & -> & (w1 & r1 & -> & H1 & w2 & w3 & -> & H2 & H3) & H4). rewrite <- !app_assoc. repeat apply cat_intro; auto.
Qed.
Definition method_of (h : N * str * method_desc) (a : list attr_info) : method_info := mk_method (fst (fst h)) (snd (fst h)) (snd h) a.
Definition method_members (cs : list constant) (major : N) (ii : bool) := members _ _ cs method_of (method_head dec cs major ii).
Lemma members_methods cs major ii ms gs u : NoDup (map method_id ms) -> Forall (method_rules major) ms ->
  (method_members cs major ii ms gs u <-> many (Me cs ii) gs u /\ NoDup (map method_id (ms ++ gs)) /\ Forall (method_rules major) (ms ++ gs)).
Proof.
  intros Hms Hru. split.
  - intro H. revert Hms Hru. induction H as [ms|ms h a gs u v w Hh Ha Hm IH]; intros Hms Hru.
    + rewrite app_nil_r. split; auto. reflexivity.
    + destruct h as [[fl name] fd]. destruct Hh as (Hh & Hnew & Hr). rewrite <- app_assoc in IH. cbn [app] in IH. destruct IH as [H1 H2].
      { rewrite map_app. cbn [map method_id method_of m_name m_descriptor fst snd]. apply NoDup_snoc; auto. }
      { apply Forall_app. split; auto. }
      split; auto. cbn [many]. rewrite app_assoc. apply cat_intro; auto. apply method_split. exists u, v. auto.
  - revert ms u Hms Hru. induction gs as [|g gs IH]; intros ms u Hms Hru (Hm & Hn & Hr).
    + cbn in Hm. unfold eps in Hm. subst. constructor.
    + destruct Hm as (u1 & u2 & -> & Hg & Hm). apply method_split in Hg. destruct Hg as (w & v & -> & Hh & Ha). rewrite <- app_assoc.
      destruct g as [fl name fd attrs]. cbn [m_access_flags m_name m_descriptor m_attributes] in *.
      change (mk_method fl name fd attrs) with (method_of (fl, name, fd) attrs) in *.
      rewrite (app_assoc ms [_] gs : ms ++ method_of (fl, name, fd) attrs :: gs = _) in Hn, Hr. constructor; auto.
      * split; [exact Hh|]. split.
        { intro Hin. rewrite <- app_assoc, map_app in Hn. cbn [map app] in Hn. apply NoDup_remove_2 in Hn. apply Hn. apply in_or_app. left. exact Hin. }
        { apply Forall_app in Hr. destruct Hr as [Hr _]. apply Forall_app in Hr. destruct Hr as [_ Hr]. inversion Hr; subst. assumption. }
      * apply IH; auto; [rewrite map_app in Hn; apply NoDup_prefix in Hn; exact Hn|apply Forall_app in Hr; apply Hr].
Qed.

(** ** What is left to do at each place *)
Definition flags_parser (major : N) : parser N :=
  raw_flags <- read_u2 ;;
  let flags := from_bits_truncate class_flags raw_flags in
  _ <- check_module_flags (contains flags ACC_MODULE) flags major ;; ret flags.
Section After.
Variables (minor major : N) (p : M_ConstantPool.pool).
Definition after_attributes flags this super ifs fs ms attributes : parser class_file :=
  bs <- get_bytes ;;
  ix <- get_ix ;;
  _ <- guard (ix =? blen bs)
         (lit "Extra bytes found at index " ++ show_N ix ++ lit " after reading class file") ;;
  _ <- check_module_contents (contains flags ACC_MODULE) super ifs fs ms ;;
  _ <- lift (validate_bootstrap_methods p attributes) ;;
  ret (mk_class major minor p flags this super ifs fs ms attributes).
Definition after_methods flags this super ifs fs ms : parser class_file :=
  attributes <- pctx (lit "class") (read_attributes E p opts (stack E)) ;; after_attributes flags this super ifs fs ms attributes.
Definition after_fields flags this super ifs fs : parser class_file :=
  ms <- read_methods E p opts (contains flags ACC_INTERFACE) major ;; after_methods flags this super ifs fs ms.
Definition after_interfaces flags this super ifs : parser class_file := fs <- read_fields E p opts ;; after_fields flags this super ifs fs.
Definition after_super flags this super : parser class_file := ifs <- read_interfaces p ;; after_interfaces flags this super ifs.
Definition after_this flags this : parser class_file := super <- read_super_class p ;; after_super flags this super.
Definition after_flags flags : parser class_file := this <- read_this_class p ;; after_this flags this.
Definition after_pool : parser class_file := flags <- flags_parser major ;; after_flags flags.
End After.
Definition after_versions minor major : parser class_file := p <- read_constant_pool E major ;; after_pool minor major p.
Definition magic_parser : parser unit := magic <- read_u4 ;; guard (magic =? 0xCAFEBABE) (lit "Unexpected magic header").
Definition versions_parser : parser (N * N) := minor <- read_u2 ;; major <- read_u2 ;; ret (minor, major).
Definition after_magic : parser class_file := v <- versions_parser ;; after_versions (fst v) (snd v).
Lemma class_parser_unfold bs ix : class_parser E opts bs ix = (_ <- magic_parser ;; after_magic) bs ix.
Proof.
  unfold class_parser, after_magic, after_versions, after_pool, flags_parser, magic_parser, versions_parser.
  rewrite bind_assoc. do 2 (apply bind_cong; intros ? ? ?). rewrite bind_assoc. apply bind_cong; intros ? ? ?. rewrite bind_assoc. apply bind_cong; intros ? ? ?. rewrite bind_ret.
  apply bind_cong; intros ? ? ?. rewrite bind_assoc. apply bind_cong; intros ? ? ?. cbv zeta.
  rewrite bind_assoc. apply bind_cong. intros ? ? ?. reflexivity.
Qed.
Lemma reads_magic_parser : reads E magic_parser (fun _ => u4 0xCAFEBABE).
Proof.
  unfold magic_parser. eapply reads_ext; [eapply reads_bind; [apply reads_u4|intros; apply reads_guard]|]. intros [] w. split.
  - intros (n & u & v & -> & Hn & -> & He). rewrite app_nil_r. apply N.eqb_eq in He. subst. exact Hn.
  - intro H. exists 0xCAFEBABE, w, []. split; [rewrite app_nil_r; reflexivity|]. split; auto. split; auto.
Qed.
Lemma reads_versions_parser : reads E versions_parser (fun v => u2 (fst v) +++ u2 (snd v)).
Proof.
  unfold versions_parser. eapply reads_ext; [eapply reads_bind; [apply reads_u2|intros n _; eapply reads_bind; [apply reads_u2|intros m _; apply reads_ret]]|]. intros [n m] w. cbn [fst snd]. split.
  - intros (n' & u & v & -> & Hn & m' & u' & v' & -> & Hm & -> & [= -> ->]). rewrite app_nil_r. apply cat_intro; auto.
  - intros (u & v & -> & Hn & Hm). exists n. apply cat_intro; auto. exists m, v, []. split; [rewrite app_nil_r; reflexivity|]. split; auto. split; auto.
Qed.
Lemma reads_flags_parser major : reads E (flags_parser major) (class_flags_lang major).
Proof.
  unfold flags_parser. cbv zeta. eapply reads_ext.
  - eapply reads_bind; [apply reads_u2|]. intros n _. eapply reads_bind; [apply reads_module_flags; exact Hstk|]. intros x _. apply reads_ret.
  - intros fl w. unfold class_flags_lang, ACC_MODULE_bit. split.
    + intros (n & u & v & -> & Hn & [] & u1 & v1 & -> & [-> Hm] & -> & ->). cbn [app]. rewrite app_nil_r. split.
      * exists n. split; auto. intro b. unfold from_bits_truncate. rewrite class_bits_eq, N.land_spec. reflexivity.
      * rewrite <- testbit_contains. exact Hm.
    + intros [(n & Hn & Hb) Hm]. assert (fl = from_bits_truncate class_flags n) as ->.
      { apply N.bits_inj. intro b. rewrite Hb. unfold from_bits_truncate. rewrite class_bits_eq, N.land_spec. reflexivity. }
      exists n, w, []. split; [rewrite app_nil_r; reflexivity|]. split; auto. exists tt, [], []. split; auto. split; [split; auto|split; auto].
      intro Hc. apply Hm. change 0x8000 with (2 ^ 15) in Hc. rewrite <- testbit_contains. exact Hc.
Qed.
End WithEnv.
