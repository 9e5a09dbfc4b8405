(** * Property theorems: the members of a class (C16 C17 C19 C20 C21 C22 C31).

    Vocabulary: [S_Lang], [S_Names], [S_Format], [S_Pool], [S_Within] (attributes wherever
    they are), [S_Env]. *)
From Verif Require Import Base M_Names M_Descriptors M_ConstantPool M_Bytecode M_Attributes M_Class M_Cesu8 Data Sample
  S_Lang S_Names S_Format S_Pool S_Within S_Env P_Reads P_Tac P_Descriptors P_Pool4 P_Class3 P_Layout P_Within T_Names T_Class.
From Coq Require Import ZifyBool ZifyNat ZifyN.

(** The constants [cs] are those the accepted file [bs] starts with. *)
Definition constants_of (E : env) (bs : list byte) (cs : list constant) : Prop :=
  exists minor major count ws rest, starts_with_pool bs minor major count cs ws rest /\ fills (wrapping E) count 1 cs.
Lemma class_constants E want d cs c bs : class_lang (cesu8 E) (wrapping E) want d cs c bs -> constants_of E bs cs.
Proof.
  intro H. destruct (class_starts _ _ _ _ _ _ _ H) as (count & ws & rest & H1 & H2 & _).
  exists (minor_version c), (major_version c), count, ws, rest. auto.
Qed.
Lemma constants_unique E bs cs cs' : constants_of E bs cs -> constants_of E bs cs' -> cs = cs'.
Proof.
  intros (a & b & n & ws & r & H1 & H2) (a' & b' & n' & ws' & r' & H1' & H2').
  apply (pool_unique _ _ _ _ _ _ _ _ _ _ _ _ _ _ H1 H1' H2 H2').
Qed.
(** The form in which the theorems below use acceptance. *)
Lemma accepted_with E opts bs c cs : sane E bs -> parse_class_with_options E opts bs = Ok c -> constants_of E bs cs ->
  exists d, class_lang (cesu8 E) (wrapping E) opts d cs c bs.
Proof.
  intros Hs H Hcs. destruct (accepted_lang _ _ _ _ Hs H) as (d & cs' & Hc).
  rewrite (constants_unique _ _ _ _ Hcs (class_constants _ _ _ _ _ _ Hc)). eauto.
Qed.
(** Every accepted file has constants. *)
Theorem constants_exist E opts bs c : sane E bs -> parse_class_with_options E opts bs = Ok c -> exists cs, constants_of E bs cs.
Proof. intros Hs H. destruct (accepted_lang _ _ _ _ Hs H) as (d & cs & Hc). exists cs. eapply class_constants; eauto. Qed.

(** The constants of the sample files. *)
Lemma sample_of : constants_of debug64 sample sample_constants.
Proof. exists 0, 61, 57, sample_pieces, sample_rest. split; [exact sample_starts|exact sample_fills]. Qed.
Lemma sample_module_of : constants_of debug64 sample_module sample_module_constants.
Proof. eexists 0, 61, _, sample_module_pieces, sample_module_rest. split; [exact sample_module_starts|exact sample_module_fills]. Qed.

(** ** C16 *)
(** A descriptor value [d], printed as [shown], stands in [bs] as two bytes holding the index
    of a Utf8 constant whose text starts with [shown]; if the text is a descriptor, it is [shown]. *)
Definition from_descriptor (E : env) (cs : list constant) (grammar : str -> Prop) (shown : str) (iw : list byte) : Prop :=
  exists i s tail, u2 i iw /\ utf8_at (cesu8 E) (slots_of cs) i s /\ s = shown ++ tail /\ (grammar s -> s = shown).
Lemma from_field E cs d iw : ref (field_desc_at (cesu8 E) (slots_of cs)) d iw ->
  from_descriptor E cs field_descriptor (show_field_desc d) iw.
Proof.
  intros (i & Hi & s & Hs & Hv & tail & ->). exists i, (field_text d ++ tail), tail. rewrite show_field_text.
  split; [exact Hi|]. split; [exact Hs|]. split; [reflexivity|]. intros (d' & Hv' & He).
  assert (P1 : parse_field_descriptor (field_text d ++ tail) 0 = Ok d) by (apply C13_field_descriptor_parser; split; eauto).
  assert (P2 : parse_field_descriptor (field_text d ++ tail) 0 = Ok d').
  { rewrite He. apply C13_field_descriptor_parser. split; auto. exists []. rewrite app_nil_r; auto. }
  rewrite P1 in P2. injection P2 as <-. exact He.
Qed.
Lemma from_method E cs d iw : ref (method_desc_at (cesu8 E) (slots_of cs)) d iw ->
  from_descriptor E cs method_descriptor (show_method_desc d) iw.
Proof.
  intros (i & Hi & s & Hs & Hv & tail & -> & Hvoid). exists i, (method_text d ++ tail), tail. rewrite show_method_text.
  split; [exact Hi|]. split; [exact Hs|]. split; [reflexivity|]. intros (d' & Hv' & He).
  assert (P1 : parse_method_descriptor (method_text d ++ tail) 0 = Ok d) by (apply C14_method_descriptor_parser; split; eauto).
  assert (P2 : parse_method_descriptor (method_text d ++ tail) 0 = Ok d').
  { rewrite He. apply C14_method_descriptor_parser. split; auto. exists []. rewrite app_nil_r; auto. }
  rewrite P1 in P2. injection P2 as <-. exact He.
Qed.

(** Fields and methods: flags, name, descriptor. *)
Theorem C16_field_descriptor_partial E opts bs c cs f : sane E bs -> parse_class_with_options E opts bs = Ok c ->
  constants_of E bs cs -> In f (fields c) ->
  exists pre flags name iw post, bs = pre ++ flags ++ name ++ iw ++ post /\ length flags = 2%nat
    /\ ref (utf8_at (cesu8 E) (slots_of cs)) (f_name f) name
    /\ from_descriptor E cs field_descriptor (show_field_desc (f_descriptor f)) iw.
Proof.
  intros Hs H Hcs Hf. destruct (accepted_with _ _ _ _ _ Hs H Hcs) as (d & Hc).
  destruct (class_part_field _ _ _ _ _ _ _ _ Hc Hf) as (pre & u & post & -> & Hu).
  destruct Hu as (u1 & v1 & -> & (n & Hn & _) & u2 & v2 & -> & (i & Hi & Hname & _) & u3 & v3 & -> & Hd & _).
  exists pre, u1, u2, u3, (v3 ++ post). rewrite <- !app_assoc. split; auto. split; [apply Hn|]. split; [exists i; auto|].
  apply from_field, Hd.
Qed.
Theorem C16_method_descriptor_partial E opts bs c cs m : sane E bs -> parse_class_with_options E opts bs = Ok c ->
  constants_of E bs cs -> In m (methods c) ->
  exists pre flags name iw post, bs = pre ++ flags ++ name ++ iw ++ post /\ length flags = 2%nat
    /\ ref (utf8_at (cesu8 E) (slots_of cs)) (m_name m) name
    /\ from_descriptor E cs method_descriptor (show_method_desc (m_descriptor m)) iw.
Proof.
  intros Hs H Hcs Hf. destruct (accepted_with _ _ _ _ _ Hs H Hcs) as (d & Hc).
  destruct (class_part_method _ _ _ _ _ _ _ _ Hc Hf) as (pre & u & post & -> & Hu).
  destruct Hu as (u1 & v1 & -> & (n & Hn & _) & u2 & v2 & -> & (i & Hi & Hname & _) & u3 & v3 & -> & Hd & _).
  exists pre, u1, u2, u3, (v3 ++ post). rewrite <- !app_assoc. split; auto. split; [apply Hn|]. split; [exists i; auto|].
  apply from_method, Hd.
Qed.
(** Record components: name, descriptor. *)
Theorem C16_record_descriptor_partial E opts bs c cs n l r : sane E bs -> parse_class_with_options E opts bs = Ok c ->
  constants_of E bs cs -> within c (mk_attr n (ARecord l)) -> In r l ->
  exists pre name iw post, bs = pre ++ name ++ iw ++ post
    /\ ref (utf8_at (cesu8 E) (slots_of cs)) (rc_name r) name
    /\ from_descriptor E cs field_descriptor (show_field_desc (rc_descriptor r)) iw.
Proof.
  intros Hs H Hcs Hw Hr. destruct (accepted_with _ _ _ _ _ Hs H Hcs) as (d & Hc).
  destruct (within_part _ _ _ _ _ _ _ _ Hc Hw) as (d' & Hp).
  assert (Hq : part bs (record_component_lang (cesu8 E) (slots_of cs) (attributes_lang (cesu8 E) (slots_of cs) (wrapping E) opts d') r)).
  { apply (part_trans _ _ _ Hp). intros u Hu. apply part_body in Hu. apply (part_trans _ _ _ Hu). intros v Hv.
    cbn [attr_dat contents snd] in Hv. eapply part_table; eauto. }
  destruct Hq as (pre & u & post & -> & u1 & v1 & -> & (i & Hi & Hname & _) & u2 & v2 & -> & Hd & _).
  exists pre, u1, u2, (v2 ++ post). rewrite <- !app_assoc. split; auto. split; [exists i; auto|]. apply from_field, Hd.
Qed.
(** Local variables: start, length, name, descriptor, index. *)
Theorem C16_local_variable_descriptor_partial E opts bs c cs n l v : sane E bs -> parse_class_with_options E opts bs = Ok c ->
  constants_of E bs cs -> within c (mk_attr n (ALocalVariableTable l)) -> In v l ->
  exists pre name iw post, bs = pre ++ name ++ iw ++ post
    /\ ref (utf8_at (cesu8 E) (slots_of cs)) (lv_name v) name
    /\ from_descriptor E cs field_descriptor (show_field_desc (lv_descriptor v)) iw.
Proof.
  intros Hs H Hcs Hw Hr. destruct (accepted_with _ _ _ _ _ Hs H Hcs) as (d & Hc).
  destruct (within_part _ _ _ _ _ _ _ _ Hc Hw) as (d' & Hp).
  assert (Hq : part bs (local_variable_lang (cesu8 E) (slots_of cs) v)).
  { apply (part_trans _ _ _ Hp). intros u Hu. apply part_body in Hu. apply (part_trans _ _ _ Hu). intros w Hv.
    cbn [attr_dat contents snd] in Hv. eapply part_table; eauto. }
  destruct Hq as (pre & u & post & -> & u1 & v1 & -> & _ & u2 & v2 & -> & _ & u3 & v3 & -> & (i & Hi & Hname & _) & u4 & v4 & -> & Hd & _).
  exists (pre ++ u1 ++ u2), u3, u4, (v4 ++ post). rewrite <- !app_assoc. split; auto. split; [exists i; auto|]. apply from_field, Hd.
Qed.

(** The full property is false: the field of this class has the descriptor II. *)
Definition field_II : list byte := unhex
  "cafebabe00000034 0005 01000141 070001 01000166 0100024949 0021 0002 0000 0000 0001 0001 0003 0004 0000 0000 0000".
Theorem C16_descriptor_refuted : exists bs c f, sane debug64 bs /\ parse_class debug64 bs = Ok c /\ fields c = [f]
  /\ show_field_desc (f_descriptor f) = lit "I"
  /\ exists cs, constants_of debug64 bs cs /\ nth_error cs 3 = Some (CUtf8 (map (fun n => match Byte.of_N n with Some b => b | None => x00 end) (lit "II")))
     /\ index_of cs 3 = 4 /\ skipn 40 bs = [x00; x04; x00; x00; x00; x00; x00; x00].
Proof.
  pose (g c := map (fun f => show_field_desc (f_descriptor f)) (fields c)).
  destruct (parse_class debug64 field_II) as [c| | |] eqn:H; [|exfalso; revert H; vm_compute; discriminate..].
  assert (Hg : match parse_class debug64 field_II with Ok c => g c | _ => [] end = [lit "I"]) by (vm_compute; reflexivity).
  assert (Hs : sane debug64 field_II) by (apply ample_sane, ampleb_ample; vm_compute; reflexivity).
  rewrite H in Hg. unfold g in Hg. destruct (fields c) as [|f [|f' l]] eqn:Hf; try discriminate Hg. injection Hg as Hg.
  exists field_II, c, f. split; auto. split; auto. split; auto. split; auto.
  exists [CUtf8 [x41]; CClass 1; CUtf8 [x66]; CUtf8 [x49; x49]]. split; [|split; [|split]; vm_compute; reflexivity].
  exists 0, 52, 5, [[x01; x00; x01; x41]; [x07; x00; x01]; [x01; x00; x01; x66]; [x01; x00; x02; x49; x49]], (skipn 26 field_II).
  split; [|cbn; lia].
  exists [xca; xfe; xba; xbe], [x00; x00; x00; x34], [x00; x05].
  split; [split; vm_compute; reflexivity|]. split; [exists [x00; x00], [x00; x34]; repeat split|].
  split; [split; reflexivity|]. split; [vm_compute; reflexivity|].
  repeat (constructor; [|]); try constructor; try lia.
  - exists [x01], [x00; x01; x41]. repeat split. exists [x00; x01], [x41]. repeat split.
  - exists [x07], [x00; x01]. repeat split.
  - exists [x01], [x00; x01; x66]. repeat split. exists [x00; x01], [x66]. repeat split.
  - exists [x01], [x00; x02; x49; x49]. repeat split. exists [x00; x02], [x49; x49]. repeat split.
Qed.

(** [sample] has fields, methods, a record component and a local variable. *)
Example C16_meets : sane debug64 sample /\ parse_class_with_options debug64 true sample = Ok sample_parsed
  /\ constants_of debug64 sample sample_constants
  /\ map (fun f => show_field_desc (f_descriptor f)) (fields sample_parsed) = [lit "I"; lit "Ljava/lang/String;"]
  /\ map (fun m => show_method_desc (m_descriptor m)) (methods sample_parsed) = [lit "()V"; lit "(I)J"]
  /\ (exists n l, within sample_parsed (mk_attr n (ARecord l)) /\ map (fun r => show_field_desc (rc_descriptor r)) l = [lit "I"])
  /\ exists n l, within sample_parsed (mk_attr n (ALocalVariableTable l)) /\ map (fun r => show_field_desc (lv_descriptor r)) l = [lit "I"].
Proof.
  split; [exact sample_sane|]. split; [exact sample_parse|]. split; [exact sample_of|].
  split; [vm_compute; reflexivity|]. split; [vm_compute; reflexivity|]. split.
  - eexists _, _. split; [apply of_class; left; reflexivity|reflexivity].
  - eexists _, _. split; [|shelve]. eapply nested; [eapply of_method; [right; left; reflexivity|left; reflexivity]|].
    apply inside_code. right; left; reflexivity. Unshelve. reflexivity.
Qed.

(** ** C17 *)
(** The flags, then the three kinds of names: each is the text of a class constant and a binary
    class name; there is no super class exactly if its index is 0. *)
Theorem C17_class_names E opts bs c cs : sane E bs -> parse_class_with_options E opts bs = Ok c -> constants_of E bs cs ->
  let good i n := class_at (cesu8 E) (slots_of cs) i n /\ class_name n in
  exists pre flags tw sw nw iws post t s is,
    bs = pre ++ flags ++ tw ++ sw ++ nw ++ concat iws ++ post
    /\ length flags = 2%nat /\ u2 t tw /\ u2 s sw /\ u2 (N.of_nat (length is)) nw /\ Forall2 u2 is iws
    /\ good t (this_class c)
    /\ (s = 0 <-> super_class c = None)
    /\ (forall n, super_class c = Some n -> good s n)
    /\ Forall2 good is (interfaces c).
Proof.
  intros Hs H Hcs good. destruct (accepted_with _ _ _ _ _ Hs H Hcs) as (d & Hc).
  destruct Hc as [Hc _]. destruct Hc as (w0 & v0 & -> & _ & w1 & v1 & -> & _ & w2 & v2 & -> & _ & w3 & v3 & -> & _ & Hrest).
  destruct Hrest as (fw & v4 & -> & (n & Hn & _) & tw & v5 & -> & (t & Ht & Hthis) & sw & v6 & -> & Hsup & iw & v7 & -> & Hifs & _).
  destruct Hifs as (nw & v8 & -> & Hnw & Hm). apply many_concat in Hm. destruct Hm as (iws & Hiws & ->).
  assert (Hidx : exists is, Forall2 u2 is iws /\ Forall2 good is (interfaces c) /\ length is = length (interfaces c)).
  { clear - Hiws. induction Hiws as [|x w l ws (i & Hi & Hg) _ (is & IH1 & IH2 & IH3)]; [exists []; auto|].
    exists (i :: is). cbn. auto. }
  destruct Hidx as (is & Hi1 & Hi2 & Hi3).
  assert (Hsu : exists s, u2 s sw /\ (s = 0 <-> super_class c = None) /\ (forall n, super_class c = Some n -> good s n)).
  { destruct (super_class c) as [su|]; cbn [opt_ref] in Hsup.
    - destruct Hsup as (s & Hs1 & Hs2). exists s. split; auto. split; [|intros ? [= <-]; exact Hs2].
      split; [|discriminate]. intros ->. destruct Hs2 as [(j & Hj & _) _]. discriminate Hj.
    - exists 0. split; auto. split; [tauto|discriminate]. }
  destruct Hsu as (s & Hs1 & Hs2 & Hs3).
  exists (w0 ++ w1 ++ w2 ++ w3), fw, tw, sw, nw, iws, v7, t, s, is.
  rewrite <- !app_assoc. split; [reflexivity|]. split; [apply Hn|]. split; auto. split; auto. split; [rewrite Hi3; auto|].
  split; auto.
Qed.

Example C17_meets : sane debug64 sample /\ parse_class_with_options debug64 true sample = Ok sample_parsed
  /\ constants_of debug64 sample sample_constants /\ super_class sample_parsed = Some (lit "java/lang/Object")
  /\ interfaces sample_parsed = [lit "java/lang/Runnable"].
Proof. split; [exact sample_sane|]. split; [exact sample_parse|]. split; [exact sample_of|]. split; reflexivity. Qed.

(** ** C19 *)
Theorem C19_fields E opts bs c : sane E bs -> parse_class_with_options E opts bs = Ok c ->
  (forall i j f g, nth_error (fields c) i = Some f -> nth_error (fields c) j = Some g ->
     f_name f = f_name g -> f_descriptor f = f_descriptor g -> i = j)
  /\ (forall f, In f (fields c) -> f_name f <> [] /\ forall x, In x (lit ".;[/") -> ~ In x (f_name f)).
Proof.
  intros Hs H. destruct (accepted_lang _ _ _ _ Hs H) as (d & cs & Hc). split.
  - destruct Hc as (_ & _ & Hnd & _). intros i j f g Hi Hj Hn Hd.
    apply (map_nth_error (fun f => (f_name f, f_descriptor f))) in Hi. apply (map_nth_error (fun f => (f_name f, f_descriptor f))) in Hj.
    rewrite Hn, Hd, <- Hj in Hi. eapply NoDup_nth_error; eauto. apply nth_error_Some. rewrite Hi, Hj. discriminate.
  - intros f Hf. destruct (class_part_field _ _ _ _ _ _ _ _ Hc Hf) as (pre & u & post & _ & Hu).
    destruct Hu as (u1 & v1 & _ & _ & u2 & v2 & _ & (i & _ & _ & Hname) & _). exact Hname.
Qed.
(** Equal descriptors print equally, so uniqueness is also uniqueness of name and printed descriptor. *)
Theorem C19_fields_shown E opts bs c : sane E bs -> parse_class_with_options E opts bs = Ok c ->
  NoDup (map (fun f => (f_name f, show_field_desc (f_descriptor f))) (fields c)).
Proof.
  intros Hs H. destruct (accepted_lang _ _ _ _ Hs H) as (d & cs & Hc).
  assert (Hv : Forall (fun f => field_valid (f_descriptor f)) (fields c)).
  { apply Forall_forall. intros f Hf. destruct (class_part_field _ _ _ _ _ _ _ _ Hc Hf) as (pre & u & post & _ & Hu).
    destruct Hu as (u1 & v1 & _ & _ & u2 & v2 & _ & _ & u3 & v3 & _ & (i & _ & s & _ & Hval & _) & _). exact Hval. }
  destruct Hc as (_ & _ & Hnd & _). revert Hv Hnd. generalize (fields c) as l. induction l as [|f l IH]; intros Hv Hnd; cbn [map] in *; constructor.
  - inversion Hnd as [|? ? Hni _]; subst. inversion Hv as [|? ? Hvf Hvl]; subst. intro Hin. apply Hni. apply in_map_iff in Hin. destruct Hin as (g & [= H1 H2] & Hg).
    apply in_map_iff. exists g. split; auto. rewrite Forall_forall in Hvl. f_equal; auto. apply C15_display_injective; auto.
  - inversion Hnd; subst. inversion Hv; subst. auto.
Qed.

Example C19_meets : sane debug64 sample /\ parse_class_with_options debug64 true sample = Ok sample_parsed
  /\ map f_name (fields sample_parsed) = [lit "x"; lit "y"].
Proof. split; [exact sample_sane|]. split; [exact sample_parse|]. reflexivity. Qed.

(** ** C20 *)
Theorem C20_methods E opts bs c : sane E bs -> parse_class_with_options E opts bs = Ok c ->
  (forall i j f g, nth_error (methods c) i = Some f -> nth_error (methods c) j = Some g ->
     m_name f = m_name g -> m_descriptor f = m_descriptor g -> i = j)
  /\ forall m, In m (methods c) ->
     (m_name m = lit "<init>" /\ N.testbit (access_flags c) ACC_INTERFACE_bit = false /\ return_type (m_descriptor m) = RVoid)
     \/ (m_name m = lit "<clinit>" /\ return_type (m_descriptor m) = RVoid
         /\ (51 <= major_version c -> parameters (m_descriptor m) = []))
     \/ (m_name m <> [] /\ forall x, In x (lit ".;[/<>") -> ~ In x (m_name m)).
Proof.
  intros Hs H. destruct (accepted_lang _ _ _ _ Hs H) as (d & cs & Hc). split.
  - destruct Hc as (_ & _ & _ & Hnd & _). intros i j f g Hi Hj Hn Hd.
    apply (map_nth_error (fun m => (m_name m, m_descriptor m))) in Hi. apply (map_nth_error (fun m => (m_name m, m_descriptor m))) in Hj.
    rewrite Hn, Hd, <- Hj in Hi. eapply NoDup_nth_error; eauto. apply nth_error_Some. rewrite Hi, Hj. discriminate.
  - intros m Hm. destruct (class_part_method _ _ _ _ _ _ _ _ Hc Hm) as (pre & u & post & _ & Hu).
    destruct Hu as (u1 & v1 & _ & _ & u2 & v2 & _ & (i & _ & _ & Hname) & _).
    destruct Hc as (_ & _ & _ & _ & Hrules & _). rewrite Forall_forall in Hrules. destruct (Hrules m Hm) as [Hinit Hclinit].
    destruct Hname as [Hn|[[Hn Hi]|Hn]]; [right; right; exact Hn|left; auto|right; left]. destruct (Hclinit Hn). auto.
Qed.

Example C20_meets : sane debug64 sample /\ parse_class_with_options debug64 true sample = Ok sample_parsed
  /\ map m_name (methods sample_parsed) = [lit "<init>"; lit "go"].
Proof. split; [exact sample_sane|]. split; [exact sample_parse|]. reflexivity. Qed.

(** ** C21 *)
Theorem C21_modules E opts bs c : sane E bs -> parse_class_with_options E opts bs = Ok c ->
  N.testbit (access_flags c) 15 = true ->
  53 <= major_version c /\ access_flags c = 0x8000 /\ super_class c = None
  /\ interfaces c = [] /\ fields c = [] /\ methods c = [].
Proof.
  intros Hs H Hm. destruct (accepted_lang _ _ _ _ Hs H) as (d & cs & Hc). destruct Hc as (_ & _ & _ & _ & _ & Hr & _). exact (Hr Hm).
Qed.
(** A module file: version 53, flag 8000. *)
Definition module_class : list byte := unhex
  "cafebabe00000035 0003 01000b6d6f64756c652d696e666f 070001 8000 0002 0000 0000 0000 0000 0000".
Example C21_meets : sane debug64 module_class /\ exists c, parse_class debug64 module_class = Ok c /\ N.testbit (access_flags c) 15 = true.
Proof.
  split; [apply ample_sane, ampleb_ample; vm_compute; reflexivity|].
  destruct (parse_class debug64 module_class) as [c| | |] eqn:H; [|exfalso; revert H; vm_compute; discriminate..].
  exists c. split; auto.
  assert (Hf : match parse_class debug64 module_class with Ok c => N.testbit (access_flags c) 15 | _ => false end = true) by (vm_compute; reflexivity).
  rewrite H in Hf. exact Hf.
Qed.

(** ** C22 *)
(** Stated for the entries of the pool, whose index is the bootstrap method's number. *)
Theorem C22_bootstrap E opts bs c cs b nt : sane E bs -> parse_class_with_options E opts bs = Ok c -> constants_of E bs cs ->
  In (CDynamic b nt) cs \/ In (CInvokeDynamic b nt) cs ->
  exists a l, filter (fun a => match attr_dat a with ABootstrapMethods _ => true | _ => false end) (class_attributes c) = [a]
    /\ attr_dat a = ABootstrapMethods l /\ attr_name a = lit "BootstrapMethods" /\ b < N.of_nat (length l).
Proof.
  intros Hs H Hcs Hin. destruct (accepted_with _ _ _ _ _ Hs H Hcs) as (d & Hc).
  assert (Hr : bootstrap_rules cs c) by apply Hc.
  destruct (Hr b nt Hin) as (l & Hl & Hb). unfold bootstrap_tables in Hl.
  assert (Hw : forall a, In a (class_attributes c) -> within c a) by (intros; apply of_class; auto).
  revert Hl Hw. generalize (class_attributes c) as attrs. induction attrs as [|a attrs IH]; cbn [flat_map filter]; intros Hl Hw; [discriminate|].
  destruct (attr_dat a) eqn:Ha; cbn [app] in Hl; try (apply IH; [exact Hl|intros; apply Hw; right; auto]; fail).
  injection Hl as -> Hl. exists a, l. split.
  - f_equal. clear - Hl. induction attrs as [|x attrs IH]; cbn in *; auto. destruct (attr_dat x); cbn in *; auto. discriminate.
  - split; auto. split; auto. destruct (within_part _ _ _ _ _ _ _ _ Hc (Hw a (or_introl eq_refl))) as (d' & pre & u & post & _ & Hu).
    destruct Hu as (x & y & _ & _ & len & body & _ & _ & _ & Hn). rewrite Ha in Hn. exact Hn.
Qed.
Definition indy_class : list byte := unhex
  "cafebabe00000034 000a 01000141070001 0100016d 010003282956 0c00030004 0a00020005 0f060006
   010010426f6f7473747261704d6574686f6473 1200000005 0021 0002 0000 0000 0000 0000
   0001 0008 00000006 0001 0007 0000".
Example C22_meets : sane debug64 indy_class /\ exists c, parse_class debug64 indy_class = Ok c
  /\ existsb (fun e => match e with EInvokeDynamic 0 _ => true | _ => false end) (constant_pool c) = true.
Proof.
  split; [apply ample_sane, ampleb_ample; vm_compute; reflexivity|].
  destruct (parse_class debug64 indy_class) as [c| | |] eqn:H; [|exfalso; revert H; vm_compute; discriminate..].
  exists c. split; auto.
  assert (Hf : match parse_class debug64 indy_class with Ok c => existsb (fun e => match e with EInvokeDynamic 0 _ => true | _ => false end) (constant_pool c) | _ => false end = true) by (vm_compute; reflexivity).
  rewrite H in Hf. exact Hf.
Qed.

(** ** C31 *)
(** [f] has exactly those bits of the word [n] that are in [named]. *)
Definition keeps (named n f : N) : Prop := forall bit, N.testbit f bit = (N.testbit n bit && N.testbit named bit)%bool.
(** PUBLIC FINAL SUPER INTERFACE ABSTRACT SYNTHETIC ANNOTATION ENUM MODULE *)
Definition class_named := N.lor 0x0001 (N.lor 0x0010 (N.lor 0x0020 (N.lor 0x0200 (N.lor 0x0400 (N.lor 0x1000 (N.lor 0x2000 (N.lor 0x4000 0x8000))))))).
(** PUBLIC PRIVATE PROTECTED STATIC FINAL VOLATILE TRANSIENT SYNTHETIC ENUM *)
Definition field_named := N.lor 0x0001 (N.lor 0x0002 (N.lor 0x0004 (N.lor 0x0008 (N.lor 0x0010 (N.lor 0x0040 (N.lor 0x0080 (N.lor 0x1000 0x4000))))))).
(** PUBLIC PRIVATE PROTECTED STATIC FINAL SYNCHRONIZED BRIDGE VARARGS NATIVE ABSTRACT STRICT SYNTHETIC *)
Definition method_named := N.lor 0x0001 (N.lor 0x0002 (N.lor 0x0004 (N.lor 0x0008 (N.lor 0x0010 (N.lor 0x0020 (N.lor 0x0040
  (N.lor 0x0080 (N.lor 0x0100 (N.lor 0x0400 (N.lor 0x0800 0x1000)))))))))).
(** PUBLIC PRIVATE PROTECTED STATIC FINAL INTERFACE ABSTRACT SYNTHETIC ANNOTATION ENUM *)
Definition inner_named := N.lor 0x0001 (N.lor 0x0002 (N.lor 0x0004 (N.lor 0x0008 (N.lor 0x0010 (N.lor 0x0200 (N.lor 0x0400
  (N.lor 0x1000 (N.lor 0x2000 0x4000)))))))).

Theorem C31_class_flags E opts bs c : sane E bs -> parse_class_with_options E opts bs = Ok c ->
  exists count cs ws n w rest, starts_with_pool bs (minor_version c) (major_version c) count cs ws (w ++ rest)
    /\ fills (wrapping E) count 1 cs /\ u2 n w /\ keeps class_named n (access_flags c).
Proof.
  intros Hs H. destruct (accepted_lang _ _ _ _ Hs H) as (d & cs & Hc).
  destruct (class_starts _ _ _ _ _ _ _ Hc) as (count & ws & rest & H1 & H2 & _ & w & v & -> & (n & Hn & Hk) & _).
  exists count, cs, ws, n, w, v. auto.
Qed.
Theorem C31_field_flags E opts bs c cs f : sane E bs -> parse_class_with_options E opts bs = Ok c -> constants_of E bs cs ->
  In f (fields c) -> exists pre n w name post, bs = pre ++ w ++ name ++ post /\ u2 n w
    /\ ref (utf8_at (cesu8 E) (slots_of cs)) (f_name f) name /\ keeps field_named n (f_access_flags f).
Proof.
  intros Hs H Hcs Hf. destruct (accepted_with _ _ _ _ _ Hs H Hcs) as (d & Hc).
  destruct (class_part_field _ _ _ _ _ _ _ _ Hc Hf) as (pre & u & post & -> & Hu).
  destruct Hu as (u1 & v1 & -> & (n & Hn & Hk) & u2 & v2 & -> & (i & Hi & Hname & _) & _).
  exists pre, n, u1, u2, (v2 ++ post). rewrite <- !app_assoc. split; auto. split; auto. split; auto. exists i. auto.
Qed.
Theorem C31_method_flags E opts bs c cs m : sane E bs -> parse_class_with_options E opts bs = Ok c -> constants_of E bs cs ->
  In m (methods c) -> exists pre n w name post, bs = pre ++ w ++ name ++ post /\ u2 n w
    /\ ref (utf8_at (cesu8 E) (slots_of cs)) (m_name m) name /\ keeps method_named n (m_access_flags m).
Proof.
  intros Hs H Hcs Hf. destruct (accepted_with _ _ _ _ _ Hs H Hcs) as (d & Hc).
  destruct (class_part_method _ _ _ _ _ _ _ _ Hc Hf) as (pre & u & post & -> & Hu).
  destruct Hu as (u1 & v1 & -> & (n & Hn & Hk) & u2 & v2 & -> & (i & Hi & Hname & _) & _).
  exists pre, n, u1, u2, (v2 ++ post). rewrite <- !app_assoc. split; auto. split; auto. split; auto. exists i. auto.
Qed.
Lemma part_contents E opts bs c cs a : sane E bs -> parse_class_with_options E opts bs = Ok c -> constants_of E bs cs ->
  within c a -> exists d, part bs (snd (contents (cesu8 E) (slots_of cs) (wrapping E) opts
    (attributes_lang (cesu8 E) (slots_of cs) (wrapping E) opts d) d (attr_dat a))).
Proof.
  intros Hs H Hcs Hw. destruct (accepted_with _ _ _ _ _ Hs H Hcs) as (d & Hc).
  destruct (within_part _ _ _ _ _ _ _ _ Hc Hw) as (d' & Hp). exists d'. apply (part_trans _ _ _ Hp). intros u Hu. apply part_body in Hu. exact Hu.
Qed.
Theorem C31_inner_class_flags E opts bs c cs nm l e : sane E bs -> parse_class_with_options E opts bs = Ok c -> constants_of E bs cs ->
  within c (mk_attr nm (AInnerClasses l)) -> In e l ->
  exists pre inner outer name n w post, bs = pre ++ inner ++ outer ++ name ++ w ++ post
    /\ ref (class_at (cesu8 E) (slots_of cs)) (ic_inner_class_info e) inner
    /\ opt_ref (class_at (cesu8 E) (slots_of cs)) (ic_outer_class_info e) outer
    /\ opt_ref (utf8_at (cesu8 E) (slots_of cs)) (ic_inner_name e) name
    /\ u2 n w /\ keeps inner_named n (ic_access_flags e).
Proof.
  intros Hs H Hcs Hw He. destruct (part_contents _ _ _ _ _ _ Hs H Hcs Hw) as (d & Hp).
  assert (Hq : part bs (inner_class_lang (cesu8 E) (slots_of cs) e)).
  { apply (part_trans _ _ _ Hp). intros u Hu. cbn [attr_dat contents snd] in Hu. eapply part_table; eauto. }
  destruct Hq as (pre & u & post & -> & u1 & v1 & -> & H1 & u2 & v2 & -> & H2 & u3 & v3 & -> & H3 & n & Hn & Hk).
  exists pre, u1, u2, u3, n, v3, post. rewrite <- !app_assoc. auto 10.
Qed.
(** Flags of method parameters, modules, requires, exports and opens: no other bits may be written. *)
Definition only_named (named n : N) : Prop := forall bit, N.testbit n bit = true -> N.testbit named bit = true.
Theorem C31_method_parameter_flags E opts bs c cs nm l e : sane E bs -> parse_class_with_options E opts bs = Ok c -> constants_of E bs cs ->
  within c (mk_attr nm (AMethodParameters l)) -> In e l ->
  exists pre name w post, bs = pre ++ name ++ w ++ post
    /\ opt_ref (that (utf8_at (cesu8 E) (slots_of cs)) unqualified) (mp_name e) name
    /\ u2 (mp_access_flags e) w /\ only_named (N.lor 0x0010 (N.lor 0x1000 0x8000)) (mp_access_flags e).
Proof.
  intros Hs H Hcs Hw He. destruct (part_contents _ _ _ _ _ _ Hs H Hcs Hw) as (d & Hp).
  assert (Hq : part bs (method_parameter_lang (cesu8 E) (slots_of cs) e)).
  { apply (part_trans _ _ _ Hp). intros u Hu. cbn [attr_dat contents snd] in Hu. eapply part_table; eauto. }
  destruct Hq as (pre & u & post & -> & u1 & v1 & -> & H1 & Hn & Hk).
  exists pre, u1, v1, post. rewrite <- !app_assoc. auto 10.
Qed.
Lemma part_module E opts bs c cs nm m : sane E bs -> parse_class_with_options E opts bs = Ok c -> constants_of E bs cs ->
  within c (mk_attr nm (AModule m)) -> part bs (module_lang (cesu8 E) (slots_of cs) m).
Proof. intros Hs H Hcs Hw. destruct (part_contents _ _ _ _ _ _ Hs H Hcs Hw) as (d & Hp). exact Hp. Qed.
Theorem C31_module_flags E opts bs c cs nm m : sane E bs -> parse_class_with_options E opts bs = Ok c -> constants_of E bs cs ->
  within c (mk_attr nm (AModule m)) ->
  exists pre name w post, bs = pre ++ name ++ w ++ post /\ ref (module_at (cesu8 E) (slots_of cs)) (md_name m) name
    /\ u2 (md_access_flags m) w /\ only_named (N.lor 0x0020 (N.lor 0x1000 0x8000)) (md_access_flags m).
Proof.
  intros Hs H Hcs Hw. destruct (part_module _ _ _ _ _ _ _ Hs H Hcs Hw) as (pre & u & post & -> & u1 & v1 & -> & H1 & u2 & v2 & -> & [H2 H3] & _).
  exists pre, u1, u2, (v2 ++ post). rewrite <- !app_assoc. auto 10.
Qed.
Theorem C31_requires_flags E opts bs c cs nm m r : sane E bs -> parse_class_with_options E opts bs = Ok c -> constants_of E bs cs ->
  within c (mk_attr nm (AModule m)) -> In r (md_requires m) ->
  exists pre name w post, bs = pre ++ name ++ w ++ post /\ ref (module_at (cesu8 E) (slots_of cs)) (rq_name r) name
    /\ u2 (rq_flags r) w /\ only_named (N.lor 0x0020 (N.lor 0x0040 (N.lor 0x1000 0x8000))) (rq_flags r).
Proof.
  intros Hs H Hcs Hw Hr. pose proof (part_module _ _ _ _ _ _ _ Hs H Hcs Hw) as Hp.
  assert (Hq : part bs (require_lang (cesu8 E) (slots_of cs) r)).
  { apply (part_trans _ _ _ Hp). intros u Hu. do 3 (apply (part_cat_r _ _ _ _ Hu); clear Hu u; intros u Hu).
    apply (part_cat_l _ _ _ _ Hu). intros v. apply part_table; auto. }
  destruct Hq as (pre & u & post & -> & u1 & v1 & -> & H1 & u2 & v2 & -> & [H2 H3] & _).
  exists pre, u1, u2, (v2 ++ post). rewrite <- !app_assoc. auto 10.
Qed.
Theorem C31_exports_flags E opts bs c cs nm m r : sane E bs -> parse_class_with_options E opts bs = Ok c -> constants_of E bs cs ->
  within c (mk_attr nm (AModule m)) -> In r (md_exports m) ->
  exists pre name w post, bs = pre ++ name ++ w ++ post /\ ref (package_at (cesu8 E) (slots_of cs)) (xp_package_name r) name
    /\ u2 (xp_flags r) w /\ only_named (N.lor 0x1000 0x8000) (xp_flags r).
Proof.
  intros Hs H Hcs Hw Hr. pose proof (part_module _ _ _ _ _ _ _ Hs H Hcs Hw) as Hp.
  assert (Hq : part bs (export_lang (cesu8 E) (slots_of cs) r)).
  { apply (part_trans _ _ _ Hp). intros u Hu. do 4 (apply (part_cat_r _ _ _ _ Hu); clear Hu u; intros u Hu).
    apply (part_cat_l _ _ _ _ Hu). intros v. apply part_table; auto. }
  destruct Hq as (pre & u & post & -> & u1 & v1 & -> & H1 & u2 & v2 & -> & [H2 H3] & _).
  exists pre, u1, u2, (v2 ++ post). rewrite <- !app_assoc. auto 10.
Qed.
Theorem C31_opens_flags E opts bs c cs nm m r : sane E bs -> parse_class_with_options E opts bs = Ok c -> constants_of E bs cs ->
  within c (mk_attr nm (AModule m)) -> In r (md_opens m) ->
  exists pre name w post, bs = pre ++ name ++ w ++ post /\ ref (package_at (cesu8 E) (slots_of cs)) (op_package_name r) name
    /\ u2 (op_flags r) w /\ only_named (N.lor 0x1000 0x8000) (op_flags r).
Proof.
  intros Hs H Hcs Hw Hr. pose proof (part_module _ _ _ _ _ _ _ Hs H Hcs Hw) as Hp.
  assert (Hq : part bs (open_lang (cesu8 E) (slots_of cs) r)).
  { apply (part_trans _ _ _ Hp). intros u Hu. do 5 (apply (part_cat_r _ _ _ _ Hu); clear Hu u; intros u Hu).
    apply (part_cat_l _ _ _ _ Hu). intros v. apply part_table; auto. }
  destruct Hq as (pre & u & post & -> & u1 & v1 & -> & H1 & u2 & v2 & -> & [H2 H3] & _).
  exists pre, u1, u2, (v2 ++ post). rewrite <- !app_assoc. auto 10.
Qed.

(** The sample files have flags of all these kinds.  The words in [sample] are 0131 (class), 201a and 0002 (fields), 0001 and 8009
    (methods), 8409 (inner class) and 9010 (method parameter): bits without a name are set in some of them. *)
Example C31_meets : sane debug64 sample /\ parse_class_with_options debug64 true sample = Ok sample_parsed
  /\ constants_of debug64 sample sample_constants
  /\ access_flags sample_parsed = 0x0031 /\ map f_access_flags (fields sample_parsed) = [0x001a; 0x0002]
  /\ map m_access_flags (methods sample_parsed) = [0x0001; 0x0009]
  /\ (exists n l, within sample_parsed (mk_attr n (AInnerClasses l)) /\ map ic_access_flags l = [0x0409])
  /\ exists n l, within sample_parsed (mk_attr n (AMethodParameters l)) /\ map mp_access_flags l = [0x9010].
Proof.
  split; [exact sample_sane|]. split; [exact sample_parse|]. split; [exact sample_of|].
  split; [reflexivity|]. split; [reflexivity|]. split; [reflexivity|]. split.
  - eexists _, _. split; [apply of_class; right; left; reflexivity|reflexivity].
  - eexists _, _. split; [eapply of_method; [right; left; reflexivity|right; left; reflexivity]|reflexivity].
Qed.
Example C31_module_meets : sane debug64 sample_module /\ parse_class_with_options debug64 true sample_module = Ok sample_module_parsed
  /\ constants_of debug64 sample_module sample_module_constants
  /\ exists n m, within sample_module_parsed (mk_attr n (AModule m)) /\ md_access_flags m = 0x9020
     /\ map rq_flags (md_requires m) = [0x8060] /\ map xp_flags (md_exports m) = [0x9000] /\ map op_flags (md_opens m) = [0x1000].
Proof.
  split; [exact sample_module_sane|]. split; [exact sample_module_parse|]. split; [exact sample_module_of|].
  eexists _, _. split; [apply of_class; left; reflexivity|]. repeat split.
Qed.
