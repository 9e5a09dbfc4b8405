(** * Where the texts of a class come from: C34. *)
From Verif Require Import Base M_Names M_Descriptors M_ConstantPool M_Bytecode M_Attributes M_Class M_Cesu8 Data
  S_Lang S_Names S_Format S_Pool S_Items S_Env S_Texts P_Reads P_Tac P_Pool3 P_Pool4 P_Class3 P_Layout P_Texts T_Class T_Members T_Unknown T_Iter.
From Coq Require Import ZifyBool ZifyNat ZifyN.

(** Every name, descriptor and string anywhere in an accepted class is the decoded text of a Utf8 constant (or of the bytes of a
    SourceDebugExtension attribute); undecoded bytes are those of an undecodable constant a String constant refers to. *)
Theorem C34_texts_grounded E opts bs c cs t : sane E bs -> parse_class_with_options E opts bs = Ok c -> constants_of E bs cs ->
  In t (class_texts c) -> grounded (cesu8 E) cs bs t.
Proof.
  intros Hs H Hcs. destruct (accepted_with _ _ _ _ _ Hs H Hcs) as (d & Hc). apply says_class in Hc. rewrite Forall_forall in Hc. apply Hc.
Qed.
(** The same for the items of an iteration over the constant pool. *)
Lemma item_from E opts bs c cs n l it : sane E bs -> parse_class_with_options E opts bs = Ok c -> constants_of E bs cs ->
  constantpool_iter_run c n = Ok l -> In (Some it) l -> exists i, item_at (cesu8 E) (slots_of cs) i it.
Proof.
  intros Hs H Hcs Hrun Hin. destruct (accepted_pool _ _ _ _ _ Hs H Hcs) as [HP Hv].
  assert (Hitems : forall ks items, Forall2 (fun k it => item_at (cesu8 E) (slots_of cs) (index_of cs k) it) ks items -> In it items -> exists i, item_at (cesu8 E) (slots_of cs) i it).
  { intros ks items Hf Hit. clear - Hf Hit Hv. induction Hf; [destruct Hit|]. destruct Hit as [->|Hit]; eauto. }
  assert (Hsome : forall items, In (Some it) (map Some items) -> In it items).
  { intros items Hm. apply in_map_iff in Hm. destruct Hm as (y & Hy & Hi). injection Hy as ->. exact Hi. }
  assert (Hfirst : forall items, In it (firstn n items) -> In it items) by (intros items Hf; rewrite <- (firstn_skipn n items); apply in_or_app; auto).
  unfold constantpool_iter_run in Hrun. rewrite HP in Hrun.
  destruct (positions_split (cesu8 E) cs _ Hv (shown_positions cs)) as [(items & Hf & He)|(ks1 & k & ks2 & items & x & _ & Hf & Hx & Hu & He)]; auto;
    rewrite <- results_positions in He; (destruct (Nat.le_gt_cases n (length items)) as [Hle|Hgt]).
  - rewrite (run_prefix _ items []) in Hrun; [|rewrite app_nil_r; exact He|exact Hle]. injection Hrun as <-. eapply Hitems; eauto.
  - replace n with (length items + (n - length items))%nat in Hrun by lia. rewrite (run_all _ _ _ He) in Hrun. injection Hrun as <-.
    apply in_app_or in Hin. destruct Hin as [Hin|Hin]; [eapply Hitems; eauto|]. apply repeat_spec in Hin. discriminate.
  - rewrite (run_prefix _ _ _ _ He Hle) in Hrun. injection Hrun as <-. eapply Hitems; eauto.
  - replace n with (length items + S (n - S (length items)))%nat in Hrun by lia. rewrite (run_panic _ _ _ _ _ He) in Hrun. discriminate.
Qed.
Theorem C34_items_grounded E opts bs c cs n l it t : sane E bs -> parse_class_with_options E opts bs = Ok c -> constants_of E bs cs ->
  constantpool_iter_run c n = Ok l -> In (Some it) l -> In t (item_texts it) -> grounded (cesu8 E) cs bs t.
Proof.
  intros Hs H Hcs Hrun Hin. destruct (item_from _ _ _ _ _ _ _ _ Hs H Hcs Hrun Hin) as (i & Hi).
  pose proof (mean_item (cesu8 E) cs i it bs Hi) as Hm. rewrite Forall_forall in Hm. apply Hm.
Qed.
(** What an accepted file may not leave undecodable: the names of classes, modules, packages, the descriptors of method types,
    the names of NameAndTypes, and the descriptors of those NameAndTypes to which a member reference or dynamic constant refers. *)
Theorem C34_undecodable_rejected_partial E opts bs c cs : sane E bs -> parse_class_with_options E opts bs = Ok c -> constants_of E bs cs ->
  (forall i raw, In (CClass i) cs \/ In (CModule i) cs \/ In (CPackage i) cs \/ In (CMethodType i) cs \/ (exists d, In (CNameAndType i d) cs) ->
    at_index (slots_of cs) i (CUtf8 raw) -> cesu8 E raw <> None)
  /\ (forall a i n d raw, In (CFieldref a i) cs \/ In (CMethodref a i) cs \/ In (CInterfaceMethodref a i) cs \/ In (CDynamic a i) cs \/ In (CInvokeDynamic a i) cs ->
    at_index (slots_of cs) i (CNameAndType n d) -> at_index (slots_of cs) d (CUtf8 raw) -> cesu8 E raw <> None).
Proof.
  intros Hs H Hcs. destruct (accepted_pool _ _ _ _ _ Hs H Hcs) as [_ Hv]. rewrite Forall_forall in Hv. split.
  - intros i raw Hin Hraw.
    assert (Hu : exists s, utf8_at (cesu8 E) (slots_of cs) i s).
    { destruct Hin as [Hin|[Hin|[Hin|[Hin|[d Hin]]]]]; apply Hv in Hin; cbn in Hin; [| | | |destruct Hin as [Hin _]]; destruct Hin as (s & Hu & _); eauto. }
    destruct Hu as (s & raw' & Hi & Hd). pose proof (at_fun _ _ _ _ Hi Hraw) as He. injection He as ->. congruence.
  - intros a i n d raw Hin Hi Hraw.
    assert (Hu : exists P, described (cesu8 E) (slots_of cs) i P).
    { destruct Hin as [Hin|[Hin|[Hin|[Hin|Hin]]]]; apply Hv in Hin; cbn in Hin; try (destruct Hin as [_ Hin]); eauto. }
    destruct Hu as (P & n' & d' & s & Hi' & (raw' & Hd & Hdec) & _). pose proof (at_fun _ _ _ _ Hi Hi') as He. injection He as <- <-.
    pose proof (at_fun _ _ _ _ Hd Hraw) as He. injection He as ->. congruence.
Qed.
(** A String constant whose text cannot be decoded is shown by the iteration with its bytes unchanged (if the iteration gets there, see C11),
    any other one with its text. *)
Theorem C34_string_constants E opts bs c cs k j raw : sane E bs -> parse_class_with_options E opts bs = Ok c -> constants_of E bs cs ->
  (forall x, In x cs -> ~ undecodable (cesu8 E) cs x) ->
  nth_error cs k = Some (CString j) -> at_index (slots_of cs) j (CUtf8 raw) ->
  exists n l, constantpool_iter_run c n = Ok l /\
    In (Some (ItLiteral (match cesu8 E raw with Some s => LString s | None => LStringBytes raw end))) l.
Proof.
  intros Hs H Hcs Hdec Hk Hj. destruct (C10_items_in_order_partial _ _ _ _ _ Hs H Hcs Hdec) as (items & Hf & Hrun).
  exists (length items + 0)%nat, (map Some items ++ repeat None 0). split; [apply Hrun|]. apply in_or_app. left. apply in_map.
  assert (Hin : In k (shown_positions cs)).
  { unfold shown_positions. apply filter_In. rewrite Hk. split; [|reflexivity]. apply in_seq. assert (k < length cs)%nat by (apply nth_error_Some; congruence). lia. }
  assert (Hex : exists it, In it items /\ item_at (cesu8 E) (slots_of cs) (index_of cs k) it).
  { clear - Hf Hin. induction Hf; [destruct Hin|]. destruct Hin as [->|Hin]; [eexists; split; [left; reflexivity|eauto]|].
    destruct (IHHf Hin) as (it & Hit & Hat). exists it. split; [right|]; auto. }
  destruct Hex as (it & Hit & Hat).
  assert (Hi : at_index (slots_of cs) (index_of cs k) (CString j)) by (apply at_index_of; exact Hk).
  replace (ItLiteral _) with it; [exact Hit|]. eapply C10_item_unique; [exact Hat|]. cbn [item_at].
  destruct (cesu8 E raw) as [s|] eqn:Hr; cbn [literal_at]; exists j; split; auto. exists raw. auto.
Qed.
(** The claim fails for NameAndTypes no other constant refers to: their descriptor may be undecodable. *)
Theorem C34_undecodable_refuted : exists bs c cs n d raw, sane debug64 bs /\ parse_class debug64 bs = Ok c /\ constants_of debug64 bs cs
  /\ In (CNameAndType n d) cs /\ at_index (slots_of cs) d (CUtf8 raw) /\ cesu8 debug64 raw = None.
Proof.
  destruct (parse_class debug64 bad_descriptor) as [c| | |] eqn:H; [|exfalso; revert H; vm_compute; discriminate..].
  exists bad_descriptor, c, [CUtf8 [x41]; CClass 1; CUtf8 [xff]; CNameAndType 1 3], 1, 3, [xff].
  split; [apply ample_sane, ampleb_ample; vm_compute; reflexivity|]. split; [exact H|]. split; [|split; [right; right; right; left; reflexivity|split; vm_compute; reflexivity]].
  exists 0, 52, 5, [[x01; x00; x01; x41]; [x07; x00; x01]; [x01; x00; x01; xff]; [x0c; x00; x01; x00; x03]], (skipn 26 bad_descriptor). split; [|cbn; lia].
  exists [xca; xfe; xba; xbe], [x00; x00; x00; x34], [x00; x05].
  split; [split; vm_compute; reflexivity|]. split; [exists [x00; x00], [x00; x34]; repeat split|].
  split; [split; reflexivity|]. split; [vm_compute; reflexivity|].
  constructor; [|constructor; [|constructor; [|constructor; [|constructor]]]].
  - split; [lia|]. exists [x01], [x00; x01; x41]. repeat split. exists [x00; x01], [x41]. repeat split.
  - split; [lia|]. exists [x07], [x00; x01]. repeat split.
  - split; [lia|]. exists [x01], [x00; x01; xff]. repeat split. exists [x00; x01], [xff]. repeat split.
  - split; [lia|]. exists [x0c], [x00; x01; x00; x03]. repeat split. exists [x00; x01], [x00; x03]. repeat split.
Qed.
(** A class with a field whose ConstantValue is a String constant with the single byte 0xff. *)
Definition raw_string : list byte := unhex
  "cafebabe00000034000701000141070001010001ff08000301000d436f6e7374616e7456616c756501000149002100020000000000010008000100060001000500000002000400000000".
Example C34_meets : sane debug64 raw_string /\ exists c l, parse_class debug64 raw_string = Ok c /\
  (exists f n, In f (fields c) /\ In (mk_attr n (AConstantValue (LStringBytes [xff]))) (f_attributes f)) /\
  constantpool_iter_run c 9 = Ok l /\ In (Some (ItLiteral (LStringBytes [xff]))) l.
Proof.
  split; [apply ample_sane, ampleb_ample; vm_compute; reflexivity|].
  destruct (parse_class debug64 raw_string) as [c| | |] eqn:H; [|exfalso; revert H; vm_compute; discriminate..].
  vm_compute in H. injection H as <-. eexists _, _. split; [reflexivity|]. split; [eexists _, _; split; [left; reflexivity|left; reflexivity]|].
  split; [vm_compute; reflexivity|]. cbn [In]. auto.
Qed.
