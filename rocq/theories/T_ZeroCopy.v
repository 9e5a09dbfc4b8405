(** * Property theorems: texts are borrowed from the input (C54). *)
From Verif Require Import Base M_Names M_Descriptors M_ConstantPool M_Bytecode M_Attributes M_Class M_Cesu8
  Z_Cow Z_Descriptors Z_ConstantPool Z_Bytecode Z_Attributes Z_Plain Z_Class S_Lang S_Utf S_Env S_ZeroCopy T_Text P_ZeroUtf P_Zero P_Zero3 P_Zero4 Data Sample.
From Coq Require Import ZifyBool ZifyNat ZifyN.

(** The model with borrowing is the model: same outcome, and on success the same class if borrowing is forgotten. *)
Theorem C54_same E opts bs : sane E bs -> cesu8 E = from_java_cesu8 ->
  match parse_class_with_options E opts bs with
  | Ok c => M_Class.parse_class_with_options E opts bs = Ok (plain_class c)
  | Err e => M_Class.parse_class_with_options E opts bs = Err e
  | Panic q => M_Class.parse_class_with_options E opts bs = Panic q
  | Diverge => M_Class.parse_class_with_options E opts bs = Diverge
  end.
Proof.
  intros Hs HE. pose proof (class_sim E (sane_32 _ _ Hs) HE bs opts) as H. destruct (parse_class_with_options E opts bs), (M_Class.parse_class_with_options E opts bs); cbn [simo] in H; try contradiction; try congruence; auto.
  destruct H as (<- & _). reflexivity.
Qed.
(** No text of an accepted class is copied unless the field of the file it is from is not UTF-8; a borrowed text is a slice of that field. *)
Theorem C54_uncopied E opts bs c : sane E bs -> cesu8 E = from_java_cesu8 -> parse_class_with_options E opts bs = Ok c ->
  Forall (uncopied (cesu8 E) (constant_pool c) bs) (class_texts c).
Proof.
  intros Hs HE H. pose proof (class_sim E (sane_32 _ _ Hs) HE bs opts) as Hsim. rewrite H in Hsim. destruct (M_Class.parse_class_with_options E opts bs); cbn [simo] in Hsim; try contradiction. tauto.
Qed.
Lemma pool_uncopied E opts bs c : sane E bs -> cesu8 E = from_java_cesu8 -> parse_class_with_options E opts bs = Ok c ->
  Forall (uncopied_constant (cesu8 E) bs) (flat_map entry_texts (constant_pool c)).
Proof.
  intros Hs HE H. pose proof (class_sim E (sane_32 _ _ Hs) HE bs opts) as Hsim. rewrite H in Hsim. destruct (M_Class.parse_class_with_options E opts bs); cbn [simo] in Hsim; try contradiction. tauto.
Qed.
(** The iterator over the constant pool: the same items, and no text of them is copied either. *)
Theorem C54_iterator E opts bs c n : sane E bs -> cesu8 E = from_java_cesu8 -> parse_class_with_options E opts bs = Ok c ->
  match constantpool_iter_run c n with
  | Ok items => M_Class.constantpool_iter_run (plain_class c) n = Ok (map (option_map plain_item) items)
      /\ forall it, In (Some it) items -> Forall (uncopied_constant (cesu8 E) bs) (item_texts it)
  | Err e => M_Class.constantpool_iter_run (plain_class c) n = Err e
  | Panic q => M_Class.constantpool_iter_run (plain_class c) n = Panic q
  | Diverge => M_Class.constantpool_iter_run (plain_class c) n = Diverge
  end.
Proof.
  intros Hs HE H. pose proof (pool_uncopied _ _ _ _ Hs HE H) as Hp. pose proof (iter_run_sim _ (constant_pool c) Hp n 0) as Hsim.
  unfold constantpool_iter_run, M_Class.constantpool_iter_run. cbn [plain_class M_Class.constant_pool].
  destruct (iter_run_from _ _ _) as [items| | |], (M_Class.iter_run_from _ _ _) as [items'| | |]; cbn [simo] in Hsim; try contradiction; try congruence; auto.
  destruct Hsim as (<- & Hitems). split; [reflexivity|]. intros it Hit. rewrite Forall_forall in *. intros t Ht. apply Hitems. apply in_flat_map. exists (Some it). auto.
Qed.

(** If all the text fields of the file are UTF-8 then nothing is copied at all. *)
Definition is_borrowed (t : cow) : Prop := exists s at_, t = Borrowed s at_.
Theorem C54_all_borrowed E opts bs c : sane E bs -> cesu8 E = from_java_cesu8 -> parse_class_with_options E opts bs = Ok c ->
  (forall i raw, constant_text bs i raw \/ debug_text (constant_pool c) bs i raw -> from_utf8 raw <> None) -> Forall is_borrowed (class_texts c).
Proof.
  intros Hs HE H Hutf. eapply Forall_impl; [|exact (C54_uncopied _ _ _ _ Hs HE H)]. intros t (i & raw & Hf & Ht). destruct t as [s a|s]; [now exists s, a|].
  destruct Ht as (Hn & _). now apply Hutf in Hf.
Qed.

(** Which fields are UTF-8: a text in modified UTF-8 (what compilers write) is, exactly if it has no NUL and no character outside the basic
    multilingual plane. *)
Lemma utf8_step_basic fuel c r : is_scalar c -> c <> 0 -> c < 0x10000 -> utf8_decode (S fuel) (char_bytes c ++ r) = option_map (cons c) (utf8_decode fuel r).
Proof.
  intros Hc Hz Hb. destruct (char_cases c Hc) as [(-> & ->)|[(H & ->)|[(a & b & Ha & Hb' & -> & ->)|[(a & b & d & Ha & Hb' & Hd & -> & Hlo & Hs & ->)|(b & d & e & f & Hb' & Hd & He & Hf & -> & ->)]]]];
    cbn [app utf8_decode].
  - contradiction.
  - deq (c <? 0x80) true. reflexivity.
  - deq (0xC0 + a <? 0x80) false. deq ((0xC2 <=? 0xC0 + a) && (0xC0 + a <=? 0xDF)) true. deq (cont (0x80 + b)) true. do 2 f_equal. lia.
  - deq (0xE0 + a <? 0x80) false. deq ((0xC2 <=? 0xE0 + a) && (0xE0 + a <=? 0xDF)) false. deq ((0xE0 <=? 0xE0 + a) && (0xE0 + a <=? 0xEF)) true.
    replace ((0xE0 + a - 0xE0) * 4096 + (0x80 + b - 0x80) * 64 + (0x80 + d - 0x80)) with (a * 4096 + b * 64 + d) by lia.
    match goal with |- (if ?x then _ else _) = _ => replace x with true by (unfold cont, scalar; lia) end. reflexivity.
  - lia.
Qed.
Lemma utf8_step_other fuel c r : is_scalar c -> c = 0 \/ 0x10000 <= c -> utf8_decode (S fuel) (char_bytes c ++ r) = None.
Proof.
  intros Hc Hz. destruct (char_cases c Hc) as [(-> & ->)|[(H & ->)|[(a & b & Ha & Hb' & -> & ->)|[(a & b & d & Ha & Hb' & Hd & -> & Hlo & Hs & ->)|(b & d & e & f & Hb' & Hd & He & Hf & -> & ->)]]]]; try lia;
    cbn [app utf8_decode].
  - reflexivity.
  - change (0xED <? 0x80) with false. change ((0xC2 <=? 0xED) && (0xED <=? 0xDF)) with false.
    change ((0xE0 <=? 0xED) && (0xED <=? 0xEF)) with true. cbv iota.
    match goal with |- (if ?x then _ else _) = _ => replace x with false by (unfold cont, scalar; lia) end. reflexivity.
Qed.
Theorem C54_which_are_utf8 s raw : Forall is_scalar s -> map Byte.to_N raw = modified_utf8 s ->
  (from_utf8 raw = None <-> Exists (fun c => c = 0 \/ 0x10000 <= c) s).
Proof.
  intros Hs Hraw. unfold from_utf8. rewrite Hraw. assert (Hf : (length s < S (length (modified_utf8 s)))%nat) by exact (le_n_S _ _ (encode_length s)).
  revert Hf. generalize (S (length (modified_utf8 s))) as fuel. clear raw Hraw. induction Hs as [|c s Hc Hs IH]; intros fuel Hf.
  - destruct fuel; [cbn in Hf; lia|]. split; [discriminate|]. inversion 1.
  - cbn [length] in Hf. destruct fuel as [|fuel]; [lia|]. rewrite encode_cons. destruct (N.eq_dec c 0) as [Hz|Hz]; [|destruct (N.lt_ge_cases c 0x10000)].
    + rewrite utf8_step_other by auto. split; auto.
    + rewrite utf8_step_basic by auto. split.
      * intro H'. right. apply (IH fuel); [lia|]. destruct (utf8_decode fuel _); [discriminate|reflexivity].
      * intro Hex. inversion Hex as [? ? [?|?]|? ? Hex']; subst; try lia. apply (IH fuel) in Hex'; [|lia]. now rewrite Hex'.
    + rewrite utf8_step_other by auto. split; auto.
Qed.

(** ** Examples *)
Definition borrowedb (t : cow) : bool := match t with Borrowed _ _ => true | Owned _ => false end.
(** In [sample] nothing is copied. *)
Definition sample_texts : list cow := Eval vm_compute in match parse_class_with_options debug64 true sample with Ok c => class_texts c | _ => [] end.
Example C54_meets_sample : sane debug64 sample /\ cesu8 debug64 = from_java_cesu8 /\ Nat.leb 50 (length sample_texts) = true /\ forallb borrowedb sample_texts = true.
Proof. split; [exact sample_sane|]. split; [reflexivity|]. split; vm_compute; reflexivity. Qed.

(** A class [A😀] with a field [f] of this type: only the texts with the supplementary character are copied. *)
Definition smile : list byte := unhex ("cafebabe0000003d0005" ++ "01000741eda0bdedb880" ++ "070001" ++ "01000166" ++ "0100094c41eda0bdedb8803b" ++ "0000" ++ "0002" ++ "0000" ++ "0000" ++ "0001" ++ "0000000300040000" ++ "0000" ++ "0000")%string.
Lemma smile_sane : sane debug64 smile.
Proof. apply ample_sane, ampleb_ample. vm_compute. reflexivity. Qed.
Example C54_meets_owned : exists c, parse_class_with_options debug64 true smile = Ok c
  /\ this_class c = Owned [0x41; 0x1F600]
  /\ map (fun f => (f_name f, fd_type (f_descriptor f))) (fields c) = [(Borrowed (lit "f") 26, FObject (Owned [0x41; 0x1F600]))].
Proof. eexists. split; [vm_compute; reflexivity|]. split; reflexivity. Qed.
(** A descriptor's class name is borrowed from the middle of the constant. *)
Definition plain_smile : list byte := unhex ("cafebabe0000003d0005" ++ "01000141" ++ "070001" ++ "01000166" ++ "0100034c413b" ++ "0000" ++ "0002" ++ "0000" ++ "0000" ++ "0001" ++ "0000000300040000" ++ "0000" ++ "0000")%string.
Example C54_meets_slice : exists c, parse_class_with_options debug64 true plain_smile = Ok c
  /\ this_class c = Borrowed (lit "A") 13
  /\ map (fun f => (f_name f, fd_type (f_descriptor f))) (fields c) = [(Borrowed (lit "f") 20, FObject (Borrowed (lit "A") 25))].
Proof. eexists. split; [vm_compute; reflexivity|]. split; reflexivity. Qed.
(** The contents of a SourceDebugExtension attribute are borrowed as well (they are the last two bytes of this file, which has 62 bytes). *)
Definition debugged : list byte := unhex ("cafebabe0000003d0004" ++ "01000141" ++ "070001" ++ "010014536f757263654465627567457874656e73696f6e" ++ "0000" ++ "0002" ++ "0000" ++ "0000" ++ "0000" ++ "0000" ++ "0001" ++ "0003000000026869")%string.
Example C54_meets_debug : blen debugged = 62 /\ exists c, parse_class_with_options debug64 true debugged = Ok c
  /\ class_attributes c = [mk_attr (Borrowed (lit "SourceDebugExtension") 20) (ASourceDebugExtension (Borrowed (lit "hi") 60))].
Proof. split; [vm_compute; reflexivity|]. eexists. split; [vm_compute; reflexivity|]. reflexivity. Qed.
