(** * Property theorems: attributes, stack map frames, numbers (C23 C32 C35). *)
From Verif Require Import Base M_Names M_Descriptors M_ConstantPool M_Bytecode M_Attributes M_Class M_Cesu8 Data Sample
  S_Lang S_Names S_Format S_Pool S_Within S_Frame S_Env P_Reads P_Tac P_Attributes P_Depth P_Class3 P_Layout P_Within P_Code P_Flat T_Class T_Members T_Bytecode.
From Coq Require Import ZifyBool ZifyNat ZifyN.

(** ** C23 *)
Section Frame.
Variable dec : list byte -> option str.
Variable sl : slots.
Variable wraps want : bool.
Lemma attribute_framed A d a w : attribute_with dec sl wraps want A d a w -> framed dec sl a w.
Proof.
  intros (u & v & -> & (i & Hi & Hn) & len & body & -> & Hl & Hc & _). exists u, len, body, i.
  split; [reflexivity|]. split; [exact Hi|]. split; [exact Hn|]. split; [exact Hl|].
  destruct a as [n dat]. cbn [attr_dat attr_name] in *.
  split; [intros r ->; exact Hc|]. split; [intros s ->; exact Hc|].
  intros k Hk. destruct dat; try discriminate Hk; injection Hk as <-; cbn [contents snd] in Hc.
  - exact (ref_len _ _ _ Hc).
  - destruct Hc as (x & y & -> & Hx & Hy). rewrite app_length, (ref_len _ _ _ Hx). cbn. f_equal. f_equal.
    match type of Hy with opt_ref _ ?o _ => destruct o end; cbn [opt_ref] in Hy; [exact (ref_len _ _ _ Hy)|exact (u2_len _ _ Hy)].
  - red in Hc. rewrite Hc. reflexivity.
  - exact (ref_len _ _ _ Hc).
  - exact (ref_len _ _ _ Hc).
  - red in Hc. rewrite Hc. reflexivity.
  - exact (ref_len _ _ _ Hc).
  - exact (ref_len _ _ _ Hc).
Qed.
Lemma table_framed d l w : attributes_lang dec sl wraps want d l w ->
  exists nw ws, w = nw ++ concat ws /\ u2 (N.of_nat (length l)) nw /\ Forall2 (framed dec sl) l ws.
Proof.
  destruct d as [|d]; [intros []|]. intros (nw & v & -> & Hn & Hm). apply many_concat in Hm. destruct Hm as (ws & Hws & ->).
  exists nw, ws. split; auto. split; auto. clear Hn. induction Hws; constructor; auto. eapply attribute_framed; eauto.
Qed.
End Frame.

Lemma list_part E opts bs c cs l : sane E bs -> parse_class_with_options E opts bs = Ok c -> constants_of E bs cs -> list_of c l ->
  exists d, part bs (attributes_lang (cesu8 E) (slots_of cs) (wrapping E) opts d l).
Proof.
  intros Hs H Hcs Hl. destruct (accepted_with _ _ _ _ _ Hs H Hcs) as (d & Hc). destruct Hl as [|f Hf|m Hm|n cd Hw|n l r Hw Hr].
  - exists d. destruct Hc as [Hc _]. clear - Hc. do 10 (apply (part_cat_r _ _ _ _ Hc); clear Hc bs; intros bs Hc). apply part_here, Hc.
  - exists d. apply (class_part_field _ _ _ _ _ _ _ _ Hc) in Hf. apply (part_trans _ _ _ Hf). intros u Hu.
    do 3 (apply (part_cat_r _ _ _ _ Hu); clear Hu u; intros u Hu). apply part_here, Hu.
  - exists d. apply (class_part_method _ _ _ _ _ _ _ _ Hc) in Hm. apply (part_trans _ _ _ Hm). intros u Hu.
    do 3 (apply (part_cat_r _ _ _ _ Hu); clear Hu u; intros u Hu). apply part_here, Hu.
  - destruct (part_contents _ _ _ _ _ _ Hs H Hcs Hw) as (d' & Hp). exists d'. apply (part_trans _ _ _ Hp). intros u Hu.
    cbn [attr_dat contents snd] in Hu. unfold code_lang in Hu.
    do 5 (apply (part_cat_r _ _ _ _ Hu); clear Hu u; intros u Hu). apply (part_cat_l _ _ _ _ Hu). intros v Hv. apply part_here, Hv.
  - destruct (part_contents _ _ _ _ _ _ Hs H Hcs Hw) as (d' & Hp). exists d'. apply (part_trans _ _ _ Hp). intros u Hu.
    cbn [attr_dat contents snd] in Hu. apply (part_table _ _ _ _ _ Hr) in Hu. apply (part_trans _ _ _ Hu). intros v Hv.
    do 2 (apply (part_cat_r _ _ _ _ Hv); clear Hv v; intros v Hv). apply part_here, Hv.
Qed.

(** Every attribute list, at any depth: the number of attributes, then the attributes one after the other,
    each occupying exactly the 6 + length bytes it declares. *)
Theorem C23_attribute_framing E opts bs c cs l : sane E bs -> parse_class_with_options E opts bs = Ok c -> constants_of E bs cs ->
  list_of c l -> exists pre nw ws post, bs = pre ++ nw ++ concat ws ++ post
    /\ u2 (N.of_nat (length l)) nw /\ Forall2 (framed (cesu8 E) (slots_of cs)) l ws.
Proof.
  intros Hs H Hcs Hl. destruct (list_part _ _ _ _ _ _ Hs H Hcs Hl) as (d & pre & u & post & -> & Hu).
  destruct (table_framed _ _ _ _ _ _ _ Hu) as (nw & ws & -> & Hn & Hws). exists pre, nw, ws, post. rewrite <- !app_assoc. auto.
Qed.
(** The list of the class itself ends the file. *)
Theorem C23_class_attributes_end E opts bs c cs : sane E bs -> parse_class_with_options E opts bs = Ok c -> constants_of E bs cs ->
  exists pre nw ws, bs = pre ++ nw ++ concat ws
    /\ u2 (N.of_nat (length (class_attributes c))) nw /\ Forall2 (framed (cesu8 E) (slots_of cs)) (class_attributes c) ws.
Proof.
  intros Hs H Hcs. destruct (accepted_with _ _ _ _ _ Hs H Hcs) as (d & [Hc _]).
  destruct Hc as (u0 & v0 & -> & _ & u1 & v1 & -> & _ & u2 & v2 & -> & _ & u3 & v3 & -> & _ & u4 & v4 & -> & _ & u5 & v5 & -> & _
    & u6 & v6 & -> & _ & u7 & v7 & -> & _ & u8 & v8 & -> & _ & u9 & v9 & -> & _ & Hc).
  destruct (table_framed _ _ _ _ _ _ _ Hc) as (nw & ws & -> & Hn & Hws).
  exists (u0 ++ u1 ++ u2 ++ u3 ++ u4 ++ u5 ++ u6 ++ u7 ++ u8 ++ u9), nw, ws. rewrite <- !app_assoc. auto.
Qed.
(** The list inside a Code attribute ends that attribute: what it declares is the fixed part, the code,
    the exception table of eight bytes per row, and the list. *)
Theorem C23_code_contents E opts bs c cs n cd : sane E bs -> parse_class_with_options E opts bs = Ok c -> constants_of E bs cs ->
  within c (mk_attr n (ACode cd)) ->
  exists pre nw lw body post stk loc cl ec exc an ws,
    bs = pre ++ nw ++ lw ++ body ++ post /\ ref (utf8_at (cesu8 E) (slots_of cs)) n nw /\ u4 (N.of_nat (length body)) lw
    /\ body = stk ++ loc ++ cl ++ cd_code cd ++ ec ++ exc ++ an ++ concat ws
    /\ u2 (cd_max_stack cd) stk /\ u2 (cd_max_locals cd) loc /\ u4 (N.of_nat (length (cd_code cd))) cl
    /\ u2 (N.of_nat (length (cd_exception_table cd))) ec /\ length exc = (8 * length (cd_exception_table cd))%nat
    /\ u2 (N.of_nat (length (cd_attributes cd))) an /\ Forall2 (framed (cesu8 E) (slots_of cs)) (cd_attributes cd) ws.
Proof.
  intros Hs H Hcs Hw. destruct (accepted_with _ _ _ _ _ Hs H Hcs) as (d & Hc).
  destruct (within_part _ _ _ _ _ _ _ _ Hc Hw) as (d' & pre & u & post & -> & Hu).
  destruct Hu as (nw & v & -> & Hn & lw & body & -> & Hl & Hb & _). cbn [attr_name attr_dat contents snd] in *.
  unfold code_lang in Hb. destruct Hb as (stk & v1 & -> & H1 & loc & v2 & -> & H2 & cl & v3 & -> & H3 & code & v4 & -> & H4 & v5 & v6 & -> & H5 & v7 & v8 & -> & H6 & -> & _).
  destruct H5 as (ec & exc & -> & H5 & H7). destruct (table_framed _ _ _ _ _ _ _ H6) as (an & ws & -> & H8 & H9). red in H4. subst code.
  rewrite app_nil_r in *. set (body := stk ++ loc ++ cl ++ cd_code cd ++ (ec ++ exc) ++ an ++ concat ws) in *.
  exists pre, nw, lw, body, post, stk, loc, cl, ec, exc, an, ws. split; [rewrite <- !app_assoc; reflexivity|].
  split; auto. split; [exact Hl|]. split; [unfold body; rewrite <- !app_assoc; reflexivity|]. split; auto. split; auto. split; auto. split; auto. split; auto.
  clear - H7. revert exc H7. induction (cd_exception_table cd) as [|e l IH]; intros exc H7; [change (exc = []) in H7; rewrite H7; reflexivity|].
  destruct H7 as (u & v & -> & Hu & Hv). rewrite app_length, (IH _ Hv). clear IH Hv.
  destruct Hu as (a & b & -> & Ha & a1 & b1 & -> & Ha1 & a2 & b2 & -> & Ha2 & Hb). rewrite !app_length, (u2_len _ _ Ha), (u2_len _ _ Ha1), (u2_len _ _ Ha2).
  assert (length b2 = 2%nat) as -> by (destruct (ex_catch_type e); cbn [opt_ref] in Hb; [exact (ref_len _ _ _ Hb)|exact (u2_len _ _ Hb)]).
  cbn [length]. lia.
Qed.

(** A class with attributes nested in Code attributes, and one with a stack map of at least two frames. *)
Example C23_meets : sane debug64 object_class /\ exists c cd n, parse_class debug64 object_class = Ok c
  /\ within c (mk_attr n (ACode cd)) /\ length (cd_attributes cd) = 3%nat.
Proof.
  split; [apply ample_sane, ampleb_ample; vm_compute; reflexivity|].
  destruct (find_within (parse_class debug64 object_class) (fun a => match attr_dat a with ACode cd => Nat.eqb (length (cd_attributes cd)) 3 | _ => false end))
    as (c & [n dat] & H & Hw & HP); [vm_compute; reflexivity|]. cbn [attr_dat] in HP. destruct dat; try discriminate HP. apply Nat.eqb_eq in HP.
  eexists c, _, n. split; [exact H|]. split; [exact Hw|exact HP].
Qed.

(** ** C35 *)
(** What the bytes of a verification type and of a frame say. *)
Definition type_reads (dec : list byte -> option str) (sl : slots) (v : verification_type) (w : list byte) : Prop :=
  exists t w', w = t :: w' /\
  match v with
  | VTop => Byte.to_N t = 0 /\ w' = [] | VInteger => Byte.to_N t = 1 /\ w' = [] | VFloat => Byte.to_N t = 2 /\ w' = []
  | VDouble => Byte.to_N t = 3 /\ w' = [] | VLong => Byte.to_N t = 4 /\ w' = [] | VNull => Byte.to_N t = 5 /\ w' = []
  | VUninitializedThis => Byte.to_N t = 6 /\ w' = []
  | VObject s => Byte.to_N t = 7 /\ exists a b, w' = [a; b] /\ class_at dec sl (Byte.to_N a * 256 + Byte.to_N b) s
  | VUninitialized off => Byte.to_N t = 8 /\ exists a b, w' = [a; b] /\ off = Byte.to_N a * 256 + Byte.to_N b
  end.
Definition types_read dec sl vs w := exists ws, w = concat ws /\ Forall2 (type_reads dec sl) vs ws.
Definition frame_reads (dec : list byte -> option str) (sl : slots) (e : stack_map_entry) (t : N) (w : list byte) : Prop :=
  let delta d r := exists a b, w = a :: b :: r /\ d = Byte.to_N a * 256 + Byte.to_N b in
  (t <= 63 /\ w = [] /\ e = SmSame t)
  \/ (64 <= t <= 127 /\ exists v, type_reads dec sl v w /\ e = SmSameLocals1StackItem (t - 64) v)
  \/ (t = 247 /\ exists d v r, delta d r /\ type_reads dec sl v r /\ e = SmSameLocals1StackItem d v)
  \/ (248 <= t <= 250 /\ exists d, delta d [] /\ e = SmChop d (251 - t))
  \/ (t = 251 /\ exists d, delta d [] /\ e = SmSame d)
  \/ (252 <= t <= 254 /\ exists d vs r, delta d r /\ types_read dec sl vs r /\ N.of_nat (length vs) = t - 251 /\ e = SmAppend d vs)
  \/ (t = 255 /\ exists d ls ss ln lw sn sw, delta d (ln ++ lw ++ sn ++ sw) /\ u2 (N.of_nat (length ls)) ln /\ types_read dec sl ls lw
      /\ u2 (N.of_nat (length ss)) sn /\ types_read dec sl ss sw /\ e = SmFullFrame d ls ss).
Lemma verification_reads dec sl v w : verification_lang dec sl v w -> type_reads dec sl v w.
Proof.
  destruct v; cbn [verification_lang]; intro H; unfold type_reads.
  all: try (apply u1_bytes in H; destruct H as (b & -> & H); exists b, []; auto; fail).
  all: try (apply u1_cons in H; destruct H as (b & w' & -> & Hb & Hi); apply u2_bytes in Hi; destruct Hi as (x & y & -> & ->); exists b, [x; y]; eauto 10; fail).
  apply u1_cons in H. destruct H as (b & w' & -> & Hb & i & Hi & Hc). apply u2_bytes in Hi. destruct Hi as (x & y & -> & ->). exists b, [x; y]. eauto 10.
Qed.
Lemma verifications_read dec sl vs w : many (verification_lang dec sl) vs w -> types_read dec sl vs w.
Proof.
  intro H. apply many_concat in H. destruct H as (ws & Hws & ->). exists ws. split; auto. induction Hws; constructor; auto. apply verification_reads; auto.
Qed.
Lemma stack_map_reads dec sl e w : stack_map_lang dec sl e w -> exists b w', w = b :: w' /\ frame_reads dec sl e (Byte.to_N b) w'.
Proof.
  unfold frame_reads. destruct e as [d|d v|d k|d vs|d ls ss]; cbn [stack_map_lang]; unfold alt; intro H.
  - destruct H as [H|H].
    + apply cat_only_r in H. destruct H as [H Hd]. apply u1_bytes in H. destruct H as (b & -> & ->). exists b, []. split; auto.
    + apply u1_cons in H. destruct H as (b & w' & -> & Hb & H). apply u2_bytes in H. destruct H as (x & y & -> & ->). exists b, [x; y]. split; auto.
      do 4 right. left. split; auto. eexists; split; [|reflexivity]. eauto.
  - destruct H as [H|H].
    + apply u1_cons in H. destruct H as (b & w' & -> & Hb & H). apply cat_only_l in H. destruct H as [Hd Hv]. exists b, w'. split; auto.
      right. left. rewrite Hb. split; [lia|]. exists v. split; [apply verification_reads; auto|]. f_equal. lia.
    + apply u1_cons in H. destruct H as (b & w' & -> & Hb & u & r & -> & Hu & Hv). apply u2_bytes in Hu. destruct Hu as (x & y & -> & ->).
      exists b, (x :: y :: r). split; auto. do 2 right. left. split; auto. eexists _, v, r. split; [eauto|]. split; [apply verification_reads; auto|reflexivity].
  - apply cat_only_l in H. destruct H as [Hk H]. apply u1_cons in H. destruct H as (b & w' & -> & Hb & H). apply u2_bytes in H. destruct H as (x & y & -> & ->).
    exists b, [x; y]. split; auto. do 3 right. left. rewrite Hb. split; [lia|]. eexists; split; [eauto|]. f_equal. lia.
  - apply cat_only_l in H. destruct H as [Hk H]. apply u1_cons in H. destruct H as (b & w' & -> & Hb & u & r & -> & Hu & Hv). apply u2_bytes in Hu. destruct Hu as (x & y & -> & ->).
    exists b, (x :: y :: r). split; auto. do 5 right. left. rewrite Hb. split; [lia|]. eexists _, vs, r. split; [eauto|]. split; [apply verifications_read; auto|]. split; [lia|reflexivity].
  - apply u1_cons in H. destruct H as (b & w' & -> & Hb & u & r & -> & Hu & Hv). apply u2_bytes in Hu. destruct Hu as (x & y & -> & ->).
    destruct Hv as (p & q & -> & (ln & lw & -> & Hln & Hlw) & sn & sw & -> & Hsn & Hsw).
    exists b, ([x; y] ++ (ln ++ lw) ++ sn ++ sw). split; auto. do 6 right. split; auto. eexists _, ls, ss, ln, lw, sn, sw.
    split; [exists x, y; split; [rewrite <- app_assoc; reflexivity|reflexivity]|]. split; auto. split; [apply verifications_read; auto|]. split; auto. split; [apply verifications_read; auto|reflexivity].
Qed.
(** All frames of all stack maps: the table consists of the number of frames and the frames, in order. *)
Theorem C35_frames E opts bs c cs n l : sane E bs -> parse_class_with_options E opts bs = Ok c -> constants_of E bs cs ->
  within c (mk_attr n (AStackMapTable l)) ->
  exists pre nw ws post, bs = pre ++ nw ++ concat ws ++ post /\ u2 (N.of_nat (length l)) nw
    /\ Forall2 (fun e w => exists b w', w = b :: w' /\ frame_reads (cesu8 E) (slots_of cs) e (Byte.to_N b) w') l ws.
Proof.
  intros Hs H Hcs Hw. destruct (part_contents _ _ _ _ _ _ Hs H Hcs Hw) as (d & pre & u & post & -> & Hu). cbn [attr_dat contents snd] in Hu.
  destruct Hu as (nw & v & -> & Hn & Hm). apply many_concat in Hm. destruct Hm as (ws & Hws & ->). exists pre, nw, ws, post.
  rewrite <- !app_assoc. split; auto. split; auto. clear - Hws. induction Hws; constructor; auto. apply stack_map_reads; auto.
Qed.
Example C35_meets : sane debug64 object_class /\ exists c n l, parse_class debug64 object_class = Ok c
  /\ within c (mk_attr n (AStackMapTable l)) /\ l = [SmSame 9; SmSameLocals1StackItem 0 VInteger].
Proof.
  split; [apply ample_sane, ampleb_ample; vm_compute; reflexivity|].
  destruct (find_within (parse_class debug64 object_class) (fun a => match attr_dat a with AStackMapTable [SmSame 9; SmSameLocals1StackItem 0 VInteger] => true | _ => false end))
    as (c & [n dat] & H & Hw & HP); [vm_compute; reflexivity|]. cbn [attr_dat] in HP. destruct dat; try discriminate HP.
  eexists c, n, _. split; [exact H|]. split; [exact Hw|]. 
  repeat match type of HP with context[match ?x with _ => _ end] => destruct x; try discriminate HP end. reflexivity.
Qed.
(** No frame has a reserved tag and no type has a tag above 8: such tables are not read. *)
Lemma many_next {A} E (p : parser A) F l1 : reads E p F -> forall l w1 rest q, fits E (q ++ w1 ++ rest) -> many F l1 w1 -> many F l (w1 ++ rest) ->
  (length l1 < length l)%nat -> exists e u r, rest = u ++ r /\ F e u.
Proof.
  intro Hp. induction l1 as [|a l1 IH]; intros l w1 rest q Hfit H1 H Hl.
  - change (w1 = []) in H1. subst w1. destruct l as [|e l]; [cbn in Hl; lia|]. destruct H as (u & v & He & Hu & _). exists e, u, v. auto.
  - destruct l as [|e l]; [cbn in Hl; lia|]. destruct H1 as (u & v & -> & Hu & Hv). destruct H as (u' & v' & He & Hu' & Hv').
    rewrite <- app_assoc in He. destruct (reads_det E p F u (v ++ rest) u' v' a e Hp) as (<- & <- & <-); auto.
    { destruct Hfit as [F1 F2 F3]. constructor; auto; revert F2 F3; unfold blen; rewrite !app_length; lia. }
    apply (IH l v rest (q ++ u)); auto; [|cbn in Hl; lia]. rewrite <- !app_assoc in *. exact Hfit.
Qed.
Lemma reads_stackmaptable E cs : reads E (read_stackmaptable_data (pool_of (cesu8 E) (slots_of cs))) (table u2 (stack_map_lang (cesu8 E) (slots_of cs))).
Proof. unfold read_stackmaptable_data. eapply reads_table; [apply reads_u2|]. intro j. apply reads_stack_map_entry. Qed.
Theorem C35_reserved_frame_rejected E cs bs pre nw l w n t rest : fits E bs -> bs = pre ++ nw ++ w ++ t :: rest ->
  u2 n nw -> many (stack_map_lang (cesu8 E) (slots_of cs)) l w -> N.of_nat (length l) < n -> 128 <= Byte.to_N t <= 246 ->
  ~ exists r ix, read_stackmaptable_data (pool_of (cesu8 E) (slots_of cs)) bs (blen pre) = Ok (r, ix).
Proof.
  intros Hfit He Hn Hl Hlt Ht (r & ix & H). apply (reads_stackmaptable E cs) in H; auto; [|rewrite He, blen_app; lia].
  destruct H as (p & u & q & Hq & Hp & -> & nw' & v & -> & Hn' & Hm). rewrite Hq in He. apply app_eq_blen in He; auto. destruct He as [-> He].
  rewrite <- app_assoc in He. destruct (uint_split _ _ _ _ _ _ _ He Hn' Hn) as (<- & <- & He').
  assert (Hx : exists a b c, t :: rest ++ [] = a ++ b /\ stack_map_lang (cesu8 E) (slots_of cs) c a).
  { assert (Hv : exists s, v = w ++ s /\ s ++ q = t :: rest).
    { assert (Hgo : forall l l' w' v' z, fits E (w' ++ t :: rest) -> many (stack_map_lang (cesu8 E) (slots_of cs)) l w' -> many (stack_map_lang (cesu8 E) (slots_of cs)) l' v' ->
        v' ++ z = w' ++ t :: rest -> (length l <= length l')%nat -> exists s, v' = w' ++ s /\ s ++ z = t :: rest).
      { clear. induction l as [|e l IH]; intros l' w' v' z Hfit Hw Hv He Hll.
        - change (w' = []) in Hw. subst w'. exists v'. auto.
        - destruct l' as [|e' l']; [cbn in Hll; lia|]. destruct Hw as (a & b & -> & Ha & Hb), Hv as (a' & b' & -> & Ha' & Hb').
          rewrite <- !app_assoc in *. symmetry in He.
          destruct (reads_det E _ _ _ _ _ _ _ _ (reads_stack_map_entry E cs 0) Hfit He Ha Ha') as (<- & <- & He').
          destruct (IH l' b b' z) as (s & -> & Hs); auto.
          { destruct Hfit as [F1 F2 F3]. constructor; auto; revert F2 F3; unfold blen; rewrite !app_length; lia. }
          { cbn in Hll. lia. }
          exists s. rewrite <- app_assoc. auto. }
      apply (Hgo l r w v q); auto; [|lia]. destruct Hfit as [F1 F2 F3]. rewrite <- He'.
      constructor; auto; revert F2 F3; rewrite Hq; unfold blen; rewrite !app_length; lia. }
    destruct Hv as (s & -> & Hs). 
    destruct (many_next E _ _ l (reads_stack_map_entry E cs 0) r w s []) as (e & a & b & -> & Ha); auto.
    { cbn [app]. destruct Hfit as [F1 F2 F3]. constructor; auto; revert F2 F3; rewrite Hq; unfold blen; rewrite !app_length; lia. }
    { lia. }
    exists a, (b ++ q), e. rewrite app_nil_r, <- Hs, app_assoc. auto. }
  destruct Hx as (a & b & e & Hx & Ha). destruct (stack_map_reads _ _ _ _ Ha) as (b0 & a' & -> & Hf). injection Hx as <- _.
  unfold frame_reads in Hf. repeat (destruct Hf as [Hf|Hf]; [destruct Hf; lia|]). destruct Hf; lia.
Qed.

(** ** C32 *)
Lemma be_snoc w b : be (w ++ [b]) = be w * 256 + Byte.to_N b.
Proof. unfold be. rewrite fold_left_app. reflexivity. Qed.
Lemma to_N_inj a b : Byte.to_N a = Byte.to_N b -> a = b.
Proof. intro H. apply (f_equal Byte.of_N) in H. rewrite !Byte.of_to_N in H. congruence. Qed.
(** Every number below 256^k is written by exactly one string of k bytes. *)
Theorem C32_unsigned_bijective k n : n < 256 ^ N.of_nat k <-> exists w, uint k n w /\ forall w', uint k n w' -> w' = w.
Proof.
  split.
  - revert n. induction k as [|k IH]; intros n Hn.
    + exists []. split; [split; [reflexivity|change (256 ^ N.of_nat 0) with 1 in Hn; cbn; lia]|]. intros w' [Hl _]. destruct w'; [auto|discriminate].
    + rewrite Nat2N.inj_succ, N.pow_succ_r' in Hn.
      destruct (IH (n / 256)) as (w & [Hl Hb] & Hu); [apply N.div_lt_upper_bound; lia|].
      assert (Hm : n mod 256 < 256) by (apply N.mod_lt; lia). destruct (Byte.of_N (n mod 256)) as [b|] eqn:Hbyte.
      2:{ apply Byte.of_N_None_iff in Hbyte. lia. }
      apply Byte.to_of_N in Hbyte. pose proof (N.div_mod n 256).
      exists (w ++ [b]). split.
      * split; [rewrite app_length, Hl; cbn; lia|]. rewrite be_snoc, Hb, Hbyte. lia.
      * intros w' [Hl' Hb']. destruct (exists_last (l := w')) as (v & x & ->); [intros ->; discriminate|].
        rewrite app_length in Hl'. cbn in Hl'. rewrite be_snoc in Hb'. pose proof (to_N_lt x).
        assert (Hx : Byte.to_N x = Byte.to_N b /\ be v = n / 256).
        { rewrite Hbyte. split; [rewrite <- Hb', N.add_comm, N.mod_add, N.mod_small; lia|].
          rewrite <- Hb', N.add_comm, N.div_add, N.div_small; lia. }
        destruct Hx as [Hx Hv]. apply to_N_inj in Hx. subst x. f_equal. apply Hu. split; [lia|exact Hv].
  - intros (w & Hw & _). apply uint_bound in Hw. exact Hw.
Qed.
(** Every k-byte integer is written in two's complement by exactly one string of k bytes. *)
Theorem C32_signed_bijective k z : (0 < k)%nat -> (- 2 ^ (8 * Z.of_nat k - 1) <= z < 2 ^ (8 * Z.of_nat k - 1))%Z ->
  exists w, sint k z w /\ forall w', sint k z w' -> w' = w.
Proof.
  intros Hk Hz. assert (Hp : (0 < 2 ^ (8 * Z.of_nat k))%Z) by (apply Z.pow_pos_nonneg; lia).
  pose proof (Z.mod_pos_bound z _ Hp) as Hm.
  destruct (C32_unsigned_bijective k (Z.to_N (z mod 2 ^ (8 * Z.of_nat k)))) as [Hb _]. destruct Hb as (w & [Hl Hb] & Hu).
  { apply N2Z.inj_lt. rewrite Z2N.id by lia. rewrite N2Z.inj_pow. change (Z.of_N 256) with (2 ^ 8)%Z. rewrite nat_N_Z, <- Z.pow_mul_r by lia. lia. }
  exists w. split; [split; [exact Hl|split; [exact Hz|rewrite Hb, Z2N.id; lia]]|].
  intros w' (Hl' & _ & H'). apply Hu. split; [exact Hl'|]. apply N2Z.inj. rewrite <- H', Z2N.id; lia.
Qed.
(** The four readers: at any position of any input. *)
Definition reader (p : parser N) (k : nat) : Prop := forall bs ix n ix', p bs ix = Ok (n, ix') <->
  exists pre w post, bs = pre ++ w ++ post /\ N.of_nat (length pre) = ix /\ length w = k /\ n = be w /\ ix' = ix + N.of_nat k.
Lemma reader_of (p : parser N) k : (forall E, reads E p (uint k)) -> (forall bs ix, blen bs < ix -> exists e, p bs ix = Err e) -> reader p k.
Proof.
  intros Hp Hout bs ix n ix'. destruct (N.ltb_spec (blen bs) ix) as [Hlt|Hle].
  - destruct (Hout bs ix Hlt) as (e & He). rewrite He. split; [discriminate|]. intros (pre & w & post & -> & <- & _). exfalso. revert Hlt. unfold blen. rewrite !app_length. lia.
  - rewrite (Hp (Build_env true (2 ^ 64 + 2 * blen bs) (blen bs) 0 (fun _ => None) []) ix bs n ix'); auto; [|constructor; cbn [usize_max alloc_limit]; lia].
    split.
    + intros (pre & w & post & -> & -> & -> & Hl & Hb). exists pre, w, post. repeat split; auto. unfold blen. lia.
    + intros (pre & w & post & -> & <- & Hl & -> & ->). exists pre, w, post. repeat split; auto. unfold blen. lia.
Qed.
Theorem C32_big_endian : reader read_u1 1 /\ reader read_u2 2 /\ reader read_u4 4 /\ reader read_u8 8.
Proof.
  assert (Hb : forall bs ix k, blen bs < ix -> (blen bs <? ix + k) = true) by (intros; apply N.ltb_lt; lia).
  split; [|split; [|split]]; apply reader_of; intros.
  all: try (apply reads_u1 || apply reads_u2 || apply reads_u4 || apply reads_u8).
  all: unfold read_u1, read_u2, read_u4, read_u8; rewrite Hb by assumption; eexists; reflexivity.
Qed.
(** Numeric constants of an accepted file: the bytes of the k-th constant, and the entry of the pool. *)
Theorem C32_constants E opts bs c minor major count cs ws rest k x w : sane E bs -> parse_class_with_options E opts bs = Ok c ->
  starts_with_pool bs minor major count cs ws rest -> fills (wrapping E) count 1 cs ->
  nth_error cs k = Some x -> nth_error ws k = Some w ->
  let entry e := nth_error (constant_pool c) (N.to_nat (index_of cs k)) = Some e in
  match x with
  | CInteger v => exists t w', w = t :: w' /\ Byte.to_N t = 3 /\ length w' = 4%nat /\ v = twos 32 (be w') /\ entry (EInteger v)
  | CFloat v => exists t w', w = t :: w' /\ Byte.to_N t = 4 /\ length w' = 4%nat /\ v = be w' /\ entry (EFloat v)
  | CLong v => exists t w', w = t :: w' /\ Byte.to_N t = 5 /\ length w' = 8%nat /\ v = twos 64 (be w') /\ entry (ELong v)
  | CDouble v => exists t w', w = t :: w' /\ Byte.to_N t = 6 /\ length w' = 8%nat /\ v = be w' /\ entry (EDouble v)
  | _ => True
  end.
Proof.
  intros Hs H Hst Hf Hx Hw entry. 
  assert (He : entry (entry_of (cesu8 E) x)).
  { assert (Hcs : constants_of E bs cs) by (exists minor, major, count, ws, rest; auto).
    destruct (accepted_with _ _ _ _ _ Hs H Hcs) as (d & _ & HP & _). destruct (at_index_of _ _ _ Hx) as [Ha _].
    unfold entry. rewrite HP. apply (P_Pool3.at_index_entry (cesu8 E)) in Ha. exact Ha. }
  destruct Hst as (_ & _ & _ & _ & _ & _ & _ & Hws).
  assert (Hl : constant_lang major x w).
  { clear - Hws Hx Hw. revert k Hx Hw. induction Hws; intros [|k] Hx Hw; try discriminate; cbn in *; [congruence|eauto]. }
  destruct x; auto; destruct Hl as [_ Hl]; apply u1_cons in Hl; destruct Hl as (t & w' & -> & Ht & Hl); exists t, w'; repeat (split; [reflexivity || assumption || idtac|]); auto.
  - apply s4_bytes in Hl. apply Hl.
  - apply s4_bytes in Hl. apply Hl.
  - apply Hl.
  - destruct Hl as [_ Hl]. auto.
  - apply Hl.
  - apply s8_u8 in Hl. destruct Hl as (n & [_ <-] & ->). apply (twos_signed 64). lia.
  - apply Hl.
  - destruct Hl as [_ Hl]. auto.
Qed.
Example C32_constants_meets : sane debug64 sample /\ parse_class_with_options debug64 true sample = Ok sample_parsed
  /\ starts_with_pool sample 0 61 57 sample_constants sample_pieces sample_rest /\ fills (wrapping debug64) 57 1 sample_constants
  /\ nth_error sample_constants 8 = Some (CLong (-2)) /\ nth_error sample_pieces 8 = Some (unhex "05fffffffffffffffe")
  /\ nth_error sample_constants 31 = Some (CInteger (-70000)) /\ nth_error sample_pieces 31 = Some (unhex "03fffeee90").
Proof.
  split; [exact sample_sane|]. split; [exact sample_parse|]. split; [exact sample_starts|]. split; [exact sample_fills|]. repeat split.
Qed.
