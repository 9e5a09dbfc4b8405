(** * Insertion of an unknown attribute: proofs. *)
From Verif Require Import Base S_Lang S_Names S_Format S_Grow P_Reads P_Tac P_Depth P_Layout.
From Verif Require Import M_Bytecode M_Attributes M_Class.
From Coq Require Import ZifyBool ZifyNat ZifyN.

(** No member of [L] is a proper prefix of another one. *)
Definition delimited (L : lang) := forall u v u' v', L u -> L u' -> u ++ v = u' ++ v' -> u = u' /\ v = v'.

Lemma concat_delimited L : delimited L -> forall ws ws' v v', Forall L ws -> Forall L ws' -> length ws = length ws' ->
  concat ws ++ v = concat ws' ++ v' -> ws = ws' /\ v = v'.
Proof.
  intros HL ws. induction ws as [|w ws IH]; intros [|w' ws'] v v' H H' Hl He; try discriminate Hl; [auto|].
  inversion H; subst; inversion H'; subst. cbn [concat] in He. rewrite <- !app_assoc in He.
  destruct (HL _ _ _ _ H2 H4 He) as [-> He']. injection Hl as Hl. destruct (IH _ _ _ H3 H5 Hl He') as [-> ->]. auto.
Qed.
Lemma fixed_delimited n : delimited (fun w => length w = n).
Proof. intros u v u' v' H H' He. apply app_eq_len; congruence. Qed.
Lemma attribute_delimited : delimited attribute_extent.
Proof.
  intros u v u' v' (a & b & c & -> & Ha & Hb) (a' & b' & c' & -> & Ha' & Hb') He. rewrite <- !app_assoc in He.
  apply app_eq_len in He; [|congruence]. destruct He as [-> He].
  apply app_eq_len in He; [|destruct Hb, Hb'; congruence]. destruct He as [-> He].
  apply app_eq_len in He; [|destruct Hb as [_ Hb], Hb' as [_ Hb']; lia]. destruct He as [-> He]. auto.
Qed.
Lemma list_delimited : delimited list_extent.
Proof.
  intros u v u' v' (a & ws & -> & Ha & Hb) (a' & ws' & -> & Ha' & Hb') He. rewrite <- !app_assoc in He.
  apply app_eq_len in He; [|destruct Ha, Ha'; congruence]. destruct He as [-> He].
  assert (Hl : length ws = length ws') by (destruct Ha as [_ Ha], Ha' as [_ Ha']; lia).
  destruct (concat_delimited _ attribute_delimited _ _ _ _ Hb Hb' Hl He) as [-> ->]. auto.
Qed.
Lemma component_delimited : delimited component_extent.
Proof.
  intros u v u' v' (a & t & -> & Ha & Ht) (a' & t' & -> & Ha' & Ht') He. rewrite <- !app_assoc in He.
  apply app_eq_len in He; [|congruence]. destruct He as [-> He]. destruct (list_delimited _ _ _ _ Ht Ht' He) as [-> ->]. auto.
Qed.
Lemma head_delimited : delimited code_head.
Proof.
  intros u v u' v' (a & b & c & d & e & -> & Ha & Hb & n & Hn & He) (a' & b' & c' & d' & e' & -> & Ha' & Hb' & n' & Hn' & He') H.
  rewrite <- !app_assoc in H. apply app_eq_len in H; [|congruence]. destruct H as [-> H].
  apply app_eq_len in H; [|destruct Hb, Hb'; congruence]. destruct H as [-> H].
  apply app_eq_len in H; [|destruct Hb as [_ Hb], Hb' as [_ Hb']; lia]. destruct H as [-> H].
  apply app_eq_len in H; [|destruct Hn, Hn'; congruence]. destruct H as [-> H].
  apply app_eq_len in H; [|destruct Hn as [_ Hn], Hn' as [_ Hn']; lia]. destruct H as [-> H]. auto.
Qed.

(** ** Rows of a table *)
Lemma concat_many {A} (F : A -> lang) l ws : Forall2 F l ws -> many F l (concat ws).
Proof. induction 1; [reflexivity|]. cbn [many concat]. apply cat_intro; auto. Qed.
Section Rows.
Context {A : Type} (F : A -> lang) (P : lang).
Hypothesis HP : delimited P.
Hypothesis HF : forall a w, F a w -> P w.
Lemma rows_extent l ws : Forall2 F l ws -> Forall P ws.
Proof. induction 1; constructor; eauto. Qed.
Lemma F2_len l ws : Forall2 F l ws -> length l = length ws.
Proof. induction 1; cbn; auto. Qed.
Lemma split_rows l1 l2 ws1 v : many F (l1 ++ l2) (concat ws1 ++ v) -> length ws1 = length l1 -> Forall P ws1 ->
  Forall2 F l1 ws1 /\ many F l2 v.
Proof.
  intros H Hl HP1. apply many_concat in H. destruct H as (ws & Hws & Hc). apply Forall2_app_inv_l in Hws.
  destruct Hws as (w1 & w2 & H1 & H2 & ->). rewrite concat_app in Hc.
  assert (Hl' : length ws1 = length w1) by (rewrite Hl; apply F2_len, H1).
  destruct (concat_delimited _ HP _ _ _ _ HP1 (rows_extent _ _ H1) Hl' Hc) as [-> ->].
  split; auto. apply concat_many, H2.
Qed.
Lemma split_mid l1 a l2 ws1 w ws2 : many F (l1 ++ a :: l2) (concat ws1 ++ w ++ concat ws2) ->
  length ws1 = length l1 -> Forall P ws1 -> P w -> Forall2 F l1 ws1 /\ F a w /\ many F l2 (concat ws2).
Proof.
  intros H Hl H1 Hw. destruct (split_rows _ _ _ _ H Hl H1) as [HF1 H2]. split; auto. destruct H2 as (x & y & He & Hx & Hy).
  destruct (HP _ _ _ _ Hw (HF _ _ Hx) He) as [-> ->]. auto.
Qed.
Lemma join_mid l1 a l2 ws1 w v : Forall2 F l1 ws1 -> F a w -> many F l2 v -> many F (l1 ++ a :: l2) (concat ws1 ++ w ++ v).
Proof.
  intros H1 Ha H2. induction H1; cbn [many concat app]; [apply cat_intro; auto|]. rewrite <- app_assoc. apply cat_intro; auto.
Qed.
End Rows.

Section Grows.
Variable dec : list byte -> option str.
Variable sl : slots.
Variable wraps want : bool.
Notation attribute d := (attribute_with dec sl wraps want (attributes_lang dec sl wraps want d) d).

Lemma attribute_extends (L : list attr_info -> lang) d a w : attribute_with dec sl wraps want L d a w -> attribute_extent w.
Proof. intros (u & v & -> & (i & Hi & Hn) & len & body & -> & Hl & _). exists u, len, body. split; auto. split; auto. apply Hi. Qed.
Lemma list_extends d l w : attributes_lang dec sl wraps want d l w -> list_extent w.
Proof.
  destruct d as [|d]; [intros []|]. intros (cw & v & -> & Hc & Hm). apply many_concat in Hm. destruct Hm as (ws & Hws & ->).
  exists cw, ws. split; auto. rewrite <- (F2_len _ _ _ Hws). split; auto. eapply rows_extent; [|exact Hws]. intros. eapply attribute_extends; eauto.
Qed.
Lemma component_extends d r w : record_component_lang dec sl (attributes_lang dec sl wraps want d) r w -> component_extent w.
Proof.
  intros (u & v & -> & Hu & u' & v' & -> & Hu' & Hv). exists (u ++ u'), v'. rewrite app_assoc. split; auto. split; [|eapply list_extends; eauto].
  rewrite app_length, (ref_len _ _ _ Hu), (ref_len _ _ _ Hu'). reflexivity.
Qed.
Lemma exceptions_len l w : many (exception_lang dec sl) l w -> N.of_nat (length w) = 8 * N.of_nat (length l).
Proof.
  revert w. induction l as [|e l IH]; intros w H; [change (w = []) in H; subst; reflexivity|]. destruct H as (u & v & -> & Hu & Hv).
  rewrite app_length. apply IH in Hv. destruct Hu as (a & b & -> & Ha & c & d & -> & Hc & g & h & -> & Hg & Hh). rewrite !app_length.
  pose proof (u2_len _ _ Ha). pose proof (u2_len _ _ Hc). pose proof (u2_len _ _ Hg).
  assert (length h = 2%nat) by (destruct (ex_catch_type e); cbn [opt_ref] in Hh; [exact (ref_len _ _ _ Hh)|exact (u2_len _ _ Hh)]). cbn [length]. lia.
Qed.
(** The body of a Code attribute: head, then attribute list. *)
Lemma code_parts (L : list attr_info -> lang) s m code bc ex l w : code_lang dec sl wraps want L (mk_code s m code bc ex l) w ->
  exists head t, w = head ++ t /\ code_head head /\ L l t
    /\ forall (L' : list attr_info -> lang) l' t', L' l' t' -> code_lang dec sl wraps want L' (mk_code s m code bc ex l') (head ++ t').
Proof.
  intros (w1 & v1 & -> & H1 & w2 & v2 & -> & H2 & w3 & v3 & -> & H3 & w4 & v4 & -> & H4 & w5 & v5 & -> & H5 & w6 & v6 & -> & H6 & -> & H7).
  cbn [cd_max_stack cd_max_locals cd_code cd_exception_table cd_attributes cd_bytecode] in *. red in H4. subst w4.
  exists (w1 ++ w2 ++ w3 ++ code ++ w5), w6. rewrite app_nil_r, <- !app_assoc. split; auto. split; [|split; auto].
  - destruct H5 as (nw & xw & -> & Hn & Hx). exists (w1 ++ w2), w3, code, nw, xw. rewrite <- !app_assoc. split; auto.
    split; [rewrite app_length, (u2_len _ _ H1), (u2_len _ _ H2); reflexivity|]. split; auto. exists (N.of_nat (length ex)). split; auto. apply exceptions_len, Hx.
  - intros L' l' t' Ht. rewrite <- !app_assoc. unfold code_lang. cbn [cd_max_stack cd_max_locals cd_code cd_exception_table cd_attributes cd_bytecode].
    repeat (apply cat_intro; auto). { reflexivity. } rewrite <- (app_nil_r t'). apply cat_intro; auto. split; auto.
Qed.

Lemma grows_extent name payload l w l' w' : grows dec sl name payload l w l' w' -> list_extent w.
Proof.
  intro Hg. inversion Hg; subst.
  - exists cw, (ws1 ++ ws2). rewrite concat_app. split; auto. rewrite !app_length in *. rewrite H, H0. split; auto. apply Forall_app; auto.
  - exists cw, (ws1 ++ (nw ++ lw ++ head ++ t) :: ws2). rewrite concat_app. split; auto. rewrite !app_length in *. cbn [length]. rewrite H, H0.
    replace (length l1 + S (length l2))%nat with (length l1 + 1 + length l2)%nat by lia. split; auto. apply Forall_app. split; auto.
    constructor; auto. exists nw, lw, (head ++ t). rewrite app_length. auto.
  - exists cw, (ws1 ++ (nw ++ lw ++ kw ++ concat rs1 ++ (nd ++ t) ++ concat rs2) :: ws2). rewrite concat_app. split; auto. rewrite (app_length ws1). cbn [length]. rewrite H, H0.
    replace (length l1 + S (length l2))%nat with (length l1 + 1 + length l2)%nat by lia. split; auto. apply Forall_app. split; auto.
    constructor; auto. eexists nw, lw, _. split; [reflexivity|]. auto.
Qed.
Theorem grow_lang name payload l w l' w' : grows dec sl name payload l w l' w' ->
  forall d, attributes_lang dec sl wraps want d l w -> attributes_lang dec sl wraps want d l' w'.
Proof.
  induction 1 as [l1 l2 ws1 ws2 cw cw' i nw lw Hl1 Hl2 He1 He2 Hc Hc' Hi Hn Hp Hl
    |l1 l2 ws1 ws2 cw n s m code bc ex l l' nw lw lw' head t t' Hl1 Hl2 He1 He2 Hc Hnw Hlw Hlw' Hhead Hg IH
    |l1 l2 ws1 ws2 cw n r1 r2 rs1 rs2 rn rd l l' nw lw lw' kw nd t t' Hl1 Hl2 He1 He2 Hc Hnw Hkw Hnd Hr1 Hr2 Hre1 Hre2 Hlw Hlw' Hg IH]; intros d H;
    (destruct d as [|d]; [destruct H|]).
  - destruct H as (u & v & He & Hu & Hv). apply app_eq_len in He; [|destruct Hu, Hc; congruence]. destruct He as [_ <-].
    destruct (split_rows _ _ attribute_delimited (attribute_extends _ _) _ _ _ _ Hv Hl1 He1) as [H1 H2].
    cbn [attributes_lang]. apply cat_intro.
    + rewrite app_length. cbn [length]. rewrite app_length in Hc'. replace (N.of_nat (length l1 + S (length l2))) with (N.of_nat (length l1 + length l2) + 1) by lia. exact Hc'.
    + apply join_mid; auto. apply cat_intro; [exists i; auto|]. exists lw, payload. split; auto. split; auto. split; [reflexivity|exact Hp].
  - destruct H as (u & v & He & Hu & Hv). apply app_eq_len in He; [|destruct Hu, Hc; congruence]. destruct He as [<- <-].
    destruct (split_mid _ _ attribute_delimited (attribute_extends _ _) _ _ _ _ _ _ Hv Hl1 He1) as (H1 & Ha & H2).
    { exists nw, lw, (head ++ t). auto. }
    cbn [attributes_lang]. apply cat_intro; [rewrite app_length in *; exact Hu|]. apply join_mid; auto.
    destruct Ha as (u & v & He & Ha & len & body & -> & Hlen & Hbody & Hname). apply app_eq_len in He; [|pose proof (ref_len _ _ _ Ha); congruence].
    destruct He as [<- He]. apply app_eq_len in He; [|destruct Hlen, Hlw; congruence]. destruct He as [<- <-].
    cbn [attr_dat contents snd attr_name] in Hbody, Hname. destruct (code_parts _ _ _ _ _ _ _ _ Hbody) as (head' & t0 & He & Hh & Ht & Hk).
    destruct (head_delimited _ _ _ _ Hhead Hh He) as [<- <-].
    apply cat_intro; [exact Ha|]. exists lw', (head ++ t'). split; auto. split; auto. split; [|exact Hname]. apply Hk. apply IH, Ht.
  - destruct H as (u & v & He & Hu & Hv). apply app_eq_len in He; [|destruct Hu, Hc; congruence]. destruct He as [<- <-].
    destruct (split_mid _ _ attribute_delimited (attribute_extends _ _) _ _ _ _ _ _ Hv Hl1 He1) as (H1 & Ha & H2).
    { exists nw, lw, (kw ++ concat rs1 ++ (nd ++ t) ++ concat rs2). auto. }
    cbn [attributes_lang]. apply cat_intro; [rewrite app_length in *; exact Hu|]. apply join_mid; auto.
    destruct Ha as (u & v & He & Ha & len & body & -> & Hlen & Hbody & Hname). apply app_eq_len in He; [|pose proof (ref_len _ _ _ Ha); congruence].
    destruct He as [<- He]. apply app_eq_len in He; [|destruct Hlen, Hlw; congruence]. destruct He as [<- <-].
    cbn [attr_dat contents snd attr_name] in Hbody, Hname.
    destruct Hbody as (u & v & He & Hku & Hrows). apply app_eq_len in He; [|destruct Hku; congruence]. destruct He as [<- <-].
    apply cat_intro; [exact Ha|]. exists lw', (kw ++ concat rs1 ++ (nd ++ t') ++ concat rs2). split; auto. split; auto. split; [|exact Hname].
    cbn [attr_dat contents snd]. apply cat_intro; [rewrite app_length in *; exact Hku|].
    destruct (split_rows _ _ component_delimited (component_extends _) _ _ _ _ Hrows Hr1 Hre1) as [HR1 Hrest].
    destruct Hrest as (x & y & He & Hx & Hy). pose proof Hx as Hx0.
    destruct Hx as (a & b & -> & Hra & a' & b' & -> & Hra' & Hb).
    rewrite <- !app_assoc in He. rewrite (app_assoc a) in He. apply app_eq_len in He; [|rewrite app_length, (ref_len _ _ _ Hra), (ref_len _ _ _ Hra'); exact Hnd].
    destruct He as [-> He]. pose proof (list_extends _ _ _ Hb) as Hbe.
    destruct (list_delimited _ _ _ _ (grows_extent _ _ _ _ _ _ Hg) Hbe He) as [<- <-].
    apply join_mid; [exact HR1| |exact Hy]. rewrite <- app_assoc. apply cat_intro; [exact Hra|]. apply cat_intro; [exact Hra'|]. apply IH, Hb.
Qed.
End Grows.
