(** * From an accepted class to the format of its code arrays. *)
From Verif Require Import Base M_ConstantPool M_Bytecode M_Attributes M_Class S_Lang S_Names S_Format S_Pool S_Within S_Env
  P_Reads P_Tac P_Pool4 P_Insn P_Insn2 P_Bytecode P_Class3 P_Layout P_Within T_Class T_Members.
From Coq Require Import ZifyBool ZifyNat ZifyN.

(** [bc] is the bytecode of the Code attribute [cd], which is somewhere in [c]. *)
Definition bytecode_of (c : class_file) (cd : code_data) (bc : byte_code) : Prop :=
  exists n, within c (mk_attr n (ACode cd)) /\ cd_bytecode cd = Some bc.
(** The bytes [w] stand at offset [o] of [code]. *)
Definition bytes_at (code : list byte) (o : N) (w : list byte) : Prop :=
  exists pre post, code = pre ++ w ++ post /\ N.of_nat (length pre) = o.

Lemma code_part E opts bs c cs n cd : sane E bs -> parse_class_with_options E opts bs = Ok c -> constants_of E bs cs ->
  within c (mk_attr n (ACode cd)) ->
  exists d, part bs (code_lang (cesu8 E) (slots_of cs) (wrapping E) opts (attributes_lang (cesu8 E) (slots_of cs) (wrapping E) opts d) cd).
Proof. intros Hs H Hcs Hw. destruct (part_contents _ _ _ _ _ _ Hs H Hcs Hw) as (d & Hp). exists d. exact Hp. Qed.

Lemma code_formatted E opts bs c cs cd bc : sane E bs -> parse_class_with_options E opts bs = Ok c -> constants_of E bs cs ->
  bytecode_of c cd bc -> code_format (cesu8 E) (slots_of cs) (wrapping E) bc (cd_code cd) /\ opts = true
  /\ (length (cd_code cd) <= length bs)%nat.
Proof.
  intros Hs H Hcs (n & Hw & Hbc). destruct (code_part _ _ _ _ _ _ _ Hs H Hcs Hw) as (d & pre & u & post & -> & Hu).
  unfold code_lang in Hu. destruct Hu as (w1 & v1 & -> & _ & w2 & v2 & -> & _ & w3 & v3 & -> & _ & w4 & v4 & -> & Hraw & w5 & v5 & -> & _ & w6 & v6 & -> & _ & -> & Hx).
  rewrite Hbc in Hx. destruct Hx as [Ho Hf]. split; auto. split; auto. red in Hraw. subst w4. rewrite !app_length. lia.
Qed.

Section Code.
Variable E : env.
Variable cs : list constant.
Notation dec := (cesu8 E).
Notation wraps := (wrapping E).
Notation sl := (slots_of cs).

Lemma insns_chunks : forall ops o w, insns_lang dec sl wraps o ops w ->
  exists ws, w = concat ws /\ length ws = length ops /\ Forall (fun u => u <> []) ws
    /\ forall k off op, nth_error ops k = Some (off, op) ->
       off = o + N.of_nat (length (concat (firstn k ws))) /\ exists u, nth_error ws k = Some u /\ insn_lang dec sl wraps off op u.
Proof.
  induction ops as [|[off op] ops IH]; intros o w H.
  - change (w = []) in H. subst w. exists []. split; [reflexivity|]. split; [reflexivity|]. split; [constructor|]. intros [|k] ? ? Hx; discriminate Hx.
  - destruct H as (-> & u & v & -> & Hu & Hv). destruct (IH _ _ Hv) as (ws & -> & Hl & Hne & Hk).
    exists (u :: ws). split; [reflexivity|]. split; [cbn; auto|]. split; [constructor; auto; apply (insn_nonempty E cs _ _ _ Hu)|].
    intros [|k] off' op'; cbn [nth_error firstn concat].
    + intro Hn. injection Hn as <- <-. split; [cbn; lia|]. eauto.
    + intro Hn. destruct (Hk _ _ _ Hn) as [-> Hx]. split; [rewrite app_length; lia|exact Hx].
Qed.
Lemma insns_at ops w o op : insns_lang dec sl wraps 0 ops w -> In (o, op) ops ->
  exists u, bytes_at w o u /\ insn_lang dec sl wraps o op u.
Proof.
  intros H Hin. destruct (insns_chunks _ _ _ H) as (ws & -> & Hl & _ & Hk). apply In_nth_error in Hin. destruct Hin as [k Hn].
  destruct (Hk _ _ _ Hn) as [-> (u & Hu & Hi)]. exists u. split; auto.
  exists (concat (firstn k ws)), (concat (skipn (S k) ws)). split; [|lia].
  rewrite <- (firstn_skipn k ws) at 1. rewrite concat_app. f_equal.
  assert (Hsk : skipn k ws = u :: skipn (S k) ws).
  { clear - Hu. revert k Hu. induction ws as [|x ws IH]; intros [|k] Hu; try discriminate; cbn in *; [congruence|]. auto. }
  rewrite Hsk. reflexivity.
Qed.
End Code.

Lemma bytes_at_eq code o w w' : bytes_at code o w -> bytes_at code o w' -> length w = length w' -> w = w'.
Proof.
  intros (p & q & -> & Hp) (p' & q' & He & Hp') Hl. apply app_eq_len in He; [|lia]. destruct He as [_ He].
  apply app_eq_len in He; auto. apply He.
Qed.

(** At a given offset the bytes determine the instruction. *)
Lemma insn_det E cs code o op op' w w' : fits E code -> bytes_at code o w -> bytes_at code o w' ->
  insn_lang (cesu8 E) (slots_of cs) (wrapping E) o op w -> insn_lang (cesu8 E) (slots_of cs) (wrapping E) o op' w' -> op = op' /\ w = w'.
Proof.
  intros Hfit (p & q & -> & Hp) (p' & q' & He & Hp') H H'.
  assert (R : forall op w p q, p ++ w ++ q = p' ++ w' ++ q' -> N.of_nat (length p) = o -> insn_lang (cesu8 E) (slots_of cs) (wrapping E) o op w ->
    read_insn E (pool_of (cesu8 E) (slots_of cs)) (p' ++ w' ++ q') o = Ok (op, o + blen w)).
  { intros op1 w1 p1 q1 He1 Hp1 H1. apply (reads_insn E cs o).
    - rewrite <- He. exact Hfit.
    - rewrite !blen_app. unfold blen at 1. lia.
    - exists p1, w1, q1. repeat split; auto. }
  pose proof (R op w p q He Hp H) as R1. pose proof (R op' w' p' q' eq_refl Hp' H') as R2.
  rewrite R1 in R2. injection R2 as -> Hl. split; auto.
  apply (bytes_at_eq (p ++ w ++ q) o); [exists p, q; auto|exists p', q'; auto|]. unfold blen in Hl. lia.
Qed.
Lemma fits_code E bs code : sane E bs -> (length code <= length bs)%nat -> fits E code.
Proof.
  intros Hs Hl. pose proof (sane_fits _ _ Hs) as [H1 H2 H3]. constructor; auto; unfold blen in *; lia.
Qed.
