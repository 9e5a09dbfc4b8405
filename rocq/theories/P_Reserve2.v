(** * How much is reserved, reader by reader *)
From Verif Require Import Base M_Names M_Descriptors M_ConstantPool M_Bytecode M_Attributes M_Class
  R_Base R_Bytecode R_Attributes R_Class P_Reserve P_Reads.
From Coq Require Import ZifyBool ZifyNat ZifyN.
Local Open Scope Z_scope.

Fixpoint nsum (l : list N) : N := match l with [] => 0 | x :: l => x + nsum l end.
Definition zsum (l : list N) : Z := Z.of_N (nsum l).
Lemma nsum_app a b : nsum (a ++ b) = (nsum a + nsum b)%N.
Proof. induction a; cbn; lia. Qed.
Lemma zsum_app a b : zsum (a ++ b) = zsum a + zsum b.
Proof. unfold zsum. rewrite nsum_app. lia. Qed.

(** The rate: 65535 elements for the three bytes of a nested array. *)
Definition rate : Z := 21845.

Section Costs.
(** Nothing longer than [top] bytes is in memory. *)
Variable top : N.

(** [p] takes at least [n] bytes. *)
Definition takes {A} (n : N) (p : parser A) : Prop :=
  forall bs ix a ix', (blen bs <= top)%N -> (ix <= blen bs)%N -> p bs ix = Ok (a, ix') -> (ix + n <= ix' <= blen bs)%N.

(** A successful run takes at least [a] bytes more than it reserves elements, an
    unsuccessful one reserves at most [rate] elements per byte and [c]. *)
Definition costs {A} (a c : Z) (t : tparser A) : Prop :=
  forall bs ix, (blen bs <= top)%N -> (ix <= blen bs)%N ->
    match t bs ix with
    | (Ok (_, ix'), l) => zsum l + a <= Z.of_N ix' - Z.of_N ix /\ (ix <= ix' <= blen bs)%N
    | (_, l) => zsum l <= rate * (Z.of_N (blen bs) - Z.of_N ix) + c
    end.

Lemma tk_weaken {A} n m (p : parser A) : takes m p -> (n <= m)%N -> takes n p.
Proof. intros H Hn bs ix a ix' Ht Hi Hp. specialize (H bs ix a ix' Ht Hi Hp). lia. Qed.
Lemma tk_ret {A} (a : A) : takes 0 (ret a).
Proof. intros bs ix b ix' _ Hi [= <- <-]. lia. Qed.
Lemma tk_bind {A B} n m (p : parser A) (f : A -> parser B) :
  takes m p -> (forall a, takes (n - m) (f a)) -> takes n (bind p f).
Proof.
  intros Hp Hf bs ix b ix' Ht Hi H. unfold bind in H.
  destruct (p bs ix) as [[a i]| | |] eqn:E1; try discriminate.
  apply Hp in E1; auto. apply Hf in H; auto; lia.
Qed.
Lemma tk_lift {A} (m : outcome A) : takes 0 (lift m).
Proof. intros bs ix b ix' _ Hi. unfold lift. destruct m; intros [=]; subst; lia. Qed.
Lemma tk_pfail {A} n m : takes n (@pfail A m).
Proof. intros bs ix b ix' _ _ [=]. Qed.
Lemma tk_pfail_at {A} n m : takes n (@pfail_at A m).
Proof. intros bs ix b ix' _ _ [=]. Qed.
Lemma tk_pctx {A} n c (p : parser A) : takes n p -> takes n (pctx c p).
Proof.
  intros H bs ix b ix' Ht Hi. unfold pctx, ctx. destruct (p bs ix) as [[a i]| | |] eqn:E1; intros [=]; subst.
  apply H in E1; auto.
Qed.
Lemma tk_u1 : takes 1 read_u1.
Proof.
  intros bs ix b ix' _ Hi. unfold read_u1. destruct (blen bs <? ix + 1)%N eqn:Hb; [discriminate|].
  destruct (byte_at bs ix); cbn; intros [=]. lia.
Qed.
Ltac num := match goal with |- context [if ?c then _ else _] => destruct c eqn:?; [discriminate|] end;
  repeat match goal with |- context [byte_at ?b ?i] => destruct (byte_at b i); cbn [obind]; try discriminate end;
  intros [=]; lia.
Lemma tk_u2 : takes 2 read_u2.
Proof. intros bs ix b ix' _ Hi. unfold read_u2. num. Qed.
Lemma tk_u4 : takes 4 read_u4.
Proof. intros bs ix b ix' _ Hi. unfold read_u4. num. Qed.
Lemma tk_u8 : takes 8 read_u8.
Proof. intros bs ix b ix' _ Hi. unfold read_u8. num. Qed.
Lemma tk_guard b m : takes 0 (guard b m).
Proof. destruct b; [apply tk_ret|apply tk_pfail]. Qed.
Lemma tk_get_bytes : takes 0 get_bytes.
Proof. intros bs ix b ix' _ Hi [=]. lia. Qed.
Lemma tk_get_ix : takes 0 get_ix.
Proof. intros bs ix b ix' _ Hi [=]. lia. Qed.
Lemma tk_if {A} n (b : bool) (p q : parser A) : takes n p -> takes n q -> takes n (if b then p else q).
Proof. destruct b; auto. Qed.
Lemma tk_dead {A} n o : (forall x, o <> Ok x) -> takes n (fun _ _ => o : outcome (A * N)).
Proof. intros H bs ix b ix' _ _ ->. destruct (H (b, ix')); auto. Qed.

(** ** Costs *)
Lemma co_weaken {A} a c a' c' (t : tparser A) : costs a' c' t -> a <= a' -> c' <= c -> costs a c t.
Proof.
  intros H Ha Hc bs ix Ht Hi. specialize (H bs ix Ht Hi).
  destruct (t bs ix) as [[[x ix']| | |] l]; lia.
Qed.
Lemma co_plain {A} n a c (p : parser A) : takes n p -> a <= Z.of_N n -> 0 <= c -> costs a c (plain p).
Proof.
  intros H Ha Hc bs ix Ht Hi. unfold plain. specialize (H bs ix).
  change (zsum []) with 0.
  destruct (p bs ix) as [[x ix']| | |]; unfold rate; try lia.
  specialize (H x ix' Ht Hi eq_refl). change (zsum []) with 0. lia.
Qed.
Lemma co_step {A B} a1 c1 a c (p : tparser A) (f : A -> tparser B) :
  costs a1 c1 p -> c1 <= c -> (forall x, costs (a - a1) (c + rate * a1) (f x)) -> costs a c (tbind p f).
Proof.
  intros Hp Hc Hf bs ix Ht Hi. specialize (Hp bs ix Ht Hi). unfold tbind.
  destruct (p bs ix) as [[[x ix1]| | |] l1]; try lia.
  destruct Hp as [Hp1 Hp2]. specialize (Hf x bs ix1 Ht (proj2 Hp2)).
  destruct (f x bs ix1) as [[[y ix2]| | |] l2]; rewrite zsum_app; unfold rate in *; unfold zsum in *; lia.
Qed.
Lemma co_ctx {A} a c s (t : tparser A) : costs a c t -> costs a c (tctx s t).
Proof.
  intros H bs ix Ht Hi. specialize (H bs ix Ht Hi). unfold tctx.
  destruct (t bs ix) as [[[x ix']| | |] l]; cbn; auto.
Qed.
(** A plain reader first. *)
Lemma co_then {A B} n a c (p : parser A) (f : A -> tparser B) :
  takes n p -> 0 <= c -> (forall x, costs (a - Z.of_N n) (c + rate * Z.of_N n) (f x)) -> costs a c (tbind (plain p) f).
Proof. intros Hp Hc Hf. eapply co_step; [eapply co_plain; [exact Hp|apply Z.le_refl|apply Z.le_refl]|exact Hc|exact Hf]. Qed.
(** A number first, with its range. *)
Lemma co_num {A B} n a c m (p : parser A) (f : A -> tparser B) (ok : A -> Prop) :
  takes n p -> (forall bs ix x ix', p bs ix = Ok (x, ix') -> ok x) -> 0 <= c -> m = Z.of_N n ->
  (forall x, ok x -> costs (a - m) (c + rate * m) (f x)) -> costs a c (tbind (plain p) f).
Proof.
  intros Hp Hok Hc -> Hf bs ix Ht Hi.
  pose proof (co_plain n (Z.of_N n) 0 p Hp (Z.le_refl _) (Z.le_refl _) bs ix Ht Hi) as H1.
  unfold tbind. pose proof (Hok bs ix) as Hx. unfold plain in *.
  destruct (p bs ix) as [[x ix1]| | |]; try lia.
  destruct H1 as [Hp1 Hp2]. specialize (Hf x (Hx _ _ eq_refl) bs ix1 Ht (proj2 Hp2)).
  destruct (f x bs ix1) as [[[y ix2]| | |] l2]; rewrite zsum_app; unfold rate in *; unfold zsum in *; lia.
Qed.
Lemma u1_range bs ix x ix' : read_u1 bs ix = Ok (x, ix') -> (x < 256)%N.
Proof.
  unfold read_u1. destruct (_ <? _)%N; [discriminate|]. unfold byte_at.
  destruct (nth_error _ _) as [b|]; cbn; intros [=]. subst. pose proof (Byte.to_N_bounded b). lia.
Qed.
Lemma byte_at_range bs i b : byte_at bs i = Ok b -> (b < 256)%N.
Proof. unfold byte_at. destruct (nth_error _ _) as [x|]; intros [=]. subst. pose proof (Byte.to_N_bounded x). lia. Qed.
Lemma u2_range bs ix x ix' : read_u2 bs ix = Ok (x, ix') -> (x < 65536)%N.
Proof.
  unfold read_u2. destruct (_ <? _)%N; [discriminate|].
  destruct (byte_at bs (ix + 0)) as [b0| | |] eqn:E0; cbn [obind]; try discriminate.
  destruct (byte_at bs (ix + 1)) as [b1| | |] eqn:E1; cbn [obind]; try discriminate.
  apply byte_at_range in E0, E1. intros [=]. subst x.
  rewrite N.shiftl_mul_pow2.
  assert (HH : (N.lor (b0 * 2 ^ 8) b1 < 2 ^ 16)%N).
  { destruct (N.eq_dec (N.lor (b0 * 2 ^ 8) b1) 0) as [->|Hnz]; [lia|].
    apply N.log2_lt_pow2; [lia|]. rewrite N.log2_lor.
    apply N.max_lub_lt.
    - destruct (N.eq_dec b0 0) as [->|]; [cbn; lia|]. apply N.log2_lt_pow2; lia.
    - destruct (N.eq_dec b1 0) as [->|]; [cbn; lia|]. apply N.log2_lt_pow2; lia. }
  exact HH.
Qed.

Lemma co_for_from {A} c (body : N -> tparser A) : (forall i, costs 1 c (body i)) -> 0 <= c ->
  forall n i, costs (Z.of_nat n) c (tfor_from n i body).
Proof.
  intros Hb Hc. induction n as [|n IH]; intro i; cbn [tfor_from].
  - apply (co_plain 0); [apply tk_ret|lia|lia].
  - eapply co_step; [apply Hb|lia|]. intro x. eapply co_step with (a1 := Z.of_nat n) (c1 := c).
    + apply IH.
    + unfold rate; lia.
    + intro. apply (co_plain 0); [apply tk_ret|lia|unfold rate; lia].
Qed.
Lemma co_for {A} a c n (body : N -> tparser A) :
  a <= 0 -> Z.of_N n <= c -> (forall i, costs 1 (c - Z.of_N n) (body i)) -> costs a c (tfor_n n body).
Proof.
  intros Ha Hn Hb bs ix Ht Hi. unfold tfor_n, tbind, reserve.
  pose proof (co_for_from (c - Z.of_N n) body Hb ltac:(lia) (N.to_nat n) 0 bs ix Ht Hi) as H.
  destruct (tfor_from (N.to_nat n) 0 body bs ix) as [[[y ix2]| | |] l2]; rewrite zsum_app;
    change (zsum [n]) with (Z.of_N (n + 0)); lia.
Qed.
Lemma co_for16 {A} a c n (body : N -> tparser A) : (n < 65536)%N ->
  a <= 0 -> (forall i, costs 1 (c - 65535) (body i)) -> 65535 <= c -> costs a c (tfor_n n body).
Proof. intros Hn Ha Hb Hc. apply co_for; [exact Ha|lia|]. intro i. eapply co_weaken; [apply Hb|lia|lia]. Qed.
End Costs.
