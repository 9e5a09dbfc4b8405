(** * Running time: an accounting of the steps

    Every byte of the input that is consumed brings in a fixed number of steps, every step that is executed spends one. *)
From Verif Require Import Base S_Lang P_Reads W_Base.
From Coq Require Import ZifyBool ZifyNat ZifyN.
Local Open Scope Z_scope.

(** An environment in which every input fits *)
Definition roomy_env (bs : list byte) : env := {| overflow_checks := true; usize_max := 2 ^ 32 + 2 * blen bs; alloc_limit := blen bs; stack := O; cesu8 := fun _ => None; cesu8_err := [] |}.
Lemma roomy_fits bs : fits (roomy_env bs) bs.
Proof. split; cbn [usize_max alloc_limit roomy_env]; [lia| |lia]. apply N.div_le_lower_bound; lia. Qed.
Lemma uint_read (k : nat) (p : parser N) bs ix a ix' : (forall E, reads E p (uint k)) -> (ix <= blen bs)%N -> p bs ix = Ok (a, ix') ->
  (a < 256 ^ N.of_nat k)%N /\ ix' = (ix + N.of_nat k)%N /\ (ix' <= blen bs)%N.
Proof.
  intros HR Hix H. apply (HR (roomy_env bs) ix bs a ix' (roomy_fits bs) Hix) in H. pose proof (span_le _ _ _ _ H).
  destruct H as (pre & w & post & -> & -> & -> & Hw). pose proof (uint_bound _ _ _ Hw). destruct Hw as [Hl _]. assert (Hb : blen w = N.of_nat k) by (unfold blen; lia). rewrite Hb in *. split; [assumption|]. split; lia.
Qed.

Section Accounting.
Variable E : env.

(** A stack overflow is the only outcome that may cost more: one step for every level of the stack. *)
Definition over {A} (r : outcome A) : Z := match r with Panic PStackOverflow => Z.of_nat (stack E) | _ => 0 end.
Lemma over_pos {A} (r : outcome A) : 0 <= over r.
Proof. destruct r as [| |[]|]; cbn; lia. Qed.

(** ** Computations: [m] takes at most [c] steps and its results satisfy [Q] *)
Definition pays {A} (c : Z) (Q : A -> Prop) (m : metered A) : Prop :=
  match m with
  | (Ok a, n) => Z.of_N n <= c /\ Q a
  | (r, n) => Z.of_N n <= c + over r
  end.
Lemma pays_ok {A} c (Q : A -> Prop) a : 0 <= c -> Q a -> pays c Q (mok a).
Proof. intros H1 H2. split; [cbn; lia|exact H2]. Qed.
Lemma pays_steps {A} k c (Q : A -> Prop) m : Z.of_N k <= c -> (forall a, m = Ok a -> Q a) -> pays c Q (steps k m).
Proof. intros H HQ. pose proof (over_pos m). destruct m; cbn in *; auto; lia. Qed.
Lemma pays_bind {A B} c1 c2 (Q : A -> Prop) (R : B -> Prop) m f :
  pays c1 Q m -> (forall a, Q a -> pays c2 R (f a)) -> 0 <= c2 -> pays (c1 + c2) R (mbind m f).
Proof.
  intros Hm Hf Hc. destruct m as [[a| |q|] n]; cbn [pays mbind] in *.
  - destruct Hm as [Hn HQ]. specialize (Hf a HQ). destruct (f a) as [[b| |q|] n']; cbn [pays] in *; [split; [lia|apply Hf]|lia..].
  - cbn [over] in *. lia.
  - change (over (Panic q : outcome B)) with (over (Panic q : outcome A)). lia.
  - cbn [over] in *. lia.
Qed.
Lemma pays_use {A B} c c1 (Q : A -> Prop) (R : B -> Prop) m f :
  pays c1 Q m -> c1 <= c -> (forall a, Q a -> pays (c - c1) R (f a)) -> pays c R (mbind m f).
Proof.
  intros Hm Hc Hf. replace c with (c1 + (c - c1)) by lia. eapply pays_bind; eauto. lia.
Qed.
Lemma pays_weaken {A} c c' (Q R : A -> Prop) m : pays c Q m -> c <= c' -> (forall a, Q a -> R a) -> pays c' R m.
Proof. destruct m as [[a| |q|] n]; cbn [pays]; intros H Hc HQ; [split; [lia|apply HQ, H]|lia..]. Qed.
Lemma pays_after {A} k c (Q : A -> Prop) m : pays (c - Z.of_N k) Q m -> pays c Q (after k m).
Proof. destruct m as [[a| |q|] n]; cbn [pays after]; intro H; [split; [lia|apply H]|lia..]. Qed.
Lemma pays_ctx {A} c x (Q : A -> Prop) m : pays (c - 1) Q m -> pays c Q (mctx x m).
Proof. destruct m as [[a| |q|] n]; cbn [pays mctx ctx]; intro H; [split; [lia|apply H]|cbn [over] in *; lia|lia..]. Qed.
(** From a bound on the steps alone *)
Lemma pays_snd {A} c (Q : A -> Prop) (m : metered A) : Z.of_N (snd m) <= c -> (forall a, fst m = Ok a -> Q a) -> pays c Q m.
Proof. intros H HQ. pose proof (over_pos (fst m)). destruct m as [[a| |q|] n]; cbn in *; auto; lia. Qed.
Lemma pays_if {A} (b : bool) c (Q : A -> Prop) m m' : (b = true -> pays c Q m) -> (b = false -> pays c Q m') -> pays c Q (if b then m else m').
Proof. destruct b; auto. Qed.

(** ** Readers: with [c] steps in hand before, [F a] steps are in hand after reading [a]; [B] is what a byte brings in.  The input fits in the address space. *)
Variable B : Z.
Hypothesis HB : 0 <= B.
Definition spends_at {A} (bs : list byte) (ix : N) (c : Z) (F : A -> Z) (Q : A -> Prop) (p : wparser A) : Prop :=
  match p bs ix with
  | (Ok (a, ix'), n) => Q a /\ (ix <= ix')%N /\ (ix' <= blen bs)%N /\ Z.of_N n + F a <= c + B * (Z.of_N ix' - Z.of_N ix)
  | (r, n) => Z.of_N n <= c + B * (Z.of_N (blen bs) - Z.of_N ix) + over r
  end.
Definition spends {A} (c : Z) (F : A -> Z) (Q : A -> Prop) (p : wparser A) : Prop :=
  forall bs ix, (ix <= blen bs)%N -> (blen bs <= usize_max E)%N -> spends_at bs ix c F Q p.

Lemma spa_bind {A C} bs ix c (F : A -> Z) Q (G : C -> Z) R p f :
  spends_at bs ix c F Q p -> (forall a ix', Q a -> (ix <= ix')%N -> (ix' <= blen bs)%N -> spends_at bs ix' (F a) G R (f a)) ->
  spends_at bs ix c G R (wbind p f).
Proof.
  unfold spends_at. intros Hp Hf. unfold wbind. destruct (p bs ix) as [[[a ix']| |q|] n].
  - destruct Hp as (Ha & H1 & H2 & Hn). specialize (Hf a ix' Ha H1 H2). destruct (f a bs ix') as [[[b ix'']| |q|] n'].
    + destruct Hf as (Hb & H3 & H4 & Hn'). split; [exact Hb|]. split; [lia|]. split; [lia|]. nia.
    + cbn [over] in *. nia.
    + nia.
    + cbn [over] in *. nia.
  - exact Hp.
  - exact Hp.
  - exact Hp.
Qed.
Lemma sp_bind {A C} c (F : A -> Z) Q (G : C -> Z) R p f :
  spends c F Q p -> (forall a, Q a -> spends (F a) G R (f a)) -> spends c G R (wbind p f).
Proof. intros Hp Hf bs ix Hix Hfit. eapply spa_bind; [apply Hp; assumption|]. intros a ix' Ha _ H2. apply Hf; auto. Qed.
Lemma spa_weaken {A} bs ix c c' (F F' : A -> Z) (Q Q' : A -> Prop) p : spends_at bs ix c F Q p ->
  (forall a, Q a -> Q' a /\ F' a - F a <= c' - c) -> c <= c' -> spends_at bs ix c' F' Q' p.
Proof.
  unfold spends_at. intros H HF Hc. destruct (p bs ix) as [[[a ix']| |q|] n]; try lia.
  destruct H as (Ha & H1 & H2 & Hn). destruct (HF a Ha). split; [assumption|]. lia.
Qed.
Lemma sp_weaken {A} c c' (F F' : A -> Z) (Q Q' : A -> Prop) p : spends c F Q p ->
  c <= c' -> (forall a, Q a -> Q' a /\ F' a <= c' - c + F a) -> spends c' F' Q' p.
Proof. intros H Hc HF bs ix Hix Hfit. eapply spa_weaken; [apply H; assumption| |exact Hc]. intros a Ha. destruct (HF a Ha). split; [assumption|lia]. Qed.
(** Run [p], known to need [r] steps in hand, then the rest *)
Lemma sp_use {A C} c r (F : A -> Z) Q (G : C -> Z) R p f :
  spends r F Q p -> r <= c -> (forall a, Q a -> spends (c - r + F a) G R (f a)) -> spends c G R (wbind p f).
Proof.
  intros Hp Hc Hf. apply (sp_bind c (fun a => c - r + F a) Q).
  - eapply sp_weaken; [exact Hp|exact Hc|]. intros a Ha. split; [exact Ha|lia].
  - exact Hf.
Qed.
Lemma sp_ret {A} c (F : A -> Z) (Q : A -> Prop) a : Q a -> F a <= c -> spends c F Q (wret a).
Proof. intros H Hc bs ix Hix Hfit. unfold spends_at. cbn. split; [exact H|]. lia. Qed.
Lemma sp_ctx {A} c (F : A -> Z) (Q : A -> Prop) x p : spends c F Q p -> spends (c + 1) (fun a => F a + 1) Q (wctx x p).
Proof.
  intros H bs ix Hix Hfit. specialize (H bs ix Hix Hfit). unfold spends_at, wctx in *. destruct (p bs ix) as [[[a ix']| |q|] n]; cbn [mctx ctx over] in *; try lia.
  destruct H as (H1 & H2 & H3 & H4). split; [exact H1|]. lia.
Qed.
Lemma sp_fail {A} c (F : A -> Z) Q m : 1 <= c -> spends c F Q (@wfail A m).
Proof. intros H bs ix Hix Hfit. unfold spends_at. cbn. nia. Qed.
Lemma sp_fail_at {A} c (F : A -> Z) Q m : 1 <= c -> spends c F Q (@wfail_at A m).
Proof. intros H bs ix Hix Hfit. unfold spends_at. cbn. nia. Qed.
Lemma sp_lift {A} c k (Q : A -> Prop) m : Z.of_N k <= c -> (forall a, m = Ok a -> Q a) -> spends c (fun _ => c - Z.of_N k) Q (costs k (lift m)).
Proof.
  intros H HQ bs ix Hix Hfit. unfold spends_at, costs, lift. pose proof (over_pos m). destruct m; cbn [over] in *; [split; [auto|lia]|nia..].
Qed.
Lemma sp_tick c k : Z.of_N k <= c -> spends c (fun _ => c - Z.of_N k) (fun _ => True) (tick k).
Proof. intros H bs ix Hix Hfit. unfold spends_at. cbn. split; [exact I|]. lia. Qed.
Lemma sp_guard c k b m : Z.of_N k <= c -> spends c (fun _ => c - Z.of_N k) (fun _ => b = true) (wguard k b m).
Proof. intros H bs ix Hix Hfit. unfold spends_at, wguard, costs, guard. destruct b; cbn; [split; [reflexivity|]; lia|nia]. Qed.
Lemma sp_wlift {A} k (Q : A -> Prop) t : pays k Q t -> spends k (fun _ => 0) Q (wlift t).
Proof.
  intros H bs ix Hix Hfit. unfold spends_at, wlift. destruct t as [[a| |q|] n]; cbn [pays lift over] in *; try nia.
  destruct H as [H1 H2]. split; [exact H2|]. lia.
Qed.
Lemma sp_overflow {A} c (F : A -> Z) Q : 0 <= c -> spends c F Q (fun _ _ => (Panic PStackOverflow, 0%N)).
Proof. intros H bs ix Hix Hfit. unfold spends_at. cbn [over]. nia. Qed.
Lemma sp_diverge {A} c (F : A -> Z) Q : 0 <= c -> spends c F Q (fun _ _ => (Diverge, 0%N)).
Proof. intros H bs ix Hix Hfit. unfold spends_at. cbn [over]. nia. Qed.
Lemma sp_if {A} (b : bool) c (F : A -> Z) (Q : A -> Prop) p q :
  (b = true -> spends c F Q p) -> (b = false -> spends c F Q q) -> spends c F Q (if b then p else q).
Proof. destruct b; auto. Qed.
Lemma sp_more {A} c c' (F : A -> Z) (Q : A -> Prop) p : spends c F Q p -> c <= c' -> spends c' F Q p.
Proof. intros H Hc. eapply sp_weaken; [exact H|exact Hc|]. intros a Ha. split; [exact Ha|lia]. Qed.
(** The bytes and the position *)
Lemma sp_bytes {C} c (G : C -> Z) R f : (forall bs, spends c G R (f bs)) -> spends c G R (wbind (costs 0 get_bytes) f).
Proof.
  intros H bs ix Hix Hfit. specialize (H bs bs ix Hix Hfit). unfold spends_at, wbind, costs, get_bytes in *.
  destruct (f bs bs ix) as [[[a ix']| |q|] n]; rewrite ?N.add_0_l; exact H.
Qed.
Lemma sp_ix {C} c (G : C -> Z) R f : (forall ix, spends c G R (f ix)) -> spends c G R (wbind (costs 0 get_ix) f).
Proof.
  intros H bs ix Hix Hfit. specialize (H ix bs ix Hix Hfit). unfold spends_at, wbind, costs, get_ix in *.
  destruct (f ix bs ix) as [[[a ix']| |q|] n]; rewrite ?N.add_0_l; exact H.
Qed.
Lemma sp_here {C} c (G : C -> Z) R f : (forall bs ix, (ix <= blen bs)%N -> (blen bs <= usize_max E)%N -> spends_at bs ix c G R (f bs ix)) ->
  spends c G R (wbind (costs 0 get_bytes) (fun bs => wbind (costs 0 get_ix) (fun ix => f bs ix))).
Proof.
  intros H bs ix Hix Hfit. specialize (H bs ix Hix Hfit). unfold spends_at, wbind, costs, get_ix, get_bytes in *.
  destruct (f bs ix bs ix) as [[[a ix']| |q|] n]; rewrite ?N.add_0_l; exact H.
Qed.
(** Moving the position forward *)
Lemma spa_set {C} bs ix ix' k c (G : C -> Z) R f : (ix <= ix')%N -> (ix' <= blen bs)%N -> Z.of_N k <= c ->
  spends_at bs ix' (c - Z.of_N k + B * (Z.of_N ix' - Z.of_N ix)) G R (f tt) -> spends_at bs ix c G R (wbind (costs k (set_ix ix')) f).
Proof.
  intros H1 H2 Hk H. unfold spends_at, wbind, costs, set_ix in *. destruct (f tt bs ix') as [[[a ix'']| |q|] n]; try nia.
  destruct H as (Ha & H3 & H4 & H5). split; [exact Ha|]. split; [lia|]. split; [lia|]. nia.
Qed.

(** ** Integers *)
Lemma sp_uint (k bound : N) (p : parser N) :
  (forall bs ix a ix', (ix <= blen bs)%N -> p bs ix = Ok (a, ix') -> (a < bound)%N /\ ix' = (ix + k)%N /\ (ix' <= blen bs)%N) ->
  spends 1 (fun _ => B * Z.of_N k) (fun a => (a < bound)%N) (costs 1 p).
Proof.
  intros H bs ix Hix Hfit. specialize (H bs ix). unfold spends_at, costs. pose proof (over_pos (p bs ix)) as Ho. destruct (p bs ix) as [[a ix']| |q|]; try nia.
  destruct (H a ix' Hix eq_refl) as (Ha & -> & H2). split; [exact Ha|]. split; [lia|]. split; [lia|]. nia.
Qed.
Lemma sp_u1 : spends 1 (fun _ => B) (fun a => (a < 256)%N) w_u1.
Proof. replace B with (B * Z.of_N 1) by lia. apply sp_uint. intros bs ix a ix' Hix H. exact (uint_read 1 read_u1 bs ix a ix' reads_u1 Hix H). Qed.
Lemma sp_u2 : spends 1 (fun _ => B * 2) (fun a => (a < 65536)%N) w_u2.
Proof. apply (sp_uint 2). intros bs ix a ix' Hix H. exact (uint_read 2 read_u2 bs ix a ix' reads_u2 Hix H). Qed.
Lemma sp_u4 : spends 1 (fun _ => B * 4) (fun a => (a < 4294967296)%N) w_u4.
Proof. apply (sp_uint 4). intros bs ix a ix' Hix H. exact (uint_read 4 read_u4 bs ix a ix' reads_u4 Hix H). Qed.

(** ** Loops *)
Lemma sp_for_from {A} r g (Q : A -> Prop) (body : N -> wparser A) n : 0 <= g -> (forall i, spends r (fun _ => r + 1 + g) Q (body i)) ->
  0 <= r -> forall i, spends r (fun l => r + g * Z.of_nat (length l)) (fun l => Forall Q l /\ length l = n) (wfor_from n i body).
Proof.
  intros Hg Hb Hr. induction n as [|n IH]; intro i; cbn [wfor_from].
  - apply sp_ret; [split; [constructor|reflexivity]|cbn; lia].
  - eapply sp_bind; [apply Hb|]. intros a Ha. eapply sp_bind; [apply sp_tick; lia|]. intros ? _.
    eapply sp_use; [apply IH|lia|]. intros l [Hl Hn]. apply sp_ret; [split; [constructor; assumption|cbn; lia]|cbn [length]; nia].
Qed.
Lemma sp_for {A} r (Q : A -> Prop) (body : N -> wparser A) count : (forall i, spends r (fun _ => r + 1) Q (body i)) ->
  0 <= r -> spends r (fun _ => r) (fun l => Forall Q l /\ N.of_nat (length l) = count) (wfor_n count body).
Proof.
  intros Hb Hr. unfold wfor_n. eapply sp_weaken; [apply (sp_for_from r 0 Q)| |]; [lia| |exact Hr|lia|].
  - intro i. eapply sp_weaken; [apply Hb|lia|]. intros a Ha. split; [exact Ha|lia].
  - cbn beta. intros l [Hl Hn]. split; [split; [exact Hl|lia]|lia].
Qed.
Lemma sp_for_fuel {A} r g (Q : A -> Prop) (body : N -> wparser A) count fuel : 0 <= g -> (forall i, spends r (fun _ => r + 1 + g) Q (body i)) ->
  0 <= r -> forall i, spends r (fun l => r + g * Z.of_nat (length l)) (fun l => Forall Q l) (wfor_fuel fuel i count body).
Proof.
  intros Hg Hb Hr. induction fuel as [|fuel IH]; intro i; cbn [wfor_fuel].
  - apply sp_if; intros _; [apply sp_diverge; lia|]. apply sp_ret; [constructor|cbn; lia].
  - apply sp_if; intros _; [|apply sp_ret; [constructor|cbn; lia]].
    eapply sp_bind; [apply Hb|]. intros a Ha. eapply sp_bind; [apply sp_tick; lia|]. intros ? _.
    eapply sp_use; [apply IH|lia|]. intros l Hl. apply sp_ret; [constructor; assumption|cbn [length]; nia].
Qed.
Lemma sp_for_big {A} r g (Q : A -> Prop) (body : N -> wparser A) count : 0 <= g -> (forall i, spends r (fun _ => r + 1 + g) Q (body i)) ->
  0 <= r -> spends r (fun l => r + g * Z.of_nat (length l)) (fun l => Forall Q l) (wfor_big count body).
Proof. intros Hg Hb Hr bs ix Hix Hfit. unfold wfor_big, spends_at. exact (sp_for_fuel r g Q body count (S (length bs)) Hg Hb Hr 0%N bs ix Hix Hfit). Qed.

(** ** Comparing a name with the names known *)
Fixpoint tries {A} (cases : list (string * wparser A)) : Z :=
  match cases with [] => 0 | (s, _) :: cs => 1 + Z.of_nat (length (lit s)) + tries cs end.
Lemma tries_pos {A} (cases : list (string * wparser A)) : 0 <= tries cases.
Proof. induction cases as [|[s q] cs IH]; cbn [tries]; lia. Qed.
Lemma sp_dispatch {A} c (F : A -> Z) (Q : A -> Prop) name cases d : 0 <= c -> Forall (fun sq => spends c F Q (snd sq)) cases -> spends c F Q d ->
  spends (c + tries cases) F Q (wdispatch name cases d).
Proof.
  intros Hc H Hd. induction H as [|[s q] cs Hq _ IH]; cbn [wdispatch tries].
  - eapply sp_more; [exact Hd|lia].
  - pose proof (tries_pos cs). eapply sp_bind; [apply sp_tick; lia|]. intros ? _. apply sp_if; intros _; (eapply sp_more; [eassumption|lia]).
Qed.
End Accounting.
