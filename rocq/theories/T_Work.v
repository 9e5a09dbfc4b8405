(** * C57: running time *)
From Verif Require Import Base M_Names M_Descriptors M_ConstantPool M_Bytecode M_Attributes M_Class M_Cesu8 S_Env Sample
  P_Class3 P_Heap4 T_Deep
  W_Base W_Descriptors W_ConstantPool W_Bytecode W_Attributes W_Class P_Work P_Work3 P_Work9 T_Safe.
From Coq Require Import ZifyBool ZifyNat ZifyN.

(** For every input that fits in the address space of the machine (of 32 bits or more), whatever its outcome: the metered model has the
    outcome of the model, and takes at most 2^20 steps for every byte and one more; only if the call overflows the stack, one more for every
    level of the stack. *)
Theorem C57_linear E opts bs : cesu8 E = from_java_cesu8 -> 2 ^ 32 <= usize_max E + 1 -> blen bs <= usize_max E ->
  let (r, n) := w_parse E opts bs in
  r = parse_class_with_options E opts bs
  /\ n <= 2 ^ 20 * blen bs + 1 + match r with Panic PStackOverflow => N.of_nat (stack E) | _ => 0 end.
Proof.
  intros HE Hw Hfit. pose proof (er_parse E opts bs) as He. destruct (w_parse E opts bs) as [r n] eqn:Hp. cbn [fst] in He. split; [exact He|].
  change (2 ^ 32) with 4294967296 in Hw. pose proof (sp_class_parser E HE ltac:(lia) opts bs 0 ltac:(lia) Hfit) as H. unfold w_parse, spends_at in *.
  change (2 ^ 20) with 1048576.
  destruct (w_class_parser E opts bs 0) as [[[c ix]| |q|] k]; cbn [mbind mok steps fst over] in *; injection Hp as <- <-; try lia.
  destruct q; lia.
Qed.

(** ** The rate is real *)
Section Least.
Variable E : env.
Variable p : pool.
(** A reader that succeeds with [a] takes at least [L a] steps. *)
Definition least {A} (L : A -> N) (q : wparser A) : Prop := forall bs ix a ix' n, q bs ix = (Ok (a, ix'), n) -> L a <= n.
Definition yields {A} (P : A -> Prop) (q : wparser A) : Prop := forall bs ix a ix' n, q bs ix = (Ok (a, ix'), n) -> P a.
Lemma bind_ok {A B} (q : wparser A) (f : A -> wparser B) bs ix b ix' n : wbind q f bs ix = (Ok (b, ix'), n) ->
  exists a i k k', q bs ix = (Ok (a, i), k) /\ f a bs i = (Ok (b, ix'), k') /\ n = k + k'.
Proof.
  unfold wbind. destruct (q bs ix) as [[[a i]| | |] k]; try discriminate. destruct (f a bs i) as [r k'] eqn:Hf. intros [= -> <-]. exists a, i, k, k'. auto.
Qed.
Lemma least_r {A B} L (q : wparser A) (f : A -> wparser B) : (forall a, least L (f a)) -> least L (wbind q f).
Proof. intros Hf bs ix b ix' n H. apply bind_ok in H. destruct H as (a & i & k & k' & _ & H & ->). apply Hf in H. lia. Qed.
Lemma least_l {A B} (L : A -> N) (L' : B -> N) (q : wparser A) (f : A -> wparser B) : least L q -> (forall a, yields (fun b => L' b = L a) (f a)) -> least L' (wbind q f).
Proof. intros Hq Hf bs ix b ix' n H. apply bind_ok in H. destruct H as (a & i & k & k' & H1 & H & ->). apply Hf in H. apply Hq in H1. lia. Qed.
Lemma yields_r {A B} P (q : wparser A) (f : A -> wparser B) : (forall a, yields P (f a)) -> yields P (wbind q f).
Proof. intros Hf bs ix b ix' n H. apply bind_ok in H. destruct H as (a & i & k & k' & _ & H & ->). apply Hf in H. exact H. Qed.
Lemma yields_ret {A} (P : A -> Prop) a : P a -> yields P (wret a).
Proof. intros H bs ix b ix' n [= <- <- <-]. exact H. Qed.
Lemma least_ctx {A} (L : A -> N) c q : least L q -> least L (wctx c q).
Proof. intros H bs ix a ix' n Hq. unfold wctx in Hq. specialize (H bs ix). destruct (q bs ix) as [[[b i]| | |] k]; cbn [mctx ctx] in Hq; try discriminate. injection Hq as <- <- <-. eapply H; eauto. Qed.
Definition total (l : list str) : N := fold_right (fun s n => str_len s + n) 0 l.
Lemma least_for body k : (forall i, least str_len (body i)) -> forall i, least total (wfor_from k i body).
Proof.
  intro Hb. induction k as [|k IH]; intro i; cbn [wfor_from]; [intros bs ix a ix' n [= <- <- <-]; cbn; lia|].
  intros bs ix l ix' n H. apply bind_ok in H. destruct H as (a & j & n1 & n2 & H1 & H & ->). apply Hb in H1.
  apply bind_ok in H. destruct H as (u & j' & n3 & n4 & _ & H & ->). apply bind_ok in H. destruct H as (l' & j'' & n5 & n6 & H2 & H & ->). apply IH in H2.
  injection H as <- <- <-. unfold total in *. cbn [fold_right]. lia.
Qed.
Lemma least_name : least str_len (s <~ w_class p ;; wlift (w_class_name_try_from s)).
Proof.
  eapply least_l with (L := str_len).
  - unfold w_class. apply least_r. intro e. destruct e; try (intros bs ix a ix' n [=]; fail).
    intros bs ix a ix' n H. unfold wlift, w_peel_utf8, copied, after in H. destruct (peel_utf8 p _) as [t| | |]; cbn [lift] in H; try discriminate.
    assert (Hn : 1 + text t = n) by congruence. assert (t = a) as <- by congruence. unfold text in Hn. lia.
  - intros s bs ix a ix' n H. unfold wlift in H. pose proof (fg_class_name s) as Hf. unfold forgets in Hf. destruct (w_class_name_try_from s) as [r k]. cbn [fst] in Hf. subst r.
    unfold class_name_try_from in H. destruct (class_name_loop _ _ _); cbn [obind lift] in H; try discriminate. injection H as <- <- <-. reflexivity.
Qed.
Lemma least_interfaces : least total (w_interfaces p).
Proof. unfold w_interfaces. apply least_r. intro count. apply least_for. intro i. apply least_ctx, least_name. Qed.
End Least.
(** Every accepted file: at least a step for every byte of the names of the interfaces. *)
Lemma interfaces_steps E opts bs c n : w_parse E opts bs = (Ok c, n) -> total (interfaces c) <= n.
Proof.
  unfold w_parse. destruct (w_class_parser E opts bs 0) as [[[d ix]| | |] k] eqn:H; cbn [mbind mok steps fst]; try discriminate. intros [= -> <-].
  enough (Hl : least (fun c => total (interfaces c)) (w_class_parser E opts)) by (apply Hl in H; lia). clear.
  unfold w_class_parser. do 5 (apply least_r; intro). cbv zeta. apply least_r; intro. apply least_r; intro. apply least_r; intro. apply least_r; intro.
  eapply least_l; [apply least_interfaces|]. intro ifs. repeat (apply yields_r; intro). apply yields_ret. reflexivity.
Qed.
(** A file of [32 + m + 2 n] bytes that takes at least [n (m + 1)] steps: a class that is its own superinterface [n] times, whose name is
    NUL and [m] times "a" (a text that the parser copies at every reference, C55). *)
Theorem C57_rate_reached E opts n m : n < 65536 -> m < 65533 -> let bs := crowd (N.to_nat n) (N.to_nat m) in
  ample E bs -> cesu8 E = from_java_cesu8 ->
  blen bs = 32 + m + 2 * n /\ (exists c, parse_class_with_options E opts bs = Ok c) /\ n * (m + 1) <= snd (w_parse E opts bs).
Proof.
  intros Hn Hm bs Ha HE. assert (Hok : parse_class_with_options E opts bs = Ok (crowd_class (N.to_nat n) (N.to_nat m))).
  { apply (parse_format _ _ _ _ Ha). exists 1%nat, (crowd_constants (N.to_nat m)). rewrite HE. exact (crowd_format (wrapping E) opts n m Hn Hm). }
  split; [unfold bs; rewrite crowd_length; lia|]. split; [eauto|]. pose proof (er_parse E opts bs) as He. rewrite Hok in He.
  destruct (w_parse E opts bs) as [r k] eqn:Hw. cbn [fst snd] in *. subst r. apply interfaces_steps in Hw. unfold crowd_class in Hw. cbn [interfaces] in Hw.
  assert (Ht : total (repeat (nul_name (N.to_nat m)) (N.to_nat n)) = n * (m + 1)); [|rewrite Ht in Hw; exact Hw].
  assert (Hl : str_len (nul_name (N.to_nat m)) = m + 1).
  { unfold nul_name. cbn [str_len]. change (char_len 0) with 1. enough (forall k, str_len (repeat (ch "a") k) = N.of_nat k) as -> by lia.
    intro j; induction j as [|j IH]; [reflexivity|]. cbn [repeat str_len]. rewrite IH. change (char_len (ch "a")) with 1. lia. }
  assert (Hr : forall k s, total (repeat s k) = N.of_nat k * str_len s).
  { intros j s. induction j as [|j IH]; [reflexivity|]. cbn [repeat]. change (total (s :: repeat s j)) with (str_len s + total (repeat s j)). rewrite IH. lia. }
  rewrite Hr, Hl. lia.
Qed.

(** ** Examples *)
(** The hypotheses are met, and the numbers are those of the files: an accepted class of 813 bytes takes 4971 steps (311 of them for its
    instructions), a file of 132 bytes with 30 interfaces of the same name of 41 bytes takes 2926, the empty file 1; a file of 46 bytes that overflows
    a stack of 20000 levels takes 20068. *)
Example C57_meets : cesu8 debug64 = from_java_cesu8 /\ 2 ^ 32 <= usize_max debug64 + 1 /\ blen sample <= usize_max debug64
  /\ (exists c, fst (w_parse debug64 true sample) = Ok c) /\ blen sample = 813 /\ snd (w_parse debug64 true sample) = 4971 /\ snd (w_parse debug64 false sample) = 4660
  /\ snd (w_parse debug64 true sample_module) = 1016
  /\ ample debug64 (crowd 30 40) /\ blen (crowd 30 40) = 132 /\ snd (w_parse debug64 true (crowd 30 40)) = 2926
  /\ snd (w_parse debug64 true []) = 1 /\ (exists e, fst (w_parse debug64 true []) = Err e)
  /\ blen nt_cycle = 46 /\ w_parse debug64 true nt_cycle = (Panic PStackOverflow, 20068).
Proof.
  split; [reflexivity|]. split; [vm_compute; discriminate|]. split; [vm_compute; discriminate|]. split; [eexists; vm_compute; reflexivity|].
  do 4 (split; [vm_compute; reflexivity|]). split; [apply ampleb_ample; vm_compute; reflexivity|]. do 3 (split; [vm_compute; reflexivity|]).
  split; [eexists; vm_compute; reflexivity|]. split; vm_compute; reflexivity.
Qed.
