(** * How much is reserved: the class *)
From Verif Require Import Base M_Names M_Descriptors M_ConstantPool M_Bytecode M_Attributes M_Class
  R_Base R_Bytecode R_Attributes R_Class P_Reserve P_Reserve2 P_Reserve3 P_Reserve4 P_Reserve5 P_Reads.
From Coq Require Import ZifyBool ZifyNat ZifyN.
Local Open Scope Z_scope.

Section Costs.
Variable E : env.
Variable opts : bool.
Notation top := (usize_max E).
Notation takes := (takes top).
Notation costs := (costs top).
Hypothesis Htop : (2 ^ 32 <= top + 1)%N.
Notation slack := (slack opts).

(** ** The constants *)
Lemma tk_unresolved : takes 2 read_unresolved_cp_ref.
Proof. unfold read_unresolved_cp_ref. tk. Qed.
Hint Resolve tk_unresolved : tk.
Lemma tk_constant_utf8 : takes 1 (read_constant_utf8 E).
Proof.
  unfold read_constant_utf8. eapply tk_bind; [apply tk_u2|]. intros n bs ix a ix' Ht Hi.
  unfold bind, get_bytes, get_ix, lift, set_ix, pfail.
  destruct (blen bs <? ix + n)%N; [discriminate|].
  destruct (slice bs ix (ix + n)) as [w| | |] eqn:Hs; try discriminate. apply slice_range in Hs.
  unfold ret. destruct (cesu8 E w); intros [=]; lia.
Qed.
Lemma tk_constant_handle : takes 1 read_constant_methodhandle.
Proof.
  unfold read_constant_methodhandle. eapply tk_bind; [apply tk_u1|]. intro n. eapply (tk_bind _ _ 0); [|tk].
  destruct n as [|n]; [tk|]. repeat (destruct n as [n|n|]; try solve [tk]).
Qed.
Lemma tk_entry major tag : takes (if ((tag =? 5) || (tag =? 6))%N then 8 else 1)%N (read_entry E major tag).
Proof.
  unfold read_entry. cbv zeta.
  destruct tag as [|n]; [tk|].
  repeat (destruct n as [n|n|]; cbn [orb N.eqb Pos.eqb];
    try solve [apply tk_constant_utf8 | unfold read_constant_integer, read_constant_float, read_constant_long,
      read_constant_double, read_constant_class, read_constant_string, read_constant_fieldref, read_constant_methodref,
      read_constant_interfacemethodref, read_constant_nameandtype, read_constant_methodtype, read_constant_dynamic,
      read_constant_invokedynamic, read_constant_module, read_constant_package; tk; apply tk_constant_handle]).
Qed.
Lemma u16_range n m : u16_result E n = Ok m -> (m <= n)%N.
Proof.
  unfold u16_result. destruct (n <? 65536)%N; [intros [= <-]; lia|].
  destruct (overflow_checks E); [discriminate|]. intros [= <-]. apply N.mod_le. lia.
Qed.
Lemma tk_lift_then {A B} n (m : outcome A) (f : A -> parser B) :
  (forall x, m = Ok x -> takes n (f x)) -> takes n (bind (lift m) f).
Proof.
  intros H bs ix b ix' Ht Hi. unfold bind, lift. destruct m as [x| | |]; try discriminate. apply H; auto.
Qed.
Lemma tk_pool_loop major count fuel : forall i, takes (count - i) (pool_loop E fuel major count i).
Proof.
  induction fuel as [|fuel IH]; intro i; cbn [pool_loop]; destruct (N.ltb_spec i count).
  - apply tk_dead. discriminate.
  - eapply tk_weaken; [apply tk_ret|lia].
  - eapply tk_bind; [apply tk_u1|]. intro tag. eapply tk_bind; [apply tk_entry|]. intro e.
    apply tk_lift_then. intros j Hj. apply u16_range in Hj.
    destruct ((tag =? 5) || (tag =? 6))%N.
    + apply tk_lift_then. intros k Hk. apply u16_range in Hk.
      eapply tk_bind; [apply IH|]. intro. eapply tk_weaken; [apply tk_ret|lia].
    + eapply tk_bind; [apply IH|]. intro. eapply tk_weaken; [apply tk_ret|lia].
  - eapply tk_weaken; [apply tk_ret|lia].
Qed.
Lemma co_constant_pool major : costs 1 rate (r_constant_pool E major).
Proof.
  unfold r_constant_pool. co1. apply co_reserve. intros _. co1.
  eapply co_then with (n := (x - 1)%N); [apply tk_pool_loop|zl|]. intro es. co.
Qed.

(** ** Members *)
Variable p : pool.
Lemma tk_class_name s : takes 0 (lift (class_name_try_from s)). Proof. apply tk_lift. Qed.
Lemma co_interfaces : costs 2 rate (r_interfaces p).
Proof. unfold r_interfaces. co. Qed.
Lemma co_fields_loop n : forall i seen, costs (Z.of_nat n) slack (r_fields_loop E p opts n i seen).
Proof.
  pose proof (slack_rate opts). induction n as [|n IH]; intros i seen; cbn [r_fields_loop]; [co|].
  co. eapply co_step; [apply co_ctx, co_attributes, Htop|zl|]. intro.
  eapply co_step; [apply IH|zl|]. intro. eapply co_plain with (n := 0%N); [tk|zl|zl].
Qed.
Lemma co_fields : costs 2 (slack + rate) (r_fields E p opts).
Proof.
  pose proof (slack_rate opts). unfold r_fields. co1. apply co_reserve. intros _.
  eapply co_weaken; [apply co_fields_loop|zl|zl].
Qed.
Lemma co_methods_loop itf major n : forall i seen,
  costs (Z.of_nat n) slack (r_methods_loop E p opts itf major n i seen).
Proof.
  pose proof (slack_rate opts). induction n as [|n IH]; intros i seen; cbn [r_methods_loop]; [co|].
  cbv zeta. co. eapply co_step; [apply co_ctx, co_attributes, Htop|zl|]. intro.
  eapply co_step; [apply IH|zl|]. intro. eapply co_plain with (n := 0%N); [tk|zl|zl].
Qed.
Lemma co_methods itf major : costs 2 (slack + rate) (r_methods E p opts itf major).
Proof.
  pose proof (slack_rate opts). unfold r_methods. co1. apply co_reserve. intros _.
  eapply co_weaken; [apply co_methods_loop|zl|zl].
Qed.
End Costs.

Section Class.
Variable E : env.
Variable opts : bool.
Hypothesis Htop : (2 ^ 32 <= usize_max E + 1)%N.
Notation top := (usize_max E).
Lemma tk_this p : takes top 2 (read_this_class p). Proof. unfold read_this_class. tk. Qed.
Lemma tk_super p : takes top 2 (read_super_class p). Proof. unfold read_super_class. tk. Qed.
Lemma tk_module_flags a b c : takes top 0 (check_module_flags a b c). Proof. unfold check_module_flags. tk. Qed.
Lemma tk_module_contents a b c d e : takes top 0 (check_module_contents a b c d e).
Proof. unfold check_module_contents. tk. Qed.
Hint Resolve tk_this tk_super tk_module_flags tk_module_contents : tk.
Lemma co_class : costs top 23 (slack opts - rate) (r_class E opts).
Proof.
  pose proof (slack_rate opts). unfold r_class. co.
  eapply co_step; [apply co_constant_pool; exact Htop|zl|]. intro p. co.
  eapply co_step; [apply co_interfaces; exact Htop|zl|]. intro. co.
  eapply co_step; [apply co_fields, Htop|zl|]. intro. co.
  eapply co_step; [apply co_methods, Htop|zl|]. intro. co.
  eapply co_step; [apply co_ctx, co_attributes, Htop|zl|]. intro. co.
Qed.
Lemma parse_costs bs : (blen bs <= top)%N ->
  match r_parse E opts bs with
  | (Ok _, l) => (nsum l + 23 <= blen bs)%N
  | (_, l) => (nsum l <= 21845 * blen bs + (if opts then 2 ^ 31 else 0))%N
  end.
Proof.
  intro Ht. pose proof (co_class bs 0%N Ht ltac:(lia)) as H. unfold r_parse.
  destruct (r_class E opts bs 0%N) as [[[c i]| | |] l]; cbn [obind fst]; unfold slack, zsum, rate in *;
    destruct opts; lia.
Qed.
End Class.
