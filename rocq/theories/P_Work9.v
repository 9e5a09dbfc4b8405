(** * Running time: the whole parser *)
From Verif Require Import Base M_Names M_Descriptors M_ConstantPool M_Bytecode M_Attributes M_Class M_Cesu8 S_Lang P_Reads P_Descriptors
  W_Base W_Descriptors W_ConstantPool W_Bytecode W_Attributes W_Class P_Work P_Work2 P_Work3 P_Work4 P_Work5 P_Work6 P_Work7 P_Work8.
From Coq Require Import ZifyBool ZifyNat ZifyN.
Local Open Scope Z_scope.

Ltac leaf := first [exact I | assumption | solve [eauto 2]].
Ltac s := match goal with
    | |- spends _ _ _ _ _ (match ?x with _ => _ end) => destruct x
    | |- spends _ _ _ _ _ (wret _) => apply sp_ret; [leaf|slia]
    | |- spends _ _ _ _ _ (wfail _) => apply sp_fail; slia
    | |- spends _ _ _ _ _ (if _ then _ else _) => apply sp_if; intros _
    | |- spends _ _ _ _ _ (let _ := _ in _) => cbv zeta
    | |- spends _ _ _ _ _ (wbind (wfor_n _ _) _) => eapply (sp_use _ 1048576 _ 16 (fun _ => 16)); [apply (sp_for _ 1048576 16 any); [intro|lia]|slia|intros ? _; cbv beta]
    | |- spends _ _ _ _ _ (wfor_n _ _) => eapply (sp_weaken _ 1048576 16 _ (fun _ => 16)); [apply (sp_for _ 1048576 16 any); [intro|lia]|slia|intros ? _; split; [leaf|slia]]
    | |- spends _ _ _ _ _ (wbind _ _) => eapply sp_use; [sp_call|slia|intros ? ?; cbv beta in *]
    | |- spends _ _ _ _ _ _ => eapply sp_weaken; [sp_call|slia|intros ? ?; split; [leaf|slia]]
    end.

Section Class.
Variable E : env.
Hypothesis HE : cesu8 E = from_java_cesu8.
Hypothesis Hwide : (4294967295 <= usize_max E)%N.
Notation B := 1048576.
Local Notation sp := (spends E B).
Hint Resolve HB16a HB16b : sp.
Section WithPool.
Variable p : pool.
Hypothesis Hp : modest p.
Variable opts : parse_options.

Lemma sp_class_name : sp 2 (fun _ => 64) short (s <~ w_class p ;; wlift (w_class_name_try_from s)).
Proof. repeat s. Qed.
Hint Resolve sp_class_name : sp.
Lemma sp_interfaces : sp 8 (fun _ => 64) any (w_interfaces p).
Proof. unfold w_interfaces. repeat s. Qed.
Lemma sp_attrs : sp 8 (fun _ => 64) any (w_attributes E p opts (stack E)).
Proof. apply sp_attributes; assumption. Qed.
Lemma sp_attrs_few : sp 8 (fun _ => 64) (fun l => (N.of_nat (length l) < 65536)%N) (w_attributes E p opts (stack E)).
Proof.
  destruct (stack E) as [|stk]; cbn [w_attributes]; [apply sp_overflow; lia|]. eapply sp_use; [apply sp_u2; lia|lia|]. intros count Hc.
  eapply (sp_weaken _ 1048576 16 _ (fun _ => 16)); [apply (sp_for _ 1048576 16 any)|lia|]; [|lia|].
  - intro i. eapply sp_weaken; [apply sp_attribute; [exact Hp|exact Hwide|apply sp_attributes; assumption]|lia|]. intros ? _. split; [exact I|lia].
  - cbv beta in *. intros l [_ Hl]. split; lia.
Qed.
Hint Resolve sp_attrs : sp.
Lemma sp_fields_loop n : forall i seen, sp 16 (fun _ => 16) any (w_fields_loop E p opts n i seen).
Proof.
  induction n as [|n IH]; intros i seen; cbn [w_fields_loop]; [s|]. repeat s.
Qed.
Hint Resolve sp_fields_loop : sp.
Lemma sp_fields : sp 8 (fun _ => 64) any (w_fields E p opts).
Proof. unfold w_fields. repeat s. Qed.
Lemma sp_method_text : sp 2 (fun _ => 1000000) (fun d => (method_desc_byte_len d <= 65535)%N) (d <~ w_utf8 p ;; wlift (w_parse_method_descriptor d 0)).
Proof. repeat s. Qed.
Hint Resolve sp_method_text : sp.
Lemma sp_methods_loop b major n : forall i seen, sp 16 (fun _ => 16) any (w_methods_loop E p opts b major n i seen).
Proof.
  induction n as [|n IH]; intros i seen; cbn [w_methods_loop]; [s|]. repeat s.
Qed.
Hint Resolve sp_methods_loop : sp.
Lemma sp_methods b major : sp 8 (fun _ => 64) any (w_methods E p opts b major).
Proof. unfold w_methods. repeat s. Qed.
Lemma sp_this : sp 8 (fun _ => 64) any (w_this_class p).
Proof. unfold w_this_class. repeat s. Qed.
Lemma sp_super_inner : sp 2 (fun _ => 64) (fun o => match o with Some s => short s | None => True end)
  (o <~ w_class_opt p ;; match o with None => wret None | Some s => n <~ wlift (w_class_name_try_from s) ;; wret (Some n) end).
Proof. repeat s. Qed.
Hint Resolve sp_super_inner : sp.
Lemma sp_super : sp 8 (fun _ => 64) (fun o => match o with Some s => short s | None => True end) (w_super_class p).
Proof. unfold w_super_class. repeat s. Qed.
End WithPool.

Lemma pays_found x attrs : forall found, pays E (Z.of_nat (length attrs) + 1) any (w_bootstrap_found x attrs found).
Proof.
  induction attrs as [|a attrs IH]; intro found; cbn [w_bootstrap_found length]; [apply pays_ok; [lia|exact I]|]. apply pays_after.
  destruct (attr_dat a); try (eapply pays_weaken; [apply IH|lia|auto]). destruct (_ <=? _)%N; [apply pays_steps; [lia|intros; exact I]|]. eapply pays_weaken; [apply IH|lia|auto].
Qed.
Lemma pays_bootstrap es attrs : (N.of_nat (length attrs) < 65536)%N -> pays E (65540 * Z.of_nat (length es)) any (w_validate_bootstrap_methods es attrs).
Proof.
  intro Ha. induction es as [|e es IH]; cbn [w_validate_bootstrap_methods length]; [apply pays_ok; [lia|exact I]|]. apply pays_after.
  destruct e; try (eapply pays_weaken; [apply IH|lia|auto]); (eapply pays_use; [apply pays_found|lia|]; intros found _; destruct (negb _); [apply pays_steps; [lia|intros; exact I]|]; eapply pays_weaken; [apply IH|lia|auto]).
Qed.
Lemma sp_module_flags b flags major : sp 8 (fun _ => 0) any (w_check_module_flags b flags major).
Proof. unfold w_check_module_flags. repeat s. Qed.
Lemma sp_module_contents b super ifs fs ms : (match super with Some s => short s | None => True end) -> sp 65600 (fun _ => 0) any (w_check_module_contents b super ifs fs ms).
Proof. intro H. destruct super; cbv beta iota in H; unfold w_check_module_contents; repeat s. Qed.

Lemma sp_class_parser opts : sp 1 (fun _ => 0) any (w_class_parser E opts).
Proof.
  unfold w_class_parser. do 4 s. pose proof (sp_constant_pool E HE) as Hpool. eapply sp_use; [apply Hpool|lia|]. intros p Hp.
  s. cbv zeta. eapply sp_use; [apply sp_module_flags|lia|]. intros ? _.
  eapply sp_use; [apply sp_this; exact Hp|lia|]. intros ? _. eapply sp_use; [apply sp_super; exact Hp|lia|]. intros super Hs. eapply sp_use; [apply sp_interfaces; exact Hp|lia|]. intros ifs _.
  eapply sp_use; [apply sp_fields; exact Hp|lia|]. intros fs _. eapply sp_use; [apply sp_methods; exact Hp|lia|]. intros ms _.
  eapply sp_use; [eapply sp_ctx; apply sp_attrs_few; exact Hp|lia|]. intros attrs Ha. apply sp_bytes; intro bs. apply sp_ix; intro ix. s.
  eapply sp_use; [apply sp_module_contents; exact Hs|lia|]. intros ? _. eapply sp_use; [apply sp_wlift; [lia|apply pays_bootstrap; exact Ha]|lia|]. intros ? _. s.
Qed.
End Class.
