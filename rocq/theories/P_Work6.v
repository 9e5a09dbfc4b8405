(** * Running time: references into the constant pool, and instructions *)
From Verif Require Import Base M_Names M_Descriptors M_ConstantPool M_Bytecode S_Lang P_Reads P_Descriptors
  W_Base W_Descriptors W_ConstantPool W_Bytecode P_Work P_Work2 P_Work3 P_Work4 P_Work5.
From Coq Require Import ZifyBool ZifyNat ZifyN.
Local Open Scope Z_scope.

Create HintDb sp.
Create HintDb pays.
Ltac slia := first [lia | cbn [modest_entry] in *; unfold short, text in *; lia].
Ltac pay_call := first [ solve [eauto 2 with pays nocore] ].
Ltac pay := repeat first
  [ match goal with |- pays _ _ _ (let~ _ := _ in _) => idtac end; eapply pays_use; [pay_call|slia|intros ? ?; cbv beta in *]
  | apply pays_ok; [slia|first [exact I | assumption]]
  | apply pays_steps; [slia|auto]
  | match goal with |- pays _ _ _ (match ?x with _ => _ end) => destruct x end
  | eapply pays_weaken; [pay_call|slia|auto] ].

Section Refs.
Variable E : env.
Variable p : pool.
Hypothesis Hp : modest p.
Local Notation py := (pays E).

Lemma in_modest e : In e p -> modest_entry e.
Proof. apply modest_in. exact Hp. Qed.
Lemma py_peel r : py 1 (fun e => modest_entry e) (w_peel p r).
Proof. eapply pays_weaken; [apply pays_peel|lia|]. exact in_modest. Qed.
Lemma utf8_short r s : peel_utf8 p r = Ok s -> short s.
Proof.
  unfold peel_utf8, peel. destruct r as [t|t]; [discriminate|]. destruct (nth_error p (N.to_nat t)) as [e|] eqn:He; [|discriminate]. cbn [obind].
  apply nth_error_In, in_modest in He. destruct e; try discriminate. intros [= <-]. exact He.
Qed.
Lemma py_copied m : (forall s, m = Ok s -> short s) -> py 65536 short (copied m).
Proof. intro H. pose proof (over_pos E m). unfold copied. destruct m; cbn [pays] in *; [split; [|auto]|lia..]. specialize (H a eq_refl). slia. Qed.
Lemma py_peel_utf8 r : py 65537 short (w_peel_utf8 p r).
Proof. apply pays_after. eapply pays_weaken; [apply py_copied; intros s Hs; eapply utf8_short; eauto|lia|auto]. Qed.
Lemma py_classinfo e : py 65537 short (w_classinfo p e).
Proof.
  apply pays_after. eapply pays_weaken; [apply py_copied|lia|auto]. intros s Hs. destruct e; cbn [classinfo] in Hs; try discriminate.
  eapply utf8_short. exact Hs.
Qed.
Lemma py_string_literal e : modest_entry e -> py 65536 (fun _ => True) (w_string_literal e).
Proof. intro H. unfold w_string_literal. destruct e; cbn [string_literal literal_text modest_entry pays] in *; try (cbn; lia); (split; [|exact I]); slia. Qed.
Hint Resolve py_peel py_peel_utf8 py_classinfo py_string_literal : pays.
Lemma py_name_and_type e : py 131074 (fun _ => True) (w_name_and_type p e).
Proof. unfold w_name_and_type. pay. Qed.
Hint Resolve py_name_and_type : pays.
Lemma py_member_ref c m : py 196613 (fun _ => True) (w_member_ref p c m).
Proof. unfold w_member_ref. pay. Qed.
Hint Resolve py_member_ref : pays.
Lemma py_method_handle x y : py 196614 (fun _ => True) (w_make_method_handle p x y).
Proof. unfold w_make_method_handle. cbv zeta. pay. Qed.
Hint Resolve py_method_handle : pays.
Lemma py_get i : py 1 modest_entry (steps 1 (pool_get p i)).
Proof.
  apply pays_steps; [lia|]. intros e He. unfold pool_get in He. destruct (plen p <=? i)%N; [discriminate|].
  destruct (nth_error p (N.to_nat i)) eqn:Hn; [|discriminate]. injection He as <-. apply in_modest. eapply nth_error_In; eauto.
Qed.
Hint Resolve py_get : pays.
Lemma py_loadable i : py 196616 (fun _ => True) (w_loadable p i).
Proof. unfold w_loadable. pay. Qed.
Lemma py_array s : short s -> py 262150 (fun _ => True) (w_parse_array_descriptor s).
Proof. intro H. apply pays_snd; [|auto]. pose proof (array_cost s). slia. Qed.
Lemma py_is_return s : short s -> py 262150 (fun _ => True) (w_is_return_descriptor s).
Proof. intro H. apply pays_snd; [|auto]. pose proof (is_return_cost s). slia. Qed.
Lemma py_field s : short s -> py 262150 (fun d => (field_desc_byte_len d <= 65535)%N) (w_parse_field_descriptor s 0).
Proof. intro H. apply pays_snd; [pose proof (field_cost_0 s); slia|]. intros d Hd. rewrite fg_field in Hd. apply field_parsed in Hd. slia. Qed.
Lemma py_method s : short s -> py 524300 (fun d => (method_desc_byte_len d <= 65535)%N) (w_parse_method_descriptor s 0).
Proof. intro H. apply pays_snd; [pose proof (method_cost s); slia|]. intros d Hd. rewrite fg_method in Hd. apply method_parsed in Hd. slia. Qed.
Lemma py_class_name s : short s -> py 131072 short (w_class_name_try_from s).
Proof.
  intro H. apply pays_snd; [pose proof (class_name_cost s); slia|]. intros d Hd. rewrite fg_class_name in Hd. unfold class_name_try_from in Hd.
  destruct (class_name_loop _ _ _); cbn [obind] in Hd; try discriminate. injection Hd as <-. exact H.
Qed.
End Refs.
#[export] Hint Resolve py_peel py_peel_utf8 py_classinfo py_string_literal py_name_and_type py_member_ref py_method_handle py_get py_loadable
  py_array py_is_return py_field py_method py_class_name : pays.

Lemma sp_bad {A} E B c (F : A -> Z) Q : 0 <= B -> 1 <= c -> spends E B c F Q (@w_bad_type A).
Proof. intros HB H. apply sp_fail; lia. Qed.
Ltac sp_call := first
  [ simple eapply sp_ctx; sp_call
  | solve [eauto 2 with sp nocore]
  | simple apply sp_tick0
  | simple apply sp_u1; slia | simple apply sp_u2; slia | simple apply sp_u4; slia
  | simple apply sp_lift0; slia
  | simple apply sp_guard0; slia
  | simple eapply sp_wlift; [slia|pay_call] ].
Ltac sp_leaf := first [ exact I | assumption | solve [cbn [modest_entry] in *; eauto 2] ].
Ltac sp_go := repeat first
  [ match goal with
    | |- spends _ _ _ _ _ (wbind (costs 0%N get_bytes) _) => simple apply sp_bytes; intro
    | |- spends _ _ _ _ _ (wbind (costs 0%N get_ix) _) => simple apply sp_ix; intro
    | |- spends _ _ _ _ _ (wbind _ _) => eapply sp_use; [sp_call|slia|intros ? ?; cbv beta in *]
    | |- spends _ _ _ _ _ (wret _) => apply sp_ret; [sp_leaf|slia]
    | |- spends _ _ _ _ _ (wfail _) => apply sp_fail; slia
    | |- spends _ _ _ _ _ w_bad_type => apply sp_bad; slia
    | |- spends _ _ _ _ _ (wfail_at _) => apply sp_fail_at; slia
    | |- spends _ _ _ _ _ (if _ then _ else _) => apply sp_if; intro
    | |- spends _ _ _ _ _ (let _ := _ in _) => cbv zeta
    | |- spends _ _ _ _ _ (match ?x with _ => _ end) => destruct x
    | |- spends _ _ _ _ _ _ => eapply sp_weaken; [sp_call|slia|intros ? ?; cbv beta in *; split; [sp_leaf|slia]]
    end ].

Section Readers.
Variable E : env.
Variable p : pool.
Hypothesis Hp : modest p.
Variable B : Z.
Hypothesis HB : 524288 <= B.
Local Notation sp := (spends E B).
Lemma sp_ref_any : sp 2 (fun _ => B * 2) modest_entry (w_ref_any p).
Proof.
  intros bs ix Hix Hfit. unfold spends_at, w_ref_any, costs. pose proof (over_pos E (read_cp_ref_any p bs ix)) as Ho.
  destruct (read_cp_ref_any p bs ix) as [[e ix']| | |] eqn:H; try nia. unfold read_cp_ref_any, bind in H. destruct (read_u2 bs ix) as [[i ix1]| | |] eqn:Hr; try discriminate.
  destruct (eats_u2 bs ix i ix1 Hix Hr) as (_ & H1 & H2). unfold lift in H. pose proof (py_get E p Hp i) as Hg.
  destruct (pool_get p i) as [e'| | |]; try discriminate. injection H as -> ->. destruct Hg as [_ Hg]. split; [exact Hg|]. split; [lia|]. split; [lia|]. nia.
Qed.
Lemma sp_2 {A} (f : entry -> parser A) : (forall e bs ix a ix', f e bs ix = Ok (a, ix') -> ix' = ix) ->
  sp 2 (fun _ => B * 2) (fun _ => True) (costs 2 (bind (read_cp_ref_any p) f)).
Proof.
  intros Hf bs ix Hix Hfit. pose proof (sp_ref_any bs ix Hix Hfit) as H. unfold spends_at, w_ref_any, costs in *. unfold bind. fold (@bind entry A).
  destruct (read_cp_ref_any p bs ix) as [[e ix']| |q|] eqn:He; try exact H. destruct H as (_ & H1 & H2 & H3). specialize (Hf e bs ix').
  pose proof (over_pos E (f e bs ix')) as Ho. destruct (f e bs ix') as [[a ix'']| | |]; try nia.
  specialize (Hf _ _ eq_refl). subst ix''. split; [exact I|]. split; [lia|]. split; [lia|]. nia.
Qed.
Lemma sp_integer : sp 2 (fun _ => B * 2) (fun _ => True) (w_integer p).
Proof. apply sp_2. intros e bs ix a ix' H. destruct e; try discriminate. injection H. auto. Qed.
Lemma sp_float : sp 2 (fun _ => B * 2) (fun _ => True) (w_float p).
Proof. apply sp_2. intros e bs ix a ix' H. destruct e; try discriminate. injection H. auto. Qed.
Lemma sp_long : sp 2 (fun _ => B * 2) (fun _ => True) (w_long p).
Proof. apply sp_2. intros e bs ix a ix' H. destruct e; try discriminate. injection H. auto. Qed.
Lemma sp_double : sp 2 (fun _ => B * 2) (fun _ => True) (w_double p).
Proof. apply sp_2. intros e bs ix a ix' H. destruct e; try discriminate. injection H. auto. Qed.
Hint Resolve sp_ref_any : sp.
Ltac go := sp_go.
(** Afterwards at least 2 * B - 3 texts are in hand *)
Lemma sp_utf8 : sp 2 (fun _ => B * 2 - 65536) short (w_utf8 p).
Proof. unfold w_utf8. go. Qed.
Lemma sp_utf8_opt : sp 2 (fun _ => B * 2 - 65536) (fun o => match o with Some s => short s | None => True end) (w_utf8_opt p).
Proof. unfold w_utf8_opt. go. Qed.
Lemma sp_class : sp 2 (fun _ => B * 2 - 65537) short (w_class p).
Proof. unfold w_class. go. Qed.
Lemma sp_class_opt : sp 2 (fun _ => B * 2 - 65537) (fun o => match o with Some s => short s | None => True end) (w_class_opt p).
Proof. unfold w_class_opt. go. Qed.
Lemma sp_module_name : sp 2 (fun _ => B * 2 - 65537) short (w_module_name p).
Proof. unfold w_module_name. go. Qed.
Lemma sp_package_name : sp 2 (fun _ => B * 2 - 65537) short (w_package_name p).
Proof. unfold w_package_name. go. Qed.
Lemma sp_nameandtype_opt : sp 2 (fun _ => B * 2 - 131074) (fun _ => True) (w_nameandtype_opt p).
Proof. unfold w_nameandtype_opt. go. Qed.
Lemma py_literal x : pays E 65537 (fun _ => True) (let~ t := w_peel p x in w_string_literal t).
Proof. pay. Qed.
Lemma py_literal_arg x : pays E 65537 (fun _ => True) (let~ t := w_peel p x in let~ l := w_string_literal t in mok (BaLiteral l)).
Proof. pay. Qed.
Lemma py_class_arg x : pays E 65537 (fun _ => True) (let~ t := w_peel_utf8 p x in mok (BaClassInfo t)).
Proof. pay. Qed.
Lemma py_type_arg x : pays E 65537 (fun _ => True) (let~ t := w_peel_utf8 p x in mok (BaMethodType t)).
Proof. pay. Qed.
Lemma py_handle_arg x y : pays E 196614 (fun _ => True) (let~ h := w_make_method_handle p x y in mok (BaMethodHandle h)).
Proof. pay. Qed.
Lemma py_indy x y : pays E 131075 (fun _ => True) (let~ t := w_peel p y in let~ nt := w_name_and_type p t in mok (mk_indy x nt)).
Proof. pay. Qed.
Hint Resolve py_literal py_literal_arg py_class_arg py_type_arg py_handle_arg py_indy : pays.
Lemma sp_literalconstant : sp 2 (fun _ => B * 2 - 65537) (fun _ => True) (w_literalconstant p).
Proof. unfold w_literalconstant. go. Qed.
Lemma sp_memberref a : sp 2 (fun _ => B * 2 - 196614) (fun _ => True) (w_memberref p a).
Proof. unfold w_memberref. go. Qed.
Lemma sp_invokedynamic : sp 2 (fun _ => B * 2 - 131075) (fun _ => True) (w_invokedynamic p).
Proof. unfold w_invokedynamic. go. Qed.
Lemma sp_methodhandle : sp 2 (fun _ => B * 2 - 196614) (fun _ => True) (w_methodhandle p).
Proof. unfold w_methodhandle. go. Qed.
Lemma sp_bootstrap_argument : sp 2 (fun _ => B * 2 - 196614) (fun _ => True) (w_bootstrap_argument p).
Proof. unfold w_bootstrap_argument. go. Qed.
Lemma sp_object_array_type : sp 2 (fun _ => B * 2 - 327687) (fun _ => True) (w_object_array_type p).
Proof. unfold w_object_array_type. go. Qed.
End Readers.
#[export] Hint Resolve sp_integer sp_float sp_long sp_double sp_ref_any sp_utf8 sp_utf8_opt sp_class sp_class_opt sp_module_name sp_package_name sp_nameandtype_opt
  sp_literalconstant sp_memberref sp_invokedynamic sp_methodhandle sp_bootstrap_argument sp_object_array_type : sp.
