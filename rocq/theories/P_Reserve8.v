(** * How much is reserved at once *)
From Verif Require Import Base M_Names M_Descriptors M_ConstantPool M_Bytecode M_Attributes M_Class
  R_Base R_Bytecode R_Attributes R_Class P_Reserve P_Reserve2 P_Reserve3 P_Reserve4.
From Coq Require Import ZifyBool ZifyNat ZifyN.

(** Every capacity asked for by [t] is below [b]. *)
Definition single {A} (b : N) (t : tparser A) : Prop := forall bs ix, Forall (fun n => n < b) (snd (t bs ix)).
Lemma si_plain {A} b (p : parser A) : single b (plain p).
Proof. intros bs ix. constructor. Qed.
Lemma si_bind {A B} b (t : tparser A) (f : A -> tparser B) : single b t -> (forall a, single b (f a)) -> single b (tbind t f).
Proof.
  intros Ht Hf bs ix. unfold tbind. specialize (Ht bs ix). destruct (t bs ix) as [[[a i]| | |] l]; cbn [snd] in *; try exact Ht.
  specialize (Hf a bs i). destruct (f a bs i) as [r l']. apply Forall_app. auto.
Qed.
Lemma si_num {A B} b (p : parser A) (P : A -> Prop) (f : A -> tparser B) :
  (forall bs ix x ix', p bs ix = Ok (x, ix') -> P x) -> (forall x, P x -> single b (f x)) -> single b (tbind (plain p) f).
Proof.
  intros Hp Hf bs ix. unfold tbind, plain. destruct (p bs ix) as [[a i]| | |] eqn:H; try constructor.
  specialize (Hf a (Hp _ _ _ _ H) bs i). destruct (f a bs i) as [r l']. exact Hf.
Qed.
Lemma si_ctx {A} b c (t : tparser A) : single b t -> single b (tctx c t).
Proof. intros H bs ix. unfold tctx. specialize (H bs ix). destruct (t bs ix). exact H. Qed.
Lemma si_reserve b n : n < b -> single b (reserve n).
Proof. intros H bs ix. repeat constructor. exact H. Qed.
Lemma si_for {A} b n (body : N -> tparser A) : n < b -> (forall i, single b (body i)) -> single b (tfor_n n body).
Proof.
  intros Hn Hb. apply si_bind; [now apply si_reserve|]. intros _. generalize (N.to_nat n) as k. intro k. generalize 0 as i.
  induction k as [|k IH]; intro i; cbn [tfor_from]; [apply si_plain|].
  apply si_bind; [apply Hb|]. intro. apply si_bind; [apply IH|]. intro. apply si_plain.
Qed.
Lemma si_dispatch {A} b name (cases : list (string * tparser A)) default :
  Forall (fun c => single b (snd c)) cases -> single b default -> single b (tdispatch name cases default).
Proof. intros Hc Hd. induction Hc as [|[s q] l Hq _ IH]; cbn [tdispatch]; [exact Hd|]. destruct (str_eqb _ _); [exact Hq|exact IH]. Qed.

Create HintDb si.
Ltac si1 := match goal with
  | |- single _ (tbind (plain read_u1) _) => simple apply (si_num _ read_u1 (fun x => x < 256) _ u1_range); intros ? ?
  | |- single _ (tbind (plain read_u2) _) => simple apply (si_num _ read_u2 (fun x => x < 65536) _ u2_range); intros ? ?
  | |- single _ (plain _) => simple apply si_plain
  | |- single _ (tctx _ _) => simple apply si_ctx
  | |- single _ (tfor_n _ _) => simple apply si_for; [solve [eauto with si]|intro]
  | |- single _ (tbind (reserve _) _) => simple apply si_bind; [simple apply si_reserve; solve [eauto with si]|intro]
  | |- single _ (if ?b then _ else _) => destruct b eqn:?
  | |- single _ (match ?b with _ => _ end) => destruct b eqn:?
  | |- single _ (tbind _ _) => simple apply si_bind; [|intro]
  | |- single _ _ => solve [eauto with si]
  end.
Ltac si := repeat (si1; cbv zeta).

Section Single.
Variable E : env.
Variable opts : bool.
Definition cap : N := if opts then 2 ^ 31 else 65536.
Lemma cap_u2 : 65536 <= cap.
Proof. unfold cap. destruct opts; lia. Qed.
Notation single := (single cap).

Hint Extern 1 (_ < cap)%N => (pose proof cap_u2; lia) : si.
Section Pool.
Variable p : pool.
Lemma si_tableswitch : opts = true -> single (r_tableswitch E).
Proof.
  intro Ho. unfold r_tableswitch.
  apply si_bind; [apply si_plain|intro]. apply si_bind; [apply si_plain|intro]. cbv zeta.
  apply si_bind; [apply si_plain|intro]. cbv zeta. apply si_bind; [apply si_plain|intro]. cbv zeta. si1; [apply si_plain|].
  apply si_bind; [apply si_plain|intro z].
  simple apply (si_num _ _ (fun r => in_i32 r = true)).
  { intros bs ix r ix'. unfold lift. destruct (i32_result E (z + 1)) eqn:Hr; intros [=]; subst. eapply i32_result_range; eauto. }
  intros r Hr. destruct (usize_of_i32 r) as [n|] eqn:Hn; [|apply si_plain].
  pose proof (usize_range r n Hr Hn). apply si_bind; [apply si_reserve; unfold cap; rewrite Ho; lia|]. intros. si.
Qed.
Lemma si_lookupswitch : opts = true -> single (r_lookupswitch E).
Proof.
  intro Ho. unfold r_lookupswitch.
  apply si_bind; [apply si_plain|intro]. apply si_bind; [apply si_plain|intro]. cbv zeta.
  simple apply (si_num _ _ (fun r => r < 2 ^ 32) _ u4_range). intros r Hr. cbv zeta. si1; [apply si_plain|].
  destruct (usize_of_i32 (as_i32 r)) as [n|] eqn:Hn; [|apply si_plain].
  pose proof (usize_range _ n (as_i32_range _ Hr) Hn). apply si_bind; [apply si_reserve; unfold cap; rewrite Ho; lia|]. intros. si.
Qed.
Lemma si_insn : opts = true -> single (r_insn E p).
Proof.
  intros Ho bs ix. unfold r_insn. destruct (read_u1 bs ix) as [[v i]| | |]; try constructor.
  repeat (destruct v as [|v]; try constructor; repeat (destruct v as [v|v|]; try constructor));
    first [apply si_tableswitch; exact Ho|apply si_lookupswitch; exact Ho].
Qed.
Lemma si_opcodes : opts = true -> forall fuel, single (r_opcodes_loop E p fuel).
Proof.
  intros Ho fuel. induction fuel as [|fuel IH]; intros bs ix; cbn [r_opcodes_loop]; destruct (ix <? blen bs); try constructor.
  revert ix. intro ix.
  assert (H : single (op <~ r_insn E p;; rest <~ r_opcodes_loop E p fuel;; plain (ret ((ix, op) :: rest)))).
  { apply si_bind; [apply si_insn; exact Ho|intro]. apply si_bind; [exact IH|intro; apply si_plain]. }
  apply H.
Qed.
Lemma si_bytecode code : opts = true -> single (tlift (r_bytecode_from E p code)).
Proof.
  intros Ho bs ix. unfold tlift, r_bytecode_from.
  pose proof (si_opcodes Ho (S (length code)) code 0) as H. destruct (r_opcodes_loop E p (S (length code)) code 0). exact H.
Qed.
Hint Resolve si_bytecode : si.

Lemma si_code_data rec : single rec -> single (r_code_data E p opts rec).
Proof.
  intro Hr. unfold r_code_data. si.
Qed.
Lemma si_annotation_with rec : single rec -> single (r_annotation_with p rec).
Proof. intro Hr. unfold r_annotation_with. si. Qed.
Hint Resolve si_annotation_with : si.
Lemma si_element_value k : single (r_element_value p k).
Proof.
  induction k as [|k IH]; cbn [r_element_value]; [apply si_plain|]. unfold r_element_value_with. si.
Qed.
Hint Resolve si_element_value si_code_data : si.
Lemma si_annotation k : single (r_annotation p k).
Proof. apply si_annotation_with, si_element_value. Qed.
Hint Resolve si_annotation : si.
Lemma si_target i : single (r_type_annotation_target i).
Proof.
  intros bs ix. unfold r_type_annotation_target. destruct (read_u1 bs ix) as [[v j]| | |]; try constructor.
  assert (H : single (localvar_count <~ plain read_u2 ;; l <~ tfor_n localvar_count (fun _ => plain read_local_var_target) ;; plain (ret (TgLocalVar l)))) by si.
  repeat (destruct v as [|v]; try constructor; repeat (destruct v as [v|v|]; try constructor)); apply H.
Qed.
Hint Resolve si_target : si.
Lemma si_type_annotation k i : single (r_type_annotation p k i).
Proof. unfold r_type_annotation. si. Qed.
Hint Resolve si_type_annotation : si.
Lemma si_record rec i : single rec -> single (r_record_component p rec i).
Proof. intro. unfold r_record_component. si. Qed.
Hint Resolve si_record : si.
Lemma si_attr_data rec k name i n : single rec -> single (r_attr_data E p opts rec k name i n).
Proof.
  intro Hr. unfold r_attr_data. cbv zeta. apply si_dispatch.
  - repeat (apply Forall_cons; [cbn [snd]|]); [..|apply Forall_nil];
    unfold r_stackmaptable_data, r_stack_map_entry, r_exceptions_data, r_innerclasses_data, r_linenumber_data,
      r_localvariable_data, r_localvariabletype_data, r_annotation_data, r_parameter_annotation_data, r_type_annotation_data,
      r_bootstrapmethods_data, r_bootstrap_method, r_methodparameters_data, r_module_data, r_module_export, r_module_open,
      r_module_provide, r_modulepackages_data, r_nestmembers_data, r_permitted_subclasses_data, r_record_data; si.
  - si.
Qed.
Lemma si_attributes k : single (r_attributes E p opts k).
Proof.
  induction k as [|k IH]; cbn [r_attributes]; [apply si_plain|]. si1. apply si_for; [eauto with si|]. intro i.
  unfold r_attribute. do 5 (apply si_bind; [apply si_plain|intro]). si1; [apply si_plain|].
  apply si_bind; [apply si_attr_data; exact IH|intro]. si.
Qed.
End Pool.
Hint Resolve si_attributes : si.
Lemma si_class : single (r_class E opts).
Proof.
  assert (Hf : forall p n i seen, single (r_fields_loop E p opts n i seen)).
  { intros p n. induction n as [|n IH]; intros; cbn [r_fields_loop]; si. }
  assert (Hm : forall p b m n i seen, single (r_methods_loop E p opts b m n i seen)).
  { intros p b m n. induction n as [|n IH]; intros; cbn [r_methods_loop]; si. }
  unfold r_class, r_constant_pool, r_interfaces, r_fields, r_methods. cbv zeta. si.
Qed.
Theorem parse_single bs : Forall (fun n => n < cap) (snd (r_parse E opts bs)).
Proof. pose proof (si_class bs 0) as H. unfold r_parse. destruct (r_class E opts bs 0). exact H. Qed.
End Single.
