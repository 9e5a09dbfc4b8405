(** * The texts of errors are short: readers *)
From Verif Require Import Base M_Names M_Descriptors M_ConstantPool M_Bytecode M_Attributes M_Class S_Messages P_Reserve2 P_Reserve4 P_Reserve5 P_Brief.
From Coq Require Import ZifyBool ZifyNat ZifyN.

Section Hush.
Variable E : env.
Variable size : N.
Hypothesis size_far : size < far.
Hypothesis decoded : forall w s, cesu8 E w = Some s -> slen s <= blen w.
(** A result satisfies [Q], and leaves the position inside the input; an error is short. *)
Definition says {A} (Q : A -> Prop) (m : parser A) : Prop := forall bs ix, blen bs <= size -> ix <= blen bs ->
  match m bs ix with
  | Ok (a, i) => Q a /\ i <= blen bs
  | Err e => known E size e
  | _ => True
  end.
Definition any {A} (a : A) : Prop := True.
Notation hush := (says any).
Lemma s_weak {A} (P Q : A -> Prop) m : says P m -> (forall a, P a -> Q a) -> says Q m.
Proof. intros H HQ bs ix Hb Hi. specialize (H bs ix Hb Hi). destruct (m bs ix) as [[a i]|e| |]; auto. destruct H. auto. Qed.
Lemma s_any {A} (P : A -> Prop) m : says P m -> hush m.
Proof. intro H. apply (s_weak P); [exact H|]. intros. exact I. Qed.
Lemma s_ret {A} (Q : A -> Prop) a : Q a -> says Q (ret a).
Proof. intros H bs ix Hb Hi. cbn. auto. Qed.
Lemma s_panic {A} (Q : A -> Prop) q : says Q (fun _ _ => @Panic (A * N) q).
Proof. intros bs ix Hb Hi. exact I. Qed.
Lemma s_diverge {A} (Q : A -> Prop) : says Q (fun _ _ => @Diverge (A * N)).
Proof. intros bs ix Hb Hi. exact I. Qed.
Lemma s_lift {A} (Q : A -> Prop) (m : outcome A) : quiet E size m -> (forall a, m = Ok a -> Q a) -> says Q (lift m).
Proof. intros H HQ bs ix Hb Hi. unfold lift. destruct m; auto. Qed.
Lemma h_lift {A} (m : outcome A) : quiet E size m -> hush (lift m).
Proof. intro H. apply s_lift; [exact H|]. intros. exact I. Qed.
Lemma s_err {A} (Q : A -> Prop) e : known E size e -> says Q (lift (@Err A e)).
Proof. intros H bs ix Hb Hi. exact H. Qed.
Lemma s_pfail {A} (Q : A -> Prop) m : short m -> says Q (@pfail A m).
Proof. intros H bs ix Hb Hi. apply known_new, H. Qed.
Lemma s_pfail_at {A} (Q : A -> Prop) m : (forall ix, ix < far -> short (m ix)) -> says Q (@pfail_at A m).
Proof. intros H bs ix Hb Hi. apply known_new, H. lia. Qed.
Lemma s_bind {A B} (P : A -> Prop) (Q : B -> Prop) (m : parser A) (f : A -> parser B) : says P m -> (forall a, P a -> says Q (f a)) -> says Q (bind m f).
Proof.
  intros Hm Hf bs ix Hb Hi. unfold bind. specialize (Hm bs ix Hb Hi). destruct (m bs ix) as [[a i]|e| |]; auto. destruct Hm as [Ha Hi']. apply (Hf a Ha bs i Hb Hi').
Qed.
Lemma s_pctx {A} (Q : A -> Prop) c (m : parser A) : brief c -> says Q m -> says Q (pctx c m).
Proof. intros Hc H bs ix Hb Hi. unfold pctx, ctx. specialize (H bs ix Hb Hi). destruct (m bs ix) as [[a i]|e| |]; auto. apply known_with; auto. Qed.
Lemma s_guard (Q : unit -> Prop) b m : short m -> Q tt -> says Q (guard b m).
Proof. intros H Hq. unfold guard. destruct b; [apply s_ret, Hq|apply s_pfail, H]. Qed.
Lemma s_for {A} (P : A -> Prop) (body : N -> parser A) : forall n i, (forall j, i <= j < i + N.of_nat n -> says P (body j)) ->
  says (fun l => length l = n /\ Forall P l) (for_from n i body).
Proof.
  induction n as [|n IH]; intros i H; cbn [for_from]; [apply s_ret; auto|]. apply (s_bind P); [apply H; lia|]. intros a Ha.
  eapply s_bind; [apply IH; intros; apply H; lia|]. intros l [Hl Hf]. apply s_ret. cbn [length]. auto.
Qed.
Lemma s_for_n {A} (P : A -> Prop) n (body : N -> parser A) : (forall i, i < n -> says P (body i)) -> says (fun l => N.of_nat (length l) = n /\ Forall P l) (for_n n body).
Proof. intro H. eapply s_weak; [apply s_for; intros; apply H; lia|]. cbv beta. intros l [Hl Hf]. split; [lia|exact Hf]. Qed.
Lemma h_for_n {A} n (body : N -> parser A) : (forall i, i < n -> hush (body i)) -> hush (for_n n body).
Proof. intro H. eapply s_any, s_for_n, H. Qed.
Lemma s_for_fuel {A} (P : A -> Prop) (body : N -> parser A) : (forall i, says P (body i)) -> forall fuel i n,
  says (fun l => N.of_nat (length l) <= n - i /\ Forall P l) (for_fuel fuel i n body).
Proof.
  intros H. induction fuel as [|fuel IH]; intros i n; cbn [for_fuel]; destruct (i <? n) eqn:Hi; try (apply s_ret; cbn [length]; split; [lia|constructor]); [apply s_diverge|].
  apply (s_bind P); [apply H|]. intros a Ha. eapply s_bind; [apply IH|]. intros l [Hl Hf]. apply s_ret. cbn [length]. split; [lia|auto].
Qed.
Lemma s_for_big {A} (P : A -> Prop) n (body : N -> parser A) : (forall i, says P (body i)) -> says (fun l => N.of_nat (length l) <= n /\ Forall P l) (for_big n body).
Proof. intros H bs ix Hb Hi. pose proof (s_for_fuel P body H (S (length bs)) 0 n bs ix Hb Hi) as Hr. unfold for_big. destruct (for_fuel _ _ _ _ _ _) as [[l i]|e| |]; auto.
  destruct Hr as [[Hl Hf] Hr]. split; [split; [lia|exact Hf]|exact Hr]. Qed.
Lemma s_get_ix : says (fun i => i < far) get_ix.
Proof. intros bs ix Hb Hi. cbn. lia. Qed.
Lemma s_get_bytes : says (fun bs => blen bs <= size) get_bytes.
Proof. intros bs ix Hb Hi. cbn. split; [exact Hb|exact Hi]. Qed.
Lemma byte_cases bs i : (exists b, byte_at bs i = Ok b /\ b < 256) \/ byte_at bs i = Panic PSlice.
Proof. unfold byte_at. destruct (nth_error bs (N.to_nat i)) as [b|]; [left; eexists; split; [reflexivity|destruct b; reflexivity]|auto]. Qed.
Lemma ldiff_down a b : N.ldiff a b <= a.
Proof. apply N.ldiff_le. apply N.bits_inj. intro n. rewrite !N.ldiff_spec, N.bits_0. destruct (N.testbit a n), (N.testbit b n); reflexivity. Qed.
(** The readers of numbers, from a position not far behind the end of the input *)
Definition reads_at {A} (Q : A -> Prop) (m : parser A) : Prop := forall bs ix, blen bs <= size -> ix <= blen bs + 3 ->
  match m bs ix with
  | Ok (a, i) => Q a /\ i <= blen bs
  | Err e => known E size e
  | _ => True
  end.
Ltac hr := intros bs ix Hb Hi; match goal with |- context [?r bs ix] => unfold r end; destruct (_ <? _) eqn:Hl; [apply known_new; fill|];
  unfold obind; repeat (match goal with |- context [byte_at ?l ?i] => destruct (byte_cases l i) as [(? & -> & ?) | -> ] end; try exact I); split; [first [exact I|lia]|lia].
Lemma r_range {A} (Q : A -> Prop) m : reads_at any m -> (forall bs ix x i, m bs ix = Ok (x, i) -> Q x) -> reads_at Q m.
Proof. intros H HQ bs ix Hb Hi. specialize (H bs ix Hb Hi). destruct (m bs ix) as [[a i]|e| |] eqn:Hm; auto. destruct H. split; [eapply HQ, Hm|assumption]. Qed.
Lemma r_u1 : reads_at (fun n => n < 256) read_u1.
Proof. apply r_range; [hr|exact u1_range]. Qed.
Lemma r_u2 : reads_at (fun n => n < 65536) read_u2.
Proof. apply r_range; [hr|exact u2_range]. Qed.
Lemma r_u4 : reads_at (fun n => n < 4294967296) read_u4.
Proof. apply r_range; [hr|exact u4_range]. Qed.
Lemma r_u8 : reads_at any read_u8.
Proof. hr. Qed.
Lemma s_reads {A} (Q : A -> Prop) m : reads_at Q m -> says Q m.
Proof. intros H bs ix Hb Hi. apply H; [exact Hb|lia]. Qed.
Definition s_u1 := s_reads _ _ r_u1.
Definition s_u2 := s_reads _ _ r_u2.
Definition s_u4 := s_reads _ _ r_u4.
Definition s_u8 := s_reads _ _ r_u8.
Lemma s_align {B} (Q : B -> Prop) (f : N -> parser B) : (forall n, n < 4294967296 -> says Q (f n)) -> says Q (bind align4 (fun _ => bind read_u4 f)).
Proof.
  intros Hf bs ix Hb Hi. unfold bind, align4, bind, get_ix, set_ix. pose proof (r_u4 bs (N.ldiff (ix + 3) 3) Hb) as H.
  assert (Hle : N.ldiff (ix + 3) 3 <= blen bs + 3) by (etransitivity; [apply ldiff_down|lia]). specialize (H Hle).
  destruct (read_u4 bs _) as [[a i]|e| |]; auto. destruct H as [Ha Hi']. apply (Hf a Ha bs i Hb Hi').
Qed.

Lemma h_ref : says ref_small read_unresolved_cp_ref.
Proof. unfold read_unresolved_cp_ref. eapply s_bind; [apply s_u2|]. intros n Hn. apply s_ret. exact Hn. Qed.
Ltac done_ := first [exact I | assumption | lia | solve [cbn; auto] | solve [split; cbn; auto]].
Ltac hh := repeat match goal with
  | H : says ?Q ?m |- says ?Q ?m => exact H
  | |- says _ (bind read_u1 _) => eapply s_bind; [apply s_u1|cbv beta; intros ? ?]
  | |- says _ (bind read_u2 _) => eapply s_bind; [apply s_u2|cbv beta; intros ? ?]
  | |- says _ (bind read_u4 _) => eapply s_bind; [apply s_u4|cbv beta; intros ? ?]
  | |- says _ (bind read_unresolved_cp_ref _) => apply (s_bind ref_small); [apply h_ref|intros ? ?]
  | |- says _ (bind get_bytes _) => eapply s_bind; [apply s_get_bytes|cbv beta; intros ? ?]
  | |- says _ (bind get_ix _) => eapply s_bind; [apply s_get_ix|cbv beta; intros ? ?]
  | |- says _ (bind (ret ?x) _) => apply (s_bind (fun y => y = x)); [apply s_ret; reflexivity|intros ? -> ]
  | |- says _ (bind _ _) => apply (s_bind any); [|intros ? _]
  | |- says _ (ret _) => apply s_ret; try done_
  | |- says _ (pfail _) => apply s_pfail; solve [fill]
  | |- says _ (pfail_at _) => apply s_pfail_at; intros ? ?; solve [fill]
  | |- says _ (guard _ _) => apply s_guard; [solve [fill]|try done_]
  | |- says _ (fun _ _ => Panic _) => apply s_panic
  | |- says any read_u1 => apply (s_any _ _ s_u1)
  | |- says any read_u2 => apply (s_any _ _ s_u2)
  | |- says any read_u4 => apply (s_any _ _ s_u4)
  | |- says any read_u8 => apply s_u8
  | |- says any get_ix => apply (s_any _ _ s_get_ix)
  | |- says any get_bytes => apply (s_any _ _ s_get_bytes)
  | |- says _ (pctx _ _) => apply s_pctx; [solve [fill]|]
  | |- says any (for_n _ _) => apply h_for_n; intros ? ?
  | |- says _ (match ?x with _ => _ end) => destruct x
  | |- says _ (let _ := _ in _) => cbv zeta
  end.
Ltac qh := first [apply q_slice|apply q_i32|apply q_u16|apply q_usize|apply q_capacity|apply q_peel|apply q_peel_utf8|apply q_pool_get; unfold lim in *; lia|apply q_loadable; unfold lim in *; lia
  |apply q_method_handle|apply q_member_ref|apply q_ensure_type|apply q_field_descriptor|apply q_method_descriptor|apply q_array_descriptor|apply q_class_name|apply q_string_literal
  |solve [repeat first [apply q_ok | apply q_peel | apply q_peel_utf8 | apply q_string_literal | apply q_method_handle | apply q_nat | apply q_bind; [|intro]]]].
Ltac hl := apply h_lift; qh.

(** Constant pool *)
Lemma slice_cases bs i j : (exists w, slice bs i j = Ok w /\ i <= j <= blen bs /\ blen w = j - i) \/ slice bs i j = Panic PSlice.
Proof.
  unfold slice. destruct ((i <=? j) && (j <=? blen bs)) eqn:H; [left; eexists; split; [reflexivity|]|auto]. split; [lia|].
  pose proof (fun w => slice_range bs i j w) as Hs. unfold slice in Hs. rewrite H in Hs. apply (Hs _ eq_refl).
Qed.
Lemma usize_cases n : (exists e, usize_result E n = Ok e) \/ usize_result E n = Panic POverflow.
Proof. unfold usize_result. destruct (n <=? usize_max E); eauto. destruct (overflow_checks E); eauto. Qed.
Definition entry_ok (e : entry) : Prop := entry_small e /\ match e with EUtf8 s => slen s <= size | _ => True end.
Lemma h_utf8 : says entry_ok (read_constant_utf8 E).
Proof.
  unfold read_constant_utf8. eapply s_bind; [apply s_u2|]. intros n Hn. intros bs ix Hb Hi. unfold bind at 1 2, get_bytes, get_ix.
  destruct (blen bs <? ix + n) eqn:Hl; [apply known_new; pose proof size_far; unfold far in *; fill|]. unfold bind, lift. destruct (slice_cases bs ix (ix + n)) as [(w & -> & Hw)| -> ]; [|exact I].
  unfold set_ix. destruct (cesu8 E w) as [s|] eqn:Hs; cbn; (split; [split; [exact I|]|lia]); [apply decoded in Hs; lia|exact I].
Qed.
Lemma h_entry major tag : major < 65536 -> tag < 256 -> says entry_ok (read_entry E major tag).
Proof.
  intros Hm Ht.
  unfold read_entry, read_constant_integer, read_constant_float, read_constant_long, read_constant_double, read_constant_class, read_constant_string,
    read_constant_fieldref, read_constant_methodref, read_constant_interfacemethodref, read_constant_nameandtype, read_constant_methodhandle,
    read_constant_methodtype, read_constant_dynamic, read_constant_invokedynamic, read_constant_module, read_constant_package.
  cbv zeta. assert (Hu : says entry_ok (@pfail_at entry (fun ix => lit "Unexpected constant pool entry type " ++ show_N tag ++ lit " at index " ++ show_N (ix - 1) ++ lit " for classfile major version " ++ show_N major)))
    by (apply s_pfail_at; intros; fill).
  repeat match goal with
  | |- says _ (read_constant_utf8 _) => apply h_utf8
  | |- _ => progress hh
  end.
Qed.
Lemma h_pool_loop major count : major < 65536 -> forall fuel cp, says (fun es => Forall entry_ok es /\ (length es <= 2 * fuel)%nat) (pool_loop E fuel major count cp).
Proof.
  intros Hm. induction fuel as [|fuel IH]; intro cp; cbn [pool_loop]; destruct (cp <? count); try (apply s_ret; split; [constructor|cbn; lia]); [apply s_diverge|].
  eapply s_bind; [apply s_u1|]. intros tag Ht. eapply s_bind; [apply h_entry; auto|]. intros e He. apply (s_bind any); [hl|intros ? _].
  destruct (_ || _); [apply (s_bind any); [hl|intros ? _]|]; (eapply s_bind; [apply IH|]; intros es [Hes Hn]; apply s_ret; cbn [length]; split; [|lia]); repeat (apply Forall_cons; [first [exact He|split; exact I]|]); exact Hes.
Qed.
Lemma resolve_len n es : forall i p, resolve_from n i es = Ok p -> length p = length es.
Proof.
  induction es as [|e es IH]; intros i p; cbn [resolve_from]; [intro H; assert ([] = p) as <- by congruence; reflexivity|].
  destruct (resolve_entry e i n); cbn [obind]; try discriminate. destruct (resolve_from n (i + 1) es) as [r| | |] eqn:Hr; cbn [obind]; try discriminate.
  intro H. assert (a :: r = p) as <- by congruence. cbn [length]. f_equal. eapply IH, Hr.
Qed.
Definition text_ok (e : entry) : Prop := match e with EUtf8 s => slen s <= size | _ => True end.
Definition texts_ok (p : pool) : Prop := Forall text_ok p.
Lemma resolve_texts n es : forall i p, resolve_from n i es = Ok p -> texts_ok es -> texts_ok p.
Proof.
  induction es as [|e es IH]; intros i p; cbn [resolve_from]; [intros H _; assert ([] = p) as <- by congruence; constructor|].
  destruct (resolve_entry e i n) as [e'| | |] eqn:He; cbn [obind]; try discriminate. destruct (resolve_from n (i + 1) es) as [r| | |] eqn:Hr; cbn [obind]; try discriminate.
  intros H Hf. assert (e' :: r = p) as <- by congruence. inversion Hf; subst. constructor; [|eapply IH; eassumption].
  unfold resolve_entry in He. destruct e; repeat (match type of He with obind ?m _ = _ => destruct m; cbn [obind] in He; try discriminate end);
    match type of He with Ok ?x = _ => assert (x = e') as <- by congruence end; try exact I; assumption.
Qed.
Lemma h_pool major : major < 65536 -> says texts_ok (read_constant_pool E major).
Proof.
  intro Hm. unfold read_constant_pool. eapply s_bind; [apply s_u2|]. intros n Hn. eapply s_bind; [apply s_get_bytes|]. intros bs Hb. cbv beta in Hb. unfold blen in Hb. pose proof size_far as Hsz. unfold far in Hsz.
  eapply s_bind; [apply h_pool_loop, Hm|]. intros es [Hes Hl]. cbv beta in Hl. apply (s_bind (fun p => plen p < lim /\ texts_ok p)); [apply s_lift|].
  - apply q_resolve; [constructor; [exact I|eapply Forall_impl; [|exact Hes]; intros e He; apply He]|cbn [length]; unfold lim; lia].
  - intros p Hp. split; [unfold plen; pose proof (resolve_len _ _ _ _ Hp) as Hq; rewrite Hq; cbn [length]; unfold lim; lia|].
    apply (resolve_texts _ _ _ _ Hp). constructor; [exact I|]. eapply Forall_impl; [|exact Hes]. intros e He. apply He.
  - intros p [Hp Ht]. apply (s_bind any); [apply h_lift, q_validate; unfold plen in Hp; lia|]. intros. apply s_ret. exact Ht.
Qed.
Section Pool.
Variable p : pool.
Variable opts : parse_options.
Lemma h_any : hush (read_cp_ref_any p).
Proof. unfold read_cp_ref_any. hh. hl. Qed.
Ltac hc := repeat (hh; try apply h_any; try hl).
Lemma h_cp_utf8 : hush (read_cp_utf8 p).
Proof. unfold read_cp_utf8, bad_type. hc. Qed.
Lemma h_cp_utf8_opt : hush (read_cp_utf8_opt p).
Proof. unfold read_cp_utf8_opt, bad_type. hc. Qed.
Lemma h_classinfo : hush (read_cp_classinfo p).
Proof. unfold read_cp_classinfo, bad_type. hc. Qed.
Lemma h_classinfo_opt : hush (read_cp_classinfo_opt p).
Proof. unfold read_cp_classinfo_opt, bad_type. hc. Qed.
Lemma h_moduleinfo : hush (read_cp_moduleinfo p).
Proof. unfold read_cp_moduleinfo, bad_type. hc. Qed.
Lemma h_packageinfo : hush (read_cp_packageinfo p).
Proof. unfold read_cp_packageinfo, bad_type. hc. Qed.
Lemma h_nameandtype_opt : hush (read_cp_nameandtype_opt p).
Proof. unfold read_cp_nameandtype_opt, bad_type. hc. Qed.
Lemma h_literalconstant : hush (read_cp_literalconstant p).
Proof. unfold read_cp_literalconstant, bad_type. hc. Qed.
Lemma h_integer : hush (read_cp_integer p).
Proof. unfold read_cp_integer, bad_type. hc. Qed.
Lemma h_float : hush (read_cp_float p).
Proof. unfold read_cp_float, bad_type. hc. Qed.
Lemma h_long : hush (read_cp_long p).
Proof. unfold read_cp_long, bad_type. hc. Qed.
Lemma h_double : hush (read_cp_double p).
Proof. unfold read_cp_double, bad_type. hc. Qed.
Lemma h_methodhandle : hush (read_cp_methodhandle p).
Proof. unfold read_cp_methodhandle, bad_type. hc. Qed.
Lemma h_bootstrap_argument : hush (read_cp_bootstrap_argument p).
Proof. unfold read_cp_bootstrap_argument, bad_type. hc. Qed.
Lemma h_memberref a : hush (read_cp_memberref p a).
Proof. unfold read_cp_memberref, bad_type. hc. Qed.
Lemma h_invokedynamic : hush (read_cp_invokedynamic p).
Proof. unfold read_cp_invokedynamic, bad_type. hc. Qed.
Lemma h_object_array : hush (read_cp_object_array_type p).
Proof. unfold read_cp_object_array_type, bad_type. hc. Qed.
Lemma h_field_descriptor : hush (read_cp_field_descriptor p).
Proof. unfold read_cp_field_descriptor. hh; [apply h_cp_utf8|hl]. Qed.
Lemma h_exact_flags all e : known E size e -> hush (read_exact_flags all e).
Proof. intro H. unfold read_exact_flags. hh. apply s_err, H. Qed.

(** Instructions *)
Definition op_small (op : opcode) : Prop := match op with
  | OpLookupswitch t => Forall (fun mo => (Z.abs (fst mo) < 4294967296)%Z) (match_offsets t)
  | OpTableswitch t => N.of_nat (length (jumps t)) < 4294967296
  | _ => True
  end.
Lemma i32_small z : in_i32 z = true -> (Z.abs z < 4294967296)%Z.
Proof. unfold in_i32. lia. Qed.
Lemma h_tableswitch : says op_small (read_tableswitch E).
Proof.
  unfold read_tableswitch. apply s_align. intros d Hd. cbv zeta. eapply s_bind; [apply s_u4|]. intros low Hlow. eapply s_bind; [apply s_u4|]. intros high Hhigh.
  destruct (_ <? _)%Z; [hh|]. apply (s_bind any); [hl|intros z _]. apply (s_bind (fun r => in_i32 r = true)); [apply s_lift; [apply q_i32|apply i32_result_range]|]. intros r Hr.
  destruct (usize_of_i32 r) as [n|] eqn:Hn; [|hh]. apply (s_bind any); [hl|intros ? _].
  eapply s_bind; [apply (s_for_big any); intro; hh|]. intros js [Hl _]. apply s_ret. cbn [op_small jumps]. pose proof (usize_range _ _ Hr Hn). lia.
Qed.
Lemma h_lookupswitch : says op_small (read_lookupswitch E).
Proof.
  unfold read_lookupswitch. apply s_align. intros d Hd. cbv zeta. eapply s_bind; [apply s_u4|]. intros n Hn.
  destruct (_ <? _)%Z; [hh|]. destruct (usize_of_i32 _) as [k|] eqn:Hk; [|hh]. apply (s_bind any); [hl|intros ? _].
  eapply s_bind; [apply (s_for_big (fun mo => (Z.abs (fst mo) < 4294967296)%Z)); intro|].
  - eapply s_bind; [apply s_u4|]. intros m Hm. eapply s_bind; [apply s_u4|]. intros o Ho. apply s_ret. cbn [fst]. apply i32_small, as_i32_range. exact Hm.
  - intros ps [_ Hf]. apply s_ret. exact Hf.
Qed.
Ltac q1 := match goal with
  | |- says any (read_cp_memberref _ _) => apply h_memberref
  | |- says any (read_cp_object_array_type _) => apply h_object_array
  | |- says any (read_cp_invokedynamic _) => apply h_invokedynamic
  | |- says any (lift _) => hl
  end.
Lemma h_newarray : says op_small read_newarray.
Proof. unfold read_newarray. hh. Qed.
Lemma h_wide : says op_small read_wide.
Proof. unfold read_wide. hh. Qed.
Lemma h_invokeinterface : says op_small (read_invokeinterface p).
Proof. unfold read_invokeinterface. hh. apply h_memberref. Qed.
Lemma h_invokedynamic_insn : says op_small (read_invokedynamic_insn p).
Proof. unfold read_invokedynamic_insn. hh. apply h_invokedynamic. Qed.
Lemma h_insn : says op_small (read_insn E p).
Proof.
  unfold read_insn. hh; first [q1|apply h_classinfo|apply h_tableswitch|apply h_lookupswitch|apply h_newarray|apply h_wide|apply h_invokeinterface|apply h_invokedynamic_insn].
Qed.
Definition ops_small (l : list (N * opcode)) : Prop := Forall (fun x => fst x < far /\ op_small (snd x)) l.
Lemma h_opcodes : forall fuel, says ops_small (opcodes_loop E p fuel).
Proof.
  induction fuel as [|fuel IH]; intros bs ix Hb Hi; cbn [opcodes_loop]; destruct (ix <? blen bs) eqn:Hl; try (split; [constructor|exact Hi]); [exact I|].
  match goal with |- match ?m bs ix with _ => _ end => assert (H : says ops_small m); [|exact (H bs ix Hb Hi)] end.
  eapply s_bind; [apply h_insn|]. intros op Ho. eapply s_bind; [apply IH|]. intros l Hf. apply s_ret. constructor; [cbn [fst snd]; split; [lia|exact Ho]|exact Hf].
Qed.
Lemma q_search ops o : forall fuel a b, quiet E size (search_loop fuel ops o a b).
Proof. induction fuel as [|fuel IH]; intros a b; cbn [search_loop]; repeat match goal with |- quiet _ _ (match ?x with _ => _ end) => destruct x end; try apply q_ok; try apply q_panic; try apply q_diverge; apply IH. Qed.
Lemma q_jump bc s j : quiet E size (validate_jump E bc s j).
Proof.
  unfold validate_jump. apply q_bind; [apply q_i32|intro t]. destruct (usize_of_i32 t); [|apply q_fail; fill].
  apply q_bind; [apply q_search|intro r]. destruct r; [apply q_ok|apply q_fail; fill].
Qed.
Lemma q_jumps_of bc s js : Forall (fun cj => brief (fst cj)) js -> quiet E size (validate_all E bc s js).
Proof.
  induction 1 as [|[c j] js Hc _ IH]; cbn [validate_all]; [apply q_ok|]. apply q_bind; [|intro; exact IH]. apply q_ctx; [exact Hc|apply q_jump].
Qed.
Lemma enumerate_below {A} (l : list A) : forall i x, In x (enumerate i l) -> i <= fst x < i + N.of_nat (length l).
Proof.
  induction l as [|a l IH]; intros i x; cbn [enumerate]; [intros []|]. cbn [length]. intros [<- |H]; [cbn [fst]; lia|]. apply IH in H. lia.
Qed.
Lemma q_opcode_jumps bc o op : op_small op -> quiet E size (validate_opcode_jumps E bc o op).
Proof.
  intro Ho. unfold validate_opcode_jumps. destruct (i32_of_usize o) as [s|]; [|apply q_fail; fill].
  destruct op; cbn [op_small] in Ho; try apply q_ok; try apply q_jump; (apply q_bind; [apply q_ctx; [fill|apply q_jump]|intro]); apply q_jumps_of, Forall_forall; intros cj Hin;
    apply in_map_iff in Hin; destruct Hin as (x & <- & Hx); cbn [fst].
  - rewrite Forall_forall in Ho. specialize (Ho x Hx). cbv beta in Ho. fill.
  - apply enumerate_below in Hx. fill.
Qed.
Lemma q_jumps bc ops : ops_small ops -> quiet E size (validate_jumps E bc ops).
Proof. induction 1 as [|[o op] ops [Ho Hop] _ IH]; cbn [validate_jumps]; [apply q_ok|]. cbn [fst snd] in *. apply q_bind; [|intro; exact IH]. apply q_ctx; [fill|apply q_opcode_jumps, Hop]. Qed.
Lemma q_bytecode code : blen code <= size -> quiet E size (bytecode_from E code p).
Proof.
  intro Hb. unfold bytecode_from, read_opcodes. pose proof (h_opcodes (S (length code)) code 0 Hb ltac:(lia)) as H.
  destruct (opcodes_loop E p (S (length code)) code 0) as [[ops i]|e| |]; cbn [obind]; [|intros e' He; assert (e = e') as <- by congruence; exact H|apply q_panic|apply q_diverge].
  destruct H as [H _]. cbn [fst]. apply q_bind; [apply q_jumps, H|intro; apply q_ok].
Qed.

(** Attributes *)
Ltac sq := repeat (hh; try first [apply h_cp_utf8|apply h_cp_utf8_opt|apply h_classinfo|apply h_classinfo_opt|apply h_moduleinfo|apply h_packageinfo
  |apply h_nameandtype_opt|apply h_literalconstant|apply h_integer|apply h_float|apply h_long|apply h_double|apply h_methodhandle
  |apply h_bootstrap_argument|apply h_field_descriptor|hl]).
Ltac flags := apply h_exact_flags; first [apply known_with; [apply known_new; fill|fill] | apply known_new; fill].
Lemma h_exception_entry i : i < 65536 -> hush (read_exception_entry p i).
Proof. intro Hi. unfold read_exception_entry. sq. Qed.
Lemma h_code rec : hush rec -> hush (read_code_data E p opts rec).
Proof.
  intro Hrec. unfold read_code_data. eapply s_bind; [apply s_u2|intros ? _]. eapply s_bind; [apply s_u2|intros ? _]. eapply s_bind; [apply s_u4|intros n Hn]. cbv beta in Hn.
  intros bs ix Hb Hi. unfold bind at 1 2 3, get_bytes, get_ix, lift. destruct (usize_cases (ix + n)) as [(e & -> )| -> ]; [|exact I].
  destruct (blen bs <? e) eqn:Hl; [apply known_new; pose proof size_far; unfold far in *; fill|]. unfold bind at 1 2. destruct (slice_cases bs ix e) as [(w & -> & Hw & Hlen)| -> ]; [|exact I].
  unfold set_ix. match goal with |- match ?m bs e with _ => _ end => assert (H : hush m); [|exact (H bs e Hb ltac:(lia))] end.
  sq; [apply h_exception_entry; lia|apply h_lift, q_bytecode; lia].
Qed.
Lemma h_verification : hush (read_verification p).
Proof. unfold read_verification. sq. Qed.
Lemma h_stack_map : hush (read_stackmaptable_data p).
Proof. unfold read_stackmaptable_data, read_stack_map_entry. sq; apply h_verification. Qed.
Lemma h_exceptions : hush (read_exceptions_data p).
Proof. unfold read_exceptions_data. sq. Qed.
Lemma h_innerclasses : hush (read_innerclasses_data p).
Proof. unfold read_innerclasses_data, read_inner_class. sq. Qed.
Lemma h_linenumber : hush read_linenumber_data.
Proof. unfold read_linenumber_data, read_line_number. sq. Qed.
Lemma h_localvariable : hush (read_localvariable_data p).
Proof. unfold read_localvariable_data, read_local_variable. sq. Qed.
Lemma h_localvariabletype : hush (read_localvariabletype_data p).
Proof. unfold read_localvariabletype_data, read_local_variable_type. sq. Qed.
Lemma h_annotation_with rec : hush rec -> hush (read_annotation_with p rec).
Proof. intro Hr. unfold read_annotation_with. sq. Qed.
Lemma h_tag {A} v : hush (@pfail A (lit "Unrecognized discriminant " ++ [v])).
Proof. apply s_pfail. unfold short. rewrite slen_app. pose proof (slen_char v). fill. Qed.
Lemma h_element_value stk : hush (read_element_value p stk).
Proof.
  induction stk as [|stk IH]; cbn [read_element_value]; [apply s_panic|]. unfold read_element_value_with.
  eapply s_bind; [apply s_u1|]. intros v Hv. cbv zeta.
  repeat match goal with |- says any (if ?c then _ else _) => destruct c end; try apply (h_tag v); sq.
  all: first [apply h_lift, q_ok_and | apply h_annotation_with, IH].
Qed.
Lemma h_annotation stk : hush (read_annotation p stk).
Proof. apply h_annotation_with, h_element_value. Qed.
Lemma h_annotation_data stk : hush (read_annotation_data p stk).
Proof. unfold read_annotation_data. sq. apply h_annotation. Qed.
Lemma h_parameter_annotation stk : hush (read_parameter_annotation_data p stk).
Proof. unfold read_parameter_annotation_data. sq. apply h_annotation. Qed.
Lemma h_target i : i < 65536 -> hush (read_type_annotation_target i).
Proof. intro Hi. unfold read_type_annotation_target, read_local_var_target. sq. Qed.
Lemma h_type_annotation stk : hush (read_type_annotation_data p stk).
Proof. unfold read_type_annotation_data, read_type_annotation, read_path_entry. sq; [apply h_target; lia|apply h_annotation]. Qed.
Lemma h_bootstrap : hush (read_bootstrapmethods_data p).
Proof. unfold read_bootstrapmethods_data, read_bootstrap_method. sq. Qed.
Lemma h_methodparameters : hush (read_methodparameters_data p).
Proof. unfold read_methodparameters_data, read_method_parameter. sq. flags. Qed.
Lemma h_module : hush (read_module_data p).
Proof. unfold read_module_data, read_module_require, read_module_export, read_module_open, read_module_provide. sq; flags. Qed.
Lemma h_record rec : hush rec -> hush (read_record_data p rec).
Proof. intro Hr. unfold read_record_data, read_record_component. sq. Qed.
Lemma h_debug_extension i length : i < 65536 -> hush (read_source_debug_extension E i length).
Proof.
  intro Hi. unfold read_source_debug_extension. intros bs ix Hb Hx. unfold bind, get_bytes, get_ix, lift. destruct (usize_cases (ix + length)) as [(e & -> )| -> ]; [|exact I].
  destruct (slice_cases bs ix e) as [(w & -> & Hw & _)| -> ]; [|exact I]. unfold set_ix. destruct (cesu8 E w); [split; [exact I|lia]|].
  apply known_with; [|fill]. split; [right; right; reflexivity|constructor].
Qed.
Lemma h_other length : hush (read_other_attribute E length).
Proof.
  unfold read_other_attribute. intros bs ix Hb Hx. unfold bind, get_bytes, get_ix, lift. destruct (usize_cases (ix + length)) as [(e & -> )| -> ]; [|exact I].
  unfold set_ix. destruct (usize_sub E e length) as [d|e'| |] eqn:Hs; [|unfold usize_sub in Hs; destruct (_ <=? _); [discriminate|]; destruct (overflow_checks E); discriminate|exact I|exact I].
  destruct (slice_cases bs d e) as [(w & -> & Hw & _)| -> ]; [|exact I]. split; [exact I|lia].
Qed.
Lemma h_dispatch {A} name (cases : list (string * parser A)) d : Forall (fun c => hush (snd c)) cases -> hush d -> hush (dispatch name cases d).
Proof. intros Hc Hd. induction Hc as [|[s q] cases Hq _ IH]; cbn [dispatch]; auto. destruct (str_eqb name (lit s)); auto. Qed.
Lemma h_attr_data rec stk name i length : i < 65536 -> length < 4294967296 -> hush rec -> hush (read_attr_data E p opts rec stk name i length).
Proof.
  intros Hi Hlen Hrec. unfold read_attr_data. cbv zeta. apply h_dispatch.
  - repeat match goal with |- Forall _ (_ :: _) => constructor | |- Forall _ [] => constructor end; cbn [snd]; unfold ensure_length, read_modulepackages_data, read_nestmembers_data,
      read_permitted_subclasses_data; sq;
        first [apply h_code, Hrec|apply h_stack_map|apply h_exceptions|apply h_innerclasses|apply h_linenumber|apply h_localvariable
          |apply h_localvariabletype|apply h_annotation_data|apply h_parameter_annotation|apply h_type_annotation|apply h_element_value|apply h_bootstrap
          |apply h_methodparameters|apply h_module|apply h_record, Hrec|apply h_debug_extension, Hi].
  - sq. apply h_other.
Qed.
Lemma h_attribute rec stk i : i < 65536 -> hush rec -> hush (read_attribute E p opts rec stk i).
Proof. intros Hi Hrec. unfold read_attribute. sq. apply h_attr_data; assumption. Qed.
Definition few_attributes (l : list attr_info) : Prop := N.of_nat (length l) < 65536.
Lemma h_attributes stk : says few_attributes (read_attributes E p opts stk).
Proof. induction stk as [|stk IH]; cbn [read_attributes]; [apply s_panic|]. eapply s_bind; [apply s_u2|]. intros n Hn.
  eapply s_weak; [apply (s_for_n any); intros i Hi; apply h_attribute; [cbv beta in Hn; lia|apply (s_any _ _ IH)]|]. cbv beta. intros l [Hl _]. unfold few_attributes. cbv beta in Hn. lia. Qed.

(** Members and classes *)
Definition few {A} (l : list A) : Prop := N.of_nat (length l) < 65536.
Lemma h_fields : says few (read_fields E p opts).
Proof.
  unfold read_fields. eapply s_bind; [apply s_u2|]. intros n Hn. cbv beta in Hn.
  assert (H : forall k i seen, i + N.of_nat k < 65536 -> says (fun l => length l = k) (fields_loop E p opts k i seen)).
  { induction k as [|k IH]; intros i seen Hi; cbn [fields_loop]; [apply s_ret; reflexivity|].
    eapply s_bind; [apply s_u2|intros ? _]. apply (s_bind any); [sq|intros ? _]. apply (s_bind any); [hh|intros ? _]. apply (s_bind any); [sq|intros ? _]. apply (s_bind any); [hl|intros ? _].
    apply (s_bind any); [hh|intros ? _]. apply (s_bind any); [apply s_pctx; [fill|apply (s_any _ _ (h_attributes _))]|intros ? _]. eapply s_bind; [apply IH; lia|]. intros l Hl. apply s_ret. cbn [length]. congruence. }
  eapply s_weak; [apply H; lia|]. cbv beta. intros l Hl. unfold few. lia.
Qed.
Lemma h_methods b major : says few (read_methods E p opts b major).
Proof.
  unfold read_methods. eapply s_bind; [apply s_u2|]. intros n Hn. cbv beta in Hn.
  assert (H : forall k i seen, i + N.of_nat k < 65536 -> says (fun l => length l = k) (methods_loop E p opts b major k i seen)).
  { induction k as [|k IH]; intros i seen Hi; cbn [methods_loop]; [apply s_ret; reflexivity|].
    repeat match goal with
    | |- says _ (bind (methods_loop _ _ _ _ _ _ _ _) _) => eapply s_bind; [apply IH; lia|cbv beta; intros ? ?]
    | |- says _ (ret (_ :: _)) => apply s_ret; cbn [length]; congruence
    | |- says any (pctx _ (read_attributes _ _ _ _)) => apply s_pctx; [fill|apply (s_any _ _ (h_attributes _))]
    | |- says any _ => progress sq
    | |- says _ (bind _ _) => eapply s_bind; [apply s_u2|cbv beta; intros ? ?]
    | |- says _ (bind _ _) => apply (s_bind any); [|intros ? _]
    | |- says _ (let _ := _ in _) => cbv zeta
    end. }
  eapply s_weak; [apply H; lia|]. cbv beta. intros l Hl. unfold few. lia.
Qed.
Lemma h_interfaces : says few (read_interfaces p).
Proof.
  unfold read_interfaces. eapply s_bind; [apply s_u2|]. intros n Hn. cbv beta in Hn. eapply s_weak; [apply (s_for_n any); intros i Hi; sq|].
  cbv beta. intros l [Hl _]. unfold few. lia.
Qed.
Lemma h_this : hush (read_this_class p).
Proof. unfold read_this_class. sq. Qed.
Lemma peel_text r s : texts_ok p -> peel_utf8 p r = Ok s -> slen s <= size.
Proof.
  intro Hp. unfold peel_utf8, peel. destruct r as [|t]; [discriminate|]. destruct (nth_error p (N.to_nat t)) as [e|] eqn:He; cbn [obind]; [|discriminate].
  apply nth_error_In in He. unfold texts_ok in Hp. rewrite Forall_forall in Hp. specialize (Hp e He). destruct e; cbn [utf8]; try discriminate.
  intro H. assert (s0 = s) as <- by congruence. exact Hp.
Qed.
Definition name_ok (o : option str) : Prop := match o with Some s => slen s <= size | None => True end.
Lemma h_classinfo_name : texts_ok p -> says name_ok (read_cp_classinfo_opt p).
Proof.
  intro Hp. unfold read_cp_classinfo_opt, bad_type. apply (s_bind any); [apply h_any|intros e _]. destruct e; lazymatch goal with |- says _ (bind _ _) => idtac | _ => hh end.
  apply (s_bind (fun s => slen s <= size)); [apply s_lift; [apply q_peel_utf8|intros s Hs; eapply peel_text; eassumption]|]. intros s Hs. apply s_ret. exact Hs.
Qed.
Lemma name_same s n : class_name_try_from s = Ok n -> n = s.
Proof. unfold class_name_try_from. destruct (class_name_loop _ _ _); cbn [obind]; try discriminate. congruence. Qed.
Lemma h_super : texts_ok p -> says name_ok (read_super_class p).
Proof.
  intro Hp. unfold read_super_class. apply s_pctx; [fill|]. apply (s_bind name_ok); [apply h_classinfo_name, Hp|]. intros o Ho. destruct o as [s|]; [|hh].
  apply (s_bind (fun n => n = s)); [apply s_lift; [apply q_class_name|intros n Hn; apply name_same, Hn]|]. intros n -> . apply s_ret. exact Ho.
Qed.
End Pool.

Lemma flags_short f : slen (debug_class_flags f) <= 120.
Proof.
  unfold debug_class_flags, class_flag_names. cbn [filter snd].
  repeat match goal with |- context [if contains f ?c then _ else _] => destruct (contains f c) end; vm_compute; discriminate.
Qed.
Lemma h_flags b f major : major < 65536 -> hush (check_module_flags b f major).
Proof.
  intro Hm. unfold check_module_flags. destruct b; [|apply s_ret; exact I]. apply (s_bind any); [hh|intros ? _]. apply s_guard; [|exact I].
  unfold short. lens. pose proof (flags_short f). lia.
Qed.
Lemma q_found x attrs : forall n, quiet E size (bootstrap_found x attrs n).
Proof. induction attrs as [|a attrs IH]; intro n; cbn [bootstrap_found]; [apply q_ok|]. destruct (attr_dat a); try apply IH. destruct (_ <=? x); [apply q_fail; fill|apply IH]. Qed.
Lemma found_few x attrs : forall n k, bootstrap_found x attrs n = Ok k -> k <= n + N.of_nat (length attrs).
Proof.
  induction attrs as [|a attrs IH]; intros n k; cbn [bootstrap_found length]; [intro H; assert (n = k) as -> by congruence; lia|].
  destruct (attr_dat a); try (intro H; apply IH in H; lia). destruct (_ <=? x); [discriminate|]. intro H. apply IH in H. lia.
Qed.
Lemma q_bootstrap es attrs : few_attributes attrs -> quiet E size (validate_bootstrap_methods es attrs).
Proof.
  intro Hf. unfold few_attributes in Hf. induction es as [|e es IH]; cbn [validate_bootstrap_methods]; [apply q_ok|].
  destruct e; try apply IH; (match goal with |- quiet _ _ (obind ?m _) => destruct m as [k|e'| |] eqn:Hk; cbn [obind]; [|intros e'' He; assert (e' = e'') as <- by congruence; exact (q_found _ _ _ _ Hk)|apply q_panic|apply q_diverge] end;
    apply found_few in Hk; destruct (negb _); [apply q_fail; fill|apply IH]).
Qed.
Lemma h_contents b super ifs fs ms : name_ok super -> few ifs -> few fs -> few ms -> hush (check_module_contents b super ifs fs ms).
Proof.
  intros Hs Hi Hf Hm. unfold few in *. unfold check_module_contents, count_of. destruct b; [|hh]. destruct super as [s|]; [|hh].
  intros bs ix Hb Hx. split; [right; left; exists s; split; [exact Hs|reflexivity]|constructor].
Qed.
Lemma h_class opts : hush (class_parser E opts).
Proof.
  unfold class_parser. eapply s_bind; [apply s_u4|intros ? _]. apply (s_bind any); [hh|intros ? _]. eapply s_bind; [apply s_u2|intros minor _]. eapply s_bind; [apply s_u2|]. intros major Hmaj. cbv beta in Hmaj.
  apply (s_bind texts_ok); [apply h_pool, Hmaj|intros p Hp]. eapply s_bind; [apply s_u2|intros ? _]. cbv zeta. apply (s_bind any); [apply h_flags, Hmaj|intros ? _].
  apply (s_bind any); [apply h_this|intros ? _]. apply (s_bind name_ok); [apply h_super, Hp|intros super Hsuper]. apply (s_bind few); [apply h_interfaces|intros ifs Hifs].
  apply (s_bind few); [apply h_fields|intros fs Hfs]. apply (s_bind few); [apply h_methods|intros ms Hms].
  apply (s_bind few_attributes); [apply s_pctx; [fill|apply h_attributes]|intros attrs Hattrs]. eapply s_bind; [apply s_get_bytes|intros bs _]. eapply s_bind; [apply s_get_ix|intros ix Hix]. cbv beta in Hix.
  apply (s_bind any); [hh|intros ? _]. apply (s_bind any); [apply h_contents; assumption|intros ? _]. apply (s_bind any); [apply h_lift, q_bootstrap, Hattrs|intros ? _]. apply s_ret. exact I.
Qed.
End Hush.
