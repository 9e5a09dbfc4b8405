(** * C69: iterating over the constants, its steps and copies *)
From Verif Require Import Base M_Names M_Descriptors M_ConstantPool M_Class M_Cesu8 S_Env Sample W_Base W_Iter Z_Cow Z_ConstantPool Z_Plain Z_Class
  S_Lang S_Format S_Pool S_ZeroCopy P_Reads P_Tac P_Layout P_Work P_Zero P_Zero3 P_Heap P_Heap3 P_Heap4 T_Class T_Members T_Iter T_Drop T_ZeroCopy T_Heap P_Choir.
From Coq Require Import ZifyBool ZifyNat ZifyN.

(** ** What is copied *)
(** The bytes of the decoded texts of the items. *)
Definition copied_bytes (items : list (option cp_item)) : N :=
  fold_right (fun t n => owned_len t + n) 0 (flat_map (fun o => match o with Some it => item_texts it | None => [] end) items).

Lemma copied_cons o l : copied_bytes (o :: l) = copied_bytes [o] + copied_bytes l.
Proof.
  unfold copied_bytes. cbn [flat_map]. rewrite app_nil_r. induction (match o with Some it => item_texts it | None => [] end) as [|t ts IH]; cbn [app fold_right]; lia.
Qed.

(** ** The outcome *)
Section Forget.
Variable p : pool.
Lemma fi_clone t : forgets (wi_clone t) (Ok t). Proof. reflexivity. Qed.
Lemma fi_peel r : forgets (wi_peel p r) (peel p r). Proof. reflexivity. Qed.
Lemma fi_utf8 e : forgets (wi_utf8 e) (utf8 e). Proof. destruct e; reflexivity. Qed.
Lemma fi_string_literal e : forgets (wi_string_literal e) (string_literal e). Proof. destruct e; reflexivity. Qed.
#[local] Hint Resolve fi_clone fi_peel fi_utf8 fi_string_literal : fg.
Lemma fi_classinfo e : forgets (wi_classinfo p e) (classinfo p e). Proof. destruct e; cbn [wi_classinfo classinfo]; fg. Qed.
Lemma fi_peel_utf8 r : forgets (wi_peel_utf8 p r) (peel_utf8 p r). Proof. unfold wi_peel_utf8, peel_utf8. fg. Qed.
#[local] Hint Resolve fi_classinfo fi_peel_utf8 : fg.
Lemma fi_nt e : forgets (wi_name_and_type p e) (get_name_and_type p e). Proof. destruct e; cbn [wi_name_and_type get_name_and_type]; fg. Qed.
#[local] Hint Resolve fi_nt : fg.
Lemma fi_member c m : forgets (wi_member_ref p c m) (make_member_ref p c m). Proof. unfold wi_member_ref, make_member_ref. fg. Qed.
Lemma fi_handle x y : forgets (wi_method_handle p x y) (make_method_handle p x y). Proof. unfold wi_method_handle, make_method_handle. fg. Qed.
Lemma fi_unwrap {A} (m : metered A) r : forgets m r -> forgets (wi_unwrap m) (unwrap r).
Proof. unfold forgets. intros <-. destruct m; reflexivity. Qed.
#[local] Hint Resolve fi_member fi_handle fi_unwrap : fg.
Lemma fi_item e : forgets (wi_item p e) (item_of p e). Proof. destruct e; cbn [wi_item item_of]; fg. Qed.
#[local] Hint Resolve fi_item : fg.
Lemma fi_loop fuel : forall index, forgets (wi_next_loop p fuel index) (iter_next_loop p fuel index).
Proof. induction fuel as [|fuel IH]; intro index; cbn [wi_next_loop iter_next_loop]; fg. Qed.
Lemma fi_next index : forgets (wi_next p index) (iter_next p index).
Proof. apply fg_after, fi_loop. Qed.
#[local] Hint Resolve fi_next : fg.
Lemma fi_run n : forall index, forgets (wi_run_from p n index) (iter_run_from p n index).
Proof. induction n as [|n IH]; intro index; cbn [wi_run_from iter_run_from]; fg. Qed.
End Forget.

(** ** The steps *)
Section Steps.
Variable p : pool.
(** No text of the pool is owned and has more than [M] bytes. *)
Variable M : N.
Hypothesis HM : forall t, In t (flat_map entry_texts p) -> owned_len t <= M.
(** After [c] bytes have been copied: the bytes copied by then, at most [k] other steps and [j] copies more. *)
Definition spc {A} (c : N) (m : metered A) (k j : N) (f : A -> N) : Prop :=
  match m with
  | (Ok a, n) => f a <= c + n /\ c + n <= k + f a /\ f a <= c + j * M
  | (_, n) => n <= k + j * M
  end.
Lemma spc_bind {A B} c (m : metered A) (g : A -> metered B) k j f k' j' h :
  spc c m k j f -> (forall a, spc (f a) (g a) k' j' h) -> spc c (mbind m g) (k + k') (j + j') h.
Proof.
  intros Hm Hg. destruct m as [[a| | |] n]; cbn [mbind spc] in *; try lia. specialize (Hg a). destruct (g a) as [[b| | |] n']; cbn [spc] in *; lia.
Qed.
Lemma spc_more {A} c (m : metered A) k j k' j' f : spc c m k j f -> k <= k' -> j <= j' -> spc c m k' j' f.
Proof. unfold spc. destruct m as [[a| | |] n]; intros; nia. Qed.
Lemma spc_ok {A} c (a : A) (f : A -> N) : f a = c -> spc c (mok a) 0 0 f.
Proof. intros <-. unfold spc, mok, steps. lia. Qed.
Lemma spc_stop {A} c (r : outcome A) f : (forall a, r <> Ok a) -> spc c (steps 0 r) 0 0 f.
Proof. intro H. unfold spc, steps. destruct r; try lia. now destruct (H a). Qed.
Lemma spc_peel c r : spc c (wi_peel p r) 1 0 (fun _ => c).
Proof. unfold wi_peel, steps, spc. destruct (peel p r); lia. Qed.
Lemma peel_in r e : peel p r = Ok e -> In e p.
Proof. unfold peel. destruct r as [|t]; [discriminate|]. destruct (nth_error p _) as [e'|] eqn:H; [|discriminate]. intros [= <-]. eapply nth_error_In; eauto. Qed.
Lemma peeled r s : peel p r = Ok (EUtf8 s) -> owned_len s <= M.
Proof. intro H. apply HM. apply in_flat_map. exists (EUtf8 s). split; [now apply (peel_in r)|left; reflexivity]. Qed.
Lemma spc_utf8 c r : spc c (wi_peel_utf8 p r) 2 1 (fun t => c + owned_len t).
Proof.
  unfold wi_peel_utf8, wi_peel, steps. destruct (peel p r) as [e| | |] eqn:H; cbn [mbind spc]; try lia. destruct e; cbn [wi_utf8 wi_clone steps spc]; try lia. apply peeled in H. lia.
Qed.
Lemma spc_literal c r : spc c (let~ t := wi_peel p r in let~ l := wi_string_literal t in mok (Some (ItLiteral l))) 2 1
  (fun o => c + copied_bytes [o]).
Proof.
  unfold wi_peel, steps. destruct (peel p r) as [e| | |] eqn:H; cbn [mbind spc]; try lia.
  destruct e; cbn [wi_string_literal wi_clone steps mbind mok spc copied_bytes flat_map app item_texts literal_texts fold_right]; try lia. apply peeled in H. lia.
Qed.
Lemma spc_classinfo c e : spc c (wi_classinfo p e) 2 1 (fun t => c + owned_len t).
Proof. destruct e; cbn [wi_classinfo]; try (eapply spc_more; [apply spc_stop; discriminate|lia|lia]). apply spc_utf8. Qed.
Definition nt_len (nt : name_and_type) : N := owned_len (nt_name nt) + owned_len (nt_descriptor nt).
Lemma spc_two {A} c x y (g : cow -> cow -> A) h : (forall n d, h (g n d) = c + owned_len n + owned_len d) ->
  spc c (let~ n := wi_peel_utf8 p x in let~ d := wi_peel_utf8 p y in mok (g n d)) 4 2 h.
Proof.
  intro Hh. eapply spc_more; [eapply spc_bind; [apply spc_utf8|intro n; eapply spc_bind; [apply spc_utf8|intro d; apply spc_ok, Hh]]|lia|lia].
Qed.
Lemma spc_nt c e : spc c (wi_name_and_type p e) 4 2 (fun nt => c + nt_len nt).
Proof.
  destruct e; cbn [wi_name_and_type]; try (eapply spc_more; [apply spc_stop; discriminate|lia|lia]). apply spc_two. intros. unfold nt_len. cbn. lia.
Qed.
(** The class and the name and type of a member *)
Lemma spc_parts {A} c x y (g : cow -> name_and_type -> A) h : (forall s nt, h (g s nt) = c + owned_len s + nt_len nt) ->
  spc c (let~ ce := wi_peel p x in let~ cn := wi_classinfo p ce in let~ me := wi_peel p y in let~ nt := wi_name_and_type p me in mok (g cn nt)) 8 3 h.
Proof.
  intro Hh. eapply spc_more.
  - eapply spc_bind; [apply spc_peel|]. intro ce. eapply spc_bind; [apply spc_classinfo|]. intro cn. eapply spc_bind; [apply spc_peel|]. intro me.
    eapply spc_bind; [apply spc_nt|]. intro nt. apply spc_ok. apply Hh.
  - lia.
  - lia.
Qed.
Definition member_len (r : member_ref) : N := owned_len (mr_class_name r) + nt_len (mr_name_and_type r).
Definition handle_len (h : method_handle) : N := owned_len (mh_class_name h) + nt_len (mh_member_ref h).
Lemma spc_member c x y : spc c (wi_member_ref p x y) 8 3 (fun r => c + member_len r).
Proof. apply spc_parts. intros. unfold member_len. cbn. lia. Qed.
Lemma spc_handle c x y : spc c (wi_method_handle p x y) 9 3 (fun r => c + handle_len r).
Proof.
  unfold wi_method_handle. eapply spc_more; [eapply spc_bind with (k' := 8) (j' := 3); [apply spc_peel|intro e]|lia|lia].
  destruct e; try (eapply spc_more; [apply spc_stop; discriminate|lia|lia]); apply spc_parts; intros; unfold handle_len; cbn; lia.
Qed.
Lemma spc_unwrap {A} c (m : metered A) k j f : spc c m k j f -> spc c (wi_unwrap m) k j f.
Proof. unfold spc, wi_unwrap. destruct m as [[| | |] n]; cbn [unwrap]; auto. Qed.
Lemma spc_some {A} c (m : metered A) (g : A -> cp_item) k j f : spc c m k j f -> (forall a, f a = c + copied_bytes [Some (g a)]) ->
  spc c (let~ a := m in mok (Some (g a))) k j (fun o => c + copied_bytes [o]).
Proof.
  intros Hm Hf. eapply spc_more; [eapply spc_bind; [exact Hm|intro a; apply spc_ok; now rewrite Hf]|lia|lia].
Qed.
Ltac leaf := unfold member_len, handle_len, nt_len; cbn [copied_bytes flat_map app item_texts literal_texts member_texts handle_texts nt_texts fold_right mr_class_name mr_name_and_type mh_class_name
  mh_member_ref nt_name nt_descriptor dyn_name_and_type indy_name_and_type]; lia.
(** One constant: at most 9 steps besides those for the bytes it copies, and at most three texts. *)
Lemma spc_item c e : spc c (wi_item p e) 9 3 (fun o => c + copied_bytes [o]).
Proof.
  destruct e; cbn [wi_item]; try (eapply spc_more; [apply spc_ok; leaf|lia|lia]).
  - eapply spc_more; [apply spc_stop; discriminate|lia|lia].
  - eapply spc_more; [eapply spc_some; [apply spc_utf8|intro; leaf]|lia|lia].
  - eapply spc_more; [apply spc_literal|lia|lia].
  - eapply spc_more; [eapply spc_some; [apply spc_member|intros []; leaf]|lia|lia].
  - eapply spc_more; [eapply spc_some; [apply spc_member|intros []; leaf]|lia|lia].
  - eapply spc_more; [eapply spc_some; [apply spc_member|intros []; leaf]|lia|lia].
  - eapply spc_more; [apply (spc_two c x y (fun n d => Some (ItNameAndType (mk_nat n d)))); intros; leaf|lia|lia].
  - eapply spc_some; [apply spc_unwrap, spc_handle|intros []; leaf].
  - eapply spc_more; [eapply spc_some; [apply spc_utf8|intro; leaf]|lia|lia].
  - eapply spc_more; [eapply spc_bind; [apply spc_peel|intro t; eapply spc_some; [apply spc_nt|intros []; leaf]]|lia|lia].
  - eapply spc_more; [eapply spc_bind; [apply spc_peel|intro t; eapply spc_some; [apply spc_nt|intros []; leaf]]|lia|lia].
  - eapply spc_more; [eapply spc_some; [apply spc_utf8|intro; leaf]|lia|lia].
  - eapply spc_more; [eapply spc_some; [apply spc_utf8|intro; leaf]|lia|lia].
Qed.
(** The constants after the one with index [index]. *)
Definition left_after (index : N) : N := plen p - (index + 1).
Lemma loop_steps fuel : forall index, match wi_next_loop p fuel index with
  | (Ok (o, index'), n) => copied_bytes [o] <= n /\ n + 10 * left_after index' <= 10 * left_after index + copied_bytes [o]
      /\ copied_bytes [o] + 3 * M * left_after index' <= 3 * M * left_after index
  | (_, n) => n <= (10 + 3 * M) * left_after index
  end.
Proof.
  induction fuel as [|fuel IH]; intro index; cbn [wi_next_loop]; [cbn [steps]; lia|]. unfold left_after in *. destruct (N.ltb_spec (index + 1) (plen p)) as [Hlt|Hge].
  - cbv zeta. assert (Hl : plen p - (index + 1) = plen p - (index + 1 + 1) + 1) by lia. rewrite Hl. remember (plen p - (index + 1 + 1)) as l eqn:Hll.
    destruct (nth_error p _) as [e|]; [|cbn [after steps]; nia]. pose proof (spc_item 0 e) as Hi.
    destruct (wi_item p e) as [[[it|]| | |] k]; cbn [mbind spc mok steps after] in *; try (rewrite <- Hll; nia); try nia.
    specialize (IH (index + 1)). rewrite <- Hll in IH. change (copied_bytes [None]) with 0 in Hi.
    destruct (wi_next_loop p fuel (index + 1)) as [[[o i]| | |] k']; cbn [after] in *; nia.
  - cbn [mok steps]. change (copied_bytes [None]) with 0. lia.
Qed.
Lemma run_steps n : forall index, match wi_run_from p n index with
  | (Ok items, k) => copied_bytes items <= k /\ k <= N.of_nat n + 10 * left_after index + copied_bytes items
      /\ copied_bytes items <= 3 * M * left_after index
  | (_, k) => k <= N.of_nat n + (10 + 3 * M) * left_after index
  end.
Proof.
  induction n as [|n IH]; intro index; cbn [wi_run_from]; [cbn [mok steps]; change (copied_bytes []) with 0; nia|].
  unfold wi_next. pose proof (loop_steps (S (length p)) index) as Hl. destruct (wi_next_loop p (S (length p)) index) as [[[o i]| | |] k]; cbn [after mbind snd fst]; try nia.
  specialize (IH i). destruct (wi_run_from p n i) as [[items| | |] k']; cbn [mok steps mbind]; try nia. rewrite copied_cons. lia.
Qed.
End Steps.

(** ** Exactly how many steps *)
(** The references followed and the texts copied for an item (constant_pool.rs:1137-1193): e.g. for a field, to its class, the name of the class,
    its name and type, and their two texts. *)
Definition lookups (it : cp_item) : N :=
  match it with
  | ItLiteral (LString _) => 2
  | ItLiteral (LStringBytes _) => 1
  | ItLiteral _ => 0
  | ItClassInfo _ | ItMethodType _ | ItModuleInfo _ | ItPackageInfo _ => 2
  | ItNameAndType _ => 4
  | ItDynamic _ | ItInvokeDynamic _ => 5
  | ItFieldRef _ | ItMethodRef _ | ItInterfaceMethodRef _ => 8
  | ItMethodHandle _ => 9
  end.
Definition lookups_of (items : list (option cp_item)) : N := fold_right (fun o n => match o with Some it => lookups it | None => 0 end + n) 0 items.
Section Exact.
Variable p : pool.
(** After [c] steps: how many when the result is there. *)
Definition ex {A} (c : N) (m : metered A) (f : A -> N) : Prop := match m with (Ok a, n) => c + n = f a | _ => True end.
Lemma ex_bind {A B} c (m : metered A) (g : A -> metered B) f h : ex c m f -> (forall a, ex (f a) (g a) h) -> ex c (mbind m g) h.
Proof.
  intros Hm Hg. destruct m as [[a| | |] n]; cbn [mbind ex] in *; auto. specialize (Hg a). destruct (g a) as [[b| | |] n']; cbn [ex] in *; auto. lia.
Qed.
Lemma ex_ok {A} c (a : A) (f : A -> N) : f a = c -> ex c (mok a) f.
Proof. intros <-. cbn. lia. Qed.
Lemma ex_peel c r : ex c (wi_peel p r) (fun _ => c + 1).
Proof. unfold wi_peel, steps, ex. destruct (peel p r); auto. Qed.
Lemma ex_text c e : ex c (wi_utf8 e) (fun t => c + 1 + owned_len t).
Proof. destruct e; cbn [wi_utf8 wi_clone steps ex]; auto. lia. Qed.
Lemma ex_utf8 c r : ex c (wi_peel_utf8 p r) (fun t => c + 2 + owned_len t).
Proof.
  unfold wi_peel_utf8. eapply ex_bind; [apply ex_peel|]. intro e. cbv beta. pose proof (ex_text (c + 1) e) as H. unfold ex in *. destruct (wi_utf8 e) as [[| | |] n]; auto. lia.
Qed.
Lemma ex_classinfo c e : ex c (wi_classinfo p e) (fun t => c + 2 + owned_len t).
Proof. destruct e; cbn [wi_classinfo]; try exact I. apply ex_utf8. Qed.
Lemma ex_nt c e : ex c (wi_name_and_type p e) (fun nt => c + 4 + nt_len nt).
Proof.
  destruct e; cbn [wi_name_and_type]; try exact I. eapply ex_bind; [apply ex_utf8|]. intro n. eapply ex_bind; [apply ex_utf8|]. intro d. apply ex_ok. unfold nt_len. cbn [nt_name nt_descriptor]. lia.
Qed.
Lemma ex_parts {A} c x y (g : cow -> name_and_type -> A) h : (forall s nt, h (g s nt) = c + 8 + owned_len s + nt_len nt) ->
  ex c (let~ ce := wi_peel p x in let~ cn := wi_classinfo p ce in let~ me := wi_peel p y in let~ nt := wi_name_and_type p me in mok (g cn nt)) h.
Proof.
  intro Hh. eapply ex_bind; [apply ex_peel|]. intro ce. eapply ex_bind; [apply ex_classinfo|]. intro cn. eapply ex_bind; [apply ex_peel|]. intro me.
  eapply ex_bind; [apply ex_nt|]. intro nt. apply ex_ok. cbv beta. rewrite Hh. lia.
Qed.
Lemma ex_member c x y : ex c (wi_member_ref p x y) (fun r => c + 8 + member_len r).
Proof. apply ex_parts. intros. unfold member_len. cbn. lia. Qed.
Lemma ex_handle c x y : ex c (wi_unwrap (wi_method_handle p x y)) (fun r => c + 9 + handle_len r).
Proof.
  assert (H : ex c (wi_method_handle p x y) (fun r => c + 9 + handle_len r)).
  { unfold wi_method_handle. eapply ex_bind; [apply ex_peel|]. intro e. cbv beta. destruct e; try exact I; apply ex_parts; intros; unfold handle_len; cbn; lia. }
  unfold ex, wi_unwrap in *. destruct (wi_method_handle p x y) as [[| | |] n]; cbn [unwrap]; auto.
Qed.
Ltac leaf := cbv beta; unfold member_len, handle_len, nt_len; cbn [lookups_of lookups copied_bytes flat_map app item_texts literal_texts member_texts handle_texts nt_texts fold_right
  mr_class_name mr_name_and_type mh_class_name mh_member_ref nt_name nt_descriptor dyn_name_and_type indy_name_and_type]; lia.
Lemma ex_item e : ex 0 (wi_item p e) (fun o => lookups_of [o] + copied_bytes [o]).
Proof.
  destruct e; cbn [wi_item]; try exact I; try (apply ex_ok; leaf);
    try (eapply ex_bind; [apply ex_utf8|intro; apply ex_ok; leaf]); try (eapply ex_bind; [apply ex_member|intros []; apply ex_ok; leaf]).
  - eapply ex_bind; [apply ex_peel|]. intro t. destruct t; cbn [wi_string_literal]; try exact I; [|cbn [mok steps mbind ex]; leaf].
    cbn [wi_clone steps mok mbind ex]. leaf.
  - eapply ex_bind; [apply ex_utf8|]. intro s. eapply ex_bind; [apply ex_utf8|]. intro d. apply ex_ok. leaf.
  - eapply ex_bind; [apply ex_handle|]. intros []. apply ex_ok. leaf.
  - eapply ex_bind; [apply ex_peel|]. intro t. eapply ex_bind; [apply ex_nt|]. intros []. apply ex_ok. leaf.
  - eapply ex_bind; [apply ex_peel|]. intro t. eapply ex_bind; [apply ex_nt|]. intros []. apply ex_ok. leaf.
Qed.
Lemma lookups_cons o l : lookups_of (o :: l) = lookups_of [o] + lookups_of l.
Proof. unfold lookups_of. cbn [fold_right]. lia. Qed.
Lemma loop_exact fuel : forall index, match wi_next_loop p fuel index with
  | (Ok (o, index'), n) => n = index' - index + lookups_of [o] + copied_bytes [o] /\ index <= index' /\ (o = None -> plen p <= index' + 1)
  | _ => True
  end.
Proof.
  induction fuel as [|fuel IH]; intro index; cbn [wi_next_loop]; [exact I|]. destruct (N.ltb_spec (index + 1) (plen p)) as [Hlt|Hge].
  - cbv zeta. destruct (nth_error p _) as [e|]; [|exact I]. pose proof (ex_item e) as Hi.
    destruct (wi_item p e) as [[[it|]| | |] k]; cbn [mbind ex mok steps after] in *; auto; [split; [lia|]; split; [lia|discriminate]|].
    change (lookups_of [None]) with 0 in Hi. change (copied_bytes [None]) with 0 in Hi.
    specialize (IH (index + 1)). destruct (wi_next_loop p fuel (index + 1)) as [[[o i]| | |] k']; cbn [after] in *; auto. destruct IH as (-> & Hle & Hnone). split; [lia|]. split; [lia|exact Hnone].
  - cbn [mok steps]. change (lookups_of [None]) with 0. change (copied_bytes [None]) with 0. split; [lia|]. split; [lia|]. intros _. lia.
Qed.
Lemma loop_last fuel : forall index, match wi_next_loop p fuel index with (Ok (_, index'), _) => index' = index \/ index' + 1 <= plen p | _ => True end.
Proof.
  induction fuel as [|fuel IH]; intro index; cbn [wi_next_loop]; [exact I|]. destruct (N.ltb_spec (index + 1) (plen p)) as [Hlt|Hge]; [|cbn [mok steps]; auto].
  cbv zeta. destruct (nth_error p _) as [e|]; [|exact I]. destruct (wi_item p e) as [[[it|]| | |] k]; cbn [mbind mok steps after] in *; auto; [right; lia|].
  specialize (IH (index + 1)). destruct (wi_next_loop p fuel (index + 1)) as [[[o i]| | |] k']; cbn [after] in *; auto. lia.
Qed.
Lemma run_exact n : forall index, match wi_run_from p n index with
  | (Ok items, k) => exists looked, k = N.of_nat n + looked + lookups_of items + copied_bytes items /\ (looked = 0 \/ index + looked + 1 <= plen p)
      /\ (In None items -> plen p <= index + looked + 1)
  | _ => True
  end.
Proof.
  induction n as [|n IH]; intro index; cbn [wi_run_from]; [cbn [mok steps]; change (copied_bytes []) with 0; exists 0; cbn; split; [reflexivity|]; split; [auto|intros []]|].
  unfold wi_next. pose proof (loop_exact (S (length p)) index) as Hl. pose proof (loop_last (S (length p)) index) as Hlast.
  destruct (wi_next_loop p (S (length p)) index) as [[[o i]| | |] k]; cbn [after mbind snd fst]; auto.
  specialize (IH i). destruct (wi_run_from p n i) as [[items| | |] k']; cbn [mok steps mbind]; auto. destruct IH as (looked & -> & Hlook & Hend). destruct Hl as (-> & Hle & Hnone).
  exists (i - index + looked). rewrite (copied_cons o items), (lookups_cons o items). split; [lia|]. split; [lia|]. intros [->|Hin]; [specialize (Hnone eq_refl); lia|specialize (Hend Hin); lia].
Qed.
End Exact.

(** ** The size of the pool *)
Lemma constant_bytes major c w : constant_lang major c w -> (3 * N.to_nat (width c) <= length w)%nat.
Proof.
  destruct c; intros (_ & u0 & v0 & -> & (Hu & _) & Hv); rewrite app_length; unfold width; cbn [is_wide];
    try (destruct Hv as (v1 & v2 & -> & (H1 & _) & (H2 & _)); rewrite app_length; lia); try (destruct Hv as (H1 & _); lia).
  destruct Hv as (v1 & v2 & -> & (H1 & _) & _). rewrite app_length. lia.
Qed.
Lemma constants_bytes major cs ws : Forall2 (constant_lang major) cs ws -> 3 * fold_right (fun c n => width c + n) 0 cs <= blen (concat ws).
Proof.
  unfold blen. induction 1 as [|c w cs ws H _ IH]; [reflexivity|]. cbn [fold_right concat]. rewrite app_length. apply constant_bytes in H. lia.
Qed.
Lemma pool_bytes E opts bs c : sane E bs -> M_Class.parse_class_with_options E opts bs = Ok c -> 3 * M_ConstantPool.plen (M_Class.constant_pool c) + 7 <= blen bs.
Proof.
  intros Hs H. destruct (constants_exist _ _ _ _ Hs H) as (cs & Hcs). destruct (accepted_pool _ _ _ _ _ Hs H Hcs) as (-> & _). rewrite slots_len, slots_length.
  destruct Hcs as (mi & ma & count & ws & rest & (m & v & n & (Hm & _) & Hv & (Hn & _) & -> & Hws) & _). apply constants_bytes in Hws. unfold index_of. rewrite firstn_all.
  destruct Hv as (v1 & v2 & -> & (H1 & _) & (H2 & _)). unfold blen in *. rewrite !app_length. lia.
Qed.

(** ** C69 *)
(** The longest text that has to be decoded: a bound on the bytes of the texts of the file that are not UTF-8. *)
Definition decoded_texts_below (bs : list byte) (L : N) : Prop := forall i raw, constant_text bs i raw -> from_utf8 raw = None -> blen raw <= L.
Lemma texts_below bs : decoded_texts_below bs 65535.
Proof. intros i raw (_ & count & ix & k & _ & _ & _ & _ & _ & H) _. apply number_at_small in H. change (256 ^ N.of_nat 2) with 65536 in H. lia. Qed.
(** For every accepted file and every number [n] of calls of [next], whether they all succeed or one panics: the metered iterator has the
    outcome of the iterator; it takes at least a step for each byte that is copied into the items, and at most one for every call, four for
    every byte of the file and one for each byte copied; the bytes copied are at most [L] for every byte of the file. *)
Theorem C69_iteration_steps E opts bs c n L : sane E bs -> cesu8 E = from_java_cesu8 -> parse_class_with_options E opts bs = Ok c ->
  decoded_texts_below bs L ->
  let (r, k) := wi_run c n in
  r = constantpool_iter_run c n
  /\ match r with
     | Ok items => copied_bytes items <= k /\ k <= N.of_nat n + 4 * blen bs + copied_bytes items /\ copied_bytes items <= L * blen bs
     | _ => k <= N.of_nat n + (4 + L) * blen bs
     end.
Proof.
  intros Hs HE H HL. pose proof (fi_run (constant_pool c) n 0) as Hf. unfold forgets in Hf. fold (wi_run c n) in Hf. fold (constantpool_iter_run c n) in Hf.
  assert (HM : forall t, In t (flat_map entry_texts (constant_pool c)) -> owned_len t <= L).
  { pose proof (pool_uncopied _ _ _ _ Hs HE H) as Hp. rewrite Forall_forall in Hp. intros t Ht. destruct (Hp t Ht) as (i & raw & Hraw & Hfrom).
    destruct t as [s a|s]; cbn [owned_len uncopied_from] in *; [lia|]. destruct Hfrom as (Hn & b & a & Hd). rewrite HE in Hd. apply decoded_len in Hd. rewrite !str_len_app in Hd.
    specialize (HL _ _ Hraw Hn). lia. }
  assert (Hlen : 3 * plen (constant_pool c) + 7 <= blen bs).
  { rewrite <- plain_len. pose proof (C54_same E opts bs Hs HE) as Hsame. rewrite H in Hsame. apply (pool_bytes E opts bs (plain_class c) Hs). auto. }
  pose proof (run_steps (constant_pool c) L HM n 0) as Hr. fold (wi_run c n) in Hr. unfold left_after in Hr. destruct (wi_run c n) as [r k]. cbn [fst] in Hf. split; [exact Hf|]. clear Hf.
  assert (H3 : (10 + 3 * L) * (plen (constant_pool c) - (0 + 1)) <= (4 + L) * blen bs) by nia.
  destruct r as [items| | |]; try lia. split; [tauto|]. split; [lia|]. destruct Hr as (_ & _ & Hr). nia.
Qed.
(** The count is exact: a step for every call, one for every index of a constant looked at - all of them when the iteration has come to its end -,
    one for every reference followed and text copied ([lookups]), and one for every byte copied. *)
Theorem C69_exact c n items k : wi_run c n = (Ok items, k) ->
  exists looked, k = N.of_nat n + looked + lookups_of items + copied_bytes items /\ looked <= plen (constant_pool c) - 1
    /\ (In None items -> looked = plen (constant_pool c) - 1).
Proof.
  intro H. pose proof (run_exact (constant_pool c) n 0) as Hr. unfold wi_run in H. rewrite H in Hr. destruct Hr as (looked & -> & Hl & He). exists looked. split; [reflexivity|].
  split; [lia|]. intro Hin. specialize (He Hin). lia.
Qed.
(** Whatever the texts: linear in the file and the calls. *)
Corollary C69_linear E opts bs c n : sane E bs -> cesu8 E = from_java_cesu8 -> parse_class_with_options E opts bs = Ok c ->
  snd (wi_run c n) <= N.of_nat n + 2 ^ 17 * blen bs.
Proof.
  intros Hs HE H. pose proof (C69_iteration_steps E opts bs c n 65535 Hs HE H (texts_below bs)) as Hc. change (2 ^ 17) with 131072. destruct (wi_run c n) as [r k]. cbn [snd]. destruct Hc as (_ & Hc).
  destruct r; lia.
Qed.
(** If all the texts of the file are UTF-8: nothing is copied, and the steps are at most four for every byte of the file and one for every call. *)
Corollary C69_no_copies E opts bs c n : sane E bs -> cesu8 E = from_java_cesu8 -> parse_class_with_options E opts bs = Ok c ->
  (forall i raw, constant_text bs i raw -> from_utf8 raw <> None) ->
  snd (wi_run c n) <= N.of_nat n + 4 * blen bs /\ forall items, constantpool_iter_run c n = Ok items -> copied_bytes items = 0.
Proof.
  intros Hs HE H Hu. assert (HL : decoded_texts_below bs 0) by (intros i raw Hraw Hn; now apply Hu in Hraw).
  pose proof (C69_iteration_steps E opts bs c n 0 Hs HE H HL) as Hc. destruct (wi_run c n) as [r k]. cbn [snd]. destruct Hc as (-> & Hc). split; [destruct (constantpool_iter_run c n); lia|].
  intros items Hi. rewrite Hi in Hc. lia.
Qed.
(** The bytes are really copied, at every constant: an accepted file of [32 + m + 3 n] bytes whose [n + 1] items take at least [(n + 1) (m + 1)]
    steps.  They are Class constants that name the same text, which is NUL and [m] times "a" (NUL is not written as in UTF-8). *)
Theorem C69_copies_reached E opts n m : n < 65533 -> m < 65533 -> let bs := choir (N.to_nat n) (N.to_nat m) in
  ample E bs -> cesu8 E = from_java_cesu8 ->
  blen bs = 32 + m + 3 * n
  /\ exists c items k, parse_class_with_options E opts bs = Ok c /\ wi_run c (S (N.to_nat n)) = (Ok items, k) /\ length items = S (N.to_nat n)
     /\ copied_bytes items = (n + 1) * (m + 1) /\ (n + 1) * (m + 1) <= k.
Proof.
  intros Hn Hm bs Ha HE. split; [unfold bs; rewrite choir_length; lia|].
  destruct (choir_items (N.to_nat n) (N.to_nat m) ltac:(lia) ltac:(lia) E opts Ha HE) as (c & Hc & Hi).
  pose proof (C69_iteration_steps E opts bs c (S (N.to_nat n)) 65535 (ample_sane _ _ Ha) HE Hc (texts_below bs)) as Hw.
  exists c. destruct (wi_run c (S (N.to_nat n))) as [r k]. destruct Hw as (-> & Hw). rewrite Hi in *. eexists _, k. split; [exact Hc|]. split; [reflexivity|]. split; [apply repeat_length|].
  set (o := Some _) in *. assert (Ho : copied_bytes [o] = m + 1).
  { subst o. cbn [copied_bytes flat_map item_texts app fold_right owned_len]. rewrite (nul_len 0) by lia. lia. }
  assert (Hcopies : forall j, copied_bytes (repeat o j) = N.of_nat j * (m + 1)).
  { induction j as [|j IH]; [reflexivity|]. cbn [repeat]. rewrite copied_cons, IH, Ho. lia. }
  rewrite Hcopies in *. lia.
Qed.

(** ** Examples *)
(** A check that all texts of the constants are UTF-8, from the constant with index [ix] at byte [i] on. *)
Definition part (bs : list byte) (i n : N) : list byte := firstn (N.to_nat n) (skipn (N.to_nat i) bs).
Definition following (bs : list byte) (at_ : N * N) : N * N :=
  let (ix, i) := at_ in let tag := be (part bs i 1) in
  ((ix + (if (tag =? 5) || (tag =? 6) then 2 else 1)) mod 65536, i + 1 + constant_size tag (if tag =? 1 then be (part bs (i + 1) 2) else 0)).
Definition text_ok (bs : list byte) (at_ : N * N) : bool :=
  let i := snd at_ in
  if be (part bs i 1) =? 1 then match from_utf8 (part bs (i + 3) (be (part bs (i + 1) 2))) with Some _ => true | None => false end else true.
Fixpoint texts_ok (fuel : nat) (bs : list byte) (count : N) (at_ : N * N) : bool :=
  match fuel with
  | O => false
  | S fuel' => if fst at_ <? count then text_ok bs at_ && texts_ok fuel' bs count (following bs at_) else true
  end.
Lemma part_lies bs i raw : lies_at bs i raw -> part bs i (blen raw) = raw.
Proof.
  intros (pre & post & -> & <-). unfold part, blen. rewrite !Nat2N.id, skipn_app, skipn_all, Nat.sub_diag. cbn [app skipn]. rewrite firstn_app, Nat.sub_diag, firstn_all, firstn_O, app_nil_r. reflexivity.
Qed.
Lemma part_number bs i n v : number_at bs i n v -> be (part bs i (N.of_nat n)) = v.
Proof. intros (w & Hl & Hn & <-). f_equal. rewrite <- Hn. now apply part_lies. Qed.
Lemma following_ok bs ix i tag len : number_at bs i 1 tag -> (tag = 1 -> number_at bs (i + 1) 2 len) ->
  following bs (ix, i) = ((ix + (if (tag =? 5) || (tag =? 6) then 2 else 1)) mod 65536, i + 1 + constant_size tag len).
Proof.
  intros Ht Hl. unfold following. apply part_number in Ht. change (N.of_nat 1) with 1 in Ht. rewrite Ht. f_equal. f_equal. destruct (N.eqb_spec tag 1) as [->|Hne].
  - specialize (Hl eq_refl). apply part_number in Hl. change (N.of_nat 2) with 2 in Hl. rewrite Hl. reflexivity.
  - unfold constant_size. destruct tag as [|q]; [reflexivity|]. repeat (destruct q as [q|q|]; try reflexivity). now destruct Hne.
Qed.
Lemma begins_ok bs count ix i : constant_begins bs count ix i -> ix < count -> forall fuel, texts_ok fuel bs count (1, 10) = true ->
  exists fuel', texts_ok fuel' bs count (ix, i) = true.
Proof.
  induction 1 as [|ix i tag len _ IH Hlt Htag Hlen]; intros Hix fuel Hf; [eauto|]. destruct (IH Hlt fuel Hf) as (fuel' & Hf'). destruct fuel' as [|fuel']; [discriminate|].
  cbn [texts_ok fst] in Hf'. destruct (N.ltb_spec ix count); [|lia]. apply andb_prop in Hf' as (_ & Hf'). rewrite (following_ok bs ix i tag len Htag Hlen) in Hf'. eauto.
Qed.
Lemma texts_ok_sound bs count fuel : number_at bs 8 2 count -> texts_ok fuel bs count (1, 10) = true -> forall i raw, constant_text bs i raw -> from_utf8 raw <> None.
Proof.
  intros Hc Hf i raw (Hl & count' & ix & k & Hc' & Hb & Hlt & -> & Ht & Hlen). rewrite (number_unique _ _ _ _ _ Hc' Hc) in *. destruct (begins_ok bs count ix k Hb Hlt fuel Hf) as (fuel' & Hf').
  destruct fuel' as [|fuel']; [discriminate|]. cbn [texts_ok fst] in Hf'. destruct (N.ltb_spec ix count); [|lia]. apply andb_prop in Hf' as (Hok & _). unfold text_ok in Hok. cbn [snd] in Hok.
  apply part_number in Ht. apply part_number in Hlen. change (N.of_nat 1) with 1 in Ht. change (N.of_nat 2) with 2 in Hlen. rewrite Ht, Hlen, (part_lies _ _ _ Hl) in Hok. cbn [N.eqb Pos.eqb] in Hok.
  destruct (from_utf8 raw); [discriminate|]. intro. discriminate.
Qed.
Definition sample_z : class_file := Eval vm_compute in match parse_class_with_options debug64 true sample with Ok c => c | _ => mk_class 0 0 [] 0 (Owned []) None [] [] [] [] end.
(** The hypotheses are met, and the numbers are those of files: the class of 813 bytes has 20 items, whose 60 calls take 196 steps, and all of its
    texts are UTF-8, so that nothing is copied; the 31 items of a file of 162 bytes take 1396 steps, 1271 of them for copies. *)
Example C69_meets_sample : sane debug64 sample /\ cesu8 debug64 = from_java_cesu8 /\ parse_class_with_options debug64 true sample = Ok sample_z
  /\ decoded_texts_below sample 0 /\ (forall i raw, constant_text sample i raw -> from_utf8 raw <> None)
  /\ blen sample = 813 /\ snd (wi_run sample_z 60) = 196.
Proof.
  assert (Hu : forall i raw, constant_text sample i raw -> from_utf8 raw <> None).
  { apply (texts_ok_sound sample (be (part sample 8 2)) 100); [|vm_compute; reflexivity].
    exists (part sample 8 2). split; [|split; vm_compute; reflexivity]. exists (firstn 8 sample), (skipn 10 sample). split; vm_compute; reflexivity. }
  split; [exact sample_sane|]. split; [reflexivity|]. split; [vm_compute; reflexivity|]. split; [intros i raw Hraw Hn; now apply Hu in Hraw|]. split; [exact Hu|]. split; vm_compute; reflexivity.
Qed.
Example C69_meets_copies : ample debug64 (choir 30 40) /\ exists c items, parse_class_with_options debug64 true (choir 30 40) = Ok c /\ wi_run c 31 = (Ok items, 1396)
  /\ copied_bytes items = 1271 /\ blen (choir 30 40) = 162.
Proof.
  split; [apply ampleb_ample; vm_compute; reflexivity|]. eexists _, _. split; [vm_compute; reflexivity|]. split; [vm_compute; reflexivity|]. split; vm_compute; reflexivity.
Qed.
