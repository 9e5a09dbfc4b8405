(** * C71: the contexts of an error *)
From Verif Require Import Base Data M_Names M_Descriptors M_ConstantPool M_Bytecode M_Attributes M_Class M_Cesu8 S_Env Sample P_Reads P_Contexts3 P_Early T_Early.
From Coq Require Import ZifyBool ZifyNat ZifyN.

(** An error has at most one context for three bytes of the file. *)
Theorem C71_contexts_bounded : forall E opts bs e, sane E bs -> parse_class_with_options E opts bs = Err e ->
  (3 * length (contexts e) <= length bs)%nat.
Proof.
  intros E opts bs e Hs H. unfold parse_class_with_options in H. pose proof (p_class E opts bs 0 Hs ltac:(lia)) as Hp.
  destruct (class_parser E opts bs 0) as [[a i]|e'| |]; cbn [obind] in H; try discriminate. assert (e' = e) as -> by congruence.
  unfold blen in Hp. lia.
Qed.

(** Arrays of one element inside each other, the innermost with an unknown tag *)
Definition arrays (n : nat) : list byte := concat (repeat [x5b; x00; x01] n) ++ [x00].
Definition arrays_header : list byte := Eval vm_compute in unhex
  "cafebabe000000340006010001410700010100106a6176612f6c616e672f4f626a656374070003010011416e6e6f746174696f6e44656661756c740021000200040000000000000001000500000000".
(** The class file with the arrays in an attribute AnnotationDefault, whose length is written
    as 0 and would be checked after reading the arrays *)
Definition arrays_file (n : nat) : list byte := arrays_header ++ arrays n.
(** A 64-bit machine with a stack of [n + 3] levels. *)
Definition arrays_machine (n : nat) : env :=
  {| overflow_checks := true; usize_max := 2 ^ 64 - 1; alloc_limit := 2 ^ 63; stack := S (S (S n));
     cesu8 := from_java_cesu8; cesu8_err := lit "invalid CESU-8" |}.
Definition arrays_error (n : nat) : perr :=
  mk_perr (lit "Unrecognized discriminant " ++ [0])
    (repeat (lit "array index 0") n ++ [lit "AnnotationDefault attribute 0"; lit "class"]).

Lemma arrays_length n : length (arrays n) = (3 * n + 1)%nat.
Proof. unfold arrays. rewrite app_length. induction n as [|n IH]; [reflexivity|]. cbn [repeat concat app length] in *. lia. Qed.
Lemma arrays_file_length n : blen (arrays_file n) = 3 * N.of_nat n + 80.
Proof. unfold blen, arrays_file. rewrite app_length, arrays_length. change (length arrays_header) with 79%nat. lia. Qed.
Lemma repeat_end {A} (a : A) n : repeat a n ++ [a] = a :: repeat a n.
Proof. induction n as [|n IH]; cbn [repeat app]; [reflexivity|]. rewrite IH. reflexivity. Qed.

Lemma byte_here u b t : byte_at (u ++ b :: t) (blen u) = Ok (Byte.to_N b).
Proof. unfold byte_at, blen. rewrite Nat2N.id, nth_error_app2 by lia. rewrite Nat.sub_diag. reflexivity. Qed.
Lemma u1_here u b t : read_u1 (u ++ b :: t) (blen u) = Ok (Byte.to_N b, blen u + 1).
Proof.
  unfold read_u1. rewrite blen_app. replace (blen u + blen (b :: t) <? blen u + 1) with false by (unfold blen; cbn [length]; lia).
  rewrite byte_here. reflexivity.
Qed.
Lemma u2_here u a b t : read_u2 (u ++ a :: b :: t) (blen u) = Ok (N.lor (N.shiftl (Byte.to_N a) 8) (Byte.to_N b), blen u + 2).
Proof.
  unfold read_u2. rewrite blen_app. replace (blen u + blen (a :: b :: t) <? blen u + 2) with false by (unfold blen; cbn [length]; lia).
  rewrite N.add_0_r, byte_here. replace (u ++ a :: b :: t) with ((u ++ [a]) ++ b :: t) by (rewrite <- app_assoc; reflexivity).
  replace (blen u + 1) with (blen (u ++ [a])) by (rewrite blen_app; reflexivity). rewrite byte_here. reflexivity.
Qed.
Lemma arrays_read p k : forall n u, read_element_value p (S (n + k)) (u ++ arrays n) (blen u)
  = Err (mk_perr (lit "Unrecognized discriminant " ++ [0]) (repeat (lit "array index 0") n)).
Proof.
  induction n as [|n IH]; intro u.
  - cbn [Nat.add]. cbn [read_element_value]. unfold read_element_value_with, bind at 1. change (arrays 0) with [x00]. rewrite u1_here. reflexivity.
  - change (S (S n + k)) with (S (S (n + k))). remember (S (n + k)) as m eqn:Em. cbn [read_element_value]. unfold read_element_value_with, bind at 1.
    change (arrays (S n)) with (x5b :: x00 :: x01 :: arrays n). rewrite u1_here. change (Byte.to_N x5b) with 91.
    match goal with |- (if ?b then _ else _) _ _ = _ => change b with false end. cbv iota.
    repeat match goal with |- (if (91 =? ch "[") then _ else _) _ _ = _ => fail 1 | |- (if ?b then _ else _) _ _ = _ => change b with false; cbv iota end.
    change (91 =? ch "[") with true. cbv iota. unfold bind at 1.
    replace (u ++ x5b :: x00 :: x01 :: arrays n) with ((u ++ [x5b]) ++ x00 :: x01 :: arrays n) by (rewrite <- app_assoc; reflexivity).
    replace (blen u + 1) with (blen (u ++ [x5b])) by (rewrite blen_app; reflexivity). rewrite u2_here.
    change (N.lor (N.shiftl (Byte.to_N x00) 8) (Byte.to_N x01)) with 1. unfold bind at 1, for_n. change (N.to_nat 1) with 1%nat. cbn [for_from]. unfold bind at 1, pctx.
    replace ((u ++ [x5b]) ++ x00 :: x01 :: arrays n) with (((u ++ [x5b]) ++ [x00; x01]) ++ arrays n) by (rewrite <- !app_assoc; reflexivity).
    replace (blen (u ++ [x5b]) + 2) with (blen ((u ++ [x5b]) ++ [x00; x01])) by (rewrite (blen_app (u ++ [x5b])); reflexivity).
    rewrite IH. cbn [ctx]. unfold with_context. cbn [msg contexts]. change (lit "array index " ++ show_N 0) with (lit "array index 0"). rewrite repeat_end. reflexivity.
Qed.

Lemma carry {A B} (m : parser A) (f : A -> parser B) bs t ix a j :
  same m bs t ix -> m bs ix = Ok (a, j) -> bind m f (bs ++ t) ix = f a (bs ++ t) j.
Proof. intros [(e & He & _)|H] Hm; [congruence|]. unfold bind. rewrite H, Hm. reflexivity. Qed.
Ltac carry := match goal with |- bind ?m ?f (?h ++ ?t) ?ix = _ =>
  let r := eval vm_compute in (m h ix) in match r with Ok (?a, ?j) => rewrite (carry m f h t ix a j); [cbv zeta| |vm_compute; reflexivity] end end.
Lemma arrays_parsed n : parse_class (arrays_machine n) (arrays_file n) = Err (arrays_error n).
Proof.
  unfold parse_class, parse_class_with_options, arrays_file.
  assert (H : class_parser (arrays_machine n) default_options (arrays_header ++ arrays n) 0 = Err (arrays_error n)); [|rewrite H; reflexivity].
  unfold class_parser.
  carry; [|apply st_u4]. carry; [|apply st_guard]. carry; [|apply st_u2]. carry; [|apply st_u2]. carry; [|apply same_pool; vm_compute; discriminate].
  carry; [|apply st_u2]. carry; [|match goal with |- same ?m _ _ _ => assert (Hst : stable m); [unfold check_module_flags; st|apply Hst] end].
  carry; [|apply st_this]. carry; [|apply st_super]. carry; [|apply st_interfaces]. carry; [|apply st_fields]. carry; [|apply st_methods].
  unfold bind at 1, pctx. change (stack (arrays_machine n)) with (S (S (S n))). remember (S (S n)) as k eqn:Ek. cbn [read_attributes].
  match goal with |- context [bind read_u2 ?f ?b ?i] => assert (Ha : bind read_u2 f b i = Err (mk_perr (lit "Unrecognized discriminant " ++ [0])
     (repeat (lit "array index 0") n ++ [lit "AnnotationDefault attribute 0"]))) end.
  { carry; [|apply st_u2]. unfold for_n. match goal with |- context [N.to_nat ?x] => change (N.to_nat x) with 1%nat end. cbn [for_from]. unfold bind at 1.
    match goal with |- context [read_attribute ?E ?p ?o ?r ?s ?i ?b ?j] => assert (Hb : read_attribute E p o r s i b j = Err (mk_perr (lit "Unrecognized discriminant " ++ [0])
     (repeat (lit "array index 0") n ++ [lit "AnnotationDefault attribute 0"]))) end; [|rewrite Hb; reflexivity].
    unfold read_attribute. carry; [|apply st_pctx, st_cp_utf8]. carry; [|apply st_u4].
    unfold bind at 1 2 3. unfold get_bytes, get_ix, lift. match goal with |- context [usize_result ?E ?x] => change (usize_result E x) with (@Ok N 79) end.
    rewrite blen_app. change (blen arrays_header) with 79. replace (79 + blen (arrays n) <? 79) with false by lia.
    match goal with |- bind (read_attr_data ?E ?p ?o ?r ?s ?nm ?i ?l) _ _ _ = _ =>
      assert (Hd : read_attr_data E p o r s nm i l = bind (pctx (lit "AnnotationDefault attribute 0") (read_element_value p s)) (fun v => ret (AAnnotationDefault v)))
        by reflexivity; rewrite Hd end.
    unfold bind at 1 2. unfold pctx. rewrite Ek. change 79 with (blen arrays_header).
    match goal with |- context [read_element_value ?p (S (S n)) ?b ?x] => pose proof (arrays_read p 1 n arrays_header) as Hr; replace (S (n + 1))%nat with (S (S n)) in Hr by lia; rewrite Hr end.
    reflexivity. }
  rewrite Ha. cbn [ctx]. unfold with_context, arrays_error. cbn [msg contexts]. rewrite <- app_assoc. reflexivity.
Qed.
(** The rate of one context for three bytes is reached by files of every length: no constant bounds the number of contexts. *)
Theorem C71_rate : forall n, exists e, parse_class (arrays_machine n) (arrays_file n) = Err e /\ length (contexts e) = (n + 2)%nat
  /\ length (arrays_file n) = (3 * length (contexts e) + 74)%nat /\ (3 * N.of_nat n + 80 < 2 ^ 63 -> sane (arrays_machine n) (arrays_file n)).
Proof.
  intro n. exists (arrays_error n). split; [apply arrays_parsed|].
  assert (Hc : length (contexts (arrays_error n)) = (n + 2)%nat) by (unfold arrays_error; cbn [contexts]; rewrite app_length, repeat_length; reflexivity).
  split; [exact Hc|]. pose proof (arrays_file_length n) as Hl. split; [rewrite Hc; unfold blen in Hl; lia|].
  intro Hn. constructor; try rewrite Hl.
  - vm_compute. discriminate.
  - change (usize_max (arrays_machine n) / 2) with (2 ^ 63 - 1). lia.
  - change (alloc_limit (arrays_machine n)) with (2 ^ 63). lia.
  - change (stack (arrays_machine n)) with (S (S (S n))). lia.
Qed.
(** [C71_contexts_bounded] is met by them, e.g. with 1002 contexts in 3080 bytes. *)
Example C71_meets : exists e, parse_class (arrays_machine (N.to_nat 1000)) (arrays_file (N.to_nat 1000)) = Err e /\ sane (arrays_machine (N.to_nat 1000)) (arrays_file (N.to_nat 1000)).
Proof. destruct (C71_rate (N.to_nat 1000)) as (e & H & _ & _ & Hs). exists e. split; [exact H|]. apply Hs. rewrite N2Nat.id. reflexivity. Qed.
