(** * C66: files that follow chapter 4 of the JVM specification are accepted, but for four deviations. *)
From Verif Require Import Base M_Names M_Descriptors M_ConstantPool M_Bytecode M_Attributes M_Class M_Cesu8
  S_Lang S_Names S_Format S_Pool S_Env P_Class3 T_Class Sample T_Members S_Utf T_Jvms Data.
From Verif Require Import S_Conforming P_Conforming P_Conforming2.

Theorem C66_conforming_accepted_partial E opts bs : ample E bs -> cesu8 E = from_java_cesu8 ->
  conforming (fun _ => False) bs -> exists c, parse_class_with_options E opts bs = Ok c.
Proof.
  intros Ha HE H. destruct (conforming_class opts bs H (wrapping E)) as (c & Hc). exists c. apply C01_parse_iff_format; auto. rewrite HE. exact Hc.
Qed.

(** ** Tactics for showing that a given file conforms *)
Ltac take n := lazymatch goal with |- ?L ?w =>
  let a := eval vm_compute in (firstn n w) in let b := eval vm_compute in (skipn n w) in exists a, b; split; [vm_compute; reflexivity|split] end.
Ltac number := split; vm_compute; reflexivity.
Ltac scalars := repeat first [apply Forall_nil|apply Forall_cons; [left; left; vm_compute; reflexivity|]].
Ltac text := eexists; split; [vm_compute; reflexivity|split; [scalars|vm_compute; reflexivity]].
Ltac name := split; [discriminate|let c := fresh in let H := fresh in let K := fresh in intros c H K; vm_compute in H, K; intuition (subst; discriminate)].
Ltac binary s := exists [s]; split; [discriminate|]; split; [constructor; [name|constructor]|reflexivity].
Ltac idx i := exists i; split; [number|].
Ltac foreach_row := let r := fresh "r" in let Hr := fresh "Hr" in let Hn := fresh "Hn" in
  intros r Hr Hn _; unfold rows in Hr; cbv zeta in Hr; cbn [In] in Hr;
  repeat (destruct Hr as [<-|Hr]; [try (exfalso; cbn [r_name fst] in Hn; vm_compute in Hn; discriminate Hn)|]); [..|destruct Hr];
  clear Hn; cbn [r_contents snd].
(** An attribute whose name is at index [i] and whose contents have [n] bytes. *)
Ltac attribute_of i n := take 2%nat; [idx i; text|]; take 4%nat; [number|]; take n; [reflexivity|]; split; [reflexivity|].

Definition example : list byte := Eval vm_compute in unhex "cafebabe0000003d0017010001410700010100106a6176612f6c616e672f4f626a656374070003010001660100014901000d436f6e7374616e7456616c756503000000070100016d01000428492956010004436f646501000f4c696e654e756d6265725461626c6501000a536f7572636546696c65010006412e6a6176610c0009000a0a0002000f0f060010120000000f010010426f6f7473747261704d6574686f647301001952756e74696d6556697369626c65416e6e6f746174696f6e730100034c413b01000d537461636b4d61705461626c650021000200040000000100180005000600010007000000020008000100090009000a0001000b0000002d000100010000000c1aba001200001a99000400b100000002000c0000000600010000000300160000000300010b0003000d00000002000e001300000008000100110001000800140000000e00010015000100055b0001490008".
Definition example_constants : list constant := [CUtf8 [x41]; CClass 1; CUtf8 [x6a; x61; x76; x61; x2f; x6c; x61; x6e; x67; x2f; x4f; x62; x6a; x65; x63; x74]; CClass 3; CUtf8 [x66]; CUtf8 [x49]; CUtf8 [x43; x6f; x6e; x73; x74; x61; x6e; x74; x56; x61; x6c; x75; x65]; CInteger 7; CUtf8 [x6d]; CUtf8 [x28; x49; x29; x56]; CUtf8 [x43; x6f; x64; x65]; CUtf8 [x4c; x69; x6e; x65; x4e; x75; x6d; x62; x65; x72; x54; x61; x62; x6c; x65]; CUtf8 [x53; x6f; x75; x72; x63; x65; x46; x69; x6c; x65]; CUtf8 [x41; x2e; x6a; x61; x76; x61]; CNameAndType 9 10; CMethodref 2 15; CMethodHandle InvokeStatic 16; CInvokeDynamic 0 15; CUtf8 [x42; x6f; x6f; x74; x73; x74; x72; x61; x70; x4d; x65; x74; x68; x6f; x64; x73]; CUtf8 [x52; x75; x6e; x74; x69; x6d; x65; x56; x69; x73; x69; x62; x6c; x65; x41; x6e; x6e; x6f; x74; x61; x74; x69; x6f; x6e; x73]; CUtf8 [x4c; x41; x3b]; CUtf8 [x53; x74; x61; x63; x6b; x4d; x61; x70; x54; x61; x62; x6c; x65]].
Definition example_attributes : list (str * list byte) :=
  Eval vm_compute in [(lit "SourceFile", unhex "000e"); (lit "BootstrapMethods", unhex "0001001100010008"); (lit "RuntimeVisibleAnnotations", unhex "00010015000100055b0001490008")].

Lemma example_int : field_ok (fun _ => False) (lit "I").
Proof. exists (mk_fd 0 FInteger). split; [reflexivity|]. split; [cbn; lia|]. intros n Hn. discriminate Hn. Qed.
Lemma example_method : exists md, lit "(I)V" = method_text md /\ method_type_ok (fun _ => False) md /\ return_type md = RVoid.
Proof.
  exists (mk_md [mk_fd 0 FInteger] RVoid). split; [reflexivity|]. split; [|reflexivity]. split; [|intros n Hn; discriminate Hn]. constructor; [|constructor].
  split; [cbn; lia|]. intros n Hn. discriminate Hn.
Qed.
Example example_ok : Forall (constant_ok (fun _ => False) 61 example_constants) example_constants.
Proof.
  assert (Hm : described_by (fun _ => False) example_constants (method_ok (fun _ => False)) 15).
  { exists 9, 10. split; [vm_compute; reflexivity|]. exists (lit "(I)V"). split; [text|]. destruct example_method as (md & H1 & H2 & _). exists md. auto. }
  repeat (apply Forall_cons; [first [exact I|exact Hm|idtac]|]); [..|apply Forall_nil]; cbn [constant_ok].
  - exists (lit "A"). split; [text|]. left. binary (lit "A").
  - exists (lit "java/lang/Object"). split; [text|]. left. exists [lit "java"; lit "lang"; lit "Object"]. split; [discriminate|].
    split; [repeat (constructor; [name|]); constructor|reflexivity].
  - split; [exists (lit "m"); split; [text|name]|]. eexists. vm_compute. reflexivity.
  - split; [eexists; vm_compute; reflexivity|exact Hm].
  - exists 2, 15. left. vm_compute. reflexivity.
Qed.
(** The bytes of one constant. *)
Definition constant_size (c : constant) : nat :=
  match c with
  | CUtf8 raw => 3 + length raw
  | CInteger _ | CFloat _ | CFieldref _ _ | CMethodref _ _ | CInterfaceMethodref _ _ | CNameAndType _ _ | CDynamic _ _ | CInvokeDynamic _ _ => 5
  | CLong _ | CDouble _ => 9
  | CMethodHandle _ _ => 4
  | _ => 3
  end.
Ltac signed := split; [reflexivity|split; [lia|vm_compute; reflexivity]].
Ltac constants := lazymatch goal with
  | |- many _ nil _ => reflexivity
  | |- many (constant_lang ?m) (?c :: ?cs) ?w => change ((constant_lang m c +++ many (constant_lang m) cs) w);
      let n := eval vm_compute in (constant_size c) in take n; [split; [lia|]; take 1%nat; [number|]; cbn [length];
        first [number|signed|take 2%nat; [number|first [number|reflexivity]]|take 1%nat; [number|number]]|constants]
  end.
Example example_conforms : conforming (fun _ => False) example.
Proof.
  exists 4%nat, 0, 61, example_constants, 0x21, 4, [], [(lit "f", lit "I")], [(lit "m", lit "(I)V")], example_attributes.
  split; [|split; [exact example_ok|split; [|split; [constructor|split; [|split; [|split]]]]]].
  - take 4%nat; [number|]. take 2%nat; [number|]. take 2%nat; [number|]. take 2%nat; [number|].
    let n := eval vm_compute in (fold_right (fun c n => constant_size c + n)%nat 0%nat example_constants) in take n; [unfold example_constants; constants|].
    take 2%nat; [number|]. take 2%nat.
    { idx 2. exists 1, (lit "A"). split; [vm_compute; reflexivity|]. split; [text|]. split; [binary (lit "A")|right].
      intros c H K. vm_compute in H, K. intuition (subst; discriminate). }
    take 2%nat; [number|]. take 2%nat; [exists [x00; x00], []; split; [reflexivity|split; [number|reflexivity]]|].
    take 18%nat.
    { take 2%nat; [number|]. take 16%nat; [|reflexivity]. take 2%nat; [reflexivity|]. take 2%nat; [idx 5; text|]. take 0%nat; [split; [reflexivity|name]|].
      take 2%nat; [idx 6; text|]. take 0%nat; [split; [reflexivity|exact example_int]|]. exists [(lit "ConstantValue", [x00; x08])].
      take 2%nat; [number|]. take 8%nat; [|reflexivity]. attribute_of 7 2%nat. foreach_row. idx 8. eexists. split; [vm_compute; reflexivity|]. left. eexists. reflexivity. }
    take 61%nat.
    { take 2%nat; [number|]. take 59%nat; [|reflexivity]. take 2%nat; [reflexivity|]. take 2%nat; [idx 9; text|].
      take 0%nat; [split; [reflexivity|left; name]|]. take 2%nat; [idx 10; text|].
      take 0%nat. { split; [reflexivity|]. destruct example_method as (md & H1 & H2 & H3). exists md. split; auto. split; auto. split; auto. discriminate. }
      exists [(lit "Code", unhex "000100010000000c1aba001200001a99000400b100000002000c0000000600010000000300160000000300010b")].
      take 2%nat; [number|]. take 51%nat; [|reflexivity]. attribute_of 11 45%nat. foreach_row. take 2%nat; [reflexivity|]. take 2%nat; [reflexivity|].
      take 16%nat.
      { eexists [_; _; _; _], _. split; [reflexivity|]. split; [number|]. split; [vm_compute; reflexivity|].
        exists [(0, []); (1, []); (6, []); (7, [4%Z]); (10, []); (11, [])]. split.
        - assert (P : forall o c b, Byte.to_N b = c -> (between 0 15 c \/ between 26 53 c \/ between 172 177 c) -> instruction example_constants o [] [b]).
          { intros o c b <- H. apply (plain_insn _ _ (Byte.to_N b)); [revert H; unfold between; lia|split; reflexivity]. }
          split; [reflexivity|]. exists [x1a]. eexists. split; [reflexivity|]. split; [apply (P _ 26); [reflexivity|unfold between; lia]|].
          split; [reflexivity|]. exists [xba; x00; x12; x00; x00]. eexists. split; [reflexivity|]. split.
          { apply invokedynamic. take 1%nat; [number|]. take 2%nat; [|number]. idx 18. eexists. split; [vm_compute; reflexivity|]. eexists _, _. reflexivity. }
          split; [reflexivity|]. exists [x1a]. eexists. split; [reflexivity|]. split; [apply (P _ 26); [reflexivity|unfold between; lia]|].
          split; [reflexivity|]. exists [x99; x00; x04]. eexists. split; [reflexivity|]. split.
          { apply (branch _ _ 0x99); [unfold between; lia|]. take 1%nat; [number|signed]. }
          split; [reflexivity|]. exists [x00]. eexists. split; [reflexivity|]. split; [apply (P _ 0); [reflexivity|unfold between; lia]|].
          split; [reflexivity|]. exists [xb1]. eexists. split; [reflexivity|]. split; [apply (P _ 177); [reflexivity|unfold between; lia]|]. reflexivity.
        - intros o ts x Hin Hx. cbn [In] in Hin. intuition (try congruence; try (match goal with H : (_, _) = (_, _) |- _ => injection H as <- <-; cbn [In] in Hx; intuition subst end)).
          exists 11. split; [vm_compute; tauto|reflexivity]. }
      take 2%nat; [exists 0%nat; exists [x00; x00], []; split; [reflexivity|split; [number|reflexivity]]|].
      exists [(lit "LineNumberTable", unhex "000100000003"); (lit "StackMapTable", unhex "00010b")]. take 2%nat; [number|].
      take 12%nat. { attribute_of 12 6%nat. foreach_row. exists 1%nat. take 2%nat; [number|]. take 4%nat; [|reflexivity]. take 2%nat; reflexivity. }
      take 9%nat; [|reflexivity]. attribute_of 22 3%nat. foreach_row. exists 1%nat. take 2%nat; [number|]. take 1%nat; [|reflexivity].
      exists 11. left. split; [unfold between; lia|number]. }
    take 2%nat; [number|].
    take 8%nat. { attribute_of 13 2%nat. foreach_row. idx 14. exists (lit "A.java"). split; [text|exact I]. }
    take 14%nat.
    { attribute_of 19 8%nat. foreach_row. exists 1%nat. take 2%nat; [number|]. take 6%nat; [|reflexivity]. take 2%nat.
      - idx 17. eexists. split; [vm_compute; reflexivity|]. eexists _, _. reflexivity.
      - exists 1%nat. take 2%nat; [number|]. take 2%nat; [|reflexivity]. idx 8. eexists. split; [vm_compute; reflexivity|]. split; [|right; discriminate].
        left. left. eexists. reflexivity. }
    take 20%nat; [|reflexivity]. attribute_of 20 14%nat. foreach_row. exists 1%nat. take 2%nat; [number|]. take 12%nat; [|reflexivity]. take 2%nat.
    { idx 21. exists (lit "LA;"). split; [text|]. exists (mk_fd 0 (FObject (lit "A"))). split; [reflexivity|]. split; [cbn; lia|]. cbn [fd_type].
      intros n [= <-]. split; [binary (lit "A")|right]. intros c H K. vm_compute in H, K. intuition (subst; discriminate). }
    exists 1%nat. take 2%nat; [number|]. take 8%nat; [|reflexivity]. take 2%nat; [idx 5; exists (lit "f"); split; [text|exact I]|].
    exists (ch "["). do 8 right. split; [reflexivity|]. take 1%nat; [number|]. exists 1%nat. take 2%nat; [number|]. take 3%nat; [|reflexivity].
    exists (ch "I"). left. split; [vm_compute; tauto|]. take 1%nat; [number|]. idx 8. eexists. split; [vm_compute; reflexivity|]. eexists. reflexivity.
  - right. exists 3, (lit "java/lang/Object"). split; [vm_compute; reflexivity|]. split; [text|]. split.
    + exists [lit "java"; lit "lang"; lit "Object"]. split; [discriminate|]. split; [repeat (constructor; [name|]); constructor|reflexivity].
    + right. intros c H K. vm_compute in H, K. intuition (subst; discriminate).
  - constructor; [intros []|constructor].
  - constructor; [intros []|constructor].
  - discriminate.
  - intros b nt Hin. assert (b = 0) as -> by (unfold example_constants in Hin; cbn [In] in Hin; intuition congruence).
    eexists _, 1. split; [vm_compute; reflexivity|]. split; [exists [x00; x01]; eexists; split; [reflexivity|split; [number|exact I]]|lia].
Qed.
(** ** What the specification allows and cafebabe rejects *)
Definition deviating_constants (u : deviation) : list constant :=
  match u with
  | UnpairedSurrogate => [CUtf8 [x41]; CClass 1; CUtf8 [x6a; x61; x76; x61; x2f; x6c; x61; x6e; x67; x2f; x4f; x62; x6a; x65; x63; x74]; CClass 3; CUtf8 [xed; xa0; x80]; CClass 5]
  | AngleBracket => [CUtf8 [x41]; CClass 1; CUtf8 [x6a; x61; x76; x61; x2f; x6c; x61; x6e; x67; x2f; x4f; x62; x6a; x65; x63; x74]; CClass 3; CUtf8 [x61; x3c; x62]; CClass 5]
  | DynamicArgument => [CUtf8 [x41]; CClass 1; CUtf8 [x6a; x61; x76; x61; x2f; x6c; x61; x6e; x67; x2f; x4f; x62; x6a; x65; x63; x74]; CClass 3; CUtf8 [x6d]; CUtf8 [x49]; CNameAndType 5 6; CUtf8 [x28; x29; x49]; CNameAndType 5 8; CMethodref 2 9; CMethodHandle InvokeStatic 10; CDynamic 0 7; CUtf8 [x42; x6f; x6f; x74; x73; x74; x72; x61; x70; x4d; x65; x74; x68; x6f; x64; x73]]
  | ForeignAttribute => [CUtf8 [x41]; CClass 1; CUtf8 [x6a; x61; x76; x61; x2f; x6c; x61; x6e; x67; x2f; x4f; x62; x6a; x65; x63; x74]; CClass 3; CUtf8 [x52; x65; x63; x6f; x72; x64]]
  end.
Definition deviating_attributes (u : deviation) : list (str * list byte) :=
  match u with
  | UnpairedSurrogate | AngleBracket => []
  | DynamicArgument => [(lit "BootstrapMethods", unhex "0002000b0000000b0001000c")]
  | ForeignAttribute => [(lit "Record", unhex "00")]
  end.
Definition deviating_file (u : deviation) : list byte :=
  match u with
  | UnpairedSurrogate => unhex "cafebabe0000003d0007010001410700010100106a6176612f6c616e672f4f626a656374070003010003eda08007000500210002000400010006000000000000"
  | AngleBracket => unhex "cafebabe0000003d0007010001410700010100106a6176612f6c616e672f4f626a656374070003010003613c6207000500210002000400010006000000000000"
  | DynamicArgument => unhex "cafebabe0000003d000e010001410700010100106a6176612f6c616e672f4f626a6563740700030100016d010001490c000500060100032829490c000500080a000200090f06000a1100000007010010426f6f7473747261704d6574686f64730021000200040000000000000001000d0000000c0002000b0000000b0001000c"
  | ForeignAttribute => unhex "cafebabe000000320006010001410700010100106a6176612f6c616e672f4f626a6563740700030100065265636f7264002100020004000000000000000100050000000100"
  end.
Lemma deviating_constants_ok u : Forall (constant_ok (eq u) (match u with ForeignAttribute => 50 | _ => 61 end) (deviating_constants u)) (deviating_constants u).
Proof.
  assert (Hobj : binary_name (lit "java/lang/Object")).
  { exists [lit "java"; lit "lang"; lit "Object"]. split; [discriminate|]. split; [repeat (constructor; [name|]); constructor|reflexivity]. }
  destruct u; cbn [deviating_constants];
    (apply Forall_cons; [exact I|]); (apply Forall_cons; [exists (lit "A"); split; [text|left; binary (lit "A")]|]);
    (apply Forall_cons; [exact I|]); (apply Forall_cons; [exists (lit "java/lang/Object"); split; [text|left; exact Hobj]|]).
  - apply Forall_cons; [exact I|]. apply Forall_cons; [|apply Forall_nil]. exists [0xD800]. split.
    + eexists. split; [vm_compute; reflexivity|]. split; [|vm_compute; reflexivity]. constructor; [|constructor]. right. split; [reflexivity|lia].
    + left. binary [0xD800].
  - apply Forall_cons; [exact I|]. apply Forall_cons; [|apply Forall_nil]. exists (lit "a<b"). split; [text|]. left. binary (lit "a<b").
  - assert (Hf : described_by (eq DynamicArgument) (deviating_constants DynamicArgument) (field_ok (eq DynamicArgument)) 7).
    { exists 5, 6. split; [vm_compute; reflexivity|]. exists (lit "I"). split; [text|]. exists (mk_fd 0 FInteger). split; [reflexivity|]. split; [cbn; lia|]. intros n Hn. discriminate Hn. }
    assert (Hm : described_by (eq DynamicArgument) (deviating_constants DynamicArgument) (method_ok (eq DynamicArgument)) 9).
    { exists 5, 8. split; [vm_compute; reflexivity|]. exists (lit "()I"). split; [text|]. exists (mk_md [] (RReturn (mk_fd 0 FInteger))). split; [reflexivity|].
      split; [constructor|]. intros r [= <-]. split; [cbn; lia|]. intros n Hn. discriminate Hn. }
    assert (Hn : forall d, (exists raw, at_index (slots_of (deviating_constants DynamicArgument)) d (CUtf8 raw)) ->
      constant_ok (eq DynamicArgument) 61 (deviating_constants DynamicArgument) (CNameAndType 5 d)).
    { intros d Hd. split; auto. exists (lit "m"). split; [text|name]. }
    apply Forall_cons; [exact I|]. apply Forall_cons; [exact I|]. apply Forall_cons; [apply Hn; eexists; vm_compute; reflexivity|].
    apply Forall_cons; [exact I|]. apply Forall_cons; [apply Hn; eexists; vm_compute; reflexivity|].
    apply Forall_cons; [split; [eexists; vm_compute; reflexivity|exact Hm]|]. apply Forall_cons; [exists 2, 9; left; vm_compute; reflexivity|].
    apply Forall_cons; [exact Hf|]. apply Forall_cons; [exact I|apply Forall_nil].
  - apply Forall_cons; [exact I|apply Forall_nil].
Qed.
Ltac table_of_none := exists [x00; x00], []; split; [reflexivity|split; [number|reflexivity]].
Lemma deviating_conforms u : conforming (eq u) (deviating_file u).
Proof.
  assert (Hang : forall s, forallb (fun x => negb (existsb (N.eqb x) (lit "<>"))) s = true -> without "<>" s).
  { intros s Hs c Hc Hin. rewrite forallb_forall in Hs. specialize (Hs c Hin). apply Bool.negb_true_iff in Hs. rewrite <- Bool.not_true_iff_false in Hs. apply Hs.
    apply existsb_exists. exists c. split; auto. apply N.eqb_refl. }
  assert (Hthis : own_class (eq u) (deviating_constants u) 2).
  { exists 1, (lit "A"). split; [destruct u; vm_compute; reflexivity|]. split; [exists [x41]; split; [destruct u; vm_compute; reflexivity|split; [scalars|vm_compute; reflexivity]]|].
    split; [binary (lit "A")|]. right. apply Hang. reflexivity. }
  assert (Hsup : own_class (eq u) (deviating_constants u) 4).
  { exists 3, (lit "java/lang/Object"). split; [destruct u; vm_compute; reflexivity|].
    split; [exists (unhex "6a6176612f6c616e672f4f626a656374"); split; [destruct u; vm_compute; reflexivity|split; [scalars|vm_compute; reflexivity]]|]. split; [|right; apply Hang; reflexivity].
    exists [lit "java"; lit "lang"; lit "Object"]. split; [discriminate|]. split; [repeat (constructor; [name|]); constructor|reflexivity]. }
  exists 1%nat, 0, (match u with ForeignAttribute => 50 | _ => 61 end), (deviating_constants u), 0x21, 4, (match u with UnpairedSurrogate | AngleBracket => [6] | _ => [] end), [], [], (deviating_attributes u).
  split; [|split; [apply deviating_constants_ok|split; [right; exact Hsup|split; [|split; [constructor|split; [constructor|split; [discriminate|]]]]]]].
  - pose proof Hthis as Ht. destruct u; cbn [deviating_file deviating_attributes];
      (take 4%nat; [number|]); (take 2%nat; [number|]); (take 2%nat; [number|]); (take 2%nat; [number|]).
    + let n := eval vm_compute in (fold_right (fun c n => constant_size c + n)%nat 0%nat (deviating_constants UnpairedSurrogate)) in take n; [cbn [deviating_constants]; constants|].
      take 2%nat; [number|]. take 2%nat; [idx 2; exact Ht|]. take 2%nat; [number|].
      take 4%nat; [take 2%nat; [number|]; take 2%nat; [number|reflexivity]|]. take 2%nat; [table_of_none|]. take 2%nat; [table_of_none|]. table_of_none.
    + let n := eval vm_compute in (fold_right (fun c n => constant_size c + n)%nat 0%nat (deviating_constants AngleBracket)) in take n; [cbn [deviating_constants]; constants|].
      take 2%nat; [number|]. take 2%nat; [idx 2; exact Ht|]. take 2%nat; [number|].
      take 4%nat; [take 2%nat; [number|]; take 2%nat; [number|reflexivity]|]. take 2%nat; [table_of_none|]. take 2%nat; [table_of_none|]. table_of_none.
    + let n := eval vm_compute in (fold_right (fun c n => constant_size c + n)%nat 0%nat (deviating_constants DynamicArgument)) in take n; [cbn [deviating_constants]; constants|].
      take 2%nat; [number|]. take 2%nat; [idx 2; exact Ht|]. take 2%nat; [number|].
      take 2%nat; [table_of_none|]. take 2%nat; [table_of_none|]. take 2%nat; [table_of_none|].
      take 2%nat; [number|]. take 18%nat; [|reflexivity]. attribute_of 13 12%nat. foreach_row. exists 2%nat. take 2%nat; [number|].
      assert (Hh : index (of_kind (deviating_constants DynamicArgument) (fun c => exists k m, c = CMethodHandle k m)) [x00; x0b]).
      { idx 11. eexists. split; [vm_compute; reflexivity|]. eexists _, _. reflexivity. }
      take 4%nat; [take 2%nat; [exact Hh|]; exists 0%nat; table_of_none|]. take 6%nat; [|reflexivity]. take 2%nat; [exact Hh|]. exists 1%nat. take 2%nat; [number|].
      take 2%nat; [|reflexivity]. idx 12. eexists. split; [vm_compute; reflexivity|]. split; [|left; reflexivity]. do 4 right. eexists _, _. reflexivity.
    + let n := eval vm_compute in (fold_right (fun c n => constant_size c + n)%nat 0%nat (deviating_constants ForeignAttribute)) in take n; [cbn [deviating_constants]; constants|].
      take 2%nat; [number|]. take 2%nat; [idx 2; exact Ht|]. take 2%nat; [number|].
      take 2%nat; [table_of_none|]. take 2%nat; [table_of_none|]. take 2%nat; [table_of_none|].
      take 2%nat; [number|]. take 7%nat; [|reflexivity]. take 2%nat; [idx 5; text|]. take 4%nat; [number|]. take 1%nat; [reflexivity|]. split; [reflexivity|].
      intros r Hr Hn [Hf|[Hv _]]; [exfalso; apply Hf; reflexivity|]. exfalso. unfold rows in Hr. cbv zeta in Hr. cbn [In] in Hr.
      repeat (destruct Hr as [<-|Hr]; [cbn [r_name r_since fst] in Hn, Hv; first [lia|vm_compute in Hn; discriminate Hn]|]). destruct Hr.
  - destruct u; [|constructor; [|constructor]|constructor|constructor].
    + constructor; [|constructor]. exists 5, [0xD800]. split; [vm_compute; reflexivity|]. split.
      * eexists. split; [vm_compute; reflexivity|]. split; [|vm_compute; reflexivity]. constructor; [|constructor]. right. split; [reflexivity|lia].
      * split; [binary [0xD800]|right; apply Hang; reflexivity].
    + exists 5, (lit "a<b"). split; [vm_compute; reflexivity|]. split; [text|]. split; [binary (lit "a<b")|left; reflexivity].
  - intros b nt Hin. destruct u; cbn [deviating_constants In] in Hin; try (exfalso; intuition discriminate).
    assert (b = 0) as -> by intuition congruence. eexists _, 2. split; [vm_compute; reflexivity|].
    split; [exists [x00; x02]; eexists; split; [reflexivity|split; [number|exact I]]|lia].
Qed.
Theorem C66_refuted u : exists bs, ample debug64 bs /\ conforming (eq u) bs /\ exists e, parse_class debug64 bs = Err e.
Proof.
  exists (deviating_file u). split; [apply ampleb_ample; destruct u; vm_compute; reflexivity|]. split; [apply deviating_conforms|].
  destruct (parse_class debug64 (deviating_file u)) as [c|e| |] eqn:H; [exfalso|eauto|exfalso|exfalso]; revert H; destruct u; vm_compute; discriminate.
Qed.
Example C66_meets : ample debug64 example /\ cesu8 debug64 = from_java_cesu8 /\ conforming (fun _ => False) example
  /\ exists c m, parse_class debug64 example = Ok c /\ methods c = [m] /\ length (class_attributes c) = 3%nat.
Proof.
  split; [apply ampleb_ample; vm_compute; reflexivity|]. split; [reflexivity|]. split; [exact example_conforms|].
  destruct (parse_class debug64 example) as [c| | |] eqn:H; [|exfalso; revert H; vm_compute; discriminate..].
  vm_compute in H. injection H as <-. eexists _, _. repeat split; reflexivity.
Qed.
