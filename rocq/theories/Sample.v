(** * Two class files made by hand, which meet the hypotheses of many theorems.

    [sample]: an ordinary class with fields, methods, a Code attribute with jumps, both switch instructions,
    references to constants and wide forms, and the attributes Record, InnerClasses, BootstrapMethods,
    MethodParameters, LocalVariableTable, annotations and an unknown one.
    [sample_module]: a module.
    For each file X: [X_constants] are its constants, [X_pieces] their encodings, [X_rest] the bytes after
    them, [X_parsed] the class the model returns. *)
From Verif Require Import Base M_Names M_Descriptors M_ConstantPool M_Bytecode M_Attributes M_Class M_Cesu8 Data
  S_Lang S_Names S_Format S_Pool S_Env.

Lemma cat_at (n : nat) (L M : lang) w : L (firstn n w) -> M (skipn n w) -> (L +++ M) w.
Proof. intros HL HM. exists (firstn n w), (skipn n w). rewrite firstn_skipn. auto. Qed.
Ltac piece := match goal with
  | |- uint _ _ _ => split; reflexivity
  | |- sint _ _ _ => split; [reflexivity|split; [split; [discriminate|reflexivity]|reflexivity]]
  | |- u1 _ _ => split; reflexivity
  | |- u2 _ _ => split; reflexivity
  | |- u4 _ _ => split; reflexivity
  | |- s4 _ _ => split; [reflexivity|split; [split; [discriminate|reflexivity]|reflexivity]]
  | |- s8 _ _ => split; [reflexivity|split; [split; [discriminate|reflexivity]|reflexivity]]
  | |- raw _ _ => reflexivity
  | |- cat (u1 _) _ _ => apply (cat_at 1); cbn [firstn skipn]; piece
  | |- cat (u2 _) _ _ => apply (cat_at 2); cbn [firstn skipn]; piece
  end.
Ltac pieces := repeat apply Forall2_cons; try apply Forall2_nil; (split; [discriminate|piece]).

Definition sample : list byte := unhex
  "cafebabe0000003d003901000653616d706c650700010100106a6176612f6c616e672f4f626a6563740700030100126a6176
   612f6c616e672f52756e6e61626c65070005010002686908000705fffffffffffffffe01000178010001490c000b000c0900
   02000d01000868617368436f64650100032829490c000f00100a0004001101000372756e0100032829560c001300140b0006
   0015010004626f6f740c001700140a000200180f06001901000463616c6c010004284929560c001b001c120000001d010003
   5b5b4907001f03fffeee9001000f4c696e654e756d6265725461626c650100036172670100124c6f63616c5661726961626c
   655461626c650100136a6176612f6c616e672f457863657074696f6e070025010004436f64650100104d6574686f64506172
   616d65746572730100063c696e69743e010002676f0100042849294a01000d436f6e7374616e7456616c7565010001790100
   124c6a6176612f6c616e672f537472696e673b0100054c466f6f3b0100017601001952756e74696d6556697369626c65416e
   6e6f746174696f6e730100065265636f726401000953616d706c6524496e070033010002496e01000c496e6e6572436c6173
   736573010010426f6f7473747261704d6574686f6473010006437573746f6d013100020004000100060002201a000b000c00
   01002c0000000200210002002d002e00000002000100290014000100270000000e00010001000000022ab100000000800900
   2a002b00020027000000a60003012d000000701b10fb3604c4840001fed4c419012c990052aa0000000036ffffffff000000
   01ffffffee0000001a0000005dab0000000000004300000002fffffff7ffffffe6000186a0ffffffd412081400092ab4000e
   b60012ba001e0000b900160100a7ffa211fc188402f9bc0ac5002002121aad00010000000f00610026000200220000000a00
   020000000a000f000b00240000000c0001000000700023000c00010028000000050100239010000400320000001c0001000b
   000c000100310000000e0001002f000100305b000149002100360000000a000100340002003584090037000000080001001a
   00010008003800000003010203".
Definition sample_constants : list constant := Eval vm_compute in
  [CUtf8 (unhex "53616d706c65");
   CClass 1;
   CUtf8 (unhex "6a6176612f6c616e672f4f626a656374");
   CClass 3;
   CUtf8 (unhex "6a6176612f6c616e672f52756e6e61626c65");
   CClass 5;
   CUtf8 (unhex "6869");
   CString 7;
   CLong (-2)%Z;
   CUtf8 (unhex "78");
   CUtf8 (unhex "49");
   CNameAndType 11 12;
   CFieldref 2 13;
   CUtf8 (unhex "68617368436f6465");
   CUtf8 (unhex "282949");
   CNameAndType 15 16;
   CMethodref 4 17;
   CUtf8 (unhex "72756e");
   CUtf8 (unhex "282956");
   CNameAndType 19 20;
   CInterfaceMethodref 6 21;
   CUtf8 (unhex "626f6f74");
   CNameAndType 23 20;
   CMethodref 2 24;
   CMethodHandle InvokeStatic 25;
   CUtf8 (unhex "63616c6c");
   CUtf8 (unhex "28492956");
   CNameAndType 27 28;
   CInvokeDynamic 0 29;
   CUtf8 (unhex "5b5b49");
   CClass 31;
   CInteger (-70000)%Z;
   CUtf8 (unhex "4c696e654e756d6265725461626c65");
   CUtf8 (unhex "617267");
   CUtf8 (unhex "4c6f63616c5661726961626c655461626c65");
   CUtf8 (unhex "6a6176612f6c616e672f457863657074696f6e");
   CClass 37;
   CUtf8 (unhex "436f6465");
   CUtf8 (unhex "4d6574686f64506172616d6574657273");
   CUtf8 (unhex "3c696e69743e");
   CUtf8 (unhex "676f");
   CUtf8 (unhex "2849294a");
   CUtf8 (unhex "436f6e7374616e7456616c7565");
   CUtf8 (unhex "79");
   CUtf8 (unhex "4c6a6176612f6c616e672f537472696e673b");
   CUtf8 (unhex "4c466f6f3b");
   CUtf8 (unhex "76");
   CUtf8 (unhex "52756e74696d6556697369626c65416e6e6f746174696f6e73");
   CUtf8 (unhex "5265636f7264");
   CUtf8 (unhex "53616d706c6524496e");
   CClass 51;
   CUtf8 (unhex "496e");
   CUtf8 (unhex "496e6e6572436c6173736573");
   CUtf8 (unhex "426f6f7473747261704d6574686f6473");
   CUtf8 (unhex "437573746f6d")].
Definition sample_pieces : list (list byte) := Eval vm_compute in
  [unhex "01000653616d706c65";
   unhex "070001";
   unhex "0100106a6176612f6c616e672f4f626a656374";
   unhex "070003";
   unhex "0100126a6176612f6c616e672f52756e6e61626c65";
   unhex "070005";
   unhex "0100026869";
   unhex "080007";
   unhex "05fffffffffffffffe";
   unhex "01000178";
   unhex "01000149";
   unhex "0c000b000c";
   unhex "090002000d";
   unhex "01000868617368436f6465";
   unhex "010003282949";
   unhex "0c000f0010";
   unhex "0a00040011";
   unhex "01000372756e";
   unhex "010003282956";
   unhex "0c00130014";
   unhex "0b00060015";
   unhex "010004626f6f74";
   unhex "0c00170014";
   unhex "0a00020018";
   unhex "0f060019";
   unhex "01000463616c6c";
   unhex "01000428492956";
   unhex "0c001b001c";
   unhex "120000001d";
   unhex "0100035b5b49";
   unhex "07001f";
   unhex "03fffeee90";
   unhex "01000f4c696e654e756d6265725461626c65";
   unhex "010003617267";
   unhex "0100124c6f63616c5661726961626c655461626c65";
   unhex "0100136a6176612f6c616e672f457863657074696f6e";
   unhex "070025";
   unhex "010004436f6465";
   unhex "0100104d6574686f64506172616d6574657273";
   unhex "0100063c696e69743e";
   unhex "010002676f";
   unhex "0100042849294a";
   unhex "01000d436f6e7374616e7456616c7565";
   unhex "01000179";
   unhex "0100124c6a6176612f6c616e672f537472696e673b";
   unhex "0100054c466f6f3b";
   unhex "01000176";
   unhex "01001952756e74696d6556697369626c65416e6e6f746174696f6e73";
   unhex "0100065265636f7264";
   unhex "01000953616d706c6524496e";
   unhex "070033";
   unhex "010002496e";
   unhex "01000c496e6e6572436c6173736573";
   unhex "010010426f6f7473747261704d6574686f6473";
   unhex "010006437573746f6d"].
Definition sample_rest : list byte := Eval vm_compute in skipn 481 sample.
Definition sample_parsed : class_file := Eval vm_compute in
  match parse_class debug64 sample with Ok c => c | _ => {| major_version := 0; minor_version := 0; constant_pool := [];
    access_flags := 0; this_class := []; super_class := None; interfaces := []; fields := []; methods := []; class_attributes := [] |} end.
Lemma sample_ample : ample debug64 sample.
Proof. apply ampleb_ample. vm_compute. reflexivity. Qed.
Lemma sample_sane : sane debug64 sample.
Proof. apply ample_sane, sample_ample. Qed.
Lemma sample_parse : parse_class_with_options debug64 true sample = Ok sample_parsed.
Proof. vm_compute. reflexivity. Qed.
Lemma sample_starts : starts_with_pool sample 0 61 57 sample_constants sample_pieces sample_rest.
Proof.
  exists [xca; xfe; xba; xbe], [x00; x00; x00; x3d], [x00; x39].
  split; [piece|]. split; [piece|]. split; [piece|]. split; [vm_compute; reflexivity|]. pieces.
Qed.
Lemma sample_fills : fills (wrapping debug64) 57 1 sample_constants.
Proof. vm_compute. intuition discriminate. Qed.

Definition sample_module : list byte := unhex
  "cafebabe0000003d001301000b6d6f64756c652d696e666f0700010100066d792e6d6f641300030100096a6176612e626173
   651300050100066d792f706b671400070100056f74686572130009010003312e300100057376632f4107000c010005737663
   2f4207000e010006696d706c2f420700100100064d6f64756c65800000020000000000000000000100120000002e00049020
   000b00010006806000000001000890000001000a0001000810000001000a0001000d0001000f00010011".
Definition sample_module_constants : list constant := Eval vm_compute in
  [CUtf8 (unhex "6d6f64756c652d696e666f");
   CClass 1;
   CUtf8 (unhex "6d792e6d6f64");
   CModule 3;
   CUtf8 (unhex "6a6176612e62617365");
   CModule 5;
   CUtf8 (unhex "6d792f706b67");
   CPackage 7;
   CUtf8 (unhex "6f74686572");
   CModule 9;
   CUtf8 (unhex "312e30");
   CUtf8 (unhex "7376632f41");
   CClass 12;
   CUtf8 (unhex "7376632f42");
   CClass 14;
   CUtf8 (unhex "696d706c2f42");
   CClass 16;
   CUtf8 (unhex "4d6f64756c65")].
Definition sample_module_pieces : list (list byte) := Eval vm_compute in
  [unhex "01000b6d6f64756c652d696e666f";
   unhex "070001";
   unhex "0100066d792e6d6f64";
   unhex "130003";
   unhex "0100096a6176612e62617365";
   unhex "130005";
   unhex "0100066d792f706b67";
   unhex "140007";
   unhex "0100056f74686572";
   unhex "130009";
   unhex "010003312e30";
   unhex "0100057376632f41";
   unhex "07000c";
   unhex "0100057376632f42";
   unhex "07000e";
   unhex "010006696d706c2f42";
   unhex "070010";
   unhex "0100064d6f64756c65"].
Definition sample_module_rest : list byte := Eval vm_compute in skipn 126 sample_module.
Definition sample_module_parsed : class_file := Eval vm_compute in
  match parse_class debug64 sample_module with Ok c => c | _ => {| major_version := 0; minor_version := 0; constant_pool := [];
    access_flags := 0; this_class := []; super_class := None; interfaces := []; fields := []; methods := []; class_attributes := [] |} end.
Lemma sample_module_ample : ample debug64 sample_module.
Proof. apply ampleb_ample. vm_compute. reflexivity. Qed.
Lemma sample_module_sane : sane debug64 sample_module.
Proof. apply ample_sane, sample_module_ample. Qed.
Lemma sample_module_parse : parse_class_with_options debug64 true sample_module = Ok sample_module_parsed.
Proof. vm_compute. reflexivity. Qed.
Lemma sample_module_starts : starts_with_pool sample_module 0 61 19 sample_module_constants sample_module_pieces sample_module_rest.
Proof.
  exists [xca; xfe; xba; xbe], [x00; x00; x00; x3d], [x00; x13].
  split; [piece|]. split; [piece|]. split; [piece|]. split; [vm_compute; reflexivity|]. pieces.
Qed.
Lemma sample_module_fills : fills (wrapping debug64) 19 1 sample_module_constants.
Proof. vm_compute. intuition discriminate. Qed.

