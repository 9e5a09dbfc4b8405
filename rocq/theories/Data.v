(** * Class files from /repo/tests, in hexadecimal, to run the model on. *)
From Verif Require Import Base.

Definition hex_digit (c : ascii) : option N :=
  let n := N_of_ascii c in
  if (48 <=? n) && (n <=? 57) then Some (n - 48)
  else if (97 <=? n) && (n <=? 102) then Some (n - 87)
  else None.
(** Characters that are not hexadecimal digits are skipped. *)
Fixpoint unhex_from (hi : option N) (s : string) : list byte :=
  match s with
  | EmptyString => []
  | String c s' =>
      match hex_digit c, hi with
      | None, _ => unhex_from hi s'
      | Some d, None => unhex_from (Some d) s'
      | Some d, Some h =>
          match Byte.of_N (h * 16 + d) with
          | Some b => b :: unhex_from None s'
          | None => []
          end
      end
  end.
Definition unhex (s : string) : list byte := unhex_from None s.
Arguments unhex s%string_scope.

(** /repo/tests/iterator/Object.class *)
Definition object_class : list byte := unhex
  "cafebabe0000003c005c0700020100176a6176612f6c616e672f537472696e674275696c6465720a000100040c0005000601
   00063c696e69743e0100032829560a0008000907000a0c000b000c0100106a6176612f6c616e672f4f626a65637401000867
   6574436c61737301001328294c6a6176612f6c616e672f436c6173733b0a000e000f0700100c0011001201000f6a6176612f
   6c616e672f436c6173730100076765744e616d6501001428294c6a6176612f6c616e672f537472696e673b0a000100140c00
   150016010006617070656e6401002d284c6a6176612f6c616e672f537472696e673b294c6a6176612f6c616e672f53747269
   6e674275696c6465723b080018010001400a0008001a0c001b001c01000868617368436f64650100032829490a001e001f07
   00200c002100220100116a6176612f6c616e672f496e746567657201000b746f486578537472696e670100152849294c6a61
   76612f6c616e672f537472696e673b0a000100240c00250012010008746f537472696e670a000800270c0028002901000477
   616974010004284a295607002b0100226a6176612f6c616e672f496c6c6567616c417267756d656e74457863657074696f6e
   08002d01001f74696d656f75744d696c6c69732076616c7565206973206e656761746976650a002a002f0c00050030010015
   284c6a6176612f6c616e672f537472696e673b295603000f423f0800330100256e616e6f7365636f6e642074696d656f7574
   2076616c7565206f7574206f662072616e676507003501000e6a6176612f6c616e672f4c6f6e67057fffffffffffffff0100
   04436f646501000f4c696e654e756d6265725461626c650100124c6f63616c5661726961626c655461626c65010004746869
   730100124c6a6176612f6c616e672f4f626a6563743b01001952756e74696d6556697369626c65416e6e6f746174696f6e73
   01002f4c6a646b2f696e7465726e616c2f766d2f616e6e6f746174696f6e2f496e7472696e73696343616e6469646174653b
   0100095369676e617475726501001628294c6a6176612f6c616e672f436c6173733c2a3e3b010006657175616c7301001528
   4c6a6176612f6c616e672f4f626a6563743b295a0100036f626a01000d537461636b4d61705461626c65010005636c6f6e65
   01001428294c6a6176612f6c616e672f4f626a6563743b01000a457863657074696f6e730700490100246a6176612f6c616e
   672f436c6f6e654e6f74537570706f72746564457863657074696f6e0100066e6f746966790100096e6f74696679416c6c07
   004d01001e6a6176612f6c616e672f496e746572727570746564457863657074696f6e010005284a49295601000d74696d65
   6f75744d696c6c69730100014a0100056e616e6f730100014901000866696e616c697a650700550100136a6176612f6c616e
   672f5468726f7761626c6501000a446570726563617465640100164c6a6176612f6c616e672f446570726563617465643b01
   000573696e63650100013901000a536f7572636546696c6501000b4f626a6563742e6a61766100210008000000000000000c
   000100050006000200380000002b0000000100000001b10000000200390000000600010000002c003a0000000c0001000000
   01003b003c0000003d000000060001003e00000111000b000c0002003f000000020040003d000000060001003e0000010100
   1b001c0001003d000000060001003e0000000100410042000100380000004a000200020000000b2a2ba6000704a7000403ac
   00000003003900000006000100000096003a0000001600020000000b003b003c00000000000b0043003c0001004400000005
   0002094001010400450046000200470000000400010048003d000000060001003e0000000100250012000100380000004e00
   02000100000024bb000159b700032ab60007b6000db600131217b600132ab60019b8001db60013b60023b000000002003900
   0000060001000000ee003a0000000c000100000024003b003c00000111004a00060001003d000000060001003e0000011100
   4b00060001003d000000060001003e0000001100280006000200380000003400030001000000062a09b60026b10000000200
   390000000a00020000014000050141003a0000000c000100000006003b003c00000047000000040001004c01110028002900
   010047000000040001004c00110028004e00020038000000a0000400040000003a1f09949c000dbb002a59122cb7002ebf1d
   9b00091d1231a4000dbb002a591232b7002ebf1d9e000f1f140036949c00071f0a61402a1fb60026b1000000030039000000
   220008000001b9000601ba001001bd001a01be002401c2003001c3003401c6003901c7003a0000002000030000003a003b00
   3c00000000003a004f005000010000003a00510052000300440000000600041009090f0047000000040001004c0004005300
   06000400380000002b0000000100000001b100000002003900000006000100000226003a0000000c000100000001003b003c
   000000470000000400010054005600000000003d0000000b00010057000100587300590001005a00000002005b".

(** /repo/tests/parse/clazz/Kotlin.clazz *)
Definition kotlin_class : list byte := unhex
  "cafebabe00000032005f01002e6b6f746c696e2f7265666c6563742f6a766d2f696e7465726e616c2f5765616b436c617373
   4c6f61646572426f780700010100106a6176612f6c616e672f4f626a6563740700030100166d6f64756c654279436c617373
   4c6f616465722e6b740100114c6b6f746c696e2f4d657461646174613b0100026d760300000001030000000f010002627603
   0000000003000000030100016b01000264310100cec080300a0218020a0210c0800ac0800a0218020a0208020a0210080a02
   08030a0218020a0208070a02100b0a0208030a02100e0ac080080218c08032023001420d120610021a023003c2a206021004
   4a1310111a023012320810131a041801300148c296024a0810141a02300648164a0810151a0230164816521110051a023006
   c2a206080ac0801a0408071008521710091a08120412023003300ac2a206080ac0801a04080b100c521c100d1a0418013003
   58c2860ec2a2060e0ac0801a04080e100f220408101004c2a8061701000264320100304c6b6f746c696e2f7265666c656374
   2f6a766d2f696e7465726e616c2f5765616b436c6173734c6f61646572426f783b01000001000b636c6173734c6f61646572
   0100174c6a6176612f6c616e672f436c6173734c6f616465723b01001a284c6a6176612f6c616e672f436c6173734c6f6164
   65723b29560100106964656e7469747948617368436f64650100136765744964656e7469747948617368436f646501000328
   294901000372656601001d4c6a6176612f6c616e672f7265662f5765616b5265666572656e63653b01000667657452656601
   001f28294c6a6176612f6c616e672f7265662f5765616b5265666572656e63653b01001274656d706f726172795374726f6e
   6752656601001567657454656d706f726172795374726f6e6752656601001928294c6a6176612f6c616e672f436c6173734c
   6f616465723b01001573657454656d706f726172795374726f6e67526566010006657175616c730100056f74686572010008
   68617368436f6465010008746f537472696e670100116b6f746c696e2d7265666c656374696f6e0100364c6a6176612f6c61
   6e672f7265662f5765616b5265666572656e63653c4c6a6176612f6c616e672f436c6173734c6f616465723b3e3b0100234c
   6f72672f6a6574627261696e732f616e6e6f746174696f6e732f4e6f744e756c6c3b010001490100244c6f72672f6a657462
   7261696e732f616e6e6f746174696f6e732f4e756c6c61626c653b0c001d0014090002002a010004746869730100073c7365
   742d3f3e010015284c6a6176612f6c616e672f4f626a6563743b295a0c0019001a090002002f01001b6a6176612f6c616e67
   2f7265662f5765616b5265666572656e636507003101000367657401001428294c6a6176612f6c616e672f4f626a6563743b
   0c003300340a003200350100156a6176612f6c616e672f436c6173734c6f616465720700370100124c6a6176612f6c616e67
   2f4f626a6563743b0c00160028090002003a01001428294c6a6176612f6c616e672f537472696e673b0c0024003c0a003800
   3d0100063c6e756c6c3e08003f0100106a6176612f6c616e672f537472696e670700410100063c696e69743e08001301001e
   6b6f746c696e2f6a766d2f696e7465726e616c2f496e7472696e73696373070045010017636865636b506172616d65746572
   49734e6f744e756c6c010027284c6a6176612f6c616e672f4f626a6563743b4c6a6176612f6c616e672f537472696e673b29
   560c004700480a004600490100032829560c0043004b0a0004004c010015284c6a6176612f6c616e672f4f626a6563743b29
   560c0043004e0a0032004f0100106a6176612f6c616e672f53797374656d070051010015284c6a6176612f6c616e672f4f62
   6a6563743b29490c001600530a005200540100095369676e617475726501001b52756e74696d65496e76697369626c65416e
   6e6f746174696f6e73010004436f64650100124c6f63616c5661726961626c655461626c6501000f4c696e654e756d626572
   5461626c6501002452756e74696d65496e76697369626c65506172616d65746572416e6e6f746174696f6e7301000d537461
   636b4d61705461626c6501000a536f7572636546696c6501001952756e74696d6556697369626c65416e6e6f746174696f6e
   730030000200040000000300120019001a000200560000000200260057000000060001002700000012001600280000000200
   1d001400010057000000060001002900000005001100200015000200580000003a00020002000000062a2bb5002bb1000000
   02005900000016000200000006002c0011000000000006002d00140001005a00000006000100000023005b00000007010001
   0029000000010021002e000200580000006800020002000000272bc100029900212ab40030b60036c000382bc00002b40030
   b60036c00038a6000704a7000403ac00000003005900000016000200000027002c0011000000000027002200390001005a00
   000006000100000026005c000000070002f900254001005b0000000701000100290000000100230018000100580000002f00
   010001000000052ab4003bac0000000200590000000c000100000005002c00110000005a0000000600010000002900010024
   003c000200580000005c000200010000001c2ab40030b60036c0003859c6000db6003e59c60006a70006571240b000000003
   00590000000c00010000001c002c00110000005a0000000600010000002c005c000000100002ff0018000000010700044207
   0042005700000006000100270000000100430015000200580000006400040002000000242b1244b8004a2ab7004d2abb0032
   592bb70050b500302a2bb80055b5003b2a2bb5002bb100000002005900000016000200000024002c00110000000000240013
   00140001005a0000001200040006001c000a001d00160020001e0023005b00000007010001002700000002005d0000000200
   05005e0000007c00010006000500075b0003490008490008490009000a5b000349000849000b49000c000d490008000e5b00
   0173000f00105b001873001173001273001373001473001573001673001273001773001873001973001a73001b73001c7300
   1d73001e73001f730020730021730012730022730023730024730012730025".

