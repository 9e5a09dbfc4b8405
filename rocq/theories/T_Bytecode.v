(** * Property theorems: bytecode (C25 C26 C27 C28 C29 C30).

    [bytecode_of c cd bc] : [bc] is the parsed bytecode of some Code attribute [cd], wherever it is in
    the class [c].  [bytes_at code o w] : the bytes [w] stand at offset [o] of [code].
    [constants_of E bs cs] : [cs] are the constants the file [bs] starts with. *)
From Verif Require Import Base M_Names M_Descriptors M_ConstantPool M_Bytecode M_Attributes M_Class M_Cesu8 Data Sample
  S_Lang S_Names S_Format S_Pool S_Within S_Env P_Reads P_Tac P_Insn P_Insn2 P_Bytecode P_Class3 P_Layout P_Within P_Code T_Class T_Members.
From Coq Require Import ZifyBool ZifyNat ZifyN.

(** The constants are not needed as a hypothesis where only the code matters. *)
Lemma code_formatted' E opts bs c cd bc : sane E bs -> parse_class_with_options E opts bs = Ok c -> bytecode_of c cd bc ->
  exists cs, constants_of E bs cs /\ code_format (cesu8 E) (slots_of cs) (wrapping E) bc (cd_code cd).
Proof.
  intros Hs H Hb. destruct (constants_exist _ _ _ _ Hs H) as (cs & Hcs). exists cs. split; auto.
  apply (code_formatted _ _ _ _ _ _ _ Hs H Hcs Hb).
Qed.

(** ** C25 *)
(** The code array is the concatenation of non-empty pieces, one for each opcode, and the offset of an
    opcode is the total length of the pieces before its own. *)
Theorem C25_offsets_tile E opts bs c cd bc : sane E bs -> parse_class_with_options E opts bs = Ok c -> bytecode_of c cd bc ->
  exists ws, cd_code cd = concat ws /\ length ws = length (opcodes bc) /\ Forall (fun w => w <> []) ws
    /\ forall k o op, nth_error (opcodes bc) k = Some (o, op) -> o = N.of_nat (length (concat (firstn k ws))).
Proof.
  intros Hs H Hb. destruct (code_formatted' _ _ _ _ _ _ Hs H Hb) as (cs & _ & Hf & _).
  destruct (insns_chunks E cs _ _ _ Hf) as (ws & H1 & H2 & H3 & H4). exists ws. repeat (split; [assumption|]).
  intros k o op Hk. apply H4 in Hk. lia.
Qed.
Theorem C25_offsets_increase E opts bs c cd bc : sane E bs -> parse_class_with_options E opts bs = Ok c -> bytecode_of c cd bc ->
  (forall o op, nth_error (opcodes bc) 0 = Some (o, op) -> o = 0)
  /\ (forall i j o op o' op', (i < j)%nat -> nth_error (opcodes bc) i = Some (o, op) -> nth_error (opcodes bc) j = Some (o', op') -> o < o')
  /\ (forall o op, In (o, op) (opcodes bc) -> o < N.of_nat (length (cd_code cd)))
  /\ (cd_code cd = [] <-> opcodes bc = []).
Proof.
  intros Hs H Hb. destruct (code_formatted' _ _ _ _ _ _ Hs H Hb) as (cs & _ & Hf & _).
  pose proof (insns_increasing E cs _ _ _ Hf) as Hinc. destruct (C25_offsets_tile _ _ _ _ _ _ Hs H Hb) as (ws & Hc & Hl & Hne & Hk).
  split; [intros o op Ho; rewrite (Hk _ _ _ Ho); reflexivity|].
  split; [intros i j o op o' op' Hij Hi Hj; exact (increasing_lt _ _ _ _ _ _ _ _ Hinc Hij Hi Hj)|].
  split.
  - intros o op Hin. destruct (insns_at E cs _ _ _ _ Hf Hin) as (u & (p & q & He & Hp) & Hu). apply (insn_nonempty E cs) in Hu.
    rewrite He, !app_length. destruct u; [congruence|]. cbn [length]. lia.
  - rewrite Hc. split; intro He.
    + destruct ws as [|w ws]; [destruct (opcodes bc); [reflexivity|discriminate Hl]|].
      inversion Hne; subst. destruct w; [congruence|discriminate He].
    + rewrite He in Hl. destruct ws; [reflexivity|discriminate Hl].
Qed.
(** With bytecode parsing on every Code attribute has bytecode. *)
Theorem C25_bytecode_present E bs c n cd : sane E bs -> parse_class_with_options E true bs = Ok c ->
  within c (mk_attr n (ACode cd)) -> exists bc, bytecode_of c cd bc.
Proof.
  intros Hs H Hw. destruct (constants_exist _ _ _ _ Hs H) as (cs & Hcs).
  destruct (code_part _ _ _ _ _ _ _ Hs H Hcs Hw) as (d & pre & u & post & -> & Hu).
  unfold code_lang in Hu. destruct Hu as (w1 & v1 & -> & _ & w2 & v2 & -> & _ & w3 & v3 & -> & _ & w4 & v4 & -> & Hraw & w5 & v5 & -> & _ & w6 & v6 & -> & _ & -> & Hx).
  destruct (cd_bytecode cd) as [bc|] eqn:Hb; [|discriminate Hx]. exists bc, n. auto.
Qed.
Example C25_meets : sane debug64 object_class /\ exists c cd bc, parse_class debug64 object_class = Ok c
  /\ bytecode_of c cd bc /\ length (opcodes bc) = 7%nat /\ length (cd_code cd) = 11%nat.
Proof.
  split; [apply ample_sane, ampleb_ample; vm_compute; reflexivity|].
  destruct (parse_class debug64 object_class) as [c| | |] eqn:H; [|exfalso; revert H; vm_compute; discriminate..].
  pose (pick c := match nth_error (methods c) 3 with Some m => match m_attributes m with a :: _ => Some (m, a) | _ => None end | _ => None end).
  pose (ok (p : option (method_info * attr_info)) := match p with Some (_, mk_attr _ (ACode cd)) => match cd_bytecode cd with Some bc => Nat.eqb (length (opcodes bc)) 7 && Nat.eqb (length (cd_code cd)) 11 | None => false end | _ => false end).
  assert (Hg : match parse_class debug64 object_class with Ok c => ok (pick c) | _ => false end = true) by (vm_compute; reflexivity).
  rewrite H in Hg. unfold pick in Hg. destruct (nth_error (methods c) 3) as [m|] eqn:Hm; [|discriminate Hg].
  destruct (m_attributes m) as [|a l] eqn:Ha; [discriminate Hg|]. destruct a as [n dat]. destruct dat; try discriminate Hg. cbn [ok] in Hg.
  match type of Hg with context[cd_bytecode ?x] => rename x into cd end. destruct (cd_bytecode cd) as [bc|] eqn:Hb; [|discriminate Hg].
  apply andb_prop in Hg. destruct Hg as [H1 H2]. apply Nat.eqb_eq in H1, H2.
  exists c, cd, bc. split; auto. split; [|auto]. exists n. split; auto.
  apply (of_method _ m); [eapply nth_error_In; eauto|]. rewrite Ha. left. reflexivity.
Qed.

(** ** C26 *)
Theorem C26_get_opcode_index E opts bs c cd bc offset : sane E bs -> parse_class_with_options E opts bs = Ok c -> bytecode_of c cd bc ->
  exists r, get_opcode_index bc offset = Ok r
    /\ (forall i, r = Some i <-> exists op, nth_error (opcodes bc) (N.to_nat i) = Some (offset, op))
    /\ (r = None <-> forall o op, In (o, op) (opcodes bc) -> o <> offset).
Proof.
  intros Hs H Hb. destruct (code_formatted' _ _ _ _ _ _ Hs H Hb) as (cs & _ & Hf & _).
  pose proof (insns_increasing E cs _ _ _ Hf) as Hinc.
  destruct (get_opcode_index_spec bc offset Hinc) as (r & Hr & Hspec). exists r. split; auto.
  assert (Hnone : r = None -> forall o op, In (o, op) (opcodes bc) -> o <> offset).
  { intros -> o op Hin ->. apply Hspec. apply (in_map fst) in Hin. exact Hin. }
  split.
  - intro i. split.
    + intros ->. exact Hspec.
    + intros (op & Hi). destruct r as [j|].
      * destruct Hspec as (op' & Hj). f_equal.
        destruct (Nat.lt_trichotomy (N.to_nat i) (N.to_nat j)) as [Hlt|[He|Hlt]]; [|lia|];
        [pose proof (increasing_lt _ _ _ _ _ _ _ _ Hinc Hlt Hi Hj)|pose proof (increasing_lt _ _ _ _ _ _ _ _ Hinc Hlt Hj Hi)]; lia.
      * exfalso. apply (Hnone eq_refl offset op); auto. eapply nth_error_In; eauto.
  - split; auto. intro Hno. destruct r as [j|]; auto. destruct Hspec as (op & Hj). exfalso. apply (Hno offset op); auto. eapply nth_error_In; eauto.
Qed.

(** The longer method of [sample] and its opcodes. *)
Definition sample_code : code_data := Eval vm_compute in
  match methods sample_parsed with
  | [_; m] => match m_attributes m with mk_attr _ (ACode cd) :: _ => cd | _ => mk_code 0 0 [] None [] [] end
  | _ => mk_code 0 0 [] None [] []
  end.
Definition sample_bytecode : byte_code := Eval vm_compute in
  match cd_bytecode sample_code with Some bc => bc | None => mk_bc [] end.
Lemma sample_bytecode_of : bytecode_of sample_parsed sample_code sample_bytecode.
Proof.
  exists (lit "Code"). split; [|reflexivity]. eapply of_method; [right; left; reflexivity|left; reflexivity].
Qed.
Example C26_meets : sane debug64 sample /\ parse_class_with_options debug64 true sample = Ok sample_parsed
  /\ bytecode_of sample_parsed sample_code sample_bytecode
  /\ map fst (opcodes sample_bytecode) = [0; 1; 3; 5; 11; 15; 18; 44; 72; 74; 77; 78; 81; 84; 89; 94; 97; 100; 103; 105; 109; 111]
  /\ get_opcode_index sample_bytecode 72 = Ok (Some 8) /\ get_opcode_index sample_bytecode 73 = Ok None.
Proof. split; [exact sample_sane|]. split; [exact sample_parse|]. split; [exact sample_bytecode_of|]. repeat split. Qed.

(** ** C27 *)
Theorem C27_jump_targets E opts bs c cd bc o op j : sane E bs -> parse_class_with_options E opts bs = Ok c -> bytecode_of c cd bc ->
  In (o, op) (opcodes bc) ->
  match op with
  | OpGoto t | OpJsr t | OpIfeq t | OpIfne t | OpIflt t | OpIfge t | OpIfgt t | OpIfle t
  | OpIfIcmpeq t | OpIfIcmpne t | OpIfIcmplt t | OpIfIcmpge t | OpIfIcmpgt t | OpIfIcmple t
  | OpIfAcmpeq t | OpIfAcmpne t | OpIfnull t | OpIfnonnull t => j = t
  | OpTableswitch t => j = rg_default t \/ In j (jumps t)
  | OpLookupswitch t => j = lk_default t \/ exists m, In (m, j) (match_offsets t)
  | _ => False
  end ->
  exists o' op', In (o', op') (opcodes bc) /\ (Z.of_N o + j)%Z = Z.of_N o'.
Proof.
  intros Hs H Hb Hin Hj. destruct (code_formatted' _ _ _ _ _ _ Hs H Hb) as (cs & _ & _ & Hv).
  assert (Ht : In j (targets op)).
  { destruct op; try contradiction Hj; subst; cbn [targets]; auto using in_eq.
    - destruct Hj as [->|(m & Hm)]; auto using in_eq, in_cons. right. apply (in_map snd) in Hm. exact Hm.
    - destruct Hj as [->|Hj]; auto using in_eq, in_cons. }
  destruct (Hv o op Hin) as [_ Hjv]. destruct (Hjv j Ht) as (o' & Ho' & He).
  apply in_map_iff in Ho'. destruct Ho' as ([x op'] & <- & Hx). exists x, op'. auto.
Qed.
(** An instruction array of which some jump leads elsewhere is rejected. *)
Theorem C27_bad_jump_rejected E cs code bc o op j : fits E code ->
  insns_lang (cesu8 E) (slots_of cs) (wrapping E) 0 (opcodes bc) code -> In (o, op) (opcodes bc) -> In j (targets op) ->
  (forall o' op', In (o', op') (opcodes bc) -> (Z.of_N o + j)%Z <> Z.of_N o') ->
  ~ exists bc', bytecode_from E code (pool_of (cesu8 E) (slots_of cs)) = Ok bc'.
Proof.
  intros Hfit Hi Hin Hj Hno (bc' & H). apply (bytecode_from_Ok E cs) in H; auto. destruct H as [Hi' Hv].
  assert (Heq : opcodes bc' = opcodes bc).
  { apply (read_opcodes_Ok E cs) in Hi, Hi'; auto. congruence. }
  rewrite Heq in Hv. destruct (Hv o op Hin) as [_ Hx]. destruct (Hx j Hj) as (o' & Ho' & He).
  apply in_map_iff in Ho'. destruct Ho' as ([x op'] & <- & Hx'). exact (Hno _ _ Hx' He).
Qed.

(** Forward and backward jumps, and those of the two switch instructions. *)
Example C27_meets : sane debug64 sample /\ parse_class_with_options debug64 true sample = Ok sample_parsed
  /\ bytecode_of sample_parsed sample_code sample_bytecode
  /\ In (15, OpIfeq 82) (opcodes sample_bytecode) /\ In (94, OpGoto (-94)) (opcodes sample_bytecode)
  /\ exists t s, In (18, OpTableswitch t) (opcodes sample_bytecode) /\ In 93%Z (jumps t)
     /\ In (44, OpLookupswitch s) (opcodes sample_bytecode) /\ In (100000, -44)%Z (match_offsets s).
Proof.
  split; [exact sample_sane|]. split; [exact sample_parse|]. split; [exact sample_bytecode_of|].
  split; [vm_compute; tauto|]. split; [vm_compute; tauto|].
  eexists (mk_range _ _ _ _), (mk_lookup _ _). split; [|split; [|split]]; [do 6 right; left; reflexivity| |do 7 right; left; reflexivity|]; vm_compute; tauto.
Qed.
(** goto to itself plus two, where no opcode starts. *)
Example C27_bad_jump_meets : let code := [xa7; x00; x02] in let bc := mk_bc [(0, OpGoto 2)] in
  fits debug64 code /\ insns_lang (cesu8 debug64) (slots_of []) (wrapping debug64) 0 (opcodes bc) code
  /\ In (0, OpGoto 2) (opcodes bc) /\ In 2%Z (targets (OpGoto 2))
  /\ forall o' op', In (o', op') (opcodes bc) -> (Z.of_N 0 + 2)%Z <> Z.of_N o'.
Proof.
  split; [split; vm_compute; discriminate|]. split.
  - split; [reflexivity|]. exists [xa7; x00; x02], []. split; [reflexivity|]. split; [|reflexivity]. left.
    exists [xa7], [x00; x02]. split; [reflexivity|]. split; [piece|split; [reflexivity|split; [split; [discriminate|reflexivity]|reflexivity]]].
  - split; [left; reflexivity|]. split; [left; reflexivity|]. intros o' op' [He|[]]. injection He as <- <-. discriminate.
Qed.

(** ** C28 *)
(** Full property for builds with overflow checks. *)
Theorem C28_tableswitch E opts bs c cd bc o t : sane E bs -> parse_class_with_options E opts bs = Ok c -> bytecode_of c cd bc ->
  overflow_checks E = true -> In (o, OpTableswitch t) (opcodes bc) ->
  (rg_low t <= rg_high t /\ Z.of_nat (length (jumps t)) = rg_high t - rg_low t + 1)%Z.
Proof.
  intros Hs H Hb Hov Hin. destruct (code_formatted' _ _ _ _ _ _ Hs H Hb) as (cs & _ & Hf & _).
  destruct (insns_at E cs _ _ _ _ Hf Hin) as (u & _ & Hu). cbn [insn_lang] in Hu.
  destruct Hu as (? & ? & _ & _ & ? & ? & _ & _ & ? & ? & _ & _ & ? & ? & _ & _ & ? & ? & _ & _ & ? & ? & _ & (_ & Ht) & _).
  destruct Ht as [(H1 & _ & H2)|(Hw & _)]; [auto|]. unfold wrapping in Hw. rewrite Hov in Hw. discriminate.
Qed.
(** In builds without them there is one exception: a table from the least to the greatest
    number, which is taken to be empty. *)
Theorem C28_tableswitch_partial E opts bs c cd bc o t : sane E bs -> parse_class_with_options E opts bs = Ok c -> bytecode_of c cd bc ->
  In (o, OpTableswitch t) (opcodes bc) ->
  (rg_low t <= rg_high t)%Z /\
  (Z.of_nat (length (jumps t)) = rg_high t - rg_low t + 1
   \/ overflow_checks E = false /\ rg_low t = - 2 ^ 31 /\ rg_high t = 2 ^ 31 - 1 /\ jumps t = [])%Z.
Proof.
  intros Hs H Hb Hin. destruct (code_formatted' _ _ _ _ _ _ Hs H Hb) as (cs & _ & Hf & _).
  destruct (insns_at E cs _ _ _ _ Hf Hin) as (u & _ & Hu). cbn [insn_lang] in Hu.
  destruct Hu as (? & ? & _ & _ & ? & ? & _ & _ & ? & ? & _ & _ & ? & ? & _ & _ & ? & ? & _ & _ & ? & ? & _ & (_ & Ht) & _).
  destruct Ht as [(H1 & _ & H2)|(Hw & H1 & H2 & H3)]; [auto|].
  rewrite H1, H2. split; [discriminate|]. right. unfold wrapping in Hw. destruct (overflow_checks E); [discriminate|]. destruct (jumps t); [auto|discriminate].
Qed.
(** The bytes of a lookupswitch after its padding: default, number of pairs, pairs. *)
Theorem C28_lookupswitch E opts bs c cd bc o t : sane E bs -> parse_class_with_options E opts bs = Ok c -> bytecode_of c cd bc ->
  In (o, OpLookupswitch t) (opcodes bc) ->
  exists b padding dflt npairs pairs, bytes_at (cd_code cd) o (b :: padding ++ dflt ++ npairs ++ concat pairs)
    /\ Byte.to_N b = 0xab /\ (length padding < 4)%nat /\ (o + 1 + N.of_nat (length padding)) mod 4 = 0
    /\ s4 (lk_default t) dflt /\ s4 (Z.of_nat (length (match_offsets t))) npairs
    /\ Forall2 (fun p w => (s4 (fst p) +++ s4 (snd p)) w) (match_offsets t) pairs.
Proof.
  intros Hs H Hb Hin. destruct (code_formatted' _ _ _ _ _ _ Hs H Hb) as (cs & _ & Hf & _).
  destruct (insns_at E cs _ _ _ _ Hf Hin) as (u & Hat & Hu). cbn [insn_lang] in Hu.
  apply u1_cons in Hu. destruct Hu as (b & w & -> & Hbb & p & w1 & -> & Hp & w2 & w3 & -> & H2 & w4 & w5 & -> & H4 & Hm).
  apply many_concat in Hm. destruct Hm as (ws & Hws & ->). exists b, p, w2, w4, ws. split; auto. split; auto.
  unfold pad, blob in Hp. assert ((3 - o mod 4) mod 4 < 4) by (apply N.mod_lt; lia). split; [lia|]. split; [|auto].
  rewrite Hp. assert (o mod 4 < 4) by (apply N.mod_lt; lia). rewrite (N.mod_small (3 - o mod 4)) by lia.
  rewrite (N.div_mod o 4) at 1 by lia. replace (4 * (o / 4) + o mod 4 + 1 + (3 - o mod 4)) with ((o / 4 + 1) * 4) by lia. apply N.mod_mul. lia.
Qed.

(** A method consisting of a tableswitch from -2^31 to 2^31 - 1, at offset 3 after three nops, jumping to 0. *)
Definition huge_switch : list byte := unhex
  "cafebabe00000034 0006 01000141070001 0100016d 010003282956 010004436f6465
   0021 0002 0000 0000 0000 0001 0009 0003 0004 0001 0005 0000001c 0000 0000 00000010 000000 aa fffffffd 80000000 7fffffff 0000 0000 0000".
Theorem C28_tableswitch_refuted : exists bs c cd bc o t, sane release64 bs /\ parse_class release64 bs = Ok c /\ bytecode_of c cd bc
  /\ In (o, OpTableswitch t) (opcodes bc) /\ (Z.of_nat (length (jumps t)) <> rg_high t - rg_low t + 1)%Z.
Proof.
  assert (Hs : sane release64 huge_switch) by (apply ample_sane, ampleb_ample; vm_compute; reflexivity).
  destruct (parse_class release64 huge_switch) as [c| | |] eqn:H; [|exfalso; revert H; vm_compute; discriminate..].
  pose (ok a := match a with mk_attr _ (ACode cd) =>
      match cd_bytecode cd with Some (mk_bc [_; _; _; (3, OpTableswitch t)]) => Nat.eqb (length (jumps t)) 0 && (rg_high t - rg_low t + 1 =? 2 ^ 32)%Z | _ => false end | _ => false end).
  assert (Hg : match parse_class release64 huge_switch with Ok c => match methods c with [m] => match m_attributes m with [a] => ok a | _ => false end | _ => false end | _ => false end = true) by (vm_compute; reflexivity).
  rewrite H in Hg. destruct (methods c) as [|m []] eqn:Hm; try discriminate Hg. destruct (m_attributes m) as [|[n dat] []] eqn:Ha; try discriminate Hg.
  unfold ok in Hg. destruct dat; try discriminate Hg. match type of Hg with context[cd_bytecode ?x] => rename x into cd end.
  destruct (cd_bytecode cd) as [[ops]|] eqn:Hb; try discriminate Hg.
  destruct ops as [|x0 [|x1 [|x2 [|[o op] [|]]]]]; try discriminate Hg; destruct o as [|[[]|[]|]]; try discriminate Hg; destruct op; try discriminate Hg.
  apply andb_prop in Hg. destruct Hg as [H1 H2]. apply Nat.eqb_eq in H1. apply Z.eqb_eq in H2.
  do 2 eexists. exists cd, (mk_bc [x0; x1; x2; (3, OpTableswitch x3)]), 3, x3. split; [exact Hs|]. split; [exact H|].
  split; [exists n; split; auto; apply (of_method _ m); [rewrite Hm; left; auto|rewrite Ha; left; auto]|].
  split; [cbn [opcodes In]; auto|]. rewrite H1, H2. discriminate.
Qed.

Example C28_meets : sane debug64 sample /\ parse_class_with_options debug64 true sample = Ok sample_parsed
  /\ bytecode_of sample_parsed sample_code sample_bytecode /\ overflow_checks debug64 = true
  /\ (exists t, In (18, OpTableswitch t) (opcodes sample_bytecode) /\ rg_low t = (-1)%Z /\ rg_high t = 1%Z /\ jumps t = [-18; 26; 93]%Z)
  /\ exists t, In (44, OpLookupswitch t) (opcodes sample_bytecode) /\ match_offsets t = [(-9, -26); (100000, -44)]%Z.
Proof.
  split; [exact sample_sane|]. split; [exact sample_parse|]. split; [exact sample_bytecode_of|]. split; [reflexivity|]. split.
  - eexists. split; [do 6 right; left; reflexivity|]. repeat split.
  - eexists. split; [do 7 right; left; reflexivity|]. reflexivity.
Qed.

(** ** C29 *)
(** Every opcode stands in the code array as the JVM's table says ([insn_lang], by mnemonic) ... *)
Theorem C29_table E opts bs c cd bc cs o op : sane E bs -> parse_class_with_options E opts bs = Ok c -> constants_of E bs cs ->
  bytecode_of c cd bc -> In (o, op) (opcodes bc) ->
  exists w, bytes_at (cd_code cd) o w /\ insn_lang (cesu8 E) (slots_of cs) (wrapping E) o op w.
Proof.
  intros Hs H Hcs Hb Hin. destruct (code_formatted _ _ _ _ _ _ _ Hs H Hcs Hb) as ((Hf & _) & _ & _). exact (insns_at E cs _ _ _ _ Hf Hin).
Qed.
(** ... and what stands there as an instruction of the table is the opcode reported. *)
Theorem C29_table_unique E opts bs c cd bc cs o op op' w : sane E bs -> parse_class_with_options E opts bs = Ok c -> constants_of E bs cs ->
  bytecode_of c cd bc -> In (o, op) (opcodes bc) ->
  bytes_at (cd_code cd) o w -> insn_lang (cesu8 E) (slots_of cs) (wrapping E) o op' w -> op' = op.
Proof.
  intros Hs H Hcs Hb Hin Hat Hop. destruct (code_formatted _ _ _ _ _ _ _ Hs H Hcs Hb) as ((Hf & _) & _ & Hl).
  destruct (insns_at E cs _ _ _ _ Hf Hin) as (u & Hu & Hi).
  apply (insn_det E cs (cd_code cd) o op' op w u); auto. eapply fits_code; eauto.
Qed.

Lemma u1_bytes n w : u1 n w -> exists b, w = [b] /\ n = Byte.to_N b.
Proof. intros [Hl Hn]. destruct w as [|b [|]]; try discriminate. exists b. auto. Qed.
Lemma u2_bytes n w : u2 n w -> exists a b, w = [a; b] /\ n = Byte.to_N a * 256 + Byte.to_N b.
Proof. intros [Hl Hn]. destruct w as [|a [|b [|]]]; try discriminate. exists a, b. auto. Qed.
(** Two's complement value of a [bits]-bit number. *)
Definition twos (bits : Z) (n : N) : Z := (if Z.of_N n <? 2 ^ (bits - 1) then Z.of_N n else Z.of_N n - 2 ^ bits)%Z.
Lemma twos_signed bits n : (0 < Z.of_N bits)%Z -> to_signed bits n = twos (Z.of_N bits) n.
Proof.
  intro Hb. unfold to_signed, twos. 
  assert (He : Z.of_N (2 ^ (bits - 1)) = (2 ^ (Z.of_N bits - 1))%Z) by (rewrite N2Z.inj_pow, N2Z.inj_sub by lia; reflexivity).
  destruct (N.ltb_spec n (2 ^ (bits - 1))) as [H|H]; destruct (Z.ltb_spec (Z.of_N n) (2 ^ (Z.of_N bits - 1))) as [H1|H1]; auto; lia.
Qed.
Lemma s1_bytes z w : s1 z w -> exists b, w = [b] /\ z = twos 8 (Byte.to_N b).
Proof. intro H. apply s1_u1 in H. destruct H as (n & H & ->). apply u1_bytes in H. destruct H as (b & -> & ->). exists b. split; auto. apply (twos_signed 8). lia. Qed.
Lemma s2_bytes z w : s2 z w -> exists a b, w = [a; b] /\ z = twos 16 (Byte.to_N a * 256 + Byte.to_N b).
Proof. intro H. apply s2_u2 in H. destruct H as (n & H & ->). apply u2_bytes in H. destruct H as (a & b & -> & ->). exists a, b. split; auto. apply (twos_signed 16). lia. Qed.
Lemma s4_bytes z w : s4 z w -> length w = 4%nat /\ z = twos 32 (be w).
Proof. intro H. apply s4_u4 in H. destruct H as (n & [Hl <-] & ->). split; auto. apply (twos_signed 32). lia. Qed.

(** Loads and stores: mnemonic, opcode with an explicit index, first of the four short forms. *)
Definition local_forms : list ((N -> opcode) * (N * N)) :=
  [(OpIload, (0x15, 0x1a)); (OpLload, (0x16, 0x1e)); (OpFload, (0x17, 0x22)); (OpDload, (0x18, 0x26)); (OpAload, (0x19, 0x2a));
   (OpIstore, (0x36, 0x3b)); (OpLstore, (0x37, 0x3f)); (OpFstore, (0x38, 0x43)); (OpDstore, (0x39, 0x47)); (OpAstore, (0x3a, 0x4b))].
Theorem C29_local_indices E opts bs c cd bc o mk plain short i : sane E bs -> parse_class_with_options E opts bs = Ok c ->
  bytecode_of c cd bc -> In (mk, (plain, short)) local_forms -> In (o, mk i) (opcodes bc) ->
  (exists b0 b1, bytes_at (cd_code cd) o [b0; b1] /\ Byte.to_N b0 = plain /\ i = Byte.to_N b1)
  \/ (exists b0, bytes_at (cd_code cd) o [b0] /\ Byte.to_N b0 = short + i /\ i <= 3)
  \/ (exists b0 b1 b2 b3, bytes_at (cd_code cd) o [b0; b1; b2; b3] /\ Byte.to_N b0 = 0xc4 /\ Byte.to_N b1 = plain
      /\ i = Byte.to_N b2 * 256 + Byte.to_N b3).
Proof.
  intros Hs H Hb Hm Hin. destruct (code_formatted' _ _ _ _ _ _ Hs H Hb) as (cs & Hcs & _).
  destruct (C29_table _ _ _ _ _ _ _ _ _ Hs H Hcs Hb Hin) as (w & Hat & Hi).
  assert (Hl : local plain short i w).
  { cbn [local_forms In] in Hm. repeat destruct Hm as [[= <- <- <-]|Hm]; try exact Hi. contradiction. }
  clear Hi Hin Hm. unfold local, alt in Hl. destruct Hl as [Hl|[Hl|Hl]].
  - left. apply u1_cons in Hl. destruct Hl as (b & w' & -> & Hbb & Hl). apply u1_bytes in Hl. destruct Hl as (b1 & -> & ->). exists b, b1. auto.
  - right. left. apply cat_only_r in Hl. destruct Hl as [Hl Hle]. apply u1_bytes in Hl. destruct Hl as (b & -> & ->). exists b. auto.
  - right. right. apply u1_cons in Hl. destruct Hl as (b & w' & -> & Hbb & Hl). apply u1_cons in Hl. destruct Hl as (b1 & w1 & -> & Hbb1 & Hl).
    apply u2_bytes in Hl. destruct Hl as (b2 & b3 & -> & ->). exists b, b1, b2, b3. auto.
Qed.
(** Conversely, each of the three forms at the offset of an opcode makes it that load or store. *)
Theorem C29_local_forms E opts bs c cd bc o op mk plain short : sane E bs -> parse_class_with_options E opts bs = Ok c ->
  bytecode_of c cd bc -> In (mk, (plain, short)) local_forms -> In (o, op) (opcodes bc) ->
  (forall b0 b1, bytes_at (cd_code cd) o [b0; b1] -> Byte.to_N b0 = plain -> op = mk (Byte.to_N b1))
  /\ (forall b0 k, bytes_at (cd_code cd) o [b0] -> Byte.to_N b0 = short + k -> k <= 3 -> op = mk k)
  /\ (forall b0 b1 b2 b3, bytes_at (cd_code cd) o [b0; b1; b2; b3] -> Byte.to_N b0 = 0xc4 -> Byte.to_N b1 = plain ->
       op = mk (Byte.to_N b2 * 256 + Byte.to_N b3)).
Proof.
  intros Hs H Hb Hm Hin. destruct (code_formatted' _ _ _ _ _ _ Hs H Hb) as (cs & Hcs & _).
  assert (Hu : forall i w, bytes_at (cd_code cd) o w -> local plain short i w -> op = mk i).
  { intros i w Hat Hl. symmetry. apply (C29_table_unique _ _ _ _ _ _ _ _ _ _ _ Hs H Hcs Hb Hin Hat).
    cbn [local_forms In] in Hm. repeat destruct Hm as [[= <- <- <-]|Hm]; try exact Hl. contradiction. }
  split; [|split].
  - intros b0 b1 Hat Hb0. apply (Hu _ _ Hat). left. apply u1_cons_intro; auto. apply u1_byte. auto.
  - intros b0 k Hat Hb0 Hk. apply (Hu _ _ Hat). right. left. apply cat_nil_r; auto. apply u1_byte. auto.
  - intros b0 b1 b2 b3 Hat Hb0 Hb1. apply (Hu _ _ Hat). right. right. apply u1_cons_intro; auto. apply u1_cons_intro; auto. split; reflexivity.
Qed.

(** Immediate operands and branch offsets are sign-extended; iinc and ret. *)
Definition short_jumps : list ((Z -> opcode) * N) :=
  [(OpIfeq, 0x99); (OpIfne, 0x9a); (OpIflt, 0x9b); (OpIfge, 0x9c); (OpIfgt, 0x9d); (OpIfle, 0x9e); (OpIfIcmpeq, 0x9f);
   (OpIfIcmpne, 0xa0); (OpIfIcmplt, 0xa1); (OpIfIcmpge, 0xa2); (OpIfIcmpgt, 0xa3); (OpIfIcmple, 0xa4); (OpIfAcmpeq, 0xa5);
   (OpIfAcmpne, 0xa6); (OpIfnull, 0xc6); (OpIfnonnull, 0xc7)].
Theorem C29_signed_operands E opts bs c cd bc o op : sane E bs -> parse_class_with_options E opts bs = Ok c ->
  bytecode_of c cd bc -> In (o, op) (opcodes bc) ->
  let stands w := bytes_at (cd_code cd) o w in
  let v := Byte.to_N in
  let v2 a b := v a * 256 + v b in
  (forall z, op = OpBipush z -> exists a b, stands [a; b] /\ v a = 0x10 /\ z = twos 8 (v b))
  /\ (forall z, op = OpSipush z -> exists a b1 b2, stands [a; b1; b2] /\ v a = 0x11 /\ z = twos 16 (v2 b1 b2))
  /\ (forall mk n z, In (mk, n) short_jumps -> op = mk z -> exists a b1 b2, stands [a; b1; b2] /\ v a = n /\ z = twos 16 (v2 b1 b2))
  /\ (forall mk n z, In (mk, n) [(OpGoto, 0); (OpJsr, 1)] -> op = mk z ->
        (exists a b1 b2, stands [a; b1; b2] /\ v a = 0xa7 + n /\ z = twos 16 (v2 b1 b2))
        \/ (exists a w, stands (a :: w) /\ v a = 0xc8 + n /\ length w = 4%nat /\ z = twos 32 (be w)))
  /\ (forall i k, op = OpIinc i k ->
        (exists a b1 b2, stands [a; b1; b2] /\ v a = 0x84 /\ i = v b1 /\ k = twos 8 (v b2))
        \/ (exists a a' b1 b2 b3 b4, stands [a; a'; b1; b2; b3; b4] /\ v a = 0xc4 /\ v a' = 0x84 /\ i = v2 b1 b2 /\ k = twos 16 (v2 b3 b4)))
  /\ (forall i, op = OpRet i ->
        (exists a b, stands [a; b] /\ v a = 0xa9 /\ i = v b)
        \/ (exists a a' b1 b2, stands [a; a'; b1; b2] /\ v a = 0xc4 /\ v a' = 0xa9 /\ i = v2 b1 b2)).
Proof.
  intros Hs H Hb Hin stands v v2. destruct (code_formatted' _ _ _ _ _ _ Hs H Hb) as (cs & Hcs & _).
  destruct (C29_table _ _ _ _ _ _ _ _ _ Hs H Hcs Hb Hin) as (w & Hat & Hi). clear Hin.
  repeat split.
  - intros z ->. apply u1_cons in Hi. destruct Hi as (a & w' & -> & Ha & Hi). apply s1_bytes in Hi. destruct Hi as (b & -> & ->). exists a, b. auto.
  - intros z ->. apply u1_cons in Hi. destruct Hi as (a & w' & -> & Ha & Hi). apply s2_bytes in Hi. destruct Hi as (b1 & b2 & -> & ->). exists a, b1, b2. auto.
  - intros mk n z Hm ->. assert (Hj : jump n z w).
    { cbn [short_jumps In] in Hm. repeat destruct Hm as [[= <- <-]|Hm]; try exact Hi. contradiction. }
    apply u1_cons in Hj. destruct Hj as (a & w' & -> & Ha & Hj). apply s2_bytes in Hj. destruct Hj as (b1 & b2 & -> & ->). exists a, b1, b2. auto.
  - intros mk n z Hm ->. assert (Hj : (jump (0xa7 + n) z or (u1 (0xc8 + n) +++ s4 z)) w).
    { cbn [In] in Hm. repeat destruct Hm as [[= <- <-]|Hm]; try exact Hi. contradiction. }
    destruct Hj as [Hj|Hj]; [left|right]; apply u1_cons in Hj; destruct Hj as (a & w' & -> & Ha & Hj).
    + apply s2_bytes in Hj. destruct Hj as (b1 & b2 & -> & ->). exists a, b1, b2. auto.
    + apply s4_bytes in Hj. destruct Hj as [Hl ->]. exists a, w'. auto.
  - intros i k ->. destruct Hi as [Hj|Hj]; [left|right]; apply u1_cons in Hj; destruct Hj as (a & w' & -> & Ha & Hj).
    + apply cat_assoc in Hj || idtac. destruct Hj as (x & y & -> & Hx & Hy). apply u1_bytes in Hx. destruct Hx as (b1 & -> & ->).
      apply s1_bytes in Hy. destruct Hy as (b2 & -> & ->). exists a, b1, b2. auto.
    + apply u1_cons in Hj. destruct Hj as (a' & w1 & -> & Ha' & x & y & -> & Hx & Hy). apply u2_bytes in Hx. destruct Hx as (b1 & b2 & -> & ->).
      apply s2_bytes in Hy. destruct Hy as (b3 & b4 & -> & ->). exists a, a', b1, b2, b3, b4. repeat split; auto.
  - intros i ->. destruct Hi as [Hj|Hj]; [left|right]; apply u1_cons in Hj; destruct Hj as (a & w' & -> & Ha & Hj).
    + apply u1_bytes in Hj. destruct Hj as (b & -> & ->). exists a, b. auto.
    + apply u1_cons in Hj. destruct Hj as (a' & w1 & -> & Ha' & Hx). apply u2_bytes in Hx. destruct Hx as (b1 & b2 & -> & ->). exists a, a', b1, b2. repeat split; auto.
Qed.

(** Opcode bytes: 0 to ca, fe, ff; after wide (c4) only loads, stores, iinc and ret. *)
Definition assigned (n : N) : Prop := n <= 0xca \/ n = 0xfe \/ n = 0xff.
Definition widenable (n : N) : Prop := 0x15 <= n <= 0x19 \/ 0x36 <= n <= 0x3a \/ n = 0x84 \/ n = 0xa9.
Lemma insn_assigned E cs o op w : insn_lang (cesu8 E) (slots_of cs) (wrapping E) o op w ->
  exists b w', w = b :: w' /\ assigned (Byte.to_N b) /\ (Byte.to_N b = 0xc4 -> exists b' w'', w' = b' :: w'' /\ widenable (Byte.to_N b')).
Proof.
  intro H. destruct op; cbn [insn_lang] in H; unfold op0, jump, local, alt in H;
    repeat match type of H with _ \/ _ => destruct H as [H|H] end;
    try (apply cat_only_r in H; destruct H as [H Hi]);
    lazymatch type of H with
    | u1 _ _ => apply (cat_nil_r _ True) in H; [|exact I]
    | _ => idtac
    end;
    apply u1_cons in H; destruct H as (b & w' & -> & Hb & H); exists b, w'; (split; [reflexivity|]); unfold assigned; (split; [lia|]);
    first [lia | intros _; apply u1_cons in H; destruct H as (b' & w'' & -> & Hb' & H); exists b', w''; split; [reflexivity|]; unfold widenable; lia].
Qed.
Theorem C29_unassigned_rejected E cs code pre ops b rest : fits E code -> code = pre ++ b :: rest ->
  insns_lang (cesu8 E) (slots_of cs) (wrapping E) 0 ops pre ->
  (~ assigned (Byte.to_N b) \/ Byte.to_N b = 0xc4 /\ forall b' r, rest = b' :: r -> ~ widenable (Byte.to_N b')) ->
  ~ exists bc, bytecode_from E code (pool_of (cesu8 E) (slots_of cs)) = Ok bc.
Proof.
  intros Hfit Hcode Hops Hbad (bc & H). apply (bytecode_from_Ok E cs) in H; auto. destruct H as [Hi _].
  assert (Hgo : forall ops o w ops' pre q, insns_lang (cesu8 E) (slots_of cs) (wrapping E) o ops w -> insns_lang (cesu8 E) (slots_of cs) (wrapping E) o ops' (w ++ b :: rest) ->
    code = q ++ w ++ b :: rest -> N.of_nat (length q) = o -> pre = w ->
    exists o' op u r, b :: rest = u ++ r /\ insn_lang (cesu8 E) (slots_of cs) (wrapping E) o' op u).
  { clear - Hfit. induction ops as [|[off op] ops IH]; intros o w ops' pre q H H' Hq Ho ->.
    - change (w = []) in H. subst w. destruct ops' as [|[off' op'] ops'].
      + discriminate H'.
      + destruct H' as (-> & u & v & He & Hu & _). exists o, op', u, v. auto.
    - destruct H as (-> & u & v & -> & Hu & Hv). destruct ops' as [|[off' op'] ops'].
      + change ((u ++ v) ++ b :: rest = []) in H'. apply (f_equal (@length byte)) in H'. rewrite !app_length in H'. cbn in H'. lia.
      + destruct H' as (-> & u' & v' & He & Hu' & Hv').
        destruct (insn_det E cs code o op op' u u') as [-> <-]; auto.
        { exists q, (v ++ b :: rest). rewrite Hq, <- app_assoc. auto. }
        { exists q, v'. rewrite Hq, He. auto. }
        rewrite <- app_assoc in He. apply app_inv_head in He. subst v'.
        apply (IH _ v ops' v (q ++ u) Hv Hv'); auto.
        * rewrite Hq, <- !app_assoc. reflexivity.
        * rewrite app_length. lia. }
  rewrite Hcode in Hi. destruct (Hgo ops 0 pre (opcodes bc) pre [] Hops Hi) as (o' & op & u & r & He & Hu); auto.
  apply insn_assigned in Hu. destruct Hu as (b1 & w' & -> & Ha & Hw). injection He as <- Hr.
  destruct Hbad as [Hn|[Hc Hn]]; [auto|]. destruct (Hw Hc) as (b' & w'' & -> & Hwid). subst rest. eapply Hn; eauto. reflexivity.
Qed.

Example C29_meets : sane debug64 sample /\ parse_class_with_options debug64 true sample = Ok sample_parsed
  /\ constants_of debug64 sample sample_constants /\ bytecode_of sample_parsed sample_code sample_bytecode
  /\ In (0, OpIload 1) (opcodes sample_bytecode) /\ In (3, OpIstore 4) (opcodes sample_bytecode) /\ In (11, OpAload 300) (opcodes sample_bytecode)
  /\ In (1, OpBipush (-5)) (opcodes sample_bytecode) /\ In (97, OpSipush (-1000)) (opcodes sample_bytecode)
  /\ In (5, OpIinc 1 (-300)) (opcodes sample_bytecode) /\ In (100, OpIinc 2 (-7)) (opcodes sample_bytecode).
Proof.
  split; [exact sample_sane|]. split; [exact sample_parse|]. split; [exact sample_of|]. split; [exact sample_bytecode_of|].
  repeat split; vm_compute; tauto.
Qed.
(** nop, then the byte CB. *)
Example C29_unassigned_meets : fits debug64 [x00; xcb]
  /\ insns_lang (cesu8 debug64) (slots_of []) (wrapping debug64) 0 [(0, OpNop)] [x00] /\ ~ assigned (Byte.to_N xcb).
Proof.
  split; [split; vm_compute; discriminate|]. split; [|vm_compute; intuition discriminate].
  split; [reflexivity|]. exists [x00], []. split; [reflexivity|]. split; [split; reflexivity|reflexivity].
Qed.

(** ** C30 *)
(** The constant an instruction refers to: two bytes after the opcode. *)
Definition refers (E : env) (cs : list constant) (code : list byte) (o n : N) (tail : list N) (x : constant) : Prop :=
  exists b hi lo rest, bytes_at code o (b :: hi :: lo :: rest) /\ Byte.to_N b = n /\ map Byte.to_N rest = tail
    /\ at_index (slots_of cs) (Byte.to_N hi * 256 + Byte.to_N lo) x.
Theorem C30_member_references E opts bs c cd bc cs o op : sane E bs -> parse_class_with_options E opts bs = Ok c ->
  constants_of E bs cs -> bytecode_of c cd bc -> In (o, op) (opcodes bc) ->
  let R := refers E cs (cd_code cd) o in
  let is_member k n tail m := exists cl nt, R n tail (member_constant k cl nt)
      /\ class_at (cesu8 E) (slots_of cs) cl (mr_class_name m) /\ name_and_type_at (cesu8 E) (slots_of cs) nt (mr_name_and_type m) in
  match op with
  | OpGetstatic m => is_member KField 0xb2 [] m
  | OpPutstatic m => is_member KField 0xb3 [] m
  | OpGetfield m => is_member KField 0xb4 [] m
  | OpPutfield m => is_member KField 0xb5 [] m
  | OpInvokevirtual m => is_member KMethod 0xb6 [] m
  | OpInvokespecial m => is_member KMethod 0xb7 [] m \/ is_member KInterfaceMethod 0xb7 [] m
  | OpInvokestatic m => is_member KMethod 0xb8 [] m \/ is_member KInterfaceMethod 0xb8 [] m
  | OpInvokeinterface m count => is_member KInterfaceMethod 0xb9 [count; 0] m
  | OpInvokedynamic d => exists nt, R 0xba [0; 0] (CInvokeDynamic (indy_attr_index d) nt)
      /\ name_and_type_at (cesu8 E) (slots_of cs) nt (indy_name_and_type d)
  | _ => True
  end.
Proof.
  intros Hs H Hcs Hb Hin R is_member. destruct (C29_table _ _ _ _ _ _ _ _ _ Hs H Hcs Hb Hin) as (w & Hat & Hi). clear Hin.
  destruct op; auto; cbn [insn_lang] in Hi; apply u1_cons in Hi; destruct Hi as (b & w' & -> & Hbb & Hi).
  all: try (destruct Hi as (i & Hi & k & Hk & cl & nt & Hx & Hc & Hn); apply u2_bytes in Hi; destruct Hi as (h & l & -> & ->);
       destruct Hk as [<-|[]]; exists cl, nt; split; auto; exists b, h, l, []; auto; fail).
  all: try (destruct Hi as (i & Hi & k & Hk & cl & nt & Hx & Hc & Hn); apply u2_bytes in Hi; destruct Hi as (h & l & -> & ->);
       destruct Hk as [<-|[<-|[]]]; [left|right]; exists cl, nt; split; auto; exists b, h, l, []; auto; fail).
  all: try (destruct Hi as (u & v & -> & (i & Hi & k & Hk & cl & nt & Hx & Hc & Hn) & Hcnt); apply u2_bytes in Hi; destruct Hi as (h & l & -> & ->);
    destruct Hcnt as (x & y & -> & Hx1 & Hy1); apply u1_bytes in Hx1, Hy1; destruct Hx1 as (b1 & -> & ->), Hy1 as (b2 & -> & Hz);
    destruct Hk as [<-|[]]; exists cl, nt; split; auto; exists b, h, l, [b1; b2]; split; auto; split; auto; split; auto; cbn; rewrite <- Hz; reflexivity).
  all: destruct Hi as (u & v & -> & (i & Hi & nt & Hx & Hn) & Hcnt); apply u2_bytes in Hi; destruct Hi as (h & l & -> & ->);
    apply u2_bytes in Hcnt; destruct Hcnt as (b1 & b2 & -> & Hz); exists nt; split; auto; exists b, h, l, [b1; b2];
    split; auto; split; auto; split; auto; cbn [map app]; f_equal; [lia|f_equal; lia].
Qed.
(** ldc, ldc_w and ldc2_w: the constant is loadable and the operand is its value. *)
Definition is_loadable (x : constant) : Prop :=
  match x with
  | CInteger _ | CFloat _ | CLong _ | CDouble _ | CString _ | CClass _ | CMethodHandle _ _ | CMethodType _ | CDynamic _ _ => True
  | _ => False
  end.
Lemma loadable_kind E cs i l : loadable_at (cesu8 E) (slots_of cs) i l -> exists x, at_index (slots_of cs) i x /\ is_loadable x.
Proof.
  destruct l as [l|s|h|s|d]; cbn.
  - destruct l; cbn; intro H; try (eexists; split; [exact H|exact I]); destruct H as (j & Hj & _); eexists; split; [exact Hj|exact I|exact Hj|exact I].
  - intros (j & Hj & _). eexists; split; [exact Hj|exact I].
  - intros (j & Hj & _). eexists; split; [exact Hj|exact I].
  - intros (j & Hj & _). eexists; split; [exact Hj|exact I].
  - intros (j & Hj & _). eexists; split; [exact Hj|exact I].
Qed.
Theorem C30_loadable_constants E opts bs c cd bc cs o op l : sane E bs -> parse_class_with_options E opts bs = Ok c ->
  constants_of E bs cs -> bytecode_of c cd bc -> In (o, op) (opcodes bc) -> op = OpLdc l \/ op = OpLdcW l \/ op = OpLdc2W l ->
  exists b w i x, bytes_at (cd_code cd) o (b :: w)
    /\ (op = OpLdc l /\ Byte.to_N b = 0x12 /\ u1 i w \/ op = OpLdcW l /\ Byte.to_N b = 0x13 /\ u2 i w \/ op = OpLdc2W l /\ Byte.to_N b = 0x14 /\ u2 i w)
    /\ at_index (slots_of cs) i x /\ is_loadable x /\ loadable_at (cesu8 E) (slots_of cs) i l.
Proof.
  intros Hs H Hcs Hb Hin Hop. destruct (C29_table _ _ _ _ _ _ _ _ _ Hs H Hcs Hb Hin) as (w & Hat & Hi). clear Hin.
  destruct Hop as [Hop|[Hop|Hop]]; subst op; apply u1_cons in Hi; destruct Hi as (b & w' & -> & Hbb & i & Hi & Hl);
  destruct (loadable_kind _ _ _ _ Hl) as (x & Hx & Hk); exists b, w', i, x; auto 10.
Qed.

Example C30_meets : sane debug64 sample /\ parse_class_with_options debug64 true sample = Ok sample_parsed
  /\ constants_of debug64 sample sample_constants /\ bytecode_of sample_parsed sample_code sample_bytecode
  /\ (exists m, In (78, OpGetfield m) (opcodes sample_bytecode) /\ mr_class_name m = lit "Sample" /\ nt_name (mr_name_and_type m) = lit "x")
  /\ (exists m, In (81, OpInvokevirtual m) (opcodes sample_bytecode) /\ nt_name (mr_name_and_type m) = lit "hashCode")
  /\ (exists m n, In (89, OpInvokeinterface m n) (opcodes sample_bytecode) /\ n = 1)
  /\ (exists l, In (72, OpLdc l) (opcodes sample_bytecode)) /\ (exists l, In (74, OpLdc2W l) (opcodes sample_bytecode)).
Proof.
  split; [exact sample_sane|]. split; [exact sample_parse|]. split; [exact sample_of|]. split; [exact sample_bytecode_of|].
  split; [|split; [|split; [|split]]].
  - eexists. split; [do 11 right; left; reflexivity|]. repeat split.
  - eexists. split; [do 12 right; left; reflexivity|]. repeat split.
  - eexists _, _. split; [do 14 right; left; reflexivity|]. repeat split.
  - eexists. do 8 right; left; reflexivity.
  - eexists. do 9 right; left; reflexivity.
Qed.
