(** * The constant pool: reading, resolving and validating it. *)
From Verif Require Import Base M_Names M_Descriptors M_ConstantPool S_Lang S_Names S_Format
  P_Reads P_Tac P_Names P_Descriptors.
From Coq Require Import ZifyBool ZifyNat ZifyN.

(** ** Taking a number of bytes *)
Lemma usize_result_ok E n : n <= usize_max E -> usize_result E n = Ok n.
Proof. intro H. unfold usize_result. destruct (N.leb_spec n (usize_max E)); [auto|lia]. Qed.

Lemma reads_take {B} E len m (k : list byte -> parser B) M : len < 2 ^ 32 ->
  (forall data, reads E (k data) (M data)) ->
  reads E (bs <- get_bytes ;; ix <- get_ix ;;
           e <- lift (usize_result E (ix + len)) ;;
           if blen bs <? e then pfail (m ix)
           else data <- lift (slice bs ix e) ;; _ <- set_ix e ;; k data)
    (fun b w => exists data, ((fun w => w = data /\ blen data = len) +++ M data b) w).
Proof.
  intros Hlen Hk ix bs b ix' Hfit Hix. unfold bind, get_bytes, get_ix, lift.
  destruct Hfit as [H32 Hu Ha]. assert (Hfit : fits E bs) by (constructor; auto).
  destruct (N.leb_spec (ix + len) (blen bs)) as [Hin|Hout].
  - rewrite usize_result_ok by lia. replace (blen bs <? ix + len) with false by lia.
    destruct (split_at bs ix Hix) as (pre & rest & -> & Hpre).
    rewrite blen_app in Hin. destruct (split_at rest len) as (data & post & -> & Hd); [lia|].
    rewrite (slice_mid pre data post) by lia. unfold set_ix.
    rewrite (Hk data (ix + len) (pre ++ data ++ post) b ix' Hfit) by (rewrite !blen_app; lia). split.
    + intros (pre' & w & post' & Heq & Hl & -> & HM).
      rewrite app_assoc in Heq. apply app_eq_blen in Heq; [|rewrite blen_app; lia].
      destruct Heq as [<- ->]. exists pre, (data ++ w), post'.
      rewrite <- app_assoc, blen_app. repeat split; auto; try lia.
      exists data. apply cat_intro; auto.
    + intros (pre' & w & post' & Heq & Hl & -> & data' & u & v & -> & [-> Hd'] & HM).
      rewrite <- app_assoc in Heq. apply app_eq_blen in Heq; [|lia]. destruct Heq as [<- Heq].
      apply app_eq_blen in Heq; [|lia]. destruct Heq as [<- ->].
      exists (pre ++ data), v, post'. rewrite <- app_assoc, !blen_app. repeat split; auto; lia.
  - split.
    + intro H. exfalso. destruct (usize_result E (ix + len)) as [e| | |] eqn:He; try discriminate.
      destruct (N.ltb_spec (blen bs) e); [discriminate|].
      assert (Hlt : e < ix).
      { unfold usize_result in He. destruct (N.leb_spec (ix + len) (usize_max E)).
        - injection He as <-. lia.
        - destruct (overflow_checks E); [discriminate|]. injection He as <-.
          assert (Hq : (ix + len) mod (usize_max E + 1) = ix + len - (usize_max E + 1)).
          { symmetry. apply N.mod_unique with 1; lia. }
          lia. }
      unfold slice in H. destruct (N.leb_spec ix e); [lia|]. simpl in H. discriminate.
    + intro H. exfalso. destruct H as (pre' & w & post' & -> & -> & _ & data' & u & v & -> & [-> Hd'] & HM).
      rewrite !blen_app in Hout. lia.
Qed.

(** The same without the check for overflow (the length is a u16). *)
Lemma reads_take16 {B} E len m (k : list byte -> parser B) M : len < 2 ^ 16 ->
  (forall data, reads E (k data) (M data)) ->
  reads E (bs <- get_bytes ;; ix <- get_ix ;;
           if blen bs <? ix + len then pfail (m ix)
           else data <- lift (slice bs ix (ix + len)) ;; _ <- set_ix (ix + len) ;; k data)
    (fun b w => exists data, ((fun w => w = data /\ blen data = len) +++ M data b) w).
Proof.
  intros Hlen Hk ix bs b ix' Hfit Hix.
  pose proof (reads_take E len m k M ltac:(lia) Hk ix bs b ix' Hfit Hix) as H.
  rewrite <- H. unfold bind, get_bytes, get_ix, lift.
  destruct Hfit as [H32 Hu Ha].
  rewrite usize_result_ok; [reflexivity|].
  assert (usize_max E / 2 * 2 <= usize_max E) by (pose proof (N.div_mod' (usize_max E) 2); lia).
  assert (2 ^ 31 - 1 <= usize_max E / 2).
  { replace (2 ^ 31 - 1) with ((2 ^ 32 - 1) / 2) by reflexivity. apply N.div_le_mono; lia. }
  change (2 ^ 31) with 2147483648 in *. change (2 ^ 16) with 65536 in *. lia.
Qed.

(** ** Reading entries *)
(** An entry before resolution. *)
Definition raw_of (dec : list byte -> option str) (c : constant) : entry :=
  match c with
  | CUtf8 raw => match dec raw with Some s => EUtf8 s | None => EUtf8Bytes raw end
  | CInteger v => EInteger v
  | CFloat b => EFloat b
  | CLong v => ELong v
  | CDouble b => EDouble b
  | CClass n => EClassInfo (Unresolved n)
  | CString n => EString (Unresolved n)
  | CFieldref c n => EFieldRef (Unresolved c) (Unresolved n)
  | CMethodref c n => EMethodRef (Unresolved c) (Unresolved n)
  | CInterfaceMethodref c n => EInterfaceMethodRef (Unresolved c) (Unresolved n)
  | CNameAndType n d => ENameAndType (Unresolved n) (Unresolved d)
  | CMethodHandle k m => EMethodHandle k (Unresolved m)
  | CMethodType d => EMethodType (Unresolved d)
  | CDynamic b n => EDynamic b (Unresolved n)
  | CInvokeDynamic b n => EInvokeDynamic b (Unresolved n)
  | CModule n => EModuleInfo (Unresolved n)
  | CPackage n => EPackageInfo (Unresolved n)
  end.

Lemma reads_constant_utf8 E : reads E (read_constant_utf8 E)
  (fun e w => exists raw, (u2 (blen raw) +++ S_Lang.raw raw) w /\ e = raw_of (cesu8 E) (CUtf8 raw)).
Proof.
  unfold read_constant_utf8. eapply reads_ext.
  - eapply reads_bind; [apply reads_u2|]. intros len (w & Hw).
    apply uint_bound in Hw. change (256 ^ N.of_nat 2) with (2 ^ 16) in Hw.
    apply (reads_take16 E len (fun ix => lit "Unexpected end of stream reading CONSTANT_Utf8 at index " ++ show_N ix)
      _ (fun data => fun e => only_if (e = raw_of (cesu8 E) (CUtf8 data))) Hw).
    intro data. cbn [raw_of]. destruct (cesu8 E data); apply reads_ret.
  - intros e w. split.
    + intro H. fwd.
      eexists. split; [|reflexivity]. apply cat_intro; [eassumption|reflexivity].
    + intros (raw & (u & v & -> & Hu & ->) & ->). eexists; apply cat_intro; [eassumption|].
      exists raw. apply cat_nil_r; auto.
Qed.

Lemma reads_cpref E : reads E read_unresolved_cp_ref (fun r w => exists n, u2 n w /\ r = Unresolved n).
Proof. apply reads_map, reads_u2. Qed.
#[export] Hint Resolve reads_cpref reads_constant_utf8 : reads.

(** Tag and entry. *)
Definition tag_of (c : constant) : N :=
  match c with
  | CUtf8 _ => 1 | CInteger _ => 3 | CFloat _ => 4 | CLong _ => 5 | CDouble _ => 6
  | CClass _ => 7 | CString _ => 8 | CFieldref _ _ => 9 | CMethodref _ _ => 10
  | CInterfaceMethodref _ _ => 11 | CNameAndType _ _ => 12 | CMethodHandle _ _ => 15
  | CMethodType _ => 16 | CDynamic _ _ => 17 | CInvokeDynamic _ _ => 18 | CModule _ => 19
  | CPackage _ => 20
  end.

Lemma reads_methodhandle E : reads E read_constant_methodhandle
  (fun e w => exists k m, (u1 (kind_number k) +++ u2 m) w /\ e = EMethodHandle k (Unresolved m)).
Proof.
  unfold read_constant_methodhandle. apply reads_tagged.
  - intro b. destruct b; cbn [Byte.to_N]; (eexists; split; [rd|]);
    intros e w H; fwd;
    match goal with |- exists _ _, _ /\ EMethodHandle ?kk (Unresolved ?mm) = _ => exists kk, mm end;
    (split; [|reflexivity]); apply u1_cons_intro; auto.
  - intros e w (k & m & H & ->). apply u1_cons in H. destruct H as (b & w' & -> & Hb & H).
    exists b, w'. split; auto. rewrite Hb.
    destruct k; cbn [kind_number]; (eexists; split; [rd|]);
    eexists; apply cat_nil_l; auto; eexists; apply cat_nil_r; eauto.
Qed.
#[export] Hint Resolve reads_methodhandle : reads.

Definition entry_reader (E : env) (major : N) : parser (N * entry) :=
  tag <- read_u1 ;; e <- read_entry E major tag ;; ret (tag, e).

Ltac open_readers := unfold read_constant_integer, read_constant_float, read_constant_long,
  read_constant_double, read_constant_class, read_constant_string, read_constant_fieldref,
  read_constant_methodref, read_constant_interfacemethodref, read_constant_nameandtype,
  read_constant_methodtype, read_constant_dynamic, read_constant_invokedynamic, read_constant_module,
  read_constant_package.

Lemma reads_entry E major : reads E (entry_reader E major)
  (fun te w => exists c, te = (tag_of c, raw_of (cesu8 E) c) /\ constant_lang major c w).
Proof.
  unfold entry_reader. apply reads_tagged.
  - intro b. unfold read_entry.
    destruct b; cbn [Byte.to_N]; open_readers;
    try match goal with |- context [if ?a <=? ?b then _ else _] => destruct (N.leb_spec a b) end;
    (eexists; split; [rd|]); intros te w H1; fwd; try contradiction;
    (* find the constant *)
    match goal with
    | |- exists c, (1, raw_of _ ?c') = _ /\ _ => exists c'
    | |- exists c, (_, EInteger ?v) = _ /\ _ => exists (CInteger v)
    | |- exists c, (_, EFloat ?v) = _ /\ _ => exists (CFloat v)
    | |- exists c, (_, ELong ?v) = _ /\ _ => exists (CLong v)
    | |- exists c, (_, EDouble ?v) = _ /\ _ => exists (CDouble v)
    | |- exists c, (_, EClassInfo (Unresolved ?v)) = _ /\ _ => exists (CClass v)
    | |- exists c, (_, EString (Unresolved ?v)) = _ /\ _ => exists (CString v)
    | |- exists c, (_, EFieldRef (Unresolved ?v) (Unresolved ?w)) = _ /\ _ => exists (CFieldref v w)
    | |- exists c, (_, EMethodRef (Unresolved ?v) (Unresolved ?w)) = _ /\ _ => exists (CMethodref v w)
    | |- exists c, (_, EInterfaceMethodRef (Unresolved ?v) (Unresolved ?w)) = _ /\ _ => exists (CInterfaceMethodref v w)
    | |- exists c, (_, ENameAndType (Unresolved ?v) (Unresolved ?w)) = _ /\ _ => exists (CNameAndType v w)
    | |- exists c, (_, EMethodHandle ?v (Unresolved ?w)) = _ /\ _ => exists (CMethodHandle v w)
    | |- exists c, (_, EMethodType (Unresolved ?v)) = _ /\ _ => exists (CMethodType v)
    | |- exists c, (_, EDynamic ?b (Unresolved ?v)) = _ /\ _ => exists (CDynamic b v)
    | |- exists c, (_, EInvokeDynamic ?b (Unresolved ?v)) = _ /\ _ => exists (CInvokeDynamic b v)
    | |- exists c, (_, EModuleInfo (Unresolved ?v)) = _ /\ _ => exists (CModule v)
    | |- exists c, (_, EPackageInfo (Unresolved ?v)) = _ /\ _ => exists (CPackage v)
    end;
    (split; [reflexivity|]); (split; [assumption || lia|]);
    (apply u1_cons_intro; [reflexivity|]);
    first [assumption | apply u4_s4; assumption | apply u8_s8; assumption | apply cat_intro; assumption].
  - intros te w (c & -> & H).
    destruct c; destruct H as [Hm H]; apply u1_cons in H; destruct H as (b & w' & -> & Hb & H);
    exists b, w'; (split; [reflexivity|]); rewrite Hb; unfold read_entry; open_readers;
    try (replace (51 <=? major) with true by lia); try (replace (53 <=? major) with true by lia);
    try (replace (55 <=? major) with true by lia);
    (eexists; split; [rd|]); cbn [tag_of];
    try (apply s4_u4 in H; destruct H as (? & H & ->)); try (apply s8_u8 in H; destruct H as (? & H & ->));
    fwd; repeat first [eassumption | reflexivity | bwd1].
Qed.
