(** * Class files that follow chapter 4 of the JVM specification (SE 21).

    Written from the Java Virtual Machine Specification, as a set of byte strings,
    without the values cafebabe returns.  Only rules whose violation cafebabe may
    reject are stated, so all files that follow the specification are among these
    (the rules left out are those of C58 on constants, those on which attributes may
    or must occur together, those about versions and those of 4.9 and 4.10 that need
    the meaning of code).  From [S_Format] come the bytes of one constant
    ([constant_lang]), the numbering of constants ([slots_of]) and the padding of
    switches ([pad]). *)
From Verif Require Import Base S_Lang S_Names S_Utf S_Format.
From Verif Require M_Names M_Descriptors M_ConstantPool.
Import M_Names(ch).
Import M_Descriptors(field_desc, dimensions, fd_type, FObject, return_desc, RReturn, RVoid, method_desc, parameters, return_type).
Import M_ConstantPool(ref_kind, GetField, GetStatic, PutField, PutStatic, InvokeVirtual,
  InvokeStatic, InvokeSpecial, NewInvokeSpecial, InvokeInterface).

(** What the specification allows and cafebabe rejects. *)
Inductive deviation :=
| UnpairedSurrogate  (** 4.4.7: a text may contain surrogates that are not part of a pair *)
| AngleBracket       (** 4.2.1, 4.3.2: a class may have < or > in its name *)
| DynamicArgument    (** 4.7.23: an argument of a bootstrap method may be a dynamically computed constant *)
| ForeignAttribute   (** 4.7: an attribute of a version or at a place for which its name is not defined is ignored *).

Section Conforming.
(** The deviations that may occur in the file. *)
Variable allow : deviation -> Prop.

(** ** Texts *)
(** JVMS 4.4.7 *)
Definition code_point (c : N) : Prop := is_scalar c \/ (allow UnpairedSurrogate /\ 0xD800 <= c <= 0xDFFF).
Definition encodes (raw : list byte) (s : str) : Prop := Forall code_point s /\ map Byte.to_N raw = modified_utf8 s.
(** JVMS 4.2.1 *)
Definition without_angles (s : str) : Prop := allow AngleBracket \/ without "<>" s.
(** JVMS 4.3.2, 4.3.3 *)
Definition field_type_ok (d : field_desc) : Prop :=
  dimensions d <= 255 /\ forall n, fd_type d = FObject n -> binary_name n /\ without_angles n.
Definition field_ok (s : str) : Prop := exists d, s = field_text d /\ field_type_ok d.
Definition array_ok (s : str) : Prop := exists d, s = field_text d /\ field_type_ok d /\ 0 < dimensions d.
Definition return_type_ok (r : return_desc) : Prop := forall d, r = RReturn d -> field_type_ok d.
Definition return_ok (s : str) : Prop := exists r, s = return_text r /\ return_type_ok r.
Definition method_type_ok (d : method_desc) : Prop := Forall field_type_ok (parameters d) /\ return_type_ok (return_type d).
Definition method_ok (s : str) : Prop := exists d, s = method_text d /\ method_type_ok d.

Section WithPool.
Variable major : N.
Variable cs : list constant.
Let sl := slots_of cs.

(** ** Constants (JVMS 4.4) *)
Definition text_at (i : N) (s : str) : Prop := exists raw, at_index sl i (CUtf8 raw) /\ encodes raw s.
Definition a_text (P : str -> Prop) (i : N) : Prop := exists s, text_at i s /\ P s.
Definition any_text : N -> Prop := a_text (fun _ => True).
Definition a_class (P : str -> Prop) (i : N) : Prop := exists n s, at_index sl i (CClass n) /\ text_at n s /\ P s.
Definition any_class (i : N) : Prop := exists n, at_index sl i (CClass n).
Definition described_by (P : str -> Prop) (i : N) : Prop := exists n d, at_index sl i (CNameAndType n d) /\ a_text P d.

Definition constant_ok (c : constant) : Prop :=
  match c with
  | CUtf8 _ | CInteger _ | CFloat _ | CLong _ | CDouble _ => True
  | CClass n => a_text (fun s => binary_name s \/ array_ok s) n
  | CString t => exists raw, at_index sl t (CUtf8 raw)
  | CFieldref c nt => any_class c /\ described_by field_ok nt
  | CMethodref c nt | CInterfaceMethodref c nt => any_class c /\ described_by method_ok nt
  | CNameAndType n d => a_text unqualified n /\ exists raw, at_index sl d (CUtf8 raw)
  | CMethodHandle k m => exists c nt,
      match k with
      | GetField | GetStatic | PutField | PutStatic => at_index sl m (CFieldref c nt)
      | InvokeVirtual | NewInvokeSpecial => at_index sl m (CMethodref c nt)
      | InvokeStatic | InvokeSpecial =>
          at_index sl m (CMethodref c nt) \/ (52 <= major /\ at_index sl m (CInterfaceMethodref c nt))
      | InvokeInterface => at_index sl m (CInterfaceMethodref c nt)
      end
  | CMethodType d => a_text method_ok d
  | CDynamic _ nt => described_by field_ok nt
  | CInvokeDynamic _ nt => described_by method_ok nt
  | CModule n => a_text module_name n
  | CPackage n => a_text binary_name n
  end.
(** The constant at an index is of one of the kinds [P]. *)
Definition of_kind (P : constant -> Prop) (i : N) : Prop := exists c, at_index sl i c /\ P c.
Definition integer c := exists v, c = CInteger v.
Definition float c := exists v, c = CFloat v.
Definition long c := exists v, c = CLong v.
Definition double c := exists v, c = CDouble v.
Definition literal_constant c := integer c \/ float c \/ long c \/ double c \/ exists t, c = CString t.
(** JVMS table 4.4-C *)
Definition loadable_constant c := literal_constant c \/ (exists n, c = CClass n) \/ (exists k m, c = CMethodHandle k m)
  \/ (exists d, c = CMethodType d) \/ (exists b nt, c = CDynamic b nt).
Definition fieldref c := exists k nt, c = CFieldref k nt.
Definition methodref c := exists k nt, c = CMethodref k nt.
Definition interface_methodref c := exists k nt, c = CInterfaceMethodref k nt.

(** ** Pieces of structures *)
Definition byte1 : lang := blob 1.
Definition bytes2 : lang := blob 2.
Definition index (P : N -> Prop) : lang := any u2 P.
Definition index1 (P : N -> Prop) : lang := any u1 P.
Definition index_or_0 (P : N -> Prop) : lang := index (fun i => i = 0 \/ P i).
(** A bit set of these flags only. *)
Definition flags_of (named : N) : lang := index (fun f => forall bit, N.testbit f bit = true -> N.testbit named bit = true).
Fixpoint times (n : nat) (L : lang) : lang := match n with O => eps | S n' => L +++ times n' L end.
(** A count and as many [L]. *)
Definition counted (cnt : N -> lang) (L : lang) : lang := fun w => exists n, (cnt (N.of_nat n) +++ times n L) w.

(** ** Code (JVMS 4.7.3, 4.9.1, 6.5) *)
Definition opcode (c : N) : lang := u1 c.
Definition between (a b c : N) : Prop := a <= c <= b.
(** iload to aload, istore to astore, ret *)
Definition has_local (c : N) : Prop := between 0x15 0x19 c \/ between 0x36 0x3a c \/ c = 0xa9.
(** One instruction at offset [o], with the relative targets [ts]. *)
Inductive instruction (o : N) : list Z -> lang :=
| plain_insn c w : between 0x00 0x0f c \/ between 0x1a 0x35 c \/ between 0x3b 0x83 c \/ between 0x85 0x98 c \/ between 0xac 0xb1 c
    \/ c = 0xbe \/ c = 0xbf \/ c = 0xc2 \/ c = 0xc3 -> opcode c w -> instruction o [] w
| bipush w : (opcode 0x10 +++ byte1) w -> instruction o [] w
| sipush w : (opcode 0x11 +++ bytes2) w -> instruction o [] w
| ldc w : (opcode 0x12 +++ index1 (of_kind loadable_constant)) w -> instruction o [] w
| ldc_w c w : c = 0x13 \/ c = 0x14 -> (opcode c +++ index (of_kind loadable_constant)) w -> instruction o [] w
| local_insn c w : has_local c -> (opcode c +++ byte1) w -> instruction o [] w
| wide_local c w : has_local c -> (opcode 0xc4 +++ opcode c +++ bytes2) w -> instruction o [] w
| iinc w : (opcode 0x84 +++ byte1 +++ byte1) w -> instruction o [] w
| wide_iinc w : (opcode 0xc4 +++ opcode 0x84 +++ bytes2 +++ bytes2) w -> instruction o [] w
| branch c t w : between 0x99 0xa8 c \/ c = 0xc6 \/ c = 0xc7 -> (opcode c +++ s2 t) w -> instruction o [t] w
| branch_w c t w : c = 0xc8 \/ c = 0xc9 -> (opcode c +++ s4 t) w -> instruction o [t] w
| tableswitch d lo hi ts w : (lo <= hi)%Z -> Z.of_nat (length ts) = (hi - lo + 1)%Z ->
    (opcode 0xaa +++ pad o +++ s4 d +++ s4 lo +++ s4 hi +++ many s4 ts) w -> instruction o (d :: ts) w
| lookupswitch d n ts w : n = Z.of_nat (length ts) ->
    (opcode 0xab +++ pad o +++ s4 d +++ s4 n +++ many (fun t => any s4 (fun _ => True) +++ s4 t) ts) w -> instruction o (d :: ts) w
| field_insn c w : between 0xb2 0xb5 c -> (opcode c +++ index (of_kind fieldref)) w -> instruction o [] w
| invokevirtual w : (opcode 0xb6 +++ index (of_kind methodref)) w -> instruction o [] w
| invokespecial_static c w : c = 0xb7 \/ c = 0xb8 ->
    (opcode c +++ index (of_kind (fun c => methodref c \/ interface_methodref c))) w -> instruction o [] w
| invokeinterface w : (opcode 0xb9 +++ index (of_kind interface_methodref) +++ byte1 +++ u1 0) w -> instruction o [] w
| invokedynamic w : (opcode 0xba +++ index (of_kind (fun c => exists b nt, c = CInvokeDynamic b nt)) +++ u2 0) w -> instruction o [] w
| class_insn c w : c = 0xbb \/ c = 0xbd \/ c = 0xc0 \/ c = 0xc1 -> (opcode c +++ index any_class) w -> instruction o [] w
| newarray w : (opcode 0xbc +++ index1 (between 4 11)) w -> instruction o [] w
| multianewarray w : (opcode 0xc5 +++ index any_class +++ byte1) w -> instruction o [] w.
(** Instructions from offset [o] on, with their offsets and targets. *)
Fixpoint instructions (o : N) (l : list (N * list Z)) : lang :=
  match l with
  | [] => eps
  | (off, ts) :: l' => fun w => off = o /\
      exists u v, w = u ++ v /\ instruction o ts u /\ instructions (o + N.of_nat (length u)) l' v
  end.
Definition code_ok (w : list byte) : Prop :=
  N.of_nat (length w) < 65536 /\ exists l, instructions 0 l w
    /\ forall o ts t, In (o, ts) l -> In t ts -> exists o', In o' (map fst l) /\ (Z.of_N o + t)%Z = Z.of_N o'.

(** ** Attributes (JVMS 4.7) *)
(** 4.7.4 *)
Definition verification : lang :=
  any u1 (between 0 6) or (u1 7 +++ index any_class) or (u1 8 +++ bytes2).
Definition frame : lang := fun w => exists t,
  (between 0 63 t /\ u1 t w) \/ (between 64 127 t /\ (u1 t +++ verification) w) \/ (t = 247 /\ (u1 t +++ bytes2 +++ verification) w)
  \/ (between 248 251 t /\ (u1 t +++ bytes2) w) \/ (between 252 254 t /\ (u1 t +++ bytes2 +++ times (N.to_nat (t - 251)) verification) w)
  \/ (t = 255 /\ (u1 t +++ bytes2 +++ counted u2 verification +++ counted u2 verification) w).
(** 4.7.16, nested at most [d] deep *)
Definition annotation_of (V : lang) : lang := index (a_text field_ok) +++ counted u2 (index any_text +++ V).
Fixpoint element (d : nat) : lang :=
  match d with
  | O => fun _ => False
  | S d' => fun w => exists t, let tagged_with L := (u1 t +++ L) w in
      (In t (lit "BCISZ") /\ tagged_with (index (of_kind integer)))
      \/ (t = ch "D" /\ tagged_with (index (of_kind double)))
      \/ (t = ch "F" /\ tagged_with (index (of_kind float)))
      \/ (t = ch "J" /\ tagged_with (index (of_kind long)))
      \/ (t = ch "s" /\ tagged_with (index any_text))
      \/ (t = ch "e" /\ tagged_with (index (a_text field_ok) +++ index any_text))
      \/ (t = ch "c" /\ tagged_with (index (a_text return_ok)))
      \/ (t = ch "@" /\ tagged_with (annotation_of (element d')))
      \/ (t = ch "[" /\ tagged_with (counted u2 (element d')))
  end.
Definition annotation_ok (d : nat) : lang := annotation_of (element d).
(** 4.7.20 *)
Definition target : lang := fun w => exists t, let tagged_with L := (u1 t +++ L) w in
  (In t [0x00; 0x01] /\ tagged_with byte1)                                  (* type_parameter_target *)
  \/ (t = 0x10 /\ tagged_with bytes2)                                       (* supertype_target *)
  \/ (In t [0x11; 0x12] /\ tagged_with (byte1 +++ byte1))                   (* type_parameter_bound_target *)
  \/ (In t [0x13; 0x14; 0x15] /\ tagged_with eps)                           (* empty_target *)
  \/ (t = 0x16 /\ tagged_with byte1)                                        (* formal_parameter_target *)
  \/ (t = 0x17 /\ tagged_with bytes2)                                       (* throws_target *)
  \/ (In t [0x40; 0x41] /\ tagged_with (counted u2 (bytes2 +++ bytes2 +++ bytes2)))  (* localvar_target *)
  \/ (t = 0x42 /\ tagged_with bytes2)                                       (* catch_target *)
  \/ (In t [0x43; 0x44; 0x45; 0x46] /\ tagged_with bytes2)                  (* offset_target *)
  \/ (In t [0x47; 0x48; 0x49; 0x4A; 0x4B] /\ tagged_with (bytes2 +++ byte1)) (* type_argument_target *).
Definition type_annotation_ok (d : nat) : lang :=
  target +++ counted u1 (index1 (between 0 3) +++ byte1) +++ annotation_ok d.
(** 4.7.23 *)
Definition argument (c : constant) : Prop :=
  loadable_constant c /\ (allow DynamicArgument \/ forall b nt, c <> CDynamic b nt).
Definition a_module : N -> Prop := of_kind (fun c => exists n, c = CModule n).
Definition a_package : N -> Prop := of_kind (fun c => exists n, c = CPackage n).
(** 4.7.25 *)
Definition exports_ok : lang := index a_package +++ flags_of 0x9000 +++ counted u2 (index a_module).
Definition module_ok : lang :=
  index a_module +++ flags_of 0x9020 +++ index_or_0 any_text
  +++ counted u2 (index a_module +++ flags_of 0x9060 +++ index_or_0 any_text)
  +++ counted u2 exports_ok +++ counted u2 exports_ok
  +++ counted u2 (index any_class) +++ counted u2 (index any_class +++ counted u2 (index any_class)).

(** Where attributes occur. *)
Inductive place := InClass | InField | InMethod | InRecordComponent | InCode.
(** Tables 4.7-A and 4.7-C: name, first version, places, and contents.  [A p] are attribute tables at the place [p]. *)
Record row := mk_row { r_name : string; r_since : N; r_places : list place; r_contents : lang }.
Arguments mk_row _%string.
Definition rows (A : place -> lang) (d : nat) : list row :=
  let class_list := counted u2 (index any_class) in
  let member := [InClass; InField; InMethod] in
  let signed := [InClass; InField; InMethod; InRecordComponent] in
  let everywhere := [InClass; InField; InMethod; InRecordComponent; InCode] in
  [ mk_row "ConstantValue" 45 [InField] (index (of_kind literal_constant));
    mk_row "Code" 45 [InMethod] (bytes2 +++ bytes2
      +++ (fun w => exists len code, w = len ++ code /\ u4 (N.of_nat (length code)) len /\ code_ok code)
      +++ counted u2 (bytes2 +++ bytes2 +++ bytes2 +++ index_or_0 any_class) +++ A InCode);
    mk_row "StackMapTable" 50 [InCode] (counted u2 frame);
    mk_row "Exceptions" 45 [InMethod] class_list;
    mk_row "InnerClasses" 45 [InClass]
      (counted u2 (index any_class +++ index_or_0 any_class +++ index_or_0 any_text +++ bytes2));
    mk_row "EnclosingMethod" 49 [InClass] (index any_class +++ index_or_0 (described_by (fun _ => True)));
    mk_row "Synthetic" 45 member eps;
    mk_row "Signature" 49 signed (index any_text);
    mk_row "SourceFile" 45 [InClass] (index any_text);
    mk_row "SourceDebugExtension" 49 [InClass] (fun w => exists s, encodes w s);
    mk_row "LineNumberTable" 45 [InCode] (counted u2 (bytes2 +++ bytes2));
    mk_row "LocalVariableTable" 45 [InCode]
      (counted u2 (bytes2 +++ bytes2 +++ index (a_text unqualified) +++ index (a_text field_ok) +++ bytes2));
    mk_row "LocalVariableTypeTable" 49 [InCode]
      (counted u2 (bytes2 +++ bytes2 +++ index (a_text unqualified) +++ index any_text +++ bytes2));
    mk_row "Deprecated" 45 member eps;
    mk_row "RuntimeVisibleAnnotations" 49 signed (counted u2 (annotation_ok d));
    mk_row "RuntimeInvisibleAnnotations" 49 signed (counted u2 (annotation_ok d));
    mk_row "RuntimeVisibleParameterAnnotations" 49 [InMethod] (counted u1 (counted u2 (annotation_ok d)));
    mk_row "RuntimeInvisibleParameterAnnotations" 49 [InMethod] (counted u1 (counted u2 (annotation_ok d)));
    mk_row "RuntimeVisibleTypeAnnotations" 52 everywhere (counted u2 (type_annotation_ok d));
    mk_row "RuntimeInvisibleTypeAnnotations" 52 everywhere (counted u2 (type_annotation_ok d));
    mk_row "AnnotationDefault" 49 [InMethod] (element d);
    mk_row "BootstrapMethods" 51 [InClass]
      (counted u2 (index (of_kind (fun c => exists k m, c = CMethodHandle k m)) +++ counted u2 (index (of_kind argument))));
    mk_row "MethodParameters" 52 [InMethod] (counted u1 (index_or_0 (a_text unqualified) +++ flags_of 0x9010));
    mk_row "Module" 53 [InClass] module_ok;
    mk_row "ModulePackages" 53 [InClass] (counted u2 (index a_package));
    mk_row "ModuleMainClass" 53 [InClass] (index any_class);
    mk_row "NestHost" 55 [InClass] (index any_class);
    mk_row "NestMembers" 55 [InClass] class_list;
    mk_row "Record" 60 [InClass]
      (counted u2 (index (a_text unqualified) +++ index (a_text field_ok) +++ A InRecordComponent));
    mk_row "PermittedSubclasses" 61 [InClass] class_list ].

(** One attribute at the place [p]: its name and its contents. *)
Definition attribute (A : place -> lang) (d : nat) (p : place) (a : str * list byte) : lang :=
  index (fun i => text_at i (fst a))
  +++ u4 (N.of_nat (length (snd a))) +++ raw (snd a)
  +++ only_if (forall r, In r (rows A d) -> fst a = lit (r_name r) ->
        ~ allow ForeignAttribute \/ (r_since r <= major /\ In p (r_places r)) -> r_contents r (snd a)).
(** Attribute tables nested at most [d] deep. *)
Fixpoint attribute_table (d : nat) (p : place) (l : list (str * list byte)) : lang :=
  match d with
  | O => fun _ => False
  | S d' => table u2 (attribute (fun p w => exists l, attribute_table d' p l w) d' p) l
  end.
Definition attribute_tables (d : nat) (p : place) : lang := fun w => exists l, attribute_table d p l w.

(** ** Fields and methods (JVMS 4.5, 4.6): their names and descriptors *)
Definition field_entry (d : nat) (f : str * str) : lang :=
  bytes2 +++ index (fun i => text_at i (fst f)) +++ only_if (unqualified (fst f))
  +++ index (fun i => text_at i (snd f)) +++ only_if (field_ok (snd f)) +++ attribute_tables d InField.
Definition method_entry (d : nat) (in_interface : bool) (m : str * str) : lang :=
  bytes2 +++ index (fun i => text_at i (fst m))
  +++ only_if ((fst m <> [] /\ without ".;[/<>" (fst m)) \/ (fst m = lit "<init>" /\ in_interface = false) \/ fst m = lit "<clinit>")
  +++ index (fun i => text_at i (snd m)) +++ only_if (exists md, snd m = method_text md /\ method_type_ok md
        /\ (fst m = lit "<init>" \/ fst m = lit "<clinit>" -> return_type md = RVoid)
        /\ (fst m = lit "<clinit>" -> 51 <= major -> parameters md = []))
  +++ attribute_tables d InMethod.

(** 4.7.23: exactly one table of at least [n] bootstrap methods *)
Definition bootstraps (atts : list (str * list byte)) (n : N) : Prop :=
  exists w k, map snd (filter (fun a => if list_eq_dec N.eq_dec (fst a) (lit "BootstrapMethods") then true else false) atts) = [w]
    /\ (u2 k +++ fun _ => True) w /\ n <= k.
End WithPool.

(** ** The file (JVMS 4.1) *)
Definition total (cs : list constant) : N := fold_right (fun c n => width c + n) 0 cs.
Definition own_class (cs : list constant) (i : N) : Prop := a_class cs (fun s => binary_name s /\ without_angles s) i.
Definition conforming (bs : list byte) : Prop := exists d minor major cs flags super ifs fs ms atts,
  (u4 0xCAFEBABE +++ u2 minor +++ u2 major +++ u2 (1 + total cs) +++ many (constant_lang major) cs
   +++ u2 flags +++ index (own_class cs) +++ u2 super +++ table u2 u2 ifs
   +++ table u2 (field_entry major cs d) fs
   +++ table u2 (method_entry major cs d (N.testbit flags 9)) ms
   +++ attribute_table major cs d InClass atts) bs
  /\ Forall (constant_ok major cs) cs
  /\ (super = 0 \/ own_class cs super)
  /\ Forall (own_class cs) ifs
  /\ NoDup fs /\ NoDup ms
  /\ (N.testbit flags 15 = true -> 53 <= major /\ N.land flags 0xF631 = 0x8000 /\ super = 0 /\ ifs = [] /\ fs = [] /\ ms = [])
  /\ (forall b nt, In (CDynamic b nt) cs \/ In (CInvokeDynamic b nt) cs -> bootstraps atts (b + 1)).
End Conforming.
