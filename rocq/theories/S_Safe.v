(** * What can make a parse panic. *)
From Verif Require Import Base M_Names M_Bytecode S_Lang S_Names S_Format S_Pool S_Items S_Env.

(** [cs] are the constants of the constant pool at the start of [bs]; nothing is said about the
    constants being valid. *)
Definition pool_in (wraps : bool) (bs : list byte) (cs : list constant) : Prop :=
  exists minor major count ws rest, starts_with_pool bs minor major count cs ws rest /\ fills wraps count 1 cs.

(** From index [i] a chain of [n] NameAndType constants starts, each named by the descriptor index of
    the one before. *)
Fixpoint nt_chain (cs : list constant) (n : nat) (i : N) : Prop :=
  match n with
  | O => True
  | S n' => exists name desc, at_index (slots_of cs) i (CNameAndType name desc) /\ nt_chain cs n' desc
  end.
(** The chain never ends: the NameAndTypes form a cycle. *)
Definition endless (cs : list constant) (i : N) : Prop := forall n, nt_chain cs n i.
(** The constants whose NameAndType is checked against the method descriptor grammar. *)
Definition method_constant (c : constant) (nt : N) : Prop :=
  match c with
  | CMethodref _ i | CInterfaceMethodref _ i | CInvokeDynamic _ i => nt = i
  | _ => False
  end.

(** [bs] contains [code] after four bytes with its length, as a Code attribute does. *)
Definition code_in (bs code : list byte) : Prop :=
  exists pre lw post, bs = pre ++ lw ++ code ++ post /\ u4 (N.of_nat (length code)) lw.
(** [code] consists of instructions, one of which, at offset [o], has the relative target [j]. *)
Definition jump_in (dec : list byte -> option str) (cs : list constant) (wraps : bool) (code : list byte) (o : N) (j : Z) : Prop :=
  exists ops op, insns_lang dec (slots_of cs) wraps 0 ops code /\ In (o, op) ops /\ In j (targets op).
(** [code] starts with some instructions, followed by a tableswitch from [low] to [high]. *)
Definition tableswitch_in (dec : list byte -> option str) (cs : list constant) (wraps : bool) (code : list byte) (low high : Z) : Prop :=
  exists ops w gap dw lw hw rest, code = w ++ [xaa] ++ gap ++ dw ++ lw ++ hw ++ rest
    /\ insns_lang dec (slots_of cs) wraps 0 ops w /\ pad (N.of_nat (length w)) gap /\ length dw = 4%nat /\ s4 low lw /\ s4 high hw.
(** [code] starts with some instructions, followed by a lookupswitch with [n] pairs. *)
Definition lookupswitch_in (dec : list byte -> option str) (cs : list constant) (wraps : bool) (code : list byte) (n : Z) : Prop :=
  exists ops w gap dw nw rest, code = w ++ [xab] ++ gap ++ dw ++ nw ++ rest
    /\ insns_lang dec (slots_of cs) wraps 0 ops w /\ pad (N.of_nat (length w)) gap /\ length dw = 4%nat /\ s4 n nw.
(** The number of bytes reserved for the jumps of a switch (4 bytes each, or 8 with the value to match). *)
Definition reserves (dec : list byte -> option str) (cs : list constant) (wraps : bool) (code : list byte) (bytes : Z) : Prop :=
  (exists low high, tableswitch_in dec cs wraps code low high /\ (low <= high /\ high - low + 1 < 2 ^ 31 /\ bytes = 4 * (high - low + 1))%Z)
  \/ exists n, lookupswitch_in dec cs wraps code n /\ (0 <= n /\ bytes = 8 * n)%Z.

(** The causes of panics of [parse_class_with_options] on [bs]. *)
Inductive cause (E : env) (opts : bool) (bs : list byte) : panic -> Prop :=
| cause_text cs c : pool_in (wrapping E) bs cs -> In c cs -> undecodable (cesu8 E) cs c -> cause E opts bs PNotUtf8
| cause_cycle cs c i : pool_in (wrapping E) bs cs -> In c cs -> method_constant c i -> endless cs i ->
    cause E opts bs PStackOverflow
| cause_depth : (stack E < length bs)%nat -> cause E opts bs PStackOverflow
| cause_count minor major cs c ws rest : overflow_checks E = true ->
    starts_with_pool bs minor major 65535 (cs ++ [c]) ws rest -> index_of (cs ++ [c]) (length cs) = 65534 -> is_wide c = true ->
    cause E opts bs POverflow
| cause_jump cs code o j : overflow_checks E = true -> opts = true -> pool_in (wrapping E) bs cs -> code_in bs code ->
    jump_in (cesu8 E) cs (wrapping E) code o j -> (2 ^ 31 <= Z.of_N o + j)%Z -> cause E opts bs POverflow
| cause_range cs code low high : overflow_checks E = true -> opts = true -> pool_in (wrapping E) bs cs -> code_in bs code ->
    tableswitch_in (cesu8 E) cs (wrapping E) code low high -> (2 ^ 31 <= high - low + 1)%Z -> cause E opts bs POverflow
| cause_index_checked : overflow_checks E = true -> usize_max E < blen bs + 2 ^ 32 -> cause E opts bs POverflow
| cause_index_wrapped : overflow_checks E = false -> usize_max E < blen bs + 2 ^ 32 -> cause E opts bs PSlice
| cause_capacity cs code n : opts = true -> pool_in (wrapping E) bs cs -> code_in bs code -> reserves (cesu8 E) cs (wrapping E) code n ->
    (Z.of_N (usize_max E / 2) < n)%Z -> cause E opts bs PCapacity
| cause_alloc cs code n : opts = true -> pool_in (wrapping E) bs cs -> code_in bs code -> reserves (cesu8 E) cs (wrapping E) code n ->
    (Z.of_N (alloc_limit E) < n)%Z -> cause E opts bs PAlloc.
