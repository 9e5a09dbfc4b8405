(** * Exactly which files make a parse panic (for C02), on a 64-bit machine whose stack is as deep as the file is long. *)
From Verif Require Import Base M_Names M_Descriptors M_Bytecode M_Attributes M_Class
  S_Lang S_Names S_Format S_Pool S_Items S_Safe S_Faults T_Cycles.

Section Panics.
Variable dec : list byte -> option str.
(** Whether arithmetic is checked for overflow, and whether bytecode is asked for. *)
Variable checks opts : bool.
(** The largest index, and the most bytes the heap will give at once. *)
Variable usize limit : N.
Notation wraps := (negb checks).

(** Asking for this many bytes panics. *)
Definition reserve_breaks (x : panic) (bytes : Z) : Prop :=
  (x = PCapacity /\ Z.of_N (usize / 2) < bytes)%Z
  \/ (x = PAlloc /\ bytes <= Z.of_N (usize / 2) /\ Z.of_N limit < bytes)%Z.

Section Pool.
Variable sl : slots.

(** At offset [o] of some code stands a switch with too many jumps; whether the jumps are there does not matter. *)
Definition switch_breaks (x : panic) (o : N) (w : list byte) : Prop :=
  (exists low high gap dw lw hw rest, w = [xaa] ++ gap ++ dw ++ lw ++ hw ++ rest
     /\ pad o gap /\ length dw = 4%nat /\ s4 low lw /\ s4 high hw /\ (low <= high)%Z
     /\ ((checks = true /\ x = POverflow /\ (2 ^ 31 <= high - low + 1)%Z)
         \/ ((high - low + 1 < 2 ^ 31)%Z /\ reserve_breaks x (4 * (high - low + 1)))))
  \/ (exists n gap dw nw rest, w = [xab] ++ gap ++ dw ++ nw ++ rest
     /\ pad o gap /\ length dw = 4%nat /\ s4 n nw /\ (0 <= n)%Z /\ reserve_breaks x (8 * n)).

(** The jump by [j] from the instruction at offset [o] leads to an instruction, at an offset below 2^31. *)
Definition lands (ops : list (N * opcode)) (o : N) (j : Z) : Prop :=
  exists o', In o' (map fst ops) /\ o' < 2 ^ 31 /\ (Z.of_N o + j)%Z = Z.of_N o'.
(** [code] has a switch with too many jumps after some instructions; or it consists of instructions, and the
    first jump that does not lead to an instruction is one to offset 2^31 or beyond. *)
Definition bytecode_breaks (x : panic) (code : list byte) : Prop :=
  (exists ops w rest, code = w ++ rest /\ insns_lang dec sl wraps 0 ops w /\ switch_breaks x (N.of_nat (length w)) rest)
  \/ (checks = true /\ x = POverflow /\ exists ops1 o op ops2 js1 j js2,
        let ops := ops1 ++ (o, op) :: ops2 in
        insns_lang dec sl wraps 0 ops code /\ targets op = js1 ++ j :: js2
        /\ (forall o' op' j', In (o', op') ops1 -> In j' (targets op') -> lands ops o' j')
        /\ (forall j', In j' js1 -> lands ops o j')
        /\ o < 2 ^ 31 /\ (2 ^ 31 <= Z.of_N o + j)%Z).

(** The contents of an EnclosingMethod attribute: the method is a NameAndType whose descriptor cannot be decoded. *)
Definition enclosing_breaks (x : panic) (w : list byte) : Prop :=
  x = PNotUtf8 /\ exists c i n d raw, starts_with (ref (class_at dec sl) c +++ u2 i) w
    /\ at_index sl i (CNameAndType n d) /\ at_index sl d (CUtf8 raw) /\ dec raw = None.

Section Nested.
(** [A] are the attribute tables, and [B] the ways in which a nested attribute table may break. *)
Variable A : list attr_info -> lang.
Variable B : panic -> list byte -> Prop.
(** Of a Code attribute the bytecode is decoded last. *)
Definition code_breaks (x : panic) (w : list byte) : Prop :=
  exists max_stack max_locals code exceptions u v, w = u ++ v
    /\ (u2 max_stack +++ u2 max_locals +++ u4 (N.of_nat (length code)) +++ raw code
        +++ table u2 (exception_lang dec sl) exceptions) u
    /\ (B x v \/ (opts = true /\ (exists attributes, starts_with (A attributes) v) /\ bytecode_breaks x code)).
Definition record_breaks (x : panic) (w : list byte) : Prop :=
  exists n l name descriptor u v, w = u ++ v
    /\ (u2 n +++ many (record_component_lang dec sl A) l
        +++ ref (that (utf8_at dec sl) unqualified) name +++ ref (field_desc_at dec sl) descriptor) u
    /\ count_of_list l < n /\ B x v.
(** An attribute: its name and length, and that many bytes at least; what is nested in it may reach beyond that length. *)
Definition attribute_breaks (x : panic) (w : list byte) : Prop :=
  exists name len u v, w = u ++ v /\ (ref (utf8_at dec sl) name +++ u4 len) u /\ len <= N.of_nat (length v)
    /\ ((name = lit "EnclosingMethod" /\ len = 4 /\ enclosing_breaks x v)
        \/ (name = lit "Code" /\ code_breaks x v)
        \/ (name = lit "Record" /\ record_breaks x v)).
End Nested.
(** Attribute tables nested at most [d] deep: some attributes are as the format demands, and the next one breaks. *)
Fixpoint attributes_break (d : nat) (x : panic) (w : list byte) : Prop :=
  match d with
  | O => False
  | S d' => exists n l u v, w = u ++ v
      /\ (u2 n +++ many (attribute_with dec sl wraps opts (attributes_lang dec sl wraps opts d') d') l) u /\ count_of_list l < n
      /\ attribute_breaks (attributes_lang dec sl wraps opts d') (attributes_break d') x v
  end.
End Pool.

(** [breaks d x w rest]: in the file [w ++ rest], [w] is as the format demands, and what follows panics with [x]. *)
Inductive breaks (d : nat) : panic -> list byte -> list byte -> Prop :=
(** The index after a constant does not fit in 16 bits. *)
| breaks_index minor major n cs i c w rest : ((magic +++ u2 minor +++ u2 major) +++ u2 n +++ many (constant_lang major) cs) w ->
    due wraps n 1 cs i -> starts_with (constant_lang major c) rest -> 65536 <= i + width c -> checks = true -> breaks d POverflow w rest
(** The first constant that does not pass the checks is one whose check never ends. *)
| breaks_cycle minor major n cs i c w rest : ((magic +++ u2 minor +++ u2 major) +++ u2 n +++ many (constant_lang major) cs) w ->
    fills wraps n 1 cs -> indices_good cs -> at_index (slots_of cs) i c -> passed_before dec cs major i -> loops cs c ->
    breaks d PStackOverflow w rest
(** An attribute of the class or of a member breaks. *)
| breaks_attribute cs o n l x w rest : (owner_at dec wraps opts d cs o +++ u2 n +++ many (attribute_lang dec wraps opts d cs) l) w ->
    count_of_list l < n ->
    attribute_breaks (slots_of cs) (attributes_lang dec (slots_of cs) wraps opts (Nat.pred d)) (attributes_break (slots_of cs) (Nat.pred d)) x rest ->
    breaks d x w rest.
End Panics.
