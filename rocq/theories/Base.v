(** * Base: outcomes, environment, strings, integers, parser monad.

    This file contains the vocabulary of the model.  Nothing in it is a model
    of a particular function of cafebabe except [ParseError] and the readers of
    primitive integers, which are cited below. *)
From Coq Require Export String Ascii.
From Coq.Strings Require Export Byte.
From Coq Require Export List NArith ZArith Bool Lia.
From Coq Require Import DecimalString DecimalN.
Export ListNotations.
Open Scope N_scope.
Open Scope list_scope.

(** ** Strings.
    A Rust [char] is a Unicode scalar value, a [str] is a sequence of them.
    Byte lengths and byte indices are computed from the UTF-8 width of each
    character (see [char_len], [str_len], [str_from], [str_slice], [as_bytes]). *)
(** Not code of the crate: the [char] of [str::chars], [char_indices] (used at names.rs:2-49, descriptors.rs:14, 171) *)
Definition char := N.
(** Not code of the crate: [str], [String] and the [str] of a [Cow] (error.rs:44-45, constant_pool.rs:151, descriptors.rs:29) *)
Definition str := list char.

(** A string literal, such as those of the messages ([fail!], [err!]: error.rs:3-40) *)
Definition lit (s : string) : str := map N_of_ascii (list_ascii_of_string s).
Arguments lit _%string_scope.

(** [{}] of an unsigned integer inside [fail!], [err!] (error.rs:3-40), e.g. lib.rs:47 *)
Definition show_N (n : N) : str := lit (NilZero.string_of_uint (N.to_uint n)).
(** [{}] of a signed integer inside [fail!] (error.rs:24-40), e.g. bytecode.rs:251-258 *)
Definition show_Z (z : Z) : str :=
  match z with
  | Zneg p => lit "-" ++ show_N (Npos p)
  | _ => show_N (Z.to_N z)
  end.

(** Not code of the crate: [==] on [str] and [Cow<str>], e.g. lib.rs:299-312, attributes.rs:1070 *)
Fixpoint str_eqb (a b : str) : bool :=
  match a, b with
  | [], [] => true
  | x :: a', y :: b' => (x =? y) && str_eqb a' b'
  | _, _ => false
  end.

(** ** src/error.rs:42-64 [ParseError], [ParseError::new], [ParseError::with_context]. *)
Record perr := mk_perr { msg : str; contexts : list str }.
(** error.rs:49-54 [ParseError::new] *)
Definition new_err (m : str) : perr := mk_perr m [].
(** error.rs:56-63 [ParseError::with_context] *)
Definition with_context (base : perr) (context : str) : perr :=
  mk_perr (msg base) (contexts base ++ [context]).

(** src/error.rs:66-76 [impl Display for ParseError]: the loop with its
    mutable [connector]. *)
Fixpoint display_contexts (connector : str) (cs : list str) : str :=
  match cs with
  | [] => []
  | c :: cs' => connector ++ c ++ display_contexts (lit " of ") cs'
  end.
(** error.rs:66-76 [impl Display for ParseError] *)
Definition display_err (e : perr) : str := msg e ++ display_contexts (lit " for ") (contexts e).

(** ** Outcomes of running Rust code.
    [Ok]/[Err] are the two values of [Result<_, ParseError>]; [Panic] is any
    abnormal termination, with its cause; [Diverge] is the value of a loop whose
    fuel ran out (proved unreachable for the whole parser). *)
(** The places where the crate can stop abnormally: constant_pool.rs:56-61, 372-430, 1134-1197, descriptors.rs:35-46, 77-99, and every index, arithmetic operation, allocation and call *)
Inductive panic :=
| PUnresolved      (* constant_pool.rs:58  "Called get on a unresolved ConstantPoolRef" *)
| PNotUtf8         (* constant_pool.rs:401, 409 *)
| PNotClassInfo    (* constant_pool.rs:416 *)
| PNotNameAndType  (* constant_pool.rs:426 *)
| PNoDescriptor    (* constant_pool.rs:381 *)
| PIterZero        (* constant_pool.rs:1138 *)
| PUnwrap          (* constant_pool.rs:1177  make_method_handle(..).unwrap() *)
| PSegment         (* descriptors.rs:42, 96 *)
| PSlice           (* slice or index out of range, or not on a char boundary *)
| POverflow        (* arithmetic overflow with overflow checks on *)
| PCapacity        (* Vec::with_capacity: capacity overflow *)
| PAlloc           (* allocation failure (process abort) *)
| PStackOverflow.  (* recursion deeper than the available stack (process abort) *)

(** [Result<_, ParseError>] (error.rs:42-46), with abnormal and missing termination *)
Inductive outcome (A : Type) : Type :=
| Ok (a : A)
| Err (e : perr)
| Panic (p : panic)
| Diverge.
Arguments Ok {A} a.
Arguments Err {A} e.
Arguments Panic {A} p.
Arguments Diverge {A}.

(** The operator [?] of Rust, as in lib.rs:45-460 and everywhere else *)
Definition obind {A B} (m : outcome A) (f : A -> outcome B) : outcome B :=
  match m with
  | Ok a => f a
  | Err e => Err e
  | Panic p => Panic p
  | Diverge => Diverge
  end.
Notation "'let*' x := m 'in' f" := (obind m (fun x => f))
  (at level 200, x pattern, m at level 100, f at level 200).

(** [fail!(..)] : src/error.rs:24-40. *)
Definition fail {A} (m : str) : outcome A := Err (new_err m).

(** [.map_err(|e| err!(e, ..))] : src/error.rs:3-22. *)
Definition ctx {A} (c : str) (m : outcome A) : outcome A :=
  match m with Err e => Err (with_context e c) | _ => m end.

(** ** Environment: everything about the platform and the dependencies that the
    behaviour of the code depends on. *)
(** Cargo.toml:19-25 (features and dependencies) *)
Record env := {
  overflow_checks : bool;      (* debug build: arithmetic overflow panics; release: wraps *)
  usize_max : N;               (* 2^64-1 or 2^32-1 *)
  alloc_limit : N;             (* largest single allocation that succeeds, in bytes *)
  stack : nat;                 (* recursion levels available on the thread's stack *)
  cesu8 : list byte -> option str;  (* cesu8::from_java_cesu8, None = Err *)
  cesu8_err : str              (* text of cesu8::Cesu8DecodingError *)
}.

(** ** Integers. *)
(** The [as] casts to signed integers: bytecode.rs:312-681, constant_pool.rs:470-493, 701-715 *)
Definition to_signed (bits : N) (n : N) : Z :=
  if n <? 2 ^ (bits - 1) then Z.of_N n else (Z.of_N n - 2 ^ Z.of_N bits)%Z.
(** [as i8]: bytecode.rs:312-681 *)
Definition as_i8 := to_signed 8.
(** [as i16]: bytecode.rs:312-681 *)
Definition as_i16 := to_signed 16.
(** [as i32]: bytecode.rs:312-681, constant_pool.rs:470-476 *)
Definition as_i32 := to_signed 32.
(** [as i64]: constant_pool.rs:487-493 *)
Definition as_i64 := to_signed 64.

(** [JumpOffset] is [i32]: bytecode.rs:13 *)
Definition in_i32 (z : Z) : bool := ((- 2 ^ 31 <=? z) && (z <? 2 ^ 31))%Z.

(** bytecode.rs:251-258, 312-681 (additions and subtractions of [i32]). An i32 operation whose exact result is [z]. *)
Definition i32_result (E : env) (z : Z) : outcome Z :=
  if in_i32 z then Ok z
  else if overflow_checks E then Panic POverflow
  else Ok (as_i32 (Z.to_N (z mod 2 ^ 32)%Z)).

(** constant_pool.rs:653-700 ([cp_ix += 1]). A u16 operation whose exact result is [n]. *)
Definition u16_result (E : env) (n : N) : outcome N :=
  if n <? 65536 then Ok n
  else if overflow_checks E then Panic POverflow
  else Ok (n mod 65536).

(** attributes.rs:1051-1248, bytecode.rs:312-681 (additions of [usize]). A usize addition whose exact result is [n]. *)
Definition usize_result (E : env) (n : N) : outcome N :=
  if n <=? usize_max E then Ok n
  else if overflow_checks E then Panic POverflow
  else Ok (n mod (usize_max E + 1)).

(** bytecode.rs:251-258. [usize::try_from(z: i32)]: fails iff negative. *)
Definition usize_of_i32 (z : Z) : option N := if (z <? 0)%Z then None else Some (Z.to_N z).
(** bytecode.rs:260-301. [i32::try_from(n: usize)] *)
Definition i32_of_usize (n : N) : option Z := if n <? 2 ^ 31 then Some (Z.of_N n) else None.

(** bytecode.rs:312-681 (the tables of the switches). [Vec::<T>::with_capacity(n)] where [size_of::<T>() = size]. *)
Definition with_capacity (E : env) (n size : N) : outcome unit :=
  if usize_max E / 2 <? n * size then Panic PCapacity
  else if alloc_limit E <? n * size then Panic PAlloc
  else Ok tt.

(** ** bitflags 1.x: a flags value is its bits. *)
(** constant_pool.rs:316-322, lib.rs:373-460 (uses of [contains]) *)
Definition contains (self other : N) : bool := N.land self other =? other.
(** [from_bits_truncate]: lib.rs:161-276, 373-460, attributes.rs:551-574 *)
Definition from_bits_truncate (all bits : N) : N := N.land bits all.
(** [from_bits]: attributes.rs:861-980 *)
Definition from_bits (all bits : N) : option N :=
  if N.ldiff bits all =? 0 then Some bits else None.

(** ** UTF-8 view of strings. *)
(** Not code of the crate: [char::len_utf8], which determines the byte indices of descriptors.rs:13-326 *)
Definition char_len (c : char) : N :=
  if c <? 0x80 then 1 else if c <? 0x800 then 2 else if c <? 0x10000 then 3 else 4.
(** Not code of the crate: the UTF-8 of a character, as [str::as_bytes] of descriptors.rs:264-288 gives it *)
Definition utf8_encode_char (c : char) : list N :=
  if c <? 0x80 then [c]
  else if c <? 0x800 then [0xC0 + c / 64; 0x80 + c mod 64]
  else if c <? 0x10000 then [0xE0 + c / 4096; 0x80 + (c / 64) mod 64; 0x80 + c mod 64]
  else [0xF0 + c / 262144; 0x80 + (c / 4096) mod 64; 0x80 + (c / 64) mod 64; 0x80 + c mod 64].
(** descriptors.rs:264-288. [s.as_bytes()] *)
Definition as_bytes (s : str) : list N := flat_map utf8_encode_char s.
(** descriptors.rs:63-67, 303-326. [s.len()] *)
Fixpoint str_len (s : str) : N :=
  match s with [] => 0 | c :: s' => char_len c + str_len s' end.

(** descriptors.rs:13-197. [&s[i..]]: panics unless [i] is a character boundary of [s]. *)
Fixpoint str_from (s : str) (i : N) : outcome str :=
  if i =? 0 then Ok s
  else match s with
       | [] => Panic PSlice
       | c :: s' => if char_len c <=? i then str_from s' (i - char_len c) else Panic PSlice
       end.
(** descriptors.rs:13-24. [&s[..i]] *)
Fixpoint str_to (s : str) (i : N) : outcome str :=
  if i =? 0 then Ok []
  else match s with
       | [] => Panic PSlice
       | c :: s' =>
           if char_len c <=? i then let* r := str_to s' (i - char_len c) in Ok (c :: r)
           else Panic PSlice
       end.
(** descriptors.rs:77-99. [&s[i..j]] *)
Definition str_slice (s : str) (i j : N) : outcome str :=
  if j <? i then Panic PSlice
  else let* t := str_from s i in str_to t (j - i).

(** ** The parser monad: [bytes: &[u8], ix: &mut usize] in, value and new [ix] out.
    [ix] after an [Err] is not modelled: every caller propagates the error. *)
(** lib.rs:45-92 ([bytes.len()]) *)
Definition blen (bs : list byte) : N := N.of_nat (length bs).

(** The arguments [bytes] and [ix] of the readers, lib.rs:45-109 and everywhere else *)
Definition parser (A : Type) := list byte -> N -> outcome (A * N).

(** [Ok(..)] at the end of a reader, e.g. lib.rs:108 *)
Definition ret {A} (a : A) : parser A := fun _ ix => Ok (a, ix).
(** [?] between two steps of a reader, e.g. lib.rs:94-109 *)
Definition bind {A B} (p : parser A) (f : A -> parser B) : parser B :=
  fun bs ix => match p bs ix with
               | Ok (a, ix') => f a bs ix'
               | Err e => Err e
               | Panic q => Panic q
               | Diverge => Diverge
               end.
Notation "x <- p ;; q" := (bind p (fun x => q))
  (at level 100, p at next level, q at level 200, right associativity).
Notation "'let+' x := p 'in' q" := (bind p (fun x => q))
  (at level 200, x pattern, p at level 100, q at level 200).

(** A call of a function without [bytes] and [ix], e.g. lib.rs:292-319 from lib.rs:373-460. A computation that does not touch the cursor. *)
Definition lift {A} (m : outcome A) : parser A :=
  fun _ ix => match m with
              | Ok a => Ok (a, ix)
              | Err e => Err e
              | Panic q => Panic q
              | Diverge => Diverge
              end.
(** [fail!] (error.rs:24-40) in a reader *)
Definition pfail {A} (m : str) : parser A := fun _ _ => Err (new_err m).
(** error.rs:24-40 in a reader. [fail!(.., *ix)]: the message mentions the current index. *)
Definition pfail_at {A} (m : N -> str) : parser A := fun _ ix => Err (new_err (m ix)).
(** [.map_err(|e| err!(e, ..))] (error.rs:3-22) in a reader *)
Definition pctx {A} (c : str) (p : parser A) : parser A := fun bs ix => ctx c (p bs ix).
(** Reading [*ix], e.g. attributes.rs:1059-1245 *)
Definition get_ix : parser N := fun _ ix => Ok (ix, ix).
(** [*ix = ..], e.g. attributes.rs:1237-1240 *)
Definition set_ix (n : N) : parser unit := fun _ _ => Ok (tt, n).
(** The argument [bytes], e.g. attributes.rs:1237-1240 *)
Definition get_bytes : parser (list byte) := fun bs ix => Ok (bs, ix).
(** E.g. lib.rs:373-460. [if !cond { fail!(..) }] *)
Definition guard (b : bool) (m : str) : parser unit := if b then ret tt else pfail m.

(** E.g. lib.rs:94-109. [let mut v = Vec::with_capacity(n); for i in 0..n { v.push(body(i)?) }]
    for a u8 or u16 count. *)
Fixpoint for_from {A} (n : nat) (i : N) (body : N -> parser A) : parser (list A) :=
  match n with
  | O => ret []
  | S n' => x <- body i ;; xs <- for_from n' (i + 1) body ;; ret (x :: xs)
  end.
(** The loops [for i in 0..count], e.g. lib.rs:94-109 *)
Definition for_n {A} (count : N) (body : N -> parser A) : parser (list A) :=
  for_from (N.to_nat count) 0 body.

(** The loops of bytecode.rs:312-681 over the entries of a switch. The same loop for a count that may be as large as 2^31: the loop counter is
    compared in binary, [fuel] bounds the number of iterations. *)
Fixpoint for_fuel {A} (fuel : nat) (i count : N) (body : N -> parser A) : parser (list A) :=
  if i <? count then
    match fuel with
    | O => fun _ _ => Diverge
    | S fuel' => x <- body i ;; xs <- for_fuel fuel' (i + 1) count body ;; ret (x :: xs)
    end
  else ret [].
(** The loops of bytecode.rs:312-681 over the entries of a switch. Every iteration consumes at least one byte, so that the length of the input
    is enough fuel (proved in P_Base / P_Bytecode). *)
Definition for_big {A} (count : N) (body : N -> parser A) : parser (list A) :=
  fun bs ix => for_fuel (S (length bs)) 0 count body bs ix.

(** lib.rs:45-92. [bytes[i]] *)
Definition byte_at (bs : list byte) (i : N) : outcome N :=
  match nth_error bs (N.to_nat i) with
  | Some b => Ok (Byte.to_N b)
  | None => Panic PSlice
  end.
(** constant_pool.rs:442-468, attributes.rs:367-414, 1125-1136, 1237-1240. [&bytes[i..j]] *)
Definition slice (bs : list byte) (i j : N) : outcome (list byte) :=
  if (i <=? j) && (j <=? blen bs)
  then Ok (firstn (N.to_nat (j - i)) (skipn (N.to_nat i) bs))
  else Panic PSlice.

(** ** src/lib.rs:45-52 [read_u1] *)
Definition read_u1 : parser N := fun bs ix =>
  if blen bs <? ix + 1 then
    fail (lit "Unexpected end of stream reading u1 at index " ++ show_N ix)
  else
    let* r := byte_at bs ix in
    Ok (r, ix + 1).

(** ** src/lib.rs:55-62 [read_u2] *)
Definition read_u2 : parser N := fun bs ix =>
  if blen bs <? ix + 2 then
    fail (lit "Unexpected end of stream reading u2 at index " ++ show_N ix)
  else
    let* b0 := byte_at bs (ix + 0) in
    let* b1 := byte_at bs (ix + 1) in
    Ok (N.lor (N.shiftl b0 8) b1, ix + 2).

(** ** src/lib.rs:65-75 [read_u4] *)
Definition read_u4 : parser N := fun bs ix =>
  if blen bs <? ix + 4 then
    fail (lit "Unexpected end of stream reading u4 at index " ++ show_N ix)
  else
    let* b0 := byte_at bs (ix + 0) in
    let* b1 := byte_at bs (ix + 1) in
    let* b2 := byte_at bs (ix + 2) in
    let* b3 := byte_at bs (ix + 3) in
    Ok (N.lor (N.lor (N.lor (N.shiftl b0 24) (N.shiftl b1 16)) (N.shiftl b2 8)) b3, ix + 4).

(** ** src/lib.rs:78-92 [read_u8] *)
Definition read_u8 : parser N := fun bs ix =>
  if blen bs <? ix + 8 then
    fail (lit "Unexpected end of stream reading u8 at index " ++ show_N ix)
  else
    let* b0 := byte_at bs (ix + 0) in
    let* b1 := byte_at bs (ix + 1) in
    let* b2 := byte_at bs (ix + 2) in
    let* b3 := byte_at bs (ix + 3) in
    let* b4 := byte_at bs (ix + 4) in
    let* b5 := byte_at bs (ix + 5) in
    let* b6 := byte_at bs (ix + 6) in
    let* b7 := byte_at bs (ix + 7) in
    Ok (N.lor (N.lor (N.lor (N.lor (N.lor (N.lor (N.lor
          (N.shiftl b0 56) (N.shiftl b1 48)) (N.shiftl b2 40)) (N.shiftl b3 32))
          (N.shiftl b4 24)) (N.shiftl b5 16)) (N.shiftl b6 8)) b7, ix + 8).
