(** * The iterator over the constants, with a count of its steps

    The iterator of Z_ConstantPool.v and Z_Class.v (which says which texts are slices of the file and which had to be decoded) once more,
    together with the number of the elementary steps it executes.  That forgetting the number gives back the iterator of Z_Class.v is proved in
    T_Work2.v.

    What is charged: a call of [next], a round of its loop, following a reference to a constant: 1 step; copying a text: 1 step, and if the text
    is owned, 1 step for each of its bytes ([Cow::clone] copies a pointer and a length of a borrowed text, and the bytes of an owned one). *)
From Verif Require Import Base M_ConstantPool W_Base Z_Cow Z_ConstantPool Z_Class.

(** constant_pool.rs:398-418. The bytes that a copy of the text copies: those of an owned text. *)
Definition owned_len (t : cow) : N := match t with Borrowed _ _ => 0 | Owned s => str_len s end.
(** constant_pool.rs:398-403 [x.clone()] in [utf8] *)
Definition wi_clone (t : cow) : metered cow := steps (1 + owned_len t) (Ok t).

Section WithPool.
Variable p : pool.
(** constant_pool.rs:56-61 [get] and 64-76 [peel!] *)
Definition wi_peel (r : cpref) : metered entry := steps 1 (peel p r).
(** constant_pool.rs:398-403 [utf8] *)
Definition wi_utf8 (e : entry) : metered cow :=
  match e with EUtf8 x => wi_clone x | _ => steps 0 (Panic PNotUtf8) end.
(** constant_pool.rs:405-411 [string_literal] *)
Definition wi_string_literal (e : entry) : metered literal :=
  match e with
  | EUtf8 x => let~ t := wi_clone x in mok (LString t)
  | EUtf8Bytes x => mok (LStringBytes x)
  | _ => steps 0 (Panic PNotUtf8)
  end.
(** constant_pool.rs:413-418 [classinfo] *)
Definition wi_classinfo (e : entry) : metered cow :=
  match e with
  | EClassInfo x => let~ t := wi_peel x in wi_utf8 t
  | _ => steps 0 (Panic PNotClassInfo)
  end.
(** constant_pool.rs:64-76, 398-403 [peel!(x).utf8()] *)
Definition wi_peel_utf8 (r : cpref) : metered cow := let~ t := wi_peel r in wi_utf8 t.
(** constant_pool.rs:420-430 [name_and_type] *)
Definition wi_name_and_type (e : entry) : metered name_and_type :=
  match e with
  | ENameAndType x y =>
      let~ n := wi_peel_utf8 x in
      let~ d := wi_peel_utf8 y in
      mok (mk_nat n d)
  | _ => steps 0 (Panic PNotNameAndType)
  end.
(** constant_pool.rs:1156-1169 [MemberRef { class_name: peel!(c).classinfo(), name_and_type: peel!(m).name_and_type() }] *)
Definition wi_member_ref (c m : cpref) : metered member_ref :=
  let~ ce := wi_peel c in
  let~ cn := wi_classinfo ce in
  let~ me := wi_peel m in
  let~ nt := wi_name_and_type me in
  mok (mk_mr cn nt).
(** constant_pool.rs:996-1024 [make_method_handle] *)
Definition wi_method_handle (x : ref_kind) (y : cpref) : metered method_handle :=
  let member (c m : cpref) (k : member_kind) : metered method_handle :=
    let~ ce := wi_peel c in
    let~ cn := wi_classinfo ce in
    let~ me := wi_peel m in
    let~ nt := wi_name_and_type me in
    mok (mk_mh x cn k nt) in
  let~ e := wi_peel y in
  match e with
  | EFieldRef c m => member c m KField
  | EMethodRef c m => member c m KMethod
  | EInterfaceMethodRef c m => member c m KInterfaceMethod
  | _ => steps 0 (fail (lit "Unexpected constant pool reference type"))
  end.
(** constant_pool.rs:1176-1178 [.unwrap()] *)
Definition wi_unwrap {A} (m : metered A) : metered A := let (r, n) := m in (unwrap r, n).
(** constant_pool.rs:1137-1193: the [match] in [next]; [None] is [continue]. *)
Definition wi_item (e : entry) : metered (option cp_item) :=
  match e with
  | EZero => steps 0 (Panic PIterZero)
  | EUtf8 _ | EUtf8Bytes _ => mok None
  | EInteger v => mok (Some (ItLiteral (LInteger v)))
  | EFloat v => mok (Some (ItLiteral (LFloat v)))
  | ELong v => mok (Some (ItLiteral (LLong v)))
  | EDouble v => mok (Some (ItLiteral (LDouble v)))
  | EClassInfo x => let~ s := wi_peel_utf8 x in mok (Some (ItClassInfo s))
  | EString x => let~ t := wi_peel x in let~ l := wi_string_literal t in mok (Some (ItLiteral l))
  | EFieldRef c m => let~ r := wi_member_ref c m in mok (Some (ItFieldRef r))
  | EMethodRef c m => let~ r := wi_member_ref c m in mok (Some (ItMethodRef r))
  | EInterfaceMethodRef c m => let~ r := wi_member_ref c m in mok (Some (ItInterfaceMethodRef r))
  | ENameAndType x y =>
      let~ n := wi_peel_utf8 x in
      let~ d := wi_peel_utf8 y in
      mok (Some (ItNameAndType (mk_nat n d)))
  | EMethodHandle x y => let~ h := wi_unwrap (wi_method_handle x y) in mok (Some (ItMethodHandle h))
  | EMethodType x => let~ s := wi_peel_utf8 x in mok (Some (ItMethodType s))
  | EDynamic x y =>
      let~ t := wi_peel y in let~ nt := wi_name_and_type t in
      mok (Some (ItDynamic (mk_dyn x nt)))
  | EInvokeDynamic x y =>
      let~ t := wi_peel y in let~ nt := wi_name_and_type t in
      mok (Some (ItInvokeDynamic (mk_indy x nt)))
  | EModuleInfo x => let~ s := wi_peel_utf8 x in mok (Some (ItModuleInfo s))
  | EPackageInfo x => let~ s := wi_peel_utf8 x in mok (Some (ItPackageInfo s))
  | EUnused => mok None
  end.
(** constant_pool.rs:1134-1197 [ConstantPoolIter::next]: the [while] loop, a step for every round *)
Fixpoint wi_next_loop (fuel : nat) (index : N) : metered (option cp_item * N) :=
  match fuel with
  | O => steps 0 Diverge
  | S fuel' =>
      if index + 1 <? plen p then
        let index := index + 1 in
        after 1
        match nth_error p (N.to_nat index) with
        | None => steps 0 (Panic PSlice)
        | Some e =>
            let~ r := wi_item e in
            match r with
            | Some it => mok (Some it, index)
            | None => wi_next_loop fuel' index
            end
        end
      else mok (None, index)
  end.
(** constant_pool.rs:1134-1197 [next], a step for the call *)
Definition wi_next (index : N) : metered (option cp_item * N) :=
  after 1 (wi_next_loop (S (length p)) index).
(** lib.rs:335-340 [constantpool_iter] and constant_pool.rs:1117-1130: [n] successive calls of [next] *)
Fixpoint wi_run_from (n : nat) (index : N) : metered (list (option cp_item)) :=
  match n with
  | O => mok []
  | S n' =>
      let~ r := wi_next index in
      let~ rest := wi_run_from n' (snd r) in
      mok (fst r :: rest)
  end.
End WithPool.
(** lib.rs:335-340 [constantpool_iter], constant_pool.rs:1131-1198: the first [n] items *)
Definition wi_run (c : class_file) (n : nat) : metered (list (option cp_item)) := wi_run_from (constant_pool c) n 0.
