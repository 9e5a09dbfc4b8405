(** * Vocabulary for statements about the constant pool of a file. *)
From Verif Require Import Base S_Lang S_Format.

(** JVMS table 4.4-B: tags and the version that introduced them. *)
Definition tags : list (N * N) :=
  [(1, 0); (3, 0); (4, 0); (5, 0); (6, 0); (7, 0); (8, 0); (9, 0); (10, 0); (11, 0); (12, 0);
   (15, 51); (16, 51); (17, 55); (18, 51); (19, 53); (20, 53)].

(** The index of the [k]-th constant (from 0). *)
Definition index_of (cs : list constant) (k : nat) : N :=
  1 + fold_right (fun c n => width c + n) 0 (firstn k cs).

(** [bs] starts with the magic number, the versions, a constant count and the
    encodings [ws] of the constants [cs]; [rest] follows. *)
Definition starts_with_pool (bs : list byte) (minor major count : N) (cs : list constant) (ws : list (list byte))
    (rest : list byte) : Prop :=
  exists m v n, u4 0xCAFEBABE m /\ (u2 minor +++ u2 major) v /\ u2 count n
  /\ bs = m ++ v ++ n ++ concat ws ++ rest
  /\ Forall2 (constant_lang major) cs ws.

(** The indices written in a constant. *)
Definition indices (c : constant) : list N :=
  match c with
  | CUtf8 _ | CInteger _ | CFloat _ | CLong _ | CDouble _ => []
  | CClass n | CString n | CMethodHandle _ n | CMethodType n | CDynamic _ n | CInvokeDynamic _ n
  | CModule n | CPackage n => [n]
  | CFieldref a b | CMethodref a b | CInterfaceMethodref a b | CNameAndType a b => [a; b]
  end.
