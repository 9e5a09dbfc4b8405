(** * [Cow<'a, str>]: texts that remember where they are.

    The parser returns every text as a [Cow<'a, str>].  The files Z_* are the model of the code with this type in place of [str]
    (which forgets it): a borrowed text is a slice of the input, given by the index of its first byte, and an owned text is a copy. *)
From Verif Require Import Base M_Cesu8.

(** descriptors.rs:29, constant_pool.rs:151. [Borrowed s at]: a [&'a str] to the bytes of the input from index [at] on, [str_len s] of them; [Owned s]: a [String]. *)
Inductive cow := Borrowed (s : str) (at_ : N) | Owned (s : str).
(** constant_pool.rs:327-335. [Deref]: the characters. *)
Definition chars (c : cow) : str := match c with Borrowed s _ => s | Owned s => s end.

(** Called from cesu8 1.1.0 (constant_pool.rs:464). [core::str::from_utf8] *)
Definition from_utf8 (bytes : list byte) : option str :=
  let bs := map Byte.to_N bytes in utf8_decode (S (length bs)) bs.

(** constant_pool.rs:464. [cesu8::from_java_cesu8] (cesu8 1.1.0) on the slice [data] of the input that begins at [at_]: if [data] is UTF-8 the result is borrowed,
    otherwise it is decoded into a new string; [decode] is what the function returns if one forgets borrowing. *)
Definition from_java_cesu8_cow (decode : list byte -> option str) (data : list byte) (at_ : N) : option cow :=
  match from_utf8 data with
  | Some s => Some (Borrowed s at_)
  | None => option_map Owned (decode data)
  end.
