(** * Modified UTF-8 (JVMS 4.4.7), as an encoding of Unicode text. *)
From Verif Require Import Base.

(** The Unicode scalar values. *)
Definition is_scalar (c : N) : Prop := c < 0xD800 \/ 0xDFFF < c <= 0x10FFFF.
(** UTF-16: supplementary characters become surrogate pairs. *)
Definition utf16 (c : N) : list N :=
  if c <? 0x10000 then [c] else [0xD800 + (c - 0x10000) / 1024; 0xDC00 + (c - 0x10000) mod 1024].
(** Each UTF-16 code unit takes one to three bytes; 0 takes two. *)
Definition unit_bytes (u : N) : list N :=
  if (1 <=? u) && (u <=? 0x7F) then [u]
  else if u <=? 0x7FF then [0xC0 + u / 64; 0x80 + u mod 64]
  else [0xE0 + u / 4096; 0x80 + (u / 64) mod 64; 0x80 + u mod 64].
Definition modified_utf8 (s : str) : list N := flat_map unit_bytes (flat_map utf16 s).
