(** * What is said of a file that has not been read to its end *)
From Verif Require Import Base.

(** The message starts with these words. *)
Definition end_of_stream : str := lit "Unexpected end of stream".
Definition says_truncated (e : perr) : Prop := exists rest, msg e = end_of_stream ++ rest.
Definition truncated {A} (r : outcome A) : Prop := exists e, r = Err e /\ says_truncated e.

(** The error about bytes after the end of the class, at index [n]. *)
Definition extra_bytes (n : N) : perr :=
  {| msg := lit "Extra bytes found at index " ++ show_N n ++ lit " after reading class file";
     contexts := [] |}.
