(** * Model of the dependency [cesu8] 1.1.0, function [from_java_cesu8].

    The source of the crate is not in /repo (only named in Cargo.toml:25); this is
    its published algorithm: strict UTF-8 is tried first, otherwise the Java
    variant of CESU-8 is decoded.  All theorems about the parser hold for an
    arbitrary decoder ([env.cesu8]); only the theorems that say so use this one. *)
From Verif Require Import Base.

(** cesu8 1.1.0 (Cargo.toml:25) and core::char: Unicode scalar values *)
Definition scalar (c : N) : bool := (c <? 0xD800) || ((0xDFFF <? c) && (c <=? 0x10FFFF)).

(** cesu8 1.1.0 (Cargo.toml:25): continuation bytes *)
Definition cont (b : N) : bool := (0x80 <=? b) && (b <=? 0xBF).

(** Called from cesu8 1.1.0 (Cargo.toml:25, constant_pool.rs:464). [core::str::from_utf8]: well-formed UTF-8 (RFC 3629), decoded to scalar values. *)
Fixpoint utf8_decode (fuel : nat) (bs : list N) : option str :=
  match fuel with
  | O => None
  | S fuel' =>
      match bs with
      | [] => Some []
      | a :: r =>
          let push (c : N) (rest : list N) : option str :=
            option_map (cons c) (utf8_decode fuel' rest) in
          if a <? 0x80 then push a r
          else if (0xC2 <=? a) && (a <=? 0xDF) then
            match r with
            | b :: r => if cont b then push ((a - 0xC0) * 64 + (b - 0x80)) r else None
            | _ => None
            end
          else if (0xE0 <=? a) && (a <=? 0xEF) then
            match r with
            | b :: c :: r =>
                let v := (a - 0xE0) * 4096 + (b - 0x80) * 64 + (c - 0x80) in
                if cont b && cont c && (0x800 <=? v) && scalar v then push v r else None
            | _ => None
            end
          else if (0xF0 <=? a) && (a <=? 0xF4) then
            match r with
            | b :: c :: d :: r =>
                let v := (a - 0xF0) * 262144 + (b - 0x80) * 4096 + (c - 0x80) * 64 + (d - 0x80) in
                if cont b && cont c && cont d && (0x10000 <=? v) && (v <=? 0x10FFFF)
                then push v r else None
            | _ => None
            end
          else None
      end
  end.

(** cesu8 1.1.0 (Cargo.toml:25, constant_pool.rs:464) [decode_from_iter] for [Variant::Java]. *)
Fixpoint java_decode (fuel : nat) (bs : list N) : option str :=
  match fuel with
  | O => None
  | S fuel' =>
      match bs with
      | [] => Some []
      | a :: r =>
          let push (c : N) (rest : list N) : option str :=
            option_map (cons c) (java_decode fuel' rest) in
          if a =? 0 then None
          else if a <? 0x80 then push a r
          else if a =? 0xC0 then
            match r with
            | b :: r => if b =? 0x80 then push 0 r else None
            | _ => None
            end
          else if (0xC2 <=? a) && (a <=? 0xDF) then
            match r with
            | b :: r => if cont b then push ((a - 0xC0) * 64 + (b - 0x80)) r else None
            | _ => None
            end
          else if (0xE0 <=? a) && (a <=? 0xEF) then
            match r with
            | b :: c :: r =>
                if cont b && cont c then
                  if ((a =? 0xE0) && (0xA0 <=? b))
                     || ((0xE1 <=? a) && (a <=? 0xEC))
                     || ((a =? 0xED) && (b <=? 0x9F))
                     || (0xEE <=? a)
                  then push ((a - 0xE0) * 4096 + (b - 0x80) * 64 + (c - 0x80)) r
                  else if (a =? 0xED) && (0xA0 <=? b) && (b <=? 0xAF) then
                    match r with
                    | d :: e :: f :: r =>
                        if (d =? 0xED) && (0xB0 <=? e) && (e <=? 0xBF) && cont f then
                          push (0x10000 + ((b - 0xA0) * 64 + (c - 0x80)) * 1024
                                + ((e - 0xB0) * 64 + (f - 0x80))) r
                        else None
                    | _ => None
                    end
                  else None
                else None
            | _ => None
            end
          else None
      end
  end.

(** cesu8 1.1.0 (Cargo.toml:25, constant_pool.rs:464) [from_java_cesu8] *)
Definition from_java_cesu8 (bytes : list byte) : option str :=
  let bs := map Byte.to_N bytes in
  match utf8_decode (S (length bs)) bs with
  | Some s => Some s
  | None => java_decode (S (length bs)) bs
  end.
