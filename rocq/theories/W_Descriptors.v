(** * src/names.rs and src/descriptors.rs with a count of the steps

    The checks of names.rs look at every character of the name at most a fixed
    number of times; they are charged [text name] where they are called. *)
From Verif Require Import Base M_Names M_Descriptors W_Base.

(** descriptors.rs:13-24 [parse_unqualified_segment]: 1 step for every character. *)
Fixpoint w_segment_loop (data rest : str) (ix : N) : metered (str * option char) :=
  match rest with
  | [] => steps 1 (Ok (data, None))
  | c :: rest' =>
      after 1
        (if (c =? ch "/") && (ix =? 0) then steps 0 (fail (lit "Unexpected '/' at start of unqualified segment"))
         else if (c =? ch ";") && (ix =? 0) then steps 0 (fail (lit "Unexpected ';' at start of unqualified segment"))
         else if (c =? ch "/") || (c =? ch ";") then
           steps 0 (let* seg := str_slice data 0 ix in Ok (seg, Some c))
         else if (c =? ch ".") || (c =? ch "[") || (c =? ch "<") || (c =? ch ">") then
           steps 0 (fail (lit "Disallowed character in unqualified segment"))
         else w_segment_loop data rest' (ix + char_len c))
  end.
(** descriptors.rs:13-24 [parse_unqualified_segment] *)
Definition w_unqualified_segment (data : str) : metered (str * option char) :=
  w_segment_loop data data 0.

(** descriptors.rs:31-47 [ClassName::try_from] *)
Fixpoint w_class_name_loop (fuel : nat) (value : str) (index : N) : metered unit :=
  match fuel with
  | O => steps 0 Diverge
  | S fuel' =>
      let~ rest := steps 1 (str_from value index) in
      let~ r := w_unqualified_segment rest in
      match r with
      | (_, None) => mok tt
      | (segment, Some c) =>
          if c =? ch ";" then steps 0 (fail (lit "Disallowed ';' in class name"))
          else if c =? ch "/" then w_class_name_loop fuel' value (index + (str_len segment + 1))
          else steps 0 (Panic PSegment)
      end
  end.
(** descriptors.rs:31-47 [ClassName::try_from] *)
Definition w_class_name_try_from (value : str) : metered str :=
  let~ _ := w_class_name_loop (S (length value)) value 0 in mok value.

(** descriptors.rs:77-99 [parse_class_descriptor]; an owned class name is copied. *)
Fixpoint w_class_descriptor_loop (fuel : nat) (data : str) (index next_index : N) : metered str :=
  match fuel with
  | O => steps 0 Diverge
  | S fuel' =>
      let~ rest := steps 1 (str_from data next_index) in
      let~ r := w_unqualified_segment rest in
      match r with
      | (segment, Some c) =>
          if c =? ch ";" then
            let e := next_index + str_len segment in
            steps (1 + (e - index)) (str_slice data index e)
          else if c =? ch "/" then
            w_class_descriptor_loop fuel' data index (next_index + (str_len segment + 1))
          else steps 0 (Panic PSegment)
      | (_, None) => steps 0 (fail (lit "Unterminated unqualified segment"))
      end
  end.
(** descriptors.rs:77-99 [parse_class_descriptor] *)
Definition w_class_descriptor (data : str) (index : N) : metered str :=
  w_class_descriptor_loop (S (length data)) data index index.

(** descriptors.rs:166-197 [parse_field_descriptor] *)
Fixpoint w_field_descriptor_loop (data : str) (index : N) (chars : str) (dims : N) : metered field_desc :=
  match chars with
  | [] => steps 1 (fail (lit "Empty string is not a field descriptor"))
  | c :: chars' =>
      after 1
        (if c =? ch "[" then
           let dims := dims + 1 in
           if 255 <? dims then steps 0 (fail (lit "Dimensions in field descriptor exceeded allowed limit"))
           else w_field_descriptor_loop data index chars' dims
         else
           let~ t :=
             (if c =? ch "B" then mok FByte
              else if c =? ch "C" then mok FChar
              else if c =? ch "D" then mok FDouble
              else if c =? ch "F" then mok FFloat
              else if c =? ch "I" then mok FInteger
              else if c =? ch "J" then mok FLong
              else if c =? ch "S" then mok FShort
              else if c =? ch "Z" then mok FBoolean
              else if c =? ch "L" then
                let~ n := w_class_descriptor data (index + dims + 1) in mok (FObject n)
              else steps 0 (fail (lit "Unexpected field type"))) in
           mok (mk_fd (dims mod 256) t))
  end.
(** descriptors.rs:166-197 [parse_field_descriptor] *)
Definition w_parse_field_descriptor (data : str) (index : N) : metered field_desc :=
  let~ chars := steps 1 (str_from data index) in
  w_field_descriptor_loop data index chars 0.

(** descriptors.rs:222-233 [parse_return_descriptor] *)
Definition w_parse_return_descriptor (data : str) (index : N) : metered return_desc :=
  let~ rest := steps 1 (str_from data index) in
  if str_eqb rest (lit "V") then mok RVoid
  else let~ d := w_parse_field_descriptor data index in mok (RReturn d).

(** descriptors.rs:274-281 the parameter [loop] *)
Fixpoint w_params_loop (fuel : nat) (data : str) (index : N) : metered (list field_desc * N) :=
  match fuel with
  | O => steps 0 Diverge
  | S fuel' =>
      let~ close :=
        (if index <? str_len data then
           let~ b := steps 1 (str_byte_at data index) in mok (b =? ch ")")
         else steps 1 (Ok false)) in
      if (close : bool) then mok ([], index)
      else
        let~ p := w_parse_field_descriptor data index in
        let~ r := w_params_loop fuel' data (index + field_desc_byte_len p) in
        mok (p :: fst r, snd r)
  end.

(** descriptors.rs:264-288 [parse_method_descriptor] *)
Definition w_parse_method_descriptor (data : str) (index : N) : metered method_desc :=
  let~ bad :=
    (if str_len data <=? index then steps 1 (Ok true)
     else let~ b := steps 1 (str_byte_at data index) in mok (negb (b =? ch "("))) in
  if (bad : bool) then steps 1 (fail (lit "Method descriptor must start with '('"))
  else
    let index := index + 1 in
    let~ r := w_params_loop (S (length data)) data index in
    let index := snd r + 1 in
    let~ rt := w_parse_return_descriptor data index in
    mok (mk_md (fst r) rt).

(** descriptors.rs:290-301 [parse_array_descriptor] *)
Definition w_parse_array_descriptor (data : str) : metered (option field_desc) :=
  let~ none :=
    (match data with
     | [] => steps 1 (Ok true)
     | _ => let~ b := steps 1 (str_byte_at data 0) in mok (negb (b =? ch "["))
     end) in
  if (none : bool) then mok None
  else
    let~ desc := w_parse_field_descriptor data 0 in
    if negb (str_len data =? field_desc_byte_len desc) then steps 1 (fail (lit "Not a field descriptor"))
    else mok (Some desc).

(** descriptors.rs:303-326. [match r { Ok(desc) => .., Err(_) => false }] *)
Definition w_ok_and {A} (m : metered A) (f : A -> bool) : metered bool :=
  let (r, n) := m in (ok_and r f, n + 1).

(** descriptors.rs:303-308 [is_field_descriptor] *)
Definition w_is_field_descriptor (name : str) : metered bool :=
  w_ok_and (w_parse_field_descriptor name 0) (fun d => str_len name =? field_desc_byte_len d).

(** descriptors.rs:310-312 [is_array_descriptor] *)
Definition w_is_array_descriptor (name : str) : metered bool :=
  let~ b := w_is_field_descriptor name in
  if (b : bool) then let~ x := steps 1 (str_byte_at name 0) in mok (x =? ch "[") else mok false.

(** descriptors.rs:314-319 [is_method_descriptor]; the length of the parsed
    descriptor (descriptors.rs:253-262) is the sum over its parameters. *)
Definition w_is_method_descriptor (name : str) : metered bool :=
  let (r, n) := w_parse_method_descriptor name 0 in
  (ok_and r (fun d => str_len name =? method_desc_byte_len d),
   n + 1 + match r with Ok d => N.of_nat (length (parameters d)) | _ => 0 end).

(** descriptors.rs:321-326 [is_return_descriptor] *)
Definition w_is_return_descriptor (name : str) : metered bool :=
  w_ok_and (w_parse_return_descriptor name 0) (fun d => str_len name =? return_desc_byte_len d).
