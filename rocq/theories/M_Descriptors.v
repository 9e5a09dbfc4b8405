(** * Model of src/descriptors.rs *)
From Verif Require Import Base M_Names.

(** descriptors.rs:13-24 [parse_unqualified_segment]; [rest] is what remains of
    [data.char_indices()] and [ix] the byte index of its head. *)
Fixpoint segment_loop (data rest : str) (ix : N) : outcome (str * option char) :=
  match rest with
  | [] => Ok (data, None)
  | c :: rest' =>
      if (c =? ch "/") && (ix =? 0) then fail (lit "Unexpected '/' at start of unqualified segment")
      else if (c =? ch ";") && (ix =? 0) then fail (lit "Unexpected ';' at start of unqualified segment")
      else if (c =? ch "/") || (c =? ch ";") then
        let* seg := str_slice data 0 ix in Ok (seg, Some c)
      else if (c =? ch ".") || (c =? ch "[") || (c =? ch "<") || (c =? ch ">") then
        fail (lit "Disallowed character in unqualified segment")
      else segment_loop data rest' (ix + char_len c)
  end.
(** descriptors.rs:13-24 [parse_unqualified_segment] *)
Definition parse_unqualified_segment (data : str) : outcome (str * option char) :=
  segment_loop data data 0.

(** descriptors.rs:31-47 [ClassName::try_from]: the [loop], with fuel. The value
    of a [ClassName] is its string (descriptors.rs:29). *)
Fixpoint class_name_loop (fuel : nat) (value : str) (index : N) : outcome unit :=
  match fuel with
  | O => Diverge
  | S fuel' =>
      let* rest := str_from value index in
      let* r := parse_unqualified_segment rest in
      match r with
      | (_, None) => Ok tt
      | (segment, Some c) =>
          if c =? ch ";" then fail (lit "Disallowed ';' in class name")
          else if c =? ch "/" then class_name_loop fuel' value (index + (str_len segment + 1))
          else Panic PSegment
      end
  end.
(** descriptors.rs:31-47 [ClassName::try_from] *)
Definition class_name_try_from (value : str) : outcome str :=
  let* _ := class_name_loop (S (length value)) value 0 in Ok value.

(** descriptors.rs:77-99 [parse_class_descriptor]; the two arms of the inner
    [match data] differ only in borrowing. *)
Fixpoint class_descriptor_loop (fuel : nat) (data : str) (index next_index : N) : outcome str :=
  match fuel with
  | O => Diverge
  | S fuel' =>
      let* rest := str_from data next_index in
      let* r := parse_unqualified_segment rest in
      match r with
      | (segment, Some c) =>
          if c =? ch ";" then str_slice data index (next_index + str_len segment)
          else if c =? ch "/" then
            class_descriptor_loop fuel' data index (next_index + (str_len segment + 1))
          else Panic PSegment
      | (_, None) => fail (lit "Unterminated unqualified segment")
      end
  end.
(** descriptors.rs:77-99 [parse_class_descriptor] *)
Definition parse_class_descriptor (data : str) (index : N) : outcome str :=
  class_descriptor_loop (S (length data)) data index index.

(** descriptors.rs:102-112 [FieldType] *)
Inductive field_type :=
| FByte | FChar | FDouble | FFloat | FInteger | FLong | FShort | FBoolean
| FObject (class_name : str).

(** descriptors.rs:114-122 *)
Definition field_type_byte_len (t : field_type) : N :=
  match t with FObject n => 2 + str_len n | _ => 1 end.

(** descriptors.rs:124-138 [Display for FieldType] *)
Definition show_field_type (t : field_type) : str :=
  match t with
  | FByte => lit "B" | FChar => lit "C" | FDouble => lit "D" | FFloat => lit "F"
  | FInteger => lit "I" | FLong => lit "J" | FShort => lit "S" | FBoolean => lit "Z"
  | FObject n => lit "L" ++ n ++ lit ";"
  end.

(** descriptors.rs:141-145 [FieldDescriptor] *)
Record field_desc := mk_fd { dimensions : N; fd_type : field_type }.

(** descriptors.rs:147-151 *)
Definition field_desc_byte_len (d : field_desc) : N :=
  dimensions d + field_type_byte_len (fd_type d).

(** descriptors.rs:153-162 [Display for FieldDescriptor] *)
Definition show_field_desc (d : field_desc) : str :=
  repeat (ch "[") (N.to_nat (dimensions d)) ++ show_field_type (fd_type d).

(** descriptors.rs:166-197 [parse_field_descriptor]: the [for c in data[index..].chars()] loop. *)
Fixpoint field_descriptor_loop (data : str) (index : N) (chars : str) (dims : N) : outcome field_desc :=
  match chars with
  | [] => fail (lit "Empty string is not a field descriptor")
  | c :: chars' =>
      if c =? ch "[" then
        let dims := dims + 1 in
        if 255 <? dims then fail (lit "Dimensions in field descriptor exceeded allowed limit")
        else field_descriptor_loop data index chars' dims
      else
        let* t :=
          (if c =? ch "B" then Ok FByte
           else if c =? ch "C" then Ok FChar
           else if c =? ch "D" then Ok FDouble
           else if c =? ch "F" then Ok FFloat
           else if c =? ch "I" then Ok FInteger
           else if c =? ch "J" then Ok FLong
           else if c =? ch "S" then Ok FShort
           else if c =? ch "Z" then Ok FBoolean
           else if c =? ch "L" then
             let* n := parse_class_descriptor data (index + dims + 1) in Ok (FObject n)
           else fail (lit "Unexpected field type")) in
        Ok (mk_fd (dims mod 256) t)
  end.
(** descriptors.rs:166-197 [parse_field_descriptor] *)
Definition parse_field_descriptor (data : str) (index : N) : outcome field_desc :=
  let* chars := str_from data index in
  field_descriptor_loop data index chars 0.

(** descriptors.rs:199-203 [ReturnDescriptor] *)
Inductive return_desc := RReturn (d : field_desc) | RVoid.

(** descriptors.rs:204-211 *)
Definition show_return_desc (r : return_desc) : str :=
  match r with RVoid => lit "V" | RReturn d => show_field_desc d end.
(** descriptors.rs:213-220 *)
Definition return_desc_byte_len (r : return_desc) : N :=
  match r with RReturn d => field_desc_byte_len d | RVoid => 1 end.

(** descriptors.rs:222-233 [parse_return_descriptor] *)
Definition parse_return_descriptor (data : str) (index : N) : outcome return_desc :=
  let* rest := str_from data index in
  if str_eqb rest (lit "V") then Ok RVoid
  else let* d := parse_field_descriptor data index in Ok (RReturn d).

(** descriptors.rs:235-239 [MethodDescriptor] *)
Record method_desc := mk_md { parameters : list field_desc; return_type : return_desc }.

(** descriptors.rs:241-251 *)
Definition show_method_desc (d : method_desc) : str :=
  lit "(" ++ flat_map show_field_desc (parameters d) ++ lit ")" ++ show_return_desc (return_type d).
(** descriptors.rs:253-262 *)
Definition method_desc_byte_len (d : method_desc) : N :=
  1 + fold_left (fun sum param => sum + field_desc_byte_len param) (parameters d) 0
    + 1 + return_desc_byte_len (return_type d).

(** descriptors.rs:264-301. [bytes[index]] for [bytes = data.as_bytes()] *)
Definition str_byte_at (data : str) (index : N) : outcome N :=
  match nth_error (as_bytes data) (N.to_nat index) with
  | Some b => Ok b
  | None => Panic PSlice
  end.

(** descriptors.rs:274-281 the parameter [loop], returning the parameters and the
    index of the closing parenthesis. *)
Fixpoint params_loop (fuel : nat) (data : str) (index : N) : outcome (list field_desc * N) :=
  match fuel with
  | O => Diverge
  | S fuel' =>
      let* close :=
        (if index <? str_len data then
           let* b := str_byte_at data index in Ok (b =? ch ")")
         else Ok false) in
      if (close : bool) then Ok ([], index)
      else
        let* p := parse_field_descriptor data index in
        let* r := params_loop fuel' data (index + field_desc_byte_len p) in
        Ok (p :: fst r, snd r)
  end.

(** descriptors.rs:264-288 [parse_method_descriptor] *)
Definition parse_method_descriptor (data : str) (index : N) : outcome method_desc :=
  let* bad :=
    (if str_len data <=? index then Ok true
     else let* b := str_byte_at data index in Ok (negb (b =? ch "("))) in
  if (bad : bool) then fail (lit "Method descriptor must start with '('")
  else
    let index := index + 1 in
    let* r := params_loop (S (length data)) data index in
    let index := snd r + 1 in
    let* rt := parse_return_descriptor data index in
    Ok (mk_md (fst r) rt).

(** descriptors.rs:290-301 [parse_array_descriptor] *)
Definition parse_array_descriptor (data : str) : outcome (option field_desc) :=
  let* none :=
    (match data with
     | [] => Ok true
     | _ => let* b := str_byte_at data 0 in Ok (negb (b =? ch "["))
     end) in
  if (none : bool) then Ok None
  else
    let* desc := parse_field_descriptor data 0 in
    if negb (str_len data =? field_desc_byte_len desc) then fail (lit "Not a field descriptor")
    else Ok (Some desc).

(** descriptors.rs:303-326. [match r { Ok(desc) => .., Err(_) => false }] *)
Definition ok_and {A} (m : outcome A) (f : A -> bool) : outcome bool :=
  match m with
  | Ok a => Ok (f a)
  | Err _ => Ok false
  | Panic p => Panic p
  | Diverge => Diverge
  end.

(** descriptors.rs:303-308 [is_field_descriptor] *)
Definition is_field_descriptor (name : str) : outcome bool :=
  ok_and (parse_field_descriptor name 0) (fun d => str_len name =? field_desc_byte_len d).

(** descriptors.rs:310-312 [is_array_descriptor] *)
Definition is_array_descriptor (name : str) : outcome bool :=
  let* b := is_field_descriptor name in
  if (b : bool) then let* x := str_byte_at name 0 in Ok (x =? ch "[") else Ok false.

(** descriptors.rs:314-319 [is_method_descriptor] *)
Definition is_method_descriptor (name : str) : outcome bool :=
  ok_and (parse_method_descriptor name 0) (fun d => str_len name =? method_desc_byte_len d).

(** descriptors.rs:321-326 [is_return_descriptor] *)
Definition is_return_descriptor (name : str) : outcome bool :=
  ok_and (parse_return_descriptor name 0) (fun d => str_len name =? return_desc_byte_len d).

(** Derived [PartialEq] on descriptors (descriptors.rs:28, 101, 140, 199, 235). *)
Definition field_type_eqb (a b : field_type) : bool :=
  match a, b with
  | FByte, FByte | FChar, FChar | FDouble, FDouble | FFloat, FFloat
  | FInteger, FInteger | FLong, FLong | FShort, FShort | FBoolean, FBoolean => true
  | FObject x, FObject y => str_eqb x y
  | _, _ => false
  end.
(** descriptors.rs:140 [derive(PartialEq)] for [FieldDescriptor] *)
Definition field_desc_eqb (a b : field_desc) : bool :=
  (dimensions a =? dimensions b) && field_type_eqb (fd_type a) (fd_type b).
(** descriptors.rs:199 [derive(PartialEq)] for [ReturnDescriptor] *)
Definition return_desc_eqb (a b : return_desc) : bool :=
  match a, b with
  | RVoid, RVoid => true
  | RReturn x, RReturn y => field_desc_eqb x y
  | _, _ => false
  end.
(** descriptors.rs:237: [==] on a vector *)
Fixpoint list_eqb {A} (eqb : A -> A -> bool) (a b : list A) : bool :=
  match a, b with
  | [], [] => true
  | x :: a', y :: b' => eqb x y && list_eqb eqb a' b'
  | _, _ => false
  end.
(** descriptors.rs:235 [derive(PartialEq)] for [MethodDescriptor] *)
Definition method_desc_eqb (a b : method_desc) : bool :=
  list_eqb field_desc_eqb (parameters a) (parameters b)
  && return_desc_eqb (return_type a) (return_type b).
