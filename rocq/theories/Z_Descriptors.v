(** * Borrowing in src/descriptors.rs: the functions that take or return [Cow<'a, str>].
    Functions that only look at the characters are those of M_Descriptors. *)
From Verif Require Import Base M_Names M_Descriptors Z_Cow.

(** descriptors.rs:31-47 [ClassName::try_from]: on success the value itself. *)
Definition class_name_try_from (value : cow) : outcome cow :=
  let* _ := class_name_loop (S (length (chars value))) (chars value) 0 in Ok value.

(** descriptors.rs:85-92: the two arms of [match data]. *)
Definition sub_cow (data : cow) (i j : N) : outcome cow :=
  match data with
  | Borrowed s at_ => let* t := str_slice s i j in Ok (Borrowed t (at_ + i))
  | Owned s => let* t := str_slice s i j in Ok (Owned t)
  end.
(** descriptors.rs:77-99 [parse_class_descriptor] *)
Fixpoint class_descriptor_loop (fuel : nat) (data : cow) (index next_index : N) : outcome cow :=
  match fuel with
  | O => Diverge
  | S fuel' =>
      let* rest := str_from (chars data) next_index in
      let* r := parse_unqualified_segment rest in
      match r with
      | (segment, Some c) =>
          if c =? ch ";" then sub_cow data index (next_index + str_len segment)
          else if c =? ch "/" then
            class_descriptor_loop fuel' data index (next_index + (str_len segment + 1))
          else Panic PSegment
      | (_, None) => fail (lit "Unterminated unqualified segment")
      end
  end.
(** descriptors.rs:77-99 [parse_class_descriptor] *)
Definition parse_class_descriptor (data : cow) (index : N) : outcome cow :=
  class_descriptor_loop (S (length (chars data))) data index index.

(** descriptors.rs:102-112 [FieldType], 141-145 [FieldDescriptor], 199-203 [ReturnDescriptor], 235-239 [MethodDescriptor] *)
Inductive field_type :=
| FByte | FChar | FDouble | FFloat | FInteger | FLong | FShort | FBoolean
| FObject (class_name : cow).
(** descriptors.rs:140-145 [FieldDescriptor] *)
Record field_desc := mk_fd { dimensions : N; fd_type : field_type }.
(** descriptors.rs:199-203 [ReturnDescriptor] *)
Inductive return_desc := RReturn (d : field_desc) | RVoid.
(** descriptors.rs:235-239 [MethodDescriptor] *)
Record method_desc := mk_md { parameters : list field_desc; return_type : return_desc }.

(** descriptors.rs:101-112. The descriptor without the borrowing information. *)
Definition plain_type (t : field_type) : M_Descriptors.field_type :=
  match t with
  | FByte => M_Descriptors.FByte | FChar => M_Descriptors.FChar | FDouble => M_Descriptors.FDouble
  | FFloat => M_Descriptors.FFloat | FInteger => M_Descriptors.FInteger | FLong => M_Descriptors.FLong
  | FShort => M_Descriptors.FShort | FBoolean => M_Descriptors.FBoolean
  | FObject n => M_Descriptors.FObject (chars n)
  end.
(** descriptors.rs:140-145 [FieldDescriptor] without the borrowing information *)
Definition plain_field_desc (d : field_desc) : M_Descriptors.field_desc := M_Descriptors.mk_fd (dimensions d) (plain_type (fd_type d)).
(** descriptors.rs:199-203 [ReturnDescriptor] without the borrowing information *)
Definition plain_return_desc (r : return_desc) : M_Descriptors.return_desc :=
  match r with RReturn d => M_Descriptors.RReturn (plain_field_desc d) | RVoid => M_Descriptors.RVoid end.
(** descriptors.rs:235-239 [MethodDescriptor] without the borrowing information *)
Definition plain_method_desc (d : method_desc) : M_Descriptors.method_desc :=
  M_Descriptors.mk_md (map plain_field_desc (parameters d)) (plain_return_desc (return_type d)).

(** descriptors.rs:147-151. [byte_len], [PartialEq] of descriptors: functions of the characters ([Cow] compares by contents). *)
Definition field_desc_byte_len (d : field_desc) : N := M_Descriptors.field_desc_byte_len (plain_field_desc d).

(** descriptors.rs:166-197 [parse_field_descriptor]: the [for c in data[index..].chars()] loop. *)
Fixpoint field_descriptor_loop (data : cow) (index : N) (cs : str) (dims : N) : outcome field_desc :=
  match cs with
  | [] => fail (lit "Empty string is not a field descriptor")
  | c :: cs' =>
      if c =? ch "[" then
        let dims := dims + 1 in
        if 255 <? dims then fail (lit "Dimensions in field descriptor exceeded allowed limit")
        else field_descriptor_loop data index cs' dims
      else
        let* t :=
          (if c =? ch "B" then Ok FByte
           else if c =? ch "C" then Ok FChar
           else if c =? ch "D" then Ok FDouble
           else if c =? ch "F" then Ok FFloat
           else if c =? ch "I" then Ok FInteger
           else if c =? ch "J" then Ok FLong
           else if c =? ch "S" then Ok FShort
           else if c =? ch "Z" then Ok FBoolean
           else if c =? ch "L" then
             let* n := parse_class_descriptor data (index + dims + 1) in Ok (FObject n)
           else fail (lit "Unexpected field type")) in
        Ok (mk_fd (dims mod 256) t)
  end.
(** descriptors.rs:166-197 [parse_field_descriptor] *)
Definition parse_field_descriptor (data : cow) (index : N) : outcome field_desc :=
  let* cs := str_from (chars data) index in
  field_descriptor_loop data index cs 0.

(** descriptors.rs:222-233 [parse_return_descriptor] *)
Definition parse_return_descriptor (data : cow) (index : N) : outcome return_desc :=
  let* rest := str_from (chars data) index in
  if str_eqb rest (lit "V") then Ok RVoid
  else let* d := parse_field_descriptor data index in Ok (RReturn d).

(** descriptors.rs:274-281 the parameter [loop], returning the parameters and the
    index of the closing parenthesis. *)
Fixpoint params_loop (fuel : nat) (data : cow) (index : N) : outcome (list field_desc * N) :=
  match fuel with
  | O => Diverge
  | S fuel' =>
      let* close :=
        (if index <? str_len (chars data) then
           let* b := str_byte_at (chars data) index in Ok (b =? ch ")")
         else Ok false) in
      if (close : bool) then Ok ([], index)
      else
        let* p := parse_field_descriptor data index in
        let* r := params_loop fuel' data (index + field_desc_byte_len p) in
        Ok (p :: fst r, snd r)
  end.

(** descriptors.rs:264-288 [parse_method_descriptor] *)
Definition parse_method_descriptor (data : cow) (index : N) : outcome method_desc :=
  let* bad :=
    (if str_len (chars data) <=? index then Ok true
     else let* b := str_byte_at (chars data) index in Ok (negb (b =? ch "("))) in
  if (bad : bool) then fail (lit "Method descriptor must start with '('")
  else
    let index := index + 1 in
    let* r := params_loop (S (length (chars data))) data index in
    let index := snd r + 1 in
    let* rt := parse_return_descriptor data index in
    Ok (mk_md (fst r) rt).

(** descriptors.rs:290-301 [parse_array_descriptor] *)
Definition parse_array_descriptor (data : cow) : outcome (option field_desc) :=
  let* none :=
    (match chars data with
     | [] => Ok true
     | _ => let* b := str_byte_at (chars data) 0 in Ok (negb (b =? ch "["))
     end) in
  if (none : bool) then Ok None
  else
    let* desc := parse_field_descriptor data 0 in
    if negb (str_len (chars data) =? field_desc_byte_len desc) then fail (lit "Not a field descriptor")
    else Ok (Some desc).

