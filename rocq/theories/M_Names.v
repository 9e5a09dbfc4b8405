(** * Model of src/names.rs *)
From Verif Require Import Base.

(** names.rs:1-8. [name.split('/')]: the pieces between separators; always at least one piece. *)
Fixpoint split_on (sep : char) (s : str) : list str :=
  match s with
  | [] => [[]]
  | c :: s' =>
      if c =? sep then [] :: split_on sep s'
      else match split_on sep s' with
           | [] => [[c]]
           | p :: ps => (c :: p) :: ps
           end
  end.

(** A character literal, as in names.rs:14-49 *)
Definition ch (s : string) : char := match lit s with [c] => c | _ => 0 end.
Arguments ch _%string_scope.

(** names.rs:14-16 [is_valid_unqualified_char]: not one of . ; [ / *)
Definition is_valid_unqualified_char (c : char) : bool :=
  negb ((c =? ch ".") || (c =? ch ";") || (c =? ch "[") || (c =? ch "/")).

(** names.rs:10-12 [is_unqualified_name] *)
Definition is_unqualified_name (name : str) : bool :=
  negb (match name with [] => true | _ => false end) && forallb is_valid_unqualified_char name.

(** names.rs:1-8 [is_binary_name] (the loop with early return is [forallb]) *)
Definition is_binary_name (name : str) : bool :=
  forallb is_unqualified_name (split_on (ch "/") name).

(** names.rs:31-33 [is_valid_unqualified_method_char]: not one of . ; [ / < > *)
Definition is_valid_unqualified_method_char (c : char) : bool :=
  negb ((c =? ch ".") || (c =? ch ";") || (c =? ch "[") || (c =? ch "/")
        || (c =? ch "<") || (c =? ch ">")).

(** names.rs:18-29 [is_unqualified_method_name] *)
Definition is_unqualified_method_name (name : str) (allow_init allow_clinit : bool) : bool :=
  match name with
  | [] => false
  | x :: rest =>
      if x =? ch "<" then
        (allow_init && str_eqb name (lit "<init>"))
        || (allow_clinit && str_eqb name (lit "<clinit>"))
      else if negb (is_valid_unqualified_method_char x) then false
      else forallb is_valid_unqualified_method_char rest
  end.

(** names.rs:35-50 [is_module_name] *)
Fixpoint is_module_name (name : str) : bool :=
  match name with
  | [] => true
  | c :: rest =>
      if c <=? 0x1F then false
      else if c =? ch "\" then
        match rest with
        | [] => false
        | d :: rest' =>
            if (d =? ch "\") || (d =? ch ":") || (d =? ch "@") then is_module_name rest'
            else false
        end
      else if (c =? ch ":") || (c =? ch "@") then false
      else is_module_name rest
  end.
