(** * How much memory the texts and descriptors of a parsed class take besides the input. *)
From Verif Require Import Base M_ConstantPool M_Class Z_Cow Z_Descriptors Z_ConstantPool Z_Attributes Z_Class S_ZeroCopy.

(** A borrowed text takes no memory of its own, a copied text one byte per byte of UTF-8. *)
Definition copied (t : cow) : N := match t with Borrowed _ _ => 0 | Owned s => str_len s end.
Definition sum (l : list N) : N := fold_right N.add 0 l.
(** The copies of texts, in bytes. *)
Definition copies (c : class_file) : N := sum (map copied (class_texts c)).
(** The parameters in the descriptors of the methods, each of which is an element of a [Vec]. *)
Definition parameter_count (c : class_file) : N := sum (map (fun m => N.of_nat (length (parameters (m_descriptor m)))) (methods c)).
