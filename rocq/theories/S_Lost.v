(** * What parsing forgets (for C68): when do two files, or two pieces of files, say the same in other bytes? *)
From Verif Require Import Base M_Descriptors M_ConstantPool M_Attributes M_Class S_Lang S_Names S_Format.

Section Lost.
Variable dec : list byte -> option str.
Variable sl : slots.

(** The constants [i] and [j] say the same: to an iteration over the constants, or as texts, or as descriptors (of which only the
    beginning is read, see [field_prefix] and [method_prefix]). *)
Inductive lookalike (i j : N) : Prop :=
| same_item it : item_at dec sl i it -> item_at dec sl j it -> lookalike i j
| same_text s : utf8_at dec sl i s -> utf8_at dec sl j s -> lookalike i j
| same_field_descriptor d s t : utf8_at dec sl i s -> utf8_at dec sl j t -> field_prefix s d -> field_prefix t d -> lookalike i j
| same_method_descriptor d s t : utf8_at dec sl i s -> utf8_at dec sl j t -> method_prefix s d -> method_prefix t d -> lookalike i j.

(** The same bytes, but for indices of constants that say the same, and for pieces related by [P]. *)
Inductive alike (P : list byte -> list byte -> Prop) : list byte -> list byte -> Prop :=
| alike_same w : alike P w w
| alike_index i j w w' : u2 i w -> u2 j w' -> lookalike i j -> alike P w w'
| alike_piece w w' : P w w' -> alike P w w'
| alike_both u u' v v' : alike P u u' -> alike P v v' -> alike P (u ++ v) (u' ++ v').

Definition nothing (w w' : list byte) : Prop := False.
(** Access flags that have the same named bits. *)
Definition flags (named : N) (w w' : list byte) : Prop :=
  exists f, flags_keep named f w /\ flags_keep named f w'.
(** The first byte of a frame with an offset of at most 63 and the long form of the same frame (JVMS 4.7.4). *)
Definition frame (w w' : list byte) : Prop :=
  exists d, d <= 63 /\ (u1 d w /\ (u1 251 +++ u2 d) w' \/ u1 (64 + d) w /\ (u1 247 +++ u2 d) w').
Definition frames (w w' : list byte) : Prop := frame w w' \/ frame w' w.
(** The kinds of targets between which no difference is made (JVMS table 4.7.20-A). *)
Definition target (w w' : list byte) : Prop :=
  exists k k' lo hi, u1 k w /\ u1 k' w' /\ In (lo, hi) [(0x00, 0x01); (0x11, 0x12); (0x13, 0x15); (0x40, 0x41); (0x43, 0x46); (0x47, 0x4b)]
    /\ lo <= k <= hi /\ lo <= k' <= hi.

(** Attributes: the indices of the name, the lengths of the contents and the contents. *)
Inductive attribute_alike : list byte -> list byte -> Prop :=
| attributes_say_the_same name i i' n n' l l' body body' :
    u2 i n -> u2 i' n' -> utf8_at dec sl i name -> utf8_at dec sl i' name ->
    u4 (N.of_nat (length body)) l -> u4 (N.of_nat (length body')) l' ->
    contents_alike name body body' -> attribute_alike (n ++ l ++ body) (n' ++ l' ++ body')
with contents_alike : str -> list byte -> list byte -> Prop :=
| plain_alike name w w' : alike nothing w w' -> contents_alike name w w'
| frames_alike w w' : alike frames w w' -> contents_alike (lit "StackMapTable") w w'
| classes_alike w w' : alike (flags inner_class_bits) w w' -> contents_alike (lit "InnerClasses") w w'
| visible_alike w w' : alike target w w' -> contents_alike (lit "RuntimeVisibleTypeAnnotations") w w'
| invisible_alike w w' : alike target w w' -> contents_alike (lit "RuntimeInvisibleTypeAnnotations") w w'
| text_alike w w' s : dec w = Some s -> dec w' = Some s -> contents_alike (lit "SourceDebugExtension") w w'
| code_alike w w' : alike attribute_alike w w' -> contents_alike (lit "Code") w w'
| record_alike w w' : alike attribute_alike w w' -> contents_alike (lit "Record") w w'.

Definition member_alike (named : N) (w w' : list byte) : Prop := flags named w w' \/ attribute_alike w w'.

End Lost.

(** Class files with the constants [cs]: magic, versions and constants are the same; then flags; then this class, super class and
    interfaces; then fields, methods and attributes.  The number of constants may be written in two ways if the last constant is
    a long or a double. *)
Definition class_alike (dec : list byte -> option str) (cs : list constant) (bs bs' : list byte) : Prop :=
  exists versions n n' constants f f' names names' fs fs' ms ms' attrs attrs',
    bs = versions ++ n ++ constants ++ f ++ names ++ fs ++ ms ++ attrs
    /\ bs' = versions ++ n' ++ constants ++ f' ++ names' ++ fs' ++ ms' ++ attrs'
    /\ length versions = 8%nat /\ length n = 2%nat /\ length n' = 2%nat
    /\ (n = n' \/ exists cs0 c, cs = cs0 ++ [c] /\ is_wide c = true)
    /\ flags class_bits f f'
    /\ alike dec (slots_of cs) nothing names names'
    /\ alike dec (slots_of cs) (member_alike dec (slots_of cs) field_bits) fs fs'
    /\ alike dec (slots_of cs) (member_alike dec (slots_of cs) method_bits) ms ms'
    /\ alike dec (slots_of cs) (attribute_alike dec (slots_of cs)) attrs attrs'.
