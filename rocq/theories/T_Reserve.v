(** * C56: how much memory the parser reserves in advance

    [r_parse E opts bs] (R_*.v) is a call of the parser together with the list
    of the capacities of all the [Vec::with_capacity] it executes, in elements. *)
From Verif Require Import Base M_ConstantPool M_Class M_Cesu8 S_Env R_Base R_Class
  P_Reserve P_Reserve2 P_Reserve6 P_Reserve7 P_Reserve8 P_Reads P_Class3 Sample T_Safe.
From Coq Require Import ZifyBool ZifyNat ZifyN.

(** All the elements reserved by a call, together. *)
Definition reserved (E : env) (opts : bool) (bs : list byte) : N := fold_right N.add 0 (snd (r_parse E opts bs)).
Lemma reserved_nsum E opts bs : reserved E opts bs = nsum (snd (r_parse E opts bs)).
Proof. unfold reserved. induction (snd (r_parse E opts bs)); cbn [fold_right nsum]; congruence. Qed.

(** Recording the capacities changes nothing else. *)
Theorem C56_same_outcome E opts bs : fst (r_parse E opts bs) = parse_class_with_options E opts bs.
Proof. apply er_parse. Qed.

(** For an accepted file: fewer elements than the file has bytes, by the bytes
    that no table can consist of. *)
Theorem C56_accepted E opts bs c : sane E bs -> parse_class_with_options E opts bs = Ok c ->
  reserved E opts bs + 23 <= blen bs.
Proof.
  intros Hs Hc. rewrite reserved_nsum. pose proof (sane_fits _ _ Hs) as Hf.
  pose proof (parse_costs E opts (fits_32 _ _ Hf) bs) as H. pose proof (er_parse E opts bs) as He.
  destruct (r_parse E opts bs) as [r l]. cbn [fst snd] in *. subst r. rewrite Hc in H. apply H.
  pose proof (fits_usize _ _ Hf). pose proof (N.div_le_upper_bound (usize_max E) 2 (usize_max E) ltac:(lia) ltac:(lia)). lia.
Qed.

(** For every input, whatever becomes of it: 65535 elements for every three
    bytes, and one switch instruction. *)
Theorem C56_bounded E opts bs : sane E bs ->
  reserved E opts bs <= 21845 * blen bs + (if opts then 2 ^ 31 else 0).
Proof.
  intro Hs. rewrite reserved_nsum. pose proof (sane_fits _ _ Hs) as Hf.
  pose proof (parse_costs E opts (fits_32 _ _ Hf) bs) as H.
  assert (Hu : blen bs <= usize_max E).
  { pose proof (fits_usize _ _ Hf). pose proof (N.div_le_upper_bound (usize_max E) 2 (usize_max E) ltac:(lia) ltac:(lia)). lia. }
  specialize (H Hu). destruct (r_parse E opts bs) as [[c| | |] l]; cbn [snd] in *; lia.
Qed.

(** No single vector is made for more than 65535 elements, or 2^31 - 1 when
    instructions are parsed. *)
Theorem C56_each E opts bs n : In n (snd (r_parse E opts bs)) -> n < (if opts then 2 ^ 31 else 2 ^ 16).
Proof. intro H. pose proof (parse_single E opts bs) as Hf. rewrite Forall_forall in Hf. exact (Hf n H). Qed.

(** The rate of [C56_bounded] is reached: there are inputs of any length [3 * d + 58]
    that are rejected after 21845 elements were reserved for every byte but 58. *)
Theorem C56_rate_reached d : d < 2 ^ 30 -> exists bs, blen bs = 3 * d + 58 /\
  forall E opts, ample E bs -> cesu8 E = from_java_cesu8 ->
    (exists e, parse_class_with_options E opts bs = Err e) /\ 21845 * (blen bs - 58) <= reserved E opts bs.
Proof.
  intro Hd. exists (nested (N.to_nat d)). assert (Hl : blen (nested (N.to_nat d)) = 3 * d + 58) by (rewrite nested_length; lia).
  split; [exact Hl|]. intros E opts Ha HE. pose proof (sane_fits _ _ (ample_sane _ _ Ha)) as Hf.
  pose proof (ample_stack _ _ Ha) as Hst. unfold blen in Hl.
  destruct (nested_wastes E opts (N.to_nat d) Hf HE ltac:(lia) ltac:(lia)) as [[e He] Hk].
  rewrite reserved_nsum, <- er_parse. unfold r_parse. destruct (r_class E opts (nested (N.to_nat d)) 0) as [r l]. cbn [fst snd] in *. subst r.
  split; [exists e; reflexivity|]. unfold blen. lia.
Qed.

(** ** Examples *)
(** The sample class: accepted; the capacities add up to less than its length. *)
Example C56_meets_sample : sane debug64 sample /\ reserved debug64 true sample = 90 /\ blen sample = 813.
Proof. split; [exact sample_sane|]. split; vm_compute; reflexivity. Qed.
(** A tower of 100 arrays is within the reach of the theorem. *)
Example C56_meets_nested : ample debug64 (nested 100) /\ blen (nested 100) = 358 /\
  reserved debug64 false (nested 100) = 6553505 /\ parse_class_with_options debug64 false (nested 100) <> Diverge.
Proof. split; [apply ampleb_ample; vm_compute; reflexivity|]. split; [vm_compute; reflexivity|]. split; [vm_compute; reflexivity|]. vm_compute. discriminate. Qed.
(** One switch: a file of 86 bytes for which 2^31 elements are asked for in one piece. *)
Example C56_meets_switch : sane debug64 many_pairs /\ blen many_pairs = 86 /\ In (2 ^ 31 - 1) (snd (r_parse debug64 true many_pairs)) /\
  reserved debug64 false many_pairs = 8.
Proof. split; [apply ample_sane, ampleb_ample; vm_compute; reflexivity|]. split; [vm_compute; reflexivity|]. split; [|vm_compute; reflexivity]. vm_compute. intuition. Qed.
