(** * Two families of files whose classes take much memory. *)
From Verif Require Import Base M_Names M_Descriptors M_ConstantPool M_Bytecode M_Attributes M_Class M_Cesu8
  S_Lang S_Names S_Format S_Env S_Utf P_Reads P_Tac T_Text.
From Coq Require Import ZifyBool ZifyNat ZifyN FinFun.

Definition byte_of (n : N) : byte := match Byte.of_N n with Some b => b | None => x00 end.
Lemma to_byte_of n : n < 256 -> Byte.to_N (byte_of n) = n.
Proof.
  intro H. unfold byte_of. destruct (Byte.of_N n) as [b|] eqn:Hb; [now apply Byte.to_of_N|]. apply Byte.of_N_None_iff in Hb. lia.
Qed.
Definition two (n : N) : list byte := [byte_of (n / 256); byte_of (n mod 256)].
Lemma two_u2 n : n < 65536 -> u2 n (two n).
Proof.
  intro H. split; [reflexivity|]. unfold two, be. cbn [fold_left]. rewrite !to_byte_of.
  - pose proof (N.div_mod n 256). lia.
  - apply N.mod_lt. discriminate.
  - apply N.div_lt_upper_bound; lia.
Qed.
(** The bytes of a text in modified UTF-8. *)
Definition utf (s : str) : list byte := map byte_of (modified_utf8 s).
Lemma unit_bytes_small u : u < 0x10000 -> Forall (fun n => n < 256) (unit_bytes u).
Proof.
  intro H. unfold unit_bytes. assert (u / 4096 < 16) by (apply N.div_lt_upper_bound; lia). assert ((u / 64) mod 64 < 64) by (apply N.mod_lt; discriminate). assert (u mod 64 < 64) by (apply N.mod_lt; discriminate).
  destruct (_ && _) eqn:Hx; [repeat constructor; lia|]. destruct (N.leb_spec u 0x7FF); repeat constructor; lia.
Qed.
Lemma utf_bytes s : Forall (fun c => c < 0x10000) s -> map Byte.to_N (utf s) = modified_utf8 s.
Proof.
  intro H. unfold utf. rewrite map_map. rewrite <- (map_id (modified_utf8 s)) at 2. apply map_ext_in. intros n Hn. apply to_byte_of.
  unfold modified_utf8 in Hn. apply in_flat_map in Hn as (u & Hu & Hn). apply in_flat_map in Hu as (c & Hc & Hu). rewrite Forall_forall in H. apply H in Hc.
  unfold utf16 in Hu. destruct (N.ltb_spec c 0x10000); [|lia]. destruct Hu as [<-|[]]. pose proof (unit_bytes_small c Hc) as Hf. rewrite Forall_forall in Hf. auto.
Qed.
Lemma utf_decode s : Forall (fun c => c < 0xD800) s -> from_java_cesu8 (utf s) = Some s.
Proof.
  intro H. apply C33_decode_encoded.
  - eapply Forall_impl; [|exact H]. intros c Hc. left. exact Hc.
  - apply utf_bytes. eapply Forall_impl; [|exact H]. cbn. intros; lia.
Qed.
Lemma utf_app s t : utf (s ++ t) = utf s ++ utf t.
Proof. unfold utf, modified_utf8. now rewrite !flat_map_app, map_app. Qed.
Lemma utf_repeat c k : utf (repeat c k) = concat (repeat (utf [c]) k).
Proof. induction k as [|k IH]; [reflexivity|]. change (repeat c (S k)) with ([c] ++ repeat c k). rewrite utf_app, IH. reflexivity. Qed.
Lemma length_concat_repeat {A} (l : list A) k : length (concat (repeat l k)) = (k * length l)%nat.
Proof. induction k as [|k IH]; [reflexivity|]. cbn [repeat concat]. rewrite app_length, IH. lia. Qed.
Lemma cat_i (L M : lang) u v : L u -> M v -> (L +++ M) (u ++ v).
Proof. intros. exists u, v. auto. Qed.
Lemma many_repeat {A} (F : A -> lang) a w k : F a w -> many F (repeat a k) (concat (repeat w k)).
Proof. intro H. induction k as [|k IH]; [reflexivity|]. cbn [repeat concat many]. now apply cat_i. Qed.
Lemma flags_zero b : flags_keep b 0 (two 0).
Proof. exists 0. split; [apply two_u2; lia|]. intro bit. now rewrite !N.bits_0. Qed.

(** ** A class with the superinterface [A] [n] times, where the name [A] is NUL and [m] letters *)
Definition nul_name (m : nat) : str := 0 :: repeat (ch "a") m.
Definition utf8_constant (s : str) : list byte := x01 :: two (blen (utf s)) ++ utf s.
Definition class_constant (name : N) : list byte := x07 :: two name.
Definition magic : list byte := [xca; xfe; xba; xbe].
Definition crowd (n m : nat) : list byte :=
  magic ++ two 0 ++ two 52
  ++ (two 3 ++ utf8_constant (nul_name m) ++ class_constant 1)
  ++ two 0 ++ two 2 ++ two 0
  ++ (two (N.of_nat n) ++ concat (repeat (two 2) n))
  ++ two 0 ++ two 0 ++ two 0.
Lemma nul_basic m : Forall (fun c => c < 0xD800) (nul_name m).
Proof. constructor; [lia|]. apply Forall_forall. intros c Hc. apply repeat_spec in Hc as ->. vm_compute. reflexivity. Qed.
Lemma nul_length m : length (utf (nul_name m)) = (m + 2)%nat.
Proof. change (nul_name m) with ([0] ++ repeat (ch "a") m). rewrite utf_app, utf_repeat, app_length, length_concat_repeat. change (length (utf [0])) with 2%nat. change (length (utf [ch "a"])) with 1%nat. lia. Qed.
Lemma crowd_length n m : blen (crowd n m) = 32 + N.of_nat m + 2 * N.of_nat n.
Proof. unfold crowd, utf8_constant, class_constant, blen. repeat (rewrite app_length || cbn [length]). rewrite length_concat_repeat, nul_length. cbn [length magic two]. lia. Qed.
Lemma nul_class m : class_name (nul_name m).
Proof.
  exists [nul_name m]. split; [discriminate|]. split; [|reflexivity]. repeat constructor; [discriminate|]. intros c Hc [<-|Hi]; [|apply repeat_spec in Hi as ->]; revert Hc; vm_compute; intuition discriminate.
Qed.
Lemma class_binary s : class_name s -> binary_name s.
Proof.
  intros (segs & Hne & Hf & ->). exists segs. split; [auto|]. split; [|auto]. eapply Forall_impl; [|exact Hf]. intros s (H1 & H2). split; [auto|].
  intros c Hc. apply H2. revert Hc. vm_compute. intuition.
Qed.
Definition crowd_constants (m : nat) : list constant := [CUtf8 (utf (nul_name m)); CClass 1].
Definition crowd_class (n m : nat) : class_file :=
  mk_class 52 0 (pool_of from_java_cesu8 (slots_of (crowd_constants m))) 0 (nul_name m) None (repeat (nul_name m) n) [] [] [].
Lemma utf8_constant_lang s : blen (utf s) < 65536 -> constant_lang 52 (CUtf8 (utf s)) (utf8_constant s).
Proof.
  intro H. split; [lia|]. unfold utf8_constant. change (x01 :: two (blen (utf s)) ++ utf s) with ([x01] ++ two (blen (utf s)) ++ utf s).
  apply cat_i; [split; reflexivity|]. apply cat_i; [now apply two_u2|reflexivity].
Qed.
Lemma class_constant_lang i : i < 65536 -> constant_lang 52 (CClass i) (class_constant i).
Proof. intro H. split; [lia|]. change (class_constant i) with ([x07] ++ two i). apply cat_i; [split; reflexivity|now apply two_u2]. Qed.
Theorem crowd_format wraps want n m : (n < 65536)%N -> (m < 65533)%N ->
  class_lang from_java_cesu8 wraps want 1 (crowd_constants (N.to_nat m)) (crowd_class (N.to_nat n) (N.to_nat m)) (crowd (N.to_nat n) (N.to_nat m)).
Proof.
  intros Hn Hm. remember (N.to_nat m) as k eqn:Hk. assert (Hkm : N.of_nat k < 65533) by lia. remember (N.to_nat n) as j eqn:Hj. assert (Hjn : N.of_nat j < 65536) by lia. clear Hk Hj Hn Hm n m.
  assert (Hu : utf8_at from_java_cesu8 (slots_of (crowd_constants k)) 1 (nul_name k)) by (exists (utf (nul_name k)); split; [reflexivity|apply utf_decode, nul_basic]).
  assert (Hc : that (class_at from_java_cesu8 (slots_of (crowd_constants k))) class_name 2 (nul_name k)).
  { split; [|apply nul_class]. exists 1. split; [reflexivity|exact Hu]. }
  split; [|split; [reflexivity|]].
  - unfold crowd, crowd_class. cbn [major_version minor_version access_flags this_class super_class interfaces fields methods class_attributes].
    apply cat_i; [split; reflexivity|]. apply cat_i; [now apply two_u2|]. apply cat_i; [now apply two_u2|]. apply cat_i.
    { exists 3. split; [|split].
      - apply cat_i; [now apply two_u2|]. apply cat_i; [apply utf8_constant_lang; unfold blen; rewrite nul_length; lia|].
        rewrite <- (app_nil_r (class_constant 1)). apply cat_i; [now apply class_constant_lang|reflexivity].
      - cbn. lia.
      - constructor; [exact I|]. constructor; [|constructor]. exists (nul_name k). split; [exact Hu|]. left. apply class_binary, nul_class. }
    apply cat_i; [apply flags_zero|]. apply cat_i; [exists 2; split; [now apply two_u2|exact Hc]|]. apply cat_i; [now apply two_u2|].
    apply cat_i. { apply cat_i; [rewrite repeat_length; now apply two_u2|]. apply many_repeat. exists 2. split; [now apply two_u2|exact Hc]. }
    apply cat_i; [|apply cat_i].
    1,2,3: rewrite <- (app_nil_r (two 0)); apply cat_i; [now apply two_u2|reflexivity].
  - split; [constructor|]. split; [constructor|]. split; [constructor|]. split.
    + intro H. rewrite N.bits_0 in H. discriminate.
    + intros b nt [[H|[H|[]]]|[H|[H|[]]]]; discriminate.
Qed.

(** ** A class with [n] methods, each with [m] parameters *)
Definition letter (i : nat) : str := [0x4E00 + N.of_nat i].
Definition wide_descriptor (m : nat) : str := ch "(" :: repeat (ch "B") m ++ lit ")V".
Definition method_entry (i : nat) : list byte := two 0 ++ two (N.of_nat (4 + i)) ++ two 3 ++ two 0.
Definition wide (n m : nat) : list byte :=
  magic ++ two 0 ++ two 52
  ++ (two (N.of_nat (4 + n)) ++ utf8_constant (lit "A") ++ class_constant 1 ++ utf8_constant (wide_descriptor m) ++ flat_map (fun i => utf8_constant (letter i)) (seq 0 n))
  ++ two 0 ++ two 2 ++ two 0 ++ two 0 ++ two 0
  ++ (two (N.of_nat n) ++ flat_map method_entry (seq 0 n))
  ++ two 0.
Definition wide_constants (n m : nat) : list constant :=
  [CUtf8 (utf (lit "A")); CClass 1; CUtf8 (utf (wide_descriptor m))] ++ map (fun i => CUtf8 (utf (letter i))) (seq 0 n).
Definition wide_desc (m : nat) : method_desc := mk_md (repeat (mk_fd 0 FByte) m) RVoid.
Definition wide_method (m i : nat) : method_info := mk_method 0 (letter i) (wide_desc m) [].
Definition wide_class (n m : nat) : class_file :=
  mk_class 52 0 (pool_of from_java_cesu8 (slots_of (wide_constants n m))) 0 (lit "A") None [] [] (map (wide_method m) (seq 0 n)) [].
Lemma letter_length i : (N.of_nat i < 20000) -> length (utf (letter i)) = 3%nat.
Proof.
  intro H. unfold letter, utf, modified_utf8. rewrite map_length. cbn [flat_map app]. unfold utf16. destruct (N.ltb_spec (0x4E00 + N.of_nat i) 0x10000); [|lia]. cbn [flat_map app].
  unfold unit_bytes. destruct (_ && _) eqn:H1; [lia|]. destruct (N.leb_spec (0x4E00 + N.of_nat i) 0x7FF); [lia|]. reflexivity.
Qed.
Lemma wide_text m : wide_descriptor m = method_text (wide_desc m).
Proof.
  unfold wide_descriptor, method_text, wide_desc. cbn [parameters return_type return_text]. change (lit "(") with [ch "("]. cbn [app]. f_equal. f_equal.
  induction m as [|m IH]; [reflexivity|]. cbn [repeat map concat]. rewrite <- IH. reflexivity.
Qed.
Lemma wide_length m : length (utf (wide_descriptor m)) = (m + 3)%nat.
Proof. unfold wide_descriptor. change (ch "(" :: repeat (ch "B") m ++ lit ")V") with ([ch "("] ++ repeat (ch "B") m ++ lit ")V"). rewrite !utf_app, utf_repeat, !app_length, length_concat_repeat.
  change (length (utf [ch "("])) with 1%nat. change (length (utf [ch "B"])) with 1%nat. change (length (utf (lit ")V"))) with 2%nat. lia. Qed.
Lemma flat_map_length_const {A B} (f : A -> list B) k l : (forall a, In a l -> length (f a) = k) -> length (flat_map f l) = (k * length l)%nat.
Proof. induction l as [|a l IH]; intro H; cbn [flat_map]; [cbn; lia|]. rewrite app_length, IH, (H a); cbn [length]; [lia|now left|]. intros; apply H; now right. Qed.
Lemma wide_blen n m : (n <= N.to_nat 20000)%nat -> blen (wide n m) = 37 + N.of_nat m + 14 * N.of_nat n.
Proof.
  intro Hn. assert (H6 : length (flat_map (fun i => utf8_constant (letter i)) (seq 0 n)) = (6 * n)%nat).
  { rewrite (flat_map_length_const _ 6), seq_length; [reflexivity|]. intros i Hi. apply in_seq in Hi. unfold utf8_constant. cbn [length]. rewrite app_length, letter_length by lia. reflexivity. }
  assert (H8 : length (flat_map method_entry (seq 0 n)) = (8 * n)%nat) by (rewrite (flat_map_length_const _ 8), seq_length; reflexivity).
  unfold wide, blen. rewrite !app_length, H6, H8. unfold utf8_constant, class_constant. cbn [length]. rewrite !app_length, wide_length. change (length (utf (lit "A"))) with 1%nat. cbn [length magic two]. lia.
Qed.
Lemma many_flat {A B} (F : A -> lang) (f : B -> A) (g : B -> list byte) l : (forall b, In b l -> F (f b) (g b)) -> many F (map f l) (flat_map g l).
Proof. induction l as [|b l IH]; intro H; [reflexivity|]. cbn [map flat_map many]. apply cat_i; [apply H; now left|]. apply IH. intros; apply H; now right. Qed.
Lemma many_cat {A} (F : A -> lang) l1 l2 w1 w2 : many F l1 w1 -> many F l2 w2 -> many F (l1 ++ l2) (w1 ++ w2).
Proof.
  revert w1. induction l1 as [|a l IH]; intros w1 H1 H2; [cbn in H1; unfold eps in H1; subst; exact H2|]. destruct H1 as (u & v & -> & Hu & Hv). rewrite <- app_assoc. cbn [app many]. apply cat_i; auto.
Qed.
Lemma slots_wide n m : slots_of (wide_constants n m) = None :: map Some (wide_constants n m).
Proof. unfold slots_of, wide_constants. f_equal. cbn [flat_map is_wide app map]. do 3 f_equal. induction (seq 0 n) as [|i l IH]; [reflexivity|]. cbn [map flat_map is_wide app]. now f_equal. Qed.
Lemma letter_at n m i : (i < n)%nat -> at_index (slots_of (wide_constants n m)) (N.of_nat (4 + i)) (CUtf8 (utf (letter i))).
Proof.
  intro H. unfold at_index. rewrite slots_wide, Nat2N.id. unfold wide_constants. change (4 + i)%nat with (S (S (S (S i)))). cbn [app map nth_error]. rewrite map_map, nth_error_map.
  replace (nth_error (seq 0 n) i) with (Some i); [reflexivity|]. symmetry. rewrite (nth_error_nth' _ 0%nat) by (now rewrite seq_length). f_equal. now rewrite seq_nth.
Qed.
Lemma fills_narrow wraps count cs : Forall (fun c => is_wide c = false) cs -> forall i, N.of_nat (length cs) + i = count -> count < 65536 -> fills wraps count i cs.
Proof.
  induction 1 as [|c cs Hc _ IH]; intros i Hi Hlt; cbn [fills length] in *; [lia|]. split; [lia|]. unfold width. rewrite Hc. destruct (N.ltb_spec (i + 1) 65536); [|lia]. apply IH; lia.
Qed.
Lemma letter_name i : (N.of_nat i < 20000) -> method_name false (letter i).
Proof.
  intro H. left. split; [discriminate|]. intros c Hc [<-|[]]. assert (Hs : Forall (fun c => c < 0x4E00) (lit ".;[/<>")) by (vm_compute; repeat constructor).
  rewrite Forall_forall in Hs. apply Hs in Hc. lia.
Qed.
Theorem wide_format wraps want n m : (n <= 20000)%N -> (m < 65533)%N ->
  class_lang from_java_cesu8 wraps want 1 (wide_constants (N.to_nat n) (N.to_nat m)) (wide_class (N.to_nat n) (N.to_nat m)) (wide (N.to_nat n) (N.to_nat m)).
Proof.
  intros Hn Hm. remember (N.to_nat m) as k eqn:Hk. assert (Hkm : N.of_nat k < 65533) by lia. remember (N.to_nat n) as j eqn:Hj. assert (Hjn : N.of_nat j <= 20000) by lia. clear Hk Hj Hn Hm n m.
  set (sl := slots_of (wide_constants j k)).
  assert (Hu : utf8_at from_java_cesu8 sl 1 (lit "A")) by (exists (utf (lit "A")); split; [reflexivity|vm_compute; reflexivity]).
  assert (HA : class_name (lit "A")). { exists [lit "A"]. split; [discriminate|]. split; [|reflexivity]. repeat constructor; [discriminate|]. intros c Hc [<-|[]]. revert Hc. vm_compute. intuition discriminate. }
  assert (Hc : that (class_at from_java_cesu8 sl) class_name 2 (lit "A")). { split; [|exact HA]. exists 1. split; [reflexivity|exact Hu]. }
  assert (Hd : method_desc_at from_java_cesu8 sl 3 (wide_desc k)).
  { exists (wide_descriptor k). split.
    - exists (utf (wide_descriptor k)). split; [reflexivity|]. apply utf_decode. unfold wide_descriptor. constructor; [vm_compute; reflexivity|]. apply Forall_app. split; [|vm_compute; repeat constructor].
      apply Forall_forall. intros c Hi. apply repeat_spec in Hi as ->. vm_compute. reflexivity.
    - split; [split; [|exact I]|].
      + apply Forall_forall. intros d Hi. apply repeat_spec in Hi as ->. split; [cbn; lia|exact I].
      + exists []. rewrite app_nil_r. split; [apply wide_text|auto]. }
  split; [|split; [reflexivity|]].
  - unfold wide, wide_class. cbn [major_version minor_version access_flags this_class super_class interfaces fields methods class_attributes].
    apply cat_i; [split; reflexivity|]. apply cat_i; [now apply two_u2|]. apply cat_i; [now apply two_u2|]. apply cat_i.
    { exists (N.of_nat (4 + j)). split; [|split].
      - apply cat_i; [apply two_u2; lia|]. unfold wide_constants. cbn [app many]. apply cat_i; [apply utf8_constant_lang; vm_compute; reflexivity|].
        apply cat_i; [now apply class_constant_lang|]. apply cat_i; [apply utf8_constant_lang; unfold blen; rewrite wide_length; lia|].
        apply many_flat. intros i Hi. apply in_seq in Hi. apply utf8_constant_lang. unfold blen. rewrite letter_length by lia. reflexivity.
      - apply fills_narrow; [| |lia].
        + unfold wide_constants. apply Forall_app. split; [repeat constructor|]. apply Forall_map, Forall_forall. reflexivity.
        + unfold wide_constants. rewrite app_length, map_length, seq_length. cbn [length]. lia.
      - unfold wide_constants. apply Forall_app. split; [|apply Forall_map, Forall_forall; intros; exact I]. constructor; [exact I|]. constructor; [|constructor; [exact I|constructor]].
        exists (lit "A"). split; [exact Hu|]. left. apply class_binary, HA. }
    apply cat_i; [apply flags_zero|]. apply cat_i; [exists 2; split; [now apply two_u2|exact Hc]|]. apply cat_i; [now apply two_u2|].
    apply cat_i; [|apply cat_i].
    1,2: rewrite <- (app_nil_r (two 0)); apply cat_i; [now apply two_u2|reflexivity].
    apply cat_i. 2: { rewrite <- (app_nil_r (two 0)); apply cat_i; [now apply two_u2|reflexivity]. }
    apply cat_i; [rewrite map_length, seq_length; apply two_u2; lia|]. apply many_flat. intros i Hi. apply in_seq in Hi. unfold method_lang, method_entry, wide_method. cbn [m_access_flags m_name m_descriptor m_attributes].
    apply cat_i; [apply flags_zero|]. apply cat_i; [exists (N.of_nat (4 + i)); split; [apply two_u2; lia|]|].
    { split; [|]. { exists (utf (letter i)). split; [apply letter_at; lia|]. apply utf_decode. constructor; [lia|constructor]. } change (N.testbit 0 ACC_INTERFACE_bit) with false. apply letter_name. lia. }
    apply cat_i; [exists 3; split; [now apply two_u2|exact Hd]|]. rewrite <- (app_nil_r (two 0)); apply cat_i; [now apply two_u2|reflexivity].
  - split; [constructor|]. split; [|split].
    + unfold wide_class. cbn [methods]. rewrite map_map. cbn [wide_method m_name m_descriptor]. apply Injective_map_NoDup; [|apply seq_NoDup]. intros a b H. assert (H2 : letter a = letter b) by congruence. unfold letter in H2. assert (H3 : 0x4E00 + N.of_nat a = 0x4E00 + N.of_nat b) by congruence. lia.
    + unfold wide_class. cbn [methods]. apply Forall_map, Forall_forall. intros i Hi. split.
      * reflexivity.
      * intro H. exfalso. revert H. unfold wide_method, letter. cbn [m_name]. discriminate.
    + split.
      * intro H. cbn [wide_class access_flags] in H. rewrite N.bits_0 in H. discriminate.
      * intros b nt Hin. exfalso. assert (Hw : Forall (fun c => match c with CDynamic _ _ | CInvokeDynamic _ _ => False | _ => True end) (wide_constants j k)).
        { unfold wide_constants. apply Forall_app. split; [repeat constructor|]. apply Forall_map, Forall_forall. intros; exact I. }
        rewrite Forall_forall in Hw. destruct Hin as [Hin|Hin]; apply Hw in Hin; exact Hin.
Qed.
