(** Properties C01–C09 (bit strings, src/util/bits.c). *)
From Coq Require Import Ascii String.
From Verif Require Import Base Bits_Model Bits_Spec Bits_Proofs Bits_Ops Bits_Ops2 Bits_Ops3 Bits_Round Bits_Client.
Local Open Scope nat_scope.
Local Open Scope list_scope.

Definition txt (s : string) : list ascii := list_ascii_of_string s.
Definition nojunk : nat -> N := fun _ => 255%N.

(** ** C01 *)
Theorem C01_hex_roundtrip : forall s, Forall is_hex s ->
  exists b, bits_from_hex s = Ok b /\
    bits_to_hex b = Ok ((if Nat.odd (length s) then ["0"%char] else []) ++ map lower s).
Proof. exact hex_roundtrip. Qed.
Print Assumptions C01_hex_roundtrip.

Example C01_hex_roundtrip_ex : Forall is_hex (txt "aB3") /\
  (do b <- bits_from_hex (txt "aB3"); bits_to_hex b) = Ok (txt "0ab3").
Proof. split; [repeat (constructor; [cbn; tauto|]); constructor|vm_compute; reflexivity]. Qed.

Lemma to_hex_spec b : WF b ->
  bits_to_hex b = Ok ((if bsign b then ["-"%char] else []) ++ hex_text (2 * ((bitlen b + 7) / 8)) (mag b)).
Proof. intros W. rewrite <- byte_len_spec. exact (bits_to_hex_ok b W). Qed.

Theorem C01_to_hex : forall b, WF b ->
  bits_to_hex b = Ok ((if bsign b then ["-"%char] else []) ++ hex_text (2 * ((bitlen b + 7) / 8)) (mag b)).
Proof. exact to_hex_spec. Qed.
Print Assumptions C01_to_hex.

(** 13 bits 1010110011101 = 0x159d, negative. *)
Example C01_to_hex_ex : let b := mkBits [172; 232]%N true 13 2 in
  WF b /\ bits_to_hex b = Ok (txt "-159d").
Proof. split; [|vm_compute; reflexivity]. unfold WF; cbn. repeat split; auto.
  repeat constructor. Qed.

(** ** C02 *)
Theorem C02_integer_roundtrip : forall i,
  exists b r, bits_from_i i = Ok b /\ bits_to_i b = Ok r /\ denotes r = i /\
  (fst r = true -> snd r <> 0%Z).
Proof. exact int_roundtrip. Qed.
Print Assumptions C02_integer_roundtrip.
Example C02_integer_roundtrip_ex : (do b <- bits_from_i (-1234567); bits_to_i b) = Ok (true, 1234567%Z).
Proof. vm_compute. reflexivity. Qed.

Theorem C02_fixed_length_roundtrip : forall i n, (Z.abs i < 2 ^ Z.of_nat n)%Z ->
  exists b r, bits_from_i_len i n = Ok b /\ bitlen b = n /\ bits_to_i b = Ok r /\ denotes r = i.
Proof. exact int_len_roundtrip. Qed.
Print Assumptions C02_fixed_length_roundtrip.
Example C02_fixed_length_ex :
  (Z.abs (-45) < 2 ^ Z.of_nat 19)%Z /\ (do b <- bits_from_i_len (-45) 19; bits_to_i b) = Ok (true, 45%Z).
Proof. split; vm_compute; reflexivity. Qed.

Theorem C02_fixed_length_cut : forall i n, (2 ^ Z.of_nat n <= Z.abs i)%Z ->
  exists b, bits_from_i_len i n = Ok b /\ WF b /\ bitlen b = n /\ bsign b = (i <? 0)%Z /\
    mag b = (Z.abs i / 2 ^ (Z.log2 (Z.abs i) + 1 - Z.of_nat n))%Z.
Proof. exact int_len_cut. Qed.
Print Assumptions C02_fixed_length_cut.
Example C02_fixed_length_cut_ex :
  (2 ^ Z.of_nat 3 <= Z.abs 45)%Z /\ (do b <- bits_from_i_len 45 3; bits_to_i b) = Ok (false, 5%Z).
Proof. split; vm_compute; [discriminate|reflexivity]. Qed.

(** ** C03 *)
Theorem C03_binary_text : forall s, Forall (fun c => c = "0"%char \/ c = "1"%char) s ->
  exists b, bits_from_bin s = Ok b /\ bits_to_bin b = Ok s.
Proof. exact bin_roundtrip. Qed.
Print Assumptions C03_binary_text.
Example C03_binary_text_ex : (do b <- bits_from_bin (txt "0110100011"); bits_to_bin b) = Ok (txt "0110100011").
Proof. vm_compute. reflexivity. Qed.

Theorem C03_raw_bytes : forall a n, Forall (fun x => (x < 256)%N) a -> 0 < n <= 8 * length a ->
  exists b, bits_from_raw a n = Ok b /\ bits_to_raw b = Ok (Some (firstn ((n + 7) / 8) a)).
Proof. exact raw_roundtrip. Qed.
Print Assumptions C03_raw_bytes.
Example C03_raw_bytes_ex :
  (do b <- bits_from_raw [171; 205; 239]%N 11; bits_to_raw b) = Ok (Some [171; 205]%N).
Proof. vm_compute. reflexivity. Qed.

(** the bits of a raw buffer are its leading bits *)
Theorem C03_raw_bits : forall a n, Forall (fun x => (x < 256)%N) a -> n <= 8 * length a ->
  exists b, bits_from_raw a n = Ok b /\ WF b /\ bsign b = false /\ bits_of b = map (getb a) (seq 0 n).
Proof. exact bits_from_raw_ok. Qed.
Print Assumptions C03_raw_bits.
Example C03_raw_bits_ex : (do b <- bits_from_raw [171; 205]%N 10; bits_to_bin b) = Ok (txt "1010101111").
Proof. vm_compute. reflexivity. Qed.

Theorem C03_bitvec : forall v, Forall (fun x => x = 0%Z \/ x = 1%Z) v ->
  exists b, bits_from_bitvec v = Ok b /\ bits_to_bitvec b = Ok v.
Proof. exact bitvec_roundtrip. Qed.
Print Assumptions C03_bitvec.
Example C03_bitvec_ex :
  (do b <- bits_from_bitvec [1;0;0;1;1;0;1;1;1]%Z; bits_to_bitvec b) = Ok [1;0;0;1;1;0;1;1;1]%Z.
Proof. vm_compute. reflexivity. Qed.

Lemma copy_same b : WF b -> exists b', bits_copy b = Ok b' /\ WF b' /\ bsign b' = bsign b /\ bits_of b' = bits_of b.
Proof. intros W. destruct (bits_copy_inplace b W) as (b' & ? & ? & ? & ? & ?). eauto 6. Qed.

Theorem C03_copy : forall b, WF b ->
  exists b', bits_copy b = Ok b' /\ WF b' /\ bsign b' = bsign b /\ bits_of b' = bits_of b.
Proof. exact copy_same. Qed.
Print Assumptions C03_copy.
Example C03_copy_ex : let b := mkBits [172; 239]%N true 13 2 in
  WF b /\ (do c <- bits_copy b; bits_to_bin c) = Ok (txt "-1010110011101").
Proof. split; [unfold WF; cbn; repeat split; auto; repeat constructor|vm_compute; reflexivity]. Qed.

Lemma cpy_same junk d s : WF d -> WF s -> bitlen s <> 0 ->
  exists b', bits_cpy junk d s = Ok b' /\ WF b' /\ bsign b' = bsign s /\ bits_of b' = bits_of s.
Proof. intros W1 W2 H. destruct (bits_cpy_ok junk d s W1 W2 H) as (b' & ? & ? & ? & ? & ?). eauto 6. Qed.

(** Copying over an existing string: proved for a non-empty source ... *)
Theorem C03_cpy_nonempty : forall junk d s, WF d -> WF s -> bitlen s <> 0 ->
  exists b', bits_cpy junk d s = Ok b' /\ WF b' /\ bsign b' = bsign s /\ bits_of b' = bits_of s.
Proof. exact cpy_same. Qed.
Print Assumptions C03_cpy_nonempty.
Example C03_cpy_ex :
  (do d <- bits_from_hex (txt "ff"); do s <- bits_from_hex (txt "a1b2"); do r <- bits_cpy nojunk d s; bits_to_hex r)
  = Ok (txt "a1b2").
Proof. vm_compute. reflexivity. Qed.

(** ... and false for an empty one: the destination keeps its old contents. *)
Theorem C03_cpy_empty_refuted : exists d s r, WF d /\ WF s /\
  bits_cpy nojunk d s = Ok r /\ bits_of r <> bits_of s.
Proof.
  exists (mkBits [160]%N false 4 1), (bits_new 0), (mkBits [160]%N false 4 1).
  repeat split; try (vm_compute; repeat constructor; fail); try (vm_compute; discriminate).
Qed.
Print Assumptions C03_cpy_empty_refuted.

Theorem C03_equality : forall b c, WF b -> WF c ->
  exists r, bits_eq b c = Ok r /\ (r = true <-> bsign b = bsign c /\ bits_of b = bits_of c).
Proof. exact bits_eq_ok. Qed.
Print Assumptions C03_equality.
(** equal strings with different padding bytes; and a single differing bit *)
Example C03_equality_ex :
  bits_eq (mkBits [172; 239]%N false 13 2) (mkBits [172; 232]%N false 13 2) = Ok true /\
  bits_eq (mkBits [172; 239]%N false 13 2) (mkBits [172; 231]%N false 13 2) = Ok false.
Proof. split; vm_compute; reflexivity. Qed.

(** ** C04 *)
Lemma concat_spec junk b cs : WF b -> Forall WF cs ->
  (Z.of_nat (length (bits_of b ++ List.concat (map bits_of cs))) < 2 ^ 64)%Z ->
  exists r, bits_concat junk b cs = Ok r /\ WF r /\ (Clean b -> Clean r) /\ bsign r = bsign b /\
    bits_of r = bits_of b ++ List.concat (map bits_of cs).
Proof.
  intros W Ws H. rewrite app_length, bits_of_length in H. exact (bits_concat_ok junk b cs W Ws H).
Qed.
Lemma concatz_spec junk b cs : WF b -> Forall WF cs ->
  (Z.of_nat (length (bits_of b ++ List.concat (map bits_of cs))) < 2 ^ 64)%Z ->
  exists r, bits_concatz junk b cs = Ok r /\ WF r /\ (Clean b -> Clean r) /\ bsign r = bsign b /\
    bits_of r = bits_of b ++ List.concat (map bits_of cs).
Proof.
  intros W Ws H. rewrite app_length, bits_of_length in H. exact (bits_concatz_ok junk cs b W Ws H).
Qed.

Theorem C04_concat : forall junk b cs, WF b -> Forall WF cs ->
  (Z.of_nat (length (bits_of b ++ List.concat (map bits_of cs))) < 2 ^ 64)%Z ->
  exists r, bits_concat junk b cs = Ok r /\ WF r /\ (Clean b -> Clean r) /\ bsign r = bsign b /\
    bits_of r = bits_of b ++ List.concat (map bits_of cs).
Proof. exact concat_spec. Qed.
Print Assumptions C04_concat.
Theorem C04_concat_in_place : forall junk b cs, WF b -> Forall WF cs ->
  (Z.of_nat (length (bits_of b ++ List.concat (map bits_of cs))) < 2 ^ 64)%Z ->
  exists r, bits_concatz junk b cs = Ok r /\ WF r /\ (Clean b -> Clean r) /\ bsign r = bsign b /\
    bits_of r = bits_of b ++ List.concat (map bits_of cs).
Proof. exact concatz_spec. Qed.
Print Assumptions C04_concat_in_place.
Example C04_concat_ex :
  (do a <- bits_from_bin (txt "10110"); do b <- bits_from_raw [255]%N 3; do c <- bits_from_bin (txt "0010011001");
   do r <- bits_concat nojunk a [b; bits_new 0; c]; bits_to_bin r) = Ok (txt "101101110010011001").
Proof. vm_compute. reflexivity. Qed.

(** ** C05 *)
Lemma or_spec b c : WF b -> WF c -> exists r, bits_or b c = Ok r /\ WF r /\ Clean r /\ bsign r = false /\
  bits_of r = (let n := Nat.max (bitlen b) (bitlen c) in map2 orb (lpad n (bits_of b)) (lpad n (bits_of c))) /\
  mag r = Z.lor (mag b) (mag c).
Proof.
  intros W1 W2. destruct (bits_or_ok b c W1 W2) as (r & E & W & C & S & B). exists r.
  repeat split; try apply W; auto. unfold mag. rewrite B.
  rewrite (map2_bval orb Z.lor).
  - rewrite !mag_lpad. reflexivity.
  - intros; apply Z.lor_spec.
  - intros; apply Z.lor_nonneg; auto.
  - reflexivity.
  - rewrite !lpad_length; rewrite ?bits_of_length; lia.
Qed.
Lemma and_spec b c : WF b -> WF c -> exists r, bits_and b c = Ok r /\ WF r /\ Clean r /\ bsign r = false /\
  bits_of r = (let n := Nat.max (bitlen b) (bitlen c) in map2 andb (lpad n (bits_of b)) (lpad n (bits_of c))) /\
  mag r = Z.land (mag b) (mag c).
Proof.
  intros W1 W2. destruct (bits_and_ok b c W1 W2) as (r & E & W & C & S & B). exists r.
  repeat split; try apply W; auto. unfold mag. rewrite B.
  rewrite (map2_bval andb Z.land).
  - rewrite !mag_lpad. reflexivity.
  - intros; apply Z.land_spec.
  - intros; apply Z.land_nonneg; auto.
  - reflexivity.
  - rewrite !lpad_length; rewrite ?bits_of_length; lia.
Qed.

Theorem C05_or : forall b c, WF b -> WF c ->
  exists r, bits_or b c = Ok r /\ WF r /\ Clean r /\ bsign r = false /\
  bits_of r = (let n := Nat.max (bitlen b) (bitlen c) in map2 orb (lpad n (bits_of b)) (lpad n (bits_of c))) /\
  mag r = Z.lor (mag b) (mag c).
Proof. exact or_spec. Qed.
Print Assumptions C05_or.
Theorem C05_and : forall b c, WF b -> WF c ->
  exists r, bits_and b c = Ok r /\ WF r /\ Clean r /\ bsign r = false /\
  bits_of r = (let n := Nat.max (bitlen b) (bitlen c) in map2 andb (lpad n (bits_of b)) (lpad n (bits_of c))) /\
  mag r = Z.land (mag b) (mag c).
Proof. exact and_spec. Qed.
Print Assumptions C05_and.
Example C05_or_and_ex :
  (do a <- bits_from_bin (txt "110010101011"); do b <- bits_from_bin (txt "0111001");
   do r <- bits_or a b; do s <- bits_and b a; do x <- bits_to_bin r; do y <- bits_to_bin s; Ok (x, y))
  = Ok (txt "110010111011", txt "000000101001").
Proof. vm_compute. reflexivity. Qed.

Theorem C05_not : forall b, WF b ->
  exists r, bits_not b = Ok r /\ WF r /\ (Clean b -> Clean r) /\ bsign r = bsign b /\
    bits_of r = map negb (bits_of b).
Proof. exact bits_not_ok. Qed.
Print Assumptions C05_not.
Theorem C05_not_in_place : forall b, WF b ->
  exists r, bits_notz b = Ok r /\ WF r /\ (Clean b -> Clean r) /\ bsign r = bsign b /\
    bits_of r = map negb (bits_of b).
Proof. exact bits_notz_ok. Qed.
Print Assumptions C05_not_in_place.
Lemma rot_spec b : WF b -> bitlen b <> 0 -> exists r, bits_rotz b = Ok r /\ WF r /\ Clean r /\
  bsign r = bsign b /\ bits_of r = rev (bits_of b).
Proof.
  intros W H. apply bits_rotz_ok; [assumption|]. destruct W as (_ & W2 & _). apply byte_len_le in W2. lia.
Qed.
Theorem C05_reverse : forall b, WF b -> bitlen b <> 0 ->
  exists r, bits_rotz b = Ok r /\ WF r /\ Clean r /\ bsign r = bsign b /\ bits_of r = rev (bits_of b).
Proof. exact rot_spec. Qed.
Print Assumptions C05_reverse.
Example C05_not_reverse_ex :
  (do a <- bits_from_bin (txt "11001010101"); do r <- bits_not a; do s <- bits_rot a;
   do x <- bits_to_bin r; do y <- bits_to_bin s; Ok (x, y)) = Ok (txt "00110101010", txt "10101010011").
Proof. vm_compute. reflexivity. Qed.
(** Reversing the empty string declares a zero-length array: undefined in C. *)
Theorem C05_reverse_empty_refuted : exists b, WF b /\ bits_rotz b = UB.
Proof. exists (bits_new 0). split; [apply bits_new_wf|reflexivity]. Qed.
Print Assumptions C05_reverse_empty_refuted.

(** ** C06 *)
Lemma shift_spec b k : WF b -> bitlen b <> 0 -> (Z.of_nat (bitlen b) < 2 ^ 63)%Z -> (- 2 ^ 63 < k < 2 ^ 63)%Z ->
  exists r, bits_shiftz b k = Ok r /\ WF r /\ (Clean b -> Clean r) /\ bsign r = bsign b /\
    bits_of r = lshift (bits_of b) k.
Proof.
  intros W H Hn Hk. apply bits_shiftz_ok; auto. right. destruct W as (_ & W2 & _). apply byte_len_le in W2. lia.
Qed.
Theorem C06_shift : forall b k, WF b -> bitlen b <> 0 -> (Z.of_nat (bitlen b) < 2 ^ 63)%Z ->
  (- 2 ^ 63 < k < 2 ^ 63)%Z ->
  exists r, bits_shiftz b k = Ok r /\ WF r /\ (Clean b -> Clean r) /\ bsign r = bsign b /\
    bits_of r = lshift (bits_of b) k.
Proof. exact shift_spec. Qed.
Print Assumptions C06_shift.
Example C06_shift_ex :
  (do a <- bits_from_raw [203; 255]%N 11; do r <- bits_shift a 3; do s <- bits_shift a (-4); do t <- bits_shift a 40;
   do x <- bits_to_bin r; do y <- bits_to_bin s; do z <- bits_to_bin t; Ok (x, y, z))
  = Ok (txt "01011111000", txt "00001100101", txt "00000000000").
Proof. vm_compute. reflexivity. Qed.

Theorem C06_lengthen : forall junk b k, WF b -> (- 2 ^ 63 < k < 2 ^ 63)%Z ->
  (Z.of_nat (bitlen b) + Z.abs k < 2 ^ 63)%Z -> ((k < 0)%Z -> Clean b) ->
  exists r, bits_lengthenz junk b k = Ok r /\ WF r /\ (Clean b -> Clean r) /\ bsign r = bsign b /\
    bits_of r = if (0 <=? k)%Z then repeat false (Z.to_nat k) ++ bits_of b
                else bits_of b ++ repeat false (Z.to_nat (- k)).
Proof. exact bits_lengthenz_ok. Qed.
Print Assumptions C06_lengthen.
Example C06_lengthen_ex :
  (do a <- bits_from_bin (txt "10110"); do r <- bits_lengthen nojunk a 7; do s <- bits_lengthen nojunk a (-6);
   do x <- bits_to_bin r; do y <- bits_to_bin s; Ok (x, y)) = Ok (txt "000000010110", txt "10110000000").
Proof. vm_compute. reflexivity. Qed.

Lemma shorten_spec b k : WF b -> (0 < bitlen b)%nat -> (Z.abs k <= Z.of_nat (bitlen b) < 2 ^ 63)%Z ->
  exists r, bits_shortenz b k = Ok r /\ WF r /\ (Clean b -> Clean r) /\ bsign r = bsign b /\
    bits_of r = if (0 <=? k)%Z then skipn (Z.to_nat k) (bits_of b)
                else firstn (bitlen b - Z.to_nat (- k)) (bits_of b).
Proof. intros W H Hk. apply bits_shortenz_ok; auto. lia. Qed.
Theorem C06_shorten : forall b k, WF b -> 0 < bitlen b -> (Z.abs k <= Z.of_nat (bitlen b) < 2 ^ 63)%Z ->
  exists r, bits_shortenz b k = Ok r /\ WF r /\ (Clean b -> Clean r) /\ bsign r = bsign b /\
    bits_of r = if (0 <=? k)%Z then skipn (Z.to_nat k) (bits_of b)
                else firstn (bitlen b - Z.to_nat (- k)) (bits_of b).
Proof. exact shorten_spec. Qed.
Print Assumptions C06_shorten.
Example C06_shorten_ex :
  (do a <- bits_from_bin (txt "10110111001"); do r <- bits_shorten a 4; do s <- bits_shorten a (-9);
   do x <- bits_to_bin r; do y <- bits_to_bin s; Ok (x, y)) = Ok (txt "0111001", txt "10").
Proof. vm_compute. reflexivity. Qed.

Lemma shifti_spec junk b k : WF b -> Clean b -> (Z.of_nat (bitlen b) + Z.max 0 k < 2 ^ 63)%Z ->
  (- Z.of_nat (bitlen b) <= k)%Z ->
  exists r, bits_shiftiz junk b k = Ok r /\ WF r /\ Clean r /\ bsign r = bsign b /\
    Z.of_nat (bitlen r) = (Z.of_nat (bitlen b) + k)%Z /\
    mag r = if (0 <=? k)%Z then (mag b * 2 ^ k)%Z else (mag b / 2 ^ (- k))%Z.
Proof.
  intros W C Hn Hl. destruct (bits_shiftiz_ok junk b k W) as (r & E & Wr & Cr & S & B);
    [unfold amount_ok; lia|auto|assumption|assumption|].
  exists r. repeat split; try apply Wr; auto.
  - rewrite <- (bits_of_length r), B. destruct (Z.leb_spec 0 k).
    + rewrite app_length, repeat_length, bits_of_length. lia.
    + rewrite firstn_length, bits_of_length. lia.
  - unfold mag. rewrite B. destruct (Z.leb_spec 0 k).
    + rewrite bval_app_zeros, Z2Nat.id by lia. reflexivity.
    + rewrite <- (bits_of_length b). rewrite bval_firstn by (rewrite bits_of_length; lia).
      rewrite Z2Nat.id by lia. reflexivity.
Qed.
Theorem C06_integer_shift : forall junk b k, WF b -> Clean b -> (Z.of_nat (bitlen b) + Z.max 0 k < 2 ^ 63)%Z ->
  (- Z.of_nat (bitlen b) <= k)%Z ->
  exists r, bits_shiftiz junk b k = Ok r /\ WF r /\ Clean r /\ bsign r = bsign b /\
    Z.of_nat (bitlen r) = (Z.of_nat (bitlen b) + k)%Z /\
    mag r = if (0 <=? k)%Z then (mag b * 2 ^ k)%Z else (mag b / 2 ^ (- k))%Z.
Proof. exact shifti_spec. Qed.
Print Assumptions C06_integer_shift.
Example C06_integer_shift_ex :
  (do a <- bits_from_i 1234567; do r <- bits_shifti nojunk a 13; do s <- bits_shifti nojunk a (-5);
   do x <- bits_to_i r; do y <- bits_to_i s; Ok (x, y))
  = Ok ((false, 1234567 * 8192)%Z, (false, 38580%Z)).
Proof. vm_compute. reflexivity. Qed.

(** Without clean padding (strings made by bits_from_raw) lengthening on the
    right, hence the integer shift to the left, exposes leftover bits. *)
Theorem C06_dirty_lengthen_refuted : exists a n b r,
  bits_from_raw a n = Ok b /\ WF b /\ bits_lengthenz nojunk b (-3) = Ok r /\
  bits_of r <> bits_of b ++ repeat false 3.
Proof.
  exists [255]%N, 5, (mkBits [255]%N false 5 1), (mkBits [255]%N false 8 1).
  repeat split; try (vm_compute; repeat constructor; fail); try (vm_compute; discriminate).
Qed.
Print Assumptions C06_dirty_lengthen_refuted.


(** ** C07 *)
(** Exact characterisation for every amount of which bit lands where. *)
Theorem C07_rotation_source : forall b k, WF b -> bitlen b <> 0 -> (Z.of_nat (bitlen b) < 2 ^ 63)%Z ->
  (- 2 ^ 63 < k < 2 ^ 63)%Z -> k <> 0%Z ->
  exists r, bits_shiftrz b k = Ok r /\ WF r /\ Clean r /\ bsign r = bsign b /\
    bits_of r = map (fun i => nth (Z.to_nat (rot_src (bitlen b) i k)) (bits_of b) false) (seq 0 (bitlen b)).
Proof. exact bits_shiftrz_src. Qed.
Print Assumptions C07_rotation_source.

(** The rotation is right for amounts >= 0, and for negative amounts when the
    length divides 2^64 (missing for the full C07: the other negative amounts,
    for which it is false, see below). *)
Theorem C07_rotation_partial : forall b k, WF b -> bitlen b <> 0 -> (Z.of_nat (bitlen b) < 2 ^ 63)%Z ->
  (- 2 ^ 63 < k < 2 ^ 63)%Z -> (0 <= k)%Z \/ (2 ^ 64 mod Z.of_nat (bitlen b) = 0)%Z ->
  exists r, bits_shiftrz b k = Ok r /\ WF r /\ (Clean b -> Clean r) /\ bsign r = bsign b /\
    rotated (bits_of b) (bits_of r) k.
Proof. exact bits_shiftrz_ok. Qed.
Print Assumptions C07_rotation_partial.
Example C07_rotation_ex :
  (do a <- bits_from_bin (txt "1011011100"); do r <- bits_shiftr a 13;
   do b <- bits_from_bin (txt "1011011100110000"); do s <- bits_shiftr b (-3);
   do x <- bits_to_bin r; do y <- bits_to_bin s; Ok (x, y)) = Ok (txt "1011100101", txt "0001011011100110").
Proof. vm_compute. reflexivity. Qed.

Theorem C07_rotation_refuted : exists b r, WF b /\ Clean b /\ bitlen b = 10 /\
  bits_shiftrz b (-1) = Ok r /\ ~ rotated (bits_of b) (bits_of r) (-1).
Proof.
  exists (mkBits [0; 64]%N false 10 2), (mkBits [0; 0]%N false 10 2).
  split; [unfold WF; cbn; repeat split; auto; repeat constructor|].
  split.
  { intros i Hi. cbn [bitlen allocated buf] in *. do 16 (destruct i as [|i]; [try lia; reflexivity|]). lia. }
  split; [reflexivity|]. split; [vm_compute; reflexivity|].
  intros (_ & H). specialize (H 0 ltac:(vm_compute; lia)). vm_compute in H. discriminate.
Qed.
Print Assumptions C07_rotation_refuted.

(** The defect affects every length not dividing 2^64 and every negative amount:
    the bit at position 0 then comes from the wrong place. *)
Theorem C07_rotation_wrong_source : forall L k, 0 < L -> (k < 0)%Z -> (2 ^ 64 mod Z.of_nat L <> 0)%Z ->
  rot_src L 0 k <> (k mod Z.of_nat L)%Z.
Proof. exact rot_src_wrong. Qed.
Print Assumptions C07_rotation_wrong_source.
Example C07_wrong_source_ex : (2 ^ 64 mod Z.of_nat 10 <> 0)%Z /\ rot_src 10 0 (-1) = 5%Z /\ ((-1) mod 10 = 9)%Z.
Proof. repeat split; vm_compute; congruence. Qed.

(** ** C08 *)
(** Lengths not divisible by 8: onto. Missing for the full C08: multiples of 8. *)
Theorem C08_random_onto_partial : forall n l, n mod 8 <> 0 -> length l = n ->
  exists rnd, rnd_ok rnd /\
    exists b, bits_new_rand rnd n = Ok b /\ WF b /\ Clean b /\ bsign b = false /\ bits_of b = l.
Proof. exact new_rand_onto. Qed.
Print Assumptions C08_random_onto_partial.
Example C08_random_onto_ex :
  (do b <- bits_new_rand (fun i _ => if i =? 0 then 181%N else 5%N) 11; bits_to_bin b) = Ok (txt "10110101101").
Proof. vm_compute. reflexivity. Qed.

(** Lengths divisible by 8: the last eight bits are always zero. *)
Theorem C08_random_multiple_of_8_refuted : forall rnd n b i, rnd_ok rnd -> n mod 8 = 0 ->
  bits_new_rand rnd n = Ok b -> n - 8 <= i < n -> nth i (bits_of b) false = false.
Proof. exact new_rand_last. Qed.
Print Assumptions C08_random_multiple_of_8_refuted.
Example C08_refuted_ex :
  (do b <- bits_new_rand (fun _ k => (2 ^ N.of_nat k - 1)%N) 24; bits_to_hex b) = Ok (txt "ffff00").
Proof. vm_compute. reflexivity. Qed.

(** ** C09 *)
Theorem C09_memory_safety : forall junk cs R, Forall WF R -> all_legal junk R cs ->
  exists R', run junk R cs = Ok R' /\ Forall WF R'.
Proof. exact run_safe. Qed.
Print Assumptions C09_memory_safety.

Definition C09_program : list call :=
  [CFromHex (txt "abc"); CFromI 77; CConcat 0 [1]; CShiftiz 2 9; CShortenz 2 (-20); CLengthenz 2 30;
   CCpy 0 2; CRotz 0; CShiftrz 0 (-3); CNotz 1; COr 0 1; CEq 0 2; CToHex 3].
Example C09_memory_safety_ex : all_legal nojunk [] C09_program /\
  exists R, run nojunk [] C09_program = Ok R /\ length R = 4.
Proof.
  split.
  - unfold C09_program. cbn -[exec legal Z.pow].
    repeat (split; [cbn [legal]; try (vm_compute; repeat split; try lia; try discriminate; repeat constructor; lia)
      | let R := fresh "R" in let E := fresh "E" in intros R E; vm_compute in E; injection E as <-]).
    exact I.
  - eexists; split; vm_compute; reflexivity.
Qed.

(** The exclusions are needed: shifting an empty string is undefined. *)
Theorem C09_empty_shift_refuted : exists b, WF b /\ bits_shiftz b 1 = UB.
Proof. exists (bits_new 0). split; [apply bits_new_wf|reflexivity]. Qed.
Print Assumptions C09_empty_shift_refuted.
