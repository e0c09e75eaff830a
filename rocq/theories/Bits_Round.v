(** Round trips of the bit-string conversions. *)
From Coq Require Import Ascii String.
From Verif Require Import Base Bits_Model Bits_Spec Bits_Proofs Bits_Ops Bits_Ops2 Bits_Ops3.
Local Open Scope nat_scope.
Local Open Scope list_scope.
Ltac Zify.zify_post_hook ::= Z.div_mod_to_equations.

Lemma byte_len_spec n : BYTE_LEN n = (n + 7) / 8.
Proof. unfold BYTE_LEN. destruct (Nat.eqb_spec (n mod 8) 0); lia. Qed.

Lemma nib_value : forall c, bval (nib_bits (nibble_of c)) = Z.of_N (nibble_of c).
Proof.
  intros c. pose proof (nibble_lt c) as H. set (d := nibble_of c) in *.
  assert (A : forallb (fun d => (bval (nib_bits d) =? Z.of_N d)%Z) (map N.of_nat (seq 0 16)) = true)
    by (vm_compute; reflexivity).
  rewrite forallb_forall in A. apply Z.eqb_eq, A. apply in_map_iff. exists (N.to_nat d).
  split; [lia|]. apply in_seq. lia.
Qed.

Lemma hexch_nibble c : is_hex c -> hexch (Z.of_N (nibble_of c)) = lower c.
Proof.
  intros H.
  assert (A : forallb (fun c => Ascii.eqb (hexch (Z.of_N (nibble_of c))) (lower c))
     (list_ascii_of_string "0123456789abcdefABCDEF") = true) by (vm_compute; reflexivity).
  rewrite forallb_forall in A. apply Ascii.eqb_eq, A. exact H.
Qed.

Lemma hex_bits_app s t : hex_bits (s ++ t) = hex_bits s ++ hex_bits t.
Proof. unfold hex_bits. apply flat_map_app. Qed.

Lemma hex_bits_length s : length (hex_bits s) = 4 * length s.
Proof. unfold hex_bits. apply flat_map_length4. reflexivity. Qed.

Lemma hex_text_hex_bits s : Forall is_hex s -> hex_text (length s) (bval (hex_bits s)) = map lower s.
Proof.
  induction s as [|c s IH] using rev_ind; [reflexivity|]. intros H. apply Forall_app in H.
  destruct H as (H1 & H2). inversion H2; subst. rewrite app_length, map_app. cbn [Datatypes.length map].
  rewrite Nat.add_1_r, hex_bits_app, bval_app.
  replace (hex_bits [c]) with (nib_bits (nibble_of c)) by (unfold hex_bits; cbn [flat_map]; rewrite app_nil_r; reflexivity).
  rewrite nib_value. change (2 ^ Z.of_nat (length (nib_bits (nibble_of c))))%Z with 16%Z.
  pose proof (nibble_lt c). rewrite hex_text_step by lia. rewrite IH by assumption.
  rewrite hexch_nibble by assumption. reflexivity.
Qed.

Lemma hex_text_lead0 k : forall v, (0 <= v < 16 ^ Z.of_nat k)%Z -> hex_text (S k) v = "0"%char :: hex_text k v.
Proof.
  induction k as [|k IH]; intros v H.
  - cbn in H. assert (v = 0%Z) as -> by lia. reflexivity.
  - rewrite Nat2Z.inj_succ, Z.pow_succ_r in H by lia.
    change (hex_text (S (S k)) v) with (hex_text (S k) (v / 16) ++ [hexch (v mod 16)]).
    rewrite IH; [reflexivity|]. split; [lia|]. apply Z.div_lt_upper_bound; lia.
Qed.

Lemma hex_roundtrip s : Forall is_hex s ->
  exists b, bits_from_hex s = Ok b /\
    bits_to_hex b = Ok ((if Nat.odd (length s) then ["0"%char] else []) ++ map lower s).
Proof.
  intros H. destruct (bits_from_hex_ok s) as (b & E & W & C & S & B). exists b. split; [assumption|].
  rewrite bits_to_hex_ok by assumption. f_equal. rewrite S. cbn [sign_text app].
  assert (L : bitlen b = 4 * length s) by (rewrite <- bits_of_length, B; apply hex_bits_length).
  rewrite byte_len_spec, L. unfold mag. rewrite B.
  pose proof (bval_bound (hex_bits s)) as BB. rewrite hex_bits_length in BB.
  destruct (Nat.odd (length s)) eqn:O.
  - apply Nat.odd_spec in O. destruct O as (m & O).
    replace (2 * ((4 * length s + 7) / 8)) with (Datatypes.S (length s)) by lia.
    rewrite hex_text_lead0, hex_text_hex_bits; auto.
    replace 16%Z with (2 ^ 4)%Z by reflexivity. rewrite <- Z.pow_mul_r by lia.
    replace (4 * Z.of_nat (length s))%Z with (Z.of_nat (4 * length s)) by lia. assumption.
  - assert (E2 : Nat.Even (length s)) by (apply Nat.even_spec; rewrite <- Nat.negb_odd, O; reflexivity).
    destruct E2 as (m & E2). replace (2 * ((4 * length s + 7) / 8)) with (length s) by lia.
    apply hex_text_hex_bits; assumption.
Qed.

(** integers *)
Definition denotes (r : bool * Z) : Z := if fst r then (- snd r)%Z else snd r.

Lemma sign_abs i : denotes ((i <? 0)%Z, Z.abs i) = i.
Proof. unfold denotes; cbn [fst snd]. destruct (Z.ltb_spec i 0); lia. Qed.

Lemma int_roundtrip i : exists b r, bits_from_i i = Ok b /\ bits_to_i b = Ok r /\ denotes r = i /\
  (fst r = true -> snd r <> 0%Z).
Proof.
  destruct (bits_from_i_ok i) as (b & E & W & C & S & B).
  exists b, (bsign b, bval (bits_of b)). rewrite bits_to_i_ok by assumption. rewrite S, B, bval_binary_zv.
  repeat split; auto using sign_abs. cbn [fst snd]. lia.
Qed.

Lemma int_len_roundtrip i n : (Z.abs i < 2 ^ Z.of_nat n)%Z ->
  exists b r, bits_from_i_len i n = Ok b /\ bitlen b = n /\ bits_to_i b = Ok r /\ denotes r = i.
Proof.
  intros H. destruct (bits_from_i_len_ok i n) as (b & E & W & C & S & B).
  destruct (from_i_len_fits i n H) as (F1 & F2).
  exists b, (bsign b, bval (bits_of b)). rewrite bits_to_i_ok by assumption. rewrite S, B, F2.
  repeat split; auto using sign_abs. rewrite <- bits_of_length, B. assumption.
Qed.

Lemma binary_zv_log2 i : i <> 0%Z -> Z.of_nat (length (binary_zv i)) = (Z.log2 (Z.abs i) + 1)%Z.
Proof.
  intros H. pose proof (Z.log2_spec (Z.abs i) ltac:(lia)) as (L1 & L2).
  pose proof (Z.log2_nonneg (Z.abs i)) as L0. set (g := Z.log2 (Z.abs i)) in *.
  assert (A : length (binary_zv i) <= Z.to_nat (g + 1)).
  { apply binary_zv_length. rewrite Z2Nat.id by lia. rewrite Z.add_1_r. assumption. }
  assert (B : ~ length (binary_zv i) <= Z.to_nat g).
  { rewrite binary_zv_length, Z2Nat.id by lia. lia. }
  lia.
Qed.

Lemma int_len_cut i n : (2 ^ Z.of_nat n <= Z.abs i)%Z ->
  exists b, bits_from_i_len i n = Ok b /\ WF b /\ bitlen b = n /\ bsign b = (i <? 0)%Z /\
    mag b = (Z.abs i / 2 ^ (Z.log2 (Z.abs i) + 1 - Z.of_nat n))%Z.
Proof.
  intros H. destruct (bits_from_i_len_ok i n) as (b & E & W & C & S & B). exists b.
  assert (NL : n < length (binary_zv i)).
  { destruct (Nat.lt_ge_cases n (length (binary_zv i))); auto.
    exfalso. apply binary_zv_length in H0. lia. }
  unfold from_i_len_bits in B. destruct (Nat.leb_spec (length (binary_zv i)) n); [lia|].
  repeat split; try apply W; auto.
  - rewrite <- bits_of_length, B. apply firstn_length_le. lia.
  - unfold mag. rewrite B.
    replace n with (length (binary_zv i) - (length (binary_zv i) - n)) at 1 by lia.
    rewrite bval_firstn, bval_binary_zv by lia. do 2 f_equal.
    assert (i <> 0%Z) by (intros ->; cbn in NL; lia).
    pose proof (binary_zv_log2 i ltac:(assumption)). lia.
Qed.

(** binary text *)
Lemma bin_roundtrip s : Forall (fun c => c = "0"%char \/ c = "1"%char) s ->
  exists b, bits_from_bin s = Ok b /\ bits_to_bin b = Ok s.
Proof.
  intros H. destruct (bits_from_bin_ok s) as (b & E & W & C & S & B). exists b. split; [assumption|].
  rewrite bits_to_bin_ok by assumption. rewrite S, B. cbn [sign_text app]. f_equal.
  unfold bin_text. rewrite map_map. rewrite <- (map_id s) at 2. apply map_ext_in. intros c Hc.
  destruct (proj1 (Forall_forall _ _) H c Hc) as [-> | ->]; reflexivity.
Qed.

Lemma raw_roundtrip a n : Forall (fun x => (x < 256)%N) a -> 0 < n <= 8 * length a ->
  exists b, bits_from_raw a n = Ok b /\ bits_to_raw b = Ok (Some (firstn ((n + 7) / 8) a)).
Proof.
  intros H Hn. unfold bits_from_raw. destruct (Nat.ltb_spec 0 n); [|lia].
  assert (BYTE_LEN n <= length a) by (apply byte_len_le; lia).
  rewrite memdup_ok by assumption. cbn [bind]. eexists; split; [reflexivity|].
  unfold bits_to_raw; cbn [bitlen buf]. destruct (Nat.eqb_spec n 0); [lia|].
  rewrite memdup_ok by (rewrite firstn_length; lia). cbn [bind]. rewrite firstn_firstn, Nat.min_id, byte_len_spec.
  reflexivity.
Qed.

Lemma bitvec_roundtrip v : Forall (fun x => x = 0%Z \/ x = 1%Z) v ->
  exists b, bits_from_bitvec v = Ok b /\ bits_to_bitvec b = Ok v.
Proof.
  intros H. destruct (bits_from_bitvec_ok v) as (b & E & W & C & S & B). exists b. split; [assumption|].
  rewrite bits_to_bitvec_ok by assumption. rewrite B, map_map. f_equal.
  rewrite <- (map_id v) at 2. apply map_ext_in. intros x Hx.
  destruct (proj1 (Forall_forall _ _) H x Hx) as [-> | ->]; reflexivity.
Qed.

(** and/or on the magnitudes *)
Lemma map2_bval (f : bool -> bool -> bool) (F : Z -> Z -> Z) a b :
  (forall x y k, (0 <= k)%Z -> Z.testbit (F x y) k = f (Z.testbit x k) (Z.testbit y k)) ->
  (forall x y, (0 <= x)%Z -> (0 <= y)%Z -> (0 <= F x y)%Z) -> f false false = false ->
  length a = length b -> bval (map2 f a b) = F (bval a) (bval b).
Proof.
  intros HF HP Hff HL. apply Z.bits_inj'. intros k Hk.
  rewrite HF by assumption.
  pose proof (bval_bound a) as Ba. pose proof (bval_bound b) as Bb.
  pose proof (bval_bound (map2 f a b)) as Bm. rewrite map2_length in Bm by assumption.
  destruct (Z.lt_ge_cases k (Z.of_nat (length a))) as [L|L].
  - replace k with (Z.of_nat (Z.to_nat k)) by lia.
    rewrite !bval_testbit by (rewrite ?map2_length by assumption; lia).
    rewrite map2_length by assumption. rewrite map2_nth by lia. rewrite HL. reflexivity.
  - assert (T : forall z, (0 <= z < 2 ^ Z.of_nat (length a))%Z -> Z.testbit z k = false).
    { intros z Hz. destruct (Z.eq_dec z 0) as [->|NZ]; [apply Z.bits_0|]. apply Z.bits_above_log2; [lia|].
      apply Z.log2_lt_pow2; [lia|]. eapply Z.lt_le_trans; [apply Hz|]. apply Z.pow_le_mono_r; lia. }
    rewrite !T; auto; try lia. rewrite HL. assumption.
Qed.

Lemma mag_lpad n l : bval (lpad n l) = bval l.
Proof. unfold lpad. apply bval_repeat_false. Qed.
