(** Lemmas about ansi.c. *)
From Coq Require Import Ascii.
From Verif Require Import Base Bits_Model Bits_Spec Bits_Proofs Bits_Ops Bits_Ops2 Bits_Ops3 Bits_Round
  Sha1_Spec Sha1_Model Sha1_Proofs Hash_Model Hash_Proofs Str_Model Ansi_Spec Ansi_Model.
Local Open Scope nat_scope.
Ltac Zify.zify_post_hook ::= Z.div_mod_to_equations.

(** the hash the code applies to a bit string: SHA-1 of the string padded with
    zero bits to whole bytes *)
Definition bhash (l : list bool) : list bool := sha1 (to_byte l).

Lemma sha1_length m : length (sha1 m) = 160.
Proof. unfold sha1, digest. rewrite !app_length, !be_length. reflexivity. Qed.

Lemma be_lpad n v : (0 <= v < 2 ^ Z.of_nat n)%Z -> be n (Z.to_N v) = lpad n (binary_zv v).
Proof.
  intros H. destruct (from_i_len_fits v n) as (L & V); [rewrite Z.abs_eq; lia|].
  assert (E : from_i_len_bits v n = lpad n (binary_zv v)).
  { unfold from_i_len_bits. destruct (Nat.leb_spec (length (binary_zv v)) n) as [Le|Le]; [reflexivity|].
    exfalso. assert (length (binary_zv v) <= n); [|lia]. apply binary_zv_length. rewrite Z.abs_eq; lia. }
  rewrite E in *. rewrite <- (be_bval n (lpad n (binary_zv v))) by assumption. rewrite V, Z.abs_eq by lia. reflexivity.
Qed.

Definition ok_seed (b : bits_t) : Prop :=
  WF b /\ Clean b /\ bsign b = false /\ (Z.of_nat (bitlen b) < 2 ^ 31)%Z.

Lemma ok_seed_len b : ok_seed b -> (Z.of_nat (BYTE_LEN (bitlen b)) < 2 ^ 31)%Z.
Proof. intros (_ & _ & _ & H). rewrite byte_len_spec. lia. Qed.

Lemma seed_bytelen n : (Z.of_nat n < 2 ^ 31)%Z -> (Z.of_nat (BYTE_LEN n) < 2 ^ 31)%Z.
Proof. intros H. rewrite byte_len_spec. lia. Qed.

Lemma process_step_ok junk sd i r : ok_seed (seed sd) -> WF r -> (Z.of_nat (bitlen r) + 160 < 2 ^ 64)%Z ->
  inplace r (process_step junk sd i r) (bits_of r ++ bhash (seed_plus (bits_of (seed sd)) i)).
Proof.
  intros (SW & SC & SS & SL) RW RL. unfold process_step.
  rewrite bits_to_i_ok by assumption. cbn [bind]. unfold signed; cbn [fst snd]. rewrite SS.
  set (g := bitlen (seed sd)) in *.
  set (inner := ((bval (bits_of (seed sd)) + Z.of_nat i) mod 2 ^ Z.of_nat g)%Z).
  assert (P2 : (0 < 2 ^ Z.of_nat g)%Z) by (apply Z.pow_pos_nonneg; lia).
  assert (HI : (0 <= inner < 2 ^ Z.of_nat g)%Z) by (apply Z.mod_pos_bound; assumption).
  destruct (bits_from_i_ok inner) as (th & E & TW & TC & TS & TB). rewrite E. cbn [bind].
  assert (TL : bitlen th = length (binary_zv inner)) by (rewrite <- TB, bits_of_length; reflexivity).
  assert (LE : length (binary_zv inner) <= g) by (apply binary_zv_length; rewrite Z.abs_eq; lia).
  assert (LEN : exists th2, (if bitlen th <? g
            then bits_lengthenz junk th (Z.of_nat g - Z.of_nat (bitlen th)) else Ok th) = Ok th2 /\
     WF th2 /\ Clean th2 /\ bitlen th2 = g /\ bits_of th2 = seed_plus (bits_of (seed sd)) i).
  { assert (SP : seed_plus (bits_of (seed sd)) i = lpad g (binary_zv inner)).
    { unfold seed_plus. rewrite bits_of_length. fold g. apply be_lpad. assumption. }
    rewrite SP. destruct (Nat.ltb_spec (bitlen th) g) as [Lt|Ge].
    - destruct (bits_lengthenz_ok junk th (Z.of_nat g - Z.of_nat (bitlen th))) as (th2 & E2 & W2 & C2 & S2 & B2);
        [assumption|unfold amount_ok; lia|lia|lia|].
      exists th2. rewrite E2. split; [reflexivity|]. split; [assumption|]. split; [auto|].
      destruct (Z.leb_spec 0 (Z.of_nat g - Z.of_nat (bitlen th))); [|lia].
      assert (BB : bits_of th2 = lpad g (binary_zv inner)).
      { rewrite B2, TB. unfold lpad. f_equal. f_equal. lia. }
      split; [|assumption]. rewrite <- bits_of_length, BB. unfold lpad. rewrite app_length, repeat_length. lia.
    - exists th. split; [reflexivity|]. split; [assumption|]. split; [assumption|]. split; [lia|].
      rewrite TB. unfold lpad. replace (g - length (binary_zv inner)) with 0 by lia. reflexivity. }
  destruct LEN as (th2 & -> & W2 & C2 & L2 & B2). cbn [bind].
  destruct (bits_sha1_ok th2 W2 C2) as (d & -> & D1 & D2 & D3); [rewrite L2; apply seed_bytelen; assumption|]. cbn [bind].
  destruct (raw20_ok d D1 D2) as (Wi & -> & WW & WC & WS & WL & WB). cbn [bind].
  pose proof (bits_concatz_ok junk [Wi] r RW ltac:(auto)) as G.
  cbn [map List.concat] in G. rewrite app_nil_r, WB, D3, B2 in G. apply G.
  rewrite sha1_length. lia.
Qed.

Lemma tail_S hash sd n : tail_blocks hash sd (S n) = tail_blocks hash sd n ++ hash (seed_plus sd (S n)).
Proof.
  unfold tail_blocks. rewrite seq_S, flat_map_app. cbn [flat_map]. rewrite app_nil_r. reflexivity.
Qed.

Lemma tail_length sd n : length (tail_blocks bhash sd n) = 160 * n.
Proof. induction n; [reflexivity|]. rewrite tail_S, app_length, IHn. unfold bhash. rewrite sha1_length. lia. Qed.

Lemma process_loop junk sd n : forall r r0, ok_seed (seed sd) ->
  forall k, WF r -> bits_of r = bits_of r0 ++ tail_blocks bhash (bits_of (seed sd)) k ->
  (Z.of_nat (length (bits_of r)) + 160 * Z.of_nat n < 2 ^ 64)%Z ->
  exists r', for_from n (S k) (process_step junk sd) r = Ok r' /\ WF r' /\ (Clean r -> Clean r') /\ bsign r' = bsign r /\
    bits_of r' = bits_of r0 ++ tail_blocks bhash (bits_of (seed sd)) (k + n).
Proof.
  induction n as [|n IH]; intros r r0 HS k HW HB HL; cbn [for_from].
  - exists r. rewrite Nat.add_0_r. auto.
  - destruct (process_step_ok junk sd (S k) r HS HW) as (r1 & E & W1 & C1 & S1 & B1); [rewrite bits_of_length in HL; lia|].
    rewrite E. cbn [bind].
    destruct (IH r1 r0 HS (S k) W1) as (r' & E' & W' & C' & S' & B').
    + rewrite B1, HB, tail_S, <- app_assoc. reflexivity.
    + rewrite B1, app_length. unfold bhash at 1. rewrite sha1_length. lia.
    + exists r'. rewrite E'. replace (k + S n) with (S k + n) by lia. split; [reflexivity|].
      split; [assumption|]. split; [auto|]. split; [congruence|assumption].
Qed.

Lemma seed_process_ok junk sd first : ok_seed (seed sd) -> WF first -> (0 <= as_ sd)%Z ->
  (Z.of_nat (bitlen first) + 160 * as_ sd < 2 ^ 64)%Z ->
  exists r, seed_process junk sd first = Ok r /\ WF r /\ (Clean first -> Clean r) /\ bsign r = bsign first /\
    bits_of r = bits_of first ++ tail_blocks bhash (bits_of (seed sd)) (Z.to_nat (as_ sd)).
Proof.
  intros HS HW H0 HL. unfold seed_process.
  destruct (bits_copy_inplace first HW) as (b & E & W & C & S & B). rewrite E. cbn [bind].
  destruct (process_loop junk sd (Z.to_nat (as_ sd)) b first HS 0 W) as (r & E' & W' & C' & S' & B').
  - rewrite B. cbn. rewrite app_nil_r. reflexivity.
  - rewrite B, bits_of_length. lia.
  - exists r. rewrite E'. repeat (split; [solve [auto | congruence]|]). assumption.
Qed.

(** ** seeds *)
Definition seeded (sd : seed_t) (t : nat) : Prop :=
  ok_seed (seed sd) /\ length (hash20 sd) = 20 /\ Forall (fun x => (x < 256)%N) (hash20 sd) /\
  bits_of_bytes (hash20 sd) = bhash (bits_of (seed sd)) /\
  at_ sd = Z.of_nat t /\ as_ sd = Z.of_nat (ansi_s t) /\ ah sd = Z.of_nat (ansi_h t).

Lemma ansi_seed_ok s t : ok_seed s -> 1 <= t ->
  exists sd, ansi_seed s (Z.of_nat t) = Ok sd /\ seed sd = s /\ seeded sd t.
Proof.
  intros HS Ht. unfold ansi_seed, seed_hash. pose proof (ok_seed_len s HS) as HL.
  destruct HS as (W & C & S & L).
  destruct (bits_sha1_ok s W C HL) as (d & -> & D1 & D2 & D3). cbn [bind].
  unfold seed_tsh. eexists; split; [reflexivity|]. split; [reflexivity|].
  unfold seeded, ok_seed; cbn [seed hash20 at_ as_ ah]. unfold ansi_h, ansi_s.
  split; [repeat (split; [assumption|]); assumption|]. split; [assumption|]. split; [assumption|]. split; [exact D3|].
  clear - Ht. split; [reflexivity|]. split; lia.
Qed.

Lemma ansi_h_range t : 1 <= t -> 1 <= ansi_h t <= 160.
Proof. unfold ansi_h, ansi_s. lia. Qed.

Lemma ansi_split t : ansi_h t + 160 * ansi_s t = t.
Proof. unfold ansi_h, ansi_s. lia. Qed.

Lemma tl_len {A} (l : list A) : length (tl l) = length l - 1.
Proof. destruct l; cbn [tl Datatypes.length]; lia. Qed.

(** c0 *)
Lemma c0_ok sd t : seeded sd t -> 1 <= t ->
  exists b c, bits_from_raw (hash20 sd) 160 = Ok b /\ bits_shortenz b (160 - ah sd) = Ok c /\
    WF c /\ Clean c /\ bsign c = false /\ bits_of c = ansi_c0 bhash (bits_of (seed sd)) t.
Proof.
  intros (HS & H1 & H2 & H3 & HT & Hs & Hh) Ht. pose proof (ansi_h_range t Ht) as HR.
  destruct (raw20_ok _ H1 H2) as (b & E & W & C & S & L & B). exists b.
  destruct (bits_shortenz_ok b (160 - ah sd) W) as (c & E' & W' & C' & S' & B'); [lia|lia|].
  exists c. rewrite E, E'. split; [reflexivity|]. split; [reflexivity|]. split; [assumption|].
  split; [auto|]. split; [congruence|]. rewrite B'.
  destruct (Z.leb_spec 0 (160 - ah sd)); [|lia]. rewrite B, H3. unfold ansi_c0, rightmost, bhash.
  rewrite sha1_length. f_equal. lia.
Qed.

Lemma c0_length sd t : 1 <= t -> length (ansi_c0 bhash sd t) = ansi_h t.
Proof.
  intros Ht. pose proof (ansi_h_range t Ht). unfold ansi_c0, rightmost, bhash. rewrite skipn_length, sha1_length. lia.
Qed.

(** the summation loop *)
Lemma number_loop W t : WF W -> bitlen W = t ->
  for_from t 1 (fun i r => do g <- GET_BIT (buf W) (i - 1); Ok (r + Z.of_N g * 2 ^ (Z.of_nat t - Z.of_nat i))%Z) 0%Z
  = Ok (bval (bits_of W)).
Proof.
  intros HW HL.
  destruct (for_from_inv (fun i r => r = (bval (firstn (i - 1) (bits_of W)) * 2 ^ Z.of_nat (t - (i - 1)))%Z)
    (fun i r => do g <- GET_BIT (buf W) (i - 1); Ok (r + Z.of_N g * 2 ^ (Z.of_nat t - Z.of_nat i))%Z) t 1 0%Z)
    as (r & E & HR).
  - reflexivity.
  - intros i r Hi ->. rewrite GET_WF by (auto; lia). cbn [bind]. eexists; split; [reflexivity|].
    replace (S i - 1) with (S (i - 1)) by lia.
    rewrite (firstn_S_nth false) by (rewrite bits_of_length; lia). rewrite bval_app. cbn [Datatypes.length].
    replace (t - (i - 1)) with (S (t - S (i - 1))) by lia. rewrite Nat2Z.inj_succ, Z.pow_succ_r by lia.
    replace (Z.of_nat t - Z.of_nat i)%Z with (Z.of_nat (t - S (i - 1))) by lia.
    change (Z.of_nat 1) with 1%Z. change (2 ^ 1)%Z with 2%Z.
    destruct (nth (i - 1) (bits_of W) false);
      [change (bval [true]) with 1%Z; change (Z.of_N (N.b2n true)) with 1%Z
      |change (bval [false]) with 0%Z; change (Z.of_N (N.b2n false)) with 0%Z]; ring.
  - rewrite E, HR. replace (1 + t - 1) with t by lia. rewrite firstn_all2 by (rewrite bits_of_length; lia).
    replace (t - t) with 0 by lia. rewrite Z.mul_1_r. reflexivity.
Qed.

Lemma ansi_number_ok junk sd t : seeded sd t -> 1 <= t -> (Z.of_nat t < 2 ^ 62)%Z ->
  ansi_number junk sd = Ok (ansi_r bhash (bits_of (seed sd)) t).
Proof.
  intros HS Ht HT. pose proof (ansi_h_range t Ht) as HR. unfold ansi_number.
  destruct (c0_ok sd t HS Ht) as (b & c & -> & E2 & W2 & C2 & S2 & B2). cbn [bind]. rewrite E2. cbn [bind].
  pose proof HS as (HK & _ & _ & _ & Eat & Eas & Eah).
  assert (LC : bitlen c = ansi_h t) by (rewrite <- bits_of_length, B2; apply c0_length; assumption).
  destruct (bits_copy_inplace c W2) as (w0 & E3 & W3 & C3 & S3 & B3). rewrite E3. cbn [bind].
  assert (L3 : bitlen w0 = ansi_h t) by (rewrite <- bits_of_length, B3, bits_of_length; assumption).
  pose proof W3 as (WA & WB & WC).
  assert (0 / 8 < length (buf w0)) as H0.
  { rewrite byte_len_spec in WB. change (0 / 8) with 0. lia. }
  destruct (SET_BIT_ok (buf w0) 0 0%N H0 WC ltac:(lia)) as (a' & E4 & LA & BA & GA). rewrite E4. cbn [bind].
  set (w1 := mkBits a' (bsign w0) (bitlen w0) (allocated w0)).
  assert (W1 : WF w1) by (unfold WF, w1; cbn [buf bitlen allocated]; rewrite LA; auto).
  assert (B1 : bits_of w1 = false :: tl (ansi_c0 bhash (bits_of (seed sd)) t)).
  { rewrite <- B2, <- B3. unfold bits_of, w1; cbn [buf bitlen]. rewrite L3.
    destruct (ansi_h t) as [|m]; [lia|]. cbn [seq map tl]. rewrite GA. cbn [Nat.eqb N.eqb]. f_equal.
    apply map_ext_in. intros j Hj. apply in_seq in Hj. rewrite GA. destruct (Nat.eqb_spec j 0); [lia|reflexivity]. }
  pose proof (ansi_split t) as TT.
  destruct (seed_process_ok junk sd w1 HK W1) as (W & E5 & WW & WCl & WS & WBs).
  { rewrite Eas. lia. } { rewrite Eas. unfold w1; cbn [bitlen]. lia. }
  rewrite E5. cbn [bind]. rewrite Eas, Nat2Z.id in WBs.
  assert (LW : bitlen W = t).
  { rewrite <- bits_of_length, WBs, app_length, tail_length, B1. cbn [Datatypes.length].
    rewrite tl_len, c0_length by assumption. clear - TT HR. lia. }
  rewrite Eat, Nat2Z.id. rewrite number_loop by assumption. rewrite WBs, B1. reflexivity.
Qed.

(** bounds *)
Lemma ansi_r_bound hash sd t : (forall l, length (hash l) = 160) -> 1 <= t ->
  (0 <= ansi_r hash sd t < 2 ^ (Z.of_nat t - 1))%Z.
Proof.
  intros HH Ht. unfold ansi_r. pose proof (ansi_h_range t Ht) as HR.
  set (l := tl (ansi_c0 hash sd t) ++ tail_blocks hash sd (ansi_s t)).
  assert (LL : length l = t - 1).
  { assert (TL : length (tail_blocks hash sd (ansi_s t)) = 160 * ansi_s t).
    { clear - HH. induction (ansi_s t) as [|n IH]; [reflexivity|]. rewrite tail_S, app_length, IH, HH. lia. }
    assert (CL : length (ansi_c0 hash sd t) = ansi_h t) by (unfold ansi_c0, rightmost; rewrite skipn_length, HH; lia).
    unfold l. rewrite app_length, TL, tl_len, CL. pose proof (ansi_split t). lia. }
  change ((false :: tl (ansi_c0 hash sd t)) ++ tail_blocks hash sd (ansi_s t)) with (false :: l).
  replace (bval (false :: l)) with (bval l) by reflexivity.
  pose proof (bval_bound l) as B. rewrite LL in B. replace (Z.of_nat t - 1)%Z with (Z.of_nat (t - 1)) by lia. assumption.
Qed.

(** ** prime fields *)
Section Fp.
Variable Fp_invsafe : Z -> Z -> option Z.
Variable Fp_issquare : Z -> Z -> bool.
Variable Fp_sqrt : Z -> Z -> Z.
Variable rand : nat -> Z.

Lemma a_loop_ok p ri fuel : forall i a b2, a_loop Fp_issquare rand fuel i ri p = Ok (a, b2) ->
  exists j, i <= j < i + fuel /\ a = rand j /\ b2 = (a ^ 3 * ri)%Z /\ Fp_issquare b2 p = true /\
    forall k, i <= k < j -> Fp_issquare (rand k ^ 3 * ri)%Z p = false.
Proof.
  induction fuel as [|f IH]; intros i a b2 H; cbn [a_loop] in H; [discriminate|].
  destruct (Fp_issquare (rand i ^ 3 * ri) p) eqn:E; cbn [negb] in H.
  - injection H as <- <-. exists i. repeat split; auto; try lia.
  - destruct (IH (S i) a b2 H) as (j & Hj & A & B & C & D). exists j. repeat split; auto; try lia.
    intros k Hk. destruct (Nat.eq_dec k i) as [->|]; [assumption|]. apply D. lia.
Qed.

Lemma equation_fp_ok junk fuel sd t p r a b :
  (forall x y, Fp_invsafe x p = Some y -> (x * y) mod p = 1 mod p)%Z ->
  (forall x, Fp_issquare x p = true -> (Fp_sqrt x p * Fp_sqrt x p) mod p = x mod p)%Z ->
  seeded sd t -> 1 <= t -> (Z.of_nat t < 2 ^ 62)%Z -> (0 < p)%Z ->
  ansi_gen_equation_fp junk Fp_invsafe Fp_issquare Fp_sqrt rand fuel sd p = Ok (r, a, b) ->
  r = ansi_r bhash (bits_of (seed sd)) t /\ ((r * b ^ 2) mod p = a ^ 3 mod p)%Z /\ exists i, a = rand i.
Proof.
  intros Hinv Hsq HS Ht HT Hp H. unfold ansi_gen_equation_fp in H.
  rewrite (ansi_number_ok junk sd t HS Ht HT) in H. cbn [bind] in H.
  destruct (Fp_invsafe (ansi_r bhash (bits_of (seed sd)) t) p) as [ri|] eqn:EI; [|discriminate].
  apply bind_ok in H. destruct H as ((a' & b2) & EL & H). cbn [fst snd] in H. injection H as <- <- <-.
  apply a_loop_ok in EL. destruct EL as (j & _ & EA & EB & SQ & _).
  split; [reflexivity|]. split; [|exists j; assumption].
  set (r0 := ansi_r bhash (bits_of (seed sd)) t) in *. apply Hinv in EI. apply Hsq in SQ.
  rewrite Z.pow_2_r. rewrite Z.mul_mod, SQ, <- Z.mul_mod by lia. rewrite EB.
  replace (r0 * (a' ^ 3 * ri))%Z with (a' ^ 3 * (r0 * ri))%Z by ring.
  rewrite Z.mul_mod, EI, <- Z.mul_mod, Z.mul_1_r by lia. reflexivity.
Qed.

Lemma equation_fp_null junk fuel sd t p : seeded sd t -> 1 <= t -> (Z.of_nat t < 2 ^ 62)%Z ->
  Fp_invsafe (ansi_r bhash (bits_of (seed sd)) t) p = None ->
  ansi_gen_equation_fp junk Fp_invsafe Fp_issquare Fp_sqrt rand fuel sd p = UB.
Proof.
  intros HS Ht HT H. unfold ansi_gen_equation_fp. rewrite (ansi_number_ok junk sd t HS Ht HT). cbn [bind].
  rewrite H. reflexivity.
Qed.

Lemma equation_fp_total junk sd t p ri : seeded sd t -> 1 <= t -> (Z.of_nat t < 2 ^ 62)%Z ->
  Fp_invsafe (ansi_r bhash (bits_of (seed sd)) t) p = Some ri ->
  forall n, Fp_issquare (rand n ^ 3 * ri)%Z p = true ->
  isOk (ansi_gen_equation_fp junk Fp_invsafe Fp_issquare Fp_sqrt rand (S n) sd p).
Proof.
  intros HS Ht HT H n Hn. unfold ansi_gen_equation_fp. rewrite (ansi_number_ok junk sd t HS Ht HT). cbn [bind]. rewrite H.
  assert (G : forall k i, i + k = n -> isOk (a_loop Fp_issquare rand (S k) i ri p)).
  { induction k as [|k IH]; intros i Hi; cbn [a_loop].
    - rewrite Nat.add_0_r in Hi. subst i. rewrite Hn. cbn. eexists; reflexivity.
    - destruct (Fp_issquare (rand i ^ 3 * ri) p); cbn [negb]; [eexists; reflexivity|]. apply IH. lia. }
  destruct (G n 0) as (ab & E); [lia|]. rewrite E. cbn [bind]. eexists; reflexivity.
Qed.
End Fp.

(** ** binary fields *)
Lemma equation_f2m_ok {F} junk (ie : Z -> F) sd t ra : seeded sd t -> 1 <= t -> (Z.of_nat t < 2 ^ 62)%Z ->
  let b := ansi_b bhash (bits_of (seed sd)) t in
  ansi_gen_equation_f2m junk ie sd ra = Ok (if (b =? 0)%Z then inr (-3)%Z else inl (ie ra, ie b)).
Proof.
  intros HS Ht HT b. pose proof (ansi_h_range t Ht) as HR. unfold ansi_gen_equation_f2m.
  destruct (c0_ok sd t HS Ht) as (b0 & c & -> & E2 & W2 & C2 & S2 & B2). cbn [bind]. rewrite E2. cbn [bind].
  pose proof HS as (HK & _ & _ & _ & Eat & Eas & Eah).
  assert (LC : bitlen c = ansi_h t) by (rewrite <- bits_of_length, B2; apply c0_length; assumption).
  pose proof (ansi_split t) as TT.
  destruct (seed_process_ok junk sd c HK W2) as (W & E5 & WW & WCl & WS & WBs).
  { rewrite Eas. lia. } { rewrite Eas. lia. }
  rewrite E5. cbn [bind]. rewrite Eas, Nat2Z.id, B2 in WBs.
  rewrite bits_to_i_ok by assumption. cbn [bind]. unfold signed; cbn [fst snd]. rewrite WS, S2, WBs.
  change (bval (ansi_c0 bhash (bits_of (seed sd)) t ++ tail_blocks bhash (bits_of (seed sd)) (ansi_s t))) with b.
  destruct (b =? 0)%Z; reflexivity.
Qed.

Lemma ansi_b_bound hash sd t : (forall l, length (hash l) = 160) -> 1 <= t ->
  (0 <= ansi_b hash sd t < 2 ^ Z.of_nat t)%Z.
Proof.
  intros HH Ht. unfold ansi_b. pose proof (ansi_h_range t Ht) as HR.
  pose proof (bval_bound (ansi_c0 hash sd t ++ tail_blocks hash sd (ansi_s t))) as B.
  assert (TL : length (tail_blocks hash sd (ansi_s t)) = 160 * ansi_s t).
  { clear - HH. induction (ansi_s t) as [|n IH]; [reflexivity|]. rewrite tail_S, app_length, IH, HH. lia. }
  assert (CL : length (ansi_c0 hash sd t) = ansi_h t) by (unfold ansi_c0, rightmost; rewrite skipn_length, HH; lia).
  rewrite app_length, TL, CL in B. replace (ansi_h t + 160 * ansi_s t) with t in B; [assumption|].
  symmetry. apply ansi_split.
Qed.

(** whole-byte seeds: the code's hash is SHA-1 *)
Lemma seed_plus_length sd i : length (seed_plus sd i) = length sd.
Proof. unfold seed_plus. apply be_length. Qed.

Lemma bhash_tail sd n : length sd mod 8 = 0 -> tail_blocks bhash sd n = tail_blocks sha1 sd n.
Proof.
  intros H. induction n as [|n IH]; [reflexivity|]. rewrite !tail_S, IH. f_equal.
  unfold bhash. rewrite to_byte_id; [reflexivity|]. rewrite seed_plus_length. assumption.
Qed.

Lemma ansi_r_sha1 sd t : length sd mod 8 = 0 -> ansi_r bhash sd t = ansi_r sha1 sd t.
Proof.
  intros H. unfold ansi_r. rewrite bhash_tail by assumption. unfold ansi_c0, bhash. rewrite to_byte_id by assumption. reflexivity.
Qed.

Lemma ansi_b_sha1 sd t : length sd mod 8 = 0 -> ansi_b bhash sd t = ansi_b sha1 sd t.
Proof.
  intros H. unfold ansi_b. rewrite bhash_tail by assumption. unfold ansi_c0, bhash. rewrite to_byte_id by assumption. reflexivity.
Qed.

(** ** where seeds come from *)
Lemma seed_argument_ok text digits t : str_is_hex text = Some digits -> Forall is_hex digits ->
  (Z.of_nat (length digits) < 2 ^ 29)%Z -> 1 <= t ->
  exists sd, ansi_gen_seed_argument text (Z.of_nat t) = Ok sd /\ seeded sd t /\
    length (bits_of (seed sd)) = 4 * length digits /\
    hex_text (length digits) (bval (bits_of (seed sd))) = map lower digits.
Proof.
  intros H HH HL Ht. unfold ansi_gen_seed_argument. rewrite H.
  destruct (bits_from_hex_ok digits) as (b & -> & W & C & S & B). cbn [bind].
  assert (LB : bitlen b = 4 * length digits) by (rewrite <- bits_of_length, B; apply hex_bits_length).
  destruct (ansi_seed_ok b t) as (sd & E & ES & SD); [|assumption|].
  - unfold ok_seed. rewrite LB. split; [assumption|]. split; [assumption|]. split; [assumption|]. lia.
  - exists sd. rewrite ES, B. split; [assumption|]. split; [assumption|].
    split; [apply hex_bits_length|apply hex_text_hex_bits; assumption].
Qed.

Lemma seed_random_ok r t : (0 < r)%Z -> (Z.log2 r < 2 ^ 31 - 1)%Z -> 1 <= t ->
  exists sd, ansi_gen_seed_random r (Z.of_nat t) = Ok sd /\ seeded sd t /\
    bval (bits_of (seed sd)) = r /\ Z.of_nat (length (bits_of (seed sd))) = (Z.log2 r + 1)%Z.
Proof.
  intros H HH Ht. unfold ansi_gen_seed_random.
  destruct (bits_from_i_ok r) as (b & -> & W & C & S & B). cbn [bind].
  assert (LB : Z.of_nat (bitlen b) = (Z.log2 r + 1)%Z).
  { rewrite <- bits_of_length, B, binary_zv_log2 by lia. rewrite Z.abs_eq by lia. reflexivity. }
  destruct (ansi_seed_ok b t) as (sd & E & ES & SD); [|assumption|].
  - unfold ok_seed. rewrite LB. split; [assumption|]. split; [assumption|]. split; [|lia].
    rewrite S. apply Z.ltb_ge. lia.
  - exists sd. rewrite ES. split; [assumption|]. split; [assumption|]. split.
    + rewrite B, bval_binary_zv. apply Z.abs_eq. lia.
    + rewrite bits_of_length. exact LB.
Qed.
