(** C12-C14: ANSI X9.62 verifiably random curves. *)
From Coq Require Import Ascii String.
From Verif Require Import Base Bits_Model Bits_Spec Bits_Round Bits_Props Sha1_Spec Sha1_Model Sha1_Props Hash_Model Hash_Proofs
  Str_Model Ansi_Spec Ansi_Model Ansi_Proofs.
Local Open Scope nat_scope.
Local Open Scope list_scope.

(** [seeded sd t]: the seed object prepared for a t-bit field. It is what the
    seed steps produce from a hexadecimal text or a random number: *)
Theorem C12_seed_from_text : forall text digits t,
  str_is_hex text = Some digits -> Forall is_hex digits -> (Z.of_nat (List.length digits) < 2 ^ 29)%Z -> 1 <= t ->
  exists sd, ansi_gen_seed_argument text (Z.of_nat t) = Ok sd /\ seeded sd t /\
    List.length (bits_of (seed sd)) = 4 * List.length digits /\
    hex_text (List.length digits) (bval (bits_of (seed sd))) = map lower digits.
Proof. exact seed_argument_ok. Qed.
Print Assumptions C12_seed_from_text.
Theorem C12_seed_from_random : forall r t, (0 < r)%Z -> (Z.log2 r < 2 ^ 31 - 1)%Z -> 1 <= t ->
  exists sd, ansi_gen_seed_random r (Z.of_nat t) = Ok sd /\ seeded sd t /\
    bval (bits_of (seed sd)) = r /\ Z.of_nat (List.length (bits_of (seed sd))) = (Z.log2 r + 1)%Z.
Proof. exact seed_random_ok. Qed.
Print Assumptions C12_seed_from_random.

(** ** C12: for seeds of whole bytes the number is the standard's r; it has at
    most t-1 bits; nothing else (uninitialised memory, ...) matters. *)
Theorem C12_r_partial : forall junk sd t, seeded sd t -> 1 <= t -> (Z.of_nat t < 2 ^ 62)%Z ->
  List.length (bits_of (seed sd)) mod 8 = 0 ->
  ansi_number junk sd = Ok (ansi_r sha1 (bits_of (seed sd)) t) /\
  (0 <= ansi_r sha1 (bits_of (seed sd)) t < 2 ^ (Z.of_nat t - 1))%Z.
Proof.
  intros junk sd t HS Ht HT HL. split.
  - rewrite (ansi_number_ok junk sd t HS Ht HT), ansi_r_sha1 by assumption. reflexivity.
  - apply ansi_r_bound; [apply sha1_length|assumption].
Qed.
Print Assumptions C12_r_partial.
(** Missing: seeds whose length is not a multiple of 8 (an odd number of hex
    digits). There the hashed string is the seed padded with zero bits: *)
Theorem C12_r_any_length : forall junk sd t, seeded sd t -> 1 <= t -> (Z.of_nat t < 2 ^ 62)%Z ->
  ansi_number junk sd = Ok (ansi_r (fun l => sha1 (l ++ repeat false ((8 - List.length l mod 8) mod 8))) (bits_of (seed sd)) t).
Proof. exact ansi_number_ok. Qed.
Print Assumptions C12_r_any_length.

Definition std_seed : list ascii := txt "C49D360886E704936A6678E1139D26B7819F7E90".
(** The seed of curve P-256 (X9.62 J.5.3 / FIPS 186): its published r. *)
Example C12_p256 :
  (do sd <- ansi_gen_seed_argument std_seed 256; ansi_number nojunk sd) =
  Ok 0x7efba1662985be9403cb055c75d4f7e0ce8d84a9c5114abcaf3177680104fa0d%Z.
Proof. vm_compute. reflexivity. Qed.

Definition odd_seed : list ascii := txt "10000000000000000000000000000000000000001".
Theorem C12_odd_digits_refuted : exists text sd r,
  ansi_seed_valid text = true /\ ansi_gen_seed_argument text 192 = Ok sd /\
  ansi_number nojunk sd = Ok r /\ r <> ansi_r sha1 (bits_of (seed sd)) 192.
Proof.
  exists odd_seed. eexists _, _. split; [vm_compute; reflexivity|]. split; [vm_compute; reflexivity|].
  split; [vm_compute; reflexivity|]. vm_compute. discriminate.
Qed.
Print Assumptions C12_odd_digits_refuted.

(** ** C13 *)
Theorem C13_verifiable : forall Fp_invsafe Fp_issquare Fp_sqrt rand junk fuel sd t p r a b,
  (forall x y, Fp_invsafe x p = Some y -> (x * y) mod p = 1 mod p)%Z ->
  (forall x, Fp_issquare x p = true -> (Fp_sqrt x p * Fp_sqrt x p) mod p = x mod p)%Z ->
  seeded sd t -> 1 <= t -> (Z.of_nat t < 2 ^ 62)%Z -> (0 < p)%Z ->
  ansi_gen_equation_fp junk Fp_invsafe Fp_issquare Fp_sqrt rand fuel sd p = Ok (r, a, b) ->
  r = ansi_r bhash (bits_of (seed sd)) t /\ ((r * b ^ 2) mod p = a ^ 3 mod p)%Z /\ exists i, a = rand i.
Proof. exact equation_fp_ok. Qed.
Print Assumptions C13_verifiable.

(** The step never gets stuck as long as r is invertible and some random value is
    suitable. *)
Theorem C13_progress : forall Fp_invsafe Fp_issquare Fp_sqrt rand junk sd t p ri,
  seeded sd t -> 1 <= t -> (Z.of_nat t < 2 ^ 62)%Z ->
  Fp_invsafe (ansi_r bhash (bits_of (seed sd)) t) p = Some ri ->
  forall n, Fp_issquare (rand n ^ 3 * ri)%Z p = true ->
  isOk (ansi_gen_equation_fp junk Fp_invsafe Fp_issquare Fp_sqrt rand (S n) sd p).
Proof. exact equation_fp_total. Qed.
Print Assumptions C13_progress.

(** Instances of the PARI functions for small moduli, for the examples. *)
Definition find_z (f : Z -> bool) (p : Z) : option Z := find f (map Z.of_nat (seq 0 (Z.to_nat p))).
Definition inv_small (x p : Z) : option Z := find_z (fun y => (x * y) mod p =? 1 mod p)%Z p.
Definition sqrt_small (x p : Z) : Z := match find_z (fun y => (y * y) mod p =? x mod p)%Z p with Some y => y | None => 0%Z end.
Definition issq_small (x p : Z) : bool := match find_z (fun y => (y * y) mod p =? x mod p)%Z p with Some _ => true | None => false end.
Lemma inv_small_ok x q y : inv_small x q = Some y -> ((x * y) mod q = 1 mod q)%Z.
Proof. intros H. apply find_some in H. apply Z.eqb_eq. apply H. Qed.
Lemma issq_small_ok x q : issq_small x q = true -> ((sqrt_small x q * sqrt_small x q) mod q = x mod q)%Z.
Proof.
  unfold issq_small, sqrt_small. destruct (find_z _ q) eqn:E; [|discriminate]. intros _.
  apply find_some in E. apply Z.eqb_eq. apply E.
Qed.
(** Seed of P-256, the 7-bit prime 97, random values 70, 71, ...: *)
Example C13_ex : exists sd r a b, ansi_gen_seed_argument std_seed 7 = Ok sd /\
  ansi_gen_equation_fp nojunk inv_small issq_small sqrt_small (fun i => 70 + Z.of_nat i)%Z 10 sd 97 = Ok (r, a, b) /\
  (r * b ^ 2 mod 97 = a ^ 3 mod 97)%Z /\ (b <> 0)%Z /\ r = 28%Z.
Proof. eexists _, _, _, _. split; [vm_compute; reflexivity|]. split; [vm_compute; reflexivity|].
  vm_compute. split; [reflexivity|split; [discriminate|reflexivity]]. Qed.

(** The step is undefined (NULL passed to mulii) whenever r = 0 mod p: *)
Theorem C13_null_inverse : forall Fp_invsafe Fp_issquare Fp_sqrt rand junk fuel sd t p,
  seeded sd t -> 1 <= t -> (Z.of_nat t < 2 ^ 62)%Z ->
  Fp_invsafe (ansi_r bhash (bits_of (seed sd)) t) p = None ->
  ansi_gen_equation_fp junk Fp_invsafe Fp_issquare Fp_sqrt rand fuel sd p = UB.
Proof. exact equation_fp_null. Qed.
Print Assumptions C13_null_inverse.
Definition zero_seed : list ascii := txt "0000000000000000000000000000000000000056".
Theorem C13_zero_r_refuted : exists text sd, ansi_seed_valid text = true /\ ansi_gen_seed_argument text 5 = Ok sd /\
  ansi_gen_equation_fp nojunk inv_small issq_small sqrt_small (fun i => 16 + Z.of_nat i)%Z 10 sd 29 = UB.
Proof. exists zero_seed. eexists. split; [vm_compute; reflexivity|]. split; [vm_compute; reflexivity|]. vm_compute. reflexivity. Qed.
Print Assumptions C13_zero_r_refuted.

(** ** C14 *)
Theorem C14_binary : forall (F : Type) junk (ielement : Z -> F) sd t ra, seeded sd t -> 1 <= t -> (Z.of_nat t < 2 ^ 62)%Z ->
  let b := ansi_b (fun l => sha1 (l ++ repeat false ((8 - List.length l mod 8) mod 8))) (bits_of (seed sd)) t in
  ansi_gen_equation_f2m junk ielement sd ra = Ok (if (b =? 0)%Z then inr (-3)%Z else inl (ielement ra, ielement b)).
Proof. intros F. exact equation_f2m_ok. Qed.
Print Assumptions C14_binary.
Theorem C14_binary_standard_partial : forall (F : Type) junk (ielement : Z -> F) sd t ra, seeded sd t -> 1 <= t -> (Z.of_nat t < 2 ^ 62)%Z ->
  List.length (bits_of (seed sd)) mod 8 = 0 ->
  let b := ansi_b sha1 (bits_of (seed sd)) t in
  (0 <= b < 2 ^ Z.of_nat t)%Z /\
  ansi_gen_equation_f2m junk ielement sd ra = Ok (if (b =? 0)%Z then inr (-3)%Z else inl (ielement ra, ielement b)).
Proof.
  intros F junk ie sd t ra HS Ht HT HL b. split; [apply ansi_b_bound; [apply sha1_length|assumption]|].
  pose proof (equation_f2m_ok junk ie sd t ra HS Ht HT) as E. cbv zeta in E. rewrite ansi_b_sha1 in E by assumption. exact E.
Qed.
Print Assumptions C14_binary_standard_partial.
(** Seed of curve B-163 (FIPS 186), m = 163: the b that FIPS 186 prints as bit string (normal basis). *)
Example C14_b163 : (do sd <- ansi_gen_seed_argument (txt "85E25BFE5C86226CDB12016F7553F9D0E693A268") 163;
   ansi_gen_equation_f2m nojunk (fun x => x) sd 1) = Ok (inl (1, 0x6645f3cacf1638e139c6cd13ef61734fbc9e3d9fb)%Z).
Proof. vm_compute. reflexivity. Qed.
Definition bzero_seed : list ascii := txt "0000000000000000000000000000000000000056".
Example C14_zero : (do sd <- ansi_gen_seed_argument bzero_seed 5; ansi_gen_equation_f2m nojunk (fun x => x) sd 1) = Ok (inr (-3)%Z).
Proof. vm_compute. reflexivity. Qed.
Theorem C14_odd_digits_refuted : exists text sd b,
  ansi_seed_valid text = true /\ ansi_gen_seed_argument text 163 = Ok sd /\
  ansi_gen_equation_f2m nojunk (fun x => x) sd 1 = Ok (inl (1%Z, b)) /\ b <> ansi_b sha1 (bits_of (seed sd)) 163.
Proof.
  exists odd_seed. eexists _, _. split; [vm_compute; reflexivity|]. split; [vm_compute; reflexivity|].
  split; [vm_compute; reflexivity|]. vm_compute. discriminate.
Qed.
Print Assumptions C14_odd_digits_refuted.
