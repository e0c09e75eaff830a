(** C15-C18, C63: Brainpool curves. *)
From Coq Require Import Ascii String Znumtheory Zpow_facts.
From Verif Require Import Base Bits_Model Bits_Spec Bits_Ops Bits_Ops3 Bits_Round Bits_Props Sha1_Spec Sha1_Model Hash_Model
  Str_Model Ansi_Spec Ansi_Model Ansi_Proofs Ansi_Props Primes Brainpool_Spec Brainpool_Model Brainpool_Proofs.
Local Open Scope nat_scope.
Local Open Scope list_scope.

(** [holds sd l L]: the seed object holds the 160-bit seed [l] and the parameters
    w, v for L-bit fields. The seed steps produce such objects: *)
Theorem C15_seed_from_text : forall text L, brainpool_seed_valid text = true -> 1 <= L ->
  exists digits sd, str_is_hex text = Some digits /\ List.length digits = 40 /\
    brainpool_gen_seed_argument text (Z.of_nat L) = Ok sd /\
    brainpool_gen_seed_input text (Z.of_nat L) = Ok (Some sd) /\
    holds sd (hex_bits digits) L /\ bupd sd = false.
Proof.
  intros text L V HL. unfold brainpool_gen_seed_input. rewrite V. cbn [negb].
  unfold brainpool_seed_valid, brainpool_gen_seed_argument in *.
  destruct (str_is_hex text) as [digits|]; [|discriminate]. apply Nat.eqb_eq in V.
  destruct (bits_from_hex_ok digits) as (b & -> & W & C & S & B). cbn [bind].
  unfold brainpool_seed. rewrite seed_wv_ok by assumption.
  eexists digits, _. split; [reflexivity|]. split; [exact V|]. split; [reflexivity|]. split; [reflexivity|].
  split; [|reflexivity]. split; [|split; reflexivity].
  split; [exact W|]. split; [exact C|]. split; [exact S|]. split; [exact B|]. rewrite hex_bits_length, V. reflexivity.
Qed.
Print Assumptions C15_seed_from_text.
Theorem C15_seed_random : forall rnd L, rnd_ok rnd -> 1 <= L ->
  exists sd l, brainpool_gen_seed_random rnd (Z.of_nat L) = Ok sd /\ holds sd l L /\ bupd sd = false.
Proof.
  intros rnd L R HL. destruct (new_rand_wf rnd 160 R) as (b & E & W & C & S & LB).
  unfold brainpool_gen_seed_random. rewrite E. cbn [bind]. unfold brainpool_seed. rewrite seed_wv_ok by assumption.
  eexists _, (bits_of b). split; [reflexivity|]. split; [|reflexivity]. split; [|split; reflexivity].
  repeat (split; [assumption|]). split; [reflexivity|assumption].
Qed.
Print Assumptions C15_seed_random.
Theorem C15_seed_rejected : forall text L, brainpool_gen_seed_input text L = Ok None <->
  ~ exists digits, str_is_hex text = Some digits /\ List.length digits = 40.
Proof.
  intros text L. unfold brainpool_gen_seed_input, brainpool_seed_valid, brainpool_gen_seed_argument.
  destruct (str_is_hex text) as [digits|].
  - destruct (Nat.eqb_spec (List.length digits) 40) as [E|E]; cbn [negb].
    + split; [|intros H; exfalso; apply H; eauto]. destruct (bits_from_hex_ok digits) as (b & -> & _). discriminate.
    + split; [|reflexivity]. intros _ (d & H1 & H2). injection H1 as ->. contradiction.
  - split; [|reflexivity]. intros _ (d & H & _). discriminate.
Qed.
Print Assumptions C15_seed_rejected.

(** ** C15 *)
Theorem C15_update : forall junk s l, okbp s l ->
  exists s', brainpool_update_seed junk s = Ok s' /\ okbp s' (bp_seed l 1) /\
    bval (bits_of s') = ((bval l + 1) mod 2 ^ 160)%Z.
Proof.
  intros junk s l H. destruct (update_seed_ok junk s l H) as (s' & E & O). exists s'. split; [exact E|]. split; [exact O|].
  destruct O as (_ & _ & _ & -> & _). apply (bp_seed_val l 1).
Qed.
Print Assumptions C15_update.
(** The largest seed wraps to 0. *)
Example C15_update_ex : (do s <- bits_from_hex (txt "ffffffffffffffffffffffffffffffffffffffff");
   do s <- brainpool_update_seed nojunk s; bits_to_hex s) = Ok (txt "0000000000000000000000000000000000000000").
Proof. vm_compute. reflexivity. Qed.

Theorem C15_expand : forall junk vla0 s l w v, okbp s l -> w <= 160 -> (160 * Z.of_nat v + 160 < 2 ^ 63)%Z -> vla0 = true \/ 0 < v ->
  exists r, brainpool_hash junk vla0 s (Z.of_nat w) (Z.of_nat v) = Ok r /\ WF r /\ bsign r = false /\
    bits_of r = bp_expand l w v /\ List.length (bits_of r) = w + 160 * v.
Proof.
  intros junk vla0 s l w v H Hw Hv Hz. destruct (hash_ok junk vla0 s l w v H Hw Hv Hz) as (r & E & W & S & B).
  exists r. repeat (split; [assumption|]). rewrite B. apply expand_length. assumption.
Qed.
Print Assumptions C15_expand.
Theorem C15_lengths : forall L, 1 <= L ->
  seed_wv (Z.of_nat L) = (Z.of_nat (bp_w L), Z.of_nat (bp_v L)) /\ bp_w L + 160 * bp_v L = L - 1 /\ bp_w L + 1 + 160 * bp_v L = L /\
  bp_w L + 1 <= 160.
Proof.
  intros L H. split; [apply seed_wv_ok; assumption|]. pose proof (bp_split L H) as (A & B).
  split; [exact A|]. split; [|]; clear - A B H; lia.
Qed.
Print Assumptions C15_lengths.
(** RFC 5639 section 2: Seed_p_192 gives the prime of brainpoolP192r1, which is 317
    above the expanded integer. *)
Example C15_p192 : (do sd <- brainpool_gen_seed_argument (txt "2299F31D0082EFA98EC4E6C89452821E638D0137") 192;
   hash_i nojunk false (bseed sd) (bw sd + 1) (bv sd)) = Ok (0xC302F41D932A36CDA7A3463093D18DB78FCE476DE1A86297 - 317)%Z.
Proof. vm_compute. reflexivity. Qed.

(** For L <= 160 the array hashout has length 0, undefined in ISO C. *)
Theorem C15_zero_length_array_refuted : forall junk s l w, okbp s l -> brainpool_hash junk false s w 0 = UB.
Proof. exact hash_v0. Qed.
Print Assumptions C15_zero_length_array_refuted.
Example C15_zero_length_array_ex : exists sd, brainpool_gen_seed_argument std_seed 160 = Ok sd /\
  brainpool_hash nojunk false (bseed sd) (bw sd) (bv sd) = UB.
Proof. eexists. split; [vm_compute; reflexivity|vm_compute; reflexivity]. Qed.

(** ** C16: [prp] is what nextprime recognises (every prime, perhaps some
    pseudoprimes). The chain starts at the held seed, or the next one if an update
    is pending. *)
Theorem C16_field : forall nextprime isprime (prp : Z -> Prop),
  (forall x, (x <= nextprime x)%Z /\ prp (nextprime x) /\ forall q, (x <= q < nextprime x)%Z -> ~ prp q) ->
  (forall p, isprime p = true <-> prime p) -> (forall p, prime p -> prp p) ->
  forall junk vla0 L fuel sd l p sd', size_ok L vla0 -> holds sd l L ->
  brainpool_gen_field junk vla0 nextprime isprime fuel (Z.of_nat L) sd = Ok (p, sd') ->
  exists k, let s := bp_seed (if bupd sd then bp_seed l 1 else l) in
    holds sd' (s k) L /\ bupd sd' = true /\
    bit_prime L p /\ (p mod 4 = 3)%Z /\ least3 prime (bp_c (s k) L) p /\
    forall j, j < k -> exists q, least3 prp (bp_c (s j) L) q /\ ~ bit_prime L q.
Proof.
  intros np ip prp H1 H2 H3 junk vla0 L fuel sd l p sd' HL HH H.
  destruct (gen_field_ok np ip prp H1 H2 junk vla0 L fuel HL sd l p sd' HH H) as (k & K1 & K2 & K3 & K4 & K5).
  exists k. cbv zeta. unfold start in *. split; [exact K1|]. split; [exact K2|]. split; [exact K3|].
  split; [apply K4|]. split; [|exact K5]. eapply least3_weaken; [exact H3|exact K4|apply K3].
Qed.
Print Assumptions C16_field.

(** With an exact nextprime: every earlier seed of the chain gives no L-bit prime. *)
Theorem C16_field_exact : forall nextprime isprime,
  (forall x, (x <= nextprime x)%Z /\ prime (nextprime x) /\ forall q, (x <= q < nextprime x)%Z -> ~ prime q) ->
  (forall p, isprime p = true <-> prime p) ->
  forall junk vla0 L fuel sd l p sd', size_ok L vla0 -> holds sd l L ->
  brainpool_gen_field junk vla0 nextprime isprime fuel (Z.of_nat L) sd = Ok (p, sd') ->
  exists k, let s := bp_seed (if bupd sd then bp_seed l 1 else l) in
    holds sd' (s k) L /\ bit_prime L p /\ least3 prime (bp_c (s k) L) p /\
    forall j q, j < k -> least3 prime (bp_c (s j) L) q -> ~ bit_prime L q.
Proof.
  intros np ip H1 H2 junk vla0 L fuel sd l p sd' HL HH H.
  destruct (C16_field np ip prime H1 H2 (fun _ X => X) junk vla0 L fuel sd l p sd' HL HH H) as (k & K1 & K2 & K3 & K4 & K5 & K6).
  exists k. cbv zeta in *. split; [exact K1|]. split; [exact K3|]. split; [exact K5|].
  intros j q Hj HQ. destruct (K6 j Hj) as (q' & Q1 & Q2). rewrite (least3_unique _ _ _ _ HQ Q1). exact Q2.
Qed.
Print Assumptions C16_field_exact.

(** The result depends on the initial seed only. *)
Theorem C16_deterministic : forall nextprime isprime (prp : Z -> Prop),
  (forall x, (x <= nextprime x)%Z /\ prp (nextprime x) /\ forall q, (x <= q < nextprime x)%Z -> ~ prp q) ->
  (forall p, isprime p = true <-> prime p) -> (forall p, prime p -> prp p) ->
  forall L l junk1 vla1 fuel1 sd1 p1 sd1' junk2 vla2 fuel2 sd2 p2 sd2', size_ok L vla1 -> size_ok L vla2 ->
  holds sd1 l L -> holds sd2 l L -> bupd sd1 = bupd sd2 ->
  brainpool_gen_field junk1 vla1 nextprime isprime fuel1 (Z.of_nat L) sd1 = Ok (p1, sd1') ->
  brainpool_gen_field junk2 vla2 nextprime isprime fuel2 (Z.of_nat L) sd2 = Ok (p2, sd2') ->
  p1 = p2 /\ exists l', holds sd1' l' L /\ holds sd2' l' L.
Proof.
  intros np ip prp H1 H2 H3 L l j1 v1 f1 sd1 p1 sd1' j2 v2 f2 sd2 p2 sd2' HL1 HL2 HH1 HH2 EU R1 R2.
  destruct (gen_field_ok np ip prp H1 H2 j1 v1 L f1 HL1 sd1 l p1 sd1' HH1 R1) as (k1 & A1 & _ & A3 & A4 & A5).
  destruct (gen_field_ok np ip prp H1 H2 j2 v2 L f2 HL2 sd2 l p2 sd2' HH2 R2) as (k2 & B1 & _ & B3 & B4 & B5).
  unfold start in *. rewrite <- EU in *. set (s := bp_seed (if bupd sd1 then bp_seed l 1 else l)) in *.
  assert (E : k1 = k2).
  { destruct (Nat.lt_trichotomy k1 k2) as [Lt|[E|Gt]]; [exfalso|exact E|exfalso].
    - destruct (B5 k1 Lt) as (q & Q1 & Q2). rewrite (least3_unique _ _ _ _ Q1 A4) in Q2. contradiction.
    - destruct (A5 k2 Gt) as (q & Q1 & Q2). rewrite (least3_unique _ _ _ _ Q1 B4) in Q2. contradiction. }
  subst k2. split; [apply (least3_unique _ _ _ _ A4 B4)|]. exists (s k1). split; assumption.
Qed.
Print Assumptions C16_deterministic.

(** If the chain contains a seed that gives an L-bit prime, the step ends. *)
Theorem C16_progress : forall nextprime isprime (prp : Z -> Prop),
  (forall x, (x <= nextprime x)%Z /\ prp (nextprime x) /\ forall q, (x <= q < nextprime x)%Z -> ~ prp q) ->
  (forall p, isprime p = true <-> prime p) ->
  forall junk vla0 L k sd l p, size_ok L vla0 -> holds sd l L ->
  let s := bp_seed (if bupd sd then bp_seed l 1 else l) in
  (forall j, j <= k -> exists q, prp q /\ (q mod 4 = 3)%Z /\ (bp_c (s j) L < q)%Z) ->
  least3 prp (bp_c (s k) L) p -> bit_prime L p ->
  exists fuel, isOk (brainpool_gen_field junk vla0 nextprime isprime fuel (Z.of_nat L) sd).
Proof. intros np ip prp H1 H2 junk vla0 L k sd l p HL HH s. apply (gen_field_total np ip prp H1 H2 junk vla0 L HL k sd l p HH). Qed.
Print Assumptions C16_progress.

(** The contract can be met (Primes.next_prime), and a run with trial division:
    seed 15, L = 9: eight seeds are rejected, then p = 331. *)
Example C16_contract : exists nextprime isprime,
  (forall x, (x <= nextprime x)%Z /\ prime (nextprime x) /\ forall q, (x <= q < nextprime x)%Z -> ~ prime q) /\
  (forall p, isprime p = true <-> prime p).
Proof. exists next_prime, isprime_b. split; [exact next_prime_ok|exact isprime_b_ok]. Qed.
Fixpoint np_small (fuel : nat) (x : Z) : Z :=
  match fuel with O => x | S f => if isprime_b x then x else np_small f (x + 1) end.
Example C16_ex : (do sd <- brainpool_gen_seed_argument (txt "000000000000000000000000000000000000000F") 9;
   do r <- brainpool_gen_field nojunk true (np_small 100) isprime_b 20 9 sd;
   do h <- bits_to_hex (bseed (snd r)); Ok (fst r, h)) = Ok (331%Z, txt "0000000000000000000000000000000000000017").
Proof. vm_compute. reflexivity. Qed.

(** ** C17 *)
Theorem C17_original : forall Fp_invsafe Fp_sqrtn Fp_issquare p, (0 < p)%Z -> (p mod 2 = 1)%Z ->
  (forall x y, Fp_invsafe x p = Some y -> ((x * y) mod p = 1 mod p)%Z) ->
  (forall x, Fp_invsafe x p = None -> forall y, ((x * y) mod p <> 1 mod p)%Z) ->
  (forall x z, Fp_sqrtn x 4%Z p = Some z -> (z ^ 4 mod p = x mod p)%Z) ->
  (forall x, Fp_sqrtn x 4%Z p = None -> forall z, (z ^ 4 mod p <> x mod p)%Z) ->
  (forall x, Fp_issquare x p = true <-> is_square x p) ->
  forall junk vla0 L fuel sd l a b sd', size_ok L vla0 -> holds sd l L ->
  brainpool_gen_equation junk vla0 Fp_invsafe Fp_sqrtn Fp_issquare fuel p sd = Ok (a, b, sd') ->
  exists i, let c := fun j => bp_coeff (bp_seed (if bupd sd then bp_seed l 1 else l) j) L in
    a = (c i mod p)%Z /\ b = (c (i + 1)%nat mod p)%Z /\
    good_a (c i) p /\ is_square (c (i + 1)) p /\ nonsingular (c i) (c (i + 1)) p /\
    tried (fun i => good_a (c i) p) (fun i j => is_square (c j) p /\ nonsingular (c i) (c j) p) i /\
    holds sd' (bp_seed (if bupd sd then bp_seed l 1 else l) (i + 1)) L /\ bupd sd' = true.
Proof.
  intros inv rt sq p Hp Ho H1 H2 H3 H4 H5 junk vla0 L fuel sd l a b sd' HL HH H.
  assert (SL : List.length (start sd l) = 160) by (apply start_length; apply HH).
  destruct (gen_equation_ok inv rt sq p Hp Ho H1 H2 H3 H4 H5 L vla0 HL (start sd l) junk fuel 0 sd l a b sd' HH)
    as (i & I1 & I2 & (I3 & I4) & I5 & I6 & I7 & I8); [symmetry; apply bp_seed_0; assumption|constructor|assumption|].
  exists i. cbv zeta. unfold start in *. split; [exact I5|]. split; [exact I6|]. split; [exact I2|]. split; [exact I3|].
  split; [exact I4|]. split; [exact I1|]. split; [exact I7|exact I8].
Qed.
Print Assumptions C17_original.

Theorem C17_original_progress : forall Fp_invsafe Fp_sqrtn Fp_issquare p, (0 < p)%Z -> (p mod 2 = 1)%Z ->
  (forall x y, Fp_invsafe x p = Some y -> ((x * y) mod p = 1 mod p)%Z) ->
  (forall x, Fp_invsafe x p = None -> forall y, ((x * y) mod p <> 1 mod p)%Z) ->
  (forall x z, Fp_sqrtn x 4%Z p = Some z -> (z ^ 4 mod p = x mod p)%Z) ->
  (forall x, Fp_sqrtn x 4%Z p = None -> forall z, (z ^ 4 mod p <> x mod p)%Z) ->
  (forall x, Fp_issquare x p = true <-> is_square x p) ->
  forall junk vla0 L sd l i, size_ok L vla0 -> holds sd l L ->
  let c := fun j => bp_coeff (bp_seed (if bupd sd then bp_seed l 1 else l) j) L in
  tried (fun i => good_a (c i) p) (fun i j => is_square (c j) p /\ nonsingular (c i) (c j) p) i ->
  good_a (c i) p -> is_square (c (i + 1)) p -> nonsingular (c i) (c (i + 1)) p ->
  exists fuel, isOk (brainpool_gen_equation junk vla0 Fp_invsafe Fp_sqrtn Fp_issquare fuel p sd).
Proof.
  intros inv rt sq p Hp Ho H1 H2 H3 H4 H5 junk vla0 L sd l i HL HH c T A B D.
  assert (SL : List.length (start sd l) = 160) by (apply start_length; apply HH).
  apply (gen_equation_total inv rt sq p Hp Ho H1 H2 H3 H4 H5 L vla0 HL (start sd l) junk sd l i HH).
  - symmetry. apply bp_seed_0. assumption.
  - exact T.
  - exact A.
  - split; assumption.
Qed.
Print Assumptions C17_original_progress.

Theorem C17_rfc : forall Fp_invsafe Fp_sqrtn Fp_issquare p, (0 < p)%Z -> (p mod 2 = 1)%Z ->
  (forall x y, Fp_invsafe x p = Some y -> ((x * y) mod p = 1 mod p)%Z) ->
  (forall x, Fp_invsafe x p = None -> forall y, ((x * y) mod p <> 1 mod p)%Z) ->
  (forall x z, Fp_sqrtn x 4%Z p = Some z -> (z ^ 4 mod p = x mod p)%Z) ->
  (forall x, Fp_sqrtn x 4%Z p = None -> forall z, (z ^ 4 mod p <> x mod p)%Z) ->
  (forall x, Fp_issquare x p = true <-> is_square x p) ->
  forall junk vla0 L fuel sd l a b sd', size_ok L vla0 -> holds sd l L ->
  brainpool_rfc_gen_equation junk vla0 Fp_invsafe Fp_sqrtn Fp_issquare fuel p sd = Ok (a, b, sd') ->
  exists i j, let c := fun j => bp_coeff (bp_seed (if bupd sd then bp_seed l 1 else l) j) L in
    a = (c i mod p)%Z /\ b = (c j mod p)%Z /\ i < j /\
    good_a (c i) p /\ ~ is_square (c j) p /\ (forall k, i < k < j -> is_square (c k) p) /\ nonsingular (c i) (c j) p /\
    tried_rfc (fun i => good_a (c i) p) (fun j => ~ is_square (c j) p) (fun i j => nonsingular (c i) (c j) p) i /\
    holds sd' (bp_seed (if bupd sd then bp_seed l 1 else l) j) L /\ bupd sd' = true.
Proof.
  intros inv rt sq p Hp Ho H1 H2 H3 H4 H5 junk vla0 L fuel sd l a b sd' HL HH H.
  assert (SL : List.length (start sd l) = 160) by (apply start_length; apply HH).
  destruct (rfc_gen_equation_ok inv rt sq p Hp Ho H1 H2 H3 H4 H5 L vla0 HL (start sd l) junk fuel 0 sd l a b sd' HH)
    as (i & j & I1 & I2 & I3 & I4 & I5 & I6 & I7 & I8 & I9 & I10); [symmetry; apply bp_seed_0; assumption|constructor|assumption|].
  exists i, j. cbv zeta. unfold start in *. split; [exact I7|]. split; [exact I8|]. split; [exact I3|]. split; [exact I2|].
  split; [exact I4|]. split; [|split; [exact I6|split; [exact I1|split; [exact I9|exact I10]]]].
  intros k Hk. specialize (I5 k Hk). unfold Bnsq, cf in I5.
  pose proof (H5 (bp_coeff (bp_seed (if bupd sd then bp_seed l 1 else l) k) L)) as S.
  destruct (sq (bp_coeff (bp_seed (if bupd sd then bp_seed l 1 else l) k) L) p); [apply S; reflexivity|].
  exfalso. apply I5. intros C. apply S in C. discriminate.
Qed.
Print Assumptions C17_rfc.

(** Instances of the PARI functions for small p, and a run of both steps modulo 331,
    continuing the chain of C16_ex. *)
Definition root4_small (x n p : Z) : option Z := find_z (fun y => (y ^ n) mod p =? x mod p)%Z p.
Definition c17_sd : res bp_t :=
  do sd <- brainpool_gen_seed_argument (txt "000000000000000000000000000000000000000F") 9;
  do r <- brainpool_gen_field nojunk true (np_small 100) isprime_b 20 9 sd; Ok (snd r).
Example C17_ex : exists a b sd, (do sd <- c17_sd; brainpool_gen_equation nojunk true inv_small root4_small issq_small 50 331 sd) = Ok (a, b, sd) /\
  (issq_small b 331 = true) /\ root4_small (-3 * match inv_small a 331 with Some y => y | None => 0 end) 4 331 <> None.
Proof.
  eexists _, _, _. split; [vm_compute; reflexivity|]. split; [vm_compute; reflexivity|]. vm_compute. discriminate.
Qed.
Example C17_rfc_ex : exists a b sd, (do sd <- c17_sd; brainpool_rfc_gen_equation nojunk true inv_small root4_small issq_small 50 331 sd) = Ok (a, b, sd) /\
  (issq_small b 331 = false) /\ root4_small (-3 * match inv_small a 331 with Some y => y | None => 0 end) 4 331 <> None.
Proof.
  eexists _, _, _. split; [vm_compute; reflexivity|]. split; [vm_compute; reflexivity|]. vm_compute. discriminate.
Qed.
Lemma find_z_none f p : find_z f p = None -> forall y, (0 <= y < p)%Z -> f y = false.
Proof.
  intros H y Hy. apply (find_none _ _ H). apply in_map_iff. exists (Z.to_nat y). split; [lia|]. apply in_seq. lia.
Qed.
Example C17_contract : forall p, (0 < p)%Z ->
  (forall x y, inv_small x p = Some y -> ((x * y) mod p = 1 mod p)%Z) /\
  (forall x, inv_small x p = None -> forall y, ((x * y) mod p <> 1 mod p)%Z) /\
  (forall x z, root4_small x 4%Z p = Some z -> (z ^ 4 mod p = x mod p)%Z) /\
  (forall x, root4_small x 4%Z p = None -> forall z, (z ^ 4 mod p <> x mod p)%Z) /\
  (forall x, issq_small x p = true <-> is_square x p).
Proof.
  intros p Hp.
  assert (PW : forall z, (z ^ 4 mod p = (z mod p) ^ 4 mod p)%Z) by (intros z; apply Zpower_mod; assumption).
  split; [intros x y; apply inv_small_ok|]. split.
  { intros x H y C. pose proof (find_z_none _ _ H (y mod p)%Z (Z.mod_pos_bound y p Hp)) as F. cbv beta in F.
    apply Z.eqb_neq in F. apply F. rewrite Zmult_mod_idemp_r. exact C. }
  split. { intros x z H. apply find_some in H. apply Z.eqb_eq. apply H. }
  split.
  { intros x H z C. pose proof (find_z_none _ _ H (z mod p)%Z (Z.mod_pos_bound z p Hp)) as F. cbv beta in F.
    apply Z.eqb_neq in F. apply F. rewrite <- PW. exact C. }
  intros x. split.
  - intros H. exists (sqrt_small x p). apply issq_small_ok. assumption.
  - intros (y & Y). unfold issq_small. destruct (find_z _ p) eqn:E; [reflexivity|].
    pose proof (find_z_none _ _ E (y mod p)%Z (Z.mod_pos_bound y p Hp)) as F. cbv beta in F.
    apply Z.eqb_neq in F. exfalso. apply F. rewrite <- Zmult_mod. exact Y.
Qed.

(** ** C18: [ord] is the multiplicative order of p modulo n. *)
Theorem C18_order : forall n p, (brainpool_check_order n p = 1%Z <-> (n < p)%Z) /\
  (brainpool_check_order n p = 1 \/ brainpool_check_order n p = -4)%Z.
Proof. exact check_order_ok. Qed.
Print Assumptions C18_order.
Theorem C18_embedding : forall znorder p n, (0 < n)%Z ->
  (p <> n -> (0 < znorder p n /\ p ^ znorder p n mod n = 1 mod n /\ forall l, 0 < l < znorder p n -> p ^ l mod n <> 1 mod n)%Z) ->
  (brainpool_check_gens znorder p n = 1%Z <-> p <> n /\ forall l, (0 < l)%Z -> (p ^ l mod n = 1 mod n)%Z -> (n - 1 < 100 * l)%Z) /\
  (brainpool_check_gens znorder p n = 1 \/ brainpool_check_gens znorder p n = -5)%Z.
Proof.
  intros zn p n Hn HZ. destruct (Z.eq_dec p n) as [->|NE].
  - unfold brainpool_check_gens, gens_get_embedding. rewrite Z.eqb_refl, Z.quot_div_nonneg by lia.
    destruct (Z.leb_spec 0 ((n - 1) / 100)) as [H|H]; [|assert (0 <= (n - 1) / 100)%Z by (apply Z.div_pos; lia); lia].
    split; [|auto]. split; [discriminate|]. intros (C & _). contradiction.
  - destruct (HZ NE) as (Z1 & Z2 & Z3). destruct (check_gens_ok zn p n Hn NE) as (A & B). split; [|exact B].
    rewrite A. split.
    + intros H. split; [assumption|]. intros l L1 L2. destruct (Z.lt_ge_cases l (zn p n)) as [Lt|Ge]; [|clear - H Ge; lia].
      exfalso. apply (Z3 l); [lia|assumption].
    + intros (_ & H). apply H; assumption.
Qed.
Print Assumptions C18_embedding.
(** the order of 349 modulo 331 is 110, that of 362 is 3 *)
Example C18_ex : (let zn := fun p _ => if p =? 349 then 110 else 3 in
  brainpool_check_gens zn 349 331 = 1 /\ brainpool_check_gens zn 362 331 = -5 /\
  349 ^ 110 mod 331 = 1 /\ forallb (fun l => negb (349 ^ Z.of_nat l mod 331 =? 1)) (seq 1 109) = true /\ 362 ^ 3 mod 331 = 1 /\
  brainpool_check_order 331 331 = -4 /\ brainpool_check_order 330 331 = 1)%Z.
Proof. vm_compute. repeat split. Qed.

(** ** C63 *)
Theorem C63_generator : forall (Pt : Type) (point : Z -> Z -> Pt) ellordinate ellmul ellorder junk vla0 L fuel rbit N sd l G n h k sd',
  size_ok L vla0 -> holds sd l L ->
  brainpool_gen_gens junk vla0 point ellordinate ellmul ellorder fuel rbit N sd = Ok (Some (G, n, h, k), sd') ->
  k = bp_coeff (bp_seed l 1) L /\ holds sd' (bp_seed l 1) L /\ bupd sd' = bupd sd /\
  (exists x y, (0 <= x)%Z /\ In y (ellordinate x) /\ (forall z, (0 <= z < x)%Z -> ellordinate z = []) /\ G = ellmul (point x y) k) /\
  n = ellorder G /\ h = (N / n)%Z.
Proof. intros Pt. exact gen_gens_ok. Qed.
Print Assumptions C63_generator.
(** y^2 = x^3 + 3 modulo 7 has no point with x = 0 and two with x = 1; "points" are
    (x, y, multiplier). *)
Definition ord7 (x : Z) : list Z := filter (fun y => (y * y) mod 7 =? (x ^ 3 + 3) mod 7)%Z (map Z.of_nat (seq 0 7)).
Example C63_ex : exists k, (do sd <- brainpool_gen_seed_argument std_seed 9;
  do r <- brainpool_gen_gens nojunk true (fun x y => (x, y, 1%Z)) ord7 (fun P k => (fst P, snd P * k)%Z) (fun _ => 13%Z) 9 false 13 sd; Ok (fst r)) =
  Ok (Some ((1, 5, k), 13, 1, k)%Z) /\ (1 < k)%Z.
Proof. eexists. split; vm_compute; reflexivity. Qed.
