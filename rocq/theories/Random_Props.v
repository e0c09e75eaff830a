(** C62: random integers and primes stay in the requested range. *)
From Coq Require Import Znumtheory.
From Verif Require Import Base Primes Random_Model.
Local Open Scope Z_scope.

(** [n] has exactly [b] bits. *)
Definition has_bits (n b : Z) : Prop := 2 ^ (b - 1) <= n < 2 ^ b.

Lemma genrand_range a b t : a <= b -> exists r, genrand a b t = Ok r /\ a <= r <= b.
Proof.
  intros H. unfold genrand. destruct (b <? a) eqn:E; [lia|]. eexists. split; [reflexivity|].
  pose proof (Z.mod_pos_bound t (b - a + 1) ltac:(lia)). lia.
Qed.

(** every value of the range can occur *)
Lemma genrand_any a b r : a <= r <= b -> genrand a b (r - a) = Ok r.
Proof.
  intros H. unfold genrand. destruct (b <? a) eqn:E; [lia|]. rewrite Z.mod_small by lia. f_equal. lia.
Qed.

Lemma range_ok bits : 1 <= bits < 2 ^ 63 -> range bits = (2 ^ (bits - 1), 2 ^ bits).
Proof.
  intros H. unfold range. rewrite u64_small by lia.
  assert (E : forall z, 0 <= z < 2 ^ 63 -> int2n (i64 z) = 2 ^ z).
  { intros z Hz. unfold i64. rewrite Z.mod_small by lia. replace (z + 2 ^ 63 - 2 ^ 63) with z by ring.
    unfold int2n. destruct (z <? 0) eqn:F; [lia|reflexivity]. }
  rewrite !E by lia. reflexivity.
Qed.

Lemma pow_double b : 1 <= b -> 2 ^ b = 2 * 2 ^ (b - 1).
Proof. intros H. replace b with (Z.succ (b - 1)) at 1 by lia. rewrite Z.pow_succ_r by lia. reflexivity. Qed.

(** The full claim is [has_bits r bits]; it fails for the outcome 2^bits only. *)
Theorem C62_int_partial bits t : 1 <= bits < 2 ^ 63 ->
  exists r, random_int bits t = Ok r /\ (has_bits r bits \/ r = 2 ^ bits).
Proof.
  intros H. unfold random_int. rewrite range_ok by assumption.
  pose proof (pow_double bits ltac:(lia)). pose proof (Z.pow_pos_nonneg 2 (bits - 1) ltac:(lia) ltac:(lia)).
  destruct (genrand_range (2 ^ (bits - 1)) (2 ^ bits) t) as (r & E & R); [lia|].
  exists r. split; [exact E|]. unfold has_bits. lia.
Qed.

(** 160 random bits, as used for seeds, can turn out as 2^160. *)
Theorem C62_int_refuted : exists bits t r, 1 <= bits /\ random_int bits t = Ok r /\ ~ has_bits r bits.
Proof.
  exists 160, (2 ^ 159), (2 ^ 160). split; [lia|]. split; [vm_compute; reflexivity|]. unfold has_bits. intros (_ & H). lia.
Qed.

Section C62.
  Context (randomprime : Z -> Z -> Z -> option Z) (isprime : Z -> bool).
  Hypothesis randomprime_ok : forall a b t p, randomprime a b t = Some p -> a <= p <= b.
  Hypothesis isprime_ok : forall n, isprime n = true <-> prime n.

  Lemma random_prime_in fuel bits : forall t p, random_prime randomprime isprime fuel bits t = Ok p ->
    prime p /\ fst (range bits) <= p <= snd (range bits).
  Proof.
    induction fuel as [|f IH]; intros t p H; cbn [random_prime] in H; [discriminate|].
    destruct (range bits) as (a, b) eqn:R. cbn [fst snd] in *.
    destruct (randomprime a b (t O)) as [q|] eqn:Q; [|discriminate].
    destruct (isprime q) eqn:I.
    - injection H as <-. split; [apply isprime_ok; assumption|]. apply randomprime_ok with (t O). assumption.
    - apply (IH _ _ H).
  Qed.

  (** A random prime of at least two bits has exactly the requested size. *)
  Theorem C62_prime fuel bits t p : 2 <= bits < 2 ^ 63 ->
    random_prime randomprime isprime fuel bits t = Ok p -> prime p /\ has_bits p bits.
  Proof.
    intros H E. apply random_prime_in in E. destruct E as (P & R). rewrite range_ok in R by lia. cbn [fst snd] in R.
    split; [assumption|]. unfold has_bits.
    assert (p <> 2 ^ bits); [|lia]. intros ->.
    assert (D : (2 | 2 ^ bits)) by (rewrite (pow_double bits) by lia; apply Z.divide_factor_l).
    pose proof (Z.pow_le_mono_r 2 2 bits ltac:(lia) ltac:(lia)).
    destruct (prime_divisors _ P 2 D) as [C|[C|[C|C]]]; lia.
  Qed.
End C62.

(** With one bit the only prime of the range is 2, which has two. *)
Theorem C62_prime_refuted : exists randomprime isprime fuel bits t p,
  (forall a b t p, randomprime a b t = Some p -> a <= p <= b) /\ (forall n, isprime n = true <-> prime n) /\
  1 <= bits /\ random_prime randomprime isprime fuel bits t = Ok p /\ ~ has_bits p bits.
Proof.
  exists (fun a b t => if (a <=? 2) && (2 <=? b) then Some 2 else None), isprime_b, 1%nat, 1, (fun _ => 0), 2.
  split; [|split; [exact isprime_b_ok|split; [lia|split; [vm_compute; reflexivity|]]]].
  - intros a b _ p H. destruct ((a <=? 2) && (2 <=? b)) eqn:E; [|discriminate]. injection H as <-. lia.
  - unfold has_bits. intros (_ & H). discriminate H.
Qed.

(** Half-open ranges: at least the lower bound and below the upper one; both equal is the
    one-element range (random_range returns it at line 69). *)
Theorem C62_range lower upper t : lower <= upper ->
  exists r, random_range lower upper t = Ok r /\ lower <= r /\ (lower < upper -> r < upper) /\ (lower = upper -> r = lower).
Proof.
  intros H. unfold random_range. destruct (lower =? upper) eqn:E.
  - exists lower. split; [reflexivity|]. lia.
  - destruct (genrand_range lower (upper - 1) t) as (r & G & R); [lia|]. exists r. split; [exact G|]. lia.
Qed.

(** every value of the half-open range can occur *)
Theorem C62_range_any lower upper r : lower <= r < upper -> exists t, random_range lower upper t = Ok r.
Proof.
  intros H. exists (r - lower). unfold random_range. destruct (lower =? upper) eqn:E; [lia|]. apply genrand_any. lia.
Qed.

Theorem C62_field_element field t : 0 < field -> exists r, random_field_element field t = Ok r /\ 0 <= r < field.
Proof. intros H. destruct (genrand_range 0 (field - 1) t) as (r & E & R); [lia|]. exists r. split; [exact E|lia]. Qed.

(** "b bits exactly", "at least lower": concrete outcomes. *)
Example C62_case : random_int 8 5 = Ok 133 /\ random_range 3 10 12 = Ok 8 /\ random_range 4 4 9 = Ok 4 /\
  random_prime (fun a b t => Some (a + t)) isprime_b 9 5 (fun i => Z.of_nat i) = Ok 17.
Proof. vm_compute. auto. Qed.

Print Assumptions C62_int_partial.
Print Assumptions C62_int_refuted.
Print Assumptions C62_prime.
Print Assumptions C62_prime_refuted.
Print Assumptions C62_range.
Print Assumptions C62_range_any.
Print Assumptions C62_field_element.
