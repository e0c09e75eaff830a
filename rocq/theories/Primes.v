(** Facts about primes used to show that the contracts assumed for PARI's prime
    functions can be met. Nothing here models /repo. *)
From Coq Require Import Znumtheory ConstructiveEpsilon Factorial.
From Verif Require Import Base.
Local Open Scope Z_scope.

(** Trial division. *)
Definition isprime_b (p : Z) : bool :=
  (2 <=? p) && forallb (fun d => negb (p mod Z.of_nat d =? 0)) (seq 2 (Z.to_nat p - 2)).

Lemma isprime_b_ok p : isprime_b p = true <-> prime p.
Proof.
  unfold isprime_b. rewrite andb_true_iff, forallb_forall, Z.leb_le. split.
  - intros (H & F). apply prime_alt. split; [lia|]. intros n Hn D.
    specialize (F (Z.to_nat n)). rewrite Z2Nat.id in F by lia.
    apply Z.mod_divide in D; [|lia]. rewrite D in F. cbn in F. discriminate F. apply in_seq. lia.
  - intros H. apply prime_alt in H. destruct H as (H1 & H2). split; [lia|]. intros d Hd. apply in_seq in Hd.
    apply negb_true_iff, Z.eqb_neq. intros C. apply (H2 (Z.of_nat d)); [lia|]. apply Z.mod_divide; [lia|assumption].
Qed.

Lemma prime_factor n : 1 < n -> exists p, prime p /\ (p | n).
Proof.
  intros H. assert (G : forall m, 0 <= m -> 1 < m -> exists p, prime p /\ (p | m)); [|apply G; lia].
  apply (Z_lt_induction (fun m => 1 < m -> exists p, prime p /\ (p | m))).
  intros m IH Hm. destruct (prime_dec m) as [P|P]; [exists m; split; [exact P|apply Z.divide_refl]|].
  apply not_prime_divide in P; [|assumption]. destruct P as (d & Hd & D).
  destruct (IH d) as (p & P1 & P2); [lia|lia|]. exists p. split; [assumption|]. apply Z.divide_trans with d; assumption.
Qed.

Lemma divides_fact n : forall d, (1 <= d <= n)%nat -> (Z.of_nat d | Z.of_nat (fact n)).
Proof.
  induction n as [|n IH]; intros d Hd; [lia|]. change (fact (S n)) with (S n * fact n)%nat. rewrite Nat2Z.inj_mul.
  destruct (Nat.eq_dec d (S n)) as [->|].
  - apply Z.divide_factor_l.
  - apply Z.divide_mul_r. apply IH. lia.
Qed.

Lemma primes_unbounded n : exists p, prime p /\ Z.of_nat n < p.
Proof.
  destruct (prime_factor (Z.of_nat (fact n) + 1)) as (p & P & D).
  { pose proof (lt_O_fact n). lia. }
  exists p. split; [assumption|]. destruct (Z.lt_ge_cases (Z.of_nat n) p) as [L|L]; [assumption|exfalso].
  pose proof (prime_ge_2 p P) as P2. pose proof (divides_fact n (Z.to_nat p)) as F. rewrite Z2Nat.id in F by lia.
  assert (D1 : (p | 1)).
  { replace 1 with (Z.of_nat (fact n) + 1 - Z.of_nat (fact n)) by lia. apply Z.divide_sub_r; [assumption|apply F; lia]. }
  apply Z.divide_1_r_nonneg in D1; lia.
Qed.

(** The smallest prime >= x. *)
Lemma next_dec x : forall n, {prime (x + Z.of_nat n)} + {~ prime (x + Z.of_nat n)}.
Proof. intros n. apply prime_dec. Qed.
Lemma next_ex x : exists n, prime (x + Z.of_nat n).
Proof.
  destruct (primes_unbounded (Z.to_nat (Z.abs x))) as (p & P & H). exists (Z.to_nat (p - x)).
  rewrite Z2Nat.id by lia. replace (x + (p - x)) with p by ring. exact P.
Qed.
Definition next_prime (x : Z) : Z :=
  x + Z.of_nat (proj1_sig (epsilon_smallest (fun n => prime (x + Z.of_nat n)) (next_dec x) (next_ex x))).

Theorem next_prime_ok x : x <= next_prime x /\ prime (next_prime x) /\ forall q, x <= q < next_prime x -> ~ prime q.
Proof.
  unfold next_prime. destruct (epsilon_smallest (fun n => prime (x + Z.of_nat n)) (next_dec x) (next_ex x)) as (n & P & M). cbn [proj1_sig].
  split; [lia|]. split; [exact P|]. intros q Hq C.
  specialize (M (Z.to_nat (q - x))). rewrite Z2Nat.id in M by lia.
  replace (x + (q - x)) with q in M by ring. specialize (M C). lia.
Qed.
