(** C30: the subgroup listings are exactly the divisors. *)
From Coq Require Import Znumtheory Sorted.
From Verif Require Import Base Primes Factor Subgroup_Model Subgroup_Proofs.
Local Open Scope Z_scope.

(** [l] lists, in strictly increasing order, exactly the integers satisfying [P]. *)
Definition lists (P : Z -> Prop) (l : list Z) : Prop :=
  StronglySorted Z.lt l /\ forall d, In d l <-> P d.

(** fewer than 63 prime factors, counted with multiplicity *)
Definition few_factors (n : Z) : Prop :=
  forall ps, Forall prime ps -> fold_right Z.mul 1 ps = n -> (length ps < 63)%nat.

Section C30.
  Context (Z_factor : Z -> list (Z * Z)) (isprime : Z -> bool).
  (** the contracts of PARI's functions *)
  Hypothesis factor_ok : forall n, 0 < n -> factorization n (Z_factor n).
  Hypothesis isprime_ok : forall n, isprime n = true <-> prime n.

  Lemma not_prime n : isprime n = false -> ~ prime n.
  Proof. intros E P. apply isprime_ok in P. congruence. Qed.

  Lemma divisors_of_prime n : prime n -> lists (fun d => 1 < d /\ (d | n)) [n].
  Proof.
    intros P. pose proof (prime_ge_2 n P). split; [repeat constructor|]. intros d. split.
    - intros [<-|[]]. split; [lia|apply Z.divide_refl].
    - intros (L & D). left. destruct (prime_divisors n P d D) as [|[|[|]]]; lia.
  Qed.

  Lemma divisors_length n : 0 < n -> ~ prime n -> n <> 1 -> (2 <= length (subgroups_divisors Z_factor n))%nat.
  Proof.
    intros H NP N1. destruct (factorization_expand n (Z_factor n) (factor_ok n H)) as (P & E).
    fold (expand (Z_factor n)) in *. change (subgroups_divisors Z_factor n) with (expand (Z_factor n)).
    pose proof (zprod_small _ P) as (Z1 & Z2). rewrite E in *.
    destruct (length (expand (Z_factor n))) as [|[|k]]; [exfalso; tauto|exfalso; tauto|lia].
  Qed.

  Theorem C30_all n : 1 < n -> few_factors n ->
    exists l, subgroups_all Z_factor isprime n = Ok (Some l) /\ lists (fun d => 1 < d /\ (d | n)) l.
  Proof.
    intros H Few. unfold subgroups_all. destruct (isprime n) eqn:E.
    - exists [n]. split; [reflexivity|]. apply divisors_of_prime, isprime_ok, E.
    - apply not_prime in E. pose proof (divisors_length n ltac:(lia) E ltac:(lia)) as L.
      destruct (factorization_expand n (Z_factor n) (factor_ok n ltac:(lia))) as (P & Ep).
      change (subgroups_divisors Z_factor n) with (expand (Z_factor n)) in *.
      rewrite two_n_factors by (try apply (Few _ P Ep); lia). eexists. split; [reflexivity|].
      split; [apply gtoset_sorted|]. intros d. rewrite gtoset_in, in_map_iff. split.
      + intros (rb & <- & I). apply filter_In in I. destruct I as (I & B). unfold big in B.
        pose proof (subsets_divide _ _ I) as D. rewrite Ep in D. split; [|exact D].
        destruct (subsets_primes _ P _ I) as (ps & P1 & P2 & P3).
        pose proof (zprod_small ps P1) as (Z1 & _). pose proof (zprod_ge ps P1).
        assert (zprod ps <> 1) by (intros C; apply Z1 in C; lia). lia.
      + intros (Ld & D). rewrite <- Ep in D. destruct (divides_subset _ P d ltac:(lia) D) as (b & I).
        exists (d, b). split; [reflexivity|]. apply filter_In. split; [assumption|]. unfold big. cbn [snd].
        destruct (subsets_primes _ P _ I) as (ps & P1 & P2 & P3). cbn [fst snd] in P2, P3.
        pose proof (zprod_small ps P1) as (Z1 & _).
        assert (length ps <> 0%nat) by (intros C; apply Z1 in C; lia). lia.
  Qed.

  Theorem C30_prime n : 1 < n -> lists (fun d => prime d /\ (d | n)) (subgroups_prime Z_factor isprime n).
  Proof.
    intros H. unfold subgroups_prime. destruct (isprime n) eqn:E.
    - apply isprime_ok in E. pose proof (divisors_of_prime n E) as (S & I). split; [assumption|].
      intros d. rewrite I. split; [intros (A & B)|intros (A & B)].
      + split; [|exact B]. destruct (prime_divisors n E d B) as [|[|[|]]]; try lia. subst. exact E.
      + pose proof (prime_ge_2 d A). split; [lia|assumption].
    - apply factorization_divisors, factor_ok. lia.
  Qed.

  (** NULL stands for the empty list here: points_gen_nonprime (point.c:164) skips it. *)
  Theorem C30_nonprime n : 1 < n -> few_factors n ->
    exists l, subgroups_nonprime Z_factor isprime n = Ok l /\
      lists (fun d => 1 < d /\ ~ prime d /\ (d | n)) (match l with Some l => l | None => [] end).
  Proof.
    intros H Few. unfold subgroups_nonprime. destruct (isprime n) eqn:E.
    - apply isprime_ok in E. exists None. split; [reflexivity|]. split; [constructor|]. intros d. split; [intros []|].
      intros (A & B & D). apply B. destruct (prime_divisors n E d D) as [|[|[|]]]; try lia. subst. exact E.
    - apply not_prime in E. pose proof (divisors_length n ltac:(lia) E ltac:(lia)) as L.
      destruct (factorization_expand n (Z_factor n) (factor_ok n ltac:(lia))) as (P & Ep).
      change (subgroups_divisors Z_factor n) with (expand (Z_factor n)) in *.
      rewrite two_n_factors by (try apply (Few _ P Ep); lia). eexists. split; [reflexivity|].
      split; [apply gtoset_sorted|]. intros d. rewrite gtoset_in, in_map_iff. split.
      + intros (rb & <- & I). apply filter_In in I. destruct I as (I & B). unfold big in B.
        pose proof (subsets_divide _ _ I) as D. rewrite Ep in D.
        destruct (subsets_primes _ P _ I) as (ps & P1 & P2 & P3).
        pose proof (zprod_small ps P1) as (Z1 & Z2). pose proof (zprod_ge ps P1).
        assert (zprod ps <> 1) by (intros C; apply Z1 in C; lia).
        split; [lia|]. split; [|exact D]. rewrite <- P2. intros C. apply Z2 in C. lia.
      + intros (Ld & NP & D). rewrite <- Ep in D. destruct (divides_subset _ P d ltac:(lia) D) as (b & I).
        exists (d, b). split; [reflexivity|]. apply filter_In. split; [assumption|]. unfold big. cbn [snd].
        destruct (subsets_primes _ P _ I) as (ps & P1 & P2 & P3). cbn [fst snd] in P2, P3.
        pose proof (zprod_small ps P1) as (Z1 & Z2).
        assert (length ps <> 0%nat) by (intros C; apply Z1 in C; lia).
        assert (length ps <> 1%nat) by (intros C; apply Z2 in C; rewrite P2 in C; tauto). lia.
  Qed.
End C30.

(** From 63 prime factors on the listing stops with an error instead. *)
Theorem C30_many_refuted : exists n (Z_factor : Z -> list (Z * Z)) (isprime : Z -> bool),
  1 < n /\ (forall m, 0 < m -> factorization m (Z_factor m)) /\ (forall m, isprime m = true <-> prime m) /\
  ~ exists l, subgroups_all Z_factor isprime n = Ok (Some l).
Proof.
  exists (2 ^ 63), (fun m => if m =? 2 ^ 63 then [(2, 63)] else tfactor m), (fun m => if prime_dec m then true else false).
  split; [reflexivity|]. split; [|split].
  - intros m Hm. destruct (m =? 2 ^ 63) eqn:E; [|apply tfactor_ok; assumption]. apply Z.eqb_eq in E. subst m.
    split; [|split].
    + intros p e [[= <- <-]|[]]. split; [exact prime_2|reflexivity].
    + repeat constructor.
    + reflexivity.
  - intros m. destruct (prime_dec m); split; congruence || tauto.
  - intros (l & H). unfold subgroups_all in H. destruct (prime_dec (2 ^ 63)) as [P|P].
    + apply prime_divisors with (a := 2) in P; [vm_compute in P; intuition discriminate|]. exists (2 ^ 62). reflexivity.
    + cbv iota in H. unfold subgroups_divisors in H.
      replace (2 ^ 63 =? 2 ^ 63) with true in H by reflexivity. vm_compute in H. discriminate.
Qed.

(** A concrete case: all three listings of 12; 12 and every smaller number have few factors. *)
Example C30_case :
  subgroups_all tfactor isprime_b 12 = Ok (Some [2; 3; 4; 6; 12]) /\
  subgroups_prime tfactor isprime_b 12 = [2; 3] /\
  subgroups_nonprime tfactor isprime_b 12 = Ok (Some [4; 6; 12]) /\
  subgroups_nonprime tfactor isprime_b 13 = Ok None.
Proof. vm_compute. auto. Qed.
Lemma few_small n : n < 2 ^ 63 -> few_factors n.
Proof.
  intros H ps F E. assert (G : 2 ^ Z.of_nat (length ps) <= fold_right Z.mul 1 ps).
  { clear E. induction F as [|p ps P F IH]; cbn [length fold_right]; [lia|]. pose proof (prime_ge_2 p P).
    rewrite Nat2Z.inj_succ, Z.pow_succ_r by lia. nia. }
  rewrite E in G. assert (L : 2 ^ Z.of_nat (length ps) < 2 ^ 63) by lia.
  apply Z.pow_lt_mono_r_iff in L; lia.
Qed.
Example C30_instance : exists l, subgroups_all tfactor isprime_b 360 = Ok (Some l) /\ lists (fun d => 1 < d /\ (d | 360)) l.
Proof. apply (C30_all tfactor isprime_b tfactor_ok isprime_b_ok); [lia|]. apply few_small. lia. Qed.

Print Assumptions C30_all.
Print Assumptions C30_prime.
Print Assumptions C30_nonprime.
Print Assumptions C30_many_refuted.
