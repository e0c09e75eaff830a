(** C49: the order p + 1 reported by the supersingular method is the number of points of the
    curve it constructs. *)
From Coq Require Import Znumtheory Zpow_facts.
From Verif Require Import Base Primes Fp Fp_Orbits Supersingular_Model.
Local Open Scope Z_scope.

(** ** What the theorems are about *)
(** y^2 = x^3 + a x + b is an elliptic curve modulo p (odd) *)
Definition nonsingular (p a b : Z) : Prop := ~ (p | 4 * a ^ 3 + 27 * b ^ 2).
(** its invariant is r *)
Definition has_invariant (p a b r : Z) : Prop := (p | 1728 * (4 * a ^ 3) - r * (4 * a ^ 3 + 27 * b ^ 2)).
(** every curve with invariant r has p + 1 points *)
Definition supersingular_invariant (p r : Z) : Prop := forall a b, nonsingular p a b -> has_invariant p a b r -> points p a b = p + 1.

(** What is asked of PARI. [kronecker]: for an odd prime q it is one less than the number of square
    roots modulo q. [nextprime] gives a prime. The class polynomial of discriminant -q, for a prime
    q = 3 mod 4 other than 3 modulo which p is no square, has a root modulo p, and its roots are
    invariants of supersingular curves (Deuring). *)
Definition kronecker_ok (kronecker : Z -> Z -> Z) : Prop := forall a q, prime q -> q <> 2 -> kronecker a q = roots q a - 1.
Definition nextprime_ok (nextprime : Z -> Z) : Prop := forall n, prime (nextprime n) /\ n <= nextprime n.
Definition class_roots_ok (p : Z) (class_roots : Z -> Z -> list Z) : Prop := forall q, prime q -> q mod 4 = 3 -> 3 < q -> roots q p = 0 ->
  class_roots q p <> [] /\ forall r, In r (class_roots q p) -> 0 <= r < p /\ supersingular_invariant p r.

(** ** Proof *)
Lemma prime_3 : prime 3. Proof. apply isprime_b_ok. vm_compute. reflexivity. Qed.
Lemma roots_3 p : p mod 3 = 2 -> roots 3 p = 0.
Proof. intros M. rewrite (roots_mod 3 p 2) by exact M. reflexivity. Qed.
Lemma roots_3' p : prime p -> p <> 3 -> roots 3 p = 0 -> p mod 3 = 2.
Proof.
  intros P O R. pose proof (Z.mod_pos_bound p 3 ltac:(lia)). destruct (Z.eq_dec (p mod 3) 2) as [|C]; [assumption|exfalso].
  assert (p mod 3 = 0 \/ p mod 3 = 1) as [E|E] by lia.
  - rewrite (roots_mod 3 p 0) in R by exact E. discriminate R.
  - rewrite (roots_mod 3 p 1) in R by exact E. discriminate R.
Qed.
Lemma not_divide_small p n : prime p -> 0 < n < p -> ~ (p | n).
Proof. intros P H. exact (unit_not_divide p P n H). Qed.
Lemma odd_prime_4 p : prime p -> p <> 2 -> p mod 4 <> 3 -> p mod 4 = 1.
Proof.
  intros P O M. pose proof (Z.mod_pos_bound p 4 ltac:(lia)). pose proof (Z.div_mod p 4 ltac:(lia)). destruct (Z.eq_dec (p mod 4) 1) as [E|E]; [exact E|exfalso; apply O].
  assert (D : (2 | p)).
  { assert (p mod 4 = 0 \/ p mod 4 = 2) as [F|F] by lia; rewrite F in *; [exists (p / 4 * 2); lia|exists (p / 4 * 2 + 1); lia]. }
  pose proof (prime_ge_2 p P). destruct (prime_divisors p P 2 D) as [H2|[H2|[H2|H2]]]; lia.
Qed.

Lemma no_divide_smooth p c l : prime p -> (forall q, In q l -> 0 < q < p) -> c = fold_right Z.mul 1 l -> ~ (p | c).
Proof. intros P L ->. apply (product_unit p P). intros x X. apply (unit_not_divide p P). now apply L. Qed.
Lemma mod_congruent p x : prime p -> (p | x mod p - x).
Proof. intros P. apply (mod_eq p P). apply Z.mod_mod. pose proof (prime_ge_2 p P). lia. Qed.

(** a root is neither 0 nor 1728 when p = 1 modulo 12 *)
Lemma root_not_0 p r : prime p -> p mod 4 = 1 -> p mod 3 = 1 -> supersingular_invariant p r -> ~ (p | r).
Proof.
  intros P M4 M3 S D. assert (3 < p).
  { pose proof (prime_ge_2 p P). destruct (Z.eq_dec p 2) as [->|]; [discriminate|]. destruct (Z.eq_dec p 3) as [->|]; [discriminate|]. lia. }
  apply (zero_not_supersingular p P M3). apply S.
  - unfold nonsingular. apply (no_divide_smooth p _ [3; 3; 3] P); [|reflexivity]. intros q [<-|[<-|[<-|[]]]]; lia.
  - unfold has_invariant. replace (1728 * (4 * 0 ^ 3) - r * (4 * 0 ^ 3 + 27 * 1 ^ 2)) with (r * -27) by ring. now apply Z.divide_mul_l.
Qed.
Lemma root_not_1728 p r : prime p -> p mod 4 = 1 -> supersingular_invariant p r -> ~ (p | 1728 - r).
Proof.
  intros P M4 S D. assert (2 < p).
  { pose proof (prime_ge_2 p P). destruct (Z.eq_dec p 2) as [->|]; [discriminate|]. lia. }
  apply (j1728_not_supersingular p P M4). apply S.
  - unfold nonsingular. change (4 * (-1) ^ 3 + 27 * 0 ^ 2) with (- (4)). rewrite Z.divide_opp_r. apply (no_divide_smooth p _ [2; 2] P); [|reflexivity]. intros q [<-|[<-|[]]]; lia.
  - unfold has_invariant. replace (1728 * (4 * (-1) ^ 3) - r * (4 * (-1) ^ 3 + 27 * 0 ^ 2)) with ((1728 - r) * -4) by ring. now apply Z.divide_mul_l.
Qed.
Lemma fp_div_ok x y p : prime p -> ~ (p | y) -> exists a, fp_div x y p = Ok a /\ 0 <= a < p /\ (p | y * a - x).
Proof.
  intros P D. pose proof (prime_ge_2 p P). unfold fp_div. destruct (Z.eqb_spec (y mod p) 0) as [E|E].
  - exfalso. apply D. apply Z.mod_divide; [lia|exact E].
  - eexists. split; [reflexivity|]. split; [apply Z.mod_pos_bound; lia|]. set (a := x * y ^ (p - 2)).
    pose proof (fermat p P y D) as F. apply (mod_eq p P) in F. destruct F as [k F]. destruct (mod_congruent p a P) as [m Hm].
    exists (y * m + x * k). replace (y * (a mod p) - x) with (y * (a mod p - a) + (y * a - x)) by ring. rewrite Hm.
    replace (y * a) with (x * y ^ (p - 1)); [replace (x * y ^ (p - 1) - x) with (x * (y ^ (p - 1) - 1)) by ring; rewrite F; ring|].
    unfold a. replace (p - 1) with (Z.succ (p - 2)) by lia. rewrite Z.pow_succ_r by lia. ring.
Qed.

(** the coefficient computed from a root *)
Lemma root_curve p r : prime p -> 3 < p -> ~ (p | r) -> ~ (p | 1728 - r) ->
  exists a, fp_div (fp_mul 27 r p) (fp_mul 4 (fp_sub 1728 r p) p) p = Ok a /\ 0 <= a < p /\ nonsingular p a (- a) /\ has_invariant p a (- a) r.
Proof.
  intros P L R0 R1. set (y := fp_mul 4 (fp_sub 1728 r p) p).
  assert (Y : (p | y - 4 * (1728 - r))).
  { unfold y, fp_mul, fp_sub. replace ((4 * ((1728 - r) mod p)) mod p) with ((4 * (1728 - r)) mod p) by now rewrite Zmult_mod_idemp_r. now apply mod_congruent. }
  assert (P4 : ~ (p | 4)) by (apply (no_divide_smooth p _ [2; 2] P); [intros q [<-|[<-|[]]]; lia|reflexivity]).
  assert (P27 : ~ (p | 27)) by (apply (no_divide_smooth p _ [3; 3; 3] P); [intros q [<-|[<-|[<-|[]]]]; lia|reflexivity]).
  assert (P1728 : ~ (p | 1728)) by (apply (no_divide_smooth p _ [2; 2; 2; 2; 2; 2; 3; 3; 3] P); [cbn [In]; intros q Hq; lia|reflexivity]).
  assert (Dy : ~ (p | y)).
  { intros D. assert (D2 : (p | 4 * (1728 - r))) by (replace (4 * (1728 - r)) with (y - (y - 4 * (1728 - r))) by ring; now apply Z.divide_sub_r).
    destruct (no_zero_div p P _ _ D2); contradiction. }
  destruct (fp_div_ok (fp_mul 27 r p) y p P Dy) as (a & A1 & A2 & A3). exists a. split; [exact A1|]. split; [exact A2|].
  assert (X : (p | 4 * (1728 - r) * a - 27 * r)).
  { replace (4 * (1728 - r) * a - 27 * r) with ((y * a - fp_mul 27 r p) - (y - 4 * (1728 - r)) * a + (fp_mul 27 r p - 27 * r)) by ring.
    apply Z.divide_add_r; [apply Z.divide_sub_r; [exact A3|now apply Z.divide_mul_l]|]. unfold fp_mul. now apply mod_congruent. }
  assert (A0 : ~ (p | a)).
  { intros D. assert (D2 : (p | 27 * r)) by (replace (27 * r) with (4 * (1728 - r) * a - (4 * (1728 - r) * a - 27 * r)) by ring; apply Z.divide_sub_r; [now apply Z.divide_mul_r|exact X]).
    destruct (no_zero_div p P _ _ D2); contradiction. }
  assert (S : ~ (p | 4 * a + 27)).
  { intros D. assert (D2 : (p | 27 * 1728)) by (replace (27 * 1728) with ((1728 - r) * (4 * a + 27) - (4 * (1728 - r) * a - 27 * r)) by ring; apply Z.divide_sub_r; [now apply Z.divide_mul_r|exact X]).
    destruct (no_zero_div p P _ _ D2); contradiction. }
  split.
  - unfold nonsingular. replace (4 * a ^ 3 + 27 * (- a) ^ 2) with (a * (a * (4 * a + 27))) by ring. intros D.
    destruct (no_zero_div p P _ _ D) as [|D1]; [contradiction|]. destruct (no_zero_div p P _ _ D1); contradiction.
  - unfold has_invariant. replace (1728 * (4 * a ^ 3) - r * (4 * a ^ 3 + 27 * (- a) ^ 2)) with ((4 * (1728 - r) * a - 27 * r) * a ^ 2) by ring. now apply Z.divide_mul_l.
Qed.

Section Proof.
Variable kronecker : Z -> Z -> Z.
Variable nextprime : Z -> Z.
Variable class_roots : Z -> Z -> list Z.
Hypothesis K : kronecker_ok kronecker.
Hypothesis N : nextprime_ok nextprime.

Lemma find_q_ok fuel : forall p q q', prime q -> 3 <= q -> find_q kronecker nextprime fuel p q = Ok q' ->
  prime q' /\ 3 <= q' /\ q' mod 4 = 3 /\ kronecker p q' = -1 /\ (q = 3 -> q' <> 3 -> kronecker p 3 <> -1).
Proof.
  induction fuel as [|fuel IH]; intros p q q' Q L H; cbn [find_q] in H; [discriminate|].
  destruct ((q mod 4 =? 3) && (kronecker p q =? -1)) eqn:E.
  - assert (q' = q) by congruence. subst. apply andb_true_iff in E. destruct E as [E1 E2]. apply Z.eqb_eq in E1, E2. refine (conj Q (conj L (conj E1 (conj E2 _)))). intros A B. contradiction.
  - destruct (N (q + 1)) as [N1 N2]. apply IH in H; [|exact N1|lia]. destruct H as (H1 & H2 & H3 & H4 & _). refine (conj H1 (conj H2 (conj H3 (conj H4 _)))).
    intros -> _ C. rewrite C in E. discriminate E.
Qed.
Lemma gen_equation_ok fuel p : (p mod 4 = 1 -> p mod 3 = 1 -> class_roots_ok p class_roots) -> prime p -> p <> 2 ->
  gen_equation kronecker nextprime class_roots fuel p = Fuel \/
  exists a b, gen_equation kronecker nextprime class_roots fuel p = Ok (Some (a, b)) /\ 0 <= a < p /\ 0 <= b < p /\ nonsingular p a b /\ points p a b = p + 1.
Proof.
  intros C P O. pose proof (prime_ge_2 p P) as L2. unfold gen_equation. destruct (Z.eqb_spec p 2); [contradiction|].
  destruct (Z.eqb_spec (p mod 4) 3) as [M|M].
  - right. eexists _, _. split; [reflexivity|]. rewrite Zmod_0_l, Z.mod_small by lia. repeat split; try lia; [|now apply points_odd].
    unfold nonsingular. replace (4 * (p - 1) ^ 3 + 27 * 0 ^ 2) with (4 * (p - 1) ^ 3) by ring. intros D.
    apply (no_divide_smooth p (4 * (p - 1) ^ 3) [2; 2; p - 1; p - 1; p - 1] P); [cbn [In]; intros q Hq; lia|cbn [fold_right]; ring|exact D].
  - apply odd_prime_4 in M; [|exact P|exact O]. assert (L3 : 3 < p) by (assert (p <> 3) by (intros ->; discriminate); lia).
    destruct (find_q kronecker nextprime fuel p 3) as [q| | |] eqn:F; cbn [bind]; [|exfalso|now left|exfalso].
    + right. apply find_q_ok in F; [|apply prime_3|lia]. destruct F as (Q1 & Q2 & Q3 & Q4 & Q5). destruct (Z.eqb_spec q 3) as [->|Q].
      * eexists _, _. split; [reflexivity|]. rewrite Zmod_0_l, Z.mod_small by lia. repeat split; try lia.
        -- unfold nonsingular. apply (no_divide_smooth p _ [3; 3; 3] P); [cbn [In]; intros z Hz; lia|reflexivity].
        -- apply points_cube; [exact P|]. rewrite K in Q4 by (apply prime_3 || lia). apply roots_3'; [exact P|lia|lia].
      * rewrite K in Q4 by (assumption || lia).
        assert (M3 : p mod 3 = 1).
        { specialize (Q5 eq_refl Q). rewrite K in Q5 by (apply prime_3 || lia). pose proof (Z.mod_pos_bound p 3 ltac:(lia)).
          destruct (Z.eq_dec (p mod 3) 2) as [E|E]; [rewrite roots_3 in Q5 by exact E; lia|]. destruct (Z.eq_dec (p mod 3) 0) as [E0|E0]; [|lia].
          exfalso. apply Z.mod_divide in E0; [|lia]. destruct (prime_divisors p P 3 E0) as [T|[T|[T|T]]]; lia. }
        destruct (C M M3 q Q1 Q3 ltac:(lia) ltac:(lia)) as [C1 C2].
        destruct (class_roots q p) as [|r rest]; [congruence|]. destruct (C2 r (or_introl eq_refl)) as [R1 R2].
        destruct (root_curve p r P L3 (root_not_0 p r P M M3 R2) (root_not_1728 p r P M R2)) as (a & A1 & A2 & A3 & A4). rewrite A1. cbn [bind].
        eexists _, _. split; [reflexivity|]. rewrite (Z.mod_small a) by lia. pose proof (Z.mod_pos_bound (- a) p ltac:(lia)). repeat split; try lia.
        -- unfold nonsingular in *. intros D. apply A3. destruct (mod_congruent p (- a) P) as [m Hm]. destruct D as [d D]. set (b := (- a) mod p) in *.
           exists (d - 27 * m * (b - a)). replace (4 * a ^ 3 + 27 * (- a) ^ 2) with (4 * a ^ 3 + 27 * b ^ 2 - 27 * ((b - - a) * (b - a))) by ring. rewrite D, Hm. ring.
        -- rewrite (points_mod p P a a ((- a) mod p) (- a)); [|reflexivity|now rewrite Z.mod_mod by lia]. now apply R2.
    + clear - F. revert F. generalize 3. induction fuel as [|fuel IH]; intros q F; cbn [find_q] in F; [discriminate|]. destruct (_ && _); [discriminate|]. exact (IH _ F).
    + clear - F. revert F. generalize 3. induction fuel as [|fuel IH]; intros q F; cbn [find_q] in F; [discriminate|]. destruct (_ && _); [discriminate|]. exact (IH _ F).
Qed.
End Proof.

(** ** Theorems *)
(** Whenever the construction ends, the curve has as many points as the order that is reported; no
    error and no bad memory access occurs on the way. (For p = 1 mod 12, given the theory of class
    polynomials as stated above; otherwise outright, and then the construction ends: see below.) *)
Theorem C49_order : forall kronecker nextprime class_roots fuel p, kronecker_ok kronecker -> nextprime_ok nextprime ->
  (p mod 4 = 1 -> p mod 3 = 1 -> class_roots_ok p class_roots) -> prime p -> p <> 2 ->
  gen_equation kronecker nextprime class_roots fuel p = Fuel \/
  exists a b, gen_equation kronecker nextprime class_roots fuel p = Ok (Some (a, b)) /\
    0 <= a < p /\ 0 <= b < p /\ nonsingular p a b /\ points p a b = gen_order p.
Proof. intros k n c fuel p K N C P O. exact (gen_equation_ok k n c K N fuel p C P O). Qed.
Print Assumptions C49_order.

(** The same without the theory of class polynomials, for three quarters of the primes. *)
Theorem C49_elementary : forall kronecker nextprime class_roots fuel p, kronecker_ok kronecker -> nextprime_ok nextprime -> prime p -> p mod 4 = 3 \/ p mod 3 = 2 -> p <> 2 ->
  exists a b, gen_equation kronecker nextprime class_roots (S fuel) p = Ok (Some (a, b)) /\ nonsingular p a b /\ points p a b = gen_order p.
Proof.
  intros k n c fuel p K N P M O. pose proof (prime_ge_2 p P) as L2. unfold gen_equation. destruct (Z.eqb_spec p 2); [contradiction|].
  destruct (Z.eqb_spec (p mod 4) 3) as [M4|M4].
  - eexists _, _. split; [reflexivity|]. rewrite Zmod_0_l, Z.mod_small by lia. split; [|now apply points_odd].
    unfold nonsingular. intros D. apply (no_divide_smooth p (4 * (p - 1) ^ 3 + 27 * 0 ^ 2) [2; 2; p - 1; p - 1; p - 1] P); [cbn [In]; intros q Hq; lia|cbn [fold_right]; ring|exact D].
  - destruct M as [M|M]; [contradiction|]. apply odd_prime_4 in M4; [|exact P|exact O]. assert (L3 : 3 < p) by (assert (p <> 3) by (intros ->; discriminate); lia).
    cbn [find_q]. rewrite K by (apply prime_3 || lia). rewrite roots_3 by exact M.
    change ((3 mod 4 =? 3) && (0 - 1 =? -1)) with true. cbn [bind]. change (3 =? 3) with true. cbv beta iota. eexists _, _. split; [reflexivity|]. rewrite Zmod_0_l, Z.mod_small by lia.
    split; [|now apply points_cube]. unfold nonsingular. apply (no_divide_smooth p _ [3; 3; 3] P); [cbn [In]; intros z Hz; lia|reflexivity].
Qed.
Print Assumptions C49_elementary.

(** p = 2 is refused. *)
Theorem C49_two : forall kronecker nextprime class_roots fuel, gen_equation kronecker nextprime class_roots fuel 2 = Ok None.
Proof. reflexivity. Qed.
Print Assumptions C49_two.

(** ** Examples *)
(** p = 7 (3 mod 4), p = 5 (2 mod 3), and p = 13, for which q = 7 and the class polynomial of
    discriminant -7 is x + 3375, with the root 5 *)
Example kron a q := roots q a - 1.
Example kron_ok : kronecker_ok kron. Proof. intros a q _ _. reflexivity. Qed.
Example next_ok : nextprime_ok next_prime. Proof. intros n. destruct (next_prime_ok n) as (A & B & _). auto. Qed.
Example nextp (n : Z) : Z := if n =? 4 then 5 else 7.
Example find_13 : find_q kron nextp 5 13 3 = Ok 7. Proof. vm_compute. reflexivity. Qed.
Example curves : map (gen_equation kron nextp (fun _ p => [(-3375) mod p]) 5) [2; 3; 7; 5; 13] = map Ok [None; Some (2, 0); Some (6, 0); Some (0, 1); Some (9, 4)].
Proof. vm_compute. reflexivity. Qed.
Example curves_points : [points 3 2 0; points 7 6 0; points 5 0 1; points 13 9 4] = map gen_order [3; 7; 5; 13]. Proof. vm_compute. reflexivity. Qed.
(** 5 is a supersingular invariant modulo 13: all the curves with it have 14 points *)
Example root_13 : forallb (fun a => forallb (fun b => ((4 * a ^ 3 + 27 * b ^ 2) mod 13 =? 0) || negb ((1728 * (4 * a ^ 3) - 5 * (4 * a ^ 3 + 27 * b ^ 2)) mod 13 =? 0) || (points 13 a b =? 14)) (elements 13)) (elements 13) = true.
Proof. vm_compute. reflexivity. Qed.

Example prime_13 : prime 13. Proof. apply isprime_b_ok. vm_compute. reflexivity. Qed.
Example contract_13 : class_roots_ok 13 (fun _ _ => [5]).
Proof.
  intros q _ _ _ _. split; [discriminate|]. intros r [<-|[]]. split; [lia|]. intros a b NS I.
  rewrite (points_mod 13 prime_13 a (a mod 13) b (b mod 13)) by now rewrite Z.mod_mod by lia.
  pose proof root_13 as T. rewrite forallb_forall in T. specialize (T (a mod 13) (mod_in 13 prime_13 a)). rewrite forallb_forall in T. specialize (T (b mod 13) (mod_in 13 prime_13 b)).
  assert (A : ((a mod 13) ^ 3) mod 13 = a ^ 3 mod 13) by (symmetry; apply Zpower_mod; lia). assert (B : ((b mod 13) ^ 2) mod 13 = b ^ 2 mod 13) by (symmetry; apply Zpower_mod; lia).
  apply (mod_eq 13 prime_13) in A, B. destruct A as [k A], B as [l B]. apply orb_true_iff in T. destruct T as [T|T]; [apply orb_true_iff in T; destruct T as [T|T]|now apply Z.eqb_eq in T].
  - exfalso. apply Z.eqb_eq, Z.mod_divide in T; [|lia]. apply NS. destruct T as [t T]. exists (t - 4 * k - 27 * l). lia.
  - exfalso. apply negb_true_iff, Z.eqb_neq in T. apply T. apply Z.mod_divide; [lia|]. destruct I as [i I]. exists (i + 1723 * 4 * k - 5 * 27 * l). lia.
Qed.
