(** The Brainpool procedure over bit strings and integers, without reference to
    the model. *)
From Coq Require Import Znumtheory.
From Verif Require Import Base Sha1_Spec Ansi_Spec.
Local Open Scope Z_scope.

(** The seed after i updates: the 160-bit string of (z + i) mod 2^160. *)
Definition bp_seed (s : list bool) (i : nat) : list bool :=
  be 160 (Z.to_N ((bval s + Z.of_nat i) mod 2 ^ 160)).

(** The w rightmost bits of SHA-1(s), then SHA-1 of s+1, ..., s+v. *)
Definition bp_expand (s : list bool) (w v : nat) : list bool :=
  rightmost w (sha1 s) ++ flat_map (fun i => sha1 (bp_seed s i)) (seq 1 v).

(** v = floor((L-1)/160), w = L - 160v - 1 *)
Definition bp_v (L : nat) : nat := ((L - 1) / 160)%nat.
Definition bp_w (L : nat) : nat := (L - 160 * bp_v L - 1)%nat.

(** The integers obtained from a seed for the field and for the coefficients. *)
Definition bp_c (s : list bool) (L : nat) : Z := bval (bp_expand s (bp_w L + 1) (bp_v L)).
Definition bp_coeff (s : list bool) (L : nat) : Z := bval (bp_expand s (bp_w L) (bp_v L)).

(** [p] is the least number above [c] that is 3 mod 4 and has property [P]. *)
Definition least3 (P : Z -> Prop) (c p : Z) : Prop :=
  c < p /\ P p /\ p mod 4 = 3 /\ forall q, c < q < p -> q mod 4 = 3 -> ~ P q.

(** L-bit primes *)
Definition bit_prime (L : nat) (p : Z) : Prop := prime p /\ 2 ^ (Z.of_nat L - 1) <= p < 2 ^ Z.of_nat L.

Definition is_square (x p : Z) : Prop := exists y, (y * y) mod p = x mod p.
(** a z^4 = -3 has a solution, a a unit *)
Definition good_a (a p : Z) : Prop := (exists y, (a * y) mod p = 1 mod p) /\ exists z, (a * z ^ 4) mod p = (-3) mod p.
Definition nonsingular (a b p : Z) : Prop := (4 * a ^ 3 + 27 * b ^ 2) mod p <> 0.

(** Candidate positions in the seed chain for the coefficient a, original
    procedure: b uses the seed after that of a; after a rejected b the search for a
    goes on with the following seed. *)
Inductive tried (A : nat -> Prop) (B : nat -> nat -> Prop) : nat -> Prop :=
| tried_0 : tried A B 0
| tried_a i : tried A B i -> ~ A i -> tried A B (i + 1)
| tried_b i : tried A B i -> A i -> ~ B i (i + 1)%nat -> tried A B (i + 2).
(** RFC 5639: b uses the first later seed that gives a non-square. *)
Inductive tried_rfc (A : nat -> Prop) (N : nat -> Prop) (D : nat -> nat -> Prop) : nat -> Prop :=
| rfct_0 : tried_rfc A N D 0
| rfct_a i : tried_rfc A N D i -> ~ A i -> tried_rfc A N D (i + 1)
| rfct_b i j : tried_rfc A N D i -> A i -> (i < j)%nat -> N j -> (forall k, (i < k < j)%nat -> ~ N k) -> ~ D i j ->
    tried_rfc A N D (j + 1).
