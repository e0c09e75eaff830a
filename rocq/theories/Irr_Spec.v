(** C42: polynomials over GF(2) as coefficient lists, constant term first, and irreducibility. *)
From Verif Require Import Base.
Local Open Scope Z_scope.

(** the coefficient of x^n, read modulo 2 *)
Definition coef (c : list Z) (n : nat) : bool := Z.odd (nth n c 0).
(** the coefficient of x^n in the product: the sum of a_i b_(n-i) *)
Definition conv (a b : nat -> bool) (n : nat) : bool :=
  fold_right xorb false (map (fun i => a i && b (n - i)%nat) (seq 0 (S n))).
Definition is_product (c a b : list Z) : Prop := forall n, coef c n = conv (coef a) (coef b) n.
Definition constant (a : list Z) : Prop := forall n, (0 < n)%nat -> coef a n = false.
Definition degree_at_most (k : nat) (a : list Z) : Prop := forall n, (k < n)%nat -> coef a n = false.
(** not constant, and only trivial factorisations *)
Definition irreducible_poly (c : list Z) : Prop :=
  ~ constant c /\ forall a b, is_product c a b -> constant a \/ constant b.
(** every polynomial that is not a multiple of [c] has an inverse modulo [c]: a b + c q = 1 *)
Definition quotient_field (c : list Z) : Prop :=
  forall a, (forall q, ~ is_product a c q) ->
  exists b q, forall n, xorb (conv (coef a) (coef b) n) (conv (coef c) (coef q) n) = (n =? 0)%nat.
