(** Model of src/cm/supersingular.c: the construction of a curve over F_p with p + 1 points.
    The field prime is the parameter [p]; the coefficients are represented by integers modulo p. *)
From Verif Require Import Base.
Local Open Scope Z_scope.

(** PARI's [Fp_div(x, y, p)] for a prime p: x times the inverse of y; an error (which ends the run)
    when y is zero modulo p. The inverse is written here as a power. *)
Definition fp_div (x y p : Z) : res Z := if y mod p =? 0 then Abort else Ok ((x * y ^ (p - 2)) mod p).
(** PARI's [Fp_mul] and [Fp_sub] *)
Definition fp_mul (x y p : Z) : Z := (x * y) mod p.
Definition fp_sub (x y p : Z) : Z := (x - y) mod p.

Section Supersingular.
(** PARI's [kronecker], [nextprime], and the composition of [polclass(-q, 0, 0)] with
    [FpX_roots(., p)]: the roots modulo p of the class polynomial of discriminant -q. *)
Variable kronecker : Z -> Z -> Z.
Variable nextprime : Z -> Z.
Variable class_roots : Z -> Z -> list Z.

(** supersingular.c:16-19: the search for q, which is unbounded *)
Fixpoint find_q (fuel : nat) (p q : Z) : res Z :=
  match fuel with
  | O => Fuel
  | S fuel => if (q mod 4 =? 3) && (kronecker p q =? -1) then Ok q else find_q fuel p (nextprime (q + 1))
  end.

(** supersingular.c:7-38, [supersingular_gen_equation]: [None] is the result -2, [Some (a, b)] the
    result 1 with the coefficients set. [gel(r, 1)] of an empty vector is a read out of bounds. *)
Definition gen_equation (fuel : nat) (p : Z) : res (option (Z * Z)) :=
  if p =? 2 then Ok None
  else if p mod 4 =? 3 then Ok (Some ((p - 1) mod p, 0 mod p))
  else
    do q <- find_q fuel p 3;
    if q =? 3 then Ok (Some (0 mod p, 1 mod p))
    else
      match class_roots q p with
      | [] => UB
      | root :: _ =>
        do a <- fp_div (fp_mul 27 root p) (fp_mul 4 (fp_sub 1728 root p) p) p;
        Ok (Some (a mod p, (- a) mod p))
      end.
End Supersingular.

(** supersingular.c:40-45, [supersingular_gen_order] *)
Definition gen_order (p : Z) : Z := p + 1.
