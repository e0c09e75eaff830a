(** Model of the generators of the CM method (--order): the curve for a prime order in src/cm/cm_prime.c, the curve for
    any order and the order itself in src/cm/cm_any.c. The texts of the orders are read as in Input_Model. *)
From Coq Require Import Ascii.
From Verif Require Import Base Cli_Model Input_Model CmPrime_Model CmAny_Model.
Local Open Scope Z_scope.

Section Generators.
(** PARI, see CmPrime_Model and CmAny_Model; [glog] is [ground(glog(order))] *)
Variable forprime : Z -> Z -> list Z.
Variable kronecker : Z -> Z -> Z.
Variable cornacchia2 : Z -> Z -> option (Z * Z).
Variable isprime : Z -> bool.
Variable glog : Z -> Z.
Variable issquarefree : Z -> bool.
Variable quaddisc : Z -> Z.
Variable norm_traces : Z -> Z -> list Z.
Variable curve point : Type.
Variable class_roots : Z -> Z -> list Z.
Variable curve_of : Z -> Z -> option curve.
Variable twist : curve -> curve.
Variable random_point : curve -> Z -> point.
Variable mul_is_inf : curve -> point -> Z -> bool.
Notation construct := (cm_construct_curve curve point class_roots curve_of twist random_point mul_is_inf).

(** src/cm/cm_prime.c:149-152: the loop over the discriminants; one unit of [rounds] for each of them, [fuel] bounds the
    search for one, [rnd] are the random numbers that the construction for one of them draws *)
Fixpoint curve_loop (rounds fuel : nat) (rnd : nat -> nat -> Z) (order : Z) (q : qdisc) : res (Z * curve) :=
  match rounds with
  | O => Fuel
  | S rounds =>
      do x <- qdisc_next forprime kronecker cornacchia2 isprime (glog order) order fuel q;
      let '(D, p, _, q) := x in
      do e <- construct fuel (rnd rounds) order D p true;
      match e with Some e => Ok (p, e) | None => curve_loop rounds fuel rnd order q end
  end.
(** src/cm/cm_prime.c:141-160, [cm_gen_curve_prime]: the field and the curve, whose coefficients are stored too, and the
    value that is returned; src/exhaustive/arg.h:14-18 for a missing argument *)
Definition cm_gen_curve_prime (rounds fuel : nat) (rnd : nat -> nat -> Z) (arg : option str) : res (option (Z * curve) * Z) :=
  match arg with
  | None => Ok (None, - 2 ^ 31)
  | Some order_s => do r <- curve_loop rounds fuel rnd (strtoi order_s) qdisc_init; Ok (Some r, 1)
  end.
(** src/cm/cm_any.c:250-269, [cm_gen_curve_any] *)
Definition cm_gen_curve_any (fuel : nat) (rnd : nat -> Z) (arg : option str) : res (option (Z * curve) * Z) :=
  match arg with
  | None => Ok (None, - 2 ^ 31)
  | Some order_s =>
      let order := strtoi order_s in
      do m <- good_qdisc_minimal issquarefree quaddisc norm_traces isprime fuel order;
      let '(d, p) := m in
      do e <- construct fuel rnd order d p false;
      match e with None => Ok (None, -3) | Some e => Ok (Some (p, e), 1) end
  end.
End Generators.
(** src/cm/cm_any.c:271-276, [cm_gen_order]: the order that is stored and the value that is returned *)
Definition cm_gen_order (arg : option str) : option Z * Z :=
  match arg with None => (None, - 2 ^ 31) | Some order_s => (Some (strtoi order_s), 1) end.
