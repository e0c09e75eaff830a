(** Model of the choice of a discriminant for any order and of the construction of a curve in src/cm/cm_any.c. *)
From Verif Require Import Base.
Local Open Scope Z_scope.

Section Minimal.
(** PARI: [issquarefree], [quaddisc] (the discriminant of the field of the square root), [isprime]; and the traces of
    the elements of norm [order] listed by [bnfisintnorm] in the maximal order of discriminant D *)
Variable issquarefree : Z -> bool.
Variable quaddisc : Z -> Z.
Variable norm_traces : Z -> Z -> list Z.
Variable isprime : Z -> bool.

(** cm_any.c:36-49: the first element with order + 1 - trace prime *)
Fixpoint prime_trace (order : Z) (traces : list Z) : option Z :=
  match traces with
  | [] => None
  | trace :: traces => let p := order + 1 - trace in if isprime p then Some p else prime_trace order traces
  end.
(** cm_any.c:17-53, [good_qdisc_minimal]; the result is (D, p). One unit of fuel per value of d. *)
Fixpoint minimal_from (fuel : nat) (order d : Z) : res (Z * Z) :=
  match fuel with
  | O => Fuel
  | S fuel =>
      if issquarefree d then
        let D := quaddisc (- d) in
        match prime_trace order (norm_traces D order) with
        | Some p => Ok (D, p)
        | None => minimal_from fuel order (d + 1)
        end
      else minimal_from fuel order (d + 1)
  end.
Definition good_qdisc_minimal (fuel : nat) (order : Z) : res (Z * Z) := minimal_from fuel order 2.
End Minimal.

Section Construct.
Variable curve point : Type.
(** PARI: the roots of the class polynomial modulo p; the curve of an invariant ([None]: [checkell] raises an error, for
    instance for a singular curve); the quadratic twist; a random point (a function of the random numbers); whether a
    multiple of a point, computed with the equation of the given curve, is the point at infinity; the number of points *)
Variable class_roots : Z -> Z -> list Z.
Variable curve_of : Z -> Z -> option curve.
Variable twist : curve -> curve.
Variable random_point : curve -> Z -> point.
Variable mul_is_inf : curve -> point -> Z -> bool.
Variable card : curve -> Z.

(** cm_any.c:189-208: the loop for composite orders. [n] counts the random draws. Lines 199 and 203 multiply the point of
    the twist on [e], not on the twist. *)
Fixpoint choose (fuel : nat) (rnd : nat -> Z) (n : nat) (e t : curve) (orig_mul twist_mul : Z) : res curve :=
  match fuel with
  | O => Fuel
  | S fuel =>
      let orig_point := random_point e (rnd n) in
      if mul_is_inf e orig_point orig_mul then Ok e
      else if mul_is_inf e orig_point twist_mul then Ok t
      else
        let twist_point := random_point t (rnd (S n)) in
        if mul_is_inf e twist_point twist_mul then Ok e
        else if mul_is_inf e twist_point orig_mul then Ok t
        else choose fuel rnd (S (S n)) e t orig_mul twist_mul
  end.

(** cm_any.c:151-211: the first root that gives a curve decides *)
Fixpoint try_roots (fuel : nat) (rnd : nat -> Z) (order p : Z) (ord_prime : bool) (roots : list Z) : res (option curve) :=
  match roots with
  | [] => Ok None
  | root :: roots =>
      match curve_of root p with
      | None => try_roots fuel rnd order p ord_prime roots
      | Some e =>
          if ord_prime then
            if mul_is_inf e (random_point e (rnd 0%nat)) order then Ok (Some e) else Ok (Some (twist e))
          else
            let twist_order := p + 1 - (order - (p + 1)) in
            let gcd := Z.gcd order twist_order in
            let orig_mul := Z.quot order gcd in
            let twist_mul := Z.quot twist_order gcd in
            do c <- choose fuel rnd 0 e (twist e) orig_mul twist_mul; Ok (Some c)
      end
  end.
(** cm_any.c:136-212, [cm_construct_curve]. Lines 145-148 compare a column of roots with the row vector [0]; they are
    never equal. *)
Definition cm_construct_curve (fuel : nat) (rnd : nat -> Z) (order d p : Z) (ord_prime : bool) : res (option curve) :=
  try_roots fuel rnd order p ord_prime (class_roots d p).

(** cm_any.c:228-244 *)
Fixpoint try_roots_subgroup (r p : Z) (roots : list Z) : option curve :=
  match roots with
  | [] => None
  | root :: roots =>
      match curve_of root p with
      | None => try_roots_subgroup r p roots
      | Some e => if card e mod r =? 0 then Some e else try_roots_subgroup r p roots
      end
  end.
(** cm_any.c:214-247, [cm_construct_curve_subgroup], for r <> 0 *)
Definition cm_construct_curve_subgroup (r d p : Z) : option curve := try_roots_subgroup r p (class_roots d p).
End Construct.
