(** Model of the twist method: /repo/src/math/twists.c, /repo/src/gen/curve.c and what the
    order generators of /repo/src/gen/order.c do with the curve they find.

    Not modelled: the coefficients of the twisted curve (the curve is an abstract object [E]),
    seeds and generators (twists.c:34-35, see the ownership model). *)
From Verif Require Import Base.
Local Open Scope Z_scope.

(** the field of a curve_t: a prime (typ t_INT) or an element of the binary field of the given
    degree (typ t_FFELT) *)
Inductive field_t := FPrime (p : Z) | FBinary (m : Z).

Section Twist.
  Context {E : Type}.
  (** PARI: elltwist + ellinit, and the number of points (what doellcard and ellsea compute) *)
  Context (elltwist : E -> E) (ellcard : E -> Z).

  (** the parts of curve_t the twist method touches: field, curve->curve, the cardinality cached
      in slot 1 of that PARI object, and curve->order *)
  Record tcurve := mkT { t_field : field_t; t_curve : option E; t_card : option Z; t_order : option Z }.

  (** src/gen/curve.c:8-35; the field has been (re)generated and ellinit gave [e], without a
      cached cardinality; curve->order is not touched *)
  Definition curve_gen_any (f : field_t) (e : E) (c : tcurve) : tcurve :=
    mkT f (Some e) None (t_order c).

  (** src/math/twists.c:9-30 with [to] = [of] *)
  Definition twist_rand (c : tcurve) : res tcurve :=
    match t_curve c with
    | None => UB
    | Some e =>
        let e' := elltwist e in
        match t_order c with
        | None => Ok (mkT (t_field c) (Some e') None None)
        | Some n =>
            let q := match t_field c with
                     | FPrime p => p * 2 + 2
                     | FBinary m => 2 ^ m * 2 + 2
                     end in
            Ok (mkT (t_field c) (Some e') (Some (q - n)) (Some (q - n)))
        end
    end.

  (** src/gen/curve.c:37-45 *)
  Definition curve_gen_any_twist (f : field_t) (e : E) (c : tcurve) : res tcurve :=
    twist_rand (curve_gen_any f e c).

  (** PARI's ellff_get_card: the cached cardinality, or a computed one *)
  Definition ellff_get_card (c : tcurve) : res Z :=
    match t_curve c with
    | None => UB
    | Some e => Ok (match t_card c with Some n => n | None => ellcard e end)
    end.
  (** PARI's ellsea: computes, never looks at the cache *)
  Definition ellsea (c : tcurve) : res Z :=
    match t_curve c with None => UB | Some e => Ok (ellcard e) end.

  (** which order generator: the ones built on ellff_get_card (order_gen_any 24-34,
      order_gen_cofactor 49-67, order_gen_smooth 69-90) with the test they make, or
      order_gen_prime (92-103) built on ellsea *)
  Inductive order_gen := GenCard (accept : Z -> bool) | GenSea (accept : Z -> bool).

  (** src/gen/order.c:24-103: [None] when the order is refused (return -4) *)
  Definition order_stage (g : order_gen) (c : tcurve) : res (option tcurve) :=
    let '(get, accept) := match g with GenCard a => (ellff_get_card c, a) | GenSea a => (ellsea c, a) end in
    do n <- get;
    Ok (if accept n then Some (mkT (t_field c) (t_curve c) (Some n) (Some n)) else None).

  (** src/gen/curve.c:55-61 *)
  Definition curve_unroll (c : tcurve) : tcurve := mkT (t_field c) None None (t_order c).

  (** A failed attempt: field and curve generated, twisted, order generated; then the order is
      refused, or a later stage fails (for instance gens_gen_one of src/gen/gens.c, return -5);
      either way the engine unrolls the curve and starts again. The unroll function of the order
      stage does nothing (exhaustive_uinit, src/exhaustive/exhaustive.c). *)
  Definition failed_attempt (g : order_gen) (f : field_t) (e : E) (c : tcurve) : res tcurve :=
    do c1 <- curve_gen_any_twist f e c;
    do o <- order_stage g c1;
    Ok (curve_unroll (match o with Some c2 => c2 | None => c1 end)).

  Fixpoint failed_attempts (g : order_gen) (l : list (field_t * E)) (c : tcurve) : res tcurve :=
    match l with
    | [] => Ok c
    | (f, e) :: t => do c' <- failed_attempt g f e c; failed_attempts g t c'
    end.

  (** the successful attempt: the curve with the order that is reported *)
  Definition last_attempt (g : order_gen) (f : field_t) (e : E) (c : tcurve) : res (option tcurve) :=
    do c1 <- curve_gen_any_twist f e c; order_stage g c1.

  (** the whole run: curve_new() has everything NULL (src/obj/curve.c) *)
  Definition twist_run (g : order_gen) (l : list (field_t * E)) (f : field_t) (e : E) : res (option tcurve) :=
    do c <- failed_attempts g l (mkT (FPrime 0) None None None);
    last_attempt g f e c.
End Twist.
Arguments tcurve E : clear implicits.
Arguments mkT {E}.
