(** Model of /repo/src/gen/point.c, /repo/src/gen/gens.c, /repo/src/gen/order.c (the parts
    used by the plans) and /repo/src/gen/metadata.c.

    The curve's group is an abstract type [P]; PARI's functions on it are parameters whose
    contracts the theorems state. *)
From Verif Require Import Base Random_Model Subgroup_Model.
Local Open Scope Z_scope.

(** src/misc/types.h: point_t and subgroup_t; NULL is [None] *)
Record point_t (P : Type) := mkPoint { p_point : P; p_order : Z; p_cofactor : option Z }.
Arguments mkPoint {P}. Arguments p_point {P}. Arguments p_order {P}. Arguments p_cofactor {P}.
Record subgroup_t (P : Type) := mkSub { s_gen : point_t P; s_npoints : nat; s_points : option (list (option (point_t P))) }.
Arguments mkSub {P}. Arguments s_gen {P}. Arguments s_npoints {P}. Arguments s_points {P}.

(** PARI's dvdii *)
Definition dvdii (a b : Z) : bool := if b =? 0 then a =? 0 else a mod b =? 0.

Fixpoint mapm {A B} (f : A -> res B) (l : list A) : res (list B) :=
  match l with
  | [] => Ok []
  | x :: t => do y <- f x; do r <- mapm f t; Ok (y :: r)
  end.

Section Points.
  Context {P : Type}.
  (** PARI: scalar multiplication and the order of a point *)
  Context (ellmul : P -> Z -> P) (ellorder : P -> Z).

  Definition set_points (s : subgroup_t P) (l : list (option (point_t P))) : subgroup_t P :=
    mkSub (s_gen s) (length l) (Some l).

  (** src/gen/point.c:11-24; [t1], [t2] are what the random source yields *)
  Definition point_gen_random (gens : list (subgroup_t P)) (t1 t2 : Z) : res (list (subgroup_t P)) :=
    do which_gen <- random_range 0 (Z.of_nat (length gens)) t1;
    do sub <- rd gens (Z.to_nat which_gen);
    do mul <- random_range 0 (p_order (s_gen sub)) t2;
    let p := ellmul (p_point (s_gen sub)) mul in
    wr gens (Z.to_nat which_gen) (set_points sub [Some (mkPoint p (ellorder p) None)]).

  (** src/gen/point.c:36-39 *)
  Definition distribute (npoints ngens : nat) (t : nat -> Z) : res (list nat) :=
    for_to npoints (fun i npoints_per_gen =>
      do which_gen <- random_range 0 (Z.of_nat ngens) (t i);
      do k <- rd npoints_per_gen (Z.to_nat which_gen);
      wr npoints_per_gen (Z.to_nat which_gen) (k + 1)%nat) (repeat 0%nat ngens).

  (** src/gen/point.c:50-60 *)
  Definition random_point (g : point_t P) (t : Z) : res (option (point_t P)) :=
    if p_order g =? 2 then Ok (Some (mkPoint (p_point g) 2 None))
    else
      do mul <- random_range 1 (p_order g) t;
      let p := ellmul (p_point g) mul in
      Ok (Some (mkPoint p (ellorder p) None)).

  (** src/gen/point.c:41-63; [t i j] is what the source yields for the j-th point of the
      i-th generator *)
  Definition fill (t : nat -> nat -> Z) (x : nat * (nat * subgroup_t P)) : res (subgroup_t P) :=
    let '(i, (n, sub)) := x in
    if (n =? 0)%nat then Ok (mkSub (s_gen sub) 0 (s_points sub))
    else do l <- mapm (fun j => random_point (s_gen sub) (t i j)) (seq 0 n); Ok (set_points sub l).

  (** src/gen/point.c:26-65. The array npoints_per_gen has ngens elements, none is
      undefined behaviour. *)
  Definition points_gen_random (gens : list (subgroup_t P)) (npoints : nat) (t1 : nat -> Z) (t2 : nat -> nat -> Z) : res (list (subgroup_t P)) :=
    if (length gens =? 0)%nat then UB
    else
      do per_gen <- distribute npoints (length gens) t1;
      mapm (fill t2) (combine (seq 0 (length gens)) (combine per_gen gens)).

  (** src/gen/point.c:67-93 *)
  Definition point_from_order (generator : point_t P) (num : Z) : option (point_t P) :=
    if p_order generator =? num then Some (mkPoint (p_point generator) num None)
    else if dvdii (p_order generator) num then
      Some (mkPoint (ellmul (p_point generator) (Z.quot (p_order generator) num)) num None)
    else None.
  Definition points_from_orders (generator : point_t P) (orders : list Z) : list (option (point_t P)) :=
    map (point_from_order generator) orders.

  (** src/gen/point.c:106-125: the orders kept for one generator ([None]: gen_0). The
      value of vec_append is ignored (line 121), the vector keeps its first entry. *)
  Definition keep (generator : point_t P) (acc : option (list Z)) (num : Z) : option (list Z) :=
    if (p_order generator =? num) || dvdii (p_order generator) num then
      match acc with None => Some [num] | Some l => Some l end
    else acc.

  (** src/gen/point.c:95-137 *)
  Definition points_gen_trial (gens : list (subgroup_t P)) (primes : list Z) : list (subgroup_t P) :=
    map (fun sub =>
      match fold_left (keep (s_gen sub)) primes None with
      | Some l => set_points sub (points_from_orders (s_gen sub) l)
      | None => sub
      end) gens.

  Section Listed.
    Context (Z_factor : Z -> list (Z * Z)) (isprime : Z -> bool).

    (** src/gen/point.c:139-148 *)
    Definition points_gen_prime (gens : list (subgroup_t P)) : res (list (subgroup_t P)) :=
      mapm (fun sub => Ok (set_points sub (points_from_orders (s_gen sub) (subgroups_prime Z_factor isprime (p_order (s_gen sub)))))) gens.

    (** src/gen/point.c:150-159; glength of NULL is undefined behaviour *)
    Definition points_gen_allgroups (gens : list (subgroup_t P)) : res (list (subgroup_t P)) :=
      mapm (fun sub =>
        do o <- subgroups_all Z_factor isprime (p_order (s_gen sub));
        match o with
        | Some l => Ok (set_points sub (points_from_orders (s_gen sub) l))
        | None => UB
        end) gens.

    (** src/gen/point.c:161-172 *)
    Definition points_gen_nonprime (gens : list (subgroup_t P)) : res (list (subgroup_t P)) :=
      mapm (fun sub =>
        do o <- subgroups_nonprime Z_factor isprime (p_order (s_gen sub));
        match o with
        | Some l => Ok (set_points sub (points_from_orders (s_gen sub) l))
        | None => Ok sub
        end) gens.
  End Listed.

  (** src/gen/gens.c:12-20 *)
  Definition gens_point (order : Z) (p : P) : subgroup_t P :=
    mkSub (mkPoint p (ellorder p) (Some (Z.quot order (ellorder p)))) 0 None.

  (** src/gen/gens.c:22-36; [generators] is what ellff_get_gens returns. The value returned
      and the new generators. *)
  Definition gens_gen_any (order : Z) (generators : list P) : Z * list (subgroup_t P) :=
    (1, map (gens_point order) generators).

  (** src/gen/gens.c:38-47; [old] are the generators the curve had *)
  Definition gens_gen_one (order : Z) (generators : list P) (old : list (subgroup_t P)) : Z * list (subgroup_t P) :=
    if (length generators =? 2)%nat then (-5, old) else gens_gen_any order generators.

  (** src/gen/gens.c:58-78 *)
  Fixpoint cofactor_point (order cofactor : Z) (generators : list P) : option (point_t P) :=
    match generators with
    | [] => None
    | gen :: t =>
        let gen_order := ellorder gen in
        if order =? gen_order then Some (mkPoint gen gen_order (Some cofactor))
        else if gen_order mod cofactor =? 0 then
          Some (mkPoint (ellmul gen cofactor) (gen_order / cofactor) (Some cofactor))
        else cofactor_point order cofactor t
    end.

  (** src/gen/gens.c:49-94; diviuexact (line 53) is undefined for a remainder or a zero
      divisor *)
  Definition gens_gen_cofactor (order cofactor : Z) (generators : list P) (old : list (subgroup_t P)) : res (Z * list (subgroup_t P)) :=
    if (cofactor =? 0) then UB
    else if negb (order mod cofactor =? 0) then UB
    else
      match cofactor_point (order / cofactor) cofactor generators with
      | Some p => Ok (1, mkSub p 0 None :: map (gens_point order) generators)
      | None => Ok (-5, old)
      end.

  (** src/gen/gens.c:96-104 *)
  Definition gens_check_anomalous (binary : bool) (field : Z) (gens : list (subgroup_t P)) : Z :=
    if binary then 1
    else if existsb (fun sub => field =? p_order (s_gen sub)) gens then -5 else 1.

  (** src/gen/gens.c:106-111; PARI's znorder raises an error unless the residue is
      invertible *)
  Definition gens_get_embedding (znorder : Z -> Z -> Z) (prime generator_order : Z) : res Z :=
    if prime =? generator_order then Ok 0
    else if Z.gcd prime generator_order =? 1 then Ok (znorder prime generator_order) else Abort.

  (** src/gen/gens.c:113-132 *)
  Fixpoint embedding_loop (znorder : Z -> Z -> Z) (field mind : Z) (gens : list (subgroup_t P)) : res Z :=
    match gens with
    | [] => Ok 1
    | sub :: t =>
        do power <- gens_get_embedding znorder field (p_order (s_gen sub));
        if power <=? mind then Ok (-5) else embedding_loop znorder field mind t
    end.
  Definition gens_check_embedding (znorder : Z -> Z -> Z) (binary : bool) (field mind : Z) (gens : list (subgroup_t P)) : res Z :=
    if binary then Ok 1 else embedding_loop znorder field mind gens.
End Points.

Section Order.
  (** PARI: isprime, factor (the primes) and the number of bits of an integer *)
  Context (isprime : Z -> bool) (factor : Z -> list (Z * Z)).

  (** glength(binary_zv(x)) for x > 0 *)
  Definition bitlen (x : Z) : Z := Z.log2 x + 1.

  (** The functions return the value of the C function and the order they set, if any;
      [card] is ellff_get_card of the curve. *)

  (** src/gen/order.c:24-34 *)
  Definition order_gen_any (card : Z) : Z * option Z := (1, Some card).

  (** src/gen/order.c:49-67; the argument is read as an unsigned long *)
  Definition order_gen_cofactor (arg card : Z) : Z * option Z :=
    let cofactor := u64 arg in
    if negb (dvdii card cofactor) then (-4, None)
    else if negb (isprime (card / cofactor)) then (-4, None) else (1, Some card).

  (** src/gen/order.c:69-90 *)
  Definition order_gen_smooth (arg card : Z) : Z * option Z :=
    let smooth_bound := u64 arg in
    if existsb (fun pe => smooth_bound <? u64 (bitlen (fst pe))) (factor card) then (-4, None) else (1, Some card).

  (** src/gen/order.c:92-103; [sea] is what ellsea(curve, 1) returns *)
  Definition order_gen_prime (sea : Z) : Z * option Z :=
    if (sea =? 0) || negb (isprime sea) then (-4, None) else (1, Some sea).
End Order.

(** src/misc/types.h:88-96 (the fields for prime and binary fields) *)
Record meta_t := mkMeta {
  m_j : Z; m_disc : Z; m_embedding : option Z; m_frobenius : Z; m_cm_disc : option Z; m_conductor : option Z }.

(** src/gen/metadata.c:9-46. A prime field is given by its prime, a binary one by its
    degree; [j], [disc] are the curve's invariants as integers, coredisc2 is PARI's. *)
Definition metadata_gen (znorder : Z -> Z -> Z) (coredisc2 : Z -> Z * Z) (binary : bool) (field order j disc : Z) : res meta_t :=
  if binary then
    let q := int2n field in
    Ok (mkMeta j disc None (q + 1 - order) None None)
  else
    do embedding <- gens_get_embedding znorder field order;
    let frobenius := field + 1 - order in
    let (d, f) := coredisc2 (frobenius * frobenius - 4 * field) in
    Ok (mkMeta j disc (Some embedding) frobenius (Some d) (Some f)).
