(** Model of the search for a discriminant in src/cm/cm_prime.c (prime order N). *)
From Verif Require Import Base Bits_Model.
Local Open Scope Z_scope.

(** cm_prime.h: the part of [cm_prime_qdisc_t] that is kept between calls (the order is a parameter of the
    functions below; D, p and t are the result). [nprimes] is the length of [Sp]. *)
Record qdisc := { q_r : Z; q_i : Z; q_Sp : list Z }.

(** cm_prime.c:53-63, [qdisc_init] *)
Definition qdisc_init : qdisc := {| q_r := 0; q_i := 0; q_Sp := [] |}.

(** cm_prime.c:33-39: the prime with a sign *)
Definition pstar (prime : Z) : Z := if Z.odd (Z.quot (prime - 1) 2) then - prime else prime.

Section Search.
(** PARI: [forprime] over an interval (both ends included), [kronecker], [cornacchia2], [isprime] *)
Variable forprime : Z -> Z -> list Z.
Variable kronecker : Z -> Z -> Z.
Variable cornacchia2 : Z -> Z -> option (Z * Z).
Variable isprime : Z -> bool.
(** [ground(glog(order))], the natural logarithm rounded to an integer *)
Variable logN : Z.
Variable order : Z.

(** cm_prime.c:29-46: the loop over the primes; [nalloc] is the size of the allocated array *)
Fixpoint add_loop (nalloc : nat) (Sp ps : list Z) : res (list Z) :=
  match ps with
  | [] => Ok Sp
  | prime :: ps =>
      if kronecker order prime =? 1 then
        let nalloc := if (length Sp =? nalloc)%nat then (nalloc * 2)%nat else nalloc in
        if (length Sp <? nalloc)%nat then add_loop nalloc (Sp ++ [pstar prime]) ps else UB
      else add_loop nalloc Sp ps
  end.
(** cm_prime.c:14-51, [add_primes]. The final [realloc] to zero bytes returns NULL with glibc, which PARI's
    allocator reports as an error. *)
Definition add_primes (r : Z) (Sp : list Z) : res (list Z) :=
  let nalloc := match Sp with [] => 10%nat | _ => length Sp end in
  do Sp <- add_loop nalloc Sp (forprime (r * logN) ((r + 1) * logN));
  match Sp with [] => Abort | _ => Ok Sp end.

(** cm_prime.c:87-95: the product of the primes selected by the bits of [i] *)
Definition pprod (Sp : list Z) (i : Z) : res Z :=
  do ibits <- bits_from_i_len i (length Sp);
  for_to (length Sp) (fun j pprod =>
    do g <- GET_BIT (buf ibits) j;
    if (g =? 1)%N then do s <- rd Sp j; Ok (pprod * s) else Ok pprod) 1.

(** cm_prime.c:98-127: one candidate; [Some (D, p, t)] when it is accepted *)
Definition candidate (rlog2 : Z) (pprod : Z) : option (Z * Z * Z) :=
  let absp := Z.abs pprod in
  let m4 := absp mod 4 in
  if (absp <? rlog2) && (pprod mod 8 =? 5) && negb (m4 =? 1) && negb (m4 =? 2) then
    match cornacchia2 absp order with
    | None => None
    | Some (x, _) =>
        let pp1 := order + 1 + x in
        let pp2 := order + 1 - x in
        if isprime pp1 then Some (pprod, pp1, x)
        else if isprime pp2 then Some (pprod, pp2, x)
        else None
    end
  else None.

Definition bound (r : Z) : Z := ((r + 1) * logN) * ((r + 1) * logN).
Definition imax (Sp : list Z) : Z := 2 ^ Z.of_nat (length Sp).

(** cm_prime.c:83-140: both loops; one unit of fuel per round of either *)
Fixpoint search (fuel : nat) (rlog2 : Z) (q : qdisc) : res (Z * Z * Z * qdisc) :=
  match fuel with
  | O => Fuel
  | S fuel =>
      if q_i q <? imax (q_Sp q) then
        do pp <- pprod (q_Sp q) (q_i q);
        let q' := {| q_r := q_r q; q_i := q_i q + 1; q_Sp := q_Sp q |} in
        match candidate rlog2 pp with
        | Some found => Ok (found, q')
        | None => search fuel rlog2 q'
        end
      else
        let r := q_r q + 1 in
        do Sp <- add_primes r (q_Sp q);
        search fuel (bound r) {| q_r := r; q_i := q_i q; q_Sp := Sp |}
  end.

(** cm_prime.c:65-141, [qdisc_next] *)
Definition qdisc_next (fuel : nat) (q : qdisc) : res (Z * Z * Z * qdisc) :=
  let rlog2 := bound (q_r q) in
  if (q_i q =? imax (q_Sp q)) || (length (q_Sp q) =? 0)%nat then
    do Sp <- add_primes (q_r q) (q_Sp q);
    search fuel rlog2 {| q_r := q_r q; q_i := q_i q; q_Sp := Sp |}
  else search fuel rlog2 q.
End Search.
