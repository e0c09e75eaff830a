(** Model of src/cm/anomalous.c: the construction of curves over F_p with p points.
    Random choices are read off a tape of arbitrary integers; the loops, which have no bound in the
    program, end with [Fuel] when the tape is used up. Square roots are taken as exact reals: the
    program uses PARI reals of [BIGDEFAULTPREC * 2] words (640 bits), see DESIGN.md. *)
From Verif Require Import Base Supersingular_Model.
Local Open Scope Z_scope.

(** anomalous.h, [disc_t] *)
Record disc := { disc_d : Z; disc_j : Z; disc_alpha : Z }.
(** anomalous.c:11-38, [anomalous_init]: entry 3 is filled for 67 and then overwritten for 163;
    entry 4 stays empty *)
Definition disc_table : list (option disc) :=
  [ Some {| disc_d := 11; disc_j := (-32) ^ 3; disc_alpha := 21 |};
    Some {| disc_d := 19; disc_j := (-32 * 3) ^ 3; disc_alpha := 3 |};
    Some {| disc_d := 43; disc_j := (-64 * 16) ^ 3; disc_alpha := 70 |};
    Some {| disc_d := 163; disc_j := (-64 * 10005) ^ 3; disc_alpha := 3717878010 |};
    None ].
(** reading an entry; the empty one holds NULL *)
Definition entry (i : nat) : res disc := match nth_error disc_table i with Some (Some e) => Ok e | _ => UB end.

(** PARI's [genrand] on the range [lo, hi], and on [0, n-1]; an error when the range is empty *)
Definition pick (lo hi t : Z) : res Z := if hi <? lo then Abort else Ok (lo + t mod (hi - lo + 1)).

(** anomalous.c:44-53: the bounds. [divii] truncates. For an integer s >= 0,
    ceil((sqrt s - 1) / 2) = ceil(sqrt s) / 2 and floor((sqrt s - 1) / 2) = (floor(sqrt s) - 1) / 2,
    with integer divisions rounding down on the right. *)
Definition last_of (d : Z) : Z := (d + 1) ÷ 4.
Definition lower_of (d bits : Z) : Z := (2 ^ (bits - 1) - last_of d) ÷ d.
Definition upper_of (d bits : Z) : Z := (2 ^ bits - last_of d) ÷ d.
Definition lower_bound (d bits : Z) : Z := Z.sqrt_up (lower_of d bits * 4 + 1) / 2.
Definition upper_bound (d bits : Z) : Z := (Z.sqrt (upper_of d bits * 4 + 1) - 1) / 2.

Section Anomalous.
(** PARI's [isprime] and [kronecker] *)
Variable isprime : Z -> bool.
Variable kronecker : Z -> Z -> Z.

(** anomalous.c:62-68: draw b until D b^2 + D b + (D+1)/4 is prime *)
Fixpoint prime_loop (d lo hi : Z) (tape : list Z) : res (Z * list Z) :=
  match tape with
  | [] => Fuel
  | t :: tape =>
    do b <- pick lo hi t;
    let middle := d * b in
    let first := middle * b in
    let p := first + middle + last_of d in
    if isprime p then Ok (p, tape) else prime_loop d lo hi tape
  end.
(** anomalous.c:40-71, [anomalous_prime] *)
Definition anomalous_prime (i : nat) (bits : Z) (tape : list Z) : res (Z * list Z) :=
  do e <- entry i;
  prime_loop (disc_d e) (lower_bound (disc_d e) bits) (upper_bound (disc_d e) bits) tape.

(** anomalous.c:91-105, [anomalous_gen_field]: repeated while 21 is zero modulo p. The loop is
    given fuel besides the tape. *)
Fixpoint gen_field (fuel : nat) (i : nat) (bits : Z) (tape : list Z) : res (Z * list Z) :=
  match fuel with
  | O => Fuel
  | S fuel =>
    do (p, tape) <- anomalous_prime i bits tape;
    do e0 <- entry 0;
    if kronecker (disc_alpha e0) p =? 0 then gen_field fuel i bits tape else Ok (p, tape)
  end.

(** anomalous.c:81-86: draw c until its symbol is the wanted one *)
Fixpoint c_loop (p cp : Z) (tape : list Z) : res (Z * list Z) :=
  match tape with
  | [] => Fuel
  | t :: tape => do c <- pick 0 (p - 1) t; if kronecker c p =? cp then Ok (c, tape) else c_loop p cp tape
  end.
(** anomalous.c:73-89, [anomalous_c]; [None] is NULL *)
Definition anomalous_c (i : nat) (p : Z) (tape : list Z) : res (option (Z * list Z)) :=
  do e <- entry i;
  let kroneck := kronecker (disc_alpha e) p in
  if kroneck =? 0 then Ok None
  else do r <- c_loop p (- kroneck) tape; Ok (Some r).

(** anomalous.c:107-122, [anomalous_gen_equation]: [gdiv] of residues is [fp_div]; squaring a NULL
    pointer is undefined *)
Definition gen_equation (i : nat) (p : Z) (tape : list Z) : res (Z * Z * list Z) :=
  do c <- anomalous_c i p tape;
  do e <- entry i;
  do k <- fp_div (disc_j e mod p) ((1728 - disc_j e) mod p) p;
  match c with
  | None => UB
  | Some (c, tape) => Ok ((3 * (c ^ 2 * k)) mod p, (2 * (c ^ 3 * k)) mod p, tape)
  end.
End Anomalous.
(** anomalous.c:124-129, [anomalous_gen_order] *)
Definition gen_order (p : Z) : Z := p.
(** cm.c:110-121: the entry that is used *)
Definition used : nat := 3.
