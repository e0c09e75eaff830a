(** Model of /repo/src/exhaustive/brainpool.c and brainpool_rfc.c. *)
From Coq Require Import Ascii.
From Verif Require Import Base Bits_Model Sha1_Model Hash_Model Str_Model Ansi_Model.
Local Open Scope nat_scope.

(** The part of seed_t (src/misc/types.h:37-60) used here. *)
Record bp_t := mkBp { bseed : bits_t; bw : Z; bv : Z; bupd : bool }.

(** src/exhaustive/brainpool.c:22-28. gdivgs gives a rational, so the floor is exact. *)
Definition seed_wv (bits : Z) : Z * Z :=
  let v := ((bits - 1) / 160)%Z in ((bits - 160 * v - 1)%Z, v).

(** src/exhaustive/brainpool.c:62-65 *)
Definition brainpool_seed_valid (hex_str : list ascii) : bool :=
  match str_is_hex hex_str with Some s => length s =? 40 | None => false end.

(** src/exhaustive/brainpool.c:16-20 and 67-98; seed_new zeroes update_seed *)
Definition brainpool_seed (s : bits_t) (bits : Z) : bp_t :=
  let '(w, v) := seed_wv bits in mkBp s w v false.
(** src/exhaustive/brainpool.c:67-73 *)
Definition brainpool_gen_seed_random (rnd : nat -> nat -> N) (bits : Z) : res bp_t :=
  do s <- bits_new_rand rnd 160; Ok (brainpool_seed s bits).
(** src/exhaustive/brainpool.c:75-81; bits_from_hex(NULL) is undefined *)
Definition brainpool_gen_seed_argument (text : list ascii) (bits : Z) : res bp_t :=
  match str_is_hex text with
  | None => UB
  | Some s => do s <- bits_from_hex s; Ok (brainpool_seed s bits)
  end.
(** src/exhaustive/brainpool.c:83-99; [None] is the return value 0 *)
Definition brainpool_gen_seed_input (text : list ascii) (bits : Z) : res (option bp_t) :=
  if negb (brainpool_seed_valid text) then Ok None else
  do s <- brainpool_gen_seed_argument text bits; Ok (Some s).

Section WithJunk.
Variable junk : nat -> N.
(** whether a zero-length variable-length array is accepted (GNU C) or undefined
    (ISO C 6.7.6.2p5) *)
Variable vla0 : bool.

(** src/exhaustive/brainpool.c:30-38 *)
Definition brainpool_update_seed (s : bits_t) : res bits_t :=
  do z <- bits_to_i s;
  let t := ((signed z + 1) mod 2 ^ 160)%Z in
  do result <- bits_from_i_len t 160;
  bits_cpy junk s result.

(** SHA1_Final writing 20 bytes at offset off of an array *)
Definition put20 (a : list N) (off : nat) (d : list N) : res (list N) :=
  if off + 20 <=? length a then Ok (firstn off a ++ firstn 20 d ++ skipn (off + 20) a) else UB.

(** src/exhaustive/brainpool.c:48-52, one iteration *)
Definition hash_step (z : Z) (i : nat) (hashout : list N) : res (list N) :=
  do si <- bits_from_i_len ((z + Z.of_nat i) mod 2 ^ 160)%Z 160;
  do d <- bits_sha1 si;
  put20 hashout (20 * (i - 1)) d.

(** src/exhaustive/brainpool.c:40-60 *)
Definition brainpool_hash (s : bits_t) (w v : Z) : res bits_t :=
  do h <- bits_sha1 s;
  if (v <? 0)%Z || ((v =? 0)%Z && negb vla0) then UB else
  let hashout := map junk (seq 0 (20 * Z.to_nat v)) in
  do z <- bits_to_i s;
  do hashout <- for_from (Z.to_nat v) 1 (hash_step (signed z)) hashout;
  do result <- bits_from_raw h 160;
  do result <- bits_shortenz result (160 - w);
  do rest <- bits_from_raw hashout (160 * Z.to_nat v);
  bits_concatz junk result [rest].

(** hash followed by bits_to_i, as used in all steps *)
Definition hash_i (s : bits_t) (w v : Z) : res Z :=
  do b <- brainpool_hash s w v; do i <- bits_to_i b; Ok (signed i).

(** src/exhaustive/brainpool.c:105-108, 150-153; brainpool_rfc.c:37-40 *)
Definition pending (sd : bp_t) : res bp_t :=
  if bupd sd then do s <- brainpool_update_seed (bseed sd); Ok (mkBp s (bw sd) (bv sd) false) else Ok sd.
Definition update (sd : bp_t) : res bp_t :=
  do s <- brainpool_update_seed (bseed sd); Ok (mkBp s (bw sd) (bv sd) (bupd sd)).
Definition set_pending (sd : bp_t) : bp_t := mkBp (bseed sd) (bw sd) (bv sd) true.

Section Field.
(** PARI: smallest pseudoprime >= x; primality *)
Variable nextprime : Z -> Z.
Variable isprime : Z -> bool.

(** src/exhaustive/brainpool.c:115-120 *)
Fixpoint next3 (fuel : nat) (p : Z) : res Z :=
  match fuel with
  | O => Fuel
  | S f => let p := nextprime (p + 1) in
           if negb (p mod 4 =? 3)%Z then next3 f p else Ok p
  end.

(** src/exhaustive/brainpool.c:101-143 *)
Fixpoint brainpool_gen_field (fuel : nat) (bits : Z) (sd : bp_t) : res (Z * bp_t) :=
  match fuel with
  | O => Fuel
  | S f =>
      do sd <- pending sd;
      do c <- hash_i (bseed sd) (bw sd + 1) (bv sd);
      do p <- next3 fuel c;
      let lower_bound := (2 ^ (bits - 1) - 1)%Z in
      let upper_bound := (2 ^ bits)%Z in
      if (p <=? lower_bound)%Z || (upper_bound <=? p)%Z then
        do sd <- update sd; brainpool_gen_field f bits sd
      else if negb (isprime p) then
        do sd <- update sd; brainpool_gen_field f bits sd
      else Ok (p, set_pending sd)
  end.
End Field.

Section Equation.
(** PARI: inverse or NULL; n-th root or NULL; quadratic residue test *)
Variable Fp_invsafe : Z -> Z -> option Z.
Variable Fp_sqrtn : Z -> Z -> Z -> option Z.
Variable Fp_issquare : Z -> Z -> bool.

(** src/exhaustive/brainpool.c:159-173 *)
Definition check_a (a p : Z) : bool :=
  match Fp_invsafe a p with
  | None => false
  | Some am => match Fp_sqrtn ((am * -3) mod p)%Z 4 p with None => false | Some _ => true end
  end.
(** src/exhaustive/brainpool.c:193-194 *)
Definition disc0 (a b p : Z) : bool :=
  (((-16 mod p) * (4 * (a mod p) ^ 3 + 27 * (b mod p) ^ 2)) mod p =? 0)%Z.

(** src/exhaustive/brainpool.c:145-210: (a, b, seed) with residues a, b *)
Fixpoint brainpool_gen_equation (fuel : nat) (p : Z) (sd : bp_t) : res (Z * Z * bp_t) :=
  match fuel with
  | O => Fuel
  | S f =>
      do sd <- pending sd;
      do a <- hash_i (bseed sd) (bw sd) (bv sd);
      if negb (check_a a p) then
        do sd <- update sd; brainpool_gen_equation f p sd
      else
      do sd <- update sd;
      do b <- hash_i (bseed sd) (bw sd) (bv sd);
      if negb (Fp_issquare b p) then
        do sd <- update sd; brainpool_gen_equation f p sd
      else if disc0 a b p then
        do sd <- update sd; brainpool_gen_equation f p sd
      else Ok (a mod p, b mod p, set_pending sd)%Z
  end.

(** src/exhaustive/brainpool_rfc.c:62-73 *)
Fixpoint rfc_b (fuel : nat) (p : Z) (sd : bp_t) : res (Z * bp_t) :=
  match fuel with
  | O => Fuel
  | S f =>
      do sd <- update sd;
      do b <- hash_i (bseed sd) (bw sd) (bv sd);
      if Fp_issquare b p then rfc_b f p sd else Ok (b, sd)
  end.

(** src/exhaustive/brainpool_rfc.c:32-97 *)
Fixpoint brainpool_rfc_gen_equation (fuel : nat) (p : Z) (sd : bp_t) : res (Z * Z * bp_t) :=
  match fuel with
  | O => Fuel
  | S f =>
      do sd <- pending sd;
      do a <- hash_i (bseed sd) (bw sd) (bv sd);
      if negb (check_a a p) then
        do sd <- update sd; brainpool_rfc_gen_equation f p sd
      else
      do bs <- rfc_b fuel p sd;
      let '(b, sd) := bs in
      if disc0 a b p then
        do sd <- update sd; brainpool_rfc_gen_equation f p sd
      else Ok (a mod p, b mod p, set_pending sd)%Z
  end.
End Equation.

Section Gens.
(** Points: type, ellmul, ellordinate (list of y for x), ellorder *)
Context {Pt : Type}.
Variable point : Z -> Z -> Pt.
Variable ellordinate : Z -> list Z.
Variable ellmul : Pt -> Z -> Pt.
Variable ellorder : Pt -> Z.

(** src/exhaustive/brainpool.c:221-226 *)
Fixpoint find_x (fuel : nat) (x : Z) : res Z :=
  match fuel with
  | O => Fuel
  | S f => match ellordinate x with [] => find_x f (x + 1)%Z | _ => Ok x end
  end.

(** src/exhaustive/brainpool.c:212-255; [rbit] is random_bits(1). Result: the
    generator, its order and cofactor, the multiplier k, the seed. [None] stands for
    the return value INT_MIN. *)
Definition brainpool_gen_gens (fuel : nat) (rbit : bool) (order : Z) (sd : bp_t)
  : res (option (Pt * Z * Z * Z) * bp_t) :=
  do sd <- update sd;
  do k <- hash_i (bseed sd) (bw sd) (bv sd);
  do x <- find_x fuel 0%Z;
  match ellordinate x with
  | [y] => let G := ellmul (point x y) k in Ok (Some (G, ellorder G, (order / ellorder G)%Z, k), sd)
  | [y1; y2] =>
      let G := ellmul (point x (if rbit then y1 else y2)) k in
      Ok (Some (G, ellorder G, (order / ellorder G)%Z, k), sd)
  | _ => Ok (None, sd)
  end.
End Gens.
End WithJunk.

(** src/gen/gens.c:106-111; znorder is PARI's multiplicative order *)
Definition gens_get_embedding (znorder : Z -> Z -> Z) (p n : Z) : Z :=
  if (p =? n)%Z then 0%Z else znorder p n.

(** src/exhaustive/brainpool.c:257-267; divis truncates *)
Definition brainpool_check_gens (znorder : Z -> Z -> Z) (field order : Z) : Z :=
  if (gens_get_embedding znorder field order <=? Z.quot (order - 1) 100)%Z then (-5)%Z else 1%Z.

(** src/exhaustive/brainpool.c:269-275 *)
Definition brainpool_check_order (order field : Z) : Z := if (order <? field)%Z then 1%Z else (-4)%Z.
