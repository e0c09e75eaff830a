(** Model of /repo/src/exhaustive/ansi.c. *)
From Coq Require Import Ascii.
From Verif Require Import Base Bits_Model Sha1_Model Hash_Model Str_Model.
Local Open Scope nat_scope.

(** signed PARI integer from [bits_to_i] *)
Definition signed (r : bool * Z) : Z := if fst r then (- snd r)%Z else snd r.

(** The part of seed_t (src/misc/types.h) used here. *)
Record seed_t := mkSeed { seed : bits_t; hash20 : list N; at_ : Z; as_ : Z; ah : Z }.

(** src/exhaustive/ansi.c:20-23 *)
Definition ansi_seed_valid (hex_str : list ascii) : bool :=
  match str_is_hex hex_str with Some s => 40 <=? length s | None => false end.

(** src/exhaustive/ansi.c:25-28 *)
Definition seed_hash (s : bits_t) : res (list N) := bits_sha1 s.

(** src/exhaustive/ansi.c:30-37. The quotient is computed as a real with 64 bits
    of mantissa and then floored; this is exact for bits below 2^56. *)
Definition seed_tsh (bits : Z) : Z * Z * Z :=
  let s := ((bits - 1) / 160)%Z in (bits, s, (bits - s * 160)%Z).

(** src/exhaustive/ansi.c:39-74 after the seed bits are known *)
Definition ansi_seed (s : bits_t) (bits : Z) : res seed_t :=
  do h <- seed_hash s;
  let '(t, s', h') := seed_tsh bits in Ok (mkSeed s h t s' h').

(** src/exhaustive/ansi.c:39-46; [r] is the value of random_int(160) *)
Definition ansi_gen_seed_random (r : Z) (bits : Z) : res seed_t :=
  do s <- bits_from_i r; ansi_seed s bits.
(** src/exhaustive/ansi.c:48-55; bits_from_hex(NULL) is undefined *)
Definition ansi_gen_seed_argument (text : list ascii) (bits : Z) : res seed_t :=
  match str_is_hex text with
  | None => UB
  | Some s => do s <- bits_from_hex s; ansi_seed s bits
  end.
(** src/exhaustive/ansi.c:57-74; [None] is the return value 0 (ask again) *)
Definition ansi_gen_seed_input (text : list ascii) (bits : Z) : res (option seed_t) :=
  if negb (ansi_seed_valid text) then Ok None else
  do s <- ansi_gen_seed_argument text bits; Ok (Some s).

Section WithJunk.
Variable junk : nat -> N.

(** src/exhaustive/ansi.c:85-102, one iteration *)
Definition process_step (sd : seed_t) (i : nat) (result : bits_t) : res bits_t :=
  do si <- bits_to_i (seed sd);
  let two_g := (2 ^ Z.of_nat (bitlen (seed sd)))%Z in
  let inner := ((signed si + Z.of_nat i) mod two_g)%Z in
  do th <- bits_from_i inner;
  do th <- (if bitlen th <? bitlen (seed sd)
            then bits_lengthenz junk th (Z.of_nat (bitlen (seed sd)) - Z.of_nat (bitlen th))
            else Ok th);
  do hashout <- bits_sha1 th;
  do Wi <- bits_from_raw hashout 160;
  bits_concatz junk result [Wi].

(** src/exhaustive/ansi.c:76-106 *)
Definition seed_process (sd : seed_t) (first : bits_t) : res bits_t :=
  do result <- bits_copy first;
  for_from (Z.to_nat (as_ sd)) 1 (process_step sd) result.

(** src/exhaustive/ansi.c:110-124: the number r *)
Definition ansi_number (sd : seed_t) : res Z :=
  do c0 <- bits_from_raw (hash20 sd) 160;
  do c0 <- bits_shortenz c0 (160 - ah sd);
  do W0 <- bits_copy c0;
  do wb <- SET_BIT (buf W0) 0 0;
  let W0 := mkBits wb (bsign W0) (bitlen W0) (allocated W0) in
  do W <- seed_process sd W0;
  for_from (Z.to_nat (at_ sd)) 1 (fun i r =>
    do g <- GET_BIT (buf W) (i - 1);
    Ok (r + Z.of_N g * 2 ^ (at_ sd - Z.of_nat i))%Z) 0%Z.

Section Fp.
(** PARI: inverse or NULL, quadratic residue test, square root; the i-th value of
    random_int(cfg->bits). *)
Variable Fp_invsafe : Z -> Z -> option Z.
Variable Fp_issquare : Z -> Z -> bool.
Variable Fp_sqrt : Z -> Z -> Z.
Variable rand : nat -> Z.

(** src/exhaustive/ansi.c:129-132 *)
Fixpoint a_loop (fuel : nat) (i : nat) (r_inv p : Z) : res (Z * Z) :=
  match fuel with
  | O => Fuel
  | S f =>
      let a := rand i in
      let b2 := (a ^ 3 * r_inv)%Z in
      if negb (Fp_issquare b2 p) then a_loop f (S i) r_inv p else Ok (a, b2)
  end.

(** src/exhaustive/ansi.c:108-143: (r, a, b). A NULL inverse is passed to mulii. *)
Definition ansi_gen_equation_fp (fuel : nat) (sd : seed_t) (p : Z) : res (Z * Z * Z) :=
  do r <- ansi_number sd;
  match Fp_invsafe r p with
  | None => UB
  | Some r_inv =>
      do ab <- a_loop fuel 0 r_inv p;
      Ok (r, fst ab, Fp_sqrt (snd ab) p)
  end.
End Fp.

Section F2m.
(** src/gen/field.c field_ielement: field element of an integer; F is the type of
    field elements. *)
Context {F : Type}.
Variable field_ielement : Z -> F.

(** src/exhaustive/ansi.c:145-164: [inl (a, b)] for return value 1, [inr (-3)]
    otherwise; [ra] is the value of random_int(cfg->bits). *)
Definition ansi_gen_equation_f2m (sd : seed_t) (ra : Z) : res ((F * F) + Z) :=
  do b0 <- bits_from_raw (hash20 sd) 160;
  do b0 <- bits_shortenz b0 (160 - ah sd);
  do b <- seed_process sd b0;
  do ib <- bits_to_i b;
  if (signed ib =? 0)%Z then Ok (inr (-3)%Z)
  else Ok (inl (field_ielement ra, field_ielement (signed ib))).
End F2m.
End WithJunk.
