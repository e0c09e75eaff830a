(** Model of /repo/src/util/random.c:44-86. What PARI's generator yields is a number [t]
    that may be anything. *)
From Verif Require Import Base.
Local Open Scope Z_scope.

(** PARI's genrand on a vector [a, b]: a uniform integer a <= r <= b, an error if a > b *)
Definition genrand (a b t : Z) : res Z := if b <? a then Abort else Ok (a + t mod (b - a + 1)).

(** PARI's int2n: 2^n, 0 for a negative n *)
Definition int2n (n : Z) : Z := if n <? 0 then 0 else 2 ^ n.

(** src/util/random.c:47, 62: [bits - 1] is computed in unsigned long, int2n takes a long *)
Definition range (bits : Z) : Z * Z := (int2n (i64 (u64 (bits - 1))), int2n (i64 bits)).

(** src/util/random.c:59-64 *)
Definition random_int (bits t : Z) : res Z := let (a, b) := range bits in genrand a b t.

(** src/util/random.c:66-74 *)
Definition random_range (lower upper t : Z) : res Z :=
  if lower =? upper then Ok lower else genrand lower (upper - 1) t.

Section Prime.
  (** PARI's randomprime on a vector [a, b] (an error, [None], if there is no prime) and
      isprime *)
  Context (randomprime : Z -> Z -> Z -> option Z) (isprime : Z -> bool).

  (** src/util/random.c:44-57; the source yields t(0), t(1), ... *)
  Fixpoint random_prime (fuel : nat) (bits : Z) (t : nat -> Z) : res Z :=
    match fuel with
    | O => Fuel
    | S f =>
        let (a, b) := range bits in
        match randomprime a b (t O) with
        | None => Abort
        | Some p => if isprime p then Ok p else random_prime f bits (fun i => t (S i))
        end
    end.
End Prime.

(** src/util/random.c:76-86 for a prime field: genrand of an integer n is in 0 .. n-1 *)
Definition random_field_element (field t : Z) : res Z := genrand 0 (field - 1) t.
