(** C72: the seed of the random generator (src/util/random.c:11-36). *)
From Verif Require Import Base.
Local Open Scope Z_scope.

(** What the system gives: whether /dev/urandom opens, its bytes in order, how many bytes the i-th
    fread delivers at most (0: end of file or an error), clock_gettime's nanoseconds (None: it
    failed), time(NULL). *)
Record sys : Type := mkSys {
  opens : bool; data : nat -> Z; gives : nat -> nat; nsec : option Z; seconds : Z }.

(** fread(((uint8_t * ) &seed) + read, 1, room, rand): the bytes that arrive are written over those of
    the array [seed] (8 bytes, lowest first: x86-64) from [at_] on; outside the array is undefined *)
Fixpoint overwrite (seed : list Z) (at_ : nat) (l : list Z) : res (list Z) :=
  match l with
  | [] => Ok seed
  | b :: l => do seed <- wr seed at_ b; overwrite seed (S at_) l
  end.
Definition fread (s : sys) (i pos room : nat) (seed : list Z) (at_ : nat) : res (nat * list Z) :=
  let n := Nat.min (gives s i) room in
  do seed <- overwrite seed at_ (map (data s) (seq pos n));
  Ok (n, seed).

(** lines 17-20; pos: the bytes the device has delivered so far *)
Fixpoint read_loop (fuel : nat) (s : sys) (i pos read : nat) (seed : list Z) : res (list Z) :=
  if (read <? 8)%nat then
    match fuel with
    | O => Fuel
    | S fuel =>
        do r <- fread s i pos (8 - read) seed read;
        let '(n, seed) := r in
        read_loop fuel s (S i) (pos + n) (read + n) seed
    end
  else Ok seed.

(** the bytes of a pari_ulong as a number *)
Fixpoint number (l : list Z) : Z := match l with [] => 0 | b :: l => b + 256 * number l end.

(** lines 11-36, up to setrand: the number given to it. The casts of tv_nsec and of the time to
    unsigned are explicit. *)
Definition reseed (fuel : nat) (s : sys) : res Z :=
  do seed <- (if opens s then do l <- read_loop fuel s 0 0 0 (repeat 0 8); Ok (number l) else Ok 0);
  Ok (if seed =? 0 then
        match nsec s with Some t => t mod 2 ^ 64 | None => seconds s mod 2 ^ 64 end
      else seed).

(** PARI's setrand accepts positive numbers only and raises an error otherwise, which ends the
    program. *)
Definition random_reseed (fuel : nat) (s : sys) : res Z :=
  do seed <- reseed fuel s; if 0 <? seed then Ok seed else Abort.
