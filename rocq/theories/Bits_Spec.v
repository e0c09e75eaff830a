(** What a [bits_t] denotes, independently of how operations compute it. *)
From Coq Require Import Ascii String.
From Verif Require Import Base Bits_Model.
Local Open Scope nat_scope.
Local Open Scope list_scope.

(** Bit [i] (from the left) of a byte buffer, most significant bit first. *)
Definition getb (a : list N) (i : nat) : bool :=
  N.testbit (nth (i / 8) a 0%N) (N.of_nat (7 - i mod 8)).

(** The bit string: [bitlen] bits from the left. *)
Definition bits_of (b : bits_t) : list bool := map (getb (buf b)) (seq 0 (bitlen b)).

(** Magnitude of the number denoted by the bit string. *)
Definition mag (b : bits_t) : Z := bval (bits_of b).

(** Sanity of the representation: block at least [allocated] bytes, enough for
    [bitlen] bits, and all bytes below 256. *)
Definition WF (b : bits_t) : Prop :=
  allocated b <= length (buf b) /\
  BYTE_LEN (bitlen b) <= allocated b /\
  Forall (fun x => (x < 256)%N) (buf b).

(** The unused bits of the allocated part are zero. *)
Definition Clean (b : bits_t) : Prop :=
  forall i, bitlen b <= i < 8 * allocated b -> getb (buf b) i = false.

(** Text: digits of a number in base 16, most significant first, exactly n. *)
Definition hexch (d : Z) : ascii :=
  nth (Z.to_nat d)
    ["0";"1";"2";"3";"4";"5";"6";"7";"8";"9";"a";"b";"c";"d";"e";"f"]%char zero.
Fixpoint hex_text (n : nat) (v : Z) : list ascii :=
  match n with
  | O => []
  | S k => hex_text k (v / 16) ++ [hexch (v mod 16)]
  end.

(** A character is a hexadecimal digit / its lower-case form. *)
Definition is_hex (c : ascii) : Prop :=
  In c (list_ascii_of_string "0123456789abcdefABCDEF").
Definition lower (c : ascii) : ascii :=
  let n := nat_of_ascii c in
  if (65 <=? n) && (n <=? 90) then ascii_of_nat (n + 32) else c.

(** Bit strings aligned at the right end and padded with zeros on the left. *)
Definition lpad (n : nat) (l : list bool) : list bool := repeat false (n - length l) ++ l.
Definition map2 (f : bool -> bool -> bool) (a b : list bool) : list bool :=
  map (fun p => f (fst p) (snd p)) (combine a b).

(** Left shift by k (right shift for negative k), zero fill, same length. *)
Definition lshift (l : list bool) (k : Z) : list bool :=
  if (0 <=? k)%Z
  then skipn (Z.to_nat k) l ++ repeat false (Nat.min (Z.to_nat k) (length l))
  else repeat false (Nat.min (Z.to_nat (- k)) (length l)) ++
       firstn (length l - Z.to_nat (- k)) l.

(** Rotation: bit i of the result is bit (i + k) mod length of the original. *)
Definition rotated (l r : list bool) (k : Z) : Prop :=
  length r = length l /\
  forall i, i < length l ->
    nth i r false = nth (Z.to_nat ((Z.of_nat i + k) mod Z.of_nat (length l))) l false.
