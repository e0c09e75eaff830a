(** SHA-1 as FIPS 180-1 defines it, on messages that are arbitrary bit strings. *)
From Verif Require Import Base.
Local Open Scope nat_scope.

(** big-endian value of a bit string *)
Definition nbval (l : list bool) : N := fold_left (fun a b => 2 * a + N.b2n b)%N l 0%N.
(** exactly n bits of v, most significant first *)
Definition be (n : nat) (v : N) : list bool :=
  map (fun i => N.testbit v (N.of_nat (n - 1 - i))) (seq 0 n).

(** section 4: padding to a multiple of 512 bits *)
Definition pad_zeros (l : nat) : nat := (512 + 448 - (l + 1) mod 512) mod 512.
Definition padded (m : list bool) : list bool :=
  m ++ [true] ++ repeat false (pad_zeros (length m)) ++ be 64 (N.of_nat (length m)).

(** section 3: operations on words *)
Definition add32 (x y : N) : N := ((x + y) mod 2 ^ 32)%N.
Definition rotl (n : N) (x : N) : N := N.lor (N.shiftl x n mod 2 ^ 32) (N.shiftr x (32 - n)).

(** section 5 and 6 *)
Definition ft (t : nat) (B C D : N) : N :=
  if t <? 20 then N.lor (N.land B C) (N.ldiff D B)
  else if t <? 40 then N.lxor (N.lxor B C) D
  else if t <? 60 then N.lor (N.lor (N.land B C) (N.land B D)) (N.land C D)
  else N.lxor (N.lxor B C) D.
Definition Kt (t : nat) : N :=
  if t <? 20 then 0x5A827999 else if t <? 40 then 0x6ED9EBA1
  else if t <? 60 then 0x8F1BBCDC else 0xCA62C1D6.

Record st := mkst { sA : N; sB : N; sC : N; sD : N; sE : N }.
Definition H0 : st := mkst 0x67452301 0xEFCDAB89 0x98BADCFE 0x10325476 0xC3D2E1F0.

(** section 7 *)
Definition words (blk : list bool) : list N :=
  map (fun j => nbval (firstn 32 (skipn (32 * j) blk))) (seq 0 16).
Fixpoint extend (n : nat) (w : list N) : list N :=
  match n with
  | O => w
  | S n' =>
      let t := length w in
      let g k := nth (t - k) w 0%N in
      extend n' (w ++ [rotl 1 (N.lxor (N.lxor (N.lxor (g 3) (g 8)) (g 14)) (g 16))])
  end.
Definition schedule (blk : list bool) : list N := extend 64 (words blk).

Definition round (W : list N) (s : st) (t : nat) : st :=
  let temp := ((rotl 5 (sA s) + ft t (sB s) (sC s) (sD s) + sE s + nth t W 0 + Kt t) mod 2 ^ 32)%N in
  mkst temp (sA s) (rotl 30 (sB s)) (sC s) (sD s).

Definition compress (h : st) (blk : list bool) : st :=
  let s := fold_left (round (schedule blk)) (seq 0 80) h in
  mkst (add32 (sA h) (sA s)) (add32 (sB h) (sB s)) (add32 (sC h) (sC s))
       (add32 (sD h) (sD s)) (add32 (sE h) (sE s)).

(** the first n 512-bit blocks *)
Fixpoint hash_blocks (n : nat) (h : st) (m : list bool) : st :=
  match n with
  | O => h
  | S n' => hash_blocks n' (compress h (firstn 512 m)) (skipn 512 m)
  end.

Definition digest (s : st) : list bool :=
  be 32 (sA s) ++ be 32 (sB s) ++ be 32 (sC s) ++ be 32 (sD s) ++ be 32 (sE s).

Definition sha1 (m : list bool) : list bool :=
  let p := padded m in digest (hash_blocks (length p / 512) H0 p).

(** bits of a byte string *)
Definition bits_of_bytes (b : list N) : list bool := flat_map (be 8) b.
