(** ANSI X9.62 A.3.3: deriving a number from a seed, over bit strings.
    [hash] is the hash function on bit strings (SHA-1 in the standard). *)
From Verif Require Import Base Sha1_Spec.
Local Open Scope nat_scope.

Section Ansi.
Variable hash : list bool -> list bool.

(** s = floor((t-1)/160), h = t - 160 s *)
Definition ansi_s (t : nat) : nat := (t - 1) / 160.
Definition ansi_h (t : nat) : nat := t - 160 * ansi_s t.
(** the g-bit string of (z + i) mod 2^g, z the integer of the g-bit seed *)
Definition seed_plus (seed : list bool) (i : nat) : list bool :=
  let g := length seed in
  be g (Z.to_N ((bval seed + Z.of_nat i) mod 2 ^ Z.of_nat g)).
(** W_1 || ... || W_s *)
Definition tail_blocks (seed : list bool) (s : nat) : list bool :=
  flat_map (fun i => hash (seed_plus seed i)) (seq 1 s).
(** the h rightmost bits of the hash of the seed *)
Definition rightmost (n : nat) (l : list bool) : list bool := skipn (length l - n) l.
Definition ansi_c0 (seed : list bool) (t : nat) : list bool := rightmost (ansi_h t) (hash seed).

(** prime fields: the leftmost bit of c0 is set to 0 *)
Definition ansi_r (seed : list bool) (t : nat) : Z :=
  bval ((false :: tl (ansi_c0 seed t)) ++ tail_blocks seed (ansi_s t)).
(** binary fields *)
Definition ansi_b (seed : list bool) (t : nat) : Z :=
  bval (ansi_c0 seed t ++ tail_blocks seed (ansi_s t)).
End Ansi.
