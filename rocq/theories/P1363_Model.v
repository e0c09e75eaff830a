(** Model of the enumeration of reduced quadratic forms in src/cm/p1363.c, and of the integer
    parameters computed from a form. The real numbers that occur (the square roots of D/3 and of
    D + B^2, of BIGDEFAULTPREC words) are taken to be exact. *)
From Verif Require Import Base.
Local Open Scope Z_scope.

Notation form := (Z * Z * Z)%type.
(** PARI's [divisors]: the positive divisors in increasing order *)
Definition divisors (d : Z) : list Z := filter (fun a => d mod a =? 0) (map Z.of_nat (seq 1 (Z.to_nat d))).

(** p1363.c:37, 44: [gel(l, j++) = v] for a vector of [room] entries; past the end it is undefined *)
Definition push (room : Z) (l : list form) (f : form) : res (list form) :=
  if Z.of_nat (length l) <? room then Ok (l ++ [f]) else UB.

(** p1363.c:26-47: one divisor *)
Definition try_divisor (room B d : Z) (l : list form) (div : Z) : res (list form) :=
  let lower := B * 2 in
  if (lower <=? div) && (div * div <=? d) then
    let A := div in
    let C := d / A in
    if Z.gcd (Z.gcd A lower) C =? 1 then
      do l <- push room l (A, B, C);
      if (0 <? lower) && (lower <? A) && (A <? C) then push room l (A, - B, C) else Ok l
    else Ok l
  else Ok l.
Fixpoint foldl_res {A S} (f : S -> A -> res S) (xs : list A) (s : S) : res S :=
  match xs with [] => Ok s | x :: xs => do s <- f s x; foldl_res f xs s end.
(** p1363.c:17-49: one value of B *)
Definition try_b (D room : Z) (l : list form) (B : Z) : res (list form) :=
  let d := D + B * B in foldl_res (try_divisor room B d) (divisors d) l.
(** p1363.c:9-51, [p1363_group], for D > 0; floor(sqrt(D / 3)) = floor(sqrt(floor(D / 3))).
    The values of B are 0, ..., s. *)
Definition bound (D : Z) : Z := Z.sqrt (D / 3).
Definition group (D : Z) : res (list form) :=
  let s := bound D in
  let llen := s * 2 in
  foldl_res (try_b D llen) (map Z.of_nat (seq 0 (Z.to_nat (s + 1)))) [].

(** p1363.c:186-209, [p1363_m8] and [p1363_I]; PARI's error ends the run *)
Definition m8 (D : Z) : Z := D mod 8.
Definition param_I (D : Z) : res Z :=
  match m8 D with
  | 1 | 2 | 6 | 7 => Ok 3
  | 5 => Ok 6
  | 3 => if D mod 3 =? 0 then Ok 2 else Ok 0
  | _ => Abort
  end.
(** p1363.c:211-227, [p1363_J] *)
Definition param_J (f : form) : res Z :=
  let '(A, B, C) := f in
  if (A * C) mod 2 =? 1 then Ok 0
  else if C mod 2 =? 0 then Ok 1
  else if A mod 2 =? 0 then Ok 2
  else Abort.
(** p1363.c:229-246, [p1363_K] *)
Definition param_K (D : Z) : res Z :=
  match m8 D with
  | 1 | 2 | 6 => Ok 2
  | 3 | 7 => Ok 1
  | 5 => Ok 5
  | _ => Abort
  end.
(** p1363.c:248-273, [p1363_L] *)
Definition param_L (D : Z) (f : form) : res Z :=
  let '(A, B, C) := f in
  if ((A * C) mod 2 =? 1) || ((m8 D =? 5) && (C mod 2 =? 0)) then Ok (A - C + A * A * C)
  else if A mod 2 =? 0 then
    if m8 D =? 3 then Ok (A - C + 5 * (A * (C * C))) else Ok (A - C - A * (C * C))
  else if C mod 2 =? 0 then Ok (A + 2 * C - A * (C * C))
  else Abort.
(** p1363.c:275-284, [p1363_M]: a power of -1; a negative exponent gives the same power *)
Definition param_M (f : form) : Z :=
  let '(A, B, C) := f in
  let quot := if A mod 2 =? 0 then (C * C - 1) ÷ 8 else (A * A - 1) ÷ 8 in
  if quot mod 2 =? 0 then 1 else -1.
(** p1363.c:286-317, [p1363_N] *)
Definition param_N (D : Z) (f : form) : res Z :=
  let '(A, B, C) := f in
  let ac2 := (A * C) mod 2 in
  match m8 D with
  | 5 => Ok 1
  | 1 | 2 | 6 => Ok (param_M f)
  | 3 => if ac2 =? 0 then Ok (- param_M f) else Ok 1
  | 7 => if ac2 =? 0 then Ok 1 else Ok (param_M f)
  | _ => Abort
  end.
