(** Model of /repo/src/math/subgroup.c. GEN vectors are lists, NULL is [None]. *)
From Verif Require Import Base.
Local Open Scope Z_scope.

(** gtoset of PARI on a vector of integers: sorted, duplicates removed *)
Fixpoint set_insert (x : Z) (l : list Z) : list Z :=
  match l with
  | [] => [x]
  | y :: t => if x <? y then x :: l else if x =? y then l else y :: set_insert x t
  end.
Definition gtoset (l : list Z) : list Z := fold_right set_insert [] l.

(** src/math/subgroup.c:56-62: the product of the factors selected by [count], and how
    many they are *)
Fixpoint select (count bit : Z) (factors : list Z) (result bits : Z) : Z * Z :=
  match factors with
  | [] => (result, bits)
  | f :: t => if Z.testbit count bit then select count (bit + 1) t (result * f) (bits + 1)
              else select count (bit + 1) t result bits
  end.

(** src/math/subgroup.c:44-71. The vector [groups] has a fixed size and is filled from the
    front; itos (line 49) raises a PARI error on 2^63 and more. *)
Definition subgroups_2n_factors (factors : list Z) (min_bits : nat) : res (option (list Z)) :=
  let nprimes := length factors in
  if (nprimes =? min_bits)%nat then Ok None
  else if (63 <=? nprimes)%nat then Abort
  else
    let size := (2 ^ nprimes - min_bits * nprimes - 1)%nat in
    let all := map (fun count => select (Z.of_nat count) 0 factors 1 0) (seq 1 (2 ^ nprimes - 1)) in
    let kept := map fst (filter (fun rb => Z.of_nat min_bits <? snd rb) all) in
    if (size <? length kept)%nat then UB
    else Ok (Some (gtoset (kept ++ repeat 0 (size - length kept)))).

Section Subgroup.
  (** PARI: the factorisation as (prime, exponent) pairs; primality *)
  Context (Z_factor : Z -> list (Z * Z)) (isprime : Z -> bool).

  (** src/math/subgroup.c:14-34 *)
  Definition subgroups_divisors (order : Z) : list Z :=
    flat_map (fun pe => repeat (fst pe) (Z.to_nat (snd pe))) (Z_factor order).

  (** src/math/subgroup.c:73-79 *)
  Definition subgroups_prime (order : Z) : list Z :=
    if isprime order then [order] else map fst (Z_factor order).

  (** src/math/subgroup.c:81-87 *)
  Definition subgroups_nonprime (order : Z) : res (option (list Z)) :=
    if isprime order then Ok None else subgroups_2n_factors (subgroups_divisors order) 1.

  (** src/math/subgroup.c:89-95 *)
  Definition subgroups_all (order : Z) : res (option (list Z)) :=
    if isprime order then Ok (Some [order]) else subgroups_2n_factors (subgroups_divisors order) 0.
End Subgroup.
