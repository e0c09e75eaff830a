(** Model of /repo/src/exhaustive/nums.c. *)
From Verif Require Import Base.
Local Open Scope Z_scope.

Section Nums.
(** PARI isprime *)
Variable isprime : Z -> bool.

(** src/exhaustive/nums.c:15-19: the loop from p = base - c *)
Fixpoint field_loop (fuel : nat) (base c : Z) : res Z :=
  match fuel with
  | O => Fuel
  | S f => let p := base - c in
           if negb (isprime p) then field_loop f base (c + 4) else Ok p
  end.
(** src/exhaustive/nums.c:11-22 *)
Definition nums_gen_field (fuel : nat) (bits : Z) : res Z := field_loop fuel (2 ^ bits) 1.

(** src/exhaustive/nums.c:24-27 *)
Definition nums_gen_a (field : Z) : Z := (-3) mod field.

(** src/exhaustive/nums.c:29-30: the two static variables; [None] is b == NULL.
    Curves are identified by their address. *)
Definition bstate := option (Z * Z).

(** src/exhaustive/nums.c:32-61: new static state and curve->b *)
Definition nums_gen_b (st : bstate) (curve field : Z) : bstate * Z :=
  match st with
  | None => (Some (1, curve), 1 mod field)
  | Some (b, curve_b) =>
      if curve_b =? curve then
        let bn := if b =? 1 then b + 2 else b + 1 in
        (Some (bn, curve_b), bn mod field)
      else (Some (1, curve), 1 mod field)
  end.

(** src/exhaustive/nums.c:63-76: the return value and curve->order; [order] is the
    result of ellsea. *)
Definition nums_gen_order (field order : Z) : Z * option Z :=
  let frobenius := field + 1 - order in
  let twist_order := order + frobenius * 2 in
  if (order =? 0) || negb (isprime order) || negb (isprime twist_order) then (-2, None)
  else (1, Some order).
End Nums.

Section Gens.
(** ellordinate: the residues y for x; ellorder of the point *)
Variable ellordinate : Z -> list Z.
Variable ellorder : Z * Z -> Z.

(** src/exhaustive/nums.c:80-85 *)
Fixpoint nums_find_x (fuel : nat) (x : Z) : res Z :=
  match fuel with
  | O => Fuel
  | S f => match ellordinate x with [] => nums_find_x f (x + 1) | _ => Ok x end
  end.

(** src/exhaustive/nums.c:78-104: generator, order, cofactor. gel(Qy, 2) of a vector
    of length 1 reads past its end. *)
Definition nums_gen_gens (fuel : nat) (field order : Z) : res ((Z * Z) * Z * Z) :=
  do x <- nums_find_x fuel 1;
  match ellordinate x with
  | y1 :: y2 :: _ =>
      let P := (x mod field, if y1 <? y2 then y1 else y2) in
      Ok (P, ellorder P, order / ellorder P)
  | _ => UB
  end.
End Gens.

(** A run of the b step over a list of calls (curve address, field). *)
Fixpoint b_run (st : bstate) (calls : list (Z * Z)) : list Z :=
  match calls with
  | [] => []
  | (c, p) :: r => let '(st', b) := nums_gen_b st c p in b :: b_run st' r
  end.
Fixpoint b_state (st : bstate) (calls : list (Z * Z)) : bstate :=
  match calls with
  | [] => st
  | (c, p) :: r => b_state (fst (nums_gen_b st c p)) r
  end.
