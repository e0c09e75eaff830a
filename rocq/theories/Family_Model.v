(** Model of the pairing-friendly families, /repo/src/exhaustive/family.c. *)
From Verif Require Import Base Cli_Model.
Local Open Scope Z_scope.

(** A stored closure: a polynomial of n divided by a constant. *)
Record formula := Fm { num : Z -> Z; den : Z }.
(** its value: [Some] when PARI gives a t_INT, [None] when it gives a t_FRAC *)
Definition closure_callgen1 (f : formula) (x : Z) : option Z :=
  if num f x mod den f =? 0 then Some (num f x / den f) else None.

Record stored := St { nz : Z -> Z; pz : formula; rz : formula; tz : formula; D : Z }.

(** src/exhaustive/family.c:23-68; [None] for the numbers that are no family (never accepted,
    src/io/cli.c) *)
Definition store (family : Z) : option stored :=
  if family =? FAMILY_BN then Some (St (fun z => z)
      (Fm (fun z => 36*z^4 + 36*z^3 + 24*z^2 + 6*z + 1) 1)
      (Fm (fun z => 36*z^4 + 36*z^3 + 18*z^2 + 6*z + 1) 1)
      (Fm (fun z => 6*z + 1) 1) (-3))
  else if family =? FAMILY_BLS12 then Some (St (fun z => z)
      (Fm (fun z => (z - 1)^2 * (z^4 - z^2 + 1) + 3 * z) 3)
      (Fm (fun z => z^4 - z^2 + 1) 1)
      (Fm (fun z => z + 1) 1) (-3))
  else if family =? FAMILY_BLS24 then Some (St (fun z => z)
      (Fm (fun z => (z - 1)^2 * (z^8 - z^4 + 1) + 3 * z) 3)
      (Fm (fun z => z^8 - z^4 + 1) 1)
      (Fm (fun z => z + 1) 1) (-3))
  else if family =? FAMILY_KSS16 then Some (St (fun z => 70*z + 25)
      (Fm (fun z => z^10 + 2*z^9 + 5*z^8 + 48*z^6 + 152*z^5 + 240*z^4 + 625*z^2 + 2398*z + 3125) 980)
      (Fm (fun z => z^8 + 48*z^4 + 625) 61250)
      (Fm (fun z => 2*z^5 + 41*z + 35) 35) (-4))
  else if family =? FAMILY_KSS18 then Some (St (fun z => 42*z + 14)
      (Fm (fun z => z^8 + 5*z^7 + 7*z^6 + 37*z^5 + 188*z^4 + 259*z^3 + 343*z^2 + 1763*z + 2401) 21)
      (Fm (fun z => z^6 + 37*z^3 + 343) 343)
      (Fm (fun z => z^4 + 16*z + 7) 7) (-3))
  else if family =? FAMILY_KSS36 then Some (St (fun z => 777 * z + 287)
      (Fm (fun z => z^14 - 4*z^13 + 7*z^12 + 683*z^8 - 2510*z^7 + 4781*z^6 + 117649*z^2 - 386569*z + 823543) 28749)
      (Fm (fun z => z^12 + 683*z^6 + 117649) 161061481)
      (Fm (fun z => 2*z^7 + 757*z + 259) 259) (-3))
  else if family =? FAMILY_KSS40 then Some (St (fun z => 2370*z + 1205)
      (Fm (fun z => z^22 - 2*z^21 + 5*z^20 + 6232*z^12 - 10568*z^11 + 31160*z^10 + 9765625*z^2 - 13398638*z + 48828125) 1123380)
      (Fm (fun z => z^16 + 8*z^14 + 39*z^12 + 112*z^10 - 79*z^8 + 2800*z^6 + 24375*z^4 + 125000*z^2 + 390625) 2437890625)
      (Fm (fun z => 2*z^11 + 6469*z + 1185) 1185) (-4))
  else None.

(** src/exhaustive/family.c:77-85: [i] is random_int(cfg->bits), [sign] is random_bits(1) *)
Definition family_gen_seed_random (i sign : Z) : Z := if sign =? 0 then i else - i.

(** src/exhaustive/family.c:87-93: whatever input_int returned *)
Definition family_gen_seed_input (inp : Z) : Z := inp.

(** src/exhaustive/family.c:95-110: the field, or [None] for return -1 *)
Definition family_gen_field (isprime : Z -> bool) (s : stored) (z : Z) : option Z :=
  let n := nz s z in
  match closure_callgen1 (pz s) n with
  | Some p =>
      if isprime p then
        match closure_callgen1 (rz s) n with
        | Some r => if isprime r then Some p else None
        | None => None
        end
      else None
  | None => None
  end.

(** src/exhaustive/family.c:155-172: [card] is what ellff_get_card gives; [None] for return -2.
    dvdii needs a t_INT. *)
Definition family_gen_order (s : stored) (z : Z) (card : Z) : res (option Z) :=
  match closure_callgen1 (rz s) (nz s z) with
  | Some r => Ok (if card mod r =? 0 then Some card else None)
  | None => UB
  end.

(** src/exhaustive/family.c:112-140: the static b and b_curve; [None] is NULL *)
Record bstate := Bs { b_val : option Z; b_curve : option Z }.
(** the coefficients a and b as residues modulo the field, and the new statics; [curve] is the address *)
Definition family_gen_equation_iter (curve p : Z) (st : bstate) : (Z * Z) * bstate :=
  match b_val st with
  | None => ((0 mod p, 1 mod p), Bs (Some 1) (Some curve))
  | Some b =>
      if match b_curve st with Some c => c =? curve | None => false end
      then ((0 mod p, (b + 1) mod p), Bs (Some (b + 1)) (b_curve st))
      else ((0 mod p, 1 mod p), Bs (Some 1) (Some curve))
  end.
