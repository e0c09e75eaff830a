(** Model of the binary field polynomials, /repo/src/math/poly.c:2709-2757, of bsearch(3), and of the
    conversions of /repo/src/gen/field.c:121-179. *)
From Verif Require Import Base Poly_Tables.
Local Open Scope Z_scope.

(** conversion of an unsigned int to int (two's complement) *)
Definition int_of_uint (x : Z) : Z := (x mod 2 ^ 32 + 2 ^ 31) mod 2 ^ 32 - 2 ^ 31.

(** bsearch(3) as in glibc: the middle of [l, u) is compared with the key; [cmp] is the comparison
    with the key as its first argument. [Fuel] does not happen, see [bsearch_spec]. *)
Fixpoint bs {A} (fuel : nat) (cmp : A -> Z) (t : list A) (l u : nat) : res (option A) :=
  match fuel with
  | O => Fuel
  | S fuel =>
      if (l <? u)%nat then
        let idx := ((l + u) / 2)%nat in
        match nth_error t idx with
        | None => UB
        | Some x =>
            if cmp x <? 0 then bs fuel cmp t l idx
            else if 0 <? cmp x then bs fuel cmp t (S idx) u
            else Ok (Some x)
        end
      else Ok None
  end.
Definition bsearch {A} (cmp : A -> Z) (t : list A) : res (option A) := bs (S (length t)) cmp t 0 (length t).

(** src/math/poly.c:2709-2713 *)
Definition compare_poly (m : Z) (other : polynomial) : Z := int_of_uint (m - p_m other).

(** src/math/poly.c:2715 *)
Definition poly_exists (m : Z) : bool := (2 <=? m) && (m <=? 10000).

(** src/math/poly.c:2717-2741; [None] is NULL *)
Definition poly_find (m : Z) : res (option polynomial) :=
  if poly_exists m then
    let '(tri, penta) := if (m <? 160) || (2000 <? m) then (hp_trinomials, hp_pentanomials) else (ansi_trinomials, ansi_pentanomials) in
    do r <- bsearch (compare_poly (u32 m)) tri;
    match r with
    | Some p => Ok (Some p)
    | None => bsearch (compare_poly (u32 m)) penta
    end
  else Ok None.

(** src/math/poly.c:2743-2755: the coefficients of the polynomial, constant term first; a write
    outside the vector is undefined *)
Definition poly_gen (p : polynomial) : res (list Z) :=
  let v := repeat 0 (Z.to_nat (p_m p + 1)) in
  do v <- wr v (Z.to_nat (p_m p)) 1;
  do v <- wr v (Z.to_nat (p_e1 p)) 1;
  do v <- wr v (Z.to_nat (p_e2 p)) 1;
  do v <- wr v (Z.to_nat (p_e3 p)) 1;
  wr v 0 1.

(** src/math/poly.c:2757; a NULL polynomial is dereferenced *)
Definition poly_find_gen (m : Z) : res (list Z) :=
  do p <- poly_find m;
  match p with Some p => poly_gen p | None => UB end.

(** src/gen/field.c:13-21, 28-30; [Abort] is exit(1) *)
Definition field_binaryr (bits : Z) : res (list Z) :=
  if poly_exists bits then poly_find_gen bits else Abort.

(** ** /repo/src/gen/field.c:121-179 *)
(** A binary field is given by the coefficients of its polynomial, constant term first, and an element
    by its coefficients, constant term first, without leading zeros (the PARI t_POL). The PARI
    functions are written out: digits(n, 2), gtopoly, gtovec, fromdigits(v, 2). Fq_to_FF and
    FF_to_FpXQ change the representation only; an integer is below the size of the field. *)
Fixpoint pos_digits (p : positive) (acc : list Z) : list Z :=
  match p with
  | xH => 1 :: acc
  | xO p => pos_digits p (0 :: acc)
  | xI p => pos_digits p (1 :: acc)
  end.
(** most significant digit first; of the absolute value *)
Definition digits2 (n : Z) : list Z := match n with Z0 => [] | Zpos p | Zneg p => pos_digits p [] end.
Fixpoint drop_zeros (v : list Z) : list Z :=
  match v with x :: t => if x =? 0 then drop_zeros t else v | [] => [] end.
Definition gtopoly (v : list Z) : list Z := rev (drop_zeros v).
Definition gtovec (p : list Z) : list Z := rev p.
Definition fromdigits2 (v : list Z) : Z := fold_left (fun n d => 2 * n + d) v 0.

Inductive field := Prime (p : Z) | Binary (poly : list Z).
(** t_INTMOD and t_FFELT; a and b may also be plain integers (equation.c:53-61) *)
Inductive element := Int (z : Z) | Mod (z p : Z) | FF (poly : list Z).

(** src/gen/field.c:165-179 *)
Definition field_ielement (f : field) (i : Z) : element :=
  match f with
  | Prime p => Mod (i mod p) p
  | Binary _ => FF (gtopoly (digits2 i))
  end.
(** src/gen/field.c:146-163 *)
Definition field_elementi (e : element) : Z :=
  match e with
  | Int z => z
  | Mod z _ => z
  | FF p => fromdigits2 (gtovec p)
  end.

(** src/gen/field.c:130-142: [i] counts down to 1, [j] is the place of the next exponent; out has 4
    places *)
Fixpoint params_loop (poly : list Z) (i : nat) (j : nat) (out : list Z) : res (list Z) :=
  match i with
  | O => Ok out
  | S i' =>
      if nth i poly 0 =? 0 then params_loop poly i' j out
      else do out <- wr out j (Z.of_nat i); params_loop poly i' (S j) out
  end.
(** src/gen/field.c:121-144 *)
Definition field_params (f : field) : res (list Z) :=
  match f with
  | Prime p => Ok [p]
  | Binary poly => params_loop poly (length poly - 1) 0 [0; 0; 0; 0]
  end.
