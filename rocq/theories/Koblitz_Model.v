(** Model of the table of Koblitz curves, /repo/src/math/koblitz.c, of order_gen_koblitz
    (/repo/src/gen/order.c:105-121) and of what the coefficients and the field are by then
    (/repo/src/gen/equation.c:53-61, 107-115, /repo/src/gen/field.c:51-96). *)
From Verif Require Import Base Poly_Model.
Local Open Scope Z_scope.

(** src/math/koblitz.h:13-17; the order is the number that strtoi reads from the string *)
Record koblitz_t := K { k_m : Z; k_a : Z; k_order : Z }.

(** src/math/koblitz.c:14-37 *)
Definition koblitz_curves : list koblitz_t :=
  [K 101 1 0x2000000000000a8c8e37728cd6;
   K 103 0 0x8000000000000a6a298f2129f4;
   K 107 0 0x7ffffffffffffb57c25324737c4;
   K 107 1 0x80000000000004a83dacdb8c83e;
   K 109 1 0x1fffffffffffff4c436058707d36;
   K 113 1 0x1fffffffffffffffb7f235edbd4e6;
   K 131 0 0x80000000000000001353f755c0e8fc9a4;
   K 163 1 0x800000000000000000004021145c1981b33f14bde;
   K 233 0 0x200000000000000000000000000001a756ee456f351bbec6b57c5ceaf7c;
   K 239 0 0x80000000000000000000000000000169e7fb19f2dba47c7076a00391e294;
   K 277 0 0x1ffffffffffffffffffffffffffffffffffb42a2d15e3f4d2f69828d921e5bb03c3eec;
   K 283 0 0x7ffffffffffffffffffffffffffffffffffa6b8bb41d5dc9977fdfe511478187858f184;
   K 283 1 0x80000000000000000000000000000000000594744be2a2366880201aeeb87e787a70e7e;
   K 311 1 0x7ffffffffffffffffffffffffffffffffffffff136b216132e5082acf66a36f8f226eb6b04ddce;
   K 331 1 0x8000000000000000000000000000000000000000014cf64d52882df2e59be7970195b73750ef4048ebe;
   K 347 1 0x7ffffffffffffffffffffffffffffffffffffffffffe7eb05ecfb792870172fe61a4926fc197f7b6801597e;
   K 349 0 0x200000000000000000000000000000000000000000004f4b4f74ea048634aaca843ad4252e1d28422edd038c;
   K 359 1 0x7fffffffffffffffffffffffffffffffffffffffffffedec280d2e16075c01f6a24e2d482a3941d593a361c20e;
   K 409 0 0x1fffffffffffffffffffffffffffffffffffffffffffffffffff97e0ecb53a881003b1155f57b4f8f9f296d2d720ee380797f3c;
   K 571 0 0x800000000000000000000000000000000000000000000000000000000000000000000004c614387c6698f92ce46a36e45fd04e2d8c3612f9758e4e07a477ad173f9de3d8df04004].

(** src/math/koblitz.c:48-57; the members are unsigned int, the differences are converted to int *)
Definition compare_koblitz (m a : Z) (other : koblitz_t) : Z :=
  let m_diff := int_of_uint (m - k_m other) in
  if m_diff =? 0 then int_of_uint (a - k_a other) else m_diff.

(** src/math/koblitz.c:59-64; [None] is NULL; the arguments are unsigned long *)
Definition koblitz_find (m a : Z) : res (option koblitz_t) := bsearch (compare_koblitz (u32 m) (u32 a)) koblitz_curves.

(** src/math/koblitz.c:66-73 *)
Definition koblitz_get_order (m a : Z) : res (option Z) :=
  do found <- koblitz_find m a;
  Ok (match found with Some k => Some (k_order k) | None => None end).

(** PARI: itou reads the words of a t_INT; applied to another type it is undefined *)
Definition itou (x : element) : res Z := match x with Int z => Ok z | _ => UB end.

(** src/gen/order.c:105-121; [card] is what ellff_get_card gives *)
Definition order_gen_koblitz (bits : Z) (a : element) (card : Z) : res Z :=
  do ua <- itou a;
  do order <- koblitz_get_order bits ua;
  Ok (match order with Some o => o | None => card end).

(** src/gen/equation.c:53-61 *)
Definition a_gen_zero : element := Int 0.
Definition a_gen_one : element := Int 1.
(** src/gen/equation.c:112-115 *)
Definition b_gen_one : element := Int 1.

(** src/gen/field.c:51-96 after the numbers have been read: [None] is return 0; [irreducible] is
    polisirreducible; input_short gives any integer up to 65536, negative ones included, see
    Input_Model *)
Definition field_input_binary (irreducible : list Z -> bool) (bits m e1 e2 e3 : Z) : res (option (list Z)) :=
  if negb (m =? bits) then Ok None
  else if (e1 =? -1) || (m <? e1) then Ok None
  else if (e2 =? -1) || (m <? e2) then Ok None
  else if (e3 =? -1) || (m <? e3) then Ok None
  else if (e1 =? 0) && (e2 =? 0) && (e3 =? 0) then Ok None
  else
    let v := repeat 0 (Z.to_nat (bits + 1)) in
    do v <- wr v (Z.to_nat m) 1;
    do v <- (if 0 <? e1 then wr v (Z.to_nat e1) 1 else Ok v);
    do v <- (if 0 <? e2 then wr v (Z.to_nat e2) 1 else Ok v);
    do v <- (if 0 <? e3 then wr v (Z.to_nat e3) 1 else Ok v);
    do v <- wr v 0 1;
    Ok (if irreducible v then Some v else None).

(** src/math/twists.c:13-24: after a twist, a is a coefficient of the new PARI curve, a t_FFELT or
    t_INTMOD, never a t_INT *)
Definition twisted_a (f : field) (a' : Z) : element := field_ielement f a'.
