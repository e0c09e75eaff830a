(** What a run of the method for pairing-friendly curves is to publish. *)
From Coq Require Import Ascii String Znumtheory.
From Verif Require Import Base Ec Poly_Model Points_Model Gens_Props Cli_Model CurveText_Spec Whole_Spec.
From Verif Require Bits_Spec Input_Props Whole_Model.
Local Open Scope Z_scope.
Local Open Scope list_scope.

(** The number of elements of the field and the order of the subgroup that the parameter z of a family stands for, with
    the denominators on the other side: Barreto-Naehrig, Barreto-Lynn-Scott, Kachisa-Schaefer-Scott. *)
Definition family_numbers (family z p r : Z) : Prop :=
  if family =? FAMILY_BN then p = 36 * z ^ 4 + 36 * z ^ 3 + 24 * z ^ 2 + 6 * z + 1 /\ r = 36 * z ^ 4 + 36 * z ^ 3 + 18 * z ^ 2 + 6 * z + 1
  else if family =? FAMILY_BLS12 then 3 * p = (z - 1) ^ 2 * (z ^ 4 - z ^ 2 + 1) + 3 * z /\ r = z ^ 4 - z ^ 2 + 1
  else if family =? FAMILY_BLS24 then 3 * p = (z - 1) ^ 2 * (z ^ 8 - z ^ 4 + 1) + 3 * z /\ r = z ^ 8 - z ^ 4 + 1
  else if family =? FAMILY_KSS18 then
    let n := 42 * z + 14 in
    21 * p = n ^ 8 + 5 * n ^ 7 + 7 * n ^ 6 + 37 * n ^ 5 + 188 * n ^ 4 + 259 * n ^ 3 + 343 * n ^ 2 + 1763 * n + 2401 /\
    343 * r = n ^ 6 + 37 * n ^ 3 + 343
  else if family =? FAMILY_KSS36 then
    let n := 777 * z + 287 in
    28749 * p = n ^ 14 - 4 * n ^ 13 + 7 * n ^ 12 + 683 * n ^ 8 - 2510 * n ^ 7 + 4781 * n ^ 6 + 117649 * n ^ 2 - 386569 * n + 823543 /\
    161061481 * r = n ^ 12 + 683 * n ^ 6 + 117649
  else False.
(** the families whose equation is y^2 = x^3 + b *)
Definition sextic (family : Z) : Prop := In family [FAMILY_BN; FAMILY_BLS12; FAMILY_BLS24; FAMILY_KSS18; FAMILY_KSS36].
(** their embedding degree *)
Definition family_degree (family : Z) : Z :=
  if family =? FAMILY_BLS24 then 24 else if family =? FAMILY_KSS18 then 18 else if family =? FAMILY_KSS36 then 36 else 12.
Definition family_prime (family z p r : Z) : Prop := prime p /\ prime r /\ family_numbers family z p r.
(** a curve with a subgroup of the order *)
Definition family_good (p r b : Z) : Prop := nonsingular (Prime p) 0 b /\ (r | points (Prime p) 0 b).

(** The parameter of the curve: with --random one of [bits] bits, or 2^bits, of either sign; otherwise what was typed last,
    or -1 when that is above 2^bits. *)
Definition family_given (cfg : config) (d : ascii) (l : list (list ascii)) (z : Z) : Prop :=
  if negb (c_random cfg =? 0) then 2 ^ (c_bits cfg - 1) <= Z.abs z <= 2 ^ c_bits cfg
  else z <= 2 ^ c_bits cfg /\ exists l0 t, l = l0 ++ [t] /\ typed d t (fun v => z = if v <=? 2 ^ c_bits cfg then v else -1).
(** its text: a sign, 0x, and two digits for every byte that is needed *)
Definition family_text (z : Z) (t : list ascii) : Prop :=
  exists n, t = (if z <? 0 then ["-"%char] else []) ++ "0"%char :: "x"%char :: Bits_Spec.hex_text (2 * n) (Z.abs z) /\
  Z.abs z < 256 ^ Z.of_nat n /\ ((0 < n)%nat -> 256 ^ (Z.of_nat n - 1) <= Z.abs z).
(** without --unique, --prime, --cofactor and --smooth, which this method ignores *)
Definition family_cfg (cfg : config) : config := set_unique false (unfiltered cfg).
(** A curve that --family publishes after reading [l]; with [alone], b is the least that will do. *)
Definition wanted_family (cfg : config) (hexw : Z -> list ascii) (alone : Prop) (d : ascii) (l : list (list ascii)) (c : pub) : Prop :=
  exists z p r t, family_given cfg d l z /\ pub_seed c = Some t /\ family_text z t /\
  family_prime (c_family cfg) z p r /\ pub_f c = PubPrime p /\ pub_a c = 0 /\ 0 <= pub_b c < p /\
  (r | pub_order c) /\ embedding_degree p r (family_degree (c_family cfg)) /\
  (alone -> 0 < pub_b c /\ forall b, 0 < b < pub_b c -> ~ family_good p r b) /\
  wanted_curve (family_cfg cfg) hexw (Prime p) c.

(** ** What PARI is assumed to do *)
(** for the curves y^2 = x^3 + b over these fields alone *)
Definition family_on (cfg : config) (f : field) (a b : Z) : Prop :=
  match f with
  | Prime p => a = 0 /\ 0 <= b < p /\ exists z r, family_prime (c_family cfg) z p r /\
      if negb (c_random cfg =? 0) then Z.abs z <= 2 ^ c_bits cfg else z <= 2 ^ c_bits cfg
  | Binary _ => False
  end.
Record family_ok (P : Whole_Model.pari) (cfg : config) : Prop := {
  pc_family : pari_on P (family_on cfg);
  pc_family_init : forall f a b, family_on cfg f a b -> curve_ok f a b -> Whole_Model.ellinit P f a b = true
}.
