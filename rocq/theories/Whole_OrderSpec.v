(** C88: what a whole run with a prime order publishes, and what is assumed of PARI for it. *)
From Coq Require Import Ascii Znumtheory.
From Verif Require Import Base Ec Poly_Model Points_Model Cli_Model CurveText_Spec Whole_Spec.
From Verif Require Whole_Model CmPrime_Props.
Local Open Scope Z_scope.
Local Open Scope list_scope.

(** --prime, --cofactor and --smooth are ignored, and so is --points: the points are those of prime order, as by default *)
Definition order_cfg (cfg : config) : config := set_points_type POINTS_PRIME (unfiltered cfg).
(** A published curve with N points over a field with a prime number of elements. Nothing of it is read. *)
Definition wanted_order (cfg : config) (hexw : Z -> list ascii) (N : Z) (l : list (list ascii)) (c : pub) : Prop :=
  exists p, pub_f c = PubPrime p /\ pub_seed c = None /\ prime p /\ 0 <= pub_a c < p /\ 0 <= pub_b c < p /\
  pub_order c = N /\ points (Prime p) (pub_a c) (pub_b c) = N /\ wanted_curve (order_cfg cfg) hexw (Prime p) c.

(** The curves with N points among those that come from the roots of the class polynomials for the discriminants that belong
    to N, except -3, and their twists *)
Definition cm_on (P : Whole_Model.pari) (N : Z) (f : field) (a b : Z) : Prop :=
  match f with
  | Prime p => points (Prime p) a b = N /\ exists D root a0 b0, CmPrime_Props.right_discriminant N D p /\ D <> -3 /\
      In root (Whole_Model.class_roots P (- D) p) /\ Whole_Model.ellfromj P root p = Some (a0, b0) /\
      ((a, b) = (a0, b0) \/ (a, b) = Whole_Model.elltwist P p a0 b0)
  | Binary _ => False
  end.
(** PARI knows these curves; and complex multiplication: for a discriminant D that belongs to curves with N points over p
    elements, except -3, the curve of a root of the class polynomial has N points or its twist has (the other one has
    2p + 2 - N), and a random point on it is one of its points and not the one at infinity. *)
Record cm_ok (P : Whole_Model.pari) (N : Z) : Prop := {
  pc_cm : pari_on P (cm_on P N);
  pc_cornacchia : CmPrime_Props.cornacchia_ok (Whole_Model.cornacchia2 P);
  pc_root : forall D p root a b, CmPrime_Props.right_discriminant N D p -> D <> -3 ->
    In root (Whole_Model.class_roots P (- D) p) -> Whole_Model.ellfromj P root p = Some (a, b) ->
    curve_ok (Prime p) a b /\ 0 <= a < p /\ 0 <= b < p /\ Whole_Model.ellinit P (Prime p) a b = true /\
    (points (Prime p) a b = N \/ points (Prime p) a b = 2 * p + 2 - N) /\
    (forall t, ec_on (Prime p) a b (Whole_Model.ellrandom P p a b t) = true /\ Whole_Model.ellrandom P p a b t <> None) /\
    (forall Q k, ec_on (Prime p) a b Q = true -> Whole_Model.ellmul P (Prime p) a b Q k = ec_mul (Prime p) a Q k) /\
    let (a', b') := Whole_Model.elltwist P p a b in
    0 <= a' < p /\ 0 <= b' < p /\ Whole_Model.ellinit P (Prime p) a' b' = true /\
    points (Prime p) a' b' = 2 * p + 2 - points (Prime p) a b
}.
