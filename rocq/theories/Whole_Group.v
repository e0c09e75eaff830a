(** The group of a curve as pairs of numbers: what the theorems about points and generators (Points_Props,
    Gens_Props) say of it. *)
From Coq Require Import Znumtheory.
From Verif Require Import Base Fp Abelian Ec Poly_Model Random_Model Subgroup_Model Subgroup_Props Points_Model Points_Props Gens_Props.
From Verif Require Import Whole_Model Whole_Spec.
From Verif Require Factor.
Local Open Scope Z_scope.
Local Open Scope list_scope.

Lemma iter_op_map {G H} (f : G -> H) opg oph (E : forall x y, f (opg x y) = oph (f x) (f y)) n : forall x,
  f (Pos.iter_op opg n x) = Pos.iter_op oph n (f x).
Proof. induction n as [n IH|n IH|]; intros x; cbn [Pos.iter_op]; rewrite ?E, ?IH, ?E; reflexivity. Qed.

Section Curve.
Variable p : field.
Variables a b : Z.
Variable ns : curve_ok p a b.

Lemma ec_mul_xy (P : point p a b) k : ec_mul p a (xy p a b P) k = xy p a b (pmul p a b ns P k).
Proof.
  unfold ec_mul, pmul, zmul. destruct k as [|n|n].
  - reflexivity.
  - rewrite (iter_op_map (xy p a b) (padd p a b ns) (ec_add p a)); reflexivity.
  - rewrite <- (iter_op_map (xy p a b) (padd p a b ns) (ec_add p a)); reflexivity.
Qed.

Lemma ec_mul_on P k : ec_on p a b P = true -> ec_on p a b (ec_mul p a P k) = true.
Proof. intros H. change P with (xy p a b (exist _ P H)). rewrite ec_mul_xy. exact (proj2_sig (pmul p a b ns (exist _ P H) k)). Qed.

(** made total: off the curve a group of two elements *)
Definition tmul (P : pt) (k : Z) : pt := if ec_on p a b P then ec_mul p a P k else if Z.even k then None else P.
Definition torder (P : pt) : Z :=
  match Bool.bool_dec (ec_on p a b P) true with left H => porder p a b ns (exist _ P H) | right _ => 2 end.

Lemma tmul_on P k : ec_on p a b P = true -> tmul P k = ec_mul p a P k.
Proof. intros H. unfold tmul. now rewrite H. Qed.

Lemma tgroup : group_ok None tmul torder.
Proof.
  pose proof (points_contract p a b ns) as C.
  assert (N : ec_on p a b None = true) by apply inf_on.
  constructor.
  - intros P x y. unfold tmul. destruct (ec_on p a b P) eqn:E.
    + rewrite ec_mul_on by assumption. change P with (xy p a b (exist _ P E)). rewrite !ec_mul_xy.
      f_equal. apply (mul_mul _ _ _ C).
    + destruct (Z.even x) eqn:X.
      * rewrite N, Z.even_mul, X. cbn [orb].
        change (@None (Z * Z)) with (xy p a b (pinf p a b)). rewrite ec_mul_xy. f_equal.
        apply (order_ok _ _ _ C). replace (porder p a b ns (pinf p a b)) with 1; [apply Z.divide_1_l|].
        apply (order_unique (pinf p a b) (pmul p a b ns) (pinf p a b)); [|apply (order_ok _ _ _ C)].
        split; [lia|]. intros k. split; [intros; apply Z.divide_1_l|]. intros _.
        rewrite <- (mul_1 _ _ _ C (pinf p a b)) at 1. rewrite (mul_mul _ _ _ C), Z.mul_1_l.
        rewrite <- (proj2 (proj2 (order_ok _ _ _ C (pinf p a b)) 0) (Z.divide_0_r _)) at 1.
        rewrite (mul_mul _ _ _ C), Z.mul_0_l. apply (order_ok _ _ _ C). apply Z.divide_0_r.
      * rewrite E, Z.even_mul, X. reflexivity.
  - intros P. unfold tmul. destruct (ec_on p a b P); reflexivity.
  - intros P. unfold torder. destruct (Bool.bool_dec (ec_on p a b P) true) as [H|H].
    + destruct (order_ok _ _ _ C (exist _ P H)) as (O1 & O2). split; [exact O1|]. intros k. rewrite tmul_on by assumption.
      change P with (xy p a b (exist (fun P => ec_on p a b P = true) P H)) at 1. rewrite ec_mul_xy, <- O2. split; [|now intros ->].
      intros X. apply (xy_eq p a b). rewrite X. reflexivity.
    + split; [lia|]. intros k. unfold tmul. destruct (ec_on p a b P) eqn:E; [congruence|].
      destruct (Z.even k) eqn:X; split; intros Y.
      * apply Z.even_spec in X. destruct X as (q & ->). exists q. ring.
      * reflexivity.
      * subst P. rewrite N in E. discriminate.
      * destruct Y as (q & ->). rewrite Z.even_mul in X. cbn in X. rewrite orb_true_r in X. discriminate.
Qed.

Lemma torder_on P : ec_on p a b P = true -> has_order p a P (torder P).
Proof.
  intros H. destruct (order_ok _ _ _ tgroup P) as (A & B). split; [exact A|]. intros k. rewrite <- B, tmul_on by assumption. reflexivity.
Qed.
Lemma has_order_t P n : ec_on p a b P = true -> has_order p a P n <-> order_is None tmul P n.
Proof. intros H. unfold has_order, order_is. split; intros (A & B); (split; [exact A|]); intros k; rewrite <- B, tmul_on by assumption; reflexivity. Qed.

(** PARI's functions agree with it on the curve *)
Variable mul : pt -> Z -> pt.
Variable ord : pt -> Z.
Hypothesis mul_ok : forall Q k, ec_on p a b Q = true -> mul Q k = ec_mul p a Q k.
Hypothesis ord_ok : forall Q, ec_on p a b Q = true -> has_order p a Q (ord Q).

Lemma mul_t Q k : ec_on p a b Q = true -> mul Q k = tmul Q k.
Proof. intros H. now rewrite mul_ok, tmul_on. Qed.
Lemma ord_t Q : ec_on p a b Q = true -> ord Q = torder Q.
Proof. intros H. apply (order_unique None (ec_mul p a) Q); [now apply ord_ok|now apply torder_on]. Qed.
Lemma tmul_curve Q k : ec_on p a b Q = true -> ec_on p a b (tmul Q k) = true.
Proof. intros H. rewrite tmul_on by assumption. now apply ec_mul_on. Qed.

(** ** The same results *)
Notation on_gen := (fun s : subgroup_t pt => ec_on p a b (p_point (s_gen s)) = true).

Lemma mapm_ext {X Y} (f g : X -> res Y) l : (forall x, In x l -> f x = g x) -> mapm f l = mapm g l.
Proof.
  induction l as [|x l IH]; intros H; [reflexivity|]. cbn [mapm]. rewrite (H x (or_introl eq_refl)), IH; [reflexivity|].
  intros y I. apply H. now right.
Qed.

Lemma from_order_t g d : ec_on p a b (p_point g) = true -> point_from_order mul g d = point_from_order tmul g d.
Proof. intros H. unfold point_from_order. now rewrite mul_t. Qed.
Lemma from_orders_t g l : ec_on p a b (p_point g) = true -> points_from_orders mul g l = points_from_orders tmul g l.
Proof. intros H. unfold points_from_orders. apply map_ext. intros d. now apply from_order_t. Qed.

Lemma prime_t fa ip gens : Forall on_gen gens -> points_gen_prime mul fa ip gens = points_gen_prime tmul fa ip gens.
Proof. intros F. apply mapm_ext. intros s I. rewrite Forall_forall in F. rewrite from_orders_t by auto. reflexivity. Qed.
Lemma allgroups_t fa ip gens : Forall on_gen gens -> points_gen_allgroups mul fa ip gens = points_gen_allgroups tmul fa ip gens.
Proof.
  intros F. apply mapm_ext. intros s I. rewrite Forall_forall in F.
  destruct (subgroups_all fa ip (p_order (s_gen s))) as [[l|]| | |]; cbn [bind]; rewrite ?from_orders_t by auto; reflexivity.
Qed.
Lemma nonprime_t fa ip gens : Forall on_gen gens -> points_gen_nonprime mul fa ip gens = points_gen_nonprime tmul fa ip gens.
Proof.
  intros F. apply mapm_ext. intros s I. rewrite Forall_forall in F.
  destruct (subgroups_nonprime fa ip (p_order (s_gen s))) as [[l|]| | |]; cbn [bind]; rewrite ?from_orders_t by auto; reflexivity.
Qed.
Lemma random_t gens t1 t2 : Forall on_gen gens -> point_gen_random mul ord gens t1 t2 = point_gen_random tmul torder gens t1 t2.
Proof.
  intros F. unfold point_gen_random. destruct (random_range 0 (Z.of_nat (length gens)) t1) as [w| | |]; cbn [bind]; try reflexivity.
  destruct (rd gens (Z.to_nat w)) as [s| | |] eqn:E; cbn [bind]; try reflexivity.
  assert (H : ec_on p a b (p_point (s_gen s)) = true).
  { rewrite Forall_forall in F. apply F. unfold rd in E. destruct (nth_error gens (Z.to_nat w)) eqn:N; [|discriminate].
    injection E as <-. eapply nth_error_In; exact N. }
  destruct (random_range 0 (p_order (s_gen s)) t2) as [m| | |]; cbn [bind]; try reflexivity.
  rewrite mul_t by assumption. rewrite ord_t by now apply tmul_curve. reflexivity.
Qed.
Lemma random_points_t gens n t1 t2 : Forall on_gen gens -> points_gen_random mul ord gens n t1 t2 = points_gen_random tmul torder gens n t1 t2.
Proof.
  intros F. unfold points_gen_random. destruct (length gens =? 0)%nat; [reflexivity|].
  destruct (distribute n (length gens) t1) as [per| | |]; cbn [bind]; try reflexivity.
  apply mapm_ext. intros [i [k s]] I.
  assert (H : ec_on p a b (p_point (s_gen s)) = true).
  { rewrite Forall_forall in F. apply F. apply in_combine_r in I. now apply in_combine_r in I. }
  unfold fill. destruct (k =? 0)%nat; [reflexivity|]. erewrite mapm_ext; [reflexivity|]. intros j _.
  unfold random_point. destruct (p_order (s_gen s) =? 2); [reflexivity|].
  destruct (random_range 1 (p_order (s_gen s)) (t2 i j)) as [m| | |]; cbn [bind]; try reflexivity.
  rewrite mul_t by assumption. rewrite ord_t by now apply tmul_curve. reflexivity.
Qed.
Lemma gens_point_t n q : ec_on p a b q = true -> gens_point ord n q = gens_point torder n q.
Proof. intros H. unfold gens_point. now rewrite ord_t. Qed.
Lemma any_t n gens : Forall (fun g => ec_on p a b g = true) gens -> gens_gen_any ord n gens = gens_gen_any torder n gens.
Proof. intros F. unfold gens_gen_any. f_equal. apply map_ext_in. intros q I. rewrite Forall_forall in F. now apply gens_point_t, F. Qed.
Lemma one_t n gens old : Forall (fun g => ec_on p a b g = true) gens -> gens_gen_one ord n gens old = gens_gen_one torder n gens old.
Proof. intros F. unfold gens_gen_one. now rewrite any_t. Qed.
Lemma cofactor_point_t n h gens : Forall (fun g => ec_on p a b g = true) gens -> cofactor_point mul ord n h gens = cofactor_point tmul torder n h gens.
Proof.
  induction 1 as [|g gens H F IH]; [reflexivity|]. cbn [cofactor_point]. rewrite ord_t, mul_t by assumption. now rewrite IH.
Qed.
Lemma cofactor_t n h gens old : Forall (fun g => ec_on p a b g = true) gens ->
  gens_gen_cofactor mul ord n h gens old = gens_gen_cofactor tmul torder n h gens old.
Proof.
  intros F. unfold gens_gen_cofactor. rewrite cofactor_point_t by assumption.
  replace (map (gens_point ord n) gens) with (map (gens_point torder n) gens); [reflexivity|].
  apply map_ext_in. intros q I. rewrite Forall_forall in F. symmetry. now apply gens_point_t, F.
Qed.
End Curve.
