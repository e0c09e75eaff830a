(** Curves over both kinds of fields: y^2 = x^3 + a x + b modulo an odd prime (Ec_Fp) and y^2 + x y = x^3 + a x^2 + b
    over GF(2)[z] modulo an irreducible polynomial (Ec_F2m). The points form a finite commutative group with as many
    elements as [points] counts. Elements are numbers; the element of a binary field is its value at z = 2. Nothing here
    models /repo. *)
From Coq Require Import Znumtheory Field Eqdep_dec.
From Verif Require Import Base Fp Abelian Points_Props Poly_Model Irr_Spec GF2.
From Verif Require Ec_Group Ec_Fp Ec_F2m Ec_Some Irr_Props.
Local Open Scope Z_scope.

(** ** Definitions *)
Notation to_N := Irr_Props.to_N.
Definition field_size (f : field) : Z := match f with Prime p => p | Binary c => Ec_F2m.bsize (to_N c) end.
Definition ec_on (f : field) (a b : Z) (P : option (Z * Z)) : bool :=
  match f with Prime p => Ec_Fp.ec_on p a b P | Binary c => Ec_F2m.ec2_on (to_N c) a b P end.
Definition ec_add (f : field) (a : Z) (P Q : option (Z * Z)) : option (Z * Z) :=
  match f with Prime p => Ec_Fp.ec_add p a P Q | Binary c => Ec_F2m.ec2_add (to_N c) a P Q end.
Definition ec_neg (f : field) (P : option (Z * Z)) : option (Z * Z) :=
  match f with Prime p => Ec_Fp.ec_neg p P | Binary _ => Ec_F2m.ec2_neg P end.
Definition points (f : field) (a b : Z) : Z :=
  match f with Prime p => Fp.points p a b | Binary c => Ec_F2m.points2 (to_N c) a b end.
Definition nonsingular (f : field) (a b : Z) : Prop := match f with Prime p => Ec_Fp.nonsingular p a b | Binary _ => b <> 0 end.
(** a field over which the curves have the equations above *)
Definition field_ok (f : field) : Prop := match f with Prime p => prime p /\ 2 < p | Binary c => irreducible_poly c end.
(** a coefficient of a curve; over a prime field any number will do, it stands for its residue *)
Definition inside (f : field) (x : Z) : Prop := match f with Prime _ => True | Binary c => Ec_F2m.bres (to_N c) x = true end.
Record curve_ok (f : field) (a b : Z) : Prop := { co_field : field_ok f; co_a : inside f a; co_b : inside f b; co_ns : nonsingular f a b }.

(** ** The laws *)
Section Laws.
Variable f : field.
Variables a b : Z.
Hypothesis ns : curve_ok f a b.
Notation on P := (ec_on f a b P = true).
Theorem ec_add_on P Q : on P -> on Q -> on (ec_add f a P Q).
Proof.
  destruct ns as [F A B N]. destruct f as [p|c].
  - destruct F as (F & G). exact (Ec_Fp.ec_add_on p F a b G P Q).
  - exact (Ec_F2m.ec2_add_on (to_N c) (Irr_Props.irreducible_to_N c F) a b A B P Q).
Qed.
Theorem ec_neg_on P : on P -> on (ec_neg f P).
Proof.
  destruct ns as [F A B N]. destruct f as [p|c].
  - destruct F as (F & G). exact (Ec_Fp.ec_neg_on p F a b P).
  - exact (Ec_F2m.ec2_neg_on (to_N c) (Irr_Props.irreducible_to_N c F) a b A B P).
Qed.
Theorem ec_assoc P Q R : on P -> on Q -> on R -> ec_add f a P (ec_add f a Q R) = ec_add f a (ec_add f a P Q) R.
Proof.
  destruct ns as [F A B N]. destruct f as [p|c]; intros HP HQ HR.
  - destruct F as (F & G). pose proof (g_assoc _ _ _ (Ec_Fp.points_group p F a b G N) (exist _ P HP) (exist _ Q HQ) (exist _ R HR)) as E.
    exact (f_equal (@proj1_sig _ _) E).
  - exact (Ec_F2m.ec2_assoc (to_N c) (Irr_Props.irreducible_to_N c F) a b A B N P Q R HP HQ HR).
Qed.
Theorem ec_comm P Q : on P -> on Q -> ec_add f a P Q = ec_add f a Q P.
Proof.
  destruct ns as [F A B N]. destruct f as [p|c]; intros HP HQ.
  - destruct F as (F & G). pose proof (g_comm _ _ _ (Ec_Fp.points_group p F a b G N) (exist _ P HP) (exist _ Q HQ)) as E.
    exact (f_equal (@proj1_sig _ _) E).
  - exact (Ec_F2m.ec2_comm (to_N c) (Irr_Props.irreducible_to_N c F) a b A B P Q HP HQ).
Qed.
Theorem ec_opposite P : on P -> ec_add f a P (ec_neg f P) = None.
Proof.
  destruct ns as [F A B N]. destruct f as [p|c]; intros HP.
  - destruct F as (F & G). pose proof (g_inv _ _ _ (Ec_Fp.points_group p F a b G N) (exist _ P HP)) as E.
    exact (f_equal (@proj1_sig _ _) E).
  - exact (Ec_F2m.ec2_opposite (to_N c) (Irr_Props.irreducible_to_N c F) a b A B P HP).
Qed.
Lemma ec_zero P : ec_add f a P None = P /\ ec_add f a None P = P.
Proof. clear ns. destruct f as [p|c], P as [(x, y)|]; split; reflexivity. Qed.

(** ** The group *)
Definition point : Type := { P : option (Z * Z) | ec_on f a b P = true }.
Definition xy (P : point) : option (Z * Z) := proj1_sig P.
Lemma xy_eq P Q : xy P = xy Q -> P = Q.
Proof. destruct P as (P & A), Q as (Q & B). cbn. intros <-. f_equal. apply UIP_dec. apply bool_dec. Qed.
Lemma inf_on : ec_on f a b None = true. Proof. clear ns. destruct f; reflexivity. Qed.
Definition padd (P Q : point) : point := exist _ _ (ec_add_on (xy P) (xy Q) (proj2_sig P) (proj2_sig Q)).
Definition pneg (P : point) : point := exist _ _ (ec_neg_on (xy P) (proj2_sig P)).
Definition pinf : point := exist _ None inf_on.
Lemma padd_xy P Q : xy (padd P Q) = ec_add f a (xy P) (xy Q). Proof. reflexivity. Qed.
Theorem points_group : Abelian.group padd pneg pinf.
Proof.
  constructor.
  - intros P Q R. apply xy_eq. exact (ec_assoc _ _ _ (proj2_sig P) (proj2_sig Q) (proj2_sig R)).
  - intros P Q. apply xy_eq. exact (ec_comm _ _ (proj2_sig P) (proj2_sig Q)).
  - intros P. apply xy_eq. apply ec_zero.
  - intros P. apply xy_eq. exact (ec_opposite _ (proj2_sig P)).
Qed.

(** all points *)
Definition affine_on (P : Z * Z) : bool := match f with Prime p => on_curve p a b P | Binary c => Ec_F2m.on_curve2 (to_N c) a b P end.
Definition coords : list (option (Z * Z)) := None :: map Some (filter affine_on (list_prod (elements (field_size f)) (elements (field_size f)))).
Fixpoint into (l : list (option (Z * Z))) : list point :=
  match l with
  | [] => []
  | P :: l => match bool_dec (ec_on f a b P) true with left H => exist _ P H :: into l | right _ => into l end
  end.
Lemma into_map l : (forall P, In P l -> ec_on f a b P = true) -> map xy (into l) = l.
Proof.
  induction l as [|P l IH]; intros H; [reflexivity|]. cbn [into]. destruct (bool_dec _ _) as [E|E]; [|destruct E; apply H; now left].
  cbn [map xy proj1_sig]. f_equal. apply IH. intros; apply H; now right.
Qed.
Lemma ec_on_iff x y : ec_on f a b (Some (x, y)) = true <-> In x (elements (field_size f)) /\ In y (elements (field_size f)) /\ affine_on (x, y) = true.
Proof.
  destruct ns as [F A B N]. unfold ec_on, affine_on. destruct f as [p|c]; cbn [field_size].
  - destruct F as (F & G). unfold Ec_Fp.ec_on. rewrite !andb_true_iff, !(Ec_Fp.residue_iff p G). tauto.
  - unfold Ec_F2m.ec2_on. rewrite !andb_true_iff, !(Ec_F2m.in_els (to_N c)). tauto.
Qed.
Lemma coords_on P : In P coords <-> ec_on f a b P = true.
Proof.
  unfold coords. destruct P as [(x, y)|]; [|split; [intros _; exact inf_on|now left]]. rewrite ec_on_iff. split.
  - intros [H|H]; [discriminate|]. apply in_map_iff in H. destruct H as (q & [= ->] & H). apply filter_In in H. destruct H as (H & O). apply in_prod_iff in H. tauto.
  - intros (X & Y & O). right. apply in_map. apply filter_In. split; [|exact O]. apply in_prod_iff. tauto.
Qed.
Definition all_points : list point := into coords.
Lemma coords_all : map xy all_points = coords.
Proof. apply into_map. intros P H. now apply coords_on. Qed.
Lemma all_points_in P : In P all_points.
Proof.
  assert (H : In (xy P) coords) by (apply coords_on, (proj2_sig P)). rewrite <- coords_all in H. apply in_map_iff in H. destruct H as (Q & E & H). apply xy_eq in E. now subst.
Qed.
Lemma all_points_nodup : NoDup all_points.
Proof.
  apply (NoDup_map_inv xy). rewrite coords_all. unfold coords. constructor.
  - intros H. apply in_map_iff in H. destruct H as (q & H & _). discriminate.
  - apply FinFun.Injective_map_NoDup; [intros u w; congruence|]. apply NoDup_filter. apply Ec_Fp.prod_nodup; apply elements_nodup.
Qed.
Theorem all_points_count : Z.of_nat (length all_points) = points f a b.
Proof.
  rewrite <- (map_length xy), coords_all. unfold coords, points, affine_on. cbn [length]. rewrite map_length.
  rewrite Nat2Z.inj_succ. unfold Z.succ. destruct f as [p|c]; [reflexivity|]. rewrite Z.add_comm. reflexivity.
Qed.
Lemma point_dec (P Q : point) : {P = Q} + {P <> Q}.
Proof.
  assert (D : {xy P = xy Q} + {xy P <> xy Q}) by (decide equality; decide equality; apply Z.eq_dec).
  destruct D as [E|E]; [left; now apply xy_eq|right; congruence].
Qed.
(** the multiple of a point, its order *)
Definition pmul : point -> Z -> point := zmul padd pneg pinf.
Definition porder : point -> Z := Abelian.order padd pneg pinf point_dec all_points.
Theorem points_contract : group_ok pinf pmul porder.
Proof. exact (group_contract padd pneg pinf points_group point_dec all_points all_points_in all_points_nodup). Qed.
Theorem points_lagrange P : pmul P (points f a b) = pinf.
Proof. rewrite <- all_points_count. exact (lagrange padd pneg pinf points_group point_dec all_points all_points_in all_points_nodup P). Qed.
Theorem order_divides_points P n : order_is pinf pmul P n -> (n | points f a b).
Proof. intros (_ & O). apply O. apply points_lagrange. Qed.
Theorem generator_has_all P n : order_is pinf pmul P n -> (forall Q, exists k, Q = pmul P k) -> n = points f a b.
Proof.
  intros O G. rewrite <- all_points_count.
  exact (generator_order padd pneg pinf points_group point_dec all_points all_points_in all_points_nodup P n O G).
Qed.
Theorem prime_points_generate P n : prime (points f a b) -> order_is pinf pmul P n -> P <> pinf -> n = points f a b.
Proof.
  rewrite <- all_points_count. intros A B C.
  exact (prime_generates padd pneg pinf points_group point_dec all_points all_points_in all_points_nodup P n A B C).
Qed.

(** ** How many points *)
Lemma field_size_pos : 2 <= field_size f.
Proof.
  destruct ns as [F _ _ _]. destruct f as [p|c]; cbn [field_size]; [destruct F; lia|]. exact (Ec_F2m.size2 (to_N c) (Irr_Props.irreducible_to_N c F)).
Qed.
Lemma points_bound : 1 <= points f a b <= 1 + field_size f * field_size f.
Proof.
  rewrite <- all_points_count, <- (map_length xy), coords_all. unfold coords. cbn [length]. rewrite map_length.
  pose proof field_size_pos as S2.
  assert (L : (length (filter affine_on (list_prod (elements (field_size f)) (elements (field_size f)))) <= length (list_prod (elements (field_size f)) (elements (field_size f))))%nat)
    by (generalize (list_prod (elements (field_size f)) (elements (field_size f))); intros l; induction l as [|x l IH]; cbn [filter]; [lia|]; destruct (affine_on x); cbn [length]; lia).
  rewrite prod_length in L. assert (E : Z.of_nat (length (elements (field_size f))) = field_size f) by (unfold elements; rewrite map_length, seq_length; lia). nia.
Qed.
End Laws.

(** squaring is a bijection of a binary field, so (0, y) is a point for the root y of b *)
Section Two.
Variable T : Type.
Variables zero one : T.
Variables add mul div : T -> T -> T.
Variable inv : T -> T.
Hypothesis FT : field_theory zero one add mul add (fun x => x) div inv eq.
Hypothesis dec : forall x y : T, {x = y} + {x <> y}.
Hypothesis TZ : add one one = zero.
Add Field two_field : FT.
Lemma square_unique u w : mul u u = mul w w -> u = w.
Proof.
  intros Q. assert (D : forall x, add x x = zero) by (intros x; transitivity (mul x (add one one)); [ring|rewrite TZ; ring]).
  assert (SS : mul (add u w) (add u w) = zero).
  { transitivity (add (add (mul u u) (mul w w)) (mul (add one one) (mul u w))); [ring|]. rewrite TZ, Q, D. ring. }
  destruct (dec (add u w) zero) as [E|E].
  - transitivity (add (add u w) w); [|rewrite E; ring]. transitivity (add u (add w w)); [rewrite D|]; ring.
  - exfalso. apply E. transitivity (mul (inv (add u w)) (mul (add u w) (add u w))); [field; exact E|rewrite SS; ring].
Qed.
End Two.
Lemma square_inj d (ID : irreducible d) x y : Ec_F2m.bres d x = true -> Ec_F2m.bres d y = true -> Ec_F2m.bmul d x x = Ec_F2m.bmul d y y -> x = y.
Proof.
  intros X Y E. pose (u := exist (fun x => Ec_F2m.bres d x = true) x X : Ec_F2m.el d). pose (w := exist (fun x => Ec_F2m.bres d x = true) y Y : Ec_F2m.el d).
  assert (Q : Ec_F2m.fmult d ID u u = Ec_F2m.fmult d ID w w) by (apply Ec_F2m.v_eq; exact E).
  exact (f_equal (@proj1_sig _ _) (square_unique _ _ _ _ _ _ _ (Ec_F2m.el_field d ID) (Ec_F2m.el_dec d) (Ec_F2m.two_zero d ID) u w Q)).
Qed.
Lemma square_root d (ID : irreducible d) b : Ec_F2m.bres d b = true -> exists y, Ec_F2m.bres d y = true /\ Ec_F2m.bmul d y y = b.
Proof.
  intros B. set (l := elements (Ec_F2m.bsize d)). set (m := map (fun y => Ec_F2m.bmul d y y) l).
  assert (N : NoDup m).
  { unfold m. apply Ec_Some.injective_nodup; [apply elements_nodup|]. intros x y X Y. apply (square_inj d ID); now apply Ec_F2m.in_els. }
  assert (I : incl m l) by (intros x X; unfold m in X; apply in_map_iff in X; destruct X as (y & <- & _); apply Ec_F2m.in_els; apply Ec_F2m.bmul_ok; exact ID).
  assert (J : incl l m) by (apply NoDup_length_incl; [exact N|unfold m; rewrite map_length; lia|exact I]).
  apply Ec_F2m.in_els in B. apply J in B. unfold m in B. apply in_map_iff in B. destruct B as (y & <- & Y). exists y. split; [now apply Ec_F2m.in_els|reflexivity].
Qed.
Theorem many_points f a b : curve_ok f a b -> match f with Prime p => 3 < p | Binary _ => True end -> 1 < points f a b.
Proof.
  intros ns L. destruct f as [p|c]; [apply Ec_Some.many_points; [exact (proj1 (co_field _ _ _ ns))|exact L]|].
  destruct ns as [F A B N]. cbn in F, A, B. pose proof (Irr_Props.irreducible_to_N c F) as ID. destruct (square_root _ ID b B) as (y & Y & E).
  assert (I : In (0, y) (filter (Ec_F2m.on_curve2 (to_N c) a b) (list_prod (elements (Ec_F2m.bsize (to_N c))) (elements (Ec_F2m.bsize (to_N c)))))).
  { apply filter_In. split; [apply in_prod; apply Ec_F2m.in_els; [apply Ec_F2m.zero_ok; exact ID|exact Y]|]. unfold Ec_F2m.on_curve2. rewrite E.
    assert (Z0 : forall x, Ec_F2m.bmul (to_N c) 0 x = 0) by reflexivity. 
    assert (Z1 : forall x, Ec_F2m.bmul (to_N c) x 0 = 0) by (intros x; unfold Ec_F2m.bmul; rewrite pmul_comm; reflexivity). rewrite !Z0, !Z1.
    apply Ec_F2m.bres_iff in B. unfold Ec_F2m.badd. cbn. rewrite N.lxor_0_r. apply Z.eqb_refl. }
  cbn [points]. unfold Ec_F2m.points2. destruct (filter _ _) as [|q l]; [destruct I|]. cbn [length]. lia.
Qed.
Print Assumptions points_group.
Print Assumptions points_contract.
Print Assumptions all_points_count.
Print Assumptions many_points.
