(** The group of the points of y^2 = x^3 + a x + b modulo a prime p > 3. The definitions are the textbook ones on
    pairs of residues; that they form a finite commutative group with as many elements as [Fp.points] counts is
    proved. Nothing here models /repo. *)
From Coq Require Import Znumtheory Field Zpow_facts Eqdep_dec.
From Verif Require Import Base Fp Ec_Group Abelian Points_Props.
Local Open Scope Z_scope.

(** ** Definitions on integers *)
(** the inverse of a residue *)
Definition finv (p x : Z) : Z := Zpow_mod x (p - 2) p.
Definition residue (p x : Z) : bool := x mod p =? x.
(** [None] is the point at infinity *)
Definition ec_on (p a b : Z) (P : option (Z * Z)) : bool :=
  match P with None => true | Some (x, y) => residue p x && residue p y && on_curve p a b (x, y) end.
Definition ec_third (p l x1 y1 x2 : Z) : option (Z * Z) :=
  let x3 := (l * l - x1 - x2) mod p in Some (x3, (l * (x1 - x3) - y1) mod p).
Definition ec_add (p a : Z) (P Q : option (Z * Z)) : option (Z * Z) :=
  match P, Q with
  | None, _ => Q
  | _, None => P
  | Some (x1, y1), Some (x2, y2) =>
      if x1 =? x2 then
        if (y1 + y2) mod p =? 0 then None else ec_third p ((3 * x1 * x1 + a) * finv p (2 * y1)) x1 y1 x1
      else ec_third p ((y2 - y1) * finv p (x2 - x1)) x1 y1 x2
  end.
Definition ec_neg (p : Z) (P : option (Z * Z)) : option (Z * Z) :=
  match P with None => None | Some (x, y) => Some (x, (- y) mod p) end.
Definition nonsingular (p a b : Z) : Prop := (4 * a ^ 3 + 27 * b ^ 2) mod p <> 0.

(** ** The field *)
Definition el (p : Z) : Type := { x : Z | residue p x = true }.
Lemma fe_proof p z : residue p (z mod p) = true.
Proof. unfold residue. apply Z.eqb_eq. apply Zmod_mod. Qed.
Definition fe (p z : Z) : el p := exist _ (z mod p) (fe_proof p z).
Definition v {p} (x : el p) : Z := proj1_sig x.
Lemma v_eq p (x y : el p) : v x = v y -> x = y.
Proof. destruct x as (x & X), y as (y & Y). cbn. intros <-. f_equal. apply UIP_dec. apply bool_dec. Qed.
Lemma fe_v p (x : el p) : fe p (v x) = x.
Proof. apply v_eq. destruct x as (x & X). cbn. now apply Z.eqb_eq in X. Qed.
Lemma v_fe p z : v (fe p z) = z mod p. Proof. reflexivity. Qed.
Lemma el_dec p (x y : el p) : {x = y} + {x <> y}.
Proof. destruct (Z.eq_dec (v x) (v y)) as [E|E]; [left; now apply v_eq|right; congruence]. Qed.

Section Prime.
Variable p : Z.
Hypothesis PP : prime p.
Notation F := (el p).
Definition fplus (x y : F) : F := fe p (v x + v y).
Definition fmult (x y : F) : F := fe p (v x * v y).
Definition fminus (x y : F) : F := fe p (v x - v y).
Definition fopp (x : F) : F := fe p (- v x).
Definition finve (x : F) : F := fe p (finv p (v x)).
Definition fdiv (x y : F) : F := fmult x (finve y).

Lemma fe_eq x y : x mod p = y mod p -> fe p x = fe p y.
Proof. intros E. apply v_eq. exact E. Qed.
Lemma fe_inj x y : fe p x = fe p y -> x mod p = y mod p.
Proof. intros E. exact (f_equal v E). Qed.
Lemma fe_add x y : fe p (x + y) = fplus (fe p x) (fe p y).
Proof. apply fe_eq. rewrite !v_fe. symmetry. apply (mod_congr p PP); apply Zmod_mod. Qed.
Lemma fe_mul x y : fe p (x * y) = fmult (fe p x) (fe p y).
Proof. apply fe_eq. rewrite !v_fe. symmetry. apply (mod_congr p PP); apply Zmod_mod. Qed.
Lemma fe_sub x y : fe p (x - y) = fminus (fe p x) (fe p y).
Proof. apply fe_eq. rewrite !v_fe. symmetry. apply (mod_congr p PP); apply Zmod_mod. Qed.
Lemma fe_opp x : fe p (- x) = fopp (fe p x).
Proof. change (- x) with (0 - x). rewrite fe_sub. apply fe_eq. rewrite !v_fe, Zmod_0_l. reflexivity. Qed.
Lemma finv_eq x : 1 < p -> finv p x mod p = x ^ (p - 2) mod p.
Proof. intros L. unfold finv. rewrite Zpow_mod_correct by lia. apply Zmod_mod. Qed.
Lemma fe_inv x : fe p (finv p x) = finve (fe p x).
Proof.
  pose proof (p2 p PP). apply fe_eq. rewrite v_fe. rewrite !finv_eq by lia. apply Zpower_mod. lia.
Qed.
Ltac elt x := intros x; rewrite <- (fe_v p x); generalize (v x); clear x; intros x.
Lemma el_ring : ring_theory (fe p 0) (fe p 1) fplus fmult fminus fopp eq.
Proof.
  constructor.
  - elt x. rewrite <- fe_add. f_equal.
  - elt x. elt y. rewrite <- !fe_add. f_equal. ring.
  - elt x. elt y. elt z. rewrite <- !fe_add. f_equal. ring.
  - elt x. rewrite <- fe_mul. f_equal. ring.
  - elt x. elt y. rewrite <- !fe_mul. f_equal. ring.
  - elt x. elt y. elt z. rewrite <- !fe_mul. f_equal. ring.
  - elt x. elt y. elt z. rewrite <- !fe_mul, <- !fe_add, <- fe_mul. f_equal. ring.
  - elt x. elt y. rewrite <- fe_opp, <- fe_add, <- fe_sub. f_equal.
  - elt x. rewrite <- fe_opp, <- fe_add. f_equal. ring.
Qed.
Lemma zero_iff x : fe p x = fe p 0 <-> (p | x).
Proof.
  pose proof (p2 p PP). split; intros E.
  - apply fe_inj in E. rewrite Zmod_0_l in E. apply Z.mod_divide; [lia|exact E].
  - apply fe_eq. rewrite Zmod_0_l. apply Z.mod_divide; [lia|exact E].
Qed.
Lemma el_field : field_theory (fe p 0) (fe p 1) fplus fmult fminus fopp fdiv finve eq.
Proof.
  pose proof (p2 p PP). constructor; [apply el_ring| |reflexivity|].
  - intros E. apply zero_iff in E. apply Z.divide_1_r_nonneg in E; lia.
  - elt x. intros N. rewrite <- fe_inv, <- fe_mul. apply fe_eq.
    assert (D : ~ (p | x)) by (intros D; apply N; now apply zero_iff).
    assert (E : (finv p x * x) mod p = (x ^ (p - 2) * x) mod p) by (apply (mod_congr p PP); [apply finv_eq; lia|reflexivity]).
    rewrite E. replace (x ^ (p - 2) * x) with (x ^ (p - 1)); [exact (fermat p PP x D)|]. replace (p - 1) with (Z.succ (p - 2)) by lia. rewrite Z.pow_succ_r by lia. ring.
Qed.

(** ** The curve *)
Variables a b : Z.
Hypothesis big : 2 < p.
Hypothesis ns : nonsingular p a b.
Notation gadd := (Ec_Group.add F (fe p 0) (fe p 1) fplus fmult fminus fdiv (el_dec p) (fe p a)).
Notation gneg := (Ec_Group.neg F fopp).
Notation gon := (Ec_Group.on F fplus fmult (fe p a) (fe p b)).
Definition up (P : option (Z * Z)) : Ec_Group.pt F := match P with None => None | Some (x, y) => Some (fe p x, fe p y) end.

Lemma two_ne : fplus (fe p 1) (fe p 1) <> fe p 0.
Proof. rewrite <- fe_add. intros E. apply zero_iff in E. apply Z.divide_pos_le in E; lia. Qed.
Lemma gon_iff x y : gon (Some (fe p x, fe p y)) <-> on_curve p a b (x, y) = true.
Proof.
  unfold Ec_Group.on, on_curve. rewrite Z.eqb_eq. rewrite <- !fe_mul, <- !fe_add. replace (x ^ 3) with (x * x * x) by ring. split; [apply fe_inj|apply fe_eq].
Qed.
Lemma smooth_ok : forall x : F, fmult (fe p 0) (fe p 0) = fplus (fplus (fmult (fmult x x) x) (fmult (fe p a) x)) (fe p b) ->
  fplus (fmult (fmult (fplus (fplus (fe p 1) (fe p 1)) (fe p 1)) x) x) (fe p a) <> fe p 0.
Proof.
  elt x. intros E D. rewrite <- !fe_mul, <- !fe_add in *. rewrite <- !fe_mul, <- !fe_add in *.
  apply fe_inj in E. apply (mod_eq p PP) in E. apply zero_iff in D. apply ns. apply Z.mod_divide; [lia|].
  (* 4 a^3 + 27 b^2 is a combination of the cubic and its derivative *)
  destruct E as (k & E), D as (q & D).
  exists (- k * (27 * b - 27 * (x * x * x + a * x)) + q * (9 * x * x * x * x + 15 * a * x * x + 4 * a * a)).
  replace (4 * a ^ 3 + 27 * b ^ 2) with (- (0 * 0 - (x * x * x + a * x + b)) * (27 * b - 27 * (x * x * x + a * x)) + ((1 + 1 + 1) * x * x + a) * (9 * x * x * x * x + 15 * a * x * x + 4 * a * a)) by ring.
  rewrite E, D. ring.
Qed.
Lemma res_fe x y : residue p x = true -> residue p y = true -> (fe p x = fe p y <-> x = y).
Proof. unfold residue. rewrite !Z.eqb_eq. intros A B. split; [intros E; apply fe_inj in E; congruence|now intros ->]. Qed.
Lemma up_third l x1 y1 x2 : up (ec_third p l x1 y1 x2) = Ec_Group.third F fmult fminus (fe p l) (fe p x1) (fe p y1) (fe p x2).
Proof.
  unfold ec_third, Ec_Group.third, up. cbv zeta. rewrite <- fe_mul, <- !fe_sub.
  assert (M : forall z, fe p (z mod p) = fe p z) by (intros z; apply fe_eq; apply Zmod_mod). rewrite !M. f_equal. f_equal.
  rewrite !fe_sub, !fe_mul, !fe_sub, M. rewrite !fe_sub, fe_mul. reflexivity.
Qed.
Lemma ec_on_parts P : ec_on p a b P = true -> match P with None => True | Some (x, y) => residue p x = true /\ residue p y = true /\ on_curve p a b (x, y) = true end.
Proof. destruct P as [(x, y)|]; [|trivial]. unfold ec_on. rewrite !andb_true_iff. tauto. Qed.
Lemma up_add P Q : ec_on p a b P = true -> ec_on p a b Q = true -> up (ec_add p a P Q) = gadd (up P) (up Q).
Proof.
  destruct P as [(x1, y1)|], Q as [(x2, y2)|]; try reflexivity. intros A B. apply ec_on_parts in A, B. destruct A as (A1 & A2 & _), B as (B1 & B2 & _).
  unfold ec_add, Ec_Group.add, up at 2 3. destruct (el_dec p (fe p x1) (fe p x2)) as [E|E].
  - apply res_fe in E; auto. subst x2. rewrite Z.eqb_refl. destruct (el_dec p (fplus (fe p y1) (fe p y2)) (fe p 0)) as [E|E].
    + rewrite <- fe_add in E. apply fe_inj in E. rewrite Zmod_0_l in E. rewrite E. reflexivity.
    + destruct (Z.eqb_spec ((y1 + y2) mod p) 0) as [E2|_]; [destruct E; rewrite <- fe_add; apply fe_eq; now rewrite Zmod_0_l|].
      rewrite up_third. f_equal. unfold Ec_Group.tangent, fdiv. rewrite fe_mul, fe_inv. f_equal; [|f_equal]; rewrite <- ?fe_add, <- ?fe_mul; rewrite <- ?fe_add, <- ?fe_mul; rewrite <- ?fe_add; reflexivity.
  - destruct (Z.eqb_spec x1 x2) as [->|_]; [now destruct E|]. rewrite up_third. f_equal. unfold Ec_Group.chord, fdiv. rewrite fe_mul, fe_inv, !fe_sub. reflexivity.
Qed.
Lemma up_neg P : up (ec_neg p P) = gneg (up P).
Proof. destruct P as [(x, y)|]; [|reflexivity]. cbn. rewrite <- fe_opp. do 2 f_equal. apply fe_eq. apply Zmod_mod. Qed.
Lemma up_on P : ec_on p a b P = true -> gon (up P).
Proof. intros H. apply ec_on_parts in H. destruct P as [(x, y)|]; [|exact I]. apply gon_iff. tauto. Qed.
Definition reduced (P : option (Z * Z)) : Prop := match P with None => True | Some (x, y) => residue p x = true /\ residue p y = true end.
Lemma on_reduced P : ec_on p a b P = true -> reduced P.
Proof. intros H. apply ec_on_parts in H. destruct P as [(x, y)|]; cbn; tauto. Qed.
Lemma up_inj P Q : reduced P -> reduced Q -> up P = up Q -> P = Q.
Proof.
  destruct P as [(x1, y1)|], Q as [(x2, y2)|]; cbn [reduced up]; try discriminate; [|reflexivity]. intros (A & B) (C & D) E.
  assert (E1 : fe p x1 = fe p x2) by congruence. assert (E2 : fe p y1 = fe p y2) by congruence. apply res_fe in E1, E2; auto. congruence.
Qed.
Lemma on_up P : reduced P -> gon (up P) -> ec_on p a b P = true.
Proof. destruct P as [(x, y)|]; [|reflexivity]. intros (A & B) H. apply gon_iff in H. cbn. unfold ec_on. now rewrite A, B. Qed.
Lemma third_reduced l x1 y1 x2 : reduced (ec_third p l x1 y1 x2).
Proof. cbn. split; apply fe_proof. Qed.
Lemma add_reduced P Q : reduced P -> reduced Q -> reduced (ec_add p a P Q).
Proof.
  destruct P as [(x1, y1)|], Q as [(x2, y2)|]; intros A B; try assumption. unfold ec_add. destruct (_ =? _); [destruct (_ =? _); [exact I|]|]; apply third_reduced.
Qed.
Lemma neg_reduced P : reduced P -> reduced (ec_neg p P).
Proof. destruct P as [(x, y)|]; [|trivial]. cbn. intros (A & _). split; [exact A|apply fe_proof]. Qed.
Theorem ec_add_on P Q : ec_on p a b P = true -> ec_on p a b Q = true -> ec_on p a b (ec_add p a P Q) = true.
Proof.
  intros A B. apply on_up; [apply add_reduced; now apply on_reduced|]. rewrite up_add by assumption.
  apply (Ec_Group.on_add _ _ _ _ _ _ _ _ _ el_field (el_dec p) two_ne); now apply up_on.
Qed.
Theorem ec_neg_on P : ec_on p a b P = true -> ec_on p a b (ec_neg p P) = true.
Proof. intros A. apply on_up; [apply neg_reduced; now apply on_reduced|]. rewrite up_neg. apply (Ec_Group.on_neg _ _ _ _ _ _ _ _ _ el_field). now apply up_on. Qed.

(** ** The group *)
Definition point : Type := { P : option (Z * Z) | ec_on p a b P = true }.
Definition xy (P : point) : option (Z * Z) := proj1_sig P.
Lemma xy_eq P Q : xy P = xy Q -> P = Q.
Proof. destruct P as (P & A), Q as (Q & B). cbn. intros <-. f_equal. apply UIP_dec. apply bool_dec. Qed.
Definition padd (P Q : point) : point := exist _ _ (ec_add_on (xy P) (xy Q) (proj2_sig P) (proj2_sig Q)).
Definition pneg (P : point) : point := exist _ _ (ec_neg_on (xy P) (proj2_sig P)).
Definition pinf : point := exist _ None eq_refl.
Lemma padd_xy P Q : xy (padd P Q) = ec_add p a (xy P) (xy Q). Proof. reflexivity. Qed.
Lemma up_eq P Q : up (xy P) = up (xy Q) -> P = Q.
Proof. intros E. apply xy_eq. apply up_inj; [apply on_reduced, (proj2_sig P)|apply on_reduced, (proj2_sig Q)|exact E]. Qed.
Lemma up_padd P Q : up (xy (padd P Q)) = gadd (up (xy P)) (up (xy Q)).
Proof. exact (up_add (xy P) (xy Q) (proj2_sig P) (proj2_sig Q)). Qed.
Theorem points_group : Abelian.group padd pneg pinf.
Proof.
  assert (O : forall P, gon (up (xy P))) by (intros P; apply up_on, (proj2_sig P)). constructor.
  - intros P Q R. apply up_eq. rewrite !up_padd. symmetry. apply (Ec_Group.add_assoc _ _ _ _ _ _ _ _ _ el_field (el_dec p) two_ne (fe p a) (fe p b) smooth_ok); apply O.
  - intros P Q. apply up_eq. rewrite !up_padd. apply (Ec_Group.add_comm _ _ _ _ _ _ _ _ _ el_field (el_dec p) (fe p a) (fe p b)); apply O.
  - intros P. apply up_eq. rewrite up_padd. reflexivity.
  - intros P. apply up_eq. rewrite up_padd. change (xy (pneg P)) with (ec_neg p (xy P)). rewrite up_neg. apply (Ec_Group.add_opposite _ _ _ _ _ _ _ _ _ el_field).
Qed.

(** all points *)
Definition coords : list (option (Z * Z)) := None :: map Some (filter (on_curve p a b) (list_prod (elements p) (elements p))).
Fixpoint into (l : list (option (Z * Z))) : list point :=
  match l with
  | [] => []
  | P :: l => match bool_dec (ec_on p a b P) true with left H => exist _ P H :: into l | right _ => into l end
  end.
Lemma into_map l : (forall P, In P l -> ec_on p a b P = true) -> map xy (into l) = l.
Proof.
  induction l as [|P l IH]; intros H; [reflexivity|]. cbn [into]. destruct (bool_dec _ _) as [E|E]; [|destruct E; apply H; now left].
  cbn [map xy proj1_sig]. f_equal. apply IH. intros; apply H; now right.
Qed.
Lemma residue_iff x : residue p x = true <-> In x (elements p).
Proof.
  unfold residue. rewrite Z.eqb_eq, in_elements. split; [intros <-; apply Z.mod_pos_bound; lia|intros H; now apply Z.mod_small].
Qed.
Lemma coords_on P : In P coords <-> ec_on p a b P = true.
Proof.
  unfold coords. destruct P as [(x, y)|]; [|split; [reflexivity|now left]]. split.
  - intros [H|H]; [discriminate|]. apply in_map_iff in H. destruct H as (q & [= ->] & H). apply filter_In in H. destruct H as (H & O). apply in_prod_iff in H. destruct H as (X & Y).
    apply residue_iff in X, Y. unfold ec_on. now rewrite X, Y, O.
  - intros H. apply ec_on_parts in H. destruct H as (X & Y & O). right. apply in_map. apply filter_In. split; [|exact O]. apply in_prod_iff. split; now apply residue_iff.
Qed.
Definition all_points : list point := into coords.
Lemma coords_all : map xy all_points = coords.
Proof. apply into_map. intros P H. now apply coords_on. Qed.
Lemma all_points_in P : In P all_points.
Proof.
  assert (H : In (xy P) coords) by (apply coords_on, (proj2_sig P)). rewrite <- coords_all in H. apply in_map_iff in H. destruct H as (Q & E & H). apply xy_eq in E. now subst.
Qed.
Lemma app_nodup {A} (l m : list A) : NoDup l -> NoDup m -> (forall x, In x l -> ~ In x m) -> NoDup (l ++ m).
Proof.
  intros L M D. induction L as [|x l X L IH]; cbn [app]; [exact M|]. constructor; [|apply IH; intros; apply D; now right].
  rewrite in_app_iff. intros [H|H]; [contradiction|]. apply (D x); [now left|exact H].
Qed.
Lemma prod_nodup {A B} (l : list A) (m : list B) : NoDup l -> NoDup m -> NoDup (list_prod l m).
Proof.
  intros L M. induction L as [|x l X L IH]; cbn [list_prod]; [constructor|]. apply app_nodup; [|exact IH|].
  - apply FinFun.Injective_map_NoDup; [intros u w; congruence|exact M].
  - intros (u, w) H K. apply in_map_iff in H. destruct H as (y & [= <- <-] & _). apply in_prod_iff in K. tauto.
Qed.
Lemma all_points_nodup : NoDup all_points.
Proof.
  apply (NoDup_map_inv xy). rewrite coords_all. unfold coords. constructor.
  - intros H. apply in_map_iff in H. destruct H as (q & H & _). discriminate.
  - apply FinFun.Injective_map_NoDup; [intros u w; congruence|]. apply NoDup_filter. apply prod_nodup; apply elements_nodup.
Qed.
Theorem all_points_count : Z.of_nat (length all_points) = points p a b.
Proof.
  rewrite <- (map_length xy), coords_all. unfold coords, points. cbn [length]. rewrite map_length. lia.
Qed.
Lemma point_dec (P Q : point) : {P = Q} + {P <> Q}.
Proof.
  assert (D : {xy P = xy Q} + {xy P <> xy Q}) by (decide equality; decide equality; apply Z.eq_dec).
  destruct D as [E|E]; [left; now apply xy_eq|right; congruence].
Qed.
(** the multiple of a point, its order *)
Definition pmul : point -> Z -> point := zmul padd pneg pinf.
Definition porder : point -> Z := Abelian.order padd pneg pinf point_dec all_points.
Theorem points_contract : group_ok pinf pmul porder.
Proof. exact (group_contract padd pneg pinf points_group point_dec all_points all_points_in all_points_nodup). Qed.
Theorem points_lagrange P : pmul P (points p a b) = pinf.
Proof. rewrite <- all_points_count. exact (lagrange padd pneg pinf points_group point_dec all_points all_points_in all_points_nodup P). Qed.
Theorem order_divides_points P n : order_is pinf pmul P n -> (n | points p a b).
Proof. intros (_ & O). apply O. apply points_lagrange. Qed.
Theorem generator_has_all P n : order_is pinf pmul P n -> (forall Q, exists k, Q = pmul P k) -> n = points p a b.
Proof.
  intros O G. rewrite <- all_points_count.
  exact (generator_order padd pneg pinf points_group point_dec all_points all_points_in all_points_nodup P n O G).
Qed.
Theorem prime_points_generate P n : prime (points p a b) -> order_is pinf pmul P n -> P <> pinf -> n = points p a b.
Proof.
  rewrite <- all_points_count. intros A B C.
  exact (prime_generates padd pneg pinf points_group point_dec all_points all_points_in all_points_nodup P n A B C).
Qed.
End Prime.
Print Assumptions points_group.
Print Assumptions points_contract.
Print Assumptions all_points_count.
