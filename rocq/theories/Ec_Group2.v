(** The points of an elliptic curve y^2 + x y = x^3 + a x^2 + b with b <> 0 over a field in which 1 + 1 = 0 form a
    group under the chord and tangent rule. Nothing here is about the program; it is what the number of
    points and the order of a point mean over a binary field. *)
From Coq Require Import Field Ring Bool.

Section Group.
Variable F : Type.
Variables (zero one : F) (plus mult minus : F -> F -> F) (opp inv : F -> F) (div : F -> F -> F).
Hypothesis FT : field_theory zero one plus mult minus opp div inv (@eq F).
Hypothesis eqd : forall x y : F, {x = y} + {x <> y}.
Local Infix "+" := plus. Local Infix "*" := mult. Local Infix "-" := minus. Local Notation "- x" := (opp x). Local Infix "/" := div.
Hypothesis two_zero : one + one = zero.

(** ** The field: the coefficients of polynomials are those of GF(2) *)
Definition phi (x : bool) : F := if x then one else zero.
Lemma opp_same x : - x = x.
Proof.
  pose proof (F_R FT) as R.
  assert (E : x + x = zero).
  { transitivity ((one + one) * x).
    - rewrite (Rdistr_l R), !(Rmul_1_l R). reflexivity.
    - rewrite two_zero. rewrite <- (Radd_0_l R (zero * x)). rewrite <- (Ropp_def R (zero * x)) at 1.
      rewrite <- (Radd_assoc R), (Radd_comm R (- (zero * x))), (Radd_assoc R), <- (Rdistr_l R), (Radd_0_l R). apply (Ropp_def R). }
  rewrite <- (Radd_0_l R (- x)), <- E, <- (Radd_assoc R), (Ropp_def R). rewrite (Radd_comm R). apply (Radd_0_l R).
Qed.
Lemma phi_morph : ring_morph zero one plus mult minus opp (@eq F) false true xorb andb xorb (fun x => x) Bool.eqb phi.
Proof.
  pose proof (F_R FT) as R.
  assert (Z : forall x, zero * x = zero).
  { intros x. rewrite <- (Radd_0_l R (zero * x)). rewrite <- (Ropp_def R (zero * x)) at 1.
    rewrite <- (Radd_assoc R), (Radd_comm R (- (zero * x))), (Radd_assoc R), <- (Rdistr_l R), (Radd_0_l R). apply (Ropp_def R). }
  assert (ZR : forall x, x + zero = x) by (intros x; rewrite (Radd_comm R); apply (Radd_0_l R)).
  constructor; try reflexivity.
  - intros [] []; cbn; rewrite ?two_zero, ?(Radd_0_l R), ?ZR; reflexivity.
  - intros [] []; cbn; rewrite (Rsub_def R), opp_same; rewrite ?two_zero, ?(Radd_0_l R), ?ZR; reflexivity.
  - intros [] []; cbn; rewrite ?(Rmul_1_l R), ?Z; reflexivity.
  - intros []; cbn; now rewrite opp_same.
  - intros [] []; cbn; intros E; try reflexivity; discriminate.
Qed.
Lemma eqb_true x y : Bool.eqb x y = true -> phi x = phi y.
Proof. intros E. apply eqb_prop in E. now subst. Qed.
Ltac bool_const t := match t with zero => constr:(false) | one => constr:(true) | _ => constr:(InitialRing.NotConstant) end.
Add Field FF : FT (morphism phi_morph, constants [bool_const]).

Variables a b : F.
Local Notation on_xy x y := (y * y + x * y = x * x * x + a * x * x + b).
(** no point of the curve has a tangent in every direction *)
Hypothesis smooth : b <> zero.

(** ** Points *)
Definition pt := option (F * F).
Definition on (P : pt) : Prop := match P with None => True | Some (x, y) => on_xy x y end.
Definition neg (P : pt) : pt := match P with None => None | Some (x, y) => Some (x, x + y) end.
(** the third point on the line with slope l through (x1, y1) and a point with coordinate x2, reflected *)
Definition third (l x1 y1 x2 : F) : pt := let x3 := l * l + l + x1 + x2 + a in Some (x3, l * (x1 + x3) + x3 + y1).
Definition chord x1 y1 x2 y2 := (y1 + y2) / (x1 + x2).
Definition tangent x1 y1 := x1 + y1 / x1.
Definition add (P Q : pt) : pt :=
  match P, Q with
  | None, _ => Q
  | _, None => P
  | Some (x1, y1), Some (x2, y2) =>
      if eqd x1 x2 then
        if eqd (y1 + y2) x1 then None else third (tangent x1 y1) x1 y1 x1
      else third (chord x1 y1 x2 y2) x1 y1 x2
  end.
Local Infix "⊕" := add (at level 50, left associativity).

Lemma no_zero x y : x * y = zero -> x = zero \/ y = zero.
Proof.
  intros H. destruct (eqd x zero) as [->|N]; [now left|]. right. replace y with ((x * y) / x) by (field; exact N). rewrite H. field. exact N.
Qed.
Lemma plus_zero x y : x + y = zero -> y = x.
Proof. intros H. replace y with (x + y + x) by ring. rewrite H. ring. Qed.
Lemma plus_not x y : x <> y -> x + y <> zero.
Proof. intros N H. apply N. symmetry. now apply plus_zero. Qed.
Lemma eqd_refl {T} (x : F) (u v : T) : (if eqd x x then u else v) = u.
Proof. destruct (eqd x x); [reflexivity|contradiction]. Qed.
Lemma eqd_no {T} (x y : F) (u v : T) : x <> y -> (if eqd x y then u else v) = v.
Proof. intros N. destruct (eqd x y); [contradiction|reflexivity]. Qed.
Lemma on_sq x y : on_xy x y -> y * y = x * y + x * x * x + a * x * x + b.
Proof. intros H. transitivity (y * y + x * y + x * y); [ring|]. rewrite H. ring. Qed.
(** two points above the same x *)
Lemma same_x x y1 y2 : on_xy x y1 -> on_xy x y2 -> y2 = y1 \/ y2 = x + y1.
Proof.
  intros H1 H2. destruct (no_zero (y1 + y2) (x + y1 + y2)) as [E|E].
  - transitivity ((y1 * y1 + x * y1) + (y2 * y2 + x * y2)); [ring|]. rewrite H1, H2. ring.
  - left. now apply plus_zero.
  - right. now apply plus_zero.
Qed.

(** ** Easy laws *)
Lemma on_neg P : on P -> on (neg P).
Proof. destruct P as [(x, y)|]; [cbn; intros <-; ring|trivial]. Qed.
Lemma neg_neg P : neg (neg P) = P.
Proof. destruct P as [(x, y)|]; [cbn; do 2 f_equal; ring|reflexivity]. Qed.
Lemma add_none P : P ⊕ None = P. Proof. destruct P as [(x, y)|]; reflexivity. Qed.
Lemma add_chord x1 y1 x2 y2 : x1 <> x2 -> Some (x1, y1) ⊕ Some (x2, y2) = third (chord x1 y1 x2 y2) x1 y1 x2.
Proof. intros N. cbn. now apply eqd_no. Qed.
Lemma add_tangent x y : x <> zero -> Some (x, y) ⊕ Some (x, y) = third (tangent x y) x y x.
Proof. intros N. cbn. rewrite eqd_refl. apply eqd_no. intros E. apply N. rewrite <- E. ring. Qed.
Lemma add_opposite P : P ⊕ neg P = None.
Proof. destruct P as [(x, y)|]; [|reflexivity]. cbn. rewrite eqd_refl. destruct (eqd (y + (x + y)) x) as [_|N]; [reflexivity|]. destruct N. ring. Qed.
Lemma add_none_opposite P Q : P ⊕ Q = None -> Q = neg P.
Proof.
  destruct P as [(x1, y1)|], Q as [(x2, y2)|]; cbn; try discriminate; try reflexivity.
  destruct (eqd x1 x2) as [<-|]; [|discriminate]. destruct (eqd (y1 + y2) x1) as [E|]; [|discriminate]. intros _. do 2 f_equal. transitivity (y1 + y2 + y1); [ring|]. now rewrite E.
Qed.
(** the possible additions: every pair of points falls under one of these *)
Inductive adds : pt -> pt -> Prop :=
| adds_none_l Q : adds None Q
| adds_none_r P : adds P None
| adds_opposite P : adds P (neg P)
| adds_tangent x y : x <> zero -> adds (Some (x, y)) (Some (x, y))
| adds_chord x1 y1 x2 y2 : x1 <> x2 -> adds (Some (x1, y1)) (Some (x2, y2)).
Lemma adds_all P Q : on P -> on Q -> adds P Q.
Proof.
  destruct P as [(x1, y1)|]; [|constructor]. destruct Q as [(x2, y2)|]; [|constructor]. intros H1 H2.
  destruct (eqd x1 x2) as [<-|N]; [|now constructor]. destruct (same_x x1 y1 y2 H1 H2) as [->| ->].
  - destruct (eqd x1 zero) as [->|]; [|now constructor]. replace (Some (zero, y1)) with (neg (Some (zero, y1))) at 2 by (cbn; do 2 f_equal; ring). constructor.
  - apply (adds_opposite (Some (x1, y1))).
Qed.
Lemma add_comm P Q : on P -> on Q -> P ⊕ Q = Q ⊕ P.
Proof.
  intros HP HQ. destruct (adds_all P Q HP HQ) as [Q|P|P|x y N|x1 y1 x2 y2 N].
  - now rewrite add_none.
  - now rewrite add_none.
  - rewrite add_opposite. rewrite <- (neg_neg P) at 2. now rewrite add_opposite.
  - reflexivity.
  - rewrite !add_chord by (congruence || auto). unfold third, chord. pose proof (plus_not _ _ N). assert (x2 + x1 <> zero) by (apply plus_not; congruence).
    f_equal. f_equal; field; auto.
Qed.
Lemma on_add P Q : on P -> on Q -> on (P ⊕ Q).
Proof.
  intros HP HQ. destruct (adds_all P Q HP HQ) as [Q|P|P|x y N|x1 y1 x2 y2 N].
  - exact HQ.
  - now rewrite add_none.
  - now rewrite add_opposite.
  - rewrite add_tangent by exact N. cbn in *. apply on_sq in HP. unfold tangent. field [HP]. exact N.
  - rewrite add_chord by exact N. cbn in *. apply on_sq in HP, HQ. unfold chord. pose proof (plus_not _ _ N). field [HP HQ]. auto.
Qed.
Lemma neg_add P Q : on P -> on Q -> neg (P ⊕ Q) = neg P ⊕ neg Q.
Proof.
  intros HP HQ. destruct (adds_all P Q HP HQ) as [Q|P|P|x y N|x1 y1 x2 y2 N].
  - reflexivity.
  - now rewrite !add_none.
  - now rewrite !add_opposite.
  - cbn [neg]. rewrite !add_tangent by assumption. unfold third, tangent. cbn [neg]. f_equal. f_equal; field; auto.
  - cbn [neg]. rewrite !add_chord by assumption. unfold third, chord. cbn [neg]. pose proof (plus_not _ _ N). f_equal. f_equal; field; auto.
Qed.

(** ** Cancellation *)
Lemma cancel P R : on P -> on R -> neg P ⊕ (P ⊕ R) = R.
Proof.
  intros HP HR. destruct (adds_all P R HP HR) as [Q|P|P|x y N|x1 y1 x2 y2 N].
  - reflexivity.
  - rewrite add_none. rewrite <- (neg_neg P) at 2. apply add_opposite.
  - now rewrite add_opposite, add_none.
  - rewrite add_tangent by exact N. unfold third. cbn [neg on] in *. set (l := tangent x y). set (x3 := l * l + l + x + x + a).
    destruct (eqd x x3) as [E|D].
    + assert (E3 : l * (x + x3) + x3 + y = x + y) by (rewrite <- E; ring). rewrite E3, <- E.
      rewrite add_tangent by exact N. unfold third. assert (T : tangent x (x + y) = l + one) by (unfold tangent, l, tangent; field; auto). rewrite T.
      assert (X : (l + one) * (l + one) + (l + one) + x + x + a = x) by (transitivity x3; [unfold x3; ring|now symmetry]). rewrite X. do 2 f_equal. ring.
    + rewrite add_chord by exact D. unfold third, chord. pose proof (plus_not _ _ D) as D'.
      assert (S : (x + y + (l * (x + x3) + x3 + y)) / (x + x3) = l + one) by (field; exact D'). rewrite S.
      assert (X : (l + one) * (l + one) + (l + one) + x + x3 + a = x) by (unfold x3; ring). rewrite X. do 2 f_equal. ring.
  - rewrite add_chord by exact N. unfold third. cbn [neg on] in *. set (l := chord x1 y1 x2 y2). set (x3 := l * l + l + x1 + x2 + a).
    pose proof (plus_not _ _ N) as N'. assert (L : y2 = l * (x1 + x2) + y1) by (unfold l, chord; field; exact N').
    destruct (eqd x1 x3) as [E|D].
    + assert (E3 : l * (x1 + x3) + x3 + y1 = x1 + y1) by (rewrite <- E; ring). rewrite E3, <- E.
      assert (LL : l * l = l + x2 + a) by (transitivity (x3 + l + x1 + x2 + a); [unfold x3; ring|rewrite <- E; ring]).
      assert (T : y1 = l * x1 + x1 * x1).
      { assert (Z : (x1 + x2) * (l * l * (x1 + x2) + y1 + x2 * l + x2 * x2 + x1 * x2 + x1 * x1 + a * (x1 + x2)) = zero).
        { transitivity ((x1 * x1 * x1 + a * x1 * x1 + b) + (x2 * x2 * x2 + a * x2 * x2 + b) + (y1 * y1 + x1 * y1) + ((l * (x1 + x2) + y1) * (l * (x1 + x2) + y1) + x2 * (l * (x1 + x2) + y1))); [ring|].
          rewrite <- HR, <- HP, <- L. ring. }
        destruct (no_zero _ _ Z) as [Q|Q]; [contradiction|]. rewrite LL in Q.
        transitivity (y1 + ((l + x2 + a) * (x1 + x2) + y1 + x2 * l + x2 * x2 + x1 * x2 + x1 * x1 + a * (x1 + x2))); [rewrite Q; ring|ring]. }
      destruct (eqd x1 zero) as [Z|M].
      * exfalso. rewrite T, Z in HP. apply smooth. transitivity (zero * zero * zero + a * zero * zero + b); [ring|]. rewrite <- HP. ring.
      * rewrite add_tangent by exact M. unfold third.
        assert (TT : tangent x1 (x1 + y1) = l + one) by (unfold tangent; rewrite T; field; auto). rewrite TT.
        assert (X : (l + one) * (l + one) + (l + one) + x1 + x1 + a = x2) by (transitivity (l * l + l + a); [ring|rewrite LL; ring]). rewrite X. do 2 f_equal. rewrite L. ring.
    + rewrite add_chord by exact D. unfold third, chord. pose proof (plus_not _ _ D) as D'.
      assert (S : (x1 + y1 + (l * (x1 + x3) + x3 + y1)) / (x1 + x3) = l + one) by (field; exact D'). rewrite S.
      assert (X : (l + one) * (l + one) + (l + one) + x1 + x3 + a = x2) by (unfold x3; ring). rewrite X. do 2 f_equal. rewrite L. ring.
Qed.
Lemma cancel' P R : on P -> on R -> P ⊕ (neg P ⊕ R) = R.
Proof. intros HP HR. rewrite <- (neg_neg P) at 1. apply cancel; [now apply on_neg|exact HR]. Qed.
Lemma cancel_r P R : on P -> on R -> (R ⊕ P) ⊕ neg P = R.
Proof. intros HP HR. rewrite add_comm by (try apply on_add; try apply on_neg; assumption). rewrite (add_comm R P) by assumption. now apply cancel. Qed.
Lemma add_inj P Q R : on P -> on Q -> on R -> P ⊕ Q = P ⊕ R -> Q = R.
Proof. intros HP HQ HR E. rewrite <- (cancel P Q), <- (cancel P R) by assumption. now rewrite E. Qed.

(** ** Associativity *)
Lemma generic x1 y1 x2 y2 x3 y3 : on_xy x1 y1 -> on_xy x2 y2 -> on_xy x3 y3 ->
  forall x4 y4 x5 y5, Some (x4, y4) = third (chord x1 y1 x2 y2) x1 y1 x2 -> Some (x5, y5) = third (chord x2 y2 x3 y3) x2 y2 x3 ->
  x1 <> x2 -> x2 <> x3 -> x4 <> x3 -> x1 <> x5 ->
  third (chord x4 y4 x3 y3) x4 y4 x3 = third (chord x1 y1 x5 y5) x1 y1 x5.
Proof.
  intros H1 H2 H3 x4 y4 x5 y5 E4 E5 N1 N2 N3 N4. apply plus_not in N1, N2, N3, N4. unfold third, chord in *. apply on_sq in H1, H2, H3.
  injection E4 as X4 Y4. injection E5 as X5 Y5. rewrite <- X4 in Y4. rewrite <- X5 in Y5.
  set (u := x1 + x2) in *. set (w := x2 + x3) in *.
  assert (D4 : (y1 + y2) * (y1 + y2) + (y1 + y2) * (x1 + x2) + (x1 + x2 + a + x3) * ((x1 + x2) * (x1 + x2)) <> zero).
  { intros Z. apply N3. rewrite X4. transitivity (((y1 + y2) * (y1 + y2) + (y1 + y2) * (x1 + x2) + (x1 + x2 + a + x3) * ((x1 + x2) * (x1 + x2))) / ((x1 + x2) * (x1 + x2))); [unfold u; field; exact N1|rewrite Z; field; exact N1]. }
  assert (D5 : (y2 + y3) * (y2 + y3) + (y2 + y3) * (x2 + x3) + (x2 + x3 + a + x1) * ((x2 + x3) * (x2 + x3)) <> zero).
  { intros Z. apply N4. rewrite X5. transitivity (((y2 + y3) * (y2 + y3) + (y2 + y3) * (x2 + x3) + (x2 + x3 + a + x1) * ((x2 + x3) * (x2 + x3))) / ((x2 + x3) * (x2 + x3))); [unfold w; field; exact N2|rewrite Z; field; exact N2]. }
  clear N3 N4. unfold u, w in *. clear u w. rewrite Y4, Y5, X4, X5. clear Y4 Y5 X4 X5.
  f_equal. f_equal; field [H1 H2 H3]; repeat split; auto; intros Z; first [apply D4; rewrite <- Z; ring | apply D5; rewrite <- Z; ring].
Qed.
Lemma generic_double x1 y1 x3 y3 : on_xy x1 y1 -> on_xy x3 y3 ->
  forall x4 y4 x5 y5, Some (x4, y4) = third (tangent x1 y1) x1 y1 x1 -> Some (x5, y5) = third (chord x1 y1 x3 y3) x1 y1 x3 ->
  x1 <> zero -> x1 <> x3 -> x4 <> x3 -> x1 <> x5 ->
  third (chord x4 y4 x3 y3) x4 y4 x3 = third (chord x1 y1 x5 y5) x1 y1 x5.
Proof.
  intros H1 H3 x4 y4 x5 y5 E4 E5 N1 N2 N3 N4. apply plus_not in N2, N3, N4. unfold third, chord, tangent in *. apply on_sq in H1, H3.
  injection E4 as X4 Y4. injection E5 as X5 Y5. rewrite <- X4 in Y4. rewrite <- X5 in Y5.
  assert (D4 : (x1 * x1 + y1) * (x1 * x1 + y1) + (x1 * x1 + y1) * x1 + (a + x3) * (x1 * x1) <> zero).
  { intros Z. apply N3. rewrite X4. transitivity (((x1 * x1 + y1) * (x1 * x1 + y1) + (x1 * x1 + y1) * x1 + (a + x3) * (x1 * x1)) / (x1 * x1)); [field; auto|rewrite Z; field; auto]. }
  assert (D5 : (y1 + y3) * (y1 + y3) + (y1 + y3) * (x1 + x3) + (x3 + a) * ((x1 + x3) * (x1 + x3)) <> zero).
  { intros Z. apply N4. rewrite X5. transitivity (((y1 + y3) * (y1 + y3) + (y1 + y3) * (x1 + x3) + (x3 + a) * ((x1 + x3) * (x1 + x3))) / ((x1 + x3) * (x1 + x3))); [field; exact N2|rewrite Z; field; exact N2]. }
  clear N3 N4. rewrite Y4, Y5, X4, X5. clear Y4 Y5 X4 X5.
  f_equal. f_equal; field [H1 H3]; repeat split; auto; intros Z; first [apply D4; rewrite <- Z; ring | apply D5; rewrite <- Z; ring].
Qed.

Lemma none_or (P : pt) : P = None \/ exists x y, P = Some (x, y).
Proof. destruct P as [(x, y)|]; [right; now exists x, y|now left]. Qed.
Lemma pt_eq (P Q : pt) : {P = Q} + {P <> Q}.
Proof.
  destruct P as [(x1, y1)|], Q as [(x2, y2)|]; try (right; discriminate); [|now left].
  destruct (eqd x1 x2) as [<-|N]; [|right; congruence]. destruct (eqd y1 y2) as [<-|N]; [now left|right; congruence].
Qed.
(** points that are neither equal nor opposite have different x *)
Lemma differ x1 y1 x2 y2 : on_xy x1 y1 -> on_xy x2 y2 -> Some (x2, y2) <> Some (x1, y1) -> Some (x2, y2) <> neg (Some (x1, y1)) -> x1 <> x2.
Proof. intros H1 H2 N M <-. destruct (same_x x1 y1 y2 H1 H2) as [->| ->]; [now apply N|now apply M]. Qed.
Lemma neg_inj P Q : neg P = neg Q -> P = Q.
Proof. intros E. rewrite <- (neg_neg P), E. apply neg_neg. Qed.

Ltac onp := repeat first [assumption | apply on_add | apply on_neg].
(** doubling, except the case Q = 2P *)
Lemma double1 P Q : on P -> on Q -> Q <> P ⊕ P -> (P ⊕ P) ⊕ Q = P ⊕ (P ⊕ Q).
Proof.
  intros HP HQ N4.
  destruct (none_or P) as [->|(x1 & y1 & EP)]; [reflexivity|].
  destruct (none_or Q) as [->|(x3 & y3 & EQ)]; [now rewrite !add_none|].
  destruct (pt_eq Q P) as [->|N1]; [now rewrite add_comm by onp|].
  destruct (pt_eq Q (neg P)) as [->|N2].
  { rewrite add_opposite, add_none. now apply cancel_r. }
  destruct (pt_eq (P ⊕ P) None) as [E|N3].
  { pose proof (add_none_opposite _ _ E) as EN. rewrite E. change (None ⊕ Q) with Q. rewrite EN at 1. symmetry. now apply cancel. }
  destruct (pt_eq Q (neg (P ⊕ P))) as [->|N5].
  { rewrite add_opposite, neg_add, cancel', add_opposite by onp. reflexivity. }
  destruct (pt_eq (P ⊕ Q) P) as [E|N6].
  { exfalso. apply (f_equal (add (neg P))) in E. rewrite cancel in E by onp. rewrite (add_comm (neg P)), add_opposite in E by onp. congruence. }
  destruct (pt_eq (P ⊕ Q) (neg P)) as [E|N7].
  { exfalso. apply (f_equal (add (neg P))) in E. rewrite cancel, <- neg_add in E by onp. congruence. }
  assert (NY : x1 <> zero).
  { intros ->. apply N3. rewrite EP. cbn. rewrite eqd_refl. destruct (eqd (y1 + y1) zero) as [|X]; [reflexivity|]. destruct X. ring. }
  assert (NX : x1 <> x3) by (rewrite EP, EQ in *; now apply (differ x1 y1 x3 y3)).
  pose proof (on_add P P HP HP) as H4. pose proof (on_add P Q HP HQ) as H5.
  destruct (none_or (P ⊕ P)) as [E4|(x4 & y4 & E4)]; [contradiction|].
  destruct (none_or (P ⊕ Q)) as [E5|(x5 & y5 & E5)]; [apply add_none_opposite in E5; contradiction|].
  rewrite E4, E5 in *. rewrite EP, EQ in *. rewrite add_tangent in E4 by assumption. rewrite add_chord in E5 by assumption.
  assert (X4 : x4 <> x3) by (apply (differ x4 y4 x3 y3); assumption).
  assert (X5 : x1 <> x5) by (apply (differ x1 y1 x5 y5); assumption).
  rewrite !add_chord by assumption. apply (generic_double x1 y1 x3 y3); auto.
Qed.
Lemma double P Q : on P -> on Q -> (P ⊕ P) ⊕ Q = P ⊕ (P ⊕ Q).
Proof.
  intros HP HQ. destruct (pt_eq Q (P ⊕ P)) as [->|N]; [|now apply double1].
  set (U := P ⊕ P). assert (HU : on U) by (unfold U; onp).
  assert (UP : U ⊕ neg P = P) by (unfold U; now apply cancel_r).
  destruct (pt_eq (neg P) (U ⊕ U)) as [E|N].
  - rewrite <- E. assert (X : neg U = P ⊕ U).
    { assert (X : U = neg U ⊕ neg P) by (rewrite E; symmetry; now apply cancel). rewrite <- neg_add in X by onp. apply (f_equal neg) in X. rewrite neg_neg in X. rewrite X. now apply add_comm. }
    rewrite <- X. unfold U. rewrite neg_add by onp. symmetry. apply cancel'; onp.
  - pose proof (double1 U (neg P) HU (on_neg P HP) N) as D. rewrite UP in D.
    apply (f_equal (fun Z => Z ⊕ neg (neg P))) in D. rewrite cancel_r in D by onp. rewrite D, neg_neg. rewrite add_comm by onp. f_equal. now apply add_comm.
Qed.
Lemma repeated P Q : on P -> on Q -> (P ⊕ Q) ⊕ (P ⊕ Q) = P ⊕ (Q ⊕ (P ⊕ Q)).
Proof.
  intros HP HQ. set (R := P ⊕ Q). assert (HR : on R) by (unfold R; onp).
  assert (E : Q = R ⊕ neg P) by (unfold R; rewrite (add_comm P Q) by assumption; symmetry; now apply cancel_r).
  assert (E2 : Q ⊕ R = (R ⊕ R) ⊕ neg P) by (rewrite double by onp; rewrite <- E; now apply add_comm).
  rewrite E2, (add_comm _ (neg P)) by onp. symmetry. apply cancel'; onp.
Qed.
Theorem add_assoc P Q R : on P -> on Q -> on R -> (P ⊕ Q) ⊕ R = P ⊕ (Q ⊕ R).
Proof.
  intros HP HQ HR.
  destruct (none_or P) as [->|(x1 & y1 & EP)]; [reflexivity|].
  destruct (none_or Q) as [->|(x2 & y2 & EQ)]; [now rewrite add_none|].
  destruct (none_or R) as [->|(x3 & y3 & ER)]; [now rewrite !add_none|].
  destruct (pt_eq Q P) as [->|N1]; [now apply double|].
  destruct (pt_eq R Q) as [->|N2].
  { rewrite (add_comm P (Q ⊕ Q)), (add_comm P Q), double, (add_comm _ Q) by onp. reflexivity. }
  destruct (pt_eq Q (neg P)) as [->|N3]; [rewrite add_opposite; symmetry; now apply cancel'|].
  destruct (pt_eq R (neg Q)) as [->|N4]; [rewrite add_opposite, add_none; now apply cancel_r|].
  destruct (pt_eq R (P ⊕ Q)) as [->|N5]; [now apply repeated|].
  destruct (pt_eq (Q ⊕ R) P) as [E|N6].
  { rewrite <- E. rewrite (add_comm Q R) by onp. rewrite (repeated R Q) by onp. rewrite (add_comm _ R), (add_comm _ Q) by onp. reflexivity. }
  destruct (pt_eq R (neg (P ⊕ Q))) as [->|N7].
  { rewrite add_opposite. rewrite neg_add by onp. rewrite (add_comm (neg P)), cancel', add_opposite by onp. reflexivity. }
  destruct (pt_eq (Q ⊕ R) (neg P)) as [E|N8].
  { rewrite E, add_opposite. assert (ER' : R = neg (P ⊕ Q)).
    { rewrite neg_add, <- E by onp. rewrite add_comm by onp. symmetry. now apply cancel. } rewrite ER'. apply add_opposite. }
  assert (X1 : x1 <> x2) by (rewrite EP, EQ in *; now apply (differ x1 y1 x2 y2)).
  assert (X2 : x2 <> x3) by (rewrite ER, EQ in *; now apply (differ x2 y2 x3 y3)).
  pose proof (on_add P Q HP HQ) as H4. pose proof (on_add Q R HQ HR) as H5.
  destruct (none_or (P ⊕ Q)) as [E4|(x4 & y4 & E4)]; [apply add_none_opposite in E4; contradiction|].
  destruct (none_or (Q ⊕ R)) as [E5|(x5 & y5 & E5)]; [apply add_none_opposite in E5; contradiction|].
  rewrite E4, E5 in *. rewrite EP, EQ, ER in *. rewrite add_chord in E4, E5 by assumption.
  assert (X4 : x4 <> x3) by (apply (differ x4 y4 x3 y3); assumption).
  assert (X5 : x1 <> x5) by (apply (differ x1 y1 x5 y5); assumption).
  rewrite !add_chord by assumption. apply (generic x1 y1 x2 y2 x3 y3); auto.
Qed.
End Group.
Print Assumptions add_assoc.
