(** A finite field with 2^m elements: roots of polynomials with coefficients 0 and 1, the trace, and a sum over the
    elements that Kb_Zeta computes. It gives the number of points of y^2 + x y = x^3 + a x^2 + 1 for a = 0 and a = 1.
    Nothing here models /repo. *)
From Coq Require Import Field Ring Bool Permutation Lia.
From Verif Require Import Base GF2 Kb_Zeta.
From Verif Require Irr_Props Ec_Group2.
Declare Scope kf_scope.
Delimit Scope kf_scope with F.

Section KF.
Variable F : Type.
Variables (zero one : F) (plus mult minus : F -> F -> F) (opp inv : F -> F) (div : F -> F -> F).
Hypothesis FT : field_theory zero one plus mult minus opp div inv (@eq F).
Hypothesis eqd : forall x y : F, {x = y} + {x <> y}.
Local Infix "+" := plus : kf_scope. Local Infix "*" := mult : kf_scope. Local Infix "-" := minus : kf_scope. Local Notation "- x" := (opp x) : kf_scope. Local Infix "/" := div : kf_scope.
Hypothesis two_zero : (one + one)%F = zero.
Notation phi := (Ec_Group2.phi F zero one).
Ltac bool_const t := match t with zero => constr:(false) | one => constr:(true) | _ => constr:(InitialRing.NotConstant) end.
Add Field FF : FT (morphism (Ec_Group2.phi_morph F zero one plus mult minus opp inv div FT two_zero), constants [bool_const]).

Lemma one_nz : one <> zero. Proof. exact (F_1_neq_0 FT). Qed.
Lemma mul0 x y : (x * y)%F = zero -> x = zero \/ y = zero.
Proof.
  intros E. destruct (eqd x zero) as [|N]; [now left|right]. transitivity (inv x * (x * y))%F; [field; exact N|]. rewrite E. ring.
Qed.
Lemma add_eq x y : (x + y)%F = zero -> x = y.
Proof. intros E. transitivity (x + y + y)%F; [ring|]. rewrite E. ring. Qed.
Lemma add_cancel x y z : (x + y)%F = (x + z)%F -> y = z.
Proof. intros E. transitivity (x + (x + y))%F; [ring|]. rewrite E. ring. Qed.

(** ** Polynomials as lists, the leading coefficient first *)
Definition ev (u : F) (l : list F) (x : F) : F := fold_left (fun s c => (s * x + c)%F) l u.
Lemma ev_ext u w l x : u = w -> ev u l x = ev w l x. Proof. now intros ->. Qed.
Lemma ev_cons u c l x : ev u (c :: l) x = ev (u * x + c)%F l x. Proof. reflexivity. Qed.
Fixpoint quo (r s : F) (l : list F) : list F := match l with [] => [] | c :: l => s :: quo r (s * r + c)%F l end.
Lemma quo_ok x r l : forall h s, ((x + r) * ev h (quo r s l) x + ev s l r)%F = ev ((x + r) * h + s)%F l x.
Proof.
  induction l as [|c l IH]; intros h s; [cbn; ring|]. cbn [quo]. rewrite !ev_cons, IH. apply ev_ext. ring.
Qed.
Lemma quo_root x r c l : ev c l x = zero -> ev c l r = zero -> x <> r -> ev zero (quo r c l) x = zero.
Proof.
  intros X R N. pose proof (quo_ok x r l zero c) as E. rewrite R in E. replace ((x + r) * zero + c)%F with c in E by ring. rewrite X in E.
  assert (E2 : ((x + r) * ev zero (quo r c l) x)%F = zero) by (etransitivity; [|exact E]; ring). apply mul0 in E2. destruct E2 as [E2|]; [|assumption]. apply add_eq in E2. contradiction.
Qed.
Lemma quo_len r l : forall s, length (quo r s l) = length l. Proof. induction l as [|c l IH]; intros s; cbn [quo length]; congruence. Qed.
Definition fsum {A} (f : A -> F) (l : list A) : F := fold_right (fun x s => (f x + s)%F) zero l.
Lemma ev_zero c l x : ev zero (c :: l) x = ev c l x. Proof. rewrite ev_cons. apply ev_ext. ring. Qed.
Lemma roots_bound rs : forall c l, c <> zero -> NoDup rs -> (forall x, In x rs -> ev c l x = zero) -> (length rs <= length l)%nat.
Proof.
  induction rs as [|r rs IH]; intros c l C N R; [cbn; lia|]. apply NoDup_cons_iff in N; destruct N as (Nr & N). destruct l as [|d l]; [exfalso; apply C; apply (R r); now left|].
  cbn [length]. apply le_n_S. rewrite <- (quo_len r l (c * r + d)%F). apply (IH c); [exact C|assumption|]. intros x X. rewrite <- ev_zero.
  change (c :: quo r (c * r + d)%F l) with (quo r c (d :: l)). apply quo_root; [apply R; now right|apply R; now left|]. intros ->. contradiction.
Qed.
Lemma vieta rs : forall c d l, c <> zero -> NoDup rs -> (forall x, In x rs -> ev c (d :: l) x = zero) -> length rs = S (length l) -> d = (c * fsum (fun x => x) rs)%F.
Proof.
  induction rs as [|r rs IH]; intros c d l C N R L; [discriminate|]. apply NoDup_cons_iff in N; destruct N as (Nr & N). cbn [length] in L. injection L as L. cbn [fsum fold_right]. fold (fsum (fun x : F => x) rs).
  destruct l as [|e l].
  - destruct rs; [|discriminate]. cbn. pose proof (R r (or_introl eq_refl)) as E. cbn in E. apply add_eq in E. rewrite <- E. ring.
  - assert (E : (c * r + d)%F = (c * fsum (fun x => x) rs)%F).
    { apply (IH c (c * r + d)%F (quo r ((c * r + d) * r + e)%F l)); [exact C|assumption| |rewrite quo_len; exact L].
      intros x X. rewrite <- ev_zero. change (c :: (c * r + d)%F :: quo r ((c * r + d) * r + e)%F l) with (quo r c (d :: e :: l)). apply quo_root; [apply R; now right|apply R; now left|]. intros ->. contradiction. }
    transitivity (c * r + (c * r + d))%F; [ring|]. rewrite E. ring.
Qed.

(** ** Polynomials with coefficients 0 and 1 *)
Fixpoint pev_pos (f : positive) (x : F) : F := match f with xH => one | xO f => (x * pev_pos f x)%F | xI f => (one + x * pev_pos f x)%F end.
Definition pev (f : N) (x : F) : F := match f with N0 => zero | Npos f => pev_pos f x end.
Lemma pev_double f x : pev (N.double f) x = (x * pev f x)%F. Proof. destruct f; cbn; [ring|reflexivity]. Qed.
Lemma pev_sdouble f x : pev (N.succ_double f) x = (one + x * pev f x)%F. Proof. destruct f; cbn; [ring|reflexivity]. Qed.
Lemma pev_1 x : pev 1 x = one. Proof. reflexivity. Qed.
Lemma pev_2 x : pev 2 x = x. Proof. cbn. ring. Qed.
Lemma pev_pos_lxor f : forall g x, pev (Pos.lxor f g) x = (pev_pos f x + pev_pos g x)%F.
Proof.
  induction f as [f IH|f IH|]; intros [g|g|] x; cbn [Pos.lxor pev_pos]; try (change (Pos.Ndouble ?n) with (N.double n)); try (change (Pos.Nsucc_double ?n) with (N.succ_double n));
    rewrite ?pev_double, ?pev_sdouble, ?IH; cbn [pev pev_pos]; ring.
Qed.
Lemma pev_add f g x : pev (padd f g) x = (pev f x + pev g x)%F.
Proof. destruct f as [|f], g as [|g]; cbn [padd N.lxor pev]; try ring. apply pev_pos_lxor. Qed.
Lemma pev_mul f g x : pev (pmul f g) x = (pev f x * pev g x)%F.
Proof.
  destruct f as [|f]; [rewrite pmul_0_l; cbn; ring|]. induction f as [f IH|f IH|].
  - replace (Npos (xI f)) with (padd 1 (pmul 2 (Npos f))) by reflexivity. rewrite pmul_add_l, pmul_1_l, pev_add, <- pmul_assoc. rewrite pmul_x, pev_double, IH, pev_add, pev_1, pmul_x, pev_double. ring.
  - change (Npos (xO f)) with (pmul 2 (Npos f)). rewrite <- pmul_assoc, !pmul_x, !pev_double, IH. ring.
  - rewrite pmul_1_l. cbn. ring.
Qed.
Fixpoint sq (k : nat) (x : F) : F := match k with O => x | S k => (sq k x * sq k x)%F end.
Lemma pev_sqn k f x : pev (sqn k f) x = sq k (pev f x).
Proof. induction k as [|k IH]; [reflexivity|]. cbn [sqn sq]. cbv zeta. now rewrite pev_mul, IH. Qed.
Lemma sq_add k x y : sq k (x + y)%F = (sq k x + sq k y)%F.
Proof. induction k as [|k IH]; [reflexivity|]. cbn [sq]. rewrite IH. ring. Qed.
Lemma sq_mul k x y : sq k (x * y)%F = (sq k x * sq k y)%F.
Proof. induction k as [|k IH]; [reflexivity|]. cbn [sq]. rewrite IH. ring. Qed.
Lemma sq_0 k : sq k zero = zero. Proof. induction k as [|k IH]; [reflexivity|]. cbn [sq]. rewrite IH. ring. Qed.
Lemma sq_1 k : sq k one = one. Proof. induction k as [|k IH]; [reflexivity|]. cbn [sq]. rewrite IH. ring. Qed.
Lemma sq_plus j k x : sq (j + k) x = sq j (sq k x).
Proof. induction j as [|j IH]; [reflexivity|]. cbn [sq Nat.add]. now rewrite IH. Qed.
Lemma sq_inj k x y : sq k x = sq k y -> x = y.
Proof.
  intros E. apply add_eq. assert (Z : sq k (x + y)%F = zero) by (rewrite sq_add, E; ring). revert Z. generalize (x + y)%F as w. clear E. intros w.
  induction k as [|k IH]; [intros Z; exact Z|]. cbn [sq]. intros Z. apply mul0 in Z. apply IH. tauto.
Qed.
Lemma sq_pev k f x : sq k (pev f x) = pev f (sq k x).
Proof.
  destruct f as [|f]; [apply sq_0|]. cbn [pev]. induction f as [f IH|f IH|]; cbn [pev_pos].
  - rewrite sq_add, sq_1, sq_mul, IH. reflexivity.
  - rewrite sq_mul, IH. reflexivity.
  - apply sq_1.
Qed.
Definition bv (b : bool) : F := if b then one else zero.
Definition coefs (f : N) : list F := map (fun i => bv (Irr_Props.bitf f i)) (rev (seq 0 (S (deg f)))).
Lemma coefs_len f : length (coefs f) = S (deg f). Proof. unfold coefs. now rewrite map_length, rev_length, seq_length. Qed.
Lemma coefs_step f (b : bool) : f <> 0%N -> coefs (if b then N.succ_double f else N.double f) = coefs f ++ [bv b].
Proof.
  intros F0. set (g := if b then N.succ_double f else N.double f). unfold coefs.
  assert (D : deg g = S (deg f)).
  { unfold deg, g. destruct b; [rewrite N.succ_double_spec, N.log2_succ_double by lia|rewrite N.double_spec, N.log2_double by lia]; lia. }
  rewrite D. change (seq 0 (S (S (deg f)))) with (0%nat :: seq 1 (S (deg f))). cbn [rev]. rewrite map_app. f_equal.
  - rewrite <- (seq_shift (S (deg f)) 0). rewrite <- map_rev, map_map. apply map_ext. intros i. f_equal. unfold Irr_Props.bitf, g. rewrite Nat2N.inj_succ. destruct b.
    + rewrite N.succ_double_spec. apply N.testbit_odd_succ. lia.
    + rewrite N.double_spec. apply N.testbit_even_succ. lia.
  - cbn [map]. f_equal. f_equal. unfold Irr_Props.bitf, g. change (N.of_nat 0) with 0%N. destruct b.
    + rewrite N.succ_double_spec. apply N.testbit_odd_0.
    + rewrite N.double_spec. apply N.testbit_even_0.
Qed.
Lemma coefs_ev f x : f <> 0%N -> ev zero (coefs f) x = pev f x.
Proof.
  destruct f as [|f]; [contradiction|]. intros _. induction f as [f IH|f IH|].
  - change (Npos (xI f)) with (if true then N.succ_double (Npos f) else N.double (Npos f)). rewrite coefs_step by discriminate. unfold ev in *. rewrite fold_left_app, IH. cbn. ring.
  - change (Npos (xO f)) with (if false then N.succ_double (Npos f) else N.double (Npos f)). rewrite coefs_step by discriminate. unfold ev in *. rewrite fold_left_app, IH. cbn. ring.
  - cbn. ring.
Qed.
Lemma coefs_head f : f <> 0%N -> (0 < deg f)%nat -> exists l, coefs f = one :: bv (top f) :: l /\ length l = (deg f - 1)%nat.
Proof.
  intros F0 D. pose proof (bit_deg f F0) as B. pose proof (coefs_len f) as L. unfold coefs in *. unfold top. destruct (deg f) as [|k] eqn:E; [lia|].
  rewrite seq_S, rev_app_distr in *. cbn [rev app map] in *. rewrite (seq_S k 0), rev_app_distr in *. cbn [rev app map Nat.add] in *. rewrite B in *. eexists. split; [reflexivity|]. cbn [length] in L. lia.
Qed.
Lemma coefs_tail f : N.odd f = true -> (0 < deg f)%nat -> exists l, rev (coefs f) = one :: bv (N.testbit f 1) :: l /\ length l = (deg f - 1)%nat.
Proof.
  intros O D. pose proof (coefs_len f) as L. rewrite <- rev_length in L. unfold coefs in *. rewrite <- map_rev, rev_involutive in *. destruct (deg f) as [|k] eqn:E; [lia|].
  cbn [seq map] in *. unfold Irr_Props.bitf at 1. change (N.of_nat 0) with 0%N. rewrite <- odd_bit, O. eexists. split; [reflexivity|]. cbn [length] in L. lia.
Qed.
Lemma proots_bound f rs : f <> 0%N -> NoDup rs -> (forall x, In x rs -> pev f x = zero) -> (length rs <= deg f)%nat.
Proof.
  intros F0 N R. destruct (deg f) as [|k] eqn:E.
  - apply deg0 in E; [|exact F0]. subst f. destruct rs as [|r rs]; [cbn; lia|]. exfalso. apply one_nz. exact (R r (or_introl eq_refl)).
  - destruct (coefs_head f F0 ltac:(lia)) as (l & C & L). replace (S k) with (length (bv (top f) :: l)) by (cbn [length]; lia).
    apply (roots_bound rs one); [exact one_nz|exact N|]. intros x X. rewrite <- ev_zero, <- C, coefs_ev by exact F0. now apply R.
Qed.
Lemma ev_rev y z l : (y * z)%F = one -> (ev zero (rev l) z * ev one (repeat zero (length l)) y)%F = (y * ev zero l y)%F.
Proof.
  intros E. assert (P : forall k u x, ev u (repeat zero k) x = (u * ev one (repeat zero k) x)%F).
  { induction k as [|k IH]; intros u x; cbn [repeat ev fold_left]; [ring|]. change (ev (u * x + zero)%F (repeat zero k) x = (u * ev (one * x + zero)%F (repeat zero k) x)%F). rewrite (IH (u * x + zero)%F), (IH (one * x + zero)%F). ring. }
  assert (A : forall l u x, ev u l x = (u * ev one (repeat zero (length l)) x + ev zero l x)%F).
  { induction l0 as [|c l0 IH]; intros u x; cbn [length repeat]; [cbn; ring|]. rewrite ev_zero. change (ev (u * x + c)%F l0 x = (u * ev (one * x + zero)%F (repeat zero (length l0)) x + ev c l0 x)%F). rewrite (IH (u * x + c)%F), (IH c), (P _ (one * x + zero)%F). ring. }
  assert (M : forall k, (ev one (repeat zero k) y * ev one (repeat zero k) z)%F = one).
  { induction k as [|k IH]; cbn [repeat ev fold_left]; [ring|]. change ((ev (one * y + zero)%F (repeat zero k) y * ev (one * z + zero)%F (repeat zero k) z)%F = one). rewrite (P k (one * y + zero)%F), (P k (one * z + zero)%F).
    transitivity ((y * z) * (ev one (repeat zero k) y * ev one (repeat zero k) z))%F; [ring|]. rewrite IH, E. ring. }
  induction l as [|c l IH] using rev_ind; [cbn; ring|]. rewrite rev_app_distr, app_length. cbn [rev app length]. rewrite ev_zero, A, rev_length. replace (length l + 1)%nat with (S (length l)) by lia. cbn [repeat].
  change (ev one (zero :: repeat zero (length l)) y) with (ev (one * y + zero)%F (repeat zero (length l)) y). rewrite (P _ (one * y + zero)%F).
  replace (ev zero (l ++ [c]) y) with (ev zero l y * y + c)%F by (unfold ev; rewrite fold_left_app; reflexivity).
  transitivity (c * y * (ev one (repeat zero (length l)) y * ev one (repeat zero (length l)) z) + y * (ev zero (rev l) z * ev one (repeat zero (length l)) y))%F; [ring|]. rewrite M, IH. ring.
Qed.
Lemma rev_root f x : f <> 0%N -> x <> zero -> pev f x = zero -> ev zero (rev (coefs f)) (inv x) = zero.
Proof.
  intros F0 X R. rewrite <- coefs_ev in R by exact F0. assert (E : (inv x * x)%F = one) by (field; exact X).
  pose proof (ev_rev (inv x) x (rev (coefs f)) E) as H. rewrite rev_involutive, R in H.
  assert (Z : (inv x * ev zero (rev (coefs f)) (inv x))%F = zero) by (etransitivity; [symmetry; exact H|]; ring). apply mul0 in Z. destruct Z as [Z|]; [|assumption]. exfalso. rewrite Z in E. apply one_nz. rewrite <- E. ring.
Qed.

(** ** Minimal polynomials *)
Lemma root_dvd p f x : irreducible p -> pev p x = zero -> (pev f x = zero <-> pdvd p f).
Proof.
  intros Ip R. split.
  - intros E. destruct (bezout p f) as (g & s & t & B & D1 & D2). destruct (irreducible_dvd p g Ip D1) as [->| ->]; [|exact D2]. exfalso. apply one_nz.
    rewrite <- (pev_1 x), B, pev_add, !pev_mul, E, R. ring.
  - intros (q & ->). rewrite pev_mul, R. ring.
Qed.
Lemma root_unique p q x : irreducible p -> irreducible q -> pev p x = zero -> pev q x = zero -> p = q.
Proof.
  intros Ip Iq P Q. apply (root_dvd p q x Ip P) in Q. destruct (irreducible_dvd q p Iq Q) as [->|]; [destruct Ip; lia|assumption].
Qed.
Lemma has_minimal k : forall f x, deg f = k -> f <> 0%N -> pev f x = zero -> exists p, irreducible p /\ pev p x = zero.
Proof.
  induction k as [k IH] using lt_wf_ind. intros f x D F0 R. assert (F1 : (1 < f)%N).
  { destruct (N.eq_dec f 1) as [->|]; [|lia]. exfalso. now apply one_nz. }
  destruct (irr_factor f F1) as (p & Ip & (g & E)). assert (P0 : p <> 0%N) by (destruct Ip; lia). assert (G0 : g <> 0%N) by (intros ->; rewrite pmul_0_r in E; contradiction).
  pose proof (irr_deg p Ip). pose proof (deg_mul p g P0 G0) as DE. rewrite <- E in DE. rewrite E, pev_mul in R. apply mul0 in R. destruct R as [R|R]; [now exists p|]. apply (IH (deg g) ltac:(lia) g x eq_refl G0 R).
Qed.
Lemma root_odd p x : irreducible p -> pev p x = zero -> (N.odd p = true <-> x <> zero).
Proof.
  intros Ip R. pose proof (N.div2_odd p) as E. destruct (N.odd p) eqn:O.
  - split; [intros _|reflexivity]. intros ->. apply one_nz. rewrite <- R. cbn [N.b2n] in E. rewrite <- N.succ_double_spec in E. rewrite E, pev_sdouble. ring.
  - split; [discriminate|]. intros X. exfalso. cbn [N.b2n] in E. rewrite N.add_0_r, <- N.double_spec in E. rewrite E, pev_double in R. apply mul0 in R. destruct R as [R|R]; [contradiction|].
    assert (P1 : (1 < p)%N) by apply Ip. assert (D0 : N.div2 p <> 0%N) by (intros D0; rewrite D0 in E; cbn in E; lia).
    pose proof R as R2. assert (RP : pev p x = zero) by (rewrite E, pev_double, R; ring). apply (root_dvd p _ x Ip RP) in R. apply pdvd_log2 in R; [|exact D0].
    rewrite E in R at 1. rewrite N.double_spec, N.log2_double in R by lia. lia.
Qed.

(** ** The finite field *)
Variable m : nat.
Variable els : list F.
Hypothesis m0 : (0 < m)%nat.
Hypothesis complete : forall x, In x els.
Hypothesis nodup : NoDup els.
Hypothesis size : length els = (2 ^ m)%nat.
Hypothesis frob : forall x, sq m x = x.

(** x^(2^k) + x *)
Definition frobp (k : nat) : N := padd (sqn k 2) 2.
Lemma frobp_ev k x : pev (frobp k) x = (sq k x + x)%F. Proof. unfold frobp. now rewrite pev_add, pev_sqn, pev_2. Qed.
Lemma frobp_deg k : (0 < k)%nat -> frobp k <> 0%N /\ deg (frobp k) = (2 ^ k)%nat.
Proof.
  intros K. destruct (deg_pow 2 (2 ^ k) ltac:(discriminate)) as (P0 & PD). rewrite <- sqn_pow in *. change (deg 2) with 1%nat in PD. rewrite Nat.mul_1_l in PD.
  assert (L : (1 < N.log2 (sqn k 2))%N) by (unfold deg in PD; pose proof (Nat.pow_le_mono_r 2 1 k ltac:(lia) K) as H; change (2 ^ 1)%nat with 2%nat in H; lia).
  assert (E : N.log2 (frobp k) = N.log2 (sqn k 2)). { unfold frobp, padd. rewrite N.lxor_comm. apply log2_lxor_lt. exact L. }
  split; [|unfold deg in *; now rewrite E]. intros Z. rewrite Z in E. change (N.log2 0) with 0%N in E. lia.
Qed.
Lemma minimal x : exists p, irreducible p /\ pev p x = zero.
Proof. destruct (frobp_deg m m0) as (N0 & D). apply (has_minimal _ (frobp m) x eq_refl N0). rewrite frobp_ev, frob. ring. Qed.
(** the powers of Frobenius that fix a root of an irreducible polynomial *)
Lemma fix_deg p x k : irreducible p -> pev p x = zero -> (0 < k)%nat -> sq k x = x -> (deg p <= k)%nat.
Proof.
  intros Ip R K E. assert (P1 : (1 < p)%N) by apply Ip. destruct (frobp_deg k K) as (N0 & D).
  set (rs := map (fun i => pev (N.of_nat i) x) (seq 0 (2 ^ deg p))).
  assert (L : (length rs <= deg (frobp k))%nat).
  { apply proots_bound; [exact N0| |].
    - unfold rs. assert (Inj : forall i j, (i < 2 ^ deg p)%nat -> (j < 2 ^ deg p)%nat -> pev (N.of_nat i) x = pev (N.of_nat j) x -> i = j).
      { intros i j I J H. assert (Z : pev (padd (N.of_nat i) (N.of_nat j)) x = zero) by (rewrite pev_add, H; ring). apply (root_dvd p _ x Ip R) in Z.
        assert (PW : N.of_nat (2 ^ deg p) = (2 ^ N.log2 p)%N) by (rewrite Nat2N.inj_pow; unfold deg; rewrite N2Nat.id; reflexivity).
        apply small_dvd in Z; [apply padd_eq in Z; lia|]. apply log2_small; [now apply N.log2_pos|]. apply lxor_lt; lia. }
      revert Inj. generalize (2 ^ deg p)%nat as q. intros q Inj. assert (IN : forall l, NoDup l -> (forall i, In i l -> (i < q)%nat) -> NoDup (map (fun i => pev (N.of_nat i) x) l)).
      { intros l N. induction N as [|i l Ni N IH]; intros B; [constructor|]. cbn [map]. constructor; [|apply IH; intros; apply B; now right]. rewrite in_map_iff. intros (j & E2 & J). apply Inj in E2; [subst j; contradiction| |]; apply B; [now right|now left]. }
      apply IN; [apply seq_NoDup|]. intros i I. apply in_seq in I. lia.
    - intros y Y. apply in_map_iff in Y. destruct Y as (i & <- & _). rewrite frobp_ev, sq_pev, E. ring. }
  unfold rs in L. rewrite map_length, seq_length, D in L. destruct (Nat.le_gt_cases (deg p) k) as [|G]; [assumption|]. pose proof (Nat.pow_lt_mono_r 2 k (deg p) ltac:(lia) G). lia.
Qed.
Lemma fixes_root p x k : irreducible p -> pev p x = zero -> (fixes p k <-> sq k x = x).
Proof.
  intros Ip R. unfold fixes, peqm. rewrite <- (root_dvd p _ x Ip R), pev_add, pev_sqn, pev_2. split; [intros E; now apply add_eq|intros ->; ring].
Qed.
Lemma deg_divides p x : irreducible p -> pev p x = zero -> exists k, m = (deg p * k)%nat.
Proof.
  intros Ip R. assert (Fm : fixes p m) by (apply (fixes_root p x m Ip R), frob). assert (Fd : fixes p (deg p)) by (apply fermat_x; exact Ip). pose proof (irr_deg p Ip) as D.
  pose proof (fixes_gcd p _ _ Fd Fm) as G. apply (fixes_root p x _ Ip R) in G. assert (GP : (0 < Nat.gcd (deg p) m)%nat) by (destruct (Nat.gcd (deg p) m) eqn:Z; [apply Nat.gcd_eq_0_l in Z; lia|lia]).
  pose proof (fix_deg p x _ Ip R GP G) as L. pose proof (Nat.divide_pos_le _ _ D (Nat.gcd_divide_l (deg p) m)) as U. assert (Nat.gcd (deg p) m = deg p) as E by lia.
  destruct (Nat.gcd_divide_r (deg p) m) as (w & W). rewrite E in W. exists w. lia.
Qed.
(** every irreducible polynomial whose degree divides that of the field has all its roots *)
Definition isz (x : F) : bool := if eqd x zero then true else false.
Lemma isz_iff x : isz x = true <-> x = zero. Proof. unfold isz. destruct (eqd x zero); intuition congruence. Qed.
Lemma roots_exact p k : irreducible p -> m = (deg p * k)%nat -> length (filter (fun x => isz (pev p x)) els) = deg p.
Proof.
  intros Ip E. pose proof (irr_deg p Ip) as D. assert (P0 : p <> 0%N) by (destruct Ip; lia). destruct (frobp_deg m m0) as (N0 & DF).
  assert (Fx : fixes p m) by (rewrite E, Nat.mul_comm; apply fixes_mul; apply fermat_x; exact Ip). destruct Fx as (h & Hh). fold (frobp m) in Hh.
  assert (H0 : h <> 0%N) by (intros ->; rewrite pmul_0_r in Hh; contradiction). pose proof (deg_mul p h P0 H0) as DM. rewrite <- Hh, DF in DM.
  assert (B : forall f, f <> 0%N -> (length (filter (fun x => isz (pev f x)) els) <= deg f)%nat).
  { intros f F0. apply proots_bound; [exact F0|now apply NoDup_filter|]. intros x X. apply filter_In in X. now apply isz_iff. }
  pose proof (B p P0) as Bp. pose proof (B h H0) as Bh.
  assert (U : (length els <= length (filter (fun x => isz (pev p x)) els) + length (filter (fun x => isz (pev h x)) els))%nat).
  { assert (A : forall x, isz (pev p x) = true \/ isz (pev h x) = true).
    { intros x. rewrite !isz_iff. apply mul0. rewrite <- pev_mul, <- Hh, frobp_ev, frob. ring. }
    clear - A. induction els as [|x l IH]; [cbn; lia|]. cbn [filter length]. destruct (A x) as [->| ->]; cbn [length]; [destruct (isz (pev h x))|destruct (isz (pev p x))]; cbn [length]; lia. }
  rewrite size in U. lia.
Qed.

(** ** The trace *)
Lemma fsum_cons {A} (f : A -> F) x l : fsum f (x :: l) = (f x + fsum f l)%F. Proof. reflexivity. Qed.
Lemma fsum_nil {A} (f : A -> F) : fsum f [] = zero. Proof. reflexivity. Qed.
Lemma fsum_ext {A} (f g : A -> F) l : (forall x, In x l -> f x = g x) -> fsum f l = fsum g l.
Proof. induction l as [|x l IH]; intros H; [reflexivity|]. rewrite !fsum_cons, H by now left. f_equal. apply IH. intros; apply H; now right. Qed.
Lemma fsum_app {A} (f : A -> F) l l' : fsum f (l ++ l') = (fsum f l + fsum f l')%F.
Proof. induction l as [|x l IH]; cbn [app]; [rewrite fsum_nil; ring|]. rewrite !fsum_cons, IH. ring. Qed.
Lemma fsum_map {A B} (f : B -> F) (g : A -> B) l : fsum f (map g l) = fsum (fun x => f (g x)) l.
Proof. induction l as [|x l IH]; [reflexivity|]. cbn [map]. rewrite !fsum_cons, IH. reflexivity. Qed.
Lemma fsum_add {A} (f g : A -> F) l : fsum (fun x => (f x + g x)%F) l = (fsum f l + fsum g l)%F.
Proof. induction l as [|x l IH]; [rewrite !fsum_nil; ring|]. rewrite !fsum_cons, IH. ring. Qed.
Definition tr (x : F) : F := fsum (fun i => sq i x) (seq 0 m).
Lemma tr_add x y : tr (x + y)%F = (tr x + tr y)%F.
Proof. unfold tr. rewrite <- fsum_add. apply fsum_ext. intros i _. apply sq_add. Qed.
Lemma tr_sq x : tr (x * x)%F = tr x.
Proof.
  unfold tr. rewrite (fsum_ext (fun i => sq i (x * x)%F) (fun i => sq (S i) x)).
  - rewrite <- (fsum_map (fun i => sq i x) S), seq_shift. apply (add_cancel (sq 0 x)). 
    transitivity (fsum (fun i => sq i x) (seq 0 (S m))); [reflexivity|]. rewrite seq_S, fsum_app, fsum_cons, fsum_nil. cbn [Nat.add]. rewrite frob. cbn [sq]. ring.
  - intros i _. cbn [sq]. apply sq_mul.
Qed.
Lemma fsum_sq {A} (f : A -> F) l : (fsum f l * fsum f l)%F = fsum (fun x => (f x * f x)%F) l.
Proof. induction l as [|x l IH]; [rewrite !fsum_nil; ring|]. rewrite !fsum_cons, <- IH. ring. Qed.
Lemma tr_bit x : tr x = zero \/ tr x = one.
Proof.
  assert (E : (tr x * tr x)%F = tr x).
  { rewrite <- tr_sq at 3. unfold tr. rewrite fsum_sq. apply fsum_ext. intros i _. symmetry. apply sq_mul. }
  assert (Z : (tr x * (tr x + one))%F = zero) by (transitivity (tr x * tr x + tr x)%F; [ring|]; rewrite E; ring). apply mul0 in Z. destruct Z as [Z|Z]; [now left|right; now apply add_eq].
Qed.
Lemma seq_move c d : forall s, map (fun i => (c + i)%nat) (seq s d) = seq (c + s) d.
Proof. induction d as [|d IH]; intros s; [reflexivity|]. cbn [seq map]. rewrite IH. f_equal. f_equal. lia. Qed.
(** a sum over whole periods *)
Lemma periodic (f : nat -> F) d k : (forall i, f (d + i)%nat = f i) -> fsum f (seq 0 (d * k)) = if Nat.odd k then fsum f (seq 0 d) else zero.
Proof.
  intros P. induction k as [|k IH]; [rewrite Nat.mul_0_r; reflexivity|]. replace (d * S k)%nat with (d * k + d)%nat by lia. rewrite seq_app, fsum_app, IH.
  assert (Q : forall j, fsum f (seq (0 + d * j) d) = fsum f (seq 0 d)).
  { intros j. replace (seq (0 + d * j) d) with (map (fun i => (d * j + i)%nat) (seq 0 d)).
    - rewrite fsum_map. apply fsum_ext. intros i _. induction j as [|j IHj]; [now rewrite Nat.mul_0_r|]. replace (d * S j + i)%nat with (d + (d * j + i))%nat by lia. now rewrite P.
    - rewrite seq_move. f_equal. lia. }
  rewrite Q, Nat.odd_succ, <- Nat.negb_odd. destruct (Nat.odd k); cbn [negb]; ring.
Qed.
(** the trace of an element and of its inverse in terms of the minimal polynomial *)
Lemma orbit p x : irreducible p -> pev p x = zero -> NoDup (map (fun i => sq i x) (seq 0 (deg p))) /\ forall y, In y (map (fun i => sq i x) (seq 0 (deg p))) -> pev p y = zero.
Proof.
  intros Ip R. split.
  - assert (Inj : forall i j, (i < j < deg p)%nat -> sq i x <> sq j x).
    { intros i j L E. replace j with (i + (j - i))%nat in E by lia. rewrite sq_plus in E. apply sq_inj in E. symmetry in E. pose proof (fix_deg p x (j - i) Ip R ltac:(lia) E). lia. }
    assert (G : forall l, NoDup l -> (forall i, In i l -> (i < deg p)%nat) -> NoDup (map (fun i => sq i x) l)).
    { intros l N. induction N as [|i l Ni N IH]; intros B; [constructor|]. cbn [map]. constructor; [|apply IH; intros; apply B; now right]. rewrite in_map_iff. intros (j & E & J).
      pose proof (B i (or_introl eq_refl)). pose proof (B j (or_intror J)). destruct (Nat.lt_trichotomy i j) as [L|[->|L]]; [|contradiction|].
      - apply (Inj i j); [lia|now symmetry].
      - apply (Inj j i); [lia|exact E]. }
    apply G; [apply seq_NoDup|]. intros i I. apply in_seq in I. lia.
  - intros y Y. apply in_map_iff in Y. destruct Y as (i & <- & _). rewrite <- sq_pev, R. apply sq_0.
Qed.
Lemma orbit_sum p x : irreducible p -> pev p x = zero -> fsum (fun i => sq i x) (seq 0 (deg p)) = bv (top p).
Proof.
  intros Ip R. assert (P0 : p <> 0%N) by (destruct Ip; lia). destruct (orbit p x Ip R) as (N & Z). destruct (coefs_head p P0 (irr_deg p Ip)) as (l & C & L).
  pose proof (vieta (map (fun i => sq i x) (seq 0 (deg p))) one (bv (top p)) l one_nz N) as V. rewrite V.
  - rewrite fsum_map. ring.
  - intros y Y. rewrite <- ev_zero, <- C, coefs_ev by exact P0. now apply Z.
  - rewrite map_length, seq_length. pose proof (irr_deg p Ip). lia.
Qed.
Lemma sq_inv k x : x <> zero -> sq k x <> zero /\ sq k (inv x) = inv (sq k x).
Proof.
  intros X. assert (N : sq k x <> zero) by (intros E; apply X; apply (sq_inj k); rewrite E; symmetry; apply sq_0). split; [exact N|].
  assert (E : (sq k (inv x) * sq k x)%F = one) by (rewrite <- sq_mul; replace (inv x * x)%F with one by (field; exact X); apply sq_1).
  transitivity (sq k (inv x) * sq k x * inv (sq k x))%F; [field; exact N|]. rewrite E. ring.
Qed.
Lemma orbit_inv p x : irreducible p -> x <> zero -> pev p x = zero -> fsum (fun i => sq i (inv x)) (seq 0 (deg p)) = bv (N.testbit p 1).
Proof.
  intros Ip X R. assert (P0 : p <> 0%N) by (destruct Ip; lia). destruct (orbit p x Ip R) as (N & Z). assert (O : N.odd p = true) by (apply (root_odd p x Ip R); exact X).
  destruct (coefs_tail p O (irr_deg p Ip)) as (l & C & L).
  pose proof (vieta (map inv (map (fun i => sq i x) (seq 0 (deg p)))) one (bv (N.testbit p 1)) l one_nz) as V. rewrite V.
  - rewrite !fsum_map. rewrite (fsum_ext _ (fun i => inv (sq i x))); [ring|]. intros i _. now apply sq_inv.
  - assert (NZ : forall y, In y (map (fun i => sq i x) (seq 0 (deg p))) -> y <> zero). { intros y Y. apply in_map_iff in Y. destruct Y as (i & <- & _). now apply sq_inv. }
    revert N NZ. generalize (map (fun i => sq i x) (seq 0 (deg p))) as rs. intros rs N. induction N as [|y rs Ny N IH]; intros NZ; [constructor|]. cbn [map]. constructor; [|apply IH; intros; apply NZ; now right].
    rewrite in_map_iff. intros (w & E & W). apply Ny. replace y with w; [exact W|]. pose proof (NZ y (or_introl eq_refl)) as Y0. pose proof (NZ w (or_intror W)) as W0.
    transitivity (w * (inv y * y))%F; [field; exact Y0|]. rewrite <- E. field. exact W0.
  - intros y Y. apply in_map_iff in Y. destruct Y as (w & <- & W). rewrite <- ev_zero, <- C. apply rev_root; [exact P0| |now apply Z]. apply in_map_iff in W. destruct W as (i & <- & _). now apply sq_inv.
  - rewrite !map_length, seq_length. pose proof (irr_deg p Ip). lia.
Qed.
Definition fsign (x : F) : Z := if eqd x zero then 1%Z else (-1)%Z.
Lemma fsign_bv b : fsign (bv b) = sign b.
Proof. unfold fsign, bv, sign. destruct b; [destruct (eqd one zero) as [E|]; [now apply one_nz in E|reflexivity]|destruct (eqd zero zero); [reflexivity|contradiction]]. Qed.
Lemma sign_pow b k : (sign b ^ Z.of_nat k)%Z = sign (if Nat.odd k then b else false).
Proof.
  induction k as [|k IH]; [reflexivity|]. rewrite Nat2Z.inj_succ, Z.pow_succ_r by lia. rewrite IH, Nat.odd_succ, <- Nat.negb_odd. destruct (Nat.odd k), b; reflexivity.
Qed.
Lemma trace_sign p x k : irreducible p -> x <> zero -> pev p x = zero -> m = (deg p * k)%nat -> fsign (tr x + tr (inv x))%F = (chi p ^ Z.of_nat k)%Z.
Proof.
  intros Ip X R E. assert (FD : sq (deg p) x = x) by (apply (fixes_root p x _ Ip R), fermat_x, Ip).
  assert (FI : sq (deg p) (inv x) = inv x) by (destruct (sq_inv (deg p) x X) as (_ & ->); now rewrite FD).
  assert (T1 : tr x = if Nat.odd k then bv (top p) else zero).
  { unfold tr. rewrite E, periodic; [now rewrite (orbit_sum p x)|]. intros i. rewrite Nat.add_comm, sq_plus, FD. reflexivity. }
  assert (T2 : tr (inv x) = if Nat.odd k then bv (N.testbit p 1) else zero).
  { unfold tr. rewrite E, periodic; [now rewrite (orbit_inv p x)|]. intros i. rewrite Nat.add_comm, sq_plus, FI. reflexivity. }
  unfold chi. rewrite sign_pow, T1, T2, <- fsign_bv. f_equal. destruct (Nat.odd k), (top p), (N.testbit p 1); cbn [bv xorb]; ring.
Qed.
(** ** The sum over the field *)
Theorem field_sum : zsum (fun x => if isz x then 0%Z else fsign (tr x + tr (inv x))%F) els = T_ m.
Proof.
  unfold T_. set (w := fun p => if (m mod deg p =? 0)%nat then (chi p ^ Z.of_nat (m / deg p))%Z else 0%Z).
  transitivity (zsum (fun x => zsum (fun p => if isz (pev p x) then w p else 0%Z) (irrs m)) els).
  - apply zsum_ext. intros x _. destruct (isz x) eqn:Zx.
    + apply isz_iff in Zx. symmetry. apply zsum_zero. intros p P. apply in_irrs in P. destruct P as (Ip & O & _). destruct (isz (pev p x)) eqn:Zp; [|reflexivity]. apply isz_iff in Zp. apply (root_odd p x Ip Zp) in O. contradiction.
    + assert (X : x <> zero) by (intros E; apply isz_iff in E; congruence). destruct (minimal x) as (p & Ip & R). destruct (deg_divides p x Ip R) as (k & E).
      pose proof (irr_deg p Ip) as D. rewrite (zsum_one _ _ p).
      * rewrite (proj2 (isz_iff _) R). unfold w. rewrite E, Nat.mul_comm, Nat.mod_mul, Nat.eqb_refl, Nat.div_mul by lia. apply trace_sign; try assumption.
      * apply irrs_nodup.
      * apply in_irrs. split; [exact Ip|]. split; [now apply (root_odd p x Ip R)|]. destruct k; nia.
      * intros q Q N. apply in_irrs in Q. destruct Q as (Iq & _). destruct (isz (pev q x)) eqn:Zq; [|reflexivity]. apply isz_iff in Zq. exfalso. apply N. now apply (root_unique q p x).
  - rewrite zsum_swap. apply zsum_ext. intros p P. apply in_irrs in P. destruct P as (Ip & _). rewrite <- zsum_filter, zsum_const. unfold w.
    destruct (Nat.eqb_spec (m mod deg p) 0) as [E|]; [|lia]. pose proof (irr_deg p Ip). apply Nat.mod_divides in E; [|lia]. destruct E as (k & E). rewrite (roots_exact p k Ip E). lia.
Qed.

(** ** Solutions of z^2 + z = w *)
Definition solutions (w : F) : Z := zsum (fun z => if isz (z * z + z + w)%F then 1%Z else 0%Z) els.
Lemma solutions_le w : (solutions w <= if isz (tr w) then 2 else 0)%Z.
Proof.
  unfold solutions. destruct (isz (tr w)) eqn:T.
  - rewrite <- (zsum_filter (fun _ => 1%Z)), zsum_const. assert (L : (length (filter (fun z => isz (z * z + z + w)%F) els) <= 2)%nat); [|lia].
    change 2%nat with (length [one; w]). apply (roots_bound _ one); [exact one_nz|now apply NoDup_filter|]. intros z Z. apply filter_In in Z. destruct Z as (_ & Z). apply isz_iff in Z. cbn. etransitivity; [|exact Z]. ring.
  - rewrite zsum_zero; [lia|]. intros z _. destruct (isz (z * z + z + w)%F) eqn:Z; [|reflexivity]. apply isz_iff in Z. apply add_eq in Z. exfalso. assert (E : tr w = zero) by (rewrite <- Z, tr_add, tr_sq; ring). apply isz_iff in E. congruence.
Qed.
(** the trace as a polynomial *)
Fixpoint trp (k : nat) : N := match k with O => 2%N | S k => padd (trp k) (sqn (S k) 2) end.
Lemma trp_ev k x : pev (trp k) x = fsum (fun i => sq i x) (seq 0 (S k)).
Proof. induction k as [|k IH]; [cbn; ring|]. cbn [trp]. rewrite pev_add, IH, pev_sqn, pev_2, (seq_S (S k)), fsum_app, fsum_cons, fsum_nil. cbn [Nat.add]. ring. Qed.
Lemma trp_deg k : trp k <> 0%N /\ deg (trp k) = (2 ^ k)%nat.
Proof.
  induction k as [|k (N0 & D)]; [split; [discriminate|reflexivity]|]. destruct (deg_pow 2 (2 ^ S k) ltac:(discriminate)) as (P0 & PD). rewrite <- sqn_pow in *. change (deg 2) with 1%nat in PD. rewrite Nat.mul_1_l in PD.
  assert (L : (N.log2 (trp k) < N.log2 (sqn (S k) 2))%N) by (unfold deg in *; pose proof (Nat.pow_lt_mono_r 2 k (S k) ltac:(lia) ltac:(lia)); lia).
  assert (E : N.log2 (trp (S k)) = N.log2 (sqn (S k) 2)) by (cbn [trp]; unfold padd; now apply log2_lxor_lt).
  split; [|unfold deg in *; now rewrite E]. intros Z. rewrite Z in E. change (N.log2 0) with 0%N in E. lia.
Qed.
Theorem solutions_eq w : solutions w = (1 + fsign (tr w))%Z.
Proof.
  assert (M : solutions w = (if isz (tr w) then 2 else 0)%Z).
  { apply (zsum_max solutions (fun w => if isz (tr w) then 2 else 0)%Z els); [intros x _; apply solutions_le| |apply complete].
    assert (A : zsum solutions els = Z.of_nat (length els)).
    { unfold solutions. rewrite zsum_swap. rewrite (zsum_ext _ (fun _ => 1%Z)); [rewrite zsum_const; lia|]. intros z _. rewrite (zsum_one _ _ (z * z + z)%F nodup (complete _)).
      - replace (z * z + z + (z * z + z))%F with zero by ring. now rewrite (proj2 (isz_iff zero) eq_refl).
      - intros y _ N. destruct (isz (z * z + z + y)%F) eqn:Z; [|reflexivity]. apply isz_iff, add_eq in Z. congruence. }
    assert (B : zsum (fun w => if isz (tr w) then 2 else 0)%Z els = (2 * Z.of_nat (length (filter (fun w => isz (tr w)) els)))%Z) by (rewrite <- (zsum_filter (fun _ => 2%Z)); apply zsum_const).
    rewrite A, B, size. assert (L : (length (filter (fun w => isz (tr w)) els) <= 2 ^ (m - 1))%nat).
    { destruct (trp_deg (m - 1)) as (N0 & <-). apply proots_bound; [exact N0|now apply NoDup_filter|]. intros x X. apply filter_In in X. destruct X as (_ & X). apply isz_iff in X. rewrite trp_ev. replace (S (m - 1)) with m by lia. exact X. }
    destruct m as [|k]; [lia|]. replace (S k - 1)%nat with k in L by lia. cbn [Nat.pow]. lia. }
  rewrite M. unfold fsign, isz. destruct (eqd (tr w) zero); reflexivity.
Qed.

(** ** The curve y^2 + x y = x^3 + a x^2 + 1 *)
Variable a : bool.
Definition onc (x y : F) : bool := isz (y * y + x * y + (x * x * x + bv a * x * x + one))%F.
Lemma tr_const : tr (bv a) = bv (if Nat.odd m then a else false).
Proof.
  unfold tr. pose proof (periodic (fun i => sq i (bv a)) 1 m) as P. rewrite Nat.mul_1_l in P. rewrite P.
  - cbn [seq]. rewrite fsum_cons, fsum_nil. cbn [sq]. destruct (Nat.odd m), a; cbn; ring.
  - intros i. cbn [Nat.add]. rewrite <- Nat.add_1_r, sq_plus. f_equal. destruct a; cbn; ring.
Qed.
Lemma fsign_add x y : fsign (tr x + tr y)%F = (fsign (tr x) * fsign (tr y))%Z.
Proof.
  assert (B : forall u, exists b, tr u = bv b) by (intros u; destruct (tr_bit u) as [->| ->]; [now exists false|now exists true]).
  destruct (B x) as (b & ->), (B y) as (c & ->). replace (bv b + bv c)%F with (bv (xorb b c)) by (destruct b, c; cbn; ring). rewrite !fsign_bv. apply sign_xor.
Qed.
Lemma column x : x <> zero -> zsum (fun y => if onc x y then 1%Z else 0%Z) els = (1 + sign (if Nat.odd m then a else false) * fsign (tr x + tr (inv x))%F)%Z.
Proof.
  intros X. set (w := (x + bv a + inv x * inv x)%F). transitivity (solutions w).
  - unfold solutions. transitivity (zsum (fun y => if onc x y then 1%Z else 0%Z) (map (fun z => (x * z)%F) els)).
    + apply zsum_perm. apply NoDup_Permutation; [exact nodup| |].
      * apply FinFun.Injective_map_NoDup; [|exact nodup]. intros u v E. transitivity (inv x * (x * u))%F; [field; exact X|]. rewrite E. field. exact X.
      * intros y. split; [intros _|intros _; apply complete]. apply in_map_iff. exists (y / x)%F. split; [field; exact X|apply complete].
    + rewrite zsum_map. apply zsum_ext. intros z _. unfold onc. replace (x * z * (x * z) + x * (x * z) + (x * x * x + bv a * x * x + one))%F with ((x * x) * (z * z + z + w))%F by (unfold w; field; exact X).
      replace (isz (x * x * (z * z + z + w))%F) with (isz (z * z + z + w)%F); [reflexivity|]. apply bool_eq. rewrite !isz_iff. split; [intros ->; ring|]. intros E. apply mul0 in E. destruct E as [E|]; [|assumption]. apply mul0 in E. destruct E; contradiction.
  - rewrite solutions_eq. f_equal. unfold w. rewrite !tr_add, tr_sq, tr_const. replace (tr x + bv (if Nat.odd m then a else false) + tr (inv x))%F with (tr (bv a) + tr (x + inv x))%F by (rewrite tr_add, tr_const; ring).
    rewrite fsign_add, tr_const, fsign_bv, tr_add. reflexivity.
Qed.
Lemma column_0 : zsum (fun y => if onc zero y then 1%Z else 0%Z) els = 1%Z.
Proof.
  rewrite (zsum_one _ _ one nodup (complete _)).
  - unfold onc. replace (one * one + zero * one + (zero * zero * zero + bv a * zero * zero + one))%F with zero by ring. now rewrite (proj2 (isz_iff zero) eq_refl).
  - intros y _ N. destruct (onc zero y) eqn:O; [|reflexivity]. exfalso. unfold onc in O. apply isz_iff in O. apply N. apply add_eq. assert (E : ((y + one) * (y + one))%F = zero) by (etransitivity; [|exact O]; ring). apply mul0 in E. tauto.
Qed.
Theorem affine_count : zsum (fun x => zsum (fun y => if onc x y then 1%Z else 0%Z) els) els = (2 ^ Z.of_nat m + sign (if Nat.odd m then a else false) * T_ m)%Z.
Proof.
  rewrite <- field_sum, <- zsum_mul. replace (2 ^ Z.of_nat m)%Z with (zsum (fun _ : F => 1%Z) els) by (rewrite zsum_const, size, Nat2Z.inj_pow; lia).
  rewrite <- zsum_add. apply zsum_ext. intros x _. destruct (isz x) eqn:Z.
  - apply isz_iff in Z. rewrite Z. rewrite column_0. lia.
  - apply column. intros E. apply isz_iff in E. congruence.
Qed.
End KF.
