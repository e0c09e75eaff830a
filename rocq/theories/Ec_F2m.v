(** The points of y^2 + x y = x^3 + a x^2 + b over GF(2)[z] modulo an irreducible polynomial. The polynomial and the
    elements are numbers, bit [i] is the coefficient of z^i. The definitions are the textbook ones; that the points
    form a commutative group is proved. Nothing here models /repo. *)
From Coq Require Import Field Eqdep_dec.
From Verif Require Import Base GF2 Fp.
From Verif Require Ec_Group2.
Local Open Scope Z_scope.

(** ** Definitions *)
(** the remainder of [a] by [d] *)
Fixpoint prem_pos (d : N) (a : positive) : N :=
  match a with
  | xH => 1
  | xO a => xstep d (N.log2 d) (prem_pos d a)
  | xI a => N.lxor 1 (xstep d (N.log2 d) (prem_pos d a))
  end%N.
Definition prem (d a : N) : N := match a with N0 => 0%N | Npos a => prem_pos d a end.
(** the number of elements *)
Definition bsize (d : N) : Z := 2 ^ Z.of_N (N.log2 d).
Definition badd (x y : Z) : Z := Z.of_N (N.lxor (Z.to_N x) (Z.to_N y)).
Definition bmul (d : N) (x y : Z) : Z := Z.of_N (prem d (pmul (Z.to_N x) (Z.to_N y))).
Definition binv (d : N) (x : Z) : Z := match find (fun y => bmul d x y =? 1) (elements (bsize d)) with Some y => y | None => 0 end.
Definition bres (d : N) (x : Z) : bool := (0 <=? x) && (x <? bsize d).
Definition on_curve2 (d : N) (a b : Z) (P : Z * Z) : bool :=
  let (x, y) := P in
  badd (bmul d y y) (bmul d x y) =? badd (badd (bmul d (bmul d x x) x) (bmul d (bmul d a x) x)) b.
Definition ec2_on (d : N) (a b : Z) (P : option (Z * Z)) : bool :=
  match P with None => true | Some (x, y) => bres d x && bres d y && on_curve2 d a b (x, y) end.
Definition ec2_third (d : N) (a l x1 y1 x2 : Z) : option (Z * Z) :=
  let x3 := badd (badd (badd (badd (bmul d l l) l) x1) x2) a in Some (x3, badd (badd (bmul d l (badd x1 x3)) x3) y1).
Definition ec2_add (d : N) (a : Z) (P Q : option (Z * Z)) : option (Z * Z) :=
  match P, Q with
  | None, _ => Q
  | _, None => P
  | Some (x1, y1), Some (x2, y2) =>
      if x1 =? x2 then
        if badd y1 y2 =? x1 then None else ec2_third d a (badd x1 (bmul d y1 (binv d x1))) x1 y1 x1
      else ec2_third d a (bmul d (badd y1 y2) (binv d (badd x1 x2))) x1 y1 x2
  end.
Definition ec2_neg (P : option (Z * Z)) : option (Z * Z) := match P with None => None | Some (x, y) => Some (x, badd x y) end.
(** the points: one at infinity and the solutions of the equation *)
Definition points2 (d : N) (a b : Z) : Z :=
  1 + Z.of_nat (length (filter (on_curve2 d a b) (list_prod (elements (bsize d)) (elements (bsize d))))).

(** ** The remainder *)
Lemma prem_cong d a : peqm d (prem d a) a.
Proof.
  destruct a as [|a]; [apply peqm_refl|]. cbn [prem]. induction a as [a IH|a IH|]; cbn [prem_pos].
  - replace (Npos (xI a)) with (padd 1 (pmul 2 (Npos a))) by reflexivity. unfold peqm.
    replace (padd (N.lxor 1 (xstep d (N.log2 d) (prem_pos d a))) (padd 1 (pmul 2 (Npos a)))) with (padd (xstep d (N.log2 d) (prem_pos d a)) (pmul 2 (Npos a))).
    + eapply peqm_trans; [apply xstep_cong|]. apply peqm_mul; [apply peqm_refl|exact IH].
    + change N.lxor with padd. unfold padd. rewrite N.lxor_assoc, <- (N.lxor_assoc _ 1), (N.lxor_comm _ 1), (N.lxor_assoc 1), <- N.lxor_assoc, N.lxor_nilpotent, N.lxor_0_l. reflexivity.
  - eapply peqm_trans; [apply xstep_cong|]. change (Npos (xO a)) with (pmul 2 (Npos a)). apply peqm_mul; [apply peqm_refl|exact IH].
  - apply peqm_refl.
Qed.
Lemma prem_lt d a : (1 < d -> prem d a < 2 ^ N.log2 d)%N.
Proof.
  intros D. assert (K : (0 < N.log2 d)%N) by (apply N.log2_pos; exact D). assert (D0 : d <> 0%N) by lia.
  assert (O : (1 < 2 ^ N.log2 d)%N) by (rewrite <- (N.pow_0_r 2) at 1; apply N.pow_lt_mono_r; lia).
  destruct a as [|a]; [cbn [prem]; lia|]. cbn [prem]. induction a as [a IH|a IH|]; cbn [prem_pos].
  - apply lxor_lt; [exact O|]. now apply xstep_lt.
  - now apply xstep_lt.
  - exact O.
Qed.
Lemma peqm_small d a b : (1 < d -> a < 2 ^ N.log2 d -> b < 2 ^ N.log2 d -> peqm d a b -> a = b)%N.
Proof.
  intros D A B E. apply padd_eq. apply (small_dvd d); [|exact E]. apply log2_small; [apply N.log2_pos; exact D|now apply lxor_lt].
Qed.

Section Field.
Variable d : N.
Hypothesis ID : irreducible d.
Lemma d1 : (1 < d)%N. Proof. apply ID. Qed.
Lemma size2 : 2 <= bsize d.
Proof.
  pose proof d1 as D. unfold bsize. assert (K : (0 < N.log2 d)%N) by (apply N.log2_pos; exact D).
  change 2 with (2 ^ 1) at 1. apply Z.pow_le_mono_r; lia.
Qed.
Lemma bres_iff x : bres d x = true <-> 0 <= x < bsize d.
Proof. unfold bres. rewrite andb_true_iff, Z.leb_le, Z.ltb_lt. tauto. Qed.
Lemma bres_N n : bres d (Z.of_N n) = true <-> (n < 2 ^ N.log2 d)%N.
Proof. rewrite bres_iff. unfold bsize. change 2 with (Z.of_N 2). rewrite <- N2Z.inj_pow. lia. Qed.
Lemma bres_to x : bres d x = true -> (Z.to_N x < 2 ^ N.log2 d)%N.
Proof. intros H. apply bres_N. apply bres_iff in H. rewrite Z2N.id by lia. now apply bres_iff. Qed.
Lemma in_els x : In x (elements (bsize d)) <-> bres d x = true.
Proof. rewrite bres_iff. apply in_elements. Qed.

(** ** The field *)
Definition el : Type := { x : Z | bres d x = true }.
Definition v (x : el) : Z := proj1_sig x.
Definition n (x : el) : N := Z.to_N (v x).
Lemma v_eq x y : v x = v y -> x = y.
Proof. destruct x as (x & X), y as (y & Y). cbn. intros <-. f_equal. apply UIP_dec. apply bool_dec. Qed.
Lemma n_v x : Z.of_N (n x) = v x.
Proof. destruct x as (x & X). unfold n. cbn. apply bres_iff in X. lia. Qed.
Lemma n_eq x y : n x = n y -> x = y.
Proof. intros E. apply v_eq. rewrite <- !n_v. now rewrite E. Qed.
Lemma n_lt x : (n x < 2 ^ N.log2 d)%N. Proof. apply bres_to, (proj2_sig x). Qed.
Lemma el_dec (x y : el) : {x = y} + {x <> y}.
Proof. destruct (Z.eq_dec (v x) (v y)) as [E|E]; [left; now apply v_eq|right; congruence]. Qed.
Lemma badd_ok x y : bres d x = true -> bres d y = true -> bres d (badd x y) = true.
Proof. intros X Y. apply bres_N. apply lxor_lt; now apply bres_to. Qed.
Lemma bmul_ok x y : bres d (bmul d x y) = true.
Proof. apply bres_N. apply prem_lt, d1. Qed.
Lemma zero_ok : bres d 0 = true. Proof. pose proof size2. apply bres_iff. lia. Qed.
Lemma one_ok : bres d 1 = true. Proof. pose proof size2. apply bres_iff. lia. Qed.
Lemma binv_ok x : bres d (binv d x) = true.
Proof. unfold binv. destruct (find _ _) as [y|] eqn:E; [|exact zero_ok]. apply find_some in E. now apply in_els. Qed.
Definition fzero : el := exist _ 0 zero_ok.
Definition fone : el := exist _ 1 one_ok.
Definition fplus (x y : el) : el := exist _ _ (badd_ok _ _ (proj2_sig x) (proj2_sig y)).
Definition fmult (x y : el) : el := exist _ _ (bmul_ok (v x) (v y)).
Definition finve (x : el) : el := exist _ _ (binv_ok (v x)).
Definition fdiv (x y : el) : el := fmult x (finve y).
Lemma n_plus x y : n (fplus x y) = padd (n x) (n y).
Proof. unfold n at 1. cbn [v fplus proj1_sig]. unfold badd. now rewrite N2Z.id. Qed.
Lemma n_mult x y : n (fmult x y) = prem d (pmul (n x) (n y)).
Proof. unfold n at 1. cbn [v fmult proj1_sig]. unfold bmul. now rewrite N2Z.id. Qed.
(** equations hold when they hold modulo [d] *)
Lemma cong_eq x y : peqm d (n x) (n y) -> x = y.
Proof. intros E. apply n_eq. apply (peqm_small d); [apply d1|apply n_lt|apply n_lt|exact E]. Qed.
Lemma n_mult_cong x y : peqm d (n (fmult x y)) (pmul (n x) (n y)).
Proof. rewrite n_mult. apply prem_cong. Qed.
Lemma peqm_padd a b a' b' : peqm d a a' -> peqm d b b' -> peqm d (padd a b) (padd a' b').
Proof. unfold peqm. intros A B. replace (padd (padd a b) (padd a' b')) with (padd (padd a a') (padd b b')) by ring. now apply pdvd_add. Qed.
Lemma peqm_of_eq a b : a = b -> peqm d a b. Proof. intros ->. apply peqm_refl. Qed.
Lemma el_ring : ring_theory fzero fone fplus fmult fplus (fun x => x) eq.
Proof.
  constructor.
  - intros x. apply n_eq. rewrite n_plus. apply N.lxor_0_l.
  - intros x y. apply n_eq. rewrite !n_plus. apply N.lxor_comm.
  - intros x y z. apply n_eq. rewrite !n_plus. symmetry. apply N.lxor_assoc.
  - intros x. apply cong_eq. eapply peqm_trans; [apply n_mult_cong|]. apply peqm_of_eq. apply pmul_1_l.
  - intros x y. apply n_eq. rewrite !n_mult. now rewrite pmul_comm.
  - intros x y z. apply cong_eq. eapply peqm_trans; [apply n_mult_cong|]. eapply peqm_trans; [apply peqm_mul; [apply peqm_refl|apply n_mult_cong]|].
    apply peqm_sym. eapply peqm_trans; [apply n_mult_cong|]. eapply peqm_trans; [apply peqm_mul; [apply n_mult_cong|apply peqm_refl]|].
    apply peqm_of_eq. symmetry. apply pmul_assoc.
  - intros x y z. apply cong_eq. eapply peqm_trans; [apply n_mult_cong|]. rewrite !n_plus. rewrite pmul_add_l. apply peqm_sym.
    apply peqm_padd; apply n_mult_cong.
  - reflexivity.
  - intros x. apply n_eq. rewrite n_plus. apply N.lxor_nilpotent.
Qed.
Lemma has_inverse x : x <> fzero -> exists y, fmult x y = fone.
Proof.
  intros X. assert (NX : ~ pdvd d (n x)).
  { intros H. apply X. apply n_eq. apply (small_dvd d); [|exact H]. apply log2_small; [apply N.log2_pos, d1|apply n_lt]. }
  destruct (bezout d (n x)) as (g & s & t & E & D1 & D2). destruct (irreducible_dvd d g ID D1) as [->| ->]; [|contradiction].
  assert (B : bres d (Z.of_N (prem d t)) = true) by (apply bres_N; apply prem_lt, d1).
  set (y := exist (fun x => bres d x = true) (Z.of_N (prem d t)) B : el). exists y. apply cong_eq. eapply peqm_trans; [apply n_mult_cong|].
  assert (T : n y = prem d t) by (unfold n, y; cbn [v proj1_sig]; now rewrite N2Z.id). rewrite T.
  eapply peqm_trans; [apply peqm_mul; [apply peqm_refl|apply prem_cong]|]. change (n fone) with 1%N. rewrite E. unfold peqm.
  exists s. rewrite (pmul_comm s d), (pmul_comm t (n x)). unfold padd. rewrite (N.lxor_comm (pmul d s)), <- N.lxor_assoc, N.lxor_nilpotent, N.lxor_0_l. reflexivity.
Qed.
Lemma el_field : field_theory fzero fone fplus fmult fplus (fun x => x) fdiv finve eq.
Proof.
  constructor; [apply el_ring| |reflexivity|].
  - intros E. apply (f_equal v) in E. discriminate.
  - intros x X. rewrite (Rmul_comm el_ring). apply v_eq. cbn [v fmult finve proj1_sig]. unfold binv.
    destruct (find _ _) as [y|] eqn:E; [apply find_some in E; apply Z.eqb_eq, E|]. exfalso.
    destruct (has_inverse x X) as (y & Y). pose proof (find_none _ _ E (v y)) as F. cbn beta in F.
    rewrite in_els in F. specialize (F (proj2_sig y)). apply (f_equal v) in Y. change (v (fmult x y)) with (bmul d (v x) (v y)) in Y. rewrite Y in F. discriminate.
Qed.
Lemma two_zero : fplus fone fone = fzero.
Proof. apply n_eq. rewrite n_plus. apply N.lxor_nilpotent. Qed.

(** ** The curve *)
Variables a b : Z.
Hypothesis AR : bres d a = true.
Hypothesis BR : bres d b = true.
Hypothesis ns : b <> 0.
Definition ea : el := exist _ a AR.
Definition eb : el := exist _ b BR.
Notation gadd := (Ec_Group2.add el fplus fmult fdiv el_dec ea).
Notation gneg := (Ec_Group2.neg el fplus).
Notation gon := (Ec_Group2.on el fplus fmult ea eb).
Definition down (P : Ec_Group2.pt el) : option (Z * Z) := match P with None => None | Some (x, y) => Some (v x, v y) end.
Lemma smooth : eb <> fzero.
Proof. intros E. apply (f_equal v) in E. contradiction. Qed.
Lemma down_on P : ec2_on d a b (down P) = true <-> gon P.
Proof.
  destruct P as [(x, y)|]; [|cbn; tauto]. cbn [down ec2_on Ec_Group2.on]. rewrite (proj2_sig x : bres d (v x) = true), (proj2_sig y : bres d (v y) = true). cbn [andb].
  unfold on_curve2. rewrite Z.eqb_eq. split; [intros E; now apply v_eq|intros E; exact (f_equal v E)].
Qed.
Lemma lift P : ec2_on d a b P = true -> exists Q, P = down Q /\ gon Q.
Proof.
  intros H. destruct P as [(x, y)|]; [|now exists None]. pose proof H as H0. cbn [ec2_on] in H0. apply andb_prop in H0. destruct H0 as (H0 & _). apply andb_prop in H0.
  destruct H0 as (X & Y). exists (Some (exist _ x X, exist _ y Y)). split; [reflexivity|]. now apply down_on.
Qed.
Lemma eqb_dec {T} (x y : el) (s t : T) : (if v x =? v y then s else t) = (if el_dec x y then s else t).
Proof.
  destruct (el_dec x y) as [->|N]; [now rewrite Z.eqb_refl|]. destruct (Z.eqb_spec (v x) (v y)) as [E|]; [|reflexivity]. apply v_eq in E. contradiction.
Qed.
Lemma down_add P Q : down (gadd P Q) = ec2_add d a (down P) (down Q).
Proof.
  destruct P as [(x1, y1)|], Q as [(x2, y2)|]; try reflexivity. cbn [down Ec_Group2.add ec2_add].
  rewrite eqb_dec. destruct (el_dec x1 x2) as [E|E]; [|reflexivity].
  change (badd (v y1) (v y2)) with (v (fplus y1 y2)). rewrite eqb_dec. destruct (el_dec (fplus y1 y2) x1); reflexivity.
Qed.
Lemma down_neg P : down (gneg P) = ec2_neg (down P).
Proof. destruct P as [(x, y)|]; reflexivity. Qed.

(** ** The laws *)
Notation on P := (ec2_on d a b P = true).
Theorem ec2_add_on P Q : on P -> on Q -> on (ec2_add d a P Q).
Proof.
  intros HP HQ. destruct (lift P HP) as (P' & -> & A), (lift Q HQ) as (Q' & -> & B). rewrite <- down_add. apply down_on.
  exact (Ec_Group2.on_add _ _ _ _ _ _ _ _ _ el_field el_dec two_zero ea eb P' Q' A B).
Qed.
Theorem ec2_neg_on P : on P -> on (ec2_neg P).
Proof.
  intros HP. destruct (lift P HP) as (P' & -> & A). rewrite <- down_neg. apply down_on.
  exact (Ec_Group2.on_neg _ _ _ _ _ _ _ _ _ el_field two_zero ea eb P' A).
Qed.
Theorem ec2_assoc P Q R : on P -> on Q -> on R -> ec2_add d a P (ec2_add d a Q R) = ec2_add d a (ec2_add d a P Q) R.
Proof.
  intros HP HQ HR. destruct (lift P HP) as (P' & -> & A), (lift Q HQ) as (Q' & -> & B), (lift R HR) as (R' & -> & C).
  rewrite <- !down_add. f_equal. symmetry. exact (Ec_Group2.add_assoc _ _ _ _ _ _ _ _ _ el_field el_dec two_zero ea eb smooth P' Q' R' A B C).
Qed.
Theorem ec2_comm P Q : on P -> on Q -> ec2_add d a P Q = ec2_add d a Q P.
Proof.
  intros HP HQ. destruct (lift P HP) as (P' & -> & A), (lift Q HQ) as (Q' & -> & B). rewrite <- !down_add. f_equal.
  exact (Ec_Group2.add_comm _ _ _ _ _ _ _ _ _ el_field el_dec two_zero ea eb P' Q' A B).
Qed.
Theorem ec2_opposite P : on P -> ec2_add d a P (ec2_neg P) = None.
Proof.
  intros HP. destruct (lift P HP) as (P' & -> & A). rewrite <- down_neg, <- down_add.
  now rewrite (Ec_Group2.add_opposite _ _ _ _ _ _ _ _ _ el_field el_dec two_zero ea P').
Qed.
End Field.
Print Assumptions ec2_assoc.
Print Assumptions el_field.
