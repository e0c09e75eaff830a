(** A curve only depends on its coefficients modulo the prime. *)
From Coq Require Import Znumtheory Zpow_facts.
From Verif Require Import Base Fp Abelian Ec_Fp Poly_Model Whole_Spec.
From Verif Require Ec.
Local Open Scope Z_scope.
Local Open Scope list_scope.

Section Mod.
Variable p : Z.
Hypothesis PP : prime p.
Variables a a' b b' : Z.
Hypothesis Ea : a mod p = a' mod p.
Hypothesis Eb : b mod p = b' mod p.
Lemma third_mod l l' x1 y1 x2 : l mod p = l' mod p -> ec_third p l x1 y1 x2 = ec_third p l' x1 y1 x2.
Proof.
  intros E. unfold ec_third. assert (X : (l * l - x1 - x2) mod p = (l' * l' - x1 - x2) mod p).
  { destruct (mod_congr p PP l l' l l' E E) as (M & _). destruct (mod_congr p PP (l * l) (l' * l') x1 x1 M eq_refl) as (_ & _ & S).
    apply (mod_congr p PP _ _ x2 x2 S eq_refl). }
  cbv zeta. rewrite X. f_equal. f_equal. generalize ((l' * l' - x1 - x2) mod p). intros x. destruct (mod_congr p PP l l' (x1 - x) (x1 - x) E eq_refl) as (M & _).
  apply (mod_congr p PP _ _ y1 y1 M eq_refl).
Qed.
Lemma add_mod P Q : ec_add p a P Q = ec_add p a' P Q.
Proof.
  destruct P as [[x1 y1]|], Q as [[x2 y2]|]; try reflexivity. cbn [ec_add]. destruct (x1 =? x2); [|reflexivity]. destruct ((y1 + y2) mod p =? 0); [reflexivity|].
  apply third_mod. destruct (mod_congr p PP (3 * x1 * x1) (3 * x1 * x1) a a' eq_refl Ea) as (_ & S & _). apply (mod_congr p PP _ _ _ _ S eq_refl).
Qed.
Lemma iter_mod n : forall P, Pos.iter_op (ec_add p a) n P = Pos.iter_op (ec_add p a') n P.
Proof. induction n as [n IH|n IH|]; intros P; cbn [Pos.iter_op]; [rewrite !add_mod, IH|rewrite add_mod, IH|]; reflexivity. Qed.
Lemma mul_mod P k : ec_mul (Prime p) a P k = ec_mul (Prime p) a' P k.
Proof. unfold ec_mul, zmul. destruct k; [reflexivity| |f_equal]; apply iter_mod. Qed.
Lemma on_mod P : ec_on p a b P = ec_on p a' b' P.
Proof.
  destruct P as [[x y]|]; [|reflexivity]. cbn [ec_on]. f_equal. unfold on_curve. f_equal.
  destruct (mod_congr p PP a a' x x Ea eq_refl) as (M & _). destruct (mod_congr p PP (x ^ 3) (x ^ 3) _ _ eq_refl M) as (_ & S & _).
  apply (mod_congr p PP _ _ b b' S Eb).
Qed.
Lemma points_same : points p a b = points p a' b'.
Proof. now apply points_mod. Qed.
Lemma disc_mod : (4 * a ^ 3 + 27 * b ^ 2) mod p = (4 * a' ^ 3 + 27 * b' ^ 2) mod p.
Proof.
  assert (H : forall c x y n, x mod p = y mod p -> (c * x ^ n) mod p = (c * y ^ n) mod p).
  { intros c x y n E. destruct (mod_congr p PP c c (x ^ n) (y ^ n) eq_refl) as (M & _); [|exact M].
    assert (0 < p) by (apply prime_ge_2 in PP; lia). rewrite (Zpower_mod x n p), (Zpower_mod y n p), E by assumption. reflexivity. }
  apply (mod_congr p PP _ _ _ _ (H 4 a a' 3 Ea) (H 27 b b' 2 Eb)).
Qed.
Lemma nonsingular_mod : nonsingular p a b -> nonsingular p a' b'.
Proof. unfold nonsingular. now rewrite disc_mod. Qed.
Lemma order_mod P n : has_order (Prime p) a P n <-> has_order (Prime p) a' P n.
Proof.
  unfold has_order, Points_Props.order_is. split; intros (A & B); (split; [exact A|]); intros k; rewrite <- B; [rewrite mul_mod|rewrite <- mul_mod]; reflexivity.
Qed.
Lemma combination_mod gs : forall ks, combination (Prime p) a gs ks = combination (Prime p) a' gs ks.
Proof. induction gs as [|g gs IH]; intros [|k ks]; try reflexivity. cbn [combination Ec.ec_add]. now rewrite add_mod, mul_mod, IH. Qed.
Lemma gens_mod gs : pari_gens (Prime p) a b gs -> pari_gens (Prime p) a' b' gs.
Proof.
  intros (A & B & C). split; [|split].
  - apply Forall_impl with (2 := A). intros g. change (Ec.ec_on (Prime p)) with (ec_on p). now rewrite on_mod.
  - intros Q On. change (ec_on p a' b' Q = true) in On. rewrite <- on_mod in On. destruct (B Q On) as (ks & L & ->). exists ks. split; [exact L|]. apply combination_mod.
  - change (Ec.points (Prime p)) with (points p) in *. rewrite <- points_same. destruct gs as [|g [|h [|]]]; [exact C|now apply order_mod| |exact C].
    destruct C as (m & k & M & K & R). exists m, k. split; [now apply order_mod|]. split; [now apply order_mod|exact R].
Qed.
End Mod.
