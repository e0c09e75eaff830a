(** A cubic x^3 + a x + b takes a square value modulo every prime above 3: a curve has a point besides the one at
    infinity. The argument is Stepanov's. If all values are non-squares, f^m + 1 with m = (p - 1) / 2 vanishes everywhere,
    so it is (x^p - x) g up to multiples of p, and its derivative is - g there. As f (f^m + 1)' = m f^m f' = - m f', the
    polynomial f g - m f', of degree less than p, vanishes everywhere too; but f g has degree 3 at least or g = 0.
    Nothing here models /repo. *)
From Coq Require Import Znumtheory Zpow_facts Permutation.
From Verif Require Import Base Fp Fp_Orbits.
Local Open Scope Z_scope.

(** ** Polynomials: product, power, derivative *)
Fixpoint mul (l q : list Z) : list Z := match l with [] => [] | c :: l => plus (map (Z.mul c) q) (0 :: mul l q) end.
Lemma mul_value l q x : value (mul l q) x = value l x * value q x.
Proof. induction l as [|c l IH]; cbn [mul value]; [ring|]. rewrite plus_value, times_value. cbn [value]. rewrite IH. ring. Qed.
Lemma mul_length l q : (0 < length q)%nat -> (length (mul l q) <= length l + length q - 1)%nat.
Proof.
  intros Q. induction l as [|c l IH]; cbn [mul length]; [lia|].
  pose proof (plus_length (map (Z.mul c) q) (0 :: mul l q)) as H. rewrite map_length in H. cbn [length] in H. lia.
Qed.
Fixpoint deriv (l : list Z) : list Z := match l with [] => [] | _ :: l => plus l (0 :: deriv l) end.
Notation d l x := (value (deriv l) x).
Lemma deriv_cons c l x : d (c :: l) x = value l x + x * d l x.
Proof. cbn [deriv]. rewrite plus_value. cbn [value]. ring. Qed.
Lemma deriv_plus l m x : d (plus l m) x = d l x + d m x.
Proof.
  revert m. induction l as [|a l IH]; intros [|b m]; cbn [plus]; try (cbn [deriv value]; ring).
  rewrite !deriv_cons, plus_value, IH. ring.
Qed.
Lemma deriv_times c l x : d (map (Z.mul c) l) x = c * d l x.
Proof. induction l as [|a l IH]; [cbn; ring|]. cbn [map]. rewrite !deriv_cons, times_value, IH. ring. Qed.
Lemma deriv_mul l q x : d (mul l q) x = d l x * value q x + value l x * d q x.
Proof.
  induction l as [|c l IH]; [cbn; ring|]. cbn [mul]. rewrite deriv_plus, deriv_times, !deriv_cons, mul_value, IH. cbn [value]. ring.
Qed.
Fixpoint power (l : list Z) (n : nat) : list Z := match n with O => [1] | S n => mul (power l n) l end.
Lemma power_value l n x : value (power l n) x = value l x ^ Z.of_nat n.
Proof. induction n as [|n IH]; [cbn [power value Z.of_nat]; rewrite Z.pow_0_r; ring|]. cbn [power]. rewrite mul_value, IH, Nat2Z.inj_succ, Z.pow_succ_r by lia. ring. Qed.
Lemma deriv_power l n x : value l x * d (power l n) x = Z.of_nat n * value l x ^ Z.of_nat n * d l x.
Proof.
  induction n as [|n IH]; [cbn; ring|]. cbn [power]. rewrite deriv_mul, power_value, Z.mul_add_distr_l, Z.mul_assoc, IH, Nat2Z.inj_succ, Z.pow_succ_r by lia. ring.
Qed.
Lemma power_length l n : (0 < length l)%nat -> (length (power l n) <= n * (length l - 1) + 1)%nat.
Proof. intros L. induction n as [|n IH]; [cbn; lia|]. cbn [power]. pose proof (mul_length (power l n) l L). cbn [Nat.mul]. lia. Qed.
Lemma split_value n l x : value l x = value (firstn n l) x + x ^ Z.of_nat n * value (skipn n l) x.
Proof.
  revert n. induction l as [|c l IH]; intros [|n]; cbn [firstn skipn value]; try (cbn [Z.of_nat]; rewrite Z.pow_0_r; ring); try ring.
  rewrite (IH n), Nat2Z.inj_succ, Z.pow_succ_r by lia. ring.
Qed.
Lemma deriv_split n : forall l x, d l x = d (firstn (S n) l) x + x ^ Z.of_nat n * (Z.of_nat (S n) * value (skipn (S n) l) x + x * d (skipn (S n) l) x).
Proof.
  induction n as [|n IH]; intros [|c l] x; try (cbn [firstn skipn value deriv]; ring).
  - change (firstn 1 (c :: l)) with [c]. change (skipn 1 (c :: l)) with l. rewrite !deriv_cons. change (Z.of_nat 1) with 1. change (Z.of_nat 0) with 0. rewrite Z.pow_0_r. cbn [value deriv]. ring.
  - change (firstn (S (S n)) (c :: l)) with (c :: firstn (S n) l). change (skipn (S (S n)) (c :: l)) with (skipn (S n) l).
    rewrite !deriv_cons, (IH l x), (split_value (S n) l x). rewrite !Nat2Z.inj_succ, !Z.pow_succ_r by lia. unfold Z.succ. ring.
Qed.
Lemma plus_comm l : forall q, plus l q = plus q l.
Proof. induction l as [|x l IH]; intros [|y q]; cbn [plus]; try reflexivity. rewrite (IH q). f_equal. ring. Qed.
Lemma plus_assoc l : forall q r, plus (plus l q) r = plus l (plus q r).
Proof. induction l as [|x l IH]; intros [|y q] [|z r]; cbn [plus]; try reflexivity. rewrite IH. f_equal. ring. Qed.
Lemma injective_nodup {A B} (h : A -> B) l : NoDup l -> (forall x y, In x l -> In y l -> h x = h y -> x = y) -> NoDup (map h l).
Proof.
  induction 1 as [|x l N _ IH]; intros H; cbn [map]; [constructor|]. constructor.
  - intros I. apply in_map_iff in I. destruct I as (y & E & Y). apply N. rewrite (H x y); [exact Y|now left|now right|now symmetry].
  - apply IH. intros y z Y Z0. apply H; now right.
Qed.

Section Prime.
Variable p : Z.
Hypothesis P : prime p.
Hypothesis big : 3 < p.

Lemma coefficients l : (Z.of_nat (length l) <= p) -> (forall x, (p | value l x)) -> Forall (fun c => (p | c)) l.
Proof.
  induction l as [|c l IH]; intros L H; [constructor|]. cbn [length] in L. constructor.
  - specialize (H 0). cbn [value] in H. now replace (c + 0 * value l 0) with c in H by ring.
  - apply IH; [lia|]. apply (root_bound p P l (units p)).
    + rewrite (units_length p P). lia.
    + apply units_nodup.
    + intros r R. apply in_units in R. split; [lia|]. pose proof (H r) as A. pose proof (H 0) as B. cbn [value] in A, B.
      assert (D : (p | r * value l r)) by (replace (r * value l r) with (c + r * value l r - (c + 0 * value l 0)) by ring; now apply Z.divide_sub_r).
      destruct (no_zero_div p P _ _ D) as [X|X]; [|exact X]. now elim (unit_not_divide p P r R).
Qed.
Lemma divisible_value l x : Forall (fun c => (p | c)) l -> (p | value l x).
Proof. induction 1 as [|c l H _ IH]; cbn [value]; [exists 0; reflexivity|]. apply Z.divide_add_r; [exact H|]. now apply Z.divide_mul_r. Qed.
Lemma divisible_plus l m : Forall (fun c => (p | c)) l -> Forall (fun c => (p | c)) m -> Forall (fun c => (p | c)) (plus l m).
Proof.
  intros H. revert m. induction H as [|a l A H IH]; intros m M; [exact M|]. destruct M as [|b m B M]; [constructor; assumption|].
  cbn [plus]. constructor; [now apply Z.divide_add_r|]. now apply IH.
Qed.
Lemma divisible_deriv l : Forall (fun c => (p | c)) l -> Forall (fun c => (p | c)) (deriv l).
Proof. induction 1 as [|c l H HH IH]; cbn [deriv]; [constructor|]. apply divisible_plus; [exact HH|]. constructor; [exists 0; reflexivity|exact IH]. Qed.

Let m : Z := (p - 1) / 2.
Lemma m_twice : p = 2 * m + 1.
Proof.
  unfold m. pose proof (Z.div_mod (p - 1) 2 ltac:(lia)) as E. pose proof (Z.mod_pos_bound (p - 1) 2 ltac:(lia)) as B.
  destruct (Z.eq_dec ((p - 1) mod 2) 0) as [Z0|Z0]; [lia|]. exfalso. assert (D : (2 | p)) by (exists ((p - 1) / 2 + 1); lia).
  destruct (prime_divisors p P 2 D) as [H|[H|[H|H]]]; lia.
Qed.

(** Euler's criterion for non-squares *)
Lemma half_squares : NoDup (map (fun y => (y * y) mod p) (map (fun k => Z.of_nat k) (seq 1 (Z.to_nat m)))).
Proof.
  pose proof m_twice as E. rewrite map_map. apply injective_nodup; [apply seq_NoDup|].
  intros i j I J H. apply in_seq in I, J. apply (mod_eq p P) in H. replace (Z.of_nat i * Z.of_nat i - Z.of_nat j * Z.of_nat j) with ((Z.of_nat i - Z.of_nat j) * (Z.of_nat i + Z.of_nat j)) in H by ring.
  destruct (no_zero_div p P _ _ H) as [X|X].
  - apply (divide_small p P) in X; lia.
  - apply (divide_small p P) in X; lia.
Qed.
Lemma nonsquare_power v : (forall y, ~ (p | y * y - v)) -> (p | v ^ m + 1).
Proof.
  intros N. pose proof m_twice as E. assert (U : ~ (p | v)) by (intros D; apply (N 0); replace (0 * 0 - v) with (- v) by ring; now apply Z.divide_opp_r).
  pose proof (fermat p P v U) as F. apply (mod_eq p P) in F. replace (p - 1) with (m + m) in F by lia. rewrite Z.pow_add_r in F by lia.
  replace (v ^ m * v ^ m - 1) with ((v ^ m - 1) * (v ^ m + 1)) in F by ring. destruct (no_zero_div p P _ _ F) as [X|X]; [exfalso|exact X].
  set (sq := map (fun y => (y * y) mod p) (map (fun k => Z.of_nat k) (seq 1 (Z.to_nat m)))).
  assert (A : (p | value (power_minus_one (Z.to_nat (m - 1))) 0)).
  { apply (root_bound p P) with (R := (v mod p) :: sq).
    - unfold power_minus_one, sq. cbn [length]. rewrite app_length, repeat_length, !map_length, seq_length. cbn [length]. lia.
    - constructor; [|exact half_squares]. intros I. unfold sq in I. apply in_map_iff in I. destruct I as (y & Y & _). apply (mod_eq p P) in Y. exact (N y Y).
    - assert (VP : forall s, value (power_minus_one (Z.to_nat (m - 1))) s = s ^ m - 1).
      { intros s. rewrite power_minus_one_value. replace (Z.of_nat (S (Z.to_nat (m - 1)))) with m by lia. reflexivity. }
      intros r [<-|I].
      + split; [apply Z.mod_pos_bound; lia|]. rewrite VP. apply (mod_eq p P). rewrite <- Zpower_mod by lia. now apply (mod_eq p P).
      + unfold sq in I. rewrite map_map in I. apply in_map_iff in I. destruct I as (k & <- & K). apply in_seq in K. split; [apply Z.mod_pos_bound; lia|].
        rewrite VP. apply (mod_eq p P). rewrite <- Zpower_mod by lia. rewrite <- Z.pow_2_r, <- Z.pow_mul_r by lia. replace (2 * m) with (p - 1) by lia.
        apply fermat; [exact P|]. apply (unit_not_divide p P). lia. }
  rewrite power_minus_one_value, Z.pow_0_l in A by lia. apply Z.divide_opp_r in A. change (- (0 - 1)) with 1 in A. apply Z.divide_1_r_nonneg in A; lia.
Qed.

Variables a b : Z.
Notation f := [b; a; 0; 1].
Lemma cubic_value x : value f x = x ^ 3 + a * x + b. Proof. cbn [value]. ring. Qed.
Lemma cubic_deriv x : d f x = 3 * x ^ 2 + a. Proof. cbn [deriv plus value]. ring. Qed.

Lemma cubic_multiple g : forall e0 e1 e2, Forall (fun c => (p | c)) (plus (mul g f) [e0; e1; e2]) -> Forall (fun c => (p | c)) g /\ (p | e0) /\ (p | e1) /\ (p | e2).
Proof.
  induction g as [|c g IH]; intros e0 e1 e2 H.
  - cbn [mul plus] in H. inversion H as [|? ? A H1]; subst. inversion H1 as [|? ? B H2]; subst. inversion H2; subst. auto.
  - cbn [mul] in H. rewrite plus_assoc, (plus_comm (0 :: mul g f)), <- plus_assoc, (plus_comm _ (0 :: mul g f)) in H. cbn [map plus] in H.
    inversion H as [|? ? A H1]; subst. apply IH in H1. destruct H1 as (G & B & C & D).
    rewrite Z.mul_1_r in D. split; [constructor; assumption|]. split; [|split].
    + replace e0 with (0 + (c * b + e0) - c * b) by ring. apply Z.divide_sub_r; [exact A|now apply Z.divide_mul_l].
    + replace e1 with (c * a + e1 - c * a) by ring. apply Z.divide_sub_r; [exact B|now apply Z.divide_mul_l].
    + now replace e2 with (c * 0 + e2) by ring.
Qed.
Theorem some_square : exists x y, (p | y * y - (x ^ 3 + a * x + b)).
Proof.
  pose proof m_twice as E.
  destruct (Zdivide_dec p 0) as [_|X]; [|elim X; exists 0; reflexivity].
  destruct (existsb (fun x => existsb (fun y => (y * y) mod p =? (x ^ 3 + a * x + b) mod p) (elements p)) (elements p)) eqn:S.
  { apply existsb_exists in S. destruct S as (x & _ & S). apply existsb_exists in S. destruct S as (y & _ & S). exists x, y. apply (mod_eq p P). now apply Z.eqb_eq. }
  exfalso. assert (NS : forall x y, ~ (p | y * y - (x ^ 3 + a * x + b))).
  { intros x y D. enough (true = false) by discriminate. rewrite <- S. symmetry. apply existsb_exists. exists (x mod p). split; [apply mod_in; exact P|].
    apply existsb_exists. exists (y mod p). split; [apply mod_in; exact P|]. apply Z.eqb_eq. apply (mod_eq p P) in D. rewrite <- Z.mul_mod, D by lia.
    assert (Q : (x mod p) mod p = x mod p) by (apply Z.mod_mod; lia).
    rewrite !(Z.add_mod (_ + _)), !(Z.add_mod (_ ^ 3)), <- Zpower_mod, (Z.mul_mod a (x mod p)), Q, <- Z.mul_mod by lia. reflexivity. }
  clear S. set (n := Z.to_nat m). assert (HN : Z.of_nat n = m) by lia.
  set (F := plus (power f n) [1]).
  assert (FV : forall x, (p | value F x)).
  { intros x. unfold F. rewrite plus_value, power_value, HN, cubic_value. cbn [value]. replace (1 + x * 0) with 1 by ring. apply nonsquare_power. exact (NS x). }
  assert (FD : forall x, value f x * d F x = m * value f x ^ m * d f x).
  { intros x. unfold F. rewrite deriv_plus, Z.mul_add_distr_l, deriv_power, HN. cbn [deriv plus]. cbn [value]. ring. }
  assert (FL : (length F <= 3 * n + 1)%nat).
  { unfold F. pose proof (plus_length (power f n) [1]) as H. pose proof (power_length f n ltac:(cbn; lia)) as K. cbn [length] in H, K. lia. }
  set (k := Z.to_nat p). assert (HK : Z.of_nat k = p) by lia.
  set (g := skipn k F). set (r := plus (firstn k F) (0 :: g)).
  assert (GL : (length g <= n)%nat) by (unfold g; rewrite skipn_length; lia).
  assert (fermat_all : forall x, (p | x ^ p - x)).
  { intros x. destruct (Zdivide_dec p x) as [D|D].
    - apply Z.divide_sub_r; [|exact D]. replace p with (1 + (p - 1)) at 2 by ring. rewrite Z.pow_add_r, Z.pow_1_r by lia. now apply Z.divide_mul_l.
    - pose proof (fermat p P x D) as Q. apply (mod_eq p P) in Q. replace (x ^ p - x) with (x * (x ^ (p - 1) - 1)); [now apply Z.divide_mul_r|].
      replace p with (1 + (p - 1)) at 2 by ring. rewrite Z.pow_add_r, Z.pow_1_r by lia. ring. }
  assert (RV : forall x, (p | value r x)).
  { intros x. unfold r. rewrite plus_value. cbn [value]. pose proof (split_value k F x) as Q. rewrite HK in Q. fold g in Q.
    replace (value (firstn k F) x + (0 + x * value g x)) with (value F x - (x ^ p - x) * value g x) by (rewrite Q; ring).
    apply Z.divide_sub_r; [apply FV|]. apply Z.divide_mul_l, fermat_all. }
  assert (RC : Forall (fun c => (p | c)) r).
  { apply coefficients; [|exact RV]. unfold r. pose proof (plus_length (firstn k F) (0 :: g)) as H. rewrite firstn_length in H. cbn [length] in H. lia. }
  (** the derivative of f^m + 1 is - g *)
  assert (DG : forall x, (p | d F x + value g x)).
  { intros x. destruct k as [|k'] eqn:EK; [lia|]. pose proof (deriv_split k' F x) as Q. fold g in Q.
    assert (T : d (firstn (S k') F) x = d r x - (value g x + x * d g x)) by (unfold r; rewrite deriv_plus, deriv_cons; ring).
    assert (XP : x ^ Z.of_nat k' * x = x ^ p) by (rewrite <- HK, Nat2Z.inj_succ, Z.pow_succ_r by lia; ring).
    rewrite Q, T, HK.
    replace (d r x - (value g x + x * d g x) + x ^ Z.of_nat k' * (p * value g x + x * d g x) + value g x)
      with (d r x + (x ^ Z.of_nat k' * x - x) * d g x + p * (x ^ Z.of_nat k' * value g x)) by ring. rewrite XP.
    apply Z.divide_add_r; [apply Z.divide_add_r|apply Z.divide_factor_l].
    - apply divisible_value, divisible_deriv, RC.
    - apply Z.divide_mul_l, fermat_all. }
  (** so f g - m f' vanishes *)
  set (R := plus (mul g f) [- m * a; 0; - m * 3]).
  assert (RR : forall x, (p | value R x)).
  { intros x. unfold R. rewrite plus_value, mul_value.
    assert (Q : (p | value f x * (d F x + value g x))) by (apply Z.divide_mul_r, DG). rewrite Z.mul_add_distr_l, FD, cubic_deriv in Q.
    assert (W : (p | m * (3 * x ^ 2 + a) * (value f x ^ m + 1))).
    { apply Z.divide_mul_r. specialize (FV x). unfold F in FV. rewrite plus_value, power_value, HN in FV. replace (value [1] x) with 1 in FV by (cbn [value]; ring). exact FV. }
    replace (value g x * value f x + value [- m * a; 0; - m * 3] x)
      with (m * value f x ^ m * (3 * x ^ 2 + a) + value f x * value g x - m * (3 * x ^ 2 + a) * (value f x ^ m + 1)) by (cbn [value]; ring).
    now apply Z.divide_sub_r. }
  assert (RL : Forall (fun c => (p | c)) R).
  { apply coefficients; [|exact RR]. unfold R. pose proof (plus_length (mul g f) [- m * a; 0; - m * 3]) as H.
    pose proof (mul_length g f ltac:(cbn; lia)) as K. cbn [length] in H, K. lia. }
  (** but g f has the degree of g and three more *)
  destruct (cubic_multiple g _ _ _ RL) as (_ & _ & _ & D). destruct (no_zero_div p P _ _ D) as [X|X]; apply (divide_small p P) in X; lia.
Qed.
(** a curve has a point besides the one at infinity *)
Theorem many_points : 1 < points p a b.
Proof.
  destruct some_square as (x & y & D). assert (I : In (x mod p, y mod p) (filter (on_curve p a b) (list_prod (elements p) (elements p)))).
  { apply filter_In. split; [apply in_prod; apply mod_in; exact P|]. unfold on_curve. apply Z.eqb_eq. apply (mod_eq p P) in D. rewrite <- Z.mul_mod, D by lia.
    assert (Q : (x mod p) mod p = x mod p) by (apply Z.mod_mod; lia).
    rewrite !(Z.add_mod (_ + _)), !(Z.add_mod (_ ^ 3)), <- Zpower_mod, (Z.mul_mod a (x mod p)), Q, <- Z.mul_mod by lia. reflexivity. }
  unfold points. destruct (filter _ _) as [|q l]; [destruct I|]. cbn [length]. lia.
Qed.
End Prime.
