(** Arithmetic modulo a prime: Fermat's little theorem, square roots, sums over the field, and the
    number of points of a curve y^2 = x^3 + a x + b. Nothing here models /repo. *)
From Coq Require Import Znumtheory Permutation.
From Verif Require Import Base.
Local Open Scope Z_scope.

(** 0, 1, ..., p-1 *)
Definition elements (p : Z) : list Z := map Z.of_nat (seq 0 (Z.to_nat p)).
Lemma in_elements p x : In x (elements p) <-> 0 <= x < p.
Proof.
  unfold elements. rewrite in_map_iff. split; [intros (n & <- & H); apply in_seq in H; lia|].
  intros H. exists (Z.to_nat x). split; [lia|]. apply in_seq. lia.
Qed.
Lemma elements_nodup p : NoDup (elements p).
Proof. unfold elements. apply FinFun.Injective_map_NoDup; [intros a b H; lia|apply seq_NoDup]. Qed.
Lemma elements_length p : length (elements p) = Z.to_nat p.
Proof. unfold elements. now rewrite map_length, seq_length. Qed.

Definition sum (f : Z -> Z) (l : list Z) : Z := fold_right (fun x s => f x + s) 0 l.
Lemma sum_perm f l l' : Permutation l l' -> sum f l = sum f l'.
Proof. induction 1; cbn [sum fold_right] in *; unfold sum in *; lia. Qed.
Lemma sum_ext f g l : (forall x, In x l -> f x = g x) -> sum f l = sum g l.
Proof. induction l as [|x l IH]; intros H; cbn; [reflexivity|]. rewrite H by now left. f_equal. apply IH. intros; apply H; now right. Qed.
Lemma sum_map f g l : sum f (map g l) = sum (fun x => f (g x)) l.
Proof. induction l as [|x l IH]; cbn; [reflexivity|]. f_equal. exact IH. Qed.
Lemma sum_add f g l : sum (fun x => f x + g x) l = sum f l + sum g l.
Proof. induction l as [|x l IH]; cbn; [reflexivity|]. unfold sum in *. rewrite IH. ring. Qed.
Lemma sum_const c l : sum (fun _ => c) l = c * Z.of_nat (length l).
Proof. induction l as [|x l IH]; cbn [sum fold_right length]; [ring|]. unfold sum in IH. rewrite IH. lia. Qed.
Lemma sum_le f g l : (forall x, In x l -> f x <= g x) -> sum f l <= sum g l.
Proof. induction l as [|x l IH]; intros H; cbn; [lia|]. pose proof (H x (or_introl eq_refl)). assert (sum f l <= sum g l) by (apply IH; intros; apply H; now right). unfold sum in *. lia. Qed.
(** a sum of small terms that is as large as possible has largest terms *)
Lemma sum_max f g l : (forall x, In x l -> f x <= g x) -> sum f l = sum g l -> forall x, In x l -> f x = g x.
Proof.
  induction l as [|y l IH]; intros H E x I; [destruct I|]. cbn in E. pose proof (H y (or_introl eq_refl)).
  assert (L : sum f l <= sum g l) by (apply sum_le; intros; apply H; now right). unfold sum in *.
  destruct I as [->|I]; [lia|]. apply IH; [intros; apply H; now right|lia|exact I].
Qed.

Section Prime.
Variable p : Z.
Hypothesis P : prime p.
Lemma p2 : 2 <= p. Proof. exact (prime_ge_2 p P). Qed.

Lemma mod_in x : In (x mod p) (elements p).
Proof. apply in_elements. apply Z.mod_pos_bound. pose proof p2. lia. Qed.
Lemma mod_eq x y : x mod p = y mod p <-> (p | x - y).
Proof.
  pose proof p2. split; intros H0.
  - exists (x / p - y / p). pose proof (Z.div_mod x p ltac:(lia)). pose proof (Z.div_mod y p ltac:(lia)). rewrite Z.mul_sub_distr_r. lia.
  - destruct H0 as [k Hk]. replace x with (y + k * p) by lia. apply Z.mod_add. lia.
Qed.
Lemma divide_small x : (p | x) -> - p < x < p -> x = 0.
Proof. intros [k ->] H. pose proof p2. assert (k = 0) by nia. subst. ring. Qed.
Lemma mod_mul_mod a b : (a * (b mod p)) mod p = (a * b) mod p.
Proof. pose proof p2. now rewrite Zmult_mod_idemp_r. Qed.
Lemma mod_congr x y z w : x mod p = y mod p -> z mod p = w mod p -> (x * z) mod p = (y * w) mod p /\ (x + z) mod p = (y + w) mod p /\ (x - z) mod p = (y - w) mod p.
Proof.
  intros A B. rewrite mod_eq in A, B. destruct A as [k A], B as [l B]. repeat split; apply mod_eq.
  - exists (k * z + l * y). replace (x * z - y * w) with ((x - y) * z + (z - w) * y) by ring. rewrite A, B. ring.
  - exists (k + l). replace (x + z - (y + w)) with ((x - y) + (z - w)) by ring. rewrite A, B. ring.
  - exists (k - l). replace (x - z - (y - w)) with ((x - y) - (z - w)) by ring. rewrite A, B. ring.
Qed.
Lemma no_zero_div a b : (p | a * b) -> (p | a) \/ (p | b).
Proof. exact (prime_mult p P a b). Qed.
Lemma cancel a x y : ~ (p | a) -> (a * x) mod p = (a * y) mod p -> x mod p = y mod p.
Proof. intros N H. apply mod_eq in H. apply mod_eq. replace (a * x - a * y) with (a * (x - y)) in H by ring. destruct (no_zero_div _ _ H); [contradiction|assumption]. Qed.

(** an injective map of the field is a permutation *)
Lemma permuted (g : Z -> Z) l : NoDup l -> (forall x, In x l -> In (g x) l) -> (forall x y, In x l -> In y l -> g x = g y -> x = y) -> Permutation (map g l) l.
Proof.
  intros N M I. apply NoDup_Permutation_bis.
  - clear M. induction N as [|x l H N IH]; cbn [map]; constructor.
    + intros X. apply in_map_iff in X. destruct X as (y & E & Y). apply H. rewrite (I x y); [exact Y|now left|now right|congruence].
    + apply IH. intros a b A B. apply I; now right.
  - rewrite map_length. lia.
  - intros y X. apply in_map_iff in X. destruct X as (x & <- & X). now apply M.
Qed.

(** Fermat *)
Definition units : list Z := filter (fun x => negb (x =? 0)) (elements p).
Lemma in_units x : In x units <-> 0 < x < p.
Proof. unfold units. rewrite filter_In, in_elements, negb_true_iff, Z.eqb_neq. lia. Qed.
Lemma units_nodup : NoDup units. Proof. apply NoDup_filter, elements_nodup. Qed.
Lemma units_length : length units = Z.to_nat (p - 1).
Proof.
  pose proof p2. unfold units, elements. replace (Z.to_nat p) with (S (Z.to_nat (p - 1))) by lia. cbn [seq map filter Z.of_nat Z.eqb negb].
  assert (G : forall n s, (0 < s)%nat -> length (filter (fun x => negb (x =? 0)) (map Z.of_nat (seq s n))) = n).
  { induction n as [|n IH]; intros s H0; cbn [seq map filter]; [reflexivity|]. replace (Z.of_nat s =? 0) with false by lia. cbn [negb length]. f_equal. apply IH. lia. }
  apply G. lia.
Qed.
Definition product (l : list Z) : Z := fold_right Z.mul 1 l.
Lemma product_perm l l' : Permutation l l' -> product l = product l'.
Proof. unfold product. induction 1; cbn [fold_right]; congruence || lia. Qed.
Lemma product_scale a l : product (map (fun x => (a * x) mod p) l) mod p = (a ^ Z.of_nat (length l) * product l) mod p.
Proof.
  induction l as [|x l IH]; cbn [map product fold_right length]; [reflexivity|]. fold (product l). fold (product (map (fun x => (a * x) mod p) l)).
  rewrite Nat2Z.inj_succ, Z.pow_succ_r by lia. rewrite Zmult_mod_idemp_l. replace (a * a ^ Z.of_nat (length l) * (x * product l)) with (a * x * (a ^ Z.of_nat (length l) * product l)) by ring.
  apply mod_congr; [reflexivity|exact IH].
Qed.
Lemma product_unit l : (forall x, In x l -> ~ (p | x)) -> ~ (p | product l).
Proof.
  induction l as [|x l IH]; intros H D; cbn [product fold_right] in D; [pose proof p2; apply Z.divide_1_r_nonneg in D; lia|].
  destruct (no_zero_div _ _ D) as [D1|D1]; [exact (H x (or_introl eq_refl) D1)|]. apply IH; [intros; apply H; now right|exact D1].
Qed.
Lemma unit_not_divide x : 0 < x < p -> ~ (p | x).
Proof. intros H D. apply divide_small in D; lia. Qed.
Theorem fermat a : ~ (p | a) -> a ^ (p - 1) mod p = 1 mod p.
Proof.
  intros N. pose proof p2.
  assert (Q : Permutation (map (fun x => (a * x) mod p) units) units).
  { apply permuted; [exact units_nodup| |].
    - intros x X. apply in_units in X. apply in_units. pose proof (Z.mod_pos_bound (a * x) p ltac:(lia)). assert (a * x mod p <> 0); [|lia].
      intros Z0. apply Z.mod_divide in Z0; [|lia]. destruct (no_zero_div _ _ Z0); [contradiction|]. now apply (unit_not_divide x).
    - intros x y X Y E. apply in_units in X, Y. apply cancel in E; [|exact N]. rewrite !Z.mod_small in E by lia. exact E. }
  pose proof (product_scale a units) as S. rewrite (product_perm _ _ Q) in S. rewrite units_length, Z2Nat.id in S by lia.
  apply (cancel (product units)); [apply product_unit; intros x X; apply unit_not_divide; now apply in_units|]. rewrite Z.mul_1_r, Z.mul_comm. symmetry. exact S.
Qed.

(** the number of square roots *)
Definition roots (v : Z) : Z := Z.of_nat (length (filter (fun y => (y * y) mod p =? v mod p) (elements p))).
Lemma roots_mod v w : v mod p = w mod p -> roots v = roots w.
Proof. intros H. unfold roots. now rewrite H. Qed.
Lemma sum_indicator w l : NoDup l -> In w l -> sum (fun v => if w =? v then 1 else 0) l = 1.
Proof.
  induction 1 as [|x l H N IH]; intros I; [destruct I|]. cbn [sum fold_right]. destruct I as [->|I].
  - rewrite Z.eqb_refl. assert (Z0 : sum (fun v => if w =? v then 1 else 0) l = 0).
    { rewrite (sum_ext _ (fun _ => 0)); [rewrite sum_const; lia|]. intros v V. destruct (Z.eqb_spec w v) as [->|]; [contradiction|reflexivity]. }
    unfold sum in Z0. lia.
  - destruct (Z.eqb_spec w x) as [->|]; [contradiction|]. specialize (IH I). unfold sum in IH. lia.
Qed.
Lemma sum_roots : sum roots (elements p) = p.
Proof.
  pose proof p2. unfold roots.
  assert (G : forall l, sum (fun v => Z.of_nat (length (filter (fun y => (y * y) mod p =? v mod p) l))) (elements p) = Z.of_nat (length l)).
  { induction l as [|y l IH].
    - cbn [filter length]. rewrite sum_const. cbn. lia.
    - rewrite (sum_ext _ (fun v => (if (y * y) mod p =? v then 1 else 0) + Z.of_nat (length (filter (fun y => (y * y) mod p =? v mod p) l)))).
      + rewrite sum_add, IH, sum_indicator; [cbn [length]; lia|apply elements_nodup|apply mod_in].
      + intros v V. apply in_elements in V. cbn [filter]. rewrite (Z.mod_small v p) by lia. destruct (_ =? v); cbn [length]; lia. }
  rewrite G, elements_length. lia.
Qed.
Lemma roots_zero : roots 0 = 1.
Proof.
  pose proof p2. unfold roots. replace (filter _ _) with [0]; [reflexivity|]. unfold elements. replace (Z.to_nat p) with (S (Z.to_nat (p - 1))) by lia.
  cbn [seq map filter Z.of_nat]. rewrite Z.eqb_refl. f_equal. rewrite Zmod_0_l.
  assert (G : forall n s, (0 < s)%nat -> (Z.of_nat (s + n) <= p) -> filter (fun y => (y * y) mod p =? 0) (map Z.of_nat (seq s n)) = []).
  { induction n as [|n IH]; intros s H0 H1; cbn [seq map filter]; [reflexivity|]. rewrite IH by lia.
    destruct (Z.eqb_spec ((Z.of_nat s * Z.of_nat s) mod p) 0) as [E|]; [exfalso|reflexivity]. apply Z.mod_divide in E; [|lia].
    destruct (no_zero_div _ _ E) as [D|D]; apply (unit_not_divide (Z.of_nat s)) in D; auto; lia. }
  symmetry. apply G; lia.
Qed.
Lemma roots_le2 v : roots v <= 2.
Proof.
  unfold roots. set (l := filter _ _). assert (N : NoDup l) by (apply NoDup_filter, elements_nodup).
  destruct l as [|y l'] eqn:E; [cbn; lia|]. assert (I : incl (y :: l') [y; (- y) mod p]).
  { intros z Z0. assert (Y : In y l) by (rewrite E; now left). rewrite <- E in Z0. unfold l in Y, Z0. apply filter_In in Y, Z0. destruct Y as [Y1 Y2], Z0 as [Z1 Z2].
    apply Z.eqb_eq in Y2, Z2. apply in_elements in Y1, Z1. assert (D : (p | (z - y) * (z + y))) by (replace ((z - y) * (z + y)) with (z * z - y * y) by ring; apply mod_eq; congruence).
    destruct (no_zero_div _ _ D) as [D1|D1]; [left; apply divide_small in D1; [|clear - Y1 Z1; lia]; clear - D1; lia|right; left].
    symmetry. rewrite <- (Z.mod_small z p) by lia. apply mod_eq. now replace (z - - y) with (z + y) by ring. }
  pose proof (NoDup_incl_length N I) as L. cbn [length] in *. lia.
Qed.

(** ** Curves y^2 = x^3 + a x + b *)
Definition on_curve (a b : Z) (xy : Z * Z) : bool := let (x, y) := xy in (y * y) mod p =? (x ^ 3 + a * x + b) mod p.
(** the affine points and the point at infinity *)
Definition points (a b : Z) : Z := Z.of_nat (length (filter (on_curve a b) (list_prod (elements p) (elements p)))) + 1.
Lemma points_sum a b : points a b = sum (fun x => roots (x ^ 3 + a * x + b)) (elements p) + 1.
Proof.
  unfold points, roots. f_equal.
  assert (G : forall xs ys, Z.of_nat (length (filter (on_curve a b) (list_prod xs ys))) =
    sum (fun x => Z.of_nat (length (filter (fun y => (y * y) mod p =? (x ^ 3 + a * x + b) mod p) ys))) xs); [|apply G].
  intros xs ys. induction xs as [|x xs IH]; cbn [list_prod sum fold_right]; [reflexivity|].
  rewrite filter_app, app_length, Nat2Z.inj_add, IH. unfold sum. f_equal. f_equal. clear. induction ys as [|y ys IH]; cbn [map filter]; [reflexivity|].
  unfold on_curve at 1. destruct (_ =? _); cbn [length]; rewrite IH; reflexivity.
Qed.
Lemma points_mod a a' b b' : a mod p = a' mod p -> b mod p = b' mod p -> points a b = points a' b'.
Proof.
  intros A B. rewrite !points_sum. f_equal. apply sum_ext. intros x _. apply roots_mod.
  destruct (mod_congr a a' x x A eq_refl) as (E & _ & _). destruct (mod_congr (x ^ 3) (x ^ 3) (a * x) (a' * x) eq_refl E) as (_ & E2 & _). apply (mod_congr _ _ b b' E2 B).
Qed.

(** -1 is no square when p = 3 mod 4 *)
Lemma minus_one_no_square y : p mod 4 = 3 -> ~ (p | y * y + 1).
Proof.
  intros M D. pose proof p2. assert (N : ~ (p | y)).
  { intros Dy. assert (D1 : (p | 1)) by (replace 1 with (y * y + 1 - y * y) by ring; apply Z.divide_sub_r; [exact D|now apply Z.divide_mul_l]). apply Z.divide_1_r_nonneg in D1; lia. }
  pose proof (fermat y N) as F. pose proof (Z.div_mod p 4 ltac:(lia)) as E. set (k := p / 4) in *.
  assert (K : 0 <= k) by (apply Z.div_pos; lia).
  assert (S : forall n, 0 <= n -> (p | y ^ (2 * n) - (-1) ^ n)).
  { apply (natlike_ind (fun n => (p | y ^ (2 * n) - (-1) ^ n))); [exists 0; reflexivity|]. intros n Hn [q Hq].
    replace (2 * Z.succ n) with (Z.succ (Z.succ (2 * n))) by lia. rewrite !Z.pow_succ_r by lia. destruct D as [e De].
    exists (q * (y * y) + (-1) ^ n * e). rewrite Z.mul_add_distr_r. rewrite <- (Z.mul_assoc ((-1) ^ n)), <- De. replace (q * (y * y) * p) with (q * p * (y * y)) by ring. rewrite <- Hq. ring. }
  specialize (S (2 * k + 1) ltac:(lia)). apply mod_eq in F. replace (2 * (2 * k + 1)) with (p - 1) in S by lia.
  assert (O : (-1) ^ (2 * k + 1) = -1).
  { rewrite Z.pow_add_r, Z.pow_mul_r by lia. change ((-1) ^ 2) with 1. rewrite Z.pow_1_l by lia. reflexivity. }
  rewrite O in S. assert (D2 : (p | 2)) by (replace 2 with (y ^ (p - 1) - -1 - (y ^ (p - 1) - 1)) by ring; now apply Z.divide_sub_r).
  apply Z.divide_pos_le in D2; [|lia]. assert (p = 2 \/ p = 3) as [->| ->] by lia; [discriminate M|].
  lia.
Qed.

Lemma sum_negated f : (forall x y, x mod p = y mod p -> f x = f y) -> sum (fun x => f (- x)) (elements p) = sum f (elements p).
Proof.
  intros C. pose proof p2. assert (Q : Permutation (map (fun x => (- x) mod p) (elements p)) (elements p)).
  { apply (permuted); [apply elements_nodup|intros; apply mod_in|]. intros x y X Y E. apply in_elements in X, Y. apply mod_eq in E. apply divide_small in E; lia. }
  rewrite <- (sum_perm f _ _ Q), sum_map. apply sum_ext. intros x _. apply C. now rewrite Z.mod_mod by lia.
Qed.
Lemma roots_pair v : p mod 4 = 3 -> roots v + roots (- v) = 2.
Proof.
  intros M. pose proof p2.
  assert (L : forall v, roots v + roots (- v) <= 2).
  { intros w. destruct (Z_le_gt_dec (roots w) 0) as [A|A]; [pose proof (roots_le2 (- w)); lia|]. destruct (Z_le_gt_dec (roots (- w)) 0) as [B|B]; [pose proof (roots_le2 w); lia|].
    assert (E : (p | w)).
    { unfold roots in A, B. destruct (filter _ _) as [|y l] eqn:E1 in A; [cbn in A; lia|]. destruct (filter _ _) as [|z l'] eqn:E2 in B; [cbn in B; lia|].
      assert (Y : In y (y :: l)) by now left. assert (Z0 : In z (z :: l')) by now left. rewrite <- E1 in Y. rewrite <- E2 in Z0. apply filter_In in Y, Z0.
      destruct Y as [_ Y], Z0 as [_ Z0]. apply Z.eqb_eq in Y, Z0. apply mod_eq in Y, Z0.
      destruct (Zdivide_dec p z) as [D|D].
      - apply Z.divide_opp_r. replace (- w) with (z * z - (z * z - - w)) by ring. apply Z.divide_sub_r; [now apply Z.divide_mul_l|exact Z0].
      - exfalso. (* (y/z)^2 = -1 *)
        assert (R : rel_prime z p) by (apply rel_prime_sym, prime_rel_prime; assumption). destruct R as [_ _ R]. clear R.
        destruct (Zis_gcd_bezout z p 1) as [u t Hb]; [apply rel_prime_sym, prime_rel_prime; assumption|].
        apply (minus_one_no_square (y * u) M). destruct Y as [a Y], Z0 as [b Z0].
        replace (y * u * (y * u) + 1) with ((y * y + z * z) * (u * u) + (1 - (u * z) * (u * z))) by ring.
        replace (u * z) with (1 - t * p) by lia. exists ((a + b) * (u * u) + t * (2 - t * p)).
        replace (y * y + z * z) with ((a + b) * p) by lia. ring. }
    rewrite (roots_mod w 0), (roots_mod (- w) 0); [rewrite roots_zero; lia| |]; apply mod_eq; rewrite Z.sub_0_r; [now apply Z.divide_opp_r|exact E]. }
  assert (S : sum (fun v => roots v + roots (- v)) (elements p) = sum (fun _ => 2) (elements p)).
  { rewrite sum_add, sum_negated by (intros; now apply roots_mod). rewrite sum_roots, sum_const, elements_length. lia. }
  pose proof (sum_max (fun v => roots v + roots (- v)) (fun _ => 2) (elements p) (fun v _ => L v) S (v mod p) (mod_in v)) as E. cbn beta in E. rewrite <- E. f_equal; apply roots_mod.
  - now rewrite Z.mod_mod by lia.
  - apply mod_eq. replace (- v - - (v mod p)) with (v mod p - v) by ring. apply mod_eq. now rewrite Z.mod_mod by lia.
Qed.

(** y^2 = x^3 + a x has p + 1 points when p = 3 mod 4 *)
Theorem points_odd a : p mod 4 = 3 -> points a 0 = p + 1.
Proof.
  intros M. rewrite points_sum. f_equal. pose proof p2.
  set (f := fun x => roots (x ^ 3 + a * x + 0)).
  assert (C : forall x y, x mod p = y mod p -> f x = f y).
  { intros x y E. unfold f. apply roots_mod. apply mod_eq. apply mod_eq in E. replace (x ^ 3 + a * x + 0 - (y ^ 3 + a * y + 0)) with ((x - y) * (x ^ 2 + x * y + y ^ 2 + a)) by ring. now apply Z.divide_mul_l. }
  assert (D : sum f (elements p) + sum (fun x => f (- x)) (elements p) = 2 * p).
  { rewrite <- sum_add. rewrite (sum_ext _ (fun _ => 2)); [rewrite sum_const, elements_length; lia|]. intros x _. unfold f.
    replace ((- x) ^ 3 + a * - x + 0) with (- (x ^ 3 + a * x + 0)) by ring. now apply roots_pair. }
  rewrite sum_negated in D by exact C. lia.
Qed.

(** y^2 = x^3 + b has p + 1 points when p = 2 mod 3 *)
Lemma cube_injective x y : p mod 3 = 2 -> 0 <= x < p -> 0 <= y < p -> (p | x ^ 3 - y ^ 3) -> x = y.
Proof.
  intros M X Y D. pose proof p2. pose proof (Z.div_mod p 3 ltac:(lia)) as E. set (k := p / 3) in *. assert (0 <= k) by (apply Z.div_pos; lia).
  assert (T : forall z, (p | (z ^ 3) ^ (2 * k + 1) - z)).
  { intros z. rewrite <- Z.pow_mul_r by lia. replace (3 * (2 * k + 1)) with ((p - 1) + (p - 1) + 1) by lia. rewrite !Z.pow_add_r, Z.pow_1_r by lia.
    destruct (Zdivide_dec p z) as [Dz|Dz]; [apply Z.divide_sub_r; [now apply Z.divide_mul_r|exact Dz]|].
    pose proof (fermat z Dz) as F. apply mod_eq in F. destruct F as [q F]. exists (z * q * (z ^ (p - 1) + 1)).
    replace (z ^ (p - 1) * z ^ (p - 1) * z - z) with (z * (z ^ (p - 1) - 1) * (z ^ (p - 1) + 1)) by ring. rewrite F. ring. }
  assert (W : forall a b n, 0 <= n -> (p | a - b) -> (p | a ^ n - b ^ n)).
  { intros a b n Hn Dab. revert n Hn. apply (natlike_ind (fun n => (p | a ^ n - b ^ n))); [exists 0; reflexivity|]. intros n Hn [q Hq]. destruct Dab as [e He].
    rewrite !Z.pow_succ_r by lia. exists (q * a + b ^ n * e). replace (a * a ^ n - b * b ^ n) with ((a ^ n - b ^ n) * a + b ^ n * (a - b)) by ring. rewrite Hq, He. ring. }
  specialize (W (x ^ 3) (y ^ 3) (2 * k + 1) ltac:(lia) D).
  assert (R : (p | x - y)).
  { replace (x - y) with (((x ^ 3) ^ (2 * k + 1) - (y ^ 3) ^ (2 * k + 1)) - ((x ^ 3) ^ (2 * k + 1) - x) + ((y ^ 3) ^ (2 * k + 1) - y)) by ring.
    apply Z.divide_add_r; [apply Z.divide_sub_r; [exact W|apply T]|apply T]. }
  apply divide_small in R; lia.
Qed.
Theorem points_cube b : p mod 3 = 2 -> points 0 b = p + 1.
Proof.
  intros M. rewrite points_sum. f_equal. pose proof p2.
  assert (Q : Permutation (map (fun x => (x ^ 3 + b) mod p) (elements p)) (elements p)).
  { apply permuted; [apply elements_nodup|intros; apply mod_in|]. intros x y X Y E. apply in_elements in X, Y. apply mod_eq in E. replace (x ^ 3 + b - (y ^ 3 + b)) with (x ^ 3 - y ^ 3) in E by ring. now apply cube_injective. }
  transitivity (sum roots (elements p)); [|apply sum_roots]. rewrite <- (sum_perm roots _ _ Q), sum_map. apply sum_ext. intros x _. apply roots_mod. rewrite Z.mod_mod by lia. f_equal. ring.
Qed.
End Prime.
