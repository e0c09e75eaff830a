(** Roots of polynomials and roots of unity modulo a prime, and what symmetries of a curve say of
    its number of points: the curves with invariant 0 and 1728 that do not have p + 1 points.
    Nothing here models /repo. *)
From Coq Require Import Znumtheory Permutation.
From Verif Require Import Base Fp.
Local Open Scope Z_scope.

(** ** Sums over a symmetric set *)
Definition without (x : Z) (l : list Z) : list Z := filter (fun y => negb (y =? x)) l.
Lemma in_without x y l : In y (without x l) <-> In y l /\ y <> x.
Proof. unfold without. rewrite filter_In, negb_true_iff, Z.eqb_neq. reflexivity. Qed.
Lemma without_nodup x l : NoDup l -> NoDup (without x l).
Proof. apply NoDup_filter. Qed.
Lemma without_perm x l : NoDup l -> In x l -> Permutation l (x :: without x l).
Proof.
  intros N I. apply NoDup_Permutation; [exact N|constructor; [rewrite in_without; tauto|now apply without_nodup]|].
  intros y. cbn [In]. rewrite in_without. destruct (Z.eq_dec y x) as [->|]; intuition congruence.
Qed.
Lemma sum_without f x l : NoDup l -> In x l -> sum f l = f x + sum f (without x l).
Proof. intros N I. rewrite (sum_perm f _ _ (without_perm x l N I)). reflexivity. Qed.
Lemma without_length x l : NoDup l -> In x l -> length l = S (length (without x l)).
Proof. intros N I. rewrite (Permutation_length (without_perm x l N I)). reflexivity. Qed.
Lemma sum_scale c f l : sum (fun x => c * f x) l = c * sum f l.
Proof. induction l as [|x l IH]; cbn; [ring|]. unfold sum in *. rewrite IH. ring. Qed.

Lemma sum_swapped f g n l : (length l <= n)%nat -> NoDup l -> (forall x, In x l -> In (g x) l /\ g x <> x /\ g (g x) = x /\ f (g x) = f x) -> (2 | sum f l).
Proof.
  revert l. induction n as [|n IH]; intros l L N G; [destruct l; [exists 0; reflexivity|cbn in L; lia]|].
  destruct l as [|x l']; [exists 0; reflexivity|]. set (l := x :: l') in *. assert (X : In x l) by now left.
  destruct (G x X) as (G1 & G2 & G3 & G4). assert (Y : In (g x) (without x l)) by (apply in_without; auto).
  rewrite (sum_without f x l N X), (sum_without f (g x) (without x l)) by (auto using without_nodup).
  rewrite G4, Z.add_assoc. apply Z.divide_add_r; [exists (f x); ring|]. apply IH.
  - pose proof (without_length x l N X). pose proof (without_length (g x) _ (without_nodup x l N) Y). lia.
  - now repeat apply without_nodup.
  - intros z Z0. rewrite !in_without in Z0. destruct Z0 as [[Z1 Z2] Z3]. destruct (G z Z1) as (H1 & H2 & H3 & H4). repeat split; auto.
    rewrite !in_without. repeat split; [exact H1| |]; intros E; [apply Z3|apply Z2]; congruence.
Qed.
Lemma sum_cycled f g n l : (length l <= n)%nat -> NoDup l -> (forall x, In x l -> In (g x) l /\ g x <> x /\ g (g (g x)) = x /\ f (g x) = f x) -> (3 | sum f l).
Proof.
  revert l. induction n as [|n IH]; intros l L N G; [destruct l; [exists 0; reflexivity|cbn in L; lia]|].
  destruct l as [|x l']; [exists 0; reflexivity|]. set (l := x :: l') in *. assert (X : In x l) by now left.
  destruct (G x X) as (G1 & G2 & G3 & G4). destruct (G (g x) G1) as (G5 & G6 & G7 & G8).
  assert (Y : In (g x) (without x l)) by (apply in_without; auto).
  assert (Y2 : In (g (g x)) (without (g x) (without x l))).
  { rewrite !in_without. repeat split; [exact G5| |exact G6]. intros E. apply G2. rewrite <- E at 1. exact G3. }
  rewrite (sum_without f x l N X), (sum_without f (g x) (without x l)), (sum_without f (g (g x)) (without (g x) (without x l))) by (auto using without_nodup).
  rewrite G8, G4. replace (f x + (f x + (f x + sum f (without (g (g x)) (without (g x) (without x l)))))) with (f x * 3 + sum f (without (g (g x)) (without (g x) (without x l)))) by ring.
  apply Z.divide_add_r; [exists (f x); ring|]. apply IH.
  - pose proof (without_length x l N X). pose proof (without_length (g x) _ (without_nodup x l N) Y). pose proof (without_length (g (g x)) _ (without_nodup _ _ (without_nodup x l N)) Y2). lia.
  - now repeat apply without_nodup.
  - intros z Z0. rewrite !in_without in Z0. destruct Z0 as [[[Z1 Z2] Z3] Z4]. destruct (G z Z1) as (H1 & H2 & H3 & H4). repeat split; auto.
    rewrite !in_without. repeat split; [exact H1| | |]; intros E.
    + apply Z4. congruence.
    + apply Z2. rewrite <- H3, E. exact G3.
    + apply Z3. rewrite <- H3, E. exact G7.
Qed.

Section Prime.
Variable p : Z.
Hypothesis P : prime p.
Let p2 : 2 <= p := p2 p P.

(** ** A polynomial with as many roots as coefficients vanishes everywhere *)
Fixpoint value (l : list Z) (x : Z) : Z := match l with [] => 0 | c :: l => c + x * value l x end.
Fixpoint plus (l m : list Z) : list Z := match l, m with [], m => m | l, [] => l | a :: l, b :: m => (a + b) :: plus l m end.
Lemma plus_value l m x : value (plus l m) x = value l x + value m x.
Proof. revert m. induction l as [|a l IH]; intros [|b m]; cbn [plus value]; try ring. rewrite IH. ring. Qed.
Lemma plus_length l m : (length (plus l m) <= Nat.max (length l) (length m))%nat.
Proof. revert m. induction l as [|a l IH]; intros [|b m]; cbn [plus length]; try lia. specialize (IH m). lia. Qed.
Lemma times_value r l x : value (map (Z.mul r) l) x = r * value l x.
Proof. induction l as [|a l IH]; cbn [map value]; [ring|]. rewrite IH. ring. Qed.
(** the quotient by x - r *)
Fixpoint quotient (r : Z) (l : list Z) : list Z := match l with [] => [] | _ :: l => plus l (map (Z.mul r) (quotient r l)) end.
Lemma quotient_value r l x : value l x - value l r = (x - r) * value (quotient r l) x.
Proof.
  induction l as [|c l IH]; cbn [quotient value]; [ring|]. rewrite plus_value, times_value.
  replace (c + x * value l x - (c + r * value l r)) with ((x - r) * value l x + r * (value l x - value l r)) by ring. rewrite IH. ring.
Qed.
Lemma quotient_length r l : (length (quotient r l) <= length l - 1)%nat.
Proof. induction l as [|c l IH]; cbn [quotient length]; [lia|]. pose proof (plus_length l (map (Z.mul r) (quotient r l))) as H. rewrite map_length in H. lia. Qed.
Lemma root_bound l R : (length l <= length R)%nat -> NoDup R -> (forall r, In r R -> 0 <= r < p /\ (p | value l r)) -> forall x, (p | value l x).
Proof.
  revert l. induction R as [|r R IH]; intros l L N H x; [destruct l; [exists 0; reflexivity|cbn in L; lia]|].
  inversion N as [|? ? N1 N2]; subst. destruct (H r (or_introl eq_refl)) as [B D].
  replace (value l x) with (value l x - value l r + value l r) by ring. apply Z.divide_add_r; [|exact D]. rewrite quotient_value. apply Z.divide_mul_r.
  apply IH; [pose proof (quotient_length r l); cbn [length] in L; lia|exact N2|].
  intros s S. destruct (H s (or_intror S)) as [B' D']. split; [exact B'|].
  assert (E : (p | (s - r) * value (quotient r l) s)) by (rewrite <- quotient_value; now apply Z.divide_sub_r).
  destruct (no_zero_div p P _ _ E) as [E1|E1]; [|exact E1]. apply (divide_small p P) in E1; [|lia]. exfalso. apply N1. now replace r with s by lia.
Qed.

(** ** Roots of unity *)
Definition power_minus_one (d : nat) : list Z := (-1) :: repeat 0 d ++ [1].
Lemma power_minus_one_value d x : value (power_minus_one d) x = x ^ Z.of_nat (S d) - 1.
Proof.
  unfold power_minus_one. cbn [value]. assert (E : value (repeat 0 d ++ [1]) x = x ^ Z.of_nat d).
  { induction d as [|d IH]; [cbn [repeat app value Z.of_nat]; rewrite Z.pow_0_r; ring|]. cbn [repeat app value]. rewrite IH, Nat2Z.inj_succ, Z.pow_succ_r by lia. ring. }
  rewrite E, Nat2Z.inj_succ, Z.pow_succ_r by lia. ring.
Qed.
Lemma not_all_unity d : 0 < d < p - 1 -> exists x, 0 < x < p /\ ~ (p | x ^ d - 1).
Proof.
  intros D. destruct (existsb (fun x => negb ((x ^ d - 1) mod p =? 0)) (units p)) eqn:E.
  - apply existsb_exists in E. destruct E as (x & X & E). apply in_units in X. exists x. split; [exact X|]. intros V. apply Z.mod_divide in V; [|lia]. rewrite V in E. discriminate.
  - exfalso. assert (A : (p | value (power_minus_one (Z.to_nat (d - 1))) 0)).
    { apply root_bound with (R := units p).
      - unfold power_minus_one. cbn [length]. rewrite app_length, repeat_length, (units_length p P). cbn [length]. lia.
      - apply units_nodup.
      - intros r R. assert (R' := R). apply in_units in R. split; [lia|]. rewrite power_minus_one_value. replace (Z.of_nat (S (Z.to_nat (d - 1)))) with d by lia.
        destruct (Zdivide_dec p (r ^ d - 1)) as [V|V]; [exact V|exfalso]. enough (true = false) by discriminate. rewrite <- E. symmetry. apply existsb_exists. exists r. split; [exact R'|].
        apply negb_true_iff, Z.eqb_neq. intros W. apply V. apply Z.mod_divide; [lia|exact W]. }
    rewrite power_minus_one_value, Z.pow_0_l in A by lia. change (0 - 1) with (-1) in A. apply Z.divide_opp_r in A. change (- -1) with 1 in A. apply Z.divide_1_r_nonneg in A; lia.
Qed.
Lemma unity_of d x : 0 < d -> (d | p - 1) -> 0 < x < p -> (p | (x ^ ((p - 1) / d)) ^ d - 1).
Proof.
  intros D [k K] X. rewrite K, Z.div_mul by lia. assert (0 <= k) by nia. rewrite <- Z.pow_mul_r by lia. replace (k * d) with (p - 1) by lia.
  apply (mod_eq p P). apply fermat; [exact P|]. now apply unit_not_divide.
Qed.
Lemma cube_root_of_unity : p mod 3 = 1 -> exists w, ~ (p | w - 1) /\ (p | w ^ 3 - 1).
Proof.
  intros M. pose proof (Z.div_mod p 3 ltac:(lia)) as E. set (k := p / 3) in *. assert (T : (p - 1) / 3 = k) by (replace (p - 1) with (k * 3) by lia; apply Z.div_mul; lia).
  destruct (not_all_unity k) as (x & X & V); [lia|]. exists (x ^ k). split; [exact V|]. rewrite <- T at 1. apply unity_of; [lia|exists k; lia|exact X].
Qed.
Lemma minus_one_square : p mod 4 = 1 -> exists i, (p | i ^ 2 + 1).
Proof.
  intros M. pose proof (Z.div_mod p 4 ltac:(lia)) as E. set (k := p / 4) in *.
  destruct (not_all_unity (2 * k)) as (x & X & V); [lia|]. exists (x ^ k).
  pose proof (unity_of 4 x ltac:(lia) ltac:(exists k; lia) X) as U. replace ((p - 1) / 4) with k in U by (replace (p - 1) with (k * 4) by lia; symmetry; apply Z.div_mul; lia).
  replace ((x ^ k) ^ 4 - 1) with (((x ^ k) ^ 2 - 1) * ((x ^ k) ^ 2 + 1)) in U by ring. destruct (no_zero_div p P _ _ U) as [U1|U1]; [|exact U1].
  exfalso. apply V. rewrite <- Z.pow_mul_r in U1 by lia. now replace (2 * k) with (k * 2) by ring.
Qed.

(** ** Two square roots or none *)
Lemma roots_even v : p <> 2 -> ~ (p | v) -> (2 | roots p v).
Proof.
  intros O N. unfold roots. set (l := filter _ _). assert (ND : NoDup l) by (apply NoDup_filter, elements_nodup).
  replace (Z.of_nat (length l)) with (sum (fun _ => 1) l) by (rewrite sum_const; ring). apply (sum_swapped _ (fun y => p - y) (length l)); [lia|exact ND|].
  intros y Y. unfold l in *. apply filter_In in Y. destruct Y as [Y1 Y2]. apply in_elements in Y1. apply Z.eqb_eq in Y2. apply (mod_eq p P) in Y2.
  assert (y <> 0). { intros ->. apply N. apply Z.divide_opp_r. exact Y2. }
  assert (p - y <> y). { intros E. destruct (prime_divisors p P 2) as [H1|[H1|[H1|H1]]]; [exists y; lia|lia..]. }
  repeat split; [|exact H0|ring]. apply filter_In. split; [apply in_elements; lia|]. apply Z.eqb_eq. apply (mod_eq p P).
  replace ((p - y) * (p - y) - v) with ((y * y - v) + p * (p - 2 * y)) by ring. apply Z.divide_add_r; [exact Y2|apply Z.divide_factor_l].
Qed.
Lemma roots_one : p <> 2 -> roots p 1 = 2.
Proof.
  intros O. assert (N : ~ (p | 1)) by (intros D; apply Z.divide_1_r_nonneg in D; lia). destruct (roots_even 1 O N) as [k K]. pose proof (roots_le2 p P 1).
  assert (0 < roots p 1); [|lia]. unfold roots. assert (I : In 1 (filter (fun y => (y * y) mod p =? 1 mod p) (elements p))) by (apply filter_In; split; [apply in_elements; lia|apply Z.eqb_refl]).
  destruct (filter _ _); [destruct I|cbn [length]; lia].
Qed.

(** y^2 = x^3 + 1 does not have p + 1 points when p = 1 mod 3 *)
Theorem zero_not_supersingular : p mod 3 = 1 -> points p 0 1 <> p + 1.
Proof.
  intros M E. rewrite (points_sum p) in E. assert (O : p <> 2) by (intros ->; discriminate M).
  rewrite (sum_without _ 0) in E; [|apply elements_nodup|apply in_elements; lia]. cbn beta in E. change (0 ^ 3 + 0 * 0 + 1) with 1 in E. rewrite roots_one in E by exact O.
  destruct (cube_root_of_unity M) as (w & W1 & W3).
  assert (D : (3 | sum (fun x => roots p (x ^ 3 + 0 * x + 1)) (without 0 (elements p)))).
  { apply (sum_cycled _ (fun x => (w * x) mod p) (length (without 0 (elements p)))); [lia|apply without_nodup, elements_nodup|].
    intros x X. rewrite in_without, in_elements in X. destruct X as [X X0].
    assert (Wp : ~ (p | w)). { intros V. apply W1. exfalso. assert (D1 : (p | 1)) by (replace 1 with (w * w ^ 2 - (w ^ 3 - 1)) by ring; apply Z.divide_sub_r; [now apply Z.divide_mul_l|exact W3]). apply Z.divide_1_r_nonneg in D1; lia. }
    repeat split.
    - rewrite in_without. split; [now apply mod_in|]. intros V. apply Z.mod_divide in V; [|lia]. destruct (no_zero_div p P _ _ V) as [V1|V1]; [contradiction|]. apply (divide_small p P) in V1; lia.
    - intros V. rewrite <- (Z.mod_small x p) in V at 2 by lia. apply (mod_eq p P) in V. replace (w * x - x) with ((w - 1) * x) in V by ring.
      destruct (no_zero_div p P _ _ V) as [V1|V1]; [contradiction|]. apply (divide_small p P) in V1; lia.
    - rewrite (mod_mul_mod p P w (w * x)), (mod_mul_mod p P w (w * (w * x))).
      rewrite <- (Z.mod_small x p) at 2 by lia. apply (mod_eq p P). replace (w * (w * (w * x)) - x) with ((w ^ 3 - 1) * x) by ring. now apply Z.divide_mul_l.
    - apply roots_mod. apply (mod_eq p P). set (z := (w * x) mod p).
      assert (Z0 : (p | z - w * x)) by (apply (mod_eq p P); unfold z; apply Z.mod_mod; lia).
      replace (z ^ 3 + 0 * z + 1 - (x ^ 3 + 0 * x + 1)) with ((z - w * x) * (z ^ 2 + z * (w * x) + (w * x) ^ 2) + (w ^ 3 - 1) * x ^ 3) by ring.
      apply Z.divide_add_r; now apply Z.divide_mul_l. }
  destruct D as [k K]. pose proof (Z.div_mod p 3 ltac:(lia)). lia.
Qed.
(** y^2 = x^3 - x does not have p + 1 points when p = 1 mod 4 *)
Theorem j1728_not_supersingular : p mod 4 = 1 -> points p (-1) 0 <> p + 1.
Proof.
  intros M E. rewrite (points_sum p) in E. assert (O : p <> 2) by (intros ->; discriminate M). assert (O3 : p <> 3) by (intros ->; discriminate M).
  assert (N0 : NoDup (elements p)) by apply elements_nodup.
  set (f := fun x => roots p (x ^ 3 + -1 * x + 0)) in E.
  rewrite (sum_without f 0), (sum_without f 1 (without 0 _)), (sum_without f (p - 1) (without 1 (without 0 _))) in E;
    repeat apply without_nodup; try exact N0; rewrite ?in_without, ?in_elements; try lia.
  set (l := without (p - 1) (without 1 (without 0 (elements p)))) in *.
  assert (L : forall x, In x l <-> (1 < x < p - 1)) by (intros x; unfold l; rewrite !in_without, in_elements; lia).
  assert (F : forall x, (p | x ^ 3 + -1 * x + 0) -> f x = 1).
  { intros x D. unfold f. rewrite (roots_mod p _ 0); [now apply roots_zero|]. apply (mod_eq p P). now rewrite Z.sub_0_r. }
  rewrite (F 0), (F 1), (F (p - 1)) in E; [|exists ((p - 1) * (p - 2)); ring|exists 0; reflexivity|exists 0; reflexivity].
  assert (EV : forall x, In x l -> f x = 2 * (f x / 2)).
  { intros x X. apply L in X. unfold f. destruct (roots_even (x ^ 3 + -1 * x + 0) O) as [k ->]; [|rewrite Z.div_mul by lia; ring].
    replace (x ^ 3 + -1 * x + 0) with (x * ((x - 1) * (x + 1))) by ring. intros D.
    destruct (no_zero_div p P _ _ D) as [D1|D1]; [|destruct (no_zero_div p P _ _ D1) as [D2|D2]]; match goal with H : (p | ?z), X : _ < _ < _ |- _ => apply (divide_small p P z) in H; lia end. }
  rewrite (sum_ext f (fun x => 2 * (f x / 2)) l EV), sum_scale in E.
  assert (D : (2 | sum (fun x => f x / 2) l)).
  { apply (sum_swapped _ (fun x => p - x) (length l)); [lia|unfold l; now repeat apply without_nodup|]. intros x X. apply L in X. repeat split.
    - apply L. lia.
    - intros V. destruct (prime_divisors p P 2) as [H1|[H1|[H1|H1]]]; [exists x; lia|lia..].
    - ring.
    - f_equal. unfold f. destruct (minus_one_square M) as [i I].
      (* roots of -v and of v *)
      assert (R : forall v, roots p (- v) <= roots p v).
      { intros v. unfold roots. apply inj_le. set (A := filter _ _) at 1. set (B := filter _ _).
        rewrite <- (map_length (fun y => (i * y) mod p) A). apply NoDup_incl_length.
        - assert (NA : NoDup A) by (apply NoDup_filter; exact N0). assert (Q : forall y, In y A -> 0 <= y < p) by (intros y Y; apply filter_In in Y; now apply in_elements).
          clear - NA Q P I p2. induction NA as [|y A H N IH]; cbn [map]; constructor; [|apply IH; intros; apply Q; now right].
          intros V. apply in_map_iff in V. destruct V as (z & V & Z0). apply H. apply (cancel p P) in V.
          + rewrite !Z.mod_small in V; [now subst|apply Q; now left|apply Q; now right].
          + intros W. assert (D1 : (p | 1)) by (replace 1 with (i ^ 2 + 1 - i * i) by ring; apply Z.divide_sub_r; [exact I|now apply Z.divide_mul_l]). apply Z.divide_1_r_nonneg in D1; lia.
        - intros z Z0. apply in_map_iff in Z0. destruct Z0 as (y & <- & Y). apply filter_In in Y. destruct Y as [_ Y]. apply Z.eqb_eq, (mod_eq p P) in Y. apply filter_In. split; [now apply mod_in|]. apply Z.eqb_eq.
          rewrite Zmult_mod_idemp_r, Zmult_mod_idemp_l. apply (mod_eq p P).
          replace (i * y * (i * y) - v) with ((i ^ 2 + 1) * (y * y) - (y * y - - v)) by ring. apply Z.divide_sub_r; [now apply Z.divide_mul_l|exact Y]. }
      assert (S : roots p ((p - x) ^ 3 + -1 * (p - x) + 0) = roots p (- (x ^ 3 + -1 * x + 0))).
      { apply roots_mod, (mod_eq p P). exists ((p - x) ^ 2 - (p - x) * x + x ^ 2 - 1). ring. }
      rewrite S. apply Z.le_antisymm; [apply R|]. rewrite <- (Z.opp_involutive (x ^ 3 + -1 * x + 0)) at 1. apply R. }
  destruct D as [k K]. pose proof (Z.div_mod p 4 ltac:(lia)). lia.
Qed.
End Prime.
