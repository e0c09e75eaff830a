(** Finite commutative groups: multiples of an element, its order, Lagrange's theorem. Nothing here models
    /repo; it is what the group of a curve is like. *)
From Coq Require Import Znumtheory Permutation.
From Verif Require Import Base Points_Props.
Local Open Scope Z_scope.

Record group {G} (op : G -> G -> G) (inv : G -> G) (e : G) : Prop := {
  g_assoc : forall x y z, op x (op y z) = op (op x y) z;
  g_comm : forall x y, op x y = op y x;
  g_unit : forall x, op e x = x;
  g_inv : forall x, op x (inv x) = e
}.

Section Abelian.
Context {G : Type} (op : G -> G -> G) (inv : G -> G) (e : G).
Hypothesis H : group op inv e.
Local Infix "⊕" := op (at level 50, left associativity).

Lemma unit_r x : x ⊕ e = x. Proof. rewrite (g_comm _ _ _ H). apply (g_unit _ _ _ H). Qed.
Lemma inv_l x : inv x ⊕ x = e. Proof. rewrite (g_comm _ _ _ H). apply (g_inv _ _ _ H). Qed.
Lemma op_inj x y z : x ⊕ y = x ⊕ z -> y = z.
Proof.
  intros E. rewrite <- (g_unit _ _ _ H y), <- (g_unit _ _ _ H z), <- (inv_l x), <- !(g_assoc _ _ _ H). now rewrite E.
Qed.
Lemma inv_unique x y : x ⊕ y = e -> y = inv x.
Proof. intros E. apply (op_inj x). rewrite E. symmetry. apply (g_inv _ _ _ H). Qed.
Lemma inv_op x y : inv (x ⊕ y) = inv x ⊕ inv y.
Proof.
  symmetry. apply inv_unique. rewrite (g_comm _ _ _ H x y), <- (g_assoc _ _ _ H y x), (g_assoc _ _ _ H x (inv x)), (g_inv _ _ _ H), (g_unit _ _ _ H). apply (g_inv _ _ _ H).
Qed.
Lemma inv_e : inv e = e. Proof. symmetry. apply inv_unique. apply (g_unit _ _ _ H). Qed.
Lemma inv_inv x : inv (inv x) = x. Proof. symmetry. apply inv_unique. apply inv_l. Qed.

(** the multiple [k] of [x] *)
Definition zmul (x : G) (k : Z) : G :=
  match k with Z0 => e | Zpos n => Pos.iter_op op n x | Zneg n => inv (Pos.iter_op op n x) end.
Lemma zmul_0 x : zmul x 0 = e. Proof. reflexivity. Qed.
Lemma zmul_1 x : zmul x 1 = x. Proof. reflexivity. Qed.
Lemma zmul_opp x k : zmul x (- k) = inv (zmul x k).
Proof. destruct k; cbn; [symmetry; apply inv_e|reflexivity|symmetry; apply inv_inv]. Qed.
Lemma zmul_succ x k : zmul x (Z.succ k) = x ⊕ zmul x k.
Proof.
  destruct k as [|n|n]; cbn [zmul].
  - cbn. symmetry. apply unit_r.
  - rewrite <- Pos2Z.inj_succ. cbn [zmul]. apply Pos.iter_op_succ. apply (g_assoc _ _ _ H).
  - destruct (Pos.eq_dec n 1) as [->|N]; [cbn; symmetry; apply (g_inv _ _ _ H)|].
    replace (Z.succ (Zneg n)) with (Zneg (Pos.pred n)) by lia. cbn [zmul]. rewrite <- (Pos.succ_pred n N) at 2.
    rewrite Pos.iter_op_succ by apply (g_assoc _ _ _ H). rewrite inv_op, (g_assoc _ _ _ H), (g_inv _ _ _ H). symmetry. apply (g_unit _ _ _ H).
Qed.
Lemma zmul_add_nat x a n : zmul x (a + Z.of_nat n) = zmul x a ⊕ zmul x (Z.of_nat n).
Proof.
  induction n as [|n IH]; [cbn [Z.of_nat]; rewrite Z.add_0_r; symmetry; apply unit_r|].
  rewrite Nat2Z.inj_succ. replace (a + Z.succ (Z.of_nat n)) with (Z.succ (a + Z.of_nat n)) by lia.
  rewrite !zmul_succ, IH, !(g_assoc _ _ _ H). f_equal. apply (g_comm _ _ _ H).
Qed.
Lemma zmul_add x a b : zmul x (a + b) = zmul x a ⊕ zmul x b.
Proof.
  destruct (Z_le_gt_dec 0 b) as [B|B]; [rewrite <- (Z2Nat.id b B); apply zmul_add_nat|].
  pose proof (zmul_add_nat x (a + b) (Z.to_nat (- b))) as E. rewrite Z2Nat.id in E by lia. replace (a + b + - b) with a in E by lia.
  rewrite zmul_opp in E. rewrite E, <- (g_assoc _ _ _ H), inv_l. symmetry. apply unit_r.
Qed.
Lemma zmul_e k : zmul e k = e.
Proof.
  assert (N : forall n, zmul e (Z.of_nat n) = e).
  { induction n as [|n IH]; [reflexivity|]. rewrite Nat2Z.inj_succ, zmul_succ, IH. apply (g_unit _ _ _ H). }
  destruct (Z_le_gt_dec 0 k) as [B|B]; [rewrite <- (Z2Nat.id k B); apply N|].
  replace k with (- Z.of_nat (Z.to_nat (- k))) by lia. rewrite zmul_opp, N. apply inv_e.
Qed.
Lemma zmul_zmul x a b : zmul (zmul x a) b = zmul x (a * b).
Proof.
  assert (N : forall n, zmul (zmul x a) (Z.of_nat n) = zmul x (a * Z.of_nat n)).
  { induction n as [|n IH]; [now rewrite Z.mul_0_r|]. rewrite Nat2Z.inj_succ, zmul_succ, IH, <- zmul_add. f_equal. lia. }
  destruct (Z_le_gt_dec 0 b) as [B|B]; [rewrite <- (Z2Nat.id b B); apply N|].
  replace b with (- Z.of_nat (Z.to_nat (- b))) by lia. rewrite zmul_opp, N, <- zmul_opp. f_equal. lia.
Qed.
Lemma zmul_op x y k : zmul (x ⊕ y) k = zmul x k ⊕ zmul y k.
Proof.
  assert (N : forall n, zmul (x ⊕ y) (Z.of_nat n) = zmul x (Z.of_nat n) ⊕ zmul y (Z.of_nat n)).
  { induction n as [|n IH]; [cbn; symmetry; apply unit_r|]. rewrite Nat2Z.inj_succ, !zmul_succ, IH.
    rewrite <- !(g_assoc _ _ _ H). f_equal. rewrite !(g_assoc _ _ _ H). f_equal. apply (g_comm _ _ _ H). }
  destruct (Z_le_gt_dec 0 k) as [B|B]; [rewrite <- (Z2Nat.id k B); apply N|].
  replace k with (- Z.of_nat (Z.to_nat (- k))) by lia. rewrite !zmul_opp, N. apply inv_op.
Qed.

Section Finite.
Hypothesis dec : forall x y : G, {x = y} + {x <> y}.
Variable els : list G.
Hypothesis all_in : forall x, In x els.
Hypothesis nodup : NoDup els.
Notation N := (Z.of_nat (length els)).

Lemma size_pos : 0 < N.
Proof. pose proof (all_in e). destruct els; [contradiction|]. cbn. lia. Qed.
Definition total (l : list G) : G := fold_right op e l.
Lemma total_perm l l' : Permutation l l' -> total l = total l'.
Proof.
  unfold total. induction 1; cbn [fold_right]; [reflexivity|congruence| |congruence].
  rewrite !(g_assoc _ _ _ H). f_equal. apply (g_comm _ _ _ H).
Qed.
Lemma total_shift x l : total (map (op x) l) = zmul x (Z.of_nat (length l)) ⊕ total l.
Proof.
  induction l as [|y l IH]; [cbn; symmetry; apply unit_r|]. cbn [map total fold_right length]. fold (total (map (op x) l)). fold (total l). rewrite IH.
  rewrite Nat2Z.inj_succ, zmul_succ. rewrite <- !(g_assoc _ _ _ H). f_equal. rewrite !(g_assoc _ _ _ H). f_equal. apply (g_comm _ _ _ H).
Qed.
Theorem lagrange x : zmul x N = e.
Proof.
  assert (Q : Permutation (map (op x) els) els).
  { apply NoDup_Permutation_bis; [|rewrite map_length; lia|intros y _; apply all_in].
    apply FinFun.Injective_map_NoDup; [|exact nodup]. intros y z. apply op_inj. }
  pose proof (total_shift x els) as S. rewrite (total_perm _ _ Q) in S. apply (op_inj (total els)). rewrite (g_comm _ _ _ H), <- S. symmetry. apply unit_r.
Qed.

(** the order of an element: the least positive multiple that is the unit *)
Definition is_e (x : G) : bool := if dec x e then true else false.
Definition order (x : G) : Z :=
  match find (fun n => is_e (zmul x (Z.of_nat n))) (seq 1 (length els)) with Some n => Z.of_nat n | None => 0 end.
Lemma find_least f l n : find f (seq l n) <> None -> exists k, find f (seq l n) = Some k /\ f k = true /\ (l <= k < l + n)%nat /\ forall j, (l <= j < k)%nat -> f j = false.
Proof.
  revert l. induction n as [|n IH]; intros l Q; cbn [seq find] in *; [congruence|]. destruct (f l) eqn:E.
  - exists l. repeat split; auto; lia.
  - destruct (IH (S l) Q) as (k & A & B & C & D). exists k. repeat split; auto; try lia. intros j J. destruct (Nat.eq_dec j l) as [->|]; [exact E|apply D; lia].
Qed.
Theorem order_correct x : order_is e zmul x (order x).
Proof.
  unfold order. pose proof size_pos as P0.
  assert (Q : find (fun n => is_e (zmul x (Z.of_nat n))) (seq 1 (length els)) <> None).
  { intros Q. assert (I : In (length els) (seq 1 (length els))) by (apply in_seq; lia). pose proof (find_none _ _ Q _ I) as B. cbn beta in B. unfold is_e in B.
    destruct (dec _ _) as [|X]; [discriminate|]. apply X. apply lagrange. }
  destruct (find_least _ _ _ Q) as (k & -> & B & C & D). unfold is_e in B. destruct (dec _ _) as [E|]; [|discriminate]. clear B.
  split; [lia|]. intros j. split.
  - intros J. destruct (Z.eq_dec (j mod Z.of_nat k) 0) as [M|M]; [apply Z.mod_divide; lia|]. exfalso.
    pose proof (Z.mod_pos_bound j (Z.of_nat k) ltac:(lia)) as R. assert (L : (1 <= Z.to_nat (j mod Z.of_nat k) < k)%nat) by lia. specialize (D _ L). unfold is_e in D.
    destruct (dec _ _) as [|X]; [discriminate|]. apply X. rewrite Z2Nat.id by lia.
    rewrite (Z.div_mod j (Z.of_nat k)) in J by lia. rewrite zmul_add, <- zmul_zmul, E, zmul_e, (g_unit _ _ _ H) in J. exact J.
  - intros (q & ->). now rewrite Z.mul_comm, <- zmul_zmul, E, zmul_e.
Qed.
Lemma order_divides x n : order_is e zmul x n -> (n | N).
Proof. intros (_ & O). apply O. apply lagrange. Qed.
Theorem group_contract : group_ok e zmul order.
Proof. constructor; [apply zmul_zmul|apply zmul_1|apply order_correct]. Qed.

(** a subgroup generated by [x] has as many elements as the order says *)
Lemma multiples_nodup x n : order_is e zmul x n -> NoDup (map (fun i => zmul x (Z.of_nat i)) (seq 0 (Z.to_nat n))).
Proof.
  intros (P0 & O). assert (I : forall i j, (i < j < Z.to_nat n)%nat -> zmul x (Z.of_nat i) <> zmul x (Z.of_nat j)).
  { intros i j L E. assert (X : zmul x (Z.of_nat j - Z.of_nat i) = e).
    { unfold Z.sub. rewrite zmul_add, zmul_opp, E. apply (g_inv _ _ _ H). }
    apply O in X. apply Z.divide_pos_le in X; lia. }
  assert (L : forall m l, (l + m <= Z.to_nat n)%nat -> NoDup (map (fun i => zmul x (Z.of_nat i)) (seq l m))).
  { induction m as [|m IH]; intros l B; cbn [seq map]; constructor; [|apply IH; lia].
    intros X. apply in_map_iff in X. destruct X as (j & E & J). apply in_seq in J. apply (I l j); [lia|congruence]. }
  apply L. lia.
Qed.
(** an element all others are multiples of has the order of the group *)
Lemma generator_order x n : order_is e zmul x n -> (forall y, exists k, y = zmul x k) -> n = N.
Proof.
  intros O Gx. pose proof (multiples_nodup x n O) as D. pose proof O as (P0 & O').
  set (l := map (fun i => zmul x (Z.of_nat i)) (seq 0 (Z.to_nat n))) in *.
  assert (A : incl l els) by (intros y _; apply all_in). assert (B : incl els l).
  { intros y _. destruct (Gx y) as (k & ->). unfold l. apply in_map_iff. exists (Z.to_nat (k mod n)). pose proof (Z.mod_pos_bound k n P0). split; [|apply in_seq; lia].
    rewrite Z2Nat.id by lia. rewrite (Z.div_mod k n) at 2 by lia. rewrite zmul_add, <- zmul_zmul.
    replace (zmul x n) with e by (symmetry; apply O'; apply Z.divide_refl). rewrite zmul_e. symmetry. apply (g_unit _ _ _ H). }
  pose proof (NoDup_incl_length D A). pose proof (NoDup_incl_length nodup B). unfold l in *. rewrite map_length, seq_length in *. lia.
Qed.
Lemma order_one x : order_is e zmul x 1 -> x = e.
Proof. intros (_ & O). rewrite <- (zmul_1 x). apply O. apply Z.divide_refl. Qed.
(** in a group with a prime number of elements every element but the unit generates all *)
Lemma prime_generates x n : prime N -> order_is e zmul x n -> x <> e -> n = N.
Proof.
  intros P0 O X. pose proof (order_divides x n O) as D. destruct O as (Q & O).
  destruct (prime_divisors N P0 n D) as [E|[E|[E|E]]]; try lia. exfalso. apply X. apply order_one. subst n. split; [lia|exact O].
Qed.
End Finite.
End Abelian.
Print Assumptions lagrange.
Print Assumptions group_contract.
