(** Polynomials with integer coefficients as lists, constant term first: enough to check identities
    by computation and use them at every integer. *)
From Verif Require Import Base.
Local Open Scope Z_scope.

Fixpoint peval (a : list Z) (x : Z) : Z := match a with [] => 0 | c :: a => c + x * peval a x end.
Fixpoint padd (a b : list Z) : list Z :=
  match a, b with [], _ => b | _, [] => a | c :: a, d :: b => c + d :: padd a b end.
Definition pscale (k : Z) (a : list Z) : list Z := map (Z.mul k) a.
Fixpoint pmul (a b : list Z) : list Z :=
  match a with [] => [] | c :: a => padd (pscale c b) (0 :: pmul a b) end.
Fixpoint ppow (a : list Z) (n : nat) : list Z := match n with O => [1] | S n => pmul a (ppow a n) end.
(** a after b *)
Fixpoint pcomp (a b : list Z) : list Z := match a with [] => [] | c :: a => padd [c] (pmul b (pcomp a b)) end.
Definition pzero (a : list Z) : bool := forallb (Z.eqb 0) a.
Definition peq (a b : list Z) : bool := pzero (padd a (pscale (-1) b)).

Lemma peval_add a : forall b x, peval (padd a b) x = peval a x + peval b x.
Proof. induction a as [|c a IH]; intros [|d b] x; cbn [padd peval]; [ring|ring|ring|]. rewrite IH. ring. Qed.
Lemma peval_scale k a x : peval (pscale k a) x = k * peval a x.
Proof. induction a as [|c a IH]; cbn [pscale map peval]; [ring|]. unfold pscale in IH. rewrite IH. ring. Qed.
Lemma peval_mul a : forall b x, peval (pmul a b) x = peval a x * peval b x.
Proof. induction a as [|c a IH]; intros b x; cbn [pmul peval]; [ring|]. rewrite peval_add, peval_scale. cbn [peval]. rewrite IH. ring. Qed.
Lemma peval_pow a n x : peval (ppow a n) x = peval a x ^ Z.of_nat n.
Proof.
  induction n as [|n IH]; [cbn [ppow peval]; rewrite Z.pow_0_r; ring|].
  cbn [ppow]. rewrite peval_mul, IH, Nat2Z.inj_succ, Z.pow_succ_r by lia. reflexivity.
Qed.
Lemma peval_comp a : forall b x, peval (pcomp a b) x = peval a (peval b x).
Proof. induction a as [|c a IH]; intros b x; cbn [pcomp]; [reflexivity|]. rewrite peval_add, peval_mul, IH. cbn [peval]. ring. Qed.
Lemma pzero_ok a x : pzero a = true -> peval a x = 0.
Proof.
  induction a as [|c a IH]; [reflexivity|]. unfold pzero. cbn [forallb]. intros H. apply andb_true_iff in H. destruct H as [H1 H2].
  cbn [peval]. rewrite (IH H2). apply Z.eqb_eq in H1. lia.
Qed.
Lemma peq_ok a b x : peq a b = true -> peval a x = peval b x.
Proof. intros H. apply (pzero_ok _ x) in H. rewrite peval_add, peval_scale in H. lia. Qed.

(** ** Remainders by a monic polynomial x^d + m, given by the list m of its d lower coefficients *)
(** a * x mod (x^d + m) for a of length at most d: the top coefficient is folded back *)
Definition pshift (m a : list Z) : list Z :=
  let a' := 0 :: a in
  if (length a' <=? length m)%nat then a'
  else padd (firstn (length m) a') (pscale (- nth (length m) a' 0) m).
(** Horner: b * a modulo x^d + m *)
Fixpoint pmulmod (m a b : list Z) : list Z :=
  match a with [] => [] | c :: a => padd (pscale c b) (pshift m (pmulmod m a b)) end.

Lemma firstn_eval n : forall a x, (length a <= S n)%nat -> peval a x = peval (firstn n a) x + x ^ Z.of_nat n * nth n a 0.
Proof.
  induction n as [|n IH]; intros a x L.
  - change (Z.of_nat 0) with 0. rewrite Z.pow_0_r. destruct a as [|c [|d a]]; [cbn [firstn peval nth]; ring|cbn [firstn peval nth]; ring|cbn in L; lia].
  - destruct a as [|c a]; [cbn [firstn peval nth]; ring|]. cbn [firstn peval nth]. rewrite (IH a x) by (cbn in L; lia).
    rewrite Nat2Z.inj_succ, Z.pow_succ_r by lia. ring.
Qed.
Definition divides_diff (k a b : Z) : Prop := (k | a - b).
Lemma pshift_ok m a x : (length a <= length m)%nat ->
  (length (pshift m a) <= length m)%nat /\ (x ^ Z.of_nat (length m) + peval m x | x * peval a x - peval (pshift m a) x).
Proof.
  intros L. unfold pshift. set (a' := 0 :: a). assert (Ea : peval a' x = x * peval a x) by (unfold a'; cbn [peval]; ring).
  rewrite <- Ea. destruct (Nat.leb_spec (length a') (length m)) as [H|H].
  - split; [exact H|]. rewrite Z.sub_diag. apply Z.divide_0_r.
  - split.
    + assert (Lp : forall u v : list Z, length (padd u v) = Nat.max (length u) (length v)).
      { induction u as [|c u IH]; intros [|d v]; cbn; try lia. rewrite IH. lia. }
      rewrite Lp, firstn_length. unfold pscale. rewrite map_length. lia.
    + rewrite (firstn_eval (length m) a' x) by (unfold a'; cbn; lia). rewrite peval_add, peval_scale.
      exists (nth (length m) a' 0). ring.
Qed.
Lemma padd_length u : forall v, length (padd u v) = Nat.max (length u) (length v).
Proof. induction u as [|c u IH]; intros [|d v]; cbn; try lia. rewrite IH. lia. Qed.
Lemma pmulmod_ok m a b x : (length b <= length m)%nat ->
  (length (pmulmod m a b) <= length m)%nat /\ (x ^ Z.of_nat (length m) + peval m x | peval a x * peval b x - peval (pmulmod m a b) x).
Proof.
  intros L. induction a as [|c a [IL IH]]; cbn [pmulmod peval].
  - split; [cbn; lia|]. replace (0 * peval b x - 0) with 0 by ring. apply Z.divide_0_r.
  - destruct (pshift_ok m (pmulmod m a b) x IL) as [SL S]. split.
    + rewrite padd_length. unfold pscale. rewrite map_length. lia.
    + rewrite peval_add, peval_scale.
      destruct IH as [u U], S as [v V]. exists (x * u + v).
      replace ((c + x * peval a x) * peval b x - (c * peval b x + peval (pshift m (pmulmod m a b)) x))
        with (x * (peval a x * peval b x - peval (pmulmod m a b) x) + (x * peval (pmulmod m a b) x - peval (pshift m (pmulmod m a b)) x)) by ring.
      rewrite U, V. ring.
Qed.
