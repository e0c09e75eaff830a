(** Polynomials over GF(2), written as numbers: bit [i] is the coefficient of x^i. Nothing here
    models code of /repo; it is the theory behind C42. *)
From Coq Require Import Permutation Ring.
From Verif Require Import Base.
Local Open Scope N_scope.

Definition padd : N -> N -> N := N.lxor.
Fixpoint pmul_pos (p : positive) (b : N) : N :=
  match p with
  | xH => b
  | xO p => N.double (pmul_pos p b)
  | xI p => N.lxor b (N.double (pmul_pos p b))
  end.
Definition pmul (a b : N) : N := match a with 0 => 0 | Npos p => pmul_pos p b end.

Lemma double_lxor : forall a b, N.double (N.lxor a b) = N.lxor (N.double a) (N.double b).
Proof. intros. destruct a as [|p], b as [|q]; simpl; auto. Qed.

Lemma lxor_dd : forall a b, N.lxor (N.double a) (N.double b) = N.double (N.lxor a b).
Proof. intros. symmetry. apply double_lxor. Qed.
Lemma sd_lxor : forall a, N.succ_double a = N.lxor 1 (N.double a).
Proof. destruct a; auto. Qed.
Lemma lxor_sd : forall a b, N.lxor (N.succ_double a) (N.double b) = N.succ_double (N.lxor a b).
Proof. intros. rewrite !sd_lxor, N.lxor_assoc, lxor_dd. auto. Qed.
Lemma lxor_ds : forall a b, N.lxor (N.double a) (N.succ_double b) = N.succ_double (N.lxor a b).
Proof. intros. rewrite N.lxor_comm, lxor_sd, N.lxor_comm. auto. Qed.
Lemma lxor_ss : forall a b, N.lxor (N.succ_double a) (N.succ_double b) = N.double (N.lxor a b).
Proof.
  intros. rewrite !sd_lxor. rewrite <- lxor_dd. rewrite <- N.lxor_assoc, (N.lxor_comm 1), (N.lxor_assoc _ 1 1), N.lxor_nilpotent, N.lxor_0_r. auto.
Qed.

Lemma pmul_0_l : forall b, pmul 0 b = 0. Proof. auto. Qed.
Lemma pmul_1_l : forall b, pmul 1 b = b. Proof. auto. Qed.
Lemma pmul_double : forall a b, pmul (N.double a) b = N.double (pmul a b).
Proof. destruct a; auto. Qed.
Lemma pmul_sd : forall a b, pmul (N.succ_double a) b = N.lxor b (N.double (pmul a b)).
Proof. destruct a; simpl; intros; auto. rewrite N.lxor_0_r. auto. Qed.

Lemma pmul_add_r : forall a b c, pmul a (padd b c) = padd (pmul a b) (pmul a c).
Proof.
  unfold padd. induction a using N.binary_ind; intros.
  - auto.
  - rewrite !pmul_double, IHa, lxor_dd. auto.
  - rewrite !pmul_sd, IHa, <- lxor_dd. rewrite !N.lxor_assoc. f_equal.
    rewrite <- !N.lxor_assoc. f_equal. apply N.lxor_comm.
Qed.

Lemma pmul_0_r : forall a, pmul a 0 = 0.
Proof. induction a using N.binary_ind; auto; rewrite ?pmul_double, ?pmul_sd, IHa; auto. Qed.
Lemma pmul_1_r : forall a, pmul a 1 = a.
Proof. induction a using N.binary_ind; auto; rewrite ?pmul_double, ?pmul_sd, IHa; auto. rewrite sd_lxor. auto. Qed.
Lemma pmul_double_r : forall a b, pmul a (N.double b) = N.double (pmul a b).
Proof.
  induction a using N.binary_ind; intros; auto; rewrite ?pmul_double, ?pmul_sd, IHa; auto. rewrite lxor_dd. auto.
Qed.

Lemma pmul_comm : forall a b, pmul a b = pmul b a.
Proof.
  induction a using N.binary_ind; intros.
  - rewrite pmul_0_r. auto.
  - rewrite pmul_double, pmul_double_r, IHa. auto.
  - rewrite pmul_sd, sd_lxor. change (N.lxor 1 (N.double a)) with (padd 1 (N.double a)).
    rewrite pmul_add_r, pmul_1_r, pmul_double_r, IHa. auto.
Qed.

Lemma pmul_add_l : forall a b c, pmul (padd a b) c = padd (pmul a c) (pmul b c).
Proof. intros. rewrite !(pmul_comm _ c). apply pmul_add_r. Qed.

Lemma pmul_assoc : forall a b c, pmul a (pmul b c) = pmul (pmul a b) c.
Proof.
  induction a using N.binary_ind; intros; auto.
  - rewrite !pmul_double, IHa. auto.
  - rewrite !pmul_sd, IHa. change (N.lxor b (N.double (pmul a b))) with (padd b (N.double (pmul a b))).
    rewrite pmul_add_l, pmul_double. auto.
Qed.

Lemma GF2_ring : ring_theory 0 1 padd pmul padd (fun x => x) (@eq N).
Proof.
  split; intros.
  - apply N.lxor_0_l.
  - apply N.lxor_comm.
  - symmetry. apply N.lxor_assoc.
  - apply pmul_1_l.
  - apply pmul_comm.
  - apply pmul_assoc.
  - apply pmul_add_l.
  - auto.
  - apply N.lxor_nilpotent.
Qed.
Add Ring GF2 : GF2_ring.

Lemma padd_self : forall a, padd a a = 0. Proof. apply N.lxor_nilpotent. Qed.
Lemma padd_eq : forall a b, padd a b = 0 -> a = b.
Proof. intros. apply N.lxor_eq. auto. Qed.

(** degree *)
Lemma log2_lxor_lt : forall a b, N.log2 a < N.log2 b -> N.log2 (N.lxor a b) = N.log2 b.
Proof.
  intros a b H. apply N.log2_bits_unique.
  - rewrite N.lxor_spec. rewrite (N.bits_above_log2 a) by auto. rewrite N.bit_log2; auto. intros ->. simpl in H. lia.
  - intros m L. rewrite N.lxor_spec, !N.bits_above_log2 by lia. auto.
Qed.

Lemma log2_dbl : forall a, a <> 0 -> N.log2 (N.double a) = N.succ (N.log2 a).
Proof. intros. rewrite N.double_spec. apply N.log2_double. lia. Qed.

Lemma pmul_nz_log : forall a b, a <> 0 -> b <> 0 -> pmul a b <> 0 /\ N.log2 (pmul a b) = N.log2 a + N.log2 b.
Proof.
  induction a using N.binary_ind; intros b A B; [congruence| |].
  - assert (a <> 0) by (intros ->; auto). destruct (IHa b H B) as (H1 & H2).
    rewrite pmul_double. split; [destruct (pmul a b); simpl; congruence|].
    rewrite !log2_dbl, H2 by auto. lia.
  - rewrite pmul_sd. destruct (N.eq_dec a 0) as [->|D].
    + simpl. rewrite N.lxor_0_r. split; auto. 
    + destruct (IHa b D B) as (H1 & H2).
      assert (L : N.log2 (N.lxor b (N.double (pmul a b))) = N.succ (N.log2 a) + N.log2 b).
      { rewrite log2_lxor_lt; rewrite log2_dbl, H2 by auto; lia. }
      split.
      * intro E. rewrite E in L. simpl in L. lia.
      * rewrite L. f_equal. destruct a; [congruence|]. simpl. destruct p; auto.
Qed.

Lemma pmul_nz : forall a b, a <> 0 -> b <> 0 -> pmul a b <> 0.
Proof. intros. apply pmul_nz_log; auto. Qed.
Lemma pmul_log2 : forall a b, a <> 0 -> b <> 0 -> N.log2 (pmul a b) = N.log2 a + N.log2 b.
Proof. intros. apply pmul_nz_log; auto. Qed.

Lemma padd_cancel : forall a b c, padd a b = padd a c -> b = c.
Proof.
  intros. assert (E : padd a (padd a b) = padd a (padd a c)) by congruence.
  unfold padd in E. rewrite <- !N.lxor_assoc, N.lxor_nilpotent, !N.lxor_0_l in E. auto.
Qed.

Lemma pmul_cancel : forall a b c, a <> 0 -> pmul a b = pmul a c -> b = c.
Proof.
  intros a b c A E. apply padd_eq. destruct (N.eq_dec (padd b c) 0) as [|D]; auto. exfalso.
  apply (pmul_nz a (padd b c)); auto. rewrite pmul_add_r, E. apply padd_self.
Qed.

(** divisibility *)
Definition pdvd (d a : N) : Prop := exists q, a = pmul d q.

Lemma pdvd_refl : forall a, pdvd a a. Proof. intros. exists 1. symmetry. apply pmul_1_r. Qed.
Lemma pdvd_0 : forall a, pdvd a 0. Proof. intros. exists 0. symmetry. apply pmul_0_r. Qed.
Lemma pdvd_trans : forall a b c, pdvd a b -> pdvd b c -> pdvd a c.
Proof. intros a b c (q & ->) (r & ->). exists (pmul q r). ring. Qed.
Lemma pdvd_add : forall d a b, pdvd d a -> pdvd d b -> pdvd d (padd a b).
Proof. intros d a b (q & ->) (r & ->). exists (padd q r). ring. Qed.
Lemma pdvd_mul_l : forall d a b, pdvd d a -> pdvd d (pmul a b).
Proof. intros d a b (q & ->). exists (pmul q b). ring. Qed.
Lemma pdvd_mul_r : forall d a b, pdvd d b -> pdvd d (pmul a b).
Proof. intros. rewrite pmul_comm. apply pdvd_mul_l. auto. Qed.
Lemma pdvd_log2 : forall d a, pdvd d a -> a <> 0 -> N.log2 d <= N.log2 a.
Proof.
  intros d a (q & ->) H. rewrite pmul_log2; [lia| |]; intros ->; apply H; [apply pmul_0_l|apply pmul_0_r].
Qed.
Lemma pdvd_1 : forall d, pdvd d 1 -> d = 1.
Proof.
  intros d H. assert (L := pdvd_log2 d 1 H ltac:(discriminate)). change (N.log2 1) with 0 in L.
  destruct d as [|[p|p|]]; simpl in L; try lia; auto. destruct H as (q & H). discriminate.
Qed.

(** irreducible: not constant, and only trivial factorisations *)
Definition irreducible (f : N) : Prop := 1 < f /\ forall a b, f = pmul a b -> a = 1 \/ b = 1.

Lemma irreducible_dvd : forall f d, irreducible f -> pdvd d f -> d = 1 \/ d = f.
Proof.
  intros f d (L & H) (q & E). destruct (H _ _ E) as [->| ->]; auto. right. rewrite E. symmetry. apply pmul_1_r.
Qed.

(** division with remainder *)
Lemma pdiv : forall b, b <> 0 -> forall a, exists q r, a = padd (pmul b q) r /\ (r = 0 \/ N.log2 r < N.log2 b).
Proof.
  intros b B a. remember (N.to_nat (N.size a)) as n eqn:En.
  assert (L : N.size a <= N.of_nat n) by lia. clear En. revert a L. induction n as [|n IH]; intros a L.
  - exists 0, 0. destruct a; [|simpl in L; lia]. rewrite pmul_0_r. auto.
  - destruct (N.eq_dec a 0) as [->|A]; [exists 0, 0; rewrite pmul_0_r; auto|].
    destruct (N.lt_ge_cases (N.log2 a) (N.log2 b)) as [D|D].
    + exists 0, a. rewrite pmul_0_r. auto.
    + set (t := 2 ^ (N.log2 a - N.log2 b)).
      assert (T : t <> 0) by (apply N.pow_nonzero; lia).
      assert (Lt : N.log2 t = N.log2 a - N.log2 b) by (unfold t; apply N.log2_pow2; lia).
      assert (Lm : N.log2 (pmul b t) = N.log2 a) by (rewrite pmul_log2, Lt by auto; lia).
      destruct (IH (padd a (pmul b t))) as (q & r & E & R).
      * destruct (N.eq_dec (padd a (pmul b t)) 0) as [->|Z]; [simpl; lia|].
        rewrite N.size_log2 in * by auto.
        assert (N.log2 (padd a (pmul b t)) < N.log2 a \/ a = 1 /\ pmul b t = 1); [|]. 2: destruct H as [H|(E1 & E2)]; [lia|].
        -- destruct (N.eq_dec (N.log2 (padd a (pmul b t))) (N.log2 a)) as [E|E].
           ++ exfalso. assert (X := N.bit_log2 _ Z). rewrite E in X. unfold padd in X. rewrite N.lxor_spec in X.
              rewrite N.bit_log2 in X by auto. rewrite <- Lm in X at 1. rewrite N.bit_log2 in X by (apply pmul_nz; auto). discriminate.
           ++ left. assert (N.log2 (padd a (pmul b t)) <= N.log2 a); [|lia].
              unfold padd. etransitivity; [apply N.log2_lxor|]. lia.
        -- exfalso. apply Z. rewrite E1, E2. auto.
      * exists (padd q t), r. split; auto.
        assert (a = padd (padd a (pmul b t)) (pmul b t)) as -> by (unfold padd; rewrite N.lxor_assoc, N.lxor_nilpotent, N.lxor_0_r; auto).
        rewrite E. ring.
Qed.

Lemma bezout : forall a b, exists g u v, g = padd (pmul u a) (pmul v b) /\ pdvd g a /\ pdvd g b.
Proof.
  intros a b. remember (N.to_nat (N.size b)) as n eqn:En.
  assert (L : N.size b <= N.of_nat n) by lia. clear En. revert a b L. induction n as [|n IH]; intros a b L.
  - assert (b = 0) by (destruct b; simpl in L; [auto|lia]). subst. exists a, 1, 0. split; [ring|]. split; [apply pdvd_refl|apply pdvd_0].
  - destruct (N.eq_dec b 0) as [->|B]; [exists a, 1, 0; split; [ring|split; [apply pdvd_refl|apply pdvd_0]]|].
    destruct (pdiv b B a) as (q & r & E & R).
    destruct (IH b r) as (g & u & v & G & D1 & D2).
    { rewrite N.size_log2 in L by auto. destruct R as [->|R]; [simpl; lia|]. destruct (N.eq_dec r 0) as [->|]; [simpl; lia|].
      rewrite N.size_log2 by auto. lia. }
    exists g, v, (padd u (pmul v q)). split; [|split; auto].
    + rewrite G. assert (r = padd a (pmul b q)) as -> by (rewrite E; unfold padd; rewrite N.lxor_comm, <- N.lxor_assoc, N.lxor_nilpotent, N.lxor_0_l; auto).
      ring.
    + rewrite E. apply pdvd_add; auto. apply pdvd_mul_l. auto.
Qed.

Lemma euclid : forall d u v, irreducible d -> pdvd d (pmul u v) -> pdvd d u \/ pdvd d v.
Proof.
  intros d u v I H. destruct (bezout d u) as (g & s & t & E & D1 & D2).
  destruct (irreducible_dvd d g I D1) as [->| ->]; [|left; auto].
  right. assert (v = padd (pmul d (pmul s v)) (pmul t (pmul u v))) as ->.
  { rewrite <- (pmul_1_l v) at 1. rewrite E. ring. }
  apply pdvd_add; [exists (pmul s v); auto|apply pdvd_mul_r; auto].
Qed.

Lemma small_dvd : forall d a, N.log2 a < N.log2 d -> pdvd d a -> a = 0.
Proof.
  intros. destruct (N.eq_dec a 0); auto. assert (X := pdvd_log2 d a H0 n). lia.
Qed.

(** congruence modulo [d] *)
Definition peqm (d a b : N) : Prop := pdvd d (padd a b).

Lemma peqm_refl : forall d a, peqm d a a. Proof. unfold peqm. intros. rewrite padd_self. apply pdvd_0. Qed.
Lemma peqm_sym : forall d a b, peqm d a b -> peqm d b a.
Proof. unfold peqm. intros. replace (padd b a) with (padd a b) by ring. auto. Qed.
Lemma padd_mid : forall a b c, padd a c = padd (padd a b) (padd b c).
Proof. intros. unfold padd. rewrite N.lxor_assoc, <- (N.lxor_assoc b b), N.lxor_nilpotent, N.lxor_0_l. auto. Qed.
Lemma peqm_trans : forall d a b c, peqm d a b -> peqm d b c -> peqm d a c.
Proof. unfold peqm. intros. rewrite (padd_mid a b c). apply pdvd_add; auto. Qed.
Lemma peqm_mul : forall d a b a' b', peqm d a a' -> peqm d b b' -> peqm d (pmul a b) (pmul a' b').
Proof.
  unfold peqm. intros. rewrite (padd_mid _ (pmul a' b)).
  replace (padd (pmul a b) (pmul a' b)) with (pmul (padd a a') b) by ring.
  replace (padd (pmul a' b) (pmul a' b')) with (pmul a' (padd b b')) by ring.
  apply pdvd_add; [apply pdvd_mul_l|apply pdvd_mul_r]; auto.
Qed.
Lemma peqm_dvd : forall d e a b, pdvd d e -> peqm e a b -> peqm d a b.
Proof. unfold peqm. intros. eapply pdvd_trans; eauto. Qed.

Fixpoint ppow (a : N) (n : nat) : N := match n with O => 1 | S n => pmul a (ppow a n) end.
Fixpoint sqn (k : nat) (a : N) : N := match k with O => a | S k => let b := sqn k a in pmul b b end.

Lemma ppow_add : forall a n m, ppow a (n + m) = pmul (ppow a n) (ppow a m).
Proof. induction n; intros; cbn [ppow plus]; [ring|]. rewrite IHn. ring. Qed.
Lemma sqn_pow : forall k a, sqn k a = ppow a (2 ^ k)%nat.
Proof.
  induction k; intros; cbn [sqn]; [simpl; ring|]. cbv zeta. rewrite IHk, <- ppow_add. f_equal. simpl. lia.
Qed.
Lemma sqn_add : forall j k a, sqn (j + k) a = sqn j (sqn k a).
Proof. induction j; intros; cbn [sqn plus]; auto. cbv zeta. rewrite IHj. auto. Qed.
Lemma sqn_peqm : forall d k a b, peqm d a b -> peqm d (sqn k a) (sqn k b).
Proof. induction k; intros; cbn [sqn]; auto. apply peqm_mul; auto. Qed.

(** Fermat: x^(2^k) = x modulo an irreducible polynomial of degree k *)
Definition pprod (l : list N) : N := fold_right pmul 1 l.

Lemma pprod_perm : forall l l', Permutation l l' -> pprod l = pprod l'.
Proof. induction 1; simpl; try congruence. ring. Qed.

Lemma pprod_dvd : forall d l, irreducible d -> pdvd d (pprod l) -> exists r, In r l /\ pdvd d r.
Proof.
  induction l as [|r l IH]; simpl; intros I H.
  - destruct I as (I & _). apply pdvd_1 in H. lia.
  - apply euclid in H; auto. destruct H as [H|H]; [eauto|]. destruct IH as (r' & A & B); eauto.
Qed.

Definition xstep (d k r : N) : N := if N.testbit (N.double r) k then padd (N.double r) d else N.double r.

Lemma pmul_x : forall r, pmul 2 r = N.double r. Proof. auto. Qed.

Lemma xstep_cong : forall d k r, peqm d (xstep d k r) (pmul 2 r).
Proof.
  intros. unfold xstep. change (pmul 2 r) with (N.double r). destruct (N.testbit _ _); [|apply peqm_refl].
  unfold peqm. replace (padd (padd (N.double r) d) (N.double r)) with d; [apply pdvd_refl|].
  unfold padd. rewrite (N.lxor_comm _ d), N.lxor_assoc, N.lxor_nilpotent, N.lxor_0_r. auto.
Qed.

Lemma lt_pow2_bits : forall a k, (forall i, k <= i -> N.testbit a i = false) -> a < 2 ^ k.
Proof.
  intros. destruct (N.eq_dec a 0) as [->|D]; [apply N.neq_0_lt_0, N.pow_nonzero; lia|].
  apply N.log2_lt_pow2; [lia|]. destruct (N.lt_ge_cases (N.log2 a) k); auto.
  exfalso. assert (X := N.bit_log2 a D). rewrite H in X by auto. discriminate.
Qed.

Lemma bits_lt_pow2 : forall a k, a < 2 ^ k -> forall i, k <= i -> N.testbit a i = false.
Proof.
  intros. destruct (N.eq_dec a 0) as [->|D]; [apply N.bits_0|]. apply N.bits_above_log2.
  apply N.log2_lt_pow2 in H; lia.
Qed.

Lemma xstep_lt : forall d r, d <> 0 -> r < 2 ^ N.log2 d -> xstep d (N.log2 d) r < 2 ^ N.log2 d.
Proof.
  intros d r D L. apply lt_pow2_bits. intros i Hi. 
  assert (B : forall i, N.log2 d < i -> N.testbit (N.double r) i = false).
  { intros j J. apply (bits_lt_pow2 _ (N.succ (N.log2 d))); [|lia]. rewrite N.double_spec, N.pow_succ_r'. lia. }
  unfold xstep. destruct (N.testbit (N.double r) (N.log2 d)) eqn:E.
  - unfold padd. rewrite N.lxor_spec. destruct (N.eq_dec i (N.log2 d)) as [->|].
    + rewrite E, N.bit_log2; auto.
    + rewrite B, N.bits_above_log2 by lia. auto.
  - destruct (N.eq_dec i (N.log2 d)) as [->|]; auto. apply B. lia.
Qed.

Lemma log2_small : forall a k, 0 < k -> a < 2 ^ k -> N.log2 a < k.
Proof. intros. destruct (N.eq_dec a 0) as [->|]; [simpl; lia|]. apply N.log2_lt_pow2; lia. Qed.

Lemma lxor_lt : forall a b k, a < 2 ^ k -> b < 2 ^ k -> N.lxor a b < 2 ^ k.
Proof.
  intros. apply lt_pow2_bits. intros. rewrite N.lxor_spec, (bits_lt_pow2 a k), (bits_lt_pow2 b k); auto.
Qed.

Lemma NoDup_map_in : forall (f : N -> N) l, NoDup l -> (forall a b, In a l -> In b l -> f a = f b -> a = b) -> NoDup (map f l).
Proof.
  induction l; simpl; intros H F; constructor.
  - inversion H; subst. intro X. apply in_map_iff in X. destruct X as (b & E & B). apply H2. rewrite <- (F b a); auto.
  - inversion H; subst. apply IHl; auto.
Qed.

Lemma fermat_x : forall d, irreducible d -> peqm d (sqn (N.to_nat (N.log2 d)) 2) 2.
Proof.
  intros d I. destruct (N.eq_dec d 2) as [->|D2].
  { simpl. unfold peqm. exists 3. auto. }
  assert (D1 : 1 < d) by apply I. assert (D0 : d <> 0) by lia.
  assert (K : 0 < N.log2 d) by (apply N.log2_pos; auto).
  assert (NX : ~ pdvd d 2).
  { intro H. assert (L := pdvd_log2 _ _ H ltac:(discriminate)). change (N.log2 2) with 1 in L.
    assert (d < 2 ^ 2) by (apply N.log2_lt_pow2; lia). change (2 ^ 2) with 4 in H0.
    assert (d = 3) by lia. subst. destruct H as (q & H). destruct (N.eq_dec q 0) as [->|Q]; [discriminate|].
    assert (X := pmul_log2 3 q ltac:(discriminate) Q). rewrite <- H in X. change (N.log2 2) with 1 in X. change (N.log2 3) with 1 in X.
    assert (N.log2 q = 0) by lia. destruct q as [|[p|p|]]; simpl in H1; try lia; discriminate. }
  set (k := N.log2 d) in *. set (n := N.to_nat (2 ^ k - 1)). 
  assert (P2 : 2 <= 2 ^ k).
  { rewrite <- (N.pow_1_r 2) at 1. apply N.pow_le_mono_r; lia. }
  set (L := map N.of_nat (seq 1 n)).
  assert (InL : forall r, In r L <-> 1 <= r < 2 ^ k).
  { intros. unfold L. rewrite in_map_iff. split.
    - intros (i & <- & H). apply in_seq in H. unfold n in H. lia.
    - intros H. exists (N.to_nat r). split; [lia|]. apply in_seq. unfold n. lia. }
  assert (ND : NoDup L).
  { unfold L. apply FinFun.Injective_map_NoDup; [|apply seq_NoDup]. intros a b. lia. }
  assert (NZ : forall r, 1 <= r < 2 ^ k -> ~ pdvd d r).
  { intros r H X. apply small_dvd in X; [lia|]. apply log2_small; [exact K|apply H]. }
  assert (Pm : Permutation (map (xstep d k) L) L).
  { apply NoDup_Permutation_bis.
    - apply NoDup_map_in; auto. intros a b A B E. apply InL in A. apply InL in B.
      assert (C : peqm d (pmul 2 a) (pmul 2 b)).
      { eapply peqm_trans; [apply peqm_sym, (xstep_cong d k)|]. rewrite E. apply xstep_cong. }
      unfold peqm in C. replace (padd (pmul 2 a) (pmul 2 b)) with (pmul 2 (padd a b)) in C by ring.
      apply euclid in C; auto. destruct C as [C|C]; [contradiction|]. apply padd_eq. apply (small_dvd d); auto.
      apply log2_small; auto. apply lxor_lt; [apply A|apply B].
    - rewrite map_length. lia.
    - intros s H. apply in_map_iff in H. destruct H as (r & <- & H). apply InL in H. apply InL.
      assert (X := xstep_lt d r D0). fold k in X. split; [|apply X; lia].
      destruct (N.eq_dec (xstep d k r) 0) as [E|]; [|lia]. exfalso.
      assert (C := xstep_cong d k r). rewrite E in C. unfold peqm in C.
      replace (padd 0 (pmul 2 r)) with (pmul 2 r) in C by ring. apply euclid in C; auto. destruct C as [C|C]; auto. apply (NZ r); auto. }
  assert (E1 : forall l, peqm d (pprod (map (xstep d k) l)) (pmul (ppow 2 (length l)) (pprod l))).
  { induction l as [|r l IH]; [simpl; apply peqm_refl|]. cbn [map pprod fold_right length ppow]. fold (pprod l) (pprod (map (xstep d k) l)).
    replace (pmul (pmul 2 (ppow 2 (length l))) (pmul r (pprod l))) with (pmul (pmul 2 r) (pmul (ppow 2 (length l)) (pprod l))) by ring.
    apply peqm_mul; auto. apply xstep_cong. }
  specialize (E1 L). rewrite (pprod_perm _ _ Pm) in E1. unfold peqm in E1.
  replace (padd (pprod L) (pmul (ppow 2 (length L)) (pprod L))) with (pmul (padd 1 (ppow 2 (length L))) (pprod L)) in E1 by ring.
  apply euclid in E1; auto. destruct E1 as [E1|E1].
  - rewrite sqn_pow. replace (2 ^ N.to_nat k)%nat with (S (length L)).
    + cbn [ppow]. unfold peqm. replace (padd (pmul 2 (ppow 2 (length L))) 2) with (pmul 2 (padd 1 (ppow 2 (length L)))) by ring.
      apply pdvd_mul_r. auto.
    + unfold L. rewrite map_length, seq_length. unfold n.
      assert (2 ^ N.to_nat k = N.to_nat (2 ^ k))%nat as ->; [|lia].
      rewrite N2Nat.inj_pow. auto.
  - apply pprod_dvd in E1; auto. destruct E1 as (r & R1 & R2). apply InL in R1. exfalso. apply (NZ r); auto.
Qed.

(** ** Rabin's criterion *)
(** the exponents k with x^(2^k) = x modulo d are closed under gcd *)
Section Orders.
  Variable d : N.
  Definition fixes (k : nat) : Prop := peqm d (sqn k 2) 2.

  Lemma fixes_add : forall j k, fixes j -> fixes k -> fixes (j + k).
  Proof. unfold fixes. intros. rewrite sqn_add. eapply peqm_trans; [apply sqn_peqm; eauto|auto]. Qed.
  Lemma fixes_sub : forall j k, fixes k -> fixes (j + k) -> fixes j.
  Proof.
    unfold fixes. intros. rewrite sqn_add in H0. eapply peqm_trans; [|exact H0]. apply sqn_peqm. apply peqm_sym. auto.
  Qed.
  Lemma fixes_mul : forall q k, fixes k -> fixes (q * k).
  Proof. induction q; intros; simpl; [apply peqm_refl|]. apply fixes_add; auto. Qed.
  Lemma fixes_mod : forall a b, fixes a -> fixes b -> (a <> 0)%nat -> fixes (b mod a).
  Proof.
    intros a b A B Z. apply (fixes_sub _ ((b / a) * a)); [apply fixes_mul; auto|].
    replace (b mod a + b / a * a)%nat with b; auto. rewrite (Nat.div_mod b a Z) at 1. lia.
  Qed.
  Lemma fixes_gcd : forall a b, fixes a -> fixes b -> fixes (Nat.gcd a b).
  Proof.
    induction a as [a IH] using (well_founded_induction lt_wf). intros b A B. destruct (Nat.eq_dec a 0) as [->|Z].
    - simpl. auto.
    - rewrite <- Nat.gcd_mod by auto. apply IH; auto; [apply Nat.mod_upper_bound; auto|]. apply fixes_mod; auto.
  Qed.
End Orders.

Lemma has_irreducible_factor : forall a, 1 < a -> ~ ~ exists d, irreducible d /\ pdvd d a.
Proof.
  intros a. remember (N.to_nat (N.log2 a)) as n eqn:En. revert a En.
  induction n as [n IH] using (well_founded_induction lt_wf). intros a En L H.
  apply H. exists a. split; [|apply pdvd_refl]. split; auto. intros u v E.
  destruct (N.eq_dec u 1); auto. destruct (N.eq_dec v 1); auto. exfalso.
  assert (u <> 0) by (intros ->; rewrite pmul_0_l in E; lia).
  assert (v <> 0) by (intros ->; rewrite pmul_0_r in E; lia).
  assert (0 < N.log2 v) by (apply N.log2_pos; lia).
  assert (X := pmul_log2 u v H0 H1). rewrite <- E in X.
  apply (IH (N.to_nat (N.log2 u)) ltac:(lia) u eq_refl ltac:(lia)).
  intros (d & I & D). apply H. exists d. split; auto. rewrite E. apply pdvd_mul_l. auto.
Qed.

(** every proper divisor of [m] divides one of [es] *)
Definition covers (m : nat) (es : list nat) : Prop :=
  forall g, (g < m)%nat -> Nat.divide g m -> exists e, In e es /\ Nat.divide g e.

Lemma rabin : forall f es, 1 < f -> let m := N.to_nat (N.log2 f) in
  covers m es -> peqm f (sqn m 2) 2 ->
  (forall e, In e es -> forall d, pdvd d f -> pdvd d (padd (sqn e 2) 2) -> d = 1) ->
  irreducible f.
Proof.
  intros f es F m C P G. split; auto. intros a b E.
  destruct (N.eq_dec a 1) as [|A]; auto. destruct (N.eq_dec b 1) as [|B]; auto. exfalso.
  assert (a <> 0) by (intros ->; rewrite pmul_0_l in E; lia).
  assert (b <> 0) by (intros ->; rewrite pmul_0_r in E; lia).
  apply (has_irreducible_factor a); [lia|]. intros (d & I & D).
  assert (Df : pdvd d f) by (rewrite E; apply pdvd_mul_l; auto).
  assert (L : N.log2 d < N.log2 f).
  { rewrite E, pmul_log2 by auto. assert (X := pdvd_log2 d a D H). assert (0 < N.log2 b) by (apply N.log2_pos; lia). lia. }
  set (k := N.to_nat (N.log2 d)).
  assert (Kpos : (0 < k)%nat) by (assert (0 < N.log2 d) by (apply N.log2_pos; apply I); unfold k; lia).
  assert (Fk : fixes d k) by (apply fermat_x; auto).
  assert (Fm : fixes d m) by (apply (peqm_dvd d f); auto).
  assert (Fg := fixes_gcd d k m Fk Fm).
  destruct (C (Nat.gcd k m)) as (e & Ie & (q & ->)).
  { apply Nat.le_lt_trans with k; [|unfold k, m; lia]. apply Nat.divide_pos_le; auto. apply Nat.gcd_divide_l. }
  { apply Nat.gcd_divide_r. }
  assert (d = 1). { apply (G _ Ie d Df). apply (fixes_mul d q) in Fg. exact Fg. }
  subst d. destruct I as (I & _). lia.
Qed.
