(** C31-C33: the points generated on a curve. *)
From Coq Require Import Znumtheory Sorted.
From Verif Require Import Base Primes Factor Random_Model Random_Props Subgroup_Model Subgroup_Props Points_Model.
Local Open Scope Z_scope.

(** [p] has order [n]. *)
Definition order_is {P} (inf : P) (mul : P -> Z -> P) (p : P) (n : Z) : Prop :=
  0 < n /\ forall k, mul p k = inf <-> (n | k).

(** The contract of PARI's ellmul and ellorder on the curve's group. *)
Record group_ok {P} (inf : P) (mul : P -> Z -> P) (order : P -> Z) : Prop := {
  mul_mul : forall p a b, mul (mul p a) b = mul p (a * b);
  mul_1 : forall p, mul p 1 = p;
  order_ok : forall p, order_is inf mul p (order p)
}.

(** [pt] is a point of order [d] in the subgroup generated by [g], labelled with [d]. *)
Definition point_of_order {P} (inf : P) (mul : P -> Z -> P) (g : P) (d : Z) (pt : point_t P) : Prop :=
  p_order pt = d /\ order_is inf mul (p_point pt) d /\ exists k, p_point pt = mul g k.

Lemma order_unique {P} (inf : P) mul p a b : order_is inf mul p a -> order_is inf mul p b -> a = b.
Proof.
  intros (Ha & A) (Hb & B). apply Z.divide_antisym_nonneg; [lia|lia| |].
  - apply A. apply B. apply Z.divide_refl.
  - apply B. apply A. apply Z.divide_refl.
Qed.

Lemma mapm_forall2 {X Y} (f : X -> res Y) (R : X -> Y -> Prop) l :
  (forall x, In x l -> exists y, f x = Ok y /\ R x y) -> exists r, mapm f l = Ok r /\ Forall2 R l r.
Proof.
  induction l as [|x l IH]; intros H; [exists []; split; [reflexivity|constructor]|].
  destruct (H x (or_introl eq_refl)) as (y & E & Ry). destruct IH as (r & E2 & R2); [intros; apply H; right; assumption|].
  exists (y :: r). cbn [mapm]. rewrite E. cbn [bind]. rewrite E2. cbn [bind]. split; [reflexivity|]. constructor; assumption.
Qed.

Section Group.
  Context {P : Type} (inf : P) (mul : P -> Z -> P) (order : P -> Z).
  Hypothesis G : group_ok inf mul order.

  Notation has_order := (order_is inf mul).
  Notation of_order := (point_of_order inf mul).

  Lemma order_div g n d : has_order g n -> 0 < d -> (d | n) -> has_order (mul g (n / d)) d.
  Proof.
    intros (Hn & O) Hd (q & ->). rewrite Z.div_mul by lia. split; [assumption|]. intros k.
    rewrite (mul_mul _ _ _ G). rewrite O. apply Z.mul_divide_cancel_l. intros ->. lia.
  Qed.

  Lemma dvdii_iff a b : 0 < b -> dvdii a b = true <-> (b | a).
  Proof.
    intros H. unfold dvdii. destruct (b =? 0) eqn:E; [lia|]. rewrite Z.eqb_eq. apply Z.mod_divide. lia.
  Qed.

  (** C31 for one generator and any list of divisors of its order *)
  Theorem C31_from_orders g l :
    has_order (p_point g) (p_order g) -> Forall (fun d => 0 < d /\ (d | p_order g)) l ->
    exists pts, points_from_orders mul g l = map Some pts /\ Forall2 (of_order (p_point g)) l pts.
  Proof.
    intros O F. unfold points_from_orders. induction F as [|d l (Hd & D) F IH].
    - exists []. split; [reflexivity|constructor].
    - destruct IH as (pts & E & R). cbn [map]. rewrite E. unfold point_from_order at 1.
      destruct (p_order g =? d) eqn:Eq.
      + apply Z.eqb_eq in Eq. exists (mkPoint (p_point g) d None :: pts). split; [reflexivity|].
        constructor; [|assumption]. split; [reflexivity|]. cbn [p_point]. rewrite <- Eq. split; [assumption|].
        exists 1. symmetry. apply (mul_1 _ _ _ G).
      + rewrite (proj2 (dvdii_iff _ d Hd) D). pose proof O as (Hn & _).
        rewrite Z.quot_div_nonneg by lia.
        exists (mkPoint (mul (p_point g) (p_order g / d)) d None :: pts). split; [reflexivity|].
        constructor; [|assumption]. split; [reflexivity|]. cbn [p_point]. split; [apply order_div; assumption|].
        eexists. reflexivity.
  Qed.

  (** the points of [s'] are one for each of the orders satisfying [Q], in increasing order *)
  Definition points_for (Q : Z -> Prop) (s s' : subgroup_t P) : Prop :=
    s_gen s' = s_gen s /\
    exists l pts, lists Q l /\ s_points s' = Some (map Some pts) /\ s_npoints s' = length pts /\
      Forall2 (of_order (p_point (s_gen s))) l pts.

  Lemma points_for_intro (Q : Z -> Prop) s l :
    has_order (p_point (s_gen s)) (p_order (s_gen s)) -> lists Q l ->
    (forall d, Q d -> 0 < d /\ (d | p_order (s_gen s))) ->
    points_for Q s (set_points s (points_from_orders mul (s_gen s) l)).
  Proof.
    intros O L H. destruct (C31_from_orders (s_gen s) l O) as (pts & E & F).
    { apply Forall_forall. intros d I. apply H. apply L. assumption. }
    split; [reflexivity|]. exists l, pts. unfold set_points. cbn [s_gen s_npoints s_points]. rewrite E, map_length.
    repeat split; assumption || reflexivity || apply L.
  Qed.

  Section Listed.
    Context (Z_factor : Z -> list (Z * Z)) (isprime : Z -> bool).
    Hypothesis factor_ok : forall n, 0 < n -> factorization n (Z_factor n).
    Hypothesis isprime_ok : forall n, isprime n = true <-> prime n.

    (** a generator as the previous stage leaves it *)
    Definition generator_ok (s : subgroup_t P) : Prop :=
      1 < p_order (s_gen s) /\ has_order (p_point (s_gen s)) (p_order (s_gen s)).

    Theorem C31_prime gens : Forall generator_ok gens ->
      exists gens', points_gen_prime mul Z_factor isprime gens = Ok gens' /\
        Forall2 (fun s s' => points_for (fun d => prime d /\ (d | p_order (s_gen s))) s s') gens gens'.
    Proof.
      intros F. unfold points_gen_prime. apply mapm_forall2. intros s I. rewrite Forall_forall in F.
      destruct (F s I) as (L & O). eexists. split; [reflexivity|]. apply points_for_intro; [assumption| |].
      - apply C30_prime; assumption.
      - intros d (A & B). pose proof (prime_ge_2 d A). split; [lia|assumption].
    Qed.

    Theorem C31_all gens : Forall generator_ok gens -> Forall (fun s => few_factors (p_order (s_gen s))) gens ->
      exists gens', points_gen_allgroups mul Z_factor isprime gens = Ok gens' /\
        Forall2 (fun s s' => points_for (fun d => 1 < d /\ (d | p_order (s_gen s))) s s') gens gens'.
    Proof.
      intros F K. unfold points_gen_allgroups. apply mapm_forall2. intros s I. rewrite Forall_forall in F, K.
      destruct (F s I) as (L & O).
      destruct (C30_all Z_factor isprime factor_ok isprime_ok (p_order (s_gen s)) L (K s I)) as (l & E & Ll).
      rewrite E. cbn [bind]. eexists. split; [reflexivity|]. apply points_for_intro; [assumption|assumption|].
      intros d (A & B). split; [lia|assumption].
    Qed.

    (** A generator of prime order has no non-prime subgroup and is left alone. *)
    Theorem C31_nonprime gens : Forall generator_ok gens -> Forall (fun s => few_factors (p_order (s_gen s))) gens ->
      exists gens', points_gen_nonprime mul Z_factor isprime gens = Ok gens' /\
        Forall2 (fun s s' => (prime (p_order (s_gen s)) /\ s' = s) \/
          (~ prime (p_order (s_gen s)) /\ points_for (fun d => 1 < d /\ ~ prime d /\ (d | p_order (s_gen s))) s s')) gens gens'.
    Proof.
      intros F K. unfold points_gen_nonprime. apply mapm_forall2. intros s I. rewrite Forall_forall in F, K.
      destruct (F s I) as (L & O).
      destruct (C30_nonprime Z_factor isprime factor_ok isprime_ok (p_order (s_gen s)) L (K s I)) as (o & E & Ll).
      rewrite E. cbn [bind]. destruct o as [l|].
      - eexists. split; [reflexivity|]. right. split.
        + intros C. unfold subgroups_nonprime in E. rewrite (proj2 (isprime_ok _) C) in E. discriminate.
        + apply points_for_intro; [assumption|assumption|]. intros d (A & _ & B). split; [lia|assumption].
      - eexists. split; [reflexivity|]. left. split; [|reflexivity].
        destruct (prime_dec (p_order (s_gen s))) as [C|C]; [assumption|exfalso].
        apply (proj2 Ll (p_order (s_gen s))). split; [assumption|]. split; [assumption|apply Z.divide_refl].
    Qed.
  End Listed.

  (** ** C32 *)
  Lemma keep_fixed (g : point_t P) l : forall x, fold_left (keep g) l (Some x) = Some x.
  Proof.
    induction l as [|p l IH]; intros x; [reflexivity|]. cbn [fold_left]. unfold keep at 2.
    destruct ((p_order g =? p) || dvdii (p_order g) p); apply IH.
  Qed.

  Lemma keep_first (g : point_t P) : 0 < p_order g -> forall primes, Forall (fun p => 0 < p) primes ->
    (exists a p b, primes = a ++ p :: b /\ (p | p_order g) /\ (forall q, In q a -> ~ (q | p_order g)) /\
       fold_left (keep g) primes None = Some [p]) \/
    ((forall q, In q primes -> ~ (q | p_order g)) /\ fold_left (keep g) primes None = None).
  Proof.
    intros Hg primes F. induction F as [|p l Hp F IH]; [right; split; [intros q []|reflexivity]|].
    cbn [fold_left]. unfold keep at 2 4. destruct (Zdivide_dec p (p_order g)) as [D|D].
    - rewrite (proj2 (dvdii_iff _ p Hp) D), orb_true_r. left. exists [], p, l. rewrite keep_fixed.
      split; [reflexivity|]. split; [assumption|]. split; [intros q []|reflexivity].
    - assert (dvdii (p_order g) p = false) as ->.
      { destruct (dvdii (p_order g) p) eqn:E; [|reflexivity]. apply dvdii_iff in E; tauto. }
      assert (p_order g =? p = false) as ->.
      { apply Z.eqb_neq. intros C. apply D. rewrite C. apply Z.divide_refl. }
      cbn [orb]. destruct IH as [(a & p' & b & E & A & B & C)|(A & B)].
      + left. exists (p :: a), p', b. rewrite E in *. split; [reflexivity|]. split; [assumption|]. split; [|exact C].
        intros q [<-|I]; auto.
      + right. split; [|exact B]. intros q [<-|I]; auto.
  Qed.

  (** The full claim: for every listed prime that divides the order of some generator there
      is a point of that order. What holds: every generator whose order some listed prime
      divides gets a point of the first such prime. *)
  Theorem C32_first_partial gens primes :
    Forall (fun s => has_order (p_point (s_gen s)) (p_order (s_gen s))) gens -> Forall (fun p => 0 < p) primes ->
    Forall2 (fun s s' =>
      (exists a p b pt, primes = a ++ p :: b /\ (p | p_order (s_gen s)) /\ (forall q, In q a -> ~ (q | p_order (s_gen s))) /\
         s_npoints s' = 1%nat /\ s_points s' = Some [Some pt] /\ of_order (p_point (s_gen s)) p pt) \/
      ((forall q, In q primes -> ~ (q | p_order (s_gen s))) /\ s' = s)) gens (points_gen_trial mul gens primes).
  Proof.
    intros F Fp. unfold points_gen_trial. induction F as [|s gens O F IH]; [constructor|]. cbn [map]. constructor; [|exact IH].
    destruct (keep_first (s_gen s) (proj1 O) primes Fp) as [(a & p & b & E & A & B & C)|(A & B)].
    - left. rewrite C. destruct (C31_from_orders (s_gen s) [p] O) as (pts & E1 & E2).
      { constructor; [|constructor]. split; [|assumption]. rewrite Forall_forall in Fp. apply Fp. rewrite E. apply in_elt. }
      inversion E2 as [|? pt ? ? X Y]; subst. inversion Y; subst. exists a, p, b, pt.
      unfold set_points. rewrite E1. cbn. repeat split; try assumption; apply X.
    - right. rewrite B. auto.
  Qed.

  (** the claim where every generator's order is divisible by at most one of the primes *)
  Theorem C32_single_partial gens primes :
    Forall (fun s => has_order (p_point (s_gen s)) (p_order (s_gen s))) gens -> Forall (fun p => 0 < p) primes ->
    (forall s p q, In s gens -> In p primes -> In q primes -> (p | p_order (s_gen s)) -> (q | p_order (s_gen s)) -> p = q) ->
    forall p s, In p primes -> In s gens -> (p | p_order (s_gen s)) ->
      exists s' pt l, In s' (points_gen_trial mul gens primes) /\ s_points s' = Some l /\ In (Some pt) l /\
        of_order (p_point (s_gen s)) p pt.
  Proof.
    intros F Fp U p s Ip Is D. pose proof (C32_first_partial gens primes F Fp) as T.
    clear F Fp. induction T as [|s0 s0' gens gens' H T IH]; [destruct Is|].
    destruct Is as [->|Is].
    - destruct H as [(a & p' & b & pt & E & A & B & _ & S & O)|(A & _)]; [|destruct (A p Ip D)].
      assert (p' = p) as -> by (apply (U s p' p); [left; reflexivity|rewrite E; apply in_elt|assumption|assumption|assumption]).
      exists s0', pt, [Some pt]. split; [left; reflexivity|]. split; [assumption|]. split; [left; reflexivity|assumption].
    - destruct IH as (s' & pt & l & I & R); [intros; apply (U s1 p0 q); try right; assumption|assumption|].
      exists s', pt, l. split; [right; assumption|assumption].
  Qed.

  (** ** C33 *)
  Definition random_member (g : P) (pt : point_t P) : Prop :=
    (exists k, p_point pt = mul g k) /\ p_point pt <> inf /\ has_order (p_point pt) (p_order pt).

  Lemma random_point_ok g t : 1 < p_order g -> has_order (p_point g) (p_order g) ->
    exists pt, random_point mul order g t = Ok (Some pt) /\ random_member (p_point g) pt.
  Proof.
    intros L (Hn & O). unfold random_point. destruct (p_order g =? 2) eqn:E.
    - apply Z.eqb_eq in E. eexists. split; [reflexivity|]. split; [exists 1; symmetry; apply (mul_1 _ _ _ G)|].
      cbn [p_point p_order]. rewrite <- E. split; [|split; assumption]. intros C.
      rewrite <- (mul_1 _ _ _ G (p_point g)) in C. apply O in C. apply Z.divide_1_r_nonneg in C; lia.
    - destruct (C62_range 1 (p_order g) t) as (m & Em & R1 & R2 & _); [lia|]. rewrite Em. cbn [bind].
      specialize (R2 L). eexists. split; [reflexivity|]. split; [eexists; reflexivity|]. cbn [p_point p_order].
      split; [|apply (order_ok _ _ _ G)]. intros C. apply O in C. apply Z.divide_pos_le in C; lia.
  Qed.

  Lemma upd_incr_sum l i d : (i < length l)%nat -> list_sum (upd l i (nth i l d + 1)%nat) = (list_sum l + 1)%nat.
  Proof.
    revert i. induction l as [|x l IH]; intros i H; [cbn in H; lia|]. destruct i; cbn [upd nth].
    - cbn. lia.
    - unfold list_sum in *. cbn [fold_right]. rewrite IH by (cbn in H; lia). lia.
  Qed.

  Lemma distribute_ok n ngens t : (0 < ngens)%nat ->
    exists l, distribute n ngens t = Ok l /\ length l = ngens /\ list_sum l = n.
  Proof.
    intros H. unfold distribute.
    destruct (for_to_inv (fun k (l : list nat) => length l = ngens /\ list_sum l = k)
      (fun i npoints_per_gen => do which_gen <- random_range 0 (Z.of_nat ngens) (t i);
        do k <- rd npoints_per_gen (Z.to_nat which_gen);
        wr npoints_per_gen (Z.to_nat which_gen) (k + 1)%nat) n (repeat 0%nat ngens)) as (l & E & L).
    - rewrite repeat_length. split; [reflexivity|]. clear. induction ngens; cbn; auto.
    - intros j l Hj (Hl & Hs). destruct (C62_range 0 (Z.of_nat ngens) (t j)) as (w & Ew & R1 & R2 & _); [lia|].
      rewrite Ew. cbn [bind]. rewrite (rd_nth 0%nat) by lia. cbn [bind]. rewrite wr_ok by lia. eexists. split; [reflexivity|].
      rewrite upd_length, upd_incr_sum by lia. lia.
    - exists l. tauto.
  Qed.

  Lemma mapm_length {X Y} (f : X -> res Y) l r : mapm f l = Ok r -> length r = length l.
  Proof.
    revert r. induction l as [|x l IH]; intros r H; cbn [mapm] in H; [injection H as <-; reflexivity|].
    apply bind_ok in H. destruct H as (y & _ & H). apply bind_ok in H. destruct H as (r' & E & H). injection H as <-.
    cbn [length]. f_equal. auto.
  Qed.

  (** Several random points: exactly the requested number in total, each a non-trivial
      multiple of its generator labelled with its order. *)
  Theorem C33_points gens npoints t1 t2 : gens <> [] -> Forall generator_ok gens ->
    exists gens', points_gen_random mul order gens npoints t1 t2 = Ok gens' /\
      list_sum (map s_npoints gens') = npoints /\
      Forall2 (fun s s' => s_gen s' = s_gen s /\
        ((s_npoints s' = 0%nat /\ s_points s' = s_points s) \/
         exists pts, s_points s' = Some (map Some pts) /\ length pts = s_npoints s' /\
           Forall (random_member (p_point (s_gen s))) pts)) gens gens'.
  Proof.
    intros Ne F. unfold points_gen_random.
    destruct (length gens =? 0)%nat eqn:L0; [destruct gens; [contradiction|discriminate]|]. apply Nat.eqb_neq in L0.
    destruct (distribute_ok npoints (length gens) t1) as (per & E & L & S); [lia|]. rewrite E. cbn [bind]. clear E.
    rewrite <- S. clear S Ne L0. remember 0%nat as i0 eqn:Ei in |- * at 1. clear Ei.
    revert per L i0. induction F as [|s gens (G1 & G2) F IH]; intros per L i0.
    - destruct per; [|discriminate]. exists []. cbn. repeat split. constructor.
    - destruct per as [|n per]; [discriminate|]. injection L as L. destruct (IH per L (S i0)) as (gens' & E & Hs & R).
      cbn [length seq combine mapm].
      assert (K : exists s', fill mul order t2 (i0, (n, s)) = Ok s' /\ s_npoints s' = n /\ s_gen s' = s_gen s /\
        ((s_npoints s' = 0%nat /\ s_points s' = s_points s) \/
         exists pts, s_points s' = Some (map Some pts) /\ length pts = s_npoints s' /\
           Forall (random_member (p_point (s_gen s))) pts)).
      { unfold fill. destruct (n =? 0)%nat eqn:N0.
        - apply Nat.eqb_eq in N0. subst n. eexists. split; [reflexivity|]. cbn. auto.
        - destruct (mapm_forall2 (fun j => random_point mul order (s_gen s) (t2 i0 j))
            (fun _ o => exists pt, o = Some pt /\ random_member (p_point (s_gen s)) pt) (seq 0 n)) as (l & El & Rl).
          { intros j _. destruct (random_point_ok (s_gen s) (t2 i0 j) G1 G2) as (pt & Ep & Rp). exists (Some pt). eauto. }
          rewrite El. cbn [bind]. eexists. split; [reflexivity|]. unfold set_points. cbn [s_npoints s_gen s_points].
          pose proof (mapm_length _ _ _ El) as Ll. rewrite seq_length in Ll. split; [assumption|]. split; [reflexivity|]. right.
          assert (Q : exists pts, l = map Some pts /\ Forall (random_member (p_point (s_gen s))) pts).
          { clear - Rl. induction Rl as [|? ? ? ? (pt & -> & R) _ (pts & -> & Q)]; [exists []; split; [reflexivity|constructor]|].
            exists (pt :: pts). split; [reflexivity|constructor; assumption]. }
          destruct Q as (pts & -> & Q). exists pts. rewrite map_length in *. auto. }
      destruct K as (s' & K1 & K2 & K3 & K4). rewrite K1. cbn [bind]. rewrite E. cbn [bind].
      exists (s' :: gens'). split; [reflexivity|]. split.
      + unfold list_sum in *. cbn [map fold_right]. rewrite Hs, K2. reflexivity.
      + constructor; auto.
  Qed.

  (** One random point ([--points=random]). Full claim: as above, in particular not the
      point at infinity. It is infinity exactly for the multiplier 0. *)
  Theorem C33_point_partial gens t1 t2 : gens <> [] -> Forall generator_ok gens ->
    exists gens' i s pt m, point_gen_random mul order gens t1 t2 = Ok gens' /\ nth_error gens i = Some s /\
      gens' = upd gens i (mkSub (s_gen s) 1 (Some [Some pt])) /\
      has_order (p_point pt) (p_order pt) /\
      0 <= m < p_order (s_gen s) /\ p_point pt = mul (p_point (s_gen s)) m /\ (p_point pt = inf <-> m = 0).
  Proof.
    intros Ne F. unfold point_gen_random.
    assert (L : (0 < length gens)%nat) by (destruct gens; [contradiction|cbn; lia]).
    destruct (C62_range 0 (Z.of_nat (length gens)) t1) as (w & Ew & R1 & R2 & _); [lia|]. rewrite Ew. cbn [bind].
    unfold rd. destruct (nth_error gens (Z.to_nat w)) as [s|] eqn:Es; [|apply nth_error_None in Es; lia]. cbn [bind].
    assert (Gs : generator_ok s) by (rewrite Forall_forall in F; apply F; apply nth_error_In with (Z.to_nat w); assumption).
    destruct Gs as (G1 & G2).
    destruct (C62_range 0 (p_order (s_gen s)) t2) as (m & Em & M1 & M2 & _); [lia|]. rewrite Em. cbn [bind].
    rewrite wr_ok by lia. specialize (M2 ltac:(lia)).
    eexists _, (Z.to_nat w), s, _, m. split; [reflexivity|]. split; [assumption|]. split; [reflexivity|].
    cbn [p_point p_order]. split; [apply (order_ok _ _ _ G)|]. split; [lia|]. split; [reflexivity|].
    rewrite (proj2 G2). split; [|intros ->; apply Z.divide_0_r].
    intros D. destruct (Z.eq_dec m 0); [assumption|]. apply Z.divide_pos_le in D; lia.
  Qed.
End Group.

(** ** Concrete groups *)
(** The cyclic group of [n] elements. *)
Definition cyc_mul (n p k : Z) : Z := (p * k) mod n.
Definition cyc_order (n p : Z) : Z := n / Z.gcd p n.

Lemma cyc_ok n : 0 < n ->
  (forall p a b, cyc_mul n (cyc_mul n p a) b = cyc_mul n p (a * b)) /\
  (forall p, 0 <= p < n -> cyc_mul n p 1 = p) /\
  (forall p, order_is 0 (cyc_mul n) p (cyc_order n p)).
Proof.
  intros H. split; [|split].
  - intros p a b. unfold cyc_mul. rewrite Z.mul_mod_idemp_l by lia. f_equal. ring.
  - intros p Hp. unfold cyc_mul. rewrite Z.mul_1_r. apply Z.mod_small. assumption.
  - intros p. unfold order_is, cyc_order, cyc_mul.
    assert (Gp : 0 < Z.gcd p n).
    { pose proof (Z.gcd_nonneg p n). destruct (Z.eq_dec (Z.gcd p n) 0) as [E|]; [|lia]. apply Z.gcd_eq_0_r in E. lia. }
    destruct (Z.gcd_divide_r p n) as (n' & En). destruct (Z.gcd_divide_l p n) as (p' & Ep).
    set (g := Z.gcd p n) in *. assert (Hn' : n / g = n') by (rewrite En; apply Z.div_mul; lia). rewrite Hn'.
    assert (0 < n') by nia. split; [assumption|]. intros k. rewrite Z.mod_divide by lia.
    assert (C : Z.gcd n' p' = 1).
    { assert (Z.gcd (n' * g) (p' * g) = g * 1) as K by (rewrite <- En, <- Ep, Z.gcd_comm; unfold g; ring).
      rewrite Z.gcd_mul_mono_r_nonneg in K by lia. nia. }
    rewrite Ep, En. replace (p' * g * k) with ((p' * k) * g) by ring. rewrite Z.mul_divide_cancel_r by lia. split.
    + intros D. apply Z.gauss with p'; assumption.
    + intros D. apply Z.divide_mul_r. assumption.
Qed.

(** residues as a type of their own, so that the contract holds of every element *)
Definition res_of (n : Z) : Type := { p : Z | (p =? p mod n) = true }.
Lemma res_proof n (H : 0 < n) z : (z mod n =? (z mod n) mod n) = true.
Proof. apply Z.eqb_eq. rewrite Z.mod_mod by lia. reflexivity. Qed.
Definition in_res n (H : 0 < n) (z : Z) : res_of n := exist _ (z mod n) (res_proof n H z).
Definition res_mul n (H : 0 < n) (p : res_of n) (k : Z) : res_of n := in_res n H (proj1_sig p * k).
Definition res_order n (p : res_of n) : Z := cyc_order n (proj1_sig p).

Lemma res_eq n (a b : res_of n) : proj1_sig a = proj1_sig b -> a = b.
Proof.
  destruct a as (a & Ha), b as (b & Hb). cbn. intros <-. f_equal. apply Eqdep_dec.UIP_dec. apply bool_dec.
Qed.

Lemma res_group n (H : 0 < n) : group_ok (in_res n H 0) (res_mul n H) (res_order n).
Proof.
  destruct (cyc_ok n H) as (A & B & C). constructor.
  - intros p a b. apply res_eq. exact (A (proj1_sig p) a b).
  - intros (p & Hp). apply res_eq. cbn. apply Z.eqb_eq in Hp. rewrite Z.mul_1_r. auto.
  - intros p. destruct (C (proj1_sig p)) as (C1 & C2). split; [exact C1|]. intros k. unfold res_order. rewrite <- C2. split.
    + intros E. apply (f_equal (@proj1_sig _ _)) in E. cbn in E. exact E.
    + intros E. apply res_eq. cbn. exact E.
Qed.

Definition sub_of {P} (p : P) (n : Z) : subgroup_t P := mkSub (mkPoint p n None) 0 None.
Definition H12 : 0 < 12 := eq_refl.
Definition g12 : subgroup_t (res_of 12) := sub_of (in_res 12 H12 1) 12.

Lemma g12_order : order_is (in_res 12 H12 0) (res_mul 12 H12) (in_res 12 H12 1) 12.
Proof. exact (order_ok _ _ _ (res_group 12 H12) (in_res 12 H12 1)). Qed.

Lemma g12_ok : Forall (generator_ok (in_res 12 H12 0) (res_mul 12 H12)) [g12].
Proof. constructor; [|constructor]. split; [reflexivity|exact g12_order]. Qed.

(** The hypotheses hold of the generator 1 of Z/12, and what comes out. *)
Example C31_instance : Forall (generator_ok (in_res 12 H12 0) (res_mul 12 H12)) [g12] /\
  match points_gen_allgroups (res_mul 12 H12) tfactor isprime_b [g12] with
  | Ok [s] => option_map (map (option_map (fun p => (proj1_sig (p_point p), p_order p)))) (s_points s)
  | _ => None
  end = Some [Some (6, 2); Some (4, 3); Some (3, 4); Some (2, 6); Some (1, 12)].
Proof. split; [exact g12_ok|]. vm_compute. reflexivity. Qed.

Example C33_instance :
  match points_gen_random (res_mul 12 H12) (res_order 12) [g12; g12] 3 (fun i => Z.of_nat i) (fun i j => Z.of_nat (i + 4 * j)) with
  | Ok l => map (fun s => option_map (map (option_map (fun p => (proj1_sig (p_point p), p_order p)))) (s_points s)) l
  | _ => []
  end = [Some [Some (1, 12); Some (5, 12)]; Some [Some (2, 6)]].
Proof. vm_compute. reflexivity. Qed.

(** C32 fails: of the primes 2 and 3 dividing the order 12, only 2 gets a point. *)
Theorem C32_refuted : exists (P : Type) (inf : P) (mul : P -> Z -> P) (order : P -> Z) gens primes p s,
  group_ok inf mul order /\ Forall (generator_ok inf mul) gens /\ Forall prime primes /\
  In p primes /\ In s gens /\ (p | p_order (s_gen s)) /\
  ~ exists s' l pt, In s' (points_gen_trial mul gens primes) /\ s_points s' = Some l /\ In (Some pt) l /\
      order_is inf mul (p_point pt) p.
Proof.
  exists (res_of 12), (in_res 12 H12 0), (res_mul 12 H12), (res_order 12), [g12], [2; 3], 3, g12.
  split; [apply res_group|]. split; [exact g12_ok|].
  split; [constructor; [exact prime_2|constructor; [exact prime_3|constructor]]|].
  split; [right; left; reflexivity|]. split; [left; reflexivity|]. split; [exists 4; reflexivity|].
  intros (s' & l & pt & [<-|[]] & E & I & O). cbn in E. injection E as <-. destruct I as [[= <-]|[]]. cbn [p_point] in O.
  destruct O as (_ & O). assert (D : (3 | 2)).
  { apply O. apply res_eq. vm_compute. reflexivity. }
  apply Z.divide_pos_le in D; lia.
Qed.

(** C33 fails for a single random point: the multiplier may be 0. *)
Theorem C33_infinity_refuted : exists (P : Type) (inf : P) (mul : P -> Z -> P) (order : P -> Z) gens t1 t2,
  group_ok inf mul order /\ gens <> [] /\ Forall (generator_ok inf mul) gens /\
  exists s pt, point_gen_random mul order gens t1 t2 = Ok [s] /\ s_points s = Some [Some pt] /\ p_point pt = inf.
Proof.
  exists (res_of 12), (in_res 12 H12 0), (res_mul 12 H12), (res_order 12), [g12], 0, 0.
  split; [apply res_group|]. split; [discriminate|]. split; [exact g12_ok|].
  eexists _, _. split; [reflexivity|]. split; [reflexivity|]. apply res_eq. vm_compute. reflexivity.
Qed.

(** Without generators (a curve of order 1) both are undefined behaviour. *)
Theorem C33_trivial_group_refuted : exists gens : list (subgroup_t (res_of 12)),
  (forall mul order t1 t2, point_gen_random mul order gens t1 t2 = UB) /\
  (forall mul order n t1 t2, points_gen_random mul order gens n t1 t2 = UB).
Proof. exists []. split; reflexivity. Qed.

Print Assumptions C31_from_orders.
Print Assumptions C31_prime.
Print Assumptions C31_all.
Print Assumptions C31_nonprime.
Print Assumptions C32_first_partial.
Print Assumptions C32_single_partial.
Print Assumptions C32_refuted.
Print Assumptions C33_points.
Print Assumptions C33_point_partial.
Print Assumptions C33_infinity_refuted.
Print Assumptions C33_trivial_group_refuted.
