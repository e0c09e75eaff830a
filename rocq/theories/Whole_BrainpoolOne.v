(** C80: without --hex-check a seed gives one curve. *)
From Coq Require Import Ascii String Znumtheory Relations.
From Verif Require Import Base Fp Abelian Ec Poly_Model Points_Model Points_Props Cli_Model CurveText_Spec Whole_Model Whole_Spec Whole_Group.
From Verif Require Whole_AnsiEx Whole_Brainpool Ec_Fp Brainpool_Spec Brainpool_Proofs Cli_Spec Bits_Spec.
Local Open Scope Z_scope.
Local Open Scope list_scope.

(** ** Ends of a chain *)
Section Ends.
Variable A : Type.
Variable R : A -> A -> Prop.
Hypothesis det : forall x y z, R x y -> R x z -> y = z.
Lemma one_end x y z : clos_refl_trans A R x y -> clos_refl_trans A R x z -> (forall w, ~ R y w) -> (forall w, ~ R z w) -> y = z.
Proof.
  intros Y Z NY NZ. apply clos_rt_rt1n_iff in Y, Z. induction Y as [x|x w y S Y IH]; inversion Z as [|w' z' S' Z']; subst.
  - reflexivity.
  - destruct (NY _ S').
  - destruct (NZ _ S).
  - apply IH; [|assumption]. rewrite (det _ _ _ S S'). assumption.
Qed.
End Ends.

(** ** The coefficients *)
Lemma equation_one rfc h p a b ia ib a' b' ia' ib' :
  brainpool_equation rfc h p a b ia ib -> brainpool_equation rfc h p a' b' ia' ib' -> a = a' /\ b = b' /\ ia = ia' /\ ib = ib'.
Proof.
  intros (-> & -> & L & G & N & X) (-> & -> & L' & G' & N' & X').
  assert (E : ia = ia' /\ ib = ib'); [|destruct E as (-> & ->); auto].
  destruct rfc.
  - destruct X as (Q & BT & T), X' as (Q' & BT' & T').
    set (R := fun i j => (~ Brainpool_Spec.good_a (h i) p /\ j = (i + 1)%nat) \/
      (Brainpool_Spec.good_a (h i) p /\ exists m, (i < m)%nat /\ ~ Brainpool_Spec.is_square (h m) p /\ (forall k, (i < k < m)%nat -> ~ ~ Brainpool_Spec.is_square (h k) p) /\
        ~ Brainpool_Spec.nonsingular (h i) (h m) p /\ j = (m + 1)%nat)).
    assert (LEAST : forall i m m', (i < m)%nat -> (i < m')%nat -> ~ Brainpool_Spec.is_square (h m) p -> ~ Brainpool_Spec.is_square (h m') p ->
      (forall k, (i < k < m)%nat -> ~ ~ Brainpool_Spec.is_square (h k) p) -> (forall k, (i < k < m')%nat -> ~ ~ Brainpool_Spec.is_square (h k) p) -> m = m').
    { intros i m m' M M' S S' K K'. destruct (Nat.lt_trichotomy m m') as [Lt|[E|Lt]]; [|exact E|].
      - destruct (K' m (conj M Lt) S).
      - destruct (K m' (conj M' Lt) S'). }
    assert (PATH : forall i, Brainpool_Spec.tried_rfc (fun i => Brainpool_Spec.good_a (h i) p) (fun j => ~ Brainpool_Spec.is_square (h j) p) (fun i j => Brainpool_Spec.nonsingular (h i) (h j) p) i ->
      clos_refl_trans nat R 0%nat i).
    { intros i TI. induction TI as [|i TI IH NG|i m TI IH GI Lm Nm Km Dm]; [apply rt_refl| |].
      - apply rt_trans with i; [exact IH|]. apply rt_step. left. auto.
      - apply rt_trans with i; [exact IH|]. apply rt_step. right. split; [exact GI|]. exists m. auto 6. }
    assert (END : forall i m, (i < m)%nat -> Brainpool_Spec.good_a (h i) p -> Brainpool_Spec.nonsingular (h i) (h m) p -> ~ Brainpool_Spec.is_square (h m) p ->
      (forall k, (i < k < m)%nat -> Brainpool_Spec.is_square (h k) p) -> forall w, ~ R i w).
    { intros i m Lm GI NS SQ BW w [(NG & _)|(_ & m' & Lm' & SQ' & K' & D' & _)]; [exact (NG GI)|].
      assert (m = m') by (apply (LEAST i m m'); auto). subst m'. exact (D' NS). }
    assert (ia = ia').
    { apply (one_end nat R) with 0%nat; [|apply PATH; exact T|apply PATH; exact T'|apply (END ia ib); auto|apply (END ia' ib'); auto].
      intros x y z [(U & ->)|(U & m & M1 & M2 & M3 & M4 & ->)] [(V & ->)|(V & m' & M1' & M2' & M3' & M4' & ->)]; try contradiction; [reflexivity|].
      f_equal. apply (LEAST x); auto. }
    subst ia'. split; [reflexivity|]. apply (LEAST ia); auto.
  - destruct X as (-> & SQ & T), X' as (-> & SQ' & T').
    set (R := fun i j => (~ Brainpool_Spec.good_a (h i) p /\ j = (i + 1)%nat) \/
      (Brainpool_Spec.good_a (h i) p /\ ~ (Brainpool_Spec.is_square (h (i + 1)%nat) p /\ Brainpool_Spec.nonsingular (h i) (h (i + 1)%nat) p) /\ j = (i + 2)%nat)).
    assert (PATH : forall i, Brainpool_Spec.tried (fun i => Brainpool_Spec.good_a (h i) p) (fun i j => Brainpool_Spec.is_square (h j) p /\ Brainpool_Spec.nonsingular (h i) (h j) p) i ->
      clos_refl_trans nat R 0%nat i).
    { intros i TI. induction TI as [|i TI IH NG|i TI IH GI NB]; [apply rt_refl| |]; (apply rt_trans with i; [exact IH|]); apply rt_step; [left|right]; auto. }
    assert (ia = ia'); [|subst; auto].
    apply (one_end nat R) with 0%nat; [|apply PATH; exact T|apply PATH; exact T'| |].
    + intros x y z [(U & ->)|(U & M & ->)] [(V & ->)|(V & M' & ->)]; try contradiction; reflexivity.
    + intros w [(U & _)|(_ & U & _)]; auto.
    + intros w [(U & _)|(_ & U & _)]; auto.
Qed.
Lemma at_one cfg first i p a b ia ib p' a' b' ia' ib' :
  brainpool_at cfg first i p a b ia ib -> brainpool_at cfg first i p' a' b' ia' ib' -> p = p' /\ a = a' /\ b = b' /\ ia = ia' /\ ib = ib'.
Proof.
  intros ((_ & _ & F) & E) ((_ & _ & F') & E'). pose proof (Brainpool_Proofs.least3_unique _ _ _ _ F F') as <-.
  split; [reflexivity|]. exact (equation_one _ _ _ _ _ _ _ _ _ _ _ E E').
Qed.

(** ** The positions *)
Section Turns.
Variable cfg : config.
Variable first : list bool.
Hypothesis NH : c_hex_check cfg = None.
Notation L := (Z.to_nat (c_bits cfg)).
Definition next (i j : nat) : Prop :=
  (exists q, Brainpool_Spec.least3 prime (Brainpool_Spec.bp_c (Brainpool_Spec.bp_seed first i) L) q /\ ~ Brainpool_Spec.bit_prime L q /\ j = (i + 1)%nat) \/
  (exists p a b ia ib, brainpool_at cfg first i p a b ia ib /\ ~ brainpool_order p (points (Prime p) a b) /\ j = (i + 1 + ib + 1)%nat) \/
  (exists p a b ia ib, brainpool_at cfg first i p a b ia ib /\ brainpool_order p (points (Prime p) a b) /\ ~ brainpool_degree p (points (Prime p) a b) /\ j = (i + 1 + ib + 2)%nat).
Lemma no_field i q p a b ia ib : Brainpool_Spec.least3 prime (Brainpool_Spec.bp_c (Brainpool_Spec.bp_seed first i) L) q -> ~ Brainpool_Spec.bit_prime L q -> ~ brainpool_at cfg first i p a b ia ib.
Proof. intros F N ((B & _ & F') & _). rewrite (Brainpool_Proofs.least3_unique _ _ _ _ F F') in N. exact (N B). Qed.
Lemma next_det i j k : next i j -> next i k -> j = k.
Proof.
  intros [(q & F & N & ->)|[(p & a & b & ia & ib & A & O & ->)|(p & a & b & ia & ib & A & O & D & ->)]]
    [(q' & F' & N' & ->)|[(p' & a' & b' & ia' & ib' & A' & O' & ->)|(p' & a' & b' & ia' & ib' & A' & O' & D' & ->)]]; try reflexivity.
  all: try (exfalso; eapply no_field; eassumption).
  all: destruct (at_one _ _ _ _ _ _ _ _ _ _ _ _ _ A A') as (<- & <- & <- & <- & <-); contradiction || reflexivity.
Qed.
Lemma turn_path i : brainpool_turn cfg first i -> clos_refl_trans nat next 0%nat i.
Proof.
  induction 1 as [|i q T IH F N|i p a b ia ib T IH A O|i p a b ia ib T IH A O D|i p a b ia ib T IH A O H]; [apply rt_refl|..|contradiction];
    (apply rt_trans with i; [exact IH|]); apply rt_step.
  - left. eauto.
  - right; left. exists p, a, b, ia, ib. auto.
  - right; right. exists p, a, b, ia, ib. auto.
Qed.
Lemma end_here i p a b ia ib : brainpool_at cfg first i p a b ia ib -> brainpool_order p (points (Prime p) a b) -> brainpool_degree p (points (Prime p) a b) -> forall j, ~ next i j.
Proof.
  intros A O D j [(q & F & N & _)|[(p' & a' & b' & ia' & ib' & A' & O' & _)|(p' & a' & b' & ia' & ib' & A' & O' & D' & _)]].
  - exact (no_field _ _ _ _ _ _ _ F N A).
  - destruct (at_one _ _ _ _ _ _ _ _ _ _ _ _ _ A A') as (<- & <- & <- & _). contradiction.
  - destruct (at_one _ _ _ _ _ _ _ _ _ _ _ _ _ A A') as (<- & <- & <- & _). contradiction.
Qed.
End Turns.

(** ** The generator, up to its sign *)
Lemma same_x p a b x y y' : curve_ok (Prime p) a b -> ec_on (Prime p) a b (Some (x, y)) = true -> ec_on (Prime p) a b (Some (x, y')) = true ->
  Some (x, y') = Some (x, y) \/ Some (x, y') = ec_neg (Prime p) (Some (x, y)).
Proof.
  intros ns O O'. destruct (proj1 (ec_on_iff _ _ _ ns _ _) O) as (_ & Iy & E), (proj1 (ec_on_iff _ _ _ ns _ _) O') as (_ & Iy' & E').
  apply in_elements in Iy, Iy'. cbn [field_size affine_on on_curve] in *. apply Z.eqb_eq in E, E'.
  assert (D : (p | (y' - y) * (y' + y))).
  { apply Z.mod_divide; [lia|]. replace ((y' - y) * (y' + y)) with (y' * y' - y * y) by ring. rewrite Zminus_mod, E, E', Z.sub_diag. apply Z.mod_0_l. lia. }
  destruct ns as [(Pp & _) _ _ _]. apply (prime_mult _ Pp) in D. destruct D as [(k & D)|(k & D)].
  - left. assert (k = 0) by nia. subst k. replace y' with y by lia. reflexivity.
  - right. cbn [ec_neg Ec_Fp.ec_neg]. do 2 f_equal. destruct (Z.eq_dec k 0) as [->|K].
    + assert (y = 0) by lia. assert (y' = 0) by lia. subst. rewrite Z.mod_small by lia. reflexivity.
    + assert (k = 1) by nia. subst k. replace (- y) with (y' + (-1) * p) by lia. rewrite Z.mod_add, Z.mod_small by lia. reflexivity.
Qed.
Lemma mul_neg p a b k P : curve_ok p a b -> ec_on p a b P = true -> ec_mul p a (ec_neg p P) k = ec_neg p (ec_mul p a P k).
Proof.
  intros ns O. set (Q := exist (fun Q => ec_on p a b Q = true) P O : point p a b).
  change P with (xy p a b Q). change (ec_neg p (xy p a b Q)) with (xy p a b (pneg p a b ns Q)). rewrite !(ec_mul_xy p a b ns).
  change (ec_neg p (xy p a b (pmul p a b ns Q k))) with (xy p a b (pneg p a b ns (pmul p a b ns Q k))). f_equal. unfold pmul.
  pose proof (points_group p a b ns) as G.
  rewrite <- (zmul_opp _ _ _ G), <- (zmul_1 (padd p a b ns) (pneg p a b ns) (pinf p a b) Q) at 1.
  rewrite <- (zmul_opp _ _ _ G), (zmul_zmul _ _ _ G). reflexivity.
Qed.

(** ** C80 *)
(** the same curve: the same field, coefficients, order, seed, and generator up to its sign *)
Definition same_curve (c c' : pub) : Prop :=
  pub_f c = pub_f c' /\ pub_a c = pub_a c' /\ pub_b c = pub_b c' /\ pub_order c = pub_order c' /\ pub_seed c = pub_seed c' /\
  forall p, pub_f c = PubPrime p -> exists G,
    map (fun g => xy_of (fst g)) (pub_groups c) = [G] /\
    (map (fun g => xy_of (fst g)) (pub_groups c') = [G] \/ map (fun g => xy_of (fst g)) (pub_groups c') = [ec_neg (Prime p) G]).
Theorem C80_one_curve cfg hexw hexw' first p i ia ib c p' i' ia' ib' c' : c_hex_check cfg = None ->
  brainpool_curve cfg first p i ia ib c -> wanted_curve (brainpool_cfg cfg) hexw (Prime p) c ->
  brainpool_curve cfg first p' i' ia' ib' c' -> wanted_curve (brainpool_cfg cfg) hexw' (Prime p') c' ->
  same_curve c c'.
Proof.
  intros NH (F & S & T & A & O & D & x & y & X & G) W (F' & S' & T' & A' & O' & D' & x' & y' & X' & G') W'.
  destruct W as (NS & W & _), W' as (_ & W' & _). rewrite W in O, D. rewrite W' in O', D'.
  assert (i = i').
  { apply (one_end nat (next cfg first) (next_det cfg first)) with 0%nat; [exact (turn_path _ _ NH _ T)|exact (turn_path _ _ NH _ T')|exact (end_here _ _ _ _ _ _ _ _ A O D)|exact (end_here _ _ _ _ _ _ _ _ A' O' D')]. }
  subst i'. destruct (at_one _ _ _ _ _ _ _ _ _ _ _ _ _ A A') as (<- & Ea & Eb & <- & <-).
  split; [congruence|]. split; [exact Ea|]. split; [exact Eb|]. split; [rewrite W, W', Ea, Eb; reflexivity|]. split; [congruence|].
  intros q Q. assert (q = p) by congruence. subst q. eexists. split; [exact G|]. rewrite G', <- Ea. rewrite <- Ea, <- Eb in X'. destruct X as (X & LX), X' as (X' & LX').
  assert (x = x') by (apply Z.le_antisymm; [exact (LX _ _ X')|exact (LX' _ _ X)]). subst x'.
  assert (ns : curve_ok (Prime p) (pub_a c) (pub_b c)).
  { destruct A as (((Pp & _) & M & _) & _). constructor; [split; [exact Pp|]|exact I|exact I|exact NS]. pose proof (prime_ge_2 p Pp). destruct (Z.eq_dec p 2) as [->|]; [discriminate M|lia]. }
  destruct (same_x p _ _ x y y' ns X X') as [E|E]; rewrite E; [left; reflexivity|right]. rewrite (mul_neg _ _ _ _ _ ns X). reflexivity.
Qed.
Print Assumptions C80_one_curve.
(** with a seed on the command line it is the same in every run, and every time in a run *)
Theorem C80_repeats cfg hexw hexw' d d' l l' c c' u : Cli_Model.c_seed cfg = Some u -> c_hex_check cfg = None ->
  wanted_brainpool cfg hexw d l c -> wanted_brainpool cfg hexw' d' l' c' -> same_curve c c'.
Proof.
  intros CS NH (first & p & i & ia & ib & l0 & ls & _ & (_ & B) & C & W) (first' & p' & i' & ia' & ib' & l0' & ls' & _ & (_ & B') & C' & W').
  rewrite CS in B, B'. destruct B as (_ & dg & H1 & _ & H2), B' as (_ & dg' & H1' & _ & H2').
  pose proof (Whole_AnsiEx.body_one _ _ _ H1 H1') as <-. pose proof (Whole_AnsiEx.spells_one _ _ _ H2 H2') as <-.
  exact (C80_one_curve _ _ _ _ _ _ _ _ _ _ _ _ _ _ NH C W C' W').
Qed.
Print Assumptions C80_repeats.
