(** C87: what the generators of the CM method make. *)
From Coq Require Import Ascii String Znumtheory.
From Verif Require Import Base Primes Fp Cli_Model Input_Model Input_Props CmPrime_Model CmPrime_Props CmAny_Model CmAny_Props CmGen_Model.
From Verif Require Cli_Spec.
Local Open Scope Z_scope.
Local Open Scope list_scope.

Lemma stored s N : magnitude s N -> strtoi s = N.
Proof. intros M. rewrite <- (app_nil_r s). apply strtoi_magnitude; [exact M|left; reflexivity]. Qed.

Lemma large_field N p : 21 < N -> 0 <= p -> (p + 1 - N) * (p + 1 - N) <= 4 * p -> 13 < p.
Proof. intros L P H. assert (~ p <= 13); [|lia]. intros Q. nia. Qed.
Lemma not_three N D p : right_discriminant N D p -> N mod 3 = 2 -> D <> -3.
Proof.
  intros (_ & _ & _ & y & E) M ->. set (t := N + 1 - p).
  assert (X : t * t + 3 * (y * y) = 4 * N) by (unfold t; nia). clear E.
  assert (T : (t * t) mod 3 = 2).
  { replace (t * t) with (N + (N - y * y) * 3) by lia. rewrite Z.mod_add by lia. exact M. }
  rewrite Z.mul_mod in T by lia. assert (t mod 3 = 0 \/ t mod 3 = 1 \/ t mod 3 = 2) as [R|[R|R]] by (pose proof (Z.mod_pos_bound t 3); lia); rewrite R in T; discriminate T.
Qed.

Section Generators.
Variable forprime : Z -> Z -> list Z.
Variable kronecker : Z -> Z -> Z.
Variable cornacchia2 : Z -> Z -> option (Z * Z).
Variable isprime : Z -> bool.
Variable glog : Z -> Z.
Variable issquarefree : Z -> bool.
Variable quaddisc : Z -> Z.
Variable norm_traces : Z -> Z -> list Z.
Variable curve point : Type.
Variable class_roots : Z -> Z -> list Z.
Variable curve_of : Z -> Z -> option curve.
Variable twist : curve -> curve.
Variable random_point : curve -> Z -> point.
Variable mul_is_inf : curve -> point -> Z -> bool.
(** the number of points of a curve and the order of a point on it *)
Variable card : curve -> Z.
Variable order_of : curve -> point -> Z.
Notation gen_prime := (cm_gen_curve_prime forprime kronecker cornacchia2 isprime glog curve point class_roots curve_of twist random_point mul_is_inf).
Notation gen_any := (cm_gen_curve_any isprime issquarefree quaddisc norm_traces curve point class_roots curve_of twist random_point mul_is_inf).

(** Complex multiplication, for the discriminants that belong to curves with N points, except -3, where the invariant is 0
    and a curve has six twists: the curve of a root has N points or its twist has. And the random points on these curves. *)
Definition cm_true (N : Z) : Prop := forall D p, right_discriminant N D p -> D <> -3 ->
  roots_ok curve class_roots curve_of twist card N D p /\
  root_points_ok curve point class_roots curve_of random_point mul_is_inf card order_of D p.

Lemma loop_ok N : cornacchia_ok cornacchia2 -> (forall n, isprime n = true -> prime n) -> cm_true N -> prime N -> 21 < N ->
  forall rounds fuel rnd q p e, 0 <= q_i q ->
  curve_loop forprime kronecker cornacchia2 isprime glog curve point class_roots curve_of twist random_point mul_is_inf rounds fuel rnd N q = Ok (p, e) ->
  exists D, right_discriminant N D p /\ (D <> -3 -> card e = N).
Proof.
  intros HC HP CT PN L. induction rounds as [|rounds IH]; intros fuel rnd q p e Hi H; cbn [curve_loop] in H; [discriminate|].
  destruct (qdisc_next forprime kronecker cornacchia2 isprime (glog N) N fuel q) as [(((D & p') & t) & q')| | |] eqn:Q; cbn [bind] in H; try discriminate H.
  destruct (C50_sound _ _ _ _ _ _ HC HP _ _ _ _ _ _ Hi Q) as (RD & Hi' & _).
  destruct (cm_construct_curve curve point class_roots curve_of twist random_point mul_is_inf fuel (rnd rounds) N D p' true) as [[e'|]| | |] eqn:C; cbn [bind] in H; try discriminate H.
  - assert (p' = p /\ e' = e) as (-> & ->) by (split; congruence). exists D. split; [exact RD|]. intros ND.
    destruct (CT D p RD ND) as (RO & PO). destruct RD as (Pp & Dn & _ & y & E).
    assert (T : (p + 1 - N) * (p + 1 - N) <= 4 * p) by (assert (0 <= y * y) by nia; nia).
    refine (prime_order_on _ _ _ _ _ _ _ card order_of fuel (rnd rounds) N D p e PO RO PN _ T C).
    apply (large_field N p L); [pose proof (prime_ge_2 p Pp); lia|exact T].
  - exact (IH fuel rnd q' p e Hi' H).
Qed.

(** For a prime order greater than 21: the field has a prime number of elements, there are curves with N points over it
    with the discriminant D, the curve made has N points unless D is -3, and N is the order stored. *)
Theorem C87_discriminant s N rounds fuel rnd p e r :
  cornacchia_ok cornacchia2 -> (forall n, isprime n = true -> prime n) -> cm_true N -> magnitude s N -> prime N -> 21 < N ->
  gen_prime rounds fuel rnd (Some s) = Ok (Some (p, e), r) ->
  r = 1 /\ prime p /\ (exists D, right_discriminant N D p /\ (D <> -3 -> card e = N)) /\ cm_gen_order (Some s) = (Some N, 1).
Proof.
  intros HC HP CT M PN L H. unfold cm_gen_curve_prime in H. unfold cm_gen_order. rewrite (stored s N M) in *.
  destruct (curve_loop _ _ _ _ _ _ _ _ _ _ _ _ rounds fuel rnd N qdisc_init) as [(p' & e')| | |] eqn:Q; cbn [bind] in H; try discriminate H.
  assert (p' = p /\ e' = e /\ r = 1) as (-> & -> & ->) by (repeat split; congruence).
  assert (I0 : 0 <= q_i qdisc_init) by (cbn; lia).
  destruct (loop_ok N HC HP CT PN L rounds fuel rnd qdisc_init p e I0 Q) as (D & RD & C).
  split; [reflexivity|]. split; [exact (proj1 RD)|]. split; [exists D; auto|reflexivity].
Qed.
(** When N is 2 modulo 3 the discriminant -3 does not occur. Full statement: for every prime order. Missing: those that are
    1 modulo 3, where -3 occurs and the statement fails, see below; those up to 21, see C52. *)
Theorem C87_prime_partial s N rounds fuel rnd p e r :
  cornacchia_ok cornacchia2 -> (forall n, isprime n = true -> prime n) -> cm_true N -> magnitude s N -> prime N -> 21 < N -> N mod 3 = 2 ->
  gen_prime rounds fuel rnd (Some s) = Ok (Some (p, e), r) ->
  r = 1 /\ prime p /\ card e = N /\ cm_gen_order (Some s) = (Some N, 1).
Proof.
  intros HC HP CT M PN L M3 H. destruct (C87_discriminant s N rounds fuel rnd p e r HC HP CT M PN L H) as (R & Pp & (D & RD & C) & O).
  split; [exact R|]. split; [exact Pp|]. split; [exact (C (not_three N D p RD M3))|exact O].
Qed.

(** For any order: the field has a prime number p of elements with N in its Hasse interval; the curve has N points when
    the orders N and N' = 2 p + 2 - N share no factor with the other one divided by their gcd. Full statement: always.
    Missing: the other orders, see the refutations of C52. *)
Theorem C87_any_partial s N fuel rnd p e r :
  traces_ok norm_traces -> (forall n, isprime n = true -> prime n) ->
  (forall d, 2 <= d -> issquarefree d = true -> quaddisc (- d) < 0) ->
  points_ok curve point random_point mul_is_inf card order_of -> foreign_never curve point twist random_point mul_is_inf ->
  (forall D q, prime q -> D <> -3 -> (exists y, (q + 1 - N) * (q + 1 - N) - 4 * q = D * (y * y)) -> roots_ok curve class_roots curve_of twist card N D q) ->
  magnitude s N -> 0 < N ->
  gen_any fuel rnd (Some s) = Ok (Some (p, e), r) ->
  r = 1 /\ prime p /\ (p + 1 - N) * (p + 1 - N) <= 4 * p /\ cm_gen_order (Some s) = (Some N, 1) /\
  exists D, (exists y, (p + 1 - N) * (p + 1 - N) - 4 * p = D * (y * y)) /\
  (D <> -3 -> let N' := 2 * p + 2 - N in let g := Z.gcd N N' in Z.gcd N (N' / g) = 1 -> Z.gcd N' (N / g) = 1 -> 0 < N' -> card e = N).
Proof.
  intros HT HP HQ PO FN RO M LN H. unfold cm_gen_curve_any in H. unfold cm_gen_order. rewrite (stored s N M) in *. cbv zeta in H.
  destruct (good_qdisc_minimal issquarefree quaddisc norm_traces isprime fuel N) as [(D & p')| | |] eqn:Q; cbn [bind] in H; try discriminate H.
  destruct (cm_construct_curve curve point class_roots curve_of twist random_point mul_is_inf fuel rnd N D p' false) as [[e'|]| | |] eqn:C; cbn [bind] in H; try discriminate H.
  assert (p' = p /\ e' = e /\ r = 1) as (-> & -> & ->) by (repeat split; congruence).
  destruct (C50_minimal issquarefree quaddisc norm_traces isprime HT HP fuel N D p Q) as (Pp & (y & E) & d & Ld & SQ & -> & _).
  assert (T : (p + 1 - N) * (p + 1 - N) <= 4 * p) by (specialize (HQ d Ld SQ); assert (0 <= y * y) by nia; nia).
  split; [reflexivity|]. split; [exact Pp|]. split; [exact T|]. split; [reflexivity|]. exists (quaddisc (- d)). split; [exists y; exact E|].
  intros N3. cbv zeta. intros G1 G2 L'.
  exact (C52_composite_partial _ _ _ _ _ _ _ card order_of PO FN fuel rnd N (quaddisc (- d)) p e (RO _ p Pp N3 (ex_intro _ y E)) LN G1 G2 L' C).
Qed.
(** Without an argument nothing is made, and no curve leads back to the field. *)
Theorem C87_nothing rounds fuel rnd rnd' arg c r :
  gen_prime rounds fuel rnd arg = Ok (c, r) \/ gen_any fuel rnd' arg = Ok (c, r) ->
  match c with Some _ => r = 1 | None => (arg = None /\ r = - 2 ^ 31) \/ r = -3 end.
Proof.
  unfold cm_gen_curve_prime, cm_gen_curve_any. destruct arg as [s|]; [|intros [H|H]; injection H as <- <-; auto]. intros [H|H].
  - destruct (curve_loop _ _ _ _ _ _ _ _ _ _ _ _ rounds fuel rnd (strtoi s) qdisc_init) as [x| | |]; cbn [bind] in H; try discriminate H. injection H as <- <-. reflexivity.
  - cbv zeta in H. destruct (good_qdisc_minimal issquarefree quaddisc norm_traces isprime fuel (strtoi s)) as [(D & p)| | |]; cbn [bind] in H; try discriminate H.
    destruct (cm_construct_curve curve point class_roots curve_of twist random_point mul_is_inf fuel rnd' (strtoi s) D p false) as [[e|]| | |]; cbn [bind] in H; try discriminate H; injection H as <- <-; auto.
Qed.
End Generators.
Print Assumptions C87_discriminant.
Print Assumptions C87_prime_partial.
Print Assumptions C87_any_partial.
Print Assumptions C87_nothing.

(** ** The order 71 *)
(** the roots of the class polynomial of the discriminant -115 over the field of 59 elements; the discriminants before it
    are not of use *)
Definition roots_71 (d p : Z) : list Z := if (d =? -115) && (p =? 59) then [3; 11] else [].
Definition log_b (n : Z) : Z := if n =? 71 then 4 else if n =? 43 then 4 else 5.
Definition mul_71 (e : ecurve) (P : epoint) (k : Z) : bool := emul_is_inf e P (Z.abs k).
Definition gen_71 := cm_gen_curve_prime forprime_b kronecker_b cornacchia_b isprime_b log_b ecurve epoint roots_71 ecurve_of etwist epick mul_71.
Lemma curves_71 root e : In root (roots_71 (-115) 59) -> ecurve_of root 59 = Some e -> e = (59, 8, 4) \/ e = (59, 21, 34).
Proof. intros [<-|[<-|[]]] H; [left|right]; vm_compute in H; congruence. Qed.
(** a point is at infinity after n more steps and not before *)
Fixpoint walk (n : nat) (f : epoint -> epoint) (P : epoint) : bool :=
  match n, P with O, None => true | S n, Some _ => walk n f (f P) | _, _ => false end.
Lemma walk_ok f : forall n P, walk n f P = true -> Nat.iter n f P = None /\ forall k, (k < n)%nat -> Nat.iter k f P <> None.
Proof.
  assert (SW : forall k P, Nat.iter k f (f P) = f (Nat.iter k f P)) by (induction k as [|k IH]; intros P; [reflexivity|exact (f_equal f (IH P))]).
  induction n as [|n IH]; intros [P|] H; try discriminate H.
  - split; [reflexivity|]. intros k L. lia.
  - cbn [walk] in H. destruct (IH _ H) as (A & B). split; [rewrite <- A; symmetry; apply (SW n)|].
    intros [|k] L; [discriminate|]. change (Nat.iter (S k) f (Some P)) with (f (Nat.iter k f (Some P))). rewrite <- (SW k). apply B. lia.
Qed.
Lemma walk_order p a P n : walk n (eadd p a P) P = true -> P <> None ->
  forall b k, mul_71 (p, a, b) P k = true <-> (Z.of_nat (S n) | k).
Proof.
  intros W NP b k. destruct (walk_ok _ _ _ W) as (A & B). set (f := eadd p a P) in *.
  assert (F : f None = P) by (unfold f, eadd; destruct P as [[x y]|]; reflexivity).
  assert (SW : forall k Q, Nat.iter k f (f Q) = f (Nat.iter k f Q)) by (intros i; induction i as [|i IH]; intros Q; [reflexivity|exact (f_equal f (IH Q))]).
  assert (P1 : Nat.iter (S n) f None = None) by (change (Nat.iter (S n) f None) with (f (Nat.iter n f None)); rewrite <- (SW n), F; exact A).
  assert (AD : forall i j Q, Nat.iter (i + j) f Q = Nat.iter i f (Nat.iter j f Q)) by (intros i; induction i as [|i IH]; intros j Q; [reflexivity|exact (f_equal f (IH j Q))]).
  assert (PQ : forall q, Nat.iter (q * S n) f None = None).
  { induction q as [|q IH]; [reflexivity|]. change (S q * S n)%nat with (S n + q * S n)%nat. rewrite AD, IH. exact P1. }
  assert (PR : forall m, Nat.iter m f None = None <-> (m mod S n = 0)%nat).
  { intros m. assert (E2 : Nat.iter m f None = Nat.iter (m mod S n) f None).
    { transitivity (Nat.iter (m mod S n + m / S n * S n) f None); [|rewrite AD, PQ; reflexivity].
      assert (E : m = (m mod S n + m / S n * S n)%nat); [|rewrite <- E; reflexivity]. pose proof (Nat.div_mod m (S n) ltac:(lia)). lia. }
    rewrite E2. clear E2.
    pose proof (Nat.mod_upper_bound m (S n)) as U. destruct (m mod S n)%nat as [|r]; [split; reflexivity|].
    split; [|lia]. intros X. exfalso. apply (B r); [lia|]. change (Nat.iter (S r) f None) with (f (Nat.iter r f None)) in X. rewrite <- (SW r), F in X. exact X. }
  unfold mul_71, emul_is_inf. fold f. specialize (PR (Z.to_nat (Z.abs k))).
  destruct (Nat.iter (Z.to_nat (Z.abs k)) f None) as [Q|].
  - split; [discriminate|]. intros D. exfalso. assert (X : (Z.to_nat (Z.abs k) mod S n = 0)%nat).
    { apply Nat2Z.inj. rewrite Nat2Z.inj_mod, Z2Nat.id by lia. apply Z.mod_divide; [lia|]. apply Z.divide_abs_r. exact D. }
    apply PR in X. discriminate.
  - split; [|reflexivity]. intros _. destruct PR as (PR & _). specialize (PR eq_refl).
    apply Z.divide_abs_r. apply Z.mod_divide; [lia|]. rewrite <- (Z2Nat.id (Z.abs k)) by lia. rewrite <- Nat2Z.inj_mod, PR. reflexivity.
Qed.
Definition prime_b (e : ecurve) (P : epoint) : bool := let '(p, a, _) := e in match P with Some _ => walk 70 (eadd p a P) P | None => false end.
Lemma points_71 e r : e = (59, 8, 4) \/ e = (59, 21, 34) -> forall k, mul_71 e (epick e r) k = true <-> (71 | k).
Proof.
  intros He. assert (W : prime_b e (epick e r) = true).
  { destruct He as [->| ->]; apply (pick_all (prime_b _)); (vm_compute; (reflexivity || discriminate)). }
  assert (exists a b, e = (59, a, b)) as (a & b & ->) by (destruct He as [->| ->]; eauto). intros k.
  change 71 with (Z.of_nat 71). unfold prime_b in W. apply walk_order; [|intros E; rewrite E in W; discriminate W].
  destruct (epick (59, a, b) r); [exact W|discriminate W].
Qed.
Lemma true_71 : cm_true ecurve epoint roots_71 ecurve_of etwist epick mul_71 ecard (fun _ _ => 71) 71.
Proof.
  intros D p _ _. unfold roots_ok, root_points_ok, roots_71.
  destruct (Z.eqb_spec D (-115)) as [->|]; [|split; [intros ? ? []|intros ? ? ? []]]. destruct (Z.eqb_spec p 59) as [->|]; [|split; [intros ? ? []|intros ? ? ? []]]. cbn [andb]. split.
  - intros root e I E. destruct (curves_71 root e I E) as [->| ->]; vm_compute; auto.
  - intros root e r I E. pose proof (curves_71 root e I E) as He. cbv zeta. split; [lia|]. split; [|apply points_71; exact He].
    destruct He as [->| ->]; exists 1; vm_compute; reflexivity.
Qed.
Example C87_prime_example :
  cornacchia_ok cornacchia_b /\ (forall n, isprime_b n = true -> prime n) /\
  cm_true ecurve epoint roots_71 ecurve_of etwist epick mul_71 ecard (fun _ _ => 71) 71 /\
  magnitude (lit "71") 71 /\ prime 71 /\ 21 < 71 /\ 71 mod 3 = 2 /\
  gen_71 5 60 (fun _ _ => 0) (Some (lit "71")) = Ok (Some (59, (59, 8, 4)), 1) /\ ecard (59, 8, 4) = 71.
Proof.
  split; [exact cornacchia_b_ok|]. split; [intros n; apply isprime_b_ok|]. split; [exact true_71|].
  split; [change (magnitude (lit "71") (Cli_Spec.dec (lit "71"))); is_dec|].
  split; [apply isprime_b_ok; vm_compute; reflexivity|]. split; [lia|]. split; [reflexivity|]. vm_compute. auto.
Qed.

(** The order 43 is asked for, a curve with 28 points is made and 43 is stored as its order, whatever the random points. *)
Theorem C87_order_refuted : exists s N, magnitude s N /\ prime N /\ 21 < N /\ forall rnd, exists p e,
  cm_gen_curve_prime forprime_b kronecker_b cornacchia_b isprime_b log_b ecurve epoint eroots ecurve_of etwist epick emul_is_inf 1 10 rnd (Some s) = Ok (Some (p, e), 1) /\
  prime p /\ cm_gen_order (Some s) = (Some N, 1) /\ ecard e = 28.
Proof.
  exists (lit "43"), 43. split; [change (magnitude (lit "43") (Cli_Spec.dec (lit "43"))); is_dec|].
  split; [apply isprime_b_ok; vm_compute; reflexivity|]. split; [lia|]. intros rnd. exists 31, (etwist (31, 0, 1)).
  unfold cm_gen_curve_prime. replace (strtoi (lit "43")) with 43 by (vm_compute; reflexivity). cbn [curve_loop].
  replace (qdisc_next forprime_b kronecker_b cornacchia_b isprime_b (log_b 43) 43 10 qdisc_init) with (Ok (-3, 31, 13, {| q_r := 0; q_i := 2; q_Sp := [-3] |})) by (vm_compute; reflexivity).
  cbn [bind]. unfold cm_construct_curve. replace (eroots (-3) 31) with [0] by reflexivity. cbn [try_roots].
  replace (ecurve_of 0 31) with (Some (31, 0, 1)) by (vm_compute; reflexivity).
  pose proof (pick_all (fun P => negb (emul_is_inf (31, 0, 1) P 43)) (31, 0, 1)) as H.
  cbv beta in H. specialize (H ltac:(vm_compute; reflexivity) ltac:(vm_compute; discriminate) (rnd 0%nat 0%nat)).
  apply negb_true_iff in H. rewrite H. cbn [bind]. split; [reflexivity|]. split; [apply isprime_b_ok; vm_compute; reflexivity|]. split; vm_compute; reflexivity.
Qed.
Print Assumptions C87_order_refuted.
(** the hypotheses for any order: 22 points over 17 elements *)
Definition twist_n (e : nat) : nat := if (e =? 12)%nat then 20%nat else 12%nat.
Definition traces_22 (D N : Z) : list Z := if (D =? -52) && (N =? 22) then [6] else [].
Example C87_any_example :
  traces_ok traces_22 /\ (forall d, 2 <= d -> squarefree_b d = true -> quaddisc_b (- d) < 0) /\
  points_ok nat (nat * Z) point_n mul_n card_n (fun _ P => snd P) /\ foreign_never nat (nat * Z) twist_n point_n mul_n /\
  cm_gen_curve_any isprime_b squarefree_b quaddisc_b traces_22 nat (nat * Z) (fun d p => if (d =? -52) && (p =? 17) then [1] else []) (fun _ _ => Some 12%nat) twist_n point_n mul_n
    20 (fun n => if (n <? 6)%nat then 1 else 0) (Some (lit "22")) = Ok (Some (17, 20%nat), 1) /\ card_n 20 = 22.
Proof.
  split. { intros D N T I. unfold traces_22 in I. destruct (Z.eqb_spec D (-52)) as [->|]; [|destruct I]. destruct (Z.eqb_spec N 22) as [->|]; [|destruct I].
    cbn in I. destruct I as [<-|[]]. exists 1. reflexivity. }
  split; [intros d L _; unfold quaddisc_b; destruct (- d mod 4 =? 1); lia|].
  split; [apply points_n_ok|]. split. { intros e r k. unfold mul_n, point_n, twist_n. destruct (Nat.eqb_spec e 12) as [->|NE]; [reflexivity|]. cbn [fst].
    destruct (Nat.eqb_spec 12 e); [congruence|reflexivity]. }
  vm_compute. auto.
Qed.
