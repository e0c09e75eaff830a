(** C52: the curve constructed for an order, and C66: the curve constructed for a subgroup order. The rest of C50: the
    discriminant found for any order. *)
From Coq Require Import Znumtheory.
From Verif Require Import Base Primes Fp CmAny_Model.
Local Open Scope Z_scope.

(** ** The discriminant for any order (C50) *)
(** the elements of norm N in the maximal order of discriminant D: (T + y sqrt D) / 2 with T^2 - D y^2 = 4 N *)
Definition traces_ok (norm_traces : Z -> Z -> list Z) : Prop :=
  forall D N T, In T (norm_traces D N) -> exists y, T * T - D * (y * y) = 4 * N.

Lemma prime_trace_ok isprime N : forall traces p, prime_trace isprime N traces = Some p ->
  isprime p = true /\ In (N + 1 - p) traces.
Proof.
  induction traces as [|T traces IH]; intros p; cbn [prime_trace]; [discriminate|].
  destruct (isprime (N + 1 - T)) eqn:E.
  - intros [= <-]. split; [assumption|]. left. ring.
  - intros X. apply IH in X as (X & I). split; [assumption|]. right. assumption.
Qed.
Lemma prime_trace_none isprime N : forall traces, prime_trace isprime N traces = None ->
  forall T, In T traces -> isprime (N + 1 - T) = false.
Proof.
  induction traces as [|T0 traces IH]; intros E T; cbn [prime_trace] in *; [intros []|].
  destruct (isprime (N + 1 - T0)) eqn:P; [discriminate|]. intros [->|I]; auto.
Qed.

(** The discriminant found belongs to the trace of a curve with N points over the prime field chosen, and it is the one
    of the smallest d >= 2 for which there is such a prime among the listed elements. *)
Theorem C50_minimal issquarefree quaddisc norm_traces isprime :
  traces_ok norm_traces -> (forall n, isprime n = true -> prime n) ->
  forall fuel N D p, good_qdisc_minimal issquarefree quaddisc norm_traces isprime fuel N = Ok (D, p) ->
  prime p /\ (exists y, (p + 1 - N) * (p + 1 - N) - 4 * p = D * (y * y)) /\
  exists d, 2 <= d /\ issquarefree d = true /\ D = quaddisc (- d) /\
    forall d', 2 <= d' < d -> issquarefree d' = true ->
      forall T, In T (norm_traces (quaddisc (- d')) N) -> isprime (N + 1 - T) = false.
Proof.
  intros HT HP fuel N D p. unfold good_qdisc_minimal.
  assert (G : forall fuel d0, 2 <= d0 ->
    (forall d', 2 <= d' < d0 -> issquarefree d' = true ->
      forall T, In T (norm_traces (quaddisc (- d')) N) -> isprime (N + 1 - T) = false) ->
    minimal_from issquarefree quaddisc norm_traces isprime fuel N d0 = Ok (D, p) ->
    prime p /\ (exists y, (p + 1 - N) * (p + 1 - N) - 4 * p = D * (y * y)) /\
    exists d, 2 <= d /\ issquarefree d = true /\ D = quaddisc (- d) /\
      forall d', 2 <= d' < d -> issquarefree d' = true ->
        forall T, In T (norm_traces (quaddisc (- d')) N) -> isprime (N + 1 - T) = false).
  { clear fuel. induction fuel as [|fuel IH]; intros d0 H0 Hd; cbn [minimal_from]; [discriminate|].
    destruct (issquarefree d0) eqn:SF.
    - destruct (prime_trace isprime N (norm_traces (quaddisc (- d0)) N)) as [p0|] eqn:PT.
      + intros X. assert (quaddisc (- d0) = D /\ p0 = p) as (ED & ->) by (split; congruence).
        apply prime_trace_ok in PT as (P1 & P2). split; [auto|]. rewrite ED in P2. split.
        * apply HT in P2 as (y & E). exists y.
          transitivity ((N + 1 - p) * (N + 1 - p) - 4 * N); [ring|]. rewrite <- E. ring.
        * exists d0. auto.
      + intros X. apply (IH (d0 + 1)); [lia| |assumption]. intros d' Hd' SF' T I.
        destruct (Z.eq_dec d' d0) as [->|NE]; [|apply (Hd d'); auto; lia].
        eapply prime_trace_none; eassumption.
    - intros X. apply (IH (d0 + 1)); [lia| |assumption]. intros d' Hd' SF' T I.
      destruct (Z.eq_dec d' d0) as [->|NE]; [congruence|]. apply (Hd d'); auto; lia. }
  apply G; [lia|]. intros; lia.
Qed.
Print Assumptions C50_minimal.

Definition traces_b (D N : Z) : list Z :=
  filter (fun T => existsb (fun y => T * T - D * (y * y) =? 4 * N) (map Z.of_nat (seq 0 (Z.to_nat (2 * N)))))
    (map (fun k => Z.of_nat k - 2 * N) (seq 0 (Z.to_nat (4 * N + 1)))).
Definition quaddisc_b (d : Z) : Z := if d mod 4 =? 1 then d else 4 * d.
Definition squarefree_b (d : Z) : bool :=
  forallb (fun k => negb (d mod (Z.of_nat k * Z.of_nat k) =? 0)) (seq 2 (Z.to_nat d)).
(** order 9: the discriminant -8 of d = 2 has the elements of trace -6, -2, 2, 6, none of which gives a prime; -3 has
    one of trace -3, which gives 13 *)
Example C50_minimal_example : traces_ok traces_b /\ traces_b (-8) 9 = [-6; -2; 2; 6] /\
  good_qdisc_minimal squarefree_b quaddisc_b traces_b isprime_b 5 9 = Ok (-3, 13) /\
  good_qdisc_minimal squarefree_b quaddisc_b traces_b isprime_b 20 26 = Ok (-40, 19).
Proof.
  split; [|vm_compute; auto]. intros D N T I. apply filter_In in I as (_ & I). apply existsb_exists in I as (y & _ & E).
  exists y. apply Z.eqb_eq. assumption.
Qed.

(** ** Curves of prescribed order *)
Section Order.
Variable curve point : Type.
Variable class_roots : Z -> Z -> list Z.
Variable curve_of : Z -> Z -> option curve.
Variable twist : curve -> curve.
Variable random_point : curve -> Z -> point.
Variable mul_is_inf : curve -> point -> Z -> bool.
(** the number of points of a curve and the order of a random point *)
Variable card : curve -> Z.
Variable order_of : curve -> point -> Z.
Notation construct := (cm_construct_curve curve point class_roots curve_of twist random_point mul_is_inf).

(** a random point is finite, its order divides the number of points, multiples are computed correctly *)
Definition points_ok : Prop := forall e r, let P := random_point e r in
  1 < order_of e P /\ (order_of e P | card e) /\ forall k, mul_is_inf e P k = true <-> (order_of e P | k).
(** complex multiplication: the curve of a root has N points or its twist has *)
Definition roots_ok (N d p : Z) : Prop := forall root e, In root (class_roots d p) -> curve_of root p = Some e ->
  (card e = N \/ card e = 2 * p + 2 - N) /\ card (twist e) = 2 * p + 2 - card e.

Lemma multiple_too_large N p k : prime N -> 13 < p -> (p + 1 - N) * (p + 1 - N) <= 4 * p ->
  2 * p + 2 - N = k * N -> 0 < k -> k = 1.
Proof.
  intros HN Hp Ht E Hk. pose proof (prime_ge_2 _ HN) as N2.
  assert (k = 1 \/ k = 2 \/ 3 <= k) as [K|[K|K]] by lia; [assumption| |].
  - subst k. exfalso. assert (2 * (p + 1) = 3 * N) by lia.
    assert (X : (2 | N)). { exists (p + 1 - N). lia. }
    apply (prime_divisors _ HN 2) in X. assert (N = 2) by lia. lia.
  - exfalso. assert (N <= (p + 1) / 2) by (apply Z.div_le_lower_bound; nia).
    assert (4 * N <= 2 * (p + 1)) by nia.
    assert (4 * N <= (k + 1) * N) by (apply Z.mul_le_mono_nonneg_r; lia).
    assert (p + 1 <= 2 * (p + 1 - N)) by lia.
    assert ((p + 1) * (p + 1) <= 4 * ((p + 1 - N) * (p + 1 - N))) by nia. nia.
Qed.

(** the same about the random points of the curves of the roots alone *)
Definition root_points_ok (d p : Z) : Prop := forall root e r, In root (class_roots d p) -> curve_of root p = Some e ->
  let P := random_point e r in
  1 < order_of e P /\ (order_of e P | card e) /\ forall k, mul_is_inf e P k = true <-> (order_of e P | k).

(** For a prime order, over every field of more than 13 elements, the curve returned has the requested order whatever the
    random point. *)
Lemma prime_order_on fuel rnd N d p e : root_points_ok d p -> roots_ok N d p -> prime N -> 13 < p ->
  (p + 1 - N) * (p + 1 - N) <= 4 * p ->
  construct fuel rnd N d p true = Ok (Some e) -> card e = N.
Proof.
  intros HP HR HN Hp Ht. unfold cm_construct_curve.
  assert (Hpos : 0 < 2 * p + 2 - N) by nia.
  assert (HR' : forall root e, In root (class_roots d p) -> curve_of root p = Some e ->
    (card e = N \/ card e = 2 * p + 2 - N) /\ card (twist e) = 2 * p + 2 - card e) by exact HR.
  assert (HP' : forall root e r, In root (class_roots d p) -> curve_of root p = Some e ->
    1 < order_of e (random_point e r) /\ (order_of e (random_point e r) | card e) /\
    forall k, mul_is_inf e (random_point e r) k = true <-> (order_of e (random_point e r) | k)) by exact HP.
  clear HR HP. revert HR' HP'. generalize (class_roots d p) as roots.
  induction roots as [|root roots IH]; intros HR HP; cbn [try_roots]; [discriminate|].
  destruct (curve_of root p) as [e0|] eqn:C.
  2: { apply IH; [intros r' e' I; apply HR; right; assumption|intros r' e' r I; apply HP; right; assumption]. }
  destruct (HR root e0 (or_introl eq_refl) C) as (Hc & Htw).
  destruct (HP root e0 (rnd 0%nat) (or_introl eq_refl) C) as (O1 & O2 & O3).
  destruct (mul_is_inf e0 (random_point e0 (rnd 0%nat)) N) eqn:M.
  - intros X. assert (e0 = e) by congruence. subst e0. apply O3 in M.
    destruct Hc as [Hc|Hc]; [assumption|].
    assert (order_of e (random_point e (rnd 0%nat)) = N).
    { pose proof (prime_ge_2 _ HN). apply (prime_divisors _ HN) in M. lia. }
    rewrite H, Hc in O2. destruct O2 as (k & Ek).
    assert (0 < k) by (pose proof (prime_ge_2 _ HN); nia).
    rewrite (multiple_too_large N p k HN Hp Ht Ek) in Ek by assumption. lia.
  - intros X. assert (twist e0 = e) as <- by congruence. rewrite Htw.
    destruct Hc as [Hc|Hc]; [|lia]. exfalso. rewrite Hc in O2. apply O3 in O2. congruence.
Qed.
Theorem C52_prime : points_ok -> forall fuel rnd N d p e, roots_ok N d p -> prime N -> 13 < p ->
  (p + 1 - N) * (p + 1 - N) <= 4 * p ->
  construct fuel rnd N d p true = Ok (Some e) -> card e = N.
Proof.
  intros HP fuel rnd N d p e HR. apply prime_order_on; [|exact HR]. intros root e0 r _ _. exact (HP e0 r).
Qed.

(** multiples of a point of the twist computed on the curve itself never happen to be infinity *)
Definition foreign_never : Prop := forall e r k, mul_is_inf e (random_point (twist e) r) k = false.

(** For a composite order: right when the orders of the curve and its twist share no factor with the other order divided
    by their gcd, and if the multiples of foreign points do not interfere. *)
Theorem C52_composite_partial : points_ok -> foreign_never -> forall fuel rnd N d p e, roots_ok N d p -> 0 < N ->
  let N' := 2 * p + 2 - N in let g := Z.gcd N N' in
  Z.gcd N (N' / g) = 1 -> Z.gcd N' (N / g) = 1 -> 0 < N' ->
  construct fuel rnd N d p false = Ok (Some e) -> card e = N.
Proof.
  intros HP HF fuel rnd N d p e HR HN N' g G1 G2 HN'. unfold cm_construct_curve.
  assert (HR' : forall root e, In root (class_roots d p) -> curve_of root p = Some e ->
    (card e = N \/ card e = 2 * p + 2 - N) /\ card (twist e) = 2 * p + 2 - card e) by exact HR.
  clear HR. revert HR'. generalize (class_roots d p) as roots.
  induction roots as [|root roots IH]; intros HR; cbn [try_roots]; [discriminate|].
  destruct (curve_of root p) as [e0|] eqn:C.
  2: { apply IH. intros r' e' I. apply HR. right. assumption. }
  destruct (HR root e0 (or_introl eq_refl) C) as (Hc & Htw). clear IH HR.
  replace (p + 1 - (N - (p + 1))) with N' by (unfold N'; ring). cbv zeta. fold g.
  assert (Hg : 0 < g).
  { pose proof (Z.gcd_nonneg N N'). assert (Z.gcd N N' <> 0); [|unfold g; lia]. intros Z0. apply Z.gcd_eq_0 in Z0. lia. }
  rewrite !Z.quot_div_nonneg by lia.
  generalize 0%nat as n. induction fuel as [|fuel IH]; intros n; cbn [choose bind]; [discriminate|].
  destruct (HP e0 (rnd n)) as (O1 & O2 & O3).
  assert (Own : forall a b, Z.gcd a b = 1 -> (order_of e0 (random_point e0 (rnd n)) | a) ->
     (order_of e0 (random_point e0 (rnd n)) | b) -> False).
  { intros a b Gab Da Db. pose proof (Z.gcd_greatest _ _ _ Da Db) as D. rewrite Gab in D.
    apply Z.divide_1_r_nonneg in D; lia. }
  destruct (mul_is_inf e0 (random_point e0 (rnd n)) (N / g)) eqn:M1.
  { cbn [bind]. intros X. assert (e0 = e) by congruence. subst e0. destruct Hc as [Hc|Hc]; [assumption|].
    exfalso. apply O3 in M1. apply (Own N' (N / g)); auto. unfold N'. rewrite <- Hc. assumption. }
  destruct (mul_is_inf e0 (random_point e0 (rnd n)) (N' / g)) eqn:M2.
  { cbn [bind]. intros X. assert (twist e0 = e) as <- by congruence. rewrite Htw. destruct Hc as [Hc|Hc]; [|unfold N' in *; lia].
    exfalso. apply O3 in M2. apply (Own N (N' / g)); auto. rewrite <- Hc. assumption. }
  rewrite !HF. apply IH.
Qed.

(** When the order is p + 1 both multipliers are 1 and the loop never ends. *)
Theorem C52_equal : forall d p root e, class_roots d p = [root] -> curve_of root p = Some e -> 0 < p ->
  (forall r, mul_is_inf e (random_point e r) 1 = false) -> (forall r, mul_is_inf e (random_point (twist e) r) 1 = false) ->
  forall fuel rnd, construct fuel rnd (p + 1) d p false = Fuel.
Proof.
  clear card order_of. intros d p root e ER EC Hp H1 H2 fuel rnd. unfold cm_construct_curve. rewrite ER. cbn [try_roots]. rewrite EC.
  replace (p + 1 - (p + 1 - (p + 1))) with (p + 1) by ring. rewrite Z.gcd_diag, Z.abs_eq by lia.
  rewrite Z.quot_same by lia.
  assert (G : forall n, choose curve point random_point mul_is_inf fuel rnd n e (twist e) 1 1 = Fuel); [|rewrite G; reflexivity].
  induction fuel as [|fuel IH]; intros n; cbn [choose]; [reflexivity|]. rewrite !H1, !H2. apply IH.
Qed.
End Order.
Print Assumptions C52_prime.
Print Assumptions C52_composite_partial.
Print Assumptions C52_equal.

(** ** Curves over a prime field with the chord and tangent law *)
Definition ecurve := (Z * Z * Z)%type.   (* p, a, b *)
Definition epoint := option (Z * Z).
Definition finite_points (e : ecurve) : list (Z * Z) :=
  let '(p, a, b) := e in filter (on_curve p a b) (list_prod (elements p) (elements p)).
Definition ecard (e : ecurve) : Z := let '(p, a, b) := e in points p a b.
Definition inverse (p x : Z) : Z :=
  match find (fun y => (x * y) mod p =? 1) (elements p) with Some y => y | None => 0 end.
(** addition with the coefficient a of the curve; b is not needed *)
Definition eadd (p a : Z) (P Q : epoint) : epoint :=
  match P, Q with
  | None, _ => Q
  | _, None => P
  | Some (x1, y1), Some (x2, y2) =>
      if (x1 =? x2) && ((y1 + y2) mod p =? 0) then None
      else
        let l := if x1 =? x2 then (3 * x1 * x1 + a) * inverse p (2 * y1) else (y2 - y1) * inverse p (x2 - x1) in
        let x3 := (l * l - x1 - x2) mod p in Some (x3, (l * (x1 - x3) - y1) mod p)
  end.
Definition emul_is_inf (e : ecurve) (P : epoint) (k : Z) : bool :=
  let '(p, a, _) := e in
  match Nat.iter (Z.to_nat k) (eadd p a P) None with None => true | Some _ => false end.
Definition epick (e : ecurve) (r : Z) : epoint :=
  let l := finite_points e in nth_error l (Z.to_nat (r mod Z.of_nat (length l))).
Definition nonsquare (p : Z) : Z :=
  match find (fun u => forallb (fun y => negb ((y * y) mod p =? u)) (elements p)) (elements p) with Some u => u | None => 0 end.
Definition etwist (e : ecurve) : ecurve :=
  let '(p, a, b) := e in let u := nonsquare p in (p, (a * (u * u)) mod p, (b * (u * u * u)) mod p).
(** PARI's [ellfromj] *)
Definition ecurve_of (j p : Z) : option ecurve :=
  let k := (j - 1728) mod p in
  if j mod p =? 0 then Some (p, 0, 1)
  else if k =? 0 then Some (p, 1, 0)
  else Some (p, (-3 * j * k) mod p, (-2 * j * k * k) mod p).
(** the invariants of the curves whose order is N or the one of the twist; for the discriminants below
    ((p+1-N)^2 - 4p is the discriminant itself, or the class number is one) these are the roots of the class polynomial *)
Definition eroots (d p : Z) : list Z :=
  if d =? -3 then [0]
  else filter (fun j => match ecurve_of j p with
    | Some e => let t := p + 1 - ecard e in t * t - 4 * p =? d
    | None => false end) (elements p).
Definition econstruct := cm_construct_curve ecurve epoint eroots ecurve_of etwist epick emul_is_inf.

Lemma pick_all (P : epoint -> bool) e : forallb (fun xy => P (Some xy)) (finite_points e) = true ->
  finite_points e <> [] -> forall r, P (epick e r) = true.
Proof.
  intros H NE r. unfold epick. set (l := finite_points e) in *.
  assert (0 < Z.of_nat (length l)) by (destruct l; [congruence|cbn; lia]).
  pose proof (Z.mod_pos_bound r (Z.of_nat (length l))).
  destruct (nth_error l _) as [xy|] eqn:E.
  - apply nth_error_In in E. rewrite forallb_forall in H. auto.
  - apply nth_error_None in E. lia.
Qed.

(** Discriminant -43, p = 31, orders 23 and 41: right for every random point (the hypotheses of [C52_prime] in
    a field of curves: see the second example). *)
Example C52_prime_example : forall rnd,
  (exists e, econstruct 1 rnd 23 (-43) 31 true = Ok (Some e) /\ ecard e = 23) /\
  (exists e, econstruct 1 rnd 41 (-43) 31 true = Ok (Some e) /\ ecard e = 41).
Proof.
  intros rnd. unfold econstruct, cm_construct_curve. replace (eroots (-43) 31) with [1] by (vm_compute; reflexivity).
  cbn [try_roots]. replace (ecurve_of 1 31) with (Some (31, 4, 24)) by (vm_compute; reflexivity).
  split.
  - pose proof (pick_all (fun P => negb (emul_is_inf (31, 4, 24) P 23)) (31, 4, 24)) as H.
    cbv beta in H. specialize (H ltac:(vm_compute; reflexivity) ltac:(vm_compute; discriminate) (rnd 0%nat)).
    apply negb_true_iff in H. rewrite H. eexists. split; [reflexivity|vm_compute; reflexivity].
  - pose proof (pick_all (fun P => emul_is_inf (31, 4, 24) P 41) (31, 4, 24)) as H.
    cbv beta in H. rewrite H; [|vm_compute; reflexivity|vm_compute; discriminate].
    eexists. split; [reflexivity|vm_compute; reflexivity].
Qed.
(** An instance of the hypotheses: curves given by their number of points (at least 2); a point is a curve and an order *)
Definition card_n (n : nat) : Z := Z.of_nat n + 2.
Definition roots_n (d p : Z) : list Z := [1].
Definition point_n (e : nat) (r : Z) : nat * Z := (e, if (e =? 12)%nat && (r =? 0) then 7 else card_n e).
Definition mul_n (e : nat) (P : nat * Z) (k : Z) : bool := (fst P =? e)%nat && (k mod snd P =? 0).
Lemma points_n_ok : points_ok nat (nat * Z) point_n mul_n card_n (fun _ P => snd P).
Proof.
  intros e r. cbv zeta. unfold mul_n, point_n. cbn [fst snd]. rewrite Nat.eqb_refl. cbn [andb].
  destruct (Nat.eqb_spec e 12) as [->|NE]; cbn [andb]; [destruct (r =? 0)|]; cbn [snd].
  - split; [lia|]. split; [exists 2; reflexivity|]. intros k. rewrite Z.eqb_eq. apply Z.mod_divide. lia.
  - unfold card_n. split; [lia|]. split; [apply Z.divide_refl|]. intros k. rewrite Z.eqb_eq. apply Z.mod_divide. lia.
  - unfold card_n. split; [lia|]. split; [apply Z.divide_refl|]. intros k. rewrite Z.eqb_eq. apply Z.mod_divide. lia.
Qed.
Example C52_prime_hypotheses :
  points_ok nat (nat * Z) point_n mul_n card_n (fun _ P => snd P) /\
  roots_ok nat roots_n (fun _ _ => Some 39%nat) (fun _ => 21%nat) card_n 23 (-43) 31 /\
  prime 23 /\ 13 < 31 /\ (31 + 1 - 23) * (31 + 1 - 23) <= 4 * 31 /\
  cm_construct_curve nat (nat * Z) roots_n (fun _ _ => Some 39%nat) (fun _ => 21%nat) point_n mul_n
    1 (fun _ => 0) 23 (-43) 31 true = Ok (Some 21%nat).
Proof.
  split; [apply points_n_ok|].
  split. { intros root e I E. assert (e = 39%nat) as -> by congruence. vm_compute. auto. }
  split; [apply isprime_b_ok; vm_compute; reflexivity|]. split; [lia|]. split; [lia|]. reflexivity.
Qed.
(** orders 22 and 14 over 17 elements: the gcd is 2 and neither order shares a factor with the other order divided by it.
    The first three points are generators and decide nothing, the fourth has order 7. *)
Example C52_composite_hypotheses :
  let twist := fun e => if (e =? 12)%nat then 20%nat else 12%nat in
  points_ok nat (nat * Z) point_n mul_n card_n (fun _ P => snd P) /\
  foreign_never nat (nat * Z) twist point_n mul_n /\
  roots_ok nat roots_n (fun _ _ => Some 12%nat) twist card_n 22 (-52) 17 /\
  Z.gcd 22 14 = 2 /\ Z.gcd 22 (14 / 2) = 1 /\ Z.gcd 14 (22 / 2) = 1 /\
  cm_construct_curve nat (nat * Z) roots_n (fun _ _ => Some 12%nat) twist point_n mul_n
    5 (fun n => if (n <? 6)%nat then 1 else 0) 22 (-52) 17 false = Ok (Some 20%nat).
Proof.
  split; [apply points_n_ok|].
  split. { intros e r k. unfold mul_n, point_n. destruct (Nat.eqb_spec e 12) as [->|NE]; [reflexivity|]. cbn [fst].
    destruct (Nat.eqb_spec 12 e); [congruence|reflexivity]. }
  split. { intros root e I E. assert (e = 12%nat) as -> by congruence. vm_compute. auto. }
  vm_compute. auto.
Qed.

(** *** What goes wrong *)
(** Invariant 0: the order 43 with the discriminant -3 and the prime 31 (what the search of C50 gives for 43). The curve
    y^2 = x^3 + 1 has 36 points, its quadratic twist 28; the twist is returned whatever the random point. *)
Theorem C52_j0_refuted : exists N d p, prime N /\ prime p /\ 13 < p /\ (p + 1 - N) * (p + 1 - N) - 4 * p = d /\
  forall fuel rnd, exists e, econstruct fuel rnd N d p true = Ok (Some e) /\ ecard e <> N.
Proof.
  exists 43, (-3), 31. split; [apply isprime_b_ok; vm_compute; reflexivity|].
  split; [apply isprime_b_ok; vm_compute; reflexivity|]. split; [lia|]. split; [reflexivity|]. intros fuel rnd.
  unfold econstruct, cm_construct_curve. replace (eroots (-3) 31) with [0] by reflexivity.
  cbn [try_roots]. replace (ecurve_of 0 31) with (Some (31, 0, 1)) by (vm_compute; reflexivity).
  pose proof (pick_all (fun P => negb (emul_is_inf (31, 0, 1) P 43)) (31, 0, 1)) as H.
  cbv beta in H. specialize (H ltac:(vm_compute; reflexivity) ltac:(vm_compute; discriminate) (rnd 0%nat)).
  apply negb_true_iff in H. rewrite H. eexists. split; [reflexivity|vm_compute; discriminate].
Qed.
Print Assumptions C52_j0_refuted.
(** The same with a composite order: 9 points over 7 elements are asked for, the curve returned has 12. *)
Theorem C52_j0_composite_refuted : exists N d p rnd e, prime p /\ (p + 1 - N) * (p + 1 - N) - 4 * p = d * (3 * 3) /\
  econstruct 1 rnd N d p false = Ok (Some e) /\ ecard e = 12 /\ N = 9.
Proof.
  exists 9, (-3), 7, (fun _ => 0), (7, 0, 1). split; [apply isprime_b_ok; reflexivity|]. vm_compute. auto.
Qed.
Print Assumptions C52_j0_composite_refuted.
(** Common factors: order 9 over 11 elements (discriminant -35); the curve of the first invariant has 15 points, and when
    the random point has order 3 it is taken to have 9. *)
Theorem C52_composite_refuted : exists N d p rnd e, prime p /\ (p + 1 - N) * (p + 1 - N) - 4 * p = d /\
  econstruct 1 rnd N d p false = Ok (Some e) /\ N = 9 /\ ecard e = 15.
Proof.
  exists 9, (-35), 11, (fun _ => 6), (11, 8, 5). split; [apply isprime_b_ok; reflexivity|]. vm_compute. auto.
Qed.
Print Assumptions C52_composite_refuted.
(** The point of the twist is multiplied on the wrong curve: order 6 over 7 elements (discriminant -24). The curve has 6
    points and the factors are as [C52_composite_partial] asks; the twist, with 10 points, is returned. *)
Theorem C52_foreign_refuted : exists N d p rnd e, prime p /\ (p + 1 - N) * (p + 1 - N) - 4 * p = d /\
  Z.gcd N ((2 * p + 2 - N) / Z.gcd N (2 * p + 2 - N)) = 1 /\ Z.gcd (2 * p + 2 - N) (N / Z.gcd N (2 * p + 2 - N)) = 1 /\
  econstruct 1 rnd N d p false = Ok (Some e) /\ N = 6 /\ ecard e = 10.
Proof.
  exists 6, (-24), 7, (fun n => match n with O => 0 | _ => 7 end), (7, 6, 4).
  split; [apply isprime_b_ok; reflexivity|]. vm_compute. repeat split.
Qed.
Print Assumptions C52_foreign_refuted.
(** Small fields: order 3 over 5 elements (discriminant -11); the curve has 9 points and the random point order 3. *)
Theorem C52_small_refuted : exists N d p rnd e, prime N /\ prime p /\ (p + 1 - N) * (p + 1 - N) - 4 * p = d /\
  econstruct 1 rnd N d p true = Ok (Some e) /\ N = 3 /\ ecard e = 9.
Proof.
  exists 3, (-11), 5, (fun _ => 2), (5, 1, 1). split; [apply isprime_b_ok; reflexivity|].
  split; [apply isprime_b_ok; reflexivity|]. vm_compute. auto.
Qed.
Print Assumptions C52_small_refuted.
(** Order p + 1: 14 over 13 elements (discriminant -52), the loop never ends. *)
Theorem C52_equal_refuted : exists N d p, prime p /\ (p + 1 - N) * (p + 1 - N) - 4 * p = d /\ eroots d p <> [] /\
  forall fuel rnd, econstruct fuel rnd N d p false = Fuel.
Proof.
  exists 14, (-52), 13. split; [apply isprime_b_ok; reflexivity|]. split; [reflexivity|]. split; [vm_compute; discriminate|].
  assert (O : forall e t r, finite_points t <> [] -> emul_is_inf e (epick t r) 1 = false).
  { intros ((q & a) & b) t r NE. pose proof (pick_all (fun P => negb (emul_is_inf (q, a, b) P 1)) t) as H. cbv beta in H.
    apply negb_true_iff, H; [|assumption]. apply forallb_forall. intros (x & y) _. reflexivity. }
  apply (C52_equal ecurve epoint eroots ecurve_of etwist epick emul_is_inf (-52) 13 5 (13, 1, 4)).
  - vm_compute. reflexivity.
  - vm_compute. reflexivity.
  - lia.
  - intros r. apply O. vm_compute. discriminate.
  - intros r. apply O. vm_compute. discriminate.
Qed.
Print Assumptions C52_equal_refuted.

(** ** C66: the construction with a given subgroup order *)
Section Subgroup.
Variable curve : Type.
Variable class_roots : Z -> Z -> list Z.
Variable curve_of : Z -> Z -> option curve.
Variable card : curve -> Z.
Notation construct := (cm_construct_curve_subgroup curve class_roots curve_of card).

(** The curve returned has an order divisible by r, and none is returned exactly when no curve of a root has. *)
Theorem C66_subgroup : forall r d p, 0 < r ->
  (forall e, construct r d p = Some e -> (r | card e) /\ exists root, In root (class_roots d p) /\ curve_of root p = Some e) /\
  (construct r d p = None <-> forall root e, In root (class_roots d p) -> curve_of root p = Some e -> ~ (r | card e)).
Proof.
  intros r d p Hr. unfold cm_construct_curve_subgroup. generalize (class_roots d p) as roots.
  induction roots as [|root roots (IH1 & IH2)]; cbn [try_roots_subgroup].
  - split; [discriminate|]. split; [intros _ ? ? []|reflexivity].
  - destruct (curve_of root p) as [e0|] eqn:C.
    + destruct (Z.eqb_spec (card e0 mod r) 0) as [M|M].
      * apply Z.mod_divide in M; [|lia]. split.
        -- intros e [= <-]. split; [assumption|]. exists root. split; [left; reflexivity|assumption].
        -- split; [discriminate|]. intros H. exfalso. apply (H root e0); [left; reflexivity| |]; assumption.
      * split.
        -- intros e X. apply IH1 in X as (X & root' & I & X2). split; [assumption|]. exists root'. split; [right|]; assumption.
        -- rewrite IH2. split; intros H root' e; [intros [<-|I] E|intros I E; apply (H root' e); [right|]; assumption].
           ++ assert (e0 = e) by congruence. subst. intros D. apply M, Z.mod_divide; [lia|assumption].
           ++ apply (H root' e); assumption.
    + split.
      * intros e X. apply IH1 in X as (X & root' & I & X2). split; [assumption|]. exists root'. split; [right|]; assumption.
      * rewrite IH2. split; intros H root' e; [intros [<-|I] E|intros I E; apply (H root' e); [right|]; assumption].
        -- congruence.
        -- apply (H root' e); assumption.
Qed.
End Subgroup.
Print Assumptions C66_subgroup.
(** The twists are not tried: over 11 elements the curves of both invariants for the discriminant -35 have 15 points; a
    subgroup of order 9 is not found although the twist of the first has 9 points. *)
Theorem C66_twist_refuted : exists r d p e, cm_construct_curve_subgroup ecurve eroots ecurve_of ecard r d p = None /\
  (exists root, In root (eroots d p) /\ ecurve_of root p = Some e) /\ ecard (etwist e) = r.
Proof.
  exists 9, (-35), 11, (11, 8, 5). split; [vm_compute; reflexivity|]. split; [exists 4; vm_compute; auto|vm_compute; reflexivity].
Qed.
Print Assumptions C66_twist_refuted.
Example C66_example : cm_construct_curve_subgroup ecurve eroots ecurve_of ecard 5 (-35) 11 = Some (11, 8, 5) /\ ecard (11, 8, 5) = 15.
Proof. vm_compute. auto. Qed.
