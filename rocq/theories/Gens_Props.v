(** C34-C36, C60: generators, order filters, embedding degree, metadata. *)
From Coq Require Import Znumtheory Sorted.
From Verif Require Import Base Primes Factor Random_Model Subgroup_Model Points_Model Points_Props.
Local Open Scope Z_scope.

(** ** C34 *)
(** What PARI's ellff_get_gens returns for a group of [n] elements: at most two generators,
    the order of the second divides that of the first, the group is their direct product. *)
Definition structure_ok {P} (order : P -> Z) (n : Z) (gens : list P) : Prop :=
  match gens with
  | [] => n = 1
  | [g] => order g = n
  | [g; h] => order g * order h = n /\ (order h | order g)
  | _ => False
  end.

Section Gens.
  Context {P : Type} (inf : P) (mul : P -> Z -> P) (order : P -> Z).
  Hypothesis G : group_ok inf mul order.
  Notation has_order := (order_is inf mul).

  (** generators carry their true order and cofactor, without and with --unique *)
  Theorem C34_labels n gens r l : structure_ok order n gens ->
    (gens_gen_any order n gens = (r, l) \/ (gens_gen_one order n gens [] = (r, l) /\ r = 1)) ->
    r = 1 /\ Forall2 (fun g s => p_point (s_gen s) = g /\ has_order g (p_order (s_gen s)) /\
      exists c, p_cofactor (s_gen s) = Some c /\ c * p_order (s_gen s) = n) gens l.
  Proof.
    intros S H.
    assert (K : gens_gen_any order n gens = (r, l)).
    { destruct H as [H|(H & ->)]; [assumption|]. unfold gens_gen_one in H. destruct (length gens =? 2)%nat; [discriminate|assumption]. }
    clear H. unfold gens_gen_any in K. assert (E1 : 1 = r) by congruence. assert (E2 : map (gens_point order n) gens = l) by congruence.
    subst r l. clear K. split; [reflexivity|].
    assert (D : forall g, In g gens -> (order g | n)).
    { intros g I. destruct gens as [|g1 [|g2 [|]]]; cbn in S; [destruct I| | |destruct S].
      - destruct I as [<-|[]]. rewrite S. apply Z.divide_refl.
      - destruct S as (S & _). destruct I as [<-|[<-|[]]]; rewrite <- S; [apply Z.divide_factor_l|apply Z.divide_factor_r]. }
    clear S. induction gens as [|g gens IH]; [constructor|]. cbn [map]. constructor; [|apply IH; intros; apply D; right; assumption].
    unfold gens_point. cbn [s_gen p_point p_order p_cofactor]. split; [reflexivity|]. split; [apply (order_ok _ _ _ G)|].
    eexists. split; [reflexivity|]. destruct (D g (or_introl eq_refl)) as (q & E). rewrite E.
    destruct (order_ok _ _ _ G g) as (O & _). rewrite Z.quot_mul by lia. reflexivity.
  Qed.

  (** with --unique the only failure is a group that needs two generators *)
  Theorem C34_unique n gens old : structure_ok order n gens ->
    (fst (gens_gen_one order n gens old) = 1 <-> (length gens <= 1)%nat) /\
    (fst (gens_gen_one order n gens old) <> 1 -> gens_gen_one order n gens old = (-5, old)).
  Proof.
    intros S. unfold gens_gen_one. destruct (length gens =? 2)%nat eqn:E; cbn [fst gens_gen_any].
    - apply Nat.eqb_eq in E. split; [|reflexivity]. lia.
    - apply Nat.eqb_neq in E. split; [|lia].
      destruct gens as [|g1 [|g2 [|]]]; cbn in *; [lia|lia|lia|destruct S].
  Qed.

  Lemma order_mul g h r : order g = h * r -> 0 < h -> has_order (mul g h) r.
  Proof.
    intros E Hh. destruct (order_ok _ _ _ G g) as (O1 & O2). rewrite E in *.
    split; [nia|]. intros k. rewrite (mul_mul _ _ _ G), O2. apply Z.mul_divide_cancel_l. lia.
  Qed.

  (** The full claim: the generator produced is the only one, has order N/h, is labelled
      with N/h and h, for every group. What holds: the *first* generator is such a one when
      the group is cyclic or r = N/h (a prime, by C35) does not divide h. *)
  Theorem C34_cofactor_partial h r gens old rc l :
    0 < h -> prime r -> structure_ok order (h * r) gens -> (length gens = 1%nat \/ ~ (r | h)) ->
    gens_gen_cofactor mul order (h * r) h gens old = Ok (rc, l) ->
    (rc = -5 /\ l = old) \/
    (rc = 1 /\ exists s rest, l = s :: rest /\ length rest = length gens /\
       has_order (p_point (s_gen s)) r /\ p_order (s_gen s) = r /\ p_cofactor (s_gen s) = Some h /\
       (exists g k, In g gens /\ p_point (s_gen s) = mul g k)).
  Proof.
    intros Hh Pr S C H. pose proof (prime_ge_2 r Pr) as R2. unfold gens_gen_cofactor in H.
    destruct (h =? 0) eqn:E0; [lia|]. rewrite Z.mul_comm, Z.mod_mul, Z.div_mul in H by lia. cbn [negb Z.eqb] in H.
    destruct (cofactor_point mul order r h gens) as [p|] eqn:Ep; [|left; assert (-5 = rc /\ old = l) as (<- & <-) by (split; congruence); auto].
    right. assert (E1 : 1 = rc) by congruence. split; [auto|]. eexists _, _. split; [symmetry; injection H; intros X _; exact X|].
    rewrite map_length. split; [reflexivity|]. cbn [s_gen]. clear H E1 rc l old E0.
    assert (K : has_order (p_point p) r /\ p_order p = r /\ p_cofactor p = Some h /\ exists g k, In g gens /\ p_point p = mul g k); [|exact K].
    assert (Pos : forall g, 0 < order g) by (intros g; apply (order_ok _ _ _ G g)).
    assert (Step : forall g, In g gens -> order g = r \/ (exists m, order g = h * m) -> (forall m, order g <> r -> order g = h * m -> m = r) ->
      forall q, (if r =? order g then Some (mkPoint g (order g) (Some h))
        else if order g mod h =? 0 then Some (mkPoint (mul g h) (order g / h) (Some h)) else None) = Some q ->
      has_order (p_point q) r /\ p_order q = r /\ p_cofactor q = Some h /\ exists g k, In g gens /\ p_point q = mul g k).
    { intros g I _ M q E. destruct (r =? order g) eqn:E1.
      - apply Z.eqb_eq in E1. injection E as <-. cbn [p_point p_order p_cofactor]. split; [rewrite E1; apply (order_ok _ _ _ G)|].
        split; [auto|]. split; [reflexivity|]. exists g, 1. split; [assumption|]. symmetry. apply (mul_1 _ _ _ G).
      - apply Z.eqb_neq in E1. destruct (order g mod h =? 0) eqn:E2; [|discriminate]. apply Z.eqb_eq in E2.
        apply Z.mod_divide in E2; [|lia]. destruct E2 as (m & Em).
        assert (m = r) by (apply M; [congruence|rewrite Em; ring]). subst m. injection E as <-. cbn [p_point p_order p_cofactor].
        split; [apply order_mul; [rewrite Em; ring|assumption]|]. split; [rewrite Em, Z.div_mul by lia; reflexivity|].
        split; [reflexivity|]. exists g, h. auto. }
    destruct gens as [|g1 [|g2 [|]]]; cbn in S; [discriminate Ep| | |destruct S].
    - (* cyclic *)
      cbn [cofactor_point] in Ep. apply (Step g1 (or_introl eq_refl)); [right; exists r; assumption| |].
      + intros m _ E. apply Z.mul_cancel_l with h; lia.
      + destruct (r =? order g1); [assumption|]. destruct (order g1 mod h =? 0); assumption.
    - destruct C as [C|C]; [discriminate C|]. destruct S as (S & D). cbn [cofactor_point] in Ep.
      assert (R1 : ~ (r | order g2)).
      { intros X. apply C. assert (X1 : (r * r | h * r)).
        { rewrite <- S. apply Z.mul_divide_mono_l with (p := r) in X as X2. destruct X as (x & Ex). destruct D as (d & Ed).
          rewrite Ed, Ex. exists (d * x * x). ring. }
        apply Z.mul_divide_cancel_r in X1; [assumption|lia]. }
      assert (M1 : forall m, order g1 <> r -> order g1 = h * m -> m = r).
      { intros m _ E. assert (E2 : m * order g2 = r) by (pose proof (Pos g2); nia).
        assert (D2 : (order g2 | r)) by (exists m; lia).
        pose proof (Pos g2) as P2.
        assert (Y : order g2 = 1 \/ order g2 = r) by (destruct (prime_divisors r Pr (order g2) D2) as [X|[X|[X|X]]]; lia).
        destruct Y as [X|X]; [rewrite X in E2; lia|].
        exfalso. apply R1. rewrite X. apply Z.divide_refl. }
      destruct (r =? order g1) eqn:E1.
      + apply (Step g1 (or_introl eq_refl)); [left; apply Z.eqb_eq in E1; auto|assumption|rewrite E1; assumption].
      + destruct (order g1 mod h =? 0) eqn:E2.
        * apply (Step g1 (or_introl eq_refl)); [|assumption|rewrite E1, E2; assumption].
          right. apply Z.eqb_eq in E2. apply Z.mod_divide in E2; [|lia]. destruct E2 as (m & Em). exists m. lia.
        * apply Z.eqb_neq in E1, E2. destruct (r =? order g2) eqn:E3.
          { exfalso. apply R1. apply Z.eqb_eq in E3. rewrite E3. apply Z.divide_refl. }
          destruct (order g2 mod h =? 0) eqn:E4; [exfalso|discriminate].
          apply Z.eqb_eq in E4. apply Z.mod_divide in E4; [|lia]. apply E2. apply Z.mod_divide; [lia|].
          apply Z.divide_trans with (order g2); assumption.
  Qed.
End Gens.

(** Z/n x Z/m *)
Definition prod_mul n m (Hn : 0 < n) (Hm : 0 < m) (p : res_of n * res_of m) (k : Z) : res_of n * res_of m :=
  (res_mul n Hn (fst p) k, res_mul m Hm (snd p) k).
Definition prod_order n m (p : res_of n * res_of m) : Z := Z.lcm (res_order n (fst p)) (res_order m (snd p)).

Lemma prod_group n m Hn Hm : group_ok (in_res n Hn 0, in_res m Hm 0) (prod_mul n m Hn Hm) (prod_order n m).
Proof.
  pose proof (res_group n Hn) as [A1 A2 A3]. pose proof (res_group m Hm) as [B1 B2 B3]. constructor.
  - intros (p, q) a b. unfold prod_mul. cbn [fst snd]. rewrite A1, B1. reflexivity.
  - intros (p, q). unfold prod_mul. cbn [fst snd]. rewrite A2, B2. reflexivity.
  - intros (p, q). destruct (A3 p) as (P1 & P2), (B3 q) as (Q1 & Q2). unfold prod_order, prod_mul. cbn [fst snd]. split.
    + pose proof (Z.lcm_nonneg (res_order n p) (res_order m q)).
      destruct (Z.eq_dec (Z.lcm (res_order n p) (res_order m q)) 0) as [E|]; [|lia]. apply Z.lcm_eq_0 in E. lia.
    + intros k. rewrite Z.lcm_divide_iff, <- P2, <- Q2. split; [intros [= E1 E2]|intros (E1 & E2); apply f_equal2; [exact E1|exact E2]].
      split; apply res_eq; cbn; assumption.
Qed.

Definition H4 : 0 < 4 := eq_refl.
Definition H2 : 0 < 2 := eq_refl.
Definition G42 := (res_of 4 * res_of 2)%type.
Definition gens42 : list G42 := [(in_res 4 H4 1, in_res 2 H2 0); (in_res 4 H4 0, in_res 2 H2 1)].

(** C34 fails on a group Z/4 x Z/2 with the cofactor 4: the generator is the point at
    infinity, labelled 1 instead of 2. *)
Theorem C34_order_refuted : exists (P : Type) (inf : P) (mul : P -> Z -> P) (order : P -> Z) h r gens s rest,
  group_ok inf mul order /\ 0 < h /\ prime r /\ structure_ok order (h * r) gens /\
  gens_gen_cofactor mul order (h * r) h gens [] = Ok (1, s :: rest) /\
  p_point (s_gen s) = inf /\ p_order (s_gen s) <> r.
Proof.
  eexists G42, _, (prod_mul 4 2 H4 H2), (prod_order 4 2), 4, 2, gens42, _, _.
  split; [apply prod_group|]. split; [lia|]. split; [exact prime_2|]. split.
  - cbn [structure_ok gens42]. split; [vm_compute; reflexivity|]. exists 2. vm_compute. reflexivity.
  - split; [reflexivity|]. split.
    + cbn [s_gen p_point]; unfold prod_mul; apply f_equal2; apply res_eq; vm_compute; reflexivity.
    + vm_compute. discriminate.
Qed.

(** C34 fails even on a cyclic group as far as "the single generator" goes: the generators
    of the whole group are appended. Z/6 with the cofactor 2. *)
Definition H6 : 0 < 6 := eq_refl.
Theorem C34_single_refuted : exists (P : Type) (inf : P) (mul : P -> Z -> P) (order : P -> Z) h r gens l,
  group_ok inf mul order /\ 0 < h /\ prime r /\ structure_ok order (h * r) gens /\ ~ (r | h) /\
  gens_gen_cofactor mul order (h * r) h gens [] = Ok (1, l) /\ length l = 2%nat.
Proof.
  eexists (res_of 6), _, (res_mul 6 H6), (res_order 6), 2, 3, [in_res 6 H6 1], _.
  split; [apply res_group|]. split; [lia|]. split; [exact prime_3|]. split; [vm_compute; reflexivity|].
  split; [intros D; apply Z.divide_pos_le in D; lia|]. split; [reflexivity|]. reflexivity.
Qed.

Example C34_case :
  match gens_gen_cofactor (res_mul 6 H6) (res_order 6) 6 2 [in_res 6 H6 1] [] with
  | Ok (1, s :: _) => Some (proj1_sig (p_point (s_gen s)), p_order (s_gen s), p_cofactor (s_gen s))
  | _ => None
  end = Some (2, 3, Some 2).
Proof. vm_compute. reflexivity. Qed.

(** ** C35 *)
Section Order.
  Context (isprime : Z -> bool) (factor : Z -> list (Z * Z)).
  Hypothesis isprime_ok : forall n, isprime n = true <-> prime n.
  Hypothesis factor_ok : forall n, 0 < n -> factorization n (factor n).

  (** -4 leads from the order stage (5) to the field stage (1), see C22 *)
  Definition accepts (r : Z * option Z) (card : Z) (b : Prop) : Prop :=
    (b /\ r = (1, Some card)) \/ (~ b /\ r = (-4, None)).

  (** ellsea(curve, 1) returns the order or, for an order that is not a prime, possibly 0 *)
  Theorem C35_prime card sea : 0 < card -> sea = card \/ (sea = 0 /\ ~ prime card) ->
    accepts (order_gen_prime isprime sea) card (prime card).
  Proof.
    intros H S. unfold accepts, order_gen_prime. destruct S as [->|(-> & N)]; [|right; auto].
    destruct (card =? 0) eqn:E; [lia|]. cbn [orb]. destruct (isprime card) eqn:I; cbn [negb].
    - left. split; [apply isprime_ok; assumption|reflexivity].
    - right. split; [|reflexivity]. intros C. apply isprime_ok in C. congruence.
  Qed.

  (** whatever else ellsea does, only primes are accepted *)
  Theorem C35_prime_sound sea n : order_gen_prime isprime sea = (1, Some n) -> n = sea /\ prime n.
  Proof.
    unfold order_gen_prime. destruct (sea =? 0); [discriminate|]. cbn [orb]. destruct (isprime sea) eqn:I; [|discriminate].
    cbn [negb]. intros [= <-]. split; [reflexivity|]. apply isprime_ok. assumption.
  Qed.

  (** [h]: the cofactor given; a negative one counts as 2^64 more *)
  Theorem C35_cofactor h card : 0 < card -> - 2 ^ 63 <= h < 2 ^ 63 ->
    accepts (order_gen_cofactor isprime h card) card
      (exists r, prime r /\ card = (if h <? 0 then h + 2 ^ 64 else h) * r).
  Proof.
    intros H Hh. unfold order_gen_cofactor, accepts. cbv zeta.
    replace (u64 h) with (if h <? 0 then h + 2 ^ 64 else h).
    2: { unfold u64. destruct (h <? 0) eqn:E; [|symmetry; apply Z.mod_small; lia].
         rewrite <- (Z.mod_small (h + 2 ^ 64) (2 ^ 64)) by lia. rewrite <- Zplus_mod_idemp_r, Z_mod_same_full, Z.add_0_r. reflexivity. }
    set (c := if h <? 0 then h + 2 ^ 64 else h). assert (Hc : 0 <= c) by (unfold c; destruct (h <? 0) eqn:E; lia).
    clearbody c. unfold dvdii. destruct (c =? 0) eqn:E0.
    - apply Z.eqb_eq in E0. subst c. destruct (card =? 0) eqn:E1; [lia|]. right. split; [|reflexivity].
      intros (r & _ & C). lia.
    - apply Z.eqb_neq in E0. destruct (card mod c =? 0) eqn:E1; cbn [negb].
      + apply Z.eqb_eq in E1. apply Z.mod_divide in E1; [|assumption]. destruct E1 as (r & Er).
        rewrite Er, Z.div_mul by assumption. destruct (isprime r) eqn:I; cbn [negb].
        * left. split; [|reflexivity]. exists r. split; [apply isprime_ok; assumption|ring].
        * right. split; [|reflexivity]. intros (r' & P' & E'). assert (r = r') by (apply Z.mul_cancel_l with c; [assumption|lia]).
          subst r'. apply isprime_ok in P'. congruence.
      + apply Z.eqb_neq in E1. right. split; [|reflexivity]. intros (r & P' & E'). apply E1. apply Z.mod_divide; [assumption|].
        exists r. rewrite E'. ring.
  Qed.

  (** [k]: the number of bits given; p has at most k bits when p < 2^k *)
  Theorem C35_smooth k card : 0 < card -> Z.log2 card < 2 ^ 63 -> 0 <= k < 2 ^ 63 ->
    accepts (order_gen_smooth factor k card) card (forall p, prime p -> (p | card) -> p < 2 ^ k).
  Proof.
    intros H Hs Hk. unfold order_gen_smooth, accepts. cbv zeta. rewrite (u64_small k) by lia.
    destruct (factorization_divisors card (factor card) (factor_ok card H)) as (_ & F).
    assert (K : forall p, prime p -> (p | card) -> (k <? u64 (bitlen p)) = negb (p <? 2 ^ k)).
    { intros p Pp D. pose proof (prime_ge_2 p Pp) as P2.
      assert (Lp : p <= card) by (apply Z.divide_pos_le; assumption).
      assert (B0 : 0 <= Z.log2 p) by apply Z.log2_nonneg.
      assert (B1 : Z.log2 p < 2 ^ 63) by (pose proof (Z.log2_le_mono p card Lp); lia).
      unfold bitlen. rewrite u64_small by lia.
      destruct (p <? 2 ^ k) eqn:E; cbn [negb].
      - apply Z.ltb_lt in E. apply Z.log2_lt_pow2 in E; [|lia]. lia.
      - apply Z.ltb_ge in E. apply Z.log2_le_pow2 in E; [|lia]. lia. }
    destruct (existsb _ (factor card)) eqn:E.
    - right. split; [|reflexivity]. apply existsb_exists in E. destruct E as ((p, e) & I & B). cbn [fst] in B.
      intros C. assert (X : In p (map fst (factor card))) by (apply in_map_iff; exists (p, e); auto).
      apply F in X. destruct X as (X1 & X2). rewrite (K p X1 X2) in B. specialize (C p X1 X2). lia.
    - left. split; [|reflexivity]. intros p Pp D. destruct (p <? 2 ^ k) eqn:L; [lia|exfalso].
      assert (X : In p (map fst (factor card))) by (apply F; auto).
      apply in_map_iff in X. destruct X as ((p', e) & <- & I). cbn [fst] in *.
      assert (existsb (fun pe => k <? u64 (bitlen (fst pe))) (factor card) = true); [|congruence].
      apply existsb_exists. exists (p', e). split; [assumption|]. cbn [fst]. rewrite (K p' Pp D), L. reflexivity.
  Qed.
End Order.

Example C35_case :
  order_gen_prime isprime_b 101 = (1, Some 101) /\ order_gen_prime isprime_b 0 = (-4, None) /\
  order_gen_cofactor isprime_b 4 404 = (1, Some 404) /\ order_gen_cofactor isprime_b 2 404 = (-4, None) /\
  order_gen_smooth tfactor 3 105 = (1, Some 105) /\ order_gen_smooth tfactor 3 110 = (-4, None).
Proof. vm_compute. auto 6. Qed.

(** ** C36 *)
(** the least k >= 1 with n | q^k - 1 *)
Definition embedding_degree (q n k : Z) : Prop :=
  1 <= k /\ (n | q ^ k - 1) /\ forall j, 1 <= j < k -> ~ (n | q ^ j - 1).

(** Full claim: for every q and n. PARI's znorder raises an error when q and n have a common
    factor, which stops the program (see C36_noncoprime_refuted). *)
Theorem C36_embedding_partial znorder q n : 0 < n ->
  (Z.gcd q n = 1 -> embedding_degree q n (znorder q n)) ->
  (q = n -> gens_get_embedding znorder q n = Ok 0) /\
  (q <> n -> Z.gcd q n = 1 -> exists k, gens_get_embedding znorder q n = Ok k /\ embedding_degree q n k) /\
  (q <> n -> Z.gcd q n <> 1 -> gens_get_embedding znorder q n = Abort).
Proof.
  intros H Zn. unfold gens_get_embedding. destruct (q =? n) eqn:E.
  - apply Z.eqb_eq in E. tauto.
  - apply Z.eqb_neq in E. destruct (Z.gcd q n =? 1) eqn:E1.
    + apply Z.eqb_eq in E1. split; [tauto|]. split; [|tauto]. eauto.
    + apply Z.eqb_neq in E1. tauto.
Qed.

(** the curve y^2 = x^3 + 3x over the field of 5 elements has 10 points *)
Definition count_points (p a b : Z) : Z :=
  1 + Z.of_nat (length (filter (fun xy => let '(x, y) := xy in (y * y - (x * x * x + a * x + b)) mod p =? 0)
    (list_prod (map Z.of_nat (seq 0 (Z.to_nat p))) (map Z.of_nat (seq 0 (Z.to_nat p)))))).
Theorem C36_noncoprime_refuted : exists q n a b,
  prime q /\ count_points q a b = n /\ (4 * a ^ 3 + 27 * b ^ 2) mod q <> 0 /\ q <> n /\
  forall znorder, gens_get_embedding znorder q n = Abort.
Proof.
  exists 5, 10, 3, 0. split; [apply isprime_b_ok; reflexivity|]. split; [vm_compute; reflexivity|].
  split; [vm_compute; discriminate|]. split; [lia|]. reflexivity.
Qed.

Theorem C36_anomalous (P : Type) p (gens : list (subgroup_t P)) :
  (gens_check_anomalous false p gens = -5 <-> exists s, In s gens /\ p_order (s_gen s) = p) /\
  (gens_check_anomalous false p gens = 1 <-> forall s, In s gens -> p_order (s_gen s) <> p) /\
  gens_check_anomalous true p gens = 1.
Proof.
  unfold gens_check_anomalous. destruct (existsb _ gens) eqn:E.
  - apply existsb_exists in E. destruct E as (s & I & B). apply Z.eqb_eq in B. split; [|split; [|reflexivity]].
    + split; [eauto|reflexivity].
    + split; [discriminate|]. intros C. destruct (C s I). auto.
  - assert (N : forall s, In s gens -> p_order (s_gen s) <> p).
    { intros s I C. assert (existsb (fun sub => p =? p_order (s_gen sub)) gens = true); [|congruence].
      apply existsb_exists. exists s. split; [assumption|]. apply Z.eqb_eq. auto. }
    split; [|split; [|reflexivity]].
    + split; [discriminate|]. intros (s & I & C). destruct (N s I C).
    + tauto.
Qed.

(** the check of a minimal embedding degree *)
Theorem C36_check_embedding (P : Type) znorder p mind (gens : list (subgroup_t P)) :
  (forall s, In s gens -> p_order (s_gen s) = p \/ embedding_degree p (p_order (s_gen s)) (znorder p (p_order (s_gen s)))) ->
  (forall s, In s gens -> p_order (s_gen s) = p \/ Z.gcd p (p_order (s_gen s)) = 1) -> 0 <= mind ->
  (gens_check_embedding znorder false p mind gens = Ok 1 <->
   forall s, In s gens -> p_order (s_gen s) <> p /\ forall k, 1 <= k <= mind -> ~ (p_order (s_gen s) | p ^ k - 1)) /\
  (gens_check_embedding znorder false p mind gens = Ok 1 \/ gens_check_embedding znorder false p mind gens = Ok (-5)).
Proof.
  intros Zn Co Hm. unfold gens_check_embedding. induction gens as [|s gens IH]; cbn [embedding_loop].
  - split; [|auto]. split; [intros _ s []|reflexivity].
  - specialize (IH ltac:(intros; apply Zn; right; assumption) ltac:(intros; apply Co; right; assumption)).
    unfold gens_get_embedding. destruct (p =? p_order (s_gen s)) eqn:E.
    + apply Z.eqb_eq in E. cbn [bind]. destruct (0 <=? mind) eqn:E0; [|lia]. split; [|auto]. split; [discriminate|].
      intros C. destruct (C s (or_introl eq_refl)) as (C1 & _). congruence.
    + apply Z.eqb_neq in E. destruct (Co s (or_introl eq_refl)) as [C|C]; [congruence|]. rewrite C, Z.eqb_refl. cbn [bind].
      destruct (Zn s (or_introl eq_refl)) as [Z1|(Z1 & Z2 & Z3)]; [congruence|].
      destruct (znorder p (p_order (s_gen s)) <=? mind) eqn:E1.
      * split; [|auto]. split; [discriminate|]. intros X. destruct (X s (or_introl eq_refl)) as (_ & X2).
        destruct (X2 (znorder p (p_order (s_gen s)))); [lia|assumption].
      * destruct IH as (IH1 & IH2). split; [|assumption]. rewrite IH1. split.
        -- intros X s' [<-|I]; [|auto]. split; [congruence|]. intros k Hk. apply Z3. lia.
        -- intros X s' I. apply X. right. assumption.
Qed.

Example C36_case : gens_get_embedding (fun _ _ => 3) 11 7 = Ok 3 /\ embedding_degree 11 7 3.
Proof.
  split; [reflexivity|]. split; [lia|]. split; [exists 190; reflexivity|].
  intros j Hj D. assert (j = 1 \/ j = 2) as [-> | ->] by lia; apply Z.mod_divide in D; try lia; discriminate D.
Qed.

(** ** C60 *)
(** fundamental discriminants *)
Definition squarefree (d : Z) : Prop := forall k, 1 < k -> ~ (k * k | d).
Definition fundamental (d : Z) : Prop :=
  (d mod 4 = 1 /\ squarefree d) \/
  (exists m, d = 4 * m /\ squarefree m /\ (m mod 4 = 2 \/ m mod 4 = 3)).

(** coredisc2(x) of PARI for x = 0, 1 mod 4 *)
Definition coredisc2_ok (coredisc2 : Z -> Z * Z) : Prop :=
  forall x, x <> 0 -> x mod 4 = 0 \/ x mod 4 = 1 ->
    let (d, f) := coredisc2 x in x = d * f ^ 2 /\ fundamental d /\ 0 < f.

(** Within Hasse's bound (t^2 < 4q, what the order of a curve always is; t^2 <> 4q suffices). *)
Theorem C60_prime_field znorder coredisc2 q n j disc :
  coredisc2_ok coredisc2 -> Z.gcd q n = 1 \/ q = n -> (q + 1 - n) ^ 2 <> 4 * q ->
  exists m, metadata_gen znorder coredisc2 false q n j disc = Ok m /\ m_j m = j /\ m_disc m = disc /\
    m_frobenius m = q + 1 - n /\
    exists d f, m_cm_disc m = Some d /\ m_conductor m = Some f /\
      (m_frobenius m) ^ 2 - 4 * q = d * f ^ 2 /\ fundamental d /\ 0 < f.
Proof.
  intros C G H. unfold metadata_gen, gens_get_embedding.
  assert (E : exists k, (if q =? n then Ok 0 else if Z.gcd q n =? 1 then Ok (znorder q n) else Abort) = Ok k).
  { destruct (q =? n) eqn:E; [eauto|]. apply Z.eqb_neq in E. destruct G as [G|G]; [|congruence]. rewrite G. cbn. eauto. }
  destruct E as (k & ->). cbn [bind]. cbv zeta.
  set (t := q + 1 - n) in *. specialize (C (t * t - 4 * q)).
  destruct (coredisc2 (t * t - 4 * q)) as (d, f). destruct C as (C1 & C2 & C3).
  - rewrite Z.pow_2_r in H. lia.
  - clear. replace (t * t - 4 * q) with (t * t + (- q) * 4) by ring. rewrite Z_mod_plus_full.
    rewrite Zmult_mod. pose proof (Z.mod_pos_bound t 4 ltac:(lia)).
    assert (t mod 4 = 0 \/ t mod 4 = 1 \/ t mod 4 = 2 \/ t mod 4 = 3) as [E|[E|[E|E]]] by lia; rewrite E; cbn; auto.
  - eexists. split; [reflexivity|]. cbn [m_j m_disc m_frobenius m_cm_disc m_conductor]. repeat (split; [reflexivity|]). exists d, f.
    repeat (split; [reflexivity|]). split; [|auto]. rewrite <- C1. ring.
Qed.

Theorem C60_binary_field znorder coredisc2 m n j disc : 0 <= m ->
  exists x, metadata_gen znorder coredisc2 true m n j disc = Ok x /\ m_j x = j /\ m_frobenius x = 2 ^ m + 1 - n /\
    m_cm_disc x = None /\ m_conductor x = None /\ m_embedding x = None.
Proof.
  intros H. eexists. split; [reflexivity|]. cbn [m_j m_frobenius m_cm_disc m_conductor m_embedding].
  unfold int2n. destruct (m <? 0) eqn:E; [lia|]. auto 6.
Qed.

(** y^2 = x^3 + 3x over 5 elements again: with metadata requested the program stops. *)
Theorem C60_noncoprime_refuted : exists q n a b,
  prime q /\ count_points q a b = n /\ (4 * a ^ 3 + 27 * b ^ 2) mod q <> 0 /\
  forall znorder coredisc2 j disc, metadata_gen znorder coredisc2 false q n j disc = Abort.
Proof.
  exists 5, 10, 3, 0. split; [apply isprime_b_ok; reflexivity|]. split; [vm_compute; reflexivity|].
  split; [vm_compute; discriminate|]. reflexivity.
Qed.

(** 23 and 24 points: t = 0, t^2 - 4q = -92 = -23 * 2^2 *)
Example C60_case : metadata_gen (fun _ _ => 2) (fun x => if x =? -92 then (-23, 2) else (x, 1)) false 23 24 5 7 =
    Ok (mkMeta 5 7 (Some 2) 0 (Some (-23)) (Some 2)) /\ fundamental (-23).
Proof.
  split; [reflexivity|]. left. split; [reflexivity|]. intros k Hk D.
  assert (k * k <= 23) by (apply Z.divide_pos_le; [lia|]; apply Z.divide_opp_r in D; exact D).
  destruct D as (c & E). assert (k < 5) by nia.
  assert (k = 2 \/ k = 3 \/ k = 4) as [->|[->| ->]] by lia; lia.
Qed.

Print Assumptions C34_labels.
Print Assumptions C34_unique.
Print Assumptions C34_cofactor_partial.
Print Assumptions C34_order_refuted.
Print Assumptions C34_single_refuted.
Print Assumptions C35_prime.
Print Assumptions C35_prime_sound.
Print Assumptions C35_cofactor.
Print Assumptions C35_smooth.
Print Assumptions C36_embedding_partial.
Print Assumptions C36_noncoprime_refuted.
Print Assumptions C36_anomalous.
Print Assumptions C36_check_embedding.
Print Assumptions C60_prime_field.
Print Assumptions C60_binary_field.
Print Assumptions C60_noncoprime_refuted.
