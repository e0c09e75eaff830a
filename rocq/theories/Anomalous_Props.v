(** C48: the field and the curve of the anomalous method. *)
From Coq Require Import Znumtheory.
From Verif Require Import Base Primes Fp Supersingular_Model Supersingular_Props Anomalous_Model.
Local Open Scope Z_scope.

Definition isprime_ok (isprime : Z -> bool) : Prop := forall n, isprime n = true <-> prime n.
(** the number of bits of a positive integer is exactly n *)
Definition has_bits (p n : Z) : Prop := 2 ^ (n - 1) <= p < 2 ^ n.

(** ** Bounds *)
Lemma entry_used : exists e, entry used = Ok e /\ disc_d e = 163 /\ disc_j e = - 640320 ^ 3 /\ disc_alpha e = 2 * 3 * 5 * 7 * 11 * 19 * 23 * 29 * 127.
Proof. eexists. split; [reflexivity|]. split; [reflexivity|]. split; reflexivity. Qed.

Lemma lower_bound_ok d bits b : 0 <= lower_of d bits -> lower_bound d bits <= b -> 0 <= b -> lower_of d bits <= b * (b + 1).
Proof.
  intros L H B. unfold lower_bound in H. set (s := lower_of d bits) in *. pose proof (Z.sqrt_up_spec (s * 4 + 1)) as S.
  set (r := Z.sqrt_up (s * 4 + 1)) in *. pose proof (Z.div_mod r 2 ltac:(lia)). pose proof (Z.mod_pos_bound r 2 ltac:(lia)).
  destruct (Z.eq_dec s 0) as [E|E]; [rewrite E; nia|]. specialize (S ltac:(lia)). assert (r <= 2 * b + 1) by lia. assert (0 <= r) by (apply Z.sqrt_up_nonneg). assert (r * r <= (2 * b + 1) * (2 * b + 1)) by (apply Z.mul_le_mono_nonneg; lia). lia.
Qed.
Lemma upper_bound_ok d bits b : 0 <= upper_of d bits -> 0 <= b -> b <= upper_bound d bits -> b * (b + 1) <= upper_of d bits.
Proof.
  intros L B H. unfold upper_bound in H. set (s := upper_of d bits) in *. pose proof (Z.sqrt_spec (s * 4 + 1) ltac:(lia)) as S.
  set (r := Z.sqrt (s * 4 + 1)) in *. pose proof (Z.div_mod (r - 1) 2 ltac:(lia)). pose proof (Z.mod_pos_bound (r - 1) 2 ltac:(lia)).
  cbv zeta in S. assert (2 * b + 1 <= r) by lia. assert ((2 * b + 1) * (2 * b + 1) <= r * r) by (apply Z.mul_le_mono_nonneg; lia). lia.
Qed.
Lemma lower_bound_nonneg d bits : 0 <= lower_bound d bits.
Proof. unfold lower_bound. apply Z.div_pos; [apply Z.sqrt_up_nonneg|lia]. Qed.
Lemma quot_pos x : 0 <= x -> 163 * (x ÷ 163) <= x < 163 * (x ÷ 163) + 163 /\ 0 <= x ÷ 163.
Proof. intros H. rewrite Z.quot_div_nonneg by lia. pose proof (Z.div_mod x 163 ltac:(lia)). pose proof (Z.mod_pos_bound x 163 ltac:(lia)). pose proof (Z.div_pos x 163 ltac:(lia) ltac:(lia)). lia. Qed.
Lemma pow_6 n : 6 <= n -> 2 * 2 ^ (n - 1) = 2 ^ n /\ 32 <= 2 ^ (n - 1).
Proof.
  intros H. split; [replace n with (Z.succ (n - 1)) at 2 by lia; now rewrite Z.pow_succ_r by lia|].
  change 32 with (2 ^ 5). apply Z.pow_le_mono_r; lia.
Qed.
Lemma bounds_6 bits : 6 <= bits -> 0 <= lower_of 163 bits /\ 2 ^ (bits - 1) - 41 - 163 < 163 * lower_of 163 bits /\
  0 <= upper_of 163 bits /\ 163 * upper_of 163 bits <= 2 ^ bits - 41.
Proof.
  intros H. destruct (pow_6 bits H) as [P1 P2]. unfold lower_of, upper_of, last_of. change ((163 + 1) ÷ 4) with 41.
  destruct (quot_pos (2 ^ bits - 41) ltac:(lia)) as [Q1 Q2]. split; [|split; [|split; [exact Q2|lia]]].
  - destruct (Z.eq_dec bits 6) as [->|]; [now vm_compute|]. assert (64 <= 2 ^ (bits - 1)) by (change 64 with (2 ^ 6); apply Z.pow_le_mono_r; lia).
    apply quot_pos. lia.
  - destruct (Z.eq_dec bits 6) as [->|]; [now vm_compute|]. assert (64 <= 2 ^ (bits - 1)) by (change 64 with (2 ^ 6); apply Z.pow_le_mono_r; lia).
    destruct (quot_pos (2 ^ (bits - 1) - 41) ltac:(lia)). lia.
Qed.

(** ** The prime *)
Lemma prime_loop_ok isprime d lo hi : forall tape p rest, prime_loop isprime d lo hi tape = Ok (p, rest) ->
  isprime p = true /\ exists b, lo <= b <= hi /\ p = d * (b * (b + 1)) + last_of d.
Proof.
  induction tape as [|t tape IH]; intros p rest H; cbn [prime_loop] in H; [discriminate|].
  unfold pick in H. destruct (Z.ltb_spec hi lo) as [L|L]; cbn [bind] in H; [discriminate|].
  set (b := lo + t mod (hi - lo + 1)) in *. destruct (isprime (d * b * b + d * b + last_of d)) eqn:E; [|exact (IH _ _ H)].
  assert (E2 : p = d * b * b + d * b + last_of d) by congruence. clear H. rewrite E2. split; [exact E|]. exists b. split; [|ring].
  pose proof (Z.mod_pos_bound t (hi - lo + 1) ltac:(lia)). unfold b. lia.
Qed.
Lemma anomalous_prime_ok isprime bits tape p rest : anomalous_prime isprime used bits tape = Ok (p, rest) ->
  isprime p = true /\ exists b, lower_bound 163 bits <= b <= upper_bound 163 bits /\ 0 <= b /\ p = 163 * (b * (b + 1)) + 41.
Proof.
  intros H. unfold anomalous_prime in H. destruct entry_used as (e & E & D & _). rewrite E in H. cbn [bind] in H. rewrite D in H.
  apply prime_loop_ok in H. destruct H as (H1 & b & H2 & H3). split; [exact H1|]. exists b. split; [exact H2|]. split; [pose proof (lower_bound_nonneg 163 bits); lia|exact H3].
Qed.

(** the primes of the form *)
Lemma form_large b : 0 <= b -> 163 * (b * (b + 1)) + 41 = 41 \/ 163 < 163 * (b * (b + 1)) + 41.
Proof. intros B. destruct (Z.eq_dec b 0) as [->|]; [left; reflexivity|right; nia]. Qed.
Definition of_form (p : Z) : Prop := p = 41 \/ 163 < p.
Lemma form_not_divide p c l : prime p -> of_form p -> forallb (fun q => (0 <? q) && (q <=? 163) && negb (q mod 41 =? 0)) l = true -> c = fold_right Z.mul 1 l -> ~ (p | c).
Proof.
  intros P F L ->. apply (product_unit p P). intros q Q D. rewrite forallb_forall in L. specialize (L q Q). rewrite !andb_true_iff, negb_true_iff, Z.ltb_lt, Z.leb_le, Z.eqb_neq in L.
  destruct L as [[L1 L2] L3]. destruct F as [->|F]; [apply L3, Z.mod_divide; [lia|exact D]|]. apply Z.divide_pos_le in D; lia.
Qed.

Lemma gen_field_ok isprime kronecker fuel bits : forall tape p rest, gen_field isprime kronecker fuel used bits tape = Ok (p, rest) ->
  exists tape' rest', anomalous_prime isprime used bits tape' = Ok (p, rest').
Proof.
  induction fuel as [|fuel IH]; intros tape p rest H; cbn [gen_field] in H; [discriminate|].
  destruct (anomalous_prime isprime used bits tape) as [[q r]| | |] eqn:E; cbn [bind] in H; try discriminate.
  destruct (entry 0); cbn [bind] in H; try discriminate. destruct (_ =? 0); [exact (IH _ _ _ H)|].
  exists tape, r. rewrite E. congruence.
Qed.

(** ** When the prime has a bit less *)
Definition residues (q : Z) : list Z := map (fun x => (163 * (x * x)) mod q) (elements q).
Definition excluded (r : Z) (e : Z * list Z * Z) : bool := let '(q, R, w) := e in negb (existsb (Z.eqb ((4 * (w - r) - 1) mod q)) R).
Definition double (e : Z * list Z * Z) : Z * list Z * Z := let '(q, R, w) := e in (q, R, (2 * w) mod q).
Definition exceptional (i : Z) : bool := existsb (Z.eqb i) [6; 7; 9; 10; 11].
Fixpoint covered (n : nat) (i w163 : Z) (st : list (Z * list Z * Z)) : bool :=
  match n with
  | O => true
  | S n => (let r := (w163 - 41) mod 163 in (r =? 0) || exceptional i || existsb (excluded r) st) && covered n (i + 1) ((2 * w163) mod 163) (map double st)
  end.
Definition period : Z := 1620.
Definition moduli : list Z := [73; 151; 41; 181; 31; 61; 5; 13; 11; 3].
Definition start (i : Z) : list (Z * list Z * Z) := map (fun q => (q, residues q, 2 ^ i mod q)) moduli.
Lemma covered_all : covered (Z.to_nat period) 0 1 (start 0) = true. Proof. vm_compute. reflexivity. Qed.
Lemma moduli_period : forallb (fun q => (1 <? q) && ((2 ^ period) mod q =? 1)) (163 :: moduli) = true. Proof. vm_compute. reflexivity. Qed.

Lemma excluded_ok q i r : In q moduli -> excluded r (q, residues q, 2 ^ i mod q) = true -> forall m, (163 * (m * m)) mod q <> (4 * (2 ^ i - r) - 1) mod q.
Proof.
  intros Q H m E. unfold excluded in H. apply negb_true_iff in H. enough (T : true = false) by discriminate T. rewrite <- H. symmetry.
  assert (q > 1). { pose proof moduli_period as P. rewrite forallb_forall in P. specialize (P q (or_intror Q)). lia. }
  apply existsb_exists. exists ((163 * ((m mod q) * (m mod q))) mod q). split.
  - unfold residues. apply in_map_iff. exists (m mod q). split; [reflexivity|]. apply in_elements. apply Z.mod_pos_bound. lia.
  - apply Z.eqb_eq. rewrite <- (Zmult_mod_idemp_r (m mod q * (m mod q))), <- (Zmult_mod m m q), Zmult_mod_idemp_r, E.
    apply (f_equal (fun z => z mod q)) in E. rewrite !(Zminus_mod _ 1 q). f_equal. f_equal.
    rewrite <- (Zmult_mod_idemp_r (2 ^ i mod q - r) 4 q), <- (Zmult_mod_idemp_r (2 ^ i - r) 4 q). f_equal. f_equal. now rewrite Zminus_mod_idemp_l.
Qed.
Lemma covered_ok n : forall i, 0 <= i -> covered n i (2 ^ i mod 163) (start i) = true -> forall k, i <= k < i + Z.of_nat n ->
  let r := (2 ^ k - 41) mod 163 in r = 0 \/ exceptional k = true \/ exists q, In q moduli /\ forall m, (163 * (m * m)) mod q <> (4 * (2 ^ k - r) - 1) mod q.
Proof.
  induction n as [|n IH]; intros i I H k K; [lia|]. cbn [covered] in H. apply andb_true_iff in H. destruct H as [H1 H2].
  assert (D : forall q, (2 * (2 ^ i mod q)) mod q = 2 ^ (i + 1) mod q) by (intros q; rewrite Zmult_mod_idemp_r, Z.pow_add_r, Z.pow_1_r, (Z.mul_comm 2) by lia; reflexivity).
  destruct (Z.eq_dec k i) as [->|].
  - cbv zeta in *. rewrite Zminus_mod_idemp_l in H1. apply orb_true_iff in H1. destruct H1 as [H1|H1]; [apply orb_true_iff in H1; destruct H1 as [H1|H1]; [left; now apply Z.eqb_eq|right; left; exact H1]|].
    right. right. apply existsb_exists in H1. destruct H1 as (e & E1 & E2). unfold start in E1. apply in_map_iff in E1. destruct E1 as (q & <- & Q). exists q. split; [exact Q|]. now apply excluded_ok.
  - apply (IH (i + 1)); [lia| |lia]. rewrite D in H2. replace (start (i + 1)) with (map double (start i)); [exact H2|].
    unfold start. rewrite map_map. apply map_ext. intros q. cbn [double]. now rewrite D.
Qed.
Lemma pow_period q n : In q (163 :: moduli) -> 0 <= n -> 2 ^ n mod q = 2 ^ (n mod period) mod q.
Proof.
  intros Q N. pose proof moduli_period as P. rewrite forallb_forall in P. specialize (P q Q). apply andb_true_iff in P. destruct P as [P1 P2]. apply Z.ltb_lt in P1. apply Z.eqb_eq in P2.
  assert (PP : period = 1620) by reflexivity. pose proof (Z.mod_pos_bound n period ltac:(lia)). pose proof (Z.div_pos n period N ltac:(lia)).
  rewrite (Z.div_mod n period) at 1 by lia. rewrite Z.pow_add_r, Z.pow_mul_r by nia. rewrite Zmult_mod.
  assert (O : (2 ^ period) ^ (n / period) mod q = 1).
  { generalize (2 ^ period) P2. intros w W. revert H0. generalize (n / period). apply (natlike_ind (fun k => w ^ k mod q = 1)); [apply Z.mod_small; lia|].
    intros k Hk E. rewrite Z.pow_succ_r, Zmult_mod, W, E by lia. apply Z.mod_small. lia. }
  rewrite O, Z.mul_1_l. apply Z.mod_mod. lia.
Qed.
(** no prime of the form lies just below a power of two, apart from five residue classes *)
Lemma none_below n p b : 0 <= n -> exceptional (n mod period) = false -> 2 ^ n - 163 < p < 2 ^ n -> p = 163 * (b * (b + 1)) + 41 -> False.
Proof.
  intros N X B F. set (k := n mod period) in *. assert (PP : period = 1620) by reflexivity. assert (K : 0 <= k < 1620) by (apply Z.mod_pos_bound; lia).
  assert (C : covered (Z.to_nat period) 0 (2 ^ 0 mod 163) (start 0) = true) by exact covered_all.
  pose proof (covered_ok _ 0 ltac:(lia) C k ltac:(lia)) as H. cbv zeta in H. clear C.
  assert (R : (2 ^ k - 41) mod 163 = 2 ^ n - p).
  { rewrite Zminus_mod. unfold k. rewrite <- pow_period by (auto; now left). rewrite <- Zminus_mod.
    replace (2 ^ n - 41) with (2 ^ n - p + (b * (b + 1)) * 163) by lia. rewrite Z.mod_add by lia. apply Z.mod_small. lia. }
  rewrite R in H. destruct H as [H|[H|(q & Q & H)]]; [lia|congruence|].
  apply (H (2 * b + 1)). assert (Q1 : q > 1). { pose proof moduli_period as M. rewrite forallb_forall in M. specialize (M q (or_intror Q)). lia. }
  assert (W : 2 ^ n mod q = 2 ^ k mod q) by (apply pow_period; [now right|exact N]).
  replace (163 * ((2 * b + 1) * (2 * b + 1))) with (4 * (2 ^ n - (2 ^ n - p)) - 1) by (rewrite F; ring).
  rewrite !(Zminus_mod _ 1 q). f_equal. f_equal.
  rewrite <- (Zmult_mod_idemp_r (2 ^ n - _) 4 q), <- (Zmult_mod_idemp_r (2 ^ k - _) 4 q). f_equal. f_equal. rewrite <- (Zminus_mod_idemp_l (2 ^ n)), <- (Zminus_mod_idemp_l (2 ^ k)). now rewrite W.
Qed.

(** ** Theorems on the field *)
(** The field prime has the form 4p = 1 + 163 (2b+1)^2. *)
Theorem C48_form : forall isprime kronecker fuel bits tape p rest, isprime_ok isprime ->
  gen_field isprime kronecker fuel used bits tape = Ok (p, rest) -> prime p /\ exists b, 0 <= b /\ 4 * p = 1 + 163 * (2 * b + 1) ^ 2.
Proof.
  intros isp kr fuel bits tape p rest I H. apply gen_field_ok in H. destruct H as (t & r & H). apply anomalous_prime_ok in H. destruct H as (H1 & b & _ & H2 & H3).
  split; [now apply I|]. exists b. split; [exact H2|]. rewrite H3. ring.
Qed.
Print Assumptions C48_form.

Lemma field_near isprime kronecker fuel bits tape p rest : isprime_ok isprime -> 6 <= bits ->
  gen_field isprime kronecker fuel used bits tape = Ok (p, rest) -> 2 ^ (bits - 1) - 163 < p < 2 ^ bits /\ exists b, 0 <= b /\ p = 163 * (b * (b + 1)) + 41.
Proof.
  intros I B H. apply gen_field_ok in H. destruct H as (t & r & H). apply anomalous_prime_ok in H. destruct H as (H1 & b & H2 & H3 & H4).
  split; [|exists b; split; assumption]. destruct (bounds_6 bits B) as (L1 & L2 & U1 & U2).
  pose proof (lower_bound_ok 163 bits b L1 ltac:(lia) H3). pose proof (upper_bound_ok 163 bits b U1 H3 ltac:(lia)). split; [lia|].
  assert (p <= 2 ^ bits) by lia. assert (p <> 2 ^ bits); [|lia]. intros E. apply I in H1. destruct (pow_6 bits B) as [P1 P2].
  destruct (prime_divisors p H1 2) as [D|[D|[D|D]]]; [exists (2 ^ (bits - 1)); lia|lia..].
Qed.
(** It is below 2^bits and misses 2^(bits-1) by less than 163, if at all. *)
Theorem C48_near : forall isprime kronecker fuel bits tape p rest, isprime_ok isprime -> 6 <= bits ->
  gen_field isprime kronecker fuel used bits tape = Ok (p, rest) -> 2 ^ (bits - 1) - 163 < p < 2 ^ bits.
Proof. intros. eapply field_near; eassumption. Qed.
Print Assumptions C48_near.
(** It has exactly the requested number of bits, for every size from 13 to 1626 bits and for every larger
    size outside five residue classes modulo 1620. Missing: larger sizes in those classes
    (bits - 1 = 6, 7, 9, 10, 11 modulo 1620), where the first member of each class is a
    counterexample, see below. *)
Theorem C48_size_partial : forall isprime kronecker fuel bits tape p rest, isprime_ok isprime -> 6 <= bits ->
  ~ In ((bits - 1) mod 1620) [6; 7; 9; 10; 11] ->
  gen_field isprime kronecker fuel used bits tape = Ok (p, rest) -> has_bits p bits.
Proof.
  intros isp kr fuel bits tape p rest I B X H. apply field_near in H; [|assumption..]. destruct H as (H1 & b & H2 & H3).
  split; [|lia]. apply Z.le_ngt. intros L. apply (none_below (bits - 1) p b); [lia| |lia|exact H3].
  unfold exceptional. apply not_true_is_false. intros E. apply existsb_exists in E. destruct E as (i & E1 & E2). apply Z.eqb_eq in E2. apply X. change 1620 with period. now rewrite E2.
Qed.
Print Assumptions C48_size_partial.
Theorem C48_size_range_partial : forall isprime kronecker fuel bits tape p rest, isprime_ok isprime -> 13 <= bits <= 1626 ->
  gen_field isprime kronecker fuel used bits tape = Ok (p, rest) -> has_bits p bits.
Proof.
  intros isp kr fuel bits tape p rest I B H. eapply C48_size_partial; try eassumption; [lia|]. intros X.
  destruct (Z_lt_le_dec (bits - 1) 1620) as [L|L].
  - rewrite Z.mod_small in X by lia. cbn [In] in X. lia.
  - replace (bits - 1) with (bits - 1 - 1620 + 1 * 1620) in X by ring. rewrite Z.mod_add, Z.mod_small in X by lia. cbn [In] in X. lia.
Qed.
Print Assumptions C48_size_range_partial.
(** For 7, 8, 10, 11 and 12 bits (and for fewer than 6) the prime can have a wrong number of bits;
    for 7 and 8 bits it always does. *)
Theorem C48_refuted : exists t5 t7 t8 t10 t11 t12,
  map (fun x => gen_field isprime_b (fun a q => roots q a - 1) 2 used (fst x) [snd x]) [(5, t5); (7, t7); (8, t8); (10, t10); (11, t11); (12, t12)]
  = map (fun p => Ok (p, [])) [41; 41; 41; 367; 1019; 1997] /\
  ~ has_bits 41 5 /\ ~ has_bits 41 7 /\ ~ has_bits 41 8 /\ ~ has_bits 367 10 /\ ~ has_bits 1019 11 /\ ~ has_bits 1997 12.
Proof. exists 0, 0, 0, 0, 0, 0. split; [vm_compute; reflexivity|]. unfold has_bits. repeat split; intros [A B]; vm_compute in A, B; congruence. Qed.
Print Assumptions C48_refuted.

(** ** The curve *)
(** The anomalous construction's symbol: [kronecker_ok] from Supersingular_Props. *)
Lemma c_loop_ok kronecker p cp : forall tape c rest, c_loop kronecker p cp tape = Ok (c, rest) -> 0 <= c < p /\ kronecker c p = cp.
Proof.
  induction tape as [|t tape IH]; intros c rest H; cbn [c_loop] in H; [discriminate|].
  unfold pick in H. destruct (Z.ltb_spec (p - 1) 0) as [L|L]; cbn [bind] in H; [discriminate|].
  pose proof (Z.mod_pos_bound t (p - 1 - 0 + 1) ltac:(lia)). set (x := 0 + t mod (p - 1 - 0 + 1)) in *.
  destruct (Z.eqb_spec (kronecker x p) cp) as [E|E]; [|exact (IH _ _ H)].
  assert (c = x) by congruence. subst c. split; [unfold x; lia|exact E].
Qed.
Lemma c_loop_no_error kronecker p cp : 0 < p -> forall tape, c_loop kronecker p cp tape <> UB /\ c_loop kronecker p cp tape <> Abort.
Proof.
  intros P. induction tape as [|t tape IH]; cbn [c_loop]; [split; discriminate|]. unfold pick. destruct (Z.ltb_spec (p - 1) 0) as [L|L]; cbn [bind]; [lia|].
  destruct (_ =? cp); [split; discriminate|exact IH].
Qed.
Lemma roots_zero_divide p v : prime p -> (p | v) -> roots p v = 1.
Proof. intros P D. rewrite (roots_mod p v 0); [now apply roots_zero|]. apply (mod_eq p P). now rewrite Z.sub_0_r. Qed.
Lemma roots_unit p v : prime p -> p <> 2 -> ~ (p | v) -> roots p v = 0 \/ roots p v = 2.
Proof.
  intros P O N. destruct (Fp_Orbits.roots_even p P v O N) as [k K]. pose proof (roots_le2 p P v). assert (0 <= roots p v) by apply Nat2Z.is_nonneg. lia.
Qed.

Lemma roots_exist p v : prime p -> (0 < roots p v <-> exists y, (p | y * y - v)).
Proof.
  intros P. pose proof (prime_ge_2 p P) as L. unfold roots. split.
  - intros H. destruct (filter _ (elements p)) as [|y l] eqn:E; [cbn in H; lia|]. assert (I : In y (y :: l)) by now left. rewrite <- E in I.
    apply filter_In in I. destruct I as (_ & I). apply Z.eqb_eq in I. exists y. now apply (mod_eq p P).
  - intros (y & D). assert (I : In (y mod p) (filter (fun y => (y * y) mod p =? v mod p) (elements p))).
    { apply filter_In. split; [apply in_elements; apply Z.mod_pos_bound; lia|]. apply Z.eqb_eq. rewrite <- Zmult_mod. now apply (mod_eq p P). }
    destruct (filter _ (elements p)); [destruct I|]. cbn [length]. lia.
Qed.
Lemma roots_square p c s : prime p -> p <> 2 -> ~ (p | c) -> ~ (p | s) -> roots p (c * (s * s)) = roots p c.
Proof.
  intros P O Nc Ns. assert (N : ~ (p | c * (s * s))) by (intros D; apply (no_zero_div p P) in D; destruct D as [D|D]; [auto|]; apply (no_zero_div p P) in D; tauto).
  assert (E : 0 < roots p (c * (s * s)) <-> 0 < roots p c).
  { rewrite !(roots_exist p) by exact P. split.
    - intros (y & D). destruct (fp_div_ok 1 s p P Ns) as (t & _ & _ & (w & T)). destruct D as (z & D). exists (y * t).
      assert (T' : s * t = 1 + w * p) by lia. assert (D' : y * y = c * (s * s) + z * p) by lia.
      replace (y * t * (y * t) - c) with (y * y * (t * t) - c) by ring. rewrite D'. replace ((c * (s * s) + z * p) * (t * t) - c) with (c * ((s * t) * (s * t)) - c + z * (t * t) * p) by ring. rewrite T'.
      exists (c * w * (2 + w * p) + z * (t * t)). ring.
    - intros (y & z & D). exists (y * s). exists (z * (s * s)). replace (y * s * (y * s) - c * (s * s)) with ((y * y - c) * (s * s)) by ring. rewrite D. ring. }
  destruct (roots_unit p _ P O N) as [A|A], (roots_unit p c P O Nc) as [B|B]; rewrite A, B in *; lia.
Qed.

(** For a prime of the form, the equation is computed without an error, and the curve of the two with that invariant
    (up to isomorphism) is the one whose coefficients go with alpha. *)
Definition alpha_used : Z := 2 * 3 * 5 * 7 * 11 * 19 * 23 * 29 * 127.
Lemma equation_facts kr p tape' : kronecker_ok kr -> prime p -> of_form p ->
  gen_equation kr used p tape' = Fuel \/
  exists a b rest', gen_equation kr used p tape' = Ok (a, b, rest') /\ 0 <= a < p /\ 0 <= b < p /\ nonsingular p a b /\ has_invariant p a b (- 640320 ^ 3) /\
    roots p (6 * (a * b)) + roots p alpha_used = 2.
Proof.
  intros K P F.
  pose proof (prime_ge_2 p P) as L2. assert (O : p <> 2) by (destruct F; lia).
  destruct entry_used as (e & E & _ & EJ & EA). unfold gen_equation, anomalous_c. rewrite E. cbn [bind]. rewrite EJ, EA.
  change (2 * 3 * 5 * 7 * 11 * 19 * 23 * 29 * 127) with alpha_used. set (alpha := alpha_used). set (j := - 640320 ^ 3).
  assert (DA : ~ (p | alpha)) by (apply (form_not_divide p _ [2; 3; 5; 7; 11; 19; 23; 29; 127] P F); vm_compute; reflexivity).
  assert (DJ : ~ (p | j)).
  { unfold j. rewrite Z.divide_opp_r. apply (form_not_divide p _ [64; 3; 5; 23; 29; 64; 3; 5; 23; 29; 64; 3; 5; 23; 29] P F); vm_compute; reflexivity. }
  assert (DK : ~ (p | 1728 - j)) by (apply (form_not_divide p _ [64; 81; 9; 7; 7; 11; 11; 19; 19; 127; 127; 163] P F); vm_compute; reflexivity).
  assert (D108 : ~ (p | 108)) by (apply (form_not_divide p _ [108] P F); vm_compute; reflexivity).
  assert (D1728 : ~ (p | 1728)) by (apply (form_not_divide p _ [16; 108] P F); vm_compute; reflexivity).
  rewrite K by assumption. destruct (Z.eqb_spec (roots p alpha - 1) 0) as [Z0|Z0]; [exfalso; destruct (roots_unit p alpha P O DA); lia|].
  pose proof (c_loop_no_error kr p (- (roots p alpha - 1)) ltac:(lia) tape') as NE.
  destruct (c_loop kr p (- (roots p alpha - 1)) tape') as [[c rest']| | |] eqn:C; cbn [bind]; [right|tauto|now left|tauto].
  apply c_loop_ok in C. destruct C as [C1 C2]. rewrite K in C2 by assumption.
  assert (DC : ~ (p | c)) by (intros D; rewrite (roots_zero_divide p c P D) in C2; lia).
  assert (DK' : ~ (p | (1728 - j) mod p)).
  { intros D. apply DK. replace (1728 - j) with ((1728 - j) mod p - ((1728 - j) mod p - (1728 - j))) by ring. apply Z.divide_sub_r; [exact D|now apply mod_congruent]. }
  destruct (fp_div_ok (j mod p) ((1728 - j) mod p) p P DK') as (k & K1 & K2 & K3). rewrite K1. cbn [bind]. eexists _, _, _. split; [reflexivity|].
  pose proof (Z.mod_pos_bound (3 * (c ^ 2 * k)) p ltac:(lia)). pose proof (Z.mod_pos_bound (2 * (c ^ 3 * k)) p ltac:(lia)). split; [assumption|]. split; [assumption|].
  assert (K4 : (p | (1728 - j) * k - j)).
  { replace ((1728 - j) * k - j) with (((1728 - j) mod p * k - j mod p) - ((1728 - j) mod p - (1728 - j)) * k + (j mod p - j)) by ring.
    apply Z.divide_add_r; [apply Z.divide_sub_r; [exact K3|apply Z.divide_mul_l; now apply mod_congruent]|now apply mod_congruent]. }
  clear K1 K3. clearbody j.
  assert (A := mod_congruent p (3 * (c ^ 2 * k)) P). assert (B := mod_congruent p (2 * (c ^ 3 * k)) P).
  set (a := (3 * (c ^ 2 * k)) mod p) in *. set (b := (2 * (c ^ 3 * k)) mod p) in *. clearbody a b.
  assert (A3 : (p | a ^ 3 - 27 * (c ^ 6 * k ^ 3))).
  { replace (a ^ 3 - 27 * (c ^ 6 * k ^ 3)) with ((a - 3 * (c ^ 2 * k)) * (a ^ 2 + a * (3 * (c ^ 2 * k)) + (3 * (c ^ 2 * k)) ^ 2)) by ring. now apply Z.divide_mul_l. }
  assert (B2 : (p | b ^ 2 - 4 * (c ^ 6 * k ^ 2))).
  { replace (b ^ 2 - 4 * (c ^ 6 * k ^ 2)) with ((b - 2 * (c ^ 3 * k)) * (b + 2 * (c ^ 3 * k))) by ring. now apply Z.divide_mul_l. }
  destruct A3 as [u A3], B2 as [v B2]. assert (A3' : a ^ 3 = u * p + 27 * (c ^ 6 * k ^ 3)) by now apply Z.sub_move_r. assert (B2' : b ^ 2 = v * p + 4 * (c ^ 6 * k ^ 2)) by now apply Z.sub_move_r.
  assert (Dk : ~ (p | k)). { intros D. apply DJ. replace j with ((1728 - j) * k - ((1728 - j) * k - j)) by ring. apply Z.divide_sub_r; [now apply Z.divide_mul_r|exact K4]. }
  assert (Dk1 : ~ (p | k + 1)). { intros D. apply D1728. replace 1728 with ((1728 - j) * (k + 1) - ((1728 - j) * k - j)) by ring. apply Z.divide_sub_r; [now apply Z.divide_mul_r|exact K4]. }
  split; [|split].
  - unfold nonsingular. rewrite A3', B2'. replace (4 * (u * p + 27 * (c ^ 6 * k ^ 3)) + 27 * (v * p + 4 * (c ^ 6 * k ^ 2))) with ((4 * u + 27 * v) * p + 108 * ((c * c * c * c * c * c) * (k * (k * (k + 1))))) by ring.
    intros D. assert (D2 : (p | 108 * ((c * c * c * c * c * c) * (k * (k * (k + 1)))))).
    { replace (108 * _) with ((4 * u + 27 * v) * p + 108 * ((c * c * c * c * c * c) * (k * (k * (k + 1)))) - (4 * u + 27 * v) * p) by ring. apply Z.divide_sub_r; [exact D|apply Z.divide_factor_r]. }
    clear D. repeat match goal with D : (p | _ * _) |- _ => apply (no_zero_div p P) in D; destruct D end; contradiction.
  - unfold has_invariant. rewrite A3', B2'. destruct K4 as [w K4]. exists (1728 * (4 * u) - j * (4 * u + 27 * v) + 108 * c ^ 6 * k ^ 2 * w).
    replace (1728 * (4 * (u * p + 27 * (c ^ 6 * k ^ 3))) - j * (4 * (u * p + 27 * (c ^ 6 * k ^ 3)) + 27 * (v * p + 4 * (c ^ 6 * k ^ 2)))) with
      ((1728 * (4 * u) - j * (4 * u + 27 * v)) * p + 108 * c ^ 6 * k ^ 2 * ((1728 - j) * k - j)) by ring. rewrite K4. ring.
  - destruct A as [u' A], B as [v' B]. assert (A' : a = 3 * (c ^ 2 * k) + u' * p) by lia. assert (B' : b = 2 * (c ^ 3 * k) + v' * p) by lia.
    rewrite (roots_mod p (6 * (a * b)) (c * ((6 * (c ^ 2 * k)) * (6 * (c ^ 2 * k))))).
    + rewrite (roots_square p c (6 * (c ^ 2 * k)) P O DC); [lia|]. intros D. apply (no_zero_div p P) in D. destruct D as [D|D].
      * apply D108. replace 108 with (18 * 6) by reflexivity. now apply Z.divide_mul_r.
      * apply (no_zero_div p P) in D. destruct D as [D|D]; [|auto]. replace (c ^ 2) with (c * c) in D by ring. apply (no_zero_div p P) in D. tauto.
    + apply (mod_eq p P). rewrite A', B'. exists (6 * (3 * (c ^ 2 * k) * v' + u' * (2 * (c ^ 3 * k)) + u' * v' * p)). ring.
Qed.
(** For a field made by the method, the equation is computed without an error, it gives an elliptic
    curve, and the invariant of that curve is -640320^3, which belongs to discriminant -163. The
    factor c is chosen opposite to alpha. *)
Theorem C48_invariant : forall isprime kronecker fuel bits tape p rest tape', isprime_ok isprime -> kronecker_ok kronecker ->
  gen_field isprime kronecker fuel used bits tape = Ok (p, rest) ->
  gen_equation kronecker used p tape' = Fuel \/
  exists a b rest', gen_equation kronecker used p tape' = Ok (a, b, rest') /\ 0 <= a < p /\ 0 <= b < p /\ nonsingular p a b /\ has_invariant p a b (- 640320 ^ 3).
Proof.
  intros isp kr fuel bits tape p rest tape' I K H. apply gen_field_ok in H. destruct H as (t & r & H). apply anomalous_prime_ok in H. destruct H as (H1 & b0 & _ & H2 & H3).
  assert (P : prime p) by now apply I. assert (F : of_form p) by (unfold of_form; rewrite H3; now apply form_large). clear H1 H3.
  destruct (equation_facts kr p tape' K P F) as [->|(a & b & rest' & -> & A & B & N & J & _)]; [now left|]. right. exists a, b, rest'. auto.
Qed.
Print Assumptions C48_invariant.

(** The field is found at the first prime: the extra loop of anomalous_gen_field never repeats. *)
Theorem C48_first : forall isprime kronecker bits tape p rest fuel, isprime_ok isprime -> kronecker_ok kronecker ->
  anomalous_prime isprime used bits tape = Ok (p, rest) -> gen_field isprime kronecker (S fuel) used bits tape = Ok (p, rest).
Proof.
  intros isp kr bits tape p rest fuel I K H. cbn [gen_field]. rewrite H. cbn [bind entry nth_error disc_table disc_alpha].
  apply anomalous_prime_ok in H. destruct H as (H1 & b & _ & H2 & H3). assert (P : prime p) by now apply I. assert (F : of_form p) by (unfold of_form; rewrite H3; now apply form_large).
  assert (O : p <> 2) by (destruct F; lia). rewrite K by assumption. destruct (Z.eqb_spec (roots p 21 - 1) 0) as [E|]; [|reflexivity]. exfalso.
  destruct (roots_unit p 21 P O); [|lia|lia]. apply (form_not_divide p _ [21] P F); vm_compute; reflexivity.
Qed.
Print Assumptions C48_first.

(** There is always a choice of b, so drawing it never ends in an error. *)
Lemma bounds_ordered bits : 6 <= bits -> lower_bound 163 bits <= upper_bound 163 bits.
Proof.
  intros B. destruct (Z_lt_le_dec bits 12) as [S|S].
  - assert (bits = 6 \/ bits = 7 \/ bits = 8 \/ bits = 9 \/ bits = 10 \/ bits = 11) as T by lia. clear B S. repeat (destruct T as [->|T]; [vm_compute; discriminate|]). subst. vm_compute. discriminate.
  - destruct (pow_6 bits ltac:(lia)) as [P1 _]. assert (P2 : 2048 <= 2 ^ (bits - 1)) by (change 2048 with (2 ^ 11); apply Z.pow_le_mono_r; lia).
    unfold lower_bound, upper_bound, lower_of, upper_of, last_of. change ((163 + 1) ÷ 4) with 41.
    destruct (quot_pos (2 ^ (bits - 1) - 41) ltac:(lia)) as [L1 L2]. destruct (quot_pos (2 ^ bits - 41) ltac:(lia)) as [U1 U2].
    set (l := (2 ^ (bits - 1) - 41) ÷ 163) in *. set (u := (2 ^ bits - 41) ÷ 163) in *. clearbody l u.
    assert (l <= u - l) by lia. assert (5 <= l) by lia. clear L1 U1 P1 P2. pose proof (Z.sqrt_up_spec (l * 4 + 1) ltac:(lia)) as R. set (r := Z.sqrt_up (l * 4 + 1)) in *. clearbody r.
    assert (r <= l) by nia. assert (0 <= r) by nia. assert (Q : (r + 1) * (r + 1) <= u * 4 + 1) by nia. apply Z.sqrt_le_square in Q; [|lia|lia].
    apply Z.div_le_mono; lia.
Qed.
Theorem C48_choice : forall isprime bits tape, 6 <= bits -> anomalous_prime isprime used bits tape <> Abort /\ anomalous_prime isprime used bits tape <> UB.
Proof.
  intros isp bits tape B. unfold anomalous_prime. destruct entry_used as (e & E & D & _). rewrite E. cbn [bind]. rewrite D. pose proof (bounds_ordered bits B) as O. clear - O.
  induction tape as [|t tape IH]; cbn [prime_loop]; [split; discriminate|]. unfold pick. destruct (Z.ltb_spec (upper_bound 163 bits) (lower_bound 163 bits)); [lia|]. cbn [bind].
  destruct (isp _); [split; discriminate|exact IH].
Qed.
Print Assumptions C48_choice.

(** ** Examples *)
Example field_13_bits : gen_field isprime_b (fun a q => roots q a - 1) 2 used 13 [0; 1] = Ok (4931, [1]). Proof. vm_compute. reflexivity. Qed.
(** for p = 41 every factor c that can be chosen gives a curve with 41 points *)
Example equation_41 : let kr := fun a q => roots q a - 1 in
  let choices := filter (fun c => kr c 41 =? - kr 3717878010 41) (elements 41) in
  length choices = 20%nat /\
  forallb (fun c => match gen_equation kr used 41 [c] with Ok (a, b, _) => points 41 a b =? gen_order 41 | _ => false end) choices = true.
Proof. vm_compute. split; reflexivity. Qed.
(** the entry for discriminant -43, which the program does not use, is wrong: (-1024)^3 is not the
    invariant, (-960)^3 is; curves over p = 11 = (1 + 43) / 4 would not have 11 points *)
Example entry_43 : let kr := fun a q => roots q a - 1 in
  map (fun c => match gen_equation kr 2 11 [c] with Ok (a, b, _) => Some (points 11 a b) | _ => None end) (filter (fun c => kr c 11 =? - kr 70 11) (elements 11)) = repeat (Some 9) 5.
Proof. vm_compute. reflexivity. Qed.
(** the primes for it are of the form that belongs to -43: 9041 = 43 * 14 * 15 + 11 *)
Example entry_43_primes : anomalous_prime isprime_b 2 14 [0; 1] = Ok (9041, [1]).
Proof. vm_compute. reflexivity. Qed.
(** the entries for discriminants -11 and -19, which the program does not use either, are right: as
    4 * 23 = 9^2 + 11 and 4 * 31 = 5^2 + 11 * 3^2 the curves have traces 9 and 5 up to sign, and over
    43 = (1 + 19 * 9) / 4 they have 43 points *)
Example entries_11_19 : let kr := fun a q => roots q a - 1 in
  let first p alpha := firstn 2 (filter (fun c => kr c p =? - kr alpha p) (elements p)) in
  let count i p alpha := map (fun c => match gen_equation kr i p [c] with Ok (a, b, _) => p + 1 - points p a b | _ => 0 end) (first p alpha) in
  count 0%nat 23 21 = [9; 9] /\ count 0%nat 31 21 = [5; 5] /\ count 1%nat 43 3 = [1; 1].
Proof. vm_compute. repeat split. Qed.
