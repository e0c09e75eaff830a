(** Lemmas about nums.c. *)
From Coq Require Import Znumtheory.
From Verif Require Import Base Nums_Model Primes.
Local Open Scope Z_scope.

(** the values tried within one curve: 1, 3, 4, 5, ... *)
Definition nums_value (n : nat) : Z := match n with O => 1 | _ => Z.of_nat n + 2 end.

Section Field.
Variable isprime : Z -> bool.
Hypothesis isprime_ok : forall p, isprime p = true <-> prime p.

Lemma field_loop_ok fuel : forall base c p, field_loop isprime fuel base c = Ok p ->
  prime p /\ exists i, 0 <= i /\ p = base - c - 4 * i /\ forall j, 0 <= j < i -> ~ prime (base - c - 4 * j).
Proof.
  induction fuel as [|f IH]; intros base c p H; cbn [field_loop] in H; [discriminate|].
  destruct (isprime (base - c)) eqn:E; cbn [negb] in H.
  - injection H as <-. split; [apply isprime_ok; assumption|]. exists 0. split; [lia|]. split; [ring|]. lia.
  - apply IH in H. destruct H as (P & i & I1 & I2 & I3). split; [assumption|]. exists (i + 1). split; [lia|].
    split; [lia|]. intros j Hj C. destruct (Z.eq_dec j 0) as [->|NE].
    + replace (base - c - 4 * 0) with (base - c) in C by ring. apply isprime_ok in C. congruence.
    + apply (I3 (j - 1)); [lia|]. replace (base - (c + 4) - 4 * (j - 1)) with (base - c - 4 * j) by ring. exact C.
Qed.

Lemma field_loop_total n : forall base c i, 0 <= i < Z.of_nat n -> prime (base - c - 4 * i) -> exists p, field_loop isprime n base c = Ok p.
Proof.
  induction n as [|n IH]; intros base c i Hi P; [lia|]. cbn [field_loop].
  destruct (isprime (base - c)) eqn:E; cbn [negb]; [eexists; reflexivity|].
  destruct (Z.eq_dec i 0) as [->|NE].
  - exfalso. replace (base - c - 4 * 0) with (base - c) in P by ring. apply isprime_ok in P. congruence.
  - apply (IH base (c + 4) (i - 1)); [lia|]. replace (base - (c + 4) - 4 * (i - 1)) with (base - c - 4 * i) by ring. exact P.
Qed.

Lemma pow2_mod4 s : 2 <= s -> exists k, 2 ^ s = 4 * k /\ 1 <= k.
Proof.
  intros H. exists (2 ^ (s - 2)). split.
  - replace s with (2 + (s - 2)) at 1 by ring. rewrite Z.pow_add_r by lia. reflexivity.
  - assert (0 < 2 ^ (s - 2)) by (apply Z.pow_pos_nonneg; lia). lia.
Qed.

Lemma nums_field_ok fuel s p : 2 <= s -> nums_gen_field isprime fuel s = Ok p ->
  prime p /\ p mod 4 = 3 /\ p < 2 ^ s /\ forall q, prime q -> q mod 4 = 3 -> q < 2 ^ s -> q <= p.
Proof.
  intros Hs H. unfold nums_gen_field in H. apply field_loop_ok in H. destruct H as (P & i & I1 & -> & I3).
  destruct (pow2_mod4 s Hs) as (k & K & K1). rewrite K in *.
  split; [assumption|]. split.
  - replace (4 * k - 1 - 4 * i) with (3 + (k - 1 - i) * 4) by ring. rewrite Z.mod_add by lia. reflexivity.
  - split; [lia|]. intros q PQ Q3 QL. destruct (Z.le_gt_cases q (4 * k - 1 - 4 * i)) as [L|G]; [assumption|exfalso].
    pose proof (Z.div_mod q 4 ltac:(lia)) as DM. rewrite Q3 in DM.
    apply (I3 (k - 1 - q / 4)); [lia|]. replace (4 * k - 1 - 4 * (k - 1 - q / 4)) with q by lia. exact PQ.
Qed.

Lemma nums_field_total s : 2 <= s -> exists p, nums_gen_field isprime (Z.to_nat (2 ^ s)) s = Ok p.
Proof.
  intros Hs. unfold nums_gen_field. destruct (pow2_mod4 s Hs) as (k & K & K1). rewrite K.
  apply (field_loop_total _ _ _ (k - 1)); [lia|]. replace (4 * k - 1 - 4 * (k - 1)) with 3 by ring. exact prime_3.
Qed.

Lemma field_loop_mono f : forall f' base c p, field_loop isprime f base c = Ok p -> (f <= f')%nat -> field_loop isprime f' base c = Ok p.
Proof.
  induction f as [|f IH]; intros [|f'] base c p H Hle; try discriminate; [lia|]. cbn [field_loop] in *.
  destruct (negb (isprime (base - c))); [|assumption]. apply IH; [assumption|lia].
Qed.
End Field.

(** the b step *)
Lemma value_step n : (if nums_value n =? 1 then nums_value n + 2 else nums_value n + 1) = nums_value (S n).
Proof. destruct n; [reflexivity|]. unfold nums_value. destruct (Z.eqb_spec (Z.of_nat (S n) + 2) 1); lia. Qed.

Lemma b_run_same c ps : forall n, b_run (Some (nums_value n, c)) (map (pair c) ps) =
  map (fun ip => nums_value (S n + fst ip) mod snd ip) (combine (seq 0 (length ps)) ps).
Proof.
  induction ps as [|p ps IH]; intros n; [reflexivity|]. cbn [map b_run nums_gen_b length seq combine].
  rewrite Z.eqb_refl, value_step. cbn [fst snd]. rewrite IH. rewrite Nat.add_0_r. f_equal.
  rewrite <- seq_shift. clear. generalize (seq 0 (length ps)). revert ps. intros ps l. revert ps.
  induction l as [|x l IHl]; intros [|q ps]; try reflexivity. cbn [map combine fst snd]. f_equal.
  - f_equal. f_equal. lia.
  - apply IHl.
Qed.
Lemma b_state_same c ps : forall n, b_state (Some (nums_value n, c)) (map (pair c) ps) = Some (nums_value (n + length ps), c).
Proof.
  induction ps as [|p ps IH]; intros n; cbn [map b_state nums_gen_b length]; [rewrite Nat.add_0_r; reflexivity|].
  rewrite Z.eqb_refl, value_step. cbn [fst]. rewrite IH. do 3 f_equal. lia.
Qed.

(** fresh with respect to the static state *)
Definition fresh (st : bstate) (c : Z) : Prop := match st with None => True | Some (_, c') => c' <> c end.

Lemma fresh_first st c p : fresh st c -> nums_gen_b st c p = (Some (nums_value 0, c), 1 mod p).
Proof.
  destruct st as [(b, c')|]; cbn [fresh nums_gen_b]; [|reflexivity]. intros H.
  destruct (Z.eqb_spec c' c); [contradiction|reflexivity].
Qed.

Lemma b_run_fresh st c ps : fresh st c -> b_run st (map (pair c) ps) =
  map (fun ip => nums_value (fst ip) mod snd ip) (combine (seq 0 (length ps)) ps).
Proof.
  intros H. destruct ps as [|p ps]; [reflexivity|]. cbn [map b_run length seq combine].
  rewrite fresh_first by assumption. cbn [fst snd]. f_equal. rewrite b_run_same.
  rewrite <- seq_shift. generalize (seq 0 (length ps)). intros l. revert ps.
  induction l as [|x l IHl]; intros [|q ps]; try reflexivity. cbn [map combine fst snd]. f_equal. apply IHl.
Qed.

Lemma b_state_fresh st c ps : fresh st c -> ps <> [] -> exists b, b_state st (map (pair c) ps) = Some (b, c).
Proof.
  intros H N. destruct ps as [|p ps]; [contradiction|]. cbn [map b_state]. rewrite fresh_first by assumption. cbn [fst].
  rewrite b_state_same. eexists; reflexivity.
Qed.

Lemma b_run_app st a b : b_run st (a ++ b) = b_run st a ++ b_run (b_state st a) b.
Proof.
  revert st. induction a as [|(c, p) a IH]; intros st; [reflexivity|]. cbn [app b_run b_state].
  destruct (nums_gen_b st c p) as (st', v). cbn [fst]. rewrite IH. reflexivity.
Qed.

(** curves = list of (address, fields seen at its calls); neighbours differ *)
Fixpoint distinct_next (last : option Z) (curves : list (Z * list Z)) : Prop :=
  match curves with
  | [] => True
  | (c, ps) :: r => last <> Some c /\ ps <> [] /\ distinct_next (Some c) r
  end.
Definition calls_of (curves : list (Z * list Z)) : list (Z * Z) := flat_map (fun x => map (pair (fst x)) (snd x)) curves.

Lemma b_run_curves curves : forall st, distinct_next (option_map snd st) curves ->
  b_run st (calls_of curves) = flat_map (fun x => map (fun ip => nums_value (fst ip) mod snd ip) (combine (seq 0 (length (snd x))) (snd x))) curves.
Proof.
  induction curves as [|(c, ps) r IH]; intros st H; [reflexivity|]. cbn [distinct_next] in H. destruct H as (H1 & H2 & H3).
  unfold calls_of. cbn [flat_map fst snd]. rewrite b_run_app.
  assert (F : fresh st c) by (destruct st as [(b & c')|]; cbn in *; [congruence|exact I]).
  rewrite b_run_fresh by assumption. f_equal. destruct (b_state_fresh st c ps F H2) as (b & ->). apply IH. exact H3.
Qed.

(** generators *)
Lemma nums_find_x_ok ord fuel : forall x y, nums_find_x ord fuel x = Ok y ->
  x <= y /\ ord y <> [] /\ forall z, x <= z < y -> ord z = [].
Proof.
  induction fuel as [|f IH]; intros x y H; cbn [nums_find_x] in H; [discriminate|]. destruct (ord x) eqn:E.
  - apply IH in H. destruct H as (A & B & C). split; [lia|]. split; [assumption|].
    intros z Hz. destruct (Z.eq_dec z x) as [->|]; [assumption|]. apply C. lia.
  - injection H as <-. split; [lia|]. split; [rewrite E; discriminate|]. intros; lia.
Qed.
