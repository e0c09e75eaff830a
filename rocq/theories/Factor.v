(** Factorisations into primes. [tfactor] (trial division) shows that the contracts
    assumed for PARI's factoring functions can be met. Nothing here models /repo. *)
From Coq Require Import Znumtheory Sorted Permutation.
From Verif Require Import Base Primes.
Local Open Scope Z_scope.

Definition zprod (l : list Z) : Z := fold_right Z.mul 1 l.

(** what Z_factor (factor) returns for n > 0: the pairs (prime, exponent) by increasing
    prime *)
Definition factorization (n : Z) (l : list (Z * Z)) : Prop :=
  (forall p e, In (p, e) l -> prime p /\ 0 < e) /\
  StronglySorted (fun a b => fst a < fst b) l /\
  fold_right (fun pe acc => fst pe ^ snd pe * acc) 1 l = n.

Lemma zprod_app a b : zprod (a ++ b) = zprod a * zprod b.
Proof. unfold zprod. induction a as [|x a IH]; cbn [app fold_right]; [|rewrite IH]; ring. Qed.

Lemma zprod_perm a b : Permutation a b -> zprod a = zprod b.
Proof. induction 1; unfold zprod in *; cbn [fold_right]; try lia; rewrite ?IHPermutation1; try ring; try congruence. Qed.

Lemma zprod_pos l : Forall prime l -> 0 < zprod l.
Proof. induction 1 as [|p l P _ IH]; unfold zprod in *; cbn [fold_right]; [lia|]. pose proof (prime_ge_2 p P). nia. Qed.

Lemma zprod_repeat p k : zprod (repeat p k) = p ^ Z.of_nat k.
Proof.
  induction k as [|k IH]; [reflexivity|]. cbn [repeat]. unfold zprod in *. cbn [fold_right]. rewrite IH.
  rewrite Nat2Z.inj_succ, Z.pow_succ_r by lia. reflexivity.
Qed.

(** the primes with multiplicity *)
Definition expand (l : list (Z * Z)) : list Z := flat_map (fun pe => repeat (fst pe) (Z.to_nat (snd pe))) l.

Lemma expand_prod l : (forall p e, In (p, e) l -> 0 < e) ->
  zprod (expand l) = fold_right (fun pe acc => fst pe ^ snd pe * acc) 1 l.
Proof.
  induction l as [|(p, e) l IH]; intros H; [reflexivity|]. cbn [expand flat_map fold_right fst snd].
  fold (expand l). rewrite zprod_app, zprod_repeat, IH by (intros; apply (H p0 e0); right; assumption).
  rewrite Z2Nat.id; [reflexivity|]. specialize (H p e (or_introl eq_refl)). lia.
Qed.

Lemma expand_in l p : (forall p e, In (p, e) l -> 0 < e) -> In p (expand l) <-> In p (map fst l).
Proof.
  intros H. unfold expand. rewrite in_flat_map, in_map_iff. split.
  - intros ((q, e) & I & R). apply repeat_spec in R. cbn in R. subst. exists (q, e). auto.
  - intros ((q, e) & <- & I). exists (q, e). split; [assumption|]. cbn [fst snd].
    specialize (H q e I). destruct (Z.to_nat e) eqn:E; [lia|]. left. reflexivity.
Qed.

Lemma factorization_expand n l : factorization n l -> Forall prime (expand l) /\ zprod (expand l) = n.
Proof.
  intros (P & S & E). split.
  - apply Forall_forall. intros p I. apply expand_in in I; [|intros; apply (P p0 e); assumption].
    apply in_map_iff in I. destruct I as ((q, e) & <- & I). apply (P q e I).
  - rewrite expand_prod; [assumption|]. intros p e I. apply (P p e I).
Qed.

(** ** Divisors of a product of primes *)
Lemma prime_divides_zprod l q : Forall prime l -> prime q -> (q | zprod l) -> In q l.
Proof.
  induction 1 as [|p l P F IH]; intros Q D; unfold zprod in *; cbn [fold_right] in *.
  - apply Z.divide_1_r_nonneg in D; [|pose proof (prime_ge_2 q Q); lia]. subst. destruct (not_prime_1 Q).
  - apply prime_mult in D; [|assumption]. destruct D as [D|D]; [left|right; auto].
    symmetry. apply prime_div_prime; assumption.
Qed.

Lemma factorization_divisors n l : factorization n l ->
  StronglySorted Z.lt (map fst l) /\ forall q, In q (map fst l) <-> prime q /\ (q | n).
Proof.
  intros F. pose proof (factorization_expand n l F) as (P & E). destruct F as (PP & S & _). split.
  - clear - S. induction S as [|a l _ IH H]; cbn [map]; constructor; [assumption|].
    apply Forall_map. exact H.
  - assert (PE : forall p e, In (p, e) l -> 0 < e) by (intros; apply (PP p e); assumption).
    intros q. rewrite <- (expand_in l q PE). split.
    + intros I. split; [rewrite Forall_forall in P; auto|]. rewrite <- E.
      apply in_split in I. destruct I as (a & b & ->). rewrite zprod_app. unfold zprod at 2. cbn [fold_right].
      exists (zprod a * zprod b). unfold zprod. ring.
    + intros (Q & D). apply prime_divides_zprod; [assumption|assumption|]. rewrite E. assumption.
Qed.

(** ** Trial division *)
Fixpoint tf (fuel : nat) (d n : Z) : list Z :=
  match fuel with
  | O => []
  | S f => if n <=? 1 then [] else if n mod d =? 0 then d :: tf f d (n / d) else tf f (d + 1) n
  end.

Lemma tf_ok : forall fuel d n, 2 <= d -> 0 < n -> (forall q, 2 <= q < d -> ~ (q | n)) ->
  n + (n - d + 2) <= Z.of_nat fuel \/ n = 1 ->
  Forall prime (tf fuel d n) /\ zprod (tf fuel d n) = n /\
  StronglySorted Z.le (tf fuel d n) /\ Forall (fun p => d <= p) (tf fuel d n).
Proof.
  induction fuel as [|f IH]; intros d n Hd Hn Hq Hf; cbn [tf].
  - destruct (Z.eq_dec n 1) as [->|N1]; [repeat split; constructor|exfalso].
    destruct Hf as [Hf|Hf]; [|lia]. destruct (Z.lt_ge_cases n d) as [L|L]; [|lia].
    apply (Hq n); [lia|apply Z.divide_refl].
  - destruct (n <=? 1) eqn:E1; [replace n with 1 by lia; repeat split; constructor|].
    assert (Ln : 2 <= n) by lia. clear E1.
    destruct (n mod d =? 0) eqn:E2.
    + apply Z.eqb_eq in E2. apply Z.mod_divide in E2; [|lia]. destruct E2 as (k & Ek).
      assert (Hk : 0 < k) by nia. assert (Hdk : n / d = k) by (rewrite Ek; apply Z.div_mul; lia). rewrite Hdk.
      assert (Pd : prime d).
      { apply prime_alt. split; [lia|]. intros q Q D. apply (Hq q); [lia|]. rewrite Ek. apply Z.divide_mul_r. assumption. }
      destruct (IH d k Hd Hk) as (A & B & C & D).
      { intros q Q D. apply (Hq q Q). rewrite Ek. apply Z.divide_mul_l. assumption. }
      { destruct (Z.eq_dec k 1); [right; assumption|left]. destruct Hf as [Hf|Hf]; [|lia].
        assert (k * 2 <= n) by nia. assert (d <= n) by nia. nia. }
      repeat split.
      * constructor; assumption.
      * unfold zprod in *. cbn [fold_right]. rewrite B, Ek. ring.
      * constructor; [assumption|]. exact D.
      * constructor; [lia|assumption].
    + apply Z.eqb_neq in E2. destruct (IH (d + 1) n) as (A & B & C & D); [lia|lia| |lia|].
      { intros q Q D. destruct (Z.eq_dec q d) as [->|]; [|apply (Hq q); [lia|assumption]].
        apply E2. apply Z.mod_divide; [lia|assumption]. }
      repeat split; try assumption. eapply Forall_impl; [|exact D]. cbn. intros; lia.
Qed.

(** group equal neighbours *)
Fixpoint group (l : list Z) : list (Z * Z) :=
  match l with
  | [] => []
  | p :: l => match group l with
              | (q, e) :: r => if p =? q then (p, e + 1) :: r else (p, 1) :: (q, e) :: r
              | [] => [(p, 1)]
              end
  end.

Lemma group_head l : match group l with (q, e) :: _ => exists t, l = q :: t | [] => l = [] end.
Proof.
  destruct l as [|p l]; [reflexivity|]. cbn [group]. destruct (group l) as [|(q, e) r]; [exists l; reflexivity|].
  destruct (p =? q) eqn:E; exists l; [|reflexivity]. f_equal.
Qed.

Lemma group_ok l : Forall prime l -> StronglySorted Z.le l ->
  (forall p e, In (p, e) (group l) -> In p l /\ 0 < e) /\
  StronglySorted (fun a b => fst a < fst b) (group l) /\
  fold_right (fun pe acc => fst pe ^ snd pe * acc) 1 (group l) = zprod l.
Proof.
  induction l as [|p l IH]; intros P S.
  - split; [intros ? ? []|]. split; [constructor|reflexivity].
  - inversion_clear P as [|? ? P1 P2]. inversion_clear S as [|? ? S1 S2].
    destruct (IH P2 S1) as (A & B & C). clear IH. cbn [group]. pose proof (group_head l) as G.
    destruct (group l) as [|(q, e) r].
    + subst. split; [intros p0 e0 [[= <- <-]|[]]; split; [left; reflexivity|lia]|]. split; [repeat constructor|].
      cbn [fold_right fst snd zprod]. ring.
    + destruct G as (t & ->).
      assert (Hpq : p <= q) by (inversion_clear S2; assumption).
      assert (He : 0 < e) by (apply (A q e); left; reflexivity).
      inversion_clear B as [|? ? B1 B2]. unfold zprod in *. cbn [fold_right fst snd] in C |- *.
      destruct (p =? q) eqn:E.
      * apply Z.eqb_eq in E. subst q. split; [|split].
        -- intros p0 e0 [[= <- <-]|I]; [split; [left; reflexivity|lia]|]. destruct (A p0 e0) as (A1 & A2); [right; assumption|].
           split; [right; assumption|assumption].
        -- constructor; assumption.
        -- cbn [fold_right fst snd]. rewrite <- C. rewrite Z.add_1_r, Z.pow_succ_r by lia. ring.
      * apply Z.eqb_neq in E. split; [|split].
        -- intros p0 e0 [[= <- <-]|I]; [split; [left; reflexivity|lia]|]. destruct (A p0 e0) as (A1 & A2); [assumption|].
           split; [right; assumption|assumption].
        -- constructor; [constructor; assumption|]. constructor; [cbn; lia|].
           eapply Forall_impl; [|exact B2]. cbn. intros; lia.
        -- cbn [fold_right fst snd]. rewrite <- C. ring.
Qed.

Definition tfactor (n : Z) : list (Z * Z) := group (tf (Z.to_nat (2 * n)) 2 n).

Theorem tfactor_ok n : 0 < n -> factorization n (tfactor n).
Proof.
  intros H. unfold tfactor. destruct (tf_ok (Z.to_nat (2 * n)) 2 n) as (A & B & C & _); [lia|lia|lia|left; lia|].
  destruct (group_ok _ A C) as (G1 & G2 & G3). split; [|split].
  - intros p e I. destruct (G1 p e I) as (I1 & I2). split; [|assumption]. rewrite Forall_forall in A. apply A. assumption.
  - assumption.
  - rewrite G3. assumption.
Qed.
