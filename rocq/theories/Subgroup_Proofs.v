(** Facts about the enumeration of subsets of prime factors. *)
From Coq Require Import Znumtheory Sorted.
From Verif Require Import Base Primes Factor Subgroup_Model.
Local Open Scope Z_scope.

(** ** gtoset *)
Lemma set_insert_in x l y : In y (set_insert x l) <-> y = x \/ In y l.
Proof.
  induction l as [|z t IH]; cbn [set_insert]; [cbn; intuition congruence|].
  destruct (x <? z) eqn:E1; [cbn [In]; intuition congruence|]. destruct (x =? z) eqn:E2.
  - apply Z.eqb_eq in E2. subst. cbn [In]. intuition congruence.
  - cbn [In]. rewrite IH. intuition congruence.
Qed.

Lemma gtoset_in l y : In y (gtoset l) <-> In y l.
Proof.
  unfold gtoset. induction l as [|x l IH]; cbn [fold_right]; [tauto|]. rewrite set_insert_in, IH. cbn [In].
  intuition congruence.
Qed.

Lemma set_insert_sorted x l : StronglySorted Z.lt l -> StronglySorted Z.lt (set_insert x l).
Proof.
  induction 1 as [|z t S IH F]; cbn [set_insert]; [repeat constructor|].
  destruct (x <? z) eqn:E1.
  - apply Z.ltb_lt in E1. constructor; [constructor; assumption|]. constructor; [assumption|].
    eapply Forall_impl; [|exact F]. intros; lia.
  - destruct (x =? z) eqn:E2; [constructor; assumption|]. constructor; [assumption|].
    apply Forall_forall. intros y I. apply set_insert_in in I. rewrite Forall_forall in F.
    destruct I as [->|I]; [lia|auto].
Qed.

Lemma gtoset_sorted l : StronglySorted Z.lt (gtoset l).
Proof. unfold gtoset. induction l; cbn [fold_right]; [constructor|]. apply set_insert_sorted. assumption. Qed.

(** ** All subsets *)
(** (product, size) of every subset *)
Fixpoint subsets (l : list Z) : list (Z * Z) :=
  match l with
  | [] => [(1, 0)]
  | p :: t => flat_map (fun rb => [rb; (p * fst rb, snd rb + 1)]) (subsets t)
  end.

Lemma select_acc l : forall count bit r b,
  select count bit l r b = (r * fst (select count bit l 1 0), b + snd (select count bit l 1 0)).
Proof.
  induction l as [|p t IH]; intros count bit r b; cbn [select]; [cbn; f_equal; ring|].
  destruct (Z.testbit count bit).
  - rewrite IH, (IH count (bit + 1) (1 * p) (0 + 1)). cbn [fst snd]. f_equal; ring.
  - apply IH.
Qed.

Lemma select_shift l : forall count bit r b, 0 <= bit ->
  select count (bit + 1) l r b = select (count / 2) bit l r b.
Proof.
  induction l as [|p t IH]; intros count bit r b H; cbn [select]; [reflexivity|].
  assert (T : Z.testbit (count / 2) bit = Z.testbit count (bit + 1)) by (rewrite <- Z.div2_div, Z.div2_spec; apply Z.shiftr_spec; lia).
  rewrite T, (IH count (bit + 1) (r * p)), (IH count (bit + 1) r) by lia. reflexivity.
Qed.

Lemma seq_double m : seq 0 (2 * m) = flat_map (fun c => [2 * c; 2 * c + 1]%nat) (seq 0 m).
Proof.
  induction m as [|m IH]; [reflexivity|]. rewrite (seq_S m), flat_map_app. cbn [flat_map app].
  replace (2 * S m)%nat with (S (S (2 * m))) by lia. rewrite !seq_S, IH, <- app_assoc. cbn [app plus].
  repeat f_equal; lia.
Qed.

Lemma flat_map_map {X Y T} (f : X -> Y) (g : Y -> list T) l : flat_map g (map f l) = flat_map (fun x => g (f x)) l.
Proof. induction l; cbn; [reflexivity|]. f_equal. assumption. Qed.
Lemma map_flat_map {X Y T} (f : X -> list Y) (g : Y -> T) l : map g (flat_map f l) = flat_map (fun x => map g (f x)) l.
Proof. induction l; cbn; [reflexivity|]. rewrite map_app. f_equal. assumption. Qed.

Lemma select_all l : map (fun c => select (Z.of_nat c) 0 l 1 0) (seq 0 (2 ^ length l)) = subsets l.
Proof.
  induction l as [|p t IH]; [reflexivity|]. cbn [length subsets]. rewrite <- IH, flat_map_map.
  change (2 ^ S (length t))%nat with (2 * 2 ^ length t)%nat. rewrite seq_double, map_flat_map.
  apply flat_map_ext. intros c. cbn [map select].
  change (0 + 1) with (0 + 1). rewrite !select_shift by lia.
  assert (E0 : Z.testbit (Z.of_nat (2 * c)) 0 = false).
  { rewrite Z.bit0_odd, Nat2Z.inj_mul. rewrite Z.odd_mul. reflexivity. }
  assert (E1 : Z.testbit (Z.of_nat (2 * c + 1)) 0 = true).
  { rewrite Z.bit0_odd, Nat2Z.inj_add, Nat2Z.inj_mul, Z.odd_add, Z.odd_mul. reflexivity. }
  rewrite E0, E1.
  replace (Z.of_nat (2 * c) / 2) with (Z.of_nat c) by (rewrite Nat2Z.inj_mul, Z.mul_comm; symmetry; apply Z.div_mul; lia).
  replace (Z.of_nat (2 * c + 1) / 2) with (Z.of_nat c).
  2: { rewrite Nat2Z.inj_add, Nat2Z.inj_mul. change (Z.of_nat 2) with 2. rewrite Z.add_comm, Z.mul_comm, Z.div_add by lia. reflexivity. }
  f_equal. rewrite select_acc. f_equal. f_equal; ring.
Qed.

Lemma subsets_head l : exists t, subsets l = (1, 0) :: t.
Proof.
  induction l as [|p l (t & IH)]; [exists []; reflexivity|]. cbn [subsets]. rewrite IH. cbn [flat_map app]. eexists. reflexivity.
Qed.

Lemma select_tail l : (1, 0) :: map (fun c => select (Z.of_nat c) 0 l 1 0) (seq 1 (2 ^ length l - 1)) = subsets l.
Proof.
  rewrite <- select_all. destruct (2 ^ length l)%nat as [|m] eqn:E; [pose proof (Nat.pow_nonzero 2 (length l)); lia|].
  cbn [seq map]. replace (S m - 1)%nat with m by lia. f_equal.
  clear. change (Z.of_nat 0) with 0. symmetry. induction l as [|p t IH]; [reflexivity|]. cbn [select].
  rewrite Z.testbit_0_l. rewrite select_shift by lia. exact IH.
Qed.

(** how many subsets have more than [m] elements *)
Definition big (m : Z) (rb : Z * Z) : bool := m <? snd rb.

Lemma subsets_nonneg l rb : In rb (subsets l) -> 0 <= snd rb.
Proof.
  revert rb. induction l as [|p t IH]; intros rb; cbn [subsets]; [intros [<-|[]]; cbn; lia|].
  intros I. apply in_flat_map in I. destruct I as (x & I & [<-|[<-|[]]]); specialize (IH x I); cbn; lia.
Qed.

Lemma count_flat (f : Z * Z -> bool) p S :
  length (filter f (flat_map (fun rb => [rb; (p * fst rb, snd rb + 1)]) S)) =
  (length (filter f S) + length (filter (fun rb : Z * Z => f (p * fst rb, snd rb + 1)%Z) S))%nat.
Proof.
  induction S as [|x S IH]; [reflexivity|]. cbn [flat_map app filter]. destruct (f x), (f (p * fst x, snd x + 1)); cbn [length app]; rewrite IH; lia.
Qed.

Lemma filter_ext_in {T} (f g : T -> bool) l : (forall x, In x l -> f x = g x) -> filter f l = filter g l.
Proof. induction l as [|x l IH]; intros H; [reflexivity|]. cbn [filter]. rewrite (H x (or_introl eq_refl)), IH; [reflexivity|]. intros; apply H; right; assumption. Qed.

Lemma count_neg l m : m < 0 -> length (filter (big m) (subsets l)) = (2 ^ length l)%nat.
Proof.
  intros Hm. rewrite (filter_ext_in _ (fun _ => true)).
  2: { intros x I. apply subsets_nonneg in I. unfold big. lia. }
  replace (filter (fun _ => true) (subsets l)) with (subsets l).
  2: { generalize (subsets l). intros s. induction s; cbn; congruence. }
  rewrite <- select_all, map_length, seq_length. reflexivity.
Qed.

Lemma count_0 l : (length (filter (big 0) (subsets l)) + 1 = 2 ^ length l)%nat.
Proof.
  induction l as [|p t IH]; [reflexivity|]. cbn [subsets length]. rewrite count_flat.
  rewrite (filter_ext_in (fun rb => big 0 (p * fst rb, snd rb + 1)) (big (-1))).
  2: { intros x I. unfold big. cbn [snd]. lia. }
  rewrite (count_neg t (-1)) by lia. cbn [Nat.pow]. lia.
Qed.

Lemma count_1 l : (length (filter (big 1) (subsets l)) + length l + 1 = 2 ^ length l)%nat.
Proof.
  induction l as [|p t IH]; [reflexivity|]. cbn [subsets length]. rewrite count_flat.
  rewrite (filter_ext_in (fun rb => big 1 (p * fst rb, snd rb + 1)) (big 0)).
  2: { intros x I. unfold big. cbn [snd]. lia. }
  pose proof (count_0 t). cbn [Nat.pow]. lia.
Qed.

Lemma pow_gt k : (k < 2 ^ k)%nat.
Proof. apply Nat.pow_gt_lin_r. lia. Qed.

(** the result, for both uses *)
Lemma two_n_factors l (m : nat) : (m <= 1)%nat -> length l <> m -> (length l < 63)%nat ->
  subgroups_2n_factors l m = Ok (Some (gtoset (map fst (filter (big (Z.of_nat m)) (subsets l))))).
Proof.
  intros Hm Hl H63. unfold subgroups_2n_factors. cbv zeta.
  rewrite (proj2 (Nat.eqb_neq _ _) Hl). rewrite (proj2 (Nat.leb_gt _ _) H63).
  set (all := map _ (seq 1 _)).
  assert (E : filter (big (Z.of_nat m)) (subsets l) = filter (fun rb => Z.of_nat m <? snd rb) all).
  { rewrite <- select_tail. cbn [filter]. unfold big at 1. cbn [snd].
    destruct (Z.of_nat m <? 0) eqn:E0; [lia|]. reflexivity. }
  rewrite <- E. set (size := (2 ^ length l - m * length l - 1)%nat).
  assert (L : length (map fst (filter (big (Z.of_nat m)) (subsets l))) = size).
  { rewrite map_length. subst size. pose proof (count_0 l). pose proof (count_1 l).
    destruct m as [|[|]]; [|..]; [change (Z.of_nat 0) with 0; lia|change (Z.of_nat 1) with 1; lia|lia]. }
  rewrite L, Nat.ltb_irrefl, Nat.sub_diag. cbn [repeat]. rewrite app_nil_r. reflexivity.
Qed.

(** ** Products of subsets are the divisors *)
Lemma subsets_divide l : forall rb, In rb (subsets l) -> (fst rb | zprod l).
Proof.
  induction l as [|p t IH]; intros rb; cbn [subsets]; [intros [<-|[]]; exists 1; reflexivity|].
  intros I. apply in_flat_map in I. unfold zprod in *. cbn [fold_right].
  destruct I as (x & I & [<-|[<-|[]]]); specialize (IH x I).
  - apply Z.divide_mul_r. exact IH.
  - cbn [fst]. apply Z.mul_divide_mono_l. exact IH.
Qed.

(** each is a product of that many of the primes *)
Lemma subsets_primes l : Forall prime l -> forall rb, In rb (subsets l) ->
  exists ps, Forall prime ps /\ zprod ps = fst rb /\ Z.of_nat (length ps) = snd rb.
Proof.
  induction 1 as [|p t P F IH]; intros rb; cbn [subsets].
  - intros [<-|[]]. exists []. repeat split. constructor.
  - intros I. apply in_flat_map in I. destruct I as (x & I & [<-|[<-|[]]]); destruct (IH x I) as (ps & A & B & C).
    + exists ps. auto.
    + exists (p :: ps). split; [constructor; assumption|]. unfold zprod in *. cbn [fold_right length fst snd]. split; [rewrite B; reflexivity|lia].
Qed.

Lemma divides_subset l : Forall prime l -> forall d, 0 < d -> (d | zprod l) -> exists b, In (d, b) (subsets l).
Proof.
  induction 1 as [|p t P F IH]; intros d Hd D.
  - exists 0. unfold zprod in D. cbn in D. apply Z.divide_1_r_nonneg in D; [|lia]. subst. left. reflexivity.
  - unfold zprod in D. cbn [fold_right] in D. pose proof (prime_ge_2 p P) as P2.
    cbn [subsets]. destruct (Zdivide_dec p d) as [(k & ->)|N].
    + destruct (IH k) as (b & I).
      * nia.
      * rewrite Z.mul_comm in D. apply Z.mul_divide_cancel_l in D; [exact D|lia].
      * exists (b + 1). apply in_flat_map. exists (k, b). split; [assumption|]. right. left. cbn [fst snd]. f_equal. ring.
    + destruct (IH d Hd) as (b & I).
      * apply Gauss with p; [exact D|]. apply rel_prime_sym, prime_rel_prime; assumption.
      * exists b. apply in_flat_map. exists (d, b). split; [assumption|]. left. reflexivity.
Qed.

(** a product of two or more primes is not a prime *)
Lemma zprod_ge ps : Forall prime ps -> 1 <= zprod ps.
Proof. intros F. pose proof (zprod_pos ps F). lia. Qed.

Lemma zprod_small ps : Forall prime ps ->
  (zprod ps = 1 <-> length ps = 0%nat) /\ (prime (zprod ps) <-> length ps = 1%nat).
Proof.
  intros F. destruct F as [|p ps P F].
  - cbn. split; [tauto|]. split; [intros H; destruct (not_prime_1 H)|discriminate].
  - pose proof (prime_ge_2 p P) as P2. pose proof (zprod_ge ps F) as G.
    unfold zprod in *. cbn [fold_right length]. split; [split; [intros; nia|discriminate]|].
    destruct F as [|q ps Q F].
    + cbn [fold_right]. rewrite Z.mul_1_r. tauto.
    + pose proof (prime_ge_2 q Q) as Q2. pose proof (zprod_ge ps F) as G'. unfold zprod in G'. cbn [fold_right length] in *.
      split; [|discriminate]. intros C. exfalso.
      assert (D : (p | p * (q * fold_right Z.mul 1 ps))) by apply Z.divide_factor_l.
      apply prime_divisors with (1 := C) in D. nia.
Qed.
