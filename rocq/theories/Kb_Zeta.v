(** Polynomials over GF(2) that are not divisible by x: a multiplicative function and the power sums that belong to it.
    A polynomial is a number, bit [i] is the coefficient of x^i (GF2). Nothing here models /repo. *)
From Coq Require Import Permutation Lia.
From Verif Require Import Base GF2 Irr_Spec.
From Verif Require Irr_Props.
Local Open Scope Z_scope.

(** ** Sums over lists *)
Section Sums.
Context {A B : Type}.
Definition zsum (f : A -> Z) (l : list A) : Z := fold_right (fun x s => f x + s) 0 l.
Lemma zsum_cons f x l : zsum f (x :: l) = f x + zsum f l. Proof. reflexivity. Qed.
Lemma zsum_ext f g l : (forall x, In x l -> f x = g x) -> zsum f l = zsum g l.
Proof. induction l as [|x l IH]; intros H; [reflexivity|]. rewrite !zsum_cons, H by now left. f_equal. apply IH. intros; apply H; now right. Qed.
Lemma zsum_app f l l' : zsum f (l ++ l') = zsum f l + zsum f l'.
Proof. induction l as [|x l IH]; [reflexivity|]. cbn [app]. rewrite !zsum_cons, IH. lia. Qed.
Lemma zsum_perm f l l' : Permutation l l' -> zsum f l = zsum f l'.
Proof. induction 1; rewrite ?zsum_cons; lia. Qed.
Lemma zsum_add f g l : zsum (fun x => f x + g x) l = zsum f l + zsum g l.
Proof. induction l as [|x l IH]; [reflexivity|]. rewrite !zsum_cons, IH. lia. Qed.
Lemma zsum_mul c f l : zsum (fun x => c * f x) l = c * zsum f l.
Proof. induction l as [|x l IH]; [cbn; lia|]. rewrite !zsum_cons, IH. lia. Qed.
Lemma zsum_const c l : zsum (fun _ => c) l = c * Z.of_nat (length l).
Proof. induction l as [|x l IH]; [cbn; lia|]. rewrite zsum_cons, IH. cbn [length]. lia. Qed.
Lemma zsum_zero f l : (forall x, In x l -> f x = 0) -> zsum f l = 0.
Proof. intros H. rewrite (zsum_ext f (fun _ => 0)) by exact H. rewrite zsum_const. lia. Qed.
Lemma zsum_filter f p l : zsum f (filter p l) = zsum (fun x => if p x then f x else 0) l.
Proof. induction l as [|x l IH]; [reflexivity|]. cbn [filter]. rewrite zsum_cons. destruct (p x); rewrite ?zsum_cons, IH; lia. Qed.
Lemma zsum_le f g l : (forall x, In x l -> f x <= g x) -> zsum f l <= zsum g l.
Proof. induction l as [|x l IH]; intros H; [cbn; lia|]. rewrite !zsum_cons. pose proof (H x (or_introl eq_refl)). assert (zsum f l <= zsum g l) by (apply IH; intros; apply H; now right). lia. Qed.
Lemma zsum_max f g l : (forall x, In x l -> f x <= g x) -> zsum g l <= zsum f l -> forall x, In x l -> f x = g x.
Proof.
  induction l as [|y l IH]; intros H E x I; [destruct I|]. rewrite !zsum_cons in E. pose proof (H y (or_introl eq_refl)).
  assert (L : zsum f l <= zsum g l) by (apply zsum_le; intros; apply H; now right).
  destruct I as [->|I]; [lia|]. apply IH; [intros; apply H; now right|lia|exact I].
Qed.
(** one term of a list without repetitions *)
Lemma zsum_one f l y : NoDup l -> In y l -> (forall x, In x l -> x <> y -> f x = 0) -> zsum f l = f y.
Proof.
  intros N. induction N as [|z l Nz N IH]; intros I H; [destruct I|]. rewrite zsum_cons. destruct I as [->|I].
  - rewrite zsum_zero; [lia|]. intros x X. apply H; [now right|]. intros ->. contradiction.
  - rewrite (IH I) by (intros; apply H; [now right|assumption]). rewrite H; [lia|now left|]. intros ->. contradiction.
Qed.
End Sums.
Lemma zsum_map {A B} (f : B -> Z) (g : A -> B) l : zsum f (map g l) = zsum (fun x => f (g x)) l.
Proof. induction l as [|x l IH]; [reflexivity|]. cbn [map]. rewrite !zsum_cons, IH. reflexivity. Qed.
Lemma zsum_swap {A B} (f : A -> B -> Z) l m : zsum (fun x => zsum (f x) m) l = zsum (fun y => zsum (fun x => f x y) l) m.
Proof.
  induction l as [|x l IH]; [symmetry; apply zsum_zero; reflexivity|]. rewrite zsum_cons, IH, <- zsum_add. apply zsum_ext. intros y _. reflexivity.
Qed.
Lemma zsum_flat {A B} (f : B -> Z) (g : A -> list B) l : zsum f (flat_map g l) = zsum (fun x => zsum f (g x)) l.
Proof. induction l as [|x l IH]; [reflexivity|]. cbn [flat_map]. rewrite zsum_app, zsum_cons, IH. reflexivity. Qed.

(** ** Polynomials of a degree *)
Definition deg (f : N) : nat := N.to_nat (N.log2 f).
Definition polys (n : nat) : list N := map N.of_nat (seq (2 ^ n) (2 ^ n)).
Lemma deg_bounds f n : f <> 0%N -> (deg f = n <-> (N.of_nat (2 ^ n) <= f < N.of_nat (2 ^ (S n)))%N).
Proof.
  intros F. rewrite !Nat2N.inj_pow, (Nat2N.inj_succ n). change (N.of_nat 2) with 2%N. unfold deg. pose proof (N.log2_spec f ltac:(lia)) as L. split.
  - intros <-. rewrite N2Nat.id. exact L.
  - intros H. rewrite (N.log2_unique f (N.of_nat n) (N.le_0_l _) H). apply Nat2N.id.
Qed.
Lemma in_polys f n : In f (polys n) <-> f <> 0%N /\ deg f = n.
Proof.
  unfold polys. rewrite in_map_iff. assert (P : (0 < 2 ^ n)%nat) by (pose proof (Nat.pow_nonzero 2 n); lia). split.
  - intros (k & <- & I). apply in_seq in I. assert (N0 : N.of_nat k <> 0%N) by lia. split; [exact N0|]. apply deg_bounds; [exact N0|]. cbn [Nat.pow]. lia.
  - intros (F & D). apply (deg_bounds f n F) in D. cbn [Nat.pow] in D. exists (N.to_nat f). split; [apply N2Nat.id|]. apply in_seq. lia.
Qed.
Lemma polys_nodup n : NoDup (polys n).
Proof. apply FinFun.Injective_map_NoDup; [intros x y; lia|apply seq_NoDup]. Qed.
Definition odds (n : nat) : list N := filter N.odd (polys n).
Lemma in_odds f n : In f (odds n) <-> N.odd f = true /\ deg f = n.
Proof. unfold odds. rewrite filter_In, in_polys. split; [tauto|]. intros (O & D). split; [|exact O]. split; [|exact D]. intros ->. discriminate O. Qed.
Lemma odds_nodup n : NoDup (odds n). Proof. apply NoDup_filter, polys_nodup. Qed.
Lemma odd_nz f : N.odd f = true -> f <> 0%N. Proof. intros O ->. discriminate O. Qed.
Lemma deg_mul f g : f <> 0%N -> g <> 0%N -> deg (pmul f g) = (deg f + deg g)%nat.
Proof. intros F G. unfold deg. rewrite pmul_log2 by assumption. lia. Qed.
Lemma deg0 f : f <> 0%N -> deg f = 0%nat -> f = 1%N.
Proof. intros F D. apply (deg_bounds f 0 F) in D. cbn in D. lia. Qed.
Lemma conv_0 a b : conv a b 0 = (a 0 && b 0)%nat%bool. Proof. unfold conv. cbn. apply xorb_false_r. Qed.
Lemma odd_bit f : N.odd f = N.testbit f 0. Proof. symmetry. apply N.bit0_odd. Qed.
Lemma odd_mul f g : N.odd (pmul f g) = (N.odd f && N.odd g)%bool.
Proof. rewrite !odd_bit. pose proof (Irr_Props.pmul_bit f g 0) as H. rewrite conv_0 in H. exact H. Qed.
Lemma low_mul f g : N.odd f = true -> N.odd g = true -> N.testbit (pmul f g) 1 = xorb (N.testbit f 1) (N.testbit g 1).
Proof.
  rewrite !odd_bit. intros F G. pose proof (Irr_Props.pmul_bit f g 1) as H. rewrite Irr_Props.conv_S, conv_0 in H. unfold Irr_Props.bitf in H.
  change (N.of_nat 0) with 0%N in H. change (N.of_nat 1) with 1%N in H. rewrite F, G in H. cbn [andb] in H. rewrite andb_true_r in H. rewrite H. apply xorb_comm.
Qed.
(** the coefficient after the leading one *)
Definition top (f : N) : bool := match deg f with O => false | S k => Irr_Props.bitf f k end.
Lemma bit_deg f : f <> 0%N -> Irr_Props.bitf f (deg f) = true.
Proof. intros F. unfold Irr_Props.bitf, deg. rewrite N2Nat.id. now apply N.bit_log2. Qed.
Lemma bit_above f n : (deg f < n)%nat -> Irr_Props.bitf f n = false.
Proof. intros H. unfold Irr_Props.bitf. apply N.bits_above_log2. unfold deg in H. lia. Qed.
Lemma xor_fold_app l l' : fold_right xorb false (l ++ l') = xorb (fold_right xorb false l) (fold_right xorb false l').
Proof. induction l as [|x l IH]; [now rewrite xorb_false_l|]. cbn [app fold_right]. rewrite IH. now rewrite xorb_assoc. Qed.
Lemma top_mul f g : f <> 0%N -> g <> 0%N -> top (pmul f g) = xorb (top f) (top g).
Proof.
  intros F G. unfold top at 1. rewrite deg_mul by assumption. unfold top.
  destruct (deg f) as [|a] eqn:Df, (deg g) as [|b] eqn:Dg; cbn [Nat.add].
  - reflexivity.
  - apply deg0 in Df; [|assumption]. subst f. rewrite pmul_1_l. symmetry. apply xorb_false_l.
  - apply deg0 in Dg; [|assumption]. subst g. rewrite pmul_1_r, Nat.add_0_r. symmetry. apply xorb_false_r.
  - rewrite Irr_Props.pmul_bit. unfold conv.
    replace (seq 0 (S (a + S b))) with (seq 0 a ++ [a; S a] ++ seq (S (S a)) b) by (change [a; S a] with (seq (0 + a) 2); replace (S (S a)) with (0 + a + 2)%nat by lia; rewrite <- !seq_app; f_equal; lia).
    rewrite !map_app, !xor_fold_app.
    rewrite (Irr_Props.fold_xor_false (map _ (seq 0 a))), (Irr_Props.fold_xor_false (map _ (seq (S (S a)) b))), xorb_false_l, xorb_false_r.
    + cbn [map fold_right]. rewrite xorb_false_r. replace (a + S b - a)%nat with (S b) by lia. replace (a + S b - S a)%nat with b by lia.
      pose proof (bit_deg f F) as Bf. pose proof (bit_deg g G) as Bg. rewrite Df in Bf. rewrite Dg in Bg. rewrite Bf, Bg, andb_true_r. reflexivity.
    + intros x I. apply in_map_iff in I. destruct I as (i & <- & I). apply in_seq in I. rewrite (bit_above f) by lia. reflexivity.
    + intros x I. apply in_map_iff in I. destruct I as (i & <- & I). apply in_seq in I. rewrite (bit_above g) by lia. apply andb_false_r.
Qed.
(** ** The character *)
Definition sign (b : bool) : Z := if b then -1 else 1.
Definition chi (f : N) : Z := sign (xorb (top f) (N.testbit f 1)).
Lemma sign_xor a b : sign (xorb a b) = sign a * sign b. Proof. destruct a, b; reflexivity. Qed.
Lemma chi_mul f g : N.odd f = true -> N.odd g = true -> chi (pmul f g) = chi f * chi g.
Proof.
  intros F G. unfold chi. rewrite top_mul, low_mul by (assumption || now apply odd_nz). rewrite <- sign_xor. f_equal.
  destruct (top f), (top g), (N.testbit f 1), (N.testbit g 1); reflexivity.
Qed.
Lemma odd_pow f e : N.odd f = true -> N.odd (ppow f e) = true.
Proof. intros F. induction e as [|e IH]; [reflexivity|]. cbn [ppow]. now rewrite odd_mul, F, IH. Qed.
Lemma chi_pow f e : N.odd f = true -> chi (ppow f e) = chi f ^ Z.of_nat e.
Proof.
  intros F. induction e as [|e IH]; [reflexivity|]. cbn [ppow]. rewrite chi_mul, IH by (assumption || now apply odd_pow). rewrite Nat2Z.inj_succ, Z.pow_succ_r by lia. reflexivity.
Qed.
Lemma deg_pow f e : f <> 0%N -> ppow f e <> 0%N /\ deg (ppow f e) = (deg f * e)%nat.
Proof.
  intros F. induction e as [|e (IH1 & IH2)]; [split; [discriminate|cbn; lia]|]. cbn [ppow]. split; [now apply pmul_nz|]. rewrite deg_mul, IH2 by assumption. lia.
Qed.
(** its sums *)
Definition S_ (n : nat) : Z := zsum chi (odds n).
Lemma S_0 : S_ 0 = 1. Proof. vm_compute. reflexivity. Qed.
Lemma S_1 : S_ 1 = 1. Proof. vm_compute. reflexivity. Qed.
Lemma S_2 : S_ 2 = 2. Proof. vm_compute. reflexivity. Qed.
(** the other coefficient can be changed *)
Lemma S_large n : (3 <= n)%nat -> S_ n = 0.
Proof.
  intros Hn. assert (E : S_ n = zsum (fun f => chi (N.lxor f 2)) (odds n)).
  { rewrite <- (zsum_map chi (fun f => N.lxor f 2)). apply zsum_perm. apply NoDup_Permutation; [apply odds_nodup| |].
    - apply FinFun.Injective_map_NoDup; [|apply odds_nodup]. intros x y H. apply (f_equal (fun z => N.lxor z 2)) in H. rewrite !N.lxor_assoc, N.lxor_nilpotent, !N.lxor_0_r in H. exact H.
    - assert (K : forall f, In f (odds n) -> In (N.lxor f 2) (odds n)).
      { intros f H. apply in_odds in H. destruct H as (O & D). apply in_odds. split.
        - rewrite odd_bit in *. rewrite N.lxor_spec, O. reflexivity.
        - unfold deg in *. rewrite N.lxor_comm, log2_lxor_lt; [exact D|]. change (N.log2 2) with 1%N. lia. }
      intros f. rewrite in_map_iff. split.
      + intros H. exists (N.lxor f 2). split; [rewrite N.lxor_assoc, N.lxor_nilpotent; apply N.lxor_0_r|now apply K].
      + intros (g & <- & H). now apply K. }
  assert (F : zsum (fun f => chi (N.lxor f 2)) (odds n) = - S_ n).
  { replace (- S_ n) with ((-1) * S_ n) by lia. unfold S_ at 1. rewrite <- zsum_mul. apply zsum_ext. intros f H. apply in_odds in H. destruct H as (O & D).
    unfold chi. rewrite N.lxor_spec. change (N.testbit 2 1) with true. rewrite xorb_true_r. unfold top.
    assert (DX : deg (N.lxor f 2) = n) by (unfold deg in *; rewrite N.lxor_comm, log2_lxor_lt; [exact D|change (N.log2 2) with 1%N; lia]). rewrite DX, D.
    destruct n as [|k]; [lia|]. unfold Irr_Props.bitf. rewrite N.lxor_spec. change 2%N with (2 ^ 1)%N at 1. rewrite N.pow2_bits_false by lia. rewrite xorb_false_r.
    destruct (N.testbit f (N.of_nat k)), (N.testbit f 1); reflexivity. }
  lia.
Qed.

(** ** Irreducible polynomials *)
Definition upto (n : nat) : list N := map N.of_nat (seq 0 (2 ^ S n)).
Lemma in_upto f n : f <> 0%N -> (deg f <= n)%nat -> In f (upto n).
Proof.
  intros F D. apply in_map_iff. exists (N.to_nat f). split; [apply N2Nat.id|]. apply in_seq. pose proof (proj1 (deg_bounds f _ F) eq_refl) as (_ & L).
  pose proof (Nat.pow_le_mono_r 2 (S (deg f)) (S n) ltac:(lia) ltac:(lia)). lia.
Qed.
Definition irr_b (f : N) : bool :=
  (1 <? f)%N && forallb (fun a => forallb (fun b => if (f =? pmul a b)%N then (a =? 1)%N || (b =? 1)%N else true) (upto (deg f))) (upto (deg f)).
Lemma irr_iff f : irr_b f = true <-> irreducible f.
Proof.
  unfold irr_b, irreducible. rewrite andb_true_iff, N.ltb_lt. split; intros (L & H); (split; [exact L|]).
  - intros a b E. assert (a <> 0%N) by (intros ->; rewrite pmul_0_l in E; lia). assert (b <> 0%N) by (intros ->; rewrite pmul_0_r in E; lia).
    pose proof (deg_mul a b ltac:(assumption) ltac:(assumption)) as D. rewrite <- E in D.
    rewrite forallb_forall in H. specialize (H a ltac:(apply in_upto; [assumption|lia])). rewrite forallb_forall in H. specialize (H b ltac:(apply in_upto; [assumption|lia])).
    rewrite (proj2 (N.eqb_eq _ _) E) in H. apply orb_true_iff in H. rewrite !N.eqb_eq in H. exact H.
  - apply forallb_forall. intros a _. apply forallb_forall. intros b _. destruct (N.eqb_spec f (pmul a b)) as [E|]; [|reflexivity].
    destruct (H a b E) as [->| ->]; [reflexivity|apply orb_true_r].
Qed.
Definition dvd_b (d f : N) : bool := existsb (fun q => (f =? pmul d q)%N) (upto (deg f)).
Lemma dvd_iff d f : f <> 0%N -> (dvd_b d f = true <-> pdvd d f).
Proof.
  intros F. unfold dvd_b, pdvd. rewrite existsb_exists. split.
  - intros (q & _ & E). apply N.eqb_eq in E. now exists q.
  - intros (q & E). exists q. split; [|now apply N.eqb_eq]. assert (d <> 0%N) by (intros ->; rewrite pmul_0_l in E; contradiction).
    assert (q <> 0%N) by (intros ->; rewrite pmul_0_r in E; contradiction). apply in_upto; [assumption|]. rewrite E, deg_mul by assumption. lia.
Qed.
Lemma irr_factor f : (1 < f)%N -> exists d, irreducible d /\ pdvd d f.
Proof.
  intros L. assert (F : f <> 0%N) by lia. destruct (existsb (fun d => if irr_b d then dvd_b d f else false) (upto (deg f))) eqn:E.
  - apply existsb_exists in E. destruct E as (d & _ & E). exists d. destruct (irr_b d) eqn:I; [|discriminate E]. split; [now apply irr_iff|now apply dvd_iff].
  - exfalso. apply (has_irreducible_factor f L). intros (d & I & D). rewrite <- not_true_iff_false in E. apply E. apply existsb_exists. exists d. split.
    + pose proof (pdvd_log2 d f D F). apply in_upto; [destruct I; lia|unfold deg; lia].
    + rewrite (proj2 (irr_iff d) I). now apply dvd_iff.
Qed.
(** the odd ones up to a degree *)
Definition irrs (n : nat) : list N := flat_map (fun k => filter irr_b (odds k)) (seq 1 n).
Lemma in_irrs f n : In f (irrs n) <-> irreducible f /\ N.odd f = true /\ (deg f <= n)%nat.
Proof.
  unfold irrs. rewrite in_flat_map. split.
  - intros (k & K & I). apply filter_In in I. destruct I as (I & J). apply in_odds in I. apply in_seq in K. split; [now apply irr_iff|]. split; [apply I|lia].
  - intros (I & O & D). exists (deg f). split; [|apply filter_In; split; [now apply in_odds|now apply irr_iff]]. apply in_seq.
    assert (deg f <> 0%nat); [|lia]. intros E. apply deg0 in E; [|now apply odd_nz]. destruct I as (I & _). lia.
Qed.
Lemma irrs_nodup n : NoDup (irrs n).
Proof.
  assert (G : forall l, NoDup l -> NoDup (flat_map (fun k => filter irr_b (odds k)) l)).
  { intros l N. induction N as [|k l Nk N IH]; [constructor|]. cbn [flat_map].
    assert (D : forall x, In x (filter irr_b (odds k)) -> ~ In x (flat_map (fun k => filter irr_b (odds k)) l)).
    { intros x X Y. apply filter_In in X. destruct X as (X & _). apply in_odds in X. apply in_flat_map in Y. destruct Y as (j & J & Y). apply filter_In in Y. destruct Y as (Y & _). apply in_odds in Y.
      assert (j = k) by (destruct X, Y; congruence). subst j. contradiction. }
    assert (NF : NoDup (filter irr_b (odds k))) by apply NoDup_filter, odds_nodup. revert D NF. generalize (filter irr_b (odds k)) as u. intros u. induction u as [|x u IHu]; intros D NF; [exact IH|].
    cbn [app]. inversion NF; subst. constructor; [|apply IHu; [intros y Y; apply D; now right|assumption]]. rewrite in_app_iff. intros [X|X]; [contradiction|]. exact (D x (or_introl eq_refl) X). }
  apply G, seq_NoDup.
Qed.
Lemma irr_deg f : irreducible f -> (0 < deg f)%nat.
Proof. intros (L & _). destruct (deg f) eqn:D; [|lia]. apply deg0 in D; [lia|lia]. Qed.

(** ** The degree is the sum over the powers of irreducible polynomials that divide *)
Lemma pow_coprime p q g e : irreducible p -> irreducible q -> p <> q -> pdvd (ppow p e) (pmul q g) -> pdvd (ppow p e) g.
Proof.
  intros Ip Iq N. revert g. induction e as [|e IH]; intros g H; [exists g; symmetry; apply pmul_1_l|].
  cbn [ppow] in *. assert (H1 : pdvd p (pmul q g)) by (eapply pdvd_trans; [|exact H]; now exists (ppow p e)).
  destruct (euclid p q g Ip H1) as [X|(h & ->)].
  { destruct (irreducible_dvd q p Iq X) as [->| ->]; [destruct Ip; lia|contradiction]. }
  destruct H as (k & H). assert (P0 : p <> 0%N) by (destruct Ip; lia).
  assert (H2 : pdvd (ppow p e) (pmul q h)).
  { exists k. apply (pmul_cancel p _ _ P0). rewrite pmul_assoc, (pmul_assoc p (ppow p e) k), <- H, !pmul_assoc, (pmul_comm q p). reflexivity. }
  apply IH in H2. destruct H2 as (j & ->). exists j. now rewrite pmul_assoc.
Qed.
Lemma pow_same p g e : p <> 0%N -> pdvd (ppow p (S e)) (pmul p g) <-> pdvd (ppow p e) g.
Proof.
  intros P0. cbn [ppow]. split; intros (k & H); exists k.
  - apply (pmul_cancel p _ _ P0). now rewrite pmul_assoc.
  - now rewrite H, pmul_assoc.
Qed.
Lemma bool_eq a b : (a = true <-> b = true) -> a = b.
Proof. destruct a, b; intuition congruence. Qed.
Definition weight (n : nat) (f : N) : Z := zsum (fun p => zsum (fun e => if dvd_b (ppow p e) f then Z.of_nat (deg p) else 0) (seq 1 n)) (irrs n).
Lemma weight_ok n : forall k f, deg f = k -> N.odd f = true -> (deg f <= n)%nat -> weight n f = Z.of_nat (deg f).
Proof.
  intros k. induction k as [k IH] using lt_wf_ind. intros f Dk O L. pose proof (odd_nz f O) as F0. destruct (Nat.eq_dec (deg f) 0) as [D|D].
  - apply deg0 in D; [|exact F0]. subst f. apply zsum_zero. intros p Hp. apply in_irrs in Hp. destruct Hp as (Ip & _ & _). apply zsum_zero. intros e He. apply in_seq in He.
    destruct (dvd_b (ppow p e) 1) eqn:E; [|reflexivity]. apply dvd_iff in E; [|discriminate]. apply pdvd_1 in E. pose proof (irr_deg p Ip).
    assert (P0 : p <> 0%N) by (destruct Ip; lia). destruct (deg_pow p e P0) as (_ & Dp). rewrite E in Dp. cbn in Dp. nia.
  - assert (F1 : (1 < f)%N). { destruct (N.eq_dec f 1) as [->|]; [cbn in D; lia|lia]. }
    destruct (irr_factor f F1) as (q & Iq & (g & E)). assert (Q0 : q <> 0%N) by (destruct Iq; lia). pose proof (irr_deg q Iq) as Dq.
    assert (Og : N.odd g = true /\ N.odd q = true) by (rewrite E, odd_mul, andb_true_iff in O; tauto). destruct Og as (Og & Oq). pose proof (odd_nz g Og) as G0.
    assert (DE : deg f = (deg q + deg g)%nat) by (rewrite E; now apply deg_mul).
    rewrite DE, Nat2Z.inj_add, <- (IH (deg g) ltac:(lia) g eq_refl Og ltac:(lia)).
    replace (weight n f) with (zsum (fun p => (if (p =? q)%N then Z.of_nat (deg q) else 0) + zsum (fun e => if dvd_b (ppow p e) g then Z.of_nat (deg p) else 0) (seq 1 n)) (irrs n)).
    + rewrite zsum_add. f_equal. rewrite (zsum_one _ _ q); [now rewrite N.eqb_refl|apply irrs_nodup|apply in_irrs; split; [exact Iq|split; [exact Oq|lia]]|].
      intros x _ N. destruct (N.eqb_spec x q); [contradiction|reflexivity].
    + unfold weight. apply zsum_ext. intros p Hp. apply in_irrs in Hp. destruct Hp as (Ip & Op & Dp). destruct (N.eqb_spec p q) as [->|N].
      * (* the same factor *)
        assert (X : forall e, dvd_b (ppow q (S e)) f = dvd_b (ppow q e) g).
        { intros e. apply bool_eq. rewrite !dvd_iff by assumption. rewrite E. now apply pow_same. }
        destruct n as [|n]; [lia|].
        assert (R : zsum (fun e => if dvd_b (ppow q e) f then Z.of_nat (deg q) else 0) (seq 1 (S n)) = Z.of_nat (deg q) + zsum (fun e => if dvd_b (ppow q e) g then Z.of_nat (deg q) else 0) (seq 1 n)).
        { cbn [seq]. rewrite zsum_cons, <- seq_shift, zsum_map. cbv beta. rewrite X. replace (dvd_b (ppow q 0) g) with true by (symmetry; apply dvd_iff; [assumption|exists g; symmetry; apply pmul_1_l]).
          f_equal. apply zsum_ext. intros e _. now rewrite X. }
        rewrite R, (seq_S n 1), zsum_app. 
        replace (zsum (fun e => if dvd_b (ppow q e) g then Z.of_nat (deg q) else 0) [1 + n]%nat) with 0; [lia|]. rewrite zsum_cons. cbn [zsum fold_right].
        destruct (dvd_b (ppow q (1 + n)) g) eqn:Y; [|lia]. apply dvd_iff in Y; [|assumption]. pose proof (pdvd_log2 _ _ Y G0) as Z1. destruct (deg_pow q (1 + n) Q0) as (_ & Z2). unfold deg in *. nia.
      * rewrite Z.add_0_l. apply zsum_ext. intros e _. replace (dvd_b (ppow p e) f) with (dvd_b (ppow p e) g); [reflexivity|].
        apply bool_eq. rewrite !dvd_iff by assumption. rewrite E. split; [intros X; now apply pdvd_mul_r|now apply pow_coprime].
Qed.

(** ** Newton's identities *)
Lemma multiples h n : N.odd h = true -> zsum (fun f => if dvd_b h f then chi f else 0) (odds n) = if (deg h <=? n)%nat then chi h * S_ (n - deg h) else 0.
Proof.
  intros O. pose proof (odd_nz h O) as H0. destruct (Nat.leb_spec (deg h) n) as [L|L].
  - rewrite <- zsum_filter. unfold S_. rewrite <- zsum_mul. rewrite (zsum_ext (fun f => chi h * chi f) (fun f => chi (pmul h f))) by (intros f I; apply in_odds in I; now rewrite chi_mul).
    rewrite <- (zsum_map chi (pmul h)). apply zsum_perm. apply NoDup_Permutation; [apply NoDup_filter, odds_nodup| |].
    + apply FinFun.Injective_map_NoDup; [intros x y; now apply pmul_cancel|apply odds_nodup].
    + intros f. rewrite filter_In, in_map_iff, in_odds. split.
      * intros ((Of & Df) & D). apply dvd_iff in D; [|now apply odd_nz]. destruct D as (g & ->). exists g. split; [reflexivity|]. apply in_odds.
        rewrite odd_mul, andb_true_iff in Of. destruct Of as (_ & Og). split; [exact Og|]. rewrite deg_mul in Df by (assumption || now apply odd_nz). lia.
      * intros (g & <- & I). apply in_odds in I. destruct I as (Og & Dg). pose proof (odd_nz g Og) as G0. split; [split; [rewrite odd_mul, O, Og; reflexivity|rewrite deg_mul by assumption; lia]|].
        apply dvd_iff; [now apply pmul_nz|]. now exists g.
  - apply zsum_zero. intros f I. apply in_odds in I. destruct I as (Of & Df). destruct (dvd_b h f) eqn:D; [|reflexivity]. apply dvd_iff in D; [|now apply odd_nz].
    apply pdvd_log2 in D; [|now apply odd_nz]. unfold deg in *. lia.
Qed.
(** the power sums *)
Definition T_ (k : nat) : Z := zsum (fun p => if (k mod deg p =? 0)%nat then Z.of_nat (deg p) * chi p ^ Z.of_nat (k / deg p) else 0) (irrs k).
Definition part (n k : nat) : Z := zsum (fun p => zsum (fun e => if (deg p * e =? k)%nat then Z.of_nat (deg p) * chi p ^ Z.of_nat e else 0) (seq 1 n)) (irrs n).
Lemma part_ok n k : (1 <= k <= n)%nat -> part n k = T_ k.
Proof.
  intros H. unfold part, T_.
  rewrite (zsum_ext _ (fun p => if (k mod deg p =? 0)%nat then Z.of_nat (deg p) * chi p ^ Z.of_nat (k / deg p) else 0)).
  - unfold irrs. replace n with (k + (n - k))%nat by lia. rewrite seq_app, flat_map_app, zsum_app. rewrite (zsum_zero _ (flat_map _ (seq (1 + k) (n - k)))); [lia|].
    intros p I. apply in_flat_map in I. destruct I as (j & J & I). apply in_seq in J. apply filter_In in I. destruct I as (I & _). apply in_odds in I. destruct I as (_ & D).
    destruct (Nat.eqb_spec (k mod deg p) 0) as [E|]; [|reflexivity]. rewrite Nat.mod_small in E by lia. lia.
  - intros p I. apply in_irrs in I. destruct I as (I & _ & _). pose proof (irr_deg p I) as D. destruct (Nat.eqb_spec (k mod deg p) 0) as [E|E].
    + apply Nat.mod_divides in E; [|lia]. destruct E as (e & ->). assert (He : (1 <= e)%nat) by nia. assert (He2 : (e <= n)%nat) by nia.
      rewrite (zsum_one _ _ e); [|apply seq_NoDup|apply in_seq; lia|].
      * rewrite Nat.eqb_refl. rewrite (Nat.mul_comm (deg p) e), Nat.div_mul by lia. reflexivity.
      * intros x _ N. destruct (Nat.eqb_spec (deg p * x) (deg p * e)) as [X|]; [|reflexivity]. exfalso. nia.
    + apply zsum_zero. intros e _. destruct (Nat.eqb_spec (deg p * e) k) as [X|]; [|reflexivity]. exfalso. apply E. rewrite <- X, Nat.mul_comm. apply Nat.mod_mul. lia.
Qed.
Lemma newton n : Z.of_nat n * S_ n = zsum (fun p => zsum (fun e => Z.of_nat (deg p) * (if (deg p * e <=? n)%nat then chi p ^ Z.of_nat e * S_ (n - deg p * e) else 0)) (seq 1 n)) (irrs n).
Proof.
  unfold S_ at 1. rewrite <- zsum_mul. rewrite (zsum_ext _ (fun f => zsum (fun p => zsum (fun e => if dvd_b (ppow p e) f then Z.of_nat (deg p) * chi f else 0) (seq 1 n)) (irrs n))).
  - rewrite zsum_swap. apply zsum_ext. intros p I. apply in_irrs in I. destruct I as (I & O & D). rewrite zsum_swap. apply zsum_ext. intros e _.
    rewrite (zsum_ext _ (fun f => Z.of_nat (deg p) * if dvd_b (ppow p e) f then chi f else 0)) by (intros f _; destruct (dvd_b (ppow p e) f); lia).
    rewrite zsum_mul, multiples by now apply odd_pow. destruct (deg_pow p e (odd_nz p O)) as (_ & ->). rewrite chi_pow by exact O. reflexivity.
  - intros f I. apply in_odds in I. destruct I as (O & D). rewrite <- D at 1. rewrite <- (weight_ok n (deg f) f eq_refl O ltac:(lia)).
    unfold weight. rewrite Z.mul_comm, <- zsum_mul. apply zsum_ext. intros p _. rewrite <- zsum_mul. apply zsum_ext. intros e _. destruct (dvd_b (ppow p e) f); lia.
Qed.
Lemma newton_parts n : (3 <= n)%nat -> 0 = part n n + part n (n - 1) + 2 * part n (n - 2).
Proof.
  intros H. pose proof (newton n) as E. rewrite (S_large n H), Z.mul_0_r in E. rewrite E. unfold part. rewrite <- zsum_mul, <- !zsum_add. apply zsum_ext. intros p I. apply in_irrs in I. destruct I as (I & _ & _).
  rewrite <- zsum_mul, <- !zsum_add. apply zsum_ext. intros e _. set (k := (deg p * e)%nat).
  destruct (Nat.leb_spec k n) as [L|L].
  - destruct (Nat.eqb_spec k n) as [->|]; [|destruct (Nat.eqb_spec k (n - 1)) as [->|]; [|destruct (Nat.eqb_spec k (n - 2)) as [->|]]].
    + destruct (Nat.eqb_spec n (n - 1)); [lia|]. destruct (Nat.eqb_spec n (n - 2)); [lia|]. rewrite Nat.sub_diag, S_0. lia.
    + destruct (Nat.eqb_spec (n - 1) (n - 2)); [lia|]. replace (n - (n - 1))%nat with 1%nat by lia. rewrite S_1. lia.
    + replace (n - (n - 2))%nat with 2%nat by lia. rewrite S_2. lia.
    + rewrite S_large by lia. lia.
  - destruct (Nat.eqb_spec k n); [lia|]. destruct (Nat.eqb_spec k (n - 1)); [lia|]. destruct (Nat.eqb_spec k (n - 2)); lia.
Qed.
Lemma T_1 : T_ 1 = 1. Proof. vm_compute. reflexivity. Qed.
Lemma T_2 : T_ 2 = 3. Proof. vm_compute. reflexivity. Qed.
Theorem T_rec n : (1 <= n)%nat -> T_ (S (S n)) = - T_ (S n) - 2 * T_ n.
Proof.
  intros H. pose proof (newton_parts (S (S n)) ltac:(lia)) as E. rewrite !part_ok in E by lia. replace (S (S n) - 1)%nat with (S n) in E by lia. replace (S (S n) - 2)%nat with n in E by lia. lia.
Qed.
