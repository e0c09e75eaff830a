(** C42: the tabulated polynomials are irreducible. *)
From Verif Require Import Base Poly_Tables Poly_Model Poly_Props GF2 GF2_Test Irr_Spec.
Local Open Scope N_scope.

(** ** Coefficient lists and numbers *)
Fixpoint to_N (c : list Z) : N :=
  match c with [] => 0 | z :: c => if Z.odd z then N.succ_double (to_N c) else N.double (to_N c) end.
Definition of_N (a : N) : list Z := map (fun i => Z.b2z (N.testbit a (N.of_nat i))) (seq 0 (N.to_nat (N.size a))).

Lemma testbit_dbl_S : forall a n, N.testbit (N.double a) (N.of_nat (S n)) = N.testbit a (N.of_nat n).
Proof. intros. rewrite N.double_spec, Nat2N.inj_succ, N.testbit_even_succ by lia. auto. Qed.
Lemma testbit_sd_S : forall a n, N.testbit (N.succ_double a) (N.of_nat (S n)) = N.testbit a (N.of_nat n).
Proof. intros. rewrite N.succ_double_spec, Nat2N.inj_succ, N.testbit_odd_succ by lia. auto. Qed.
Lemma testbit_dbl_0 : forall a, N.testbit (N.double a) 0 = false.
Proof. destruct a; auto. Qed.
Lemma testbit_sd_0 : forall a, N.testbit (N.succ_double a) 0 = true.
Proof. destruct a; auto. Qed.

Lemma to_N_bit : forall c n, N.testbit (to_N c) (N.of_nat n) = coef c n.
Proof.
  unfold coef. induction c as [|z c IH]; intros n; [destruct n; apply N.bits_0|]. cbn [to_N].
  destruct n as [|n]; cbn [nth].
  - change (N.of_nat 0) with 0. destruct (Z.odd z); [apply testbit_sd_0|apply testbit_dbl_0].
  - destruct (Z.odd z); rewrite ?testbit_sd_S, ?testbit_dbl_S; apply IH.
Qed.

Lemma of_N_bit : forall a n, coef (of_N a) n = N.testbit a (N.of_nat n).
Proof.
  intros. unfold coef, of_N. destruct (Nat.lt_ge_cases n (N.to_nat (N.size a))) as [L|L].
  - rewrite (nth_indep _ 0%Z (Z.b2z (N.testbit a (N.of_nat 0)))) by (rewrite map_length, seq_length; auto).
    rewrite (map_nth (fun i => Z.b2z (N.testbit a (N.of_nat i)))). rewrite seq_nth by auto. simpl. destruct (N.testbit a _); auto.
  - rewrite nth_overflow by (rewrite map_length, seq_length; auto). symmetry. simpl.
    destruct (N.eq_dec a 0) as [->|A]; [apply N.bits_0|]. apply N.bits_above_log2. rewrite N.size_log2 in L by auto. lia.
Qed.

Definition bitf (a : N) (i : nat) : bool := N.testbit a (N.of_nat i).

Lemma fold_xor_false : forall l, (forall b, In b l -> b = false) -> fold_right xorb false l = false.
Proof. induction l; simpl; intros H; auto. rewrite (H a), IHl; auto. Qed.

Lemma conv_S : forall a b n, conv a b (S n) = xorb (a O && b (S n)) (conv (fun i => a (S i)) b n).
Proof.
  intros. unfold conv. cbn [seq map fold_right]. f_equal.
  rewrite <- seq_shift, map_map. auto.
Qed.
Lemma conv_ext : forall a a' b b' n, (forall i, a i = a' i) -> (forall i, b i = b' i) -> conv a b n = conv a' b' n.
Proof. intros. unfold conv. f_equal. apply map_ext. intros. congruence. Qed.

Lemma pmul_bit : forall a b n, bitf (pmul a b) n = conv (bitf a) (bitf b) n.
Proof.
  induction a using N.binary_ind; intros b n.
  - unfold bitf at 1. rewrite pmul_0_l, N.bits_0. symmetry. apply fold_xor_false. intros x I. apply in_map_iff in I.
    destruct I as (i & <- & _). unfold bitf. rewrite N.bits_0. auto.
  - rewrite pmul_double. destruct n as [|n].
    + unfold conv, bitf. simpl. destruct a, (pmul _ b); auto.
    + rewrite conv_S. unfold bitf at 1. rewrite testbit_dbl_S. fold (bitf (pmul a b) n). rewrite IHa.
      unfold bitf at 3. change (N.of_nat 0) with 0. rewrite testbit_dbl_0. cbn [andb]. rewrite xorb_false_l.
      apply conv_ext; auto. intros. unfold bitf. rewrite testbit_dbl_S. auto.
  - rewrite pmul_sd. unfold bitf at 1. rewrite N.lxor_spec. destruct n as [|n].
    + unfold conv, bitf. cbn [seq map fold_right Nat.sub]. change (N.of_nat 0) with 0. rewrite testbit_dbl_0, testbit_sd_0.
      cbn [andb]. auto.
    + rewrite conv_S, testbit_dbl_S. fold (bitf (pmul a b) n) (bitf b (S n)). rewrite IHa. f_equal.
      * unfold bitf at 2. change (N.of_nat 0) with 0. rewrite testbit_sd_0. auto.
      * apply conv_ext; auto. intros. unfold bitf. rewrite testbit_sd_S. auto.
Qed.

Lemma bitf_inj : forall a b, (forall n, bitf a n = bitf b n) -> a = b.
Proof. intros. apply N.bits_inj. intros n. specialize (H (N.to_nat n)). unfold bitf in H. rewrite N2Nat.id in H. auto. Qed.

Lemma is_product_iff : forall c a b, is_product c a b <-> to_N c = pmul (to_N a) (to_N b).
Proof.
  intros. assert (E : forall n, conv (coef a) (coef b) n = bitf (pmul (to_N a) (to_N b)) n).
  { intros. rewrite pmul_bit. apply conv_ext; intros; symmetry; apply to_N_bit. }
  split.
  - intros H. apply bitf_inj. intros n. rewrite <- E, <- H. apply to_N_bit.
  - intros H n. rewrite E, <- H. symmetry. apply to_N_bit.
Qed.

Lemma degree_iff : forall k a, degree_at_most k a <-> to_N a < 2 ^ N.of_nat (S k).
Proof.
  intros. split.
  - intros H. apply lt_pow2_bits. intros i L. rewrite <- (N2Nat.id i), to_N_bit. apply H. lia.
  - intros H n L. rewrite <- to_N_bit. apply (bits_lt_pow2 _ _ H). lia.
Qed.
Lemma constant_iff : forall a, constant a <-> to_N a < 2.
Proof. intros. apply (degree_iff 0). Qed.

Lemma irreducible_of_N : forall c, irreducible (to_N c) -> irreducible_poly c.
Proof.
  intros c (L & H). split.
  - rewrite constant_iff. lia.
  - intros a b P. apply is_product_iff in P. rewrite !constant_iff. destruct (H _ _ P) as [-> | ->]; [left|right]; lia.
Qed.
Lemma irreducible_to_N : forall c, irreducible_poly c -> irreducible (to_N c).
Proof.
  intros c (L & H). rewrite constant_iff in L. split; [lia|]. intros a b E.
  assert (X : forall u, to_N (of_N u) = u).
  { intros. apply bitf_inj. intros. unfold bitf at 1. rewrite to_N_bit. apply of_N_bit. }
  destruct (H (of_N a) (of_N b)) as [P|P].
  - apply is_product_iff. rewrite !X. auto.
  - apply constant_iff in P. rewrite X in P. left. destruct (N.eq_dec a 0) as [->|]; [rewrite pmul_0_l in E; lia|lia].
  - apply constant_iff in P. rewrite X in P. right. destruct (N.eq_dec b 0) as [->|]; [rewrite pmul_0_r in E; lia|lia].
Qed.

(** ** C42 *)
(** "so the quotient is a field" *)
Theorem C42_quotient_field : forall c, irreducible_poly c -> quotient_field c.
Proof.
  intros c I a H. apply irreducible_to_N in I.
  assert (X : forall u, to_N (of_N u) = u).
  { intros. apply bitf_inj. intros. unfold bitf at 1. rewrite to_N_bit. apply of_N_bit. }
  destruct (bezout (to_N c) (to_N a)) as (g & u & v & E & D1 & D2).
  destruct (irreducible_dvd _ _ I D1) as [->|G].
  - exists (of_N v), (of_N u). intros n.
    assert (E2 : forall x y, conv (coef x) (coef (of_N y)) n = bitf (pmul (to_N x) y) n).
    { intros. rewrite pmul_bit. apply conv_ext; intros; [symmetry; apply to_N_bit|apply of_N_bit]. }
    rewrite !E2. unfold bitf. rewrite <- N.lxor_spec. change N.lxor with padd.
    rewrite (pmul_comm (to_N a)), (pmul_comm (to_N c)).
    assert (padd (pmul v (to_N a)) (pmul u (to_N c)) = 1) as -> by (rewrite E; apply N.lxor_comm).
    destruct n; auto.
  - exfalso. rewrite G in D2. destruct D2 as (q & D2). apply (H (of_N q)). apply is_product_iff. rewrite X. auto.
Qed.

Definition chk (m : Z) : bool :=
  match field_binaryr m with
  | Ok c => let f := to_N c in let n := N.to_nat (N.log2 f) in irreducible_b n (padd (2 ^ N.of_nat n) f)
  | _ => false
  end.
Lemma chk_ok : forall m, chk m = true -> exists c, field_binaryr m = Ok c /\ irreducible_poly c.
Proof.
  unfold chk. intros m H. destruct (field_binaryr m) as [c| | |]; try discriminate. exists c. split; auto.
  apply irreducible_of_N. apply irreducible_b_ok in H.
  unfold padd in H. rewrite <- N.lxor_assoc, N.lxor_nilpotent, N.lxor_0_l in H. auto.
Qed.

(** *** No small factors, for the whole table *)
Definition terms (p : polynomial) : list N := [Z.to_N (p_m p); Z.to_N (p_e1 p); Z.to_N (p_e2 p); Z.to_N (p_e3 p); 0].
Definition psum (l : list N) : N := fold_right padd 0 l.

Lemma psum_bit : forall l i, N.testbit (psum (map (fun e => 2 ^ e) l)) i = fold_right xorb false (map (fun e => e =? i) l).
Proof.
  induction l as [|e l IH]; intros i; cbn [map psum fold_right]; [apply N.bits_0|].
  unfold padd. rewrite N.lxor_spec. fold (psum (map (fun e => 2 ^ e) l)). rewrite IH. f_equal. apply N.pow2_bits_eqb.
Qed.

Lemma gen_terms : forall p, trinomial p \/ pentanomial p -> exists c, poly_gen p = Ok c /\ to_N c = psum (map (fun e => 2 ^ e) (terms p)).
Proof.
  intros p H. destruct (C41_coefficients p H) as (c & G & _ & C). exists c. split; auto.
  apply bitf_inj. intros n. unfold bitf. rewrite psum_bit, to_N_bit. unfold coef.
  specialize (C (Z.of_nat n) ltac:(lia)). rewrite Nat2Z.id in C. rewrite C. clear C. unfold terms. cbn [map fold_right].
  assert (Q : forall k, (0 <= k)%Z -> (Z.to_N k =? N.of_nat n) = (Z.of_nat n =? k)%Z) by (intros k K; lia).
  assert (Q0 : (0 =? N.of_nat n) = (Z.of_nat n =? 0)%Z) by lia. 
  destruct H as [H|H]; unfold trinomial, pentanomial in H.
  - destruct H as (H1 & -> & ->). rewrite !Q, Q0 by lia.
    destruct (Z.eqb_spec (Z.of_nat n) (p_m p)), (Z.eqb_spec (Z.of_nat n) (p_e1 p)), (Z.eqb_spec (Z.of_nat n) 0); try lia; auto.
  - rewrite !Q, Q0 by lia.
    destruct (Z.eqb_spec (Z.of_nat n) (p_m p)), (Z.eqb_spec (Z.of_nat n) (p_e1 p)), (Z.eqb_spec (Z.of_nat n) (p_e2 p)),
      (Z.eqb_spec (Z.of_nat n) (p_e3 p)), (Z.eqb_spec (Z.of_nat n) 0); try lia; auto.
Qed.

(** the powers x^0, ..., x^(n-1) modulo [d], where x^n = 1 *)
Fixpoint powers (n : nat) (d k cur : N) : list N :=
  match n with O => [] | S n => cur :: powers n d k (xstep d k cur) end.

Lemma powers_nth : forall n d k cur i, (i < n)%nat -> peqm d (nth i (powers n d k cur) 0) (pmul (ppow 2 i) cur).
Proof.
  induction n; intros d k cur i L; [lia|]. cbn [powers]. destruct i as [|i]; cbn [nth ppow].
  - rewrite pmul_1_l. apply peqm_refl.
  - eapply peqm_trans; [apply IHn; lia|]. rewrite (pmul_comm 2), <- pmul_assoc. apply peqm_mul; [apply peqm_refl|apply xstep_cong].
Qed.

Lemma ppow2 : forall i, 2 ^ N.of_nat i = ppow 2 i.
Proof.
  induction i; auto. rewrite Nat2N.inj_succ, N.pow_succ_r', IHi. cbn [ppow]. rewrite <- N.double_spec. auto.
Qed.
Lemma ppow_mul : forall a n q, ppow a (n * q) = ppow (ppow a n) q.
Proof. induction q; cbn [ppow]; [rewrite Nat.mul_0_r; auto|]. rewrite <- IHq, <- ppow_add. f_equal. lia. Qed.
Lemma ppow_peqm : forall d a b n, peqm d a b -> peqm d (ppow a n) (ppow b n).
Proof. induction n; intros; cbn [ppow]; [apply peqm_refl|]. apply peqm_mul; auto. Qed.
Lemma ppow_1 : forall n, ppow 1 n = 1.
Proof. induction n; auto. Qed.

(** [d], an exponent [n] with x^n = 1 modulo [d], and the table of powers *)
Record divisor := D { dv_d : N; dv_n : nat; dv_t : list N }.
Definition divisor_ok (v : divisor) : Prop :=
  1 < dv_d v /\ (0 < dv_n v)%nat /\ dv_t v = powers (dv_n v) (dv_d v) (N.log2 (dv_d v)) 1 /\ peqm (dv_d v) (ppow 2 (dv_n v)) 1.

Definition residue (v : divisor) (rs : list nat) : N := psum (map (fun r => nth r (dv_t v) 0) rs).

Lemma power_residue : forall v e, divisor_ok v ->
  peqm (dv_d v) (nth (N.to_nat (e mod N.of_nat (dv_n v))) (dv_t v) 0) (2 ^ e).
Proof.
  intros v e (D1 & Np & T & O). set (n := dv_n v) in *. set (r := N.to_nat (e mod N.of_nat n)).
  assert (R : (r < n)%nat) by (unfold r; assert (X := N.mod_lt e (N.of_nat n) ltac:(lia)); lia).
  rewrite T. eapply peqm_trans; [apply powers_nth; auto|]. rewrite pmul_1_r.
  rewrite <- (N2Nat.id e), ppow2.
  assert (N.to_nat e = (n * N.to_nat (e / N.of_nat n) + r)%nat) as ->.
  { assert (X := N.div_mod' e (N.of_nat n)). unfold r. lia. }
  rewrite ppow_add, ppow_mul. rewrite <- (pmul_1_l (ppow 2 r)) at 1. apply peqm_mul; [|apply peqm_refl].
  apply peqm_sym. rewrite <- (ppow_1 (N.to_nat (e / N.of_nat n))) at 1. apply ppow_peqm. auto.
Qed.

Lemma psum_peqm : forall d (f g : N -> N) l, (forall e, peqm d (f e) (g e)) -> peqm d (psum (map f l)) (psum (map g l)).
Proof.
  induction l as [|e l IH]; intros H; cbn [map psum fold_right]; [apply peqm_refl|].
  fold (psum (map f l)) (psum (map g l)). unfold peqm.
  replace (padd (padd (f e) (psum (map f l))) (padd (g e) (psum (map g l)))) with (padd (padd (f e) (g e)) (padd (psum (map f l)) (psum (map g l)))) by ring.
  apply pdvd_add; [apply H|apply IH; auto].
Qed.

Lemma residue_ok : forall v l, divisor_ok v ->
  peqm (dv_d v) (residue v (map (fun e => N.to_nat (e mod N.of_nat (dv_n v))) l)) (psum (map (fun e => 2 ^ e) l)).
Proof. intros. unfold residue. rewrite map_map. apply psum_peqm. intros. apply power_residue. auto. Qed.

Lemma powers_small : forall n d cur, 1 < d -> cur < 2 ^ N.log2 d -> forall i, nth i (powers n d (N.log2 d) cur) 0 < 2 ^ N.log2 d.
Proof.
  assert (Z : forall d, 0 < 2 ^ d) by (intros; apply N.neq_0_lt_0, N.pow_nonzero; lia).
  induction n; intros d cur H C i; cbn [powers]; [destruct i; apply Z|]. destruct i; cbn [nth]; auto.
  apply IHn; auto. apply xstep_lt; [lia|auto].
Qed.

Lemma residue_small : forall v rs, divisor_ok v -> residue v rs < 2 ^ N.log2 (dv_d v).
Proof.
  intros v rs (D1 & Np & T & O). unfold residue.
  assert (Z : forall d, 0 < 2 ^ d) by (intros; apply N.neq_0_lt_0, N.pow_nonzero; lia).
  assert (1 <= N.log2 (dv_d v)) by (assert (X := N.log2_pos _ D1); lia).
  induction rs as [|r rs IH]; cbn [map psum fold_right]; [apply Z|]. apply lxor_lt; auto.
  rewrite T. apply powers_small; auto. apply N.pow_gt_1; lia.
Qed.

Lemma residue_nz : forall v l, divisor_ok v -> residue v (map (fun e => N.to_nat (e mod N.of_nat (dv_n v))) l) <> 0 ->
  ~ pdvd (dv_d v) (psum (map (fun e => 2 ^ e) l)).
Proof.
  intros v l V H X. assert (R := residue_ok v l V). assert (S := residue_small v (map (fun e => N.to_nat (e mod N.of_nat (dv_n v))) l) V).
  apply H. apply (small_dvd (dv_d v)).
  - apply log2_small; auto. apply N.log2_pos. apply V.
  - unfold peqm in R. set (a := residue _ _) in *. set (b := psum _) in *.
    replace a with (padd (padd a b) b); [apply pdvd_add; auto|]. unfold padd. rewrite N.lxor_assoc, N.lxor_nilpotent, N.lxor_0_r. auto.
Qed.

(** the irreducible polynomials of degree at most 6 but x, by the order of x *)
Definition mkd (n : nat) (d : N) : divisor := D d n (powers n d (N.log2 d) 1).
Definition ds15 : list divisor := Eval vm_compute in map (mkd 15) [3; 7; 19; 25; 31].
Definition ds31 : list divisor := Eval vm_compute in map (mkd 31) [37; 41; 47; 55; 59; 61].
Definition ds63 : list divisor := Eval vm_compute in map (mkd 63) [11; 13; 67; 73; 87; 91; 97; 103; 109; 115; 117].

Definition divisor_b (v : divisor) : bool :=
  (1 <? dv_d v) && (0 <? dv_n v)%nat && (N.odd (dv_d v)) &&
  (if list_eq_dec N.eq_dec (dv_t v) (powers (dv_n v) (dv_d v) (N.log2 (dv_d v)) 1) then true else false) &&
  (xstep (dv_d v) (N.log2 (dv_d v)) (last (dv_t v) 0) =? 1).
Lemma divisor_b_ok : forall v, divisor_b v = true -> divisor_ok v.
Proof.
  intros v H. unfold divisor_b in H. rewrite !andb_true_iff in H. destruct H as ((((A & B) & O) & C) & E).
  destruct (list_eq_dec _ _ _) as [T|]; [|discriminate].
  apply N.ltb_lt in A. apply Nat.ltb_lt in B. apply N.eqb_eq in E.
  split; auto. split; auto. split; auto.
  destruct (dv_n v) as [|n] eqn:En; [lia|].
  assert (L : forall n d k cur, last (powers (S n) d k cur) 0 = nth n (powers (S n) d k cur) 0).
  { clear. induction n; intros; auto. cbn [powers] in *. specialize (IHn d k (xstep d k cur)). cbn [last nth] in *. auto. }
  rewrite T, L in E. cbn [ppow].
  apply peqm_sym. rewrite <- E at 1. eapply peqm_trans; [apply xstep_cong|]. apply peqm_mul; [apply peqm_refl|].
  eapply peqm_trans; [apply powers_nth; lia|]. rewrite pmul_1_r. apply peqm_refl.
Qed.

Definition all_ds : list divisor := ds15 ++ ds31 ++ ds63.
Lemma all_ds_ok : forall v, In v all_ds -> divisor_ok v.
Proof.
  assert (forallb divisor_b all_ds = true) by (vm_compute; reflexivity). rewrite forallb_forall in H.
  intros. apply divisor_b_ok. auto.
Qed.

Definition no_small_b (p : polynomial) : bool :=
  let t := terms p in
  forallb (fun g => let '(n, ds) := g in let rs := map (fun e => N.to_nat (e mod N.of_nat n)) t in
             forallb (fun v => (dv_n v =? n)%nat && negb (residue v rs =? 0)) ds)
    [(15%nat, ds15); (31%nat, ds31); (63%nat, ds63)].

Lemma no_small_b_ok : forall p, no_small_b p = true -> forall v, In v all_ds -> ~ pdvd (dv_d v) (psum (map (fun e => 2 ^ e) (terms p))).
Proof.
  intros p H v I. unfold no_small_b in H. cbv zeta in H. rewrite forallb_forall in H.
  assert (G : exists g, In g [(15%nat, ds15); (31%nat, ds31); (63%nat, ds63)] /\ In v (snd g)).
  { unfold all_ds in I. rewrite !in_app_iff in I. cbn [In]. destruct I as [I|[I|I]]; [exists (15%nat, ds15)|exists (31%nat, ds31)|exists (63%nat, ds63)]; auto. }
  destruct G as ((n & ds) & G & Iv). apply H in G. rewrite forallb_forall in G. apply G in Iv.
  apply andb_true_iff in Iv. destruct Iv as (E & R). apply Nat.eqb_eq in E. apply negb_true_iff, N.eqb_neq in R.
  rewrite <- E in R. apply residue_nz; auto. apply all_ds_ok; auto.
Qed.

(** trial division: every polynomial of degree 1 to 6 has x or one of the list as a divisor *)
Definition dvd_b (d a : N) : bool := pred_loop 8 (N.log2 d) (padd (2 ^ N.log2 d) d) a =? 0.
Lemma dvd_b_ok : forall d a, dvd_b d a = true -> pdvd d a.
Proof.
  unfold dvd_b. intros d a H. apply N.eqb_eq in H. assert (X := pred_loop_ok 8 (N.log2 d) (padd (2 ^ N.log2 d) d) a).
  rewrite H in X. unfold peqm in X. unfold padd in X at 1 2. rewrite <- N.lxor_assoc, N.lxor_nilpotent, N.lxor_0_l in X.
  change (padd 0 a) with a in X. auto.
Qed.

Lemma small_divisor : forall a, 1 < a < 128 -> pdvd 2 a \/ exists v, In v all_ds /\ pdvd (dv_d v) a.
Proof.
  assert (C : forallb (fun i => let a := N.of_nat i in N.even a || existsb (fun v => dvd_b (dv_d v) a) all_ds)%bool (seq 2 126) = true)
    by (vm_compute; reflexivity).
  rewrite forallb_forall in C. intros a L. specialize (C (N.to_nat a)). rewrite in_seq in C. specialize (C ltac:(lia)).
  cbv zeta in C. rewrite N2Nat.id in C. apply orb_true_iff in C. destruct C as [C|C].
  - left. apply N.even_spec in C. destruct C as (q & ->). exists q. destruct q; auto.
  - right. apply existsb_exists in C. destruct C as (v & I & E). exists v. split; auto. apply dvd_b_ok; auto.
Qed.

Definition table_b (t : list polynomial) : bool := forallb (fun p => (p_m p <? 7)%Z || no_small_b p)%bool t.
Lemma hp_trinomials_small : table_b hp_trinomials = true.
Proof. vm_compute. reflexivity. Qed.
Lemma hp_pentanomials_small : table_b hp_pentanomials = true.
Proof. vm_compute. reflexivity. Qed.
Lemma ansi_trinomials_small : table_b ansi_trinomials = true.
Proof. vm_compute. reflexivity. Qed.
Lemma ansi_pentanomials_small : table_b ansi_pentanomials = true.
Proof. vm_compute. reflexivity. Qed.

Lemma find_In : forall m p, poly_find m = Ok (Some p) ->
  In p hp_trinomials \/ In p hp_pentanomials \/ In p ansi_trinomials \/ In p ansi_pentanomials.
Proof.
  intros m p H. unfold poly_find in H. destruct (poly_exists m); [|discriminate].
  assert (G : forall tri penta, (do r <- bsearch (compare_poly (u32 m)) tri;
    match r with Some p => Ok (Some p) | None => bsearch (compare_poly (u32 m)) penta end) = Ok (Some p) -> In p tri \/ In p penta).
  { intros tri penta E. unfold bsearch in E. destruct (bs _ _ tri _ _) as [[q|]| | |] eqn:B; cbn [bind] in E; try discriminate.
    - left. assert (q = p) by congruence. subst. apply bs_sound in B. apply B.
    - right. apply bs_sound in E. apply E. }
  destruct (_ || _)%bool; apply G in H; tauto.
Qed.

(** Full statement: the whole polynomial is irreducible. Missing: factors of degree above 6. *)
Theorem C42_no_small_factor_partial : forall m, (2 <= m <= 10000)%Z -> m <> 1060%Z ->
  exists c, field_binaryr m = Ok c /\
  forall a b, is_product c a b -> degree_at_most 6 a -> constant a \/ constant b.
Proof.
  intros m Hm N1. destruct (Z.lt_ge_cases m 7) as [S|S].
  - assert (C : forallb chk [2; 3; 4; 5; 6]%Z = true) by (vm_compute; reflexivity). rewrite forallb_forall in C.
    destruct (chk_ok m) as (c & E & I); [apply C; cbn [In]; lia|]. exists c. split; auto. intros a b P _. apply I. auto.
  - destruct (C41_found_partial m Hm N1) as (p & F & M & T). destruct (gen_terms p T) as (c & G & E). exists c. split.
    { unfold field_binaryr, poly_find_gen. rewrite F. unfold poly_exists. replace ((2 <=? m) && (m <=? 10000))%Z%bool with true by lia. auto. }
    intros a b P D. apply is_product_iff in P. apply degree_iff in D. change (2 ^ N.of_nat 7) with 128 in D.
    rewrite constant_iff. destruct (N.lt_ge_cases (to_N a) 2) as [|L]; auto. exfalso.
    assert (B : forall d, pdvd d (to_N a) -> pdvd d (psum (map (fun e => 2 ^ e) (terms p)))).
    { intros d X. rewrite <- E, P. apply pdvd_mul_l. auto. }
    destruct (small_divisor (to_N a) ltac:(lia)) as [X|(v & I & X)].
    + apply B in X. destruct X as (q & X). apply (f_equal (fun n => N.testbit n 0)) in X. 
      rewrite psum_bit in X. unfold terms in X. cbn [map fold_right] in X.
      replace (N.testbit (pmul 2 q) 0) with false in X by (destruct q; auto).
      unfold trinomial, pentanomial in T.
      assert (Zb : forall z, (0 < z)%Z -> (Z.to_N z =? 0) = false) by (clear; intros; lia).
      assert (P0 : (0 < p_m p)%Z) by (clear - M S; lia). assert (P1 : (0 < p_e1 p)%Z) by (clear - T; lia).
      rewrite (Zb _ P0), (Zb _ P1) in X. clear - T X Zb.
      destruct T as [(_ & T2 & T3)|T]; [rewrite T2, T3 in X; discriminate|].
      destruct T as (_ & (T2 & _) & (T3 & _) & _). rewrite (Zb _ T2), (Zb _ T3) in X. discriminate.
    + apply B in X. revert X. apply no_small_b_ok; auto.
      assert (Q : forall t, table_b t = true -> In p t -> no_small_b p = true).
      { intros t A In. unfold table_b in A. rewrite forallb_forall in A. apply A in In. apply orb_true_iff in In. destruct In; [lia|auto]. }
      destruct (find_In m p F) as [J|[J|[J|J]]];
        [exact (Q _ hp_trinomials_small J)|exact (Q _ hp_pentanomials_small J)|exact (Q _ ansi_trinomials_small J)|exact (Q _ ansi_pentanomials_small J)].
Qed.

(** Full statement: as below for every degree from 2 to 10000 that is tabulated (all but 1060).
    Missing: the degrees not listed, see [C42_no_small_factor_partial] for what is proved of them. *)
Definition checked_degrees : list Z := zrange 2 199 ++ [233; 239; 277; 283; 311; 331; 347; 349; 359; 409; 571]%Z.
Lemma checked : forallb chk checked_degrees = true.
Proof. vm_compute. reflexivity. Qed.

Theorem C42_irreducible_partial : forall m, (2 <= m <= 200 \/ m = 233 \/ m = 239 \/ m = 277 \/ m = 283 \/ m = 311 \/ m = 331 \/ m = 347 \/ m = 349 \/ m = 359 \/ m = 409 \/ m = 571)%Z ->
  exists c, field_binaryr m = Ok c /\ irreducible_poly c /\ quotient_field c.
Proof.
  intros m H. assert (C := checked). rewrite forallb_forall in C. destruct (chk_ok m) as (c & E & I).
  - apply C. unfold checked_degrees. apply in_app_iff. rewrite in_zrange. cbn [In]. lia.
  - exists c. split; auto. split; auto. apply C42_quotient_field. auto.
Qed.

(** the definition tells reducible from irreducible: x^2 + 1 = (x + 1)^2, and x^4 + x + 1 *)
Example C42_ex_reducible : ~ irreducible_poly [1; 0; 1]%Z.
Proof.
  intros (_ & H). destruct (H [1; 1]%Z [1; 1]%Z) as [C|C].
  - apply is_product_iff. reflexivity.
  - specialize (C 1%nat ltac:(lia)). discriminate.
  - specialize (C 1%nat ltac:(lia)). discriminate.
Qed.
Example C42_ex_field : field_binaryr 4 = Ok [1; 1; 0; 0; 1]%Z /\ irreducible_poly [1; 1; 0; 0; 1]%Z.
Proof.
  split; [vm_compute; reflexivity|]. destruct (C42_irreducible_partial 4 ltac:(lia)) as (c & E & I & _).
  vm_compute in E. assert (c = [1; 1; 0; 0; 1]%Z) by congruence. subst. auto.
Qed.

Print Assumptions C42_quotient_field.
Print Assumptions C42_no_small_factor_partial.
Print Assumptions C42_irreducible_partial.
