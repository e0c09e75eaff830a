(** A test for irreducibility over GF(2), after Rabin, and its soundness. *)
From Verif Require Import Base GF2.
Local Open Scope N_scope.

Fixpoint psq_pos (p : positive) : positive :=
  match p with xH => xH | xO p => xO (xO (psq_pos p)) | xI p => xI (xO (psq_pos p)) end.
Definition psq (a : N) : N := match a with 0 => 0 | Npos p => Npos (psq_pos p) end.

(** reduction modulo x^m + g, at most [fuel] times *)
Fixpoint pred_loop (fuel : nat) (m g a : N) : N :=
  match fuel with
  | O => a
  | S fuel =>
      let h := N.shiftr a m in
      match h with
      | 0 => a
      | _ => pred_loop fuel m g (N.lxor (N.lxor a (N.shiftl h m)) (pmul g h))
      end
  end.

(** does 1 come out of Euclid's algorithm? *)
Fixpoint gcd_is_1 (fuel : nat) (a b : N) : bool :=
  match fuel with
  | O => false
  | S fuel =>
      match b with
      | 0 => a =? 1
      | _ => let da := N.size a in let db := N.size b in
             if da <? db then gcd_is_1 fuel b a else gcd_is_1 fuel (N.lxor a (N.shiftl b (da - db))) b
      end
  end.

Definition mem (i : nat) (es : list nat) : bool := existsb (Nat.eqb i) es.

(** [cur] is x^(2^i); [n] more squarings *)
Fixpoint rabin_loop (n i : nat) (m g : N) (es : list nat) (cur : N) : bool :=
  (if mem i es then gcd_is_1 (4 * N.to_nat m + 4) (N.lxor (N.shiftl 1 m) g) (N.lxor cur 2) else true) &&
  match n with
  | O => cur =? 2
  | S n => rabin_loop n (S i) m g es (pred_loop 64 m g (psq cur))
  end.

Definition covers_b (m : nat) (es : list nat) : bool :=
  forallb (fun g => if N.of_nat m mod N.of_nat g =? 0 then existsb (fun e => N.of_nat e mod N.of_nat g =? 0) es else true) (seq 1 (m - 1)).

(** m / p for the prime divisors p of m *)
Definition max_divisors (m : nat) : list nat :=
  let ds := filter (fun e => N.of_nat m mod N.of_nat e =? 0) (seq 1 (m - 1)) in
  filter (fun e => negb (existsb (fun g => (e <? g)%nat && (N.of_nat g mod N.of_nat e =? 0)) ds)) ds.

Definition irreducible_b (m : nat) (g : N) : bool :=
  (1 <=? m)%nat && (N.size g <=? N.of_nat m) &&
  let es := max_divisors m in
  covers_b m es && forallb (fun e => (e <=? m)%nat) es && rabin_loop m 0 (N.of_nat m) g es 2.

(** ** Soundness *)
Lemma psq_ok : forall a, psq a = pmul a a.
Proof.
  induction a using N.binary_ind; auto.
  - rewrite pmul_double, pmul_double_r, <- IHa. destruct a; auto.
  - rewrite pmul_sd. rewrite (pmul_comm a (N.succ_double a)), pmul_sd, <- IHa.
    rewrite double_lxor. rewrite sd_lxor, N.lxor_assoc, <- (N.lxor_assoc (N.double a)), N.lxor_nilpotent, N.lxor_0_l.
    destruct a; auto.
Qed.

Lemma pmul_pow2 : forall n a, pmul (2 ^ n) a = N.shiftl a n.
Proof.
  induction n using N.peano_ind; intros.
  - rewrite N.shiftl_0_r. apply pmul_1_l.
  - rewrite N.pow_succ_r', <- N.double_spec, pmul_double, IHn. rewrite N.shiftl_succ_r. destruct (N.shiftl a n); auto.
Qed.

Lemma pred_loop_ok : forall fuel m g a, peqm (padd (2 ^ m) g) (pred_loop fuel m g a) a.
Proof.
  induction fuel; intros; cbn [pred_loop]; [apply peqm_refl|]. cbv zeta.
  set (h := N.shiftr a m). destruct h as [|p] eqn:E; [apply peqm_refl|]. rewrite <- E. clear E.
  eapply peqm_trans; [apply IHfuel|]. unfold peqm. exists h.
  rewrite <- (pmul_pow2 m h). change N.lxor with padd.
  replace (pmul (padd (2 ^ m) g) h) with (padd 0 (pmul (padd (2 ^ m) g) h)) by ring.
  rewrite <- (padd_self a). ring.
Qed.

Lemma gcd_is_1_ok : forall fuel a b, gcd_is_1 fuel a b = true -> forall d, pdvd d a -> pdvd d b -> d = 1.
Proof.
  induction fuel; intros a b H d A B; cbn [gcd_is_1] in H; [discriminate|].
  destruct b as [|p] eqn:E.
  - apply N.eqb_eq in H. subst. apply pdvd_1. auto.
  - cbv zeta in H. destruct (N.size a <? _).
    + apply (IHfuel _ _ H); auto.
    + apply (IHfuel _ _ H); auto. apply pdvd_add; auto. rewrite <- pmul_pow2. apply pdvd_mul_r. auto.
Qed.

Lemma gcd_peqm : forall f c c', peqm f c c' -> forall d, pdvd d f -> pdvd d (padd c 2) -> pdvd d (padd c' 2).
Proof.
  intros f c c' H d D E. unfold peqm in H. replace (padd c' 2) with (padd (padd c c') (padd c 2)).
  - apply pdvd_add; auto. apply (pdvd_trans d f); auto.
  - rewrite (padd_mid c' c 2). f_equal. ring.
Qed.

Lemma rabin_loop_ok : forall n i m g es cur, rabin_loop n i m g es cur = true ->
  let f := padd (2 ^ m) g in peqm f cur (sqn i 2) ->
  peqm f (sqn (n + i) 2) 2 /\
  forall e, In e es -> (i <= e <= n + i)%nat -> forall d, pdvd d f -> pdvd d (padd (sqn e 2) 2) -> d = 1.
Proof.
  induction n; intros i m g es cur H f C; cbn [rabin_loop] in H; apply andb_true_iff in H; destruct H as (H1 & H2).
  all: assert (HI : In i es -> forall d, pdvd d f -> pdvd d (padd (sqn i 2) 2) -> d = 1).
  1, 3: intros I; replace (mem i es) with true in H1 by (symmetry; apply existsb_exists; exists i; split; auto; apply Nat.eqb_refl);
        intros d D1 D2; apply (gcd_is_1_ok _ _ _ H1); [change (N.shiftl 1 m) with (N.shiftl 1 m); rewrite <- pmul_pow2, pmul_1_r; exact D1|];
        apply (gcd_peqm f (sqn i 2)); auto; apply peqm_sym; auto.
  - apply N.eqb_eq in H2. subst cur. split; [apply peqm_sym; auto|].
    intros e E L. replace e with i in * by lia. auto.
  - destruct (IHn (S i) m g es _ H2) as (P & Q).
    + eapply peqm_trans; [apply pred_loop_ok|]. rewrite psq_ok. cbn [sqn]. apply peqm_mul; auto.
    + split; [replace (S n + i)%nat with (n + S i)%nat by lia; auto|].
      intros e E L. destruct (Nat.eq_dec e i) as [->|]; auto. apply Q; auto. lia.
Qed.

Lemma covers_b_ok : forall m es, (0 < m)%nat -> covers_b m es = true -> covers m es.
Proof.
  intros m es M H g L (q & D). unfold covers_b in H. rewrite forallb_forall in H.
  assert (g <> 0)%nat by lia.
  specialize (H g). rewrite in_seq in H. specialize (H ltac:(lia)).
  replace (N.of_nat m mod N.of_nat g =? 0) with true in H.
  - apply existsb_exists in H. destruct H as (e & I & E). exists e. split; auto. apply N.eqb_eq in E.
    exists (N.to_nat (N.of_nat e / N.of_nat g)). assert (X := N.div_mod' (N.of_nat e) (N.of_nat g)). rewrite E in X. lia.
  - symmetry. apply N.eqb_eq. rewrite D, Nat2N.inj_mul. apply N.mod_mul. lia.
Qed.

Lemma log2_top : forall m g, N.size g <= m -> N.log2 (padd (2 ^ m) g) = m.
Proof.
  intros. unfold padd. destruct (N.eq_dec g 0) as [->|G]; [rewrite N.lxor_0_r; apply N.log2_pow2; lia|].
  rewrite N.size_log2 in H by auto. rewrite N.lxor_comm, log2_lxor_lt; rewrite N.log2_pow2; lia.
Qed.

Theorem irreducible_b_ok : forall m g, irreducible_b m g = true -> irreducible (padd (2 ^ N.of_nat m) g).
Proof.
  intros m g H. unfold irreducible_b in H. cbv zeta in H. rewrite !andb_true_iff in H.
  destruct H as ((M & G) & (C & E) & R). rewrite forallb_forall in E.
  apply Nat.leb_le in M. apply N.leb_le in G.
  assert (L := log2_top _ _ G).
  destruct (rabin_loop_ok _ _ _ _ _ _ R) as (P & Q); [apply peqm_refl|]. rewrite Nat.add_0_r in *.
  apply (rabin _ (max_divisors m)).
  - destruct (padd (2 ^ N.of_nat m) g) as [|[p|p|]]; simpl in L; lia.
  - rewrite L, Nat2N.id. apply covers_b_ok; auto.
  - rewrite L, Nat2N.id. auto.
  - intros e I. apply Q; auto. apply E in I. apply Nat.leb_le in I. lia.
Qed.
