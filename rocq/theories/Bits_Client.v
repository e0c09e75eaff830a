(** Arbitrary client programs of the bit-string API: sequences of calls on a
    register file of bit strings (used for C09). Not itself code of /repo; each
    constructor stands for one call of the function of the same name in
    src/util/bits.h. *)
From Coq Require Import Ascii String.
From Verif Require Import Base Bits_Model Bits_Spec Bits_Proofs Bits_Ops Bits_Ops2 Bits_Ops3.
Local Open Scope nat_scope.
Local Open Scope list_scope.
Ltac Zify.zify_post_hook ::= Z.div_mod_to_equations.

Inductive call :=
| CNew (n : nat) | CNewRand (rnd : nat -> nat -> N) (n : nat)
| CFromI (i : Z) | CFromILen (i : Z) (n : nat)
| CFromHex (s : list ascii) | CFromBin (s : list ascii)
| CFromRaw (a : list N) (n : nat) | CFromBitvec (v : list Z)
| CCopy (r : nat) | CCpy (d s : nat)
| CToI (r : nat) | CToHex (r : nat) | CToBin (r : nat) | CToRaw (r : nat) | CToBitvec (r : nat)
| COr (x y : nat) | CAnd (x y : nat)
| CConcat (x : nat) (ys : list nat) | CConcatz (x : nat) (ys : list nat)
| CNotz (r : nat) | CRotz (r : nat) | CShiftz (r : nat) (k : Z) | CShiftrz (r : nat) (k : Z)
| CShiftiz (r : nat) (k : Z) | CLengthenz (r : nat) (k : Z) | CShortenz (r : nat) (k : Z)
| CSha1 (r : nat) | CEq (x y : nat).

Section Run.
Variable junk : nat -> N.

Definition regs := list bits_t.

(** A call that creates a bit string appends it; in-place calls overwrite their
    register; readers leave the registers alone. *)
Definition fresh (R : regs) (m : res bits_t) : res regs := do b <- m; Ok (R ++ [b]).
Definition at_reg (R : regs) (r : nat) (f : bits_t -> res bits_t) : res regs :=
  do b <- rd R r; do b' <- f b; Ok (upd R r b').
Definition look {A} (R : regs) (r : nat) (f : bits_t -> res A) : res regs :=
  do b <- rd R r; do _ <- f b; Ok R.
Fixpoint rds (R : regs) (ys : list nat) : res (list bits_t) :=
  match ys with
  | [] => Ok []
  | y :: t => do b <- rd R y; do bs <- rds R t; Ok (b :: bs)
  end.

Definition exec (R : regs) (c : call) : res regs :=
  match c with
  | CNew n => fresh R (Ok (bits_new n))
  | CNewRand rnd n => fresh R (bits_new_rand rnd n)
  | CFromI i => fresh R (bits_from_i i)
  | CFromILen i n => fresh R (bits_from_i_len i n)
  | CFromHex s => fresh R (bits_from_hex s)
  | CFromBin s => fresh R (bits_from_bin s)
  | CFromRaw a n => fresh R (bits_from_raw a n)
  | CFromBitvec v => fresh R (bits_from_bitvec v)
  | CCopy r => do b <- rd R r; fresh R (bits_copy b)
  | CCpy d s => do b <- rd R s; at_reg R d (fun x => bits_cpy junk x b)
  | CToI r => look R r bits_to_i
  | CToHex r => look R r bits_to_hex
  | CToBin r => look R r bits_to_bin
  | CToRaw r => look R r bits_to_raw
  | CToBitvec r => look R r bits_to_bitvec
  | COr x y => do a <- rd R x; do b <- rd R y; fresh R (bits_or a b)
  | CAnd x y => do a <- rd R x; do b <- rd R y; fresh R (bits_and a b)
  | CConcat x ys => do a <- rd R x; do bs <- rds R ys; fresh R (bits_concat junk a bs)
  | CConcatz x ys => do bs <- rds R ys; at_reg R x (fun a => bits_concatz junk a bs)
  | CNotz r => at_reg R r bits_notz
  | CRotz r => at_reg R r bits_rotz
  | CShiftz r k => at_reg R r (fun b => bits_shiftz b k)
  | CShiftrz r k => at_reg R r (fun b => bits_shiftrz b k)
  | CShiftiz r k => at_reg R r (fun b => bits_shiftiz junk b k)
  | CLengthenz r k => at_reg R r (fun b => bits_lengthenz junk b k)
  | CShortenz r k => at_reg R r (fun b => bits_shortenz b k)
  | CSha1 r => look R r bits_sha1_input
  | CEq x y => do a <- rd R x; do b <- rd R y; do _ <- bits_eq a b; Ok R
  end.

Fixpoint run (R : regs) (cs : list call) : res regs :=
  match cs with
  | [] => Ok R
  | c :: t => do R' <- exec R c; run R' t
  end.

(** What the caller must guarantee. Everything fits in memory (2^63 bits), every
    register exists, shifts/rotations/reversal get a non-empty string (a VLA of
    size 0 would be needed otherwise), shortening removes at most what is there. *)
Definition len_at (R : regs) (r : nat) : nat := bitlen (nth r R (bits_new 0)).
Definition legal (R : regs) (c : call) : Prop :=
  match c with
  | CNew _ | CFromI _ | CFromILen _ _ | CFromHex _ | CFromBin _ | CFromBitvec _ => True
  | CNewRand rnd _ => rnd_ok rnd
  | CFromRaw a n => Forall (fun x => (x < 256)%N) a /\ n <= 8 * length a
  | CCopy r | CToI r | CToHex r | CToBin r | CToRaw r | CToBitvec r | CNotz r | CSha1 r => r < length R
  | CCpy x y | COr x y | CAnd x y | CEq x y => x < length R /\ y < length R
  | CConcat x ys | CConcatz x ys =>
      x < length R /\ Forall (fun y => y < length R /\ y <> x) ys /\
      (Z.of_nat (len_at R x + fold_right (fun y a => (len_at R y + a)%nat) 0%nat ys) < 2 ^ 63)%Z
  | CRotz r => r < length R /\ len_at R r <> 0
  | CShiftz r k | CShiftrz r k =>
      r < length R /\ len_at R r <> 0 /\ (Z.of_nat (len_at R r) < 2 ^ 63)%Z /\ (- 2 ^ 63 < k < 2 ^ 63)%Z
  | CShiftiz r k =>
      r < length R /\ (- 2 ^ 63 < k < 2 ^ 63)%Z /\
      (Z.of_nat (len_at R r) + Z.max 0 k < 2 ^ 63)%Z /\ (- Z.of_nat (len_at R r) <= k)%Z
  | CLengthenz r k =>
      r < length R /\ (- 2 ^ 63 < k < 2 ^ 63)%Z /\ (Z.of_nat (len_at R r) + Z.abs k < 2 ^ 63)%Z
  | CShortenz r k =>
      r < length R /\ (k <= 0 \/ 0 < Z.of_nat (len_at R r))%Z /\
      (Z.abs k <= Z.of_nat (len_at R r) < 2 ^ 63)%Z
  end.

Fixpoint all_legal (R : regs) (cs : list call) : Prop :=
  match cs with
  | [] => True
  | c :: t => legal R c /\ forall R', exec R c = Ok R' -> all_legal R' t
  end.

Lemma wf_reg R r : Forall WF R -> r < length R ->
  exists b, rd R r = Ok b /\ WF b /\ len_at R r = bitlen b.
Proof.
  intros H Hr. exists (nth r R (bits_new 0)). rewrite (rd_nth (bits_new 0)) by assumption.
  repeat split; try apply (proj1 (Forall_forall _ _) H); apply nth_In; assumption.
Qed.

Lemma wf_upd R r b : Forall WF R -> WF b -> Forall WF (upd R r b).
Proof.
  intros H Hb. revert r. induction H; intros [|r]; cbn; auto.
Qed.

Definition okwf (m : res bits_t) : Prop := exists b, m = Ok b /\ WF b.

Lemma fresh_ok R m : Forall WF R -> okwf m -> exists R', fresh R m = Ok R' /\ Forall WF R'.
Proof.
  intros H (b & -> & W). unfold fresh. cbn. eexists; split; [reflexivity|].
  apply Forall_app; auto.
Qed.

Lemma at_reg_ok R r f : Forall WF R -> r < length R ->
  (forall b, WF b -> len_at R r = bitlen b -> okwf (f b)) ->
  exists R', at_reg R r f = Ok R' /\ Forall WF R'.
Proof.
  intros H Hr Hf. destruct (wf_reg R r H Hr) as (b & E & W & L). unfold at_reg. rewrite E. cbn [bind].
  destruct (Hf b W L) as (b' & -> & W'). cbn. eexists; split; [reflexivity|]. apply wf_upd; assumption.
Qed.

Lemma look_ok {A} R r (f : bits_t -> res A) : Forall WF R -> r < length R ->
  (forall b, WF b -> exists a, f b = Ok a) -> exists R', look R r f = Ok R' /\ Forall WF R'.
Proof.
  intros H Hr Hf. destruct (wf_reg R r H Hr) as (b & E & W & L). unfold look. rewrite E. cbn [bind].
  destruct (Hf b W) as (a & ->). cbn. eauto.
Qed.

Lemma rds_ok R ys : Forall WF R -> Forall (fun y => y < length R) ys ->
  exists bs, rds R ys = Ok bs /\ Forall WF bs /\
    length (List.concat (map bits_of bs)) = fold_right (fun y a => len_at R y + a) 0 ys.
Proof.
  intros H. induction 1 as [|y ys Hy Hys (bs & E & W & L)].
  - exists []. repeat split; auto.
  - destruct (wf_reg R y H Hy) as (b & E' & W' & L'). exists (b :: bs). cbn [rds]. rewrite E', E. cbn [bind].
    repeat split; auto. cbn [map List.concat fold_right]. rewrite app_length, L, bits_of_length. lia.
Qed.

Lemma good_okwf m s l : good m s l -> okwf m.
Proof. intros (b & E & W & _). exists b; auto. Qed.
Lemma goodish_okwf m s l : goodish m s l -> okwf m.
Proof. intros (b & E & W & _). exists b; auto. Qed.
Lemma inplace_okwf b m l : inplace b m l -> okwf m.
Proof. intros (b' & E & W & _). exists b'; auto. Qed.

Lemma lengthenz_wf b k : WF b -> amount_ok k -> (Z.of_nat (bitlen b) + Z.abs k < 2 ^ 63)%Z ->
  okwf (bits_lengthenz junk b k).
Proof.
  intros W Hk Hn. destruct (Z.lt_ge_cases k 0) as [K|K].
  2:{ eapply inplace_okwf. apply bits_lengthenz_ok; auto. lia. }
  (* the padding may be dirty: only well-formedness *)
  unfold bits_lengthenz, amount_ok, LONG_MIN in *.
  destruct (Z.eqb_spec k 0); [lia|]. destruct (Z.eqb_spec k (- 2 ^ 63)); [lia|].
  destruct (grow_ok junk b (Z.to_nat (u64 (Z.of_nat (bitlen b) + u64 (Z.abs k)))) W)
    as (nb & na & E & L1 & L2 & L3 & HB & G1 & G2).
  rewrite E. cbn [bind]. destruct (Z.ltb_spec 0 k); [lia|]. eexists; split; [reflexivity|].
  unfold WF; cbn. auto.
Qed.

Lemma bits_or_ok b c : WF b -> WF c -> good (bits_or b c) false
    (map2 orb (lpad (Nat.max (bitlen b) (bitlen c)) (bits_of b))
              (lpad (Nat.max (bitlen b) (bitlen c)) (bits_of c))).
Proof. apply bits_bitwise_ok; intros [] []; reflexivity. Qed.
Lemma bits_and_ok b c : WF b -> WF c -> good (bits_and b c) false
    (map2 andb (lpad (Nat.max (bitlen b) (bitlen c)) (bits_of b))
               (lpad (Nat.max (bitlen b) (bitlen c)) (bits_of c))).
Proof. apply bits_bitwise_ok; intros [] []; reflexivity. Qed.

Lemma exec_safe R c : Forall WF R -> legal R c -> exists R', exec R c = Ok R' /\ Forall WF R'.
Proof.
  intros H L. destruct c; cbn [exec legal] in *.
  - apply fresh_ok; auto. eexists; split; [reflexivity|]. apply bits_new_wf.
  - apply fresh_ok; auto. destruct (new_rand_wf rnd n L) as (b & E & W & _). exists b; auto.
  - apply fresh_ok; auto. eapply good_okwf, bits_from_i_ok.
  - apply fresh_ok; auto. eapply good_okwf, bits_from_i_len_ok.
  - apply fresh_ok; auto. eapply good_okwf, bits_from_hex_ok.
  - apply fresh_ok; auto. eapply good_okwf, bits_from_bin_ok.
  - apply fresh_ok; auto. eapply goodish_okwf, bits_from_raw_ok; apply L.
  - apply fresh_ok; auto. eapply good_okwf, bits_from_bitvec_ok.
  - destruct (wf_reg R r H L) as (b & E & W & _). rewrite E. cbn [bind].
    apply fresh_ok; auto. eapply inplace_okwf, bits_copy_inplace; assumption.
  - destruct L as (L1 & L2). destruct (wf_reg R s H L2) as (b & E & W & _). rewrite E. cbn [bind].
    apply at_reg_ok; auto. intros x Wx _. destruct (Nat.eq_dec (bitlen b) 0) as [Z0|Z0].
    + exists x. unfold bits_cpy. rewrite Z0. cbn. auto.
    + destruct (bits_cpy_ok junk x b Wx W Z0) as (y & Ey & Wy & _). exists y; auto.
  - apply look_ok; auto. intros b W. rewrite bits_to_i_ok by assumption. eauto.
  - apply look_ok; auto. intros b W. rewrite bits_to_hex_ok by assumption. eauto.
  - apply look_ok; auto. intros b W. rewrite bits_to_bin_ok by assumption. eauto.
  - apply look_ok; auto. intros b W. destruct (Nat.eq_dec (bitlen b) 0) as [Z0|Z0].
    + unfold bits_to_raw. rewrite Z0. cbn. eauto.
    + destruct (bits_to_raw_ok b W Z0) as (a & E & _). eauto.
  - apply look_ok; auto. intros b W. rewrite bits_to_bitvec_ok by assumption. eauto.
  - destruct L as (L1 & L2). destruct (wf_reg R x H L1) as (a & E & W & _).
    destruct (wf_reg R y H L2) as (b & E2 & W2 & _). rewrite E, E2. cbn [bind].
    apply fresh_ok; auto. eapply good_okwf, bits_or_ok; assumption.
  - destruct L as (L1 & L2). destruct (wf_reg R x H L1) as (a & E & W & _).
    destruct (wf_reg R y H L2) as (b & E2 & W2 & _). rewrite E, E2. cbn [bind].
    apply fresh_ok; auto. eapply good_okwf, bits_and_ok; assumption.
  - destruct L as (L1 & L2 & L3). destruct (wf_reg R x H L1) as (a & E & W & LA).
    destruct (rds_ok R ys H) as (bs & E2 & W2 & LB).
    { eapply Forall_impl; [|exact L2]. cbn beta; tauto. }
    rewrite E, E2. cbn [bind]. apply fresh_ok; auto. eapply inplace_okwf, bits_concat_ok; auto. lia.
  - destruct L as (L1 & L2 & L3). destruct (rds_ok R ys H) as (bs & E2 & W2 & LB).
    { eapply Forall_impl; [|exact L2]. cbn beta; tauto. }
    rewrite E2. cbn [bind]. apply at_reg_ok; auto. intros a W LA.
    eapply inplace_okwf, bits_concatz_ok; auto. lia.
  - apply at_reg_ok; auto. intros b W _. eapply inplace_okwf, bits_notz_ok; assumption.
  - destruct L as (L1 & L2). apply at_reg_ok; auto. intros b W LA. eapply good_okwf, bits_rotz_ok; auto.
    destruct W as (_ & W2 & _). apply byte_len_le in W2. lia.
  - destruct L as (L1 & L2 & L3 & L4). apply at_reg_ok; auto. intros b W LA.
    eapply inplace_okwf, bits_shiftz_ok; auto; [|lia].
    right. destruct W as (_ & W2 & _). apply byte_len_le in W2. lia.
  - destruct L as (L1 & L2 & L3 & L4). apply at_reg_ok; auto. intros b W LA.
    destruct (Z.eq_dec k 0) as [->|K]; [exists b; cbn; auto|].
    eapply good_okwf, bits_shiftrz_src; auto; lia.
  - destruct L as (L1 & L2 & L3 & L4). apply at_reg_ok; auto. intros b W LA. rewrite LA in *.
    unfold bits_shiftiz. destruct (Z.ltb_spec 0 k).
    + apply lengthenz_wf; unfold amount_ok in *; auto; lia.
    + destruct (Z.ltb_spec k 0); [|exists b; auto]. eapply inplace_okwf, bits_shortenz_ok; auto; lia.
  - destruct L as (L1 & L2 & L3). apply at_reg_ok; auto. intros b W LA. rewrite LA in *.
    apply lengthenz_wf; auto.
  - destruct L as (L1 & L2 & L3). apply at_reg_ok; auto. intros b W LA. rewrite LA in *.
    eapply inplace_okwf, bits_shortenz_ok; auto. lia.
  - apply look_ok; auto. intros b (W1 & W2 & W3). unfold bits_sha1_input. rewrite memdup_ok by lia. eauto.
  - destruct L as (L1 & L2). destruct (wf_reg R x H L1) as (a & E & W & _).
    destruct (wf_reg R y H L2) as (b & E2 & W2 & _). rewrite E, E2. cbn [bind].
    destruct (bits_eq_ok a b W W2) as (r & -> & _). cbn. eauto.
Qed.

Lemma run_safe cs : forall R, Forall WF R -> all_legal R cs -> exists R', run R cs = Ok R' /\ Forall WF R'.
Proof.
  induction cs as [|c cs IH]; intros R H L; cbn [run].
  - eauto.
  - destruct L as (L1 & L2). destruct (exec_safe R c H L1) as (R' & E & H'). rewrite E. cbn [bind].
    apply IH; auto.
Qed.
End Run.
