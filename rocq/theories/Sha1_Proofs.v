(** The byte-oriented implementation computes FIPS 180-1. *)
From Verif Require Import Base Sha1_Spec Sha1_Model.
Local Open Scope nat_scope.
Ltac Zify.zify_post_hook ::= Z.div_mod_to_equations.

Local Notation w32_lt := (fun x => (x < 2 ^ 32)%N).

(** ** Bit strings and numbers *)
Lemma nbval_app l m : nbval (l ++ m) = (nbval l * 2 ^ N.of_nat (length m) + nbval m)%N.
Proof.
  unfold nbval. rewrite fold_left_app. generalize (fold_left (fun a b => 2 * a + N.b2n b)%N l 0%N).
  assert (G : forall m a, fold_left (fun a b => 2 * a + N.b2n b)%N m a =
     (a * 2 ^ N.of_nat (length m) + fold_left (fun a b => 2 * a + N.b2n b)%N m 0)%N).
  { clear. induction m as [|x m IH]; intros a; cbn [fold_left Datatypes.length].
    - rewrite N.mul_1_r. lia.
    - rewrite IH. rewrite (IH (2 * 0 + N.b2n x)%N). rewrite Nat2N.inj_succ, N.pow_succ_r'. ring. }
  intros a. apply G.
Qed.

Lemma nbval_nil : nbval [] = 0%N. Proof. reflexivity. Qed.

Lemma nbval_bound l : (nbval l < 2 ^ N.of_nat (length l))%N.
Proof.
  induction l as [|x l IH] using rev_ind; [reflexivity|].
  rewrite nbval_app, app_length. cbn [Datatypes.length]. change (2 ^ N.of_nat 1)%N with 2%N.
  rewrite Nat.add_1_r, Nat2N.inj_succ, N.pow_succ_r'.
  destruct x; [change (nbval [true]) with 1%N|change (nbval [false]) with 0%N]; lia.
Qed.

Lemma be_length n v : length (be n v) = n.
Proof. unfold be. rewrite map_length, seq_length. reflexivity. Qed.

Lemma be_S n v : be (S n) v = be n (v / 2) ++ [N.odd v].
Proof.
  unfold be. rewrite seq_S, map_app. f_equal.
  - apply map_ext_in. intros i Hi. apply in_seq in Hi.
    replace (N.of_nat (S n - 1 - i)) with (N.succ (N.of_nat (n - 1 - i))) by lia.
    rewrite <- N.div2_div. rewrite N.div2_spec, N.shiftr_spec by lia. rewrite N.add_1_r. reflexivity.
  - cbn [map]. replace (S n - 1 - (0 + n)) with 0 by lia. rewrite N.bit0_odd. reflexivity.
Qed.

Lemma nbval_be n : forall v, nbval (be n v) = (v mod 2 ^ N.of_nat n)%N.
Proof.
  induction n as [|n IH]; intros v.
  - cbn. rewrite N.mod_1_r. reflexivity.
  - rewrite be_S, nbval_app, IH. cbn [Datatypes.length].
    change (2 ^ N.of_nat 1)%N with 2%N.
    rewrite Nat2N.inj_succ, N.pow_succ_r'. rewrite N.mod_mul_r by (try apply N.pow_nonzero; lia).
    replace (nbval [N.odd v]) with (v mod 2)%N.
    + lia.
    + rewrite <- N.bit0_mod, N.bit0_odd. destruct (N.odd v); reflexivity.
Qed.

Lemma be8_val x : (x < 256)%N -> nbval (be 8 x) = x.
Proof. intros H. rewrite nbval_be. apply N.mod_small. assumption. Qed.

Lemma be_nbval l : be (length l) (nbval l) = l.
Proof.
  induction l as [|x l IH] using rev_ind; [reflexivity|].
  rewrite app_length. cbn [Datatypes.length]. rewrite Nat.add_1_r, be_S, nbval_app.
  cbn [Datatypes.length]. change (2 ^ N.of_nat 1)%N with 2%N.
  assert (V : nbval [x] = N.b2n x) by (destruct x; reflexivity). rewrite V.
  f_equal.
  - etransitivity; [|exact IH]. f_equal. destruct x; cbn [N.b2n]; lia.
  - f_equal. rewrite N.mul_comm, N.add_comm. rewrite <- N.bit0_odd, N.add_b2n_double_bit0. reflexivity.
Qed.

(** splitting digits *)
Lemma be_app n m v : be (n + m) v = be n (v / 2 ^ N.of_nat m) ++ be m v.
Proof.
  unfold be. rewrite seq_app, map_app. f_equal.
  - apply map_ext_in. intros i Hi. apply in_seq in Hi.
    rewrite <- N.shiftr_div_pow2, N.shiftr_spec by lia. f_equal. lia.
  - replace (seq (0 + n) m) with (map (Nat.add n) (seq 0 m)).
    + rewrite map_map. apply map_ext_in. intros i Hi. apply in_seq in Hi. f_equal. lia.
    + rewrite Nat.add_0_l. clear. revert n. induction m; intros n; [reflexivity|].
      rewrite !seq_S, map_app, IHm. cbn. reflexivity.
Qed.

Lemma be_mod n v : be n (v mod 2 ^ N.of_nat n) = be n v.
Proof.
  unfold be. apply map_ext_in. intros i Hi. apply in_seq in Hi.
  apply N.mod_pow2_bits_low. lia.
Qed.

Lemma bits_of_bytes_length b : length (bits_of_bytes b) = 8 * length b.
Proof. unfold bits_of_bytes. induction b; cbn [flat_map Datatypes.length]; [reflexivity|].
  rewrite app_length, be_length, IHb. lia. Qed.

Lemma bits_of_bytes_app a b : bits_of_bytes (a ++ b) = bits_of_bytes a ++ bits_of_bytes b.
Proof. apply flat_map_app. Qed.

Lemma bits_of_bytes_1 x : bits_of_bytes [x] = be 8 x.
Proof. unfold bits_of_bytes. cbn [flat_map]. apply app_nil_r. Qed.

(** ** Word operations *)
Lemma lt_testbit x n : (forall m, (n <= m)%N -> N.testbit x m = false) -> (x < 2 ^ n)%N.
Proof.
  intros H. destruct (N.eq_dec x 0) as [->|Hx].
  - assert (2 ^ n <> 0)%N by (apply N.pow_nonzero; lia). lia.
  - apply N.log2_lt_pow2; [lia|]. destruct (N.lt_ge_cases (N.log2 x) n) as [L|L]; [assumption|].
    specialize (H _ L). rewrite N.bit_log2 in H by assumption. discriminate.
Qed.

Lemma testbit_above x n m : (x < 2 ^ n)%N -> (n <= m)%N -> N.testbit x m = false.
Proof.
  intros H1 H2. destruct (N.eq_dec x 0) as [->|Hx]; [apply N.bits_0|].
  apply N.bits_above_log2. apply N.lt_le_trans with n; [|assumption]. apply N.log2_lt_pow2; [lia|assumption].
Qed.

Lemma lor_32 x y : (x < 2 ^ 32)%N -> (y < 2 ^ 32)%N -> (N.lor x y < 2 ^ 32)%N.
Proof. intros H1 H2. apply lt_testbit. intros m Hm. rewrite N.lor_spec, !(testbit_above _ 32) by assumption. reflexivity. Qed.
Lemma lxor_32 x y : (x < 2 ^ 32)%N -> (y < 2 ^ 32)%N -> (N.lxor x y < 2 ^ 32)%N.
Proof. intros H1 H2. apply lt_testbit. intros m Hm. rewrite N.lxor_spec, !(testbit_above _ 32) by assumption. reflexivity. Qed.

Lemma ROT_rotl x n : SHA_ROT x n = rotl n x.
Proof. reflexivity. Qed.

Lemma rotl_32 n x : (n <= 32)%N -> (x < 2 ^ 32)%N -> (rotl n x < 2 ^ 32)%N.
Proof.
  intros Hn Hx. unfold rotl. apply lor_32; [apply N.mod_lt; lia|].
  rewrite N.shiftr_div_pow2. eapply N.le_lt_trans; [apply N.div_le_upper_bound; [apply N.pow_nonzero; lia|]|exact Hx].
  assert (2 ^ (32 - n) <> 0)%N by (apply N.pow_nonzero; lia). nia.
Qed.

Lemma ch_eq B C D : N.lxor (N.land (N.lxor C D) B) D = N.lor (N.land B C) (N.ldiff D B).
Proof.
  apply N.bits_inj. intros k.
  rewrite ?N.lxor_spec, ?N.land_spec, ?N.lxor_spec, N.lor_spec, N.land_spec, N.ldiff_spec.
  destruct (N.testbit B k), (N.testbit C k), (N.testbit D k); reflexivity.
Qed.

Lemma maj_eq B C D : N.lor (N.land B C) (N.land D (N.lor B C)) =
  N.lor (N.lor (N.land B C) (N.land B D)) (N.land C D).
Proof.
  apply N.bits_inj. intros k. rewrite ?N.lor_spec, ?N.land_spec, ?N.lor_spec.
  destruct (N.testbit B k), (N.testbit C k), (N.testbit D k); reflexivity.
Qed.

(** ** Schedule *)
Lemma extend_length n : forall w, length (extend n w) = length w + n.
Proof.
  induction n; intros w; cbn [extend]; [lia|]. rewrite IHn, app_length. cbn [Datatypes.length]. lia.
Qed.

Lemma extend_snoc n : forall w, extend (S n) w =
  let e := extend n w in
  let t := length e in
  e ++ [rotl 1 (N.lxor (N.lxor (N.lxor (nth (t - 3) e 0) (nth (t - 8) e 0)) (nth (t - 14) e 0)) (nth (t - 16) e 0))]%N.
Proof.
  induction n; intros w; [reflexivity|].
  change (extend (S (S n)) w) with (extend (S n) (w ++ [rotl 1 (N.lxor (N.lxor (N.lxor
    (nth (length w - 3) w 0%N) (nth (length w - 8) w 0%N)) (nth (length w - 14) w 0%N)) (nth (length w - 16) w 0%N))])).
  rewrite IHn. reflexivity.
Qed.

Lemma nth_firstn {A} (d : A) n i l : i < n -> nth i (firstn n l) d = nth i l d.
Proof. revert n i. induction l; intros [|n] [|i] H; cbn; auto; try lia. apply IHl. lia. Qed.

Lemma firstn_upd {A} (l : list A) n x : n < length l -> firstn (S n) (upd l n x) = firstn n l ++ [x].
Proof. revert n. induction l; intros [|n] H; cbn in *; try lia; auto. f_equal. apply IHl. lia. Qed.

Lemma schedule_ok W w : length W = 80 -> length w = 16 -> firstn 16 W = w ->
  sha_schedule W = Ok (extend 64 w).
Proof.
  intros HW Hw HF. unfold sha_schedule.
  match goal with |- for_from 64 16 ?f W = _ => set (F := f) end.
  destruct (for_from_inv (fun t W' => length W' = 80 /\ firstn t W' = extend (t - 16) w) F 64 16 W)
    as (W' & E & HL & HE).
  - split; [assumption|]. rewrite HF. reflexivity.
  - intros t W' Ht (HL & HE). unfold F. rewrite !(rd_nth 0%N) by lia. cbn [bind]. rewrite wr_ok by lia.
    eexists; split; [reflexivity|]. split; [rewrite upd_length; assumption|].
    rewrite firstn_upd by lia. replace (S t - 16) with (S (t - 16)) by lia. rewrite extend_snoc. cbv zeta.
    rewrite <- HE. rewrite firstn_length, HL. replace (Nat.min t 80) with t by lia.
    rewrite !nth_firstn by lia. reflexivity.
  - rewrite E. f_equal. change (16 + 64) with 80 in HE. rewrite firstn_all2 in HE by lia.
    exact HE.
Qed.

Lemma words_length blk : length (words blk) = 16. Proof. reflexivity. Qed.

Lemma words_lt blk : Forall w32_lt (words blk).
Proof.
  apply Forall_forall. intros x Hx. unfold words in Hx. apply in_map_iff in Hx. destruct Hx as (j & <- & _).
  eapply N.lt_le_trans; [apply nbval_bound|]. apply N.pow_le_mono_r; [lia|]. rewrite firstn_length. lia.
Qed.

Lemma Forall_nth_lt w i : Forall w32_lt w -> (nth i w 0 < 2 ^ 32)%N.
Proof.
  intros H. destruct (Nat.lt_ge_cases i (length w)).
  - apply (proj1 (Forall_forall _ _) H). apply nth_In. assumption.
  - rewrite nth_overflow by assumption. reflexivity.
Qed.

Lemma extend_lt n : forall w, Forall w32_lt w -> Forall w32_lt (extend n w).
Proof.
  induction n; intros w H; cbn [extend]; [assumption|]. apply IHn. apply Forall_app. split; [assumption|].
  constructor; [|constructor]. apply rotl_32; [lia|].
  repeat apply lxor_32; apply Forall_nth_lt; assumption.
Qed.

(** ** Rounds *)
Definition to_vars (s : st) : vars := (sA s, sB s, sC s, sD s, sE s).

Lemma temp_eq a b c d e : w32 (w32 (w32 (w32 (a + b) + c) + d) + e) = ((a + b + c + d + e) mod 2 ^ 32)%N.
Proof. unfold w32. rewrite (N.add_mod_idemp_l (a + b) c), (N.add_mod_idemp_l (a + b + c) d), (N.add_mod_idemp_l (a + b + c + d) e) by (apply N.pow_nonzero; lia). reflexivity. Qed.

Lemma sha_round_ok fn k W t s : t < length W ->
  fn (sB s) (sC s) (sD s) = ft t (sB s) (sC s) (sD s) -> k = Kt t ->
  sha_round fn k W t (to_vars s) = Ok (to_vars (round W s t)).
Proof.
  intros Ht Hf ->. unfold sha_round, to_vars. rewrite (rd_nth 0%N) by assumption. cbn [bind].
  rewrite temp_eq, Hf, !ROT_rotl. reflexivity.
Qed.

Lemma rounds_ok fn k W n : forall t s, t + n <= length W ->
  (forall i B C D, t <= i < t + n -> fn B C D = ft i B C D) ->
  (forall i, t <= i < t + n -> k = Kt i) ->
  for_from n t (sha_round fn k W) (to_vars s) = Ok (to_vars (fold_left (round W) (seq t n) s)).
Proof.
  induction n as [|n IH]; intros t s HL Hf Hk; cbn [for_from seq fold_left]; [reflexivity|].
  rewrite sha_round_ok; [|lia|apply Hf; lia|apply Hk; lia]. cbn [bind].
  apply IH; [lia| |]; intros; [apply Hf|apply Hk]; lia.
Qed.

Lemma ft_0 i B C D : 0 <= i < 0 + 20 -> N.lxor (N.land (N.lxor C D) B) D = ft i B C D.
Proof. intros H. unfold ft. destruct (Nat.ltb_spec i 20); [|lia]. apply ch_eq. Qed.
Lemma ft_1 i B C D : 20 <= i < 20 + 20 -> N.lxor (N.lxor B C) D = ft i B C D.
Proof. intros H. unfold ft. destruct (Nat.ltb_spec i 20); [lia|]. destruct (Nat.ltb_spec i 40); [|lia]. reflexivity. Qed.
Lemma ft_2 i B C D : 40 <= i < 40 + 20 -> N.lor (N.land B C) (N.land D (N.lor B C)) = ft i B C D.
Proof. intros H. unfold ft. destruct (Nat.ltb_spec i 20); [lia|]. destruct (Nat.ltb_spec i 40); [lia|].
  destruct (Nat.ltb_spec i 60); [|lia]. apply maj_eq. Qed.
Lemma ft_3 i B C D : 60 <= i < 60 + 20 -> N.lxor (N.lxor B C) D = ft i B C D.
Proof. intros H. unfold ft. destruct (Nat.ltb_spec i 20); [lia|]. destruct (Nat.ltb_spec i 40); [lia|].
  destruct (Nat.ltb_spec i 60); [lia|]. reflexivity. Qed.

Definition hlist (s : st) : list N := [sA s; sB s; sC s; sD s; sE s].

Lemma block_ok h W lw hi lo blk : length W = 80 -> firstn 16 W = words blk ->
  exists W', shaHashBlock (mkctx (hlist h) W lw hi lo) = Ok (mkctx (hlist (compress h blk)) W' lw hi lo) /\
    length W' = 80 /\ Forall w32_lt W'.
Proof.
  intros HW HF. unfold shaHashBlock. cbn [cW cH lenW sizeHi sizeLo].
  rewrite (schedule_ok W (words blk)) by auto. cbn [bind].
  set (S80 := extend 64 (words blk)).
  assert (L80 : length S80 = 80) by (unfold S80; rewrite extend_length; reflexivity).
  cbn [rd hlist nth_error bind].
  change (sA h, sB h, sC h, sD h, sE h) with (to_vars h).
  rewrite rounds_ok; [|lia|intros; apply ft_0; assumption|].
  2:{ intros i Hi. unfold Kt. destruct (Nat.ltb_spec i 20); [reflexivity|lia]. }
  cbn [bind].
  rewrite rounds_ok; [|lia|intros; apply ft_1; assumption|].
  2:{ intros i Hi. unfold Kt. destruct (Nat.ltb_spec i 20); [lia|]. destruct (Nat.ltb_spec i 40); [reflexivity|lia]. }
  cbn [bind].
  rewrite rounds_ok; [|lia|intros; apply ft_2; assumption|].
  2:{ intros i Hi. unfold Kt. destruct (Nat.ltb_spec i 20); [lia|]. destruct (Nat.ltb_spec i 40); [lia|].
      destruct (Nat.ltb_spec i 60); [reflexivity|lia]. }
  cbn [bind].
  rewrite rounds_ok; [|lia|intros; apply ft_3; assumption|].
  2:{ intros i Hi. unfold Kt. destruct (Nat.ltb_spec i 20); [lia|]. destruct (Nat.ltb_spec i 40); [lia|].
      destruct (Nat.ltb_spec i 60); [lia|reflexivity]. }
  cbn [bind]. exists S80. split; [|split; [assumption|apply extend_lt, words_lt]].
  unfold compress, schedule. fold S80. cbv zeta.
  replace (fold_left (round S80) (seq 0 80) h) with
    (fold_left (round S80) (seq 60 20) (fold_left (round S80) (seq 40 20)
      (fold_left (round S80) (seq 20 20) (fold_left (round S80) (seq 0 20) h)))).
  2:{ rewrite <- !fold_left_app. f_equal. }
  unfold to_vars, hlist, add32, w32. cbn [sA sB sC sD sE]. reflexivity.
Qed.

(** ** Feeding bytes *)
(** The context holds state [h], the bits [cur] of the unfinished block and the
    number [n] of bytes consumed. *)
Definition R (c : ctx) (h : st) (cur : list bool) (n : N) : Prop :=
  cH c = hlist h /\ length (cW c) = 80 /\ Forall w32_lt (cW c) /\
  lenW c < 64 /\ length cur = 8 * lenW c /\
  (forall j, j < lenW c / 4 -> nth j (cW c) 0%N = nbval (firstn 32 (skipn (32 * j) cur))) /\
  (nth (lenW c / 4) (cW c) 0 mod 2 ^ N.of_nat (8 * (lenW c mod 4)) = nbval (skipn (32 * (lenW c / 4)) cur))%N /\
  (sizeHi c < 2 ^ 32)%N /\ (sizeLo c < 2 ^ 32)%N /\ (sizeHi c * 2 ^ 32 + sizeLo c = 8 * n mod 2 ^ 64)%N.

Lemma R_init : R SHA1_Init H0 [] 0.
Proof.
  unfold R, SHA1_Init; cbn [cH cW lenW sizeHi sizeLo]. repeat split; try reflexivity; try (cbn; lia).
  apply Forall_forall. intros x Hx. apply repeat_spec in Hx. subst. reflexivity.
Qed.

Lemma Forall_upd {A} (P : A -> Prop) l i x : Forall P l -> P x -> Forall P (upd l i x).
Proof. intros H Hx. revert i. induction H; intros [|i]; cbn; auto. Qed.

Lemma size_step hi lo n : (hi < 2 ^ 32)%N -> (lo < 2 ^ 32)%N -> (hi * 2 ^ 32 + lo = 8 * n mod 2 ^ 64)%N ->
  (let lo' := w32 (lo + 8) in let hi' := w32 (hi + (if lo' <? 8 then 1 else 0)) in
  hi' < 2 ^ 32 /\ lo' < 2 ^ 32 /\ hi' * 2 ^ 32 + lo' = 8 * (n + 1) mod 2 ^ 64)%N.
Proof.
  intros H1 H2 H3. cbv zeta. unfold w32. split; [apply N.mod_lt; lia|]. split; [apply N.mod_lt; lia|].
  assert (E : (8 * (n + 1) mod 2 ^ 64 = (hi * 2 ^ 32 + lo + 8) mod 2 ^ 64)%N).
  { rewrite H3. rewrite N.add_mod_idemp_l by lia. f_equal. lia. }
  rewrite E. change (2 ^ 64)%N with 18446744073709551616%N. change (2 ^ 32)%N with 4294967296%N in *.
  destruct (N.ltb_spec ((lo + 8) mod 4294967296) 8); lia.
Qed.

Lemma nbval_snoc8 l x : (x < 256)%N -> nbval (l ++ be 8 x) = (nbval l * 256 + x)%N.
Proof. intros H. rewrite nbval_app, be_length, be8_val by assumption. reflexivity. Qed.

Lemma lor_shift8 w x : (x < 256)%N -> (w < 2 ^ 32)%N -> N.lor (w32 (N.shiftl w 8)) x = ((w * 256 + x) mod 2 ^ 32)%N.
Proof.
  intros Hx Hw. unfold w32.
  assert (G : ((w * 256 + x) mod 2 ^ 32 = (w * 256) mod 2 ^ 32 + x)%N).
  { change (2 ^ 32)%N with 4294967296%N in *. lia. }
  rewrite G. rewrite N.shiftl_mul_pow2. change (2 ^ 8)%N with 256%N.
  symmetry. rewrite <- N.lxor_lor.
  - apply N.add_nocarry_lxor.
    apply N.bits_inj. intros k. rewrite N.land_spec, N.bits_0.
    destruct (N.lt_ge_cases k 8) as [L|L].
    + rewrite N.mod_pow2_bits_low by lia. change 256%N with (2 ^ 8)%N. rewrite N.mul_pow2_bits_low by assumption. reflexivity.
    + rewrite (testbit_above x 8) by assumption. apply andb_false_r.
  - apply N.bits_inj. intros k. rewrite N.land_spec, N.bits_0.
    destruct (N.lt_ge_cases k 8) as [L|L].
    + rewrite N.mod_pow2_bits_low by lia. change 256%N with (2 ^ 8)%N. rewrite N.mul_pow2_bits_low by assumption. reflexivity.
    + rewrite (testbit_above x 8) by assumption. apply andb_false_r.
Qed.

Lemma upd_upd {A} (l : list A) i x y : upd (upd l i x) i y = upd l i y.
Proof. revert i. induction l; intros [|i]; cbn; auto. f_equal. apply IHl. Qed.

Lemma words_eq W blk : length W = 80 ->
  (forall j, j < 16 -> nth j W 0%N = nbval (firstn 32 (skipn (32 * j) blk))) -> firstn 16 W = words blk.
Proof.
  intros LW H. apply nth_ext with (d := 0%N) (d' := 0%N).
  - rewrite firstn_length, LW. reflexivity.
  - rewrite firstn_length, LW. intros j Hj. change (Nat.min 16 80) with 16 in Hj.
    rewrite nth_firstn, H by assumption.
    unfold words. set (h16 := fun j => nbval (firstn 32 (skipn (32 * j) blk))).
    rewrite nth_indep with (d' := h16 0) by (rewrite map_length, seq_length; exact Hj).
    rewrite map_nth, seq_nth by exact Hj. reflexivity.
Qed.

Lemma update1_ok c h cur n x : R c h cur n -> (x < 256)%N ->
  exists c', update1 c x = Ok c' /\
    if lenW c =? 63 then R c' (compress h (cur ++ be 8 x)) [] (n + 1)
    else R c' h (cur ++ be 8 x) (n + 1).
Proof.
  intros (RH & RL & RF & RW & RC & RJ & RP & RHi & RLo & RS) Hx. unfold update1.
  rewrite (rd_nth 0%N) by lia. cbn [bind]. rewrite wr_ok by lia. cbn [bind].
  rewrite (rd_nth 0%N) by (rewrite upd_length; lia). cbn [bind].
  rewrite wr_ok by (rewrite upd_length; lia). cbn [bind]. rewrite upd_nth, Nat.eqb_refl by lia.
  rewrite upd_upd.
  set (q := lenW c / 4) in *. set (w := nth q (cW c) 0%N) in *.
  assert (Hw : (w < 2 ^ 32)%N) by (apply Forall_nth_lt; assumption).
  rewrite lor_shift8 by assumption.
  set (W' := upd (cW c) q ((w * 256 + x) mod 2 ^ 32)%N).
  assert (LW' : length W' = 80) by (unfold W'; rewrite upd_length; assumption).
  assert (FW' : Forall w32_lt W') by (apply Forall_upd; [assumption|]; apply N.mod_lt; lia).
  assert (LC' : length (cur ++ be 8 x) = 8 * (lenW c + 1)) by (rewrite app_length, be_length; lia).
  (* the words of the extended block *)
  assert (J' : forall j, j < (lenW c + 1) / 4 -> nth j W' 0%N = nbval (firstn 32 (skipn (32 * j) (cur ++ be 8 x)))).
  { intros j Hj. unfold W'. rewrite upd_nth by lia. rewrite skipn_app.
    destruct (Nat.eqb_spec j q) as [E|D].
    - (* the word just completed: lenW mod 4 = 3 *)
      assert (M3 : lenW c mod 4 = 3) by lia.
      rewrite E. replace (32 * q - length cur) with 0 by lia. rewrite skipn_O.
      rewrite firstn_all2 by (rewrite app_length, skipn_length, be_length; lia).
      rewrite nbval_snoc8 by assumption. rewrite <- RP, M3.
      change (2 ^ N.of_nat (8 * 3))%N with 16777216%N. change (2 ^ 32)%N with 4294967296%N in *. lia.
    - replace (32 * j - length cur) with 0 by lia. rewrite skipn_O.
      rewrite firstn_app. replace (32 - length (skipn (32 * j) cur)) with 0 by (rewrite skipn_length; lia).
      rewrite firstn_O, app_nil_r. apply RJ. lia. }
  assert (P' : (nth ((lenW c + 1) / 4) W' 0 mod 2 ^ N.of_nat (8 * ((lenW c + 1) mod 4))
               = nbval (skipn (32 * ((lenW c + 1) / 4)) (cur ++ be 8 x)))%N).
  { destruct (Nat.eq_dec (lenW c mod 4) 3) as [M3|M3].
    - replace ((lenW c + 1) mod 4) with 0 by lia. rewrite skipn_all2 by lia.
      change (2 ^ N.of_nat (8 * 0))%N with 1%N. rewrite N.mod_1_r. reflexivity.
    - replace ((lenW c + 1) / 4) with q by lia. replace ((lenW c + 1) mod 4) with (lenW c mod 4 + 1) by lia.
      unfold W'. rewrite upd_nth, Nat.eqb_refl by lia. rewrite skipn_app.
      replace (32 * q - length cur) with 0 by lia. rewrite skipn_O, nbval_snoc8, <- RP by assumption.
      assert (M : lenW c mod 4 = 0 \/ lenW c mod 4 = 1 \/ lenW c mod 4 = 2) by lia.
      change (2 ^ 32)%N with 4294967296%N in *.
      destruct M as [M|[M|M]]; rewrite M.
      + change (2 ^ N.of_nat (8 * 0))%N with 1%N. change (2 ^ N.of_nat (8 * (0 + 1)))%N with 256%N. lia.
      + change (2 ^ N.of_nat (8 * 1))%N with 256%N. change (2 ^ N.of_nat (8 * (1 + 1)))%N with 65536%N. lia.
      + change (2 ^ N.of_nat (8 * 2))%N with 65536%N. change (2 ^ N.of_nat (8 * (2 + 1)))%N with 16777216%N. lia. }
  destruct (size_step (sizeHi c) (sizeLo c) n RHi RLo RS) as (SH & SL & SS). cbv zeta in SH, SL, SS.
  destruct (Nat.eqb_spec (lenW c) 63) as [E63|D63].
  - replace ((lenW c + 1) mod 64 =? 0) with true by (rewrite E63; reflexivity).
    rewrite RH.
    destruct (block_ok h W' (lenW c + 1) (sizeHi c) (sizeLo c) (cur ++ be 8 x) LW') as (W2 & E2 & L2 & F2).
    { apply words_eq; [assumption|]. intros j Hj. apply J'. rewrite E63. exact Hj. }
    rewrite E2. cbn [bind cH cW lenW sizeHi sizeLo]. eexists; split; [reflexivity|].
    unfold R; cbn [cH cW lenW sizeHi sizeLo].
    split; [reflexivity|]. split; [assumption|]. split; [assumption|]. split; [apply Nat.lt_0_succ|]. split; [reflexivity|].
    split; [intros j Hj; apply Nat.nlt_0_r in Hj; contradiction|].
    split; [|split; [assumption|split; assumption]].
    change (2 ^ N.of_nat (8 * (0 mod 4)))%N with 1%N. rewrite N.mod_1_r. reflexivity.
  - replace ((lenW c + 1) mod 64 =? 0) with false by (clear - RW D63; symmetry; apply Nat.eqb_neq; lia).
    cbn [bind cH cW lenW sizeHi sizeLo]. eexists; split; [reflexivity|].
    unfold R; cbn [cH cW lenW sizeHi sizeLo].
    split; [assumption|]. split; [assumption|]. split; [assumption|]. split; [clear - RW D63; lia|].
    split; [assumption|]. split; [assumption|]. split; [assumption|]. split; [assumption|]. split; assumption.
Qed.

(** hashing a stream: consume full 512-bit blocks *)
Lemma skipn_skipn {A} n m (l : list A) : skipn n (skipn m l) = skipn (m + n) l.
Proof. revert l. induction m; intros [|x l]; cbn; auto. destruct n; reflexivity. Qed.

Lemma hash_blocks_add a b : forall h m,
  hash_blocks (a + b) h m = hash_blocks b (hash_blocks a h m) (skipn (512 * a) m).
Proof.
  induction a as [|a IH]; intros h m; cbn [hash_blocks Nat.add]; [rewrite Nat.mul_0_r; reflexivity|].
  rewrite IH. rewrite skipn_skipn. do 2 f_equal. lia.
Qed.

(** The state after the bit stream [m] (a whole number of bytes). *)
Definition after (m : list bool) : st := hash_blocks (length m / 512) H0 m.
Definition rest (m : list bool) : list bool := skipn (512 * (length m / 512)) m.

Lemma hash_blocks_prefix n : forall h m m', 512 * n <= length m -> hash_blocks n h (m ++ m') = hash_blocks n h m.
Proof.
  induction n as [|n IH]; intros h m m' H; cbn [hash_blocks]; [reflexivity|].
  rewrite firstn_app, skipn_app. replace (512 - length m) with 0 by lia.
  rewrite firstn_O, skipn_O, app_nil_r. apply IH. rewrite skipn_length. lia.
Qed.

Lemma rest_length m : length (rest m) = length m mod 512.
Proof. unfold rest. rewrite skipn_length. lia. Qed.

Lemma after_snoc m y : length (rest m ++ y) < 512 -> after (m ++ y) = after m /\ rest (m ++ y) = rest m ++ y.
Proof.
  rewrite app_length, rest_length. intros H. unfold after, rest.
  assert (E : length (m ++ y) / 512 = length m / 512) by (rewrite app_length; lia).
  rewrite E. split; [apply hash_blocks_prefix; lia|].
  rewrite skipn_app. replace (512 * (length m / 512) - length m) with 0 by lia. reflexivity.
Qed.

Lemma after_full m y : length (rest m ++ y) = 512 -> after (m ++ y) = compress (after m) (rest m ++ y) /\ rest (m ++ y) = [].
Proof.
  rewrite app_length, rest_length. intros H. unfold after, rest.
  assert (E : length (m ++ y) / 512 = length m / 512 + 1) by (rewrite app_length; lia).
  rewrite E. rewrite hash_blocks_add. split.
  - cbn [hash_blocks]. rewrite hash_blocks_prefix by lia. f_equal.
    rewrite skipn_app. replace (512 * (length m / 512) - length m) with 0 by lia. rewrite skipn_O.
    apply firstn_all2. rewrite app_length, skipn_length. lia.
  - apply skipn_all2. rewrite app_length. lia.
Qed.

Definition RR (c : ctx) (msg : list N) : Prop :=
  R c (after (bits_of_bytes msg)) (rest (bits_of_bytes msg)) (N.of_nat (length msg)).

Lemma RR_init : RR SHA1_Init []. Proof. exact R_init. Qed.

Lemma RR_lenW c msg : RR c msg -> lenW c = length msg mod 64.
Proof.
  intros (_ & _ & _ & H1 & H2 & _). rewrite rest_length, bits_of_bytes_length in H2. lia.
Qed.

Lemma RR_step c msg x : RR c msg -> (x < 256)%N -> exists c', update1 c x = Ok c' /\ RR c' (msg ++ [x]).
Proof.
  intros HR Hx. pose proof (RR_lenW c msg HR) as HL.
  destruct (update1_ok _ _ _ _ x HR Hx) as (c' & E & H). exists c'. split; [assumption|].
  unfold RR. rewrite bits_of_bytes_app, bits_of_bytes_1, app_length. cbn [Datatypes.length].
  rewrite Nat2N.inj_add. change (N.of_nat 1) with 1%N.
  destruct (Nat.eqb_spec (lenW c) 63) as [E63|D63].
  - destruct (after_full (bits_of_bytes msg) (be 8 x)) as (A1 & A2).
    + rewrite app_length, rest_length, bits_of_bytes_length, be_length. lia.
    + rewrite A1, A2. assumption.
  - destruct (after_snoc (bits_of_bytes msg) (be 8 x)) as (A1 & A2).
    + rewrite app_length, rest_length, bits_of_bytes_length, be_length. lia.
    + rewrite A1, A2. assumption.
Qed.

Lemma update_ok data : forall c msg, RR c msg -> Forall (fun x => (x < 256)%N) data ->
  exists c', SHA1_Update c data = Ok c' /\ RR c' (msg ++ data).
Proof.
  induction data as [|x data IH]; intros c msg HR HD; cbn [SHA1_Update].
  - exists c. rewrite app_nil_r. auto.
  - inversion HD; subst. destruct (RR_step c msg x HR) as (c1 & E & HR1); [assumption|].
    rewrite E. cbn [bind]. destruct (IH c1 (msg ++ [x]) HR1) as (c2 & E2 & HR2); [assumption|].
    exists c2. rewrite <- app_assoc in HR2. auto.
Qed.

Lemma updates_ok pieces : forall c msg, RR c msg -> Forall (Forall (fun x => (x < 256)%N)) pieces ->
  exists c', updates c pieces = Ok c' /\ RR c' (msg ++ concat pieces).
Proof.
  induction pieces as [|p ps IH]; intros c msg HR HD; cbn [updates concat].
  - exists c. rewrite app_nil_r. auto.
  - inversion HD; subst. destruct (update_ok p c msg HR) as (c1 & E & HR1); [assumption|].
    rewrite E. cbn [bind]. destruct (IH c1 (msg ++ p) HR1) as (c2 & E2 & HR2); [assumption|].
    exists c2. rewrite <- app_assoc in HR2. auto.
Qed.

(** ** Padding *)
Definition zeros_needed (l : nat) : nat := (56 + 64 - l mod 64) mod 64.

Lemma pad_loop_ok fuel : forall c msg, RR c msg -> zeros_needed (length msg) <= fuel ->
  exists c', pad_loop fuel c = Ok c' /\ RR c' (msg ++ repeat 0%N (zeros_needed (length msg))).
Proof.
  induction fuel as [|fuel IH]; intros c msg HR Hf; pose proof (RR_lenW c msg HR) as HL;
    cbn [pad_loop]; destruct (Nat.eqb_spec (lenW c) 56) as [E|D].
  1, 3: exists c; unfold zeros_needed; rewrite <- HL, E; change ((56 + 64 - 56) mod 64) with 0;
    cbn [repeat]; rewrite app_nil_r; auto.
  - unfold zeros_needed in Hf. lia.
  - destruct (update_ok [0%N] c msg HR) as (c1 & E1 & HR1); [constructor; [lia|constructor]|].
    rewrite E1. cbn [bind]. destruct (IH c1 (msg ++ [0%N]) HR1) as (c2 & E2 & HR2).
    + rewrite app_length. cbn [Datatypes.length]. unfold zeros_needed in *. lia.
    + exists c2. split; [assumption|]. rewrite <- app_assoc in HR2.
      replace (repeat 0%N (zeros_needed (length msg))) with ([0%N] ++ repeat 0%N (zeros_needed (length (msg ++ [0%N])))); [assumption|].
      replace (zeros_needed (length msg)) with (S (zeros_needed (length (msg ++ [0%N])))); [reflexivity|].
      rewrite app_length. cbn [Datatypes.length]. unfold zeros_needed. lia.
Qed.

Lemma bits_zeros n : bits_of_bytes (repeat 0%N n) = repeat false (8 * n).
Proof.
  induction n; [reflexivity|]. replace (8 * S n) with (8 + 8 * n) by lia. rewrite repeat_app, <- IHn. reflexivity.
Qed.

Lemma land255 x : N.land x 255 = (x mod 2 ^ 8)%N.
Proof. change 255%N with (N.ones 8). apply N.land_ones. Qed.

Lemma be8_div v k : be 8 (N.land (N.shiftr v k) 255) = be 8 (v / 2 ^ k).
Proof.
  rewrite land255, N.shiftr_div_pow2. change (2 ^ 8)%N with (2 ^ N.of_nat 8)%N. apply be_mod.
Qed.

Lemma be32_bytes v : bits_of_bytes (map (fun k => N.land (N.shiftr v k) 255) [24; 16; 8; 0]%N) = be 32 v.
Proof.
  unfold bits_of_bytes. cbn [map flat_map]. rewrite !be8_div, app_nil_r.
  change 32 with (8 + (8 + (8 + 8))). rewrite !be_app.
  change (N.of_nat (8 + (8 + 8))) with 24%N. change (N.of_nat (8 + 8)) with 16%N. change (N.of_nat 8) with 8%N.
  change (2 ^ 0)%N with 1%N. rewrite N.div_1_r. reflexivity.
Qed.

Lemma padlen_bits c h cur n : R c h cur n -> bits_of_bytes (padlen c) = be 64 (8 * n).
Proof.
  intros (_ & _ & _ & _ & _ & _ & _ & HH & HL & HS). unfold padlen. rewrite bits_of_bytes_app, !be32_bytes.
  rewrite <- (be_mod 64). change (2 ^ N.of_nat 64)%N with (2 ^ 64)%N. rewrite <- HS.
  change 64 with (32 + 32). rewrite be_app. change (N.of_nat 32) with 32%N.
  rewrite N.div_add_l by lia. rewrite (N.div_small (sizeLo c)) by assumption. rewrite N.add_0_r. f_equal.
  rewrite <- (be_mod 32 (sizeHi c * 2 ^ 32 + sizeLo c)). change (2 ^ N.of_nat 32)%N with (2 ^ 32)%N.
  rewrite N.add_comm, N.mod_add by lia. rewrite N.mod_small by assumption. reflexivity.
Qed.

Lemma padlen_bytes c : Forall (fun x => (x < 256)%N) (padlen c).
Proof.
  unfold padlen. apply Forall_app. split; apply Forall_forall; intros x Hx; apply in_map_iff in Hx;
    destruct Hx as (k & <- & _); rewrite land255; apply N.mod_lt; lia.
Qed.

(** ** Output *)
Lemma compress_lt h blk : Forall w32_lt (hlist (compress h blk)).
Proof. unfold compress, hlist, add32; cbn [sA sB sC sD sE]. repeat constructor; apply N.mod_lt; lia. Qed.

Lemma out4 h : (h < 2 ^ 32)%N ->
  let h1 := w32 (N.shiftl h 8) in let h2 := w32 (N.shiftl h1 8) in let h3 := w32 (N.shiftl h2 8) in
  bits_of_bytes [N.shiftr h 24 mod 256; N.shiftr h1 24 mod 256; N.shiftr h2 24 mod 256; N.shiftr h3 24 mod 256]%N
  = be 32 h.
Proof.
  intros Hh h1 h2 h3. unfold bits_of_bytes. cbn [flat_map]. rewrite app_nil_r.
  change 32 with (8 + (8 + (8 + 8))). rewrite !be_app.
  change (N.of_nat (8 + (8 + 8))) with 24%N. change (N.of_nat (8 + 8)) with 16%N. change (N.of_nat 8) with 8%N.
  change 256%N with (2 ^ N.of_nat 8)%N. rewrite !be_mod.
  unfold h3, h2, h1, w32. rewrite !N.shiftl_mul_pow2, !N.shiftr_div_pow2.
  change (2 ^ 24)%N with 16777216%N. change (2 ^ 16)%N with 65536%N. change (2 ^ 8)%N with 256%N.
  change (2 ^ 32)%N with 4294967296%N in *.
  assert (E1 : ((h * 256) mod 4294967296 = 256 * (h mod 16777216))%N) by lia. rewrite E1. clear E1.
  assert (E2 : ((256 * (h mod 16777216) * 256) mod 4294967296 = 65536 * (h mod 65536))%N) by lia. rewrite E2. clear E2.
  assert (E3 : ((65536 * (h mod 65536) * 256) mod 4294967296 = 16777216 * (h mod 256))%N) by lia. rewrite E3. clear E3.
  assert (F1 : (256 * (h mod 16777216) / 16777216 = (h / 65536) mod 256)%N) by lia. rewrite F1. clear F1.
  assert (F2 : (65536 * (h mod 65536) / 16777216 = (h / 256) mod 256)%N) by lia. rewrite F2. clear F2.
  assert (F3 : (16777216 * (h mod 256) / 16777216 = h mod 256)%N) by lia. rewrite F3. clear F3.
  change 256%N with (2 ^ N.of_nat 8)%N at 1 3 4. rewrite !be_mod. reflexivity.
Qed.

Lemma output_ok s : Forall w32_lt (hlist s) ->
  exists o H, output (hlist s) = Ok (o, H) /\ bits_of_bytes o = digest s /\
    length o = 20 /\ Forall (fun x => (x < 256)%N) o.
Proof.
  intros HF. unfold hlist in HF.
  inversion HF as [|? ? FA HF1]; subst. inversion HF1 as [|? ? FB HF2]; subst.
  inversion HF2 as [|? ? FC HF3]; subst. inversion HF3 as [|? ? FD HF4]; subst.
  inversion HF4 as [|? ? FE _]; subst.
  eexists _, _. split.
  - unfold output, for_to, hlist. cbn -[w32 N.shiftl N.shiftr N.modulo]. reflexivity.
  - cbn [app]. split; [|split; [reflexivity|repeat constructor; apply N.mod_lt; discriminate]]. unfold digest.
    rewrite <- (out4 (sA s)), <- (out4 (sB s)), <- (out4 (sC s)), <- (out4 (sD s)), <- (out4 (sE s)) by assumption.
    cbv zeta. rewrite <- !bits_of_bytes_app. reflexivity.
Qed.

(** ** The whole hash *)
Lemma final_ok c msg : RR c msg ->
  exists o, SHA1_Final c = Ok (o, SHA1_Init) /\ length o = 20 /\ Forall (fun x => (x < 256)%N) o /\
    bits_of_bytes o = sha1 (bits_of_bytes msg).
Proof.
  intros HR. unfold SHA1_Final.
  pose proof (padlen_bits _ _ _ _ HR) as HP. pose proof (padlen_bytes c) as HPB.
  destruct (update_ok [128%N] c msg HR) as (c1 & E1 & HR1); [constructor; [lia|constructor]|].
  rewrite E1. cbn [bind].
  destruct (pad_loop_ok 64 c1 (msg ++ [128%N]) HR1) as (c2 & E2 & HR2); [unfold zeros_needed; lia|].
  rewrite E2. cbn [bind].
  destruct (update_ok (padlen c) c2 _ HR2 HPB) as (c3 & E3 & HR3). rewrite E3. cbn [bind].
  set (full := ((msg ++ [128%N]) ++ repeat 0%N (zeros_needed (length (msg ++ [128%N])))) ++ padlen c) in *.
  assert (FB : bits_of_bytes full = padded (bits_of_bytes msg)).
  { unfold full, padded. rewrite !bits_of_bytes_app, HP, bits_zeros. rewrite <- !app_assoc. f_equal.
    change (bits_of_bytes [128%N]) with ([true] ++ repeat false 7). rewrite <- app_assoc. f_equal.
    rewrite bits_of_bytes_length, Nat2N.inj_mul. rewrite app_assoc. f_equal.
    rewrite <- repeat_app. f_equal. unfold pad_zeros, zeros_needed. rewrite app_length. cbn [Datatypes.length]. lia. }
  assert (LF : length full mod 64 = 0).
  { assert (LP : length (padded (bits_of_bytes msg)) mod 512 = 0).
    { unfold padded. rewrite !app_length, repeat_length, be_length. cbn [Datatypes.length]. unfold pad_zeros. lia. }
    rewrite <- FB, bits_of_bytes_length in LP. lia. }
  assert (HA : cH c3 = hlist (after (bits_of_bytes full))) by apply HR3.
  assert (HF : Forall w32_lt (hlist (after (bits_of_bytes full)))).
  { unfold after. rewrite bits_of_bytes_length.
    assert (8 * length full / 512 = S (8 * length full / 512 - 1)) as ->.
    { assert (0 < length full). { unfold full. rewrite !app_length. cbn [Datatypes.length]. lia. }
      assert (8 * length full / 512 = length full / 64) by lia. lia. }
    rewrite <- Nat.add_1_r, hash_blocks_add. cbn [hash_blocks]. apply compress_lt. }
  rewrite HA. destruct (output_ok _ HF) as (o & H & EO & BO & L20 & B20). rewrite EO. cbn [bind fst].
  exists o.
  repeat split; auto. rewrite BO. unfold sha1. rewrite <- FB. reflexivity.
Qed.

Lemma sha1_pieces_ok pieces : Forall (Forall (fun x => (x < 256)%N)) pieces ->
  exists o, sha1_pieces pieces = Ok o /\ length o = 20 /\ Forall (fun x => (x < 256)%N) o /\
    bits_of_bytes o = sha1 (bits_of_bytes (concat pieces)).
Proof.
  intros H. unfold sha1_pieces. destruct (updates_ok pieces SHA1_Init [] RR_init H) as (c & E & HR).
  rewrite E. cbn [bind]. destruct (final_ok c _ HR) as (o & EF & L & B & S). rewrite EF. cbn [bind fst].
  exists o. auto.
Qed.

Lemma bits_of_bytes_inj a : forall b, Forall (fun x => (x < 256)%N) a -> Forall (fun x => (x < 256)%N) b ->
  bits_of_bytes a = bits_of_bytes b -> a = b.
Proof.
  induction a as [|x a IH]; intros [|y b] Ha Hb E; auto.
  - apply (f_equal (@length bool)) in E. rewrite !bits_of_bytes_length in E. cbn in E. lia.
  - apply (f_equal (@length bool)) in E. rewrite !bits_of_bytes_length in E. cbn in E. lia.
  - inversion Ha; inversion Hb; subst. unfold bits_of_bytes in E. cbn [flat_map] in E.
    assert (E1 : be 8 x = be 8 y).
    { apply (f_equal (firstn 8)) in E. rewrite !firstn_app, !be_length, !Nat.sub_diag, !firstn_O, !app_nil_r in E.
      rewrite !firstn_all2 in E by (rewrite be_length; lia). assumption. }
    f_equal.
    + rewrite <- (be8_val x), <- (be8_val y) by assumption. congruence.
    + apply IH; auto. rewrite E1 in E. apply app_inv_head in E. exact E.
Qed.

Lemma pieces_indep ps qs : Forall (Forall (fun x => (x < 256)%N)) ps -> Forall (Forall (fun x => (x < 256)%N)) qs ->
  concat ps = concat qs -> sha1_pieces ps = sha1_pieces qs.
Proof.
  intros Hp Hq E. destruct (sha1_pieces_ok ps Hp) as (o & E1 & L1 & B1 & S1).
  destruct (sha1_pieces_ok qs Hq) as (o' & E2 & L2 & B2 & S2). rewrite E1, E2. f_equal.
  apply bits_of_bytes_inj; auto. congruence.
Qed.

Lemma sha1_msg_ok m : Forall (fun x => (x < 256)%N) m ->
  exists o, sha1_msg m = Ok o /\ length o = 20 /\ Forall (fun x => (x < 256)%N) o /\
    bits_of_bytes o = sha1 (bits_of_bytes m).
Proof.
  intros H. unfold sha1_msg. destruct (sha1_pieces_ok [m]) as (o & E & L & B & S); [auto|].
  cbn [concat] in S. rewrite app_nil_r in S. eauto.
Qed.

Lemma final_reinit pieces : Forall (Forall (fun x => (x < 256)%N)) pieces ->
  exists c d, updates SHA1_Init pieces = Ok c /\ SHA1_Final c = Ok (d, SHA1_Init).
Proof.
  intros H. destruct (updates_ok pieces SHA1_Init [] RR_init H) as (c & E & HR).
  destruct (final_ok c _ HR) as (o & EF & _). eauto.
Qed.
