(** Each bit-string operation computes its list-of-bits meaning (continued):
    not, reversal, shifts, rotation, lengthening, shortening, random strings. *)
From Coq Require Import Ascii String.
From Verif Require Import Base Bits_Model Bits_Spec Bits_Proofs Bits_Ops Bits_Ops2.
Local Open Scope nat_scope.
Local Open Scope list_scope.
Ltac Zify.zify_post_hook ::= Z.div_mod_to_equations.

Lemma notb_byte x : (x < 256)%N -> (notb x < 256)%N.
Proof.
  intros H. unfold notb. change 256%N with (2 ^ 8)%N in *. apply lt_pow2_testbit. intros m Hm.
  rewrite N.lxor_spec, (testbit_lt x 8) by assumption.
  change 255%N with (N.ones 8). rewrite N.ones_spec_high by lia. reflexivity.
Qed.

Lemma notb_testbit x k : k < 8 -> N.testbit (notb x) (N.of_nat k) = negb (N.testbit x (N.of_nat k)).
Proof.
  intros H. unfold notb. change 255%N with (N.ones 8). rewrite N.lxor_spec, N.ones_spec_low by lia.
  apply xorb_true_r.
Qed.

Lemma land_byte x y : (x < 256)%N -> (N.land x y < 256)%N.
Proof.
  intros H. change 256%N with (2 ^ 8)%N in *. apply lt_pow2_testbit. intros m Hm.
  rewrite N.land_spec, (testbit_lt x 8) by assumption. reflexivity.
Qed.

Lemma map_negb_nth l i : i < length l -> nth i (map negb l) false = negb (nth i l false).
Proof.
  intros H. rewrite nth_indep with (d' := negb false) by (rewrite map_length; assumption).
  apply map_nth.
Qed.

Lemma bits_notz_ok b : WF b -> inplace b (bits_notz b) (map negb (bits_of b)).
Proof.
  intros W. pose proof W as (B1 & B2 & B3). unfold bits_notz.
  destruct (Nat.eqb_spec (bitlen b) 0) as [E0|E0].
  { exists b. repeat split; auto.
    assert (bits_of b = []) as -> by (apply length_zero_iff_nil; rewrite bits_of_length; assumption).
    reflexivity. }
  pose proof (byte_len_ge (bitlen b)) as G.
  destruct (for_to_inv (fun k x => length x = length (buf b) /\ bytes x /\
      forall p, getb x p = if p / 8 <? k then negb (getb (buf b) p) else getb (buf b) p)
    (fun i b => do x <- rd b i; wr b i (notb x)) (bitlen b / 8) (buf b)) as (t & Ht & HL & HB & HG).
  - repeat split; auto.
  - intros j t Hj (HL & HB & HG). rewrite (rd_nth 0%N) by lia. cbn [bind]. rewrite wr_ok by lia.
    eexists; split; [reflexivity|]. split; [rewrite upd_length; assumption|]. split.
    + apply bytes_upd; [assumption|]. apply notb_byte, bytes_nth; assumption.
    + intros p. rewrite getb_upd by lia. destruct (Nat.eqb_spec (p / 8) j) as [E|D].
      * rewrite notb_testbit by lia.
        assert (T : N.testbit (nth j t 0%N) (N.of_nat (7 - p mod 8)) = getb t p)
          by (unfold getb; rewrite E; reflexivity).
        rewrite T, HG. destruct (Nat.ltb_spec (p / 8) j), (Nat.ltb_spec (p / 8) (S j)); auto; lia.
      * rewrite HG. destruct (Nat.ltb_spec (p / 8) j), (Nat.ltb_spec (p / 8) (S j)); auto; lia.
  - rewrite Ht. cbn [bind].
    assert (X : exists x, (if negb (bitlen b mod 8 =? 0) then
             let mask := mask_loop 7 (bitlen b mod 8) 0 in
             let last_pos := bitlen b / 8 in
             let anti_mask := notb mask in
             do last_byte <- rd t last_pos;
             wr t last_pos (N.lor (N.land (notb last_byte) mask) (N.land last_byte anti_mask))
           else Ok t) = Ok x /\ length x = length (buf b) /\ bytes x /\
        forall p, getb x p = if p <? bitlen b then negb (getb (buf b) p) else getb (buf b) p).
    { destruct (Nat.eqb_spec (bitlen b mod 8) 0) as [Em|Em]; cbn [negb].
      - exists t. repeat split; auto. intros p. rewrite HG.
        destruct (Nat.ltb_spec (p / 8) (bitlen b / 8)), (Nat.ltb_spec p (bitlen b)); auto; lia.
      - cbv zeta. rewrite (rd_nth 0%N) by lia. cbn [bind]. rewrite wr_ok by lia.
        eexists; split; [reflexivity|]. split; [rewrite upd_length; assumption|].
        set (y := nth (bitlen b / 8) t 0%N).
        assert (Hy : (y < 256)%N) by (apply bytes_nth; assumption).
        split.
        + apply bytes_upd; [assumption|]. apply lor_byte; apply land_byte; [apply notb_byte|]; assumption.
        + intros p. rewrite getb_upd by lia. destruct (Nat.eqb_spec (p / 8) (bitlen b / 8)) as [E|D].
          * rewrite N.lor_spec, !N.land_spec, !notb_testbit by lia. rewrite mask_bits by lia.
            assert (T : N.testbit y (N.of_nat (7 - p mod 8)) = getb t p)
              by (unfold getb, y; rewrite E; reflexivity).
            rewrite T, HG. destruct (Nat.ltb_spec (p / 8) (bitlen b / 8)); [lia|].
            destruct (Nat.leb_spec (8 - bitlen b mod 8) (7 - p mod 8)), (Nat.leb_spec (7 - p mod 8) 7),
              (Nat.ltb_spec p (bitlen b)); try lia; cbn [andb negb];
              rewrite ?andb_true_r, ?andb_false_r, ?orb_false_r, ?orb_false_l; reflexivity.
          * rewrite HG. destruct (Nat.ltb_spec (p / 8) (bitlen b / 8)), (Nat.ltb_spec p (bitlen b)); auto; lia. }
    destruct X as (x & EX & HL' & HB' & HG'). cbv zeta in EX. rewrite EX. cbn [bind]. eexists; split; [reflexivity|].
    unfold WF, Clean; cbn [buf bitlen allocated bsign]. repeat split; auto; try lia.
    + intros C i Hi. rewrite HG'. destruct (Nat.ltb_spec i (bitlen b)); [lia|]. apply C; assumption.
    + apply bits_of_ext; cbn [buf bitlen]; [rewrite map_length; apply bits_of_length|].
      intros i Hi. rewrite HG'. destruct (Nat.ltb_spec i (bitlen b)); [|lia].
      rewrite map_negb_nth by (rewrite bits_of_length; assumption). rewrite nth_bits_of by assumption. reflexivity.
Qed.

Lemma bits_not_ok b : WF b -> inplace b (bits_not b) (map negb (bits_of b)).
Proof.
  intros W. unfold bits_not. apply inplace_trans_copy; [assumption|].
  intros b' W' <- _ _ _ _. apply bits_notz_ok; assumption.
Qed.

Lemma save_clear_ok b : WF b -> allocated b <> 0 ->
  exists o c, save_clear b = Ok (o, c) /\ length o = allocated b /\ bytes o /\
    (forall i, i < 8 * allocated b -> getb o i = getb (buf b) i) /\
    length c = length (buf b) /\ bytes c /\
    (forall i, i < 8 * allocated b -> getb c i = false).
Proof.
  intros (B1 & B2 & B3) H. unfold save_clear. destruct (Nat.eqb_spec (allocated b) 0); [contradiction|].
  rewrite memdup_ok by assumption. cbn [bind].
  destruct (memset0_ok (buf b) 0 (allocated b)) as (x & E & HL & HB & HN); [lia|assumption|].
  rewrite E. cbn [bind]. eexists _, _; split; [reflexivity|].
  rewrite firstn_length. repeat split; auto; try lia.
  - apply bytes_firstn; assumption.
  - intros i Hi. apply getb_firstn; assumption.
  - intros i Hi. unfold getb. rewrite HN. cbn [Nat.leb andb Nat.add].
    destruct (Nat.ltb_spec (i / 8) (allocated b)); [|lia]. apply N.bits_0.
Qed.

(** An OR loop over a cleared buffer, giving the list [l]. *)
Lemma rebuild_ok b f l c : WF b ->
  length c = length (buf b) -> bytes c -> (forall i, i < 8 * allocated b -> getb c i = false) ->
  length l = bitlen b ->
  (forall i x, i < bitlen b -> length x = length c -> bytes x ->
     exists v, f i x = OR_BIT x i v /\ (v < 2)%N /\ N.eqb v 1 = nth i l false \/
               f i x = Ok x /\ nth i l false = false) ->
  good (do x <- for_to (bitlen b) f c; Ok (mkBits x (bsign b) (bitlen b) (allocated b))) (bsign b) l.
Proof.
  intros (B1 & B2 & B3) HL HB HC Hl Hf. apply byte_len_le in B2 as B4.
  destruct (or_loop f (fun i => nth i l false) (bitlen b) c) as (x & E & HL' & HB' & HG); auto; [lia|].
  rewrite E. cbn [bind]. eexists; split; [reflexivity|].
  unfold WF, Clean; cbn [buf bitlen allocated bsign]. repeat split; auto; try lia.
  - intros i Hi. rewrite HG. destruct (Nat.ltb_spec i (bitlen b)); [lia|]. apply HC. lia.
  - apply bits_of_ext; cbn [buf bitlen]; [assumption|]. intros i Hi. rewrite HG.
    destruct (Nat.ltb_spec i (bitlen b)); [|lia]. rewrite HC by lia. reflexivity.
Qed.

(** Reversal *)
Lemma bits_rotz_ok b : WF b -> allocated b <> 0 -> good (bits_rotz b) (bsign b) (rev (bits_of b)).
Proof.
  intros W Ha. pose proof W as (B1 & B2 & B3). apply byte_len_le in B2 as B4. unfold bits_rotz.
  destruct (save_clear_ok b W Ha) as (o & c & E & HLo & HBo & HGo & HLc & HBc & HGc).
  rewrite E. cbn [bind]. clear E. set (n := bitlen b) in *.
  match goal with |- context [for_to (n / 2) ?f c] => set (F := f) end.
  destruct (for_to_inv (fun k x => length x = length c /\ bytes x /\
     forall p, p < 8 * allocated b ->
       getb x p = ((p <? k) || ((n - k <=? p) && (p <? n))) && getb (buf b) (n - 1 - p)) F (n / 2) c)
    as (t & Ht & HL & HB & HG).
  - repeat split; auto. intros p Hp. rewrite HGc by assumption.
    destruct (Nat.ltb_spec p 0), (Nat.leb_spec (n - 0) p), (Nat.ltb_spec p n); try lia; reflexivity.
  - intros j t Hj (HL & HB & HG). unfold F.
    rewrite !GET_BIT_ok by lia. cbn [bind]. rewrite !HGo by lia.
    destruct (OR_BIT_ok t (n - j - 1) (N.b2n (getb (buf b) j))) as (x & Ex & Lx & Bx & Gx);
      [lia|assumption|apply b2n_lt2|]. rewrite Ex. cbn [bind].
    destruct (OR_BIT_ok x j (N.b2n (getb (buf b) (n - j - 1)))) as (y & Ey & Ly & By & Gy);
      [lia|assumption|apply b2n_lt2|]. rewrite Ey.
    exists y. split; [reflexivity|]. split; [lia|]. split; [assumption|].
    intros p Hp. rewrite Gy, !Gx, !b2n_eqb1, !HG by lia.
    destruct (Nat.eqb_spec p j) as [->|D1].
    + destruct (Nat.eqb_spec j (n - j - 1)); [lia|].
      replace (n - j - 1) with (n - 1 - j) by lia.
      destruct (Nat.ltb_spec j j), (Nat.ltb_spec j (S j)), (Nat.leb_spec (n - j) j), (Nat.ltb_spec j n); try lia; reflexivity.
    + destruct (Nat.eqb_spec p (n - j - 1)) as [->|D2].
      * replace (n - 1 - (n - j - 1)) with j by lia.
        destruct (Nat.ltb_spec (n - j - 1) j), (Nat.ltb_spec (n - j - 1) (S j)),
          (Nat.leb_spec (n - j) (n - j - 1)), (Nat.leb_spec (n - S j) (n - j - 1)),
          (Nat.ltb_spec (n - j - 1) n); try lia; reflexivity.
      * destruct (Nat.ltb_spec p j), (Nat.ltb_spec p (S j)), (Nat.leb_spec (n - j) p),
          (Nat.leb_spec (n - S j) p), (Nat.ltb_spec p n); try lia; reflexivity.
  - rewrite Ht. cbn [bind].
    assert (X : exists x, (if n mod 2 =? 1 then
             let middle_pos := n / 2 in
             do middle_bit <- GET_BIT o middle_pos;
             OR_BIT t middle_pos middle_bit
           else Ok t) = Ok x /\ length x = length c /\ bytes x /\
        forall p, p < 8 * allocated b -> getb x p = (p <? n) && getb (buf b) (n - 1 - p)).
    { destruct (Nat.eqb_spec (n mod 2) 1) as [Em|Em].
      - cbv zeta. rewrite GET_BIT_ok by lia. cbn [bind]. rewrite HGo by lia.
        destruct (OR_BIT_ok t (n / 2) (N.b2n (getb (buf b) (n / 2)))) as (y & Ey & Ly & By & Gy);
          [lia|assumption|apply b2n_lt2|]. exists y. repeat split; auto; [lia|].
        intros p Hp. rewrite Gy, b2n_eqb1, !HG by lia.
        destruct (Nat.eqb_spec p (n / 2)) as [->|D].
        + replace (n - 1 - n / 2) with (n / 2) by lia.
          destruct (Nat.ltb_spec (n / 2) (n / 2)), (Nat.leb_spec (n - n / 2) (n / 2)), (Nat.ltb_spec (n / 2) n); try lia; reflexivity.
        + destruct (Nat.ltb_spec p (n / 2)), (Nat.leb_spec (n - n / 2) p), (Nat.ltb_spec p n); try lia; reflexivity.
      - exists t. repeat split; auto. intros p Hp. rewrite HG by assumption.
        destruct (Nat.ltb_spec p (n / 2)), (Nat.leb_spec (n - n / 2) p), (Nat.ltb_spec p n); try lia; reflexivity. }
    destruct X as (x & EX & HL' & HB' & HG'). cbv zeta in EX. rewrite EX. cbn [bind]. eexists; split; [reflexivity|].
    unfold WF, Clean; cbn [buf bitlen allocated bsign]. repeat split; auto; try lia.
    + intros i Hi. rewrite HG' by lia. destruct (Nat.ltb_spec i n); [lia|reflexivity].
    + apply bits_of_ext; cbn [buf bitlen]; [rewrite rev_length; apply bits_of_length|].
      intros i Hi. rewrite HG' by lia. destruct (Nat.ltb_spec i n); [|lia].
      rewrite rev_nth by (rewrite bits_of_length; assumption). rewrite bits_of_length.
      rewrite nth_bits_of by lia. fold n. cbn [andb]. f_equal. lia.
Qed.

(** Shifts *)
Definition amount_ok (k : Z) : Prop := (- 2 ^ 63 < k < 2 ^ 63)%Z.

Lemma lshift_length l k : length (lshift l k) = length l.
Proof.
  unfold lshift. destruct (0 <=? k)%Z; rewrite app_length, repeat_length, ?skipn_length, ?firstn_length; lia.
Qed.

Lemma nth_repeat_false n i : nth i (repeat false n) false = false.
Proof. destruct (Nat.lt_ge_cases i n); [apply nth_repeat|]. apply nth_overflow. rewrite repeat_length. assumption. Qed.

Lemma nth_lshift l k i : i < length l ->
  nth i (lshift l k) false =
  if ((0 <=? Z.of_nat i + k) && (Z.of_nat i + k <? Z.of_nat (length l)))%Z
  then nth (Z.to_nat (Z.of_nat i + k)) l false else false.
Proof.
  intros Hi. unfold lshift. destruct (Z.leb_spec 0 k) as [K|K].
  - destruct (Z.leb_spec 0 (Z.of_nat i + k)); [|lia].
    destruct (Z.ltb_spec (Z.of_nat i + k) (Z.of_nat (length l))) as [L|L]; cbn [andb].
    + rewrite app_nth1 by (rewrite skipn_length; lia). rewrite nth_skipn_add. f_equal. lia.
    + rewrite app_nth2 by (rewrite skipn_length; lia). apply nth_repeat_false.
  - destruct (Z.ltb_spec (Z.of_nat i + k) (Z.of_nat (length l))); [|lia].
    destruct (Z.leb_spec 0 (Z.of_nat i + k)) as [L|L]; cbn [andb].
    + rewrite app_nth2 by (rewrite repeat_length; lia). rewrite repeat_length.
      rewrite nth_firstn_lt by lia. f_equal. lia.
    + rewrite app_nth1 by (rewrite repeat_length; lia). apply nth_repeat_false.
Qed.

Lemma lshift_0 l : lshift l 0 = l.
Proof. unfold lshift. cbn. apply app_nil_r. Qed.

Lemma in_range_ok n i k : i < n -> (Z.of_nat n < 2 ^ 63)%Z -> amount_ok k -> k <> 0%Z ->
  in_range n i k = Ok ((0 <=? Z.of_nat i + k) && (Z.of_nat i + k <? Z.of_nat n))%Z.
Proof.
  intros Hi Hn Hk Hk0. unfold in_range, amount_ok, LONG_MIN in *.
  destruct (Z.ltb_spec 0 k) as [K|K]; cbn [andb].
  - rewrite u64_small by lia. destruct (Z.leb_spec 0 (Z.of_nat i + k)); [|lia]. cbn [andb].
    destruct (Z.ltb_spec (Z.of_nat i + k) (Z.of_nat n)); [reflexivity|].
    destruct (Z.ltb_spec k 0); [lia|reflexivity].
  - destruct (Z.ltb_spec k 0); [|lia]. destruct (Z.eqb_spec k (- 2 ^ 63)); [lia|].
    rewrite u64_small by lia. destruct (Z.ltb_spec (Z.of_nat i + k) (Z.of_nat n)); [|lia].
    rewrite andb_true_r. f_equal. lia.
Qed.

Lemma bits_shiftz_good b k : WF b -> allocated b <> 0 -> (Z.of_nat (bitlen b) < 2 ^ 63)%Z -> amount_ok k ->
  k <> 0%Z -> good (bits_shiftz b k) (bsign b) (lshift (bits_of b) k).
Proof.
  intros W Ha Hn Hk K. pose proof W as (B1 & B2 & B3). apply byte_len_le in B2 as B4. unfold bits_shiftz.
  destruct (Z.eqb_spec k 0); [contradiction|].
  destruct (save_clear_ok b W Ha) as (o & c & E & HLo & HBo & HGo & HLc & HBc & HGc).
  rewrite E. cbn [bind]. clear E.
  apply rebuild_ok; auto; [rewrite lshift_length; apply bits_of_length|].
  intros i x Hi HLx HBx. rewrite in_range_ok by assumption. cbn [bind].
  rewrite nth_lshift by (rewrite bits_of_length; assumption). rewrite bits_of_length.
  destruct ((0 <=? Z.of_nat i + k) && (Z.of_nat i + k <? Z.of_nat (bitlen b)))%Z eqn:R.
  - rewrite u64_small by (unfold amount_ok in *; lia). rewrite GET_BITZ_ok by lia. cbn [bind].
    rewrite HGo by lia. rewrite nth_bits_of by lia.
    eexists. left. split; [reflexivity|]. split; [apply b2n_lt2|apply b2n_eqb1].
  - cbn [bind]. exists 0%N. left. repeat split; lia.
Qed.

Lemma bits_shiftz_ok b k : WF b -> (k = 0%Z \/ allocated b <> 0) -> (Z.of_nat (bitlen b) < 2 ^ 63)%Z ->
  amount_ok k -> inplace b (bits_shiftz b k) (lshift (bits_of b) k).
Proof.
  intros W Ha Hn Hk. destruct (Z.eq_dec k 0) as [->|K].
  - unfold bits_shiftz. cbn [Z.eqb]. exists b. rewrite lshift_0. repeat split; try apply W; auto.
  - apply good_inplace. apply bits_shiftz_good; auto. destruct Ha; [contradiction|assumption].
Qed.

(** Rotation: which original position bit [i] of the result takes its value from. *)
Definition rot_src (L i : nat) (k : Z) : Z :=
  if (0 <=? Z.of_nat i + k)%Z && (0 <=? k)%Z then ((Z.of_nat i + k) mod Z.of_nat L)%Z
  else if (0 <=? Z.of_nat i + k)%Z then (Z.of_nat i + k)%Z
  else ((Z.of_nat i + (2 ^ 64 + k) mod Z.of_nat L) mod Z.of_nat L)%Z.

Lemma i64_small z : (0 <= z < 2 ^ 63)%Z -> i64 z = z.
Proof. intros H. unfold i64. rewrite Z.mod_small by lia. lia. Qed.

Lemma bits_shiftrz_src b k : WF b -> bitlen b <> 0 -> (Z.of_nat (bitlen b) < 2 ^ 63)%Z -> amount_ok k ->
  k <> 0%Z ->
  good (bits_shiftrz b k) (bsign b)
    (map (fun i => nth (Z.to_nat (rot_src (bitlen b) i k)) (bits_of b) false) (seq 0 (bitlen b))).
Proof.
  intros W Hb Hn Hk K. pose proof W as (B1 & B2 & B3). apply byte_len_le in B2 as B4.
  assert (Ha : allocated b <> 0) by lia. unfold bits_shiftrz, amount_ok in *.
  destruct (Z.eqb_spec k 0); [contradiction|].
  destruct (save_clear_ok b W Ha) as (o & c & E & HLo & HBo & HGo & HLc & HBc & HGc).
  rewrite E. cbn [bind]. clear E.
  apply rebuild_ok; auto; [rewrite map_length, seq_length; reflexivity|].
  intros i x Hi HLx HBx. rewrite in_range_ok by (assumption || exact Hk). cbn [bind].
  set (R := nth i (map _ _) false).
  assert (RE : R = nth (Z.to_nat (rot_src (bitlen b) i k)) (bits_of b) false).
  { unfold R. set (h := fun i => nth (Z.to_nat (rot_src (bitlen b) i k)) (bits_of b) false).
    rewrite nth_indep with (d' := h 0) by (rewrite map_length, seq_length; assumption).
    rewrite map_nth, seq_nth by assumption. reflexivity. }
  rewrite RE. clear R RE.
  set (P := if ((0 <=? Z.of_nat i + k) && (Z.of_nat i + k <? Z.of_nat (bitlen b)))%Z then _ else _).
  assert (PE : P = rot_src (bitlen b) i k /\ (0 <= P < Z.of_nat (bitlen b))%Z).
  { unfold P, rot_src.
    destruct (Z.leb_spec 0 (Z.of_nat i + k)) as [L0|L0]; cbn [andb].
    - rewrite u64_small by lia.
      destruct (Z.ltb_spec (Z.of_nat i + k) (Z.of_nat (bitlen b))) as [L1|L1].
      + split; [|lia]. destruct (Z.leb_spec 0 k); [|reflexivity]. rewrite Z.mod_small by lia. reflexivity.
      + destruct (Z.ltb_spec 0 k); [|lia]. destruct (Z.leb_spec 0 k); [|lia]. split; [reflexivity|].
        apply Z.mod_pos_bound. lia.
    - destruct (Z.ltb_spec 0 k); [lia|].
      assert (U : u64 k = (2 ^ 64 + k)%Z).
      { unfold u64. symmetry. apply Z.mod_unique with (-1)%Z; lia. }
      rewrite U. pose proof (Z.mod_pos_bound (2 ^ 64 + k) (Z.of_nat (bitlen b)) ltac:(lia)) as MB.
      rewrite i64_small by lia. rewrite u64_small by lia. split; [reflexivity|]. apply Z.mod_pos_bound. lia. }
  destruct PE as (PE & PB). rewrite <- PE.
  rewrite GET_BITZ_ok by lia. cbn [bind]. rewrite HGo by lia. rewrite nth_bits_of by lia.
  eexists. left. split; [reflexivity|]. split; [apply b2n_lt2|apply b2n_eqb1].
Qed.

(** The source position is the rotation's one for k >= 0, and for k < 0 when the
    length divides 2^64. *)
Lemma rot_src_right L i k : (0 < L) -> i < L -> (Z.of_nat L < 2 ^ 63)%Z -> amount_ok k ->
  (0 <= k)%Z \/ (2 ^ 64 mod Z.of_nat L = 0)%Z ->
  rot_src L i k = ((Z.of_nat i + k) mod Z.of_nat L)%Z.
Proof.
  intros HL Hi Hn Hk H. unfold rot_src.
  destruct (Z.leb_spec 0 (Z.of_nat i + k)) as [L0|L0]; cbn [andb].
  - destruct (Z.leb_spec 0 k); [reflexivity|]. rewrite Z.mod_small by lia. reflexivity.
  - destruct H as [H|H]; [lia|].
    rewrite Z.add_mod_idemp_r by lia.
    replace (Z.of_nat i + (2 ^ 64 + k))%Z with (2 ^ 64 + (Z.of_nat i + k))%Z by lia.
    rewrite Z.add_mod by lia. rewrite H, Z.add_0_l. apply Z.mod_mod. lia.
Qed.

(** ... and wrong at position 0 for every other negative amount. *)
Lemma rot_src_wrong L k : (0 < L) -> (k < 0)%Z -> (2 ^ 64 mod Z.of_nat L <> 0)%Z ->
  rot_src L 0 k <> (k mod Z.of_nat L)%Z.
Proof.
  intros HL Hk H E. unfold rot_src in E. cbn [Z.of_nat Z.add] in E.
  destruct (Z.leb_spec 0 k); [lia|]. cbn [andb] in E.
  rewrite Z.mod_mod in E by lia.
  apply H. replace (2 ^ 64)%Z with ((2 ^ 64 + k) - k)%Z by lia.
  rewrite Zminus_mod, E, Z.sub_diag. apply Z.mod_0_l. lia.
Qed.

Lemma bits_shiftrz_ok b k : WF b -> bitlen b <> 0 -> (Z.of_nat (bitlen b) < 2 ^ 63)%Z -> amount_ok k ->
  (0 <= k)%Z \/ (2 ^ 64 mod Z.of_nat (bitlen b) = 0)%Z ->
  exists b', bits_shiftrz b k = Ok b' /\ WF b' /\ (Clean b -> Clean b') /\ bsign b' = bsign b /\
    rotated (bits_of b) (bits_of b') k.
Proof.
  intros W Hb Hn Hk H. destruct (Z.eq_dec k 0) as [->|K].
  - exists b. unfold bits_shiftrz. cbn [Z.eqb]. repeat split; try apply W; auto.
    intros i Hi. rewrite Z.add_0_r, Z.mod_small by lia. rewrite Nat2Z.id. reflexivity.
  - destruct (bits_shiftrz_src b k W Hb Hn Hk K) as (b' & E & W' & C' & S' & B').
    exists b'. repeat split; try apply W'; auto.
    + rewrite B', map_length, seq_length, bits_of_length. reflexivity.
    + intros i Hi. rewrite bits_of_length in Hi. rewrite B', bits_of_length.
      set (h := fun i => nth (Z.to_nat (rot_src (bitlen b) i k)) (bits_of b) false).
      rewrite nth_indep with (d' := h 0) by (rewrite map_length, seq_length; assumption).
      rewrite map_nth, seq_nth by assumption. unfold h. cbn [Nat.add].
      rewrite rot_src_right by (auto; lia). reflexivity.
Qed.

(** Lengthening *)
Lemma bits_lengthenz_ok junk b k : WF b -> amount_ok k ->
  (Z.of_nat (bitlen b) + Z.abs k < 2 ^ 63)%Z ->
  ((k < 0)%Z -> Clean b) ->
  inplace b (bits_lengthenz junk b k)
    (if (0 <=? k)%Z then repeat false (Z.to_nat k) ++ bits_of b
     else bits_of b ++ repeat false (Z.to_nat (- k))).
Proof.
  intros W Hk Hn HC. pose proof W as (B1 & B2 & B3). apply byte_len_le in B2 as B4.
  unfold bits_lengthenz, amount_ok in *. unfold LONG_MIN.
  destruct (Z.eqb_spec k 0) as [->|K].
  { exists b. cbn. repeat split; auto. }
  destruct (Z.eqb_spec k (- 2 ^ 63)); [lia|].
  rewrite (u64_small (Z.abs k)) by lia. rewrite u64_small by lia.
  set (m := Z.to_nat (Z.of_nat (bitlen b) + Z.abs k)).
  destruct (grow_ok junk b m W) as (nb & na & E & L1 & L2 & L3 & HB & G1 & G2).
  rewrite E. cbn [bind]. clear E.
  set (r := mkBits nb (bsign b) m na).
  assert (Wr : WF r) by (unfold WF, r; cbn [buf bitlen allocated bsign]; auto).
  assert (Cr : Clean b -> Clean r /\ bits_of r = bits_of b ++ repeat false (Z.to_nat (Z.abs k))).
  { intros C. split.
    - unfold Clean, r; cbn [buf bitlen allocated]. intros i Hi.
      destruct (Nat.lt_ge_cases i (8 * allocated b)).
      + rewrite G1 by assumption. apply C. lia.
      + apply G2. lia.
    - apply bits_of_ext; unfold r; cbn [buf bitlen].
      + rewrite app_length, bits_of_length, repeat_length. unfold m. lia.
      + intros i Hi. destruct (Nat.lt_ge_cases i (bitlen b)).
        * rewrite app_nth1 by (rewrite bits_of_length; assumption). rewrite nth_bits_of by assumption.
          apply G1. lia.
        * rewrite app_nth2 by (rewrite bits_of_length; assumption). rewrite nth_repeat_false.
          apply byte_len_le in L3.
          destruct (Nat.lt_ge_cases i (8 * allocated b)).
          -- rewrite G1 by assumption. apply C. lia.
          -- apply G2. lia. }
  destruct (Z.ltb_spec 0 k) as [Kp|Kp].
  - destruct (Z.leb_spec 0 k); [|lia].
    assert (Hm : m = bitlen b + Z.to_nat k) by (unfold m; lia).
    destruct (bits_shiftz_good r (- k)) as (b' & E & W' & C' & S' & B'); auto.
    + unfold r; cbn [allocated]. apply byte_len_le in L3. lia.
    + unfold r; cbn [bitlen]. lia.
    + unfold amount_ok. lia.
    + lia.
    + exists b'. repeat split; try apply W'; auto. rewrite B'.
      apply nth_ext with (d := false) (d' := false).
      * rewrite lshift_length, bits_of_length, app_length, repeat_length, bits_of_length. unfold r; cbn [bitlen]. lia.
      * rewrite lshift_length, bits_of_length. unfold r at 1; cbn [bitlen]. intros i Hi.
        rewrite nth_lshift by (rewrite bits_of_length; assumption). rewrite bits_of_length.
        unfold r at 1; cbn [bitlen].
        destruct (Z.ltb_spec (Z.of_nat i + - k) (Z.of_nat m)); [|lia]. rewrite andb_true_r.
        destruct (Z.leb_spec 0 (Z.of_nat i + - k)).
        -- rewrite app_nth2 by (rewrite repeat_length; lia). rewrite repeat_length.
           rewrite nth_bits_of by (unfold r; cbn [bitlen]; lia). unfold r; cbn [buf].
           rewrite G1 by lia. rewrite nth_bits_of by lia. f_equal. lia.
        -- rewrite app_nth1 by (rewrite repeat_length; lia). rewrite nth_repeat_false. reflexivity.
  - destruct (Z.leb_spec 0 k); [lia|]. exists r.
    destruct (Cr (HC ltac:(lia))) as (C1 & C2). repeat split; try apply Wr; auto.
    rewrite C2. do 2 f_equal. lia.
Qed.

(** Shortening *)
Lemma bits_shortenz_ok b k : WF b -> ((k <= 0)%Z \/ bitlen b <> 0) ->
  (Z.abs k <= Z.of_nat (bitlen b) < 2 ^ 63)%Z ->
  inplace b (bits_shortenz b k)
    (if (0 <=? k)%Z then skipn (Z.to_nat k) (bits_of b)
     else firstn (bitlen b - Z.to_nat (- k)) (bits_of b)).
Proof.
  intros W Hne Hk. pose proof W as (B1 & B2 & B3). apply byte_len_le in B2 as B4. unfold bits_shortenz.
  destruct (Z.ltb_spec 0 k) as [Kp|Kp].
  - destruct (Z.leb_spec 0 k); [|lia]. rewrite u64_small by lia.
    destruct (bits_shiftz_good b k) as (b' & E & W' & C' & S' & B'); auto; try (unfold amount_ok; lia).
    rewrite E. cbn [bind]. eexists; split; [reflexivity|].
    assert (LB : bitlen b' = bitlen b).
    { rewrite <- (bits_of_length b'), B', lshift_length, bits_of_length. reflexivity. }
    destruct W' as (W1 & W2 & W3). apply byte_len_le in W2 as W4.
    assert (Z0 : forall i, bitlen b - Z.to_nat k <= i < 8 * allocated b' -> getb (buf b') i = false).
    { intros i Hi. destruct (Nat.lt_ge_cases i (bitlen b)) as [L|L].
      - rewrite <- nth_bits_of by lia. rewrite B', nth_lshift by (rewrite bits_of_length; assumption).
        rewrite bits_of_length.
        destruct (Z.ltb_spec (Z.of_nat i + k) (Z.of_nat (bitlen b))); [lia|]. rewrite andb_false_r. reflexivity.
      - apply C'. lia. }
    unfold WF, Clean; cbn [buf bitlen allocated bsign]. repeat split; auto; try lia.
    + apply byte_len_le. lia.
    + intros _ i Hi. apply Z0. lia.
    + apply bits_of_ext; cbn [buf bitlen]; [rewrite skipn_length, bits_of_length; lia|].
      intros i Hi. rewrite <- nth_bits_of by lia. rewrite B', nth_lshift by (rewrite bits_of_length; lia).
      rewrite bits_of_length, nth_skipn_add.
      destruct (Z.leb_spec 0 (Z.of_nat i + k)), (Z.ltb_spec (Z.of_nat i + k) (Z.of_nat (bitlen b))); try lia.
      cbn [andb]. f_equal. lia.
  - destruct (Z.ltb_spec k 0) as [Kn|Kn].
    + destruct (Z.leb_spec 0 k); [lia|]. rewrite u64_small by lia.
      set (m := Z.to_nat (Z.of_nat (bitlen b) + k)).
      assert (Hm : m = bitlen b - Z.to_nat (- k)) by (unfold m; lia).
      match goal with |- context [for_from _ m ?f _] => set (F := f) end.
      destruct (for_from_inv (fun j x => length x = length (buf b) /\ bytes x /\
         forall p, getb x p = if (m <=? p) && (p <? j) then false else getb (buf b) p) F
         (bitlen b - m) m (buf b)) as (t & Ht & HL & HB & HG).
      * repeat split; auto. intros p. destruct (Nat.leb_spec m p), (Nat.ltb_spec p m); auto; lia.
      * intros j t Hj (HL & HB & HG). unfold F. rewrite (rd_nth 0%N) by lia. cbn [bind].
        rewrite wr_ok by lia. eexists; split; [reflexivity|].
        destruct (CLR_BIT_ok t j) as (L' & B' & G'); [lia|assumption|].
        split; [lia|]. split; [assumption|]. intros p. rewrite G', HG.
        destruct (Nat.eqb_spec p j) as [->|D].
        -- destruct (Nat.leb_spec m j), (Nat.ltb_spec j (S j)); auto; lia.
        -- destruct (Nat.leb_spec m p), (Nat.ltb_spec p j), (Nat.ltb_spec p (S j)); auto; lia.
      * rewrite Ht. cbn [bind]. eexists; split; [reflexivity|].
        replace (m + (bitlen b - m)) with (bitlen b) in HG by lia.
        unfold WF, Clean; cbn [buf bitlen allocated bsign]. repeat split; auto; try lia.
        -- apply byte_len_le. lia.
        -- intros C i Hi. rewrite HG.
           destruct (Nat.leb_spec m i), (Nat.ltb_spec i (bitlen b)); cbn [andb]; auto; try lia. apply C. lia.
        -- rewrite <- Hm. apply bits_of_ext; cbn [buf bitlen];
             [rewrite firstn_length, bits_of_length; lia|].
           intros i Hi. rewrite HG. destruct (Nat.leb_spec m i); [lia|]. cbn [andb].
           rewrite nth_firstn_lt by assumption. rewrite nth_bits_of by lia. reflexivity.
    + assert (k = 0%Z) as -> by lia. exists b. cbn. repeat split; auto.
Qed.

Lemma bits_shiftiz_ok junk b k : WF b -> amount_ok k -> ((0 < k)%Z -> Clean b) ->
  (Z.of_nat (bitlen b) + Z.max 0 k < 2 ^ 63)%Z -> (- Z.of_nat (bitlen b) <= k)%Z ->
  inplace b (bits_shiftiz junk b k)
    (if (0 <=? k)%Z then bits_of b ++ repeat false (Z.to_nat k)
     else firstn (bitlen b - Z.to_nat (- k)) (bits_of b)).
Proof.
  intros W Hk HC Hn Hl. unfold bits_shiftiz, amount_ok in *.
  destruct (Z.ltb_spec 0 k) as [Kp|Kp].
  - destruct (Z.leb_spec 0 k); [|lia].
    pose proof (bits_lengthenz_ok junk b (- k) W ltac:(unfold amount_ok; lia) ltac:(lia) ltac:(auto with zarith)) as G.
    destruct (Z.leb_spec 0 (- k)); [lia|]. rewrite Z.opp_involutive in G. exact G.
  - destruct (Z.ltb_spec k 0) as [Kn|Kn].
    + destruct (Z.leb_spec 0 k); [lia|].
      pose proof (bits_shortenz_ok b k W ltac:(lia) ltac:(lia)) as G.
      destruct (Z.leb_spec 0 k); [lia|]. exact G.
    + assert (k = 0%Z) as -> by lia. cbn. exists b. rewrite app_nil_r. repeat split; try apply W; auto.
Qed.

(** magnitudes *)
Lemma bval_app_zeros l n : bval (l ++ repeat false n) = (bval l * 2 ^ Z.of_nat n)%Z.
Proof. rewrite bval_app, bval_zeros, repeat_length. lia. Qed.

Lemma bval_firstn l n : n <= length l -> bval (firstn (length l - n) l) = (bval l / 2 ^ Z.of_nat n)%Z.
Proof.
  intros H. rewrite <- (firstn_skipn (length l - n) l) at 3. rewrite bval_app.
  pose proof (bval_bound (skipn (length l - n) l)) as B. rewrite skipn_length in *.
  replace (length l - (length l - n)) with n in * by lia.
  rewrite Z.div_add_l by lia. rewrite Z.div_small by assumption. lia.
Qed.

Lemma bval_skipn l n : n <= length l -> bval (skipn n l) = (bval l mod 2 ^ Z.of_nat (length l - n))%Z.
Proof.
  intros H. rewrite <- (firstn_skipn n l) at 2. rewrite bval_app.
  pose proof (bval_bound (skipn n l)) as B. rewrite skipn_length in *.
  rewrite Z.add_comm, Z.mod_add by lia. rewrite Z.mod_small by assumption. reflexivity.
Qed.

Lemma bval_testbit l k : k < length l -> Z.testbit (bval l) (Z.of_nat k) = nth (length l - 1 - k) l false.
Proof.
  intros H. revert k H. induction l as [|x l IH] using rev_ind; [cbn; lia|]. intros k.
  rewrite app_length; cbn [Datatypes.length]. intros H. rewrite bval_app. cbn [Datatypes.length].
  assert (V : bval [x] = Z.b2z x) by (destruct x; reflexivity). rewrite V. change (2 ^ Z.of_nat 1)%Z with 2%Z.
  rewrite Z.mul_comm. destruct k as [|k].
  - rewrite Z.testbit_0_r. rewrite app_nth2 by lia. replace (length l + 1 - 1 - 0 - length l) with 0 by lia. reflexivity.
  - rewrite Nat2Z.inj_succ, Z.testbit_succ_r by lia. rewrite IH by lia.
    rewrite app_nth1 by lia. f_equal. lia.
Qed.

(** ** Random strings *)
Lemma byte_of_bits_ex (g : nat -> bool) : exists v, (v < 256)%N /\ forall j, j < 8 ->
  N.testbit v (N.of_nat (7 - j)) = g j.
Proof.
  set (l := map g (seq 0 8)). exists (Z.to_N (bval l)).
  pose proof (bval_bound l) as B. change (length l) with 8 in B. change (2 ^ Z.of_nat 8)%Z with 256%Z in B.
  split; [lia|]. intros j Hj.
  rewrite <- N2Z.inj_testbit. rewrite Z2N.id by lia. rewrite nat_N_Z. rewrite bval_testbit by (change (length l) with 8; lia).
  change (length l) with 8. replace (8 - 1 - (7 - j)) with j by lia.
  unfold l. rewrite nth_indep with (d' := g 0) by (rewrite map_length, seq_length; assumption).
  rewrite map_nth, seq_nth by assumption. reflexivity.
Qed.

Lemma new_rand_bytes rnd n :
  exists x, bits_new_rand rnd n = Ok (mkBits x false n (BYTE_LEN n)) /\ length x = BYTE_LEN n /\ bytes x /\
  forall i, i < BYTE_LEN n -> nth i x 0%N =
    if i =? BYTE_LEN n - 1 then (N.shiftl (rnd i (n mod 8)%nat mod 256) (N.of_nat (8 - n mod 8)) mod 256)%N
    else (rnd i 8%nat mod 256)%N.
Proof.
  unfold bits_new_rand. cbn [bits_new allocated buf bsign bitlen].
  match goal with |- context [for_to _ ?f _] => set (F := f) end.
  destruct (for_to_inv (fun k x => length x = BYTE_LEN n /\ bytes x /\ forall i, i < k -> nth i x 0%N =
    if i =? BYTE_LEN n - 1 then (N.shiftl (rnd i (n mod 8)%nat mod 256) (N.of_nat (8 - n mod 8)) mod 256)%N
    else (rnd i 8%nat mod 256)%N) F (BYTE_LEN n) (repeat 0%N (BYTE_LEN n))) as (t & Ht & HL & HB & HN).
  - split; [apply repeat_length|]. split; [apply bytes_repeat0|]. intros i Hi. lia.
  - intros j t Hj (HL & HB & HN). unfold F. cbv zeta.
    destruct (Nat.eqb_spec j (BYTE_LEN n - 1)) as [E|E]; (rewrite wr_ok by lia; eexists; split; [reflexivity|]);
      (split; [rewrite upd_length; assumption|split; [apply bytes_upd; [assumption|apply N.mod_lt; lia]|]]);
      intros i Hi; rewrite upd_nth by lia; destruct (Nat.eqb_spec i j) as [->|D];
      try (apply HN; lia).
    + destruct (Nat.eqb_spec j (BYTE_LEN n - 1)); [reflexivity|contradiction].
    + destruct (Nat.eqb_spec j (BYTE_LEN n - 1)); [contradiction|reflexivity].
  - rewrite Ht. cbn [bind]. exists t. auto.
Qed.

(** Random values below 2^k, as PARI's random_bits(k) promises. *)
Definition rnd_ok (rnd : nat -> nat -> N) : Prop := forall i k, (rnd i k < 2 ^ N.of_nat k)%N.

Lemma new_rand_wf rnd n : rnd_ok rnd ->
  exists b, bits_new_rand rnd n = Ok b /\ WF b /\ Clean b /\ bsign b = false /\ length (bits_of b) = n.
Proof.
  intros R. destruct (new_rand_bytes rnd n) as (x & E & HL & HB & HN). rewrite E.
  eexists; split; [reflexivity|]. unfold WF, Clean; cbn [buf bsign bitlen allocated].
  repeat split; auto; try lia; [|rewrite bits_of_length; reflexivity].
  intros i Hi. pose proof (byte_len_bound n). unfold getb. rewrite HN by lia.
  destruct (Nat.eqb_spec (i / 8) (BYTE_LEN n - 1)); [|lia].
  change 256%N with (2 ^ 8)%N. rewrite N.mod_pow2_bits_low by lia.
  apply N.shiftl_spec_low.
  assert (n mod 8 <> 0) by (unfold BYTE_LEN in *; destruct (Nat.eqb_spec (n mod 8) 0); lia).
  lia.
Qed.

(** Lengths that are not a multiple of 8: every value is possible. *)
Lemma new_rand_onto n l : n mod 8 <> 0 -> length l = n ->
  exists rnd, rnd_ok rnd /\ good (bits_new_rand rnd n) false l.
Proof.
  intros Hn Hl.
  (* the i-th byte of l *)
  assert (BY : forall i, exists v, (v < 256)%N /\ forall j, j < 8 -> N.testbit v (N.of_nat (7 - j)) = nth (8 * i + j) l false)
    by (intros i; apply byte_of_bits_ex).
  assert (CH : exists f : nat -> N, forall i, i < BYTE_LEN n -> (f i < 256)%N /\
     forall j, j < 8 -> N.testbit (f i) (N.of_nat (7 - j)) = nth (8 * i + j) l false).
  { generalize (BYTE_LEN n). induction n0 as [|m (f & Hf)].
    - exists (fun _ => 0%N). intros; lia.
    - destruct (BY m) as (v & Hv). exists (fun i => if i =? m then v else f i). intros i Hi.
      destruct (Nat.eqb_spec i m) as [->|D]; [assumption|]. apply Hf. lia. }
  destruct CH as (f & Hf).
  set (rnd := fun i k => if (i <? BYTE_LEN n) then (N.shiftr (f i) (N.of_nat (8 - k)) mod 2 ^ N.of_nat k)%N else 0%N).
  assert (RO : rnd_ok rnd).
  { intros i k. unfold rnd. destruct (i <? BYTE_LEN n).
    - apply N.mod_lt. apply N.pow_nonzero. lia.
    - assert (2 ^ N.of_nat k <> 0)%N by (apply N.pow_nonzero; lia). lia. }
  exists rnd. split; [assumption|].
  destruct (new_rand_wf rnd n RO) as (b & E & W & C & S & L).
  exists b. repeat split; try apply W; auto.
  destruct (new_rand_bytes rnd n) as (x & E' & HL & HB & HN). rewrite E' in E. injection E as <-.
  apply bits_of_ext; cbn [buf bitlen]; [assumption|]. intros i Hi.
  pose proof (byte_len_ge n). pose proof (byte_len_bound n).
  unfold getb. rewrite HN by lia.
  destruct (Hf (i / 8) ltac:(lia)) as (F1 & F2). specialize (F2 (i mod 8) ltac:(lia)).
  replace (8 * (i / 8) + i mod 8) with i in F2 by lia.
  unfold rnd. destruct (Nat.ltb_spec (i / 8) (BYTE_LEN n)); [|lia].
  destruct (Nat.eqb_spec (i / 8) (BYTE_LEN n - 1)) as [E|E].
  - rewrite <- F2. change 256%N with (2 ^ 8)%N. rewrite N.mod_pow2_bits_low by lia.
    assert (BLn : BYTE_LEN n = n / 8 + 1) by (unfold BYTE_LEN; destruct (Nat.eqb_spec (n mod 8) 0); lia).
    rewrite N.shiftl_spec_high by lia. rewrite N.mod_pow2_bits_low by lia.
    rewrite N.mod_pow2_bits_low by lia. rewrite N.shiftr_spec by lia. f_equal. lia.
  - rewrite <- F2. change 256%N with (2 ^ 8)%N. rewrite N.mod_pow2_bits_low by lia.
    change (8 - 8) with 0. change (N.of_nat 0) with 0%N. rewrite N.shiftr_0_r.
    change (2 ^ N.of_nat 8)%N with (2 ^ 8)%N.
    rewrite N.mod_pow2_bits_low by lia. reflexivity.
Qed.

(** Multiples of 8: the last byte is always zero. *)
Lemma new_rand_last rnd n b i : rnd_ok rnd -> n mod 8 = 0 -> bits_new_rand rnd n = Ok b ->
  n - 8 <= i < n -> nth i (bits_of b) false = false.
Proof.
  intros R Hn E Hi. destruct (new_rand_bytes rnd n) as (x & E' & HL & HB & HN). rewrite E' in E.
  injection E as <-. rewrite nth_bits_of by (cbn [bitlen]; lia). cbn [buf].
  assert (BLn : BYTE_LEN n = n / 8) by (unfold BYTE_LEN; destruct (Nat.eqb_spec (n mod 8) 0); lia).
  unfold getb. rewrite HN by lia. destruct (Nat.eqb_spec (i / 8) (BYTE_LEN n - 1)); [|lia].
  rewrite Hn. pose proof (R (i / 8) 0) as R0. cbn [N.of_nat N.pow] in R0.
  replace (rnd (i / 8) 0) with 0%N by lia. reflexivity.
Qed.
