(** Lemmas about the bit-string model. *)
From Coq Require Import Ascii String.
From Verif Require Import Base Bits_Model Bits_Spec.
Local Open Scope nat_scope.
Local Open Scope list_scope.
Ltac Zify.zify_post_hook ::= Z.div_mod_to_equations.

Definition bytes (a : list N) : Prop := Forall (fun x => (x < 256)%N) a.

Lemma byte_len_le n k : BYTE_LEN n <= k <-> n <= 8 * k.
Proof. unfold BYTE_LEN. destruct (Nat.eqb_spec (n mod 8) 0); lia. Qed.
Lemma byte_len_bound n : 8 * BYTE_LEN n < n + 8.
Proof. unfold BYTE_LEN. destruct (Nat.eqb_spec (n mod 8) 0); lia. Qed.
Lemma byte_len_ge n : n <= 8 * BYTE_LEN n.
Proof. apply byte_len_le. lia. Qed.
Lemma byte_len_0 n : BYTE_LEN n = 0 <-> n = 0.
Proof. unfold BYTE_LEN. destruct (Nat.eqb_spec (n mod 8) 0); lia. Qed.

Lemma bytes_nth a i : bytes a -> (nth i a 0 < 256)%N.
Proof.
  intros H. destruct (Nat.lt_ge_cases i (length a)) as [L|L].
  - apply (proj1 (Forall_forall _ _) H). apply nth_In; assumption.
  - rewrite nth_overflow by assumption. lia.
Qed.

Lemma bytes_upd a i x : bytes a -> (x < 256)%N -> bytes (upd a i x).
Proof.
  intros H Hx. revert i. induction H as [|h t Hh Ht IH]; intros i; simpl.
  - constructor.
  - destruct i; constructor; try apply IH; auto.
Qed.

Lemma land_bit_shift b k : N.shiftr (N.land b (N.shiftl 1 k)) k = N.b2n (N.testbit b k).
Proof.
  apply N.bits_inj. intros m. rewrite N.shiftr_spec', N.land_spec.
  destruct (N.eq_dec m 0) as [->|Hm].
  - rewrite N.add_0_l. rewrite N.shiftl_spec_high by lia. rewrite N.sub_diag.
    rewrite N.b2n_bit0. simpl. apply andb_true_r.
  - rewrite N.shiftl_spec_high by lia. replace (m + k - k)%N with m by lia.
    rewrite N.bits_above_log2 with (a := 1%N) by (simpl; lia).
    rewrite andb_false_r.
    destruct (N.testbit b k); simpl N.b2n; symmetry.
    + apply N.bits_above_log2. simpl. lia.
    + apply N.bits_0.
Qed.

Lemma GET_BIT_ok a i : i / 8 < length a -> GET_BIT a i = Ok (N.b2n (getb a i)).
Proof.
  intros H. unfold GET_BIT. rewrite (rd_nth 0%N) by assumption. cbn [bind].
  rewrite land_bit_shift. reflexivity.
Qed.

Lemma GET_BITZ_ok a p :
  (0 <= p)%Z -> (p < 8 * Z.of_nat (length a))%Z ->
  GET_BITZ a p = Ok (N.b2n (getb a (Z.to_nat p))).
Proof.
  intros H1 H2. unfold GET_BITZ.
  destruct (Z.ltb_spec (p / 8) (Z.of_nat (length a))) as [L|L]; [|lia].
  apply GET_BIT_ok. lia.
Qed.

Lemma testbit_lt x n : (x < 2 ^ n)%N -> forall m, (n <= m)%N -> N.testbit x m = false.
Proof.
  intros H m Hm. destruct (N.eq_dec x 0) as [->|H0]; [apply N.bits_0|].
  apply N.bits_above_log2. apply N.log2_lt_pow2 in H; lia.
Qed.

Lemma lt_pow2_testbit x n : (forall m, (n <= m)%N -> N.testbit x m = false) -> (x < 2 ^ n)%N.
Proof.
  intros H. destruct (N.eq_dec x 0) as [->|H0].
  - assert (2 ^ n <> 0)%N by (apply N.pow_nonzero; lia). lia.
  - apply N.log2_lt_pow2; [lia|]. destruct (N.lt_ge_cases (N.log2 x) n) as [L|L]; [assumption|].
    specialize (H _ L). rewrite N.bit_log2 in H by assumption. discriminate.
Qed.

Lemma lor_byte x y : (x < 256)%N -> (y < 256)%N -> (N.lor x y < 256)%N.
Proof.
  intros. change 256%N with (2 ^ 8)%N in *. apply lt_pow2_testbit. intros m Hm.
  rewrite N.lor_spec, !(testbit_lt _ 8) by assumption. reflexivity.
Qed.

Lemma bit_byte v k : k < 8 -> (v < 2)%N -> (N.shiftl v (N.of_nat k) < 256)%N.
Proof.
  intros Hk Hv. change 256%N with (2 ^ 8)%N. apply lt_pow2_testbit. intros m Hm.
  rewrite N.shiftl_spec_high by lia. apply (testbit_lt _ 1); [simpl; assumption|lia].
Qed.

Lemma testbit_shift_bit v k m : (v < 2)%N ->
  N.testbit (N.shiftl v k) m = (N.eqb m k && N.eqb v 1).
Proof.
  intros Hv. destruct (N.lt_ge_cases m k) as [L|L].
  - rewrite N.shiftl_spec_low by assumption.
    destruct (N.eqb_spec m k); [lia|reflexivity].
  - rewrite N.shiftl_spec_high by lia. destruct (N.eqb_spec m k) as [->|D].
    + rewrite N.sub_diag. assert (v = 0 \/ v = 1)%N as [->| ->] by lia; reflexivity.
    + rewrite (testbit_lt v 1) by (simpl; lia). reflexivity.
Qed.

Lemma getb_upd a i x j : i < length a ->
  getb (upd a i x) j =
  if j / 8 =? i then N.testbit x (N.of_nat (7 - j mod 8)) else getb a j.
Proof.
  intros H. unfold getb. rewrite upd_nth by assumption.
  destruct (j / 8 =? i); reflexivity.
Qed.

(** Effect of the three bit writes. *)
Lemma OR_BIT_ok a i v :
  i / 8 < length a -> bytes a -> (v < 2)%N ->
  exists a', OR_BIT a i v = Ok a' /\ length a' = length a /\ bytes a' /\
    forall j, getb a' j = if j =? i then getb a i || N.eqb v 1 else getb a j.
Proof.
  intros H Hb Hv. unfold OR_BIT. rewrite (rd_nth 0%N) by assumption. cbn [bind].
  rewrite wr_ok by assumption. eexists. split; [reflexivity|].
  assert (Hlt : (N.lor (nth (i / 8) a 0) (N.shiftl v (N.of_nat (7 - i mod 8))) < 256)%N)
    by (apply lor_byte; [apply bytes_nth; assumption|apply bit_byte; [lia|assumption]]).
  rewrite N.mod_small by assumption.
  repeat split.
  - apply upd_length.
  - apply bytes_upd; assumption.
  - intros j. rewrite getb_upd by assumption.
    destruct (Nat.eqb_spec (j / 8) (i / 8)) as [E|D].
    + rewrite N.lor_spec, testbit_shift_bit by assumption.
      destruct (Nat.eqb_spec j i) as [->|Dj].
      * rewrite N.eqb_refl. reflexivity.
      * destruct (N.eqb_spec (N.of_nat (7 - j mod 8)) (N.of_nat (7 - i mod 8))); [lia|].
        rewrite orb_false_r. unfold getb. rewrite E. reflexivity.
    + destruct (Nat.eqb_spec j i); [subst; lia|reflexivity].
Qed.

Lemma testbit_pow k m : N.testbit (N.shiftl 1 k) m = N.eqb m k.
Proof. rewrite testbit_shift_bit by lia. apply andb_true_r. Qed.

Lemma ldiff_byte x y : (x < 256)%N -> (N.ldiff x y < 256)%N.
Proof.
  intros. change 256%N with (2 ^ 8)%N in *. apply lt_pow2_testbit. intros m Hm.
  rewrite N.ldiff_spec, (testbit_lt x 8) by assumption. reflexivity.
Qed.

Lemma CLR_BIT_ok a i :
  i / 8 < length a -> bytes a ->
  let a' := upd a (i / 8) (N.ldiff (nth (i / 8) a 0%N) (N.shiftl 1 (N.of_nat (7 - i mod 8)))) in
  length a' = length a /\ bytes a' /\
  forall j, getb a' j = if j =? i then false else getb a j.
Proof.
  intros H Hb a'. subst a'. repeat split.
  - apply upd_length.
  - apply bytes_upd; [assumption|]. apply ldiff_byte, bytes_nth; assumption.
  - intros j. rewrite getb_upd by assumption.
    destruct (Nat.eqb_spec (j / 8) (i / 8)) as [E|D].
    + rewrite N.ldiff_spec, testbit_pow.
      destruct (Nat.eqb_spec j i) as [->|Dj].
      * rewrite N.eqb_refl. apply andb_false_r.
      * destruct (N.eqb_spec (N.of_nat (7 - j mod 8)) (N.of_nat (7 - i mod 8))); [lia|].
        rewrite andb_true_r. unfold getb. rewrite E. reflexivity.
    + destruct (Nat.eqb_spec j i); [subst; lia|reflexivity].
Qed.

Lemma SET_BIT_ok a i v :
  i / 8 < length a -> bytes a -> (v < 2)%N ->
  exists a', SET_BIT a i v = Ok a' /\ length a' = length a /\ bytes a' /\
    forall j, getb a' j = if j =? i then N.eqb v 1 else getb a j.
Proof.
  intros H Hb Hv. unfold SET_BIT. rewrite (rd_nth 0%N) by assumption. cbn [bind].
  destruct (N.eqb_spec v 1) as [E|E]; rewrite wr_ok by assumption;
    eexists; (split; [reflexivity|]).
  - repeat split.
    + apply upd_length.
    + apply bytes_upd; [assumption|]. apply lor_byte; [apply bytes_nth; assumption|].
      apply bit_byte; lia.
    + intros j. rewrite getb_upd by assumption.
      destruct (Nat.eqb_spec (j / 8) (i / 8)) as [E'|D].
      * rewrite N.lor_spec, testbit_pow.
        destruct (Nat.eqb_spec j i) as [->|Dj].
        -- rewrite N.eqb_refl. apply orb_true_r.
        -- destruct (N.eqb_spec (N.of_nat (7 - j mod 8)) (N.of_nat (7 - i mod 8))); [lia|].
           rewrite orb_false_r. unfold getb. rewrite E'. reflexivity.
      * destruct (Nat.eqb_spec j i); [subst; lia|reflexivity].
  - apply CLR_BIT_ok; assumption.
Qed.

(** Buffers *)
Lemma getb_repeat0 n i : getb (repeat 0%N n) i = false.
Proof.
  unfold getb. destruct (Nat.lt_ge_cases (i / 8) n) as [L|L].
  - rewrite nth_repeat. apply N.bits_0.
  - rewrite nth_overflow by (rewrite repeat_length; assumption). apply N.bits_0.
Qed.

Lemma bytes_repeat0 n : bytes (repeat 0%N n).
Proof. apply Forall_forall. intros x Hx. apply repeat_spec in Hx. lia. Qed.

Lemma bits_new_wf n : WF (bits_new n) /\ Clean (bits_new n) /\
  bits_of (bits_new n) = repeat false n /\ bsign (bits_new n) = false.
Proof.
  unfold WF, Clean, bits_of, bits_new; cbn [buf bitlen allocated bsign].
  rewrite repeat_length. repeat split; try lia.
  - apply bytes_repeat0.
  - intros; apply getb_repeat0.
  - rewrite (map_ext _ (fun _ => false)) by (intros; apply getb_repeat0).
    clear. generalize 0. induction n; intros; simpl; [reflexivity|]. f_equal. apply IHn.
Qed.

Lemma memset0_ok b from n :
  from + n <= length b -> bytes b ->
  exists b', memset0 b from n = Ok b' /\ length b' = length b /\ bytes b' /\
    forall i, nth i b' 0%N = if (from <=? i) && (i <? from + n) then 0%N else nth i b 0%N.
Proof.
  intros H Hb. unfold memset0.
  destruct (for_from_inv (fun k b' => length b' = length b /\ bytes b' /\
    forall i, nth i b' 0%N = if (from <=? i) && (i <? k) then 0%N else nth i b 0%N)
    (fun i b => wr b i 0%N) n from b) as (t & Ht & HL & HB & HN).
  - repeat split; auto. intros i. destruct (Nat.leb_spec from i), (Nat.ltb_spec i from); auto; lia.
  - intros j t Hj (HL & HB & HN). rewrite wr_ok by lia. eexists; split; [reflexivity|].
    repeat split.
    + rewrite upd_length; assumption.
    + apply bytes_upd; [assumption|lia].
    + intros i. rewrite upd_nth by lia. rewrite HN.
      destruct (Nat.eqb_spec i j), (Nat.leb_spec from i), (Nat.ltb_spec i j), (Nat.ltb_spec i (S j));
        simpl; auto; lia.
  - exists t. repeat split; auto.
Qed.

Lemma memcpy_ok d s n :
  n <= length d -> n <= length s -> bytes d -> bytes s ->
  exists b', memcpy d s n = Ok b' /\ length b' = length d /\ bytes b' /\
    forall i, nth i b' 0%N = if i <? n then nth i s 0%N else nth i d 0%N.
Proof.
  intros H1 H2 Hd Hs. unfold memcpy.
  destruct (for_to_inv (fun k b' => length b' = length d /\ bytes b' /\
    forall i, nth i b' 0%N = if i <? k then nth i s 0%N else nth i d 0%N)
    (fun i b => do x <- rd s i; wr b i x) n d) as (t & Ht & HL & HB & HN).
  - repeat split; auto.
  - intros j t Hj (HL & HB & HN). rewrite (rd_nth 0%N) by lia. cbn [bind].
    rewrite wr_ok by lia. eexists; split; [reflexivity|].
    repeat split.
    + rewrite upd_length; assumption.
    + apply bytes_upd; [assumption|apply bytes_nth; assumption].
    + intros i. rewrite upd_nth by lia. rewrite HN.
      destruct (Nat.eqb_spec i j), (Nat.ltb_spec i j), (Nat.ltb_spec i (S j)); subst; auto; lia.
  - exists t. repeat split; auto.
Qed.

Lemma memdup_ok s n : n <= length s -> memdup s n = Ok (firstn n s).
Proof. intros H. unfold memdup. destruct (Nat.leb_spec n (length s)); [reflexivity|lia]. Qed.

Lemma bytes_firstn a n : bytes a -> bytes (firstn n a).
Proof. intros H. apply Forall_forall. intros x Hx. apply (proj1 (Forall_forall _ _) H).
  rewrite <- (firstn_skipn n a). apply in_or_app; auto. Qed.

Lemma nth_firstn_lt {A} (d : A) l n i : i < n -> nth i (firstn n l) d = nth i l d.
Proof.
  revert n i; induction l as [|h t IH]; intros n i H; destruct n, i; simpl; auto; try lia.
  apply IH; lia.
Qed.

Lemma getb_firstn a n i : i < 8 * n -> getb (firstn n a) i = getb a i.
Proof. intros H. unfold getb. rewrite nth_firstn_lt by lia. reflexivity. Qed.

Lemma getb_nth_ext a b i : nth (i / 8) a 0%N = nth (i / 8) b 0%N -> getb a i = getb b i.
Proof. unfold getb. intros ->. reflexivity. Qed.

Lemma realloc_length junk b n : length (realloc junk b n) = n.
Proof.
  unfold realloc. rewrite app_length, firstn_length, map_length, seq_length. lia.
Qed.

Lemma bytes_app a b : bytes a -> bytes b -> bytes (a ++ b).
Proof. intros. apply Forall_app; auto. Qed.

Lemma realloc_bytes junk b n : bytes b -> bytes (realloc junk b n).
Proof.
  intros H. apply bytes_app; [apply bytes_firstn; assumption|].
  apply Forall_forall. intros x Hx. apply in_map_iff in Hx. destruct Hx as (i & <- & _).
  apply N.mod_lt. lia.
Qed.

Lemma realloc_nth junk b n i : i < n -> i < length b -> nth i (realloc junk b n) 0%N = nth i b 0%N.
Proof.
  intros H1 H2. unfold realloc. rewrite app_nth1 by (rewrite firstn_length; lia).
  apply nth_firstn_lt; assumption.
Qed.

(** [bits_of] by positions *)
Lemma bits_of_length b : length (bits_of b) = bitlen b.
Proof. unfold bits_of. rewrite map_length, seq_length. reflexivity. Qed.

Lemma nth_bits_of b i : i < bitlen b -> nth i (bits_of b) false = getb (buf b) i.
Proof.
  intros H. unfold bits_of.
  rewrite nth_indep with (d' := getb (buf b) 0) by (rewrite map_length, seq_length; lia).
  rewrite map_nth, seq_nth by lia. reflexivity.
Qed.

Lemma bits_of_ext b l :
  length l = bitlen b -> (forall i, i < bitlen b -> getb (buf b) i = nth i l false) ->
  bits_of b = l.
Proof.
  intros HL H. apply nth_ext with (d := false) (d' := false); rewrite bits_of_length; [auto|].
  intros i Hi. rewrite nth_bits_of by assumption. apply H; assumption.
Qed.

(** Generic loop: OR-ing value [g i] into bit [i] of a buffer. *)
Lemma or_loop (f : nat -> list N -> res (list N)) (g : nat -> bool) n b0 :
  bytes b0 -> n <= 8 * length b0 ->
  (forall i b, i < n -> length b = length b0 -> bytes b ->
     exists v, f i b = OR_BIT b i v /\ (v < 2)%N /\ N.eqb v 1 = g i \/
               f i b = Ok b /\ g i = false) ->
  exists b', for_to n f b0 = Ok b' /\ length b' = length b0 /\ bytes b' /\
    forall j, getb b' j = if j <? n then getb b0 j || g j else getb b0 j.
Proof.
  intros Hb Hn Hf.
  destruct (for_to_inv (fun k b' => length b' = length b0 /\ bytes b' /\
    forall j, getb b' j = if j <? k then getb b0 j || g j else getb b0 j) f n b0)
    as (t & Ht & HL & HB & HN).
  - repeat split; auto.
  - intros j t Hj (HL & HB & HN).
    destruct (Hf j t Hj HL HB) as (v & [(E & Hv & Hg)|(E & Hg)]); rewrite E.
    + destruct (OR_BIT_ok t j v) as (a' & Ha & Hl & Hby & Hget); [lia|assumption|assumption|].
      exists a'. repeat split; auto; [congruence|].
      intros i. rewrite Hget, !HN, Hg.
      destruct (Nat.eqb_spec i j), (Nat.ltb_spec j j), (Nat.ltb_spec i j), (Nat.ltb_spec i (S j));
        subst; auto; lia.
    + exists t. repeat split; auto. intros i. rewrite HN.
      destruct (Nat.ltb_spec i j), (Nat.ltb_spec i (S j)); auto; try lia.
      replace i with j by lia. rewrite Hg, orb_false_r. reflexivity.
  - exists t. auto.
Qed.
