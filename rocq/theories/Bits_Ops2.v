(** Each bit-string operation computes its list-of-bits meaning (continued):
    text output, copying, comparison and the combining operations. *)
From Coq Require Import Ascii String.
From Verif Require Import Base Bits_Model Bits_Spec Bits_Proofs Bits_Ops.
Local Open Scope nat_scope.
Local Open Scope list_scope.
Ltac Zify.zify_post_hook ::= Z.div_mod_to_equations.

(** Result of an operation on [b] in place: well formed, padding stays clean. *)
Definition inplace (b : bits_t) (r : res bits_t) (l : list bool) : Prop :=
  exists b', r = Ok b' /\ WF b' /\ (Clean b -> Clean b') /\ bsign b' = bsign b /\ bits_of b' = l.

Lemma good_inplace b r l : good r (bsign b) l -> inplace b r l.
Proof. intros (b' & H & H1 & H2 & H3 & H4). exists b'. auto. Qed.

(** ** Text buffers *)
Lemma upd_app_zero (pre : list ascii) m c : 0 < m ->
  upd (pre ++ repeat zero m) (length pre) c = (pre ++ [c]) ++ repeat zero (m - 1).
Proof.
  intros H. destruct m as [|m]; [lia|]. rewrite Nat.sub_1_r. cbn [Nat.pred].
  induction pre as [|x pre IH]; cbn [app Datatypes.length upd]; [reflexivity|]. f_equal. apply IH.
Qed.

Lemma upd_zero_same pre m : 0 < m -> upd (pre ++ repeat zero m) (length pre) zero = pre ++ repeat zero m.
Proof.
  intros H. rewrite upd_app_zero by assumption. rewrite <- app_assoc. f_equal.
  destruct m as [|m]; [lia|]. cbn. rewrite Nat.sub_0_r. reflexivity.
Qed.

Lemma put_ok pre m s : length s < m ->
  put (pre ++ repeat zero m) (length pre) s = Ok ((pre ++ s) ++ repeat zero (m - length s)).
Proof.
  intros H. unfold put.
  destruct (for_to_inv (fun k r => r = (pre ++ firstn k s) ++ repeat zero (m - Nat.min k (length s)))
    (fun i r => wr r (length pre + i) (nth i s zero)) (length s + 1) (pre ++ repeat zero m))
    as (t & Ht & HP).
  - cbn [firstn Nat.min]. rewrite app_nil_r, Nat.sub_0_r. reflexivity.
  - intros j t Hj ->. rewrite wr_ok.
    2:{ rewrite !app_length, repeat_length, firstn_length. lia. }
    eexists; split; [reflexivity|].
    destruct (Nat.eq_dec j (length s)) as [->|D].
    + replace (length pre + length s) with (length (pre ++ firstn (length s) s))
        by (rewrite app_length, firstn_all; reflexivity).
      rewrite (nth_overflow s) by lia. rewrite upd_zero_same by lia.
      rewrite !firstn_all2 by lia. do 2 f_equal. lia.
    + replace (length pre + j) with (length (pre ++ firstn j s))
        by (rewrite app_length, firstn_length; lia).
      rewrite upd_app_zero by lia. rewrite <- (app_assoc pre).
      assert (S1 : firstn (S j) s = firstn j s ++ [nth j s zero]).
      { assert (LL : j < length s) by lia. revert LL. clear. revert s.
        induction j; intros [|x l] L; cbn in *; try lia; auto. f_equal. apply IHj. lia. }
      rewrite <- S1. do 2 f_equal. lia.
  - rewrite Ht, HP. f_equal. rewrite firstn_all2 by lia. do 2 f_equal. lia.
Qed.

Lemma cstr_app pre m : (forall c, In c pre -> c <> zero) -> cstr (pre ++ repeat zero m) = pre.
Proof.
  induction pre as [|x pre IH]; intros H; cbn [app cstr].
  - destruct m; reflexivity.
  - destruct (Ascii.eqb_spec x zero) as [E|E]; [exfalso; apply (H x); cbn; auto|].
    f_equal. apply IH. intros c Hc. apply H. cbn; auto.
Qed.

Definition sign_text (s : bool) : list ascii := if s then ["-"%char] else [].

Lemma sign_start (s : bool) m : 0 < m ->
  (if s then wr (repeat zero (m + (if s then 1 else 0))) 0 "-"%char
   else Ok (repeat zero (m + (if s then 1 else 0))))
  = Ok (sign_text s ++ repeat zero m).
Proof.
  intros H. destruct s; cbn [sign_text].
  - rewrite wr_ok by (rewrite repeat_length; lia).
    rewrite Nat.add_comm. reflexivity.
  - rewrite Nat.add_0_r. reflexivity.
Qed.

Lemma sign_text_length (s : bool) : length (sign_text s) = if s then 1 else 0.
Proof. destruct s; reflexivity. Qed.

Definition bin_text (l : list bool) : list ascii := map (fun b : bool => if b then "1"%char else "0"%char) l.

Lemma firstn_S_nth {A} (d : A) l j : j < length l -> firstn (S j) l = firstn j l ++ [nth j l d].
Proof.
  revert l. induction j; intros [|x l] L; cbn in *; try lia; auto. f_equal. apply IHj. lia.
Qed.

Lemma bits_to_bin_ok b : WF b ->
  bits_to_bin b = Ok (sign_text (bsign b) ++ bin_text (bits_of b)).
Proof.
  intros H. unfold bits_to_bin. rewrite sign_start by lia. cbn [bind].
  destruct (for_to_inv (fun k r => r = (sign_text (bsign b) ++ bin_text (firstn k (bits_of b)))
        ++ repeat zero (bitlen b + 1 - k))
    (fun i result => do g <- GET_BIT (buf b) i;
      put result (i + (if bsign b then 1 else 0)) [ascii_of_N (48 + g)])
    (bitlen b) (sign_text (bsign b) ++ repeat zero (bitlen b + 1))) as (t & Ht & HP).
  - rewrite app_nil_r, Nat.sub_0_r. reflexivity.
  - intros j t Hj ->. rewrite GET_WF by assumption. cbn [bind].
    replace (j + (if bsign b then 1 else 0))
      with (length (sign_text (bsign b) ++ bin_text (firstn j (bits_of b)))).
    2:{ unfold bin_text. rewrite app_length, sign_text_length, map_length, firstn_length, bits_of_length.
        destruct (bsign b); lia. }
    rewrite put_ok by (cbn; lia). eexists; split; [reflexivity|].
    rewrite (firstn_S_nth false) by (rewrite bits_of_length; assumption).
    unfold bin_text. rewrite map_app, app_assoc. cbn [map Datatypes.length].
    f_equal; [|f_equal; lia]. f_equal. f_equal. destruct (nth j (bits_of b) false); reflexivity.
  - rewrite Ht, HP. cbn [bind]. f_equal. rewrite firstn_all2 by (rewrite bits_of_length; lia).
    apply cstr_app. intros c Hc. apply in_app_or in Hc. destruct Hc as [Hc|Hc].
    + destruct (bsign b); cbn in Hc; [|contradiction]. destruct Hc as [<-|[]]. discriminate.
    + unfold bin_text in Hc. apply in_map_iff in Hc. destruct Hc as (x & <- & _). destruct x; discriminate.
Qed.

(** hex *)
Lemma byte_bval v : (v < 256)%N ->
  bval (map (fun j => N.testbit v (N.of_nat (7 - j))) (seq 0 8)) = Z.of_N v.
Proof.
  intros H.
  assert (A : forallb (fun v => (bval (map (fun j => N.testbit v (N.of_nat (7 - j))) (seq 0 8)) =? Z.of_N v)%Z)
     (map N.of_nat (seq 0 256)) = true) by (vm_compute; reflexivity).
  rewrite forallb_forall in A. apply Z.eqb_eq. apply A. apply in_map_iff.
  exists (N.to_nat v). split; [lia|]. apply in_seq. lia.
Qed.

Lemma hexdigit_hexch d : (d < 16)%N -> hexdigit d = hexch (Z.of_N d) /\ hexdigit d <> zero.
Proof.
  intros H.
  assert (A : forallb (fun d => Ascii.eqb (hexdigit d) (hexch (Z.of_N d)) && negb (Ascii.eqb (hexdigit d) zero))
     (map N.of_nat (seq 0 16)) = true) by (vm_compute; reflexivity).
  rewrite forallb_forall in A. specialize (A d).
  assert (I : In d (map N.of_nat (seq 0 16))).
  { apply in_map_iff. exists (N.to_nat d). split; [lia|]. apply in_seq. lia. }
  apply A in I. apply andb_prop in I. destruct I as (I1 & I2).
  apply Ascii.eqb_eq in I1. split; [assumption|].
  intros E. rewrite E in I2. discriminate.
Qed.

Lemma hex_text_step k v d : (0 <= d < 16)%Z -> hex_text (S k) (v * 16 + d) = hex_text k v ++ [hexch d].
Proof.
  intros H. cbn [hex_text]. replace ((v * 16 + d) / 16)%Z with v by lia.
  replace ((v * 16 + d) mod 16)%Z with d by lia. reflexivity.
Qed.

Lemma hex_text_step2 k v x : (x < 256)%N ->
  hex_text (S (S k)) (v * 256 + Z.of_N x) =
  hex_text k v ++ [hexdigit (x / 16)%N; hexdigit (x mod 16)%N].
Proof.
  intros H.
  destruct (hexdigit_hexch (x / 16)) as [-> _]; [lia|].
  destruct (hexdigit_hexch (x mod 16)) as [-> _]; [lia|].
  replace (v * 256 + Z.of_N x)%Z with ((v * 16 + Z.of_N (x / 16)) * 16 + Z.of_N (x mod 16))%Z by lia.
  rewrite hex_text_step by lia. rewrite hex_text_step by lia. rewrite <- app_assoc. reflexivity.
Qed.

Lemma hex_text_length k : forall v, length (hex_text k v) = k.
Proof. induction k; intros v; cbn [hex_text]; [reflexivity|]. rewrite app_length, IHk. cbn. lia. Qed.

Lemma hexch_nz d : (0 <= d < 16)%Z -> hexch d <> zero.
Proof.
  intros H. destruct (hexdigit_hexch (Z.to_N d)) as [E N]; [lia|].
  rewrite Z2N.id in E by lia. congruence.
Qed.

Lemma hex_text_nz k : forall v c, In c (hex_text k v) -> c <> zero.
Proof.
  induction k; intros v c; cbn [hex_text]; [contradiction|]. intros H. apply in_app_or in H.
  destruct H as [H|[<-|[]]]; [eapply IHk; eassumption|]. apply hexch_nz. lia.
Qed.

Lemma firstn_add {A} n m (l : list A) : firstn (n + m) l = firstn n l ++ firstn m (skipn n l).
Proof. revert l. induction n; intros [|x l]; cbn; auto. - rewrite firstn_nil. reflexivity. - f_equal. apply IHn. Qed.

Lemma nth_skipn_add {A} (d : A) n l i : nth i (skipn n l) d = nth (n + i) l d.
Proof. revert l. induction n; intros [|x l]; cbn; auto. destruct i; reflexivity. Qed.

Lemma nth_lpad n l i : length l <= n -> nth i (lpad n l) false = if i <? n - length l then false else nth (i - (n - length l)) l false.
Proof.
  intros H. unfold lpad. destruct (Nat.ltb_spec i (n - length l)).
  - rewrite app_nth1 by (rewrite repeat_length; assumption). apply nth_repeat_any. assumption.
  - rewrite app_nth2 by (rewrite repeat_length; assumption). rewrite repeat_length. reflexivity.
Qed.

Lemma lpad_length n l : length l <= n -> length (lpad n l) = n.
Proof. intros H. unfold lpad. rewrite app_length, repeat_length. lia. Qed.

(** The byte printed in iteration [i] of bits_to_hex. *)
Definition hex_value (bits : bits_t) (i : nat) : res N :=
  let offset := bitlen bits mod 8 in
  if negb (offset =? 0) then
    do x <- rd (buf bits) i;
    let value := N.shiftr x (N.of_nat (8 - offset)) in
    if negb (i =? 0) then
      do y <- rd (buf bits) (i - 1);
      Ok (N.lor value
           (N.shiftl (N.ldiff y (N.shiftl 1 (N.of_nat (8 - offset)))) (N.of_nat offset))
           mod 256)%N
    else Ok (value mod 256)%N
  else rd (buf bits) i.

Lemma hex_value_ok b i : WF b -> i < BYTE_LEN (bitlen b) ->
  exists v, hex_value b i = Ok v /\ (v < 256)%N /\
    Z.of_N v = bval (firstn 8 (skipn (8 * i) (lpad (8 * BYTE_LEN (bitlen b)) (bits_of b)))).
Proof.
  intros (H1 & H2 & H3) Hi. unfold hex_value. set (off := bitlen b mod 8).
  pose proof (byte_len_ge (bitlen b)) as G1. pose proof (byte_len_bound (bitlen b)) as G2.
  set (P := lpad (8 * BYTE_LEN (bitlen b)) (bits_of b)).
  assert (LP : length P = 8 * BYTE_LEN (bitlen b)) by (apply lpad_length; rewrite bits_of_length; lia).
  assert (K : forall v, (v < 256)%N ->
     (forall j, j < 8 -> N.testbit v (N.of_nat (7 - j)) = nth (8 * i + j) P false) ->
     Z.of_N v = bval (firstn 8 (skipn (8 * i) P))).
  { intros v Hv HT. rewrite <- (byte_bval v) by assumption. f_equal.
    apply nth_ext with (d := false) (d' := false).
    - rewrite map_length, seq_length, firstn_length, skipn_length. lia.
    - rewrite map_length, seq_length. intros j Hj.
      rewrite nth_firstn_lt by assumption. rewrite nth_skipn_add, <- HT by assumption.
      rewrite nth_indep with (d' := (fun j => N.testbit v (N.of_nat (7 - j))) 0)
        by (rewrite map_length, seq_length; lia).
      rewrite (map_nth (fun j => N.testbit v (N.of_nat (7 - j)))), seq_nth by lia. reflexivity. }
  assert (PN : forall j, j < 8 -> nth (8 * i + j) P false =
     if 8 * i + j <? 8 * BYTE_LEN (bitlen b) - bitlen b then false
     else getb (buf b) (8 * i + j - (8 * BYTE_LEN (bitlen b) - bitlen b))).
  { intros j Hj. unfold P. rewrite nth_lpad by (rewrite bits_of_length; lia). rewrite bits_of_length.
    destruct (Nat.ltb_spec (8 * i + j) (8 * BYTE_LEN (bitlen b) - bitlen b)); [reflexivity|].
    apply nth_bits_of. lia. }
  assert (BL : BYTE_LEN (bitlen b) = if off =? 0 then bitlen b / 8 else bitlen b / 8 + 1) by reflexivity.
  destruct (Nat.eqb_spec off 0) as [E|E]; cbn [negb].
  - (* aligned *)
    rewrite (rd_nth 0%N) by lia. eexists; split; [reflexivity|].
    pose proof (bytes_nth (buf b) i H3) as Hv. split; [assumption|]. apply K; [assumption|].
    intros j Hj. rewrite PN by assumption.
    destruct (Nat.ltb_spec (8 * i + j) (8 * BYTE_LEN (bitlen b) - bitlen b)); [lia|].
    unfold getb. f_equal; [|f_equal; lia]. f_equal. lia.
  - rewrite (rd_nth 0%N) by lia. cbn [bind].
    pose proof (bytes_nth (buf b) i H3) as Hx. set (x := nth i (buf b) 0%N) in *.
    assert (Hval : (N.shiftr x (N.of_nat (8 - off)) < 256)%N).
    { change 256%N with (2 ^ 8)%N. apply lt_pow2_testbit. intros m Hm. rewrite N.shiftr_spec by lia.
      apply (testbit_lt x 8); [assumption|lia]. }
    destruct (Nat.eqb_spec i 0) as [Ei|Ei]; cbn [negb].
    + eexists; split; [reflexivity|]. rewrite N.mod_small by assumption. split; [assumption|].
      apply K; [assumption|]. intros j Hj. rewrite PN by assumption. rewrite N.shiftr_spec by lia.
      destruct (Nat.ltb_spec (8 * i + j) (8 * BYTE_LEN (bitlen b) - bitlen b)).
      * apply (testbit_lt x 8); [assumption|lia].
      * unfold getb, x. f_equal; [|lia]. f_equal. lia.
    + rewrite (rd_nth 0%N) by lia. cbn [bind]. eexists; split; [reflexivity|].
      pose proof (bytes_nth (buf b) (i - 1) H3) as Hy. set (y := nth (i - 1) (buf b) 0%N) in *.
      split; [apply N.mod_lt; lia|]. apply K; [apply N.mod_lt; lia|].
      intros j Hj. rewrite PN by assumption.
      change 256%N with (2 ^ 8)%N. rewrite N.mod_pow2_bits_low by lia.
      rewrite N.lor_spec, N.shiftr_spec by lia.
      destruct (Nat.ltb_spec (8 * i + j) (8 * BYTE_LEN (bitlen b) - bitlen b)); [lia|].
      destruct (Nat.lt_ge_cases (7 - j) off) as [L|L].
      * rewrite N.shiftl_spec_low by lia. rewrite orb_false_r.
        unfold getb, x. f_equal; [|lia]. f_equal. lia.
      * rewrite N.shiftl_spec_high by lia. rewrite N.ldiff_spec, testbit_pow.
        destruct (N.eqb_spec (N.of_nat (7 - j) - N.of_nat off) (N.of_nat (8 - off))); [lia|].
        rewrite andb_true_r.
        rewrite (testbit_lt x 8) by (assumption || lia). cbn [orb].
        unfold getb, y. f_equal; [|lia]. f_equal. lia.
Qed.

Lemma bits_to_hex_ok b : WF b ->
  bits_to_hex b = Ok (sign_text (bsign b) ++ hex_text (2 * BYTE_LEN (bitlen b)) (mag b)).
Proof.
  intros H. unfold bits_to_hex. set (n := BYTE_LEN (bitlen b)).
  rewrite sign_start by lia. cbn [bind].
  set (P := lpad (8 * n) (bits_of b)).
  pose proof (byte_len_ge (bitlen b)) as G1. fold n in G1.
  assert (LP : length P = 8 * n) by (apply lpad_length; rewrite bits_of_length; lia).
  match goal with |- context [for_to n ?f _] => set (F := f) end.
  destruct (for_to_inv (fun k r => r = (sign_text (bsign b) ++ hex_text (2 * k) (bval (firstn (8 * k) P)))
        ++ repeat zero (n * 2 + 1 - 2 * k)) F n (sign_text (bsign b) ++ repeat zero (n * 2 + 1)))
    as (t & Ht & HP).
  - rewrite app_nil_r, Nat.sub_0_r. reflexivity.
  - intros j t Hj ->. unfold F.
    destruct (hex_value_ok b j H Hj) as (v & Ev & Hv & Bv). unfold hex_value in Ev. cbv zeta.
    rewrite Ev. cbn [bind].
    replace (j * 2 + (if bsign b then 1 else 0))
      with (length (sign_text (bsign b) ++ hex_text (2 * j) (bval (firstn (8 * j) P)))).
    2:{ rewrite app_length, sign_text_length, hex_text_length. destruct (bsign b); lia. }
    rewrite put_ok by (cbn; lia). eexists; split; [reflexivity|].
    replace (8 * S j) with (8 * j + 8) by lia. rewrite firstn_add, bval_app.
    fold n in Bv. fold P in Bv. rewrite <- Bv.
    replace (length (firstn 8 (skipn (8 * j) P))) with 8 by (rewrite firstn_length, skipn_length; lia).
    change (2 ^ Z.of_nat 8)%Z with 256%Z. replace (2 * S j) with (S (S (2 * j))) by lia.
    rewrite hex_text_step2 by assumption. rewrite app_assoc. f_equal. f_equal. cbn [Datatypes.length]. lia.
  - rewrite Ht, HP. cbn [bind]. f_equal.
    rewrite firstn_all2 by lia. unfold P, lpad. rewrite bval_repeat_false.
    apply cstr_app. intros c Hc. apply in_app_or in Hc. destruct Hc as [Hc|Hc].
    + destruct (bsign b); cbn in Hc; [|contradiction]. destruct Hc as [<-|[]]. discriminate.
    + eapply hex_text_nz; eassumption.
Qed.

(** ** Copies and comparison *)
Lemma getb_ext_nth a a' i : (forall k, k = i / 8 -> nth k a 0%N = nth k a' 0%N) -> getb a i = getb a' i.
Proof. intros H. unfold getb. rewrite (H _ eq_refl). reflexivity. Qed.

Lemma bits_copy_ok b : WF b ->
  exists b', bits_copy b = Ok b' /\ WF b' /\ bsign b' = bsign b /\ bitlen b' = bitlen b /\
    allocated b' = allocated b /\ length (buf b') = allocated b /\
    (forall i, i < 8 * allocated b -> getb (buf b') i = getb (buf b) i).
Proof.
  intros (H1 & H2 & H3). unfold bits_copy. destruct (Nat.eqb_spec (allocated b) 0) as [E|E].
  - eexists; split; [reflexivity|]. unfold WF; cbn [buf bsign bitlen allocated].
    rewrite E in *. repeat split; auto. intros i Hi. lia.
  - rewrite memdup_ok by assumption. cbn [bind]. eexists; split; [reflexivity|].
    unfold WF; cbn [buf bsign bitlen allocated]. rewrite firstn_length.
    repeat split; auto; try lia.
    + apply bytes_firstn; assumption.
    + intros i Hi. apply getb_firstn; assumption.
Qed.

Lemma bits_copy_inplace b : WF b -> inplace b (bits_copy b) (bits_of b).
Proof.
  intros H. destruct (bits_copy_ok b H) as (b' & E & W & S & L & A & _ & G). exists b'.
  repeat split; try apply W; auto.
  - intros C i Hi. rewrite L, A in Hi. rewrite G by lia. apply C; lia.
  - apply bits_of_ext; [rewrite bits_of_length; auto|]. intros i Hi. rewrite L in Hi.
    rewrite nth_bits_of by assumption. apply G. destruct H as (_ & H2 & _). apply byte_len_le in H2. lia.
Qed.

Lemma bits_cpy_ok junk d s : WF d -> WF s -> bitlen s <> 0 ->
  exists b', bits_cpy junk d s = Ok b' /\ WF b' /\ (Clean s -> Clean b') /\ bsign b' = bsign s /\
    bits_of b' = bits_of s.
Proof.
  intros (D1 & D2 & D3) (S1 & S2 & S3) Hn. unfold bits_cpy.
  destruct (Nat.eqb_spec (bitlen s) 0); [lia|].
  assert (X : exists db, (if allocated s <? allocated d
            then memset0 (buf d) (allocated s) (allocated d - allocated s)
            else if allocated d <? allocated s
            then Ok (realloc junk (buf d) (allocated s))
            else Ok (buf d)) = Ok db /\ allocated s <= length db /\ bytes db).
  { destruct (Nat.ltb_spec (allocated s) (allocated d)).
    - destruct (memset0_ok (buf d) (allocated s) (allocated d - allocated s)) as (x & E & L & B & _);
        [lia|assumption|]. exists x. repeat split; auto; lia.
    - destruct (Nat.ltb_spec (allocated d) (allocated s)); eexists; (split; [reflexivity|]).
      + rewrite realloc_length. split; [lia|apply realloc_bytes; assumption].
      + split; [lia|assumption]. }
  destruct X as (db & -> & L & B). cbn [bind].
  destruct (memcpy_ok db (buf s) (allocated s)) as (x & E & L' & B' & G); auto. rewrite E. cbn [bind].
  eexists; split; [reflexivity|].
  assert (GG : forall i, i < 8 * allocated s -> getb x i = getb (buf s) i).
  { intros i Hi. apply getb_nth_ext. rewrite G. destruct (Nat.ltb_spec (i / 8) (allocated s)); [reflexivity|lia]. }
  unfold WF, Clean; cbn [buf bsign bitlen allocated]. repeat split; auto; try lia.
  - intros C i Hi. rewrite GG by lia. apply C; lia.
  - apply bits_of_ext; cbn [buf bitlen]; [apply bits_of_length|]. intros i Hi.
    rewrite nth_bits_of by assumption. apply GG. apply byte_len_le in S2. lia.
Qed.

Lemma mask_bits m k : 1 <= m <= 7 ->
  N.testbit (mask_loop 7 m 0) (N.of_nat k) = (8 - m <=? k) && (k <=? 7).
Proof.
  intros H.
  assert (M : forall k, 8 <= k -> N.testbit (mask_loop 7 m 0) (N.of_nat k) = false).
  { intros q Hq. apply (testbit_lt _ 8); [|lia]. 
    destruct m as [|[|[|[|[|[|[|[|m]]]]]]]]; try lia; vm_compute; reflexivity. }
  destruct (Nat.lt_ge_cases k 8) as [L|L].
  - assert (A : forallb (fun m => forallb (fun k =>
       Bool.eqb (N.testbit (mask_loop 7 m 0) (N.of_nat k)) ((8 - m <=? k) && (k <=? 7))) (seq 0 8)) (seq 1 7) = true)
      by (vm_compute; reflexivity).
    rewrite forallb_forall in A. specialize (A m). rewrite forallb_forall in A.
    apply eqb_prop. apply A; apply in_seq; lia.
  - rewrite M by assumption. destruct (Nat.leb_spec (8 - m) k), (Nat.leb_spec k 7); auto; lia.
Qed.

Lemma mask_byte m : 1 <= m <= 7 -> (mask_loop 7 m 0 < 256)%N.
Proof. intros H. destruct m as [|[|[|[|[|[|[|[|m]]]]]]]]; try lia; vm_compute; reflexivity. Qed.

Lemma memcmp_ne_ok a b n : n <= length a -> n <= length b ->
  exists r, memcmp_ne a b n = Ok r /\ (r = false <-> forall i, i < n -> nth i a 0%N = nth i b 0%N).
Proof.
  intros Ha Hb. unfold memcmp_ne.
  destruct (for_to_inv (fun k (ne : bool) => ne = false <-> forall i, i < k -> nth i a 0%N = nth i b 0%N)
    (fun i (ne : bool) => do x <- rd a i; do y <- rd b i; Ok (ne || negb (N.eqb x y))) n false)
    as (t & Ht & HP).
  - split; [intros _ i Hi; lia|auto].
  - intros j t Hj HP. rewrite !(rd_nth 0%N) by lia. cbn [bind]. eexists; split; [reflexivity|].
    destruct (N.eqb_spec (nth j a 0%N) (nth j b 0%N)) as [E|E]; cbn [negb].
    + rewrite orb_false_r, HP. split; intros H i Hi.
      * destruct (Nat.eq_dec i j) as [->|]; [assumption|]. apply H; lia.
      * apply H; lia.
    + rewrite orb_true_r. split; [discriminate|]. intros H. exfalso. apply E, H. lia.
  - exists t. auto.
Qed.

Lemma bytes_eq_getb a b k : bytes a -> bytes b ->
  (nth k a 0%N = nth k b 0%N <-> forall j, j < 8 -> getb a (8 * k + j) = getb b (8 * k + j)).
Proof.
  intros Ha Hb. split.
  - intros H j Hj. apply getb_nth_ext. replace ((8 * k + j) / 8) with k by lia. assumption.
  - intros H. apply N.bits_inj. intros m.
    destruct (N.lt_ge_cases m 8) as [L|L].
    + specialize (H (7 - N.to_nat m) ltac:(lia)). unfold getb in H.
      replace ((8 * k + (7 - N.to_nat m)) / 8) with k in H by lia.
      replace (N.of_nat (7 - (8 * k + (7 - N.to_nat m)) mod 8)) with m in H by lia. assumption.
    + rewrite !(testbit_lt _ 8); auto using bytes_nth; apply (bytes_nth _ k); assumption.
Qed.

Lemma bits_of_eq_iff b c : bitlen b = bitlen c ->
  (bits_of b = bits_of c <-> forall i, i < bitlen b -> getb (buf b) i = getb (buf c) i).
Proof.
  intros HL. split.
  - intros H i Hi. rewrite <- !nth_bits_of by lia. rewrite H. reflexivity.
  - intros H. apply bits_of_ext; [rewrite bits_of_length; auto|]. intros i Hi.
    rewrite nth_bits_of by lia. auto.
Qed.

Lemma bits_eq_ok b c : WF b -> WF c ->
  exists r, bits_eq b c = Ok r /\ (r = true <-> bsign b = bsign c /\ bits_of b = bits_of c).
Proof.
  intros (B1 & B2 & B3) (C1 & C2 & C3). unfold bits_eq.
  destruct (eqb (bsign b) (bsign c)) eqn:Es; cbn [negb].
  2:{ exists false. split; [reflexivity|]. split; [discriminate|]. intros (E & _).
      rewrite E, eqb_reflx in Es. discriminate. }
  apply eqb_prop in Es.
  destruct (Nat.eqb_spec (bitlen b) (bitlen c)) as [El|El]; cbn [negb].
  2:{ exists false. split; [reflexivity|]. split; [discriminate|]. intros (_ & E). apply bits_of_eq in E. lia. }
  destruct (Nat.eqb_spec (bitlen b) 0) as [E0|E0].
  { exists true. split; [reflexivity|]. split; auto. intros _. split; [assumption|].
    apply bits_of_eq_iff; [assumption|]. intros i Hi. lia. }
  pose proof (byte_len_ge (bitlen b)) as G. rewrite <- El in C2.
  destruct (memcmp_ne_ok (buf b) (buf c) (bitlen b / 8)) as (r & Er & Hr); [lia|lia|]. rewrite Er. cbn [bind].
  pose proof (bits_of_eq_iff b c El) as Q.
  destruct r.
  { exists false. split; [reflexivity|]. split; [discriminate|]. intros (_ & H). rewrite Q in H. exfalso.
    cut (true = false); [discriminate|]. apply Hr. intros i Hi. apply bytes_eq_getb; auto.
    intros j Hj. apply H. lia. }
  assert (R0 : forall i, i < bitlen b / 8 -> nth i (buf b) 0%N = nth i (buf c) 0%N) by (apply Hr; reflexivity).
  destruct (Nat.eqb_spec (bitlen b mod 8) 0) as [Em|Em]; cbn [negb].
  { exists true. split; [reflexivity|]. split; auto. intros _. split; [assumption|]. rewrite Q. intros i Hi.
    apply getb_nth_ext. apply R0. lia. }
  rewrite !(rd_nth 0%N) by lia. cbn [bind]. eexists; split; [reflexivity|].
  rewrite N.eqb_eq, Q. split.
  - intros H. split; [assumption|]. intros i Hi.
    destruct (Nat.lt_ge_cases (i / 8) (bitlen b / 8)) as [L|L]; [apply getb_nth_ext, R0; assumption|].
    assert (Ei : i / 8 = bitlen b / 8) by lia.
    unfold getb. rewrite Ei.
    assert (T : N.testbit (N.land (nth (bitlen b / 8) (buf b) 0%N) (mask_loop 7 (bitlen b mod 8) 0)) (N.of_nat (7 - i mod 8))
              = N.testbit (N.land (nth (bitlen b / 8) (buf c) 0%N) (mask_loop 7 (bitlen b mod 8) 0)) (N.of_nat (7 - i mod 8)))
      by (rewrite H; reflexivity).
    rewrite !N.land_spec, mask_bits in T by lia.
    replace ((8 - bitlen b mod 8 <=? 7 - i mod 8) && (7 - i mod 8 <=? 7)) with true in T.
    2:{ symmetry. apply andb_true_intro. split; apply Nat.leb_le; lia. }
    rewrite !andb_true_r in T. assumption.
  - intros (_ & H). apply N.bits_inj. intros m. rewrite !N.land_spec.
    replace m with (N.of_nat (N.to_nat m)) by lia. rewrite mask_bits by lia.
    destruct (Nat.leb_spec (8 - bitlen b mod 8) (N.to_nat m)), (Nat.leb_spec (N.to_nat m) 7);
      cbn [andb]; rewrite ?andb_false_r; auto.
    rewrite !andb_true_r. specialize (H (8 * (bitlen b / 8) + (7 - N.to_nat m)) ltac:(lia)).
    unfold getb in H. replace ((8 * (bitlen b / 8) + (7 - N.to_nat m)) / 8) with (bitlen b / 8) in H by lia.
    replace (7 - (8 * (bitlen b / 8) + (7 - N.to_nat m)) mod 8) with (N.to_nat m) in H by lia. assumption.
Qed.

(** ** Bitwise operations *)
Lemma b2n_lt2 x : (N.b2n x < 2)%N. Proof. destruct x; reflexivity. Qed.
Lemma b2n_eqb1 x : N.eqb (N.b2n x) 1 = x. Proof. destruct x; reflexivity. Qed.

Lemma map2_nth f a b i : length a = length b -> i < length a ->
  nth i (map2 f a b) false = f (nth i a false) (nth i b false).
Proof.
  intros HL Hi. unfold map2.
  rewrite nth_indep with (d' := (fun p => f (fst p) (snd p)) (false, false))
    by (rewrite map_length, combine_length; lia).
  rewrite (map_nth (fun p => f (fst p) (snd p))), combine_nth by assumption. reflexivity.
Qed.

Lemma map2_length f a b : length a = length b -> length (map2 f a b) = length a.
Proof. intros H. unfold map2. rewrite map_length, combine_length. lia. Qed.

Lemma bits_bitwise_aux f fb short long :
  (forall x y, f (N.b2n x) (N.b2n y) = N.b2n (fb x y)) ->
  WF short -> WF long -> bitlen short <= bitlen long ->
  good (let r := bits_new (bitlen long) in
    do b <- for_to (bitlen long) (fun i b =>
      let longer_pos := bitlen long - i - 1 in
      do longer_bit <- GET_BIT (buf long) longer_pos;
      do shorter_bit <- (if i <? bitlen short
                         then GET_BIT (buf short) (bitlen short - i - 1)
                         else Ok 0%N);
      OR_BIT b longer_pos (f longer_bit shorter_bit)) (buf r);
    Ok (mkBits b (bsign r) (bitlen r) (allocated r)))
   false (map2 fb (bits_of long) (lpad (bitlen long) (bits_of short))).
Proof.
  intros Hf WS WL Hle. cbv zeta. set (n := bitlen long).
  set (R := map2 fb (bits_of long) (lpad n (bits_of short))).
  assert (LP : length (lpad n (bits_of short)) = n) by (apply lpad_length; rewrite bits_of_length; assumption).
  assert (RN : forall p, p < n -> nth p R false =
     fb (nth p (bits_of long) false) (nth p (lpad n (bits_of short)) false)).
  { intros p Hp. apply map2_nth; rewrite bits_of_length; auto. }
  pose proof (byte_len_ge n) as G.
  match goal with |- good (do b <- for_to n ?f _; _) _ _ => set (F := f) end.
  destruct (for_to_inv (fun k b' => length b' = BYTE_LEN n /\ bytes b' /\
     forall p, getb b' p = (n - k <=? p) && (p <? n) && nth p R false) F n (buf (bits_new n)))
    as (t & Ht & HL & HB & HG).
  - cbn [buf bits_new]. split; [apply repeat_length|]. split; [apply bytes_repeat0|].
    intros p. rewrite getb_repeat0. destruct (Nat.leb_spec (n - 0) p), (Nat.ltb_spec p n); auto; lia.
  - intros j t Hj (HL & HB & HG). unfold F.
    rewrite GET_WF by (auto; fold n; lia). cbn [bind].
    assert (X : (if j <? bitlen short then GET_BIT (buf short) (bitlen short - j - 1) else Ok 0%N)
      = Ok (N.b2n (nth (n - j - 1) (lpad n (bits_of short)) false))).
    { rewrite nth_lpad by (rewrite bits_of_length; assumption). rewrite bits_of_length.
      destruct (Nat.ltb_spec j (bitlen short)), (Nat.ltb_spec (n - j - 1) (n - bitlen short)); try lia; auto.
      rewrite GET_WF by (auto; lia). do 3 f_equal. lia. }
    rewrite X. cbn [bind]. rewrite Hf.
    destruct (OR_BIT_ok t (n - j - 1) (N.b2n (fb (nth (n - j - 1) (bits_of long) false)
        (nth (n - j - 1) (lpad n (bits_of short)) false)))) as (a' & Ea & La & Ba & Ga);
      [lia|assumption|apply b2n_lt2|].
    exists a'. split; [assumption|]. split; [lia|]. split; [assumption|].
    intros p. rewrite Ga, !HG, b2n_eqb1.
    destruct (Nat.eqb_spec p (n - j - 1)) as [->|D].
    + rewrite <- RN by lia.
      destruct (Nat.leb_spec (n - j) (n - j - 1)), (Nat.leb_spec (n - S j) (n - j - 1)),
        (Nat.ltb_spec (n - j - 1) n); try lia; reflexivity.
    + destruct (Nat.leb_spec (n - j) p), (Nat.leb_spec (n - S j) p), (Nat.ltb_spec p n); try lia; reflexivity.
  - rewrite Ht. cbn [bind]. eexists; split; [reflexivity|].
    cbn [bits_new bsign bitlen allocated]. unfold WF, Clean; cbn [buf bitlen allocated bsign].
    repeat split; auto; try lia.
    + intros i Hi. rewrite HG. destruct (Nat.ltb_spec i n); [lia|]. rewrite andb_false_r. reflexivity.
    + apply bits_of_ext; cbn [buf bitlen].
      * unfold R. rewrite map2_length; rewrite bits_of_length; auto.
      * intros i Hi. rewrite HG. destruct (Nat.leb_spec (n - n) i), (Nat.ltb_spec i n); try lia. reflexivity.
Qed.

Lemma map2_comm f a b : (forall x y, f x y = f y x) -> map2 f a b = map2 f b a.
Proof.
  intros Hf. revert b. induction a as [|x a IH]; intros [|y b]; cbn; auto.
  unfold map2 in *. rewrite IH. f_equal. apply Hf.
Qed.

Lemma lpad_id n l : length l = n -> lpad n l = l.
Proof. intros H. unfold lpad. rewrite H, Nat.sub_diag. reflexivity. Qed.

Lemma bits_bitwise_ok f fb b c :
  (forall x y, f (N.b2n x) (N.b2n y) = N.b2n (fb x y)) -> (forall x y, fb x y = fb y x) ->
  WF b -> WF c ->
  good (bits_bitwise b c f) false
    (map2 fb (lpad (Nat.max (bitlen b) (bitlen c)) (bits_of b))
             (lpad (Nat.max (bitlen b) (bitlen c)) (bits_of c))).
Proof.
  intros Hf Hc WB WC. unfold bits_bitwise.
  destruct (Nat.ltb_spec (bitlen c) (bitlen b)) as [L|L].
  - pose proof (bits_bitwise_aux f fb c b Hf WC WB ltac:(lia)) as G.
    replace (Nat.max (bitlen b) (bitlen c)) with (bitlen b) by lia.
    rewrite (lpad_id (bitlen b) (bits_of b)) by apply bits_of_length. exact G.
  - pose proof (bits_bitwise_aux f fb b c Hf WB WC ltac:(lia)) as G.
    replace (Nat.max (bitlen b) (bitlen c)) with (bitlen c) by lia.
    rewrite (lpad_id (bitlen c) (bits_of c)) by apply bits_of_length.
    rewrite (map2_comm fb) by assumption. exact G.
Qed.

(** ** Concatenation *)
Lemma grow_ok junk b m : WF b ->
  exists nb na, (if allocated b <? BYTE_LEN m then
      do x <- memset0 (realloc junk (buf b) (BYTE_LEN m)) (allocated b) (BYTE_LEN m - allocated b);
      Ok (x, BYTE_LEN m)
    else Ok (buf b, allocated b)) = Ok (nb, na) /\
    na <= length nb /\ allocated b <= na /\ BYTE_LEN m <= na /\ bytes nb /\
    (forall i, i < 8 * allocated b -> getb nb i = getb (buf b) i) /\
    (forall i, 8 * allocated b <= i < 8 * na -> getb nb i = false).
Proof.
  intros (B1 & B2 & B3). destruct (Nat.ltb_spec (allocated b) (BYTE_LEN m)) as [L|L].
  - destruct (memset0_ok (realloc junk (buf b) (BYTE_LEN m)) (allocated b) (BYTE_LEN m - allocated b))
      as (x & E & HL & HB & HN).
    + rewrite realloc_length. lia.
    + apply realloc_bytes; assumption.
    + rewrite E. cbn [bind]. exists x, (BYTE_LEN m). rewrite realloc_length in HL. repeat split; auto; try lia.
      * intros i Hi. apply getb_nth_ext. rewrite HN.
        destruct (Nat.leb_spec (allocated b) (i / 8)); [lia|]. cbn [andb]. apply realloc_nth; lia.
      * intros i Hi. unfold getb. rewrite HN.
        destruct (Nat.leb_spec (allocated b) (i / 8)); [|lia].
        destruct (Nat.ltb_spec (i / 8) (allocated b + (BYTE_LEN m - allocated b))); [|lia].
        apply N.bits_0.
  - exists (buf b), (allocated b). repeat split; auto; try lia.
Qed.

Lemma bits_concat1_ok junk b c : WF b -> WF c ->
  (Z.of_nat (bitlen b) + Z.of_nat (bitlen c) < 2 ^ 64)%Z ->
  inplace b (bits_concat1 junk b c) (bits_of b ++ bits_of c).
Proof.
  intros WB WC Hov. unfold bits_concat1. destruct (Nat.eqb_spec (bitlen c) 0) as [E0|E0].
  { exists b. repeat split; try apply WB; auto.
    assert (bits_of c = []) as -> by (apply length_zero_iff_nil; rewrite bits_of_length; assumption).
    rewrite app_nil_r. reflexivity. }
  rewrite u64_small by lia.
  replace (Z.to_nat (Z.of_nat (bitlen b) + Z.of_nat (bitlen c))) with (bitlen b + bitlen c) by lia.
  destruct (grow_ok junk b (bitlen b + bitlen c) WB) as (nb & na & E & L1 & L2 & L3 & HB & G1 & G2).
  rewrite E. cbn [bind]. clear E.
  assert (B2 : bitlen b <= 8 * allocated b) by (apply byte_len_le; apply WB).
  assert (B4 : bitlen b + bitlen c <= 8 * na) by (apply byte_len_le; assumption).
  match goal with |- context [for_to _ ?f nb] => set (F := f) end.
  destruct (for_to_inv (fun k x => length x = length nb /\ bytes x /\
     forall p, getb x p = if (bitlen b <=? p) && (p <? bitlen b + k)
                          then nth (p - bitlen b) (bits_of c) false else getb nb p) F (bitlen c) nb)
    as (t & Ht & HL & HT & HG).
  - repeat split; auto. intros p. destruct (Nat.leb_spec (bitlen b) p), (Nat.ltb_spec p (bitlen b + 0)); auto; lia.
  - intros j t Hj (HL & HT & HG). unfold F. rewrite GET_WF by assumption. cbn [bind].
    destruct (SET_BIT_ok t (bitlen b + j) (N.b2n (nth j (bits_of c) false))) as (a' & Ea & La & Ba & Ga);
      [lia|assumption|apply b2n_lt2|].
    exists a'. repeat split; auto; [lia|]. intros p. rewrite Ga, HG, b2n_eqb1.
    destruct (Nat.eqb_spec p (bitlen b + j)) as [->|D].
    + destruct (Nat.leb_spec (bitlen b) (bitlen b + j)), (Nat.ltb_spec (bitlen b + j) (bitlen b + S j)); try lia.
      cbn [andb]. f_equal. lia.
    + destruct (Nat.leb_spec (bitlen b) p), (Nat.ltb_spec p (bitlen b + j)), (Nat.ltb_spec p (bitlen b + S j));
        auto; lia.
  - rewrite Ht. cbn [bind]. eexists; split; [reflexivity|].
    unfold WF, Clean; cbn [buf bitlen allocated bsign]. repeat split; auto; try lia.
    + intros C i Hi. rewrite HG. destruct (Nat.ltb_spec i (bitlen b + bitlen c)); [lia|].
      rewrite andb_false_r. destruct (Nat.lt_ge_cases i (8 * allocated b)).
      * rewrite G1 by assumption. apply C. lia.
      * apply G2. lia.
    + apply bits_of_ext; cbn [buf bitlen]; [rewrite app_length, !bits_of_length; reflexivity|].
      intros i Hi. rewrite HG.
      destruct (Nat.leb_spec (bitlen b) i).
      * destruct (Nat.ltb_spec i (bitlen b + bitlen c)); [|lia]. cbn [andb].
        rewrite app_nth2 by (rewrite bits_of_length; assumption). rewrite bits_of_length. reflexivity.
      * cbn [andb]. rewrite app_nth1 by (rewrite bits_of_length; lia). rewrite nth_bits_of by lia. apply G1. lia.
Qed.

Lemma concat_length (cs : list bits_t) :
  length (List.concat (map bits_of cs)) = fold_right (fun c a => bitlen c + a) 0 cs.
Proof. induction cs; cbn; [reflexivity|]. rewrite app_length, bits_of_length, IHcs. reflexivity. Qed.

Lemma bits_concatz_ok junk cs : forall b, WF b -> Forall WF cs ->
  (Z.of_nat (bitlen b + length (List.concat (map bits_of cs))) < 2 ^ 64)%Z ->
  inplace b (bits_concatz junk b cs) (bits_of b ++ List.concat (map bits_of cs)).
Proof.
  induction cs as [|c cs IH]; intros b WB WC Hov; cbn [bits_concatz map List.concat].
  - exists b. repeat split; try apply WB; auto. rewrite app_nil_r. reflexivity.
  - cbn [map List.concat] in Hov. rewrite app_length, bits_of_length in Hov.
    inversion WC as [|? ? Wc Wcs]; subst.
    destruct (bits_concat1_ok junk b c WB Wc ltac:(lia)) as (b' & E & W' & C' & S' & B').
    rewrite E. cbn [bind].
    assert (L' : bitlen b' = bitlen b + bitlen c).
    { rewrite <- (bits_of_length b'), B', app_length, !bits_of_length. reflexivity. }
    destruct (IH b' W' Wcs ltac:(lia)) as (b'' & E' & W'' & C'' & S'' & B'').
    exists b''. rewrite E'. repeat split; try apply W''; auto; [congruence|].
    rewrite B'', B', app_assoc. reflexivity.
Qed.

Lemma inplace_trans_copy b g l : WF b ->
  (forall b', WF b' -> bits_of b' = bits_of b -> bsign b' = bsign b -> allocated b' = allocated b ->
     bitlen b' = bitlen b -> (Clean b -> Clean b') -> inplace b' (g b') l) ->
  inplace b (do r <- bits_copy b; g r) l.
Proof.
  intros W H. destruct (bits_copy_inplace b W) as (b' & E & W' & C & S & B).
  destruct (bits_copy_ok b W) as (b2 & E2 & _ & _ & L2 & A2 & _). rewrite E in E2. injection E2 as <-.
  rewrite E. cbn [bind]. destruct (H b' W' B S A2 L2 C) as (b'' & E'' & W'' & C'' & S'' & B'').
  exists b''. repeat split; try apply W''; auto. congruence.
Qed.

Lemma bits_concat_ok junk b cs : WF b -> Forall WF cs ->
  (Z.of_nat (bitlen b + length (List.concat (map bits_of cs))) < 2 ^ 64)%Z ->
  inplace b (bits_concat junk b cs) (bits_of b ++ List.concat (map bits_of cs)).
Proof.
  intros WB WC H. unfold bits_concat. apply inplace_trans_copy; [assumption|].
  intros b' W' B' S' A' L' _. rewrite <- B'. apply bits_concatz_ok; auto. rewrite L'. assumption.
Qed.
