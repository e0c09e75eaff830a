(** Lemmas about brainpool.c and brainpool_rfc.c. *)
From Coq Require Import Ascii Znumtheory.
From Verif Require Import Base Bits_Model Bits_Spec Bits_Proofs Bits_Ops Bits_Ops2 Bits_Ops3 Bits_Round
  Sha1_Spec Sha1_Model Sha1_Proofs Hash_Model Hash_Proofs Str_Model Ansi_Spec Ansi_Model Ansi_Proofs
  Brainpool_Spec Brainpool_Model.
Local Open Scope nat_scope.
Ltac Zify.zify_post_hook ::= Z.div_mod_to_equations.

(** ** the seed chain *)
Lemma two160 : (0 < 2 ^ 160)%Z. Proof. reflexivity. Qed.
Lemma bp_seed_length s i : length (bp_seed s i) = 160.
Proof. apply be_length. Qed.

Lemma bval_be n v : (0 <= v < 2 ^ Z.of_nat n)%Z -> bval (be n (Z.to_N v)) = v.
Proof.
  intros H. rewrite be_lpad by assumption.
  destruct (from_i_len_fits v n) as (_ & V); [rewrite Z.abs_eq; lia|]. rewrite Z.abs_eq in V by lia.
  rewrite <- V at 2. unfold from_i_len_bits.
  destruct (Nat.leb_spec (length (binary_zv v)) n) as [L|L]; [reflexivity|].
  exfalso. assert (length (binary_zv v) <= n); [|lia]. apply binary_zv_length. rewrite Z.abs_eq; lia.
Qed.

Lemma bp_seed_val s i : bval (bp_seed s i) = ((bval s + Z.of_nat i) mod 2 ^ 160)%Z.
Proof. unfold bp_seed. apply (bval_be 160). apply Z.mod_pos_bound. apply two160. Qed.

Lemma bp_seed_0 s : length s = 160 -> bp_seed s 0 = s.
Proof.
  intros H. unfold bp_seed. pose proof (bval_bound s) as B. rewrite H in B. change (Z.of_nat 160) with 160%Z in B.
  rewrite Z.add_0_r, Z.mod_small by exact B. apply be_bval. exact H.
Qed.

Lemma bp_seed_add s i j : bp_seed (bp_seed s i) j = bp_seed s (i + j).
Proof.
  unfold bp_seed at 1. rewrite bp_seed_val. rewrite Zplus_mod_idemp_l.
  unfold bp_seed. rewrite Nat2Z.inj_add, Z.add_assoc. reflexivity.
Qed.

(** ** seeds as objects *)
Definition okbp (b : bits_t) (l : list bool) : Prop :=
  WF b /\ Clean b /\ bsign b = false /\ bits_of b = l /\ length l = 160.

Lemma from_i_len_be v n : (0 <= v < 2 ^ Z.of_nat n)%Z -> from_i_len_bits v n = be n (Z.to_N v).
Proof.
  intros H. rewrite be_lpad by assumption. unfold from_i_len_bits.
  destruct (Nat.leb_spec (length (binary_zv v)) n) as [Le|Le]; [reflexivity|].
  exfalso. assert (length (binary_zv v) <= n); [|lia]. apply binary_zv_length. rewrite Z.abs_eq; lia.
Qed.

Lemma seed_obj v : exists b, bits_from_i_len (v mod 2 ^ 160)%Z 160 = Ok b /\ okbp b (be 160 (Z.to_N (v mod 2 ^ 160))).
Proof.
  assert (H : (0 <= v mod 2 ^ 160 < 2 ^ Z.of_nat 160)%Z) by (apply Z.mod_pos_bound; apply two160).
  revert H. generalize (v mod 2 ^ 160)%Z. intros u H.
  destruct (bits_from_i_len_ok u 160) as (b & E & W & C & S & B).
  exists b. split; [exact E|]. rewrite from_i_len_be in B by assumption.
  split; [exact W|]. split; [exact C|]. split; [rewrite S; apply Z.ltb_ge; lia|]. split; [exact B|apply be_length].
Qed.

Lemma update_seed_ok junk s l : okbp s l ->
  exists s', brainpool_update_seed junk s = Ok s' /\ okbp s' (bp_seed l 1).
Proof.
  intros (W & C & S & B & L). unfold brainpool_update_seed. rewrite bits_to_i_ok by assumption. cbn [bind].
  unfold signed; cbn [fst snd]. rewrite S, B.
  destruct (seed_obj (bval l + 1)) as (r & E & RW & RC & RS & RB & RL). rewrite E. cbn [bind].
  destruct (bits_cpy_ok junk s r W RW) as (s' & E' & W' & C' & S' & B').
  { rewrite <- bits_of_length, RB, RL. discriminate. }
  exists s'. split; [exact E'|]. split; [exact W'|]. split; [auto|]. split; [congruence|].
  split; [rewrite B', RB; reflexivity|apply bp_seed_length].
Qed.

(** ** the expansion *)
Definition blocks (l : list bool) (n : nat) : list bool := flat_map (fun i => sha1 (bp_seed l i)) (seq 1 n).
Lemma blocks_S l n : blocks l (S n) = blocks l n ++ sha1 (bp_seed l (S n)).
Proof. unfold blocks. rewrite seq_S, flat_map_app. cbn [flat_map]. rewrite app_nil_r. reflexivity. Qed.
Lemma blocks_length l n : length (blocks l n) = 160 * n.
Proof. induction n; [reflexivity|]. rewrite blocks_S, app_length, IHn, sha1_length. lia. Qed.

Lemma sha1_okbp b l : okbp b l -> exists d, bits_sha1 b = Ok d /\ length d = 20 /\ Forall (fun x => (x < 256)%N) d /\
  bits_of_bytes d = sha1 l.
Proof.
  intros (W & C & S & B & L). destruct (bits_sha1_ok b W C) as (d & E & D1 & D2 & D3).
  { rewrite <- bits_of_length, B, L. reflexivity. }
  exists d. repeat (split; [assumption|]). rewrite D3, B, to_byte_id; [reflexivity|]. rewrite L. reflexivity.
Qed.

Lemma hash_step_ok l pre suf k : Forall (fun x => (x < 256)%N) pre ->
  length pre = 20 * k -> bits_of_bytes pre = blocks l k -> 20 <= length suf ->
  exists pre', hash_step (bval l) (S k) (pre ++ suf) = Ok (pre' ++ skipn 20 suf) /\
    Forall (fun x => (x < 256)%N) pre' /\ length pre' = 20 * (S k) /\ bits_of_bytes pre' = blocks l (S k).
Proof.
  intros PB PL PV SL. unfold hash_step.
  destruct (seed_obj (bval l + Z.of_nat (S k))) as (b & -> & OB). cbn [bind].
  destruct (sha1_okbp _ _ OB) as (d & -> & D1 & D2 & D3). cbn [bind].
  unfold put20. replace (20 * (S k - 1)) with (length pre) by lia.
  destruct (Nat.leb_spec (length pre + 20) (length (pre ++ suf))) as [H|H]; [|rewrite app_length in H; lia].
  rewrite firstn_app, firstn_all, Nat.sub_diag, firstn_O, app_nil_r.
  rewrite skipn_app, (skipn_all2 pre) by lia. replace (length pre + 20 - length pre) with 20 by lia.
  cbn [app]. rewrite (firstn_all2 d) by lia.
  exists (pre ++ d). rewrite <- app_assoc. split; [reflexivity|]. split; [apply Forall_app; split; assumption|].
  split; [rewrite app_length; lia|]. rewrite bits_of_bytes_app, PV, D3, blocks_S. reflexivity.
Qed.

Lemma hash_loop l n : forall k pre suf, Forall (fun x => (x < 256)%N) pre ->
  length pre = 20 * k -> bits_of_bytes pre = blocks l k -> length suf = 20 * n ->
  exists a, for_from n (S k) (hash_step (bval l)) (pre ++ suf) = Ok a /\
    Forall (fun x => (x < 256)%N) a /\ length a = 20 * (k + n) /\ bits_of_bytes a = blocks l (k + n).
Proof.
  induction n as [|n IH]; intros k pre suf PB PL PV SL; cbn [for_from].
  - destruct suf; [|discriminate]. exists pre. rewrite app_nil_r, Nat.add_0_r. auto.
  - destruct (hash_step_ok l pre suf k PB PL PV) as (pre' & E & B' & L' & V'); [lia|]. rewrite E. cbn [bind].
    destruct (IH (S k) pre' (skipn 20 suf) B' L' V') as (a & Ea & H); [rewrite skipn_length; lia|].
    exists a. replace (k + S n) with (S k + n) by lia. auto.
Qed.

Lemma hash_ok junk vla0 s l w v : okbp s l -> w <= 160 -> (160 * Z.of_nat v + 160 < 2 ^ 63)%Z -> vla0 = true \/ 0 < v ->
  exists r, brainpool_hash junk vla0 s (Z.of_nat w) (Z.of_nat v) = Ok r /\ WF r /\ bsign r = false /\
    bits_of r = bp_expand l w v.
Proof.
  intros OK Hw Hv Hz. unfold brainpool_hash. destruct (sha1_okbp _ _ OK) as (h & -> & H1 & H2 & H3). cbn [bind].
  destruct OK as (W & C & S & B & L).
  assert (G : ((Z.of_nat v <? 0) || ((Z.of_nat v =? 0) && negb vla0))%Z = false).
  { destruct (Z.ltb_spec (Z.of_nat v) 0); [lia|]. destruct (Z.eqb_spec (Z.of_nat v) 0); [|reflexivity].
    destruct Hz as [->|]; [reflexivity|lia]. }
  rewrite G, Nat2Z.id. rewrite bits_to_i_ok by assumption. cbn [bind]. unfold signed; cbn [fst snd]. rewrite S, B.
  destruct (hash_loop l v 0 [] (map junk (seq 0 (20 * v)))) as (a & E & A1 & A2 & A3);
    [constructor|reflexivity|reflexivity|rewrite map_length, seq_length; reflexivity|].
  cbn [app] in E. rewrite E. cbn [bind].
  destruct (raw20_ok h H1 H2) as (b & -> & BW & BC & BS & BL & BB). cbn [bind].
  destruct (bits_shortenz_ok b (160 - Z.of_nat w) BW) as (c & E2 & CW & CC & CS & CB); [lia|lia|].
  rewrite E2. cbn [bind].
  destruct (bits_from_raw_ok a (160 * v) A1) as (rest & E3 & RW & RS & RB); [lia|]. rewrite E3. cbn [bind].
  assert (RB' : bits_of rest = blocks l v).
  { rewrite RB, <- bits_of_bytes_getb by lia. rewrite firstn_all2 by (rewrite bits_of_bytes_length; lia). exact A3. }
  assert (CB' : bits_of c = rightmost w (sha1 l)).
  { rewrite CB. destruct (Z.leb_spec 0 (160 - Z.of_nat w)); [|lia]. rewrite BB, H3. unfold rightmost.
    rewrite sha1_length. f_equal. lia. }
  destruct (bits_concatz_ok junk [rest] c CW) as (r & E4 & RW' & _ & RS' & RBB); [auto| |].
  { cbn [map List.concat]. rewrite app_nil_r, RB', blocks_length, <- bits_of_length, CB'. unfold rightmost.
    rewrite skipn_length, sha1_length. lia. }
  exists r. split; [exact E4|]. split; [exact RW'|]. split; [congruence|].
  rewrite RBB. cbn [map List.concat]. rewrite app_nil_r, RB', CB'. reflexivity.
Qed.

Lemma expand_length s w v : w <= 160 -> length (bp_expand s w v) = w + 160 * v.
Proof.
  intros H. unfold bp_expand. rewrite app_length. fold (blocks s v). rewrite blocks_length. unfold rightmost.
  rewrite skipn_length, sha1_length. lia.
Qed.

Lemma hash_i_ok junk vla0 s l w v : okbp s l -> w <= 160 -> (160 * Z.of_nat v + 160 < 2 ^ 63)%Z -> vla0 = true \/ 0 < v ->
  hash_i junk vla0 s (Z.of_nat w) (Z.of_nat v) = Ok (bval (bp_expand l w v)).
Proof.
  intros OK Hw Hv Hz. unfold hash_i. destruct (hash_ok junk vla0 s l w v OK Hw Hv Hz) as (r & -> & W & S & B).
  cbn [bind]. rewrite bits_to_i_ok by assumption. cbn [bind]. unfold signed; cbn [fst snd]. rewrite S, B. reflexivity.
Qed.

Lemma hash_v0 junk s l w : okbp s l -> brainpool_hash junk false s w 0 = UB.
Proof.
  intros OK. unfold brainpool_hash. destruct (sha1_okbp _ _ OK) as (h & -> & _). reflexivity.
Qed.

(** ** the seed object of a run *)
Lemma bp_split L : 1 <= L -> bp_w L + 160 * bp_v L = L - 1 /\ bp_w L <= 159.
Proof. unfold bp_w, bp_v. lia. Qed.

(** the object holds seed [l] for an L-bit field *)
Definition holds (sd : bp_t) (l : list bool) (L : nat) : Prop :=
  okbp (bseed sd) l /\ bw sd = Z.of_nat (bp_w L) /\ bv sd = Z.of_nat (bp_v L).

Lemma seed_wv_ok L : 1 <= L -> seed_wv (Z.of_nat L) = (Z.of_nat (bp_w L), Z.of_nat (bp_v L)).
Proof. intros H. unfold seed_wv, bp_w, bp_v. f_equal; lia. Qed.

Definition size_ok (L : nat) (vla0 : bool) : Prop := 1 <= L /\ (Z.of_nat L < 2 ^ 62)%Z /\ (vla0 = true \/ 160 < L).

Lemma size_v L vla0 : size_ok L vla0 -> (160 * Z.of_nat (bp_v L) + 160 < 2 ^ 63)%Z /\ (vla0 = true \/ 0 < bp_v L).
Proof.
  intros (H & B & V). pose proof (bp_split L H) as (S & _). split; [lia|].
  destruct V as [V|V]; [auto|]. right. unfold bp_v. lia.
Qed.

Lemma c_ok junk vla0 sd l L : holds sd l L -> size_ok L vla0 -> hash_i junk vla0 (bseed sd) (bw sd + 1) (bv sd) = Ok (bp_c l L).
Proof.
  intros (OK & -> & ->) HL. destruct (size_v L vla0 HL) as (A & B). pose proof (bp_split L (proj1 HL)) as (_ & C).
  replace (Z.of_nat (bp_w L) + 1)%Z with (Z.of_nat (bp_w L + 1)) by lia. apply hash_i_ok; [assumption| |assumption|assumption].
  lia.
Qed.
Lemma coeff_ok junk vla0 sd l L : holds sd l L -> size_ok L vla0 -> hash_i junk vla0 (bseed sd) (bw sd) (bv sd) = Ok (bp_coeff l L).
Proof.
  intros (OK & -> & ->) HL. destruct (size_v L vla0 HL) as (A & B). pose proof (bp_split L (proj1 HL)) as (_ & C).
  apply hash_i_ok; [assumption| |assumption|assumption]. lia.
Qed.
Lemma update_ok junk sd l L : holds sd l L -> exists sd', update junk sd = Ok sd' /\ holds sd' (bp_seed l 1) L /\ bupd sd' = bupd sd.
Proof.
  intros (OK & W & V). unfold update. destruct (update_seed_ok junk _ _ OK) as (s' & -> & OK'). cbn [bind].
  eexists; split; [reflexivity|]. split; [|reflexivity]. split; [exact OK'|]. split; assumption.
Qed.
Lemma pending_ok junk sd l L : holds sd l L ->
  exists sd', pending junk sd = Ok sd' /\ holds sd' (if bupd sd then bp_seed l 1 else l) L /\ bupd sd' = false.
Proof.
  intros H. unfold pending. destruct (bupd sd) eqn:U.
  - destruct H as (OK & W & V). destruct (update_seed_ok junk _ _ OK) as (s' & -> & OK'). cbn [bind].
    eexists; split; [reflexivity|]. split; [|reflexivity]. split; [exact OK'|]. split; assumption.
  - exists sd. auto.
Qed.
Lemma pending_idle junk sd : bupd sd = false -> pending junk sd = Ok sd.
Proof. intros H. unfold pending. rewrite H. reflexivity. Qed.

(** ** the field step *)
Lemma next3_mono nextprime fuel : forall fuel' c p, next3 nextprime fuel c = Ok p -> fuel <= fuel' -> next3 nextprime fuel' c = Ok p.
Proof.
  induction fuel as [|f IH]; intros [|f'] c p H Hle; cbn [next3] in *; try discriminate; [lia|].
  destruct (negb (nextprime (c + 1) mod 4 =? 3)%Z); [|assumption]. apply IH; [assumption|lia].
Qed.

Section Field.
Variable nextprime : Z -> Z.
Variable isprime : Z -> bool.
Variable prp : Z -> Prop.
Hypothesis next_gt : forall x, (x <= nextprime x)%Z /\ prp (nextprime x) /\ forall q, (x <= q < nextprime x)%Z -> ~ prp q.
Hypothesis isprime_ok : forall p, isprime p = true <-> prime p.

Lemma next3_ok fuel : forall c p, next3 nextprime fuel c = Ok p -> least3 prp c p.
Proof.
  induction fuel as [|f IH]; intros c p H; cbn [next3] in H; [discriminate|].
  destruct (next_gt (c + 1)) as (G1 & G2 & G3).
  destruct (Z.eqb_spec (nextprime (c + 1) mod 4) 3) as [E|E]; cbn [negb] in H.
  - injection H as <-. split; [clear - G1; lia|]. split; [assumption|]. split; [assumption|].
    intros q Hq _. apply G3. clear - Hq. lia.
  - apply IH in H. destruct H as (H1 & H2 & H3 & H4). split; [clear - G1 H1; lia|]. split; [assumption|]. split; [assumption|].
    intros q Hq Q3. destruct (Z.lt_trichotomy q (nextprime (c + 1))) as [Lt|[->|Gt]].
    + apply G3. clear - Hq Lt. lia.
    + contradiction.
    + apply H4; [clear - Hq Gt; lia|assumption].
Qed.

Lemma next3_total q : prp q -> (q mod 4 = 3)%Z -> forall n c, (c < q <= c + Z.of_nat n)%Z -> exists p, next3 nextprime n c = Ok p.
Proof.
  intros PQ Q3. induction n as [|n IH]; intros c Hc; [lia|]. cbn [next3].
  destruct (next_gt (c + 1)) as (G1 & G2 & G3).
  destruct (Z.eqb_spec (nextprime (c + 1) mod 4) 3) as [E|E]; cbn [negb]; [eexists; reflexivity|].
  apply IH. destruct (Z.lt_trichotomy q (nextprime (c + 1))) as [Lt|[->|Gt]]; [exfalso|contradiction|clear - G1 Hc Gt; lia].
  apply (G3 q); [clear - Hc Lt; lia|assumption].
Qed.

Lemma least3_unique P c p q : least3 P c p -> least3 P c q -> p = q.
Proof.
  intros (A1 & A2 & A3 & A4) (B1 & B2 & B3 & B4). destruct (Z.lt_trichotomy p q) as [L|[E|G]]; [exfalso|exact E|exfalso].
  - apply (B4 p); auto.
  - apply (A4 q); auto.
Qed.

Lemma least3_weaken (P Q : Z -> Prop) c p : (forall x, Q x -> P x) -> least3 P c p -> Q p -> least3 Q c p.
Proof. intros H (A & B & C & D) HQ. split; [assumption|]. split; [assumption|]. split; [assumption|]. intros q H1 H2 H3. apply (D q); auto. Qed.

(** the acceptance test *)
Lemma field_test L p : (((p <=? 2 ^ (Z.of_nat L - 1) - 1) || (2 ^ Z.of_nat L <=? p)) = false /\ isprime p = true <-> bit_prime L p)%Z.
Proof.
  unfold bit_prime. rewrite isprime_ok, Bool.orb_false_iff, Z.leb_gt, Z.leb_gt. split; intros H; intuition lia.
Qed.

Definition start (sd : bp_t) (l : list bool) : list bool := if bupd sd then bp_seed l 1 else l.

Lemma start_length sd l : length l = 160 -> length (start sd l) = 160.
Proof. intros H. unfold start. destruct (bupd sd); [apply bp_seed_length|assumption]. Qed.

Lemma gen_field_ok junk vla0 L fuel : size_ok L vla0 -> forall sd l p sd', holds sd l L ->
  brainpool_gen_field junk vla0 nextprime isprime fuel (Z.of_nat L) sd = Ok (p, sd') ->
  exists k, let s := bp_seed (start sd l) in
    holds sd' (s k) L /\ bupd sd' = true /\ bit_prime L p /\ least3 prp (bp_c (s k) L) p /\
    forall j, j < k -> exists q, least3 prp (bp_c (s j) L) q /\ ~ bit_prime L q.
Proof.
  intros HL. induction fuel as [|f IH]; intros sd l p sd' HH H; cbn [brainpool_gen_field] in H; [discriminate|].
  destruct (pending_ok junk sd l L HH) as (s1 & E1 & H1 & U1). rewrite E1 in H. cbn [bind] in H.
  fold (start sd l) in H1. rewrite (c_ok junk vla0 s1 _ L H1 HL) in H. cbn [bind] in H.
  apply bind_ok in H. destruct H as (q & EN & H). apply next3_ok in EN.
  assert (SL : length (start sd l) = 160) by (apply start_length; apply HH).
  pose proof (field_test L q) as FT.
  assert (STEP : ~ bit_prime L q -> (do sd0 <- update junk s1; brainpool_gen_field junk vla0 nextprime isprime f (Z.of_nat L) sd0) = Ok (p, sd') ->
    exists k, let s := bp_seed (start sd l) in
    holds sd' (s k) L /\ bupd sd' = true /\ bit_prime L p /\ least3 prp (bp_c (s k) L) p /\
    forall j, j < k -> exists q, least3 prp (bp_c (s j) L) q /\ ~ bit_prime L q).
  { intros NB HU. destruct (update_ok junk s1 _ L H1) as (s2 & E2 & H2 & U2). rewrite E2 in HU. cbn [bind] in HU.
    destruct (IH s2 _ p sd' H2 HU) as (k & K1 & K2 & K3 & K4 & K5).
    unfold start at 1 in K1. unfold start at 1 in K4. unfold start at 1 in K5. rewrite U2, U1 in K1, K4, K5.
    exists (S k). cbv zeta. rewrite bp_seed_add in K1, K4. cbn [Nat.add] in K1, K4.
    split; [assumption|]. split; [assumption|]. split; [assumption|]. split; [assumption|].
    intros [|j] Hj.
    - exists q. rewrite bp_seed_0 by assumption. auto.
    - destruct (K5 j) as (q' & Q1 & Q2); [lia|]. exists q'. rewrite bp_seed_add in Q1. auto. }
  destruct ((q <=? 2 ^ (Z.of_nat L - 1) - 1)%Z || (2 ^ Z.of_nat L <=? q)%Z) eqn:ER.
  - apply STEP; [|assumption]. intros BP. apply FT in BP. destruct BP. discriminate.
  - destruct (isprime q) eqn:EP; cbn [negb] in H.
    + injection H as <- <-. exists 0. cbv zeta. rewrite bp_seed_0 by assumption.
      split; [exact H1|]. split; [reflexivity|]. split; [apply FT; auto|]. split; [assumption|]. intros j Hj. lia.
    + apply STEP; [|assumption]. intros BP. apply FT in BP. destruct BP. discriminate.
Qed.


(** progress: if the chain reaches a seed that gives an L-bit prime, the step ends *)
Lemma gen_field_total junk vla0 L : size_ok L vla0 -> forall k sd l p, holds sd l L ->
  (forall j, j <= k -> exists q, prp q /\ (q mod 4 = 3)%Z /\ (bp_c (bp_seed (start sd l) j) L < q)%Z) ->
  least3 prp (bp_c (bp_seed (start sd l) k) L) p -> bit_prime L p ->
  exists fuel, isOk (brainpool_gen_field junk vla0 nextprime isprime fuel (Z.of_nat L) sd).
Proof.
  intros HL k. induction k as [|k IH]; intros sd l p HH HQ HP HB;
  destruct (pending_ok junk sd l L HH) as (s1 & E1 & H1 & U1); fold (start sd l) in H1;
  assert (SL : length (start sd l) = 160) by (apply start_length; apply HH);
  (destruct (HQ 0) as (q0 & Q1 & Q2 & Q3); [lia|]); rewrite bp_seed_0 in Q3 by assumption;
  pose proof (c_ok junk vla0 s1 _ L H1 HL) as CE;
  set (c := bp_c (start sd l) L) in *;
  (destruct (next3_total q0 Q1 Q2 (Z.to_nat (q0 - c)) c) as (r & ER); [lia|]);
  pose proof (next3_ok _ _ _ ER) as RL; pose proof (field_test L r) as FT.
  - rewrite bp_seed_0 in HP by assumption. pose proof (least3_unique _ _ _ _ RL HP) as ->.
    exists (S (Z.to_nat (q0 - c))). cbn [brainpool_gen_field]. rewrite E1. cbn [bind]. rewrite CE. cbn [bind].
    rewrite (next3_mono _ _ (S (Z.to_nat (q0 - c))) _ _ ER) by lia. cbn [bind].
    apply FT in HB. destruct HB as (-> & ->). cbn [negb]. eexists; reflexivity.
  - destruct (update_ok junk s1 _ L H1) as (s2 & E2 & H2 & U2). rewrite U1 in U2.
    assert (ST : start s2 (bp_seed (start sd l) 1) = bp_seed (start sd l) 1) by (unfold start at 1; rewrite U2; reflexivity).
    destruct (IH s2 _ p H2) as (fuel & (x & F)).
    + intros j Hj. rewrite ST, bp_seed_add. apply HQ. cbn; lia.
    + rewrite ST, bp_seed_add. exact HP.
    + exact HB.
    + assert (MONO : forall f f' sd0 x, brainpool_gen_field junk vla0 nextprime isprime f (Z.of_nat L) sd0 = Ok x -> f <= f' ->
         brainpool_gen_field junk vla0 nextprime isprime f' (Z.of_nat L) sd0 = Ok x).
      { clear. induction f as [|f IH]; intros [|f'] sd0 x H Hle; try discriminate; [lia|].
        cbn [brainpool_gen_field] in *. destruct (pending junk sd0) as [s1| | |]; cbn [bind] in *; try discriminate.
        destruct (hash_i junk vla0 (bseed s1) (bw s1 + 1) (bv s1)) as [c| | |]; cbn [bind] in *; try discriminate.
        apply bind_ok in H. destruct H as (r & ER & H). rewrite (next3_mono _ _ _ _ _ ER Hle). cbn [bind].
        destruct ((r <=? 2 ^ (Z.of_nat L - 1) - 1)%Z || (2 ^ Z.of_nat L <=? r)%Z).
        - destruct (update junk s1) as [s2| | |]; cbn [bind] in *; try discriminate. apply IH; [assumption|lia].
        - destruct (negb (isprime r)); [|assumption].
          destruct (update junk s1) as [s2| | |]; cbn [bind] in *; try discriminate. apply IH; [assumption|lia]. }
      exists (S (Z.to_nat (q0 - c) + fuel)). cbn [brainpool_gen_field]. rewrite E1. cbn [bind]. rewrite CE. cbn [bind].
      rewrite (next3_mono _ _ (S (Z.to_nat (q0 - c) + fuel)) _ _ ER) by lia. cbn [bind]. rewrite E2. cbn [bind].
      rewrite (MONO _ (Z.to_nat (q0 - c) + fuel) _ _ F) by lia.
      destruct ((r <=? 2 ^ (Z.of_nat L - 1) - 1)%Z || (2 ^ Z.of_nat L <=? r)%Z); [eexists; reflexivity|].
      destruct (negb (isprime r)); eexists; reflexivity.
Qed.
End Field.

(** ** the equation steps *)
Lemma addS k n : k + 1 + S n = k + S (S n).
Proof. lia. Qed.
Lemma add12 k : k + 1 + 1 = k + 2.
Proof. lia. Qed.
Section Equation.
Variable Fp_invsafe : Z -> Z -> option Z.
Variable Fp_sqrtn : Z -> Z -> Z -> option Z.
Variable Fp_issquare : Z -> Z -> bool.
Variable p : Z.
Hypothesis p_pos : (0 < p)%Z.
Hypothesis p_odd : (p mod 2 = 1)%Z.
Hypothesis inv_some : forall x y, Fp_invsafe x p = Some y -> ((x * y) mod p = 1 mod p)%Z.
Hypothesis inv_none : forall x, Fp_invsafe x p = None -> forall y, ((x * y) mod p <> 1 mod p)%Z.
Hypothesis root_some : forall x z, Fp_sqrtn x 4 p = Some z -> (z ^ 4 mod p = x mod p)%Z.
Hypothesis root_none : forall x, Fp_sqrtn x 4 p = None -> forall z, (z ^ 4 mod p <> x mod p)%Z.
Hypothesis square_ok : forall x, Fp_issquare x p = true <-> is_square x p.

Lemma eqm_mul a a' b b' : (a mod p = a' mod p)%Z -> (b mod p = b' mod p)%Z -> ((a * b) mod p = (a' * b') mod p)%Z.
Proof. clear. intros H1 H2. rewrite Zmult_mod, H1, H2, <- Zmult_mod. reflexivity. Qed.

Lemma check_a_ok a : check_a Fp_invsafe Fp_sqrtn a p = true <-> good_a a p.
Proof.
  unfold check_a, good_a. destruct (Fp_invsafe a p) as [y|] eqn:E.
  - apply inv_some in E. destruct (Fp_sqrtn ((y * -3) mod p) 4 p) as [z|] eqn:R.
    + apply root_some in R. rewrite Zmod_mod in R. split; [|reflexivity]. intros _.
      split; [exists y; exact E|]. exists z.
      rewrite (eqm_mul a a (z ^ 4) (y * -3)) by (auto). rewrite Z.mul_assoc.
      rewrite (eqm_mul (a * y) 1 (-3) (-3)) by auto. f_equal.
    + pose proof (root_none _ R) as N. split; [discriminate|]. intros (_ & z & Z0). exfalso. apply (N z).
      rewrite Zmod_mod. rewrite <- (eqm_mul y y (a * z ^ 4) (-3)) by auto.
      replace (y * (a * z ^ 4))%Z with ((a * y) * z ^ 4)%Z by ring.
      rewrite (eqm_mul (a * y) 1 (z ^ 4) (z ^ 4)) by auto. f_equal. ring.
  - split; [discriminate|]. intros ((y & Y) & _). exfalso. apply (inv_none _ E y). exact Y.
Qed.

Lemma disc0_ok a b : disc0 a b p = false <-> nonsingular a b p.
Proof.
  unfold disc0, nonsingular.
  assert (Q : (((-16 mod p) * (4 * (a mod p) ^ 3 + 27 * (b mod p) ^ 2)) mod p = ((-16) * (4 * a ^ 3 + 27 * b ^ 2)) mod p)%Z).
  { apply eqm_mul; [apply Zmod_mod|]. clear.
    assert (PW : forall x, (((x mod p) mod p) = x mod p)%Z) by (intros; apply Zmod_mod).
    assert (A : (((a mod p) ^ 3) mod p = a ^ 3 mod p)%Z).
    { replace ((a mod p) ^ 3)%Z with ((a mod p) * ((a mod p) * (a mod p)))%Z by ring. replace (a ^ 3)%Z with (a * (a * a))%Z by ring.
      apply eqm_mul; [apply PW|]. apply eqm_mul; apply PW. }
    assert (B : (((b mod p) ^ 2) mod p = b ^ 2 mod p)%Z).
    { rewrite !Z.pow_2_r. apply eqm_mul; apply PW. }
    rewrite Zplus_mod, (eqm_mul 4 4 _ _ eq_refl A), (eqm_mul 27 27 _ _ eq_refl B), <- Zplus_mod. reflexivity. }
  rewrite Q. rewrite Z.eqb_neq. clear Q. set (d := (4 * a ^ 3 + 27 * b ^ 2)%Z). clearbody d.
  split; intros H C; apply H; clear H.
  - apply Zdivide_mod. apply Z.divide_mul_r. apply Zmod_divide; [lia|assumption].
  - apply Zmod_divide in C; [|lia]. apply Zdivide_mod. apply Gauss with (b := (-16)%Z); [assumption|].
    assert (R2 : rel_prime p 2).
    { apply rel_prime_sym. apply prime_rel_prime; [exact prime_2|]. intros D. apply Zdivide_mod in D. lia. }
    change (-16)%Z with (-(2 * (2 * (2 * 2))))%Z. 
    assert (R16 : rel_prime p (2 * (2 * (2 * 2)))) by (repeat apply rel_prime_mult; assumption).
    unfold rel_prime in *. apply Zis_gcd_sym, Zis_gcd_minus. rewrite Z.opp_involutive. exact R16.
Qed.

Variable L : nat.
Variable vla0 : bool.
Hypothesis HL : size_ok L vla0.
Variable s0 : list bool.
Hypothesis s0_len : length s0 = 160.
Local Notation s := (bp_seed s0).
Definition cf (i : nat) : Z := bp_coeff (bp_seed s0 i) L.
Definition Aok (i : nat) : Prop := good_a (cf i) p.
Definition Bsq (i j : nat) : Prop := is_square (cf j) p /\ nonsingular (cf i) (cf j) p.
Definition Bnsq (j : nat) : Prop := ~ is_square (cf j) p.
Definition Dok (i j : nat) : Prop := nonsingular (cf i) (cf j) p.

Lemma start_idle sd l : bupd sd = false -> start sd l = l.
Proof. intros H. unfold start. rewrite H. reflexivity. Qed.

Lemma step_s i : bp_seed (s i) 1 = s (i + 1).
Proof. apply bp_seed_add. Qed.

Lemma gen_equation_ok junk fuel : forall k sd l a b sd', holds sd l L -> start sd l = s k -> tried Aok Bsq k ->
  brainpool_gen_equation junk vla0 Fp_invsafe Fp_sqrtn Fp_issquare fuel p sd = Ok (a, b, sd') ->
  exists i, tried Aok Bsq i /\ Aok i /\ Bsq i (i + 1) /\ a = (cf i mod p)%Z /\ b = (cf (i + 1) mod p)%Z /\
    holds sd' (s (i + 1)) L /\ bupd sd' = true.
Proof.
  induction fuel as [|f IH]; intros k sd l a b sd' HH HS HT H; cbn [brainpool_gen_equation] in H; [discriminate|].
  destruct (pending_ok junk sd l L HH) as (s1 & E1 & H1 & U1). rewrite E1 in H. cbn [bind] in H.
  fold (start sd l) in H1. rewrite HS in H1. rewrite (coeff_ok junk vla0 s1 _ L H1 HL) in H. cbn [bind] in H.
  fold (cf k) in H.
  destruct (update_ok junk s1 _ L H1) as (s2 & E2 & H2 & U2). rewrite step_s in H2. rewrite E2 in H. cbn [bind] in H.
  rewrite U1 in U2.
  pose proof (check_a_ok (cf k)) as CA.
  destruct (check_a Fp_invsafe Fp_sqrtn (cf k) p) eqn:EA; cbn [negb] in H.
  2: { eapply IH; [exact H2|rewrite start_idle by assumption; reflexivity| |exact H].
       apply tried_a; [assumption|]. intros C. apply CA in C. discriminate. }
  rewrite (coeff_ok junk vla0 s2 _ L H2 HL) in H. cbn [bind] in H. fold (cf (k + 1)) in H.
  destruct (update_ok junk s2 _ L H2) as (s3 & E3 & H3 & U3). rewrite step_s in H3. rewrite E3 in H. cbn [bind] in H.
  rewrite U2 in U3. rewrite add12 in H3.
  assert (AK : Aok k) by (apply CA; reflexivity).
  pose proof (square_ok (cf (k + 1))) as SQ. pose proof (disc0_ok (cf k) (cf (k + 1))) as DI.
  destruct (Fp_issquare (cf (k + 1)) p) eqn:ES; cbn [negb] in H.
  2: { eapply IH; [exact H3|rewrite start_idle by assumption; reflexivity| |exact H].
       apply tried_b; [assumption|assumption|]. intros (C & _). apply SQ in C. discriminate. }
  destruct (disc0 (cf k) (cf (k + 1)) p) eqn:ED.
  { eapply IH; [exact H3|rewrite start_idle by assumption; reflexivity| |exact H].
    apply tried_b; [assumption|assumption|]. intros (_ & C). apply DI in C. discriminate. }
  injection H as <- <- <-. exists k. split; [assumption|]. split; [assumption|].
  split; [split; [apply SQ; reflexivity|apply DI; reflexivity]|].
  split; [reflexivity|]. split; [reflexivity|]. split; [exact H2|reflexivity].
Qed.

(** reaching a tried position *)
Lemma reach junk sd l : holds sd l L -> start sd l = s 0 -> forall i, tried Aok Bsq i ->
  exists n sdi, holds sdi (s i) L /\ bupd sdi = false /\ forall f x,
    brainpool_gen_equation junk vla0 Fp_invsafe Fp_sqrtn Fp_issquare f p sdi = Ok x ->
    brainpool_gen_equation junk vla0 Fp_invsafe Fp_sqrtn Fp_issquare (n + f) p sd = Ok x.
Proof.
  intros HH HS i HT. induction HT as [|i HT IH HA|i HT IH HA HB].
  - destruct (pending_ok junk sd l L HH) as (s1 & E1 & H1 & U1). fold (start sd l) in H1. rewrite HS in H1.
    exists 0, s1. split; [assumption|]. split; [assumption|]. intros [|f] x Hx; [discriminate|]. cbn [Nat.add].
    cbn [brainpool_gen_equation] in *. rewrite E1. rewrite pending_idle in Hx by assumption. exact Hx.
  - destruct IH as (n & sdi & H1 & U1 & R). destruct (update_ok junk sdi _ L H1) as (s2 & E2 & H2 & U2).
    rewrite step_s in H2. rewrite U1 in U2. exists (n + 1), s2. split; [assumption|]. split; [assumption|].
    intros f x Hx. rewrite <- Nat.add_assoc. apply R. cbn [Nat.add brainpool_gen_equation].
    rewrite pending_idle by assumption. cbn [bind]. rewrite (coeff_ok junk vla0 sdi _ L H1 HL). cbn [bind]. fold (cf i).
    destruct (check_a Fp_invsafe Fp_sqrtn (cf i) p) eqn:EA; cbn [negb].
    { exfalso. apply HA. apply check_a_ok. assumption. }
    rewrite E2. cbn [bind]. exact Hx.
  - destruct IH as (n & sdi & H1 & U1 & R). destruct (update_ok junk sdi _ L H1) as (s2 & E2 & H2 & U2).
    rewrite step_s in H2. rewrite U1 in U2. destruct (update_ok junk s2 _ L H2) as (s3 & E3 & H3 & U3).
    rewrite step_s in H3. rewrite U2 in U3. rewrite add12 in H3.
    exists (n + 1), s3. split; [assumption|]. split; [assumption|].
    intros f x Hx. rewrite <- Nat.add_assoc. apply R. cbn [Nat.add brainpool_gen_equation].
    rewrite pending_idle by assumption. cbn [bind]. rewrite (coeff_ok junk vla0 sdi _ L H1 HL). cbn [bind]. fold (cf i).
    rewrite (proj2 (check_a_ok (cf i)) HA). cbn [negb].
    rewrite E2. cbn [bind]. rewrite (coeff_ok junk vla0 s2 _ L H2 HL). cbn [bind]. fold (cf (i + 1)). rewrite E3. cbn [bind].
    destruct (Fp_issquare (cf (i + 1)) p) eqn:ES; cbn [negb]; [|exact Hx].
    destruct (disc0 (cf i) (cf (i + 1)) p) eqn:ED; [exact Hx|].
    exfalso. apply HB. split; [apply square_ok; assumption|apply disc0_ok; assumption].
Qed.

Lemma gen_equation_total junk sd l i : holds sd l L -> start sd l = s 0 -> tried Aok Bsq i -> Aok i -> Bsq i (i + 1) ->
  exists fuel, isOk (brainpool_gen_equation junk vla0 Fp_invsafe Fp_sqrtn Fp_issquare fuel p sd).
Proof.
  intros HH HS HT HA (HB & HD). destruct (reach junk sd l HH HS i HT) as (n & sdi & H1 & U1 & R).
  destruct (update_ok junk sdi _ L H1) as (s2 & E2 & H2 & U2). rewrite step_s in H2.
  exists (n + 1). eexists. apply R. cbn [brainpool_gen_equation].
  rewrite pending_idle by assumption. cbn [bind]. rewrite (coeff_ok junk vla0 sdi _ L H1 HL). cbn [bind]. fold (cf i).
  rewrite (proj2 (check_a_ok (cf i)) HA). cbn [negb].
  rewrite E2. cbn [bind]. rewrite (coeff_ok junk vla0 s2 _ L H2 HL). cbn [bind]. fold (cf (i + 1)).
  rewrite (proj2 (square_ok _) HB). cbn [negb]. rewrite (proj2 (disc0_ok _ _) HD). reflexivity.
Qed.

(** ** RFC variant *)
Lemma rfc_b_ok junk fuel : forall k sd b sd', holds sd (s k) L -> bupd sd = false ->
  rfc_b junk vla0 Fp_issquare fuel p sd = Ok (b, sd') ->
  exists j, k < j /\ Bnsq j /\ (forall m, k < m < j -> ~ Bnsq m) /\ b = cf j /\ holds sd' (s j) L /\ bupd sd' = false.
Proof.
  induction fuel as [|f IH]; intros k sd b sd' HH U H; cbn [rfc_b] in H; [discriminate|].
  destruct (update_ok junk sd _ L HH) as (s2 & E2 & H2 & U2). rewrite step_s in H2. rewrite E2 in H. cbn [bind] in H.
  rewrite U in U2. rewrite (coeff_ok junk vla0 s2 _ L H2 HL) in H. cbn [bind] in H. fold (cf (k + 1)) in H.
  pose proof (square_ok (cf (k + 1))) as SQ.
  destruct (Fp_issquare (cf (k + 1)) p) eqn:ES.
  - destruct (IH (k + 1) s2 b sd' H2 U2 H) as (j & J1 & J2 & J3 & J4). exists j. split; [clear - J1; lia|]. split; [assumption|].
    split; [|assumption]. intros m Hm. destruct (Nat.eq_dec m (k + 1)) as [->|NE]; [|apply J3; clear - Hm NE; lia].
    intros C. apply C. apply SQ. reflexivity.
  - injection H as <- <-. exists (k + 1). split; [clear; lia|]. split.
    + intros C. apply SQ in C. discriminate.
    + split; [intros m Hm; clear - Hm; lia|]. auto.
Qed.

Lemma rfc_b_total junk n : forall k sd, holds sd (s k) L -> bupd sd = false -> Bnsq (k + S n) -> (forall m, k < m < k + S n -> ~ Bnsq m) ->
  exists sd', (forall f, S n <= f -> rfc_b junk vla0 Fp_issquare f p sd = Ok (cf (k + S n), sd')) /\ holds sd' (s (k + S n)) L /\ bupd sd' = false.
Proof.
  induction n as [|n IH]; intros k sd HH U HN HB;
  destruct (update_ok junk sd _ L HH) as (s2 & E2 & H2 & U2); rewrite step_s in H2; rewrite U in U2;
  pose proof (square_ok (cf (k + 1))) as SQ.
  - exists s2. split; [|auto]. intros [|f] Hf; [clear - Hf; lia|]. cbn [rfc_b]. rewrite E2. cbn [bind].
    rewrite (coeff_ok junk vla0 s2 _ L H2 HL). cbn [bind]. fold (cf (k + 1)).
    destruct (Fp_issquare (cf (k + 1)) p) eqn:ES; [|reflexivity]. exfalso. apply HN. apply SQ. reflexivity.
  - destruct (IH (k + 1) s2 H2 U2) as (sd' & F & R).
    + rewrite addS. assumption.
    + intros m Hm. apply HB. clear - Hm. lia.
    + exists sd'. rewrite <- addS. split; [|assumption].
      intros [|f] Hf; [clear - Hf; lia|]. cbn [rfc_b]. rewrite E2. cbn [bind].
      rewrite (coeff_ok junk vla0 s2 _ L H2 HL). cbn [bind]. fold (cf (k + 1)).
      destruct (Fp_issquare (cf (k + 1)) p) eqn:ES; [apply F; clear - Hf; lia|].
      exfalso. apply (HB (k + 1)); [clear; lia|]. intros C. apply SQ in C. discriminate.
Qed.

Lemma rfc_gen_equation_ok junk fuel : forall k sd l a b sd', holds sd l L -> start sd l = s k -> tried_rfc Aok Bnsq Dok k ->
  brainpool_rfc_gen_equation junk vla0 Fp_invsafe Fp_sqrtn Fp_issquare fuel p sd = Ok (a, b, sd') ->
  exists i j, tried_rfc Aok Bnsq Dok i /\ Aok i /\ i < j /\ Bnsq j /\ (forall m, i < m < j -> ~ Bnsq m) /\ Dok i j /\
    a = (cf i mod p)%Z /\ b = (cf j mod p)%Z /\ holds sd' (s j) L /\ bupd sd' = true.
Proof.
  induction fuel as [|f IH]; intros k sd l a b sd' HH HS HT H; cbn [brainpool_rfc_gen_equation] in H; [discriminate|].
  destruct (pending_ok junk sd l L HH) as (s1 & E1 & H1 & U1). rewrite E1 in H. cbn [bind] in H.
  fold (start sd l) in H1. rewrite HS in H1. rewrite (coeff_ok junk vla0 s1 _ L H1 HL) in H. cbn [bind] in H.
  fold (cf k) in H.
  pose proof (check_a_ok (cf k)) as CA.
  destruct (check_a Fp_invsafe Fp_sqrtn (cf k) p) eqn:EA; cbn [negb] in H.
  2: { destruct (update_ok junk s1 _ L H1) as (s2 & E2 & H2 & U2). rewrite step_s in H2. rewrite E2 in H. cbn [bind] in H.
       rewrite U1 in U2. eapply IH; [exact H2|rewrite start_idle by assumption; reflexivity| |exact H].
       apply rfct_a; [assumption|]. intros C. apply CA in C. discriminate. }
  assert (AK : Aok k) by (apply CA; reflexivity).
  apply bind_ok in H. destruct H as ((b' & s2) & EB & H).
  destruct (rfc_b_ok junk _ k s1 b' s2 H1 U1 EB) as (j & J1 & J2 & J3 & -> & H2 & U2).
  pose proof (disc0_ok (cf k) (cf j)) as DI.
  destruct (disc0 (cf k) (cf j) p) eqn:ED.
  - destruct (update_ok junk s2 _ L H2) as (s3 & E3 & H3 & U3). rewrite step_s in H3. rewrite E3 in H. cbn [bind] in H.
    rewrite U2 in U3. eapply IH; [exact H3|rewrite start_idle by assumption; reflexivity| |exact H].
    eapply rfct_b with (i := k); [assumption|assumption|exact J1|assumption|assumption|]. intros C. apply DI in C. discriminate.
  - injection H as <- <- <-. exists k, j. repeat (split; [assumption|]). split; [apply DI; reflexivity|].
    split; [reflexivity|]. split; [reflexivity|]. split; [exact H2|reflexivity].
Qed.
End Equation.

(** ** generators *)
Lemma find_x_ok ord fuel : forall x y, find_x ord fuel x = Ok y ->
  (x <= y)%Z /\ ord y <> [] /\ forall z, (x <= z < y)%Z -> ord z = [].
Proof.
  induction fuel as [|f IH]; intros x y H; cbn [find_x] in H; [discriminate|]. destruct (ord x) eqn:E.
  - apply IH in H. destruct H as (A & B & C). split; [lia|]. split; [assumption|].
    intros z Hz. destruct (Z.eq_dec z x) as [->|]; [assumption|]. apply C. lia.
  - injection H as <-. split; [lia|]. split; [rewrite E; discriminate|]. intros; lia.
Qed.

Lemma gen_gens_ok {Pt} (point : Z -> Z -> Pt) ord mul eord junk vla0 L fuel rbit N sd l G n h k sd' : size_ok L vla0 -> holds sd l L ->
  brainpool_gen_gens junk vla0 point ord mul eord fuel rbit N sd = Ok (Some (G, n, h, k), sd') ->
  k = bp_coeff (bp_seed l 1) L /\ holds sd' (bp_seed l 1) L /\ bupd sd' = bupd sd /\
  (exists x y, (0 <= x)%Z /\ In y (ord x) /\ (forall z, (0 <= z < x)%Z -> ord z = []) /\ G = mul (point x y) k) /\
  n = eord G /\ h = (N / n)%Z.
Proof.
  intros HL HH H. unfold brainpool_gen_gens in H. destruct (update_ok junk sd _ L HH) as (s2 & E2 & H2 & U2).
  rewrite E2 in H. cbn [bind] in H. rewrite (coeff_ok junk vla0 s2 _ L H2 HL) in H. cbn [bind] in H.
  apply bind_ok in H. destruct H as (x & EX & H). apply find_x_ok in EX. destruct EX as (X1 & X2 & X3).
  destruct (ord x) as [|y1 [|y2 [|y3 r]]] eqn:EO; try discriminate.
  - injection H as <- <- <- <- <-. split; [reflexivity|]. split; [assumption|]. split; [assumption|].
    split; [|split; reflexivity]. exists x, y1. rewrite EO. split; [assumption|]. split; [left; reflexivity|].
    split; [assumption|reflexivity].
  - injection H as <- <- <- <- <-. split; [reflexivity|]. split; [assumption|]. split; [assumption|].
    split; [|split; reflexivity]. exists x, (if rbit then y1 else y2). rewrite EO. split; [assumption|].
    split; [destruct rbit; [left|right; left]; reflexivity|]. split; [assumption|reflexivity].
Qed.

(** ** checks *)
Lemma check_order_ok n p : (brainpool_check_order n p = 1%Z <-> (n < p)%Z) /\ (brainpool_check_order n p = 1 \/ brainpool_check_order n p = -4)%Z.
Proof. unfold brainpool_check_order. destruct (Z.ltb_spec n p); split; try split; auto; try lia; discriminate. Qed.

Lemma check_gens_ok zn p n : (0 < n)%Z -> p <> n ->
  (brainpool_check_gens zn p n = 1%Z <-> (n - 1 < 100 * zn p n)%Z) /\
  (brainpool_check_gens zn p n = 1 \/ brainpool_check_gens zn p n = -5)%Z.
Proof.
  intros Hn Hp. unfold brainpool_check_gens, gens_get_embedding. destruct (Z.eqb_spec p n); [contradiction|].
  rewrite Z.quot_div_nonneg by lia.
  destruct (Z.leb_spec (zn p n) ((n - 1) / 100)) as [H|H]; split; try split; auto; try lia; discriminate.
Qed.
