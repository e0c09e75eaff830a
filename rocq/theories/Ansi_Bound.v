(** The size of the coefficient b over a binary field, whatever the seed is. *)
From Coq Require Import Ascii.
From Verif Require Import Base Bits_Model Bits_Spec Bits_Proofs Bits_Ops Bits_Ops2 Bits_Ops3
  Sha1_Model Hash_Model Hash_Proofs Str_Model Ansi_Spec Ansi_Model Ansi_Proofs.
Local Open Scope nat_scope.
Ltac Zify.zify_post_hook ::= Z.div_mod_to_equations.

Definition digest (d : list N) : Prop := length d = 20 /\ Forall (fun x => (x < 256)%N) d.
Lemma output_digest H d H' : output H = Ok (d, H') -> digest d.
Proof.
  unfold output, for_to. intros E.
  assert (G : forall n i o H d H', Forall (fun x => (x < 256)%N) o ->
    for_from n i (fun i (oh : list N * list N) => let '(o, H) := oh in do h <- rd H (i / 4); do H' <- wr H (i / 4) (w32 (N.shiftl h 8)); Ok (o ++ [(N.shiftr h 24 mod 256)%N], H')) (o, H) = Ok (d, H') ->
    length d = length o + n /\ Forall (fun x => (x < 256)%N) d).
  { clear. induction n as [|n IH]; intros i o H d H' F E; cbn [for_from] in E.
    - injection E as <- _. split; [lia|exact F].
    - destruct (rd H (i / 4)) as [h| | |]; cbn [bind] in E; try discriminate E. destruct (wr H (i / 4) (w32 (N.shiftl h 8))) as [H1| | |]; cbn [bind] in E; try discriminate E.
      apply IH in E.
      + rewrite app_length in E. cbn [length] in E. split; [lia|apply E].
      + apply Forall_app. split; [exact F|]. constructor; [|constructor]. apply N.mod_lt. discriminate. }
  destruct (G 20 0 [] H d H' (Forall_nil _) E) as (L & F). split; [exact L|exact F].
Qed.
Lemma sha1_digest b d : bits_sha1 b = Ok d -> digest d.
Proof.
  unfold bits_sha1. destruct (_ <=? _); [|discriminate]. unfold sha1_msg, sha1_pieces.
  destruct (updates SHA1_Init _) as [c| | |]; cbn [bind]; try discriminate. unfold SHA1_Final.
  destruct (SHA1_Update c [128%N]) as [c1| | |]; cbn [bind]; try discriminate.
  destruct (pad_loop 64 c1) as [c2| | |]; cbn [bind]; try discriminate.
  destruct (SHA1_Update c2 (padlen c)) as [c3| | |]; cbn [bind]; try discriminate.
  destruct (output (cH c3)) as [[o H]| | |] eqn:E; cbn [bind fst]; try discriminate. intros [= <-]. exact (output_digest _ _ _ E).
Qed.

(** a seed as ansi_new and seed_tsh leave it *)
Definition shaped (sd : seed_t) (t : nat) : Prop := digest (hash20 sd) /\ as_ sd = Z.of_nat (ansi_s t) /\ ah sd = Z.of_nat (ansi_h t).
Lemma ansi_seed_shaped s t sd : 1 <= t -> ansi_seed s (Z.of_nat t) = Ok sd -> shaped sd t.
Proof.
  intros Ht. unfold ansi_seed, seed_hash. destruct (bits_sha1 s) as [d| | |] eqn:E; cbn [bind]; try discriminate. unfold seed_tsh. intros [= <-].
  unfold shaped. cbn [hash20 as_ ah]. split; [exact (sha1_digest _ _ E)|]. unfold ansi_h, ansi_s. lia.
Qed.
Lemma input_shaped u t sd : 1 <= t -> ansi_gen_seed_input u (Z.of_nat t) = Ok (Some sd) -> shaped sd t.
Proof.
  intros Ht. unfold ansi_gen_seed_input, ansi_gen_seed_argument. destruct (negb (ansi_seed_valid u)); [discriminate|]. destruct (str_is_hex u) as [v|]; [|discriminate].
  destruct (bits_from_hex v) as [s| | |]; cbn [bind]; try discriminate. destruct (ansi_seed s (Z.of_nat t)) as [sd'| | |] eqn:E; cbn [bind]; try discriminate. intros [= <-].
  exact (ansi_seed_shaped _ _ _ Ht E).
Qed.
Lemma seeded_shaped sd t : seeded sd t -> shaped sd t.
Proof. intros (_ & A & B & _ & _ & C & D). split; [split; [exact A|exact B]|]. split; assumption. Qed.

Lemma step_shape junk sd i r r' : WF r -> (Z.of_nat (bitlen r) + 160 < 2 ^ 64)%Z -> process_step junk sd i r = Ok r' ->
  WF r' /\ bsign r' = bsign r /\ bitlen r' = bitlen r + 160.
Proof.
  intros W L. unfold process_step.
  destruct (bits_to_i (seed sd)) as [si| | |]; cbn [bind]; try discriminate.
  destruct (bits_from_i _) as [th| | |]; cbn [bind]; try discriminate.
  match goal with |- (do _ <- ?x; _) = _ -> _ => destruct x as [th2| | |] end; cbn [bind]; try discriminate.
  destruct (bits_sha1 th2) as [d| | |] eqn:E; cbn [bind]; try discriminate. destruct (sha1_digest _ _ E) as (D1 & D2).
  destruct (raw20_ok d D1 D2) as (Wi & -> & WW & _ & _ & WL & _). cbn [bind]. intros E2.
  destruct (bits_concatz_ok junk [Wi] r W ltac:(auto)) as (b & E3 & W3 & _ & S3 & B3).
  { cbn [map List.concat]. rewrite app_nil_r, bits_of_length, WL. lia. }
  rewrite E3 in E2. injection E2 as <-. split; [exact W3|]. split; [exact S3|].
  rewrite <- (bits_of_length b), B3, app_length. cbn [map List.concat]. rewrite app_nil_r, !bits_of_length, WL. reflexivity.
Qed.
Lemma process_shape junk sd n : forall i r r', WF r -> (Z.of_nat (bitlen r) + 160 * Z.of_nat n < 2 ^ 64)%Z -> for_from n i (process_step junk sd) r = Ok r' ->
  WF r' /\ bsign r' = bsign r /\ bitlen r' = bitlen r + 160 * n.
Proof.
  induction n as [|n IH]; intros i r r' W L E; cbn [for_from] in E.
  - injection E as <-. split; [exact W|]. split; [reflexivity|lia].
  - destruct (process_step junk sd i r) as [r1| | |] eqn:E1; cbn [bind] in E; try discriminate E.
    destruct (step_shape _ _ _ _ _ W ltac:(lia) E1) as (W1 & S1 & L1). destruct (IH _ _ _ W1 ltac:(lia) E) as (W2 & S2 & L2).
    split; [exact W2|]. split; [congruence|lia].
Qed.
(** b is a positive number of at most t bits; random_int gives a *)
Lemma f2m_shape {F} junk (ie : Z -> F) sd t ra r : shaped sd t -> 1 <= t -> (Z.of_nat t < 2 ^ 62)%Z -> ansi_gen_equation_f2m junk ie sd ra = Ok r ->
  r = inr (-3)%Z \/ exists z, r = inl (ie ra, ie z) /\ (0 < z < 2 ^ Z.of_nat t)%Z.
Proof.
  intros ((D1 & D2) & Es & Eh) Ht HT. pose proof (ansi_h_range t Ht) as HR. pose proof (ansi_split t) as TT. unfold ansi_gen_equation_f2m.
  destruct (raw20_ok _ D1 D2) as (b0 & -> & W & _ & S & L & _). cbn [bind].
  destruct (bits_shortenz_ok b0 (160 - ah sd) W) as (c & -> & W1 & _ & S1 & B1); [lia|lia|]. cbn [bind].
  assert (LC : bitlen c = ansi_h t).
  { rewrite <- bits_of_length, B1. destruct (Z.leb_spec 0 (160 - ah sd)); [|lia]. rewrite skipn_length, bits_of_length. lia. }
  unfold seed_process. destruct (bits_copy_inplace c W1) as (c1 & -> & W2 & _ & S2 & B2). cbn [bind].
  assert (L2 : bitlen c1 = ansi_h t) by (rewrite <- LC, <- !bits_of_length, B2; reflexivity).
  destruct (for_from _ 1 (process_step junk sd) c1) as [q| | |] eqn:E; cbn [bind]; try discriminate.
  assert (LL : (Z.of_nat (bitlen c1) + 160 * Z.of_nat (Z.to_nat (as_ sd)) < 2 ^ 64)%Z) by (rewrite L2, Es, Nat2Z.id; lia).
  destruct (process_shape _ _ _ _ _ _ W2 LL E) as (W3 & S3 & L3). rewrite bits_to_i_ok by assumption. cbn [bind].
  unfold signed; cbn [fst snd]. rewrite S3, S2, S1, S. cbv iota.
  pose proof (bval_bound (bits_of q)) as B. rewrite bits_of_length, L3, L2, Es, Nat2Z.id, TT in B.
  destruct (Z.eqb_spec (bval (bits_of q)) 0) as [Z0|Z0]; intros [= <-]; [left; reflexivity|right]. exists (bval (bits_of q)). split; [reflexivity|lia].
Qed.
