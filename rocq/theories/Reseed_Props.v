(** C72: the seed of the random generator. *)
From Verif Require Import Base Reseed_Model.
Local Open Scope Z_scope.

(** ** Specification *)
(** the bytes of the device, byte k worth 256^k *)
Fixpoint weighed (f : nat -> Z) (n : nat) : Z :=
  match n with O => 0 | S n => weighed f n + f n * 256 ^ Z.of_nat n end.
(** the first eight bytes of the device as a number *)
Definition first_bytes (s : sys) : Z := weighed (data s) 8.
(** the device delivers eight bytes within the first k calls *)
Definition delivers (s : sys) (k : nat) : Prop :=
  (8 <= fold_right (fun i n => gives s i + n)%nat 0%nat (seq 0 k))%nat.
Definition bytes (s : sys) : Prop := forall i, 0 <= data s i < 256.
Definition clock_ok (s : sys) : Prop :=
  (forall t, nsec s = Some t -> 0 <= t < 1000000000) /\ 0 <= seconds s < 2 ^ 63.

(** ** Proofs *)
Definition prefix (s : sys) (n : nat) : list Z := map (data s) (seq 0 n) ++ repeat 0 (8 - n).

Lemma prefix_len s n : (n <= 8)%nat -> length (prefix s n) = 8%nat.
Proof. intros H. unfold prefix. rewrite app_length, map_length, seq_length, repeat_length. lia. Qed.

Lemma wr_prefix s n : (n < 8)%nat -> wr (prefix s n) n (data s n) = Ok (prefix s (S n)).
Proof.
  intros H. unfold wr. rewrite prefix_len by lia. destruct (Nat.ltb_spec n 8); [|lia]. f_equal.
  do 8 (destruct n as [|n]; [reflexivity|]). lia.
Qed.

Lemma overwrite_ok s : forall n a, (a + n <= 8)%nat ->
  overwrite (prefix s a) a (map (data s) (seq a n)) = Ok (prefix s (a + n)).
Proof.
  induction n as [|n IH]; intros a H; cbn [seq map overwrite]; [rewrite Nat.add_0_r; reflexivity|].
  rewrite wr_prefix by lia. cbn [bind]. rewrite IH by lia. f_equal. f_equal. lia.
Qed.

Lemma read_ok s : forall k i a fuel, (k <= fuel)%nat -> (a <= 8)%nat ->
  (8 <= a + fold_right (fun i n => gives s i + n)%nat 0%nat (seq i k))%nat ->
  read_loop fuel s i a a (prefix s a) = Ok (prefix s 8).
Proof.
  induction k as [|k IH]; intros i a fuel Hk Ha H.
  - cbn in H. assert (a = 8)%nat as -> by lia. destruct fuel; reflexivity.
  - destruct (Nat.eq_dec a 8) as [->|Hn]; [destruct fuel; reflexivity|].
    destruct fuel as [|fuel]; [lia|]. cbn [read_loop]. destruct (Nat.ltb_spec a 8); [|lia].
    cbn [seq fold_right] in H. unfold fread. rewrite overwrite_ok by lia. cbn [bind].
    apply IH; lia.
Qed.

Lemma number_prefix s : number (prefix s 8) = first_bytes s.
Proof. cbv [prefix number first_bytes weighed seq map repeat app Nat.sub]. cbn [Z.of_nat]. ring_simplify. cbn. ring. Qed.

Lemma first_bytes_range s : bytes s -> 0 <= first_bytes s < 2 ^ 64.
Proof.
  intros H. pose proof (H 0%nat); pose proof (H 1%nat); pose proof (H 2%nat); pose proof (H 3%nat);
  pose proof (H 4%nat); pose proof (H 5%nat); pose proof (H 6%nat); pose proof (H 7%nat).
  unfold first_bytes. cbn [weighed]. cbn. lia.
Qed.

(** ** Theorems *)
(** The seed is the number made of the first eight bytes of the device, in however many pieces they
    come; nothing is written outside the eight bytes of the variable. *)
Theorem C72_device s k fuel : opens s = true -> bytes s -> delivers s k -> (k <= fuel)%nat ->
  first_bytes s <> 0 -> random_reseed fuel s = Ok (first_bytes s).
Proof.
  intros Ho Hb Hd Hk Hn. unfold random_reseed, reseed. rewrite Ho.
  change (repeat 0 8) with (prefix s 0). rewrite (read_ok s k 0 0 fuel) by (assumption || lia). cbn [bind].
  rewrite number_prefix. destruct (Z.eqb_spec (first_bytes s) 0); [contradiction|].
  pose proof (first_bytes_range s Hb). destruct (Z.ltb_spec 0 (first_bytes s)); [reflexivity|lia].
Qed.
Print Assumptions C72_device.

Example C72_device_ex : let s := mkSys true (fun i => Z.of_nat i + 1) (fun i => Nat.modulo i 3) None 7 in
  delivers s 12 /\ random_reseed 12 s = Ok 578437695752307201 /\ first_bytes s = 578437695752307201.
Proof. split; [unfold delivers; cbn; lia|]. vm_compute. auto. Qed.

(** Different bytes, different seeds: nothing of the device's eight bytes is lost. *)
Theorem C72_injective s s' k fuel : opens s = true -> opens s' = true -> bytes s -> bytes s' ->
  delivers s k -> delivers s' k -> (k <= fuel)%nat -> first_bytes s <> 0 -> first_bytes s' <> 0 ->
  random_reseed fuel s = random_reseed fuel s' -> forall i, (i < 8)%nat -> data s i = data s' i.
Proof.
  intros Ho Ho' Hb Hb' Hd Hd' Hk Hn Hn' E. rewrite (C72_device s k), (C72_device s' k) in E by assumption.
  assert (E' : first_bytes s = first_bytes s') by congruence. clear - E' Hb Hb'.
  assert (X : forall n, weighed (data s) n = weighed (data s') n -> forall i, (i < n)%nat -> data s i = data s' i).
  { assert (B : forall f n, (forall i, 0 <= f i < 256) -> 0 <= weighed f n < 256 ^ Z.of_nat n).
    { intros f n Hf. induction n as [|n IH]; [cbn; lia|]. cbn [weighed]. rewrite Nat2Z.inj_succ, Z.pow_succ_r by lia.
      pose proof (Hf n). nia. }
    induction n as [|n IH]; intros E i Hi; [lia|]. cbn [weighed] in E.
    pose proof (B _ n Hb) as B1. pose proof (B _ n Hb') as B2. pose proof (Hb n). pose proof (Hb' n).
    assert (P : 0 < 256 ^ Z.of_nat n) by (apply Z.pow_pos_nonneg; lia).
    assert (data s n = data s' n) by nia.
    destruct (Nat.eq_dec i n) as [->|]; [assumption|]. apply IH; [nia|lia]. }
  intros i Hi. apply (X 8%nat E' i Hi).
Qed.
Print Assumptions C72_injective.

(** Without the device, or if it gives eight zero bytes, the seed is the part of the time below a
    second in nanoseconds, or the seconds: one of a thousand million numbers, if there is a clock. *)
Theorem C72_clock s k fuel : clock_ok s -> (opens s = false \/ opens s = true /\ bytes s /\ delivers s k /\ (k <= fuel)%nat /\ first_bytes s = 0) ->
  reseed fuel s = Ok (match nsec s with Some t => t | None => seconds s end).
Proof.
  intros [Hc Hs] H. unfold reseed.
  assert (E : (if opens s then do l <- read_loop fuel s 0 0 0 (repeat 0 8); Ok (number l) else Ok 0) = Ok 0).
  { destruct H as [->|(-> & Hb & Hd & Hk & Hz)]; [reflexivity|].
    change (repeat 0 8) with (prefix s 0). rewrite (read_ok s k 0 0 fuel) by (assumption || lia). cbn [bind].
    rewrite number_prefix, Hz. reflexivity. }
  rewrite E. cbn [bind Z.eqb]. destruct (nsec s) as [t|].
  - specialize (Hc t eq_refl). rewrite Z.mod_small by lia. reflexivity.
  - rewrite Z.mod_small by lia. reflexivity.
Qed.
Print Assumptions C72_clock.

Example C72_clock_ex : let s := mkSys false (fun _ => 0) (fun _ => 0%nat) (Some 123456789) 7 in
  clock_ok s /\ random_reseed 0 s = Ok 123456789.
Proof. split; [|reflexivity]. split; [intros t [= <-]; lia|cbn; lia]. Qed.

(** When both clocks fail (time(NULL) gives -1) the seed is the largest number, always the same. *)
Theorem C72_no_clock s k fuel : nsec s = None -> seconds s = -1 ->
  (opens s = false \/ opens s = true /\ bytes s /\ delivers s k /\ (k <= fuel)%nat /\ first_bytes s = 0) ->
  random_reseed fuel s = Ok (2 ^ 64 - 1).
Proof.
  intros N S H.
  assert (E : (if opens s then do l <- read_loop fuel s 0 0 0 (repeat 0 8); Ok (number l) else Ok 0) = Ok 0).
  { destruct H as [->|(-> & Hb & Hd & Hk & Hz)]; [reflexivity|].
    change (repeat 0 8) with (prefix s 0). rewrite (read_ok s k 0 0 fuel) by (assumption || lia). cbn [bind].
    rewrite number_prefix, Hz. reflexivity. }
  unfold random_reseed, reseed. rewrite E, N, S. reflexivity.
Qed.
Print Assumptions C72_no_clock.
Example C72_no_clock_ex : random_reseed 9 (mkSys false (fun _ => 0) (fun _ => 0%nat) None (-1)) = Ok (2 ^ 64 - 1).
Proof. reflexivity. Qed.

(** A device that opens but delivers nothing: the loop never ends. *)
Theorem C72_ends_refuted : exists s, opens s = true /\ bytes s /\ clock_ok s /\ forall fuel, random_reseed fuel s = Fuel.
Proof.
  exists (mkSys true (fun _ => 0) (fun _ => 0%nat) (Some 5) 7). split; [reflexivity|]. split; [intros i; cbn; lia|].
  split; [split; [intros t [= <-]; lia|cbn; lia]|].
  assert (H : forall fuel i, read_loop fuel (mkSys true (fun _ => 0) (fun _ => 0%nat) (Some 5) 7) i 0 0 (repeat 0 8) = Fuel).
  { induction fuel as [|fuel IH]; intros i; [reflexivity|]. cbn [read_loop Nat.ltb Nat.leb]. unfold fread.
    cbn [gives Nat.min seq map overwrite bind Nat.add]. apply IH. }
  intros fuel. unfold random_reseed, reseed. cbn [opens]. rewrite H. reflexivity.
Qed.
Print Assumptions C72_ends_refuted.

(** Without the device, at the start of a second, PARI is given the seed 0, which it refuses. *)
Theorem C72_accepted_refuted : exists s, opens s = false /\ clock_ok s /\ forall fuel, random_reseed fuel s = Abort.
Proof.
  exists (mkSys false (fun _ => 0) (fun _ => 0%nat) (Some 0) 7). split; [reflexivity|].
  split; [split; [intros t [= <-]; lia|cbn; lia]|]. intros fuel. reflexivity.
Qed.
Print Assumptions C72_accepted_refuted.
