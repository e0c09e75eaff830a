(** Proofs about the generation plan. *)
From Coq Require Import Ascii String.
From Verif Require Import Base Str_Model Cli_Model Cli_Spec Cli_Proofs Plan_Model Plan_Spec.
Local Open Scope Z_scope.

(** ** What holds of every configuration an accepted command line leaves *)

Definition bit2 (m : Z) : bool := Z.testbit m 2.
Definition bit0 (m : Z) : bool := Z.testbit m 0.
Lemma bit2_lor m n : bit2 (Z.lor m n) = bit2 m || bit2 n.
Proof. apply Z.lor_spec. Qed.
Lemma bit0_lor m n : bit0 (Z.lor m n) = bit0 m || bit0 n.
Proof. apply Z.lor_spec. Qed.

Definition okset (b : bool) (n : name) (set : list name) : Prop := In n set <-> b = true.

Record inv (s : state) : Prop := mkInv {
  i_points : 0 <= c_points_type (fst s) <= 4;
  i_kval : c_koblitz_value (fst s) = 0 \/ c_koblitz_value (fst s) = 1;
  i_algo : In (c_seed_algo (fst s)) [0; 1; 2; 3; 5];
  i_seedm : c_seed_algo (fst s) <> 0 <-> bit2 (c_method (fst s)) = true;
  i_cm : bit0 (c_method (fst s)) = true -> exists t, c_cm_order (fst s) = Some t;
  i_random : 0 <= c_random (fst s) <= 15;
  i_prime : okset (c_prime (fst s)) N_prime (snd s);
  i_smooth : okset (c_smooth (fst s)) N_smooth (snd s);
  i_cofactor : okset (c_cofactor (fst s)) N_cofactor (snd s);
  i_unique : okset (c_unique (fst s)) N_unique (snd s);
  i_metadata : okset (c_metadata (fst s)) N_metadata (snd s);
  i_koblitz : okset (c_koblitz (fst s)) N_koblitz (snd s);
  i_kvset : In N_koblitz_value (snd s) -> c_koblitz (fst s) = true;
  i_hex : okset (is_some (c_hex_check (fst s))) N_hex_check (snd s);
  i_seed : okset (is_some (c_seed (fst s))) N_seed (snd s);
  i_order : okset (is_some (c_cm_order (fst s))) N_cm_order (snd s);
  i_primes : okset (is_some (c_invalid_primes (fst s))) N_invalid_primes (snd s);
  i_salgo : okset (negb (c_seed_algo (fst s) =? 0)) N_seed_algo (snd s);
  i_nofam : ~ In N_family (snd s)
}.

Lemma okset_skip b n m set : n <> m -> okset b n set -> okset b n (m :: set).
Proof. intros Hn H. unfold okset in *. rewrite <- H. simpl. split; [intros [E|E]; [congruence|assumption]|tauto]. Qed.
Lemma okset_same n set : okset true n (n :: set).
Proof. unfold okset. simpl. tauto. Qed.

Lemma random_range r a r' : 0 <= r <= 15 -> random_token (Some r) a = Some r' -> 0 <= r' <= 15.
Proof.
  intros Hr. unfold random_token. intros H.
  assert (Hb : forall m, 0 <= m <= 15 -> 0 <= Z.lor r m <= 15).
  { clear - Hr. intros m Hm. split; [apply Z.lor_nonneg; lia|].
    assert (Z.lor r m < 2 ^ 4); [|lia].
    destruct (Z.eq_dec (Z.lor r m) 0) as [E|E]; [rewrite E; lia|].
    assert (0 <= Z.lor r m) by (apply Z.lor_nonneg; lia).
    apply Z.log2_lt_pow2; [lia|]. rewrite Z.log2_lor by lia.
    assert (forall x, 0 <= x <= 15 -> Z.log2 x <= 3).
    { intros x Hx. change 3 with (Z.log2 15). apply Z.log2_le_mono. lia. }
    pose proof (H0 r Hr). pose proof (H0 m Hm). lia. }
  repeat match type of H with context [if ?b then _ else _] => destruct b end; try discriminate; injection H as <-; apply Hb;
  unfold RANDOM_SEED, RANDOM_FIELD, RANDOM_A, RANDOM_B, RANDOM_EQUATION; lia.
Qed.
Lemma random_fold_range ts : forall r r', 0 <= r <= 15 -> fold_left random_token ts (Some r) = Some r' -> 0 <= r' <= 15.
Proof.
  induction ts as [|t ts IH]; intros r r' Hr; cbn [fold_left].
  - intros H. injection H as <-. assumption.
  - destruct (random_token (Some r) t) as [r1|] eqn:E; [|rewrite random_tokens_none; discriminate].
    apply IH. eapply random_range; eassumption.
Qed.

Lemma inv0 : inv (cfg0, []).
Proof. constructor; cbn; unfold okset; simpl; try lia; try tauto; try (split; [tauto|discriminate]); try (intros; discriminate). Qed.

Lemma parse_inv np o s s' : cli_parse np o s = Some s' -> inv s -> inv s'.
Proof.
  destruct s as [c set]. intros H [].
  destruct o; cbn [cli_parse] in H; unfold seed_option, add_method in H;
  repeat match type of H with
    | context [match ?x with _ => _ end] => let E := fresh "E" in destruct x eqn:E; try discriminate
    end; try discriminate; injection H as <-;
  cbn [fst snd SET upd_cfg] in *;
  (constructor; cbn [fst snd SET upd_cfg
     c_field c_method c_count c_random c_prime c_cm_order c_koblitz c_koblitz_value c_smooth c_smooth_value c_cofactor c_cofactor_value c_invalid_primes
     c_seed_algo c_seed c_family c_unique c_hex_check c_points_type c_points_amount c_metadata c_memory c_threads c_thread_memory c_timeout c_bits c_hex_digits
     set_field set_method set_count set_random set_prime set_cm_order set_koblitz set_koblitz_value set_smooth set_smooth_value set_cofactor set_cofactor_value set_invalid_primes
     set_seed_algo set_seed set_family set_unique set_hex_check set_points_type set_points_amount set_metadata set_memory set_threads set_thread_memory set_timeout set_bits set_hex_digits]);
  rewrite ?bit2_lor, ?bit0_lor;
  change (bit2 METHOD_INVALID) with false; change (bit2 METHOD_CM) with false; change (bit2 METHOD_ANOMALOUS) with false;
  change (bit2 METHOD_SUPERSINGULAR) with false; change (bit2 METHOD_FAMILY) with false; change (bit2 METHOD_TWIST) with false; change (bit2 METHOD_SEED) with true;
  change (bit0 METHOD_INVALID) with false; change (bit0 METHOD_CM) with true; change (bit0 METHOD_ANOMALOUS) with false;
  change (bit0 METHOD_SUPERSINGULAR) with false; change (bit0 METHOD_FAMILY) with false; change (bit0 METHOD_TWIST) with false; change (bit0 METHOD_SEED) with false;
  rewrite ?orb_false_r, ?orb_true_r;
  try assumption;
  try (repeat (apply okset_skip; [discriminate|]); first [assumption | apply okset_same]);
  try (intros [Hq|Hq]; [discriminate|auto; fail]);
  try (intros [Hq|[Hq|Hq]]; [discriminate|discriminate|auto; fail]);
  try (intros [Hq|[Hq|[Hq|Hq]]]; [discriminate|discriminate|discriminate|auto; fail]);
  try (intros _; reflexivity); try (split; [reflexivity|discriminate]); try (intros _; eexists; reflexivity).
  all: try (unfold SEED_ANSI, SEED_BRAINPOOL, SEED_NUMS, SEED_BRAINPOOL_RFC; simpl; tauto).
  - destruct arg as [a|]; [|injection E as <-; unfold RANDOM_ALL; lia].
    eapply random_fold_range; eassumption.
  - apply orb_true_iff in E0. rewrite !Z.eqb_eq in E0. exact E0.
  - unfold points_of in E0.
    repeat match type of E0 with context [if ?b then _ else _] => destruct b end; try discriminate; injection E0 as <-;
    unfold POINTS_RANDOM, POINTS_PRIME, POINTS_ALL, POINTS_NONPRIME, POINTS_NONE; lia.
Qed.

Lemma options_inv np os : forall s s', options np os s = Some s' -> inv s -> inv s'.
Proof.
  induction os as [|o os IH]; intros s s' H Hi; cbn [options] in H.
  - injection H as <-. assumption.
  - destruct (cli_parse np o s) as [s1|] eqn:E; [|discriminate]. eapply IH; [eassumption|]. eapply parse_inv; eassumption.
Qed.

(** the method is set exactly when the option was *)
Lemma method_set np os : forall s s', options np os s = Some s' ->
  (0 <= c_method (fst s) /\ (In N_method (snd s) <-> c_method (fst s) <> 0)) ->
  0 <= c_method (fst s') /\ (In N_method (snd s') <-> c_method (fst s') <> 0).
Proof.
  assert (Hl : forall m k, 0 <= m -> 0 < k -> 0 <= Z.lor m k /\ Z.lor m k <> 0).
  { intros m k Hm Hk. split; [apply Z.lor_nonneg; lia|]. intros E. apply Z.lor_eq_0_iff in E. lia. }
  induction os as [|o os IH]; intros [c set] s' H Hi; cbn [options] in H.
  - injection H as <-. assumption.
  - destruct (cli_parse np o (c, set)) as [s1|] eqn:E; [|discriminate]. eapply IH; [eassumption|]. clear IH H.
    destruct Hi as [Hi1 Hi2]. cbn [fst snd] in *.
    destruct o; cbn [cli_parse] in E; unfold seed_option, add_method in E;
    repeat match type of E with
      | context [match ?x with _ => _ end] => destruct x; try discriminate
      end; try discriminate; injection E as <-; cbn [fst snd SET upd_cfg c_method set_method set_family set_seed set_seed_algo set_cm_order set_invalid_primes];
    try (split; [assumption|]; rewrite <- Hi2; split; [intros [Hq|Hq]; [discriminate|assumption]|intros Hq; right; assumption]);
    try (split; assumption);
    try (split; [assumption|]; rewrite <- Hi2; split; [intros [Hq|[Hq|Hq]]; [discriminate|discriminate|assumption]|intros Hq; right; right; assumption]);
    try (match goal with |- _ /\ (_ <-> Z.lor ?m ?k <> 0) => destruct (Hl m k ltac:(assumption) ltac:(reflexivity)) as [Hz1 Hz2] end;
         split; [assumption|]; split; [intros _; assumption|intros _; simpl; tauto]).
Qed.

Record final (c : config) (set : list name) : Prop := mkFinal {
  f_inv : inv (c, set);
  f_mset : In N_method set <-> c_method c <> 0;
  f_method : In (c_method c) [METHOD_DEFAULT; METHOD_CM; METHOD_ANOMALOUS; METHOD_SEED; METHOD_INVALID; METHOD_TWIST; METHOD_SUPERSINGULAR; METHOD_FAMILY];
  f_order : Z.b2z (c_prime c) + Z.b2z (c_smooth c) + Z.b2z (c_cofactor c) <= 1
}.

Lemma inv_defaults c set : inv (c, set) -> inv (cli_defaults c, set).
Proof.
  intros []. unfold cli_defaults.
  repeat match goal with |- context [if ?b then _ else _] => destruct b end; constructor; assumption.
Qed.
Lemma cli_final np os args c set : cli np os args = Some (c, set) -> final c set.
Proof.
  unfold cli. intros H. destruct args as [|a [|? ?]]; try discriminate.
  destruct (options np os (cfg0, [])) as [s|] eqn:Eo; [|discriminate].
  pose proof (options_inv np os _ _ Eo inv0) as Hi.
  pose proof (method_set np os _ _ Eo) as Hm. specialize (Hm ltac:(cbn; split; [lia|split; [tauto|lia]])).
  destruct s as [c1 set1]. unfold cli_arg in H. destruct (strtoul a) as [b rest]. destruct rest; [|discriminate].
  cbv beta iota delta [fst snd upd_cfg] in H.
  match type of H with context [cli_end_ok ?x] => set (c2 := x) in H end.
  assert (Hi2 : inv (c2, set1)) by (destruct Hi; constructor; assumption).
  assert (Hm2 : In N_method set1 <-> c_method c2 <> 0) by (exact (proj2 Hm)).
  clearbody c2. clear Hi Hm Eo.
  destruct (cli_end_ok c2) eqn:E; [|discriminate]. injection H as <- <-.
  assert (Hd : c_method (cli_defaults c2) = c_method c2 /\ c_prime (cli_defaults c2) = c_prime c2 /\
               c_smooth (cli_defaults c2) = c_smooth c2 /\ c_cofactor (cli_defaults c2) = c_cofactor c2).
  { unfold cli_defaults. repeat match goal with |- context [if ?b then _ else _] => destruct b end; auto. }
  destruct Hd as (D1 & D2 & D3 & D4).
  unfold cli_end_ok in E. rewrite !andb_true_iff in E. destruct E as [[[[[[[[[[_ E1] E2] _] _] _] _] _] _] _] _].
  split; rewrite ?D1, ?D2, ?D3, ?D4.
  - apply inv_defaults. assumption.
  - assumption.
  - rewrite !orb_true_iff, !Z.eqb_eq in E2. simpl. intuition auto.
  - rewrite negb_true_iff, Z.ltb_ge in E1. exact E1.
Qed.
