(** C80: a whole run of the Brainpool method. *)
From Coq Require Import Ascii String Znumtheory.
From Verif Require Import Base Fp Abelian Ec Poly_Model Points_Model Points_Props Gens_Props Random_Model Random_Props Cli_Model Json_Spec CurveText_Spec.
From Verif Require Import Whole_Model Whole_Spec Whole_Group Whole_Stages Whole_Proofs Whole_Front Whole_Run Whole_Default Whole_Made Whole_Ansi Shell_Fields.
From Verif Require Ec_Mod Bits_Model Bits_Spec Bits_Ops Bits_Ops3 Bits_Round Str_Model Str_Proofs Cli_Spec Cli_Proofs Brainpool_Spec Brainpool_Model Brainpool_Proofs Brainpool_Props Plan_Model Engine_Model Shell_Model Shell_Spec Hex_Props Input_Model Input_Props.
Local Open Scope Z_scope.
Local Open Scope list_scope.

(** ** The plan *)
Record in_brainpool (cfg : config) : Prop := {
  ib_method : c_method cfg = METHOD_SEED;
  ib_algo : c_seed_algo cfg = SEED_BRAINPOOL \/ c_seed_algo cfg = SEED_BRAINPOOL_RFC;
  ib_seed : forall u, Cli_Model.c_seed cfg = Some u -> Brainpool_Model.brainpool_seed_valid u = true;
  ib_bits : 3 <= c_bits cfg < 2 ^ 61;
  ib_type : 0 <= c_points_type cfg <= 4;
  ib_amount : 0 <= c_points_amount cfg < 2 ^ 64;
  ib_cofactor : - 2 ^ 63 <= c_cofactor_value cfg < 2 ^ 63;
  ib_smooth : 0 <= c_smooth_value cfg < 2 ^ 63
}.
Lemma brainpool_range cfg : in_brainpool cfg -> in_range (brainpool_cfg cfg).
Proof. intros [M A S B T N C D]. constructor; try assumption. split; [intros _; split; reflexivity|discriminate]. Qed.
Definition bseed_f (cfg : config) : Plan_Model.gen_f :=
  match Cli_Model.c_seed cfg with
  | Some _ => if is_brainpool_rfc cfg then Plan_Model.brainpool_rfc_gen_seed_argument else Plan_Model.brainpool_gen_seed_argument
  | None =>
      if Plan_Model.is_random cfg RANDOM_SEED
      then if is_brainpool_rfc cfg then Plan_Model.brainpool_rfc_gen_seed_random else Plan_Model.brainpool_gen_seed_random
      else if is_brainpool_rfc cfg then Plan_Model.brainpool_rfc_gen_seed_input else Plan_Model.brainpool_gen_seed_input
  end.
Definition bequation_f (cfg : config) : Plan_Model.gen_f :=
  if is_brainpool_rfc cfg then Plan_Model.brainpool_rfc_gen_equation else Plan_Model.brainpool_gen_equation.
Lemma brainpool_plan cfg u : in_brainpool cfg -> snd (Plan_Model.exhaustive_init cfg u) = Plan_Model.mkSetup
  [Some (bseed_f cfg); Some Plan_Model.brainpool_gen_field; Some Plan_Model.gen_skip; Some (bequation_f cfg);
   Some Plan_Model.curve_gen_any; Some Plan_Model.order_gen_prime; Some Plan_Model.brainpool_gen_gens; Some (points_f cfg); Some (meta_f cfg)]
  [None; None; None; None; None; order_arg cfg; gens_arg cfg; points_arg cfg; None]
  [None; None; None; None; Some [Plan_Model.curve_check_nonzero]; Some [Plan_Model.brainpool_check_order];
   Some [Plan_Model.gens_check_anomalous; Plan_Model.brainpool_check_gens]; hex_cell cfg; None]
  [None; None; None; None; None; None; None; hex_arg cfg; None]
  [Some Plan_Model.seed_unroll; Some Plan_Model.unroll_skip; Some Plan_Model.unroll_skip; Some Plan_Model.unroll_skip;
   Some Plan_Model.curve_unroll; Some Plan_Model.unroll_skip; Some Plan_Model.gens_unroll; Some Plan_Model.points_unroll; None].
Proof.
  intros [M A _ _ T _ _ _].
  assert (HP : forall g, Plan_Model.points_init cfg g = Plan_Model.put Plan_Model.POINTS (points_f cfg) g).
  { intros g. unfold Plan_Model.points_init, points_f.
    assert (TT : c_points_type cfg = 0 \/ c_points_type cfg = 1 \/ c_points_type cfg = 2 \/ c_points_type cfg = 3 \/ c_points_type cfg = 4) by lia.
    destruct TT as [->|[->|[->|[->| ->]]]]; [reflexivity|reflexivity| |reflexivity|reflexivity].
    destruct (c_points_amount cfg =? 0); reflexivity. }
  assert (HU : forall u g, exists u', Plan_Model.unique_init cfg u g = (u', Plan_Model.put Plan_Model.GENERATORS (gens_f cfg) g)).
  { intros u' g. unfold Plan_Model.unique_init, gens_f. destruct (c_unique cfg); [eauto|]. destruct (c_cofactor cfg); eauto. }
  assert (HS : forall a r i u g, exists u', Plan_Model.seed_init cfg a r i u g =
    (u', Plan_Model.put Plan_Model.SEED (match Cli_Model.c_seed cfg with Some _ => a | None => if Plan_Model.is_random cfg RANDOM_SEED then r else i end) g)).
  { intros a r i u' g. unfold Plan_Model.seed_init. destruct (Cli_Model.c_seed cfg); cbn [Plan_Model.is_some]; [eauto|]. destruct (Plan_Model.is_random cfg RANDOM_SEED); eauto. }
  assert (HM : forall g, (if c_metadata cfg then Plan_Model.put Plan_Model.METADATA Plan_Model.metadata_gen g else Plan_Model.put Plan_Model.METADATA Plan_Model.gen_skip g)
             = Plan_Model.put Plan_Model.METADATA (meta_f cfg) g).
  { intros g. unfold meta_f. destruct (c_metadata cfg); reflexivity. }
  assert (HG : exists u', Plan_Model.exhaustive_ginit cfg u = (u', [Some (bseed_f cfg); Some Plan_Model.brainpool_gen_field; Some Plan_Model.gen_skip; Some (bequation_f cfg);
   Some Plan_Model.curve_gen_any; Some Plan_Model.order_gen_prime; Some Plan_Model.brainpool_gen_gens; Some (points_f cfg); Some (meta_f cfg)])).
  { unfold Plan_Model.exhaustive_ginit, bseed_f, bequation_f, is_brainpool_rfc. rewrite M. cbv zeta.
    destruct A as [-> | ->].
    all: change (METHOD_SEED =? METHOD_TWIST) with false; change (SEED_BRAINPOOL =? SEED_ANSI) with false; change (SEED_BRAINPOOL_RFC =? SEED_ANSI) with false;
      change (SEED_BRAINPOOL =? SEED_BRAINPOOL) with true; change (SEED_BRAINPOOL_RFC =? SEED_BRAINPOOL) with false; change (SEED_BRAINPOOL =? SEED_BRAINPOOL_RFC) with false;
      change (SEED_BRAINPOOL_RFC =? SEED_BRAINPOOL_RFC) with true; change (negb (SEED_BRAINPOOL =? 0)) with true; change (negb (SEED_BRAINPOOL_RFC =? 0)) with true; cbn iota.
    all: destruct (c_prime cfg); [|destruct (c_cofactor cfg) eqn:CF; [|destruct (c_smooth cfg)]].
    all: match goal with |- context [Plan_Model.unique_init _ ?v ?g] => destruct (HU v g) as (u1 & ->) end.
    all: match goal with |- context [Plan_Model.seed_init _ ?a ?r ?i ?v ?g] => destruct (HS a r i v g) as (u2 & ->) end.
    all: rewrite HM, HP; eexists; reflexivity. }
  destruct HG as (u1 & HG). unfold Plan_Model.exhaustive_init. rewrite HG. clear HG HP HU HM HS.
  unfold Plan_Model.exhaustive_cinit, Plan_Model.exhaustive_ainit, Plan_Model.exhaustive_uinit, Plan_Model.hex_args, order_arg, gens_arg, points_arg, hex_cell, hex_arg.
  rewrite M. change (METHOD_SEED =? METHOD_SEED) with true. change (METHOD_SEED =? METHOD_FAMILY) with false.
  assert (AA : (c_seed_algo cfg =? SEED_BRAINPOOL) || (c_seed_algo cfg =? SEED_BRAINPOOL_RFC) = true) by (destruct A as [-> | ->]; reflexivity).
  assert (AB : negb (c_seed_algo cfg =? 0) = true) by (destruct A as [-> | ->]; reflexivity).
  rewrite AA, AB. cbn [orb]. cbn iota. cbn [snd]. f_equal.
  - destruct (c_points_type cfg =? POINTS_RANDOM), (c_cofactor cfg), (c_smooth cfg); reflexivity.
  - destruct (c_hex_check cfg); reflexivity.
  - destruct (c_hex_check cfg); reflexivity.
Qed.

(** ** A group of prime order is generated by every point besides that at infinity *)
Lemma prime_generated p a b (ns : curve_ok p a b) Q n : ec_on p a b Q = true -> Q <> None -> prime (points p a b) -> has_order p a Q n ->
  n = points p a b /\ generate p a b [Q].
Proof.
  intros On NI Pr O. set (R := exist (fun Q => ec_on p a b Q = true) Q On : point p a b).
  assert (OR : order_is (pinf p a b) (pmul p a b ns) R n).
  { destruct O as (O1 & O2). split; [exact O1|]. intros k. rewrite <- O2. change Q with (xy p a b R). rewrite (ec_mul_xy p a b ns R k). split.
    - intros E. rewrite E. reflexivity.
    - intros E. apply xy_eq. exact E. }
  assert (EN : n = points p a b).
  { apply (prime_points_generate p a b ns R n Pr OR). intros E. apply NI. apply (f_equal (xy p a b)) in E. exact E. }
  split; [exact EN|]. intros S On'. set (T := exist (fun Q => ec_on p a b Q = true) S On' : point p a b).
  pose proof (multiples_nodup (padd p a b ns) (pneg p a b ns) (pinf p a b) (points_group p a b ns) (point_dec p a b) (all_points p a b) (all_points_in p a b ns) R n OR) as ND.
  assert (I : In T (map (fun i => zmul (padd p a b ns) (pneg p a b ns) (pinf p a b) R (Z.of_nat i)) (seq 0 (Z.to_nat n)))).
  { refine (NoDup_length_incl ND _ _ T (all_points_in p a b ns T)).
    - rewrite map_length, seq_length. pose proof (all_points_count p a b ns) as C. lia.
    - intros x _. apply (all_points_in p a b ns). }
  apply in_map_iff in I. destruct I as (k & E & _). exists [Z.of_nat k]. split; [reflexivity|]. cbn [combination].
  rewrite (proj1 (ec_zero p a _)). change S with (xy p a b T). rewrite <- E. change Q with (xy p a b R). rewrite (ec_mul_xy p a b ns R). reflexivity.
Qed.

(** ** The stages *)
Section Stages.
Variable P : pari.
Variable cfg : config.
Hypothesis PO : pari_ok P (c_bits cfg).
Hypothesis BO : brainpool_ok P (c_bits cfg).
Hypothesis IB : in_brainpool cfg.
Variable tries : nat.
Variable delim : ascii.
Variable l : list str.
Notation bits := (c_bits cfg).
Notation L := (Z.to_nat (c_bits cfg)).
Notation over := (prime_over (c_bits cfg)).
Notation gen := (generator P (brainpool_cfg cfg) tries delim).
Notation rfc := (is_brainpool_rfc cfg).
Notation holds := Brainpool_Proofs.holds.
Notation bp_seed := Brainpool_Spec.bp_seed.

Lemma L_ok : Z.of_nat L = bits /\ (1 <= L)%nat /\ Brainpool_Proofs.size_ok L true.
Proof.
  pose proof (ib_bits _ IB) as B. assert (2 ^ 61 < 2 ^ 62) by reflexivity. assert (Z.of_nat L = bits) by lia. split; [assumption|]. split; [lia|].
  split; [lia|]. split; [lia|left; reflexivity].
Qed.
Lemma holds_length sd s n : holds sd s n -> length s = 160%nat.
Proof. intros ((_ & _ & _ & _ & E) & _). exact E. Qed.

(** the seed: [k] of the seeds after the first one is held *)
Definition at_seed (c : curve) (pos : nat) (first : list bool) (sd : Brainpool_Model.bp_t) (k : nat) : Prop :=
  exists l0 ls, firstn pos l = l0 ++ ls /\ brainpool_given cfg delim ls first /\ k_seed c = Some (BrainpoolSeed sd) /\ holds sd (bp_seed first k) L.
Notation chain := (brainpool_chain cfg).
Definition at_field (c : curve) (pos : nat) (first : list bool) (sd : Brainpool_Model.bp_t) (i : nat) (p : Z) (k : nat) : Prop :=
  at_seed c pos first sd k /\ k_field c = Some (Prime p) /\ brainpool_field cfg first i p /\ brainpool_turn cfg first i /\ Brainpool_Model.bupd sd = true.
Definition at_curve (c : curve) (pos : nat) (first : list bool) (sd : Brainpool_Model.bp_t) (i : nat) (p : Z) (k ia ib : nat) (a b : Z) : Prop :=
  at_field c pos first sd i p k /\ k_a c = Some (Mod a p) /\ k_b c = Some (Mod b p) /\ brainpool_equation rfc (chain first i) p a b ia ib.
Definition bp_front (k : Z) (c : curve) (pos : nat) : Prop :=
  if k <=? 0 then True
  else if k =? 1 then exists first sd n, at_seed c pos first sd n /\ brainpool_turn cfg first (if Brainpool_Model.bupd sd then n + 1 else n)
  else if k <=? 3 then exists first sd i p, at_field c pos first sd i p i
  else exists first sd i p ia ib a b, at_curve c pos first sd i p (i + 1 + ib) ia ib a b.
Definition small_order (c : curve) (p a b : Z) : Prop := k_order c = Some (points (Prime p) a b) /\ points (Prime p) a b < p.
Definition bp_ordered (c : curve) (pos : nat) : Prop :=
  exists first sd i p ia ib a b, at_curve c pos first sd i p (i + 1 + ib) ia ib a b /\ small_order c p a b.
Definition gens_of (c : curve) : option (list (point_t pt)) := option_map (map s_gen) (k_gens c).
Definition bp_made (c : curve) (pos : nat) : Prop :=
  exists first sd i p ia ib a b, at_curve c pos first sd i p (i + 1 + (ib + 1)) ia ib a b /\ small_order c p a b /\
  exists x y o h, least_point (Prime p) a b x y /\ gens_of c = Some [mkPoint (ec_mul (Prime p) a (Some (x, y)) (chain first i (ib + 1))) o h].
Definition bp_embedded (c : curve) : Prop :=
  forall gs p n, gens_of c = Some gs -> Forall (fun g => p_point g <> None) gs -> k_field c = Some (Prime p) -> k_order c = Some n ->
  forall k, 0 < k -> (n | p ^ k - 1) -> n - 1 < 100 * k.
Definition bp_ended (c : curve) (pos : nat) : Prop := bp_made c pos /\ bp_embedded c.

Lemma at_seed_same c c' pos first sd k : k_seed c' = k_seed c -> at_seed c pos first sd k -> at_seed c' pos first sd k.
Proof. intros E (l0 & ls & A & B & C & D). exists l0, ls. rewrite E. auto. Qed.
Lemma at_curve_same c c' pos first sd i p k ia ib a b : same_front c c' -> at_curve c pos first sd i p k ia ib a b -> at_curve c' pos first sd i p k ia ib a b.
Proof.
  intros (E1 & E2 & E3 & E4 & _) ((A & B & C) & D & E & F). split; [split; [exact (at_seed_same _ _ _ _ _ _ E1 A)|split; [congruence|exact C]]|].
  split; [congruence|]. split; [congruence|exact F].
Qed.
Lemma at_curve_at c pos first sd i p k ia ib a b : at_curve c pos first sd i p k ia ib a b -> brainpool_turn cfg first i /\ brainpool_at cfg first i p a b ia ib.
Proof. intros ((_ & _ & F & T & _) & _ & _ & E). split; [exact T|]. split; [exact F|exact E]. Qed.
(** back to the field *)
Lemma at_curve_back c pos first sd i p k ia ib a b : at_curve c pos first sd i p k ia ib a b -> brainpool_turn cfg first (k + 1) -> bp_front 1 c pos.
Proof. intros ((A & _ & _ & _ & U) & _) T. exists first, sd, k. split; [exact A|]. rewrite U. exact T. Qed.
Lemma front_same k c c' pos : same_front c c' -> bp_front k c pos -> bp_front k c' pos.
Proof.
  intros E S. unfold bp_front in *. destruct (k <=? 0); [exact I|]. destruct (k =? 1); [|destruct (k <=? 3)].
  - destruct S as (first & sd & n & A & T). exists first, sd, n. split; [exact (at_seed_same _ _ _ _ _ _ (proj1 E) A)|exact T].
  - destruct S as (first & sd & i & p & A & B & C). exists first, sd, i, p. destruct E as (E1 & E2 & _).
    split; [exact (at_seed_same _ _ _ _ _ _ E1 A)|]. split; [congruence|exact C].
  - destruct S as (first & sd & i & p & ia & ib & a & b & A). exists first, sd, i, p, ia, ib, a, b. exact (at_curve_same _ _ _ _ _ _ _ _ _ _ _ _ E A).
Qed.
Lemma at_curve_values c pos first sd i p k ia ib a b : at_curve c pos first sd i p k ia ib a b -> values (every over) c (Prime p) a b.
Proof.
  intros ((_ & F & ((Pp & Bp) & _) & _) & A & B & _). destruct L_ok as (E & _). rewrite E in Bp. split; [exact F|]. split; [split; [exact Pp|apply Bp]|]. split; [split; exact I|].
  exists (Mod a p), (Mod b p). auto.
Qed.

Lemma seed_of u : Brainpool_Model.brainpool_seed_valid u = true ->
  exists sd first, Brainpool_Model.brainpool_gen_seed_argument u bits = Ok sd /\ Brainpool_Model.brainpool_gen_seed_input u bits = Ok (Some sd) /\
  holds sd first L /\ length first = 160%nat /\ Brainpool_Model.bupd sd = false /\ brainpool_spelled u first.
Proof.
  intros V. destruct L_ok as (E & L1 & _). destruct (Brainpool_Props.C15_seed_from_text u L V L1) as (digits & sd & HX & LD & A & B & H & NU).
  rewrite E in A, B. exists sd, (Bits_Ops.hex_bits digits). split; [exact A|]. split; [exact B|]. split; [exact H|]. split; [exact (holds_length _ _ _ H)|]. split; [exact NU|].
  apply Cli_Proofs.is_hex_body in HX. exists digits. split; [exact HX|]. split; [exact LD|].
  split; [apply Bits_Round.hex_bits_length|]. apply Bits_Round.hex_text_hex_bits. destruct HX as (HX & _).
  apply Forall_impl with (2 := HX). intros c C. apply Str_Proofs.isxdigit_in in C. revert C. clear. cbn. intuition.
Qed.
Definition seeded (ls : list str) (s : option any_seed) : Prop :=
  exists sd first, s = Some (BrainpoolSeed sd) /\ brainpool_given cfg delim ls first /\ holds sd first L /\ Brainpool_Model.bupd sd = false.
Lemma bseed_stage d t c : match gen (bseed_f cfg) None d t c with
  | Ok (c', r) => (r = 1 /\ seeded (text_of (bseed_f cfg) t) (k_seed c')) \/ r = Engine_Model.INT_MIN \/ (r = 0 /\ c' = c)
  | _ => True
  end.
Proof.
  destruct L_ok as (E & L1 & _). unfold seeded, bseed_f, brainpool_given, text_of.
  destruct (Cli_Model.c_seed cfg) as [u|] eqn:CS; [|destruct (Plan_Model.is_random cfg RANDOM_SEED) eqn:RS].
  - destruct (seed_of u (ib_seed _ IB u CS)) as (sd & first & A & _ & H & LF & NU & G).
    destruct rfc; cbn [generator reads]; change (Cli_Model.c_seed (brainpool_cfg cfg)) with (Cli_Model.c_seed cfg); rewrite CS; cbn [need bind];
      change (c_bits (brainpool_cfg cfg)) with bits; rewrite A; cbn [bind]; left; (split; [reflexivity|]); exists sd, first; auto.
  - destruct (Brainpool_Props.C15_seed_random (random_bits d) L) as (sd & first & A & H & NU); [|exact L1|].
    { intros i k. unfold random_bits. assert (0 < 2 ^ Z.of_nat k) by (apply Z.pow_pos_nonneg; lia). pose proof (Z.mod_pos_bound (d_seq d i) (2 ^ Z.of_nat k) H).
      apply N2Z.inj_lt. rewrite Z2N.id by lia. rewrite N2Z.inj_pow, nat_N_Z. apply H0. }
    rewrite E in A. destruct rfc; cbn [generator reads]; change (c_bits (brainpool_cfg cfg)) with bits; rewrite A; cbn [bind]; left; (split; [reflexivity|]); exists sd, first;
      (split; [reflexivity|]); (split; [|exact (conj H NU)]); (split; [exact (holds_length _ _ _ H)|reflexivity]).
  - set (v := fst (Input_Model.input_string delim (field_stream t))).
    assert (X : (exists sd first, Brainpool_Model.brainpool_gen_seed_input v bits = Ok (Some sd) /\ holds sd first L /\ length first = 160%nat /\ Brainpool_Model.bupd sd = false /\ brainpool_spelled v first) \/
      Brainpool_Model.brainpool_gen_seed_input v bits = Ok None).
    { destruct (Brainpool_Model.brainpool_seed_valid v) eqn:V; [left|right].
      - destruct (seed_of v V) as (sd & first & _ & B). exists sd, first. exact B.
      - unfold Brainpool_Model.brainpool_gen_seed_input. rewrite V. reflexivity. }
    destruct X as [(sd & first & A & H & LF & NU & G)|A]; destruct rfc; cbn [generator reads]; change (c_bits (brainpool_cfg cfg)) with bits; fold v; rewrite A; cbn [bind].
    3-4: right; right; split; reflexivity.
    all: left; (split; [reflexivity|]); exists sd, first; (split; [reflexivity|]); (split; [|exact (conj H NU)]); (split; [exact LF|]); exists t; (split; [reflexivity|]);
      intros u r It NN; replace u with v; [exact G|]; unfold v; rewrite (Input_Props.C55_delimited_partial delim (field_stream t) u r It NN); reflexivity.
Qed.
Lemma bfield_stage d t c pos : bp_front 1 c pos ->
  match gen Plan_Model.brainpool_gen_field None d t c with Ok (c', r) => r = 1 /\ bp_front 2 c' pos | _ => True end.
Proof.
  intros (first & sd & n & (l0 & ls & A & G & K & H) & T). destruct L_ok as (E & L1 & SO). cbn [generator]. rewrite K. cbn [need_brainpool bind].
  change (c_bits (brainpool_cfg cfg)) with bits.
  destruct (Brainpool_Model.brainpool_gen_field (d_mem d) true (nextprime P) (isprime P) tries bits sd) as [(p, sd')| | |] eqn:F; cbn [bind]; try exact I.
  rewrite <- E in F.
  split; [reflexivity|].
  destruct (Brainpool_Props.C16_field _ _ prime (pc_next _ _ BO) (pc_isprime _ _ PO) (fun _ X => X) _ _ _ _ _ _ _ _ SO H F) as (k & H' & U & B & M & LP & LT). cbv zeta in H', LP, LT.
  set (m := if Brainpool_Model.bupd sd then (n + 1)%nat else n) in *.
  assert (ES : forall k, bp_seed (if Brainpool_Model.bupd sd then bp_seed (bp_seed first n) 1 else bp_seed first n) k = bp_seed first (m + k)).
  { intros k'. unfold m. destruct (Brainpool_Model.bupd sd); rewrite !Brainpool_Proofs.bp_seed_add; f_equal; lia. }
  rewrite ES in H', LP. exists first, sd', (m + k)%nat, p. split; [exists l0, ls; auto|]. split; [reflexivity|]. split; [split; [exact B|split; [exact M|exact LP]]|]. split; [|exact U].
  assert (TK : forall j, (j <= k)%nat -> brainpool_turn cfg first (m + j)); [|apply TK; lia].
  induction j as [|j IH]; intros Lj; [rewrite Nat.add_0_r; exact T|]. destruct (LT j ltac:(lia)) as (q & Q1 & Q2). rewrite ES in Q1.
  replace (m + Datatypes.S j)%nat with (m + j + 1)%nat by lia. exact (turn_field cfg first _ q (IH ltac:(lia)) Q1 Q2).
Qed.
Lemma bequation_stage d t c pos : bp_front 3 c pos ->
  match gen (bequation_f cfg) None d t c with Ok (c', r) => r = 1 /\ bp_front 4 c' pos | _ => True end.
Proof.
  intros (first & sd & i & p & (l0 & ls & A & G & K & H) & KF & ((Pp & Bp) & M & LP) & T & U). destruct L_ok as (E & L1 & SO). pose proof (prime_ge_2 p Pp) as P2.
  assert (ODD : p mod 2 = 1) by (rewrite (Z.div_mod p 4), M by lia; replace (4 * (p / 4) + 3) with (1 + (2 * (p / 4) + 1) * 2) by ring; rewrite Z.mod_add by lia; reflexivity).
  assert (INV1 : forall x y, Fp_invsafe P x p = Some y -> (x * y) mod p = 1 mod p) by (intros x y X; pose proof (pc_inverse _ _ BO p x Pp) as Y; rewrite X in Y; exact Y).
  assert (INV2 : forall x, Fp_invsafe P x p = None -> forall y, (x * y) mod p <> 1 mod p) by (intros x X; pose proof (pc_inverse _ _ BO p x Pp) as Y; rewrite X in Y; exact Y).
  assert (RT1 : forall x z, Fp_sqrtn P x 4 p = Some z -> z ^ 4 mod p = x mod p) by (intros x y X; pose proof (pc_root _ _ BO p x Pp) as Y; rewrite X in Y; exact Y).
  assert (RT2 : forall x, Fp_sqrtn P x 4 p = None -> forall z, z ^ 4 mod p <> x mod p) by (intros x X; pose proof (pc_root _ _ BO p x Pp) as Y; rewrite X in Y; exact Y).
  assert (CH : bp_seed (bp_seed first i) 1 = bp_seed first (i + 1)) by apply Brainpool_Proofs.bp_seed_add.
  unfold bequation_f. destruct rfc eqn:R; cbn [generator]; rewrite K, KF; cbn [need_brainpool need_prime bind].
  - destruct (Brainpool_Model.brainpool_rfc_gen_equation (d_mem d) true (Fp_invsafe P) (Fp_sqrtn P) (Fp_issquare P) tries p sd) as [((a, b), sd')| | |] eqn:F; cbn [bind]; try exact I.
    split; [reflexivity|].
    destruct (Brainpool_Props.C17_rfc _ _ _ p ltac:(lia) ODD INV1 INV2 RT1 RT2 (fun x => pc_square _ _ BO p x Pp) _ _ _ _ _ _ _ _ _ SO H F)
      as (ia & ib & Ea & Eb & Lt & GA & NS & SQ & ND & TR & H' & U'). cbv zeta in *. rewrite U in *.
    rewrite CH in *. rewrite Brainpool_Proofs.bp_seed_add in H'. exists first, sd', i, p, ia, ib, a, b. split; [split; [exists l0, ls; auto|split; [exact KF|split; [exact (conj (conj Pp Bp) (conj M LP))|split; [exact T|exact U']]]]|].
    split; [reflexivity|]. split; [reflexivity|]. rewrite R. unfold brainpool_equation, brainpool_chain. auto 12.
  - destruct (Brainpool_Model.brainpool_gen_equation (d_mem d) true (Fp_invsafe P) (Fp_sqrtn P) (Fp_issquare P) tries p sd) as [((a, b), sd')| | |] eqn:F; cbn [bind]; try exact I.
    split; [reflexivity|].
    destruct (Brainpool_Props.C17_original _ _ _ p ltac:(lia) ODD INV1 INV2 RT1 RT2 (fun x => pc_square _ _ BO p x Pp) _ _ _ _ _ _ _ _ _ SO H F)
      as (ia & Ea & Eb & GA & SQ & ND & TR & H' & U'). cbv zeta in *. rewrite U in *.
    rewrite CH in *. rewrite Brainpool_Proofs.bp_seed_add in H'. exists first, sd', i, p, ia, (ia + 1)%nat, a, b. split; [split; [exists l0, ls; auto|split; [exact KF|split; [exact (conj (conj Pp Bp) (conj M LP))|split; [exact T|exact U']]]]|].
    split; [reflexivity|]. split; [reflexivity|]. rewrite R. unfold brainpool_equation, brainpool_chain. repeat (split; [assumption || lia|]). auto.
Qed.

Notation counted := (counted (brainpool_cfg cfg) (every over)).
Notation gens_fact := (gens_fact (brainpool_cfg cfg) False).
Lemma values_here c pos first sd i p k ia ib a b f x y : at_curve c pos first sd i p k ia ib a b -> values (every over) c f x y -> f = Prime p /\ x = a /\ y = b.
Proof.
  intros ((_ & F & _) & A & B & _) (F' & _ & _ & u & v & A' & B' & <- & <-). rewrite F in F'. rewrite A in A'. rewrite B in B'.
  injection F' as <-. injection A' as <-. injection B' as <-. auto.
Qed.
Lemma counted_here c pos first sd i p k ia ib a b f x y : at_curve c pos first sd i p k ia ib a b -> counted c f x y -> f = Prime p /\ x = a /\ y = b.
Proof. intros A (V & _). exact (values_here _ _ _ _ _ _ _ _ _ _ _ _ _ _ A V). Qed.
Lemma bgens_stage d t c f x y pos arg : bp_ordered c pos -> counted c f x y ->
  match gen Plan_Model.brainpool_gen_gens arg d t c with
  | Ok (c', r) => (r = 1 /\ exists s g, c' = set_gens (Some g) (set_seed s c) /\ gens_fact g f x y /\ bp_made c' pos) \/ r = Engine_Model.INT_MIN
  | _ => True
  end.
Proof.
  intros (first & sd & i & p & ia & ib & a & b & A & SO) C. destruct (counted_here _ _ _ _ _ _ _ _ _ _ _ _ _ _ A C) as (-> & -> & ->).
  destruct C as ((_ & OV & _) & ns & CV & O & (PR & _)). specialize (PR eq_refl).
  destruct A as (((l0 & ls & A & G & K & H) & KF & FF & TN & UP) & KA & KB & EQ). destruct L_ok as (E & L1 & SZ). cbn [generator]. rewrite K, CV, O. cbn [need_brainpool need bind].
  destruct (Brainpool_Model.brainpool_gen_gens _ _ _ _ _ _ _ _ _ sd) as [([(((gp, o), h), k)|], sd')| | |] eqn:B; cbn [bind fst snd]; try exact I; [left|right; reflexivity].
  destruct (Brainpool_Props.C63_generator _ _ _ _ _ _ _ _ _ _ _ _ _ _ _ _ _ _ SZ H B) as (-> & H' & UP' & (x & y & X0 & IY & MX & ->) & -> & ->).
  pose proof (pc_curve _ _ PO _ _ _ OV ns) as PC. pose proof (prime_ge_2 _ (proj1 OV)) as P2.
  assert (LX : least_point (Prime p) a b x y).
  { assert (OX : ec_on (Prime p) a b (Some (x mod p, y)) = true) by (apply (pc_ordinate _ _ BO (Prime p) a b x y OV ns); exact IY).
    pose proof (Z.mod_pos_bound x p ltac:(lia)) as XB.
    assert (XS : x mod p = x).
    { apply Z.mod_small. split; [exact X0|]. destruct (Z_lt_ge_dec x p) as [Y|Y]; [exact Y|]. exfalso.
      assert (IZ : In y (ellordinate P (Prime p) a b (x mod p))) by (apply (pc_ordinate _ _ BO (Prime p) a b _ y OV ns); cbn [field_size]; rewrite Z.mod_mod by lia; exact OX).
      rewrite (MX (x mod p) ltac:(lia)) in IZ. exact IZ. }
    rewrite XS in OX. split; [exact OX|]. intros z w Oz. destruct (Z_le_gt_dec x z) as [Y|Y]; [exact Y|]. exfalso.
    destruct (proj1 (ec_on_iff _ _ _ ns _ _) Oz) as (Iz & _). apply Fp.in_elements in Iz. cbn [field_size] in Iz.
    assert (IZ : In w (ellordinate P (Prime p) a b z)) by (apply (pc_ordinate _ _ BO (Prime p) a b _ w OV ns); cbn [field_size]; rewrite Z.mod_small by lia; exact Oz).
    rewrite (MX z ltac:(lia)) in IZ. exact IZ. }
  destruct LX as (On & Least). assert (EC : Brainpool_Spec.bp_coeff (bp_seed (bp_seed first (i + 1 + ib)) 1) L = chain first i (ib + 1)).
  { unfold brainpool_chain. rewrite !Brainpool_Proofs.bp_seed_add. do 2 f_equal. lia. }
  rewrite EC. set (k := chain first i (ib + 1)) in *.
  rewrite (pc_mul _ _ _ _ PC _ k On). pose proof (ec_mul_on _ _ _ ns _ k On) as OG. set (g := ec_mul (Prime p) a (Some (x, y)) k) in *.
  pose proof (pc_order _ _ _ _ PC g OG) as HO. set (o := ellorder P (Prime p) a b g) in *.
  split; [reflexivity|]. eexists _, _. split; [reflexivity|]. split.
  - split; [|split; [constructor; [split; reflexivity|constructor]|split; [intros (_ & [])|split; [|discriminate]]]].
    + intros FN. inversion FN as [|? ? F1 _]; subst. cbn in F1. destruct (prime_generated _ _ _ ns g o OG F1 PR HO) as (EO & GE).
      split; [|cbn; lia]. split; [constructor; [split; [exact OG|exact HO]|constructor]|]. split; [|split; [exact GE|cbn; lia]].
      constructor; [|constructor]. cbn [p_cofactor s_gen p_order]. eexists. split; [reflexivity|]. rewrite <- EO. pose proof (proj1 HO). rewrite Z.div_same by lia. lia.
    + constructor; [split; [exact OG|exact HO]|constructor].
  - exists first, sd', i, p, ia, ib, a, b. split; [|split; [exact SO|]].
    + split; [split; [exists l0, ls|split; [exact KF|split; [exact FF|split; [exact TN|congruence]]]]|split; [exact KA|split; [exact KB|exact EQ]]].
      split; [exact A|]. split; [exact G|]. split; [reflexivity|]. rewrite Brainpool_Proofs.bp_seed_add in H'. replace (i + 1 + (ib + 1))%nat with (i + 1 + ib + 1)%nat by lia. exact H'.
    + exists x, y, o. eexists. split; [split; assumption|reflexivity].
Qed.
Lemma border_stage d t c f x y pos arg : bp_front 4 c pos -> over f -> curve_ok f x y -> values (every over) c f x y -> k_curve c = Some (f, x, y) ->
  exists c' r, gen Plan_Model.order_gen_prime arg d t c = Ok (c', r) /\
  ((r = 1 /\ c' = set_order (Some (points f x y)) c /\ order_wanted (brainpool_cfg cfg) (points f x y)) \/ (r = -4 /\ bp_front 1 c' pos)).
Proof.
  intros S OV ns V K. pose proof (pc_curve _ _ PO _ _ _ OV ns) as PC. pose proof (points_pos P cfg _ (prime_fits _) PO f x y OV ns) as Pos.
  cbn [generator]. rewrite K. cbn [need bind]. eexists _, _. split; [reflexivity|].
  destruct (C35_prime (isprime P) (Z_factor P) (pc_isprime _ _ PO) (pc_factor _ _ PO) _ (ellsea P f x y) Pos (pc_sea _ _ _ _ PC)) as [(A & ->)|(A & ->)]; cbn [fst snd]; [left|right].
  - split; [reflexivity|]. split; [reflexivity|]. split; [intros _; exact A|]. split; discriminate.
  - split; [reflexivity|]. apply (front_same 1 c); [repeat split|]. destruct S as (first & sd & i & p & ia & ib & a & b & AC). destruct (values_here _ _ _ _ _ _ _ _ _ _ _ _ _ _ AC V) as (-> & -> & ->).
    destruct (at_curve_at _ _ _ _ _ _ _ _ _ _ _ AC) as (T & AT). apply (at_curve_back _ _ _ _ _ _ _ _ _ _ _ AC). apply (turn_order cfg first i p a b ia ib T AT). intros (C & _). exact (A C).
Qed.
(** the equation gives a curve *)
Lemma at_curve_ok c pos first sd i p k ia ib a b : at_curve c pos first sd i p k ia ib a b -> curve_ok (Prime p) a b.
Proof.
  intros AC. destruct (at_curve_at _ _ _ _ _ _ _ _ _ _ _ AC) as (_ & ((Pp & _) & M & _) & -> & -> & _ & _ & NS & _).
  assert (B : 2 < p) by (pose proof (prime_ge_2 p Pp); destruct (Z.eq_dec p 2) as [->|]; [discriminate M|lia]).
  constructor; [split; assumption|exact Logic.I|exact Logic.I|]. cbn [nonsingular].
  refine (Ec_Mod.nonsingular_mod p Pp _ _ _ _ _ _ NS); symmetry; apply Zmod_mod.
Qed.
Lemma bcurve_ok c pos p a b : bp_front 4 c pos -> values (every over) c p a b -> ellinit P p a b = false \/ (ellinit P p a b = true /\ ell_get_disc P p a b = 0) -> bp_front 1 c pos.
Proof.
  intros (first & sd & i & q & ia & ib & x & y & AC) V H. exfalso. destruct (values_here _ _ _ _ _ _ _ _ _ _ _ _ _ _ AC V) as (-> & -> & ->).
  pose proof (at_curve_ok _ _ _ _ _ _ _ _ _ _ _ AC) as ns. destruct V as (_ & OV & _).
  rewrite (pc_init _ _ BO _ _ _ OV ns) in H. destruct H as [H|(E & H)]; [discriminate H|].
  rewrite (pc_disc _ _ PO _ _ _ OV (co_a _ _ _ ns) (co_b _ _ _ ns) (pc_init _ _ BO _ _ _ OV ns)) in H. unfold discriminant in H.
  destruct ns as [(Pp & B) _ _ ns]. apply ns. apply Z.mod_divide; [lia|]. apply Z.mod_divide in H; [|lia].
  apply (prime_mult _ Pp) in H. destruct H as [H|H]; [exfalso|exact H]. assert (H2 : (q | 2 * (2 * (2 * 2)))) by (apply Z.divide_opp_r; exact H).
  repeat (apply (prime_mult _ Pp) in H2; destruct H2 as [H2|H2]; [apply Z.divide_pos_le in H2; lia|]). apply Z.divide_pos_le in H2; lia.
Qed.
(** a curve that --hex-check drops *)
Lemma bhex c pos f x y : c_hex_check (brainpool_cfg cfg) <> None -> bp_ended c pos -> counted c f x y -> bp_front 1 c pos.
Proof.
  intros HX ((first & sd & i & p & ia & ib & a & b & A & (_ & LN) & _) & _) C. destruct (counted_here _ _ _ _ _ _ _ _ _ _ _ _ _ _ A C) as (-> & -> & ->).
  destruct C as (_ & _ & _ & _ & (PR & _)). destruct (at_curve_at _ _ _ _ _ _ _ _ _ _ _ A) as (T & AT).
  apply (at_curve_back _ _ _ _ _ _ _ _ _ _ _ A). replace (i + 1 + (ib + 1) + 1)%nat with (i + 1 + ib + 2)%nat by lia.
  exact (turn_hex cfg first i p a b ia ib T AT (conj (PR eq_refl) LN) HX).
Qed.
Variable hexw : Z -> str.
Notation chk := (check P hexw).
Lemma check_order c f x y pos : bp_front 4 c pos -> counted c f x y ->
  exists r, chk Plan_Model.brainpool_check_order None c = Ok r /\ (0 < r \/ (r = -4 /\ bp_front 1 c pos)) /\ (0 < r -> bp_ordered c pos).
Proof.
  intros (first & sd & i & p & ia & ib & a & b & A) C. destruct (counted_here _ _ _ _ _ _ _ _ _ _ _ _ _ _ A C) as (-> & -> & ->).
  destruct C as (_ & _ & _ & O & _). pose proof A as ((_ & F & _) & _). cbn [check]. rewrite F, O. cbn [need_prime need bind]. eexists. split; [reflexivity|].
  destruct (Brainpool_Props.C18_order (points (Prime p) a b) p) as (X & [Y|Y]).
  - rewrite Y. split; [left; lia|]. intros _. exists first, sd, i, p, ia, ib, a, b. split; [exact A|]. split; [exact O|now apply X].
  - rewrite Y. split; [right; split; [reflexivity|]|lia]. destruct (at_curve_at _ _ _ _ _ _ _ _ _ _ _ A) as (T & AT).
    apply (at_curve_back _ _ _ _ _ _ _ _ _ _ _ A). apply (turn_order cfg first i p a b ia ib T AT). intros (_ & C). apply X in C. rewrite Y in C. discriminate C.
Qed.
Lemma check_gens c f x y pos g : bp_made c pos -> counted c f x y -> k_gens c = Some g -> gens_fact g f x y ->
  (exists r, chk Plan_Model.gens_check_anomalous None c = Ok r /\ 0 < r) /\
  exists r, chk Plan_Model.brainpool_check_gens None c = Ok r /\ (0 < r \/ (r = -5 /\ bp_front 1 c pos)) /\ (0 < r -> bp_ended c pos).
Proof.
  intros MD C KG GF. pose proof MD as (first & sd & i & p & ia & ib & a & b & A & (KO & LN) & u & v & o & h & _ & GS).
  destruct (counted_here _ _ _ _ _ _ _ _ _ _ _ _ _ _ A C) as (-> & -> & ->). destruct C as ((_ & OV & _) & ns & _ & O & (PR & _)). specialize (PR eq_refl).
  pose proof A as ((_ & KF & _) & _). cbn [check]. rewrite KF, KG. cbn [need_prime need bind].
  unfold gens_of in GS. rewrite KG in GS. cbn [option_map] in GS. injection GS as GS. destruct g as [|s [|]]; cbn [map] in GS; try discriminate GS. injection GS as GS.
  destruct GF as (_ & _ & _ & RT & _). cbn [map] in RT. inversion RT as [|? ? (OG & HO) _]; subst.
  pose proof (proj1 HO) as NO. assert (ODD : 1 < points (Prime p) a b) by (pose proof (prime_ge_2 _ PR); lia).
  assert (ON : p_point (s_gen s) = None -> p_order (s_gen s) = 1).
  { intros Q. assert (X : (p_order (s_gen s) | 1)) by (apply (proj2 HO 1); rewrite Q; reflexivity). apply Z.divide_pos_le in X; lia. }
  assert (OF : p_point (s_gen s) <> None -> p_order (s_gen s) = points (Prime p) a b) by (intros Q; exact (proj1 (prime_generated _ _ _ ns _ _ OG Q PR HO))).
  assert (NE : p <> p_order (s_gen s)).
  { pose proof (prime_ge_2 p (proj1 OV)). destruct (p_point (s_gen s)) as [q|] eqn:Q; [rewrite OF by discriminate|rewrite ON by reflexivity]; lia. }
  assert (EMB : embedding_degree p (points (Prime p) a b) (znorder P p (points (Prime p) a b))).
  { pose proof (pc_curve _ _ PO _ _ _ OV ns) as PC. destruct (pc_meta _ _ _ _ PC) as (EM & _). apply EM.
    apply Zgcd_1_rel_prime. apply rel_prime_sym. apply prime_rel_prime; [exact PR|]. intros DD. apply (prime_div_prime _ _ PR (proj1 OV)) in DD. lia. }
  destruct EMB as (K1 & K2 & K3). split.
  - eexists. split; [reflexivity|]. unfold gens_check_anomalous. cbn [existsb]. destruct (Z.eqb_spec p (p_order (s_gen s))); [contradiction|reflexivity].
  - eexists. split; [reflexivity|]. destruct (Brainpool_Proofs.check_gens_ok (znorder P) p (p_order (s_gen s)) NO NE) as (X & [Y|Y]).
    + rewrite Y. split; [left; lia|]. intros _. split; [exact MD|]. intros gs p' n' Gs FN KF' KO' k K0 DV.
      rewrite KF in KF'. injection KF' as <-. rewrite KO in KO'. injection KO' as <-. unfold gens_of in Gs. rewrite KG in Gs. cbn [option_map map] in Gs. injection Gs as <-.
      inversion FN as [|? ? FN1 _]; subst. rewrite (OF FN1) in X, Y. apply X in Y.
      destruct (Z_lt_ge_dec k (znorder P p (points (Prime p) a b))) as [Lt|Ge]; [|change (points (Prime p) a b - 1 < 100 * k); clear - Y Ge; lia]. exfalso. apply (K3 k); [lia|exact DV].
    + rewrite Y. split; [right; split; [reflexivity|]|lia]. destruct (at_curve_at _ _ _ _ _ _ _ _ _ _ _ A) as (T & AT).
      apply (at_curve_back _ _ _ _ _ _ _ _ _ _ _ A). replace (i + 1 + (ib + 1) + 1)%nat with (i + 1 + ib + 2)%nat by lia.
      apply (turn_degree cfg first i p a b ia ib T AT); [split; [exact PR|exact LN]|]. intros D.
      assert (FN : p_point (s_gen s) <> None).
      { intros Q. rewrite (ON Q), (pc_one _ _ BO p (proj1 OV)) in X. assert (Z1 : Brainpool_Model.brainpool_check_gens (znorder P) p 1 = 1) by (apply X; lia).
        rewrite (ON Q), Z1 in Y. discriminate Y. }
      rewrite (OF FN) in X, Y. assert (Z1 : Brainpool_Model.brainpool_check_gens (znorder P) p (points (Prime p) a b) = 1) by (apply X; exact (D _ (proj1 (Z.le_succ_l 0 _) K1) K2)).
      rewrite Y in Z1. discriminate Z1.
Qed.
End Stages.

(** ** The run *)
Section Run.
Variable P : pari.
Variable cfg : config.
Hypothesis PO : pari_ok P (c_bits cfg).
Hypothesis BO : brainpool_ok P (c_bits cfg).
Hypothesis IB : in_brainpool cfg.
Variable hexw hexp dec : Z -> list ascii.
Hypothesis OK : prints hexw hexp dec.
Hypothesis HX : Hex_Props.prints_hex hexw.
Variable junk : nat -> ascii.
Variable draws : Z -> nat -> draw.
Variable tries fuel : nat.
Variable avma : Z.
Notation setup := (snd (Plan_Model.exhaustive_init cfg [N_method])).

Lemma brainpool_result d l i fuel' av r w :
  search P (brainpool_cfg cfg) hexw tries d l (draws i) setup fuel' av = (r, w) ->
  match r with Engine_Model.Returned r => (r = 1 /\ success P (brainpool_cfg cfg) (every (prime_over (c_bits cfg))) hexw (bp_ended cfg d l) w) \/ (r = 0 /\ failed (brainpool_cfg cfg) False w)
  | Engine_Model.NoFuel => True | _ => False end.
Proof.
  rewrite (brainpool_plan cfg [N_method] IB).
  refine (search_result P (brainpool_cfg cfg) (every (prime_over (c_bits cfg))) (prime_fits (brainpool_cfg cfg)) PO (brainpool_range _ IB) hexw tries d l (draws i)
    (bseed_f cfg) Plan_Model.brainpool_gen_field Plan_Model.gen_skip (bequation_f cfg) Plan_Model.order_gen_prime Plan_Model.brainpool_gen_gens
    None None None None (order_arg cfg) (gens_arg cfg) [Plan_Model.brainpool_check_order] [Plan_Model.gens_check_anomalous; Plan_Model.brainpool_check_gens]
    Plan_Model.seed_unroll (bp_front cfg d l) (bp_front cfg d l 4) (bp_ordered cfg d l) (bp_made cfg d l) (bp_ended cfg d l) False
    _ _ _ _ _ _ _ _ _ _ _ _ _ _ _ _ _ _ _ _ _ fuel' av r w).
  - intros E. exfalso. revert E. unfold bseed_f. destruct (Cli_Model.c_seed cfg); [|destruct (Plan_Model.is_random cfg RANDOM_SEED)]; destruct (is_brainpool_rfc cfg); discriminate.
  - intros k c pos _ _ E. exfalso. revert E. unfold bseed_f. destruct (Cli_Model.c_seed cfg); [|destruct (Plan_Model.is_random cfg RANDOM_SEED)]; destruct (is_brainpool_rfc cfg); discriminate.
  - exact I.
  - intros c pos _ _. exact I.
  - exact (bcurve_ok P cfg PO BO d l).
  - exact (front_same cfg d l).
  - intros c pos (first & sd & i0 & p & ia & ib & a & b & A). exists (Prime p), a, b. exact (at_curve_values cfg IB d l _ _ _ _ _ _ _ _ _ _ _ A).
  - intros k dr c pos _ K S RD. assert (KK : k = 0 \/ k = 1 \/ k = 2 \/ k = 3) by lia. destruct KK as [->|[->|[->| ->]]].
    + change (fst (front _ _ _ _ _ _ _ _ 0)) with (bseed_f cfg) in *. change (snd (front _ _ _ _ _ _ _ _ 0)) with (@None Plan_Model.arg_t). cbv zeta.
      pose proof (bseed_stage P cfg IB tries d dr (nth pos l []) c) as X.
      destruct (generator P (brainpool_cfg cfg) tries d (bseed_f cfg) None dr (nth pos l []) c) as [(c', r')| | |]; try exact I; [|intros []].
      destruct X as [(-> & sd & first & E & G & H & NU)|[->|(-> & ->)]]; [left; split; [reflexivity|]|right; left; reflexivity|right; right].
      * exists first, sd, 0%nat. split; [|rewrite NU; exact (turn_first cfg first)]. exists (firstn pos l), (text_of (bseed_f cfg) (nth pos l [])). split; [exact (firstn_text _ _ _ RD)|]. split; [exact G|]. split; [exact E|].
        rewrite Brainpool_Proofs.bp_seed_0 by exact (holds_length _ _ _ H). exact H.
      * split; [lia|]. split; [lia|exact I].
    + pose proof (bfield_stage P cfg PO BO IB tries d l dr (nth pos l []) c pos S) as X.
      change (fst (front _ _ _ _ _ _ _ _ 1)) with Plan_Model.brainpool_gen_field in *. change (snd (front _ _ _ _ _ _ _ _ 1)) with (@None Plan_Model.arg_t). cbv zeta. cbn [reads].
      destruct (generator P (brainpool_cfg cfg) tries d Plan_Model.brainpool_gen_field None dr (nth pos l []) c) as [(c', r')| | |]; try exact I; [|intros []]. left. exact X.
    + change (fst (front _ _ _ _ _ _ _ _ 2)) with Plan_Model.gen_skip in *. change (snd (front _ _ _ _ _ _ _ _ 2)) with (@None Plan_Model.arg_t). cbv zeta. cbn [reads generator]. left. split; [reflexivity|exact S].
    + pose proof (bequation_stage P cfg BO IB tries d l dr (nth pos l []) c pos S) as X.
      change (fst (front _ _ _ _ _ _ _ _ 3)) with (bequation_f cfg) in *. change (snd (front _ _ _ _ _ _ _ _ 3)) with (@None Plan_Model.arg_t). cbv zeta.
      assert (RF : reads (bequation_f cfg) = false) by (unfold bequation_f; destruct (is_brainpool_rfc cfg); reflexivity). rewrite RF.
      destruct (generator P (brainpool_cfg cfg) tries d (bequation_f cfg) None dr (nth pos l []) c) as [(c', r')| | |]; try exact I; [|intros []]. left. exact X.
  - reflexivity.
  - intros dr t c p a b pos S V ns K. pose proof V as (_ & CO & _).
    destruct (border_stage P cfg PO tries d l dr t c p a b pos (order_arg cfg) S CO ns V K) as (c' & r' & -> & X). destruct X as [(X1 & X2 & X3)|(-> & X)]; [left; split; [exact X1|]; split; [exact X2|]; split; [exact X3|]; rewrite X2; apply (front_same cfg d l 4 c); [repeat split|exact S]|right; split; [lia|exact X]].
  - intros f c p a b pos [<-|[]] S C. destruct (check_order P cfg d l hexw c p a b pos S C) as (r' & -> & X & _). exact X.
  - intros c p a b pos S C PS. destruct (check_order P cfg d l hexw c p a b pos S C) as (r' & E & _ & X). destruct (PS _ (or_introl eq_refl)) as (r2 & E2 & R). apply X. rewrite E in E2. congruence.
  - reflexivity.
  - intros dr t c p a b pos S C. pose proof (bgens_stage P cfg PO BO IB tries d l dr t c p a b pos (gens_arg cfg) S C) as X.
    destruct (generator P (brainpool_cfg cfg) tries d Plan_Model.brainpool_gen_gens (gens_arg cfg) dr t c) as [(c', r')| | |]; try exact I; [|intros []].
    destruct X as [X|X]; [left; exact X|right; left; exact X].
  - intros f c p a b pos g If M C KG GF. destruct (check_gens P cfg PO BO d l hexw c p a b pos g M C KG GF) as ((r1 & E1 & X1) & r2 & E2 & X2 & _).
    destruct If as [<-|[<-|[]]]; [rewrite E1; left; exact X1|rewrite E2; exact X2].
  - intros c p a b pos g M C KG GF PS. destruct (check_gens P cfg PO BO d l hexw c p a b pos g M C KG GF) as (_ & r2 & E2 & _ & X).
    destruct (PS _ (or_intror (or_introl eq_refl))) as (r3 & E3 & R). apply X. rewrite E2 in E3. congruence.
  - intros c pos _ E. exfalso. revert E. unfold bseed_f. destruct (Cli_Model.c_seed cfg); [|destruct (Plan_Model.is_random cfg RANDOM_SEED)]; destruct (is_brainpool_rfc cfg); discriminate.
  - intros c pos _ E. exfalso. revert E. unfold bseed_f. destruct (Cli_Model.c_seed cfg); [|destruct (Plan_Model.is_random cfg RANDOM_SEED)]; destruct (is_brainpool_rfc cfg); discriminate.
  - exact (bhex cfg d l).
  - intros c pos p [].
  - intros c c' pos SF KO KG ((first & sd & i0 & p & ia & ib & a & b & A & (KN & LN) & x & y & o & h & LP & G) & EM). split.
    + exists first, sd, i0, p, ia, ib, a, b. split; [exact (at_curve_same _ _ _ _ _ _ _ _ _ _ _ _ _ _ _ SF A)|]. split; [split; [congruence|exact LN]|].
      exists x, y, o, h. split; [exact LP|]. unfold gens_of in *. congruence.
    + intros gs q m Gs FN KF KM. apply (EM gs q m); [unfold gens_of in *; congruence|exact FN|destruct SF as (_ & SF & _); congruence|congruence].
Qed.
Lemma brainpool_shows d l c : found (brainpool_cfg cfg) hexw (every (prime_over (c_bits cfg))) (bp_ended cfg d) l c -> wanted_brainpool cfg hexw d l c.
Proof.
  intros (k & f & (((first & sd & i & p & ia & ib & a & b & AC & (KO & LN) & x & y & o & h & LP & GS) & EM) & SH & (q & Kf & Pf) & (x' & Kx & Px) & (y' & Ky & Py)) & KF & Of & W & g & KG & PG).
  destruct (at_curve_at _ _ _ _ _ _ _ _ _ _ _ _ _ _ AC) as (T & AT). destruct AC as (((l0 & ls & E & G & K & H) & KF' & _) & KA & KB & _).
  assert (q = Prime p) by congruence. subst q. assert (f = Prime p) by congruence. subst f.
  rewrite KA in Kx. injection Kx as <-. rewrite KB in Ky. injection Ky as <-. cbn [elem_int] in Px, Py. rewrite firstn_all in E.
  unfold gens_of in *. rewrite KG in GS. cbn [option_map] in GS. injection GS as GS.
  assert (PT : map (fun s => p_point (s_gen s)) g = [ec_mul (Prime p) a (Some (x, y)) (brainpool_chain cfg first i (ib + 1))]) by (rewrite <- (map_map s_gen p_point), GS; reflexivity).
  exists first, p, i, ia, ib, l0, ls. split; [exact E|]. split; [exact G|]. split; [|exact W]. split; [exact Pf|]. split.
  { rewrite SH, K. cbn [option_map seed_bits]. unfold seed_text. destruct H as ((_ & _ & -> & BS & LB) & _).
    assert (BL : Bits_Model.bitlen (Brainpool_Model.bseed sd) = 160%nat) by (rewrite <- LB, <- BS; unfold Bits_Spec.bits_of; rewrite map_length, seq_length; reflexivity).
    rewrite BL. unfold Bits_Spec.mag. rewrite BS. replace (i + 1 + ib + 1)%nat with (i + 1 + (ib + 1))%nat by lia. reflexivity. }
  split; [exact T|]. rewrite Px, Py. split; [exact AT|].
  pose proof W as (_ & PO' & (PR & _) & _). rewrite Px, Py in PO', PR. specialize (PR eq_refl). rewrite PO'. split; [split; [exact PR|exact LN]|]. split.
  { intros m. apply (EM (map s_gen g) p (points (Prime p) a b)); [unfold gens_of; rewrite KG; reflexivity| |exact KF'|exact KO].
    rewrite <- PG in PT. rewrite Forall_map. apply Forall_forall. intros s Is N. apply (in_map (fun s => p_point (s_gen s))) in Is. rewrite <- PG in Is. cbv beta in Is. rewrite N in Is.
    apply in_map_iff in Is. destruct Is as (z & X & _). discriminate X. }
  exists x, y. split; [exact LP|]. rewrite PG. exact PT.
Qed.

(** C80. Full statement: of every run. Missing: the sizes that are printed fit (fitsb), seeds that are typed with a zero
    byte in them. *)
Theorem C80_run_partial ino readable writable reason io seadata fs kbd d input outer i :
  Shell_Spec.separate ino writable io -> Shell_Spec.input_is ino readable io fs kbd d input ->
  Shell_Model.i_append io = false -> Shell_Spec.out_file ino writable io i -> 0 <= c_count cfg < 2 ^ 64 ->
  let '(w, status) := Shell_Model.main ino readable writable (fun _ => None) reason true io seadata
      (exhaustive_do P cfg hexw hexp dec junk draws tries fuel avma d setup outer) (Shell_Model.fresh fs kbd) in
  status = Some 0 ->
  exists text cs, Shell_Model.files w i = Some text /\ Z.of_nat (length cs) = c_count cfg /\ each (wanted_brainpool cfg hexw d) d input cs /\
    (exists v, json text v) /\
    forall v, json text v -> exists ds, v = JArr ds /\ all read_curve ds = Some cs.
Proof.
  intros S I NA O B.
  pose proof (run_file P (brainpool_cfg cfg) hexw hexp dec OK HX junk draws tries fuel avma d setup (every (prime_over (c_bits cfg))) (bp_ended cfg d) _
    (fun l i fuel av r w => brainpool_result d l i fuel av r w) ino readable writable reason io seadata fs kbd d input outer i S I NA O B) as H.
  change (exhaustive_do P (brainpool_cfg cfg)) with (exhaustive_do P cfg) in H.
  destruct (Shell_Model.main _ _ _ _ _ true io seadata _ (Shell_Model.fresh fs kbd)) as (w, status). intros E.
  destruct (H E) as (text & cs & F & N & EA & J). exists text, cs. split; [exact F|]. split; [exact N|]. split; [|exact J].
  apply (each_impl (found (brainpool_cfg cfg) hexw (every (prime_over (c_bits cfg))) (bp_ended cfg d))) with (2 := EA). intros l c. apply brainpool_shows.
Qed.
End Run.
Print Assumptions C80_run_partial.
