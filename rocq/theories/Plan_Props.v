(** C26, C27: the generation plan of an accepted command line. *)
From Coq Require Import Ascii String.
From Verif Require Import Base Str_Model Cli_Model Cli_Spec Cli_Proofs Plan_Model Plan_Spec Plan_Proofs Plan_Proofs2 Plan_Proofs3 Plan_Proofs4.
Local Open Scope Z_scope.

(** ** C26 *)

(** Every accepted command line other than the invalid-curve method: each of
    the nine stages has the generator asked for, functions that need an
    argument have it, the checks are the ones asked for. *)
Theorem C26_plan np os args c set order_prime :
  cli np os args = Some (c, set) -> c_method c <> METHOD_INVALID ->
  exists p su, procedure_of c = Some p /\
  (snd (main_job c order_prime) = JExhaustive su (c_count c) \/ snd (main_job c order_prime) = JCm su (c_count c)) /\
  (forall i, (i <= METADATA)%nat -> exists g, gen_at su i = Some g) /\
  s_gens su = want p order_prime c /\
  (forall i g P, gen_at su i = Some g -> reads g = Some P -> exists a, garg_at su i = Some a /\ P a) /\
  (forall i, checks_at su i = want_checks p c i) /\
  (forall s, c_hex_check c = Some s -> carg_at su POINTS = Some (Hex s)).
Proof.
  intros H Hm. pose proof (cli_final _ _ _ _ _ H) as Hf.
  destruct (final_proc _ _ Hf Hm) as [p Hp]. pose proof (good_final _ _ _ Hf Hp) as Hg.
  pose proof (final_shape _ _ Hf) as Hs.
  exists p. destruct (cmlike p) eqn:Hc.
  - destruct (job_cm c p order_prime Hg Hc) as (v & ga & E & [u Hv] & Hga).
    eexists. split; [assumption|]. split; [right; exact E|].
    assert (Hin : In p [PCm; PAnomalous; PSupersingular]) by (destruct p; try discriminate; simpl; tauto).
    split; [|split; [reflexivity|split; [|split]]].
    + intros i Hi. unfold gen_at. cbn [s_gens]. unfold want, METADATA in *.
      do 9 (destruct i as [|i]; [eexists; reflexivity|]). lia.
    + intros i g P E1 E2. unfold garg_at, gen_at in *. cbn [s_gens s_gargs] in *. subst ga.
      eapply cm_args; try eassumption. apply (i_cm _ (f_inv _ _ Hf)).
    + intros i. unfold checks_at. cbn [s_checks]. subst v. apply cm_checks. assumption.
    + intros s Es. unfold carg_at. cbn [s_cargs]. unfold hex_args. rewrite Es. reflexivity.
  - destruct (job_exh c p order_prime Hg Hc) as (v & ga & E & Hv & Hga).
    eexists. split; [assumption|]. split; [left; exact E|].
    assert (Hin : In p [PPlain; PTwist; PAnsi; PBrainpool; PBrainpoolRfc; PNums; PFamily]) by (destruct p; try discriminate; simpl; tauto).
    split; [|split; [cbn [s_gens]; symmetry; apply want_prime; destruct p; discriminate|split; [|split]]].
    + intros i Hi. unfold gen_at. cbn [s_gens]. unfold want, METADATA in *.
      do 9 (destruct i as [|i]; [eexists; reflexivity|]). lia.
    + intros i g P E1 E2. unfold garg_at, gen_at in *. cbn [s_gens s_gargs] in *. subst ga.
      eapply exhaustive_args; try eassumption. apply (f_order _ _ Hf).
    + intros i. unfold checks_at. cbn [s_checks]. subst v. apply exhaustive_checks; assumption.
    + intros s Es. unfold carg_at. cbn [s_cargs]. unfold hex_args. rewrite Es. reflexivity.
Qed.
Example C26_plan_ex : exists c set,
  cli 4 [OFp; ORandom (Some (lit "field,a")); OCofactor (lit "4"); OUnique; OPoints (lit "3random"); OHexcheck (lit "beef")] [lit "64"] = Some (c, set) /\
  c_method c <> METHOD_INVALID /\
  (exists su, snd (main_job c false) = JExhaustive su 1 /\
    s_gens su = map Some [gen_skip; field_gen_random; a_gen_random; b_gen_input; curve_gen_any; order_gen_cofactor; gens_gen_one; points_gen_random; gen_skip] /\
    garg_at su ORDER = Some (Cofactor 4) /\ garg_at su POINTS = Some (Amount 3)).
Proof. eexists _, _. split; [vm_compute; reflexivity|]. split; [discriminate|]. eexists. split; [vm_compute; reflexivity|]. repeat split. Qed.

(** The invalid-curve method: the stages run for the original curve (FIELD to
    GENERATORS) and for the invalid ones (B to METADATA, invalid.c:121-319)
    have generators. *)
Theorem C26_invalid np os args c set order_prime :
  cli np os args = Some (c, set) -> c_method c = METHOD_INVALID ->
  exists s1 s2, snd (main_job c order_prime) = JInvalid s1 s2 (c_invalid_primes c) (c_threads c) /\
  (forall i, (i <= GENERATORS)%nat -> exists g, gen_at s1 i = Some g /\ reads g = None) /\
  (forall i, (i <= METADATA)%nat -> exists g, gen_at s2 i = Some g /\ reads g = None) /\
  gen_at s1 FIELD = Some (if rnd c 1 then field_gen_random else field_gen_input) /\
  gen_at s1 A = Some (if rnd c 2 then a_gen_random else a_gen_input) /\
  gen_at s1 B = Some (if rnd c 3 then b_gen_random else b_gen_input) /\
  gen_at s2 B = Some b_gen_random /\
  gen_at s2 GENERATORS = Some (if c_unique c then gens_gen_one else gens_gen_any) /\
  gen_at s2 POINTS = Some points_gen_trial /\
  (forall i, checks_at s1 i = (if (i =? CURVE)%nat then [curve_check_nonzero] else []) /\ checks_at s2 i = checks_at s1 i) /\
  (forall i, (i < 8)%nat -> exists f f', unroll_at s1 i = Some f /\ unroll_at s2 i = Some f').
Proof.
  intros H E. pose proof (cli_final _ _ _ _ _ H) as Hf. destruct (is_random_bit c (i_random _ (f_inv _ _ Hf))) as (_ & R1 & R2 & R3).
  unfold main_job, invalid_original_ginit, invalid_invalid_ginit. decide_method E E. push. rewrite R1, R2, R3.
  eexists _, _. split; [reflexivity|]. unfold gen_at, checks_at, unroll_at. cbn [s_gens s_checks s_unrolls].
  split; [|split; [|split; [|split; [|split; [|split; [|split; [|split; [|split]]]]]]]].
  - intros i Hi. unfold GENERATORS in Hi.
    destruct (rnd c 1), (rnd c 2), (rnd c 3); do 7 (destruct i as [|i]; [eexists; split; reflexivity|]); lia.
  - intros i Hi. unfold METADATA in Hi.
    destruct (c_unique c); do 9 (destruct i as [|i]; [eexists; split; reflexivity|]); lia.
  - reflexivity.
  - reflexivity.
  - reflexivity.
  - reflexivity.
  - destruct (c_unique c); reflexivity.
  - reflexivity.
  - intros i. do 9 (destruct i as [|i]; [split; reflexivity|]). destruct i; split; reflexivity.
  - intros i Hi. destruct (unrolls c i Hi) as [f Hfu]. eauto.
Qed.
Example C26_invalid_ex : exists c set, cli 4 [OFp; ORandom (Some (lit "field,a,b")); OInvalid (Some (lit "2-100"))] [lit "32"] = Some (c, set) /\ c_method c = METHOD_INVALID.
Proof. eexists _, _. split; [vm_compute; reflexivity|vm_compute; reflexivity]. Qed.

(** Undo hooks.  Full statement: every stage has one.  The stages up to POINTS
    have, and what they undo matches what the generators allocate; the
    METADATA stage has none ([C26_undo_refuted]; the engine tolerates it,
    exhaustive.c:413, and nothing follows that stage). *)
Theorem C26_undo_partial np os args c set order_prime su n :
  cli np os args = Some (c, set) ->
  snd (main_job c order_prime) = JExhaustive su n \/ snd (main_job c order_prime) = JCm su n ->
  (forall i, (i < METADATA)%nat -> exists f, unroll_at su i = Some f) /\
  unroll_at su CURVE = Some curve_unroll /\ unroll_at su GENERATORS = Some gens_unroll /\ unroll_at su POINTS = Some points_unroll /\
  (gen_at su SEED <> Some gen_skip -> unroll_at su SEED = Some seed_unroll).
Proof.
  intros H Hj. pose proof (cli_final _ _ _ _ _ H) as Hf.
  destruct (Z.eq_dec (c_method c) METHOD_INVALID) as [E|E].
  { exfalso. unfold main_job in Hj. revert Hj. decide_method E E.
    destruct (invalid_original_ginit c [N_method]) as [u g]. destruct (invalid_invalid_ginit c u). cbn [snd]. intros [Hj|Hj]; discriminate. }
  destruct (final_proc _ _ Hf E) as [p Hp]. pose proof (good_final _ _ _ Hf Hp) as Hg.
  assert (Hu : s_unrolls su = ex_unrolls p /\ nth SEED (s_gens su) None = Some (want_seed p c)).
  { destruct (cmlike p) eqn:Hc.
    - destruct (job_cm c p order_prime Hg Hc) as (v & ga & Ej & _ & _). rewrite Ej in Hj.
      destruct Hj as [Hj|Hj]; [discriminate|]. injection Hj as <- <-. cbn [s_unrolls s_gens]. split; [apply unrolls_eq; assumption|reflexivity].
    - destruct (job_exh c p order_prime Hg Hc) as (v & ga & Ej & _ & _). rewrite Ej in Hj.
      destruct Hj as [Hj|Hj]; [|discriminate]. injection Hj as <- <-. cbn [s_unrolls s_gens]. split; [apply unrolls_eq; assumption|reflexivity]. }
  destruct Hu as [Hu Hs]. unfold unroll_at, gen_at. rewrite Hu, Hs.
  split; [intros i Hi; unfold METADATA in Hi; unfold ex_unrolls; do 8 (destruct i as [|i]; [eexists; reflexivity|]); lia|].
  split; [reflexivity|]. split; [reflexivity|]. split; [reflexivity|].
  intros Hn. destruct p; try (exfalso; apply Hn; reflexivity); reflexivity.
Qed.
Theorem C26_undo_refuted : exists os args c set su,
  cli 4 os args = Some (c, set) /\ snd (main_job c false) = JExhaustive su 1 /\ gen_at su METADATA = Some metadata_gen /\ unroll_at su METADATA = None.
Proof.
  exists [OFp; ORandom None; OMetadata], [lit "16"]. eexists _, _, _.
  split; [vm_compute; reflexivity|]. split; [vm_compute; reflexivity|]. split; reflexivity.
Qed.

(** ** C27 *)

(** An option reported as ignored has no effect: with any other value of the
    same option the run is the same. *)
Theorem C27_reported np os args c set order_prime n c' :
  cli np os args = Some (c, set) ->
  In n (config_report_unused set (fst (main_job c order_prime))) -> same_but n c c' ->
  effect c' order_prime = effect c order_prime.
Proof. intros H. eapply reported_no_effect. eapply cli_final. eassumption. Qed.
Example C27_reported_ex : exists c set, cli 4 [OFp; OInvalid None; OHexcheck (lit "ff"); OCount (lit "3")] [lit "16"] = Some (c, set) /\
  config_report_unused set (fst (main_job c false)) = [N_count; N_hex_check].
Proof. eexists _, _. split; [vm_compute; reflexivity|vm_compute; reflexivity]. Qed.

(** An option that was set and is not reported matters, or is one of a short
    list that a procedure overrides.
    Full statement: without the second alternative; false, see
    [C27_override_refuted]. *)
Theorem C27_unreported_partial np os args c set order_prime n :
  cli np os args = Some (c, set) -> In n set ->
  ~ In n (config_report_unused set (fst (main_job c order_prime))) ->
  matters n c order_prime \/ overridden n c order_prime.
Proof. intros H. eapply unreported_matters. eapply cli_final. eassumption. Qed.
Example C27_unreported_ex : exists c set, cli 4 [OFp; ORandom None; OPrime; OUnique] [lit "16"] = Some (c, set) /\
  In N_prime set /\ config_report_unused set (fst (main_job c false)) = [].
Proof. eexists _, _. split; [vm_compute; reflexivity|]. split; [simpl; tauto|vm_compute; reflexivity]. Qed.

(** Silently ignored options: with a Brainpool or NUMS procedure the order and
    generator options; with a prime CM order the point selection; with the
    anomalous method what is to be random. In each case the whole command line
    is accepted, nothing is reported, and dropping the option does not change
    the run. *)
Definition silent (os : list copt) (n : name) : Prop :=
  exists c set order_prime, cli 4 os [lit "160"] = Some (c, set) /\ In n set /\
  ~ In n (config_report_unused set (fst (main_job c order_prime))) /\
  (match n with
   | N_prime => effect (set_prime false c) order_prime = effect c order_prime
   | N_smooth => effect (set_smooth false c) order_prime = effect c order_prime
   | N_cofactor => effect (set_cofactor false c) order_prime = effect c order_prime
   | N_unique => effect (set_unique false c) order_prime = effect c order_prime
   | N_points => forall t a, 0 <= t <= 4 -> effect (set_points_type t (set_points_amount a c)) order_prime = effect c order_prime
   | N_random => forall v, effect (set_random v c) order_prime = effect c order_prime
   | _ => False
   end).
Theorem C27_override_refuted :
  silent [OFp; OBrainpool None; OPrime] N_prime /\ silent [OFp; OBrainpool None; OSmooth (lit "20")] N_smooth /\
  silent [OFp; ONums; OCofactor (lit "4")] N_cofactor /\ silent [OFp; ONums; OUnique] N_unique /\
  silent [OFp; OOrder (lit "101"); OPoints (lit "all")] N_points /\ silent [OFp; OAnomalous; ORandom (Some (lit "b"))] N_random.
Proof.
  repeat split.
  - eexists _, _, false. split; [vm_compute; reflexivity|]. split; [simpl; tauto|]. split; [vm_compute; tauto|vm_compute; reflexivity].
  - eexists _, _, false. split; [vm_compute; reflexivity|]. split; [simpl; tauto|]. split; [vm_compute; tauto|vm_compute; reflexivity].
  - eexists _, _, false. split; [vm_compute; reflexivity|]. split; [simpl; tauto|]. split; [vm_compute; tauto|vm_compute; reflexivity].
  - eexists _, _, false. split; [vm_compute; reflexivity|]. split; [simpl; tauto|]. split; [vm_compute; tauto|vm_compute; reflexivity].
  - eexists _, _, true. split; [vm_compute; reflexivity|]. split; [simpl; tauto|]. split; [vm_compute; tauto|].
    intros t a Ht. assert (Hc : t = 0 \/ t = 1 \/ t = 2 \/ t = 3 \/ t = 4) by lia.
    destruct Hc as [->|[->|[->|[-> | ->]]]]; try (vm_compute; reflexivity); destruct a; vm_compute; reflexivity.
  - eexists _, _, false. split; [vm_compute; reflexivity|]. split; [simpl; tauto|]. split; [vm_compute; tauto|].
    intros v. vm_compute. reflexivity.
Qed.

(** Parts of an option's value can be ignored too: the number in
    --points=5prime, and "seed" of --random without a seeded method. *)
Theorem C27_value_refuted :
  (exists c set, cli 4 [OFp; ORandom None; OPoints (lit "5prime")] [lit "16"] = Some (c, set) /\
     config_report_unused set (fst (main_job c false)) = [] /\ forall a, effect (set_points_amount a c) false = effect c false) /\
  (exists c set, cli 4 [OFp; ORandom (Some (lit "seed"))] [lit "16"] = Some (c, set) /\
     config_report_unused set (fst (main_job c false)) = [] /\ effect (set_random 0 c) false = effect c false).
Proof.
  split.
  - eexists _, _. split; [vm_compute; reflexivity|]. split; [vm_compute; reflexivity|]. intros a. vm_compute. reflexivity.
  - eexists _, _. split; [vm_compute; reflexivity|]. split; vm_compute; reflexivity.
Qed.

Print Assumptions C26_plan.
Print Assumptions C26_invalid.
Print Assumptions C26_undo_partial.
Print Assumptions C26_undo_refuted.
Print Assumptions C27_reported.
Print Assumptions C27_unreported_partial.
Print Assumptions C27_override_refuted.
Print Assumptions C27_value_refuted.
