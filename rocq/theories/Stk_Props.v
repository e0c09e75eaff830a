(** C70: no number is read after the stack it lies on was taken back. *)
From Coq Require Import Ascii String.
From Verif Require Import Base Str_Model Cli_Model Plan_Model Plan_Spec Plan_Proofs Plan_Proofs3 Plan_Props Stk_Model Stk_Gens Stk_Check Stk_Sound Stk_Table Stk_Engine Stk_Run.
From Verif Require Engine_Model.
Local Open Scope Z_scope.

(** ** The stages of an accepted command line are in the table *)
Lemma want_in p op c s : (s < 8)%nat -> exists g, nth s (want p op c) None = Some g /\ In g (gens_at p s).
Proof.
  intros H. destruct s as [|[|[|[|[|[|[|[|s]]]]]]]]; [..|lia]; (eexists; split; [reflexivity|]).
  1-7: destruct p; cbn; unfold pick, orders, Plan_Spec.rnd in *;
    repeat match goal with |- context [if ?b then _ else _] => destruct b end; cbn; auto 8.
  assert (G : In (if c_points_type c =? POINTS_RANDOM then pick (c_points_amount c =? 0) point_gen_random points_gen_random
      else if c_points_type c =? POINTS_PRIME then points_gen_prime
      else if c_points_type c =? POINTS_NONPRIME then points_gen_nonprime
      else if c_points_type c =? POINTS_ALL then points_gen_allgroups
      else gen_skip) points).
    { unfold pick, points. destruct (_ =? _); [destruct (_ =? _); cbn; auto|]. destruct (_ =? _); [cbn; auto|]. destruct (_ =? _); [cbn; auto|]. destruct (_ =? _); cbn; auto 8. }
    destruct p; try exact G. destruct op; [cbn; auto|exact G].
Qed.
Lemma checks_in p c s : (s < 8)%nat -> In (want_checks p c s) (checks_lists p s).
Proof.
  intros H. destruct s as [|[|[|[|[|[|[|[|s]]]]]]]]; [..|lia]; cbn; auto. destruct (c_hex_check c); auto.
Qed.
Lemma plan_in p op c s : (s < 9)%nat -> exists g, nth s (want p op c) None = Some g /\
  In (s, g, want_checks p c s, at_stage p (c_metadata c) (S s)) (cases p).
Proof.
  intros H. destruct (Nat.eq_dec s 8) as [->|N].
  - eexists. split; [reflexivity|]. unfold cases. apply in_or_app. right. destruct (c_metadata c); cbn; auto.
  - destruct (want_in p op c s) as (g & E & I); [lia|]. exists g. split; [exact E|]. unfold cases. apply in_or_app. left.
    apply in_flat_map. exists s. split; [apply in_seq; lia|]. apply in_flat_map. exists g. split; [exact I|]. apply in_map_iff.
    exists (want_checks p c s). split; [|apply checks_in; lia]. unfold at_stage. replace (S s =? 9)%nat with false by (symmetry; apply Nat.eqb_neq; lia). reflexivity.
Qed.

(** ** The checker's verdict *)
Definition forgiven (p : procedure) : list lval :=
  match p with PTwist => [F_order] | PBrainpool | PBrainpoolRfc => [V "p"] | _ => [] end.
(** the two functions that free a static and then set it again *)
Definition iterated (g : gen_f) : bool := match g with nums_gen_b | family_gen_equation_iter => true | _ => false end.
Lemma all_cut p : forallb (fun c => iterated (snd (fst (fst c))) || case_ok (forgiven p) true p c) (cases p) = true.
Proof. destruct p; vm_compute; reflexivity. Qed.
Lemma all_uncut p : match p with PNums | PFamily => forallb (case_ok [] false p) (cases p) | _ => true end = true.
Proof. destruct p; vm_compute; reflexivity. Qed.
Lemma all_end p : curves_ok (forgiven p) p = true.
Proof. destruct p; vm_compute; reflexivity. Qed.
Lemma iterated_at p op c g : nth B (want p op c) None = Some g -> iterated g = true -> p = PNums \/ p = PFamily.
Proof.
  destruct p; cbn; unfold pick; intros [= <-] J; auto; exfalso; revert J; unfold pick, Plan_Spec.rnd;
    repeat match goal with |- context [if ?b then _ else _] => destruct b end; discriminate.
Qed.
Lemma iterated_only p s g cs goal : In (s, g, cs, goal) (cases p) -> iterated g = true -> s = B.
Proof.
  intros I G. assert (K : forallb (fun c => negb (iterated (snd (fst (fst c)))) || (fst (fst (fst c)) =? B)%nat) (cases p) = true) by (destruct p; vm_compute; reflexivity).
  rewrite forallb_forall in K. specialize (K _ I). cbn [fst snd] in K. rewrite G in K. cbn in K. now apply Nat.eqb_eq in K.
Qed.

Lemma start_ok p : sat (start (match p with PAnomalous => true | _ => false end)) (rest p).
Proof.
  split; [|intros m l []]. intros x v I. destruct p; cbn in I; repeat (destruct I as [[= <- <-]|I]; [vm_compute; auto|]); try contradiction.
Qed.
Lemma undo_eq p s : (0 < s < 9)%nat -> nth s (ex_unrolls p) None = hook s.
Proof. intros H. destruct s as [|[|[|[|[|[|[|[|[|s]]]]]]]]]; first [lia|reflexivity]. Qed.

(** ** C70 *)

(** what a command line that is accepted makes of the run: the procedure, the plan, and the
    start *)
Definition runs (c : config) (order_prime : bool) (p : procedure) (su : setup_t) : Prop :=
  procedure_of c = Some p /\
  (snd (main_job c order_prime) = JExhaustive su (c_count c) \/ snd (main_job c order_prime) = JCm su (c_count c)).
Definition from (p : procedure) : world := start (match p with PAnomalous => true | _ => false end).
(** no timeout comes while a static number is being replaced *)
Definition untimed (su : setup_t) (cut : nat -> bool) : Prop :=
  (exists g, gen_at su B = Some g /\ iterated g = true) -> forall t, cut t = false.

Lemma safe np os args c set op p su : cli np os args = Some (c, set) -> c_method c <> METHOD_INVALID -> runs c op p su ->
  forall dec cut bound fuel n, untimed su cut ->
    Forall (okf (forgiven p)) (faults (fst (curves dec cut bound su (c_metadata c) fuel n (from p)))) /\
    (snd (curves dec cut bound su (c_metadata c) fuel n (from p)) = Made ->
     Forall (okf (forgiven p)) (faults (exhaustive_generate dec cut bound su (c_metadata c) fuel n (from p)))).
Proof.
  intros H Hm (Hp & Hj) dec cut bound fuel n Hu.
  destruct (C26_plan np os args c set op H Hm) as (p' & su' & Hp' & Hj' & _ & Hg & _ & Hc & _).
  assert (p' = p) by congruence. subst p'. assert (su' = su). { destruct Hj as [Hj|Hj], Hj' as [Hj'|Hj']; congruence. } subst su'.
  assert (Hun : s_unrolls su = ex_unrolls p).
  { pose proof (cli_final _ _ _ _ _ H) as Hf. pose proof (good_final _ _ _ Hf Hp) as Hgd. destruct (cmlike p) eqn:Hcm.
    - destruct (job_cm c p op Hgd Hcm) as (v & ga & Ej & _ & _). rewrite Ej in Hj.
      destruct Hj as [Hj|Hj]; [discriminate|]. injection Hj as <-. cbn [s_unrolls]. apply unrolls_eq; assumption.
    - destruct (job_exh c p op Hgd Hcm) as (v & ga & Ej & _ & _). rewrite Ej in Hj.
      destruct Hj as [Hj|Hj]; [|discriminate]. injection Hj as <-. cbn [s_unrolls]. apply unrolls_eq; assumption. }
  assert (K : exists cuts, (cuts = false -> forall t, cut t = false) /\ forall s, (s < 9)%nat -> exists g, nth s (s_gens su) None = Some g /\
    stage_ok (forgiven p) cuts (table p) 0 false whatever (at_stage p (c_metadata c) (S s)) s g (checks_at su s) = true).
  { destruct (plan_in p op c B) as (gb & Eb & _); [unfold B; lia|]. destruct (iterated gb) eqn:Ib.
    - exists false. split; [intros _; apply Hu; exists gb; split; [unfold gen_at; now rewrite Hg|exact Ib]|]. intros s Hs. destruct (plan_in p op c s Hs) as (g & E & I).
      exists g. split; [now rewrite Hg|]. rewrite Hc. pose proof (all_uncut p) as U.
      destruct (iterated_at p op c gb Eb Ib) as [-> | ->]; rewrite forallb_forall in U; exact (U _ I).
    - exists true. split; [discriminate|]. intros s Hs. destruct (plan_in p op c s Hs) as (g & E & I). exists g. split; [now rewrite Hg|]. rewrite Hc.
      pose proof (all_cut p) as U. rewrite forallb_forall in U. specialize (U _ I). cbn [fst snd] in U. apply orb_true_iff in U as [U|U]; [|exact U].
      exfalso. pose proof (iterated_only _ _ _ _ _ I U). subst s. rewrite Eb in E. injection E as ->. congruence. }
  destruct K as (cuts & Hcut & Hst).
  assert (Hund : forall s, (0 < s < 9)%nat -> nth s (s_unrolls su) None = hook s) by (intros s Hs; rewrite Hun; now apply undo_eq).
  destruct (curves_sound (forgiven p) cuts p (c_metadata c) su dec cut bound Hcut Hst Hund (all_end p) fuel n (from p) (start_ok p)) as (G & S).
  assert (N : faults (from p) = []) by (destruct p; reflexivity).
  assert (A : forall w, grows (forgiven p) (from p) w -> Forall (okf (forgiven p)) (faults w)). { intros w (fs & E & F). rewrite N in E. cbn in E. now rewrite E. }
  split; [now apply A|]. intros M0. unfold exhaustive_generate. specialize (S M0).
  destruct (curves dec cut bound su (c_metadata c) fuel n (from p)) as (w, e). cbn [fst snd] in *. subst e. apply A.
  pose proof (all_end p) as En. unfold curves_ok in En. apply andb_true_iff in En as (En & _). apply andb_true_iff in En as (_ & En).
  destruct (leads_sound (forgiven p) dec bound _ _ _ w En S) as (_ & G2). exact (grows_trans _ _ _ _ G G2).
Qed.

(** For every command line that is accepted, other than those for the methods twist, Brainpool and
    invalid: whatever the values are, wherever the timeouts come, for any number of curves, no
    number is read after it was released or freed, no NULL pointer is followed, and the stack
    pointer is never raised.
    Full statement: the same for all methods, with timeouts also while b is iterated (NUMS and
    some of the families), and including what is done when the generation of a curve fails; false, see
    the refutations below. The method invalid is C74. *)
Theorem C70_stack_partial np os args c set op p su dec cut bound fuel n :
  cli np os args = Some (c, set) -> c_method c <> METHOD_INVALID -> runs c op p su ->
  p <> PTwist -> p <> PBrainpool -> p <> PBrainpoolRfc -> untimed su cut ->
  faults (fst (curves dec cut bound su (c_metadata c) fuel n (from p))) = [] /\
  (snd (curves dec cut bound su (c_metadata c) fuel n (from p)) = Made ->
   faults (exhaustive_generate dec cut bound su (c_metadata c) fuel n (from p)) = []).
Proof.
  intros H Hm R N1 N2 N3 U. pose proof (safe _ _ _ _ _ _ _ _ H Hm R dec cut bound fuel n U) as (A & B0).
  assert (E : forgiven p = []) by (destruct p; try contradiction; reflexivity). rewrite E in *.
  assert (K : forall l, Forall (okf []) l -> l = []). { intros [|[x|x|x] l] F; [reflexivity|..]; inversion F; subst; cbn in *; tauto. }
  split; [now apply K|]. intros M0. apply K. auto.
Qed.
(** The method twist: the one number that may be read stale is the order of the curve. *)
Theorem C70_twist_partial np os args c set op su dec cut bound fuel n :
  cli np os args = Some (c, set) -> c_method c <> METHOD_INVALID -> runs c op PTwist su ->
  Forall (fun f => f = Stale F_order) (faults (fst (curves dec cut bound su (c_metadata c) fuel n (from PTwist)))).
Proof.
  intros H Hm R. assert (U : untimed su cut).
  { intros (g & E & I). destruct R as (Hp & Hj). destruct (C26_plan np os args c set op H Hm) as (p' & su' & Hp' & Hj' & _ & Hg & _).
    assert (p' = PTwist) by congruence. subst p'. assert (su' = su). { destruct Hj as [Hj|Hj], Hj' as [Hj'|Hj']; congruence. } subst su'.
    unfold gen_at in E. rewrite Hg in E. destruct (iterated_at _ _ _ _ E I); discriminate. }
  pose proof (safe _ _ _ _ _ _ _ _ H Hm R dec cut bound fuel n U) as (A & _). eapply Forall_impl; [|exact A].
  intros [x|x|x]; cbn; try contradiction; intros ([<-|[]] & K); [reflexivity|discriminate K].
Qed.
(** Brainpool: the one number that may be read stale is the candidate p of brainpool_gen_field. *)
Theorem C70_brainpool_partial np os args c set op p su dec cut bound fuel n :
  cli np os args = Some (c, set) -> c_method c <> METHOD_INVALID -> runs c op p su -> p = PBrainpool \/ p = PBrainpoolRfc ->
  Forall (fun f => f = Stale (V "p")) (faults (fst (curves dec cut bound su (c_metadata c) fuel n (from p)))).
Proof.
  intros H Hm R Pp. assert (U : untimed su cut).
  { intros (g & E & I). destruct R as (Hp & Hj). destruct (C26_plan np os args c set op H Hm) as (p' & su' & Hp' & Hj' & _ & Hg & _).
    assert (p' = p) by congruence. subst p'. assert (su' = su). { destruct Hj as [Hj|Hj], Hj' as [Hj'|Hj']; congruence. } subst su'.
    unfold gen_at in E. rewrite Hg in E. destruct (iterated_at _ _ _ _ E I), Pp; congruence. }
  pose proof (safe _ _ _ _ _ _ _ _ H Hm R dec cut bound fuel n U) as (A & _). eapply Forall_impl; [|exact A].
  assert (Ef : forgiven p = [V "p"]) by (destruct Pp as [-> | ->]; reflexivity). rewrite Ef.
  intros [x|x|x]; cbn; try contradiction; intros ([<-|[]] & K); [reflexivity|discriminate K].
Qed.

(** ** What fails *)
Definition listed (l : list nat) (t : nat) : bool := existsb (Nat.eqb t) l.
Definition never_cut (_ : nat) : bool := false.
Local Open Scope nat_scope.

(** The method twist with --unique: after the generators of one candidate were refused, the order of
    the next one's twist is computed from the order of the candidate before (src/math/twists.c:16-28), which
    the engine has released. *)
Theorem C70_twist_refuted : exists os args c set su dec,
  cli 4 os args = Some (c, set) /\ runs c false PTwist su /\
  snd (curves dec never_cut 2 su false 16 1 (from PTwist)) = Made /\
  faults (fst (curves dec never_cut 2 su false 16 1 (from PTwist))) = [Stale F_order].
Proof.
  exists [OFp; ORandom None; OTwist; OUnique], [lit "16"]. eexists _, _, _, (listed [16; 74; 79]).
  split; [vm_compute; reflexivity|]. split; [split; [|left]; vm_compute; reflexivity|]. split; vm_compute; reflexivity.
Qed.
(** Brainpool: src/exhaustive/brainpool.c:117 takes back the p that line 119 adds one to. *)
Theorem C70_brainpool_refuted : exists os args c set su dec,
  cli 4 os args = Some (c, set) /\ runs c false PBrainpool su /\
  faults (fst (curves dec never_cut 2 su false 3 1 (from PBrainpool))) = [Stale (V "p")].
Proof.
  exists [OFp; OBrainpool None; ORandom None], [lit "16"]. eexists _, _, _, (listed [23; 46; 65]).
  split; [vm_compute; reflexivity|]. split; [split; [|left]; vm_compute; reflexivity|]. vm_compute; reflexivity.
Qed.
(** When the generation of a curve fails after an earlier candidate was given up,
    src/exhaustive/exhaustive.c:473 looks at the numbers of the candidate given up. *)
Theorem C70_failure_refuted : exists os args c set su dec,
  cli 4 os args = Some (c, set) /\ runs c false PPlain su /\
  snd (curves dec never_cut 2 su false 8 1 (from PPlain)) = Failed /\
  faults (fst (curves dec never_cut 2 su false 8 1 (from PPlain))) = [] /\
  faults (exhaustive_generate dec never_cut 2 su false 8 1 (from PPlain)) = [Stale F_field; Stale F_a; Stale F_b].
Proof.
  exists [OFp], [lit "16"]. eexists _, _, _, (listed [38; 42; 93; 102; 108; 112; 135; 138; 139; 146]).
  split; [vm_compute; reflexivity|]. split; [split; [|left]; vm_compute; reflexivity|]. split; [vm_compute; reflexivity|]. split; vm_compute; reflexivity.
Qed.
(** NUMS: a timeout between gunclone( b ) and the gclone after it (src/exhaustive/nums.c:48-49) leaves
    the static b pointing at a freed clone, which the next call reads. *)
Theorem C70_timeout_refuted : exists os args c set su dec t,
  cli 4 os args = Some (c, set) /\ runs c false PNums su /\
  faults (fst (curves dec (listed [t]) 2 su false 11 1 (from PNums))) = [Stale G_nums_b].
Proof.
  exists [OFp; ONums], [lit "16"]. eexists _, _, _, (listed [48]), 56.
  split; [vm_compute; reflexivity|]. split; [split; [|left]; vm_compute; reflexivity|]. vm_compute; reflexivity.
Qed.
(** order_gen_sea (src/gen/order.c:36-47), which no plan installs, caches in the curve the number of points it
    has just taken off the stack: whoever asks for it next reads it. *)
Theorem C70_sea_refuted : exists dec w w1 w2 r,
  forallb (live w) (refs w F_curve) = true /\ refs w F_curve <> [] /\
  exec dec never_cut 2 P_order_gen_sea w = (w1, Returns 1%Z) /\ faults w1 = [] /\
  exec dec never_cut 2 P_order_gen_any w1 = (w2, r) /\ In (Stale F_card) (faults w2).
Proof.
  exists (listed []), (run_op (New F_curve []) nothing). eexists _, _, _.
  split; [vm_compute; reflexivity|]. split; [vm_compute; discriminate|]. split; [vm_compute; reflexivity|].
  split; [reflexivity|]. split; [vm_compute; reflexivity|]. vm_compute. auto.
Qed.

(** ** Runs that do something *)
(** Two curves are made, the first after a timeout. *)
Example C70_stack_ex : exists os args c set su,
  cli 4 os args = Some (c, set) /\ c_method c <> METHOD_INVALID /\ runs c false PPlain su /\ untimed su (listed [25]) /\
  let dec := listed [16; 23; 27; 70; 149] in
  snd (curves dec (listed [25]) 3 su (c_metadata c) 40 2 (from PPlain)) = Made /\
  snd (curves dec (listed [25]) 3 su (c_metadata c) 9 2 (from PPlain)) = Unfinished /\
  faults (exhaustive_generate dec (listed [25]) 3 su (c_metadata c) 40 2 (from PPlain)) = [].
Proof.
  exists [OFp; ORandom None; OUnique; OMetadata], [lit "16"]. eexists _, _, _.
  split; [vm_compute; reflexivity|]. split; [vm_compute; discriminate|]. split; [split; [|left]; vm_compute; reflexivity|].
  split; [intros (g & E & J); vm_compute in E; injection E as <-; discriminate J|].
  split; [vm_compute; reflexivity|]. split; vm_compute; reflexivity.
Qed.
(** The hypotheses of the theorems on the methods twist and Brainpool are met by the runs of
    C70_twist_refuted and C70_brainpool_refuted. *)
Example C70_twist_ex : exists os args c set su,
  cli 4 os args = Some (c, set) /\ c_method c <> METHOD_INVALID /\ runs c false PTwist su.
Proof. exists [OFp; ORandom None; OTwist; OUnique], [lit "16"]. eexists _, _, _. split; [vm_compute; reflexivity|]. split; [vm_compute; discriminate|]. split; [|left]; vm_compute; reflexivity. Qed.
Example C70_brainpool_ex : exists os args c set su,
  cli 4 os args = Some (c, set) /\ c_method c <> METHOD_INVALID /\ runs c false PBrainpool su.
Proof. exists [OFp; OBrainpool None; ORandom None], [lit "16"]. eexists _, _, _. split; [vm_compute; reflexivity|]. split; [vm_compute; discriminate|]. split; [|left]; vm_compute; reflexivity. Qed.

Print Assumptions C70_stack_partial.
Print Assumptions C70_twist_partial.
Print Assumptions C70_brainpool_partial.
Print Assumptions C70_twist_refuted.
Print Assumptions C70_brainpool_refuted.
Print Assumptions C70_failure_refuted.
Print Assumptions C70_timeout_refuted.
Print Assumptions C70_sea_refuted.
