(** C74: the PARI stack in the invalid-curve method. *)
From Coq Require Import Ascii String.
From Verif Require Import Base Str_Model Cli_Model Cli_Proofs Plan_Model Plan_Spec Plan_Proofs Plan_Proofs2 Plan_Proofs3 Plan_Props Stk_Model Stk_Gens Stk_Check Stk_Sound Stk_Table Stk_Engine Stk_Run Stk_Props Stk_Invalid Stk_InvalidRun.
From Verif Require Engine_Model.
Local Open Scope Z_scope.

(** what a command line for the method invalid makes of the run: the plans for the curve to
    invalidate and for the others, and the number of threads *)
Definition invalidates (c : config) (op : bool) (po pi : setup_t) (threads : Z) : Prop :=
  snd (main_job c op) = JInvalid po pi (c_invalid_primes c) threads.

Lemma inv_plan np os args c set op po pi th :
  cli np os args = Some (c, set) -> c_method c = METHOD_INVALID -> invalidates c op po pi th ->
  (forall s, (1 <= s < 7)%nat -> exists g, nth s (s_gens po) None = Some g /\ In g (orig_gens s)) /\
  (forall s, (3 <= s < 9)%nat -> exists g, nth s (s_gens pi) None = Some g /\ In g (inv_gens s)) /\
  (forall s, checks_at po s = inv_checks s) /\ (forall s, checks_at pi s = inv_checks s) /\
  (forall s, (0 < s < 9)%nat -> nth s (s_unrolls po) None = hook s) /\ (forall s, (0 < s < 9)%nat -> nth s (s_unrolls pi) None = hook s).
Proof.
  intros H E J. pose proof (cli_final _ _ _ _ _ H) as Hf. destruct (is_random_bit c (i_random _ (f_inv _ _ Hf))) as (_ & R1 & R2 & R3).
  revert J. unfold invalidates, main_job, invalid_original_ginit, invalid_invalid_ginit. decide_method E E. push. rewrite R1, R2, R3.
  intros [= <- <- _]. cbn [s_gens s_unrolls].
  assert (U : forall s, (0 < s < 9)%nat -> nth s (exhaustive_uinit c) None = hook s).
  { intros s Hs. unfold exhaustive_uinit. rewrite if_put. destruct s as [|[|[|[|[|[|[|[|[|s]]]]]]]]]; first [reflexivity|exfalso; clear - Hs; lia]. }
  assert (V : forall g, (forall s, checks_at (mkSetup g nine invalid_checks nine (exhaustive_uinit c)) s = inv_checks s)).
  { intros g s. unfold checks_at, s_checks. do 9 (destruct s as [|s]; [reflexivity|]). destruct s; reflexivity. }
  split; [|split; [|split; [|split; [|split]]]]; try (apply V); try exact U.
  - intros s Hs. destruct s as [|[|[|[|[|[|[|s]]]]]]]; try (exfalso; clear - Hs; lia); (eexists; split; [reflexivity|]);
      repeat match goal with |- context [if ?b then _ else _] => destruct b end; cbn; auto.
  - intros s Hs. destruct s as [|[|[|[|[|[|[|[|[|s]]]]]]]]]; try (exfalso; clear - Hs; lia); (eexists; split; [reflexivity|]);
      repeat match goal with |- context [if ?b then _ else _] => destruct b end; cbn; auto.
Qed.

Lemma none l : Forall (okf []) l -> l = [].
Proof. intros F. destruct l as [|[x|x|x] l]; [reflexivity|..]; inversion F; subst; cbn in *; tauto. Qed.

(** ** C74 *)

(** One thread: for every accepted command line for the method, whatever the values are, wherever the
    timeouts come, for any number of primes and rounds, no number is read after it was released or
    freed, no NULL pointer is followed, and the stack pointer is never raised, except after the curve
    to invalidate could not be made.
    Full statement: without the exception; false, see C74_failure_refuted. *)
Theorem C74_single_partial np os args c set op po pi th dec cut bound fuel k n :
  cli np os args = Some (c, set) -> c_method c = METHOD_INVALID -> invalidates c op po pi th ->
  snd (invalid_single dec cut bound po pi (c_metadata c) fuel k n) <> Failed ->
  faults (fst (invalid_single dec cut bound po pi (c_metadata c) fuel k n)) = [].
Proof.
  intros H E J. destruct (inv_plan _ _ _ _ _ _ _ _ _ H E J) as (G1 & G2 & V1 & V2 & U1 & U2).
  unfold invalid_single. pose proof (prepared_sound dec cut bound po G1 V1 U1 (c_metadata c) fuel k) as P.
  destruct (prepared dec cut bound po (c_metadata c) fuel k) as (w, e). destruct P as (F & S). destruct e; cbn [snd fst]; try congruence.
  specialize (S eq_refl). destruct (dec (time w)); [intros _; exact F|].
  destruct (leads_sound [] dec bound _ _ _ _ lead_search (sat_tick _ _ S)) as (S1 & A1).
  pose proof (rounds_sound dec cut bound true pi ltac:(discriminate) G2 V2 U2 (c_metadata c) fuel k n _ S1) as R.
  destruct (rounds _ _ _ _ _ _ _ _ _) as (w2, e). destruct R as (A2 & N & S2).
  assert (Q : forall w', grows [] w w' -> faults w' = []). { intros w' (fs & Ef & Ff). rewrite Ef, F. cbn. now apply none. }
  assert (A : grows [] w w2) by exact (grows_trans _ _ _ _ A1 A2).
  destruct e; cbn [snd fst]; intros _; try (now apply Q).
  destruct (leads_sound [] dec bound _ _ _ _ lead_end (S2 eq_refl)) as (_ & A3). apply Q. exact (grows_trans _ _ _ _ A A3).
Qed.
(** Several threads, the stack of the main thread. *)
Theorem C74_main_partial np os args c set op po pi th dec cut bound fuel k :
  cli np os args = Some (c, set) -> c_method c = METHOD_INVALID -> invalidates c op po pi th ->
  snd (invalid_main dec cut bound po (c_metadata c) fuel k) <> Failed ->
  faults (fst (invalid_main dec cut bound po (c_metadata c) fuel k)) = [].
Proof.
  intros H E J. destruct (inv_plan _ _ _ _ _ _ _ _ _ H E J) as (G1 & _ & V1 & _ & U1 & _).
  unfold invalid_main. pose proof (prepared_sound dec cut bound po G1 V1 U1 (c_metadata c) fuel k) as P.
  destruct (prepared dec cut bound po (c_metadata c) fuel k) as (w, e). destruct P as (F & S). destruct e; cbn [snd fst]; try congruence.
  specialize (S eq_refl). destruct (dec (time w)); [intros _; exact F|]. intros _. cbn [fst].
  destruct (leads_sound [] dec bound _ _ _ _ lead_main (sat_tick _ _ S)) as (S1 & A1).
  destruct (several_sound dec bound _ _ k lead_collect _ S1) as (S2 & A2). destruct (leads_sound [] dec bound _ _ _ _ lead_main_end S2) as (_ & A3).
  destruct (grows_trans _ _ _ _ A1 (grows_trans _ _ _ _ A2 A3)) as (fs & Ef & Ff). fold collect. rewrite Ef. cbn [tick faults]. rewrite F. cbn. now apply none.
Qed.
(** Several threads, the stack of a thread, with the main thread looking at the curves it has published
    at any time and freeing them in the end. While it searches only one thing can go wrong: after a
    timeout a NULL pointer is followed in the array of generators. In the end it looks at the numbers
    b and order of the last candidate, which may be gone.
    Full statement: nothing goes wrong; false, see C74_thread_refuted and C74_timeout_refuted. *)
Theorem C74_thread_partial np os args c set op po pi th dec cut bound fuel k n :
  cli np os args = Some (c, set) -> c_method c = METHOD_INVALID -> invalidates c op po pi th ->
  Forall (fun f => f = Null F_full) (faults (fst (thread_search dec cut bound pi fuel k n))) /\
  ((forall t, cut t = false) -> faults (fst (thread_search dec cut bound pi fuel k n)) = []) /\
  exists fs, faults (fst (invalid_thread dec cut bound pi fuel k n)) = faults (fst (thread_search dec cut bound pi fuel k n)) ++ fs /\
    Forall (fun f => f = Stale F_b \/ f = Stale F_order) fs.
Proof.
  intros H E J. destruct (inv_plan _ _ _ _ _ _ _ _ _ H E J) as (_ & G2 & _ & V2 & _ & U2).
  pose proof (thread_search_sound dec cut bound true pi ltac:(discriminate) G2 V2 U2 fuel k n) as T.
  split; [|split].
  - destruct (thread_search dec cut bound pi fuel k n) as (w, e). destruct T as (F & _). cbn [fst]. eapply Forall_impl; [|exact F].
    intros [x|x|x]; cbn; try tauto; intros ([<-|[]] & B); [now contradiction B|reflexivity].
  - intros Nc. pose proof (thread_search_sound dec cut bound false pi (fun _ => Nc) G2 V2 U2 fuel k n) as T0.
    destruct (thread_search dec cut bound pi fuel k n) as (w, e). destruct T0 as (F & _). now apply none.
  - unfold invalid_thread. destruct (thread_search dec cut bound pi fuel k n) as (w, e). destruct T as (_ & N & S). cbn [fst].
    destruct e; [|congruence|exists []; split; [now rewrite app_nil_r|constructor]].
    destruct (leads_sound [F_b; F_order] dec bound _ _ _ _ lead_thread_end (S eq_refl)) as (_ & fs & Ef & Ff). exists fs. split; [exact Ef|].
    eapply Forall_impl; [|exact Ff]. intros [x|x|x]; cbn; try tauto; [intros ([<-|[<-|[]]] & _); auto|intros ([<-|[<-|[]]] & B); discriminate B].
Qed.

(** ** What fails *)
(** A thread whose last candidate was given up while other threads made the missing curves:
    src/invalid/invalid_thread.c:88 takes the stack back, and line 90 looks at the b and the order of
    that candidate (src/obj/curve.c:55-60). *)
Theorem C74_thread_refuted : exists os args c set po pi th dec,
  cli 4 os args = Some (c, set) /\ c_method c = METHOD_INVALID /\ invalidates c false po pi th /\ 1 < th /\
  snd (invalid_thread dec never_cut 2 pi 8 3 2) = Made /\
  faults (fst (invalid_thread dec never_cut 2 pi 8 3 2)) = [Stale F_b; Stale F_order].
Proof.
  exists [OFp; ORandom (Some (lit "field,a,b")); OInvalid (Some (lit "2-100")); OThreads (lit "4")], [lit "16"]. eexists _, _, _, _, _, (listed [51]%nat).
  split; [vm_compute; reflexivity|]. split; [reflexivity|]. split; [vm_compute; reflexivity|]. split; [reflexivity|]. split; vm_compute; reflexivity.
Qed.
(** A timeout between the allocation of the array of generators and its last entry (src/gen/gens.c:23-28): the engine
    returns 0, having undone nothing, and src/invalid/invalid_thread.c:85 follows the NULL pointers in
    the array (src/gen/point.c:177). With one thread the array is left alone. *)
Theorem C74_timeout_refuted : exists os args c set po pi th dec t,
  cli 4 os args = Some (c, set) /\ c_method c = METHOD_INVALID /\ invalidates c false po pi th /\ 1 < th /\
  faults (fst (thread_search dec (listed [t]) 2 pi 8 3 1)) = [Null F_full].
Proof.
  exists [OFp; ORandom (Some (lit "field,a,b")); OInvalid (Some (lit "2-100")); OThreads (lit "4"); OTimeout (lit "10s")], [lit "16"].
  eexists _, _, _, _, _, (listed [46]%nat), 58%nat.
  split; [vm_compute; reflexivity|]. split; [reflexivity|]. split; [vm_compute; reflexivity|]. split; [reflexivity|]. vm_compute; reflexivity.
Qed.
(** When the curve to invalidate cannot be made after a candidate was given up, src/invalid/invalid.c:325 looks
    at the numbers of that candidate, as in C70_failure_refuted. *)
Theorem C74_failure_refuted : exists os args c set po pi th dec,
  cli 4 os args = Some (c, set) /\ c_method c = METHOD_INVALID /\ invalidates c false po pi th /\
  snd (invalid_single dec never_cut 2 po pi false 8 3 3) = Failed /\
  faults (fst (invalid_single dec never_cut 2 po pi false 8 3 3)) = [Stale F_field; Stale F_a; Stale F_b].
Proof.
  exists [OFp; OInvalid (Some (lit "2-100"))], [lit "16"]. eexists _, _, _, _, _, (listed [38; 42; 93; 102; 108; 112; 135; 138; 139; 146]%nat).
  split; [vm_compute; reflexivity|]. split; [reflexivity|]. split; [vm_compute; reflexivity|]. split; vm_compute; reflexivity.
Qed.

(** ** Runs that do something *)
(** One thread: the generators of the first candidate are cut short by a timeout, the second curve is
    kept; without a timeout the first is kept and copied. *)
Example C74_single_ex : exists os args c set po pi th,
  cli 4 os args = Some (c, set) /\ c_method c = METHOD_INVALID /\ invalidates c false po pi th /\ th = 1 /\
  snd (invalid_single (listed [16; 116; 157; 201]%nat) (listed [128]%nat) 2 po pi false 8 3 3) = Made /\
  snd (invalid_single (listed [16; 116; 140; 179]%nat) never_cut 2 po pi false 8 3 3) = Made.
Proof.
  exists [OFp; ORandom (Some (lit "field,a,b")); OInvalid (Some (lit "2-100"))], [lit "16"]. eexists _, _, _, _, _.
  split; [vm_compute; reflexivity|]. split; [reflexivity|]. split; [vm_compute; reflexivity|]. split; [reflexivity|]. split; vm_compute; reflexivity.
Qed.
(** A thread that publishes a curve and ends; and the main thread. *)
Example C74_thread_ex : exists os args c set po pi th,
  cli 4 os args = Some (c, set) /\ c_method c = METHOD_INVALID /\ invalidates c false po pi th /\ 1 < th /\
  snd (thread_search (listed [46; 60; 67; 91]%nat) never_cut 2 pi 8 3 2) = Made /\
  List.length (refs (fst (thread_search (listed [46; 60; 67; 91]%nat) never_cut 2 pi 8 3 2)) G_saved) = 6%nat /\
  faults (fst (invalid_thread (listed [46; 60; 67; 91]%nat) never_cut 2 pi 8 3 2)) = [] /\
  snd (invalid_main (listed [16]%nat) never_cut 2 po false 8 3) = Made.
Proof.
  exists [OFp; ORandom (Some (lit "field,a,b")); OInvalid (Some (lit "2-100")); OThreads (lit "4")], [lit "16"]. eexists _, _, _, _, _.
  split; [vm_compute; reflexivity|]. split; [reflexivity|]. split; [vm_compute; reflexivity|]. split; [reflexivity|].
  split; [vm_compute; reflexivity|]. split; [vm_compute; reflexivity|]. split; vm_compute; reflexivity.
Qed.

Print Assumptions C74_single_partial.
Print Assumptions C74_main_partial.
Print Assumptions C74_thread_partial.
Print Assumptions C74_thread_refuted.
Print Assumptions C74_timeout_refuted.
Print Assumptions C74_failure_refuted.
