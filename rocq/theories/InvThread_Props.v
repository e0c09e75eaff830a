(** C39 and C40: the invalid curve search with several threads. *)
From Coq Require Import String Znumtheory Sorting.Permutation.
From Verif Require Import Base Invalid_Model InvSingle_Props InvThread_Model InvThread_Proofs InvThread_Steps InvThread_Live.
Local Open Scope nat_scope.

(** ** Specification *)
(** a state some schedule leads to *)
Definition reachable (primes : list Z) (threads : nat) (g : glob) : Prop :=
  exists es, exec primes threads es start = Some g.

(** the thread is about to read or write data that other threads use *)
Definition touches (p : pc) : Prop :=
  match p with PGet | PClaim _ _ _ _ | PFin _ _ _ _ | PFinAdd _ => True | _ => False end.
Definition main_touches (m : mpc) : Prop :=
  match m with MScan _ | MCheck => True | _ => False end.

(** the prime is among those the thread has taken and not finished yet *)
Definition works_on (p : pc) (q : Z) : Prop :=
  match p with
  | PClaim _ _ _ acc | PClaimUnlock _ acc | PPoints _ acc | PFinLock _ acc => In q acc
  | PFin _ acc _ count => In q (skipn count acc)
  | _ => False
  end.

(** the curves that have been printed *)
Fixpoint printed_curves (o : list out) : list nat :=
  match o with
  | [] => []
  | OCurve i :: t => i :: printed_curves t
  | _ :: t => printed_curves t
  end.

(** a list of primes as invalid_primes makes it (C37) *)
Definition prime_list (primes : list Z) : Prop :=
  primes <> [] /\ NoDup primes /\ forall p, In p primes -> (0 < p < 2 ^ 63)%Z.

Section Proofs.
  Context (primes : list Z) (threads : nat).
  Let n := length primes.
  Context (HP : prime_list primes).
  Local Notation reachable := (reachable primes threads).
  Local Notation pr := (pr primes).

  Lemma n_pos : 0 < n.
  Proof. destruct HP as [H _]. unfold n. destruct primes; [congruence|simpl; lia]. Qed.
  Lemma reach g : reachable g -> Inv primes threads g.
  Proof.
    intros [es E]. destruct HP as (_ & A & B). apply (reach_inv primes threads n_pos A B es). exact E.
  Qed.

  Lemma touches_crit p : touches p -> crit p = true.
  Proof. destruct p; cbn; tauto. Qed.
  Lemma works_held p q : works_on p q <-> In q (held p).
  Proof. destruct p; cbn; tauto. Qed.

  (** shared data are only touched by the one that holds the mutex: there is no data race *)
  Theorem C39_exclusion g : reachable g ->
    (forall t t', touches (g_pc g t) -> touches (g_pc g t') -> t = t') /\
    (forall t, touches (g_pc g t) -> main_touches (g_main g) -> False).
  Proof.
    intros R. apply reach in R. split.
    - intros t t' A B. apply touches_crit in A, B. apply (crit_unique primes threads g t t' R A B).
    - intros t A B. apply touches_crit in A. destruct (crit_holds primes threads g t R A) as [_ M].
      destruct (g_main g); cbn in B, M; try contradiction; discriminate.
  Qed.

  (** no write beyond the array of the thread's primes, no NULL curve is printed *)
  Theorem C39_safe g : reachable g -> (forall t, g_pc g t <> PCrash) /\ g_main g <> MCrash.
  Proof.
    intros R. apply reach in R. split.
    - intros t E. pose proof (i_good _ _ _ R t) as G. rewrite E in G. exact G.
    - intros E. pose proof (i_main _ _ _ R) as M. unfold main_ok in M. rewrite E in M. exact M.
  Qed.

  (** no prime is taken by two threads, and a prime is marked as being worked on exactly when some
      thread works on it: none is stuck *)
  Theorem C39_claims g : reachable g ->
    (forall t t' q, works_on (g_pc g t) q -> works_on (g_pc g t') q -> t = t') /\
    (forall i, i < n -> (g_states g i = GENERATING <-> exists t, t < threads /\ works_on (g_pc g t) (nth i primes 0%Z))).
  Proof.
    intros R. apply reach in R. split.
    - intros t t' q A B. apply works_held in A, B. apply (i_excl _ _ _ R t t' q A B).
    - intros i Hi. rewrite (i_held _ _ _ R i Hi). split; intros [t Ht]; exists t.
      + split; [|apply works_held; exact Ht].
        destruct (Nat.lt_ge_cases t threads) as [|L]; [assumption|]. rewrite (i_beyond _ _ _ R t L) in Ht. destruct Ht.
      + apply works_held. apply Ht.
  Qed.

  Lemma count_filter f k : sumf (fun i => isgen (f i)) k = length (filter (fun i => st_eqb (f i) GENERATED) (seq 0 k)).
  Proof.
    induction k as [|k IH]; [reflexivity|]. rewrite seq_S, filter_app, app_length, <- IH. simpl. destruct (f k); reflexivity.
  Qed.

  (** whenever the mutex is free, or the main thread holds it, the counter is the number of
      finished primes; it never exceeds the number of primes *)
  Theorem C39_counter g : reachable g ->
    g_generated g <= n /\
    ((forall t, g_mutex g <> Some (OThread t)) ->
     g_generated g = length (filter (fun i => st_eqb (g_states g i) GENERATED) (seq 0 n))).
  Proof.
    intros R. apply reach in R. split; [apply (gen_le_n primes threads n_pos g R)|].
    intros M. rewrite <- count_filter. fold n. pose proof (i_count _ _ _ R) as C. fold n in C.
    rewrite sumf_zero in C; [lia|]. intros t _.
    assert (X : crit (g_pc g t) = false).
    { apply not_true_is_false. intros X. apply (i_crit _ _ _ R) in X. apply (M t X). }
    destruct (g_pc g t); try discriminate; reflexivity.
  Qed.

  (** every finished prime has a curve whose order it divides *)
  Theorem C39_curves g i : reachable g -> i < n -> g_states g i = GENERATED ->
    exists o, g_curves g i = Some o /\ (nth i primes 0%Z | o)%Z.
  Proof. intros R. apply reach in R. apply (i_curve _ _ _ R). Qed.

  Lemma printed_sepd L1 L2 : printed_curves (sepd L1 ++ map OCurve L2) = L1 ++ L2.
  Proof.
    unfold sepd. induction L1 as [|x L1 IH]; simpl; [|congruence].
    induction L2 as [|x L2 IH]; simpl; congruence.
  Qed.

  (** nothing is printed twice, and only finished curves are printed *)
  Theorem C39_printed g : reachable g ->
    NoDup (printed_curves (g_out g)) /\
    forall i, In i (printed_curves (g_out g)) -> i < n /\ g_states g i = GENERATED.
  Proof.
    intros R. apply reach in R. destruct (i_out _ _ _ R) as (L1 & L2 & O1 & O2 & O3 & _).
    rewrite O1, printed_sepd. split; [exact O2|]. intros i I. apply O3 in I. destruct I as [A B].
    split; [exact A|]. destruct (i_old _ _ _ R i) as [X|[_ X]]; [congruence|exact X].
  Qed.

  Definition finished (m : mpc) : Prop := m = MUnlock \/ m = MJoin \/ m = MDone.

  Lemma finished_all g : Inv primes threads g -> finished (g_main g) ->
    forall i, i < n -> g_states g i = GENERATED /\ g_old g i = GENERATED.
  Proof.
    intros R F i Hi. pose proof (i_main _ _ _ R) as M. unfold main_ok in M.
    assert (X : printed primes g /\ g_generated g = n) by (destruct F as [E|[E|E]]; rewrite E in M; exact M).
    destruct X as [X Y]. pose proof (gen_full primes threads n_pos g R Y i Hi) as S. split; [exact S|]. apply X; assumption.
  Qed.

  (** when the main thread stops, every prime has a curve, and every curve has been printed exactly
      once *)
  Theorem C39_done g : reachable g -> finished (g_main g) ->
    Permutation (printed_curves (g_out g)) (seq 0 n) /\
    forall i, i < n -> exists o, g_curves g i = Some o /\ (nth i primes 0%Z | o)%Z.
  Proof.
    intros R F. pose proof (reach g R) as H. split.
    - destruct (C39_printed g R) as [N P]. apply NoDup_Permutation; [exact N|apply seq_NoDup|].
      intros i. rewrite in_seq. split; [intros I; apply P in I; lia|]. intros [_ Hi].
      destruct (i_out _ _ _ H) as (L1 & L2 & O1 & O2 & O3 & _). rewrite O1, printed_sepd. apply O3. split; [exact Hi|].
      apply (finished_all g H F i Hi).
    - intros i Hi. apply C39_curves; [assumption|assumption|]. apply (finished_all g H F i Hi).
  Qed.

  (** ** Wake-ups *)
  Definition only (t : nat) (e : event) : Prop := exists o ok, e = EThread t o ok.

  Lemma exec_app es1 es2 g : exec primes threads (es1 ++ es2) g
    = match exec primes threads es1 g with Some g1 => exec primes threads es2 g1 | None => None end.
  Proof. revert g. induction es1 as [|e es IH]; intros g; cbn; [reflexivity|]. destruct (estep primes threads e g); [apply IH|reflexivity]. Qed.

  Lemma one_step t g g1 : t < threads -> tstep primes t 0%Z true g = Some g1 -> exec primes threads [EThread t 0%Z true] g = Some g1.
  Proof. intros Ht E. cbn [exec estep]. replace (t <? threads) with true by lia. rewrite E. reflexivity. Qed.

  (** a thread in its finishing section gets to the signal on its own *)
  Lemma reach_signal t : t < threads -> forall k g, g_main g = MWait ->
    (k = match g_pc g t with PFin _ _ i _ => 2 + i | PFinAdd _ => 1 | PSignal => 0 | _ => 0 end) -> fin (g_pc g t) = true ->
    exists es g', Forall (only t) es /\ exec primes threads es g = Some g' /\ g_main g' = MWoken.
  Proof.
    intros Ht. induction k as [|k IH]; intros g Em Ek F.
    - destruct (g_pc g t) as [| | | | | | | | | |o acc i c|c| | | |] eqn:Ep; try discriminate.
      exists [EThread t 0%Z true], (set_pc t PFinUnlock (signal g)).
      split; [repeat constructor; exists 0%Z, true; reflexivity|]. split.
      + apply one_step; [assumption|]. unfold tstep. rewrite Ep. reflexivity.
      + unfold signal. rewrite Em. reflexivity.
    - assert (Step : forall g1, tstep primes t 0%Z true g = Some g1 -> g_main g1 = MWait ->
        k = match g_pc g1 t with PFin _ _ i _ => 2 + i | PFinAdd _ => 1 | PSignal => 0 | _ => 0 end -> fin (g_pc g1 t) = true ->
        exists es g', Forall (only t) es /\ exec primes threads es g = Some g' /\ g_main g' = MWoken).
      { intros g1 E1 M1 K1 F1. destruct (IH g1 M1 K1 F1) as (es & g' & A & B & C).
        exists ([EThread t 0%Z true] ++ es), g'. split; [|split; [|exact C]].
        - apply Forall_app. split; [repeat constructor; exists 0%Z, true; reflexivity|exact A].
        - rewrite exec_app, (one_step t g g1 Ht E1). exact B. }
      destruct (g_pc g t) as [| | | | | | | | | |o acc i c|c| | | |] eqn:Ep; try discriminate.
      + destruct i as [|i].
        * eapply Step; [unfold tstep; rewrite Ep; reflexivity| | |]; cbn [set_pc g_main g_pc]; rewrite ?fupd_eq; auto; simpl in Ek |- *; lia.
        * destruct (nth_error acc c) as [p|] eqn:En; [destruct (p =? pr i)%Z eqn:Eq|];
            (eapply Step; [unfold tstep; rewrite Ep, En, ?Eq; reflexivity| | |]; cbn [set_pc set_state set_curve g_main g_pc];
             rewrite ?fupd_eq; auto; simpl in Ek |- *; lia).
      + eapply Step; [unfold tstep; rewrite Ep; reflexivity| | |]; cbn [set_pc set_generated g_main g_pc]; rewrite ?fupd_eq; auto; simpl in Ek |- *; lia.
  Qed.

  (** No lost wake-up: while the main thread waits, a curve that has not been printed belongs to a
      thread that holds the mutex and whose own next steps wake the main thread. *)
  Theorem C39_wakeup g i : reachable g -> g_main g = MWait ->
    i < n -> g_states g i = GENERATED -> ~ In i (printed_curves (g_out g)) ->
    exists t es g', t < threads /\ g_mutex g = Some (OThread t) /\ Forall (only t) es /\
      exec primes threads es g = Some g' /\ g_main g' = MWoken.
  Proof.
    intros R Em Hi Hs Hn. apply reach in R. pose proof (i_main _ _ _ R) as M. unfold main_ok in M. rewrite Em in M.
    destruct M as [[A _]|[t F]].
    - exfalso. apply Hn. destruct (i_out _ _ _ R) as (L1 & L2 & O1 & O2 & O3 & _). rewrite O1, printed_sepd. apply O3.
      split; [exact Hi|]. apply A; assumption.
    - assert (C : crit (g_pc g t) = true) by (destruct (g_pc g t); try discriminate; reflexivity).
      assert (Ht : t < threads).
      { destruct (Nat.lt_ge_cases t threads) as [|L]; [assumption|]. rewrite (i_beyond _ _ _ R t L) in F. discriminate. }
      destruct (reach_signal t Ht _ g Em eq_refl F) as (es & g' & E1 & E2 & E3).
      exists t, es, g'. split; [exact Ht|]. split; [apply (i_crit _ _ _ R); exact C|]. auto.
  Qed.

  (** a thread that holds the mutex can always go on *)
  Lemma crit_enabled t g : crit (g_pc g t) = true -> exists g', tstep primes t 0%Z true g = Some g'.
  Proof.
    intros C. unfold tstep. destruct (g_pc g t) as [| | |v| |o' nd|o' nd i acc|o' acc|o' acc|o' acc|o' acc i count|c| | | |]; try discriminate; eauto.
    - destruct i; [eauto|]. destruct (dvdis o' (pr i) && st_eqb (g_states g i) FREE)%bool; [|eauto].
      cbv zeta. destruct (length acc <? nd); eauto.
    - destruct i; [eauto|]. destruct (nth_error acc count) as [p|]; [destruct (p =? pr i)%Z|]; eauto.
  Qed.

  Lemma free_enabled t g : g_mutex g = None -> g_pc g t <> PNot -> g_pc g t <> PExit -> g_pc g t <> PCrash ->
    exists g', tstep primes t 0%Z true g = Some g'.
  Proof.
    intros M A B C. destruct (crit (g_pc g t)) eqn:E; [apply crit_enabled; assumption|].
    unfold tstep, lock. rewrite M. destruct (g_pc g t); try discriminate; try contradiction; eauto.
  Qed.

  (** No deadlock: until the main thread is done, some thread can take a step, without the help of
      a spurious wake-up. *)
  Theorem C39_no_deadlock g : reachable g -> 0 < threads -> g_main g <> MDone ->
    (exists t o ok g', t < threads /\ estep primes threads (EThread t o ok) g = Some g') \/
    (exists g', estep primes threads EMain g = Some g').
  Proof.
    intros R Ht Nd. pose proof (C39_safe g R) as [S1 S2]. apply reach in R.
    assert (Th : forall t, t < threads -> (exists g', tstep primes t 0%Z true g = Some g') ->
      exists t o ok g', t < threads /\ estep primes threads (EThread t o ok) g = Some g').
    { intros t L [g' E]. exists t, 0%Z, true, g'. split; [exact L|]. cbn [estep]. replace (t <? threads) with true by lia. exact E. }
    destruct (g_mutex g) as [[|t]|] eqn:Mx.
    - right. assert (C : mcrit (g_main g) = true) by (apply (i_mcrit _ _ _ R); exact Mx).
      cbn [estep]. unfold mstep. destruct (g_main g) as [j| | |k| | | | |]; try discriminate.
      + destruct (j <? threads); eauto.
      + destruct (k <? length primes); [|eauto].
        cbv zeta. destruct (negb (st_eqb (g_old g k) (g_states g k)) && st_eqb (g_states g k) GENERATED)%bool; [|eauto].
        destruct (g_curves g k); eauto.
      + destruct (g_generated g =? length primes); eauto.
      + eauto.
    - left. apply (Th t).
      + destruct (Nat.lt_ge_cases t threads) as [|L]; [assumption|]. pose proof (i_beyond _ _ _ R t L) as E.
        apply (i_crit _ _ _ R) in Mx. rewrite E in Mx. discriminate.
      + apply crit_enabled. apply (i_crit _ _ _ R). exact Mx.
    - assert (Nc : mcrit (g_main g) = false) by (apply not_true_is_false; intros X; apply (i_mcrit _ _ _ R) in X; congruence).
      assert (Cr : forall t, t < threads -> g_pc g t <> PNot).
      { apply (i_created _ _ _ R). destruct (g_main g); try reflexivity. discriminate. }
      assert (Nf : forall t, fin (g_pc g t) = false).
      { intros t. apply not_true_is_false. intros F. assert (C : crit (g_pc g t) = true) by (destruct (g_pc g t); try discriminate; reflexivity).
        apply (i_crit _ _ _ R) in C. congruence. }
      assert (Run : (exists t, t < threads /\ g_pc g t <> PExit) -> exists t o ok g', t < threads /\ estep primes threads (EThread t o ok) g = Some g').
      { intros (t & L & E). apply (Th t L). apply free_enabled; auto. }
      pose proof (i_main _ _ _ R) as M. unfold main_ok in M.
      destruct (g_main g) as [j| | |k| | | | |] eqn:Em; try discriminate; try contradiction.
      + left. apply Run. exists 0. split; [exact Ht|]. intros E. pose proof (i_good _ _ _ R 0) as G. rewrite E in G. cbn [good] in G.
        destruct M as [[_ M]|[t F]]; [unfold n in *; lia|]. rewrite Nf in F. discriminate.
      + right. cbn [estep]. unfold mstep, lock. rewrite Em, Mx. eauto.
      + destruct (all_exited threads g) eqn:A.
        * right. cbn [estep]. unfold mstep. rewrite Em, A. eauto.
        * left. apply Run. unfold all_exited in A.
          assert (X : exists t, In t (seq 0 threads) /\ (match g_pc g t with PExit => true | _ => false end) = false).
          { clear - A. induction (seq 0 threads) as [|x l IH]; [discriminate|]. cbn [forallb] in A. apply andb_false_iff in A.
            destruct A as [A|A]; [exists x; split; [now left|exact A]|]. destruct (IH A) as (t & I & E). exists t. split; [now right|exact E]. }
          destruct X as (t & I & E). exists t. split; [apply in_seq in I; lia|]. intros X. rewrite X in E. discriminate.
  Qed.

  (** Nothing gets stuck: from every reachable state some continuation, without spurious wake-ups,
      ends the search. *)
  Theorem C39_can_finish g : reachable g -> 0 < threads ->
    exists es g', Forall (fun e => e <> ESpurious) es /\ exec primes threads es g = Some g' /\ g_main g' = MDone.
  Proof.
    intros R Ht. apply reach in R. destruct HP as (_ & A & B). apply (can_finish primes threads n_pos A B g R Ht).
  Qed.

  (** ** C40 *)
  Lemma between_sepd L1 L2 : length L2 = 1 -> sepd L1 ++ map OCurve L2 = between (L1 ++ L2).
  Proof.
    destruct L2 as [|x [|y L2]]; try discriminate. intros _.
    induction L1 as [|a L1 IH]; [reflexivity|].
    cbn [sepd flat_map app]. fold (sepd L1). change ([OCurve x]) with (map OCurve [x]). cbn in IH |- *. rewrite IH.
    destruct L1; reflexivity.
  Qed.
  Lemma between_length l : l <> [] -> length (between l) = 2 * length l - 1.
  Proof.
    induction l as [|x l IH]; [congruence|]. intros _. destruct l as [|y l]; [reflexivity|].
    change (between (x :: y :: l)) with (OCurve x :: OSep :: between (y :: l)). cbn [length].
    rewrite IH by discriminate. simpl. lia.
  Qed.
  Lemma sepd_length l : length (sepd l) = 2 * length l.
  Proof. unfold sepd. induction l as [|x l IH]; simpl; [reflexivity|]. rewrite IH. lia. Qed.

  (** C40, full statement: when the main thread stops, [g_out g = between l] for some [l] with
      every curve once.
      Proved: the output consists of curves each followed by a separator and then of a last batch
      of curves (those printed after the counter had reached the number of primes) without any; it
      is as it should be exactly when that batch is a single curve.
      Missing: batches of several curves, where it is false, see [C40_refuted]. *)
  Theorem C40_batch_partial g : reachable g -> finished (g_main g) ->
    exists L1 L2, L2 <> [] /\ Permutation (L1 ++ L2) (seq 0 n) /\
      g_out g = flat_map (fun i => [OCurve i; OSep]) L1 ++ map OCurve L2 /\
      (g_out g = between (printed_curves (g_out g)) <-> length L2 = 1).
  Proof.
    intros R F. destruct (C39_done g R F) as [P _]. apply reach in R.
    destruct (i_out _ _ _ R) as (L1 & L2 & O1 & O2 & O3 & O4 & O5).
    rewrite O1, printed_sepd in P.
    assert (N2 : L2 <> []).
    { intros E. specialize (O5 E). subst L2. rewrite app_nil_r in P. apply Permutation_length in P. rewrite seq_length in P. lia. }
    exists L1, L2. split; [exact N2|]. split; [exact P|]. split; [exact O1|].
    rewrite O1, printed_sepd. split; [|intros E; apply between_sepd; exact E].
    intros E. apply (f_equal (@length out)) in E.
    rewrite app_length, sepd_length, map_length, between_length in E by (destruct L1; [exact N2|discriminate]).
    rewrite app_length in E. destruct L2; [congruence|]. simpl in *. lia.
  Qed.
End Proofs.

(** ** A run of two threads *)
(** the steps of thread t with a curve of order o that serves k of the n primes: look at the
    counter, generate, claim, finish *)
Definition round (t : nat) (o : Z) (n : nat) : list event :=
  repeat (EThread t o true) (3 + 1 + (1 + n + 1 + 1) + 1 + (1 + n + 1 + 1 + 1 + 1)).
Definition create (threads : nat) : list event := repeat EMain (S threads).
Definition scan (n : nat) : list event := repeat EMain (1 + n + 1).

(** orders 10 by thread 0, 21 by thread 1, both finish before the main thread wakes up *)
Definition schedule_bad : list event :=
  create 2 ++ round 0 10 4 ++ round 1 21 4 ++ scan 4 ++ [EMain; EMain]
  ++ repeat (EThread 0 0%Z true) 3 ++ repeat (EThread 1 0%Z true) 3 ++ [EMain].
Definition schedule_good : list event :=
  create 2 ++ round 0 10 4 ++ scan 4 ++ [EMain; ESpurious] ++ round 1 3 4 ++ scan 4 ++ [EMain] ++ round 1 7 4 ++ scan 4 ++ [EMain; EMain]
  ++ repeat (EThread 0 0%Z true) 3 ++ repeat (EThread 1 0%Z true) 3 ++ [EMain].

Lemma ex_primes : prime_list [2; 3; 5; 7]%Z.
Proof.
  split; [discriminate|]. split.
  - repeat constructor; simpl; lia.
  - intros p H. simpl in H. lia.
Qed.

(** The output of the four curves of one batch runs together. *)
Theorem C40_refuted : exists primes threads es g,
  prime_list primes /\ 2 <= threads /\ exec primes threads es start = Some g /\ g_main g = MDone /\
  g_out g = [OCurve 0; OCurve 1; OCurve 2; OCurve 3] /\
  g_out g <> between (printed_curves (g_out g)).
Proof.
  exists [2; 3; 5; 7]%Z, 2, schedule_bad. eexists.
  split; [apply ex_primes|]. split; [lia|].
  split; [vm_compute; reflexivity|]. split; [reflexivity|]. split; [reflexivity|discriminate].
Qed.

(** hypotheses of the theorems, in a run that ends well *)
Example C39_example : exists g, exec [2; 3; 5; 7]%Z 2 schedule_good start = Some g /\ reachable [2; 3; 5; 7]%Z 2 g /\
  g_main g = MDone /\ g_out g = between [0; 2; 1; 3] /\ map (g_curves g) [0; 1; 2; 3] = [Some 10; Some 3; Some 10; Some 7]%Z.
Proof.
  eexists. split; [vm_compute; reflexivity|]. split; [exists schedule_good; vm_compute; reflexivity|].
  repeat split; reflexivity.
Qed.
(** the main thread waits, thread 0 has finished a curve and has not given the signal yet *)
Example C39_wakeup_example : exists g, reachable [2; 3; 5; 7]%Z 2 g /\ g_main g = MWait /\
  g_states g 0 = GENERATED /\ printed_curves (g_out g) = [] /\ works_on (g_pc g 1) 7%Z.
Proof.
  eexists. split.
  - exists (create 2 ++ repeat (EThread 1 7%Z true) 12 ++ repeat (EThread 0 10%Z true) 17). vm_compute. reflexivity.
  - cbn. auto.
Qed.

(** Without primes (C37: "0-10") the threads leave at once, nobody signals, and the main thread waits
    for ever. *)
Theorem C39_no_primes_refuted : exists threads es g, 0 < threads /\ exec [] threads es start = Some g /\ g_main g <> MDone /\
  forall e g', e <> ESpurious -> estep [] threads e g <> Some g'.
Proof.
  exists 2, (create 2 ++ repeat (EThread 0 0%Z true) 3 ++ repeat (EThread 1 0%Z true) 3). eexists.
  split; [lia|]. split; [vm_compute; reflexivity|]. split; [discriminate|].
  intros [[|[|t]] o ok| |] g' N; cbn; try discriminate. contradiction.
Qed.

Print Assumptions C39_exclusion.
Print Assumptions C39_can_finish.
Print Assumptions C39_no_primes_refuted.
Print Assumptions C39_safe.
Print Assumptions C39_claims.
Print Assumptions C39_counter.
Print Assumptions C39_curves.
Print Assumptions C39_printed.
Print Assumptions C39_done.
Print Assumptions C39_wakeup.
Print Assumptions C39_no_deadlock.
Print Assumptions C40_batch_partial.
Print Assumptions C40_refuted.
