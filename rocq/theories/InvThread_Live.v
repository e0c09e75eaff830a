(** The threaded invalid curve search can always be brought to its end: a measure that some step
    decreases. *)
From Coq Require Import String Znumtheory.
From Verif Require Import Base Invalid_Model InvThread_Model InvThread_Proofs InvThread_Steps.
Local Open Scope nat_scope.

Definition isfree (s : st) : nat := match s with FREE => 1 | _ => 0 end.

Section Live.
  Context (primes : list Z) (threads : nat).
  Let n := length primes.
  Context (Hpos : 0 < n) (Hnd : NoDup primes) (Hp : forall p, In p primes -> (0 < p < 2 ^ 63)%Z).
  Local Notation pr := (pr primes).
  Local Notation Inv := (Inv primes threads).

  (** the curve's order is good for a prime below k nobody works on *)
  Fixpoint useful (s : nat -> st) (o : Z) (k : nat) : bool :=
    match k with O => false | S k => (useful s o k || (dvdis o (pr k) && st_eqb (s k) FREE))%bool end.

  Definition W (s : nat -> st) (a b : bool) (p : pc) : nat :=
    match p with
    | PNot => 4 * n + 200
    | PGetLock => n + (if a then 10 else if b then 16 else 10)
    | PGet => n + (if a then 9 else if b then 15 else 9)
    | PGetUnlock v => if v <? n then n + (if a then 8 else 14) else 1
    | PGen => n + (if a then 7 else if b then 13 else 12)
    | PClaimLock o _ => if useful s o n then n + 1 else 2 * n + 31
    | PClaim o _ i [] => if useful s o i then i else n + 30 + i
    | PClaim _ _ i _ => 4 * n + 120 + i
    | PClaimUnlock _ [] => n + 29
    | PClaimUnlock _ _ => 4 * n + 119
    | PPoints _ _ => 4 * n + 118
    | PFinLock _ _ => 4 * n + 117
    | PFin _ _ i _ => 3 * n + 60 + i
    | PFinAdd _ => 3 * n + 59
    | PSignal => 2 * n + 50
    | PFinUnlock => n + 29
    | PExit => 0
    | PCrash => 0
    end.
  Definition M (m : mpc) : nat :=
    match m with
    | MCreate j => 6 + n + (threads - j)
    | MWoken => 5 + n
    | MScan i => 4 + (n - i)
    | MCheck => 3
    | MUnlock => 2
    | MJoin => 1
    | _ => 0
    end.

  Definition F (g : glob) : nat := sumf (fun i => isfree (g_states g i)) n.
  Definition fa (g : glob) : bool := 0 <? F g.
  Definition fb (g : glob) : bool := g_generated g <? n.
  Definition R (g : glob) : nat := sumf (fun t => W (g_states g) (fa g) (fb g) (g_pc g t)) threads + M (g_main g).

  Definition less (g' g : glob) : Prop :=
    F g' < F g \/ F g' = F g /\ (n - g_generated g' < n - g_generated g \/ n - g_generated g' = n - g_generated g /\ R g' < R g).

  Lemma less_wf (P : glob -> Prop) : (forall g, (forall g', less g' g -> P g') -> P g) -> forall g, P g.
  Proof.
    intros H.
    assert (X : forall f k r g, F g < f \/ F g = f /\ (n - g_generated g < k \/ n - g_generated g = k /\ R g < r) -> P g).
    { induction f as [f IHf] using (well_founded_induction lt_wf).
      induction k as [k IHk] using (well_founded_induction lt_wf).
      induction r as [|r IHr]; intros g L; apply H; intros g' L'; unfold less in L'.
      - destruct L as [L|(L & [K|(K & r0)])]; [| |lia].
        + apply (IHf (F g) L (n - g_generated g) (R g)). exact L'.
        + apply (IHk (n - g_generated g) K (R g)). subst f. exact L'.
      - destruct L as [L|(L & [K|(K & r0)])].
        + apply (IHf (F g) L (n - g_generated g) (R g)). exact L'.
        + apply (IHk (n - g_generated g) K (R g)). subst f. exact L'.
        + apply IHr. subst f k. lia. }
    intros g. apply (X (F g) (n - g_generated g) (S (R g))). right. split; [reflexivity|]. right. split; [reflexivity|lia].
  Qed.

  Lemma useful_ext s s' o k : (forall i, st_eqb (s i) FREE = st_eqb (s' i) FREE) -> useful s o k = useful s' o k.
  Proof. intros H. induction k as [|k IH]; cbn [useful]; [reflexivity|]. now rewrite IH, H. Qed.
  Lemma W_ext s s' a b p : (forall i, st_eqb (s i) FREE = st_eqb (s' i) FREE) -> W s a b p = W s' a b p.
  Proof.
    intros H. destruct p as [| | | | |o nd|o nd i acc| | | | | | | | |]; cbn [W]; try reflexivity; [|destruct acc]; try reflexivity; now rewrite (useful_ext s s').
  Qed.
  Lemma isfree_eqb s s' : st_eqb s FREE = st_eqb s' FREE -> isfree s = isfree s'.
  Proof. destruct s, s'; cbn; congruence. Qed.

  (** a step that moves a thread and the main thread and changes no freeness and no count *)
  Lemma less_move g g' t p : t < threads ->
    (forall i, st_eqb (g_states g' i) FREE = st_eqb (g_states g i) FREE) ->
    g_generated g' = g_generated g -> g_pc g' = fupd (g_pc g) t p ->
    W (g_states g) (fa g) (fb g) p + M (g_main g') < W (g_states g) (fa g) (fb g) (g_pc g t) + M (g_main g) -> less g' g.
  Proof.
    intros Ht Hs Hg Ep H. assert (EF : F g' = F g) by (apply sumf_ext; intros i _; apply isfree_eqb; apply Hs).
    right. split; [exact EF|]. right. rewrite Hg. split; [reflexivity|].
    unfold R. assert (fa g' = fa g) as -> by (unfold fa; now rewrite EF). assert (fb g' = fb g) as -> by (unfold fb; now rewrite Hg).
    rewrite Ep. pose proof (sumf_upd (W (g_states g) (fa g) (fb g)) (g_pc g) t p threads Ht) as U.
    rewrite (sumf_ext (fun t0 => W (g_states g') (fa g) (fb g) (fupd (g_pc g) t p t0)) (fun t0 => W (g_states g) (fa g) (fb g) (fupd (g_pc g) t p t0)))
      by (intros i _; apply W_ext; exact Hs).
    lia.
  Qed.
  Lemma less_main g g' : g_states g' = g_states g -> g_generated g' = g_generated g -> g_pc g' = g_pc g ->
    M (g_main g') < M (g_main g) -> less g' g.
  Proof.
    intros Hs Hg Ep H. assert (EF : F g' = F g) by (unfold F; now rewrite Hs).
    right. split; [exact EF|]. right. rewrite Hg. split; [reflexivity|].
    unfold R, fa, fb. rewrite EF, Hg, Ep, Hs. lia.
  Qed.

  Definition runs (g : glob) : Prop :=
    exists e g', (e <> ESpurious) /\ estep primes threads e g = Some g' /\ less g' g.

  Lemma run_thread t o ok g g' : t < threads -> tstep primes t o ok g = Some g' -> less g' g -> runs g.
  Proof.
    intros Ht E L. exists (EThread t o ok), g'. split; [discriminate|]. split; [|exact L].
    cbn [estep]. replace (t <? threads) with true by lia. exact E.
  Qed.

  Lemma some_free g : 0 < F g -> exists i, i < n /\ g_states g i = FREE.
  Proof.
    unfold F. generalize n. induction n0 as [|k IH]; simpl; [lia|]. intros H.
    destruct (g_states g k) eqn:E; [exists k; split; [lia|exact E]| |]; (destruct IH as (i & L & X); [simpl in H; lia|]; exists i; split; [lia|exact X]).
  Qed.
  Lemma useful_true s o k i : i < k -> dvdis o (pr i) = true -> s i = FREE -> useful s o k = true.
  Proof.
    induction k as [|k IH]; intros L D E; [lia|]. cbn [useful]. apply orb_true_iff.
    destruct (Nat.eq_dec i k) as [->|N]; [right; now rewrite D, E|left; apply IH; auto; lia].
  Qed.
  Lemma nd_pos o i : i < n -> dvdis o (pr i) = true -> 0 < ndivides primes o.
  Proof.
    intros Hi D. unfold ndivides. assert (I : In i (filter (fun i => dvdis o (pr i)) (seq 0 (length primes)))).
    { apply filter_In. split; [apply in_seq; fold n; lia|exact D]. }
    destruct (filter (fun i => dvdis o (pr i)) (seq 0 (length primes))); [destruct I|simpl; lia].
  Qed.
  Lemma dvd_self i : i < n -> dvdis (pr i) (pr i) = true.
  Proof. intros Hi. apply (dvd_iff primes Hpos Hp (pr i) i Hi). apply Z.divide_refl. Qed.

  Local Ltac mv t := eapply (less_move _ _ t); [assumption|try (intros; reflexivity)|reflexivity|reflexivity|].
  Local Ltac wgt Ep := cbn [set_pc set_mutex set_curve set_state unlock g_main]; rewrite Ep; cbn [W].

  Lemma thread_runs g t : Inv g -> t < threads ->
    crit (g_pc g t) = true \/ g_mutex g = None -> g_pc g t <> PNot -> g_pc g t <> PExit ->
    (g_pc g t = PGen -> 0 < F g \/ g_generated g = n) -> runs g.
  Proof.
    intros H Ht C N1 N2 N3. pose proof (i_good _ _ _ H t) as G. pose proof (gen_le_n primes threads Hpos g H) as Gn.
    destruct (g_pc g t) as [| | |v| |o nd|o nd i acc|o acc|o acc|o acc|o acc i count|c| | | |] eqn:Ep; try contradiction.
    - destruct C as [C|C]; [discriminate|].
      eapply (run_thread t 0%Z true); [assumption|unfold tstep, lock; rewrite Ep, C; reflexivity|].
      mv t. wgt Ep. destruct (fa g), (fb g); lia.
    - eapply (run_thread t 0%Z true); [assumption|unfold tstep; rewrite Ep; reflexivity|].
      mv t. wgt Ep. unfold fb. destruct (Nat.ltb_spec (g_generated g) n), (fa g); lia.
    - eapply (run_thread t 0%Z true); [assumption|unfold tstep; rewrite Ep; reflexivity|].
      fold n. mv t. wgt Ep. destruct (v <? n); cbn [W]; destruct (fa g), (fb g); lia.
    - specialize (N3 eq_refl). destruct N3 as [N3|N3].
      + destruct (some_free g N3) as (i & Hi & Ei).
        eapply (run_thread t (pr i) true); [assumption|unfold tstep; rewrite Ep; reflexivity|].
        pose proof (nd_pos _ i Hi (dvd_self i Hi)) as Nd. replace (0 <? ndivides primes (pr i)) with true by lia. cbn [andb].
        mv t. wgt Ep. rewrite (useful_true _ _ _ _ Hi (dvd_self i Hi) Ei).
        unfold fa. replace (0 <? F g) with true by lia. lia.
      + eapply (run_thread t 0%Z false); [assumption|unfold tstep; rewrite Ep; reflexivity|].
        rewrite andb_false_r. mv t. wgt Ep. unfold fa, fb. replace (g_generated g <? n) with false by lia.
        replace (F g) with 0; [cbn; lia|]. symmetry. apply sumf_zero. intros i Hi.
        rewrite (gen_full primes threads Hpos g H N3 i Hi). reflexivity.
    - destruct C as [C|C]; [discriminate|].
      eapply (run_thread t 0%Z true); [assumption|unfold tstep, lock; rewrite Ep, C; reflexivity|].
      fold n. mv t. wgt Ep. destruct (useful (g_states g) o n); lia.
    - destruct i as [|i].
      + eapply (run_thread t 0%Z true); [assumption|unfold tstep; rewrite Ep; reflexivity|].
        mv t. wgt Ep. destruct acc; cbn [useful]; lia.
      + destruct (dvdis o (pr i) && st_eqb (g_states g i) FREE)%bool eqn:D.
        * apply andb_true_iff in D. destruct D as [D1 D2].
          assert (D3 : g_states g i = FREE) by (destruct (g_states g i); try discriminate; reflexivity).
          destruct (claim_step primes threads Hpos Hnd Hp g t o nd i acc H Ht Ep D1 D3) as [L _].
          eapply (run_thread t 0%Z true); [assumption|unfold tstep; rewrite Ep, D1, D2; cbn [andb]; replace (length acc <? nd) with true by lia; reflexivity|].
          left. unfold F. cbn [set_pc set_state g_states].
          assert (Hi : i < n) by (cbn [good] in G; unfold n; lia).
          pose proof (sumf_upd isfree (g_states g) i GENERATING n Hi) as U. rewrite D3 in U. cbn [isfree] in U. lia.
        * eapply (run_thread t 0%Z true); [assumption|unfold tstep; rewrite Ep, D; reflexivity|].
          mv t. wgt Ep. destruct acc; [|lia]. cbn [useful]. rewrite D, orb_false_r. destruct (useful (g_states g) o i); lia.
    - eapply (run_thread t 0%Z true); [assumption|unfold tstep; rewrite Ep; reflexivity|].
      mv t. wgt Ep. destruct acc; cbn [W]; [destruct (fa g), (fb g)|]; lia.
    - eapply (run_thread t 0%Z true); [assumption|unfold tstep; rewrite Ep; reflexivity|].
      mv t. wgt Ep. lia.
    - destruct C as [C|C]; [discriminate|].
      eapply (run_thread t 0%Z true); [assumption|unfold tstep, lock; rewrite Ep, C; reflexivity|].
      fold n. mv t. wgt Ep. lia.
    - destruct i as [|i].
      + eapply (run_thread t 0%Z true); [assumption|unfold tstep; rewrite Ep; reflexivity|].
        mv t. wgt Ep. lia.
      + destruct (nth_error acc count) as [p|] eqn:En; [destruct (p =? pr i)%Z eqn:Eq|];
          (eapply (run_thread t 0%Z true); [assumption|unfold tstep; rewrite Ep, En, ?Eq; reflexivity|]); mv t; try (wgt Ep; lia).
        assert (Hi : i < n) by (cbn [good] in G; unfold n; lia).
        assert (S : g_states g i = GENERATING).
        { apply (i_held _ _ _ H i Hi). exists t. rewrite Ep. cbn [held]. apply Z.eqb_eq in Eq. subst p.
          clear - En. revert count En. induction acc as [|x acc IH]; intros [|c] En; cbn in En |- *; try discriminate; [left; congruence|auto]. }
        intros j. cbn [set_pc set_curve set_state g_states]. unfold fupd. destruct (Nat.eqb_spec j i) as [->|]; [now rewrite S|reflexivity].
    - assert (E : estep primes threads (EThread t 0%Z true) g = Some (set_pc t PSignal (set_generated (g_generated g + c) g))).
      { cbn [estep]. replace (t <? threads) with true by lia. unfold tstep. rewrite Ep. reflexivity. }
      eexists _, _. split; [|split; [exact E|]]; [discriminate|].
      pose proof (gen_le_n primes threads Hpos _ (estep_inv primes threads Hpos Hnd Hp _ _ _ H E)) as L.
      cbn [set_pc set_generated g_generated] in L. cbn [good] in G.
      right. split; [reflexivity|]. left. cbn [set_pc set_generated g_generated]. unfold n in *. lia.
    - eapply (run_thread t 0%Z true); [assumption|unfold tstep; rewrite Ep; reflexivity|].
      unfold signal. destruct (g_main g) eqn:Em; mv t; cbn [set_pc set_main g_main]; rewrite Ep, Em; cbn [W M]; lia.
    - eapply (run_thread t 0%Z true); [assumption|unfold tstep; rewrite Ep; reflexivity|].
      mv t. wgt Ep. destruct (fa g), (fb g); lia.
  Qed.

  Lemma main_runs g : Inv g -> mcrit (g_main g) = true \/ (g_main g = MWoken /\ g_mutex g = None) \/ (g_main g = MJoin /\ all_exited threads g = true) -> runs g.
  Proof.
    intros H C.
    assert (X : forall g', mstep primes threads g = Some g' -> less g' g -> runs g).
    { intros g' E L. exists EMain, g'. split; [discriminate|]. split; [exact E|exact L]. }
    assert (Y : forall g', mstep primes threads g = Some g' -> g_main g' <> MCrash).
    { intros g' E B. pose proof (estep_inv primes threads Hpos Hnd Hp EMain _ _ H E) as I.
      pose proof (i_main _ _ _ I) as K. unfold main_ok in K. rewrite B in K. exact K. }
    destruct (g_main g) as [j| | |k| | | | |] eqn:Em; try (destruct C as [C|[[C _]|[C _]]]; discriminate).
    - destruct (Nat.ltb_spec j threads) as [L|L].
      + eapply X; [unfold mstep; rewrite Em; replace (j <? threads) with true by lia; reflexivity|].
        pose proof (i_main _ _ _ H) as K. unfold main_ok in K. rewrite Em in K. destruct K as (_ & _ & _ & K). specialize (K j).
        replace (j <? j) with false in K by lia.
        mv j. cbn [set_pc set_main g_main]. rewrite K, Em. cbn [W M]. destruct (fa g), (fb g); lia.
      + eapply X; [unfold mstep; rewrite Em; replace (j <? threads) with false by lia; reflexivity|].
        apply less_main; try reflexivity. cbn [set_main g_main]. rewrite Em. cbn [M]. lia.
    - destruct C as [C|[[_ C]|[C _]]]; try discriminate.
      eapply X; [unfold mstep, lock; rewrite Em, C; reflexivity|].
      apply less_main; try reflexivity. cbn [set_main g_main]. rewrite Em. cbn [M]. lia.
    - assert (E : exists g', mstep primes threads g = Some g' /\ g_states g' = g_states g /\ g_generated g' = g_generated g /\ g_pc g' = g_pc g /\
        (g_main g' = MCrash \/ (k < n /\ g_main g' = MScan (S k)) \/ g_main g' = MCheck)).
      { unfold mstep. rewrite Em. fold n. destruct (Nat.ltb_spec k n) as [L|L]; [|eexists; split; [reflexivity|]; cbn; auto 10].
        cbv zeta. destruct (negb (st_eqb (g_old g k) (g_states g k)) && st_eqb (g_states g k) GENERATED)%bool; [|eexists; split; [reflexivity|]; cbn; auto 10].
        destruct (g_curves g k); (eexists; split; [reflexivity|]); [|cbn; auto 10].
        destruct (negb (g_generated (write [OCurve k] g) =? n)); cbn; auto 10. }
      destruct E as (g' & E & S1 & S2 & S3 & S4). apply (X g' E). apply less_main; auto. rewrite Em.
      destruct S4 as [B|[[L B]|B]]; [destruct (Y g' E B)| |]; rewrite B; cbn [M]; lia.
    - destruct (g_generated g =? length primes) eqn:Eg; (eapply X; [unfold mstep; rewrite Em, Eg; reflexivity|]);
        (apply less_main; try reflexivity; cbn [set_main unlock set_mutex g_main]; rewrite Em; cbn [M]; lia).
    - eapply X; [unfold mstep; rewrite Em; reflexivity|].
      apply less_main; try reflexivity. cbn [set_main g_main]. rewrite Em. cbn [M]. lia.
    - destruct C as [C|[[C _]|[_ C]]]; try discriminate.
      eapply X; [unfold mstep; rewrite Em, C; reflexivity|].
      apply less_main; try reflexivity. cbn [set_main g_main]. rewrite Em. cbn [M]. lia.
  Qed.

  Lemma not_all_exited g : all_exited threads g = false -> exists t, t < threads /\ g_pc g t <> PExit.
  Proof.
    unfold all_exited. intros A.
    assert (X : exists t, In t (seq 0 threads) /\ (match g_pc g t with PExit => true | _ => false end) = false).
    { clear - A. induction (seq 0 threads) as [|x l IH]; [discriminate|]. cbn [forallb] in A. apply andb_false_iff in A.
      destruct A as [A|A]; [exists x; split; [now left|exact A]|]. destruct (IH A) as (t & I & E). exists t. split; [now right|exact E]. }
    destruct X as (t & I & E). exists t. split; [apply in_seq in I; lia|]. intros X. rewrite X in E. discriminate.
  Qed.

  Lemma free_or_held g : Inv g -> g_mutex g = None -> F g = 0 -> g_generated g < n ->
    exists t, t < threads /\ exists x, In x (held (g_pc g t)).
  Proof.
    intros H Mx F0 L.
    assert (P : sumf (fun t => pend (g_pc g t)) threads = 0).
    { apply sumf_zero. intros t _. assert (X : crit (g_pc g t) = false).
      { apply not_true_is_false. intros X. apply (i_crit _ _ _ H) in X. congruence. }
      destruct (g_pc g t); try discriminate; reflexivity. }
    pose proof (i_count _ _ _ H) as C. fold n in C.
    assert (X : exists i, i < n /\ g_states g i = GENERATING).
    { assert (L' : sumf (fun i => isgen (g_states g i)) n < n) by lia. clear - L' F0. unfold F in F0.
      revert L' F0. generalize n. induction n0 as [|k IH]; intros L' F0; [lia|]. simpl in L', F0.
      destruct (g_states g k) eqn:E; [simpl in F0; lia|exists k; split; [lia|exact E]|].
      destruct IH as (i & Hi & Ei); [simpl in L'; lia|simpl in F0; lia|]. exists i. split; [lia|exact Ei]. }
    destruct X as (i & Hi & Ei). apply (i_held _ _ _ H i Hi) in Ei. destruct Ei as [t Et]. exists t. split; [|eauto].
    destruct (Nat.lt_ge_cases t threads) as [|T]; [assumption|]. rewrite (i_beyond _ _ _ H t T) in Et. destruct Et.
  Qed.

  (** until the main thread is done, some step decreases the measure *)
  Lemma progress g : Inv g -> 0 < threads -> g_main g <> MDone -> runs g.
  Proof.
    intros H Ht Nd. pose proof (gen_le_n primes threads Hpos g H) as Gn.
    destruct (g_mutex g) as [[|t]|] eqn:Mx.
    - apply (main_runs g H). left. apply (i_mcrit _ _ _ H). exact Mx.
    - assert (C : crit (g_pc g t) = true) by (apply (i_crit _ _ _ H); exact Mx).
      apply (thread_runs g t H); auto.
      + destruct (Nat.lt_ge_cases t threads) as [|T]; [assumption|]. rewrite (i_beyond _ _ _ H t T) in C. discriminate.
      + intros E. rewrite E in C. discriminate.
      + intros E. rewrite E in C. discriminate.
      + intros E. rewrite E in C. discriminate.
    - assert (Nc : mcrit (g_main g) = false) by (apply not_true_is_false; intros X; apply (i_mcrit _ _ _ H) in X; congruence).
      assert (Cr : forall t, t < threads -> g_pc g t <> PNot).
      { apply (i_created _ _ _ H). destruct (g_main g); try reflexivity. discriminate. }
      assert (Nf : forall t, fin (g_pc g t) = false).
      { intros t. apply not_true_is_false. intros X. assert (C : crit (g_pc g t) = true) by (destruct (g_pc g t); try discriminate; reflexivity).
        apply (i_crit _ _ _ H) in C. congruence. }
      assert (Ex : forall t, g_pc g t = PExit -> g_generated g = n).
      { intros t E. pose proof (i_good _ _ _ H t) as G. rewrite E in G. cbn [good] in G. fold n in Gn, G. lia. }
      assert (Go : g_generated g < n -> runs g).
      { intros L. destruct (Nat.eq_dec (F g) 0) as [F0|F0].
        - destruct (free_or_held g H Mx F0 L) as (t & T & x & I). apply (thread_runs g t H T); auto.
          + intros E. apply Ex in E. lia.
          + intros E. rewrite E in I. destruct I.
        - apply (thread_runs g 0 H Ht); auto.
          + intros E. apply Ex in E. lia.
          + intros _. left. lia. }
      pose proof (i_main _ _ _ H) as K. unfold main_ok in K.
      destruct (g_main g) as [j| | |k| | | | |] eqn:Em; try discriminate; try contradiction.
      + apply Go. destruct K as [[_ K]|[t K]]; [unfold n; exact K|]. rewrite Nf in K. discriminate.
      + apply (main_runs g H). right; left. auto.
      + destruct (all_exited threads g) eqn:A; [apply (main_runs g H); right; right; auto|].
        destruct (not_all_exited g A) as (t & T & E). apply (thread_runs g t H T); auto.
        intros _. right. apply K.
  Qed.

  Lemma can_finish g : Inv g -> 0 < threads ->
    exists es g', Forall (fun e => e <> ESpurious) es /\ exec primes threads es g = Some g' /\ g_main g' = MDone.
  Proof.
    intros H Ht. revert H. pattern g. apply less_wf. clear g. intros g IH H.
    destruct (match g_main g with MDone => true | _ => false end) eqn:E.
    - exists [], g. split; [constructor|]. split; [reflexivity|]. destruct (g_main g); try discriminate. reflexivity.
    - destruct (progress g H Ht) as (e & g1 & N & S & L); [intros X; rewrite X in E; discriminate|].
      destruct (IH g1 L (estep_inv primes threads Hpos Hnd Hp e g g1 H S)) as (es & g' & A & B & C).
      exists (e :: es), g'. split; [constructor; assumption|]. split; [|exact C]. cbn [exec]. rewrite S. exact B.
  Qed.
End Live.
