(** Every step of the threaded invalid curve search keeps the invariant. *)
From Coq Require Import String Znumtheory Sorting.Permutation.
From Verif Require Import Base Invalid_Model InvThread_Model InvThread_Proofs.
Local Open Scope nat_scope.

Section Steps.
  Context (primes : list Z) (threads : nat).
  Let n := length primes.
  Context (Hpos : 0 < n) (Hnd : NoDup primes) (Hp : forall p, In p primes -> (0 < p < 2 ^ 63)%Z).
  Local Notation pr := (pr primes).
  Local Notation Inv := (Inv primes threads).

  Lemma private_same g t p' : Inv g -> t < threads ->
    good primes (g_generated g) p' -> crit p' = crit (g_pc g t) ->
    held p' = held (g_pc g t) -> pend p' = pend (g_pc g t) ->
    (fin (g_pc g t) = true -> fin p' = true) -> p' <> PNot ->
    (forall j, g_main g <> MCreate j) -> Inv (set_pc t p' g).
  Proof.
    intros H Ht Hg Hc Hh Hpd Hf Hn Hcr. rewrite <- (set_mutex_same g).
    apply private_step; auto. rewrite Hc. apply (i_crit _ _ _ H).
  Qed.

  Lemma lock_step g t g1 p' : Inv g -> t < threads -> lock (OThread t) g = Some g1 ->
    good primes (g_generated g) p' -> crit p' = true ->
    held p' = held (g_pc g t) -> pend p' = pend (g_pc g t) -> fin (g_pc g t) = false -> p' <> PNot ->
    Inv (set_pc t p' g1).
  Proof.
    intros H Ht L Hg Hc Hh Hpd Hf Hn. unfold lock in L. destruct (g_mutex g) eqn:E; [discriminate|]. injection L as <-.
    apply private_step; auto.
    - tauto.
    - congruence.
    - apply (free_not_creating primes threads g H). congruence.
  Qed.

  Lemma unlock_step g t p' : Inv g -> t < threads -> crit (g_pc g t) = true -> 
    good primes (g_generated g) p' -> crit p' = false ->
    held p' = held (g_pc g t) -> pend p' = pend (g_pc g t) -> fin (g_pc g t) = false -> p' <> PNot ->
    Inv (set_pc t p' (unlock g)).
  Proof.
    intros H Ht C Hg Hc Hh Hpd Hf Hn. destruct (crit_holds primes threads g t H C) as [M _].
    unfold unlock. apply private_step; auto.
    - rewrite Hc. split; discriminate.
    - congruence.
    - apply (free_not_creating primes threads g H). congruence.
  Qed.

  Lemma tstep_inv g t o ok g' : Inv g -> t < threads -> tstep primes t o ok g = Some g' -> Inv g'.
  Proof.
    intros H Ht S. unfold tstep in S. pose proof (i_good _ _ _ H t) as G.
    assert (NC : g_pc g t <> PNot -> g_pc g t <> PGetLock -> forall j, g_main g <> MCreate j)
      by (apply (not_creating primes threads g t H)).
    destruct (g_pc g t) as [| | |v| |o' nd|o' nd i acc|o' acc|o' acc|o' acc|o' acc i count|c| | | |] eqn:Ep; cbn [good] in G; try discriminate.
    - destruct (lock (OThread t) g) as [g1|] eqn:L; [|discriminate]. injection S as <-.
      apply (lock_step g t g1 PGet H Ht L); try rewrite Ep; auto; try exact I; discriminate.
    - injection S as <-. apply private_same; try rewrite Ep; auto; try discriminate; try (apply NC; discriminate). cbn. lia.
    - injection S as <-. pose proof (gen_le_n primes threads Hpos g H) as GL. fold n in GL.
      apply unlock_step; try rewrite Ep; auto; fold n; destruct (Nat.ltb_spec v n); auto; try discriminate; try exact I.
      cbn [good]. fold n. lia.
    - injection S as <-. apply private_same; try rewrite Ep; auto; try (apply NC; discriminate);
        destruct ((0 <? ndivides primes o) && ok)%bool; auto; try discriminate; try exact I.
      cbn. reflexivity.
    - destruct (lock (OThread t) g) as [g1|] eqn:L; [|discriminate]. injection S as <-.
      apply (lock_step g t g1 _ H Ht L); try rewrite Ep; auto; try discriminate.
      cbn [good]. split; [exact G|]. fold n. split; [lia|]. exists []. split; [|intros x []].
      split; [reflexivity|]. split; [constructor|intros x []].
    - destruct i as [|i].
      + injection S as <-. apply private_same; try rewrite Ep; auto; try discriminate; try (apply NC; discriminate).
        cbn [good]. destruct G as (_ & _ & ix & P & _). exists ix. exact P.
      + destruct (dvdis o' (pr i) && st_eqb (g_states g i) FREE)%bool eqn:B.
        * apply andb_true_iff in B. destruct B as [B1 B2].
          assert (B3 : g_states g i = FREE) by (destruct (g_states g i); try discriminate; reflexivity).
          destruct (claim_step primes threads Hpos Hnd Hp g t o' nd i acc H Ht Ep B1 B3) as [L X].
          cbn [length] in S. replace (length acc <? nd) with true in S by lia. injection S as <-. exact X.
        * injection S as <-. apply private_same; try rewrite Ep; auto; try discriminate; try (apply NC; discriminate).
          cbn [good]. destruct G as (G1 & G2 & ix & P & Q). split; [exact G1|]. split; [lia|]. exists ix. split; [exact P|].
          intros x X. specialize (Q x X). lia.
    - injection S as <-. apply unlock_step; try rewrite Ep; auto; destruct acc as [|a acc]; auto; try discriminate; try exact I.
      cbn [good]. split; [discriminate|exact G].
    - injection S as <-. apply private_same; try rewrite Ep; auto; try discriminate; try (apply NC; discriminate).
    - destruct (lock (OThread t) g) as [g1|] eqn:L; [|discriminate]. injection S as <-.
      apply (lock_step g t g1 _ H Ht L); try rewrite Ep; auto; try discriminate.
      cbn [good]. destruct G as (G1 & ix & P). split; [exact G1|]. fold n. split; [lia|]. split; [lia|].
      exists ix. split; [exact P|]. cbn [skipn]. intros x X. destruct P as (_ & D & _). fold n in D. apply (desc_lt _ _ _ D X).
    - destruct G as (G1 & G2 & G3 & ix & P & Q).
      destruct i as [|i].
      + assert (Z : skipn count ix = []) by (destruct (skipn count ix) as [|x l]; [reflexivity|specialize (Q x (or_introl eq_refl)); lia]).
        assert (C : count = length acc).
        { destruct P as (-> & _). rewrite map_length in *. pose proof (skipn_length count ix) as L. rewrite Z in L. simpl in L. lia. }
        injection S as <-. apply private_same; try rewrite Ep; auto; try discriminate; try (apply NC; discriminate).
        * cbn [good]. destruct acc; [congruence|]. simpl in C. lia.
        * cbn [held]. symmetry. apply skipn_all2. lia.
      + assert (NoMatch : nth_error acc count <> Some (pr i) -> Inv (set_pc t (PFin o' acc i count) g)).
        { intros NM. apply private_same; try rewrite Ep; auto; try discriminate; try (apply NC; discriminate).
          cbn [good]. split; [exact G1|]. split; [lia|]. split; [exact G3|]. exists ix. split; [exact P|].
          intros x X. destruct (Nat.eq_dec x i) as [->|N]; [|specialize (Q x X); lia]. exfalso.
          destruct P as (Ea & D & _). pose proof (desc_skipn _ _ count D) as D'.
          destruct (skipn count ix) as [|y l] eqn:Es; [destruct X|].
          assert (y = i).
          { inversion D' as [|b y' l' Hy Dl]; subst. destruct X as [X|X]; [assumption|].
            pose proof (desc_lt _ _ _ Dl X). specialize (Q y (or_introl eq_refl)). lia. }
          subst y. apply NM. rewrite Ea, nth_error_map.
          assert (Nx : nth_error ix count = Some i).
          { clear - Es. revert ix Es. induction count as [|c IH]; intros [|z ix] Es; simpl in *; try discriminate.
            - now injection Es as ->.
            - apply IH. assumption. }
          rewrite Nx. reflexivity. }
        destruct (nth_error acc count) as [p|] eqn:En.
        * destruct (Z.eqb_spec p (pr i)) as [->|Np].
          -- injection S as <-. apply (finish_step primes threads Hpos Hnd Hp g t o' acc i count H Ht Ep En).
          -- injection S as <-. apply NoMatch. congruence.
        * injection S as <-. apply NoMatch. discriminate.
    - injection S as <-. apply (add_step primes threads Hpos g t c H Ht Ep).
    - injection S as <-. apply (signal_step primes threads Hpos g t H Ht Ep).
    - injection S as <-. apply unlock_step; try rewrite Ep; auto; try discriminate; exact I.
  Qed.

  (** ** Steps of the main thread that touch only the mutex *)
  Lemma main_step g m' mx' : Inv g ->
    (mcrit m' = true <-> mx' = Some OMain) ->
    (mx' = g_mutex g \/ (g_mutex g = None /\ mx' = Some OMain) \/ (g_mutex g = Some OMain /\ mx' = None)) ->
    main_ok primes threads (set_main m' (set_mutex mx' g)) ->
    (forall t, t < threads -> g_pc g t <> PNot) ->
    Inv (set_main m' (set_mutex mx' g)).
  Proof.
    intros H Hc Hm Ho Hn. destruct H as [H1 H2 H3 H4 H5 H6 H7 H8 H9 H10 H11 H12].
    split; cbn [set_main set_mutex g_states g_old g_curves g_generated g_mutex g_pc g_main g_out]; auto.
    intros t. rewrite H3. destruct Hm as [->|[[E ->]|[E ->]]]; [reflexivity| |]; rewrite E; split; discriminate.
  Qed.
  Lemma main_same g m' : Inv g -> mcrit m' = mcrit (g_main g) ->
    main_ok primes threads (set_main m' g) -> (forall t, t < threads -> g_pc g t <> PNot) -> Inv (set_main m' g).
  Proof.
    intros H Hc Ho Hn. rewrite <- (set_mutex_same g). apply main_step; auto.
    - rewrite Hc. apply (i_mcrit _ _ _ H).
  Qed.

  (** creating a thread *)
  Lemma create_step g j : Inv g -> g_main g = MCreate j -> j < threads ->
    Inv (set_main (MCreate (S j)) (set_pc j PGetLock g)).
  Proof.
    intros H Em Hj. destruct H as [H1 H2 H3 H4 H5 H6 H7 H8 H9 H10 H11 H12].
    unfold main_ok in H11. rewrite Em in *. destruct H11 as (_ & M2 & M3 & M4).
    assert (Ep : g_pc g j = PNot) by (rewrite M4; replace (j <? j) with false by lia; reflexivity).
    assert (Same : forall {A} (f : pc -> A) x, f PGetLock = f PNot -> f (fupd (g_pc g) j PGetLock x) = f (g_pc g x)).
    { intros A f x E. destruct (Nat.eq_dec x j) as [->|N]; [rewrite fupd_eq, Ep; assumption|rewrite fupd_neq by assumption; reflexivity]. }
    split; cbn [set_main set_pc g_states g_old g_curves g_generated g_mutex g_pc g_main g_out]; auto.
    - intros x. rewrite (Same Prop (good primes (g_generated g)) x eq_refl). apply H1.
    - intros x Hx. rewrite fupd_neq by lia. auto.
    - intros x. rewrite (Same bool crit x eq_refl). apply H3.
    - intros i Hi. rewrite (H5 i Hi). split; intros [x X]; exists x; [rewrite (Same _ held x eq_refl)|rewrite (Same _ held x eq_refl) in X]; assumption.
    - intros x x' v. rewrite !(Same _ held _ eq_refl). apply H6.
    - rewrite <- H7. f_equal. apply sumf_ext. intros x _. apply (Same _ pend x eq_refl).
    - unfold main_ok. cbn. split; [lia|]. split; [assumption|]. split; [assumption|].
      intros t. destruct (Nat.eq_dec t j) as [->|N].
      + rewrite fupd_eq. destruct (Nat.leb_spec j j); [reflexivity|lia].
      + rewrite fupd_neq by assumption. rewrite M4. destruct (Nat.ltb_spec t j), (Nat.leb_spec t j); auto; lia.
    - discriminate.
  Qed.

  (** printing a curve *)
  Lemma print_step g i : Inv g -> g_main g = MScan i -> i < n -> g_states g i = GENERATED -> g_old g i <> GENERATED ->
    forall o, o = (if negb (g_generated g =? n) then [OCurve i; OSep] else [OCurve i]) ->
    Inv (set_main (MScan (S i)) (set_old i GENERATED (write o g))).
  Proof.
    intros H Em Hi Hs Ho o Eo.
    pose proof (gen_le_n primes threads Hpos g H) as GL. fold n in GL.
    assert (Np : forall t, pend (g_pc g t) = 0).
    { intros t. destruct (pend (g_pc g t)) eqn:E; [reflexivity|]. exfalso.
      assert (C : crit (g_pc g t) = true) by (destruct (g_pc g t); try discriminate; reflexivity).
      destruct (crit_holds primes threads g t H C) as [_ M]. rewrite Em in M. discriminate. }
    destruct H as [H1 H2 H3 H4 H5 H6 H7 H8 H9 H10 H11 H12].
    split; cbn [set_main set_old write g_states g_old g_curves g_generated g_mutex g_pc g_main g_out]; auto.
    - rewrite Em in H4. exact H4.
    - intros j. destruct (Nat.eq_dec j i) as [->|N]; [rewrite fupd_eq; auto|rewrite fupd_neq by assumption; apply H9].
    - destruct H10 as (L1 & L2 & O1 & O2 & O3 & O4 & O5).
      assert (NI : ~ In i (L1 ++ L2)) by (intros X; apply O3 in X; destruct X; contradiction).
      unfold output_ok. cbn.
      destruct (Nat.eqb_spec (g_generated g) n) as [E|E]; cbn [negb] in Eo; subst o.
      + exists L1, (L2 ++ [i]). rewrite O1, map_app, <- app_assoc. split; [reflexivity|]. rewrite !app_assoc. split.
        { apply (Permutation_NoDup (l := i :: L1 ++ L2)); [apply Permutation_cons_append|]. constructor; assumption. }
        split.
        { intros j. rewrite in_app_iff, O3. cbn. destruct (Nat.eq_dec j i) as [->|N].
          - rewrite fupd_eq. intuition.
          - rewrite fupd_neq by assumption. intuition congruence. }
        split; [intros _; exact E|]. intros X. destruct L2; discriminate.
      + assert (L2 = []) as -> by (destruct L2 as [|x L2]; [reflexivity|exfalso; apply E, O4; discriminate]).
        exists (L1 ++ [i]), []. rewrite !app_nil_r in *.
        split. { rewrite O1. unfold sepd. rewrite flat_map_app. reflexivity. }
        split.
        { apply (Permutation_NoDup (l := i :: L1)); [apply Permutation_cons_append|]. constructor; assumption. }
        split.
        { intros j. rewrite in_app_iff, O3. cbn. destruct (Nat.eq_dec j i) as [->|N].
          - rewrite fupd_eq. intuition.
          - rewrite fupd_neq by assumption. intuition congruence. }
        split; [congruence|]. intros _.
        assert (length (L1 ++ [i]) <= sumf (fun i => isgen (g_states g i)) n) as X.
        { assert (F : forall k, sumf (fun i => isgen (g_states g i)) k = length (filter (fun i => st_eqb (g_states g i) GENERATED) (seq 0 k))).
          { induction k as [|k IH]; [reflexivity|]. rewrite seq_S, filter_app, app_length, <- IH. simpl.
            destruct (g_states g k); reflexivity. }
          rewrite F. apply NoDup_incl_length.
          - apply (Permutation_NoDup (l := i :: L1)); [apply Permutation_cons_append|]. constructor; assumption.
          - intros x X. apply filter_In. apply in_app_iff in X. destruct X as [X|[<-|[]]].
            + apply O3 in X. destruct X as [X1 X2]. split; [apply in_seq; fold n in X1; lia|].
              destruct (H9 x) as [Y|[_ Y]]; [congruence|]. rewrite Y. reflexivity.
            + split; [apply in_seq; lia|]. rewrite Hs. reflexivity. }
        fold n in H7. rewrite <- H7, sumf_zero in X by (intros; apply Np). fold n. lia.
    - unfold main_ok in *. cbn. rewrite Em in H11. destruct H11 as [A B]. split; [fold n; lia|].
      intros j Hj. destruct (Nat.eq_dec j i) as [->|N]; [rewrite fupd_eq; reflexivity|]. rewrite fupd_neq by assumption.
      apply B. lia.
    - rewrite Em in H12. exact H12.
  Qed.

  Lemma mstep_inv g g' : Inv g -> mstep primes threads g = Some g' -> Inv g'.
  Proof.
    intros H S. unfold mstep in S. pose proof (i_main _ _ _ H) as M. unfold main_ok in M.
    pose proof (i_created _ _ _ H) as CR.
    destruct (g_main g) as [j| | |i| | | | |] eqn:Em; try discriminate.
    - destruct (Nat.ltb_spec j threads) as [L|L].
      + injection S as <-. apply create_step; assumption.
      + injection S as <-. destruct M as (M1 & M2 & M3 & M4). assert (j = threads) by lia. subst j.
        unfold unlock. apply main_step; auto.
        * split; discriminate.
        * right. right. split; [|reflexivity]. apply (i_mcrit _ _ _ H). rewrite Em. reflexivity.
        * unfold main_ok. cbn. left. split; [|fold n; lia]. intros i Hi E. cbn in E. rewrite M3 in E. discriminate.
        * intros t Ht. rewrite M4. replace (t <? threads) with true by lia. discriminate.
    - destruct (lock OMain g) as [g1|] eqn:L; [|discriminate]. injection S as <-.
      unfold lock in L. destruct (g_mutex g) eqn:E; [discriminate|]. injection L as <-.
      apply main_step; auto.
      + tauto.
      + unfold main_ok. cbn. split; [lia|]. intros i Hi. lia.
    - fold n in S. destruct (Nat.ltb_spec i n) as [L|L].
      + destruct (negb (st_eqb (g_old g i) (g_states g i)) && st_eqb (g_states g i) GENERATED)%bool eqn:B.
        * apply andb_true_iff in B. destruct B as [B1 B2].
          assert (Es : g_states g i = GENERATED) by (destruct (g_states g i); try discriminate; reflexivity).
          assert (Eo : g_old g i <> GENERATED) by (intros X; rewrite X, Es in B1; discriminate).
          destruct (i_curve _ _ _ H i L Es) as (o & Ec & _). rewrite Ec in S.
          replace (g_generated (write [OCurve i] g)) with (g_generated g) in S by reflexivity.
          rewrite Es in S.
          pose proof (print_step g i H Em L Es Eo _ eq_refl) as X.
          destruct (Nat.eqb_spec (g_generated g) n) as [E|E]; cbn [negb] in S, X; injection S as <-; [exact X|].
          replace (set_old i GENERATED (write [OSep] (write [OCurve i] g))) with (set_old i GENERATED (write [OCurve i; OSep] g)); [exact X|].
          unfold set_old, write. cbn. rewrite <- app_assoc. reflexivity.
        * injection S as <-. apply main_same; auto.
          -- rewrite Em. reflexivity.
          -- unfold main_ok. cbn. destruct M as [M1 M2]. split; [fold n; lia|]. intros j Hj E.
             destruct (Nat.eq_dec j i) as [->|N]; [|apply M2; [lia|assumption]].
             destruct (i_old _ _ _ H i) as [X|[X _]]; [|assumption]. rewrite X, E in B. discriminate.
      + injection S as <-. destruct M as [M1 M2]. apply main_same; auto.
        * rewrite Em. reflexivity.
        * unfold main_ok. cbn. intros j Hj. apply M2. fold n in Hj. lia.
    - fold n in S. destruct (Nat.eqb_spec (g_generated g) n) as [E|E].
      + injection S as <-. apply main_same; auto; [rewrite Em; reflexivity|]. unfold main_ok. cbn. split; [exact M|exact E].
      + injection S as <-. unfold unlock. apply main_step; auto.
        * split; discriminate.
        * right. right. split; [|reflexivity]. apply (i_mcrit _ _ _ H). rewrite Em. reflexivity.
        * unfold main_ok. cbn. left. split; [exact M|]. pose proof (gen_le_n primes threads Hpos g H) as GL. fold n in GL |- *. lia.
    - injection S as <-. unfold unlock. apply main_step; auto.
      + split; discriminate.
      + right. right. split; [|reflexivity]. apply (i_mcrit _ _ _ H). rewrite Em. reflexivity.
    - destruct (all_exited threads g); [|discriminate]. injection S as <-. apply main_same; auto. rewrite Em. reflexivity.
  Qed.

  Lemma spurious_inv g : Inv g -> g_main g = MWait -> Inv (set_main MWoken g).
  Proof.
    intros H Em. apply main_same; auto.
    - rewrite Em. reflexivity.
    - exact I.
    - intros t Ht. apply (i_created _ _ _ H); [rewrite Em; reflexivity|assumption].
  Qed.

  Lemma estep_inv e g g' : Inv g -> estep primes threads e g = Some g' -> Inv g'.
  Proof.
    intros H S. destruct e as [t o ok| |]; cbn [estep] in S.
    - destruct (Nat.ltb_spec t threads) as [L|L]; [|discriminate]. eapply tstep_inv; eassumption.
    - eapply mstep_inv; eassumption.
    - destruct (g_main g) eqn:E; try discriminate. injection S as <-. apply spurious_inv; assumption.
  Qed.

  Lemma exec_inv es : forall g g', Inv g -> exec primes threads es g = Some g' -> Inv g'.
  Proof.
    induction es as [|e es IH]; intros g g' H S; cbn in S.
    - injection S as <-. assumption.
    - destruct (estep primes threads e g) as [g1|] eqn:E; [|discriminate]. eapply IH; [|eassumption].
      eapply estep_inv; eassumption.
  Qed.

  Lemma reach_inv es g : exec primes threads es start = Some g -> Inv g.
  Proof. apply exec_inv. apply start_inv. exact Hpos. Qed.
End Steps.
