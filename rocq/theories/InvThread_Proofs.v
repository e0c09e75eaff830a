(** The invariant of the threaded invalid curve search. *)
From Coq Require Import String Znumtheory Sorting.Permutation.
From Verif Require Import Base Invalid_Model InvThread_Model.
Local Open Scope nat_scope.

(** ** Sums over indices *)
Fixpoint sumf (f : nat -> nat) (k : nat) : nat := match k with O => 0 | S k => sumf f k + f k end.

Lemma sumf_ext f g k : (forall i, i < k -> f i = g i) -> sumf f k = sumf g k.
Proof. induction k as [|k IH]; intros H; simpl; [reflexivity|]. rewrite IH, H; auto. Qed.

Lemma sumf_upd {A} (v : A -> nat) (f : nat -> A) t a k : t < k ->
  sumf (fun i => v (fupd f t a i)) k + v (f t) = sumf (fun i => v (f i)) k + v a.
Proof.
  induction k as [|k IH]; intros H; [lia|]. simpl.
  destruct (Nat.eq_dec t k) as [->|N].
  - unfold fupd at 2. rewrite Nat.eqb_refl.
    rewrite (sumf_ext (fun i => v (fupd f k a i)) (fun i => v (f i))); [lia|].
    intros i Hi. unfold fupd. replace (i =? k) with false by lia. reflexivity.
  - unfold fupd at 2. replace (k =? t) with false by lia. specialize (IH ltac:(lia)). lia.
Qed.

Lemma sumf_ge f k i : i < k -> f i <= sumf f k.
Proof. induction k as [|k IH]; intros H; [lia|]. simpl. destruct (Nat.eq_dec i k) as [->|N]; [lia|]. specialize (IH ltac:(lia)). lia. Qed.

Lemma sumf_le1 f k : (forall i, f i <= 1) -> sumf f k <= k.
Proof. intros H. induction k as [|k IH]; simpl; [lia|]. specialize (H k). lia. Qed.

Lemma sumf_full f k : (forall i, f i <= 1) -> sumf f k = k -> forall i, i < k -> f i = 1.
Proof.
  intros H. induction k as [|k IH]; simpl; intros E i Hi; [lia|].
  pose proof (sumf_le1 f k H). pose proof (H k).
  destruct (Nat.eq_dec i k) as [->|N]; [lia|]. apply IH; lia.
Qed.

Lemma sumf_zero f k : (forall i, i < k -> f i = 0) -> sumf f k = 0.
Proof. induction k as [|k IH]; intros H; simpl; [reflexivity|]. rewrite IH, H; auto. Qed.

Lemma fupd_eq {A} (f : nat -> A) t a : fupd f t a t = a.
Proof. unfold fupd. now rewrite Nat.eqb_refl. Qed.
Lemma fupd_neq {A} (f : nat -> A) t a i : i <> t -> fupd f t a i = f i.
Proof. intros H. unfold fupd. replace (i =? t) with false by lia. reflexivity. Qed.

Definition isgen (s : st) : nat := match s with GENERATED => 1 | _ => 0 end.
Lemma isgen_le1 s : isgen s <= 1. Proof. destruct s; simpl; lia. Qed.

(** ** Descending lists of indices *)
Inductive desc : nat -> list nat -> Prop :=
| desc_nil b : desc b []
| desc_cons b x l : x < b -> desc x l -> desc b (x :: l).

Lemma desc_lt b l x : desc b l -> In x l -> x < b.
Proof. induction 1 as [|b y l Hy D IH]; intros I; [destruct I|]. destruct I as [<-|I]; [assumption|]. specialize (IH I). lia. Qed.
Lemma desc_nodup b l : desc b l -> NoDup l.
Proof. induction 1 as [|b y l Hy D IH]; constructor; [|assumption]. intros I. pose proof (desc_lt _ _ _ D I). lia. Qed.
Lemma desc_weaken b b' l : desc b l -> b <= b' -> desc b' l.
Proof. intros [|b0 x l0 H D] L; constructor; [lia|assumption]. Qed.
Lemma desc_snoc b l x : desc b l -> x < b -> (forall y, In y l -> x < y) -> desc b (l ++ [x]).
Proof.
  intros D. revert x. induction D as [b|b y l Hy D IH]; intros x Hx H; simpl.
  - repeat constructor. assumption.
  - constructor; [assumption|]. apply IH; [apply H; now left|]. intros z Hz. apply H. now right.
Qed.
Lemma desc_skipn b l k : desc b l -> desc b (skipn k l).
Proof.
  intros D. revert k. induction D as [b|b x l H D IH]; intros k; destruct k; simpl; try (constructor; assumption).
  eapply desc_weaken; [apply IH|lia].
Qed.

Lemma skipn_map {A B} (f : A -> B) k l : skipn k (map f l) = map f (skipn k l).
Proof. revert l; induction k as [|k IH]; intros [|x l]; simpl; auto. Qed.

(** ** The invariant *)
Section Inv.
  Context (primes : list Z) (threads : nat).
  Let n := length primes.
  Context (Hpos : 0 < n) (Hnd : NoDup primes) (Hp : forall p, In p primes -> (0 < p < 2 ^ 63)%Z).
  Local Notation pr := (pr primes).
  Local Notation ndivides := (ndivides primes).

  Lemma pr_inj i j : i < n -> j < n -> pr i = pr j -> i = j.
  Proof. intros Hi Hj E. unfold InvThread_Model.pr in E. apply (proj1 (NoDup_nth primes 0%Z) Hnd i j Hi Hj E). Qed.

  Lemma dvd_iff x i : i < n -> dvdis x (pr i) = true <-> (pr i | x)%Z.
  Proof.
    intros Hi. assert (R : (0 < pr i < 2 ^ 63)%Z) by (apply Hp; apply nth_In; exact Hi).
    unfold dvdis, i64. rewrite Z.mod_small by lia.
    replace (pr i + 2 ^ 63 - 2 ^ 63)%Z with (pr i) by lia.
    destruct (Z.eqb_spec (pr i) 0); [lia|]. rewrite Z.eqb_eq. apply Z.mod_divide. lia.
  Qed.

  Definition crit (p : pc) : bool :=
    match p with
    | PGet | PGetUnlock _ | PClaim _ _ _ _ | PClaimUnlock _ _ | PFin _ _ _ _ | PFinAdd _ | PSignal | PFinUnlock => true
    | _ => false
    end.
  Definition fin (p : pc) : bool := match p with PFin _ _ _ _ | PFinAdd _ | PSignal => true | _ => false end.
  Definition mcrit (m : mpc) : bool := match m with MCreate _ | MScan _ | MCheck | MUnlock => true | _ => false end.
  Definition held (p : pc) : list Z :=
    match p with
    | PClaim _ _ _ acc | PClaimUnlock _ acc | PPoints _ acc | PFinLock _ acc => acc
    | PFin _ acc _ count => skipn count acc
    | _ => []
    end.
  Definition pend (p : pc) : nat := match p with PFin _ _ _ c => c | PFinAdd c => c | _ => 0 end.

  Definition picked (o : Z) (acc : list Z) (ix : list nat) : Prop :=
    acc = map pr ix /\ desc n ix /\ forall x, In x ix -> (pr x | o)%Z.

  Definition good (gen : nat) (p : pc) : Prop :=
    match p with
    | PGetUnlock v => v <= gen
    | PClaimLock o nd => nd = ndivides o
    | PClaim o nd i acc => nd = ndivides o /\ i <= n /\ exists ix, picked o acc ix /\ forall x, In x ix -> i <= x
    | PClaimUnlock o acc => exists ix, picked o acc ix
    | PPoints o acc | PFinLock o acc => acc <> [] /\ exists ix, picked o acc ix
    | PFin o acc i count => acc <> [] /\ i <= n /\ count <= length acc /\
        exists ix, picked o acc ix /\ forall x, In x (skipn count ix) -> x < i
    | PFinAdd c => 0 < c
    | PExit => n <= gen
    | PCrash => False
    | _ => True
    end.

  Definition printed (g : glob) : Prop := forall i, i < n -> g_states g i = GENERATED -> g_old g i = GENERATED.

  Definition sepd (l : list nat) : list out := flat_map (fun i => [OCurve i; OSep]) l.

  Definition main_ok (g : glob) : Prop :=
    match g_main g with
    | MCreate j => j <= threads /\ g_generated g = 0 /\ (forall i, g_states g i = FREE) /\
        forall t, g_pc g t = (if t <? j then PGetLock else PNot)
    | MWait => (printed g /\ g_generated g < n) \/ exists t, fin (g_pc g t) = true
    | MWoken => True
    | MScan k => k <= n /\ forall i, i < k -> g_states g i = GENERATED -> g_old g i = GENERATED
    | MCheck => printed g
    | MUnlock | MJoin | MDone => printed g /\ g_generated g = n
    | MCrash => False
    end.
  Definition creating (m : mpc) : bool := match m with MCreate _ => true | _ => false end.

  Definition output_ok (g : glob) : Prop :=
    exists L1 L2, g_out g = sepd L1 ++ map OCurve L2 /\ NoDup (L1 ++ L2) /\
      (forall i, In i (L1 ++ L2) <-> i < n /\ g_old g i = GENERATED) /\
      (L2 <> [] -> g_generated g = n) /\ (L2 = [] -> length L1 < n).

  Record Inv (g : glob) : Prop := {
    i_good : forall t, good (g_generated g) (g_pc g t);
    i_beyond : forall t, threads <= t -> g_pc g t = PNot;
    i_crit : forall t, crit (g_pc g t) = true <-> g_mutex g = Some (OThread t);
    i_mcrit : mcrit (g_main g) = true <-> g_mutex g = Some OMain;
    i_held : forall i, i < n -> (g_states g i = GENERATING <-> exists t, In (pr i) (held (g_pc g t)));
    i_excl : forall t t' x, In x (held (g_pc g t)) -> In x (held (g_pc g t')) -> t = t';
    i_count : g_generated g + sumf (fun t => pend (g_pc g t)) threads = sumf (fun i => isgen (g_states g i)) n;
    i_curve : forall i, i < n -> g_states g i = GENERATED -> exists o, g_curves g i = Some o /\ (pr i | o)%Z;
    i_old : forall i, g_old g i = FREE \/ g_old g i = GENERATED /\ g_states g i = GENERATED;
    i_out : output_ok g;
    i_main : main_ok g;
    i_created : creating (g_main g) = false -> forall t, t < threads -> g_pc g t <> PNot
  }.

  Lemma gen_le_n g : Inv g -> g_generated g <= n.
  Proof.
    intros H. pose proof (i_count _ H). pose proof (sumf_le1 (fun i => isgen (g_states g i)) n (fun i => isgen_le1 _)). lia.
  Qed.

  Lemma gen_full g : Inv g -> g_generated g = n -> forall i, i < n -> g_states g i = GENERATED.
  Proof.
    intros H E i Hi. pose proof (i_count _ H) as C.
    pose proof (sumf_le1 (fun i => isgen (g_states g i)) n (fun i => isgen_le1 _)) as L.
    pose proof (sumf_full (fun i => isgen (g_states g i)) n (fun i => isgen_le1 _) ltac:(lia) i Hi) as F. simpl in F.
    destruct (g_states g i); try discriminate. reflexivity.
  Qed.

  Lemma start_inv : Inv start.
  Proof.
    split; cbn [start g_states g_old g_curves g_generated g_mutex g_pc g_main g_out].
    - intros t. exact I.
    - reflexivity.
    - intros t. split; discriminate.
    - split; reflexivity.
    - intros i Hi. split; [discriminate|]. intros [t []].
    - intros t t' x [].
    - rewrite !sumf_zero; auto.
    - intros i Hi. discriminate.
    - intros i. now left.
    - exists [], []. split; [reflexivity|]. split; [constructor|]. split.
      + intros i. cbn. split; [intros []|]. intros [_ ?]; discriminate.
      + split; [congruence|]. intros _. exact Hpos.
    - cbn. repeat split; auto; lia.
    - discriminate.
  Qed.

  Lemma sumf_pend_upd g t p : t < threads ->
    sumf (fun i => pend (fupd (g_pc g) t p i)) threads + pend (g_pc g t) = sumf (fun i => pend (g_pc g i)) threads + pend p.
  Proof. apply (sumf_upd pend). Qed.

  (** ** Steps of a thread that touch only its own data and the mutex *)
  Lemma private_step g t p' m' : Inv g -> t < threads ->
    good (g_generated g) p' -> (crit p' = true <-> m' = Some (OThread t)) ->
    (m' = g_mutex g \/ (g_mutex g = None /\ m' = Some (OThread t)) \/ (g_mutex g = Some (OThread t) /\ m' = None)) ->
    held p' = held (g_pc g t) -> pend p' = pend (g_pc g t) ->
    (fin (g_pc g t) = true -> fin p' = true) -> p' <> PNot ->
    (forall j, g_main g <> MCreate j) ->
    Inv (set_pc t p' (set_mutex m' g)).
  Proof.
    intros H Ht Hg Hc Hm Hh Hpd Hf Hn Hcr. destruct H as [H1 H2 H3 H4 H5 H6 H7 H8 H9 H10 H11 H12].
    assert (Held : forall x, held (fupd (g_pc g) t p' x) = held (g_pc g x)).
    { intros x. destruct (Nat.eq_dec x t) as [->|N]; [rewrite fupd_eq; assumption|rewrite fupd_neq by assumption; reflexivity]. }
    split; cbn [set_pc set_mutex g_states g_old g_curves g_generated g_mutex g_pc g_main g_out]; auto.
    - intros x. destruct (Nat.eq_dec x t) as [->|N]; [rewrite fupd_eq; assumption|rewrite fupd_neq by assumption; apply H1].
    - intros x Hx. rewrite fupd_neq by lia. apply H2. assumption.
    - intros x. destruct (Nat.eq_dec x t) as [->|N]; [rewrite fupd_eq; assumption|].
      rewrite fupd_neq by assumption. rewrite H3. destruct Hm as [->|[[E ->]|[E ->]]]; [reflexivity| |].
      + rewrite E. split; [discriminate|]. intros [= <-]. congruence.
      + rewrite E. split; [|discriminate]. intros [= <-]. congruence.
    - rewrite H4. destruct Hm as [->|[[E ->]|[E ->]]]; [reflexivity| |]; rewrite E; split; discriminate.
    - intros i Hi. rewrite (H5 i Hi). split; intros [x Hx]; exists x; [rewrite Held|rewrite Held in Hx]; assumption.
    - intros x x' v. rewrite !Held. apply H6.
    - pose proof (sumf_pend_upd g t p' Ht). lia.
    - unfold main_ok in *. cbn. destruct (g_main g) eqn:Em; auto.
      + exfalso. now apply (Hcr j).
      + destruct H11 as [A|[x Hx]]; [left; exact A|right].
        exists x. destruct (Nat.eq_dec x t) as [->|N]; [rewrite fupd_eq; auto|rewrite fupd_neq by assumption; assumption].
    - intros Ec x Hx. destruct (Nat.eq_dec x t) as [->|N]; [rewrite fupd_eq; assumption|].
      rewrite fupd_neq by assumption. apply H12; assumption.
  Qed.

  Lemma set_mutex_same g : set_mutex (g_mutex g) g = g.
  Proof. destruct g. reflexivity. Qed.

  Lemma not_creating g t : Inv g -> g_pc g t <> PNot -> g_pc g t <> PGetLock -> forall j, g_main g <> MCreate j.
  Proof.
    intros H A B j E. pose proof (i_main _ H) as M. unfold main_ok in M. rewrite E in M.
    destruct M as (_ & _ & _ & M). specialize (M t). destruct (t <? j); contradiction.
  Qed.

  (** a thread holds the mutex only when the main thread is not creating threads *)
  Lemma free_not_creating g : Inv g -> g_mutex g <> Some OMain -> forall j, g_main g <> MCreate j.
  Proof.
    intros H A j E. apply A. apply (i_mcrit _ H). rewrite E. reflexivity.
  Qed.

  Lemma crit_holds g t : Inv g -> crit (g_pc g t) = true -> g_mutex g = Some (OThread t) /\ mcrit (g_main g) = false.
  Proof.
    intros H C. apply (i_crit _ H) in C. split; [assumption|].
    destruct (mcrit (g_main g)) eqn:E; [|reflexivity]. apply (i_mcrit _ H) in E. congruence.
  Qed.

  (** only one thread is in a critical section *)
  Lemma crit_unique g t t' : Inv g -> crit (g_pc g t) = true -> crit (g_pc g t') = true -> t = t'.
  Proof.
    intros H A B. apply (i_crit _ H) in A, B. congruence.
  Qed.

  (** ** Claiming a prime *)
  Lemma claim_step g t o nd i acc : Inv g -> t < threads ->
    g_pc g t = PClaim o nd (S i) acc -> dvdis o (pr i) = true -> g_states g i = FREE ->
    length acc < nd /\ Inv (set_pc t (PClaim o nd i (acc ++ [pr i])) (set_state i GENERATING g)).
  Proof.
    intros H Ht Ep Hd Hs.
    pose proof (i_good _ H t) as G. rewrite Ep in G. destruct G as (-> & Hi & ix & (Ea & D & Dv) & Hix).
    assert (Hin : i < n) by lia.
    assert (Ln : length acc < ndivides o).
    { unfold InvThread_Model.ndivides. rewrite Ea, map_length.
      assert (length (i :: ix) <= length (filter (fun i => dvdis o (pr i)) (seq 0 n))); [|simpl in *; fold n; lia].
      apply NoDup_incl_length.
      - constructor; [|apply (desc_nodup _ _ D)]. intros X. specialize (Hix i X). lia.
      - intros x [<-|X]; apply filter_In.
        + split; [apply in_seq; lia|assumption].
        + pose proof (desc_lt _ _ _ D X). split; [apply in_seq; lia|]. apply dvd_iff; auto. }
    split; [assumption|].
    destruct H as [H1 H2 H3 H4 H5 H6 H7 H8 H9 H10 H11 H12].
    assert (NotHeld : forall x, ~ In (pr i) (held (g_pc g x))).
    { intros x X. assert (E : g_states g i = GENERATING) by (apply (H5 i Hin); eauto). congruence. }
    assert (Held : forall x v, In v (held (fupd (g_pc g) t (PClaim o (ndivides o) i (acc ++ [pr i])) x)) <->
                     In v (held (g_pc g x)) \/ (x = t /\ v = pr i)).
    { intros x v. destruct (Nat.eq_dec x t) as [->|N].
      - rewrite fupd_eq, Ep. cbn [held]. rewrite in_app_iff. cbn. intuition congruence.
      - rewrite fupd_neq by assumption. intuition congruence. }
    split; cbn [set_pc set_state g_states g_old g_curves g_generated g_mutex g_pc g_main g_out].
    - intros x. destruct (Nat.eq_dec x t) as [->|N]; [|rewrite fupd_neq by assumption; apply H1].
      rewrite fupd_eq. cbn [good]. split; [reflexivity|]. split; [lia|]. exists (ix ++ [i]). split.
      + split; [rewrite map_app, Ea; reflexivity|]. split.
        * apply desc_snoc; [assumption|assumption|]. intros y Hy. specialize (Hix y Hy). lia.
        * intros x Hx. apply in_app_iff in Hx. destruct Hx as [Hx|[<-|[]]]; [auto|]. apply dvd_iff; assumption.
      + intros x Hx. apply in_app_iff in Hx. destruct Hx as [Hx|[<-|[]]]; [|lia]. specialize (Hix x Hx). lia.
    - intros x Hx. rewrite fupd_neq by lia. auto.
    - intros x. rewrite <- H3. destruct (Nat.eq_dec x t) as [->|N]; [rewrite fupd_eq, Ep; reflexivity|].
      rewrite fupd_neq by assumption. reflexivity.
    - assumption.
    - intros j Hj. destruct (Nat.eq_dec j i) as [->|N].
      + rewrite fupd_eq. split; [|reflexivity]. intros _. exists t. rewrite Held. right. auto.
      + rewrite fupd_neq by assumption. rewrite (H5 j Hj). split; intros [x X]; exists x.
        * rewrite Held. now left.
        * rewrite Held in X. destruct X as [X|[_ X]]; [assumption|]. exfalso. apply N. apply pr_inj; assumption.
    - intros x x' v. rewrite !Held. intros [A|[A1 A2]] [B|[B1 B2]].
      + apply (H6 x x' v A B).
      + subst v. destruct (NotHeld x A).
      + subst v. destruct (NotHeld x' B).
      + congruence.
    - assert (E1 := sumf_upd pend (g_pc g) t (PClaim o (ndivides o) i (acc ++ [pr i])) threads Ht). rewrite Ep in E1. simpl in E1.
      assert (E2 := sumf_upd isgen (g_states g) i GENERATING n Hin). rewrite Hs in E2. simpl in E2. lia.
    - intros j Hj E. destruct (Nat.eq_dec j i) as [->|N]; [rewrite fupd_eq in E; discriminate|].
      rewrite fupd_neq in E by assumption. auto.
    - intros j. destruct (H9 j) as [A|[A B]]; [now left|right]. split; [assumption|].
      rewrite fupd_neq; [assumption|]. intros ->. congruence.
    - exact H10.
    - unfold main_ok in *. cbn.
      assert (Crit : mcrit (g_main g) = false).
      { apply not_true_is_false. intros X. apply H4 in X. assert (Y : g_mutex g = Some (OThread t)) by (apply H3; rewrite Ep; reflexivity). congruence. }
      assert (Pr : printed g -> printed (set_pc t (PClaim o (ndivides o) i (acc ++ [pr i])) (set_state i GENERATING g))).
      { intros P j Hj. cbn. destruct (Nat.eq_dec j i) as [->|N]; [rewrite fupd_eq; discriminate|]. rewrite fupd_neq by assumption. apply P; assumption. }
      destruct (g_main g); try discriminate Crit; auto.
      + destruct H11 as [[A B]|[x Hx]]; [left; auto|right]. exists x.
        destruct (Nat.eq_dec x t) as [->|N]; [rewrite Ep in Hx; discriminate|rewrite fupd_neq by assumption; assumption].
      + destruct H11; auto.
      + destruct H11; auto.
    - intros Ec x Hx. destruct (Nat.eq_dec x t) as [->|N]; [rewrite fupd_eq; discriminate|].
      rewrite fupd_neq by assumption. apply H12; assumption.
  Qed.

  (** ** Finishing a prime *)
  Lemma finish_step g t o acc i count : Inv g -> t < threads ->
    g_pc g t = PFin o acc (S i) count -> nth_error acc count = Some (pr i) ->
    Inv (set_pc t (PFin o acc i (S count)) (set_curve i o (set_state i GENERATED g))).
  Proof.
    intros H Ht Ep Hn.
    pose proof (i_good _ H t) as G. rewrite Ep in G. destruct G as (Na & Hi & Hc & ix & (Ea & D & Dv) & Hix).
    assert (Hin : i < n) by lia.
    assert (Lc : count < length acc) by (apply nth_error_Some; congruence).
    assert (Sk : exists ix', skipn count ix = i :: ix' /\ skipn (S count) ix = ix' /\ In i ix).
    { rewrite Ea in Hn. rewrite nth_error_map in Hn. destruct (nth_error ix count) as [x|] eqn:Ex; [|discriminate].
      injection Hn as Hx. assert (x = i).
      { apply pr_inj; [|assumption|assumption]. apply nth_error_In in Ex. apply (desc_lt _ _ _ D Ex). }
      subst x. exists (skipn (S count) ix). split; [|split; [reflexivity|apply (nth_error_In _ _ Ex)]].
      clear - Ex. revert ix Ex. induction count as [|c IH]; intros [|y ix] Ex; simpl in *; try discriminate.
      - now injection Ex as ->.
      - apply IH. assumption. }
    destruct Sk as (ix' & Sk1 & Sk2 & Iix).
    assert (Held1 : held (g_pc g t) = pr i :: map pr ix').
    { rewrite Ep. cbn [held]. rewrite Ea, skipn_map, Sk1. reflexivity. }
    assert (Held2 : held (PFin o acc i (S count)) = map pr ix').
    { cbn [held]. rewrite Ea, skipn_map, Sk2. reflexivity. }
    assert (Dix : desc i ix').
    { pose proof (desc_skipn _ _ count D) as X. rewrite Sk1 in X. inversion X. assumption. }
    destruct H as [H1 H2 H3 H4 H5 H6 H7 H8 H9 H10 H11 H12].
    assert (Gi : g_states g i = GENERATING) by (apply (H5 i Hin); exists t; rewrite Held1; now left).
    assert (NI : ~ In (pr i) (map pr ix')).
    { intros X. apply in_map_iff in X. destruct X as (y & E & Y). pose proof (desc_lt _ _ _ Dix Y).
      apply pr_inj in E; lia. }
    split; cbn [set_pc set_state set_curve g_states g_old g_curves g_generated g_mutex g_pc g_main g_out].
    - intros x. destruct (Nat.eq_dec x t) as [->|N]; [|rewrite fupd_neq by assumption; apply H1].
      rewrite fupd_eq. cbn [good]. split; [assumption|]. split; [lia|]. split; [lia|]. exists ix. split.
      + split; [assumption|]. split; assumption.
      + rewrite Sk2. intros y Hy. apply (desc_lt _ _ _ Dix Hy).
    - intros x Hx. rewrite fupd_neq by lia. auto.
    - intros x. rewrite <- H3. destruct (Nat.eq_dec x t) as [->|N]; [rewrite fupd_eq, Ep; reflexivity|].
      rewrite fupd_neq by assumption. reflexivity.
    - assumption.
    - intros j Hj. destruct (Nat.eq_dec j i) as [->|N].
      + rewrite fupd_eq. split; [discriminate|]. intros [x X]. exfalso.
        destruct (Nat.eq_dec x t) as [->|Nx]; [rewrite fupd_eq, Held2 in X; contradiction|].
        rewrite fupd_neq in X by assumption. apply Nx. apply (H6 x t (pr i) X). rewrite Held1. now left.
      + rewrite fupd_neq by assumption. rewrite (H5 j Hj). split; intros [x X]; exists x.
        * destruct (Nat.eq_dec x t) as [->|Nx]; [rewrite fupd_eq, Held2|rewrite fupd_neq by assumption; assumption].
          rewrite Held1 in X. destruct X as [X|X]; [|assumption]. exfalso. apply N. apply pr_inj; auto.
        * destruct (Nat.eq_dec x t) as [->|Nx]; [rewrite fupd_eq, Held2 in X|rewrite fupd_neq in X by assumption; assumption].
          rewrite Held1. now right.
    - assert (Sub : forall x v, In v (held (fupd (g_pc g) t (PFin o acc i (S count)) x)) -> In v (held (g_pc g x))).
      { intros x v. destruct (Nat.eq_dec x t) as [->|Nx]; [rewrite fupd_eq, Held2, Held1; now right|].
        rewrite fupd_neq by assumption. auto. }
      intros x x' v A B. apply (H6 x x' v); apply Sub; assumption.
    - assert (E1 := sumf_upd pend (g_pc g) t (PFin o acc i (S count)) threads Ht). rewrite Ep in E1. simpl in E1.
      assert (E2 := sumf_upd isgen (g_states g) i GENERATED n Hin). rewrite Gi in E2. simpl in E2. lia.
    - intros j Hj E. destruct (Nat.eq_dec j i) as [->|N].
      + rewrite fupd_eq. exists o. split; [reflexivity|]. apply Dv. assumption.
      + rewrite fupd_neq in E by assumption. rewrite fupd_neq by assumption. auto.
    - intros j. destruct (H9 j) as [A|[A B]]; [now left|right]. split; [assumption|].
      destruct (Nat.eq_dec j i) as [->|N]; [rewrite fupd_eq; reflexivity|]. rewrite fupd_neq; assumption.
    - exact H10.
    - unfold main_ok in *. cbn.
      assert (Crit : mcrit (g_main g) = false).
      { apply not_true_is_false. intros X. apply H4 in X. assert (Y : g_mutex g = Some (OThread t)) by (apply H3; rewrite Ep; reflexivity). congruence. }
      assert (NF : g_generated g <> n).
      { intros E. pose proof (sumf_le1 (fun i => isgen (g_states g i)) n (fun i => isgen_le1 _)) as L.
        pose proof (sumf_full (fun i => isgen (g_states g i)) n (fun i => isgen_le1 _) ltac:(lia) i Hin) as F. simpl in F.
        rewrite Gi in F. discriminate. }
      destruct (g_main g); try discriminate Crit; auto.
      + right. exists t. rewrite fupd_eq. reflexivity.
      + destruct H11; contradiction.
      + destruct H11; contradiction.
    - intros Ec x Hx. destruct (Nat.eq_dec x t) as [->|N]; [rewrite fupd_eq; discriminate|].
      rewrite fupd_neq by assumption. apply H12; assumption.
  Qed.

  (** ** Adding to the counter *)
  Lemma good_mono gen gen' p : good gen p -> gen <= gen' -> good gen' p.
  Proof. destruct p; cbn [good]; auto; lia. Qed.

  Lemma add_step g t c : Inv g -> t < threads -> g_pc g t = PFinAdd c ->
    Inv (set_pc t PSignal (set_generated (g_generated g + c) g)).
  Proof.
    intros H Ht Ep. pose proof (i_good _ H t) as G. rewrite Ep in G. cbn [good] in G.
    pose proof (gen_le_n g H) as GL.
    destruct H as [H1 H2 H3 H4 H5 H6 H7 H8 H9 H10 H11 H12].
    assert (NF : g_generated g + c <= n).
    { pose proof (sumf_le1 (fun i => isgen (g_states g i)) n (fun i => isgen_le1 _)) as L.
      pose proof (sumf_ge (fun t => pend (g_pc g t)) threads t Ht) as Q. simpl in Q. rewrite Ep in Q. simpl in Q. lia. }
    assert (Held : forall x, held (fupd (g_pc g) t PSignal x) = held (g_pc g x)).
    { intros x. destruct (Nat.eq_dec x t) as [->|N]; [rewrite fupd_eq, Ep; reflexivity|rewrite fupd_neq by assumption; reflexivity]. }
    split; cbn [set_pc set_generated g_states g_old g_curves g_generated g_mutex g_pc g_main g_out]; auto.
    - intros x. destruct (Nat.eq_dec x t) as [->|N]; [rewrite fupd_eq; exact I|rewrite fupd_neq by assumption].
      apply (good_mono (g_generated g)); [apply H1|lia].
    - intros x Hx. rewrite fupd_neq by lia. auto.
    - intros x. rewrite <- H3. destruct (Nat.eq_dec x t) as [->|N]; [rewrite fupd_eq, Ep; reflexivity|].
      rewrite fupd_neq by assumption. reflexivity.
    - intros i Hi. rewrite (H5 i Hi). split; intros [x X]; exists x; [rewrite Held|rewrite Held in X]; assumption.
    - intros x x' v. rewrite !Held. apply H6.
    - assert (E1 := sumf_upd pend (g_pc g) t PSignal threads Ht). rewrite Ep in E1. simpl in E1. lia.
    - destruct H10 as (L1 & L2 & O1 & O2 & O3 & O4 & O5). exists L1, L2. repeat split; auto.
      + apply O3. assumption.
      + apply O3. assumption.
      + intros [A B]. apply O3. auto.
      + cbn. intros X. specialize (O4 X). lia.
    - unfold main_ok in *. cbn.
      assert (Crit : mcrit (g_main g) = false).
      { apply not_true_is_false. intros X. apply H4 in X. assert (Y : g_mutex g = Some (OThread t)) by (apply H3; rewrite Ep; reflexivity). congruence. }
      destruct (g_main g); try discriminate Crit; auto.
      + right. exists t. rewrite fupd_eq. reflexivity.
      + destruct H11; lia.
      + destruct H11; lia.
    - intros Ec x Hx. destruct (Nat.eq_dec x t) as [->|N]; [rewrite fupd_eq; discriminate|].
      rewrite fupd_neq by assumption. apply H12; assumption.
  Qed.

  (** ** The signal *)
  Lemma signal_step g t : Inv g -> t < threads -> g_pc g t = PSignal -> Inv (set_pc t PFinUnlock (signal g)).
  Proof.
    intros H Ht Ep.
    destruct (crit_holds g t H) as [Mx Mc]; [rewrite Ep; reflexivity|].
    pose proof (crit_unique g) as CU.
    assert (Unf : forall x, x <> t -> fin (g_pc g x) = false).
    { intros x Nx. destruct (fin (g_pc g x)) eqn:F; [|reflexivity]. exfalso. apply Nx. apply (CU x t H).
      - destruct (g_pc g x); try discriminate; reflexivity.
      - rewrite Ep. reflexivity. }
    destruct H as [H1 H2 H3 H4 H5 H6 H7 H8 H9 H10 H11 H12].
    assert (Held : forall x, held (fupd (g_pc g) t PFinUnlock x) = held (g_pc g x)).
    { intros x. destruct (Nat.eq_dec x t) as [->|N]; [rewrite fupd_eq, Ep; reflexivity|rewrite fupd_neq by assumption; reflexivity]. }
    assert (ES : g_states (signal g) = g_states g /\ g_old (signal g) = g_old g /\ g_curves (signal g) = g_curves g /\
                 g_generated (signal g) = g_generated g /\ g_mutex (signal g) = g_mutex g /\ g_pc (signal g) = g_pc g /\ g_out (signal g) = g_out g /\
                 g_main (signal g) = match g_main g with MWait => MWoken | m => m end).
    { unfold signal. destruct (g_main g) eqn:Em; repeat split; cbn; auto. }
    destruct ES as (ES1 & ES2 & ES3 & ES4 & ES5 & ES6 & ES7 & ES8).
    assert (EM : forall g', g_states g' = g_states g -> g_old g' = g_old g -> printed g -> printed g').
    { intros g' A B P i. rewrite A, B. apply P. }
    split; cbn [set_pc g_states g_old g_curves g_generated g_mutex g_pc g_main g_out];
      rewrite ?ES1, ?ES2, ?ES3, ?ES4, ?ES5, ?ES6, ?ES8; auto.
    - intros x. destruct (Nat.eq_dec x t) as [->|N]; [rewrite fupd_eq; exact I|rewrite fupd_neq by assumption; apply H1].
    - intros x Hx. rewrite fupd_neq by lia. auto.
    - intros x. rewrite <- H3. destruct (Nat.eq_dec x t) as [->|N]; [rewrite fupd_eq, Ep; reflexivity|].
      rewrite fupd_neq by assumption. reflexivity.
    - rewrite <- H4. destruct (g_main g); reflexivity.
    - intros i Hi. rewrite (H5 i Hi). split; intros [x X]; exists x; [rewrite Held|rewrite Held in X]; assumption.
    - intros x x' v. rewrite !Held. apply H6.
    - assert (E1 := sumf_upd pend (g_pc g) t PFinUnlock threads Ht). rewrite Ep in E1. simpl in E1. lia.
    - unfold output_ok in *. cbn [set_pc g_out g_old g_generated]. rewrite ES2, ES4, ES7. exact H10.
    - unfold main_ok in *. cbn [set_pc g_main g_generated g_states g_old g_pc]. rewrite ES8, ES1, ES2, ES4.
      destruct (g_main g); try discriminate Mc; auto.
      + destruct H11 as [A B]. split; [|assumption]. apply EM; cbn; auto.
      + destruct H11 as [A B]. split; [|assumption]. apply EM; cbn; auto.
    - intros Ec x Hx. destruct (Nat.eq_dec x t) as [->|N]; [rewrite fupd_eq; discriminate|].
      rewrite fupd_neq by assumption. apply H12; [|assumption]. destruct (g_main g); auto.
  Qed.
End Inv.
