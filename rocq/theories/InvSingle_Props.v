(** C38: the invalid curve search in one thread. *)
From Coq Require Import Ascii String Znumtheory Sorting.Sorted Sorting.Permutation FinFun.
From Verif Require Import Base Cli_Model Invalid_Model.
Local Open Scope Z_scope.

(** ** Specification *)
(** elements with separators exactly between consecutive ones *)
Fixpoint between (l : list nat) : list out :=
  match l with
  | [] => []
  | [x] => [OCurve x]
  | x :: t => OCurve x :: OSep :: between t
  end.

Section Spec.
  Context (primes : list Z) (curve_order : nat -> Z) (gens_ok : nat -> bool).
  (** the k-th random curve serves the i-th prime *)
  Definition hits (i k : nat) : Prop :=
    gens_ok k = true /\ exists p, nth_error primes i = Some p /\ (p | curve_order k).
  Definition first_hit (i k : nat) : Prop := hits i k /\ forall k', (k' < k)%nat -> ~ hits i k'.
End Spec.

(** ** Loops *)
Lemma for_down_inv {S} (P : nat -> S -> Prop) (f : nat -> S -> res S) : forall n s,
  P n s -> (forall i t, (i < n)%nat -> P (Datatypes.S i) t -> exists t', f i t = Ok t' /\ P i t') ->
  exists t, for_down n f s = Ok t /\ P 0%nat t.
Proof.
  induction n as [|n IH]; intros s H Hs; simpl.
  - eauto.
  - destruct (Hs n s) as (t & E & Ht); [lia|assumption|]. rewrite E. simpl. apply IH; [assumption|].
    intros i u Hi. apply Hs. lia.
Qed.

Lemma nth_error_upd {A} (l : list A) i a j : (i < length l)%nat ->
  nth_error (upd l i a) j = if (j =? i)%nat then Some a else nth_error l j.
Proof.
  revert i j. induction l as [|h t IH]; intros i j H; simpl in H; [lia|].
  destruct i, j; simpl; auto. rewrite IH by lia. reflexivity.
Qed.

Lemma filter_seq_S w n : filter w (seq 0 (S n)) = filter w (seq 0 n) ++ (if w n then [n] else []).
Proof. rewrite seq_S, filter_app. simpl. destruct (w n); reflexivity. Qed.

Section Proofs.
  Context (primes : list Z) (curve_order : nat -> Z) (gens_ok : nat -> bool).
  Let n := length primes.
  Context (Hn : Z.of_nat n < 2 ^ 64) (Hp : forall p, In p primes -> 0 < p < 2 ^ 63).
  Local Notation hits := (hits primes curve_order gens_ok).
  Local Notation first_hit := (first_hit primes curve_order gens_ok).

  Definition w (curves : list (option nat)) (order : Z) (i : nat) : bool :=
    match nth_error curves i, nth_error primes i with
    | Some None, Some p => dvdis order p
    | _, _ => false
    end.

  Lemma wanted_w curves order i : length curves = n -> (i < n)%nat ->
    wanted primes curves order i = Ok (w curves order i).
  Proof.
    intros L H. unfold wanted, w, rd.
    destruct (nth_error curves i) as [c|] eqn:E1; [|apply nth_error_None in E1; lia].
    destruct (nth_error primes i) as [p|] eqn:E2; [|apply nth_error_None in E2; unfold n in *; lia].
    simpl. destruct c; reflexivity.
  Qed.

  Lemma dvdis_iff x p : 0 < p < 2 ^ 63 -> dvdis x p = true <-> (p | x).
  Proof.
    intros H. unfold dvdis, i64. rewrite Z.mod_small by lia.
    replace (p + 2 ^ 63 - 2 ^ 63) with p by lia.
    destruct (Z.eqb_spec p 0); [lia|]. rewrite Z.eqb_eq. apply Z.mod_divide. lia.
  Qed.

  Lemma w_iff curves order i : w curves order i = true <->
    nth_error curves i = Some None /\ exists p, nth_error primes i = Some p /\ (p | order).
  Proof.
    unfold w. destruct (nth_error curves i) as [[c|]|].
    - split; [discriminate|]. intros [? ?]; discriminate.
    - destruct (nth_error primes i) as [p|] eqn:E.
      + rewrite dvdis_iff by (apply Hp; eapply nth_error_In; eassumption). split.
        * intros H. split; [reflexivity|]. exists p. auto.
        * intros [_ (p' & [= <-] & H)]. exact H.
      + split; [discriminate|]. intros [_ (p' & ? & _)]; discriminate.
    - split; [discriminate|]. intros [? ?]; discriminate.
  Qed.

  Lemma count_wanted_ok curves order : length curves = n ->
    count_wanted primes curves order = Ok (length (filter (w curves order) (seq 0 n))).
  Proof.
    intros L. unfold count_wanted.
    edestruct (for_down_inv (fun i t => (t + length (filter (w curves order) (seq 0 i)))%nat
                                        = length (filter (w curves order) (seq 0 n)))
                (fun i total => do w0 <- wanted primes curves order i; Ok (if w0 then S total else total)) n 0%nat)
      as (t & E & H).
    - reflexivity.
    - intros i t Hi H. rewrite wanted_w by assumption. simpl. eexists. split; [reflexivity|].
      rewrite <- H, filter_seq_S, app_length. destruct (w curves order i); simpl; lia.
    - fold n. rewrite E. f_equal. rewrite <- H. simpl. lia.
  Qed.

  Lemma fill_dprimes_ok curves order : length curves = n ->
    exists d, fill_dprimes primes curves order (length (filter (w curves order) (seq 0 n))) = Ok d.
  Proof.
    intros L. unfold fill_dprimes.
    set (total := length (filter (w curves order) (seq 0 n))).
    edestruct (for_to_inv (fun i s => fst s = length (filter (w curves order) (seq 0 i)) /\ length (snd s) = total)
      (fun i s => let '(j, dprimes) := s in
        do w0 <- wanted primes curves order i;
        if w0 then do p <- rd primes i; do d <- wr dprimes j p; Ok (S j, d) else Ok (j, dprimes)) n (0%nat, repeat 0 total))
      as ([j d] & E & _).
    - split; [reflexivity|]. simpl. apply repeat_length.
    - intros i [j d] Hi [H1 H2]. rewrite wanted_w by assumption. cbn [bind fst snd] in *.
      destruct (w curves order i) eqn:W.
      + assert (exists p, rd primes i = Ok p) as [p ->].
        { unfold rd. destruct (nth_error primes i) eqn:E2; [eauto|]. apply nth_error_None in E2. unfold n in *. lia. }
        cbn [bind].
        assert (J : (j < length d)%nat).
        { rewrite H2, H1. unfold total. replace n with (S i + (n - S i))%nat by lia. rewrite seq_app, filter_app, app_length.
          rewrite filter_seq_S, app_length, W. simpl. lia. }
        rewrite wr_ok by assumption. cbn [bind]. eexists. split; [reflexivity|]. cbn [fst snd].
        rewrite upd_length, filter_seq_S, app_length, W. simpl. lia.
      + eexists. split; [reflexivity|]. cbn [fst snd]. rewrite filter_seq_S, app_length, W. simpl. lia.
    - fold n. rewrite E. cbn. eauto.
  Qed.

  (** ** The invariant *)
  Fixpoint emits (m : nat) (L : list (nat * nat)) : list out :=
    match L with
    | [] => []
    | (i, _) :: t => OCurve i :: (if (S m =? n)%nat then [] else [OSep]) ++ emits (S m) t
    end.

  Lemma emits_app L : forall m M, emits m (L ++ M) = emits m L ++ emits (m + length L) M.
  Proof.
    induction L as [|[i k] L IH]; intros m M; simpl.
    - now rewrite Nat.add_0_r.
    - rewrite IH. rewrite <- app_assoc. replace (S m + length L)%nat with (m + S (length L))%nat by lia. reflexivity.
  Qed.

  Lemma emits_between L : forall m, (m + length L = n)%nat -> emits m L = between (map fst L).
  Proof.
    induction L as [|[i k] L IH]; intros m H; [reflexivity|].
    cbn [emits map fst length] in *. rewrite IH by lia.
    destruct L as [|[i' k'] L].
    - simpl in H. replace (S m =? n)%nat with true by lia. reflexivity.
    - cbn [length] in H. replace (S m =? n)%nat with false by lia. reflexivity.
  Qed.

  Definition state := (list (option nat) * nat * list out)%type.

  (** the curves up to number [bd i] have been tried for prime [i] *)
  Record Inv (bd : nat -> nat) (top : nat) (s : state) (L : list (nat * nat)) : Prop := {
    inv_len : length (fst (fst s)) = n;
    inv_cnt : snd (fst s) = length L;
    inv_out : snd s = emits 0 L;
    inv_nodup : NoDup (map fst L);
    inv_in : forall i k, In (i, k) L <-> nth_error (fst (fst s)) i = Some (Some k);
    inv_hit : forall i k, In (i, k) L -> (k < bd i)%nat /\ first_hit i k;
    inv_free : forall i, nth_error (fst (fst s)) i = Some None -> forall k, (k < bd i)%nat -> ~ hits i k;
    inv_sorted : StronglySorted (fun a b => (snd a <= snd b)%nat) L;
    inv_top : forall i, (bd i <= top)%nat
  }.

  Lemma inv_index bd top s L i k : Inv bd top s L -> In (i, k) L -> (i < n)%nat.
  Proof.
    intros H I. apply (inv_in _ _ _ _ H) in I. rewrite <- (inv_len _ _ _ _ H). apply nth_error_Some. congruence.
  Qed.

  Lemma inv_count_le bd top s L : Inv bd top s L -> (length L <= n)%nat.
  Proof.
    intros H. rewrite <- (map_length fst L), <- (seq_length n 0). apply NoDup_incl_length; [apply H|].
    intros i Hi. apply in_map_iff in Hi. destruct Hi as ([i' k] & <- & I). apply in_seq. simpl.
    pose proof (inv_index _ _ _ _ _ _ H I). lia.
  Qed.

  Lemma inv_full bd top s L : Inv bd top s L -> length L = n -> forall i, (i < n)%nat -> In i (map fst L).
  Proof.
    intros H E i Hi.
    assert (Inc : incl (seq 0 n) (map fst L)).
    { apply NoDup_length_incl; [apply H| |].
      - rewrite map_length, seq_length. lia.
      - intros j Hj. apply in_map_iff in Hj. destruct Hj as ([j' k] & <- & I). apply in_seq. simpl.
        pose proof (inv_index _ _ _ _ _ _ H I). lia. }
    apply Inc. apply in_seq. lia.
  Qed.

  Lemma ss_snoc' {A} (R : A -> A -> Prop) l x : StronglySorted R l -> (forall y, In y l -> R y x) -> StronglySorted R (l ++ [x]).
  Proof.
    induction 1 as [|y l S IH F]; intros H; simpl.
    - repeat constructor.
    - constructor.
      + apply IH. intros z Hz. apply H. now right.
      + apply Forall_app. split; [assumption|]. constructor; [|constructor]. apply H. now left.
  Qed.

  (** one step of the saving loop *)
  Lemma save_inv k i s L bd : gens_ok k = true -> (i < n)%nat ->
    bd i = k -> Inv bd (S k) s L ->
    exists s' L', save_step primes curve_order k i s = Ok s' /\
      Inv (fun j => if (j =? i)%nat then S k else bd j) (S k) s' L'.
  Proof.
    intros G Hi Hb H. destruct s as [[curves nc] o].
    unfold save_step. pose proof (inv_len _ _ _ _ H) as HL. simpl in HL.
    rewrite wanted_w by assumption. cbn [bind].
    destruct (w curves (curve_order k) i) eqn:W.
    - rewrite wr_ok by lia. cbn [bind]. apply w_iff in W. destruct W as [W1 (p & W2 & W3)].
      assert (Hk : hits i k) by (split; [assumption|exists p; auto]).
      assert (Fk : first_hit i k).
      { split; [assumption|]. intros k' Hk'. apply (inv_free _ _ _ _ H i W1). lia. }
      assert (Hnc : nc = length L) by apply (inv_cnt _ _ _ _ H).
      eexists. exists (L ++ [(i, k)]). split; [reflexivity|]. split; cbn [fst snd].
      + now rewrite upd_length.
      + rewrite app_length. simpl. lia.
      + rewrite emits_app. pose proof (inv_out _ _ _ _ H) as HO. simpl in HO. rewrite HO. cbn [emits].
        pose proof (inv_count_le _ _ _ _ H) as CL.
        fold n. rewrite u64_small by lia. rewrite Nat.add_0_l, app_nil_r.
        destruct (Nat.eqb_spec (S (length L)) n) as [E|E].
        * replace (Z.of_nat nc =? Z.of_nat n - 1) with true by lia. reflexivity.
        * replace (Z.of_nat nc =? Z.of_nat n - 1) with false by lia. rewrite <- app_assoc. reflexivity.
      + rewrite map_app. simpl. apply (Permutation_NoDup (l := i :: map fst L)).
        { apply Permutation_cons_append. }
        constructor; [|apply H]. intros I. apply in_map_iff in I. destruct I as ([i' k'] & E & I). simpl in E. subst i'.
        apply (inv_in _ _ _ _ H) in I. simpl in I. congruence.
      + intros i' k'. rewrite in_app_iff, nth_error_upd by lia. rewrite (inv_in _ _ _ _ H). cbn [fst In].
        destruct (Nat.eqb_spec i' i) as [->|N].
        * rewrite W1. split; [intros [E|[[= <-]|[]]]; [discriminate|reflexivity]|]. intros [= <-]. right. left. reflexivity.
        * split; [intros [E|[[= -> ->]|[]]]; [assumption|congruence]|]. tauto.
      + intros i' k' I. apply in_app_iff in I. destruct I as [I|[[= <- <-]|[]]].
        * destruct (inv_hit _ _ _ _ H i' k' I) as [A B]. split; [|assumption].
          destruct (Nat.eqb_spec i' i) as [->|N]; [lia|assumption].
        * rewrite Nat.eqb_refl. split; [lia|assumption].
      + intros i' I. rewrite nth_error_upd in I by lia. destruct (Nat.eqb_spec i' i) as [E0|N]; [discriminate|].
        intros k' Hk'. apply (inv_free _ _ _ _ H i' I). assumption.
      + apply ss_snoc'; [apply H|]. intros [i' k'] I. simpl.
        destruct (inv_hit _ _ _ _ H i' k' I) as [A B]. pose proof (inv_top _ _ _ _ H i'). lia.
      + intros j. destruct (j =? i)%nat; [lia|apply (inv_top _ _ _ _ H)].
    - eexists. exists L. split; [reflexivity|]. destruct H as [H1 H2 H3 H4 H5 H6 H7 H8 H9]. split; auto.
      + intros i' k' I. destruct (H6 i' k' I) as [A B]. split; [|assumption].
        destruct (Nat.eqb_spec i' i) as [->|N]; [lia|assumption].
      + intros i' I k' Hk'. destruct (Nat.eqb_spec i' i) as [->|N]; [|apply (H7 i' I k' Hk')].
        destruct (Nat.eq_dec k' k) as [->|D]; [|apply (H7 i I); lia].
        intros [_ (p & Q1 & Q2)]. assert (w curves (curve_order k) i = true); [|congruence].
        apply w_iff. split; [exact I|]. eauto.
      + intros j. destruct (j =? i)%nat; [lia|apply H9].
  Qed.

  Lemma inv_ext bd bd' top top' s L : (forall i, (i < n)%nat -> bd i = bd' i) -> (forall i, (bd' i <= top')%nat) ->
    Inv bd top s L -> Inv bd' top' s L.
  Proof.
    intros E T H.
    assert (Q : forall i k, In (i, k) L -> (i < n)%nat) by (intros i k; apply (inv_index _ _ _ _ _ _ H)).
    destruct H as [H1 H2 H3 H4 H5 H6 H7 H8 H9]. split; auto.
    - intros i k I. rewrite <- E by eauto. auto.
    - intros i I k Hk. apply (H7 i I). rewrite E; [assumption|].
      rewrite <- H1. apply nth_error_Some. congruence.
  Qed.

  Lemma save_all k s L : gens_ok k = true -> Inv (fun _ => k) k s L ->
    exists s' L', for_down n (save_step primes curve_order k) s = Ok s' /\ Inv (fun _ => S k) (S k) s' L'.
  Proof.
    intros G H.
    edestruct (for_down_inv (fun i s => exists L, Inv (fun j => if (i <=? j)%nat then S k else k) (S k) s L)
                 (save_step primes curve_order k) n s) as (s' & E & L' & H').
    - exists L. eapply inv_ext; [| |exact H].
      + intros i Hi. replace (n <=? i)%nat with false by lia. reflexivity.
      + intros i. destruct (n <=? i)%nat; lia.
    - intros i t Hi [L0 H0].
      destruct (save_inv k i t L0 (fun j => if (S i <=? j)%nat then S k else k) G Hi) as (t' & L1 & E1 & H1); [|exact H0|].
      + replace (S i <=? i)%nat with false by lia. reflexivity.
      + exists t'. split; [exact E1|]. exists L1. eapply inv_ext; [| |exact H1].
        * intros j Hj. cbv beta. destruct (Nat.eqb_spec j i), (Nat.leb_spec (S i) j), (Nat.leb_spec i j); lia.
        * intros j. destruct (i <=? j)%nat; lia.
    - exists s', L'. split; [exact E|]. eapply inv_ext; [| |exact H']; intros; simpl; lia.
  Qed.

  Lemma loop_inv fuel : forall k s L, Inv (fun _ => k) k s L ->
    (exists s' L' k', single_loop primes curve_order gens_ok fuel k s = Ok s' /\ Inv (fun _ => k') k' s' L' /\ length L' = n) \/
    (exists s' L', single_loop primes curve_order gens_ok fuel k s = Fuel /\
       Inv (fun _ => (k + fuel)%nat) (k + fuel) s' L' /\ (length L' < n)%nat).
  Proof.
    induction fuel as [|fuel IH]; intros k s L H; destruct s as [[curves nc] o];
      pose proof (inv_cnt _ _ _ _ H) as C; cbn [fst snd] in C;
      pose proof (inv_count_le _ _ _ _ H) as CL;
      pose proof (inv_len _ _ _ _ H) as HL; cbn [fst snd] in HL; cbn [single_loop]; fold n.
    - destruct (Nat.ltb_spec nc n) as [B|B].
      + right. exists (curves, nc, o), L. split; [reflexivity|]. rewrite Nat.add_0_r. split; [assumption|lia].
      + left. exists (curves, nc, o), L, k. split; [reflexivity|]. split; [assumption|lia].
    - destruct (Nat.ltb_spec nc n) as [B|B].
      2:{ left. exists (curves, nc, o), L, k. split; [reflexivity|]. split; [assumption|lia]. }
      rewrite count_wanted_ok by assumption. cbn [bind].
      set (total := length (filter (w curves (curve_order k)) (seq 0 n))).
      replace (k + S fuel)%nat with (S k + fuel)%nat by lia.
      assert (Skip : (forall i, nth_error curves i = Some None -> ~ hits i k) -> Inv (fun _ => S k) (S k) (curves, nc, o) L).
      { intros NH. destruct H as [H1 H2 H3 H4 H5 H6 H7 H8 H9]. split; auto.
        - intros i k' I. destruct (H6 i k' I). split; [lia|assumption].
        - intros i I k' Hk'. destruct (Nat.eq_dec k' k) as [->|D]; [apply (NH i I)|apply (H7 i I); lia]. }
      destruct (Nat.ltb_spec 0 total) as [T|T].
      + destruct (gens_ok k) eqn:G.
        * destruct (fill_dprimes_ok curves (curve_order k) HL) as [d E]. fold total in E. rewrite E. cbn [bind].
          destruct (save_all k (curves, nc, o) L G H) as (s' & L' & E' & H'). rewrite E'. cbn [bind].
          apply (IH (S k) s' L' H').
        * apply (IH (S k) (curves, nc, o) L). apply Skip. intros i _ [? _]. congruence.
      + apply (IH (S k) (curves, nc, o) L). apply Skip. intros i I [_ Hh].
        assert (W : w curves (curve_order k) i = true) by (apply w_iff; auto).
        assert (In i (filter (w curves (curve_order k)) (seq 0 n))).
        { apply filter_In. split; [|assumption]. apply in_seq. rewrite <- HL. split; [lia|]. apply nth_error_Some. congruence. }
        unfold total in T. destruct (filter (w curves (curve_order k)) (seq 0 n)); [contradiction|simpl in T; lia].
  Qed.

  Lemma inv_start : Inv (fun _ => 0%nat) 0 (repeat None n, 0%nat, []) [].
  Proof.
    split; cbn [fst snd]; auto.
    - apply repeat_length.
    - constructor.
    - intros i k. split; [intros []|]. intros H. apply nth_error_In, repeat_spec in H. discriminate.
    - intros i k [].
    - intros; lia.
    - constructor.
  Qed.

  (** C38: the search never goes out of bounds, and when it finishes, every prime has been given
      the first random curve that serves it, the curves have been printed once each, in the order
      they were found, with separators exactly between them. *)
  Theorem C38_result fuel curves nc o :
    invalid_curves_single primes curve_order gens_ok fuel = Ok (curves, nc, o) ->
    exists L : list (nat * nat),
      NoDup (map fst L) /\ (forall i, In i (map fst L) <-> (i < n)%nat) /\
      o = between (map fst L) /\
      (forall i k, In (i, k) L -> nth_error curves i = Some (Some k) /\ first_hit i k) /\
      StronglySorted (fun a b => (snd a <= snd b)%nat) L /\ nc = n /\ length curves = n.
  Proof.
    intros E. unfold invalid_curves_single in E. fold n in E.
    destruct (loop_inv fuel 0 _ _ inv_start) as [(s' & L & k' & E' & H & F)|(s' & L & E' & _)]; [|congruence].
    rewrite E in E'. injection E' as <-. exists L. split; [apply H|].
    split.
    { intros i. split; [|apply (inv_full _ _ _ _ H F)].
      intros I. apply in_map_iff in I. destruct I as ([i' k] & <- & I). apply (inv_index _ _ _ _ _ _ H I). }
    split; [rewrite <- (emits_between L 0) by assumption; apply (inv_out _ _ _ _ H)|].
    split; [|split; [apply H|split]].
    - intros i k I. split; [apply (inv_in _ _ _ _ H); assumption|]. apply (inv_hit _ _ _ _ H). assumption.
    - rewrite <- F. apply (inv_cnt _ _ _ _ H).
    - apply (inv_len _ _ _ _ H).
  Qed.

  (** it finishes as soon as every prime has been hit *)
  Theorem C38_terminates fuel :
    (forall i, (i < n)%nat -> exists k, (k < fuel)%nat /\ hits i k) ->
    exists s, invalid_curves_single primes curve_order gens_ok fuel = Ok s.
  Proof.
    intros Hh. unfold invalid_curves_single. fold n.
    destruct (loop_inv fuel 0 _ _ inv_start) as [(s' & L & k' & E' & H & F)|(s' & L & E' & H & F)].
    - eauto.
    - exfalso.
      assert (X : exists i, (i < n)%nat /\ ~ In i (map fst L)).
      { destruct (Forall_Exists_dec (fun i => In i (map fst L)) (fun i => in_dec Nat.eq_dec i (map fst L)) (seq 0 n)) as [A|A].
        - exfalso. assert (length (seq 0 n) <= length (map fst L))%nat; [|rewrite seq_length, map_length in *; lia].
          apply NoDup_incl_length; [apply seq_NoDup|]. intros i Hi. rewrite Forall_forall in A. auto.
        - apply Exists_exists in A. destruct A as (i & I & N). exists i. split; [apply in_seq in I; lia|assumption]. }
      destruct X as (i & Hi & NI). destruct (Hh i Hi) as (k & Hk & HK).
      destruct (nth_error (fst (fst s')) i) as [[k'|]|] eqn:E.
      + apply NI. apply (inv_in _ _ _ _ H) in E. apply in_map_iff. exists (i, k'). auto.
      + apply (inv_free _ _ _ _ H i E k); assumption.
      + apply nth_error_None in E. rewrite (inv_len _ _ _ _ H) in E. lia.
  Qed.

  Lemma map_renumber l : map renumber (between l) = between (map S l).
  Proof.
    induction l as [|x l IH]; [reflexivity|]. destruct l as [|y l]; [reflexivity|].
    change (between (x :: y :: l)) with (OCurve x :: OSep :: between (y :: l)).
    cbn [map renumber] in *. rewrite IH. reflexivity.
  Qed.

  (** the whole output of the method, with the original curve (number 0) first *)
  Theorem C38_output fuel o :
    primes <> [] ->
    invalid_output primes curve_order gens_ok fuel = Ok (o, true) ->
    exists l, NoDup l /\ (forall c, In c l <-> (1 <= c <= n)%nat) /\ o = OBegin :: between (0%nat :: l) ++ [OEnd].
  Proof.
    intros NE E. unfold invalid_output in E.
    replace (length primes =? 0)%nat with false in E by (destruct primes; [congruence|reflexivity]).
    apply bind_ok in E. destruct E as ([[curves nc] o'] & E1 & E2). injection E2 as <-.
    destruct (C38_result _ _ _ _ E1) as (L & N & I & O & _).
    exists (map S (map fst L)). split; [|split].
    - apply Injective_map_NoDup; [|assumption]. intros a b Hab. now injection Hab.
    - intros c. rewrite in_map_iff. split.
      + intros (x & <- & Hx). apply I in Hx. lia.
      + intros Hc. exists (c - 1)%nat. split; [lia|]. apply I. lia.
    - rewrite O, map_renumber.
      destruct L as [|[i k] L].
      + exfalso. destruct primes as [|p ps]; [congruence|]. assert (X : In 0%nat (map (@fst nat nat) [])); [|destruct X].
        apply I. unfold n. simpl. lia.
      + reflexivity.
  Qed.
End Proofs.

(** With no primes (for instance the range 0-10, see C37) the output is cut off after the
    separator that follows the original curve. *)
Theorem C38_no_primes_refuted : exists primes curve_order gens_ok fuel o,
  invalid_output primes curve_order gens_ok fuel = Ok (o, false) /\
  ~ In OEnd o /\ forall l, o <> OBegin :: between l ++ [OEnd].
Proof.
  exists [], (fun _ => 0), (fun _ => true), 5%nat. eexists. split; [reflexivity|].
  split; [cbn; intuition discriminate|]. intros l H. injection H as H. destruct l as [|x [|y l]]; try discriminate.
  injection H as _ H. destruct l; discriminate.
Qed.

(** Random curves of orders 35 (for which no generators are found), 7, 12, 14, 9, 22 and then 30,
    for the primes 2, 3, 5, 7, 11. *)
Definition ex_orders (k : nat) : Z := nth k [35; 7; 12; 14; 9; 22] 30.
Example C38_example :
  invalid_curves_single [2; 3; 5; 7; 11] ex_orders (fun k => negb (k =? 0)%nat) 10
  = Ok ([Some 2; Some 2; Some 6; Some 1; Some 5]%nat, 5%nat, between [3; 1; 0; 4; 2]%nat).
Proof. vm_compute. reflexivity. Qed.
Example C38_hypotheses :
  Z.of_nat (length [2; 3; 5; 7; 11]) < 2 ^ 64 /\ (forall p, In p [2; 3; 5; 7; 11] -> 0 < p < 2 ^ 63) /\
  (forall i, (i < 5)%nat -> exists k, (k < 10)%nat /\ hits [2; 3; 5; 7; 11] ex_orders (fun k => negb (k =? 0)%nat) i k).
Proof.
  split; [reflexivity|]. split.
  - intros p H. simpl in H. decompose [or] H; subst; try lia; contradiction.
  - intros i Hi.
    assert (D : i = 0%nat \/ i = 1%nat \/ i = 2%nat \/ i = 3%nat \/ i = 4%nat) by lia.
    decompose [or] D; subst.
    + exists 2%nat. split; [lia|]. split; [reflexivity|]. exists 2. split; [reflexivity|]. exists 6. reflexivity.
    + exists 2%nat. split; [lia|]. split; [reflexivity|]. exists 3. split; [reflexivity|]. exists 4. reflexivity.
    + exists 6%nat. split; [lia|]. split; [reflexivity|]. exists 5. split; [reflexivity|]. exists 6. reflexivity.
    + exists 1%nat. split; [lia|]. split; [reflexivity|]. exists 7. split; [reflexivity|]. exists 1. reflexivity.
    + exists 5%nat. split; [lia|]. split; [reflexivity|]. exists 11. split; [reflexivity|]. exists 2. reflexivity.
Qed.

Print Assumptions C38_result.
Print Assumptions C38_terminates.
Print Assumptions C38_output.
Print Assumptions C38_no_primes_refuted.
