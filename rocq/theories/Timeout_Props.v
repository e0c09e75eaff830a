(** C25: the timeout mechanism. *)
From Verif Require Import Base Timeout_Model.
Local Open Scope nat_scope.

(** No signal is delivered between timeout_in = true and sigsetjmp. *)
Fixpoint no_window (flush : bool) (s : tstate) (l : list action) : Prop :=
  match l with
  | [] => True
  | a :: l' =>
      match a with Deliver _ => at_pc s <> Flagged | _ => True end /\
      no_window flush (fst (exec flush s a)) l'
  end.

(** A jump is proper: a timed computation is active and the jump goes to its own
    sigsetjmp. *)
Definition proper (e : tevent) : Prop :=
  match e with
  | Jump f cur tgt _ => (f = Body \/ f = OnTimeout \/ f = Stopping) /\ tgt = Some cur
  | _ => True
  end.
(** ... and it was caused by the timer of that computation. *)
Definition own (e : tevent) : Prop :=
  match e with Jump _ cur _ t => t = cur | _ => True end.

Definition inv (s : tstate) : Prop :=
  match at_pc s with
  | Idle | Created | Armed | Cleared => timeout_in s = false
  | Flagged => timeout_in s = true
  | Body | OnTimeout | Stopping => timeout_in s = true /\ timeout_ptr s = Some (section s)
  | Crashed => False
  end.

Lemma inv_step flush s a : inv s ->
  (match a with Deliver _ => at_pc s <> Flagged | _ => True end) ->
  inv (fst (exec flush s a)) /\ Forall proper (snd (exec flush s a)).
Proof.
  intros H Hw. destruct s as [p n ti tp ar pe]. unfold inv in H; simpl in H.
  destruct a as [|t|t]; simpl in *.
  - destruct p; simpl; (split; [|repeat constructor]); unfold inv; simpl; try tauto.
    + destruct H as [-> ->]. simpl. auto.
    + destruct H as [-> ->]. simpl. auto.
  - destruct (mem t ar); simpl; (split; [exact H|constructor]).
  - destruct (mem t pe); simpl; [|split; [exact H|constructor]].
    destruct ti; simpl; [|split; [|constructor]; unfold inv; simpl; destruct p; tauto].
    destruct p; try (discriminate || contradiction || congruence);
      destruct H as [_ ->]; simpl; (split; [unfold inv; simpl; auto|constructor; [split; [auto|reflexivity]|constructor]]).
Qed.

Theorem C25_jump_partial : forall flush l,
  no_window flush initial l -> Forall proper (snd (exec_all flush initial l)).
Proof.
  intros flush.
  assert (H : forall l s, inv s -> no_window flush s l -> Forall proper (snd (exec_all flush s l))).
  { induction l as [|a l IH]; intros s Hi Hw; [constructor|]. simpl in *. destruct Hw as [Hw1 Hw2].
    destruct (inv_step flush s a Hi Hw1) as [Hi' Hp].
    destruct (exec flush s a) as [s1 e1]. simpl in *. specialize (IH s1 Hi' Hw2).
    destruct (exec_all flush s1 l) as [s2 e2]. simpl in *. apply Forall_app. auto. }
  intros l Hw. apply H; [reflexivity|assumption].
Qed.
Print Assumptions C25_jump_partial.
(** Full statement: the same without [no_window]. It is false: *)
Theorem C25_window_refuted : exists l,
  ~ Forall proper (snd (exec_all true initial l)) /\ at_pc (fst (exec_all true initial l)) = Crashed.
Proof.
  exists [Run; Run; Run; Fire 1; Deliver 1]. split; [|reflexivity].
  intros H. rewrite Forall_forall in H.
  destruct (H (Jump Flagged 1 None 1)) as [_ HH]; [vm_compute; tauto|discriminate].
Qed.
Print Assumptions C25_window_refuted.

(** In a later section the jump goes to the previous section's point. *)
Theorem C25_stale_refuted : exists l,
  In (Jump Flagged 2 (Some 1) 2) (snd (exec_all true initial l)).
Proof.
  exists [Run; Run; Run; Run; Run; Run; Run; Run; Run; Run; Fire 2; Deliver 2].
  vm_compute. tauto.
Qed.
Print Assumptions C25_stale_refuted.

(** A signal delivered outside a timed computation changes nothing but the set of pending
    signals. *)
Theorem C25_late_no_effect : forall flush l t,
  no_window flush initial l ->
  let s := fst (exec_all flush initial l) in
  at_pc s = Idle \/ at_pc s = Created \/ at_pc s = Armed \/ at_pc s = Cleared ->
  snd (exec flush s (Deliver t)) = [] /\
  exists p, fst (exec flush s (Deliver t)) =
            mkT (at_pc s) (section s) (timeout_in s) (timeout_ptr s) (armed s) p.
Proof.
  intros flush l t Hw s Hp.
  assert (Hi : inv s).
  { unfold s. clear s Hp. assert (H : inv initial) by reflexivity. revert H Hw. generalize initial.
    induction l as [|a l IH]; intros s Hi Hw; [exact Hi|]. simpl in *. destruct Hw as [Hw1 Hw2].
    destruct (inv_step flush s a Hi Hw1) as [Hi' _].
    destruct (exec flush s a) as [s1 e1]. simpl in *. specialize (IH s1 Hi' Hw2).
    destruct (exec_all flush s1 l) as [s2 e2]. exact IH. }
  assert (Ht : timeout_in s = false).
  { unfold inv in Hi. destruct (at_pc s); intuition discriminate. }
  simpl. rewrite Ht. destruct (mem t (pending s)); simpl; (split; [reflexivity|]);
    [eexists; reflexivity|]. exists (pending s). clearbody s. destruct s. simpl in *. subst. reflexivity.
Qed.
Print Assumptions C25_late_no_effect.

(** If deleting a timer leaves no pending signal, a computation is only ever interrupted
    by its own timer. *)
Definition own_inv (s : tstate) : Prop :=
  (forall t, In t (armed s) -> t = section s /\ at_pc s <> Idle /\ at_pc s <> Created) /\
  (forall t, In t (pending s) -> t = section s /\ at_pc s <> Idle /\ at_pc s <> Created).

Lemma mem_in t l : mem t l = true <-> In t l.
Proof.
  unfold mem. rewrite existsb_exists. split.
  - intros (x & Hx & He). apply Nat.eqb_eq in He. subst. assumption.
  - intros H. exists t. split; [assumption|]. apply Nat.eqb_refl.
Qed.
Lemma remove_in t x l : In x (remove t l) <-> In x l /\ x <> t.
Proof.
  unfold remove. rewrite filter_In. destruct (Nat.eqb_spec x t); simpl; intuition congruence.
Qed.

Lemma own_step s a : own_inv s -> inv s ->
  (match a with Deliver _ => at_pc s <> Flagged | _ => True end) ->
  own_inv (fst (exec true s a)) /\ Forall own (snd (exec true s a)).
Proof.
  intros [Ha Hp] Hi Hw. destruct s as [p n ti tp ar pe]. simpl in *.
  destruct a as [|t|t]; simpl.
  - unfold inv in Hi; simpl in Hi.
    destruct p; simpl; (split; [|repeat constructor]); unfold own_inv; simpl;
      try (destruct Hi as [-> _]); split; intros x Hx;
      first
      [ destruct Hx as [<-|Hx]; [repeat split; discriminate|destruct (Ha x Hx) as (? & ? & ?); congruence]
      | apply remove_in in Hx; destruct Hx as [Hx ?];
        first [destruct (Ha x Hx) as (? & ? & ?)|destruct (Hp x Hx) as (? & ? & ?)]; congruence
      | first [destruct (Ha x Hx) as (-> & ? & ?)|destruct (Hp x Hx) as (-> & ? & ?)];
        repeat split; try discriminate; congruence ].
  - destruct (mem t ar) eqn:Em; simpl; [|split; [split; assumption|constructor]].
    apply mem_in in Em. split; [|constructor]. split; simpl.
    + intros x Hx. apply remove_in in Hx. apply Ha. tauto.
    + intros x [<-|Hx]; [apply Ha; assumption|apply Hp; assumption].
  - destruct (mem t pe) eqn:Em; simpl; [|split; [split; assumption|constructor]].
    apply mem_in in Em. destruct (Hp t Em) as (-> & Hn1 & Hn2).
    destruct ti; simpl.
    + split; [|repeat constructor]. split; simpl.
      * intros x Hx. destruct (Ha x Hx) as (-> & _). destruct tp; repeat split; discriminate.
      * intros x Hx. apply remove_in in Hx. destruct Hx as [Hx Hn]. destruct (Hp x Hx). congruence.
    + split; [|constructor]. split; simpl.
      * assumption.
      * intros x Hx. apply remove_in in Hx. apply Hp. tauto.
Qed.

Theorem C25_own_timer : forall l,
  no_window true initial l -> Forall own (snd (exec_all true initial l)).
Proof.
  assert (H : forall l s, own_inv s -> inv s -> no_window true s l -> Forall own (snd (exec_all true s l))).
  { induction l as [|a l IH]; intros s Ho Hi Hw; [constructor|]. simpl in *. destruct Hw as [Hw1 Hw2].
    destruct (inv_step true s a Hi Hw1) as [Hi' _].
    destruct (own_step s a Ho Hi Hw1) as [Ho' Hp].
    destruct (exec true s a) as [s1 e1]. simpl in *. specialize (IH s1 Ho' Hi' Hw2).
    destruct (exec_all true s1 l) as [s2 e2]. simpl in *. apply Forall_app. auto. }
  intros l Hw. apply H; [split; intros x []|reflexivity|assumption].
Qed.
Print Assumptions C25_own_timer.

(** With a signal left pending by timer_delete, the next computation is cut short. *)
Theorem C25_left_pending_refuted : exists l,
  no_window false initial l /\ ~ Forall own (snd (exec_all false initial l)).
Proof.
  exists [Run; Run; Run; Run; Run; Run; Fire 1; Run; Run; Run; Run; Run; Deliver 1]. split.
  - vm_compute. repeat split; discriminate.
  - intros H. rewrite Forall_forall in H.
    assert (HH : own (Jump Body 2 (Some 2) 1)) by (apply H; vm_compute; tauto). discriminate HH.
Qed.
Print Assumptions C25_left_pending_refuted.

(** Timers: created and deleted alternately, every one deleted exactly once. *)
Fixpoint alternating (n : nat) (open : bool) (l : list tevent) : Prop :=
  match l with
  | [] => True
  | Create t :: l' => open = false /\ t = S n /\ alternating t true l'
  | Delete t :: l' => open = true /\ t = n /\ alternating n false l'
  | Jump _ _ _ _ :: l' => alternating n open l'
  end.
Definition is_open (p : pc) : bool := match p with Idle => false | _ => true end.
Fixpoint still_open (open : bool) (l : list tevent) : bool :=
  match l with
  | [] => open
  | Create _ :: l' => still_open true l'
  | Delete _ :: l' => still_open false l'
  | Jump _ _ _ _ :: l' => still_open open l'
  end.

Theorem C25_timers : forall flush l,
  no_window flush initial l ->
  alternating 0 false (snd (exec_all flush initial l)) /\
  (still_open false (snd (exec_all flush initial l)) = false <->
   at_pc (fst (exec_all flush initial l)) = Idle).
Proof.
  intros flush.
  assert (H : forall l s, inv s -> no_window flush s l ->
            alternating (section s) (is_open (at_pc s)) (snd (exec_all flush s l)) /\
            still_open (is_open (at_pc s)) (snd (exec_all flush s l)) =
            is_open (at_pc (fst (exec_all flush s l)))).
  { induction l as [|a l IH]; intros s Hi Hw; [simpl; auto|]. simpl in Hw. destruct Hw as [Hw1 Hw2].
    destruct (inv_step flush s a Hi Hw1) as [Hi' _].
    specialize (IH _ Hi' Hw2). cbn [exec_all].
    destruct (exec flush s a) as [s1 e1] eqn:E. cbn [fst] in *.
    destruct (exec_all flush s1 l) as [s2 e2]. cbn [fst snd] in *.
    destruct s as [p n ti tp ar pe]. unfold inv in Hi. simpl in Hi, Hw1.
    destruct a as [|t|t]; simpl in E.
    - destruct p; injection E as <- <-; simpl in *; try exact IH; try tauto.
      + rewrite Nat.add_1_r in IH. rewrite Nat.add_1_r. tauto.
      + destruct Hi as [-> _]. exact IH.
      + destruct Hi as [-> _]. exact IH.
    - destruct (mem t ar); injection E as <- <-; simpl in *; exact IH.
    - destruct (mem t pe); [|injection E as <- <-; simpl in *; exact IH].
      destruct ti; injection E as <- <-; simpl in *; [|exact IH].
      destruct p; try (discriminate || contradiction || congruence);
        destruct Hi as [_ ->]; exact IH. }
  intros l Hw. destruct (H l initial eq_refl Hw) as [H1 H2]. split; [exact H1|].
  change (is_open (at_pc initial)) with false in H2. rewrite H2.
  destruct (at_pc (fst (exec_all flush initial l))); simpl; intuition discriminate.
Qed.
Print Assumptions C25_timers.

(** Two sections, the first one interrupted, a late signal in between. *)
Example C25_run : exec_all false initial
  [Run; Run; Run; Run; Fire 1; Deliver 1; Run; Run; Run;
   Run; Run; Run; Run; Run; Fire 2; Run; Run; Deliver 2] =
  (mkT Idle 2 false (Some 2) [] [],
   [Create 1; Jump Body 1 (Some 1) 1; Delete 1; Create 2; Delete 2]).
Proof. reflexivity. Qed.
