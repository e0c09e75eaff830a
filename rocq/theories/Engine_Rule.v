(** A reasoning rule for the engine that follows the state: what holds before a stage, what its generator
    establishes, and what is left after going back. *)
From Verif Require Import Base Engine_Model Engine_Proofs.
Local Open Scope Z_scope.

Section Rule.
Context {W : Type}.
Variable su : setup W.
Variables start_offset end_offset retry : Z.
(** [R k]: before the stage k; [Q k]: after its generator; [F]: when the engine gives up *)
Variable R Q : Z -> W -> Prop.
Variable F : W -> Prop.

(** stage [k] ended with [d] <= 0: the engine gives up, or goes back through the undo hooks *)
Definition back (k d : Z) (w : W) : Prop :=
  (d = INT_MIN \/ k + d < 0 -> F w) /\
  (d <> INT_MIN -> 0 <= k + d -> (retry <> 0 -> F w) /\
     forall ev w2, unroll_loop su (Z.to_nat (k - Z.max start_offset (k + d))) k (Z.max start_offset (k + d)) w = (ev, Some w2) ->
     R (Z.max start_offset (k + d)) w2).

Hypothesis Hgen : forall k g w a w' a' o, start_offset <= k < end_offset ->
  generators su k = Some g -> R k w -> g w a = (w', a', o) ->
  match o with Ret d => (0 < d -> d = 1 /\ Q k w') /\ (d <= 0 -> back k d w') | Timeout => back k (start_offset - k) w' end.
Hypothesis Hcheck : forall k cs c w, start_offset <= k < end_offset -> validators su k = Some cs -> In c cs -> Q k w ->
  (0 < snd (c w) -> fst (c w) = w) /\ (snd (c w) <= 0 -> back k (snd (c w)) (fst (c w))).
Hypothesis Hpost : forall k w, start_offset <= k < end_offset -> Q k w ->
  (forall cs c, validators su k = Some cs -> In c cs -> 0 < snd (c w)) -> R (k + 1) w.

Lemma rule_checks k (cs : list (W -> W * Z)) : forall i w diff ev w' d,
  (forall c, In c cs -> (0 < snd (c w) -> fst (c w) = w) /\ (snd (c w) <= 0 -> back k (snd (c w)) (fst (c w)))) ->
  run_checks k i cs w diff = (ev, w', d) -> 0 < diff ->
  (0 < d -> w' = w /\ d = diff /\ forall c, In c cs -> 0 < snd (c w)) /\ (d <= 0 -> back k d w').
Proof.
  induction cs as [|c cs IH]; intros i w diff ev w' d Hc H Hd; simpl in H.
  - injection H as <- <- <-. split; [|lia]. intros _. split; [reflexivity|]. split; [reflexivity|]. intros c [].
  - pose proof (Hc c (or_introl eq_refl)) as Hw. destruct (c w) as [w1 nd] eqn:Ec. simpl in Hw.
    destruct Hw as [Hw Hk]. destruct (Z.leb_spec nd 0).
    + injection H as <- <- <-. split; [lia|exact Hk].
    + specialize (Hw ltac:(lia)). subst w1.
      destruct (run_checks k (S i) cs w diff) as [[e2 w2] d2] eqn:E. injection H as <- <- <-.
      destruct (IH _ _ _ _ _ _ (fun c Hin => Hc c (or_intror Hin)) E Hd) as [H1 H2].
      split; [|exact H2]. intros Hp. destruct (H1 Hp) as (-> & -> & H3). split; [reflexivity|]. split; [reflexivity|].
      intros c' [<-|Hin]; [rewrite Ec; simpl; lia|auto].
Qed.

Lemma max_target s d : Z.max start_offset (s + d) = (if s + d <? start_offset then start_offset else s + d).
Proof. destruct (Z.ltb_spec (s + d) start_offset); lia. Qed.

Hypothesis off : start_offset < end_offset.
Lemma rule_step l ev x : start_offset <= state l < end_offset -> R (state l) (world l) ->
  step su start_offset retry l = (ev, x) ->
  match x with
  | inl l' => start_offset <= state l' <= end_offset /\ R (state l') (world l')
  | inr (Returned r) => r = 0 /\ F (stopped su start_offset l)
  | inr NoFuel => False
  | inr Undef => generators su (state l) = None \/ INT_MAX < state l + 1
  | inr Stuck => exists t w, start_offset <= t <= state l /\ snd (unroll_loop su (Z.to_nat (state l - t)) (state l) t w) = None
  end.
Proof.
  intros Hs HR H. unfold step in H. unfold stopped.
  destruct (generators su (state l)) as [g|] eqn:Eg; [|injection H as <- <-; now left].
  destruct (g (world l) (avma l)) as [[w1 b] o] eqn:Ec.
  pose proof (Hgen _ _ _ _ _ _ _ Hs Eg HR Ec) as HG.
  set (s := state l) in *.
  set (diff0 := match o with Ret d => d | Timeout => start_offset - s end) in *.
  set (E := match validators su s with Some cs => _ | None => _ end) in *.
  assert (HE : (0 < snd E -> Q s (snd (fst E)) /\ snd E = 1 /\
             forall cs c, validators su s = Some cs -> In c cs -> 0 < snd (c (snd (fst E)))) /\
             (snd E <= 0 -> back s (snd E) (snd (fst E))) /\
             snd (fst E) = match validators su s with Some cs => if 0 <? diff0 then snd (fst (run_checks s 0 cs w1 diff0)) else w1 | None => w1 end).
  { unfold E.
    assert (H0 : (0 < diff0 -> diff0 = 1 /\ Q s w1) /\ (diff0 <= 0 -> back s diff0 w1)).
    { unfold diff0. destruct o; [exact HG|]. split; [lia|intros _; exact HG]. }
    destruct (validators su s) as [cs|] eqn:Ev.
    - destruct (Z.ltb_spec 0 diff0) as [L|L].
      + destruct (run_checks s 0 cs w1 diff0) as [[e2 w2] d2] eqn:Rc. cbn [fst snd].
        destruct H0 as [H0 _]. destruct (H0 L) as [D1 Q1].
        destruct (rule_checks s cs _ _ _ _ _ _ (fun c Hin => Hcheck s cs c w1 Hs Ev Hin Q1) Rc L) as [X1 X2].
        split; [|split; [exact X2|reflexivity]]. intros Hp. destruct (X1 Hp) as (-> & -> & X3).
        split; [exact Q1|]. split; [exact D1|]. intros cs' c Hcs Hin. injection Hcs as <-. auto.
      + cbn [fst snd]. split; [lia|]. split; [|reflexivity]. exact (proj2 H0).
    - cbn [fst snd]. split; [|split; [exact (proj2 H0)|reflexivity]]. intros Hp. destruct H0 as [H0 _]. destruct (H0 Hp) as [D1 Q1].
      split; [exact Q1|]. split; [exact D1|]. intros cs c Hcs. discriminate. }
  clearbody E. destruct E as [[ev1 w2] diff]. cbn [fst snd] in HE. destruct HE as (H1 & H2 & H3). fold diff0. rewrite <- H3. clear H3.
  rewrite Z.gtb_ltb in H. destruct (Z.ltb_spec INT_MAX (s + diff)); [injection H as <- <-; right; lia|].
  rewrite <- max_target in H. destruct (Z.leb_spec diff 0).
  - specialize (H2 ltac:(lia)). destruct H2 as [B1 B2].
    destruct ((diff =? INT_MIN) || (s + diff <? 0)) eqn:Eb.
    + injection H as <- <-. split; [reflexivity|]. apply B1. apply orb_true_iff in Eb. destruct Eb as [Eb|Eb]; [left|right]; lia.
    + apply orb_false_iff in Eb. destruct Eb as [Eb1 Eb2]. apply Z.eqb_neq in Eb1. apply Z.ltb_ge in Eb2.
      specialize (B2 Eb1 Eb2). destruct B2 as [B2 B3].
      destruct (negb (retry =? 0) && (tries l s + 1 >=? retry)) eqn:Er.
      * injection H as <- <-. split; [reflexivity|]. apply B2. apply andb_true_iff in Er. destruct Er as [Er _].
        apply negb_true_iff in Er. now apply Z.eqb_neq in Er.
      * destruct (unroll_loop su _ s _ w2) as [e2 [w3|]] eqn:Eu; injection H as <- <-; [|exists (Z.max start_offset (s + diff)), w2; split; [lia|]; fold s; now rewrite Eu].
        cbn [state world]. split; [lia|]. apply (B3 _ _ eq_refl).
  - destruct (H1 ltac:(lia)) as (HQ & -> & Hc). injection H as <- <-. cbn [state world].
    replace (Z.max start_offset (s + 1)) with (s + 1) by lia. split; [lia|]. apply Hpost; assumption.
Qed.

(** nothing is left undefined *)
Hypothesis Dgen : forall k, start_offset <= k < end_offset -> generators su k <> None.
Hypothesis Dund : forall k t w, start_offset <= t <= k -> k < end_offset -> snd (unroll_loop su (Z.to_nat (k - t)) k t w) <> None.
Hypothesis Dmax : end_offset <= INT_MAX.
Lemma rule_run f : forall l tr r w, start_offset <= state l <= end_offset -> R (state l) (world l) ->
  run su start_offset end_offset retry f l = (tr, r, w) ->
  match r with Returned r => (r = 1 /\ R end_offset w) \/ (r = 0 /\ F w) | NoFuel => True | _ => False end.
Proof.
  induction f as [|f IH]; intros l tr r w Hs HR H.
  - simpl in H. destruct (Z.ltb_spec (state l) end_offset); injection H as <- <- <-; [exact I|].
    left. split; [reflexivity|]. replace end_offset with (state l) by lia. exact HR.
  - cbn [run] in H. destruct (Z.ltb_spec (state l) end_offset).
    + destruct (step su start_offset retry l) as [ev x] eqn:E.
      pose proof (rule_step l ev x ltac:(lia) HR E) as HS. destruct x as [l'|q].
      * destruct (run su start_offset end_offset retry f l') as [[tr' r'] w'] eqn:Rr.
        injection H as <- <- <-. apply (IH l' tr' r' w' (proj1 HS) (proj2 HS) Rr).
      * injection H as <- <- <-. destruct q; auto.
        -- destruct HS as [HS|HS]; [now apply (Dgen (state l)) in HS; [|lia]|lia].
        -- destruct HS as (t & w & HS & N). apply (Dund (state l) t w); [lia|lia|exact N].
    + injection H as <- <- <-. left. split; [reflexivity|]. replace end_offset with (state l) by lia. exact HR.
Qed.

Theorem rule f w av tr r w' : R start_offset w ->
  exhaustive_gen_retry su start_offset end_offset retry f w av = (tr, r, w') ->
  match r with Returned r => (r = 1 /\ R end_offset w') \/ (r = 0 /\ F w') | NoFuel => True | _ => False end.
Proof.
  intros H0 H. unfold exhaustive_gen_retry in H.
  destruct (Z.eqb_spec start_offset end_offset); [lia|]. rewrite Z.gtb_ltb in H. destruct (Z.ltb_spec end_offset start_offset); [lia|].
  apply (rule_run f _ tr r w') in H; cbn [state world]; [exact H|lia|exact H0].
Qed.
End Rule.
Print Assumptions rule.
