(** A search that is given one more field reads that field: what is read for a curve is used for it. *)
From Coq Require Import Ascii.
From Verif Require Import Base Cli_Model Whole_Model.
From Verif Require Plan_Model Engine_Model.
Local Open Scope Z_scope.
Local Open Scope list_scope.

(** ** What holds after every call holds after a step *)
Section Step.
Context {W : Type}.
Variable su : Engine_Model.setup W.
Variables s0 e0 retry : Z.
Variable J : W -> Prop.
Hypothesis check_J : forall k cs c w, Engine_Model.validators su k = Some cs -> In c cs -> J w -> J (fst (c w)).
Hypothesis undo_J : forall k u w, Engine_Model.unrolls su k = Some u -> J w -> J (fst (u w)).
Lemma checks_J k (cs : list (W -> W * Z)) : (forall c w, In c cs -> J w -> J (fst (c w))) -> forall i w diff, J w -> J (snd (fst (Engine_Model.run_checks k i cs w diff))).
Proof.
  induction cs as [|c cs IH]; intros H i w diff Jw; [exact Jw|]. cbn [Engine_Model.run_checks]. pose proof (H c w (or_introl eq_refl) Jw) as Jc.
  destruct (c w) as (w', nd). cbn [fst] in Jc. destruct (nd <=? 0); [exact Jc|].
  specialize (IH (fun c w I => H c w (or_intror I)) (S i) w' diff Jc). destruct (Engine_Model.run_checks k (S i) cs w' diff) as [[ev w2] d]. exact IH.
Qed.
Lemma undone_J n : forall i t w w', J w -> snd (Engine_Model.unroll_loop su n i t w) = Some w' -> J w'.
Proof.
  induction n as [|n IH]; intros i t w w' Jw H; cbn [Engine_Model.unroll_loop] in H; destruct (i >? t); try discriminate H; try (injection H as <-; exact Jw).
  destruct (Engine_Model.unrolls su i) as [u|] eqn:U; [|exact (IH _ _ _ _ Jw H)]. pose proof (undo_J i u w U Jw) as Ju. destruct (u w) as (w1, r). cbn [fst] in Ju.
  destruct (r >=? 0); [discriminate H|]. specialize (IH (i + r) t w1 w' Ju). destruct (Engine_Model.unroll_loop su n (i + r) t w1) as (ev, o). exact (IH H).
Qed.
Lemma step_J l : J (Engine_Model.world l) ->
  (forall g, Engine_Model.generators su (Engine_Model.state l) = Some g -> J (fst (fst (g (Engine_Model.world l) (Engine_Model.avma l))))) ->
  J (Engine_Model.stopped su s0 l) /\ forall ev l', Engine_Model.step su s0 retry l = (ev, inl l') -> J (Engine_Model.world l').
Proof.
  intros Jw HG. unfold Engine_Model.stopped, Engine_Model.step. destruct (Engine_Model.generators su (Engine_Model.state l)) as [g|]; [|split; [exact Jw|intros ev l' H; discriminate H]].
  specialize (HG g eq_refl). destruct (g (Engine_Model.world l) (Engine_Model.avma l)) as [[w1 av1] o]. cbn [fst] in HG. cbv zeta.
  set (diff0 := match o with Engine_Model.Ret d => d | Engine_Model.Timeout => s0 - Engine_Model.state l end).
  assert (C : J (snd (fst (match Engine_Model.validators su (Engine_Model.state l) with
    | Some cs => if 0 <? diff0 then Engine_Model.run_checks (Engine_Model.state l) 0 cs w1 diff0 else ([], w1, diff0) | None => ([], w1, diff0) end)))).
  { destruct (Engine_Model.validators su (Engine_Model.state l)) as [cs|] eqn:V; [|exact HG]. destruct (0 <? diff0); [|exact HG].
    apply checks_J; [|exact HG]. intros c w I. exact (check_J _ _ _ _ V I). }
  split.
  - destruct (Engine_Model.validators su (Engine_Model.state l)) as [cs|]; [|exact C]. destruct (0 <? diff0); exact C.
  - intros ev l' H. destruct (match Engine_Model.validators su (Engine_Model.state l) with
    | Some cs => if 0 <? diff0 then Engine_Model.run_checks (Engine_Model.state l) 0 cs w1 diff0 else ([], w1, diff0) | None => ([], w1, diff0) end) as [[ev1 w2] diff].
    cbn [fst snd] in C. destruct (_ >? Engine_Model.INT_MAX); [discriminate H|]. destruct (diff <=? 0); [|injection H as <- <-; exact C].
    destruct (_ || _)%bool; [discriminate H|]. destruct (_ && _)%bool; [discriminate H|].
    match type of H with context [Engine_Model.unroll_loop su ?n ?i ?t ?w] => pose proof (undone_J n i t w) as U; destruct (Engine_Model.unroll_loop su n i t w) as (ev2, o2) end.
    destruct o2 as [w3|]; [|discriminate H]. specialize (U w3 C eq_refl). injection H as <- <-. exact U.
Qed.
Hypothesis gen_J : forall k g w av, Engine_Model.generators su k = Some g -> J w -> J (fst (fst (g w av))).
Lemma run_J f : forall l ev r w, J (Engine_Model.world l) -> Engine_Model.run su s0 e0 retry f l = (ev, r, w) -> J w.
Proof.
  induction f as [|f IH]; intros l ev r w Jw H; cbn [Engine_Model.run] in H; destruct (Engine_Model.state l <? e0); try (injection H as <- <- <-; exact Jw).
  destruct (step_J l Jw (fun g G => gen_J _ g _ _ G Jw)) as (A & B). destruct (Engine_Model.step su s0 retry l) as (ev1, [l'|r1]) eqn:S; [|injection H as _ _ <-; exact A].
  specialize (IH l'). destruct (Engine_Model.run su s0 e0 retry f l') as [[ev' r'] w'] eqn:R. injection H as _ _ <-. exact (IH _ _ _ (B _ _ eq_refl) eq_refl).
Qed.
End Step.

(** setups that differ in the generators only do the same step when the call that is due does the same *)
Lemma step_same {W} (su1 su2 : Engine_Model.setup W) s0 retry l g1 g2 :
  Engine_Model.validators su1 = Engine_Model.validators su2 -> Engine_Model.unrolls su1 = Engine_Model.unrolls su2 ->
  Engine_Model.generators su1 (Engine_Model.state l) = Some g1 -> Engine_Model.generators su2 (Engine_Model.state l) = Some g2 ->
  g1 (Engine_Model.world l) (Engine_Model.avma l) = g2 (Engine_Model.world l) (Engine_Model.avma l) ->
  Engine_Model.step su1 s0 retry l = Engine_Model.step su2 s0 retry l.
Proof.
  intros V U G1 G2 E. unfold Engine_Model.step. rewrite G1, G2, E, V.
  assert (X : forall n i t w, Engine_Model.unroll_loop su1 n i t w = Engine_Model.unroll_loop su2 n i t w).
  { induction n as [|n IH]; intros i t w; cbn [Engine_Model.unroll_loop]; [reflexivity|]. rewrite U. destruct (i >? t); [|reflexivity].
    destruct (Engine_Model.unrolls su2 i) as [u|]; [|apply IH]. destruct (u w) as (w1, r). now rewrite IH. }
  destruct (g2 (Engine_Model.world l) (Engine_Model.avma l)) as [[w1 av1] o].
  destruct (match Engine_Model.validators su2 (Engine_Model.state l) with Some cs => _ | None => _ end) as [[ev1 w2] diff]. now rewrite X.
Qed.

(** ** The fields that a search reads *)
Section Reads.
Variable P : pari.
Variable cfg : config.
Variable hexw : Z -> str.
Variable tries : nat.
Variable delim : ascii.
Variable draws : nat -> draw.
Variable su : Plan_Model.setup_t.
Notation stage l := (stage P cfg tries delim l draws).
Notation eng l := (engine_setup P cfg hexw tries delim l draws su).

Lemma unread f arg d t t' k : reads f = false -> generator P cfg tries delim f arg d t k = generator P cfg tries delim f arg d t' k.
Proof. destruct f; try discriminate; reflexivity. Qed.
Lemma stage_pos l f arg w av : let w' := fst (fst (stage l f arg w av)) in
  (w_pos w <= w_pos w')%nat /\ ((w_pos w <= length l)%nat -> (w_pos w' <= length l)%nat) /\
  ((w_pos w <= length l)%nat -> w_wrong w <> Some Starved -> w_wrong w' = Some Starved -> w_pos w = length l /\ (reads f && (negb (d_timeout (draws (w_calls w))) || d_ate (draws (w_calls w))))%bool = true).
Proof.
  cbv zeta. unfold Whole_Model.stage. set (eats := (_ && (_ || _))%bool).
  destruct eats; cbn [andb]; [destruct (Nat.leb_spec (length l) (w_pos w)) as [L|L]|].
  - cbn [fst w_pos w_wrong]. split; [lia|]. split; [lia|]. intros A _ _. split; [lia|reflexivity].
  - destruct (d_timeout _); [cbn [fst w_pos w_wrong]; split; [lia|]; split; [lia|congruence]|].
    destruct (generator _ _ _ _ _ _ _ _ _) as [[k r]| | |]; cbn [fst w_pos w_wrong outcome]; (split; [lia|]; split; [lia|]); congruence.
  - destruct (d_timeout _); [cbn [fst w_pos w_wrong]; split; [lia|]; split; [lia|congruence]|].
    destruct (generator _ _ _ _ _ _ _ _ _) as [[k r]| | |]; cbn [fst w_pos w_wrong outcome]; (split; [lia|]; split; [lia|]); congruence.
Qed.
Lemma stage_more l t f arg w av : (w_pos w <= length l)%nat -> w_wrong w <> Some Starved ->
  stage l f arg w av = stage (l ++ [t]) f arg w av /\ w_wrong (fst (fst (stage l f arg w av))) <> Some Starved \/
  snd (stage l f arg w av) = Engine_Model.Ret Engine_Model.INT_MIN /\ (length l < w_pos (fst (fst (stage (l ++ [t]) f arg w av))))%nat.
Proof.
  intros L NS. destruct (stage_pos l f arg w av) as (_ & _ & ST). cbv zeta in ST. specialize (ST L NS).
  unfold Whole_Model.stage in *. set (eats := (_ && (_ || _))%bool) in *. rewrite app_length. cbn [length].
  destruct eats eqn:EA; cbn [andb] in *.
  - destruct (Nat.leb_spec (length l) (w_pos w)) as [X|X]; [right|left].
    + split; [reflexivity|]. destruct (Nat.leb_spec (length l + 1) (w_pos w)); [lia|].
      destruct (d_timeout _); [cbn; lia|]. destruct (generator _ _ _ _ _ _ _ _ _) as [[k r]| | |]; cbn; lia.
    + destruct (Nat.leb_spec (length l + 1) (w_pos w)); [lia|]. rewrite (app_nth1 l [t] [] X). split; [reflexivity|].
      intros Y. apply ST in Y. lia.
  - left. split; [|intros Y; apply ST in Y; destruct Y as (_ & Y); discriminate Y].
    destruct (d_timeout (draws (w_calls w))) eqn:T; [reflexivity|]. assert (R : reads f = false).
    { unfold eats in EA. destruct (reads f); [|reflexivity]. discriminate EA. }
    now rewrite (unread f arg _ (nth (w_pos w) l []) (nth (w_pos w) (l ++ [t]) []) _ R).
Qed.

Lemma eng_generators l k g : Engine_Model.generators (eng l) k = Some g -> exists f, g = stage l f (cell (Plan_Model.s_gargs su) k) /\ cell (Plan_Model.s_gens su) k = Some f.
Proof. cbn. destruct (cell (Plan_Model.s_gens su) k) as [f|]; [|discriminate]. intros [= <-]. exists f. auto. Qed.
Lemma eng_checks (J : world -> Prop) l : (forall w k o, J w -> (o <> Some Starved) -> J (mkWorld (w_curve w) k (w_pos w) o)) ->
  forall k cs c w, Engine_Model.validators (eng l) k = Some cs -> In c cs -> J w -> J (fst (c w)).
Proof.
  intros H k cs c w V I Jw. cbn in V. destruct (cell (Plan_Model.s_checks su) k) as [fs|]; [|discriminate V]. injection V as <-.
  apply in_map_iff in I. destruct I as (f & <- & _). unfold validator. destruct (check P hexw f _ (w_curve w)); cbn [fst]; [exact Jw|..]; apply H; auto; discriminate.
Qed.
Lemma eng_undo (J : world -> Prop) l : (forall w k, J w -> J (mkWorld k (w_calls w) (w_pos w) (w_wrong w))) ->
  forall k u w, Engine_Model.unrolls (eng l) k = Some u -> J w -> J (fst (u w)).
Proof. intros H k u w V Jw. cbn in V. destruct (cell (Plan_Model.s_unrolls su) k) as [f|]; [|discriminate V]. injection V as <-. cbn. now apply H. Qed.

Lemma run_more l t f : forall loc, (w_pos (Engine_Model.world loc) <= length l)%nat -> w_wrong (Engine_Model.world loc) <> Some Starved ->
  w_wrong (snd (Engine_Model.run (eng l) 0 9 0 f loc)) = Some Starved -> (length l < w_pos (snd (Engine_Model.run (eng (l ++ [t])) 0 9 0 f loc)))%nat.
Proof.
  induction f as [|f IH]; intros loc L NS H; cbn [Engine_Model.run] in *; destruct (Engine_Model.state loc <? 9) eqn:E9; try contradiction.
  assert (GE : Engine_Model.generators (eng l) (Engine_Model.state loc) = None -> Engine_Model.generators (eng (l ++ [t])) (Engine_Model.state loc) = None)
    by (cbn; destruct (cell (Plan_Model.s_gens su) (Engine_Model.state loc)); [discriminate|reflexivity]).
  destruct (Engine_Model.generators (eng l) (Engine_Model.state loc)) as [g|] eqn:G.
  2: { exfalso. unfold Engine_Model.step, Engine_Model.stopped in H. rewrite G in H. exact (NS H). }
  clear GE. destruct (eng_generators l _ _ G) as (fn & -> & Cf).
  assert (G2 : Engine_Model.generators (eng (l ++ [t])) (Engine_Model.state loc) = Some (stage (l ++ [t]) fn (cell (Plan_Model.s_gargs su) (Engine_Model.state loc)))) by (cbn; now rewrite Cf).
  destruct (stage_more l t fn (cell (Plan_Model.s_gargs su) (Engine_Model.state loc)) (Engine_Model.world loc) (Engine_Model.avma loc) L NS) as [(SE & NS2)|(R & PO)].
  - (* the call does the same *)
    assert (ST : let J := fun w => (w_pos w <= length l)%nat /\ w_wrong w <> Some Starved in
      J (Engine_Model.stopped (eng l) 0 loc) /\ forall ev l', Engine_Model.step (eng l) 0 0 loc = (ev, inl l') -> J (Engine_Model.world l')).
    { apply step_J; [apply (eng_checks (fun w => (w_pos w <= length l)%nat /\ w_wrong w <> Some Starved)); cbn; tauto|apply (eng_undo (fun w => (w_pos w <= length l)%nat /\ w_wrong w <> Some Starved)); cbn; tauto|split; assumption|].
      intros g0 G0. rewrite G in G0. injection G0 as <-. split; [|exact NS2].
      destruct (stage_pos l fn (cell (Plan_Model.s_gargs su) (Engine_Model.state loc)) (Engine_Model.world loc) (Engine_Model.avma loc)) as (_ & X & _). exact (X L). }
    cbv zeta in ST. destruct ST as ((_ & A) & B).
    rewrite <- (step_same (eng l) (eng (l ++ [t])) 0 0 loc _ _ eq_refl eq_refl G G2 SE).
    destruct (Engine_Model.step (eng l) 0 0 loc) as (ev, [l'|r]); [|cbn [snd] in H; contradiction].
    destruct (B ev l' eq_refl) as (B1 & B2). specialize (IH l' B1 B2).
    destruct (Engine_Model.run (eng l) 0 9 0 f l') as [[e1 r1] w1], (Engine_Model.run (eng (l ++ [t])) 0 9 0 f l') as [[e2 r2] w2]. exact (IH H).
  - (* this call reads the new field *)
    clear H IH. assert (ST : let J := fun w => (length l < w_pos w)%nat in
      J (Engine_Model.stopped (eng (l ++ [t])) 0 loc) /\ forall ev l', Engine_Model.step (eng (l ++ [t])) 0 0 loc = (ev, inl l') -> J (Engine_Model.world l')).
    { unfold Engine_Model.stopped, Engine_Model.step. rewrite G2.
      destruct (stage (l ++ [t]) fn (cell (Plan_Model.s_gargs su) (Engine_Model.state loc)) (Engine_Model.world loc) (Engine_Model.avma loc)) as [[w1 av1] o] eqn:SG. cbn [fst] in PO.
      pose proof (step_J (Engine_Model.mkSetup (fun _ => Some (fun _ _ => (w1, av1, o))) (Engine_Model.validators (eng (l ++ [t]))) (Engine_Model.unrolls (eng (l ++ [t])))) 0 0 (fun w => (length l < w_pos w)%nat)
        (eng_checks (fun w => (length l < w_pos w)%nat) (l ++ [t]) ltac:(cbn; tauto)) (eng_undo (fun w => (length l < w_pos w)%nat) (l ++ [t]) ltac:(cbn; tauto))
        (Engine_Model.mkLoc (Engine_Model.state loc) w1 (Engine_Model.avma loc) (Engine_Model.tops loc) (Engine_Model.tries loc)) PO) as X.
      unfold Engine_Model.stopped, Engine_Model.step in X. cbn [Engine_Model.generators Engine_Model.state Engine_Model.world Engine_Model.avma Engine_Model.tops Engine_Model.tries Engine_Model.validators Engine_Model.unrolls] in X.
      apply X. intros g [= <-]. exact PO. }
    destruct ST as (A & B). destruct (Engine_Model.step (eng (l ++ [t])) 0 0 loc) as (ev, [l'|r]); [|exact A].
    pose proof (run_J (eng (l ++ [t])) 0 9 0 (fun w => (length l < w_pos w)%nat)
      (eng_checks (fun w => (length l < w_pos w)%nat) (l ++ [t]) ltac:(cbn; tauto)) (eng_undo (fun w => (length l < w_pos w)%nat) (l ++ [t]) ltac:(cbn; tauto))) as RJ.
    destruct (Engine_Model.run (eng (l ++ [t])) 0 9 0 f l') as [[e2 r2] w2] eqn:RR. refine (RJ _ f l' e2 r2 w2 (B ev l' eq_refl) RR).
    intros k g w av Gk Jw. destruct (eng_generators _ _ _ Gk) as (fk & -> & _).
    destruct (stage_pos (l ++ [t]) fk (cell (Plan_Model.s_gargs su) k) w av) as (M & _). cbv zeta in M. lia.
Qed.
Lemma run_bound l f loc : (w_pos (Engine_Model.world loc) <= length l)%nat -> (w_pos (snd (Engine_Model.run (eng l) 0 9 0 f loc)) <= length l)%nat.
Proof.
  intros L. pose proof (run_J (eng l) 0 9 0 (fun w => (w_pos w <= length l)%nat)
    (eng_checks (fun w => (w_pos w <= length l)%nat) l ltac:(cbn; tauto)) (eng_undo (fun w => (w_pos w <= length l)%nat) l ltac:(cbn; tauto))) as RJ.
  destruct (Engine_Model.run (eng l) 0 9 0 f loc) as [[e2 r2] w2] eqn:RR. refine (RJ _ f loc e2 r2 w2 L RR).
  intros k g w av Gk Jw. destruct (eng_generators _ _ _ Gk) as (fk & -> & _).
  destruct (stage_pos l fk (cell (Plan_Model.s_gargs su) k) w av) as (_ & M & _). exact (M Jw).
Qed.

(** a search reads no more than there is, and one more field is read when one was missing *)
Lemma search_bound l fuel av r w : search P cfg hexw tries delim l draws su fuel av = (r, w) -> (w_pos w <= length l)%nat.
Proof.
  unfold search. change (Engine_Model.exhaustive_gen (eng l) 0 9 fuel (mkWorld (curve_start draws) 0 0 None) av)
    with (Engine_Model.run (eng l) 0 9 0 fuel (Engine_Model.mkLoc 0 (mkWorld (curve_start draws) 0 0 None) av (fun i => if i =? 0 then av else 0) (fun _ => 0))).
  intros H. pose proof (run_bound l fuel (Engine_Model.mkLoc 0 (mkWorld (curve_start draws) 0 0 None) av (fun i => if i =? 0 then av else 0) (fun _ => 0)) (Nat.le_0_l _)) as B.
  destruct (Engine_Model.run _ _ _ _ _ _) as [[e q] w']. injection H as _ <-. exact B.
Qed.
Lemma search_more l t fuel av r w r' w' : search P cfg hexw tries delim l draws su fuel av = (r, w) -> w_wrong w = Some Starved ->
  search P cfg hexw tries delim (l ++ [t]) draws su fuel av = (r', w') -> (length (l ++ [t]) <= w_pos w')%nat.
Proof.
  unfold search. set (loc := Engine_Model.mkLoc 0 (mkWorld (curve_start draws) 0 0 None) av (fun i => if i =? 0 then av else 0) (fun _ => 0)).
  change (Engine_Model.exhaustive_gen (eng l) 0 9 fuel (mkWorld (curve_start draws) 0 0 None) av) with (Engine_Model.run (eng l) 0 9 0 fuel loc).
  change (Engine_Model.exhaustive_gen (eng (l ++ [t])) 0 9 fuel (mkWorld (curve_start draws) 0 0 None) av) with (Engine_Model.run (eng (l ++ [t])) 0 9 0 fuel loc).
  intros H N H'. pose proof (run_more l t fuel loc (Nat.le_0_l _) ltac:(discriminate)) as M.
  destruct (Engine_Model.run (eng l) 0 9 0 fuel loc) as [[e q] w1]. destruct (Engine_Model.run (eng (l ++ [t])) 0 9 0 fuel loc) as [[e2 q2] w2].
  injection H as _ <-. injection H' as _ <-. rewrite app_length. cbn [length snd] in *. specialize (M N). lia.
Qed.
End Reads.
