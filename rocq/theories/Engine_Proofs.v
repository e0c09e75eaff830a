From Verif Require Import Base Engine_Model Engine_Spec.
Local Open Scope Z_scope.

Lemma app_split {A} (pre : list A) x rest ev ev' :
  pre ++ x :: rest = ev ++ ev' ->
  (exists m, ev = pre ++ x :: m /\ rest = m ++ ev') \/
  (exists m, pre = ev ++ m /\ ev' = m ++ x :: rest).
Proof.
  revert pre. induction ev as [|e ev IH]; intros pre H; simpl in H.
  - right. exists pre. auto.
  - destruct pre as [|p pre]; simpl in H.
    + injection H as -> ->. left. exists ev. auto.
    + injection H as -> H. destruct (IH pre H) as [(m & -> & ->)|(m & -> & ->)].
      * left. exists m. auto.
      * right. exists m. auto.
Qed.

(** The checks recorded for a stage. *)
Definition cks (s : Z) (i : nat) (rs : list Z) : list event :=
  map (fun '(i, r) => ECheck s i r) (combine (seq i (length rs)) rs).

Lemma cks_cons s i r rs : cks s i (r :: rs) = ECheck s i r :: cks s (S i) rs.
Proof. reflexivity. Qed.

Lemma cks_app s rs r : forall i, cks s i (rs ++ [r]) = cks s i rs ++ [ECheck s (i + length rs)%nat r].
Proof.
  induction rs as [|x rs IH]; intros i; simpl app.
  - rewrite cks_cons. unfold cks; simpl. rewrite Nat.add_0_r. reflexivity.
  - rewrite !cks_cons, IH. simpl. do 3 f_equal. f_equal. lia.
Qed.

Lemma cks_stage s rs : forall i, Forall (fun e => stage_of e = s) (cks s i rs).
Proof.
  induction rs as [|x rs IH]; intros i; [constructor|]. rewrite cks_cons. constructor; auto.
Qed.

Lemma cks_noask st s rs : Forall (fun r => 0 < r) rs -> forall i,
  Forall (fun e => asks st e = None) (cks s i rs).
Proof.
  induction 1 as [|x rs Hx _ IH]; intros i; [constructor|]. rewrite cks_cons. constructor; auto.
  simpl. destruct (Z.leb_spec x 0); [lia|reflexivity].
Qed.

Lemma cks_pass_app s rs tl : Forall (fun r => 0 < r) rs -> forall i,
  checks_pass (cks s i rs ++ tl) = checks_pass tl.
Proof.
  induction 1 as [|x rs Hx _ IH]; intros i; [reflexivity|]. rewrite cks_cons. simpl.
  destruct (Z.leb_spec x 0); [lia|auto].
Qed.

Lemma streak_cks k acc s rs tl : forall i, streak k acc (cks s i rs ++ tl) = streak k acc tl.
Proof.
  induction rs as [|x rs IH]; intros i; [reflexivity|]. rewrite cks_cons. simpl. apply IH.
Qed.
Lemma last_exit_cks k acc s rs tl : forall i,
  last_exit k acc (cks s i rs ++ tl) = last_exit k acc tl.
Proof.
  induction rs as [|x rs IH]; intros i; [reflexivity|]. rewrite cks_cons. simpl. apply IH.
Qed.

Lemma streak_undo k acc h n tl : forall hi, streak k acc (undo h n hi ++ tl) = streak k acc tl.
Proof.
  induction n as [|n IH]; intros hi; [reflexivity|]. simpl.
  destruct (h hi); simpl; apply IH.
Qed.
Lemma last_exit_undo k acc h n tl : forall hi,
  last_exit k acc (undo h n hi ++ tl) = last_exit k acc tl.
Proof.
  induction n as [|n IH]; intros hi; [reflexivity|]. simpl.
  destruct (h hi); simpl; apply IH.
Qed.
Lemma undo_noask st h n : forall hi, Forall (fun e => asks st e = None) (undo h n hi).
Proof.
  induction n as [|n IH]; intros hi; simpl; [constructor|].
  destruct (h hi); simpl; [constructor|]; auto.
Qed.
Lemma undo_stage h n : forall hi, Forall (fun e => hi - Z.of_nat n < stage_of e <= hi) (undo h n hi).
Proof.
  induction n as [|n IH]; intros hi; simpl undo; [constructor|].
  assert (Forall (fun e => hi - Z.of_nat (S n) < stage_of e <= hi) (undo h n (hi - 1))).
  { eapply Forall_impl; [|apply IH]. simpl. intros e. lia. }
  destruct (h hi); simpl; [constructor|]; auto. simpl. lia.
Qed.
Lemma undo_nogen h n : forall hi,
  Forall (fun e => match e with EGen _ _ _ _ => False | _ => True end) (undo h n hi).
Proof.
  induction n as [|n IH]; intros hi; simpl; [constructor|].
  destruct (h hi); simpl; [constructor|]; auto.
Qed.
Lemma cks_nogen s rs : forall i,
  Forall (fun e => match e with EGen _ _ _ _ => False | _ => True end) (cks s i rs).
Proof.
  induction rs as [|x rs IH]; intros i; [constructor|]. rewrite cks_cons. constructor; auto.
Qed.

Section Proofs.
Context {W : Type}.
Variable su : setup W.
Variables start_offset end_offset retry : Z.

Lemma run_checks_spec s (cs : list (W -> W * Z)) : forall i w diff ev w' d,
  run_checks s i cs w diff = (ev, w', d) ->
  (exists rs, length rs = length cs /\ Forall (fun r => 0 < r) rs /\
      ev = cks s i rs /\ d = diff) \/
  (exists rs, Forall (fun r => 0 < r) rs /\ d <= 0 /\
      ev = cks s i (rs ++ [d])).
Proof.
  induction cs as [|c cs IH]; intros i w diff ev w' d H; simpl in H.
  - injection H as <- <- <-. left. exists []. repeat split; auto.
  - destruct (c w) as [w1 nd]. destruct (Z.leb_spec nd 0) as [Hn|Hn].
    + injection H as <- <- <-. right. exists []. split; [constructor|]. split; [assumption|].
      reflexivity.
    + destruct (run_checks s (S i) cs w1 diff) as [[ev1 w2] d1] eqn:E.
      injection H as <- <- <-.
      destruct (IH _ _ _ _ _ _ E) as [(rs & Hl & Hp & -> & ->)|(rs & Hp & Hd & ->)].
      * left. exists (nd :: rs). rewrite cks_cons. simpl. auto.
      * right. exists (nd :: rs). simpl app. rewrite cks_cons. auto.
Qed.

Hypothesis Hhooks : hooks_ok su.
Hypothesis Hfwd : forward_one su.

Lemma unroll_spec : forall n i ns w, Z.to_nat (i - ns) = n -> ns <= i ->
  exists w', unroll_loop su n i ns w = (undo (hook su) n i, Some w').
Proof.
  induction n as [|n IH]; intros i ns w Hn Hi; simpl.
  - destruct (Z.gtb_spec i ns); [lia|]. eauto.
  - destruct (Z.gtb_spec i ns); [|lia].
    unfold hook. destruct (unrolls su i) as [u|] eqn:E.
    + pose proof (Hhooks i u w E) as Hr. destruct (u w) as [w1 r]. simpl in Hr. subst r.
      simpl. destruct (IH (i - 1) ns w1) as (w' & Hw'); [lia|lia|].
      replace (i + -1) with (i - 1) by lia. rewrite Hw'. eauto.
    + destruct (IH (i - 1) ns w) as (w' & Hw'); [lia|lia|]. rewrite Hw'. eauto.
Qed.

Definition target (s d : Z) := if s + d <? start_offset then start_offset else s + d.

(** The four ways an iteration can go. *)
Inductive outcome_of (l : @loc W) : list event -> (@loc W) + stop -> Prop :=
| OMissing : generators su (state l) = None -> outcome_of l [] (inr Undef)
| OPass a d rs w b :
    d = 1 -> length rs = nchecks su (state l) -> Forall (fun r => 0 < r) rs ->
    a = avma l ->
    outcome_of l (EGen (state l) a (Ret d) b :: cks (state l) 0 rs)
      (inl (mkLoc (state l + 1) w b (upd (tops l) (state l) (avma l))
              (upd (tries l) (state l) 0)))
| OFail pre e d (r : (@loc W * list event) + stop) :
    (exists o b rs, pre ++ [e] = EGen (state l) (avma l) o b :: cks (state l) 0 rs) ->
    Forall (fun x => asks start_offset x = None) pre ->
    asks start_offset e = Some (state l, d) -> d <= 0 ->
    match r with
    | inr q => q = Returned 0 /\
        (d = INT_MIN \/ state l + d < 0 \/ (retry <> 0 /\ tries l (state l) + 1 >= retry))
    | inl (mkLoc n w av tp tr, u) =>
        n = target (state l) d /\ d <> INT_MIN /\ 0 <= state l + d /\
        u = undo (hook su) (Z.to_nat (state l - n)) (state l) /\
        (retry = 0 /\ tr = tries l \/
         retry <> 0 /\ tries l (state l) + 1 < retry /\
         tr = upd (tries l) (state l) (tries l (state l) + 1)) /\
        tp = upd (tops l) (state l) (avma l) /\ av = tp n
    end ->
    outcome_of l (pre ++ e :: match r with inl (_, u) => u | inr _ => [] end)
      (match r with inl (l', _) => inl l' | inr q => inr q end).

Lemma step_spec l : start_offset <= state l -> state l < INT_MAX ->
  outcome_of l (fst (step su start_offset retry l)) (snd (step su start_offset retry l)).
Proof.
  intros Hs Hmax. unfold step.
  destruct (generators su (state l)) as [g|] eqn:Eg; [|constructor; assumption].
  pose proof (Hfwd _ _ (world l) (avma l) Eg) as Hf.
  destruct (g (world l) (avma l)) as [[w1 b] o]. simpl in Hf.
  set (s := state l) in *.
  set (diff0 := match o with Ret d => d | Timeout => start_offset - s end).
  set (E := match validators su s with Some cs => _ | None => _ end).
  assert (HE : (exists rs, length rs = nchecks su s /\ Forall (fun r => 0 < r) rs /\
                 fst (fst E) = cks s 0 rs /\ snd E = diff0 /\ 0 < diff0) \/
               (exists rs, Forall (fun r => 0 < r) rs /\ snd E <= 0 /\ 0 < diff0 /\
                 fst (fst E) = cks s 0 (rs ++ [snd E])) \/
               (diff0 <= 0 /\ fst (fst E) = [] /\ snd E = diff0)).
  { unfold E, nchecks. destruct (validators su s) as [cs|]; simpl.
    - destruct (Z.ltb_spec 0 diff0).
      + destruct (run_checks s 0 cs w1 diff0) as [[ev w'] d] eqn:R.
        destruct (run_checks_spec _ _ _ _ _ _ _ _ R) as [(rs & ? & ? & -> & ->)|(rs & ? & ? & ->)].
        * left. exists rs. repeat split; auto.
        * right; left. exists rs. repeat split; auto.
      + right; right. simpl. auto.
    - destruct (Z.ltb_spec 0 diff0).
      + left. exists []. repeat split; auto.
      + right; right. auto. }
  clearbody E. destruct E as [[ev1 w2] diff]. simpl in HE.
  assert (Hov : (s + diff >? INT_MAX) = false).
  { assert (diff <= 1).
    { destruct HE as [(? & ? & ? & ? & -> & ?)|[(? & ? & ? & ?)|(? & ? & ->)]]; try lia.
      unfold diff0 in *. destruct o; lia. }
    destruct (Z.gtb_spec (s + diff) INT_MAX); [lia|reflexivity]. }
  rewrite Hov. fold (target s diff).
  assert (Hasks : forall d, d <= 0 -> asks start_offset (EGen s (avma l) (Ret d) b) = Some (s, d)).
  { intros d Hd. simpl. destruct (Z.leb_spec d 0); [reflexivity|lia]. }
  destruct HE as [(rs & Hl & Hp & -> & -> & Hd0)|HE].
  - (* success *)
    destruct (Z.leb_spec diff0 0); [lia|].
    destruct o as [d|]; [|unfold diff0 in *; lia].
    assert (d = 1) by (unfold diff0 in *; lia). subst d. unfold diff0 in *.
    unfold target. destruct (Z.ltb_spec (s + 1) start_offset); [lia|].
    simpl. apply OPass; auto.
  - (* failure *)
    assert (HF : exists pre e, EGen s (avma l) o b :: ev1 = pre ++ [e] /\
              (exists o' b' rs', pre ++ [e] = EGen s (avma l) o' b' :: cks s 0 rs') /\
              Forall (fun x => asks start_offset x = None) pre /\
              asks start_offset e = Some (s, diff) /\ diff <= 0).
    { destruct HE as [(rs & Hp & Hd & Hd0 & ->)|(Hd0 & -> & ->)].
      - rewrite cks_app. exists (EGen s (avma l) o b :: cks s 0 rs), (ECheck s (0 + length rs)%nat diff).
        split; [reflexivity|]. split.
        + exists o, b, (rs ++ [diff]). rewrite cks_app. reflexivity.
        + split.
          * constructor; [|apply cks_noask; assumption].
            destruct o as [d|]; simpl in *; [|unfold diff0 in *; lia].
            unfold diff0 in *. destruct (Z.leb_spec d 0); [lia|reflexivity].
          * simpl. destruct (Z.leb_spec diff 0); [auto|lia].
      - exists [], (EGen s (avma l) o b). split; [reflexivity|].
        split; [exists o, b, []; reflexivity|]. split; [constructor|].
        split; [|assumption]. destruct o as [d|]; unfold diff0 in *; [apply Hasks; assumption|].
        reflexivity. }
    destruct HF as (pre & e & Heq & Hsh & Hna & Ha & Hd).
    destruct (Z.leb_spec diff 0); [|lia].
    destruct ((diff =? INT_MIN) || (s + diff <? 0)) eqn:Eab.
    { simpl. rewrite Heq. apply (OFail l pre e diff (inr (Returned 0))); auto.
      split; [reflexivity|]. fold s. lia. }
    destruct (negb (retry =? 0) && (tries l s + 1 >=? retry)) eqn:Ert.
    { simpl. rewrite Heq. apply (OFail l pre e diff (inr (Returned 0))); auto.
      split; [reflexivity|]. fold s. lia. }
    assert (Hns : target s diff <= s).
    { unfold target. destruct (Z.ltb_spec (s + diff) start_offset); lia. }
    destruct (unroll_spec (Z.to_nat (s - target s diff)) s (target s diff) w2 eq_refl Hns)
      as (w3 & Hw3).
    rewrite Hw3. cbn [fst snd].
    change (EGen s (avma l) o b :: ev1 ++ undo (hook su) (Z.to_nat (s - target s diff)) s)
      with ((EGen s (avma l) o b :: ev1) ++ undo (hook su) (Z.to_nat (s - target s diff)) s).
    rewrite Heq, <- app_assoc. cbn [app].
    apply (OFail l pre e diff (inl (mkLoc (target s diff) w3
             (upd (tops l) s (avma l) (target s diff)) (upd (tops l) s (avma l))
             (if retry =? 0 then tries l else upd (tries l) s (tries l s + 1)),
             undo (hook su) (Z.to_nat (s - target s diff)) s))); auto.
    fold s. destruct (retry =? 0) eqn:Er; repeat split; auto; try lia.
    + left. split; [lia|reflexivity].
    + right. repeat split; lia.
Qed.

Hypothesis Hstart : 0 <= start_offset.
Hypothesis Hend : end_offset <= INT_MAX.

(** Event lists of one iteration. *)
Lemma iter_stage l ev r : outcome_of l ev r -> start_offset <= state l ->
  Forall (fun e => match r with inl l' => Z.min (state l) (state l') | inr _ => state l end
                   <= stage_of e) ev.
Proof.
  intros H Hs. destruct H as [|a d rs w b Hd Hl Hp Ha|pre e d r Hsh Hna Ha Hd Hr].
  - constructor.
  - constructor; simpl; [lia|]. eapply Forall_impl; [|apply cks_stage]. simpl. intros x. lia.
  - destruct Hsh as (o & b & rs & Hsh).
    assert (HX : Forall (fun x => stage_of x = state l) (pre ++ [e])).
    { rewrite Hsh. constructor; [reflexivity|apply cks_stage]. }
    destruct r as [[[n w av tp tr] u]|q]; simpl in *.
    + destruct Hr as (-> & _ & _ & -> & _).
      change (pre ++ e :: ?u) with (pre ++ [e] ++ u). rewrite app_assoc. apply Forall_app. split.
      * eapply Forall_impl; [|exact HX]. simpl. intros x. lia.
      * eapply Forall_impl; [|apply undo_stage]. simpl. intros x.
        unfold target. destruct (Z.ltb_spec (state l + d) start_offset); lia.
    + eapply Forall_impl; [|exact HX]. simpl. intros x. lia.
Qed.

Lemma next_range l ev l' : outcome_of l ev (inl l') -> start_offset <= state l < end_offset ->
  start_offset <= state l' <= end_offset /\ state l' <= state l + 1.
Proof.
  intros H Hs. inversion H as [|a d rs w b Hd Hl Hp Ha|pre e d r Hsh Hna Ha Hd Hr E1 E2].
  - simpl. lia.
  - destruct r as [[[n w av tp tr] u]|q]; [|discriminate].
    injection E2 as <-. destruct Hr as (-> & _). simpl. unfold target.
    destruct (Z.ltb_spec (state l + d) start_offset); lia.
Qed.

Lemma run_S f l : run su start_offset end_offset retry (S f) l =
  if state l <? end_offset then
    match step su start_offset retry l with
    | (ev, inr r) => (ev, r, stopped su start_offset l)
    | (ev, inl l') =>
        let '(ev', r, w) := run su start_offset end_offset retry f l' in (ev ++ ev', r, w)
    end
  else ([], Returned 1, world l).
Proof. reflexivity. Qed.

Lemma run_inv f l tr r w : start_offset <= state l <= end_offset ->
  run su start_offset end_offset retry f l = (tr, r, w) ->
  (end_offset <= state l /\ tr = [] /\ r = Returned 1 /\ w = world l) \/
  (f = O /\ state l < end_offset /\ tr = [] /\ r = NoFuel) \/
  (exists f', f = S f' /\ state l < end_offset /\
     outcome_of l (fst (step su start_offset retry l)) (snd (step su start_offset retry l)) /\
     ((outcome_of l tr (inr r) /\ step su start_offset retry l = (tr, inr r)) \/
      exists ev l' tr', step su start_offset retry l = (ev, inl l') /\
        outcome_of l ev (inl l') /\
        start_offset <= state l' <= end_offset /\
        run su start_offset end_offset retry f' l' = (tr', r, w) /\ tr = ev ++ tr')).
Proof.
  intros Hs H. destruct f as [|f].
  - simpl in H. destruct (Z.ltb_spec (state l) end_offset); injection H as <- <- <-.
    + right; left. auto.
    + left. auto.
  - rewrite run_S in H. destruct (Z.ltb_spec (state l) end_offset) as [Hlt|Hge].
    + right; right. exists f. split; [reflexivity|]. split; [assumption|].
      assert (HO : outcome_of l (fst (step su start_offset retry l)) (snd (step su start_offset retry l)))
        by (apply step_spec; lia).
      split; [assumption|].
      destruct (step su start_offset retry l) as [ev [l'|q]]; simpl in HO.
      * destruct (run su start_offset end_offset retry f l') as [[tr' r'] w'] eqn:E.
        injection H as <- <- <-. right. exists ev, l', tr'.
        repeat split; auto; apply (next_range l ev l' HO); lia.
      * injection H as <- <- <-. left. auto.
    + injection H as <- <- <-. left. auto.
Qed.

Lemma run_head f l tr r w : start_offset <= state l < end_offset ->
  run su start_offset end_offset retry f l = (tr, r, w) ->
  starts_with_gen (state l) tr \/ (tr = [] /\ r = NoFuel) \/
  (tr = [] /\ r = Undef /\ generators su (state l) = None).
Proof.
  intros Hs H. apply run_inv in H; [|lia].
  destruct H as [(? & _)|[(_ & _ & -> & ->)|(f' & -> & _ & _ & H)]]; [lia|auto|].
  assert (HG : forall ev q tl, outcome_of l ev q ->
            starts_with_gen (state l) (ev ++ tl) \/
            (ev = [] /\ q = inr Undef /\ generators su (state l) = None)).
  { intros ev q tl HO. inversion HO as [|a d rs w0 b Hd Hl Hp Ha|pre e d r0 Hsh Hna Ha Hd Hr E1 E2].
    - right. auto.
    - left. repeat eexists.
    - left. destruct Hsh as (o & b & rs & Hsh).
      change (pre ++ e :: ?u) with (pre ++ [e] ++ u). rewrite app_assoc, Hsh. repeat eexists. }
  destruct H as [(HO & _)|(ev & l' & tr' & _ & HO & _ & _ & ->)].
  - destruct (HG _ _ [] HO) as [HH|(-> & HH & ?)].
    + rewrite app_nil_r in HH. auto.
    + injection HH as ->. auto.
  - destruct (HG _ _ tr' HO) as [HH|(-> & HH & ?)]; [auto|discriminate].
Qed.

(** C21 *)
Lemma complete_ge c n : forall k tr, complete c n k tr -> Forall (fun e => k <= stage_of e) tr.
Proof.
  destruct n as [|n]; intros k tr H; simpl in H.
  - subst. constructor.
  - destruct H as (b & bl & a & -> & Hb & Hp & Ha & _). apply Forall_app. split; [assumption|].
    apply Forall_app. split.
    + destruct Hp as [x d y rs Hd Hl Hr]. rewrite <- Hl. constructor; [simpl; lia|].
      fold (cks k 0 rs). eapply Forall_impl; [|apply cks_stage]. simpl. intros z. lia.
    + eapply Forall_impl; [|exact Ha]. simpl. intros z. lia.
Qed.

Lemma complete_ext c n k ev tr : (0 < n)%nat -> Forall (fun e => k <= stage_of e) ev ->
  complete c n k tr -> complete c n k (ev ++ tr).
Proof.
  destruct n as [|n]; [lia|]. intros _ Hev (b & bl & a & -> & Hb & Hp & Ha & Hc).
  exists (ev ++ b), bl, a. rewrite app_assoc. repeat split; auto.
  apply Forall_app. auto.
Qed.

Lemma run_complete f : forall l tr w, start_offset <= state l <= end_offset ->
  run su start_offset end_offset retry f l = (tr, Returned 1, w) ->
  exists k, start_offset <= k <= state l /\
    complete (nchecks su) (Z.to_nat (end_offset - k)) k tr.
Proof.
  induction f as [f IH] using lt_wf_ind; intros l tr w Hs H.
  apply run_inv in H; [|assumption].
  destruct H as [(He & -> & _ & _)|[(_ & _ & _ & H)|(f' & -> & Hlt & _ & H)]]; [|discriminate|].
  - exists (state l). split; [lia|]. replace (Z.to_nat (end_offset - state l)) with 0%nat by lia.
    reflexivity.
  - destruct H as [(HO & _)|(ev & l' & tr' & _ & HO & Hs' & Hrun & ->)].
    + inversion HO as [| |pre e d r Hsh Hna Ha Hd Hr E1 E2].
      destruct r as [[x u]|q]; [discriminate|]. injection E2 as ->. destruct Hr as (? & _). discriminate.
    + destruct (IH f' (Nat.lt_succ_diag_r f') l' tr' w Hs' Hrun) as (k & Hk & Hc).
      pose proof (iter_stage l ev (inl l') HO ltac:(lia)) as Hst. cbv beta iota in Hst.
      pose proof (next_range l ev l' HO ltac:(lia)) as [_ Hn].
      destruct (Z_le_gt_dec k (state l)) as [Hle|Hgt].
      * exists k. split; [lia|]. apply complete_ext; auto; [lia|].
        eapply Forall_impl; [|exact Hst]. simpl. intros e. lia.
      * assert (k = state l + 1) by lia. assert (state l' = state l + 1) by lia. subst k.
        exists (state l). split; [lia|].
        replace (Z.to_nat (end_offset - state l)) with (S (Z.to_nat (end_offset - (state l + 1)))) by lia.
        inversion HO as [|a d rs w0 b Hd Hl Hp Ha E1 E2|pre e d r Hsh Hna Ha Hd Hr E1 E2].
        -- exists [], (EGen (state l) a (Ret d) b :: cks (state l) 0 rs), tr'.
           split; [reflexivity|]. split; [constructor|]. split.
           ++ rewrite <- Hl. unfold cks. apply Passed; auto. lia.
           ++ split; [|assumption]. eapply Forall_impl; [|apply (complete_ge _ _ _ _ Hc)].
              simpl. intros e. lia.
        -- destruct r as [[[n w0 av tp t] u]|q]; [|discriminate]. injection E2 as <-.
           simpl in *. destruct Hr as (-> & _). unfold target in *.
           destruct (Z.ltb_spec (state l + d) start_offset); lia.
Qed.

(** C22 *)
Lemma run_range f : forall l tr r w, start_offset <= state l <= end_offset ->
  run su start_offset end_offset retry f l = (tr, r, w) ->
  Forall (fun e => start_offset <= stage_of e < end_offset) tr.
Proof.
  assert (HB : forall l ev r, outcome_of l ev r -> start_offset <= state l < end_offset ->
            Forall (fun e => start_offset <= stage_of e < end_offset) ev).
  { intros l ev r HO Hs.
    destruct HO as [|a d rs w0 b Hd Hl Hp Ha|pre e d r Hsh Hna Ha Hd Hr].
    - constructor.
    - constructor; [simpl; lia|]. eapply Forall_impl; [|apply cks_stage]. simpl. intros x. lia.
    - destruct Hsh as (o & b & rs & Hsh).
      change (pre ++ e :: ?u) with (pre ++ [e] ++ u). rewrite app_assoc, Hsh.
      apply Forall_app. split.
      + constructor; [simpl; lia|]. eapply Forall_impl; [|apply cks_stage]. simpl. intros x. lia.
      + destruct r as [[[n w av tp tr] u]|q]; [|constructor].
        destruct Hr as (-> & _ & _ & -> & _).
        eapply Forall_impl; [|apply undo_stage]. simpl. intros x.
        unfold target. destruct (Z.ltb_spec (state l + d) start_offset); lia. }
  induction f as [f IH] using lt_wf_ind; intros l tr r w Hs H.
  apply run_inv in H; [|assumption].
  destruct H as [(He & -> & _ & _)|[(_ & _ & -> & _)|(f' & -> & Hlt & _ & H)]]; try constructor.
  destruct H as [(HO & _)|(ev & l' & tr' & _ & HO & Hs' & Hrun & ->)].
  - apply (HB _ _ _ HO). lia.
  - apply Forall_app. split; [apply (HB _ _ _ HO); lia|].
    apply (IH f' (Nat.lt_succ_diag_r f') l' tr' r w Hs' Hrun).
Qed.

Definition resumes (s d : Z) (rest : list event) (r : stop) : Prop :=
  (rest = [] /\ r = Returned 0) \/
  (0 <= s + d /\ d <> INT_MIN /\
   exists rest', rest = undo (hook su) (Z.to_nat (s - Z.max start_offset (s + d))) s ++ rest' /\
     (starts_with_gen (Z.max start_offset (s + d)) rest' \/
      (rest' = [] /\ r = NoFuel) \/
      (rest' = [] /\ r = Undef /\ generators su (Z.max start_offset (s + d)) = None))).

Lemma target_max s d : target s d = Z.max start_offset (s + d).
Proof. unfold target. destruct (Z.ltb_spec (s + d) start_offset); lia. Qed.

Lemma none_in {A} (f : event -> option A) pre e m ev :
  Forall (fun x => f x = None) ev -> ev = pre ++ e :: m -> f e = None.
Proof.
  intros H ->. rewrite Forall_app in H. destruct H as [_ H]. inversion H. assumption.
Qed.

Lemma run_back f : forall l tr r w, start_offset <= state l <= end_offset ->
  run su start_offset end_offset retry f l = (tr, r, w) ->
  forall pre e rest s d, tr = pre ++ e :: rest -> asks start_offset e = Some (s, d) ->
  resumes s d rest r.
Proof.
  induction f as [f IH] using lt_wf_ind; intros l tr r w Hs H pre e rest s d Htr Hask.
  apply run_inv in H; [|assumption].
  destruct H as [(He & -> & _ & _)|[(_ & _ & -> & _)|(f' & -> & Hlt & _ & H)]];
    try (destruct pre; discriminate).
  destruct H as [(HO & _)|(ev & l' & tr' & _ & HO & Hs' & Hrun & ->)].
  - inversion HO as [|a x rs w0 b Hd Hl Hp Ha E1 E2|pre0 e0 x q Hsh Hna Ha Hd Hr E1 E2].
    + subst. destruct pre; discriminate.
    + destruct q as [[[n w0 av tp t] u]|q]; [discriminate|]. injection E2 as ->.
      rewrite Htr in E1. symmetry in E1. apply app_split in E1.
      destruct E1 as [(m & E & Em)|(m & E & Em)].
      * exfalso. rewrite (none_in _ _ _ _ _ Hna E) in Hask. discriminate.
      * destruct Hr as (-> & _). destruct m as [|y m]; simpl in Em.
        -- injection Em as -> <-. left. auto.
        -- injection Em as _ Em. destruct m; discriminate.
  - symmetry in Htr. apply app_split in Htr. destruct Htr as [(m & E & ->)|(m & -> & E)].
    + inversion HO as [|a x rs w0 b Hd Hl Hp Ha E1 E2|pre0 e0 x q Hsh Hna Ha Hd Hr E1 E2].
      * exfalso. assert (HN : Forall (fun z => asks start_offset z = None) ev).
        { rewrite <- E1. constructor; [|apply cks_noask; assumption].
          simpl. destruct (Z.leb_spec x 0); [lia|reflexivity]. }
        rewrite (none_in _ _ _ _ _ HN E) in Hask. discriminate.
      * destruct q as [[[n w0 av tp t] u]|q]; [|discriminate]. injection E2 as <-.
        destruct Hr as (Hn & Hmin & Hge & Hu & _).
        rewrite E in E1. symmetry in E1. apply app_split in E1.
        assert (HM : e0 = e /\ u = m).
        { destruct E1 as [(m' & E' & Em)|(m' & E' & Em)].
          - destruct pre0 as [|z pre0]; [|].
            + exfalso. destruct pre; discriminate.
            + exfalso. rewrite (none_in _ _ _ _ _ Hna E') in Hask. discriminate.
          - destruct m' as [|y m']; simpl in Em; injection Em as -> Em; [auto|].
            exfalso. rewrite Hu in Em.
            rewrite (none_in _ _ _ _ _ (undo_noask start_offset _ _ _) Em) in Hask. discriminate. }
        destruct HM as [-> ->]. rewrite Ha in Hask. injection Hask as <- <-.
        right. split; [assumption|]. split; [assumption|].
        exists tr'. rewrite target_max in Hn. subst n. split; [rewrite Hu; reflexivity|].
        cbn [state] in Hs'.
        assert (Z.max start_offset (state l + x) < end_offset) by (clear - Hs Hlt Hd; lia).
        destruct (run_head f' (mkLoc (Z.max start_offset (state l + x)) w0 av tp t) tr' r w (conj (proj1 Hs') H) Hrun) as [HH|HH]; auto.
    + apply (IH f' (Nat.lt_succ_diag_r f') l' tr' r w Hs' Hrun m e rest s d E Hask).
Qed.

(** Streaks *)
Lemma checks_pass_end tl : (match tl with ECheck _ _ _ :: _ => False | _ => True end) ->
  checks_pass tl = true.
Proof. destruct tl as [|[]]; simpl; tauto. Qed.

Lemma checks_pass_undo h n hi tl : (match tl with ECheck _ _ _ :: _ => False | _ => True end) ->
  (match undo h n hi ++ tl with ECheck _ _ _ :: _ => False | _ => True end).
Proof.
  revert hi. induction n as [|n IH]; intros hi H; simpl; [assumption|].
  destruct (h hi); simpl; [exact I|exact (IH _ H)].
Qed.

Lemma streak_iter l ev r k acc tl : outcome_of l ev r -> ev <> [] -> start_offset <= state l ->
  (match tl with ECheck _ _ _ :: _ => False | _ => True end) ->
  streak k acc (ev ++ tl) =
    streak k (if state l =? k then
                match r with inl l' => if state l <? state l' then O else S acc | inr _ => S acc end
              else acc) tl.
Proof.
  intros HO Hne Hs Htl. inversion HO as [|a x rs w0 b Hd Hl Hp Ha E1 E2|pre0 e0 x q Hsh Hna Ha Hd Hr E1 E2].
  - subst. congruence.
  - rewrite <- app_comm_cons. cbn [streak]. rewrite cks_pass_app by assumption.
    rewrite (checks_pass_end tl Htl). rewrite streak_cks. subst x.
    cbn [state]. destruct (Z.ltb_spec (state l) (state l + 1)); [reflexivity|lia].
  - set (U := match q with inl (_, u) => u | inr _ => [] end).
    assert (HU : forall a, streak k a (U ++ tl) = streak k a tl).
    { intros a. unfold U. destruct q as [[[n w0 av tp t] u]|q]; [|reflexivity].
      destruct Hr as (_ & _ & _ & -> & _). apply streak_undo. }
    assert (HT : match U ++ tl with ECheck _ _ _ :: _ => False | _ => True end).
    { unfold U. destruct q as [[[n w0 av tp t] u]|q]; [|exact Htl].
      destruct Hr as (_ & _ & _ & -> & _). apply checks_pass_undo. assumption. }
    clearbody U.
    assert (HR : match (match q with inl (l', _) => inl l' | inr q => inr q end : (@loc W) + stop)
              with inl l' => if state l <? state l' then O else S acc | inr _ => S acc end = S acc).
    { destruct q as [[[n w0 av tp t] u]|q]; [|reflexivity].
      destruct Hr as (-> & _). cbn [state]. unfold target.
      destruct (Z.ltb_spec (state l + x) start_offset);
        match goal with |- (if ?b then _ else _) = _ => destruct b eqn:?; [lia|reflexivity] end. }
    rewrite HR. destruct Hsh as (o & b & rs & Hsh).
    change (pre0 ++ e0 :: U) with (pre0 ++ [e0] ++ U). rewrite app_assoc, Hsh.
    rewrite <- !app_comm_cons. cbn [streak].
    rewrite <- app_assoc.
    assert (HC : match o with
                 | Ret d => if (0 <? d) && checks_pass (cks (state l) 0 rs ++ U ++ tl) then O else S acc
                 | Timeout => S acc
                 end = S acc).
    { destruct o as [d|]; [|reflexivity].
      destruct (Z.ltb_spec 0 d); [|reflexivity]. simpl.
      (* the last check failed *)
      destruct pre0 as [|p pre0].
      - exfalso. injection Hsh as -> Hsh. simpl in Ha.
        destruct (Z.leb_spec d 0); [lia|discriminate].
      - assert (HX : exists rs', Forall (fun r => 0 < r) rs' /\ rs = rs' ++ [x]).
        { injection Hsh as _ Hsh. inversion Hna as [|? ? _ Hn']; subst.
          clear - Hsh Hn' Ha Hd. revert pre0 Hsh Hn'. generalize 0%nat.
          induction rs as [|y rs IH]; intros i pre0 Hsh Hn'.
          - destruct pre0; discriminate.
          - rewrite cks_cons in Hsh. destruct pre0 as [|p pre0]; simpl in Hsh.
            + injection Hsh as -> Hsh. destruct rs as [|]; [|discriminate].
              simpl in Ha. destruct (Z.leb_spec y 0); [|discriminate]. injection Ha as ->.
              exists []. auto.
            + injection Hsh as -> Hsh. inversion Hn' as [|? ? Hp Hn2]; subst.
              destruct (IH _ _ Hsh Hn2) as (rs' & Hf & ->). exists (y :: rs'). split; [|reflexivity].
              constructor; [|assumption]. simpl in Hp. destruct (Z.leb_spec y 0); [discriminate|lia]. }
        destruct HX as (rs' & Hf & ->). rewrite cks_app, <- app_assoc, cks_pass_app by assumption.
        simpl. destruct (Z.leb_spec x 0); [reflexivity|lia]. }
    rewrite HC, streak_cks, HU. reflexivity.
Qed.

Lemma iter_gen_head l ev r pre k a o b m : outcome_of l ev r -> ev = pre ++ EGen k a o b :: m ->
  pre = [] /\ k = state l /\ a = avma l.
Proof.
  intros HO E.
  assert (HX : exists o' b' tl, ev = EGen (state l) (avma l) o' b' :: tl /\
            Forall (fun e => match e with EGen _ _ _ _ => False | _ => True end) tl).
  { inversion HO as [|a0 x rs w0 b0 Hd Hl Hp Ha E1 E2|pre0 e0 x q Hsh Hna Ha Hd Hr E1 E2].
    - subst. destruct pre; discriminate.
    - subst a0. repeat eexists. apply cks_nogen.
    - destruct Hsh as (o' & b' & rs & Hsh).
      change (pre0 ++ e0 :: ?u) with (pre0 ++ [e0] ++ u). rewrite app_assoc, Hsh.
      exists o', b'. eexists. split; [reflexivity|]. apply Forall_app. split; [apply cks_nogen|].
      destruct q as [[[n w0 av tp t] u]|q]; [|constructor].
      destruct Hr as (_ & _ & _ & -> & _). apply undo_nogen. }
  destruct HX as (o' & b' & tl & HE & HF). rewrite HE in E.
  destruct pre as [|p pre]; simpl in E.
  - injection E as <- <- _ _ _. auto.
  - injection E as _ E. exfalso. subst tl. rewrite Forall_app in HF. destruct HF as [_ HF].
    inversion HF as [|? ? HH _]. exact HH.
Qed.

Lemma run_tail f l tr r w m x rest : start_offset <= state l <= end_offset ->
  run su start_offset end_offset retry f l = (tr, r, w) -> tr = m ++ x :: rest ->
  match m with ECheck _ _ _ :: _ => False | _ => True end.
Proof.
  intros Hs H E. destruct m as [|y m]; [exact I|].
  destruct (Z.eq_dec (state l) end_offset) as [He|He].
  - apply run_inv in H; [|assumption].
    destruct H as [(_ & -> & _ & _)|[(_ & _ & -> & _)|(f' & -> & Hlt & _ & H)]]; [discriminate|discriminate|lia].
  - apply run_head in H; [|lia]. destruct H as [(a & o & b & t & ->)|[(-> & _)|(-> & _)]];
      [|discriminate|discriminate].
    injection E as <- _. exact I.
Qed.

Lemma run_first f l tr r w : start_offset <= state l <= end_offset ->
  run su start_offset end_offset retry f l = (tr, r, w) ->
  match tr with ECheck _ _ _ :: _ => False | _ => True end.
Proof.
  intros Hs H. destruct tr as [|y t] eqn:E; [exact I|].
  destruct (Z.eq_dec (state l) end_offset) as [He|He].
  - apply run_inv in H; [|assumption].
    destruct H as [(_ & Ht & _ & _)|[(_ & _ & Ht & _)|(f' & -> & Hlt & _ & H)]]; [discriminate|discriminate|lia].
  - apply run_head in H; [|lia]. destruct H as [(a & o & b & t' & Ht)|[(Ht & _)|(Ht & _)]];
      [|discriminate|discriminate].
    injection Ht as -> _. exact I.
Qed.

Definition acc_after (l : @loc W) (r : (@loc W) + stop) (A : Z -> nat) (k : Z) : nat :=
  if state l =? k then
    match r with inl l' => if state l <? state l' then O else S (A k) | inr _ => S (A k) end
  else A k.

Lemma acc_tries l ev l' A : outcome_of l ev (inl l') -> start_offset <= state l -> retry <> 0 ->
  (forall k, tries l k = Z.of_nat (A k)) ->
  forall k, tries l' k = Z.of_nat (acc_after l (inl l') A k).
Proof.
  intros HO Hs Hr HA k. unfold acc_after.
  inversion HO as [|a0 x rs w0 b0 Hd Hl Hp Ha E1 E2|pre0 e0 x q Hsh Hna Ha Hd Hq E1 E2].
  - cbn [tries state]. unfold upd. rewrite (Z.eqb_sym k).
    destruct (state l =? k) eqn:Ek; [|apply HA].
    destruct (Z.ltb_spec (state l) (state l + 1)); [reflexivity|lia].
  - destruct q as [[[n w0 av tp t] u]|q]; [|discriminate]. injection E2 as <-.
    cbn [tries state]. destruct Hq as (-> & _ & _ & _ & [(? & _)|(_ & _ & ->)] & _); [contradiction|].
    unfold upd. rewrite (Z.eqb_sym k). destruct (Z.eqb_spec (state l) k) as [Ek|]; [|apply HA].
    rewrite <- Ek in *. rewrite HA, target_max.
    destruct (Z.ltb_spec (state l) (Z.max start_offset (state l + x))); lia.
Qed.

Lemma run_streak f : 0 < retry -> forall l tr r w A, start_offset <= state l <= end_offset ->
  (forall k, tries l k = Z.of_nat (A k)) -> (forall k, Z.of_nat (A k) < retry) ->
  run su start_offset end_offset retry f l = (tr, r, w) ->
  forall pre k a o b rest, tr = pre ++ EGen k a o b :: rest ->
  Z.of_nat (streak k (A k) pre) < retry.
Proof.
  intros Hret. induction f as [f IH] using lt_wf_ind; intros l tr r w A Hs HA Hlim H pre k a o b rest Htr.
  apply run_inv in H; [|assumption].
  destruct H as [(He & -> & _ & _)|[(_ & _ & -> & _)|(f' & -> & Hlt & _ & H)]];
    try (destruct pre; discriminate).
  destruct H as [(HO & _)|(ev & l' & tr' & _ & HO & Hs' & Hrun & ->)].
  - destruct (iter_gen_head _ _ _ _ _ _ _ _ _ HO Htr) as [-> _]. apply Hlim.
  - symmetry in Htr. apply app_split in Htr. destruct Htr as [(m & E & ->)|(m & -> & E)].
    + destruct (iter_gen_head _ _ _ _ _ _ _ _ _ HO E) as [-> _]. apply Hlim.
    + assert (Hne : ev <> []) by (intros ->; inversion HO as [| |p ? ? q ? ? ? ? ? Eq]; destruct p; discriminate).
      rewrite (streak_iter l ev (inl l') k (A k) m HO Hne ltac:(lia) (run_tail _ _ _ _ _ _ _ _ Hs' Hrun E)).
      change (Z.of_nat (streak k (acc_after l (inl l') A k) m) < retry).
      apply (IH f' (Nat.lt_succ_diag_r f') l' tr' r w (acc_after l (inl l') A) Hs'
               (acc_tries l ev l' A HO ltac:(lia) ltac:(lia) HA)) with (a := a) (o := o) (b := b) (rest := rest);
        [|assumption|assumption].
      intros j. unfold acc_after. destruct (Z.eqb_spec (state l) j) as [Ej|]; [rewrite <- Ej|apply Hlim].
      inversion HO as [|a0 x rs w0 b0 Hd Hl Hp Ha E1 E2|pre0 e0 x q Hsh Hna Ha Hd Hq E1 E2].
      * cbn [state]. destruct (Z.ltb_spec (state l) (state l + 1)); lia.
      * destruct q as [[[n w0 av tp t] u]|q]; [|discriminate]. injection E2 as <-.
        destruct Hq as (_ & _ & _ & _ & [(? & _)|(_ & Hq & _)] & _); [lia|].
        rewrite HA in Hq. destruct (state l <? _); lia.
Qed.

Lemma run_fail f : forall l tr w A, start_offset <= state l <= end_offset ->
  (retry <> 0 -> forall k, tries l k = Z.of_nat (A k)) ->
  run su start_offset end_offset retry f l = (tr, Returned 0, w) ->
  exists pre e s d, tr = pre ++ [e] /\ asks start_offset e = Some (s, d) /\
    (d = INT_MIN \/ s + d < 0 \/ (retry <> 0 /\ Z.of_nat (streak s (A s) tr) >= retry)).
Proof.
  induction f as [f IH] using lt_wf_ind; intros l tr w A Hs HA H.
  apply run_inv in H; [|assumption].
  destruct H as [(_ & _ & H & _)|[(_ & _ & _ & H)|(f' & -> & Hlt & _ & H)]]; try discriminate.
  destruct H as [(HO & _)|(ev & l' & tr' & _ & HO & Hs' & Hrun & ->)].
  - inversion HO as [|a0 x rs w0 b0 Hd Hl Hp Ha E1 E2|pre0 e0 x q Hsh Hna Ha Hd Hq E1 E2].
    destruct q as [[[n w0 av tp t] u]|q]; [discriminate|]. injection E2 as ->.
    destruct Hq as (_ & Hq). exists pre0, e0, (state l), x. split; [reflexivity|]. split; [assumption|].
    destruct Hq as [Hq|[Hq|(Hr & Hq)]]; [auto|auto|]. right; right. split; [assumption|].
    rewrite <- (app_nil_r (pre0 ++ [e0])), E1.
    rewrite (streak_iter l tr (inr (Returned 0)) (state l) (A (state l)) [] HO).
    + simpl. rewrite Z.eqb_refl. rewrite HA in Hq by assumption. lia.
    + rewrite <- E1. destruct pre0; discriminate.
    + lia.
    + exact I.
  - destruct (IH f' (Nat.lt_succ_diag_r f') l' tr' w (acc_after l (inl l') A) Hs')
      as (pre & e & s & d & -> & Hask & Hor); [|assumption|].
    + intros Hr. apply (acc_tries l ev l' A HO); [lia|assumption|auto].
    + exists (ev ++ pre), e, s, d. rewrite app_assoc. split; [reflexivity|]. split; [assumption|].
      destruct Hor as [?|[?|(Hr & Hst)]]; [auto|auto|]. right; right. split; [assumption|].
      rewrite <- app_assoc. rewrite (streak_iter l ev (inl l') s (A s) (pre ++ [e]) HO).
      * exact Hst.
      * intros ->. inversion HO as [| |p ? ? q ? ? ? ? ? Eq]; destruct p; discriminate.
      * lia.
      * apply (run_first _ _ _ _ _ Hs' Hrun).
Qed.

(** The stack pointer at the entry of a stage. *)
Definition exits (l : @loc W) (av0 : Z) (A : Z -> option Z) : Prop :=
  (forall j, start_offset < j < state l -> A (j - 1) = Some (tops l j)) /\
  (start_offset < state l -> A (state l - 1) = Some (avma l)) /\
  (start_offset < state l -> tops l start_offset = av0) /\
  (start_offset = state l -> avma l = av0).

Lemma exits_step l ev l' av0 A : outcome_of l ev (inl l') -> start_offset <= state l ->
  exits l av0 A -> exits l' av0 (fun k => last_exit k (A k) ev).
Proof.
  intros HO Hs (H1 & H2 & H3 & H4).
  inversion HO as [|a0 x rs w0 b0 Hd Hl Hp Ha E1 E2|pre0 e0 x q Hsh Hna Ha Hd Hq E1 E2].
  - assert (HL : forall k, last_exit k (A k) (EGen (state l) a0 (Ret x) b0 :: cks (state l) 0 rs) =
                 if state l =? k then Some b0 else A k).
    { intros k. cbn [last_exit]. rewrite <- (app_nil_r (cks (state l) 0 rs)), last_exit_cks. reflexivity. }
    unfold exits. cbn [state tops avma]. repeat split.
    + intros j Hj. rewrite HL. unfold upd. destruct (Z.eqb_spec (state l) (j - 1)); [lia|].
      destruct (Z.eqb_spec j (state l)) as [->|]; [apply H2; lia|apply H1; lia].
    + intros _. rewrite HL. destruct (Z.eqb_spec (state l) (state l + 1 - 1)); [reflexivity|lia].
    + intros _. unfold upd. destruct (Z.eqb_spec start_offset (state l)); [apply H4; assumption|apply H3; lia].
    + intros. lia.
  - destruct q as [[[n w0 av tp t] u]|q]; [|discriminate]. injection E2 as <-.
    destruct Hq as (-> & _ & _ & -> & _ & -> & ->). destruct Hsh as (o & b & rs & Hsh).
    assert (HL : forall k, k < state l -> last_exit k (A k) (pre0 ++ e0 :: undo (hook su)
                   (Z.to_nat (state l - target (state l) x)) (state l)) = A k).
    { intros k Hk. change (pre0 ++ e0 :: ?u) with (pre0 ++ [e0] ++ u). rewrite app_assoc, Hsh.
      rewrite <- app_comm_cons. cbn [last_exit]. rewrite last_exit_cks.
      rewrite <- (app_nil_r (undo _ _ _)), last_exit_undo. cbn [last_exit].
      destruct (Z.eqb_spec (state l) k); [lia|reflexivity]. }
    assert (Ht : start_offset <= target (state l) x <= state l)
      by (rewrite target_max; lia).
    unfold exits. cbn [state tops avma]. set (T := target (state l) x) in *. clearbody T.
    repeat split.
    + intros j Hj. rewrite HL by lia. unfold upd. destruct (Z.eqb_spec j (state l)); [lia|].
      apply H1; lia.
    + intros HT. rewrite HL by lia. unfold upd. destruct (Z.eqb_spec T (state l)) as [->|].
      * apply H2. lia.
      * apply H1. lia.
    + intros HT. unfold upd. destruct (Z.eqb_spec start_offset (state l)); [lia|apply H3; lia].
    + intros HT. unfold upd. destruct (Z.eqb_spec T (state l)) as [->|].
      * apply H4. assumption.
      * rewrite <- HT. apply H3. lia.
Qed.

Lemma last_exit_app k t1 t2 : forall acc, last_exit k acc (t1 ++ t2) = last_exit k (last_exit k acc t1) t2.
Proof.
  induction t1 as [|e t1 IH]; intros acc; [reflexivity|]. destruct e; simpl; apply IH.
Qed.

Lemma run_stack f : forall l tr r w A av0, start_offset <= state l <= end_offset ->
  exits l av0 A ->
  run su start_offset end_offset retry f l = (tr, r, w) ->
  forall pre k a o b rest, tr = pre ++ EGen k a o b :: rest ->
  (k = start_offset /\ a = av0) \/
  (start_offset < k /\ last_exit (k - 1) (A (k - 1)) pre = Some a).
Proof.
  induction f as [f IH] using lt_wf_ind; intros l tr r w A av0 Hs HA H pre k a o b rest Htr.
  apply run_inv in H; [|assumption].
  destruct H as [(He & -> & _ & _)|[(_ & _ & -> & _)|(f' & -> & Hlt & _ & H)]];
    try (destruct pre; discriminate).
  assert (HB : forall q m ev, outcome_of l ev q -> ev = pre ++ EGen k a o b :: m ->
            (k = start_offset /\ a = av0) \/
            (start_offset < k /\ last_exit (k - 1) (A (k - 1)) pre = Some a)).
  { intros q m ev HO E. destruct (iter_gen_head _ _ _ _ _ _ _ _ _ HO E) as (-> & -> & ->).
    destruct HA as (H1 & H2 & H3 & H4). destruct (Z.eq_dec start_offset (state l)) as [He|He].
    - left. auto.
    - right. split; [lia|]. simpl. apply H2. lia. }
  destruct H as [(HO & _)|(ev & l' & tr' & _ & HO & Hs' & Hrun & ->)].
  - apply (HB _ _ _ HO Htr).
  - symmetry in Htr. apply app_split in Htr. destruct Htr as [(m & E & ->)|(m & -> & E)].
    + apply (HB _ _ _ HO E).
    + rewrite last_exit_app.
      apply (IH f' (Nat.lt_succ_diag_r f') l' tr' r w (fun k => last_exit k (A k) ev) av0 Hs'
               (exits_step l ev l' av0 A HO ltac:(lia) HA) Hrun m k a o b rest E).
Qed.
End Proofs.

(** Termination under a retry limit. *)
Fixpoint sumn (n : nat) (f : nat -> Z) : Z :=
  match n with O => 0 | S m => sumn m f + f m end.

Lemma sumn_ext n f g : (forall i, (i < n)%nat -> f i = g i) -> sumn n f = sumn n g.
Proof.
  induction n as [|n IH]; intros H; [reflexivity|]. simpl. rewrite IH, H; auto.
Qed.

Lemma sumn_upd n f g i : (i < n)%nat -> (forall j, (j < n)%nat -> j <> i -> f j = g j) ->
  sumn n g = sumn n f - f i + g i.
Proof.
  induction n as [|n IH]; intros Hi H; [lia|]. simpl.
  destruct (Nat.eq_dec i n) as [->|Hne].
  - rewrite (sumn_ext n g f); [lia|]. intros j Hj. symmetry. apply H; lia.
  - rewrite IH; [|lia|intros; apply H; lia]. rewrite (H n) by lia. lia.
Qed.

Lemma sumn_nonneg n f : (forall i, (i < n)%nat -> 0 <= f i) -> 0 <= sumn n f.
Proof.
  induction n as [|n IH]; intros H; simpl; [lia|]. specialize (IH (fun i Hi => H i (Nat.lt_lt_succ_r _ _ Hi))).
  specialize (H n). lia.
Qed.

Fixpoint cw (r : Z) (i : nat) : Z := match i with O => 1 | S j => 1 + r * cw r j end.
Definition gw (r : Z) (i : nat) : Z := 1 + (r - 1) * cw r i.

Lemma cw_pos r i : 0 < r -> 1 <= cw r i.
Proof. intros Hr. induction i as [|i IH]; cbn [cw]; [lia|].
  assert (0 <= r * cw r i) by (apply Z.mul_nonneg_nonneg; lia). lia.
Qed.
Lemma gw_pos r i : 0 < r -> 1 <= gw r i.
Proof. intros Hr. unfold gw. pose proof (cw_pos r i Hr). nia. Qed.
Lemma sum_gw r n : sumn n (gw r) = cw r n - 1.
Proof. induction n as [|n IH]; cbn [sumn cw]; [lia|]. rewrite IH. unfold gw. ring. Qed.

Lemma sumn_shift r x s s' i : 0 < r -> s = x + Z.of_nat i -> s' <= s -> forall n,
  sumn n (fun j => if s' <=? x + Z.of_nat j then gw r j else 0) <=
  sumn n (fun j => if s <=? x + Z.of_nat j then gw r j else 0) + sumn (Nat.min n i) (gw r).
Proof.
  intros Hr -> Hs. induction n as [|n IH]; [simpl; lia|].
  cbn [sumn]. pose proof (gw_pos r n Hr).
  destruct (Z.leb_spec (x + Z.of_nat i) (x + Z.of_nat n)) as [H1|H1].
  - replace (Nat.min (S n) i) with (Nat.min n i) by lia.
    destruct (Z.leb_spec s' (x + Z.of_nat n)); lia.
  - replace (Nat.min (S n) i) with (S (Nat.min n i)) by lia. cbn [sumn].
    replace (Nat.min n i) with n in * by lia.
    destruct (Z.leb_spec s' (x + Z.of_nat n)); lia.
Qed.

Section Terminates.
Context {W : Type}.
Variable su : setup W.
Variables start_offset end_offset retry : Z.
Hypothesis Hhooks : hooks_ok su.
Hypothesis Hfwd : forward_one su.
Hypothesis Hstart : 0 <= start_offset.
Hypothesis Hend : end_offset <= INT_MAX.
Hypothesis Hret : 0 < retry.

Definition pot (l : @loc W) : Z :=
  let n := Z.to_nat (end_offset - start_offset) in
  sumn n (fun i => (retry - tries l (start_offset + Z.of_nat i)) * cw retry i) +
  sumn n (fun i => if state l <=? start_offset + Z.of_nat i then gw retry i else 0).

Definition sane (l : @loc W) : Prop := forall k, 0 <= tries l k < retry.

Lemma pot_step l ev l' : outcome_of su start_offset retry l ev (inl l') ->
  start_offset <= state l < end_offset -> sane l -> sane l' /\ pot l' < pot l.
Proof.
  intros HO Hs Hsane.
  set (n := Z.to_nat (end_offset - start_offset)).
  set (i := Z.to_nat (state l - start_offset)).
  assert (Hi : (i < n)%nat) by (unfold i, n; lia).
  assert (Hsi : state l = start_offset + Z.of_nat i) by (unfold i; lia).
  pose proof (cw_pos retry i Hret) as Hc.
  pose proof (Hsane (state l)) as Hts.
  inversion HO as [|a0 x rs w0 b0 Hd Hl Hp Ha E1 E2|pre0 e0 x q Hsh Hna Ha Hd Hq E1 E2].
  - split.
    + intros k. cbn [tries]. unfold upd. destruct (k =? state l); [lia|apply Hsane].
    + unfold pot. fold n. cbn [tries state].
      rewrite (sumn_upd n (fun j => (retry - tries l (start_offset + Z.of_nat j)) * cw retry j)
                 (fun j => (retry - upd (tries l) (state l) 0 (start_offset + Z.of_nat j)) * cw retry j) i Hi).
      2: { intros j _ Hj. unfold upd. destruct (Z.eqb_spec (start_offset + Z.of_nat j) (state l)); [lia|reflexivity]. }
      rewrite (sumn_upd n (fun j => if state l <=? start_offset + Z.of_nat j then gw retry j else 0)
                 (fun j => if state l + 1 <=? start_offset + Z.of_nat j then gw retry j else 0) i Hi).
      2: { intros j _ Hj. destruct (Z.leb_spec (state l) (start_offset + Z.of_nat j)),
             (Z.leb_spec (state l + 1) (start_offset + Z.of_nat j)); lia. }
      cbv beta. rewrite <- Hsi. unfold upd. rewrite Z.eqb_refl.
      destruct (Z.leb_spec (state l) (state l)); [|lia].
      destruct (Z.leb_spec (state l + 1) (state l)); [lia|].
      unfold gw. nia.
  - destruct q as [[[m w0 av tp t] u]|q]; [|discriminate]. injection E2 as <-.
    destruct Hq as (-> & _ & _ & _ & [(? & _)|(_ & Hq & ->)] & _); [lia|].
    split.
    + intros k. cbn [tries]. unfold upd. destruct (k =? state l); [lia|apply Hsane].
    + unfold pot. fold n. cbn [tries state].
      rewrite (sumn_upd n (fun j => (retry - tries l (start_offset + Z.of_nat j)) * cw retry j)
                 (fun j => (retry - upd (tries l) (state l) (tries l (state l) + 1) (start_offset + Z.of_nat j)) * cw retry j) i Hi).
      2: { intros j _ Hj. unfold upd. destruct (Z.eqb_spec (start_offset + Z.of_nat j) (state l)); [lia|reflexivity]. }
      cbv beta. rewrite <- Hsi. unfold upd. rewrite Z.eqb_refl.
      assert (Ht : target start_offset (state l) x <= state l) by (rewrite target_max; lia).
      pose proof (sumn_shift retry start_offset (state l) (target start_offset (state l) x) i Hret Hsi Ht n) as HS.
      replace (Nat.min n i) with i in HS by lia. rewrite sum_gw in HS. nia.
Qed.

Lemma pot_nonneg l : sane l -> 0 <= pot l.
Proof.
  intros H. unfold pot.
  assert (0 <= sumn (Z.to_nat (end_offset - start_offset))
            (fun i => (retry - tries l (start_offset + Z.of_nat i)) * cw retry i)).
  { apply sumn_nonneg. intros i _. pose proof (cw_pos retry i Hret). specialize (H (start_offset + Z.of_nat i)). nia. }
  assert (0 <= sumn (Z.to_nat (end_offset - start_offset))
            (fun i => if state l <=? start_offset + Z.of_nat i then gw retry i else 0)).
  { apply sumn_nonneg. intros i _. pose proof (gw_pos retry i Hret).
    destruct (state l <=? _); lia. }
  lia.
Qed.

Lemma run_terminates f : forall l tr r w, start_offset <= state l <= end_offset -> sane l ->
  pot l < Z.of_nat f -> run su start_offset end_offset retry f l = (tr, r, w) -> r <> NoFuel.
Proof.
  induction f as [f IH] using lt_wf_ind; intros l tr r w Hs Hsane Hp H.
  apply run_inv in H; try assumption.
  destruct H as [(_ & _ & -> & _)|[(-> & _ & _ & _)|(f' & -> & Hlt & _ & H)]].
  - discriminate.
  - pose proof (pot_nonneg l Hsane). lia.
  - destruct H as [(HO & _)|(ev & l' & tr' & _ & HO & Hs' & Hrun & ->)].
    + inversion HO as [|a0 x rs w0 b0 Hd Hl Hpp Ha E1 E2|pre0 e0 x q Hsh Hna Ha Hd Hq E1 E2];
        [discriminate|].
      destruct q as [[y u]|q]; [discriminate|]. injection E2 as ->. destruct Hq as (-> & _). discriminate.
    + destruct (pot_step l ev l' HO ltac:(lia) Hsane) as [Hs2 Hp2].
      apply (IH f' (Nat.lt_succ_diag_r f') l' tr' r w Hs' Hs2 ltac:(lia) Hrun).
Qed.
End Terminates.

(** Compositional reasoning: what the stages establish holds at the end. *)
Section Hoare.
Context {W : Type}.
Variable su : setup W.
Variables start_offset end_offset retry : Z.
Variable P Q : Z -> W -> Prop.
Hypothesis Hgen : forall k g w a w' a' o, start_offset <= k < end_offset ->
  generators su k = Some g -> (forall j, j < k -> P j w) -> g w a = (w', a', o) ->
  (forall j, j < k -> P j w') /\
  match o with Ret d => 0 < d -> d = 1 /\ Q k w' | Timeout => True end.
Hypothesis Hcheck : forall k cs c w, start_offset <= k < end_offset ->
  validators su k = Some cs -> In c cs -> fst (c w) = w.
Hypothesis Hpost : forall k w, start_offset <= k < end_offset -> Q k w ->
  (forall cs c, validators su k = Some cs -> In c cs -> 0 < snd (c w)) -> P k w.
Hypothesis Hundo : forall k u w, start_offset < k < end_offset -> unrolls su k = Some u ->
  (forall j, j < k -> P j w) -> (forall j, j < k -> P j (fst (u w))).

Lemma checks_pure s (cs : list (W -> W * Z)) : forall i w diff ev w' d,
  (forall c w, In c cs -> fst (c w) = w) ->
  run_checks s i cs w diff = (ev, w', d) -> 0 < diff ->
  w' = w /\ (0 < d -> d = diff /\ forall c, In c cs -> 0 < snd (c w)).
Proof.
  induction cs as [|c cs IH]; intros i w diff ev w' d Hc H Hd; simpl in H.
  - injection H as <- <- <-. split; [reflexivity|]. intros _. split; [reflexivity|]. intros c [].
  - pose proof (Hc c w (or_introl eq_refl)) as Hw. destruct (c w) as [w1 nd] eqn:Ec. simpl in Hw. subst w1.
    destruct (Z.leb_spec nd 0).
    + injection H as <- <- <-. split; [reflexivity|lia].
    + destruct (run_checks s (S i) cs w diff) as [[e2 w2] d2] eqn:E. injection H as <- <- <-.
      destruct (IH _ _ _ _ _ _ (fun c w Hin => Hc c w (or_intror Hin)) E Hd) as [-> H2].
      split; [reflexivity|]. intros Hp. destruct (H2 Hp) as [-> H3]. split; [reflexivity|].
      intros c' [<-|Hin]; [rewrite Ec; simpl; lia|auto].
Qed.

Lemma unroll_keeps : forall n i ns w ev w', start_offset <= ns -> i < end_offset ->
  unroll_loop su n i ns w = (ev, Some w') ->
  (forall j, j < ns -> P j w) -> (forall j, j < i -> P j w) -> (forall j, j < ns -> P j w').
Proof.
  induction n as [|n IH]; intros i ns w ev w' Hns Hi H HP HPi; simpl in H.
  - destruct (i >? ns); [discriminate|]. injection H as <- <-. assumption.
  - destruct (Z.gtb_spec i ns); [|injection H as <- <-; assumption].
    destruct (unrolls su i) as [u|] eqn:Eu.
    + pose proof (Hundo i u w ltac:(lia) Eu HPi) as Hu. destruct (u w) as [w1 r]. simpl in Hu.
      destruct (Z.geb_spec r 0); [discriminate|].
      destruct (unroll_loop su n (i + r) ns w1) as [e2 o2] eqn:E. injection H as <- ->.
      eapply IH; [exact Hns| |exact E| |]; [lia| |]; intros j Hj; apply Hu; lia.
    + eapply IH; [exact Hns| |exact H| |]; [lia| |]; intros j Hj; apply HPi; lia.
Qed.

Lemma step_keeps l ev l' : start_offset <= state l < end_offset ->
  (forall j, j < state l -> P j (world l)) ->
  step su start_offset retry l = (ev, inl l') ->
  start_offset <= state l' <= end_offset /\ (forall j, j < state l' -> P j (world l')).
Proof.
  intros Hs HP H. unfold step in H.
  destruct (generators su (state l)) as [g|] eqn:Eg; [|discriminate].
  destruct (g (world l) (avma l)) as [[w1 b] o] eqn:Ec.
  destruct (Hgen _ _ _ _ _ _ _ Hs Eg HP Ec) as [HP1 HQ].
  set (s := state l) in *.
  set (diff0 := match o with Ret d => d | Timeout => start_offset - s end) in *.
  set (E := match validators su s with Some cs => _ | None => _ end) in *.
  assert (HE : snd (fst E) = w1 /\ (0 < snd E -> snd E = diff0 /\ 0 < diff0 /\
             forall cs c, validators su s = Some cs -> In c cs -> 0 < snd (c w1))).
  { unfold E. destruct (validators su s) as [cs|] eqn:Ev.
    - destruct (Z.ltb_spec 0 diff0).
      + destruct (run_checks s 0 cs w1 diff0) as [[e2 w2] d2] eqn:R.
        destruct (checks_pure s cs _ _ _ _ _ _ (fun c w Hin => Hcheck s cs c w Hs Ev Hin) R H0) as [-> Hx].
        split; [reflexivity|]. simpl. intros Hp. destruct (Hx Hp) as [-> Hy].
        split; [reflexivity|]. split; [assumption|]. intros cs' c Hcs Hin.
        injection Hcs as <-. auto.
      + simpl. split; [reflexivity|]. lia.
    - simpl. split; [reflexivity|]. intros Hp. repeat split; auto. intros cs c Hcs. discriminate. }
  clearbody E. destruct E as [[ev1 w2] diff]. simpl in HE. destruct HE as [-> HE].
  destruct (s + diff >? INT_MAX); [discriminate|].
  fold (target start_offset s diff) in H.
  destruct (Z.leb_spec diff 0).
  - destruct ((diff =? INT_MIN) || (s + diff <? 0)); [discriminate|].
    destruct (negb (retry =? 0) && (tries l s + 1 >=? retry)); [discriminate|].
    destruct (unroll_loop su _ s (target start_offset s diff) w1) as [e2 [w3|]] eqn:Eu; [|discriminate].
    injection H as _ <-. cbn [state world].
    assert (Ht : start_offset <= target start_offset s diff <= s) by (rewrite target_max; lia).
    split; [lia|]. eapply unroll_keeps; [exact (proj1 Ht)| |exact Eu| |].
    + lia.
    + intros j Hj. apply HP1. lia.
    + assumption.
  - destruct (HE ltac:(lia)) as (-> & Hd0 & Hcs). injection H as _ <-. cbn [state world].
    destruct o as [d|]; [|unfold diff0 in *; lia]. unfold diff0 in *.
    destruct (HQ ltac:(lia)) as [-> HQ1].
    unfold target. destruct (Z.ltb_spec (s + 1) start_offset); [lia|].
    split; [lia|]. intros j Hj. destruct (Z.eq_dec j s) as [->|].
    + apply Hpost; auto.
    + apply HP1. lia.
Qed.

Lemma run_post f : forall l tr w, start_offset <= state l <= end_offset ->
  (forall j, j < state l -> P j (world l)) ->
  run su start_offset end_offset retry f l = (tr, Returned 1, w) ->
  forall j, j < end_offset -> P j w.
Proof.
  induction f as [|f IH]; intros l tr w Hs HP H.
  - simpl in H. destruct (Z.ltb_spec (state l) end_offset); [discriminate|].
    injection H as <- <-. intros j Hj. apply HP. lia.
  - cbn [run] in H. destruct (Z.ltb_spec (state l) end_offset).
    + destruct (step su start_offset retry l) as [ev [l'|q]] eqn:E.
      * destruct (step_keeps l ev l' ltac:(lia) HP E) as [Hs' HP'].
        destruct (run su start_offset end_offset retry f l') as [[tr' r'] w'] eqn:R.
        injection H as <- -> <-. apply (IH l' tr' w' Hs' HP' R).
      * injection H as <- -> <-. exfalso. clear - E.
        unfold step in E. destruct (generators su (state l)) as [g|]; [|discriminate].
        destruct (g (world l) (avma l)) as [[w1 b] o].
        set (X := match validators su (state l) with Some _ => _ | None => _ end) in E.
        destruct X as [[e1 w2] d].
        destruct (state l + d >? INT_MAX); [discriminate|].
        destruct (d <=? 0); [|discriminate].
        destruct ((d =? INT_MIN) || (state l + d <? 0)); [discriminate|].
        destruct (negb (retry =? 0) && (tries l (state l) + 1 >=? retry)); [discriminate|].
        destruct (unroll_loop su _ _ _ w2) as [e2 [w3|]]; discriminate.
    + injection H as <- <-. intros j Hj. apply HP. lia.
Qed.
End Hoare.
