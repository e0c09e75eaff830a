(** The engine keeps what Stk_Table says: proofs. *)
From Coq Require Import Ascii String.
From Verif Require Import Base Str_Model Cli_Model Plan_Model Plan_Spec Stk_Model Stk_Gens Stk_Check Stk_Sound Stk_Table Stk_Engine.
From Verif Require Engine_Model.
Local Arguments is_live_clone : simpl never.
Local Arguments memb : simpl never.
Local Arguments drop_clones : simpl never.
Local Arguments bottom : simpl never.
Local Open Scope Z_scope.
Notation len := List.length.

(** ** Marks a program does not set *)
Fixpoint never (f : mark -> bool) (c : cmd) : bool :=
  match c with
  | Op (Mark m) => negb (f m)
  | Seq a b | If a b | IfNull _ a b | IfClone _ a b => never f a && never f b
  | Loop a | Forever a => never f a
  | _ => true
  end.
Lemma use1_marks x w : marks (use1 x w) = marks w.
Proof. unfold use1. destruct (vars w x); [destruct (forallb _ _)|]; reflexivity. Qed.
Lemma use_marks xs : forall w, marks (use xs w) = marks w.
Proof. induction xs; intros w; cbn; [reflexivity|]. now rewrite IHxs, use1_marks. Qed.
Lemma peek_marks xs : forall w, marks (peek xs w) = marks w.
Proof. induction xs; intros w; cbn; [reflexivity|]. rewrite IHxs. unfold peek1. destruct (vars w a); [apply use1_marks|reflexivity]. Qed.
Lemma fresh_marks xs : forall w, marks (fresh xs w) = marks w.
Proof. induction xs; intros w; cbn; [reflexivity|]. now rewrite IHxs. Qed.
Lemma puts_marks xs : forall w, marks (fold_left (fun w x => put x None w) xs w) = marks w.
Proof. induction xs; intros w; cbn; [reflexivity|]. now rewrite IHxs. Qed.
Lemma check_mark_marks m w : marks (check_mark m w) = marks w.
Proof. unfold check_mark. now destruct (_ <=? _)%nat. Qed.
Lemma op_marks f o w m : match o with Mark m => negb (f m) | _ => true end = true -> f m = true -> marks (run_op o w) m = marks w m.
Proof.
  intros H F. destruct o; cbn [run_op alloc galloc put marks setclones setmark release setstk]; rewrite ?puts_marks; cbn [marks setclones release setstk]; rewrite ?use_marks, ?peek_marks, ?fresh_marks; cbn [marks release setstk];
    rewrite ?check_mark_marks, ?use_marks; try reflexivity.
  - destruct (vars w x), (vars w y); reflexivity.
  - destruct (meqb m m0) eqn:E; [|reflexivity]. apply meqb_eq in E. subst. rewrite F in H. discriminate.
Qed.
Lemma exec_marks f dec cut bound m c : forall w, never f c = true -> f m = true -> marks (fst (exec dec cut bound c w)) m = marks w m.
Proof.
  intros w H F. revert w H. induction c as [|op|c1 IH1 c2 IH2|c1 IH1 c2 IH2|x c1 IH1 c2 IH2|x c1 IH1 c2 IH2|c IH|c IH| | |d]; intros w H; cbn [exec never] in *;
    try (apply andb_true_iff in H as (H1 & H2)).
  - reflexivity.
  - destruct (cut (time w)); [reflexivity|]. cbn [fst tick marks]. unfold watch. rewrite peek_marks. eapply op_marks; [|exact F]. exact H.
  - specialize (IH1 w H1). destruct (exec _ _ _ c1 w) as (w1, r). cbn [fst] in IH1. destruct r; try exact IH1. rewrite IH2 by exact H2. exact IH1.
  - destruct (dec (time w)); [now rewrite IH1|now rewrite IH2].
  - destruct (vars w x); auto.
  - destruct (existsb _ _); rewrite ?IH1, ?IH2 by assumption; now rewrite use_marks.
  - cut (forall n w, marks (fst ((fix go (n : nat) (w : world) : world * outcome :=
         match n with
         | O => (w, Cut)
         | S n =>
             if dec (time w) then
               let '(w1, r) := exec dec cut bound c (tick w) in
               match r with Next | Cont => go n w1 | Brk => (w1, Next) | _ => (w1, r) end
             else (tick w, Next)
         end) n w)) m = marks w m); [intros G; exact (G bound w)|]. clear w. induction n as [|n IHn]; intros w; [reflexivity|].
    destruct (dec (time w)); [|reflexivity]. specialize (IH (tick w) H). destruct (exec dec cut bound c (tick w)) as (w1, r). cbn [fst] in IH.
    destruct r; try exact IH; rewrite IHn; exact IH.
  - cut (forall n w, marks (fst ((fix go (n : nat) (w : world) : world * outcome :=
         match n with
         | O => (w, Cut)
         | S n =>
             let '(w1, r) := exec dec cut bound c w in
             match r with Next | Cont => go n w1 | Brk => (w1, Next) | _ => (w1, r) end
         end) n w)) m = marks w m); [intros G; exact (G bound w)|]. clear w. induction n as [|n IHn]; intros w; [reflexivity|].
    specialize (IH w H). destruct (exec dec cut bound c w) as (w1, r). cbn [fst] in IH.
    destruct r; try exact IH; rewrite IHn; exact IH.
  - reflexivity.
  - reflexivity.
  - destruct (cut (time w)); reflexivity.
Qed.
Lemma gen_tops g : never is_top (gen_prog g) = true.
Proof. destruct g; vm_compute; reflexivity. Qed.
Lemma check_tops c : never (fun m => is_top m || meqb m (M "ctop")) (check_prog c) = true.
Proof. destruct c; vm_compute; reflexivity. Qed.
Lemma unroll_tops u : never is_top (unroll_prog u) = true.
Proof. destruct u; vm_compute; reflexivity. Qed.

Section Run.
Variables (fg : list lval) (cuts : bool) (tab at_ : nat -> astate) (first last : nat) (once : bool) (lost : option astate) (su : setup_t).
Variables (dec cut : nat -> bool) (bound : nat).
Hypothesis no_cut : cuts = false -> forall t, cut t = false.
Hypothesis at_below : forall s, (s < last)%nat -> at_ s = tab s.
Hypothesis range : (first < last <= 9)%nat.
Hypothesis stages : forall s, (first <= s < last)%nat -> exists g, nth s (s_gens su) None = Some g /\
  stage_ok fg cuts tab first once lost (at_ (S s)) s g (checks_at su s) = true.
Hypothesis undo : forall s, (0 < s < 9)%nat -> nth s (s_unrolls su) None = hook s.

Definition same_tops (w w' : world) : Prop := forall i, marks w' (Top i) = marks w (Top i).
Lemma tops_trans u v w : same_tops u v -> same_tops v w -> same_tops u w.
Proof. intros A B i. now rewrite B. Qed.

(** going back *)
Lemma hooks_sound : forall i n a b w, hooks fg i n a = Some b -> (i < 9)%nat -> (n <= i)%nat -> sat w a ->
  exists ev w', Engine_Model.unroll_loop (stk_setup dec cut bound su) (i - n) (Z.of_nat i) (Z.of_nat n) w = (ev, Some w') /\
    sat w' b /\ grows fg w w' /\ same_tops w w'.
Proof.
  induction i as [|i IH]; intros n a b w H L N S.
  - cbn in H. injection H as <-. replace n with O by lia. cbn. exists [], w. split; [reflexivity|]. split; [exact S|]. split; [apply grows_refl|now intros i].
  - cbn [hooks] in H. destruct (n <? Datatypes.S i)%nat eqn:E.
    + apply Nat.ltb_lt in E. replace (Datatypes.S i - n)%nat with (Datatypes.S (i - n)) by lia. cbn [Engine_Model.unroll_loop].
      replace (Z.of_nat (Datatypes.S i) >? Z.of_nat n) with true by lia. cbn [stk_setup Engine_Model.unrolls]. rewrite Nat2Z.id, undo by lia.
      destruct (hook (Datatypes.S i)) as [u|]; cbn [option_map].
      * destruct (aexec fg false (unroll_prog u) a) as [[[a1|] [|] [|] [|] [|]]|] eqn:X; try discriminate.
        pose proof (aexec_sound fg false dec (fun _ => false) bound (fun _ _ => eq_refl) _ _ _ w X S) as Q.
        pose proof (exec_marks is_top dec (fun _ => false) bound) as T. unfold unroll_call.
        specialize (fun i => T (Top i) _ w (unroll_tops u) eq_refl).
        destruct (exec dec (fun _ => false) bound (unroll_prog u) w) as (w1, r). cbn [fst] in T |- *. destruct Q as (Q & G).
        assert (Q1 : sat w1 a1). { destruct r; cbn in Q; try contradiction; [exact Q|]. destruct Q as (? & [] & _). }
        destruct (IH n a1 b w1 H ltac:(lia) ltac:(lia) Q1) as (ev & w' & E1 & A & B & C).
        replace (Z.of_nat (Datatypes.S i) + -1) with (Z.of_nat i) by lia. rewrite E1. exists (Engine_Model.EUnroll (Z.of_nat (Datatypes.S i)) :: ev), w'.
        split; [reflexivity|]. split; [exact A|]. split; [eapply grows_trans; eassumption|]. now apply tops_trans with w1.
      * destruct (IH n a b w H ltac:(lia) ltac:(lia) S) as (ev & w' & E1 & A). replace (Z.of_nat (Datatypes.S i) - 1) with (Z.of_nat i) by lia.
        exists ev, w'. split; [exact E1|exact A].
    + injection H as <-. apply Nat.ltb_ge in E. replace n with (Datatypes.S i) by lia. rewrite Nat.sub_diag. cbn [Engine_Model.unroll_loop].
      replace (Z.of_nat (Datatypes.S i) >? Z.of_nat (Datatypes.S i)) with false by lia. exists [], w.
      split; [reflexivity|]. split; [exact S|]. split; [apply grows_refl|now intros ?].
Qed.

(** the checks *)
Definition failing (s : nat) (d : Z) (w : world) : Prop :=
  exists a, sat w a /\ fails fg tab first once lost s d a = true.
Lemma checks_sound s goal : forall cs a w i ev w' d, sat w a -> checks fg tab first once lost goal s cs a = true ->
  Engine_Model.run_checks (Z.of_nat s) i (map (check_call dec bound) cs) w 1 = (ev, w', d) ->
  grows fg w w' /\ same_tops w w' /\ (d <= 0 -> failing s d w') /\ (0 < d -> d = 1 /\ sat w' goal /\ len (stk w') = len (stk w)).
Proof.
  induction cs as [|c cs IH]; intros a w i ev w' d S H E.
  - cbn in E. injection E as <- <- <-. split; [apply grows_refl|]. split; [now intros ?|]. split; [lia|]. intros _. split; [reflexivity|].
    split; [eapply sat_leq; eassumption|reflexivity].
  - cbn [checks] in H. destruct (aop fg (Mark (M "ctop")) a) as [a0|] eqn:E0; [|discriminate].
    destruct (aexec fg false (check_prog c) a0) as [[[|] [|] [|] ct rt]|] eqn:X; try discriminate.
    apply andb_true_iff in H as (Hct & H).
    destruct (aop_sound _ _ _ _ _ E0 S) as (S0 & _). cbn [map Engine_Model.run_checks] in E. unfold check_call in E at 1.
    pose proof (aexec_sound fg false dec (fun _ => false) bound (fun _ _ => eq_refl) _ _ _ _ X S0) as Q.
    pose proof (fun m => exec_marks _ dec (fun _ => false) bound m _ (run_op (Mark (M "ctop")) w) (check_tops c)) as T.
    destruct (exec dec (fun _ => false) bound (check_prog c) (run_op (Mark (M "ctop")) w)) as (w1, r). cbn [fst] in T. destruct Q as (Q & G).
    assert (G1 : grows fg w w1) by exact G.
    assert (T1 : same_tops w w1). { intros j. rewrite T by reflexivity. reflexivity. }
    assert (TC : marks w1 (M "ctop") = len (stk w)). { rewrite T by reflexivity. reflexivity. }
    destruct r as [| | |d1|]; try (cbn in Q; contradiction).
    + destruct Q as (a1 & I & S1). rewrite forallb_forall in H. specialize (H _ I). cbn [fst snd] in H.
      destruct (aop fg (Release (M "ctop")) a1) as [b|] eqn:E1; [|discriminate]. destruct (aop_sound _ _ _ _ _ E1 S1) as (S2 & G2).
      assert (T2 : same_tops w1 (run_op (Release (M "ctop")) w1)). { intros j. apply (op_marks is_top); reflexivity. }
      assert (L2 : len (stk (run_op (Release (M "ctop")) w1)) = len (stk w)).
      { cbn [aop] in E1. destruct (has (M "ctop") a1) eqn:Hh; [|discriminate]. cbn [run_op]. rewrite (sat_check_mark _ _ _ S1 Hh).
        cbn. rewrite bottom_length, TC. unfold has in Hh. destruct (mget (M "ctop") (ams a1)) as [l|] eqn:Em; [|discriminate].
        destruct S1 as (_ & SM). destruct (SM _ _ (mget_In _ _ _ Em)) as (P & _). rewrite TC in P. lia. }
      set (w2 := run_op (Release (M "ctop")) w1) in *. clearbody w2.
      destruct (d1 <=? 0) eqn:D.
      * injection E as <- <- <-. apply Z.leb_le in D. split; [eapply grows_trans; eassumption|]. split; [now apply tops_trans with w1|].
        split; [|lia]. intros _. exists b. auto.
      * destruct (Engine_Model.run_checks (Z.of_nat s) (Datatypes.S i) (map (check_call dec bound) cs) w2 1) as ((ev2, w3), d3) eqn:R.
        injection E as <- <- <-. destruct (IH _ _ _ _ _ _ S2 H R) as (A & B & C & F). split; [eapply grows_trans; [exact G1|eapply grows_trans; eassumption]|].
        split; [apply tops_trans with w1; [exact T1|]; now apply tops_trans with w2|]. split; [exact C|]. intros P. destruct (F P) as (F1 & F2 & F3).
        split; [exact F1|]. split; [exact F2|]. now rewrite F3.
    + change (Engine_Model.INT_MIN <=? 0) with true in E. cbv iota in E. injection E as <- <- <-. split; [exact G1|]. split; [exact T1|].
      split; [|unfold Engine_Model.INT_MIN; lia]. intros _. cbn [meets o_ct] in Q. destruct ct as [b|]; [|contradiction]. exists b. split; [exact Q|].
      unfold fails. change Stk_Gens.INT_MIN with Engine_Model.INT_MIN. rewrite Z.eqb_refl. exact Hct.
Qed.

(** what holds before every stage *)
Definition inv (l : @Engine_Model.loc world) : Prop :=
  exists s, Engine_Model.state l = Z.of_nat s /\ (first <= s <= last)%nat /\ 0 <= Engine_Model.avma l /\
    (Z.to_nat (Engine_Model.avma l) <= len (stk (Engine_Model.world l)))%nat /\
    sat (release (Z.to_nat (Engine_Model.avma l)) (Engine_Model.world l)) (at_ s) /\
    (forall i, (first <= i < s)%nat -> Engine_Model.tops l (Z.of_nat i) = Z.of_nat (marks (Engine_Model.world l) (Top i))) /\
    (s = last -> Z.to_nat (Engine_Model.avma l) = len (stk (Engine_Model.world l))) /\
    (forall i, 0 <= Engine_Model.tries l i).

(** the generator and the checks of one stage *)
Lemma stage_sound l s : inv l -> Engine_Model.state l = Z.of_nat s -> (first <= s < last)%nat ->
  exists g w1 av1 o ev1 w2 d,
    Engine_Model.generators (stk_setup dec cut bound su) (Z.of_nat s) = Some g /\
    g (Engine_Model.world l) (Engine_Model.avma l) = (w1, av1, o) /\
    (let diff0 := match o with Engine_Model.Ret d => d | Engine_Model.Timeout => Z.of_nat first - Z.of_nat s end in
     match Engine_Model.validators (stk_setup dec cut bound su) (Z.of_nat s) with
     | Some cs => if 0 <? diff0 then Engine_Model.run_checks (Z.of_nat s) 0 cs w1 diff0 else ([], w1, diff0)
     | None => ([], w1, diff0)
     end) = (ev1, w2, d) /\
    grows fg (Engine_Model.world l) w2 /\
    (forall i, (first <= i <= s)%nat -> Engine_Model.upd (Engine_Model.tops l) (Engine_Model.state l) (Engine_Model.avma l) (Z.of_nat i) = Z.of_nat (marks w2 (Top i))) /\
    (d <= 0 -> failing s d w2) /\ (0 < d -> d = 1 /\ sat w2 (at_ (S s)) /\ av1 = height w2).
Proof.
  intros (s' & E & Ls & A0 & A1 & St & Tp & _) E' L. assert (s' = s) by lia. subst s'. clear E'.
  destruct (stages s L) as (g & Eg & Ok). exists (gen_call dec cut bound s g). cbn [stk_setup Engine_Model.generators Engine_Model.validators]. rewrite Nat2Z.id, Eg.
  rewrite at_below in St by lia.
  set (w := Engine_Model.world l) in *. set (av := Engine_Model.avma l) in *. unfold stage_ok in Ok.
  destruct (aop fg (Mark (Top s)) (tab s)) as [a0|] eqn:Ea; [|discriminate].
  destruct (aexec fg cuts (gen_prog g) a0) as [[[|] [|] [|] ct rt]|] eqn:X; try discriminate. apply andb_true_iff in Ok as (Oc & Or).
  unfold gen_call. assert (E0 : set_avma s av w = release (Z.to_nat av) w). { unfold set_avma. now rewrite (proj2 (Nat.leb_le _ _) A1). }
  rewrite E0. destruct (aop_sound _ _ _ _ _ Ea St) as (S0 & _).
  pose proof (aexec_sound fg cuts dec cut bound no_cut _ _ _ _ X S0) as Q.
  pose proof (fun i => exec_marks _ dec cut bound (Top i) _ (run_op (Mark (Top s)) (release (Z.to_nat av) w)) (gen_tops g) eq_refl) as T.
  destruct (exec dec cut bound (gen_prog g) (run_op (Mark (Top s)) (release (Z.to_nat av) w))) as (w1, r). cbn [fst] in T. destruct Q as (Q & G).
  assert (G1 : grows fg w w1) by exact G.
  assert (T1 : forall i, (first <= i <= s)%nat -> Engine_Model.upd (Engine_Model.tops l) (Engine_Model.state l) av (Z.of_nat i) = Z.of_nat (marks w1 (Top i))).
  { intros i Hi. rewrite T. unfold Engine_Model.upd. rewrite E. cbn [run_op setmark marks release setstk stk meqb].
    destruct (Z.eqb_spec (Z.of_nat i) (Z.of_nat s)) as [Ei|Ei].
    - replace (i =? s)%nat with true by (symmetry; apply Nat.eqb_eq; lia). rewrite bottom_length. lia.
    - replace (i =? s)%nat with false by (symmetry; apply Nat.eqb_neq; lia). apply Tp. lia. }
  assert (K : forall d0, (exists a, sat w1 a /\ after fg tab first once lost (at_ (S s)) s (checks_at su s) d0 a = true) ->
    exists ev1 w2 d, match option_map (map (check_call dec bound)) (nth s (s_checks su) None) with
     | Some cs => if 0 <? d0 then Engine_Model.run_checks (Z.of_nat s) 0 cs w1 d0 else ([], w1, d0)
     | None => ([], w1, d0)
     end = (ev1, w2, d) /\ grows fg w w2 /\
     (forall i, (first <= i <= s)%nat -> Engine_Model.upd (Engine_Model.tops l) (Engine_Model.state l) av (Z.of_nat i) = Z.of_nat (marks w2 (Top i))) /\
     (d <= 0 -> failing s d w2) /\ (0 < d -> d = 1 /\ sat w2 (at_ (S s)) /\ height w1 = height w2)).
  { intros d0 (a & Sa & Af). unfold after in Af. destruct (d0 <=? 0) eqn:D.
    - apply Z.leb_le in D. exists [], w1, d0. split.
      { destruct (nth s (s_checks su) None); cbn [option_map]; [|reflexivity]. now replace (0 <? d0) with false by lia. }
      split; [exact G1|]. split; [exact T1|]. split; [|lia]. intros _. unfold failing. eauto.
    - apply andb_true_iff in Af as (D1 & Ck). apply Z.eqb_eq in D1. subst d0. cbn [Z.ltb Z.compare].
      unfold checks_at in Ck.
      assert (R : exists ev1 w2 d, Engine_Model.run_checks (Z.of_nat s) 0 (map (check_call dec bound) (match nth s (s_checks su) None with Some l => l | None => [] end)) w1 1 = (ev1, w2, d)).
      { destruct (Engine_Model.run_checks _ _ _ _ _) as ((e, w2), d). eauto. }
      destruct R as (ev1 & w2 & d & R). exists ev1, w2, d. destruct (checks_sound _ _ _ _ _ _ _ _ _ Sa Ck R) as (P1 & P2 & P3 & P4).
      split; [destruct (nth s (s_checks su) None); cbn [option_map]; [exact R|]; cbn in R; exact R|]. split; [eapply grows_trans; eassumption|].
      split; [intros i Hi; rewrite P2; now apply T1|]. split; [exact P3|]. intros Hd. destruct (P4 Hd) as (? & ? & ?). split; [assumption|].
      split; [assumption|]. unfold height. congruence. }
  destruct r as [| | |d0|]; try (cbn in Q; contradiction).
  - destruct (K d0) as (ev1 & w2 & d & R & P).
    { destruct Q as (a & I & Sa). rewrite forallb_forall in Or. exists a. split; [exact Sa|]. exact (Or _ I). }
    exists w1, (height w1), (Engine_Model.Ret d0), ev1, w2, d. split; [reflexivity|]. split; [reflexivity|]. split; [exact R|exact P].
  - destruct (K (Z.of_nat first - Z.of_nat s)) as (ev1 & w2 & d & R & P).
    { cbn [meets o_ct] in Q. destruct ct as [b|]; [|contradiction]. exists b. split; [exact Q|]. unfold after.
      replace (Z.of_nat first - Z.of_nat s <=? 0) with true by lia. exact Oc. }
    exists w1, (height w1), Engine_Model.Timeout, ev1, w2, d. split; [reflexivity|]. split; [reflexivity|]. split; [exact R|exact P].
Qed.

Definition retry : Z := if once then 1 else 0.
Lemma step_sound l : inv l -> Engine_Model.state l < Z.of_nat last ->
  match Engine_Model.step (stk_setup dec cut bound su) (Z.of_nat first) retry l with
  | (_, inl l') => inv l' /\ grows fg (Engine_Model.world l) (Engine_Model.world l')
  | (_, inr r) =>
      let w := Engine_Model.stopped (stk_setup dec cut bound su) (Z.of_nat first) l in
      grows fg (Engine_Model.world l) w /\ (forall z, r = Engine_Model.Returned z -> z = 0 /\ exists a, lost = Some a /\ sat w a)
  end.
Proof.
  intros I L. pose proof hooks_sound as HS. assert (Es : exists s, Engine_Model.state l = Z.of_nat s /\ (first <= s < last)%nat). { destruct I as (s & E & F & _). exists s. split; [exact E|lia]. }
  destruct Es as (s & E & Ls). destruct (stage_sound l s I E Ls) as (g & w1 & av1 & o & ev1 & w2 & d & Hg & Hc & Hr & Hgr & Ht & Hf & Hs).
  assert (Tr : forall i, 0 <= Engine_Model.tries l i) by (destruct I as (? & ? & ? & ? & ? & ? & ? & ? & ?); assumption).
  unfold Engine_Model.step, Engine_Model.stopped. rewrite E in *. rewrite Hg, Hc.
  cbv zeta in Hr. change (match o with Engine_Model.Ret diff => diff | Engine_Model.Timeout => Z.of_nat first - Z.of_nat s end) with (match o with Engine_Model.Ret d => d | Engine_Model.Timeout => Z.of_nat first - Z.of_nat s end) in *.
  assert (W2 : match Engine_Model.validators (stk_setup dec cut bound su) (Z.of_nat s) with
      | Some cs => if 0 <? match o with Engine_Model.Ret d => d | Engine_Model.Timeout => Z.of_nat first - Z.of_nat s end
                   then snd (fst (Engine_Model.run_checks (Z.of_nat s) 0 cs w1 match o with Engine_Model.Ret d => d | Engine_Model.Timeout => Z.of_nat first - Z.of_nat s end)) else w1
      | None => w1 end = w2).
  { destruct (Engine_Model.validators _ _) as [cs|]; [|injection Hr; auto]. destruct (0 <? _); [now rewrite Hr|injection Hr; auto]. }
  rewrite Hr. cbv zeta. rewrite W2. destruct (Z.of_nat s + d >? Engine_Model.INT_MAX) eqn:Ov; [split; [exact Hgr|discriminate]|].
  assert (Sl : forall a, sat w2 a -> stops lost a = true -> forall z, Engine_Model.Returned 0 = Engine_Model.Returned z -> z = 0 /\ exists a, lost = Some a /\ sat w2 a).
  { intros a Sa Fa z [= <-]. split; [reflexivity|]. unfold stops in Fa. destruct lost as [b|]; [|discriminate]. exists b. split; [reflexivity|]. eapply sat_leq; eassumption. }
  destruct (d <=? 0) eqn:D.
  - apply Z.leb_le in D. destruct (Hf D) as (a & Sa & Fa). unfold fails in Fa. change Stk_Gens.INT_MIN with Engine_Model.INT_MIN in Fa.
    destruct ((d =? Engine_Model.INT_MIN) || (Z.of_nat s + d <? 0)) eqn:B.
    { cbn [orb] in Fa. split; [exact Hgr|]. now apply Sl with a. }
    unfold retry. destruct once; cbn [orb] in Fa.
    { cbn [Z.eqb negb andb]. replace (Engine_Model.tries l (Z.of_nat s) + 1 >=? 1) with true by (specialize (Tr (Z.of_nat s)); lia).
      split; [exact Hgr|]. now apply Sl with a. }
    apply orb_false_iff in B as (B1 & B2). cbn [negb Z.eqb andb].
    apply andb_true_iff in Fa as (_ & Fa). unfold goes_back in Fa. apply Z.ltb_ge in B2.
    set (n := Nat.max first (Z.to_nat (Z.of_nat s + d))) in *.
    assert (En : (if Z.of_nat s + d <? Z.of_nat first then Z.of_nat first else Z.of_nat s + d) = Z.of_nat n).
    { unfold n. destruct (Z.of_nat s + d <? Z.of_nat first) eqn:X; lia. } rewrite En.
    destruct (hooks fg s n a) as [b|] eqn:H; [|discriminate]. apply andb_true_iff in Fa as (Fh & Fl).
    assert (Ln : (first <= n <= s)%nat) by lia.
    destruct (HS s n a b w2 H ltac:(lia) ltac:(lia) Sa) as (ev2 & w3 & Eu & S3 & G3 & T3). replace (Z.to_nat (Z.of_nat s - Z.of_nat n)) with (s - n)%nat by lia. rewrite Eu.
    assert (Tn : forall i, (first <= i <= s)%nat -> Engine_Model.upd (Engine_Model.tops l) (Z.of_nat s) (Engine_Model.avma l) (Z.of_nat i) = Z.of_nat (marks w3 (Top i))).
    { intros i Hi. rewrite T3. now apply Ht. }
    split; [|cbn [Engine_Model.world]; eapply grows_trans; eassumption].
    exists n. cbn [Engine_Model.state Engine_Model.world Engine_Model.avma Engine_Model.tops Engine_Model.tries]. rewrite (Tn n Ln), Nat2Z.id.
    split; [reflexivity|]. split; [lia|]. split; [lia|]. split.
    { unfold has in Fh. destruct (mget (Top n) (ams b)) as [lm|] eqn:Em; [|discriminate]. destruct S3 as (_ & SM). now destruct (SM _ _ (mget_In _ _ _ Em)). }
    split; [rewrite at_below by lia; eapply sat_leq; [exact Fl|]; now apply sat_release|]. split; [intros i Hi; apply Tn; lia|]. split; [lia|exact Tr].
  - apply Z.leb_gt in D. destruct (Hs D) as (-> & S2 & ->). replace (Z.of_nat s + 1 <? Z.of_nat first) with false by lia.
    split; [|exact Hgr]. exists (Datatypes.S s). cbn [Engine_Model.state Engine_Model.world Engine_Model.avma Engine_Model.tops Engine_Model.tries]. unfold height. rewrite Nat2Z.id.
    split; [lia|]. split; [lia|]. split; [lia|]. split; [lia|]. split; [|split; [|split; [reflexivity|]]].
    + eapply sat_ext; [| | | |exact S2]; try reflexivity. cbn. apply bottom_all.
    + intros i Hi. apply Ht. lia.
    + intros i. unfold Engine_Model.upd. destruct (i =? _); [lia|apply Tr].
Qed.

(** what a run of the engine comes to *)
Definition ends_well (w : world) (r : Engine_Model.stop) : Prop :=
  forall z, r = Engine_Model.Returned z ->
    (z = 1 /\ sat w (at_ last)) \/ (z = 0 /\ exists a, lost = Some a /\ sat w a).
Lemma done_sound l : inv l -> Engine_Model.state l <? Z.of_nat last = false -> ends_well (Engine_Model.world l) (Engine_Model.Returned 1).
Proof.
  intros (s & Es & Ls & A0 & A1 & St & _ & H9 & _) E z [= <-]. left. split; [reflexivity|]. apply Z.ltb_ge in E. assert (s = last) by lia. subst s. rewrite H9 in St by reflexivity.
  eapply sat_ext; [| | | |exact St]; try reflexivity. cbn. symmetry. apply bottom_all.
Qed.
Lemma run_sound fuel : forall l, inv l ->
  let '(_, r, w) := Engine_Model.run (stk_setup dec cut bound su) (Z.of_nat first) (Z.of_nat last) retry fuel l in
  grows fg (Engine_Model.world l) w /\ ends_well w r.
Proof.
  induction fuel as [|fuel IH]; intros l I; cbn [Engine_Model.run].
  - destruct (Engine_Model.state l <? Z.of_nat last) eqn:E; [split; [apply grows_refl|discriminate]|]. split; [apply grows_refl|]. now apply done_sound.
  - destruct (Engine_Model.state l <? Z.of_nat last) eqn:E.
    + apply Z.ltb_lt in E. pose proof (step_sound l I E) as H. destruct (Engine_Model.step _ _ _ l) as (ev, [l'|r]).
      * destruct H as (I' & G). specialize (IH l' I'). destruct (Engine_Model.run _ _ _ _ fuel l') as ((ev', r), w). destruct IH as (A & B).
        split; [eapply grows_trans; eassumption|exact B].
      * destruct H as (G & N). split; [exact G|]. intros z Hz. right. exact (N z Hz).
    + split; [apply grows_refl|]. now apply done_sound.
Qed.
Lemma gen_sound fuel w : sat w (at_ first) ->
  let '(_, r, w1) := Engine_Model.exhaustive_gen_retry (stk_setup dec cut bound su) (Z.of_nat first) (Z.of_nat last) retry fuel w (height w) in
  grows fg w w1 /\ ends_well w1 r.
Proof.
  intros S. unfold Engine_Model.exhaustive_gen_retry. replace (Z.of_nat first =? Z.of_nat last) with false by lia. replace (Z.of_nat first >? Z.of_nat last) with false by lia.
  refine (run_sound fuel (Engine_Model.mkLoc (Z.of_nat first) w (height w) (fun i => if i =? 0 then height w else 0) (fun _ => 0)) _).
  exists first. cbn [Engine_Model.state Engine_Model.world Engine_Model.avma Engine_Model.tops Engine_Model.tries]. unfold height. rewrite Nat2Z.id.
  split; [reflexivity|]. split; [lia|]. split; [lia|]. split; [lia|]. split; [|split; [lia|split; [lia|intros i; lia]]].
  eapply sat_ext; [| | | |exact S]; try reflexivity. apply bottom_all.
Qed.
End Run.

Lemma leads_sound fg dec bound c a b w : leads fg c a b = true -> sat w a -> sat (plain dec bound c w) b /\ grows fg w (plain dec bound c w).
Proof.
  intros H S. unfold leads in H. destruct (aexec fg false c a) as [[[a1|] [|] [|] [|] [|]]|] eqn:X; try discriminate.
  pose proof (aexec_sound fg false dec (fun _ => false) bound (fun _ _ => eq_refl) _ _ _ w X S) as Q. unfold plain.
  destruct (exec dec (fun _ => false) bound c w) as (w1, r). destruct Q as (Q & G). split; [|exact G].
  eapply sat_leq; [exact H|]. destruct r; cbn in Q; try contradiction; [exact Q|]. destruct Q as (? & [] & _).
Qed.

Section Curves.
Variables (fg : list lval) (cuts : bool) (p : procedure) (md : bool) (su : setup_t).
Variables (dec cut : nat -> bool) (bound : nat).
Hypothesis no_cut : cuts = false -> forall t, cut t = false.
Hypothesis stages : forall s, (s < 9)%nat -> exists g, nth s (s_gens su) None = Some g /\
  stage_ok fg cuts (table p) 0 false whatever (at_stage p md (S s)) s g (checks_at su s) = true.
Hypothesis undo : forall s, (0 < s < 9)%nat -> nth s (s_unrolls su) None = hook s.
Hypothesis ends : curves_ok fg p = true.
Lemma curves_sound fuel n : forall w, sat w (rest p) ->
  grows fg w (fst (curves dec cut bound su md fuel n w)) /\ (snd (curves dec cut bound su md fuel n w) = Made -> sat (fst (curves dec cut bound su md fuel n w)) (rest p)).
Proof.
  pose proof ends as En. unfold curves_ok in En. apply andb_true_iff in En as (En & E3). apply andb_true_iff in En as (E1 & _).
  assert (E4 : leads fg (seq [output md; curve_free]) (at_stage p md 9) (rest p) = true).
  { rewrite forallb_forall in E3. apply E3. destruct md; [left|right; left]; reflexivity. } clear E3.
  induction n as [|n IH]; intros w S; cbn [curves]; [split; [apply grows_refl|auto]|].
  destruct (leads_sound fg dec bound _ _ _ w E1 S) as (S0 & G0).
  assert (R := gen_sound fg cuts (table p) (at_stage p md) 0 9 false whatever su dec cut bound no_cut).
  assert (AB : forall s, (s < 9)%nat -> at_stage p md s = table p s).
  { intros s H. unfold at_stage. now replace (s =? 9)%nat with false by (symmetry; apply Nat.eqb_neq; lia). }
  specialize (R AB ltac:(lia) (fun s H => stages s (proj2 H)) undo fuel _ S0). clear AB. unfold Engine_Model.exhaustive_gen. unfold retry in R. change (Z.of_nat 0) with 0 in R. change (Z.of_nat 9) with 9 in R.
  destruct (Engine_Model.exhaustive_gen_retry _ 0 9 0 fuel _ _) as ((ev, r), w1). destruct R as (G1 & S1).
  assert (F : grows fg w w1) by exact (grows_trans _ _ _ _ G0 G1).
  destruct r as [z| | |]; try (split; [exact F|discriminate]). destruct (Z.eq_dec z 1) as [->|Nz].
  - assert (S1' : sat w1 (at_stage p md 9)) by (destruct (S1 _ eq_refl) as [(_ & H)|(H & _)]; [exact H|discriminate]).
    destruct (leads_sound fg dec bound _ _ _ w1 E4 S1') as (S2 & G2). destruct (IH _ S2) as (A & B). split; [|exact B].
    eapply grows_trans; [exact F|]. exact (grows_trans _ _ _ _ G2 A).
  - destruct z as [|[q|q|]|q]; try contradiction; (split; [exact F|discriminate]).
Qed.
End Curves.
