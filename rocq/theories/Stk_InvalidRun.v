(** What is known before every stage of the invalid-curve method, and that the rounds keep it:
    proofs. *)
From Coq Require Import Ascii String.
From Verif Require Import Base Str_Model Cli_Model Plan_Model Plan_Spec Stk_Model Stk_Gens Stk_Check Stk_Sound Stk_Table Stk_Engine Stk_Run Stk_Invalid.
From Verif Require Engine_Model.

Definition nulls (xs : list lval) : list (lval * aval) := map (fun x => (x, ANull)) xs.
Definition unused : list (lval * aval) := nulls [F_seed; F_ansi; F_ansi_r; F_mult; F_z; F_meta].

(** ** The curve to invalidate *)
Definition orig_table (s : nat) : astate :=
  St (avs (table Plan_Spec.PPlain s) ++ unused ++ (if s <=? 6 then [(F_full, AVal true [] [] None)] else []) ++ nulls [G_orig])
     (map (fun i => (Top i, tops_from i s)) (List.seq 1 (s - 1))).
Definition orig_gens (s : nat) : list gen_f :=
  match s with
  | 1 => [field_gen_random; field_gen_input] | 2 => [a_gen_random; a_gen_input] | 3 => [b_gen_random; b_gen_input]
  | 4 => [curve_gen_any] | 5 => [order_gen_any] | 6 => [gens_gen_any] | _ => []
  end.
Definition inv_checks (s : nat) : list check_f := match s with 4 => [curve_check_nonzero] | _ => [] end.

(** ** The other curves *)

(** what stays: numbers older than these marks *)
Definition stays (ms : list mark) : list (lval * aval) :=
  unused ++
  [(F_field, AVal false [] [] (Some ms)); (F_a, AVal false [] [] (Some ms));
   (G_orig, AVal false [G_orig] [G_orig] (Some ms)); (G_saved, AVal false [G_saved] [G_saved] (Some ms))].
(** [thr]: in a thread; [again]: points may be there already *)
Definition inv_table (thr again : bool) (s : nat) : astate :=
  St (stays (Iter :: tops_from 3 s)
     ++ (if s <=? 3 then [(F_b, AVal true [] [] None)] else made F_b 3 [] s)
     ++ (if s <=? 4 then nulls [F_curve; F_card; F_cgens]
         else made F_curve 4 [] s ++ [(F_card, AVal true [F_card] [] (Some (tops_from 6 s))); (F_cgens, AVal true [F_cgens] [] (Some (tops_from 5 s)))])
     ++ (if s <=? 5 then [(F_order, AVal true [] [] None)] else made F_order 5 [] s)
     ++ (if s <=? 6 then [(F_gens, if thr then ANull else AVal true [] [F_cgens] None); (F_full, AVal true [] [] (Some (Iter :: tops_from 3 s)))]
         else made F_gens 6 [F_cgens] s ++ [(F_full, AVal false [] [] (Some (Iter :: tops_from 3 s)))])
     ++ (if s <=? 7 then [(F_pts, if again then AVal true [] [F_cgens] None else ANull)]
         else [(F_pts, AVal true [] [F_cgens] (Some (tops_from 8 s)))]))
     ((Iter, Iter :: tops_from 3 s) :: (if thr then [(Base, Base :: Iter :: tops_from 3 s)] else [])
      ++ map (fun i => (Top i, tops_from i s)) (List.seq 3 (s - 3))).
(** before a round *)
Definition head (thr : bool) : astate :=
  St (stays [] ++ [(F_b, AVal true [] [] None); (F_order, AVal true [] [] None)] ++ nulls [F_curve; F_card; F_cgens; F_pts]
      ++ [(F_gens, if thr then ANull else AVal true [] [F_cgens] None); (F_full, AVal true [] [] (Some []))])
     (if thr then [(Base, [Base])] else []).
(** when the generators failed or, with [cuts], were interrupted *)
Definition lost_gens (thr cuts : bool) : astate :=
  St (stays [Iter] ++ [(F_b, AVal true [] [] (Some [])); (F_order, AVal true [] [] (Some []))]
     ++ [(F_curve, AVal false [] [] (Some [])); (F_card, AVal true [F_card] [] (Some [])); (F_cgens, AVal true [F_cgens] [] (Some []))]
     ++ [(F_gens, if thr then if cuts then AVal true [] [F_cgens] (Some []) else ANull else AVal true [] [F_cgens] None);
         (F_full, AVal true [] [] (Some [Iter])); (F_pts, ANull)])
     ((Iter, [Iter]) :: if thr then [(Base, [Base; Iter])] else []).
(** when a curve is complete *)
Definition complete (thr : bool) : astate := aset G_saved (AVal false [G_saved] [G_saved] (Some [])) (inv_table thr true 9).
(** with a new record *)
Definition fresh_head : astate :=
  St (stays [] ++ nulls [F_b; F_order; F_curve; F_card; F_cgens; F_pts; F_gens; F_full]) [].
Definition inv_gens (s : nat) : list gen_f :=
  match s with
  | 3 => [b_gen_random] | 4 => [curve_gen_any] | 5 => [order_gen_any] | 6 => [gens_gen_one; gens_gen_any]
  | 7 => [points_gen_trial] | 8 => [gen_skip] | _ => []
  end.
(** when the curve to invalidate is there, and while the primes are found *)
Definition orig_vals (ms : list mark) : list (lval * aval) :=
  unused ++ nulls [G_nums_b; G_family_b; G_saved; G_orig]
  ++ map (fun x => (x, AVal false [] [] (Some ms))) [F_field; F_a; F_b; F_curve; F_order; F_full]
  ++ [(F_card, AVal true [F_card] [] (Some ms)); (F_cgens, AVal true [F_cgens] [] (Some ms));
      (F_gens, AVal false [] [F_cgens] (Some ms)); (F_pts, ANull)].
Definition orig_done : astate := St (orig_vals []) [].
Definition orig_primes : astate :=
  St (orig_vals [M "l"] ++ [(V "bound", AVal false [] [] (Some [])); (V "product", AVal false [] [] (Some []))]) [(M "l", [M "l"])].
Definition at_rest : astate := St (statics Plan_Spec.PPlain [] ++ nulls [G_orig]) [].
(** the main thread with several threads *)
Definition collecting : astate := St (nulls [] ++ [(G_orig, AVal false [G_orig] [G_orig] (Some [])); (G_saved, AVal false [G_saved] [G_saved] (Some []))]) [].

Definition orig_ok (s : nat) : bool :=
  forallb (fun g => stage_ok [] true orig_table 1 false whatever (orig_table (S s)) s g (inv_checks s)) (orig_gens s).
Definition inv_ok (thr cuts : bool) (s : nat) : bool :=
  forallb (fun g =>
    if s <? 6 then stage_ok [] cuts (inv_table thr false) 3 false None (inv_table thr false (S s)) s g (inv_checks s)
    else if s <? 7 then stage_ok [] cuts (inv_table thr false) 6 true (Some (lost_gens thr cuts)) (inv_table thr false (S s)) s g (inv_checks s)
    else stage_ok [] cuts (inv_table thr true) 7 false None (inv_table thr true (S s)) s g (inv_checks s)) (inv_gens s).
Lemma orig_all : forallb orig_ok (List.seq 1 6) = true.
Proof. vm_compute. reflexivity. Qed.
Lemma inv_all thr cuts : forallb (inv_ok thr cuts) (List.seq 3 6) = true.
Proof. destruct thr, cuts; vm_compute; reflexivity. Qed.

Definition copies : cmd := seq [Op (Use [F_order]); copy_record G_saved; Op (Use [G_saved])].
Definition collect : cmd := seq [Op (New (V "copy") []); Op (Push G_saved (V "copy"))].

(** the programs between the runs of the engine *)
Lemma lead_rest : leads [] new_record at_rest (orig_table 1) = true.
Proof. vm_compute. reflexivity. Qed.
Lemma lead_primes md : leads [] (seq [output md; primes_begin]) (orig_table 7) orig_primes = true.
Proof. destruct md; vm_compute; reflexivity. Qed.
Lemma lead_prime : leads [] primes_body orig_primes orig_primes = true.
Proof. vm_compute. reflexivity. Qed.
Lemma lead_done : leads [] primes_end orig_primes orig_done = true.
Proof. vm_compute. reflexivity. Qed.
Lemma lead_search : leads [] (seq [Op (Hand G_orig all_fields); Op (Empty G_saved); new_invalid]) orig_done (head false) = true.
Proof. vm_compute. reflexivity. Qed.
Lemma lead_main : leads [] (seq [Op (Hand G_orig all_fields); Op (Empty G_saved)]) orig_done collecting = true.
Proof. vm_compute. reflexivity. Qed.
Lemma lead_collect : leads [] collect collecting collecting = true.
Proof. vm_compute. reflexivity. Qed.
Lemma lead_main_end : leads [] (seq [Op (Free [G_saved]); Op (Free [G_orig])]) collecting (St [] []) = true.
Proof. vm_compute. reflexivity. Qed.
Lemma lead_mark thr : leads [] (Op (Mark Iter)) (head thr) (inv_table thr false 3) = true.
Proof. destruct thr; vm_compute; reflexivity. Qed.
Lemma lead_order thr : leads [] (Op (Use [F_order])) (inv_table thr false 6) (inv_table thr false 6) = true.
Proof. destruct thr; vm_compute; reflexivity. Qed.
Lemma lead_order7 thr : leads [] (Op (Use [F_order])) (inv_table thr false 7) (inv_table thr false 7) = true.
Proof. destruct thr; vm_compute; reflexivity. Qed.
Lemma leq_again thr : aleq (inv_table thr false 7) (inv_table thr true 7) = true.
Proof. destruct thr; vm_compute; reflexivity. Qed.
Lemma leq_complete thr : aleq (inv_table thr true 9) (complete thr) = true.
Proof. destruct thr; vm_compute; reflexivity. Qed.
Lemma leq_fresh : aleq fresh_head (head false) = true.
Proof. vm_compute. reflexivity. Qed.
Lemma lead_copy thr : leads [] (copy_record G_saved) (complete thr) (complete thr) = true.
Proof. destruct thr; vm_compute; reflexivity. Qed.
Lemma lead_copies : leads [] copies (complete false) (complete false) = true.
Proof. vm_compute. reflexivity. Qed.
Lemma lead_give_up : leads [] give_up (inv_table false false 6) (head false) = true.
Proof. vm_compute. reflexivity. Qed.
Lemma lead_give_up_lost cuts : leads [] give_up (lost_gens false cuts) (head false) = true.
Proof. destruct cuts; vm_compute; reflexivity. Qed.
Lemma lead_output md : leads [] (seq [Op (Use [F_order]); output md]) (inv_table false true 9) (complete false) = true.
Proof. destruct md; vm_compute; reflexivity. Qed.
Lemma lead_hand : leads [] (seq [Op (Hand G_saved all_fields); new_invalid]) (complete false) fresh_head = true.
Proof. vm_compute. reflexivity. Qed.
Lemma lead_end : leads [] (seq [curve_free; Op (Free [G_saved]); Op (Free [G_orig])]) fresh_head (St [] []) = true.
Proof. vm_compute. reflexivity. Qed.
Definition half (cuts : bool) : list lval := if cuts then [F_full] else [].
Lemma lead_undo cuts : leads (half cuts) (undo_all true) (complete true) (head true) = true.
Proof. destruct cuts; vm_compute; reflexivity. Qed.
Lemma lead_undo6 cuts : leads (half cuts) (undo_all false) (inv_table true false 6) (head true) = true.
Proof. destruct cuts; vm_compute; reflexivity. Qed.
Lemma lead_undo7 cuts : leads (half cuts) (undo_all false) (inv_table true false 7) (head true) = true.
Proof. destruct cuts; vm_compute; reflexivity. Qed.
Lemma lead_undo_lost cuts : leads (half cuts) (undo_all false) (lost_gens true cuts) (head true) = true.
Proof. destruct cuts; vm_compute; reflexivity. Qed.
Lemma lead_thread : leads [] (seq [Op (Mark Base); Op (SetUniv G_orig); Op (Empty G_saved); new_invalid]) (St [(G_saved, ANull)] []) (head true) = true.
Proof. vm_compute. reflexivity. Qed.
Lemma lead_thread_end : leads [F_b; F_order] (seq [curve_free; Op (Use [G_saved]); Op (Free [G_saved]); Op (Release Base)]) (head true) (St [] []) = true.
Proof. vm_compute. reflexivity. Qed.

Lemma grows_more fg fg' w w' : (forall x, In x fg -> In x fg') -> grows fg w w' -> grows fg' w w'.
Proof.
  intros H (fs & E & F). exists fs. split; [exact E|]. eapply Forall_impl; [|exact F]. intros [x|x|x]; cbn; try tauto; intros (A & B); auto.
Qed.
Lemma grows_any fg w w' : grows [] w w' -> grows fg w w'.
Proof. now apply grows_more. Qed.
Lemma grows_tick fg w w' : grows fg w w' -> grows fg w (tick w').
Proof. exact (fun H => H). Qed.

Section Run.
Variables (dec cut : nat -> bool) (bound : nat).

Lemma several_sound c a k : leads [] c a a = true -> forall w, sat w a ->
  sat (several dec bound k c w) a /\ grows [] w (several dec bound k c w).
Proof.
  intros L. induction k as [|k IH]; intros w S; cbn [several]; [split; [exact S|apply grows_refl]|].
  destruct (dec (time w)); [|split; [now apply sat_tick|apply (grows_refl [] w)]].
  destruct (leads_sound [] dec bound c a a (tick w) L (sat_tick _ _ S)) as (S1 & G1). destruct (IH _ S1) as (S2 & G2).
  split; [exact S2|]. exact (grows_trans _ _ _ _ G1 G2).
Qed.

(** ** The curve to invalidate *)
Section Orig.
Variable su : setup_t.
Hypothesis gens : forall s, (1 <= s < 7)%nat -> exists g, nth s (s_gens su) None = Some g /\ In g (orig_gens s).
Hypothesis vals : forall s, checks_at su s = inv_checks s.
Hypothesis undo : forall s, (0 < s < 9)%nat -> nth s (s_unrolls su) None = hook s.
Lemma original_sound fuel w : sat w at_rest ->
  let '(w1, e) := original dec cut bound su fuel w in grows [] w w1 /\ (e = Made -> sat w1 (orig_table 7)).
Proof.
  intros S. unfold original, engine. destruct (leads_sound [] dec bound _ _ _ w lead_rest S) as (S0 & G0).
  assert (R := gen_sound [] true orig_table orig_table 1 7 false whatever su dec cut bound ltac:(discriminate) ltac:(reflexivity) ltac:(lia)).
  assert (St : forall s, (1 <= s < 7)%nat -> exists g, nth s (s_gens su) None = Some g /\
    stage_ok [] true orig_table 1 false whatever (orig_table (Datatypes.S s)) s g (checks_at su s) = true).
  { intros s Hs. destruct (gens s Hs) as (g & E & I). exists g. split; [exact E|]. rewrite vals.
    pose proof orig_all as A. rewrite forallb_forall in A. specialize (A s ltac:(apply in_seq; lia)).
    unfold orig_ok in A. rewrite forallb_forall in A. exact (A g I). }
  specialize (R St undo fuel _ S0). unfold retry in R. change (Z.of_nat 1) with 1%Z in R. change (Z.of_nat 7) with 7%Z in R.
  destruct (Engine_Model.exhaustive_gen_retry _ 1 7 0 fuel _ _) as ((ev, r), w1). destruct R as (G1 & E1).
  assert (F : grows [] w w1) by exact (grows_trans _ _ _ _ G0 G1).
  destruct r as [z| | |]; try (split; [exact F|discriminate]). destruct (Z.eq_dec z 1) as [->|Nz].
  - split; [exact F|]. intros _. destruct (E1 _ eq_refl) as [(_ & H)|(H & _)]; [exact H|discriminate].
  - destruct z as [|[q|q|]|q]; try contradiction; (split; [exact F|discriminate]).
Qed.
Lemma nothing_ok : sat nothing at_rest.
Proof. split; [|intros m l []]. intros x v I. cbn in I. repeat (destruct I as [[= <- <-]|I]; [vm_compute; auto|]). contradiction. Qed.
Lemma prepared_sound md fuel k :
  let '(w, e) := prepared dec cut bound su md fuel k in faults w = [] /\ (e = Made -> sat w orig_done).
Proof.
  unfold prepared. pose proof (original_sound fuel nothing nothing_ok) as H. destruct (original dec cut bound su fuel nothing) as (w, e).
  destruct H as (G & S). assert (Q : forall w, grows [] nothing w -> faults w = []). { intros w' (fs & E & F). rewrite E. destruct fs as [|[x|x|x] fs]; [reflexivity|..]; inversion F; subst; cbn in *; tauto. }
  destruct e; try (split; [now apply Q|discriminate]).
  destruct (leads_sound [] dec bound _ _ _ w (lead_primes md) (S eq_refl)) as (S1 & G1).
  destruct (several_sound _ _ k lead_prime _ S1) as (S2 & G2). destruct (leads_sound [] dec bound _ _ _ _ lead_done S2) as (S3 & G3).
  split; [|intros _; exact S3]. apply Q. eapply grows_trans; [exact G|]. eapply grows_trans; [exact G1|]. exact (grows_trans _ _ _ _ G2 G3).
Qed.
End Orig.

(** ** The other curves *)
Section Inv.
Variables (thr cuts : bool) (su : setup_t).
Hypothesis no_cut : cuts = false -> forall t, cut t = false.
Hypothesis gens : forall s, (3 <= s < 9)%nat -> exists g, nth s (s_gens su) None = Some g /\ In g (inv_gens s).
Hypothesis vals : forall s, checks_at su s = inv_checks s.
Hypothesis undo : forall s, (0 < s < 9)%nat -> nth s (s_unrolls su) None = hook s.

Lemma stage_is s : (3 <= s < 9)%nat -> exists g, nth s (s_gens su) None = Some g /\
    (if s <? 6 then stage_ok [] cuts (inv_table thr false) 3 false None (inv_table thr false (S s)) s g (checks_at su s)
    else if s <? 7 then stage_ok [] cuts (inv_table thr false) 6 true (Some (lost_gens thr cuts)) (inv_table thr false (S s)) s g (checks_at su s)
    else stage_ok [] cuts (inv_table thr true) 7 false None (inv_table thr true (S s)) s g (checks_at su s)) = true.
Proof.
  intros Hs. destruct (gens s Hs) as (g & E & I). exists g. split; [exact E|]. rewrite vals.
  pose proof (inv_all thr cuts) as A. rewrite forallb_forall in A. specialize (A s ltac:(apply in_seq; lia)).
  unfold inv_ok in A. rewrite forallb_forall in A. exact (A g I).
Qed.
Lemma to_6 fuel w : sat w (inv_table thr false 3) ->
  let '(r, w1) := engine dec cut bound su 3 6 0 fuel w in grows [] w w1 /\ forall z, r = Engine_Model.Returned z -> sat w1 (inv_table thr false 6).
Proof.
  intros S. unfold engine.
  assert (R := gen_sound [] cuts (inv_table thr false) (inv_table thr false) 3 6 false None su dec cut bound no_cut ltac:(reflexivity) ltac:(lia)).
  assert (St : forall s, (3 <= s < 6)%nat -> exists g, nth s (s_gens su) None = Some g /\
    stage_ok [] cuts (inv_table thr false) 3 false None (inv_table thr false (Datatypes.S s)) s g (checks_at su s) = true).
  { intros s Hs. destruct (stage_is s) as (g & E & A); [lia|]. exists g. split; [exact E|]. rewrite (proj2 (Nat.ltb_lt s 6)) in A by lia. exact A. }
  specialize (R St undo fuel w S). unfold retry in R. change (Z.of_nat 3) with 3%Z in R. change (Z.of_nat 6) with 6%Z in R.
  destruct (Engine_Model.exhaustive_gen_retry _ 3 6 0 fuel _ _) as ((ev, r), w1). destruct R as (G1 & E1). split; [exact G1|].
  intros z E. destruct (E1 z E) as [(_ & H)|(_ & a & H & _)]; [exact H|discriminate H].
Qed.
Lemma to_7 fuel w : sat w (inv_table thr false 6) ->
  let '(r, w1) := engine dec cut bound su 6 7 1 fuel w in grows [] w w1 /\
  forall z, r = Engine_Model.Returned z -> z = 1%Z /\ sat w1 (inv_table thr false 7) \/ z = 0%Z /\ sat w1 (lost_gens thr cuts).
Proof.
  intros S. unfold engine.
  assert (R := gen_sound [] cuts (inv_table thr false) (inv_table thr false) 6 7 true (Some (lost_gens thr cuts)) su dec cut bound no_cut ltac:(reflexivity) ltac:(lia)).
  assert (St : forall s, (6 <= s < 7)%nat -> exists g, nth s (s_gens su) None = Some g /\
    stage_ok [] cuts (inv_table thr false) 6 true (Some (lost_gens thr cuts)) (inv_table thr false (Datatypes.S s)) s g (checks_at su s) = true).
  { intros s Hs. assert (s = 6) by lia. subst s. destruct (stage_is 6) as (g & E & A); [lia|]. exists g. split; [exact E|exact A]. }
  specialize (R St undo fuel w S). unfold retry in R. change (Z.of_nat 6) with 6%Z in R. change (Z.of_nat 7) with 7%Z in R.
  destruct (Engine_Model.exhaustive_gen_retry _ 6 7 1 fuel _ _) as ((ev, r), w1). destruct R as (G1 & E1). split; [exact G1|].
  intros z E. destruct (E1 z E) as [H|(H & a & [= <-] & H')]; auto.
Qed.
Lemma to_9 fuel w : sat w (inv_table thr false 7) ->
  let '(r, w1) := engine dec cut bound su 7 9 0 fuel w in grows [] w w1 /\ forall z, r = Engine_Model.Returned z -> sat w1 (inv_table thr true 9).
Proof.
  intros S. unfold engine.
  assert (R := gen_sound [] cuts (inv_table thr true) (inv_table thr true) 7 9 false None su dec cut bound no_cut ltac:(reflexivity) ltac:(lia)).
  assert (St : forall s, (7 <= s < 9)%nat -> exists g, nth s (s_gens su) None = Some g /\
    stage_ok [] cuts (inv_table thr true) 7 false None (inv_table thr true (Datatypes.S s)) s g (checks_at su s) = true).
  { intros s Hs. destruct (stage_is s) as (g & E & A); [lia|]. exists g. split; [exact E|]. rewrite (proj2 (Nat.ltb_ge s 6)), (proj2 (Nat.ltb_ge s 7)) in A by lia. exact A. }
  specialize (R St undo fuel w (sat_leq _ _ _ (leq_again thr) S)). unfold retry in R. change (Z.of_nat 7) with 7%Z in R. change (Z.of_nat 9) with 9%Z in R.
  destruct (Engine_Model.exhaustive_gen_retry _ 7 9 0 fuel _ _) as ((ev, r), w1). destruct R as (G1 & E1). split; [exact G1|].
  intros z E. destruct (E1 z E) as [(_ & H)|(_ & a & H & _)]; [exact H|discriminate H].
Qed.
End Inv.

Section Rounds.
Variables (cuts : bool) (su : setup_t).
Hypothesis no_cut : cuts = false -> forall t, cut t = false.
Hypothesis gens : forall s, (3 <= s < 9)%nat -> exists g, nth s (s_gens su) None = Some g /\ In g (inv_gens s).
Hypothesis vals : forall s, checks_at su s = inv_checks s.
Hypothesis undo : forall s, (0 < s < 9)%nat -> nth s (s_unrolls su) None = hook s.

Lemma round_sound md fuel k w : sat w (head false) ->
  let '(w1, o) := round dec cut bound su md fuel k w in
  grows [] w w1 /\ (o = Some true -> sat w1 fresh_head) /\ (o = Some false -> sat w1 (head false)).
Proof.
  intros S. unfold round. destruct (leads_sound [] dec bound _ _ _ w (lead_mark false) S) as (S0 & G0).
  pose proof (to_6 false cuts su no_cut gens vals undo fuel _ S0) as H. destruct (engine dec cut bound su 3 6 0 fuel _) as (r, w1). destruct H as (G1 & E1).
  assert (A1 : grows [] w w1) by exact (grows_trans _ _ _ _ G0 G1). clear G0 G1 S0.
  destruct r as [z| | |]; try (split; [exact A1|split; discriminate]). specialize (E1 z eq_refl).
  destruct (leads_sound [] dec bound _ _ _ w1 (lead_order false) E1) as (S2 & G2). assert (A2 := grows_trans _ _ _ _ A1 G2). clear A1 G2 E1.
  set (w2 := plain dec bound (Op (Use [F_order])) w1) in *. clearbody w2. cbv zeta.
  destruct (dec (time w2)).
  - pose proof (to_7 false cuts su no_cut gens vals undo fuel (tick w2) (sat_tick _ _ S2)) as H. destruct (engine dec cut bound su 6 7 1 fuel _) as (r, w3). destruct H as (G3 & E3).
    assert (A3 : grows [] w w3) by exact (grows_trans _ _ _ _ A2 G3).
    destruct r as [z3| | |]; try (split; [exact A3|split; discriminate]). destruct (E3 _ eq_refl) as [(-> & S3)|(-> & S3)].
    + destruct (leads_sound [] dec bound _ _ _ w3 (lead_order7 false) S3) as (S4 & G4). assert (A4 := grows_trans _ _ _ _ A3 G4).
      pose proof (to_9 false cuts su no_cut gens vals undo fuel _ S4) as H. destruct (engine dec cut bound su 7 9 0 fuel _) as (r, w5). destruct H as (G5 & E5).
      assert (A5 := grows_trans _ _ _ _ A4 G5). destruct r as [z5| | |]; try (split; [exact A5|split; discriminate]). specialize (E5 _ eq_refl).
      destruct (leads_sound [] dec bound _ _ _ w5 (lead_output md) E5) as (S6 & G6).
      destruct (several_sound _ _ k lead_copies _ S6) as (S7 & G7). destruct (leads_sound [] dec bound _ _ _ _ lead_hand S7) as (S8 & G8).
      split; [|split; [intros _; exact S8|discriminate]]. eapply grows_trans; [exact A5|]. eapply grows_trans; [exact G6|]. exact (grows_trans _ _ _ _ G7 G8).
    + destruct (leads_sound [] dec bound _ _ _ w3 (lead_give_up_lost cuts) S3) as (S4 & G4). split; [exact (grows_trans _ _ _ _ A3 G4)|]. split; [discriminate|auto].
  - destruct (leads_sound [] dec bound _ _ _ (tick w2) lead_give_up (sat_tick _ _ S2)) as (S4 & G4). split; [exact (grows_trans _ _ _ _ A2 G4)|]. split; [discriminate|auto].
Qed.
Lemma rounds_sound md fuel k n : forall w, sat w (head false) ->
  let '(w1, e) := rounds dec cut bound su md fuel k n w in grows [] w w1 /\ e <> Failed /\ (e = Made -> sat w1 fresh_head).
Proof.
  induction n as [|n IH]; intros w S; cbn [rounds]; [split; [apply grows_refl|split; discriminate]|].
  pose proof (round_sound md fuel k w S) as H. destruct (round dec cut bound su md fuel k w) as (w1, [[]|]); destruct H as (G & A & B).
  - specialize (A eq_refl). destruct (dec (time w1)); [split; [exact G|split; [discriminate|intros _; now apply sat_tick]]|].
    specialize (IH (tick w1) (sat_tick _ _ (sat_leq _ _ _ leq_fresh A))). destruct (rounds _ _ _ _ _ _ _ _ _) as (w2, e). destruct IH as (G2 & E).
    split; [exact (grows_trans _ _ _ _ G G2)|exact E].
  - specialize (IH w1 (B eq_refl)). destruct (rounds _ _ _ _ _ _ _ _ _) as (w2, e). destruct IH as (G2 & E). split; [exact (grows_trans _ _ _ _ G G2)|exact E].
  - split; [exact G|split; discriminate].
Qed.

Lemma thread_round_sound fuel k w : sat w (head true) ->
  let '(w1, o) := thread_round dec cut bound su fuel k w in grows [] w w1 /\
  forall kept, o = Some kept -> sat (plain dec bound (undo_all kept) w1) (head true) /\ grows (half cuts) w1 (plain dec bound (undo_all kept) w1).
Proof.
  intros S. unfold thread_round. destruct (leads_sound [] dec bound _ _ _ w (lead_mark true) S) as (S0 & G0).
  pose proof (to_6 true cuts su no_cut gens vals undo fuel _ S0) as H. destruct (engine dec cut bound su 3 6 0 fuel _) as (r, w1). destruct H as (G1 & E1).
  assert (A1 : grows [] w w1) by exact (grows_trans _ _ _ _ G0 G1). clear G0 G1 S0.
  destruct r as [z| | |]; try (split; [exact A1|discriminate]). specialize (E1 z eq_refl).
  destruct (leads_sound [] dec bound _ _ _ w1 (lead_order true) E1) as (S2 & G2). assert (A2 := grows_trans _ _ _ _ A1 G2). clear A1 G2 E1.
  set (w2 := plain dec bound (Op (Use [F_order])) w1) in *. clearbody w2. cbv zeta.
  destruct (dec (time w2)).
  - pose proof (to_7 true cuts su no_cut gens vals undo fuel (tick w2) (sat_tick _ _ S2)) as H. destruct (engine dec cut bound su 6 7 1 fuel _) as (r, w3). destruct H as (G3 & E3).
    assert (A3 : grows [] w w3) by exact (grows_trans _ _ _ _ A2 G3).
    destruct r as [z3| | |]; try (split; [exact A3|discriminate]). destruct (E3 _ eq_refl) as [(-> & S3)|(-> & S3)].
    + destruct (leads_sound [] dec bound _ _ _ w3 (lead_order7 true) S3) as (S4 & G4). assert (A4 := grows_trans _ _ _ _ A3 G4).
      set (w4 := plain dec bound (Op (Use [F_order])) w3) in *. clearbody w4. destruct (dec (time w4)).
      * pose proof (to_9 true cuts su no_cut gens vals undo fuel _ (sat_tick _ _ S4)) as H. destruct (engine dec cut bound su 7 9 0 fuel _) as (r, w5). destruct H as (G5 & E5).
        assert (A5 : grows [] w w5) by exact (grows_trans _ _ _ _ A4 G5). destruct r as [z5| | |]; try (split; [exact A5|discriminate]). specialize (E5 _ eq_refl).
        destruct (several_sound _ _ k (lead_copy true) w5 (sat_leq _ _ _ (leq_complete true) E5)) as (S7 & G7).
        split; [exact (grows_trans _ _ _ _ A5 G7)|]. intros kept [= <-]. exact (leads_sound _ dec bound _ _ _ _ (lead_undo cuts) S7).
      * split; [exact A4|]. intros kept [= <-]. exact (leads_sound _ dec bound _ _ _ _ (lead_undo7 cuts) (sat_tick _ _ S4)).
    + split; [exact A3|]. intros kept [= <-]. exact (leads_sound _ dec bound _ _ _ _ (lead_undo_lost cuts) S3).
  - split; [exact A2|]. intros kept [= <-]. exact (leads_sound _ dec bound _ _ _ _ (lead_undo6 cuts) (sat_tick _ _ S2)).
Qed.
Lemma thread_rounds_sound fuel k n : forall w, sat w (head true) ->
  let '(w1, e) := thread_rounds dec cut bound su fuel k n w in grows (half cuts) w w1 /\ e <> Failed /\ (e = Made -> sat w1 (head true)).
Proof.
  induction n as [|n IH]; intros w S; cbn [thread_rounds]; [split; [apply grows_refl|split; discriminate]|].
  destruct (dec (time w)); [split; [apply (grows_refl _ w)|split; [discriminate|intros _; now apply sat_tick]]|].
  pose proof (thread_round_sound fuel k (tick w) (sat_tick _ _ S)) as H. destruct (thread_round dec cut bound su fuel k (tick w)) as (w1, [kept|]); destruct H as (G & A).
  - destruct (A _ eq_refl) as (S1 & G1). specialize (IH _ S1). destruct (thread_rounds _ _ _ _ _ _ _ _) as (w2, e). destruct IH as (G2 & E).
    split; [|exact E]. eapply grows_trans; [|exact (grows_trans _ _ _ _ G1 G2)]. exact (grows_any _ _ _ G).
  - split; [exact (grows_any _ _ _ G)|split; discriminate].
Qed.
Lemma thread_search_sound fuel k n :
  let '(w, e) := thread_search dec cut bound su fuel k n in Forall (okf (half cuts)) (faults w) /\ e <> Failed /\ (e = Made -> sat w (head true)).
Proof.
  unfold thread_search. assert (S : sat nothing (St [(G_saved, ANull)] [])). { split; [|intros m l []]. intros x v [[= <- <-]|[]]. reflexivity. }
  destruct (leads_sound [] dec bound _ _ _ _ lead_thread S) as (S0 & G0). pose proof (thread_rounds_sound fuel k n _ S0) as H.
  destruct (thread_rounds _ _ _ _ _ _ _ _) as (w, e). destruct H as (G & E). split; [|exact E].
  destruct (grows_trans _ _ _ _ (grows_any (half cuts) _ _ G0) G) as (fs & F1 & F2). rewrite F1. exact F2.
Qed.
End Rounds.
End Run.
