(** C21-C24: the generation engine. *)
From Verif Require Import Base Engine_Model Engine_Spec Engine_Proofs.
Local Open Scope Z_scope.

(** OFFSET_END = 9, src/misc/types.h:125-136 *)
Definition offsets (s e : Z) : Prop := 0 <= s /\ s < e /\ e <= 9.

Lemma gen_retry_run {W} (su : setup W) s e r f w av :
  s < e -> exhaustive_gen_retry su s e r f w av =
  run su s e r f (mkLoc s w av (fun i => if i =? 0 then av else 0) (fun _ => 0)).
Proof.
  intros H. unfold exhaustive_gen_retry.
  destruct (Z.eqb_spec s e); [lia|]. destruct (Z.gtb_spec s e); [lia|]. reflexivity.
Qed.

(** When generation reports success, every stage's last execution passed all its checks,
    in order, and nothing touched a stage after it was last completed except later stages. *)
Theorem C21_complete : forall W (su : setup W) s e r f w av tr w',
  hooks_ok su -> forward_one su -> offsets s e ->
  exhaustive_gen_retry su s e r f w av = (tr, Returned 1, w') ->
  complete (nchecks su) (Z.to_nat (e - s)) s tr.
Proof.
  intros W su s e r f w av tr w' Hh Hf Ho H. unfold offsets in Ho.
  rewrite gen_retry_run in H by lia.
  apply run_complete in H; try assumption; try (simpl; lia).
  - destruct H as (k & Hk & Hc). simpl in Hk. assert (k = s) by lia. subst k. assumption.
  - unfold INT_MAX. lia.
Qed.
Print Assumptions C21_complete.

(** The reasoning rule users need: whatever each stage establishes about the curve, given
    what the earlier stages established, holds of the curve that generation returns. *)
Theorem C21_established : forall W (su : setup W) s e r f w av tr w' (P Q : Z -> W -> Prop),
  offsets s e ->
  (forall k g w a w' a' o, s <= k < e -> generators su k = Some g ->
     (forall j, j < k -> P j w) -> g w a = (w', a', o) ->
     (forall j, j < k -> P j w') /\
     match o with Ret d => 0 < d -> d = 1 /\ Q k w' | Timeout => True end) ->
  (forall k cs c w, s <= k < e -> validators su k = Some cs -> In c cs -> fst (c w) = w) ->
  (forall k w, s <= k < e -> Q k w ->
     (forall cs c, validators su k = Some cs -> In c cs -> 0 < snd (c w)) -> P k w) ->
  (forall k u w, s < k < e -> unrolls su k = Some u ->
     (forall j, j < k -> P j w) -> (forall j, j < k -> P j (fst (u w)))) ->
  (forall j, j < s -> P j w) ->
  exhaustive_gen_retry su s e r f w av = (tr, Returned 1, w') ->
  forall j, j < e -> P j w'.
Proof.
  intros W su s e r f w av tr w' P Q Ho H1 H2 H3 H4 H5 H j Hj. unfold offsets in Ho.
  rewrite gen_retry_run in H by lia.
  refine (run_post su s e r P Q H1 H2 H3 H4 f _ tr w' _ _ H j Hj); simpl; [lia|assumption].
Qed.
Print Assumptions C21_established.

(** Going back. *)
Theorem C22_range : forall W (su : setup W) s e r f w av tr o w',
  hooks_ok su -> forward_one su -> offsets s e ->
  exhaustive_gen_retry su s e r f w av = (tr, o, w') ->
  Forall (fun x => s <= stage_of x < e) tr.
Proof.
  intros W su s e r f w av tr o w' Hh Hf Ho H. unfold offsets in Ho.
  rewrite gen_retry_run in H by lia.
  apply run_range in H; try assumption; try (simpl; lia). unfold INT_MAX. lia.
Qed.
Print Assumptions C22_range.

Theorem C22_back : forall W (su : setup W) s e r f w av tr o w' pre x rest k d,
  hooks_ok su -> forward_one su -> offsets s e ->
  exhaustive_gen_retry su s e r f w av = (tr, o, w') ->
  tr = pre ++ x :: rest -> asks s x = Some (k, d) ->
  let n := Z.max s (k + d) in
  (rest = [] /\ o = Returned 0) \/
  (0 <= k + d /\ d <> INT_MIN /\
   exists rest', rest = undo (hook su) (Z.to_nat (k - n)) k ++ rest' /\
     (starts_with_gen n rest' \/ (rest' = [] /\ o = NoFuel) \/
      (rest' = [] /\ o = Undef /\ generators su n = None))).
Proof.
  intros W su s e r f w av tr o w' pre x rest k d Hh Hf Ho H Htr Ha n. unfold offsets in Ho.
  rewrite gen_retry_run in H by lia.
  refine (run_back su s e r Hh Hf _ f _ tr o w' _ H pre x rest k d Htr Ha);
    unfold INT_MAX; simpl; lia.
Qed.
Print Assumptions C22_back.

(** A request to go before stage 0, or an error, stops generation with failure. *)
Theorem C22_abort : forall W (su : setup W) s e r f w av tr o w' pre x rest k d,
  hooks_ok su -> forward_one su -> offsets s e ->
  exhaustive_gen_retry su s e r f w av = (tr, o, w') ->
  tr = pre ++ x :: rest -> asks s x = Some (k, d) -> k + d < 0 \/ d = INT_MIN ->
  rest = [] /\ o = Returned 0.
Proof.
  intros W su s e r f w av tr o w' pre x rest k d Hh Hf Ho H Htr Ha Hd.
  destruct (C22_back W su s e r f w av tr o w' pre x rest k d Hh Hf Ho H Htr Ha) as [?|(? & ? & _)];
    [assumption|lia].
Qed.
Print Assumptions C22_abort.

(** The PARI stack: every execution of a stage starts with the stack pointer that the last
    execution of the stage before it left, so data of the earlier stages stays allocated
    and that of the abandoned attempts is released. *)
Theorem C22_stack : forall W (su : setup W) s e r f w av tr o w' pre k a q b rest,
  hooks_ok su -> forward_one su -> offsets s e ->
  exhaustive_gen_retry su s e r f w av = (tr, o, w') ->
  tr = pre ++ EGen k a q b :: rest ->
  (k = s /\ a = av) \/ (s < k /\ last_exit (k - 1) None pre = Some a).
Proof.
  intros W su s e r f w av tr o w' pre k a q b rest Hh Hf Ho H Htr. unfold offsets in Ho.
  rewrite gen_retry_run in H by lia.
  refine (run_stack su s e r Hh Hf _ f _ tr o w' (fun _ => None) av _ _ H pre k a q b rest Htr);
    try (unfold INT_MAX; simpl; lia).
  unfold exits; simpl. repeat split; intros; lia.
Qed.
Print Assumptions C22_stack.

(** Retry limit. *)
Theorem C23_limit : forall W (su : setup W) s e r f w av tr o w' pre k a q b rest,
  hooks_ok su -> forward_one su -> offsets s e -> 0 < r ->
  exhaustive_gen_retry su s e r f w av = (tr, o, w') ->
  tr = pre ++ EGen k a q b :: rest -> Z.of_nat (streak k 0 pre) < r.
Proof.
  intros W su s e r f w av tr o w' pre k a q b rest Hh Hf Ho Hr H Htr. unfold offsets in Ho.
  rewrite gen_retry_run in H by lia.
  refine (run_streak su s e r Hh Hf _ f Hr _ tr o w' (fun _ => O) _ _ _ H pre k a q b rest Htr);
    try (unfold INT_MAX; simpl; lia); intros; simpl; lia.
Qed.
Print Assumptions C23_limit.

(** Failure is reported for these reasons only. *)
Theorem C23_failure : forall W (su : setup W) s e r f w av tr w',
  hooks_ok su -> forward_one su -> offsets s e ->
  exhaustive_gen_retry su s e r f w av = (tr, Returned 0, w') ->
  exists pre x k d, tr = pre ++ [x] /\ asks s x = Some (k, d) /\
    (d = INT_MIN \/ k + d < 0 \/ (r <> 0 /\ Z.of_nat (streak k 0 tr) >= r)).
Proof.
  intros W su s e r f w av tr w' Hh Hf Ho H. unfold offsets in Ho.
  rewrite gen_retry_run in H by lia.
  refine (run_fail su s e r Hh Hf _ f _ tr w' (fun _ => O) _ _ H);
    try (unfold INT_MAX; simpl; lia).
Qed.
Print Assumptions C23_failure.

Theorem C23_unlimited : forall W (su : setup W) s e f w av tr w',
  hooks_ok su -> forward_one su -> offsets s e ->
  exhaustive_gen su s e f w av = (tr, Returned 0, w') ->
  exists pre x k d, tr = pre ++ [x] /\ asks s x = Some (k, d) /\ (d = INT_MIN \/ k + d < 0).
Proof.
  intros W su s e f w av tr w' Hh Hf Ho H.
  destruct (C23_failure W su s e 0 f w av tr w' Hh Hf Ho H) as (pre & x & k & d & H1 & H2 & H3).
  exists pre, x, k, d. repeat split; auto. tauto.
Qed.
Print Assumptions C23_unlimited.

(** With a retry limit generation always ends, after a number of stage executions that
    depends only on the limit and the range of stages. *)
Theorem C23_terminates : forall s e r, offsets s e -> 0 < r ->
  exists bound, forall W (su : setup W) f w av tr o w',
  hooks_ok su -> forward_one su -> (bound <= f)%nat ->
  exhaustive_gen_retry su s e r f w av = (tr, o, w') -> o <> NoFuel.
Proof.
  intros s e r Ho Hr. unfold offsets in Ho.
  exists (S (Z.to_nat (pot s e r (mkLoc s tt 0 (fun _ => 0) (fun _ => 0))))).
  intros W su f w av tr o w' Hh Hf Hb H.
  rewrite gen_retry_run in H by lia.
  refine (run_terminates su s e r Hh Hf _ Hr f _ tr o w' _ _ _ H);
    try (unfold INT_MAX; simpl; lia).
  - intros k. simpl. lia.
  - change (pot s e r (mkLoc s w av (fun i => if i =? 0 then av else 0) (fun _ => 0)))
      with (pot s e r (mkLoc s tt 0 (fun _ => 0) (fun _ => 0))). lia.
Qed.
Print Assumptions C23_terminates.

(** Timeouts: the next call after a timed-out generator is the first undo hook (or the
    starting stage again); no check sees its result. *)
Theorem C24_timeout : forall W (su : setup W) s e r f w av tr o w' pre k a b rest,
  hooks_ok su -> forward_one su -> offsets s e ->
  exhaustive_gen_retry su s e r f w av = (tr, o, w') ->
  tr = pre ++ EGen k a Timeout b :: rest ->
  (rest = [] /\ o = Returned 0 /\ r <> 0 /\ Z.of_nat (streak k 0 tr) >= r) \/
  (exists rest', rest = undo (hook su) (Z.to_nat (k - s)) k ++ rest' /\
     (starts_with_gen s rest' \/ (rest' = [] /\ (o = NoFuel \/ o = Undef)))).
Proof.
  intros W su s e r f w av tr o w' pre k a b rest Hh Hf Ho H Htr.
  pose proof (C22_range W su s e r f w av tr o w' Hh Hf Ho H) as HR.
  rewrite Htr, Forall_app in HR. destruct HR as [_ HR]. inversion HR as [|? ? Hk _]. simpl in Hk.
  unfold offsets in Ho.
  destruct (C22_back W su s e r f w av tr o w' pre _ rest k (s - k) Hh Hf Ho H Htr eq_refl)
    as [(-> & ->)|(_ & _ & rest' & E & HE)].
  - left. split; [reflexivity|]. split; [reflexivity|].
    destruct (C23_failure W su s e r f w av tr w' Hh Hf Ho H) as (p2 & x2 & k2 & d2 & HF1 & HF2 & HF3).
    rewrite Htr in HF1. apply app_inj_tail in HF1. destruct HF1 as [_ <-].
    simpl in HF2. injection HF2 as <- <-.
    destruct HF3 as [HF3|[HF3|HF3]]; [unfold INT_MIN in HF3; lia|lia|exact HF3].
  - right. exists rest'. replace (Z.max s (k + (s - k))) with s in * by lia.
    split; [assumption|]. destruct HE as [?|[(? & ?)|(? & ? & _)]]; auto.
Qed.
Print Assumptions C24_timeout.

(** Success means every stage was completed by a return, not a timeout: the blocks of
    C21_complete are executions that returned. Stated again for one stage. *)
Theorem C24_not_output : forall W (su : setup W) s e r f w av tr w' pre k a b rest,
  hooks_ok su -> forward_one su -> offsets s e ->
  exhaustive_gen_retry su s e r f w av = (tr, Returned 1, w') ->
  tr = pre ++ EGen k a Timeout b :: rest ->
  exists p1 a' d b' p2, rest = p1 ++ EGen k a' (Ret d) b' :: p2 /\ 0 < d.
Proof.
  intros W su s e r f w av tr w' pre k a b rest Hh Hf Ho H Htr.
  pose proof (C22_range W su s e r f w av tr _ w' Hh Hf Ho H) as HR.
  pose proof (C21_complete W su s e r f w av tr w' Hh Hf Ho H) as HC.
  rewrite Htr, Forall_app in HR. destruct HR as [_ HR]. inversion HR as [|? ? Hk _]. simpl in Hk.
  clear HR H Hh Hf Ho. unfold offsets in *.
  assert (Hn : (Z.to_nat (k - s) < Z.to_nat (e - s))%nat) by lia.
  remember (Z.to_nat (e - s)) as n eqn:En. clear En.
  revert s pre tr Htr HC Hk Hn.
  induction n as [|n IH]; intros s pre tr Htr HC Hk Hn; [lia|].
  destruct HC as (before & block & after & E & Hb & Hp & Haf & HC).
  destruct (Z.eq_dec k s) as [->|Hne].
  - destruct Hp as [a' d b' rs Hd Hl Hr].
    rewrite Htr in E. apply app_split in E. destruct E as [(m & -> & ->)|(m & -> & E)].
    + exists m, a', d, b'. eexists. split; [reflexivity|assumption].
    + exfalso. destruct m as [|y m]; simpl in E; [discriminate|]. injection E as _ E.
      symmetry in E. apply app_split in E. destruct E as [(m' & E & _)|(m' & -> & ->)].
      * rewrite <- Hl in E. fold (cks s 0 rs) in E.
        pose proof (cks_nogen s rs 0) as HN. rewrite E, Forall_app in HN.
        destruct HN as [_ HN]. inversion HN. assumption.
      * rewrite Forall_app in Haf. destruct Haf as [_ Haf]. inversion Haf. simpl in *. lia.
  - rewrite Htr in E. rewrite app_assoc in E. apply app_split in E.
    destruct E as [(m & E & ->)|(m & _ & E)].
    + (* the timed-out call precedes the completion of s; the completion of k follows *)
      assert (HX : forall n s tr, complete (nchecks su) n s tr -> s <= k -> (Z.to_nat (k - s) < n)%nat ->
                exists p1 a' d b' p2, tr = p1 ++ EGen k a' (Ret d) b' :: p2 /\ 0 < d).
      { clear. induction n as [|n IH]; intros s tr HC Hs Hn; [lia|].
        destruct HC as (before & block & after & -> & _ & Hp & _ & HC).
        destruct (Z.eq_dec k s) as [->|Hne].
        - destruct Hp as [a' d b' rs Hd _ _]. exists before, a', d, b'. eexists.
          split; [reflexivity|assumption].
        - destruct (IH (s + 1) after HC ltac:(lia) ltac:(lia)) as (p1 & a' & d & b' & p2 & -> & Hd).
          exists (before ++ block ++ p1), a', d, b', p2. rewrite <- !app_assoc. auto. }
      destruct (HX n (s + 1) after HC ltac:(lia) ltac:(lia)) as (p1 & a' & d & b' & p2 & -> & Hd).
      exists (m ++ p1), a', d, b', p2. rewrite <- app_assoc. auto.
    + apply (IH (s + 1) m after E HC); lia.
Qed.
Print Assumptions C24_not_output.

(** A concrete plan: stages 0..4; stage 1 counts the first component of the world
    down; a check of stage 3 asks to go back 2 until it is 0; then stage 3 times out once. *)
Definition exw : Type := (nat * bool)%type.
Definition ex_setup : setup exw := mkSetup
  (fun k => if (0 <=? k) && (k <? 5) then
     Some (fun w a => if (k =? 3) && (fst w =? 0)%nat && snd w then ((fst w, false), a - 7, Timeout)
                      else ((if k =? 1 then Nat.pred (fst w) else fst w, snd w), a - k - 1, Ret 1))
     else None)
  (fun k => if k =? 3 then Some [fun w => (w, 1);
                                 fun w => (w, match fst w with O => 1 | S n => -2 end)]
            else None)
  (fun k => if k =? 4 then None else Some (fun w => (w, -1))).

Example ex_run : exhaustive_gen ex_setup 0 5 100 (2%nat, true) 1000 =
  ([EGen 0 1000 (Ret 1) 999; EGen 1 999 (Ret 1) 997; EGen 2 997 (Ret 1) 994; EGen 3 994 (Ret 1) 990;
    ECheck 3 0 1; ECheck 3 1 (-2); EUnroll 3; EUnroll 2;
    EGen 1 999 (Ret 1) 997; EGen 2 997 (Ret 1) 994; EGen 3 994 Timeout 987;
    EUnroll 3; EUnroll 2; EUnroll 1;
    EGen 0 1000 (Ret 1) 999; EGen 1 999 (Ret 1) 997; EGen 2 997 (Ret 1) 994; EGen 3 994 (Ret 1) 990;
    ECheck 3 0 1; ECheck 3 1 1; EGen 4 990 (Ret 1) 985],
   Returned 1, (O, false)).
Proof. vm_compute. reflexivity. Qed.

Example ex_hooks : hooks_ok ex_setup /\ forward_one ex_setup /\ offsets 0 5.
Proof.
  split; [|split].
  - intros i u w H. simpl in H. destruct (i =? 4); [discriminate|]. injection H as <-. reflexivity.
  - intros i g w a H. simpl in H. destruct ((0 <=? i) && (i <? 5)); [|discriminate].
    injection H as <-. destruct ((i =? 3) && (fst w =? 0)%nat && snd w); simpl; [exact I|lia].
  - unfold offsets. lia.
Qed.

(** With retry limit 2 the same run gives up at the second failure of stage 3. *)
Example ex_retry : exists tr w, exhaustive_gen_retry ex_setup 0 5 2 100 (2%nat, true) 1000 =
  (tr, Returned 0, w) /\ streak 3 0 tr = 2%nat.
Proof.
  eexists; eexists. split; [vm_compute; reflexivity|]. vm_compute. reflexivity.
Qed.

(** The reasoning rule applied to the example: stage 3 establishes that no check failure
    is left. *)
Example ex_established : forall f av tr w', exhaustive_gen ex_setup 0 5 f (2%nat, true) av = (tr, Returned 1, w') ->
  fst w' = O.
Proof.
  intros f av tr w' H.
  refine (C21_established _ ex_setup 0 5 0 f (2%nat, true) av tr w'
            (fun k w => k = 3 -> fst w = O) (fun k w => True) _ _ _ _ _ _ H 3 _ _);
    try (unfold offsets; lia).
  - intros k g w a w1 a' o Hk Hg HP E. simpl in Hg.
    destruct ((0 <=? k) && (k <? 5)); [|discriminate]. injection Hg as <-.
    destruct ((k =? 3) && (fst w =? 0)%nat && snd w); injection E as <- <- <-;
      (split; [|simpl; auto]); intros j Hj Hj3; simpl; pose proof (HP j Hj Hj3) as HH; [assumption|].
    destruct (k =? 1); [rewrite HH; reflexivity|assumption].
  - intros k cs c w Hk Hcs Hin. simpl in Hcs. destruct (k =? 3); [|discriminate]. injection Hcs as <-.
    destruct Hin as [<-|[<-|[]]]; reflexivity.
  - intros k w Hk _ Hc ->. pose proof (Hc _ _ eq_refl (or_intror (or_introl eq_refl))) as HH.
    simpl in HH. destruct (fst w); [reflexivity|lia].
  - intros k u w Hk Hu HP j Hj. simpl in Hu. destruct (k =? 4); [discriminate|]. injection Hu as <-.
    apply HP. assumption.
Qed.
