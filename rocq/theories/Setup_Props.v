(** C73: the memory of a setup. What the code puts into memory is the plan, and every block is
    taken back exactly once; with the cases in which it is not. *)
From Coq Require Import Ascii String Permutation.
From Verif Require Import Base Str_Model Cli_Model Cli_Spec Cli_Proofs Input_Model Plan_Model Plan_Spec Plan_Proofs Plan_Proofs2 Plan_Proofs3.
From Verif Require Import Str_Model Str_Proofs CmOrder_Model CmOrder_Props Setup_Model Setup_Spec Setup_Proofs.
Local Open Scope Z_scope.

(** The exhaustive method (also the seeded ones, the twist and the families), for every accepted
    command line: no block is used after it was freed or freed twice, the engine ([body]) finds in
    memory the plan [p] of the command line, and at the end memory is as before. [body] is anything
    that, given that plan, ends with [rv] and cleans up after itself. *)
Theorem C73_exhaustive np os args c set order_prime p n (body : setup -> M Z) rv h :
  cli np os args = Some (c, set) -> snd (main_job c order_prime) = JExhaustive p n ->
  fresh h ->
  (forall su h1, fresh h1 -> shows h1 su p -> quiet_at (body su) rv h1) ->
  balanced (exhaustive_do c body) rv h.
Proof.
  intros Hcli Hjob Hf Hb. pose proof (cli_final _ _ _ _ _ Hcli) as Hfin.
  assert (Hx : c_cofactor c && c_smooth c = false).
  { pose proof (f_order _ _ Hfin) as Ho. destruct (c_cofactor c), (c_smooth c), (c_prime c); cbn in *; try reflexivity; lia. }
  apply balanced_of. unfold main_job in Hjob.
  destruct (_ || _)%bool.
  { destruct (Plan_Model.cm_init c order_prime [N_method]) as [? ?]. discriminate. }
  destruct (c_method c =? METHOD_INVALID).
  { destruct (invalid_original_ginit c [N_method]) as [? ?]. destruct (invalid_invalid_ginit c _) as [? ?]. discriminate. }
  unfold Plan_Model.exhaustive_init in Hjob. destruct (exhaustive_ginit c [N_method]) as [u g].
  destruct (Plan_Model.exhaustive_cinit c u) as [u' v] eqn:Ev. unfold Plan_Model.exhaustive_ainit in Hjob.
  assert (Hp : p = Plan_Model.mkSetup g (fst (Plan_Model.exhaustive_ainit c)) (snd (Plan_Model.exhaustive_cinit c u)) (hex_args c) (exhaustive_uinit c)).
  { cbn [snd fst] in Hjob. rewrite Ev. unfold Plan_Model.exhaustive_ainit. cbn [fst snd]. congruence. }
  apply (t_exhaustive h Hf c u body rv g (exhaustive_uinit c) Hx).
  intros su h1 Hf1 Hs. apply Hb; [assumption|]. rewrite Hp. exact Hs.
Qed.

(** the initial memory of the examples *)
Definition h_empty : heap := mkHeap 0 (fun _ => None).
Lemma h_empty_fresh : fresh h_empty.
Proof. intros i _. reflexivity. Qed.

(** a body that reads its whole plan and allocates and frees something *)
Definition reader (su : setup) : M Z :=
  let* _ := loop 9 0 (fun i => let* _ := stage_arg (gen_argss su) i in
                               let* _ := stage_checks (validators su) i in
                               let* _ := stage_arg (check_argss su) i in ret tt) in
  let* x := new CData in
  let* _ := try_free x in
  ret 0.
Lemma reader_quiet p su h : fresh h -> shows h su p -> quiet_at (reader su) 0 h.
Proof.
  intros Hf Hs. unfold quiet_at, reader.
  assert (E : forall n k h', (k + n <= 9)%nat -> h' = h ->
    loop n k (fun i => let* _ := stage_arg (gen_argss su) i in let* _ := stage_checks (validators su) i in
                       let* _ := stage_arg (check_argss su) i in ret tt) h' = Ok (tt, h)).
  { induction n as [|n IH]; intros k h' Hk ->; [reflexivity|]. cbn [loop]. unfold mbind at 1 2 3 4.
    destruct (Hs k) as (E1 & E2 & E3); [lia|]. rewrite E1, E2, E3. unfold ret. apply IH; [lia|reflexivity]. }
  unfold mbind at 1. rewrite (E 9%nat 0%nat h) by (lia || reflexivity).
  unfold mbind, new, try_free, load, free, ret, mbind, load. cbn [cells next]. unfold Setup_Model.set. rewrite !Nat.eqb_refl.
  cbn [cells next]. rewrite !Nat.eqb_refl. eexists. split; [reflexivity|]. cbn [cells next]. split; [|split].
  - intros i. cbn [cells]. destruct (Nat.eqb_spec i (next h)) as [->|]; [|reflexivity].
    symmetry. apply Hf. lia.
  - intros i Hi. cbn [cells next] in *. destruct (Nat.eqb_spec i (next h)); [reflexivity|]. apply Hf. lia.
  - lia.
Qed.

Example C73_exhaustive_ex : exists c set p n,
  cli 4 [OFp; ORandom None; OCofactor (lit "4"); OHexcheck (lit "ff"); OPoints (lit "3random")] [lit "32"] = Some (c, set) /\
  snd (main_job c false) = JExhaustive p n /\
  nth POINTS (s_gargs p) None = Some (Amount 3) /\
  (forall su h1, fresh h1 -> shows h1 su p -> quiet_at (reader su) 0 h1) /\
  balanced (exhaustive_do c reader) 0 h_empty.
Proof.
  eexists _, _, _, _. split; [vm_compute; reflexivity|]. split; [vm_compute; reflexivity|]. split; [reflexivity|].
  split; [intros su h1 Hf Hs; apply (reader_quiet _ su h1 Hf Hs)|].
  eapply C73_exhaustive with (order_prime := false) (np := 4)
    (os := [OFp; ORandom None; OCofactor (lit "4"); OHexcheck (lit "ff"); OPoints (lit "3random")]) (args := [lit "32"]); [vm_compute; reflexivity|vm_compute; reflexivity|exact h_empty_fresh|].
  intros su h1 Hf Hs. apply (reader_quiet _ su h1 Hf Hs).
Qed.

(** ** complex multiplication, anomalous, supersingular *)
Section Cm.
  Context (print : Z -> str) (isprime : Z -> bool).

  (** the result: 1 when the requested order is refused *)
  Definition cm_result (c : config) (rv : Z) : res Z :=
    if c_method c =? METHOD_CM then
      match c_cm_order c with
      | None => UB
      | Some arg => do r <- cm_init_order isprime (c_bits c) arg; Ok (match r with Refused => 1 | Accepted _ _ => rv end)
      end
    else Ok rv.

  (** what memory holds at the end in addition *)
  Definition cm_left (c : config) : option str :=
    if c_method c =? METHOD_CM then
      match c_cm_order c with
      | None => None
      | Some arg =>
          match str_cnt arg "," with
          | Ok delims => if (delims =? 0)%nat then None
                         else match split_factors (delims + 1) [] arg [] with
                              | Ok l => Some (print (fold_left Z.mul l 1)) | _ => None end
          | _ => None
          end
      end
    else None.
  (** the plan with the text of the order as the generators read it *)
  Definition cm_plan (c : config) (prime : bool) : setup_t :=
    snd (Plan_Model.cm_init (match cm_left c with Some s => set_cm_order (Some s) c | None => c end) prime []).

  Lemma t_cm h0 c body rv r prime : fresh h0 -> cm_result c rv = Ok r ->
    (forall su h1, fresh h1 -> shows h1 su (cm_plan c prime) -> quiet_at (body su) rv h1) ->
    triple h0 [] (cm_do print c body)
      (fun x L => x = r /\ match cm_left c with None => Permutation L [] | Some s => exists i, Permutation L [(i, CText s)] end).
  Proof.
    intros Hf Hr Hb. unfold cm_do.
    eapply t_bind; [apply (t_frame_in h0 Hf)|]. intros [[v ga] ca] L HS. cbn beta iota in HS.
    set (c' := match cm_left c with Some s => set_cm_order (Some s) c | None => c end).
    (* the reading of the order *)
    assert (T1 : triple h0 L (cm_order print c) (fun o L' =>
      exists B, Permutation L' (B ++ L) /\
        (match cm_left c with None => B = [] | Some s => exists t, B = [(t, CText s)] end) /\
        match o with
        | None => r = 1 /\ c_method c = METHOD_CM
        | Some t => r = rv /\ (c_method c = METHOD_CM -> exists s, c_cm_order c' = Some s /\ (t = TCfg (Order (Some s)) \/ exists j, t = TBlk j /\ In (j, CText s) B))
        end)).
    { unfold cm_order, cm_result in *. unfold c', cm_left in *. clear c'.
      destruct (Z.eqb_spec (c_method c) METHOD_CM) as [Em|Em].
      2:{ apply t_ret. exists []. split; [apply Permutation_refl|]. split; [reflexivity|]. injection Hr as Hr. split; [congruence|]. intros E; congruence. }
      destruct (c_cm_order c) as [arg|] eqn:Earg; [|discriminate].
      unfold cm_init_order in Hr. destruct (str_cnt arg ",") as [delims| | |] eqn:Ed; cbn [bind] in Hr; try discriminate.
      gstep; [apply g_lift; reflexivity|].
      destruct (Nat.eqb_spec delims 0) as [E0|E0]; cbn [bind] in Hr.
      - gstep; [apply g_ret|]. cbn beta iota.
        destruct (strtoi arg =? 0); cbn [bind] in Hr.
        { apply t_ret. exists []. repeat split; auto; congruence. }
        destruct (c_bits c <? Z.log2 (strtoi arg)); cbn [bind] in Hr.
        { apply t_ret. exists []. repeat split; auto; congruence. }
        apply t_ret. exists []. split; [apply Permutation_refl|]. split; [reflexivity|]. split; [congruence|].
        intros _. exists arg. split; [assumption|]. left. reflexivity.
      - destruct (split_factors (delims + 1) [] arg []) as [l| | |] eqn:El; cbn [bind] in Hr; try discriminate.
        eapply t_bind with (Q := fun p L' => fst p = fold_left Z.mul l 1 /\ exists t, snd p = TBlk t /\ Permutation L' ((t, CText (print (fold_left Z.mul l 1))) :: L)).
        { eapply t_bind; [apply (t_new h0 _ _ Hf)|]. intros s L' ->.
          gstep; [apply g_lift; reflexivity|].
          gstep; [apply g_try_free; [assumption|discriminate]|].
          eapply t_bind; [apply (t_new h0 _ _ Hf)|]. intros t L' ->.
          apply t_ret. cbn [fst snd]. split; [reflexivity|]. exists t. split; [reflexivity|apply Permutation_refl]. }
        intros [order os] L' (E1 & t & E2 & P). cbn [fst snd] in E1, E2. subst order os.
        set (order := fold_left Z.mul l 1) in *.
        destruct (order =? 0); cbn [bind] in Hr.
        { apply t_ret. exists [(t, CText (print order))]. split; [exact P|]. split; [exists t; reflexivity|]. split; congruence. }
        destruct (c_bits c <? Z.log2 order); cbn [bind] in Hr.
        { apply t_ret. exists [(t, CText (print order))]. split; [exact P|]. split; [exists t; reflexivity|]. split; congruence. }
        apply t_ret. exists [(t, CText (print order))]. split; [exact P|]. split; [exists t; reflexivity|]. split; [congruence|].
        intros _. exists (print order). split; [reflexivity|]. right. exists t. split; [reflexivity|left; reflexivity]. }
    unfold cm_init.
    assert (Mc : c_method c' = c_method c) by (unfold c'; destruct (cm_left c); reflexivity).
    assert (Fin : forall B L1 : blocks, match cm_left c with None => B = [] | Some s => exists t, B = [(t, CText s)] end -> Permutation L1 B ->
      match cm_left c with None => Permutation L1 [] | Some s => exists i, Permutation L1 [(i, CText s)] end).
    { intros B L1 HB P. destruct (cm_left c); [destruct HB as [t ->]; exists t; assumption|subst B; assumption]. }
    eapply t_bind with (Q := fun (i : option (setup * ptr)) L' => exists B : blocks, (match cm_left c with None => B = [] | Some s => exists t, B = [(t, CText s)] end) /\
      match i with
      | None => r = 1 /\ st3 v ga ca nine nine nine B L'
      | Some (su, tb) => r = rv /\ su = mkS (Some v) (Some ga) (Some ca) /\
          exists T, table tb T /\ (c_method c = METHOD_ANOMALOUS \/ T = []) /\
          st3 v ga ca (snd (Plan_Model.cm_cinit c' [])) (fst (Plan_Model.cm_ainit c')) (hex_args c') (T ++ B) L'
      end).
    { eapply t_bind; [exact T1|]. intros o L' (B & P & HB & Ho).
      assert (HS' : st3 v ga ca nine nine nine B L').
      { apply (st3_perm v ga ca nine nine nine (B ++ []) B (B ++ L) L').
        - rewrite app_nil_r. apply Permutation_refl.
        - apply Permutation_sym. assumption.
        - apply st3_moreL. assumption. }
      destruct o as [t|].
      - destruct Ho as [Er Ho].
        eapply t_bind with (Q := fun p L2 => exists T, table p T /\ (c_method c = METHOD_ANOMALOUS \/ T = []) /\ Permutation L2 (T ++ L')).
        { destruct (Z.eqb_spec (c_method c) METHOD_ANOMALOUS) as [Ea|Ea].
          - eapply t_weak; [apply (t_anomalous_init h0 Hf)|]. intros p L2 (T & HT & PT). exists T. auto.
          - apply t_ret. exists []. split; [reflexivity|]. split; [right; reflexivity|]. apply Permutation_refl. }
        intros tb L2 (T & HT & HA & PT).
        assert (HS2 : st3 v ga ca nine nine nine (T ++ B) L2).
        { apply (st3_perm v ga ca nine nine nine (T ++ B) (T ++ B) (T ++ L') L2).
          - apply Permutation_refl.
          - apply Permutation_sym. assumption.
          - apply st3_moreL. assumption. }
        assert (A1 : cm_ainit c t ga ca = cm_ainit c' t ga ca) by (unfold c'; destruct (cm_left c); reflexivity).
        assert (A2 : cm_cinit c v = cm_cinit c' v) by (unfold c'; destruct (cm_left c); reflexivity).
        rewrite A1, A2.
        assert (Hs : exists s, c_method c' = METHOD_CM -> (t = TCfg (Order (Some s)) \/ exists j, t = TBlk j /\ In (j, CText s) L2) /\ c_cm_order c' = Some s).
        { destruct (Z.eq_dec (c_method c) METHOD_CM) as [Em|Em].
          - destruct (Ho Em) as (s & Hs1 & Hs2). exists s. intros _. split; [|assumption].
            destruct Hs2 as [Hs2|(j & Hs2 & Hs3)]; [left; assumption|right]. exists j. split; [assumption|].
            apply (Permutation_in _ (Permutation_sym PT)). apply in_or_app. right.
            apply (Permutation_in _ (Permutation_sym P)). apply in_or_app. left. assumption.
          - exists []. intros E. congruence. }
        destruct Hs as [s Hs].
        eapply t_bind; [apply (t_cm_ainit h0 Hf c' t s v ga ca nine (T ++ B) L2 Hs HS2)|].
        intros [] L3 HS3. cbn beta in HS3.
        eapply t_bind; [apply (t_cm_cinit h0 Hf c' [] v ga ca _ _ _ L3 HS3)|].
        intros [] L4 HS4. cbn beta in HS4. apply t_ret. exists B. split; [assumption|]. split; [assumption|]. split; [reflexivity|].
        exists T. split; [assumption|]. split; [assumption|]. exact HS4.
      - apply t_ret. exists B. split; [assumption|]. split; [exact (proj1 Ho)|assumption]. }
    intros i L' (B & HB & Hi). destruct i as [[su tb]|].
    - destruct Hi as (Er & -> & T & HT & HA & HS').
      assert (Hp : exists g un, cm_plan c prime = Plan_Model.mkSetup g (fst (Plan_Model.cm_ainit c')) (snd (Plan_Model.cm_cinit c' [])) (hex_args c') un).
      { unfold cm_plan. fold c'. unfold Plan_Model.cm_init. destruct (cm_ginit c' prime _) as [u g]. unfold Plan_Model.cm_ainit, Plan_Model.cm_cinit. cbn [snd fst].
        eexists _, _. reflexivity. }
      destruct Hp as (g & un & Hp).
      eapply t_bind; [eapply (t_body h0 Hf body rv v ga ca _ _ _ _ L' g un);
        [apply cm_cinit_length|apply cm_ainit_length|apply hex_length|exact HS'|intros su h1 Hf1 Hs; apply Hb; [assumption|rewrite Hp; exact Hs]]|].
      intros x L2 [-> ->].
      eapply t_bind with (Q := fun _ L2 => st3 v ga ca (snd (Plan_Model.cm_cinit c' [])) (fst (Plan_Model.cm_ainit c')) (hex_args c') B L2).
      { destruct (st3_rest v ga ca _ _ _ T B L' HS') as (L1 & P1 & HS1).
        apply (t_perm _ _ _ _ _ P1).
        destruct (Z.eqb_spec (c_method c) METHOD_ANOMALOUS) as [Ea|Ea].
        - eapply t_weak; [apply (t_anomalous_quit h0 Hf tb T L1 HT)|]. intros [] L2 P2.
          apply (st3_perm v ga ca _ _ _ B B L1 L2 (Permutation_refl _) (Permutation_sym P2) HS1).
        - destruct HA as [|HA]; [contradiction|]. subst T. apply t_ret. exact HS1. }
      clear HS'. intros [] L2 HS'. cbn beta in HS'.
      eapply t_bind; [eapply (t_clear h0 Hf v ga ca); [apply cm_cinit_length|apply cm_ainit_length|apply hex_length|exact HS']|].
      intros [] L3 HS3. cbn beta in HS3.
      eapply t_bind; [apply (t_frame_out h0 Hf v ga ca B L3 HS3)|].
      intros [] L4 P4. apply t_ret. split; [symmetry; assumption|]. apply (Fin B L4 HB P4).
    - destruct Hi as (Er & HS').
      eapply t_bind; [apply (t_frame_out h0 Hf v ga ca B L' HS')|].
      intros [] L4 P4. apply t_ret. split; [symmetry; assumption|]. apply (Fin B L4 HB P4).
  Qed.
End Cm.

(** The order asked for on the command line, after C53_outcome: the product of the pieces between
    commas; refused when it is 0 or too long. *)
Definition asked (arg : str) : Z := product (map strtoi (cut_at arg)).
Definition refused (c : config) : bool :=
  match c_cm_order c with
  | Some arg => (c_method c =? METHOD_CM) && ((asked arg =? 0) || (c_bits c <? Z.log2 (asked arg)))
  | None => false
  end.

Lemma cm_result_ok c rv : (c_method c = METHOD_CM -> exists arg, c_cm_order c = Some arg /\ nonul arg) ->
  cm_result (fun _ => false) c rv = Ok (if refused c then 1 else rv).
Proof.
  intros H. unfold cm_result, refused. destruct (Z.eqb_spec (c_method c) METHOD_CM) as [Em|Em].
  - destruct (H Em) as (arg & -> & Hn). rewrite C53_outcome by assumption. cbn [bind andb]. cbv zeta. fold (asked arg).
    destruct ((asked arg =? 0) || (c_bits c <? Z.log2 (asked arg))); reflexivity.
  - destruct (c_cm_order c); reflexivity.
Qed.

Lemma shows_args h su p q : s_gargs p = s_gargs q -> s_checks p = s_checks q -> s_cargs p = s_cargs q -> shows h su p -> shows h su q.
Proof. intros E1 E2 E3 H. unfold shows in *. rewrite <- E1, <- E2, <- E3. exact H. Qed.

Lemma cm_job c prime p n : snd (main_job c prime) = JCm p n -> exists u, p = snd (Plan_Model.cm_init c prime u).
Proof.
  unfold main_job. destruct (_ || _)%bool.
  - intros H. exists [N_method]. destruct (Plan_Model.cm_init c prime [N_method]) as [u su]. cbn [snd] in *. congruence.
  - destruct (c_method c =? METHOD_INVALID).
    + destruct (invalid_original_ginit c [N_method]) as [? ?]. destruct (invalid_invalid_ginit c _) as [? ?]. discriminate.
    + destruct (Plan_Model.exhaustive_init c [N_method]) as [? ?]. discriminate.
Qed.

(** With an order given as one number, and for the anomalous and the supersingular method: as for
    the exhaustive method; when the order is refused the program returns 1 and memory is as before too. *)
Theorem C73_cm np os args c set order_prime p n print (body : setup -> M Z) rv h :
  cli np os args = Some (c, set) -> snd (main_job c order_prime) = JCm p n ->
  (forall arg, c_cm_order c = Some arg -> nonul arg /\ ~ In ","%char arg) ->
  fresh h ->
  (forall su h1, fresh h1 -> shows h1 su p -> quiet_at (body su) rv h1) ->
  balanced (cm_do print c body) (if refused c then 1 else rv) h.
Proof.
  intros Hcli Hjob Hone Hf Hb. pose proof (cli_final _ _ _ _ _ Hcli) as Hfin.
  assert (Hcm : c_method c = METHOD_CM -> exists arg, c_cm_order c = Some arg /\ nonul arg).
  { intros Em. destruct (i_cm _ (f_inv _ _ Hfin)) as [t Ht]; [cbn [fst]; rewrite Em; reflexivity|]. exists t. split; [exact Ht|].
    apply (Hone t Ht). }
  assert (Hleft : cm_left print c = None).
  { unfold cm_left. destruct (Z.eqb_spec (c_method c) METHOD_CM) as [Em|Em]; [|reflexivity].
    destruct (Hcm Em) as (arg & Ea & Hn). rewrite Ea. rewrite str_cnt_ok by assumption.
    rewrite no_comma_count by (apply (Hone arg Ea)). reflexivity. }
  apply balanced_of.
  eapply t_weak; [apply (t_cm print (fun _ => false) h c body rv _ order_prime Hf (cm_result_ok c rv Hcm))|].
  - intros su h1 Hf1 Hs. apply Hb; [assumption|]. destruct (cm_job c order_prime p n Hjob) as [u ->].
    unfold cm_plan in Hs. rewrite Hleft in Hs. revert Hs. unfold Plan_Model.cm_init.
    destruct (cm_ginit c order_prime (if c_method c =? METHOD_CM then [N_cm_order] else [])) as [u1 g1].
    destruct (cm_ginit c order_prime _) as [u2 g2].
    unfold Plan_Model.cm_ainit, Plan_Model.cm_cinit. cbn [snd]. apply shows_args; reflexivity.
  - intros x L [Hx P]. rewrite Hleft in P. auto.
Qed.

Example C73_cm_ex : exists c set p n,
  cli 4 [OFp; OOrder (lit "2147483713"); OPoints (lit "random")] [lit "32"] = Some (c, set) /\
  snd (main_job c true) = JCm p n /\ refused c = false /\
  (forall arg, c_cm_order c = Some arg -> nonul arg /\ ~ In ","%char arg) /\
  nth CURVE (s_gargs p) None = Some (Order (Some (lit "2147483713"))) /\
  balanced (cm_do (fun _ => []) c reader) (if refused c then 1 else 0) h_empty.
Proof.
  eexists _, _, _, _. split; [vm_compute; reflexivity|]. split; [vm_compute; reflexivity|]. split; [vm_compute; reflexivity|].
  assert (Hn : forall arg, Some (lit "2147483713") = Some arg -> nonul arg /\ ~ In ","%char arg).
  { intros arg E. assert (E' : arg = lit "2147483713") by congruence. subst arg. split.
    - repeat constructor; discriminate.
    - intros H. repeat (destruct H as [H|H]; [discriminate|]). destruct H. }
  split; [exact Hn|]. split; [reflexivity|].
  eapply (C73_cm 4 [OFp; OOrder (lit "2147483713"); OPoints (lit "random")] [lit "32"] _ _ true _ _ (fun _ => []) reader 0 h_empty);
    [vm_compute; reflexivity|vm_compute; reflexivity|exact Hn|exact h_empty_fresh|].
  intros su h1 Hf Hs. apply (reader_quiet _ su h1 Hf Hs).
Qed.

(** With a list of factors: nothing goes wrong, the generators read the text of the product, but
    exactly one block is never freed: that text (cm.c:194). *)
Theorem C73_cm_list_partial np os args c set order_prime p n print arg (body : setup -> M Z) rv h :
  cli np os args = Some (c, set) -> snd (main_job c order_prime) = JCm p n ->
  c_method c = METHOD_CM -> c_cm_order c = Some arg -> nonul arg -> In ","%char arg ->
  fresh h ->
  (forall su h1, fresh h1 -> shows h1 su (snd (Plan_Model.cm_init (set_cm_order (Some (print (asked arg))) c) order_prime [])) ->
     quiet_at (body su) rv h1) ->
  exists h' i, cm_do print c body h = Ok (if refused c then 1 else rv, h') /\
    cells h i = None /\ cells h' i = Some (CText (print (asked arg))) /\
    (forall j, j <> i -> cells h' j = cells h j).
Proof.
  intros Hcli Hjob Em Ea Hn Hc Hf Hb.
  assert (Hcm : c_method c = METHOD_CM -> exists arg, c_cm_order c = Some arg /\ nonul arg) by eauto.
  assert (Hleft : cm_left print c = Some (print (asked arg))).
  { unfold cm_left. rewrite Em, Ea. cbn [Z.eqb METHOD_CM Pos.eqb]. rewrite str_cnt_ok by assumption.
    assert (Hk : (0 < count "," arg)%nat).
    { clear - Hc. induction arg as [|a arg IH]; [destruct Hc|]. unfold count in *. cbn [filter].
      destruct (Ascii.eqb_spec "," a) as [E|E]; [cbn; lia|]. destruct Hc as [Hc|Hc]; [symmetry in Hc; contradiction|auto]. }
    destruct (Nat.eqb_spec (count "," arg) 0); [lia|].
    rewrite split_ok by (cbn; lia). cbn [app rev]. rewrite fold_product. rewrite Z.mul_1_l. f_equal. f_equal. unfold asked. f_equal.
    destruct (cut_at arg) eqn:Ecut; [|reflexivity]. pose proof (cut_at_length arg) as Hl. rewrite Ecut in Hl. discriminate. }
  destruct (t_cm print (fun _ => false) h c body rv _ order_prime Hf (cm_result_ok c rv Hcm)) with (h := h) as (x & L & h' & E & Hs & -> & P).
  - intros su h1 Hf1 Hs. apply Hb; [assumption|]. unfold cm_plan in Hs. rewrite Hleft in Hs. exact Hs.
  - apply sat_start.
  - rewrite Hleft in P. destruct P as [i P]. exists h', i. split; [exact E|].
    apply (sat_perm _ _ _ _ P) in Hs. destruct Hs as [H1 H2 H3 H4 H5].
    split; [apply Hf; destruct (H2 i (CText (print (asked arg)))) as [? _]; [left; reflexivity|assumption]|].
    split; [apply H3; left; reflexivity|].
    intros j Hj. apply H4. intros [Hk|[]]. cbn in Hk. congruence.
Qed.

(** in particular memory is lost in a run of the program *)
Theorem C73_list_refuted : exists os c set p n,
  cli 4 os [lit "32"] = Some (c, set) /\ snd (main_job c false) = JCm p n /\
  leaks (cm_do (fun _ => lit "35") c (fun _ => ret 0)) h_empty.
Proof.
  exists [OFp; OOrder (lit "5,7")]. eexists _, _, _, _. split; [vm_compute; reflexivity|]. split; [vm_compute; reflexivity|].
  destruct (C73_cm_list_partial 4 [OFp; OOrder (lit "5,7")] [lit "32"] _ _ false _ _ (fun _ => lit "35") (lit "5,7") (fun _ => ret 0) 0 h_empty
              ltac:(vm_compute; reflexivity) ltac:(vm_compute; reflexivity) eq_refl eq_refl) as (h' & i & E & H1 & H2 & _).
  - repeat constructor; discriminate.
  - right. left. reflexivity.
  - exact h_empty_fresh.
  - intros su h1 Hf1 _. exists h1. split; [reflexivity|]. split; [intros j; reflexivity|]. split; [assumption|]. lia.
  - eexists _, h', i, _. split; [exact E|]. split; [exact H1|exact H2].
Qed.

(** ** invalid curves *)
(** [original], [primes] and [search] clean up after themselves, given the plan; then so does the
    method, whether or not the original curve is found, as long as there are primes. *)
Theorem C73_invalid np os args c set order_prime po pi ps th (original : setup -> M bool) ok (primes : M nat) n (search : setup -> M unit) h :
  cli np os args = Some (c, set) -> snd (main_job c order_prime) = JInvalid po pi ps th ->
  fresh h ->
  (forall su h1, fresh h1 -> shows h1 su po -> quiet_at (original su) ok h1) ->
  (forall h1, fresh h1 -> quiet_at primes n h1) -> n <> 0%nat ->
  (forall su h1, fresh h1 -> shows h1 su pi -> quiet_at (search su) tt h1) ->
  balanced (invalid_do c original primes search) (if ok then Some 0 else None) h.
Proof.
  intros Hcli Hjob Hf Ho Hp Hn Hs.
  assert (X : exists g1 g2 un, po = Plan_Model.mkSetup g1 nine invalid_checks nine un /\ pi = Plan_Model.mkSetup g2 nine invalid_checks nine un).
  { unfold main_job in Hjob. destruct (_ || _)%bool; [destruct (Plan_Model.cm_init c order_prime [N_method]); discriminate|].
    destruct (c_method c =? METHOD_INVALID); [|destruct (Plan_Model.exhaustive_init c [N_method]); discriminate].
    destruct (invalid_original_ginit c [N_method]) as [? g1]. destruct (invalid_invalid_ginit c _) as [? g2]. cbn [snd] in Hjob.
    exists g1, g2, (exhaustive_uinit c). split; congruence. }
  destruct X as (g1 & g2 & un & -> & ->).
  apply balanced_of. unfold invalid_do.
  eapply t_bind; [apply (t_frame_in h Hf)|]. intros [[v ga] ca] L HS. cbn beta iota in HS.
  eapply t_bind; [eapply t_put_check; [assumption|exact HS|reflexivity]|]. clear HS L; intros [] L HS; cbn beta in HS.
  change (put CURVE [curve_check_nonzero] nine) with invalid_checks in HS.
  eapply t_bind; [apply (t_new h _ _ Hf)|]. intros curve L' ->.
  apply (st3_more v ga ca _ _ _ _ _ (curve, CData)) in HS.
  eapply t_bind; [eapply (t_body h Hf original ok v ga ca invalid_checks nine nine _ _ g1 un); [reflexivity|reflexivity|reflexivity|exact HS|exact Ho]|].
  intros x L' [-> ->].
  destruct ok; cbn [negb].
  - eapply t_bind; [apply (t_quiet h _ primes n Hf)|].
    { intros h1 Hs1. apply Hp. apply (sat_fresh h _ h1 Hf Hs1). }
    intros x L' [-> ->].
    eapply t_bind; [apply (t_new h _ _ Hf)|]. intros pb L' ->.
    apply (st3_more v ga ca _ _ _ _ _ (pb, CData)) in HS.
    destruct (Nat.eqb_spec n 0) as [|_]; [contradiction|].
    eapply t_bind; [apply (t_new h _ _ Hf)|]. intros cb L' ->.
    apply (st3_more v ga ca _ _ _ _ _ (cb, CData)) in HS.
    set (L1 := (cb, CData) :: (pb, CData) :: (curve, CData) :: L) in *.
    eapply t_bind with (Q := fun _ L' => Permutation L' L1).
    { destruct (c_threads c =? 1).
      - eapply t_weak; [eapply (t_body h Hf search tt v ga ca invalid_checks nine nine _ _ g2 un); [reflexivity|reflexivity|reflexivity|exact HS|exact Hs]|].
        intros [] L' [_ ->]. apply Permutation_refl.
      - unfold threaded.
        eapply t_bind; [apply (t_new h _ _ Hf)|]. intros x1 L' ->.
        eapply t_bind; [apply (t_new h _ _ Hf)|]. intros x2 L' ->.
        eapply t_bind; [apply (t_new h _ _ Hf)|]. intros x3 L' ->.
        eapply t_bind; [apply (t_new h _ _ Hf)|]. intros x4 L' ->.
        eapply t_bind; [eapply (t_body h Hf search tt v ga ca invalid_checks nine nine _ _ g2 un); [reflexivity|reflexivity|reflexivity|do 4 apply st3_more; exact HS|exact Hs]|].
        intros [] L' [_ ->].
        apply t_perm with (L' := (x1, CData) :: (x2, CData) :: (x3, CData) :: (x4, CData) :: L1).
        { apply (Permutation_app_tail L1 (l := [(x4, CData); (x3, CData); (x2, CData); (x1, CData)]) (l' := [(x1, CData); (x2, CData); (x3, CData); (x4, CData)])).
          apply (Permutation_sym (Permutation_rev [(x1, CData); (x2, CData); (x3, CData); (x4, CData)])). }
        gstep; [apply g_try_free; [assumption|discriminate]|].
        gstep; [apply g_try_free; [assumption|discriminate]|].
        gstep; [apply g_try_free; [assumption|discriminate]|].
        eapply t_weak; [apply g_try_free; [assumption|discriminate]|]. intros [] L2 [_ P]. exact P. }
    intros [] L' P. apply (st3_perm v ga ca _ _ _ _ _ _ _ (Permutation_refl _) (Permutation_sym P)) in HS. clear P L1.
    destruct (st3_rest v ga ca _ _ _ [(cb, CData); (pb, CData); (curve, CData)] [] L' HS) as (L3 & P3 & HS').
    apply (t_perm _ _ _ _ _ P3). cbn [app].
    gstep; [apply g_try_free; [assumption|discriminate]|].
    gstep; [apply g_try_free; [assumption|discriminate]|].
    gstep; [apply g_try_free; [assumption|discriminate]|].
    eapply t_bind; [apply (t_clear h Hf v ga ca invalid_checks nine nine [] _ eq_refl eq_refl eq_refl HS')|]. intros [] L2 HS2. cbn beta in HS2.
    eapply t_bind; [apply (t_clear h Hf v ga ca nine nine nine [] _ eq_refl eq_refl eq_refl HS2)|]. intros [] L5 HS3. cbn beta in HS3.
    eapply t_bind; [apply (t_frame_out h Hf v ga ca [] L5 HS3)|].
    intros [] L4 P4. apply t_ret. auto.
  - eapply t_bind; [apply (t_clear h Hf v ga ca invalid_checks nine nine _ _ eq_refl eq_refl eq_refl HS)|]. intros [] L2 HS2. cbn beta in HS2.
    destruct (st3_rest v ga ca _ _ _ [(curve, CData)] [] L2 HS2) as (L3 & P3 & HS3).
    apply (t_perm _ _ _ _ _ P3). cbn [app].
    gstep; [apply g_try_free; [assumption|discriminate]|].
    eapply t_bind; [apply (t_frame_out h Hf v ga ca [] L3 HS3)|].
    intros [] L4 P4. apply t_ret. auto.
Qed.

Lemma pass_quiet {A} (a : A) h1 : fresh h1 -> quiet_at (ret a) a h1.
Proof. intros H. exists h1. split; [reflexivity|]. split; [intros j; reflexivity|]. split; [assumption|]. lia. Qed.

Definition invalid_os : list copt := [OFp; OInvalid None; OThreads (lit "3"); OMetadata].
Example C73_invalid_ex : exists c set po pi ps th,
  cli 4 invalid_os [lit "32"] = Some (c, set) /\ snd (main_job c false) = JInvalid po pi ps th /\ th = 3 /\
  nth CURVE (s_checks po) None = Some [curve_check_nonzero] /\
  balanced (invalid_do c (fun su => let* _ := reader su in ret true) (ret 5%nat) (fun su => let* _ := reader su in ret tt)) (Some 0) h_empty /\
  balanced (invalid_do c (fun su => let* _ := reader su in ret false) (ret 5%nat) (fun su => let* _ := reader su in ret tt)) None h_empty.
Proof.
  eexists _, _, _, _, _, _. split; [vm_compute; reflexivity|]. split; [vm_compute; reflexivity|]. split; [reflexivity|]. split; [reflexivity|].
  assert (Hr : forall A (a : A) p su h1, fresh h1 -> shows h1 su p -> quiet_at (let* _ := reader su in ret a) a h1).
  { intros A a p su h1 Hf Hs. destruct (reader_quiet p su h1 Hf Hs) as (h2 & E & R). exists h2. split; [|exact R].
    unfold mbind. rewrite E. reflexivity. }
  split.
  - eapply (C73_invalid 4 invalid_os [lit "32"] _ _ false _ _ _ _ _ true (ret 5%nat) 5%nat); [vm_compute; reflexivity|vm_compute; reflexivity|exact h_empty_fresh| | | |].
    + intros su h1. apply Hr.
    + intros h1. apply pass_quiet.
    + discriminate.
    + intros su h1. apply Hr.
  - eapply (C73_invalid 4 invalid_os [lit "32"] _ _ false _ _ _ _ _ false (ret 5%nat) 5%nat); [vm_compute; reflexivity|vm_compute; reflexivity|exact h_empty_fresh| | | |].
    + intros su h1. apply Hr.
    + intros h1. apply pass_quiet.
    + discriminate.
    + intros su h1. apply Hr.
Qed.

(** When no prime is found, the method returns without clearing anything (invalid.c:296-303). *)
Theorem C73_no_primes_refuted : exists c set po pi ps th,
  cli 4 invalid_os [lit "32"] = Some (c, set) /\ snd (main_job c false) = JInvalid po pi ps th /\
  leaks (invalid_do c (fun _ => ret true) (ret 0%nat) (fun _ => ret tt)) h_empty.
Proof.
  eexists _, _, _, _, _, _. split; [vm_compute; reflexivity|]. split; [vm_compute; reflexivity|].
  eexists _, _, 3%nat, _. split; [vm_compute; reflexivity|]. split; vm_compute; reflexivity.
Qed.

(** [t_ainit] needs that the cofactor and the smooth bound are not both given: the command line
    refuses that (cli.c:162), and without the refusal the first argument would be lost. *)
Example both_would_leak : exists c, c_cofactor c = true /\ c_smooth c = true /\
  leaks (exhaustive_do c (fun _ => ret 0)) h_empty.
Proof.
  exists (set_smooth_value 20 (set_smooth true (set_cofactor_value 4 (set_cofactor true cfg0)))).
  split; [reflexivity|]. split; [reflexivity|].
  eexists _, _, 5%nat, _. split; [vm_compute; reflexivity|]. split; vm_compute; reflexivity.
Qed.

Print Assumptions C73_exhaustive.
Print Assumptions C73_cm.
Print Assumptions C73_cm_list_partial.
Print Assumptions C73_list_refuted.
Print Assumptions C73_invalid.
Print Assumptions C73_no_primes_refuted.
