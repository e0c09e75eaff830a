(** C56, C61: which command lines are accepted and what sizes mean. *)
From Coq Require Import Ascii String.
From Verif Require Import Base Str_Model Str_Proofs Cli_Model Cli_Spec Cli_Proofs.
Local Open Scope Z_scope.

(** ** C56 *)

(** Accepted command lines are exactly the consistent ones. *)
Theorem C56_exact np os args : cli np os args <> None <-> consistent os args.
Proof. apply cli_iff. Qed.

Example C56_accepted : cli 4 [OFp; ORandom None; OPrime; OPoints (lit "5random"); OMemory (lit "2g")] [lit "256"] <> None.
Proof. vm_compute. discriminate. Qed.
Example C56_rejected_two_fields : cli 4 [OFp; OF2m] [lit "256"] = None.
Proof. reflexivity. Qed.
Example C56_rejected_two_methods : cli 4 [OFp; OTwist; OAnomalous; ORandom None] [lit "256"] = None.
Proof. reflexivity. Qed.
Example C56_rejected_binary_cm : cli 4 [OF2m; OOrder (lit "101")] [lit "7"] = None.
Proof. reflexivity. Qed.
Example C56_repeated : cli 4 [OFp; OFp; OPrime; OPrime; OTwist; OTwist] [lit "256"] <> None.
Proof. vm_compute. discriminate. Qed.

(** The configuration left is the one asked for: one field type, and at most
    one of the three order constraints. *)
Theorem C56_config np os args c set : cli np os args = Some (c, set) ->
  (c_field c = FIELD_PRIME /\ In OFp os /\ ~ In OF2m os \/ c_field c = FIELD_BINARY /\ In OF2m os /\ ~ In OFp os) /\
  (c_prime c = true <-> In OPrime os) /\
  (c_smooth c = true <-> exists a, In (OSmooth a) os) /\
  (c_cofactor c = true <-> exists a, In (OCofactor a) os).
Proof.
  intros H. assert (Hc : consistent os args) by (apply (cli_iff np); congruence).
  unfold cli in H. destruct args as [|a [|? ?]]; try discriminate.
  destruct (options np os (cfg0, [])) as [[c1 set1]|] eqn:Eo; [|discriminate].
  pose proof (options_eff np os _ _ Eo) as He. cbn [fst] in He.
  unfold cli_arg in H. destruct (strtoul a) as [b rest]. destruct rest; [|discriminate].
  cbv beta iota delta [fst snd upd_cfg] in H.
  match type of H with context [cli_end_ok ?x] => destruct (cli_end_ok x); [|discriminate] end. injection H as <- <-.
  match goal with |- context [cli_defaults ?x] => set (c2 := x) end.
  assert (Hd : c_field (cli_defaults c2) = c_field c1 /\ c_prime (cli_defaults c2) = c_prime c1 /\
               c_smooth (cli_defaults c2) = c_smooth c1 /\ c_cofactor (cli_defaults c2) = c_cofactor c1).
  { unfold cli_defaults. repeat match goal with |- context [if ?b then _ else _] => destruct b end; auto. }
  destruct Hd as (-> & -> & -> & ->). clear c2.
  destruct He. cbn [c_prime c_smooth c_cofactor cfg0 orb] in *.
  split; [|split; [|split]].
  - destruct (fmask_enc os) as (b0 & b1 & Ef & H0 & H1). fold (fmask os) in e_field. rewrite Ef in e_field.
    change (c_field cfg0) with 0 in e_field. rewrite Z.lor_0_l in e_field.
    destruct (one_field _ _ Hc) as [[Hi Hn]|[Hi Hn]].
    + left. apply H0 in Hi as Hi'. destruct b1; [exfalso; apply Hn, H1; reflexivity|]. subst b0. auto.
    + right. apply H1 in Hi as Hi'. destruct b0; [exfalso; apply Hn, H0; reflexivity|]. subst b1. auto.
  - rewrite e_prime, is_order_iff. split.
    + intros (o & Ho & E). destruct o; try discriminate. assumption.
    + intros Ho. exists OPrime. auto.
  - rewrite e_smooth, is_order_iff. split.
    + intros (o & Ho & E). destruct o; try discriminate. eauto.
    + intros [x Ho]. exists (OSmooth x). auto.
  - rewrite e_cofactor, is_order_iff. split.
    + intros (o & Ho & E). destruct o; try discriminate. eauto.
    + intros [x Ho]. exists (OCofactor x). auto.
Qed.

(** Where the seed's text comes from: some seed option's argument. *)
Lemma seed_from np os : forall s s', options np os s = Some s' -> forall t, c_seed (fst s') = Some t ->
  c_seed (fst s) = Some t \/ exists o, In o os /\ seed_arg o = Some t.
Proof.
  induction os as [|o os IH]; intros [c set] s' H t Ht; cbn [options] in H.
  - injection H as <-. auto.
  - destruct (cli_parse np o (c, set)) as [s1|] eqn:E; [|discriminate].
    destruct (IH _ _ H t Ht) as [Hs|(o' & Ho & Es)]; [|right; exists o'; split; [right; assumption|assumption]].
    clear IH H Ht.
    destruct o; cbn [cli_parse] in E; unfold seed_option, add_method in E;
    repeat match type of E with
      | context [match ?x with _ => _ end] => destruct x; try discriminate
      end; try discriminate; injection E as <-; 
    try (left; exact Hs); right;
    match goal with |- exists o, In o (?x :: _) /\ _ => exists x; split; [left; reflexivity|exact Hs] end.
Qed.

(** If all the options that carry a seed are for the algorithm that is used,
    the seed is valid for it.
    Full statement: the seed is valid for the algorithm used, for every
    accepted command line; false, see [C56_seed_refuted]. *)
Theorem C56_seed_partial np os args c set s : cli np os args = Some (c, set) -> c_seed c = Some s ->
  (forall o t a, In o os -> seed_arg o = Some t -> last_algo os a -> algo_of o = Some a) ->
  exists a, last_algo os a /\ seed_ok a s.
Proof.
  intros H Hs Hall. assert (Hc : consistent os args) by (apply (cli_iff np); congruence).
  unfold cli in H. destruct args as [|a [|? ?]]; try discriminate.
  destruct (options np os (cfg0, [])) as [[c1 set1]|] eqn:Eo; [|discriminate].
  pose proof (options_eff np os _ _ Eo) as He. cbn [fst] in He.
  unfold cli_arg in H. destruct (strtoul a) as [b rest]. destruct rest; [|discriminate].
  cbv beta iota delta [fst snd upd_cfg] in H.
  match type of H with context [cli_end_ok ?x] => destruct (cli_end_ok x); [|discriminate] end.
  match type of H with context [cli_defaults ?x] => set (c2 := x) in H end.
  injection H as Hc1 Hset. 
  assert (Hd : c_seed (cli_defaults c2) = c_seed c1).
  { unfold cli_defaults. repeat match goal with |- context [if ?b then _ else _] => destruct b end; auto. }
  rewrite Hc1 in Hd. rewrite Hs in Hd. symmetry in Hd.
  destruct (seed_from np os _ _ Eo s Hd) as [Hz|(o & Ho & Es)]; [discriminate|].
  destruct (e_algo _ _ _ He) as [(al & Hal & _)|[Hn _]].
  - exists al. split; [assumption|]. pose proof (Hall o s al Ho Es Hal) as Ea.
    pose proof (args_ok _ _ Hc o Ho) as Hok.
    destruct o; try discriminate Es; cbn [seed_arg] in Es; subst arg; injection Ea as <-; exact Hok.
  - exfalso. pose proof (Hn o Ho) as Hx. destruct o; discriminate.
Qed.
Definition forty : str := lit "0123456789012345678901234567890123456789".
Example C56_seed_ex : exists c set, cli 4 [OFp; OBrainpool (Some forty)] [lit "160"] = Some (c, set) /\ c_seed c = Some forty.
Proof. eexists _, _. split; [vm_compute; reflexivity|vm_compute; reflexivity]. Qed.

(** The last algorithm given is used, but a seed given to an earlier one stays:
    a Brainpool seed of 48 hexadecimal digits. *)
Theorem C56_seed_refuted : exists os args c set s,
  cli 4 os args = Some (c, set) /\ c_seed c = Some s /\ c_seed_algo c = SEED_BRAINPOOL /\ last_algo os ABrainpool /\ ~ seed_ok ABrainpool s.
Proof.
  exists [OFp; OAnsi (Some (forty ++ lit "01234567")); OBrainpool None], [lit "160"].
  eexists _, _, (forty ++ lit "01234567").
  split; [vm_compute; reflexivity|]. split; [reflexivity|]. split; [reflexivity|].
  split.
  - exists [OFp; OAnsi (Some (forty ++ lit "01234567"))], (OBrainpool None), [].
    split; [reflexivity|]. split; [reflexivity|]. simpl. tauto.
  - intros H. apply brainpool_valid_iff in H. vm_compute in H. discriminate.
Qed.

(** ** C61 *)

(** the documented suffixes *)
Inductive mem_unit : str -> Z -> Prop :=
| mu_none : mem_unit [] 1
| mu_k : mem_unit (lit "k") 1000 | mu_K : mem_unit (lit "K") 1000
| mu_m : mem_unit (lit "m") 1000000 | mu_M : mem_unit (lit "M") 1000000
| mu_g : mem_unit (lit "g") 1000000000 | mu_G : mem_unit (lit "G") 1000000000.
Inductive time_unit : str -> Z -> Prop :=
| tu_none : time_unit [] 1 | tu_s : time_unit (lit "s") 1
| tu_m : time_unit (lit "m") 60 | tu_h : time_unit (lit "h") 3600 | tu_d : time_unit (lit "d") 86400
| tu_M : time_unit (lit "M") 60 | tu_H : time_unit (lit "H") 3600 | tu_D : time_unit (lit "D") 86400.

Lemma dec_nonneg ds : Forall digit ds -> 0 <= dec ds.
Proof.
  unfold dec. assert (H : forall acc, 0 <= acc -> Forall digit ds -> 0 <= fold_left (fun v c => 10 * v + dval c) ds acc).
  { induction ds as [|d ds IH]; intros acc Ha Hd; cbn [fold_left]; [assumption|].
    inversion Hd; subst. apply IH; [|assumption]. unfold digit in *. unfold dval. lia. }
  apply H. lia.
Qed.
Lemma strtoul_digits ds u : ds <> [] -> Forall digit ds -> (match u with c :: _ => ~ digit c | [] => True end) -> dec ds < 2 ^ 64 ->
  strtoul (ds ++ u) = (dec ds, u) /\ scan (ds ++ u) <> None.
Proof.
  intros Hne Hd Hu Hlt.
  assert (Hn : numeral ([] ++ [] ++ ds ++ u) false ds u) by (constructor; auto).
  cbn [app] in Hn. apply scan_numeral in Hn. unfold strtoul. rewrite Hn. split; [|discriminate].
  assert (E : ULONG_MAX <? dec ds = false) by (unfold ULONG_MAX; lia). rewrite E. reflexivity.
Qed.

(** Full statement: a decimal number with a documented suffix gives the number
    times the suffix's factor and any other text is rejected. The second half
    is false ([C61_garbage_refuted]), the first half when the product exceeds
    64 bits ([C61_overflow_refuted]). *)
Theorem C61_memory_partial ds u f : ds <> [] -> Forall digit ds -> mem_unit u f -> dec ds * f < 2 ^ 64 ->
  cli_parse_memory (ds ++ u) = Some (dec ds * f).
Proof.
  intros Hne Hd Hu Hlt. pose proof (dec_nonneg ds Hd) as H0.
  assert (Hf : 1 <= f) by (destruct Hu; lia).
  assert (dec ds < 2 ^ 64) by nia.
  assert (Hnd : match u with c :: _ => ~ digit c | [] => True end) by (destruct Hu; simpl; auto; unfold digit; cbn; lia).
  destruct (strtoul_digits ds u Hne Hd Hnd H) as [Es Ec].
  unfold cli_parse_memory. rewrite Es. destruct (scan (ds ++ u)); [|congruence].
  f_equal. clear Es Ec Hnd Hd Hne.
  assert (Hw : u64 (dec ds * f) = dec ds * f) by (unfold u64; apply Z.mod_small; split; [nia|assumption]).
  destruct Hu; cbn; rewrite ?Z.mul_1_r; try reflexivity; exact Hw.
Qed.
Theorem C61_time_partial ds u f : ds <> [] -> Forall digit ds -> time_unit u f -> dec ds * f < 2 ^ 64 ->
  cli_parse_time (ds ++ u) = Some (dec ds * f).
Proof.
  intros Hne Hd Hu Hlt. pose proof (dec_nonneg ds Hd) as H0.
  assert (Hf : 1 <= f) by (destruct Hu; lia).
  assert (dec ds < 2 ^ 64) by nia.
  assert (Hnd : match u with c :: _ => ~ digit c | [] => True end) by (destruct Hu; simpl; auto; unfold digit; cbn; lia).
  destruct (strtoul_digits ds u Hne Hd Hnd H) as [Es Ec].
  unfold cli_parse_time. rewrite Es. destruct (scan (ds ++ u)); [|congruence].
  f_equal. clear Es Ec Hnd Hd Hne.
  assert (Hw : u64 (dec ds * f) = dec ds * f) by (unfold u64; apply Z.mod_small; split; [nia|assumption]).
  destruct Hu; cbn; rewrite ?Z.mul_1_r; try reflexivity; exact Hw.
Qed.
Example C61_memory_ex : cli_parse_memory (lit "12" ++ lit "g") = Some 12000000000 /\ mem_unit (lit "g") 1000000000 /\ dec (lit "12") = 12.
Proof. split; [reflexivity|]. split; [constructor|reflexivity]. Qed.
Example C61_time_ex : cli_parse_time (lit "12" ++ lit "h") = Some 43200 /\ time_unit (lit "h") 3600.
Proof. split; [reflexivity|constructor]. Qed.

(** The values reach the configuration. *)
Theorem C61_options np s a :
  (forall v, cli_parse_memory a = Some v ->
     cli_parse np (OMemory a) s = Some (set_memory v (fst s), snd s) /\ cli_parse np (OTstack a) s = Some (set_thread_memory v (fst s), snd s)) /\
  (forall v, cli_parse_time a = Some v -> cli_parse np (OTimeout a) s = Some (set_timeout v (fst s), snd s)).
Proof. split; intros v H; cbn [cli_parse]; rewrite H; repeat split; reflexivity. Qed.

(** What is rejected: exactly the texts without a leading number. *)
Theorem C61_rejected a :
  (cli_parse_memory a = None <-> ~ exists neg ds rest, numeral a neg ds rest) /\
  (cli_parse_time a = None <-> ~ exists neg ds rest, numeral a neg ds rest).
Proof.
  rewrite scan_iff. unfold cli_parse_memory, cli_parse_time.
  destruct (scan a); destruct (strtoul a); split; split; intros H; try discriminate; try reflexivity; try congruence; exfalso; apply H; discriminate.
Qed.
Example C61_rejected_ex : cli_parse_memory (lit "abc") = None /\ cli_parse_time (lit "") = None.
Proof. split; reflexivity. Qed.

(** Other suffixes are accepted: "10x" is 10, "10kb" is 10000, "1.5g" is 1,
    "3 days" is 3 seconds. *)
Theorem C61_garbage_refuted :
  cli_parse_memory (lit "10x") = Some 10 /\ cli_parse_memory (lit "10kb") = Some 10000 /\ cli_parse_memory (lit "1.5g") = Some 1 /\
  cli_parse_time (lit "3 days") = Some 3.
Proof. repeat split. Qed.
(** Large sizes wrap around: 20000000000g is not 2 * 10^19 bytes; negative
    sizes are accepted. *)
Theorem C61_overflow_refuted :
  exists ds u f, Forall digit ds /\ mem_unit u f /\ cli_parse_memory (ds ++ u) <> Some (dec ds * f) /\ cli_parse_memory (ds ++ u) <> None /\
  cli_parse_memory (lit "-1") = Some (2 ^ 64 - 1).
Proof.
  exists (lit "20000000000"), (lit "g"), 1000000000.
  split; [repeat constructor; unfold digit; cbn; lia|]. split; [constructor|].
  split; [vm_compute; discriminate|]. split; [vm_compute; discriminate|vm_compute; reflexivity].
Qed.

Print Assumptions C56_exact.
Print Assumptions C56_config.
Print Assumptions C56_seed_partial.
Print Assumptions C56_seed_refuted.
Print Assumptions C61_memory_partial.
Print Assumptions C61_time_partial.
Print Assumptions C61_options.
Print Assumptions C61_rejected.
Print Assumptions C61_garbage_refuted.
Print Assumptions C61_overflow_refuted.
