(** C56, continued: what the accepted options put into the configuration. *)
From Coq Require Import Ascii String.
From Verif Require Import Base Str_Model Str_Proofs Cli_Model Cli_Spec Cli_Proofs Cli_Props.
Local Open Scope Z_scope.

(** ** Specification *)
(** a word of a text: a maximal non-empty piece without commas *)
Definition word (a w : str) : Prop :=
  w <> [] /\ ~ In ","%char w /\
  exists pre post, a = pre ++ w ++ post /\
    (pre = [] \/ exists p, pre = p ++ [","%char]) /\ (post = [] \/ exists q, post = ","%char :: q).

(** the words that ask for a part of the curve to be random *)
Definition part_words : list (Z * list str) :=
  [(RANDOM_SEED, [lit "seed"]); (RANDOM_FIELD, [lit "field"]);
   (RANDOM_A, [lit "a"; lit "equation"]); (RANDOM_B, [lit "b"; lit "equation"])].
Definition asks_part (ws : list str) (o : copt) : Prop :=
  match o with
  | ORandom None => True
  | ORandom (Some a) => exists w, word a w /\ In w ws
  | _ => False
  end.

(** the option is the last one of its sort *)
Definition last_of (sort : copt -> bool) (os : list copt) (o : copt) : Prop :=
  exists xs ys, os = xs ++ o :: ys /\ sort o = true /\ forall o', In o' ys -> sort o' = false.

Definition families : list (str * Z) :=
  [(lit "BN", FAMILY_BN); (lit "BLS12", FAMILY_BLS12); (lit "BLS24", FAMILY_BLS24); (lit "KSS16", FAMILY_KSS16);
   (lit "KSS18", FAMILY_KSS18); (lit "KSS36", FAMILY_KSS36); (lit "KSS40", FAMILY_KSS40)].
Definition points_words : list (str * Z) :=
  [(lit "random", POINTS_RANDOM); (lit "prime", POINTS_PRIME); (lit "all", POINTS_ALL);
   (lit "nonprime", POINTS_NONPRIME); (lit "none", POINTS_NONE)].

(** ** Proofs *)
Lemma in_tokens_aux s : forall cur w, ~ In ","%char cur ->
  In w (tokens_aux cur s) <->
  (exists w1 post, w = rev cur ++ w1 /\ w <> [] /\ ~ In ","%char w1 /\ s = w1 ++ post /\ (post = [] \/ exists q, post = ","%char :: q)) \/
  (exists pre post, w <> [] /\ ~ In ","%char w /\ s = pre ++ ","%char :: w ++ post /\ (post = [] \/ exists q, post = ","%char :: q)).
Proof.
  induction s as [|c t IH]; intros cur w Hc; cbn [tokens_aux].
  - split.
    + intros H. left. exists [], []. rewrite app_nil_r. destruct cur as [|x cur]; [destruct H|].
      destruct H as [<-|[]]. split; [reflexivity|]. split; [|split; [intros []|split; [reflexivity|now left]]].
      simpl. intros E. apply app_eq_nil in E. destruct E; discriminate.
    + intros [(w1 & post & E & Nw & _ & Es & _)|(pre & post & _ & _ & Es & _)].
      * symmetry in Es. apply app_eq_nil in Es. destruct Es as [-> ->]. rewrite app_nil_r in E. subst w.
        destruct cur as [|x cur]; [now destruct Nw|]. now left.
      * destruct pre; discriminate.
  - destruct (Ascii.eqb_spec c ","%char) as [->|N].
    + assert (X : In w (match cur with [] => tokens_aux [] t | _ => rev cur :: tokens_aux [] t end) <->
        (w = rev cur /\ w <> []) \/ In w (tokens_aux [] t)).
      { destruct cur as [|x cur].
        - split; [auto|]. intros [[E Nw]|H]; [simpl in E; contradiction|exact H].
        - cbn [In]. split; intros [E|H]; auto.
          + left. split; [now symmetry|]. subst w. simpl. intros E. apply app_eq_nil in E. destruct E; discriminate.
          + destruct E as [E _]. left. now symmetry. }
      rewrite X, (IH [] w (fun H => H)). clear X IH. split.
      * intros [[E Nw]|[(w1 & post & E & Nw & N1 & Es & Ep)|(pre & post & Nw & N1 & Es & Ep)]].
        -- left. exists [], (","%char :: t). rewrite app_nil_r. repeat split; auto. right. eauto.
        -- right. exists [], post. simpl in E. subst w1. repeat split; auto. simpl. now rewrite Es.
        -- right. exists (","%char :: pre), post. repeat split; auto. simpl. now rewrite Es.
      * intros [(w1 & post & E & Nw & N1 & Es & Ep)|(pre & post & Nw & N1 & Es & Ep)].
        -- destruct w1 as [|x w1]; [|exfalso; apply N1; left; now inversion Es].
           left. rewrite app_nil_r in E. auto.
        -- right. destruct pre as [|x pre]; inversion Es; subst.
           ++ left. exists w, post. auto.
           ++ right. exists pre, post. auto.
    + assert (Hc' : ~ In ","%char (c :: cur)) by (intros [H|H]; [congruence|auto]).
      rewrite (IH (c :: cur) w Hc'). clear IH. split.
      * intros [(w1 & post & E & Nw & N1 & Es & Ep)|(pre & post & Nw & N1 & Es & Ep)].
        -- left. exists (c :: w1), post. simpl in E. rewrite <- app_assoc in E. repeat split; auto.
           ++ intros [H|H]; [congruence|auto].
           ++ now rewrite Es.
        -- right. exists (c :: pre), post. repeat split; auto. now rewrite Es.
      * intros [(w1 & post & E & Nw & N1 & Es & Ep)|(pre & post & Nw & N1 & Es & Ep)].
        -- left. destruct w1 as [|x w1].
           ++ simpl in Es. subst post. destruct Ep as [Ep|[q Ep]]; [discriminate|]. inversion Ep. congruence.
           ++ inversion Es; subst. exists w1, post. repeat split; auto.
              ** simpl. now rewrite <- app_assoc.
              ** intros H. apply N1. now right.
        -- right. destruct pre as [|x pre]; inversion Es; subst; [congruence|]. exists pre, post. auto.
Qed.

Lemma in_tokens a w : In w (tokens a) <-> word a w.
Proof.
  unfold tokens, word. rewrite in_tokens_aux by (intros []). split.
  - intros [(w1 & post & E & Nw & N1 & Es & Ep)|(pre & post & Nw & N1 & Es & Ep)].
    + simpl in E. subst w1. repeat split; auto. exists [], post. auto.
    + repeat split; auto. exists (pre ++ [","%char]), post. rewrite <- app_assoc. repeat split; eauto.
  - intros (Nw & N1 & pre & post & Es & [->|[p ->]] & Ep).
    + left. exists w, post. auto.
    + right. exists p, post. rewrite <- app_assoc in Es. auto.
Qed.

(** the bits of a set of parts *)
Definition has_part (r m : Z) : Prop := Z.land r m = m.

Lemma lor_part r x k : 0 <= k -> has_part (Z.lor r x) (2 ^ k) <-> has_part r (2 ^ k) \/ has_part x (2 ^ k).
Proof.
  intros Hk. unfold has_part.
  assert (E : forall y, Z.land y (2 ^ k) = 2 ^ k <-> Z.testbit y k = true).
  { intros y. split.
    - intros H. apply (f_equal (fun z => Z.testbit z k)) in H. rewrite Z.land_spec, Z.pow2_bits_true in H by assumption.
      now rewrite andb_true_r in H.
    - intros H. apply Z.bits_inj'. intros j Hj. rewrite Z.land_spec, Z.pow2_bits_eqb by assumption.
      destruct (Z.eqb_spec k j) as [->|]; [now rewrite H|now rewrite andb_false_r]. }
  rewrite !E, Z.lor_spec, orb_true_iff. tauto.
Qed.

Lemma token_part r t r' : random_token (Some r) t = Some r' ->
  forall p, In p part_words -> has_part r' (fst p) <-> has_part r (fst p) \/ In t (snd p).
Proof.
  intros H p Hp.
  assert (K : exists k, 0 <= k /\ fst p = 2 ^ k).
  { destruct Hp as [<-|[<-|[<-|[<-|[]]]]]; [exists 0|exists 1|exists 2|exists 3]; (split; [lia|reflexivity]). }
  destruct K as (k & Hk & Ek). rewrite Ek.
  unfold random_token in H.
  repeat match type of H with context [if str_eqb ?x ?y then _ else _] =>
    let E := fresh "E" in destruct (str_eqb x y) eqn:E; [apply str_eqb_iff in E; injection H as <-; rewrite lor_part, <- Ek by exact Hk; subst t|] end;
  [..|discriminate];
  (apply or_iff_compat_l; clear Ek;
   destruct Hp as [<-|[<-|[<-|[<-|[]]]]]; cbn [fst snd]; unfold has_part; (split; [intros H|intros H]);
   first [vm_compute in H; discriminate|(simpl; tauto)|reflexivity|(simpl in H; exfalso; intuition discriminate)]).
Qed.

Lemma fold_part ts p : In p part_words -> forall r r', fold_left random_token ts (Some r) = Some r' ->
  has_part r' (fst p) <-> has_part r (fst p) \/ exists t, In t ts /\ In t (snd p).
Proof.
  intros Hp. induction ts as [|t ts IH]; intros r r'; cbn [fold_left].
  - intros H. injection H as <-. split; [auto|]. intros [H|(t & [] & _)]. exact H.
  - destruct (random_token (Some r) t) as [r1|] eqn:E; [|rewrite random_tokens_none; discriminate].
    intros H. rewrite (IH _ _ H), (token_part _ _ _ E p Hp). split.
    + intros [[A|A]|(x & I & A)]; [auto|right; exists t; split; [now left|exact A]|right; exists x; split; [now right|exact A]].
    + intros [A|(x & [<-|I] & A)]; [auto|auto|right; eauto].
Qed.

Lemma parse_part np o s s' p : In p part_words -> cli_parse np o s = Some s' ->
  has_part (c_random (fst s')) (fst p) <-> has_part (c_random (fst s)) (fst p) \/ asks_part (snd p) o.
Proof.
  intros Hp H. destruct o; cbn [cli_parse] in H; unfold seed_option in H;
  repeat match type of H with
    | context [match ?x with _ => _ end] => let E := fresh "E" in destruct x eqn:E; try discriminate
    end; try discriminate; injection H as <-; cbn [asks_part]; try (cbn; tauto).
  cbn [SET upd_cfg fst set_random c_random].
  destruct arg as [a|].
  - rewrite (fold_part _ p Hp _ _ E). apply or_iff_compat_l. split; intros (t & I & J); exists t; split; auto; now apply in_tokens.
  - injection E as <-. split; [auto|]. intros _. destruct Hp as [<-|[<-|[<-|[<-|[]]]]]; reflexivity.
Qed.

Lemma options_part np os p : In p part_words -> forall s s', options np os s = Some s' ->
  has_part (c_random (fst s')) (fst p) <-> has_part (c_random (fst s)) (fst p) \/ exists o, In o os /\ asks_part (snd p) o.
Proof.
  intros Hp. induction os as [|o os IH]; intros s s'; cbn [options].
  - intros H. injection H as <-. split; [auto|]. intros [H|(o & [] & _)]. exact H.
  - destruct (cli_parse np o s) as [s1|] eqn:E; [|discriminate]. intros H.
    rewrite (IH _ _ H), (parse_part _ _ _ _ p Hp E). split.
    + intros [[A|A]|(x & I & A)]; [auto|right; exists o; split; [now left|exact A]|right; exists x; split; [now right|exact A]].
    + intros [A|(x & [<-|I] & A)]; [auto|auto|right; eauto].
Qed.

(** a field that neither the size argument nor the defaults touch *)
Lemma cli_field {V} (acc : config -> V) np os args c set :
  (forall x b h, acc (set_hex_digits h (set_bits b x)) = acc x) ->
  (forall x, acc (cli_defaults x) = acc x) ->
  cli np os args = Some (c, set) -> exists s, options np os (cfg0, []) = Some s /\ acc c = acc (fst s).
Proof.
  intros A D H. unfold cli in H. destruct args as [|a [|? ?]]; try discriminate.
  destruct (options np os (cfg0, [])) as [[c1 set1]|] eqn:Eo; [|discriminate].
  unfold cli_arg in H. destruct (strtoul a) as [b rest]. destruct rest; [|discriminate].
  cbv beta iota delta [fst snd upd_cfg] in H.
  match type of H with context [cli_end_ok ?x] => destruct (cli_end_ok x); [|discriminate] end. injection H as <- <-.
  exists (c1, set1). split; [reflexivity|]. rewrite D, A. reflexivity.
Qed.

(** The parts chosen at random are those the options ask for. *)
Theorem C56_random np os args c set m ws : cli np os args = Some (c, set) -> In (m, ws) part_words ->
  Z.land (c_random c) m = m <-> exists o, In o os /\ asks_part ws o.
Proof.
  intros H Hp. destruct (cli_field c_random np os args c set) as (s & Eo & Ec); auto.
  { intros x. unfold cli_defaults. repeat match goal with |- context [if ?b then _ else _] => destruct b end; reflexivity. }
  pose proof (options_part np os (m, ws) Hp _ _ Eo) as P. cbn [fst snd] in P. unfold has_part in P. rewrite Ec, P.
  split; [|auto]. intros [E|E]; [|exact E]. exfalso.
  destruct Hp as [Hp|[Hp|[Hp|[Hp|[]]]]]; injection Hp as <- <-; discriminate.
Qed.

Example C56_random_ex : exists c set, cli 4 [OFp; ORandom (Some (lit ",seed,,equation"))] [lit "64"] = Some (c, set) /\
  asks_part [lit "b"; lit "equation"] (ORandom (Some (lit ",seed,,equation"))) /\
  Z.land (c_random c) RANDOM_B = RANDOM_B /\ Z.land (c_random c) RANDOM_FIELD = 0.
Proof.
  eexists _, _. split; [vm_compute; reflexivity|]. split; [|split; reflexivity].
  exists (lit "equation"). split; [|simpl; auto]. apply in_tokens. vm_compute. auto.
Qed.

(** ** The last option counts *)
Lemma last_options {V} (acc : config -> V) (sort : copt -> bool) np :
  (forall o s s', cli_parse np o s = Some s' -> sort o = false -> acc (fst s') = acc (fst s)) ->
  forall os o s s', options np os s = Some s' -> last_of sort os o ->
  exists s1 s2, cli_parse np o s1 = Some s2 /\ acc (fst s') = acc (fst s2).
Proof.
  intros K.
  assert (K' : forall os s s', options np os s = Some s' -> (forall o', In o' os -> sort o' = false) -> acc (fst s') = acc (fst s)).
  { induction os as [|o os IH]; intros s s'; cbn [options]; [congruence|].
    destruct (cli_parse np o s) as [s1|] eqn:E; [|discriminate]. intros H N.
    rewrite (IH _ _ H) by (intros o' I; apply N; now right). apply (K o); [exact E|apply N; now left]. }
  intros os o s s' H (xs & ys & -> & _ & N). revert s H.
  induction xs as [|x xs IH]; intros s; cbn [options app].
  - destruct (cli_parse np o s) as [s1|] eqn:E; [|discriminate]. intros H. exists s, s1. split; [exact E|]. apply (K' ys); assumption.
  - destruct (cli_parse np x s) as [s1|] eqn:E; [|discriminate]. apply IH.
Qed.

Local Ltac keep := 
  let o := fresh in let s := fresh in let s' := fresh in let H := fresh in let N := fresh in
  intros o s s' H N; destruct o; try discriminate N; cbn [cli_parse] in H; unfold seed_option in H;
  repeat match type of H with
    | context [match ?x with _ => _ end] => destruct x; try discriminate H
    end; try discriminate H; first [discriminate N|injection H as <-; reflexivity].
Local Ltac dflt := intros x; unfold cli_defaults; repeat match goal with |- context [if ?b then _ else _] => destruct b end; reflexivity.

Lemma numeral_nonneg a neg ds rest : numeral a neg ds rest -> 0 <= dec ds.
Proof. intros [sp sg neg' ds' rest' _ _ _ D _]. apply dec_nonneg. exact D. Qed.
Lemma strtol_plain a ds rest : numeral a false ds rest -> dec ds < 2 ^ 63 -> strtol a = (dec ds, rest).
Proof.
  intros Nu B. unfold strtol. rewrite (scan_numeral _ _ _ _ Nu). pose proof (numeral_nonneg _ _ _ _ Nu).
  f_equal. unfold LONG_MAX. lia.
Qed.
Lemma family_value a name v : In (name, v) families -> map tolower a = map tolower name -> family_of a = Some v.
Proof.
  intros H E. unfold family_of, strcasecmp0. rewrite E.
  destruct H as [H|[H|[H|[H|[H|[H|[H|[]]]]]]]]; injection H as <- <-; reflexivity.
Qed.
Lemma points_value w rest v : In (w, v) points_words -> points_of (w ++ rest) = Some v.
Proof. intros [H|[H|[H|[H|[H|[]]]]]]; injection H as <- <-; reflexivity. Qed.

Definition is_family o := match o with OFamily _ => true | _ => false end.
Definition is_points o := match o with OPoints _ => true | _ => false end.
Definition is_koblitz_value o := match o with OKoblitz (Some _) => true | _ => false end.
Definition is_count o := match o with OCount _ => true | _ => false end.
Definition is_smooth o := match o with OSmooth _ => true | _ => false end.
Definition is_cofactor o := match o with OCofactor _ => true | _ => false end.

(** The family, the kind and number of points and the other values are those of the last option
    that gives them; a number is what its text says. *)
Theorem C56_values np os args c set : cli np os args = Some (c, set) ->
  (forall a name v, last_of is_family os (OFamily a) -> In (name, v) families ->
     map tolower a = map tolower name -> c_family c = v) /\
  (forall a ds w rest v, last_of is_points os (OPoints a) -> numeral a false ds (w ++ rest) -> dec ds < 2 ^ 63 ->
     In (w, v) points_words -> c_points_type c = v /\ c_points_amount c = dec ds) /\
  (forall a neg ds rest, last_of is_koblitz_value os (OKoblitz (Some a)) -> numeral a neg ds rest ->
     c_koblitz c = true /\ c_koblitz_value c = dec ds) /\
  (forall a ds rest, last_of is_smooth os (OSmooth a) -> numeral a false ds rest -> dec ds < 2 ^ 63 -> c_smooth_value c = dec ds) /\
  (forall a ds rest, last_of is_cofactor os (OCofactor a) -> numeral a false ds rest -> dec ds < 2 ^ 63 -> c_cofactor_value c = dec ds).
Proof.
  intros H. split; [|split; [|split; [|split]]].
  - intros a name v L I E. destruct (cli_field c_family np os args c set) as (s & Eo & Ec); auto; [dflt|].
    destruct (last_options c_family is_family np ltac:(keep) os _ _ _ Eo L) as (s1 & s2 & P & Q).
    rewrite Ec, Q. cbn [cli_parse] in P. rewrite (family_value a name v I E) in P. injection P as <-. reflexivity.
  - intros a ds w rest v L Nu B I.
    destruct (cli_field (fun c => (c_points_type c, c_points_amount c)) np os args c set) as (s & Eo & Ec); auto; [dflt|].
    destruct (last_options (fun c => (c_points_type c, c_points_amount c)) is_points np ltac:(keep) os _ _ _ Eo L) as (s1 & s2 & P & Q).
    rewrite Q in Ec. cbn [cli_parse] in P. rewrite (strtol_plain a ds _ Nu B), (points_value w rest v I) in P. injection P as <-.
    cbn in Ec. injection Ec as -> ->. split; [reflexivity|]. apply u64_small. pose proof (numeral_nonneg _ _ _ _ Nu). lia.
  - intros a neg ds rest L Nu.
    destruct (cli_field (fun c => c_koblitz_value c) np os args c set) as (s & Eo & Ec); auto; [dflt|].
    destruct (cli_field (fun c => c_koblitz c) np os args c set) as (s' & Eo' & Ec'); auto; [dflt|].
    rewrite Eo in Eo'. injection Eo' as <-.
    destruct (last_options (fun c => c_koblitz_value c) is_koblitz_value np ltac:(keep) os _ _ _ Eo L) as (s1 & s2 & P & Q).
    rewrite Ec, Ec', Q. cbn [cli_parse] in P. pose proof (numeral_nonneg _ _ _ _ Nu) as N0.
    split.
    + destruct L as (xs & ys & -> & _ & _). clear - Eo. revert Eo. generalize (cfg0, @nil name).
      assert (K : forall os s s', options np os s = Some s' -> c_koblitz (fst s) = true -> c_koblitz (fst s') = true).
      { induction os as [|o os IH]; intros u u' Eo T; cbn [options] in Eo; [congruence|].
        destruct (cli_parse np o u) as [u1|] eqn:E; [|discriminate]. apply (IH _ _ Eo).
        destruct o; cbn [cli_parse] in E; unfold seed_option in E;
        repeat match type of E with
          | context [match ?x with _ => _ end] => destruct x; try discriminate E
          end; try discriminate E; injection E as <-; first [exact T|reflexivity]. }
      induction xs as [|x xs IH]; intros u Eo; cbn [options app] in Eo.
      * destruct (cli_parse np (OKoblitz (Some a)) u) as [u1|] eqn:E; [|discriminate]. apply (K _ _ _ Eo).
        cbn [cli_parse] in E. destruct ((fst (strtol a) =? 0) || (fst (strtol a) =? 1)); [|discriminate]. injection E as <-. reflexivity.
      * destruct (cli_parse np x u) as [u1|] eqn:E; [|discriminate]. apply (IH _ Eo).
    + unfold strtol in P. rewrite (scan_numeral _ _ _ _ Nu) in P. cbn [fst] in P.
      destruct ((_ =? 0) || (_ =? 1)) eqn:V in P; [|discriminate]. injection P as <-. cbn.
      unfold LONG_MIN, LONG_MAX in *. destruct neg; lia.
  - intros a ds rest L Nu B. destruct (cli_field c_smooth_value np os args c set) as (s & Eo & Ec); auto; [dflt|].
    destruct (last_options c_smooth_value is_smooth np ltac:(keep) os _ _ _ Eo L) as (s1 & s2 & P & Q).
    rewrite Ec, Q. cbn [cli_parse] in P. rewrite (strtol_plain a ds _ Nu B) in P. injection P as <-. reflexivity.
  - intros a ds rest L Nu B. destruct (cli_field c_cofactor_value np os args c set) as (s & Eo & Ec); auto; [dflt|].
    destruct (last_options c_cofactor_value is_cofactor np ltac:(keep) os _ _ _ Eo L) as (s1 & s2 & P & Q).
    rewrite Ec, Q. cbn [cli_parse] in P. rewrite (strtol_plain a ds _ Nu B) in P. injection P as <-. reflexivity.
Qed.

Example C56_values_ex : exists c set, cli 4 [OFp; OFamily (lit "BN"); OFamily (lit "kss18"); OPoints (lit "12nonprime")] [lit "64"] = Some (c, set) /\
  last_of is_family [OFp; OFamily (lit "BN"); OFamily (lit "kss18"); OPoints (lit "12nonprime")] (OFamily (lit "kss18")) /\
  c_family c = FAMILY_KSS18 /\ c_points_type c = POINTS_NONPRIME /\ c_points_amount c = 12.
Proof.
  eexists _, _. split; [vm_compute; reflexivity|]. split; [|repeat split; reflexivity].
  exists [OFp; OFamily (lit "BN")], [OPoints (lit "12nonprime")]. split; [reflexivity|]. split; [reflexivity|].
  intros o [<-|[]]. reflexivity.
Qed.

Print Assumptions C56_random.
Print Assumptions C56_values.
