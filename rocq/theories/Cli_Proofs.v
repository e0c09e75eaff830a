(** Proofs about the command line. *)
From Coq Require Import Ascii String.
From Verif Require Import Base Str_Model Str_Proofs Ansi_Model Brainpool_Model Cli_Model Cli_Spec.
Local Open Scope Z_scope.

(** ** Texts *)

Lemma str_eqb_iff s t : str_eqb s t = true <-> s = t.
Proof.
  revert t; induction s as [|c s IH]; destruct t as [|d t]; simpl; split; intros H; try discriminate; auto.
  - apply andb_true_iff in H. destruct H as [H1 H2]. apply Ascii.eqb_eq in H1. apply IH in H2. congruence.
  - injection H as -> ->. rewrite Ascii.eqb_refl. simpl. apply IH. reflexivity.
Qed.

Lemma prefix_b_iff t s : prefix_b t s = true <-> exists r, s = t ++ r.
Proof.
  revert s; induction t as [|c t IH]; intros s; simpl.
  - split; intros; [exists s|]; reflexivity.
  - destruct s as [|d s]; [split; [discriminate|intros [r Hr]; discriminate]|].
    rewrite andb_true_iff, IH, Ascii.eqb_eq. split.
    + intros [-> [r ->]]. exists r. reflexivity.
    + intros [r Hr]. injection Hr as -> ->. split; [reflexivity|exists r; reflexivity].
Qed.

Lemma isdigit_iff c : isdigit c = true <-> digit c.
Proof. unfold isdigit, digit. rewrite andb_true_iff, !Nat.leb_le. reflexivity. Qed.

Lemma isdigit_not_space c : isdigit c = true -> isspace c = false.
Proof.
  unfold isdigit, isspace. intros H. apply andb_true_iff in H. destruct H as [H1 H2].
  apply Nat.leb_le in H1. apply Nat.leb_le in H2. apply orb_false_iff. split.
  - apply Nat.eqb_neq. lia.
  - apply andb_false_iff. right. apply Nat.leb_gt. lia.
Qed.

Lemma take_digits_app ds : Forall digit ds -> forall acc rest,
  match rest with c :: _ => ~ digit c | [] => True end ->
  take_digits acc (ds ++ rest) = (fold_left (fun v c => 10 * v + dval c) ds acc, rest).
Proof.
  induction 1 as [|c ds Hc Hds IH]; intros acc rest Hr; simpl.
  - destruct rest as [|c rest]; simpl; [reflexivity|].
    destruct (isdigit c) eqn:E; [|reflexivity]. apply isdigit_iff in E. contradiction.
  - apply isdigit_iff in Hc. rewrite Hc. apply IH. assumption.
Qed.

Lemma take_digits_split (s : str) : forall acc : Z, exists ds rest : str,
  s = ds ++ rest /\ Forall digit ds /\ match rest with c :: _ => ~ digit c | [] => True end.
Proof.
  induction s as [|c s IH]; intros acc.
  - exists [], []. repeat split. constructor.
  - destruct (isdigit c) eqn:E.
    + destruct (IH acc) as (ds & rest & -> & H1 & H2). exists (c :: ds), rest.
      repeat split; auto. constructor; auto. apply isdigit_iff; assumption.
    + exists [], (c :: s). repeat split; [constructor|]. rewrite <- isdigit_iff. congruence.
Qed.

Lemma skip_space_split s : exists sp t, s = sp ++ t /\ Forall (fun c => isspace c = true) sp /\ skip_space s = t /\
  match t with c :: _ => isspace c = false | [] => True end.
Proof.
  induction s as [|c s IH]; simpl.
  - exists [], []. repeat split. constructor.
  - destruct (isspace c) eqn:E.
    + destruct IH as (sp & t & -> & H1 & H2 & H3). exists (c :: sp), t. repeat split; auto.
    + exists [], (c :: s). repeat split; auto.
Qed.

Lemma skip_space_app sp t : Forall (fun c => isspace c = true) sp ->
  match t with c :: _ => isspace c = false | [] => True end -> skip_space (sp ++ t) = t.
Proof.
  induction 1 as [|c sp Hc Hsp IH]; intros Ht; simpl.
  - destruct t; simpl; [reflexivity|]. rewrite Ht. reflexivity.
  - rewrite Hc. auto.
Qed.

Lemma scan_numeral s neg ds rest : numeral s neg ds rest -> scan s = Some (neg, dec ds, rest).
Proof.
  intros [sp sg neg' ds' rest' Hsp Hsg Hne Hds Hrest]. unfold scan.
  assert (Hfirst : exists d ds2, ds' = d :: ds2 /\ isdigit d = true).
  { destruct ds' as [|d ds2]; [contradiction|]. exists d, ds2. split; [reflexivity|]. apply isdigit_iff. now inversion Hds. }
  destruct Hfirst as (d & ds2 & Ed & Hd).
  rewrite skip_space_app; [|assumption|].
  2:{ destruct Hsg as [[-> _]|[[-> _]|[-> _]]]; simpl; [|reflexivity|reflexivity]. rewrite Ed. simpl. apply isdigit_not_space; assumption. }
  assert (Htake : take_sign (sg ++ ds' ++ rest') = (neg', ds' ++ rest')).
  { destruct Hsg as [[-> ->]|[[-> ->]|[-> ->]]]; simpl; [|reflexivity|reflexivity].
    rewrite Ed. simpl. destruct (Ascii.eqb_spec d "-"); [subst; discriminate|]. destruct (Ascii.eqb_spec d "+"); [subst; discriminate|]. reflexivity. }
  rewrite Htake. rewrite (take_digits_app ds' Hds 0 rest' Hrest). fold (dec ds'). subst ds'. cbn [app]. rewrite Hd. reflexivity.
Qed.

Lemma scan_some s neg v rest : scan s = Some (neg, v, rest) -> exists ds, numeral s neg ds rest /\ v = dec ds.
Proof.
  unfold scan. intros H. destruct (skip_space_split s) as (sp & t & Es & Hsp & Ht & Hns). rewrite Ht in H.
  destruct (take_sign t) as [n u] eqn:Et.
  destruct u as [|c u]; [discriminate|]. destruct (isdigit c) eqn:Ec; [|discriminate].
  destruct (take_digits_split (c :: u) 0) as (ds & r & E & Hds & Hr).
  rewrite E in H. rewrite (take_digits_app ds Hds 0 r Hr) in H. fold (dec ds) in H. injection H as <- <- <-.
  exists ds. split; [|reflexivity].
  assert (Hne : ds <> []).
  { intros ->. simpl in E. rewrite <- E in Hr. simpl in Hr. apply Hr. apply isdigit_iff; assumption. }
  assert (Hsg : exists sg, t = sg ++ ds ++ r /\ (sg = [] /\ n = false \/ sg = ["+"%char] /\ n = false \/ sg = ["-"%char] /\ n = true)).
  { unfold take_sign in Et. destruct t as [|x t]; [discriminate|].
    destruct (Ascii.eqb_spec x "-"); [injection Et as En Eu; exists ["-"%char]; rewrite <- E; subst; split; [reflexivity|tauto]|].
    destruct (Ascii.eqb_spec x "+"); [injection Et as En Eu; exists ["+"%char]; rewrite <- E; subst; split; [reflexivity|tauto]|].
    injection Et as En E1 E2. exists []. rewrite <- E. subst. split; [reflexivity|tauto]. }
  destruct Hsg as (sg & -> & Hsg). subst s. apply numeral_intro; assumption.
Qed.

Lemma scan_iff s : (exists neg ds rest, numeral s neg ds rest) <-> scan s <> None.
Proof.
  split.
  - intros (n & ds & r & H). apply scan_numeral in H. congruence.
  - destruct (scan s) as [[[n v] r]|] eqn:E; [|congruence]. intros _.
    destruct (scan_some _ _ _ _ E) as (ds & H & _). eauto.
Qed.

(** ** The regular expression finds a match exactly when there is a digit *)

Lemma regexec_iff s : regexec s = true <-> has_digit s.
Proof.
  assert (Hx : forall c, isdigit c = true -> isxdigit c = true).
  { intros c H. apply isdigit_iff in H. unfold digit in H. unfold isxdigit.
    apply orb_true_iff; left; apply orb_true_iff; left; apply andb_true_iff; rewrite !Nat.leb_le; lia. }
  induction s as [|c s IH].
  - simpl. split; [discriminate|]. intros (c & Hc & _). destruct Hc.
  - split.
    + intros H. cbn [regexec] in H. apply orb_true_iff in H. destruct H as [H|H].
      * exists c. split; [left; reflexivity|]. apply isdigit_iff. destruct (isdigit c) eqn:E; [reflexivity|].
        exfalso. cbn [re_list] in H. assert (Hn : re_num (c :: s) = []).
        { unfold re_num. cbn [after_many]. rewrite E. rewrite app_nil_r. destruct s as [|c1 s]; [reflexivity|].
          destruct (Ascii.eqb_spec c "0"); [subst; discriminate|reflexivity]. }
        rewrite Hn in H. discriminate.
      * apply IH in H. destruct H as (d & Hd & Hd2). exists d. split; [right|]; assumption.
    + intros (d & [<-|Hd] & Hdig); cbn [regexec]; apply orb_true_iff.
      * left. cbn [re_list length]. assert (Hn : In s (re_num (c :: s))).
        { unfold re_num. apply in_or_app. right. cbn [after_many]. apply isdigit_iff in Hdig. rewrite Hdig. left. reflexivity. }
        destruct (re_num (c :: s)) as [|r rs]; [destruct Hn|]. reflexivity.
      * right. apply IH. exists d. split; assumption.
Qed.

(** ** Hexadecimal texts *)

Lemma hex_body_of start s : 
  start = (if (2 <? List.length s)%nat then
             match s with
             | c0 :: c1 :: t => if Ascii.eqb c0 "0" && (Ascii.eqb c1 "x" || Ascii.eqb c1 "X") then t else s
             | _ => s
             end else s) ->
  forallb isxdigit start = true -> hex_body s start.
Proof.
  intros E H. assert (Hall : Forall (fun c => isxdigit c = true) start) by (apply Forall_forall; apply forallb_forall; assumption).
  split; [assumption|].
  destruct (Nat.ltb_spec 2 (List.length s)).
  - destruct s as [|c0 [|c1 t]]; simpl in H0; try lia.
    destruct (Ascii.eqb_spec c0 "0"); [subst c0|]; cbn [andb] in E.
    + destruct (Ascii.eqb_spec c1 "x"); [|destruct (Ascii.eqb_spec c1 "X")]; cbn [orb] in E; subst start.
      * right. exists c1. split; [tauto|]. split; [destruct t; simpl in H0; [lia|discriminate]|subst; reflexivity].
      * right. exists c1. split; [tauto|]. split; [destruct t; simpl in H0; [lia|discriminate]|subst; reflexivity].
      * left. split; [reflexivity|]. intros (x & r & Er & Hx & _). injection Er as -> ->. destruct Hx; contradiction.
    + subst start. left. split; [reflexivity|]. intros (x & r & Er & _ & _). injection Er as -> ->. contradiction.
  - subst start. left. split; [reflexivity|]. intros (x & r & -> & _ & Hr). simpl in H0. destruct r; simpl in H0; [contradiction|lia].
Qed.

Lemma hex_body_start s body : hex_body s body ->
  body = (if (2 <? List.length s)%nat then
             match s with
             | c0 :: c1 :: t => if Ascii.eqb c0 "0" && (Ascii.eqb c1 "x" || Ascii.eqb c1 "X") then t else s
             | _ => s
             end else s) /\ forallb isxdigit body = true.
Proof.
  intros [Hall Hs]. split; [|apply forallb_forall; apply Forall_forall; assumption].
  destruct Hs as [[-> Hno]|(x & Hx & Hne & ->)].
  - destruct (Nat.ltb_spec 2 (List.length body)); [|reflexivity].
    destruct body as [|c0 [|c1 t]]; try reflexivity.
    destruct (Ascii.eqb_spec c0 "0"); [subst c0|reflexivity]. cbn [andb].
    destruct (Ascii.eqb_spec c1 "x"); [|destruct (Ascii.eqb_spec c1 "X")]; cbn [orb]; try reflexivity.
    + exfalso. apply Hno. exists c1, t. split; [reflexivity|]. split; [tauto|]. destruct t; simpl in H; [lia|discriminate].
    + exfalso. apply Hno. exists c1, t. split; [reflexivity|]. split; [tauto|]. destruct t; simpl in H; [lia|discriminate].
  - destruct body; [contradiction|]. simpl. destruct Hx as [-> | ->]; reflexivity.
Qed.

Lemma all_hex_forallb s : all_hex s = forallb isxdigit s.
Proof. induction s; simpl; [reflexivity|]. destruct (isxdigit a); simpl; auto. Qed.

Lemma hexcheck_iff a : hexcheck_of a <> None <-> exists body, hex_body a body.
Proof.
  unfold hexcheck_of. split.
  - match goal with |- context [forallb isxdigit ?st] => destruct (forallb isxdigit st) eqn:E end; [|congruence].
    intros _. eexists. eapply hex_body_of; [reflexivity|exact E].
  - intros [body H]. apply hex_body_start in H. destruct H as [E H]. rewrite <- E, H. discriminate.
Qed.

Lemma is_hex_body s body : str_is_hex s = Some body <-> hex_body s body.
Proof.
  unfold str_is_hex. rewrite all_hex_forallb. split.
  - match goal with |- context [forallb isxdigit ?st] => destruct (forallb isxdigit st) eqn:E end; [|discriminate].
    intros H. injection H as <-. eapply hex_body_of; [reflexivity|exact E].
  - intros H. apply hex_body_start in H. destruct H as [E H]. rewrite <- E, H. reflexivity.
Qed.

Lemma ansi_valid_iff s : ansi_seed_valid s = true <-> seed_ok AAnsi s.
Proof.
  unfold ansi_seed_valid, seed_ok. split.
  - destruct (str_is_hex s) as [b|] eqn:E; [|discriminate]. intros H. exists b. split; [apply is_hex_body; assumption|].
    apply Nat.leb_le. assumption.
  - intros (b & Hb & Hl). apply is_hex_body in Hb. rewrite Hb. apply Nat.leb_le. assumption.
Qed.
Lemma brainpool_valid_iff s : brainpool_seed_valid s = true <-> seed_ok ABrainpool s.
Proof.
  unfold brainpool_seed_valid, seed_ok. split.
  - destruct (str_is_hex s) as [b|] eqn:E; [|discriminate]. intros H. exists b. split; [apply is_hex_body; assumption|].
    apply Nat.eqb_eq. assumption.
  - intros (b & Hb & Hl). apply is_hex_body in Hb. rewrite Hb. apply Nat.eqb_eq. assumption.
Qed.

(** ** Acceptance of a single option does not depend on the state *)

Lemma random_tokens_none ts : fold_left random_token ts None = None.
Proof. induction ts; simpl; auto. Qed.

Lemma random_token_some r t :
  random_token (Some r) t <> None <-> In t [lit "seed"; lit "field"; lit "a"; lit "b"; lit "equation"].
Proof.
  unfold random_token.
  destruct (str_eqb t (lit "seed")) eqn:E1.
  { apply str_eqb_iff in E1. subst t. split; [intros _; simpl; auto|discriminate]. }
  destruct (str_eqb t (lit "field")) eqn:E2.
  { apply str_eqb_iff in E2. subst t. split; [intros _; simpl; auto|discriminate]. }
  destruct (str_eqb t (lit "a")) eqn:E3.
  { apply str_eqb_iff in E3. subst t. split; [intros _; simpl; auto|discriminate]. }
  destruct (str_eqb t (lit "b")) eqn:E4.
  { apply str_eqb_iff in E4. subst t. split; [intros _; simpl; tauto|discriminate]. }
  destruct (str_eqb t (lit "equation")) eqn:E5.
  { apply str_eqb_iff in E5. subst t. split; [intros _; simpl; tauto|discriminate]. }
  split; [congruence|].
  intros [<-|[<-|[<-|[<-|[<-|[]]]]]]; rewrite (proj2 (str_eqb_iff _ _) eq_refl) in *; discriminate.
Qed.

Lemma random_token_nz r t r' : random_token (Some r) t = Some r' -> r' <> 0.
Proof.
  unfold random_token. intros H.
  repeat match type of H with context [if ?b then _ else _] => destruct b end; try discriminate;
  injection H as <-; rewrite Z.lor_eq_0_iff; intros [_ E]; discriminate.
Qed.

Lemma random_fold ts : forall r,
  fold_left random_token ts (Some r) <> None <-> Forall (fun t => In t [lit "seed"; lit "field"; lit "a"; lit "b"; lit "equation"]) ts.
Proof.
  induction ts as [|t ts IH]; intros r; cbn [fold_left].
  - split; [constructor|discriminate].
  - destruct (random_token (Some r) t) as [r'|] eqn:E.
    + rewrite IH. split.
      * intros H. constructor; [|assumption]. apply (random_token_some r). congruence.
      * intros H. inversion H; assumption.
    + rewrite random_tokens_none. split; [congruence|]. intros H. inversion H; subst.
      exfalso. apply (random_token_some r) in H2. congruence.
Qed.

Lemma random_fold_zero ts : forall r r', fold_left random_token ts (Some r) = Some r' -> (r' = 0 <-> r = 0 /\ ts = []).
Proof.
  induction ts as [|t ts IH]; intros r r'; cbn [fold_left].
  - intros H. injection H as <-. tauto.
  - destruct (random_token (Some r) t) as [r1|] eqn:E; [|rewrite random_tokens_none; discriminate].
    intros H. apply IH in H. apply random_token_nz in E. split; [intros H0; apply H in H0; tauto|intros [_ H0]; discriminate].
Qed.

Lemma tokens_nil s : forall cur, tokens_aux cur s = [] <-> cur = [] /\ Forall (fun c => c = ","%char) s.
Proof.
  induction s as [|c s IH]; intros cur; cbn [tokens_aux].
  - destruct cur; split; intros H; [split; [reflexivity|constructor]|reflexivity|discriminate|destruct H; discriminate].
  - destruct (Ascii.eqb_spec c ",").
    + destruct cur.
      * rewrite IH. split; [intros [_ H]; split; [reflexivity|constructor; assumption]|intros [_ H]; inversion H; split; [reflexivity|assumption]].
      * split; [discriminate|intros [H _]; discriminate].
    + rewrite IH. split; [intros [H _]; discriminate|]. intros [_ H]. inversion H. contradiction.
Qed.

Lemma tokens_asks a : tokens a <> [] <-> exists c, In c a /\ c <> ","%char.
Proof.
  unfold tokens. rewrite tokens_nil. split.
  - intros H. destruct (Exists_dec (fun c => c <> ","%char) a) as [E|E].
    + intros c. destruct (ascii_dec c ","); [right; tauto|left; assumption].
    + apply Exists_exists in E. exact E.
    + exfalso. apply H. split; [reflexivity|]. apply Forall_forall. intros c Hc. destruct (ascii_dec c ","); [assumption|].
      exfalso. apply E. apply Exists_exists. exists c. tauto.
  - intros (c & Hc & Hne) [_ H]. rewrite Forall_forall in H. apply Hne. auto.
Qed.

Lemma family_iff a : family_of a <> None <->
  In (map tolower a) (map (map tolower) [lit "BN"; lit "BLS12"; lit "BLS24"; lit "KSS16"; lit "KSS18"; lit "KSS36"; lit "KSS40"]).
Proof.
  unfold family_of, strcasecmp0.
  repeat match goal with |- context [if str_eqb ?x ?y then _ else _] => let E := fresh "E" in destruct (str_eqb x y) eqn:E;
    [apply str_eqb_iff in E; split; [intros _; rewrite E; cbn [map]; simpl; tauto|discriminate] |] end.
  split; [congruence|]. intros [H|[H|[H|[H|[H|[H|[H|[]]]]]]]];
  symmetry in H; apply str_eqb_iff in H; congruence.
Qed.

Lemma points_iff s : points_of s <> None <->
  exists w rest, In w [lit "random"; lit "prime"; lit "all"; lit "nonprime"; lit "none"] /\ s = w ++ rest.
Proof.
  unfold points_of.
  repeat match goal with |- context [if prefix_b ?x ?y then _ else _] => let E := fresh "E" in destruct (prefix_b x y) eqn:E;
    [apply prefix_b_iff in E; destruct E as [r E]; split; [intros _; exists x, r; split; [simpl; tauto|assumption]|discriminate] |] end.
  split; [congruence|]. intros (w & r & Hw & Hs). exfalso.
  destruct Hw as [Hw|[Hw|[Hw|[Hw|[Hw|[]]]]]]; subst w;
  match goal with E : prefix_b ?x s = false |- _ => rewrite (proj2 (prefix_b_iff x s)) in E; [discriminate|exists r; assumption] end.
Qed.

Ltac dd := split; intros; try discriminate; try reflexivity; try tauto; try (exfalso; auto; fail); try congruence.

Lemma parse_ok np o s : cli_parse np o s <> None <-> arg_ok o.
Proof.
  destruct o; cbn [cli_parse arg_ok]; try (split; [tauto|discriminate]).
  - destruct arg as [a|]; [|split; [tauto|discriminate]].
    match goal with |- context [forallb ?f a] => destruct (forallb f a) eqn:E end.
    + split; [|discriminate]. intros _. apply Forall_forall. intros c Hc. rewrite forallb_forall in E. specialize (E c Hc).
      apply orb_true_iff in E. rewrite isdigit_iff, Ascii.eqb_eq in E. exact E.
    + split; [congruence|]. intros H. exfalso. rewrite Forall_forall in H.
      assert (E2 : forallb (fun c => isdigit c || Ascii.eqb c "-") a = true).
      { apply forallb_forall. intros c Hc. apply orb_true_iff. rewrite isdigit_iff, Ascii.eqb_eq. auto. }
      congruence.
  - rewrite <- regexec_iff. destruct (regexec arg); dd.
  - rewrite <- family_iff. destruct (family_of arg); dd.
  - unfold seed_option. destruct arg as [a|]; [|split; [tauto|discriminate]].
    rewrite <- ansi_valid_iff. destruct (ansi_seed_valid a); dd.
  - unfold seed_option. destruct arg as [a|]; [|split; [tauto|discriminate]].
    rewrite <- brainpool_valid_iff. destruct (brainpool_seed_valid a); dd.
  - unfold seed_option. destruct arg as [a|]; [|split; [tauto|discriminate]].
    rewrite <- brainpool_valid_iff. destruct (brainpool_seed_valid a); dd.
  - destruct arg as [a|]; [|split; [tauto|discriminate]].
    rewrite <- (random_fold (tokens a) (c_random (fst s))).
    destruct (fold_left _ _ _); dd.
  - destruct arg as [a|]; [|split; [tauto|discriminate]].
    destruct (Z.eqb_spec (fst (strtol a)) 0); destruct (Z.eqb_spec (fst (strtol a)) 1); cbn [orb]; dd; try tauto; lia.
  - rewrite <- hexcheck_iff. destruct (hexcheck_of arg); dd.
  - destruct (strtol arg) as [am ne] eqn:E. cbn [snd]. rewrite <- points_iff. destruct (points_of ne); dd.
  - unfold cli_parse_memory. rewrite scan_iff. destruct (scan arg); [|dd]. destruct (strtoul arg). dd.
  - unfold cli_parse_memory. rewrite scan_iff. destruct (scan arg); [|dd]. destruct (strtoul arg). dd.
  - unfold cli_parse_time. rewrite scan_iff. destruct (scan arg); [|dd]. destruct (strtoul arg). dd.
  - destruct (str_eqb arg (lit "auto")) eqn:E1; [apply str_eqb_iff in E1; split; [tauto|discriminate]|].
    destruct (str_eqb arg (lit "AUTO")) eqn:E2; [apply str_eqb_iff in E2; split; [tauto|discriminate]|].
    cbn [orb]. destruct (Z.eqb_spec (fst (strtoul arg)) 0); split; try congruence; try tauto.
    intros [H|[H|H]]; [apply str_eqb_iff in H; congruence|apply str_eqb_iff in H; congruence|contradiction].
Qed.

Lemma options_ok np os : forall s, options np os s <> None <-> forall o, In o os -> arg_ok o.
Proof.
  induction os as [|o os IH]; intros s; cbn [options].
  - split; [intros _ o []|discriminate].
  - destruct (cli_parse np o s) as [s'|] eqn:E.
    + rewrite IH. split.
      * intros H o' [<-|Ho]; [apply (parse_ok np o s); congruence|auto].
      * intros H o' Ho. apply H. right; assumption.
    + split; [congruence|]. intros H. exfalso. apply (parse_ok np o s); [apply H; left; reflexivity|assumption].
Qed.

(** ** What the options leave in the configuration *)

Definition fbit (o : copt) : Z := match o with OFp => 1 | OF2m => 2 | _ => 0 end.
Definition kbit (k : kind) : Z :=
  match k with KCm => METHOD_CM | KAnomalous => METHOD_ANOMALOUS | KSeed => METHOD_SEED | KInvalid => METHOD_INVALID
  | KTwist => METHOD_TWIST | KSupersingular => METHOD_SUPERSINGULAR | KFamily => METHOD_FAMILY end.
Definition mbit (o : copt) : Z := match kind_of o with Some k => kbit k | None => 0 end.
Definition is_order (n : nat) (o : copt) : bool := match order_choice o with Some m => Nat.eqb n m | None => false end.
Definition algo_num (a : algo) : Z :=
  match a with AAnsi => SEED_ANSI | ABrainpool => SEED_BRAINPOOL | ABrainpoolRfc => SEED_BRAINPOOL_RFC | ANums => SEED_NUMS end.

Record eff (os : list copt) (c c' : config) : Prop := mkEff {
  e_field : c_field c' = Z.lor (c_field c) (fold_right (fun o m => Z.lor (fbit o) m) 0 os);
  e_method : c_method c' = Z.lor (c_method c) (fold_right (fun o m => Z.lor (mbit o) m) 0 os);
  e_prime : c_prime c' = c_prime c || existsb (is_order 0) os;
  e_smooth : c_smooth c' = c_smooth c || existsb (is_order 1) os;
  e_cofactor : c_cofactor c' = c_cofactor c || existsb (is_order 2) os;
  e_algo : (exists a, last_algo os a /\ c_seed_algo c' = algo_num a) \/
           ((forall o, In o os -> algo_of o = None) /\ c_seed_algo c' = c_seed_algo c);
  e_random : c_random c' = 0 <-> c_random c = 0 /\ forall o, In o os -> ~ asks_random o
}.

Lemma parse_eff np o s s' : cli_parse np o s = Some s' -> eff [o] (fst s) (fst s').
Proof.
  intros H. 
  assert (Hr : forall o', (forall o, In o [o'] -> ~ asks_random o) <-> ~ asks_random o').
  { intros o'. split; [intros H0; apply H0; left; reflexivity|intros H0 x [<-|[]]; assumption]. }
  assert (Hlast : forall a, algo_of o = Some a -> last_algo [o] a).
  { intros a Ha. exists [], o, []. repeat split; auto. intros x []. }
  assert (Hnone : algo_of o = None -> forall x, In x [o] -> algo_of x = None).
  { intros Ha x [<-|[]]; assumption. }
  destruct o; cbn [cli_parse] in H; unfold seed_option in H;
  repeat match type of H with
    | context [match ?x with _ => _ end] => let E := fresh "E" in destruct x eqn:E; try discriminate
    end; try discriminate; injection H as <-;
  (constructor; [cbn; rewrite ?Z.lor_0_r, ?orb_false_r, ?orb_true_r; reflexivity ..| |]);
  try (right; split; [apply Hnone; reflexivity|reflexivity]);
  try (left; eexists; split; [apply Hlast; reflexivity|reflexivity]);
  try (rewrite Hr; cbn [asks_random]; cbn; tauto).
rewrite Hr; cbn [SET upd_cfg fst set_random c_random asks_random].
  destruct arg as [a|].
  - rewrite (random_fold_zero _ _ _ E). rewrite <- tokens_asks. destruct (tokens a); split; intros [H1 H2]; split; auto; try discriminate.
    exfalso. apply H2. discriminate.
  - injection E as <-. split; [discriminate|tauto].
Qed.

Lemma eff_nil c : eff [] c c.
Proof.
  constructor; cbn; rewrite ?Z.lor_0_r, ?orb_false_r; try reflexivity.
  - right. split; [intros o []|reflexivity].
  - split; [intros H; split; [exact H|intros o []]|tauto].
Qed.

Lemma eff_cons o os c c1 c2 : eff [o] c c1 -> eff os c1 c2 -> eff (o :: os) c c2.
Proof.
  intros [f1 m1 p1 s1 k1 a1 r1] [f2 m2 p2 s2 k2 a2 r2]; constructor.
  - rewrite f2, f1. cbn. rewrite Z.lor_0_r, Z.lor_assoc. reflexivity.
  - rewrite m2, m1. cbn. rewrite Z.lor_0_r, Z.lor_assoc. reflexivity.
  - rewrite p2, p1. cbn. rewrite orb_false_r, orb_assoc. reflexivity.
  - rewrite s2, s1. cbn. rewrite orb_false_r, orb_assoc. reflexivity.
  - rewrite k2, k1. cbn. rewrite orb_false_r, orb_assoc. reflexivity.
  - destruct a2 as [(a & (xs & x & ys & -> & Hx & Hys) & Ha)|[Hn Ha]].
    + left. exists a. split; [|assumption]. exists (o :: xs), x, ys. auto.
    + destruct a1 as [(a & (xs & x & ys & E & Hx & Hys) & Ha1)|[Hn1 Ha1]].
      * left. exists a. split; [|congruence]. exists xs, x, (ys ++ os). split; [|split; [assumption|]].
        -- change (o :: os) with ([o] ++ os). rewrite E, <- app_assoc. reflexivity.
        -- intros o' Ho. apply in_app_or in Ho. destruct Ho; auto.
      * right. split; [|congruence]. intros x [<-|Hx]; [apply Hn1; left; reflexivity|auto].
  - rewrite r2, r1. split.
    + intros [[H1 H2] H3]. split; [assumption|]. intros x [<-|Hx]; [apply H2; left; reflexivity|auto].
    + intros [H1 H2]. split; [split; [assumption|]|]; intros x Hx; apply H2; [destruct Hx as [<-|[]]; left; reflexivity|right; assumption].
Qed.

Lemma options_eff np os : forall s s', options np os s = Some s' -> eff os (fst s) (fst s').
Proof.
  induction os as [|o os IH]; intros s s'; cbn [options].
  - intros H. injection H as <-. apply eff_nil.
  - destruct (cli_parse np o s) as [s1|] eqn:E; [|discriminate]. intros H.
    eapply eff_cons; [eapply parse_eff; exact E|apply IH; exact H].
Qed.

(** ** Sets of options as numbers *)

Definition enc (b0 b1 b2 b3 b4 b5 b6 : bool) : Z :=
  Z.b2z b0 + 2 * Z.b2z b1 + 4 * Z.b2z b2 + 8 * Z.b2z b3 + 16 * Z.b2z b4 + 32 * Z.b2z b5 + 64 * Z.b2z b6.
Definition kind_eqb (k k' : kind) : bool := kbit k =? kbit k'.
Lemma kind_eqb_iff k k' : kind_eqb k k' = true <-> k = k'.
Proof. destruct k, k'; split; intros H; try reflexivity; discriminate. Qed.
Definition is_kind (k : kind) (o : copt) : bool := match kind_of o with Some k' => kind_eqb k k' | None => false end.
Definition has_kind (os : list copt) (k : kind) : bool := existsb (is_kind k) os.
Lemma has_kind_iff os k : has_kind os k = true <-> chosen os k.
Proof.
  unfold has_kind, chosen. rewrite existsb_exists. unfold is_kind. split.
  - intros (o & Ho & H). exists o. split; [assumption|]. destruct (kind_of o); [|discriminate]. apply kind_eqb_iff in H. congruence.
  - intros (o & Ho & H). exists o. split; [assumption|]. rewrite H. apply kind_eqb_iff. reflexivity.
Qed.
Definition mask (os : list copt) : Z := fold_right (fun o m => Z.lor (mbit o) m) 0 os.
Lemma mask_enc os : mask os = enc (has_kind os KCm) (has_kind os KAnomalous) (has_kind os KSeed) (has_kind os KInvalid)
  (has_kind os KTwist) (has_kind os KSupersingular) (has_kind os KFamily).
Proof.
  induction os as [|o os IH]; [reflexivity|].
  change (mask (o :: os)) with (Z.lor (mbit o) (mask os)). rewrite IH. unfold has_kind. cbn [existsb]. clear IH.
  unfold mbit. assert (Hk : forall k, is_kind k o = match kind_of o with Some k' => kind_eqb k k' | None => false end) by reflexivity.
  rewrite !Hk. destruct (kind_of o) as [k|]; [|reflexivity].
  generalize (existsb (is_kind KCm) os) (existsb (is_kind KAnomalous) os) (existsb (is_kind KSeed) os) (existsb (is_kind KInvalid) os)
    (existsb (is_kind KTwist) os) (existsb (is_kind KSupersingular) os) (existsb (is_kind KFamily) os).
  clear. intros [] [] [] [] [] [] []; destruct k; reflexivity.
Qed.

Definition methods : list Z := [METHOD_DEFAULT; METHOD_CM; METHOD_ANOMALOUS; METHOD_SEED; METHOD_INVALID; METHOD_TWIST; METHOD_SUPERSINGULAR; METHOD_FAMILY].
Lemma mask_none os : mask os = 0 <-> forall k, ~ chosen os k.
Proof.
  rewrite mask_enc. split.
  - intros H k Hk. apply has_kind_iff in Hk. revert H. destruct k; rewrite Hk;
    repeat match goal with |- context [Z.b2z (has_kind ?o ?k)] => destruct (has_kind o k) | |- context [has_kind ?o ?k] => destruct (has_kind o k) end; discriminate.
  - intros H. assert (Hf : forall k, has_kind os k = false).
    { intros k. destruct (has_kind os k) eqn:E; [|reflexivity]. exfalso. apply (H k). apply has_kind_iff. assumption. }
    rewrite !Hf. reflexivity.
Qed.
Lemma mask_kind os k : (mask os = kbit k) <-> chosen os k /\ forall k', chosen os k' -> k' = k.
Proof.
  rewrite mask_enc. split.
  - intros H. assert (Hb : has_kind os k = true /\ forall k', k' <> k -> has_kind os k' = false).
    { revert H. generalize (has_kind os). intros f H.
      destruct (f KCm) eqn:E0, (f KAnomalous) eqn:E1, (f KSeed) eqn:E2, (f KInvalid) eqn:E3, (f KTwist) eqn:E4, (f KSupersingular) eqn:E5, (f KFamily) eqn:E6, k;
      try discriminate H; (split; [assumption|]); intros [] Hne; congruence. }
    destruct Hb as [Hb1 Hb2]. split; [apply has_kind_iff; assumption|]. intros k' Hk'.
    destruct (kind_eqb k' k) eqn:E; [apply kind_eqb_iff; assumption|].
    apply has_kind_iff in Hk'. rewrite Hb2 in Hk'; [discriminate|]. intros ->. rewrite (proj2 (kind_eqb_iff k k) eq_refl) in E. discriminate.
  - intros [Hk Hu]. assert (Hb : forall k', has_kind os k' = kind_eqb k' k).
    { intros k'. destruct (has_kind os k') eqn:E.
      - symmetry. apply kind_eqb_iff. apply Hu. apply has_kind_iff. assumption.
      - symmetry. destruct (kind_eqb k' k) eqn:E2; [|reflexivity]. apply kind_eqb_iff in E2. subst k'. apply has_kind_iff in Hk. congruence. }
    rewrite !Hb. destruct k; reflexivity.
Qed.
Lemma mask_one os : In (mask os) methods <-> forall k k', chosen os k -> chosen os k' -> k = k'.
Proof.
  split.
  - intros H k k' Hk Hk'.
    assert (Hm : mask os = 0 \/ exists k, mask os = kbit k).
    { destruct H as [H|[H|[H|[H|[H|[H|[H|[H|[]]]]]]]]]; [left; symmetry; exact H|right..];
      [exists KCm|exists KAnomalous|exists KSeed|exists KInvalid|exists KTwist|exists KSupersingular|exists KFamily]; symmetry; exact H. }
    destruct Hm as [Hm|[j Hm]].
    + exfalso. apply (proj1 (mask_none os) Hm k Hk).
    + apply mask_kind in Hm. destruct Hm as [_ Hm]. rewrite (Hm k Hk), (Hm k' Hk'). reflexivity.
  - intros H.
    assert (Hd : (exists k, chosen os k) \/ forall k, ~ chosen os k).
    { destruct (existsb (has_kind os) [KCm; KAnomalous; KSeed; KInvalid; KTwist; KSupersingular; KFamily]) eqn:E.
      - left. apply existsb_exists in E. destruct E as (k & _ & Hk). exists k. apply has_kind_iff. assumption.
      - right. intros k Hk. apply has_kind_iff in Hk.
        assert (Ht : existsb (has_kind os) [KCm; KAnomalous; KSeed; KInvalid; KTwist; KSupersingular; KFamily] = true).
        { apply existsb_exists. exists k. split; [destruct k; simpl; tauto|assumption]. }
        congruence. }
    destruct Hd as [[k Hk]|Hn].
    + assert (Hm : mask os = kbit k) by (apply mask_kind; split; auto). rewrite Hm. destruct k; simpl; tauto.
    + apply mask_none in Hn. rewrite Hn. left. reflexivity.
Qed.

Definition fmask (os : list copt) : Z := fold_right (fun o m => Z.lor (fbit o) m) 0 os.
Lemma fmask_enc os : exists b0 b1, fmask os = Z.b2z b0 + 2 * Z.b2z b1 /\ (b0 = true <-> In OFp os) /\ (b1 = true <-> In OF2m os).
Proof.
  induction os as [|o os (b0 & b1 & E & H0 & H1)].
  - exists false, false. repeat split; try discriminate; intros [].
  - change (fmask (o :: os)) with (Z.lor (fbit o) (fmask os)). rewrite E. cbn [In].
    destruct o; try (exists b0, b1; split; [destruct b0, b1; reflexivity|]; rewrite H0, H1;
      (split; (split; [tauto|]); (intros [Ho|Ho]; [discriminate|assumption]))).
    + exists true, b1. split; [destruct b0, b1; reflexivity|]. split; [tauto|]. rewrite H1. split; [tauto|]. intros [Ho|Ho]; [discriminate|assumption].
    + exists b0, true. split; [destruct b0, b1; reflexivity|]. split; [|tauto]. rewrite H0. split; [tauto|]. intros [Ho|Ho]; [discriminate|assumption].
Qed.

Lemma is_order_iff n os : existsb (is_order n) os = true <-> exists o, In o os /\ order_choice o = Some n.
Proof.
  rewrite existsb_exists. unfold is_order. split.
  - intros (o & Ho & H). exists o. split; [assumption|]. destruct (order_choice o); [|discriminate]. apply Nat.eqb_eq in H. congruence.
  - intros (o & Ho & H). exists o. split; [assumption|]. rewrite H. apply Nat.eqb_refl.
Qed.

Lemma one_order_iff os :
  Z.b2z (existsb (is_order 0) os) + Z.b2z (existsb (is_order 1) os) + Z.b2z (existsb (is_order 2) os) <= 1 <->
  (forall o o' n n', In o os -> In o' os -> order_choice o = Some n -> order_choice o' = Some n' -> n = n').
Proof.
  split.
  - intros H o o' n n' Ho Ho' Hn Hn'.
    assert (Hb : forall x m, order_choice x = Some m -> (m = 0 \/ m = 1 \/ m = 2)%nat) by (intros [] m Hm; simpl in Hm; try discriminate; injection Hm as <-; auto).
    assert (E : existsb (is_order n) os = true) by (apply is_order_iff; eauto).
    assert (E' : existsb (is_order n') os = true) by (apply is_order_iff; eauto).
    destruct (Hb _ _ Hn) as [->|[->| ->]]; destruct (Hb _ _ Hn') as [->|[->| ->]]; try reflexivity; rewrite E, E' in H;
    repeat match type of H with context [existsb ?f ?l] => destruct (existsb f l) end; simpl in H; lia.
  - intros H.
    destruct (existsb (is_order 0) os) eqn:E0; destruct (existsb (is_order 1) os) eqn:E1; destruct (existsb (is_order 2) os) eqn:E2; simpl; try lia; exfalso;
    repeat match goal with E : existsb _ _ = true |- _ => apply is_order_iff in E; destruct E as (? & ? & ?) end;
    match goal with H1 : order_choice ?x = Some ?a, H2 : order_choice ?y = Some ?b |- _ =>
      assert (a <> b) by discriminate; assert (a = b) by (eapply H; [| | exact H1 | exact H2]; assumption); contradiction end.
Qed.

Lemma bits_arg_iff a s : cli_arg a s <> None <-> bits_arg a.
Proof.
  unfold cli_arg, bits_arg, strtoul. destruct (scan a) as [[[neg v] r]|] eqn:E.
  - destruct (scan_some _ _ _ _ E) as (ds & Hd & _). destruct r as [|c r].
    + split; [intros _; right; eauto|discriminate].
    + split; [congruence|]. intros [->|(n & d & Hn)]; [discriminate|]. apply scan_numeral in Hn. congruence.
  - destruct a as [|c a].
    + split; [tauto|discriminate].
    + split; [congruence|]. intros [H|(n & d & Hn)]; [discriminate|]. apply scan_numeral in Hn. congruence.
Qed.

Lemma end_ok_iff os c : eff os cfg0 c ->
  (cli_end_ok c = true <->
   (In OFp os /\ ~ In OF2m os \/ In OF2m os /\ ~ In OFp os) /\
   (forall k k', chosen os k -> chosen os k' -> k = k') /\
   (forall o o' n n', In o os -> In o' os -> order_choice o = Some n -> order_choice o' = Some n' -> n = n') /\
   (In OF2m os -> forall k, chosen os k -> k = KTwist \/ k = KInvalid \/ (k = KSeed /\ last_algo os AAnsi)) /\
   (forall o, In o os -> asks_random o -> ~ last_algo os ANums) /\
   (chosen os KAnomalous -> exists o, In o os /\ asks_random o)).
Proof.
  intros [Ef Em Ep Es Ek Ea Er]. cbn [c_field c_method c_prime c_smooth c_cofactor c_seed_algo c_random cfg0 orb] in *.
  rewrite Z.lor_0_l in Ef, Em. fold (mask os) in Em. fold (fmask os) in Ef.
  destruct (fmask_enc os) as (b0 & b1 & Efm & Hb0 & Hb1). rewrite Efm in Ef.
  assert (Hfield : negb ((c_field c =? 0) || (c_field c =? Z.lor FIELD_PRIME FIELD_BINARY)) = true <->
     (In OFp os /\ ~ In OF2m os \/ In OF2m os /\ ~ In OFp os)).
  { rewrite Ef, <- Hb0, <- Hb1. destruct b0, b1; simpl; split; intros; try reflexivity; try discriminate; intuition discriminate. }
  assert (Hbin : (In OFp os /\ ~ In OF2m os \/ In OF2m os /\ ~ In OFp os) -> (c_field c =? FIELD_BINARY) = true <-> In OF2m os).
  { rewrite Ef, <- Hb0, <- Hb1. destruct b0, b1; simpl; intuition discriminate. }
  assert (Hmeth : (c_method c =? METHOD_DEFAULT) || (c_method c =? METHOD_CM) || (c_method c =? METHOD_ANOMALOUS) || (c_method c =? METHOD_SEED) ||
     (c_method c =? METHOD_INVALID) || (c_method c =? METHOD_TWIST) || (c_method c =? METHOD_SUPERSINGULAR) || (c_method c =? METHOD_FAMILY) = true <->
     (forall k k', chosen os k -> chosen os k' -> k = k')).
  { rewrite <- mask_one, <- Em. unfold methods. rewrite !orb_true_iff, !Z.eqb_eq. simpl In.
    split; intros H; intuition congruence. }
  assert (Hord : negb (1 <? Z.b2z (c_prime c) + Z.b2z (c_smooth c) + Z.b2z (c_cofactor c)) = true <->
     (forall o o' n n', In o os -> In o' os -> order_choice o = Some n -> order_choice o' = Some n' -> n = n')).
  { rewrite <- one_order_iff, Ep, Es, Ek, negb_true_iff, Z.ltb_ge. reflexivity. }
  assert (Hkind : (forall k k', chosen os k -> chosen os k' -> k = k') -> forall k, (c_method c =? kbit k) = true <-> chosen os k).
  { intros U k. rewrite Z.eqb_eq, Em, mask_kind. split; [tauto|]. intros Hk. split; [assumption|]. intros k' Hk'. apply U; assumption. }
  assert (Hrand : (c_random c =? 0) = true <-> forall o, In o os -> ~ asks_random o).
  { rewrite Z.eqb_eq, Er. tauto. }
  assert (Hlast1 : forall a a', last_algo os a -> last_algo os a' -> a = a').
  { clear. intros a a' (xs & o & ys & -> & Ho & Hys) (xs' & o' & ys' & E & Ho' & Hys').
    assert (Hin : In o' (xs ++ o :: ys)) by (rewrite E; apply in_or_app; right; left; reflexivity).
    revert xs' E. induction xs as [|x xs IH]; intros xs' E.
    - destruct xs' as [|x' xs']; simpl in E; injection E as E1 E2; [congruence|].
      exfalso. subst ys. assert (algo_of o' = None) by (apply Hys; apply in_or_app; right; left; reflexivity). congruence.
    - destruct xs' as [|x' xs']; simpl in E; injection E as E1 E2.
      + exfalso. subst ys'. assert (algo_of o = None) by (apply Hys'; apply in_or_app; right; left; reflexivity). congruence.
      + eapply IH; [|exact E2]. rewrite E2. apply in_or_app; right; left; reflexivity. }
  assert (Hseed : chosen os KSeed -> exists a, last_algo os a /\ c_seed_algo c = algo_num a).
  { destruct Ea as [Ea|[Hn _]]; [auto|]. intros (o & Ho & Hk). exfalso. specialize (Hn o Ho). destruct o; discriminate. }
  assert (Hlc : forall a, last_algo os a -> chosen os KSeed /\ c_seed_algo c = algo_num a).
  { intros a Ha. assert (Hc : chosen os KSeed).
    { destruct Ha as (xs & o & ys & -> & Ho & _). exists o. split; [apply in_or_app; right; left; reflexivity|]. destruct o; try discriminate; reflexivity. }
    split; [assumption|]. destruct (Hseed Hc) as (a' & Ha' & E). rewrite E, (Hlast1 _ _ Ha Ha'). reflexivity. }
  unfold cli_end_ok. rewrite !andb_true_iff, Hfield, Hord, Hmeth. clear Hfield Hord Hmeth.
  split.
  - intros ((((((((((HF & HO) & HM) & H1) & H2) & H3) & H4) & H5) & H6) & H7) & H8).
    specialize (Hbin HF). specialize (Hkind HM).
    split; [exact HF|]. split; [exact HM|]. split; [exact HO|].
    split; [|split].
    + intros Hf2 k Hk. apply Hbin in Hf2. rewrite Hf2, ?andb_true_r in *.
      destruct k; try tauto; pose proof (proj2 (Hkind _) Hk) as Hm; cbn [kbit] in Hm; rewrite Hm in *; try discriminate.
      right; right. split; [reflexivity|]. destruct (Hseed Hk) as (a & Ha & E). rewrite E in *. destruct a; try discriminate; assumption.
    + intros o Ho Hask Hl. destruct (Hlc _ Hl) as [Hk E]. pose proof (proj2 (Hkind _) Hk) as Hm; cbn [kbit] in Hm. rewrite Hm, E in H7.
      destruct (c_random c =? 0) eqn:Ez; [|discriminate]. apply (proj1 Hrand eq_refl o Ho Hask).
    + intros Hk. pose proof (proj2 (Hkind _) Hk) as Hm; cbn [kbit] in Hm. rewrite Hm in H8.
      destruct (c_random c =? 0) eqn:Ez; [discriminate|].
      assert (Hnz : c_random c <> 0) by (intros E0; rewrite E0 in Ez; discriminate).
      destruct (Exists_dec asks_random os) as [E|E].
      * intros o. destruct o; try (right; intros []); try (simpl; tauto). destruct arg as [a|]; [|left; exact I].
        simpl. destruct (list_eq_dec (list_eq_dec ascii_dec) (tokens a) []) as [Et|Et]; [right|left]; rewrite <- tokens_asks; tauto.
      * apply Exists_exists in E. exact E.
      * exfalso. assert (Hq : false = true); [|discriminate]. apply Hrand. intros o Ho Hask. apply E. apply Exists_exists. eauto.
  - intros (HF & HM & HO & HP & HN & HA).
    specialize (Hbin HF). specialize (Hkind HM).
    assert (Hkf : forall k, ~ chosen os k -> (c_method c =? kbit k) = false).
    { intros k Hk. destruct (c_method c =? kbit k) eqn:E; [|reflexivity]. exfalso. apply Hk. apply Hkind. assumption. }
    assert (Hk2 : forall k, (c_method c =? kbit k) = true -> (c_field c =? FIELD_BINARY) = true -> k = KTwist \/ k = KInvalid \/ (k = KSeed /\ last_algo os AAnsi)).
    { intros k E1 E2. apply HP; [apply Hbin; assumption|apply Hkind; assumption]. }
    assert (Hno : forall k, k <> KTwist -> k <> KInvalid -> k <> KSeed -> negb ((c_method c =? kbit k) && (c_field c =? FIELD_BINARY)) = true).
    { intros k N1 N2 N3. destruct (c_method c =? kbit k) eqn:E1; [|reflexivity]. destruct (c_field c =? FIELD_BINARY) eqn:E2; [|reflexivity].
      exfalso. destruct (Hk2 k E1 eq_refl) as [?|[?|[? _]]]; contradiction. }
    assert (Hal : (c_method c =? METHOD_SEED) = true -> exists a, last_algo os a /\ c_seed_algo c = algo_num a).
    { intros E. apply Hseed. apply (Hkind KSeed). exact E. }
    assert (Hal2 : (c_method c =? METHOD_SEED) = true -> (c_field c =? FIELD_BINARY) = true -> c_seed_algo c = SEED_ANSI).
    { intros E1 E2. destruct (Hk2 KSeed E1 E2) as [?|[?|[_ Hl]]]; try discriminate. apply (Hlc _ Hl). }
    repeat split; try assumption.
    + destruct (c_method c =? METHOD_SEED) eqn:E1; [|reflexivity]. destruct (c_field c =? FIELD_BINARY) eqn:E2; [|rewrite andb_false_r; reflexivity].
      rewrite (Hal2 eq_refl eq_refl). reflexivity.
    + destruct (c_method c =? METHOD_SEED) eqn:E1; [|reflexivity]. destruct (c_field c =? FIELD_BINARY) eqn:E2; [|rewrite andb_false_r; reflexivity].
      rewrite (Hal2 eq_refl eq_refl). reflexivity.
    + apply (Hno KCm); discriminate.
    + apply (Hno KAnomalous); discriminate.
    + apply (Hno KFamily); discriminate.
    + apply (Hno KSupersingular); discriminate.
    + destruct (c_method c =? METHOD_SEED) eqn:E1; [|reflexivity]. destruct (Hal eq_refl) as (a & Ha & E). rewrite E.
      destruct a; try reflexivity. cbn [algo_num andb]. 
      assert (Ez : (c_random c =? 0) = true) by (apply Hrand; intros o Ho Hask; exact (HN o Ho Hask Ha)). rewrite Ez. reflexivity.
    + destruct (c_method c =? METHOD_ANOMALOUS) eqn:E1; [|reflexivity]. destruct (HA (proj1 (Hkind KAnomalous) E1)) as (o & Ho & Hask).
      destruct (c_random c =? 0) eqn:Ez; [|reflexivity]. exfalso. exact (proj1 Hrand eq_refl o Ho Hask).
Qed.

Theorem cli_iff np os args : cli np os args <> None <-> consistent os args.
Proof.
  unfold cli. split.
  - destruct args as [|a [|b args]]; try congruence.
    destruct (options np os (cfg0, [])) as [s|] eqn:Eo; [|congruence].
    destruct (cli_arg a s) as [s1|] eqn:Ea; [|congruence].
    destruct (cli_end_ok (fst s1)) eqn:Ee; [|congruence]. intros _.
    pose proof (options_eff _ _ _ _ Eo) as He. cbn [fst] in He.
    assert (Hs1 : cli_end_ok (fst s) = true).
    { rewrite <- Ee. unfold cli_arg in Ea. destruct (strtoul a) as [z [|]]; [|discriminate]. injection Ea as <-. reflexivity. }
    apply (end_ok_iff _ _ He) in Hs1. destruct Hs1 as (HF & HM & HO & HP & HN & HA).
    constructor; try assumption.
    + exists a. split; [reflexivity|]. apply (bits_arg_iff a s). congruence.
    + apply (options_ok np os (cfg0, [])). congruence.
  - intros [(a & -> & Ha) H1 H2 H3 H4 H5 H6 H7].
    destruct (options np os (cfg0, [])) as [s|] eqn:Eo; [|exfalso; apply (proj2 (options_ok np os (cfg0, [])) H1); assumption].
    destruct (cli_arg a s) as [s1|] eqn:Ea; [|exfalso; apply (proj2 (bits_arg_iff a s) Ha); assumption].
    pose proof (options_eff _ _ _ _ Eo) as He. cbn [fst] in He.
    assert (Hs1 : cli_end_ok (fst s1) = cli_end_ok (fst s)).
    { unfold cli_arg in Ea. destruct (strtoul a) as [z [|]]; [|discriminate]. injection Ea as <-. reflexivity. }
    rewrite Hs1, (proj2 (end_ok_iff _ _ He)); [discriminate|]. tauto.
Qed.
