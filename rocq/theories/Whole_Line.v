(** C75 to C85 and C88 from the command line: which options lead to the runs of Whole_Props, Whole_Default, Whole_Cm, Whole_Ansi,
    Whole_Binary, Whole_Brainpool, Whole_Nums, Whole_Anomalous, Whole_Family, Whole_AnsiBinary, Whole_BinaryTyped
    and Whole_Order. *)
From Coq Require Import Ascii String Znumtheory.
From Verif Require Import Base Poly_Model Cli_Model Json_Spec CurveText_Spec Whole_Model Whole_Spec Whole_Stages Whole_Proofs Whole_Default Whole_Cm Whole_Ansi Whole_AnsiEx Whole_Props Whole_Example Whole_Binary Whole_BinaryEx Whole_Brainpool Whole_BrainpoolEx Whole_Nums Whole_NumsEx Whole_Anomalous Whole_AnomalousEx Whole_FamilySpec Whole_Family Whole_FamilyEx Whole_AnsiBinary Whole_AnsiBinaryEx Whole_BinaryTyped Whole_BinaryTypedEx Whole_OrderSpec Whole_Order Whole_OrderEx Shell_Fields.
From Verif Require Irr_Props Brainpool_Model Points_Model Koblitz_Model CurveText_Props Plan_Model Shell_Model Shell_Spec Shell_Props Hex_Props Input_Props.
Local Open Scope Z_scope.
Local Open Scope list_scope.

(** the options that leave the method, the seed and the Koblitz coefficient alone *)
Definition plain (o : copt) : Prop :=
  match o with
  | OFp | OF2m | OCount _ | ORandom _ | OPrime | OSmooth _ | OCofactor _ | OUnique | OHexcheck _ | OMetadata | OPoints _
  | OMemory _ | OTstack _ | OTimeout _ | OThreads _ | OOther => True
  | _ => False
  end.

Definition allowed (o : copt) : Prop := match o with OKoblitz _ => True | _ => plain o end.
(** the degrees of which C42 shows that the polynomial is irreducible *)
Definition listed (m : Z) : Prop := 2 <= m <= 200 \/ m = 233 \/ m = 239 \/ m = 277 \/ m = 283 \/ m = 311 \/ m = 331 \/ m = 347 \/ m = 349 \/ m = 359 \/ m = 409 \/ m = 571.
(** and those of which a method is known *)
Definition known (o : copt) : Prop := match o with OSupersingular | OAnsi _ | OBrainpool _ | OBrainpoolRfc _ | ONums | OAnomalous | OFamily _ | OOrder _ => True | _ => allowed o end.

Record held (c : config) : Prop := {
  h_field : 0 <= c_field c <= 3; h_value : c_koblitz_value c = 0 \/ c_koblitz_value c = 1;
  h_type : 0 <= c_points_type c <= 4; h_amount : 0 <= c_points_amount c < 2 ^ 64;
  h_cofactor : - 2 ^ 63 <= c_cofactor_value c < 2 ^ 63; h_smooth : c_smooth_value c < 2 ^ 63; h_count : c_count c < 2 ^ 63
}.
(** --fp and --f2m leave their mark in the field *)
Definition field_kept (o : copt) (c c' : config) : Prop :=
  (Z.testbit (c_field c) 0 = true \/ o = OFp -> Z.testbit (c_field c') 0 = true) /\ (Z.testbit (c_field c) 1 = true \/ o = OF2m -> Z.testbit (c_field c') 1 = true).
Lemma kept_same o c c' : c_field c' = c_field c -> o <> OFp -> o <> OF2m -> field_kept o c c'.
Proof. intros E A B. unfold field_kept. rewrite E. split; intros [X|X]; (exact X || contradiction). Qed.
Lemma field_or x y : 0 <= x <= 3 -> 0 <= y <= 3 -> 0 <= Z.lor x y <= 3.
Proof.
  intros X Y. assert (C : x = 0 \/ x = 1 \/ x = 2 \/ x = 3) by lia. assert (D : y = 0 \/ y = 1 \/ y = 2 \/ y = 3) by lia.
  destruct C as [->|[->|[->| ->]]], D as [->|[->|[->| ->]]]; cbn; lia.
Qed.
Ltac same := first [apply kept_same; [reflexivity|discriminate|discriminate] | let X := fresh in intros [X|X]; [exact X|discriminate X]].
Ltac seeded c s' H arg := unfold seed_option, add_method in H; cbn [SET upd_cfg fst snd] in H;
  let E := fresh in let u := fresh in
  match type of H with context [set_seed_algo ?al] =>
    assert (E : exists u, fst s' = Cli_Model.set_seed u (set_seed_algo al (set_method (Z.lor (c_method c) METHOD_SEED) c)) \/ fst s' = set_seed_algo al (set_method (Z.lor (c_method c) METHOD_SEED) c)) end;
  [destruct arg as [?|]; [match type of H with (if ?b then _ else _) = _ => destruct b; [|discriminate H] end|]; injection H as <-; [eexists; left; reflexivity|exists None; right; reflexivity]|];
  destruct E as (u & [-> | ->]); (split; [constructor; cbn; assumption|]; split; same).
Definition every_random (c : config) : Prop := Z.testbit (c_random c) 1 = true /\ Z.testbit (c_random c) 2 = true /\ Z.testbit (c_random c) 3 = true.

Lemma digits_nonneg s : forall acc v r, 0 <= acc -> take_digits acc s = (v, r) -> 0 <= v.
Proof.
  induction s as [|c s IH]; intros acc v r A H; cbn [take_digits] in H; [now injection H as <- <-|].
  destruct (isdigit c) eqn:D; [|now injection H as <- <-]. eapply IH; [|exact H]. unfold isdigit in D. rewrite andb_true_iff in D. destruct D as (D & _). apply Nat.leb_le in D. lia.
Qed.
Lemma scan_nonneg s neg v r : scan s = Some (neg, v, r) -> 0 <= v.
Proof.
  unfold scan. destruct (take_sign (skip_space s)) as (n & t). destruct t as [|c t]; [discriminate|]. destruct (isdigit c); [|discriminate].
  destruct (take_digits 0 (c :: t)) as (v' & r') eqn:D. intros [= <- <- <-]. eapply digits_nonneg; [|exact D]. lia.
Qed.
Lemma strtol_range s : - 2 ^ 63 <= fst (strtol s) < 2 ^ 63.
Proof.
  unfold strtol. destruct (scan s) as [[[neg v] r]|] eqn:E; [|cbn; lia]. apply scan_nonneg in E. unfold LONG_MAX, LONG_MIN. cbn [fst]. destruct neg; lia.
Qed.
Lemma i64_range z : - 2 ^ 63 <= i64 z < 2 ^ 63.
Proof. unfold i64. pose proof (Z.mod_pos_bound (z + 2 ^ 63) (2 ^ 64) ltac:(lia)). lia. Qed.

Lemma tokens_grow ts : forall r r', fold_left random_token ts (Some r) = Some r' -> forall i, Z.testbit r i = true -> Z.testbit r' i = true.
Proof.
  induction ts as [|t ts IH]; intros r r' H i B; [now injection H as <-|]. cbn [fold_left] in H.
  assert (N : fold_left random_token ts None = None) by (clear; induction ts; auto).
  unfold random_token at 2 in H.
  repeat match type of H with context [if ?b then _ else _] => destruct b end; try (rewrite N in H; discriminate H);
    (eapply IH; [exact H|]; rewrite Z.lor_spec, B; reflexivity).
Qed.

Lemma koblitz_step np o s s' : plain o -> cli_parse np o s = Some s' -> c_koblitz (fst s') = c_koblitz (fst s).
Proof.
  intros Pl H. destruct s as (c & l). destruct o; try contradiction Pl; cbn [cli_parse SET upd_cfg fst snd] in H.
  all: repeat match type of H with
  | (let (_, _) := ?x in _) = _ => destruct x
  | match ?x with _ => _ end = _ => destruct x; try discriminate H
  | (if ?x then _ else _) = _ => destruct x; try discriminate H
  end; try (injection H as <-; reflexivity).
  all: cbv zeta in H; repeat match type of H with (if ?x then _ else _) = _ => destruct x; try discriminate H end; injection H as <-; try destruct (0 <? np); reflexivity.
Qed.
Lemma held_step np o s s' : known o -> cli_parse np o s = Some s' -> held (fst s) ->
  held (fst s') /\ field_kept o (fst s) (fst s') /\
  (every_random (fst s) \/ o = ORandom None -> every_random (fst s')).
Proof.
  intros Pl H I. destruct s as (c & l). cbn [fst] in *. pose proof I as [Hf Hk Ht Hn Hc Hs Hco].
  destruct o; try contradiction Pl; cbn [cli_parse SET upd_cfg fst snd] in H.
  all: try (injection H as <-; cbn [fst]; split; [|split; same]; constructor; cbn; try assumption; try apply i64_range; try apply strtol_range; fail).
  - injection H as <-. cbn [fst]. split; [constructor; cbn; try assumption; apply field_or; [assumption|split; discriminate]|split; [|same]].
    change (field_kept OFp c (Cli_Model.set_field (Z.lor (c_field c) FIELD_PRIME) c)). unfold field_kept. change (c_field (Cli_Model.set_field (Z.lor (c_field c) FIELD_PRIME) c)) with (Z.lor (c_field c) FIELD_PRIME).
    split; intros X; rewrite Z.lor_spec; [apply orb_true_r|]. destruct X as [->|X]; [reflexivity|discriminate X].
  - injection H as <-. cbn [fst]. split; [constructor; cbn; try assumption; apply field_or; [assumption|split; discriminate]|split; [|same]].
    change (field_kept OF2m c (Cli_Model.set_field (Z.lor (c_field c) FIELD_BINARY) c)). unfold field_kept. change (c_field (Cli_Model.set_field (Z.lor (c_field c) FIELD_BINARY) c)) with (Z.lor (c_field c) FIELD_BINARY).
    split; intros X; rewrite Z.lor_spec; [|apply orb_true_r]. destruct X as [->|X]; [reflexivity|discriminate X].
  - (* --order *) unfold add_method in H. cbn [SET upd_cfg fst snd] in H. destruct (regexec arg); [|discriminate H]. injection H as <-. cbn [fst].
    split; [constructor; cbn; assumption|]. split; same.
  - (* --family *) unfold add_method in H. cbn [SET upd_cfg fst snd] in H. destruct (family_of arg) as [v|]; [|discriminate H]. injection H as <-. cbn [fst].
    split; [constructor; cbn; assumption|]. split; same.
  - (* --ansi *) seeded c s' H arg.
  - (* --brainpool *) seeded c s' H arg.
  - (* --brainpool-rfc *) seeded c s' H arg.
  - destruct arg as [a|].
    + destruct (fold_left random_token (tokens a) (Some (c_random c))) as [r|] eqn:R; [|discriminate H]. injection H as <-. cbn [fst].
      split; [constructor; cbn; assumption|]. split; [same|]. intros [(A & B & C)|X]; [|discriminate X].
      pose proof (tokens_grow _ _ _ R) as G. split; [exact (G 1 A)|split; [exact (G 2 B)|exact (G 3 C)]].
    + injection H as <-. cbn [fst]. split; [constructor; cbn; assumption|]. split; [same|]. intros _. repeat split.
  - (* --koblitz *) destruct arg as [a|].
    + cbv zeta in H. destruct ((fst (strtol a) =? 0) || (fst (strtol a) =? 1))%bool eqn:E; [|discriminate H]. injection H as <-. cbn [fst].
      split; [constructor; cbn; try assumption|split; same]. apply orb_true_iff in E. rewrite !Z.eqb_eq in E. exact E.
    + injection H as <-. cbn [fst]. split; [constructor; cbn; assumption|]. split; same.
  - destruct (hexcheck_of arg) as [t|]; [|discriminate H]. injection H as <-. cbn [fst].
    split; [constructor; cbn; assumption|]. split; same.
  - destruct (strtol arg) as (amount & e). destruct (Cli_Model.points_of e) as [ty|] eqn:T; [|discriminate H]. injection H as <-. cbn [fst].
    split; [constructor; cbn; try assumption|split; same].
    + unfold Cli_Model.points_of in T. unfold POINTS_RANDOM, POINTS_PRIME, POINTS_ALL, POINTS_NONPRIME, POINTS_NONE in T.
      repeat match type of T with context [if ?b then _ else _] => destruct b end; try discriminate T; injection T as <-; lia.
    + unfold u64. apply Z.mod_pos_bound. lia.
  - destruct (cli_parse_memory arg) as [v|]; [|discriminate H]. injection H as <-. cbn [fst]. split; [constructor; cbn; assumption|]. split; same.
  - destruct (cli_parse_memory arg) as [v|]; [|discriminate H]. injection H as <-. cbn [fst]. split; [constructor; cbn; assumption|]. split; same.
  - destruct (cli_parse_time arg) as [v|]; [|discriminate H]. injection H as <-. cbn [fst]. split; [constructor; cbn; assumption|]. split; same.
  - assert (E : exists v, c = fst s' \/ fst s' = set_threads v c).
    { destruct (str_eqb arg (lit "auto") || str_eqb arg (lit "AUTO"))%bool; [|cbv zeta in H; destruct (fst (strtoul arg) =? 0); [discriminate H|]].
      - injection H as <-. destruct (0 <? np); [eexists; right; reflexivity|exists 0; left; reflexivity].
      - injection H as <-. eexists. right. reflexivity. }
    destruct E as (v & [<- | ->]).
    + split; [exact I|]. split; same.
    + split; [constructor; cbn; assumption|]. split; same.
Qed.
Lemma koblitz_options np os : forall s s', Forall plain os -> options np os s = Some s' -> c_koblitz (fst s') = c_koblitz (fst s).
Proof.
  induction os as [|o os IH]; intros s s' Pl H; cbn [options] in H; [now injection H as <-|].
  inversion Pl as [|? ? P1 P2]; subst. destruct (cli_parse np o s) as [s1|] eqn:E; [|discriminate H]. rewrite (IH s1 s' P2 H). exact (koblitz_step np o s s1 P1 E).
Qed.
Lemma held_options np os : forall s s', Forall known os -> options np os s = Some s' -> held (fst s) ->
  held (fst s') /\ ((Z.testbit (c_field (fst s)) 0 = true \/ In OFp os -> Z.testbit (c_field (fst s')) 0 = true) /\
    (Z.testbit (c_field (fst s)) 1 = true \/ In OF2m os -> Z.testbit (c_field (fst s')) 1 = true)) /\
  (every_random (fst s) \/ In (ORandom None) os -> every_random (fst s')).
Proof.
  induction os as [|o os IH]; intros s s' Pl H I; cbn [options] in H.
  - injection H as <-. split; [exact I|]. split; [split|]; intros [X|[]]; exact X.
  - inversion Pl as [|? ? P1 P2]; subst. destruct (cli_parse np o s) as [s1|] eqn:E; [|discriminate H].
    destruct (held_step np o s s1 P1 E I) as (A & (B1 & B2) & C). destruct (IH s1 s' P2 H A) as (D & (F1 & F2) & G). split; [exact D|]. cbn [In]. split; [split|]; intros [X|[X|X]]; auto.
Qed.
(** the method and the seed *)
Definition method_of (c : config) : Z * Z * option str := (c_method c, c_seed_algo c, Cli_Model.c_seed c).
Lemma method_step np o s s' : allowed o -> cli_parse np o s = Some s' -> method_of (fst s') = method_of (fst s).
Proof.
  intros Pl H. destruct s as (c & l). destruct o; try contradiction Pl; cbn [cli_parse SET upd_cfg fst snd] in H.
  all: repeat match type of H with
  | (let (_, _) := ?x in _) = _ => destruct x
  | match ?x with _ => _ end = _ => destruct x; try discriminate H
  | (if ?x then _ else _) = _ => destruct x; try discriminate H
  end; try (injection H as <-; reflexivity).
  all: cbv zeta in H; repeat match type of H with (if ?x then _ else _) = _ => destruct x; try discriminate H end; injection H as <-; try destruct (0 <? np); reflexivity.
Qed.
Lemma method_options np os : forall s s', Forall allowed os -> options np os s = Some s' -> method_of (fst s') = method_of (fst s).
Proof.
  induction os as [|o os IH]; intros s s' Pl H; cbn [options] in H; [now injection H as <-|].
  inversion Pl as [|? ? P1 P2]; subst. destruct (cli_parse np o s) as [s1|] eqn:E; [|discriminate H]. rewrite (IH s1 s' P2 H). exact (method_step np o s s1 P1 E).
Qed.
Lemma supersingular_options np os : forall s s', Forall (fun o => o = OSupersingular \/ allowed o) os -> options np os s = Some s' ->
  (c_method (fst s) = METHOD_DEFAULT \/ c_method (fst s) = METHOD_SUPERSINGULAR) -> c_seed_algo (fst s') = c_seed_algo (fst s) /\
  (c_method (fst s) = METHOD_SUPERSINGULAR \/ In OSupersingular os -> c_method (fst s') = METHOD_SUPERSINGULAR).
Proof.
  induction os as [|o os IH]; intros s s' Pl H M; cbn [options] in H.
  - injection H as <-. split; [reflexivity|]. intros [X|[]]. exact X.
  - inversion Pl as [|? ? P1 P2]; subst. destruct (cli_parse np o s) as [s1|] eqn:E; [|discriminate H]. destruct P1 as [-> |P1].
    + destruct s as (c & l). cbn [cli_parse] in E. unfold add_method in E. cbn [SET upd_cfg fst snd] in E. injection E as <-. cbn [fst] in *.
      assert (X : Z.lor (c_method c) METHOD_SUPERSINGULAR = METHOD_SUPERSINGULAR) by (destruct M as [-> | ->]; reflexivity).
      destruct (IH _ s' P2 H) as (A & B); [right; exact X|]. split; [exact A|]. intros _. apply B. left. exact X.
    + pose proof (method_step np o s s1 P1 E) as Q. unfold method_of in Q. injection Q as Q1 Q2 Q3.
      destruct (IH _ s' P2 H) as (A & B); [rewrite Q1; exact M|]. split; [congruence|]. intros [X|[X|X]]; apply B; [left; congruence|subst o; contradiction P1|right; exact X].
Qed.
Lemma random_bit r k : Z.testbit r k = true -> 0 <= k -> negb (Z.land r (2 ^ k) =? 0) = true.
Proof.
  intros B K. apply negb_true_iff, Z.eqb_neq. intros E. assert (X : Z.testbit (Z.land r (2 ^ k)) k = false) by (rewrite E; apply Z.bits_0).
  rewrite Z.land_spec, B, Z.pow2_bits_true in X by exact K. discriminate X.
Qed.

(** any of the options that are [known]; [R]: what is known of the values *)
Record line_facts (R : Prop) (os : list copt) (c cfg : config) : Prop := {
  lf_field : (In OFp os -> c_field cfg = FIELD_PRIME) /\ (In OF2m os -> c_field cfg = FIELD_BINARY); lf_method : c_method cfg = c_method c; lf_algo : c_seed_algo cfg = c_seed_algo c; lf_seed : Cli_Model.c_seed cfg = Cli_Model.c_seed c;
  lf_value : c_koblitz_value cfg = 0 \/ c_koblitz_value cfg = 1; lf_range : R; lf_count : c_count cfg < 2 ^ 63;
  lf_koblitz : c_koblitz cfg = c_koblitz c; lf_random : c_random cfg = c_random c; lf_end : cli_end_ok cfg = true
}.
Lemma line_any np os arg cfg set : cli np os [arg] = Some (cfg, set) -> Forall known os ->
  c_bits cfg < 2 ^ 61 -> 0 <= c_smooth_value cfg -> exists s, options np os (cfg0, []) = Some s /\
  line_facts ((3 <= c_bits cfg -> in_range cfg) /\ 0 <= c_points_type cfg <= 4 /\ 0 <= c_points_amount cfg < 2 ^ 64 /\ c_smooth_value cfg < 2 ^ 63) os (fst s) cfg.
Proof.
  intros H Pl B S0. unfold cli in H. destruct (options np os (cfg0, [])) as [s|] eqn:O; [|discriminate H].
  destruct (held_options np os _ _ Pl O ltac:(constructor; cbn; auto; lia)) as ([Hf Hk Ht Hn Hc Hs Hco] & F1 & _).
  destruct s as (c & l). exists (c, l). split; [reflexivity|]. cbn [fst] in *.
  unfold cli_arg in H. destruct (strtoul arg) as (b & rest). destruct rest; [|discriminate H]. cbn [upd_cfg fst snd] in H.
  match type of H with (if cli_end_ok ?x then _ else _) = _ => set (c1 := x) in *; destruct (cli_end_ok c1) eqn:EO; [|discriminate H] end.
  assert (E : exists n m t tm, cfg = set_thread_memory tm (set_threads t (set_memory m (set_count n c1))) /\ n < 2 ^ 63).
  { assert (X : cfg = cli_defaults c1) by (apply (f_equal (fun o => match o with Some (x, _) => x | None => cfg0 end)) in H; symmetry; exact H). assert (C : c_count c1 = c_count c) by reflexivity. clear - X C Hco. clearbody c1. subst cfg. unfold cli_defaults.
    destruct (c_count c1 =? 0); [exists 1|exists (c_count c1)].
    all: match goal with |- context [if c_memory ?x =? 0 then _ else _] => destruct (c_memory x =? 0); [exists 1000000000|exists (c_memory x)] end.
    all: match goal with |- context [if c_threads ?x =? 0 then _ else _] => destruct (c_threads x =? 0); [exists 1|exists (c_threads x)] end.
    all: match goal with |- context [if c_thread_memory ?x =? 0 then set_thread_memory ?v _ else _] => destruct (c_thread_memory x =? 0); [exists v|exists (c_thread_memory x)] end.
    all: split; [destruct c1; reflexivity|lia]. }
  destruct E as (n & m & t & tm & -> & Ln). clear H.
  assert (FF : (In OFp os -> c_field c = FIELD_PRIME) /\ (In OF2m os -> c_field c = FIELD_BINARY)).
  { assert (E : c_field c <> 3) by (intros E; unfold cli_end_ok in EO; change (c_field c1) with (c_field c) in EO; rewrite E in EO; discriminate EO).
    assert (C : c_field c = 0 \/ c_field c = 1 \/ c_field c = 2) by lia. destruct F1 as (F1 & F2). clear - C F1 F2.
    split; intros X; [specialize (F1 (or_intror X))|specialize (F2 (or_intror X))]; destruct C as [Q|[Q|Q]]; rewrite Q in *; (reflexivity || discriminate). }
  constructor; cbn in *; try assumption; try reflexivity; try exact EO. split; [|auto]. intros B3. constructor; cbn in *; try assumption; try lia. exact (end_filters c1 EO).
Qed.
(** the size at least three bits *)
Lemma line_held np os arg cfg set : cli np os [arg] = Some (cfg, set) -> Forall known os ->
  3 <= c_bits cfg < 2 ^ 61 -> 0 <= c_smooth_value cfg -> exists s, options np os (cfg0, []) = Some s /\ line_facts (in_range cfg) os (fst s) cfg.
Proof.
  intros H Pl B S0. destruct (line_any np os arg cfg set H Pl (proj2 B) S0) as (s & O & [L1 L2 L3 L4 L5 (L6 & _) L7 L8 L9 L10]). exists s. split; [exact O|].
  constructor; try assumption. exact (L6 (proj1 B)).
Qed.
(** with --random without a list and none but [plain] options *)
Lemma line_scope np os arg cfg set : cli np os [arg] = Some (cfg, set) -> Forall plain os -> In OFp os -> In (ORandom None) os ->
  3 <= c_bits cfg < 2 ^ 61 -> 0 <= c_smooth_value cfg -> in_scope cfg /\ c_count cfg < 2 ^ 63.
Proof.
  intros H Pl F R B S0. assert (Al : Forall allowed os) by (apply Forall_impl with (2 := Pl); intros []; cbn; auto).
  assert (Kn : Forall known os) by (apply Forall_impl with (2 := Pl); intros []; cbn; auto).
  destruct (line_held _ _ _ _ _ H Kn B S0) as (s & O & [L1 L2 L3 _ L4 L5 L6 L7 L8 L9]). pose proof (proj1 L1 F) as LF. split; [|exact L6].
  pose proof (method_options np os _ _ Al O) as Q. unfold method_of in Q. injection Q as Q1 Q2 Q3. rewrite Q1 in L2. rewrite Q2 in L3.
  destruct (held_options np os _ _ Kn O ltac:(constructor; cbn; auto; lia)) as (_ & _ & (R1 & R2 & R3)); [now right|].
  pose proof (koblitz_options np os _ _ Pl O) as K. constructor; try assumption; [rewrite L7, K; reflexivity|].
  unfold Plan_Model.is_random. rewrite L8. split; [apply (random_bit _ 1)|split; [apply (random_bit _ 2)|apply (random_bit _ 3)]]; (assumption || lia).
Qed.
(** without these two conditions *)
Lemma line_default np os arg cfg set : cli np os [arg] = Some (cfg, set) -> Forall allowed os -> In OFp os ->
  3 <= c_bits cfg < 2 ^ 61 -> 0 <= c_smooth_value cfg ->
  (c_koblitz cfg = true -> forall e, In e Koblitz_Model.koblitz_curves -> Koblitz_Model.k_m e <> c_bits cfg mod 2 ^ 32) -> in_default cfg /\ c_count cfg < 2 ^ 63.
Proof.
  intros H Al F B S0 T. assert (Kn : Forall known os) by (apply Forall_impl with (2 := Al); intros []; cbn; auto).
  destruct (line_held _ _ _ _ _ H Kn B S0) as (s & O & [L1 L2 L3 _ L4 L5 L6 L7 L8 L9]). pose proof (proj1 L1 F) as LF. split; [|exact L6].
  pose proof (method_options np os _ _ Al O) as Q. unfold method_of in Q. injection Q as Q1 Q2 Q3. rewrite Q1 in L2. rewrite Q2 in L3.
  constructor; try assumption; intros; auto.
Qed.

(** --f2m *)
Lemma line_binary np os arg cfg set : cli np os [arg] = Some (cfg, set) -> Forall allowed os -> In OF2m os -> In (ORandom None) os ->
  3 <= c_bits cfg -> listed (c_bits cfg) -> 0 <= c_smooth_value cfg -> in_binary cfg /\ c_count cfg < 2 ^ 63.
Proof.
  intros H Al F R B3 BL S0. assert (Kn : Forall known os) by (apply Forall_impl with (2 := Al); intros []; cbn; auto).
  assert (B : 3 <= c_bits cfg < 600) by (unfold listed in BL; lia).
  destruct (line_held _ _ _ _ _ H Kn ltac:(lia) S0) as (s & O & [L1 L2 L3 _ L4 L5 L6 L7 L8 L9]). split; [|exact L6].
  pose proof (method_options np os _ _ Al O) as Q. unfold method_of in Q. injection Q as Q1 Q2 Q3. rewrite Q1 in L2. rewrite Q2 in L3.
  destruct (held_options np os _ _ Kn O ltac:(constructor; cbn; auto; lia)) as (_ & _ & (R1 & R2 & R3)); [now right|].
  constructor; [exact (proj2 L1 F)|exact L2|exact L3| |intros _; exact L4| |exact L5].
  - unfold Plan_Model.is_random. rewrite L8. split; [apply (random_bit _ 1)|split; [apply (random_bit _ 2)|apply (random_bit _ 3)]]; (assumption || lia).
  - intros c E. destruct (Irr_Props.C42_irreducible_partial (c_bits cfg) BL) as (c' & E' & Ir & _). rewrite E in E'. injection E' as <-. exact Ir.
Qed.
Lemma line_binary_typed np os arg cfg set : cli np os [arg] = Some (cfg, set) -> Forall allowed os -> In OF2m os -> Plan_Model.is_random cfg RANDOM_FIELD = true ->
  3 <= c_bits cfg -> listed (c_bits cfg) -> 0 <= c_smooth_value cfg -> in_binary_typed cfg /\ c_count cfg < 2 ^ 63.
Proof.
  intros H Al F R B3 BL S0. assert (Kn : Forall known os) by (apply Forall_impl with (2 := Al); intros []; cbn; auto).
  assert (B : 3 <= c_bits cfg < 600) by (unfold listed in BL; lia).
  destruct (line_held _ _ _ _ _ H Kn ltac:(lia) S0) as (s & O & [L1 L2 L3 _ L4 L5 L6 L7 L8 L9]). split; [|exact L6].
  pose proof (method_options np os _ _ Al O) as Q. unfold method_of in Q. injection Q as Q1 Q2 Q3. rewrite Q1 in L2. rewrite Q2 in L3.
  constructor; [exact (proj2 L1 F)|exact L2|exact L3|exact R|intros _; exact L4| |exact L5].
  intros c E. destruct (Irr_Props.C42_irreducible_partial (c_bits cfg) BL) as (c' & E' & Ir & _). rewrite E in E'. injection E' as <-. exact Ir.
Qed.

(** --supersingular *)
Lemma line_supersingular np os arg cfg set : cli np os [arg] = Some (cfg, set) -> Forall (fun o => o = OSupersingular \/ allowed o) os -> In OFp os -> In OSupersingular os ->
  3 <= c_bits cfg < 2 ^ 61 -> 0 <= c_smooth_value cfg -> in_supersingular cfg /\ c_count cfg < 2 ^ 63.
Proof.
  intros H Al F SU B S0. assert (Kn : Forall known os) by (apply Forall_impl with (2 := Al); intros o [-> |]; [exact I|destruct o; cbn in *; auto]).
  destruct (line_held _ _ _ _ _ H Kn B S0) as (s & O & [L1 L2 L3 _ L4 L5 L6 L7 L8 L9]). pose proof (proj1 L1 F) as LF. split; [|exact L6].
  destruct (supersingular_options np os _ _ Al O (or_introl eq_refl)) as (A & M). destruct L5 as [R1 _ R3 R4 R5 R6].
  constructor; try assumption; [rewrite L2; apply M; right; exact SU|rewrite L3; exact A].
Qed.

(** --ansi *)
Definition ansi_or (o : copt) : Prop := (exists a, o = OAnsi a) \/ allowed o.
Lemma ansi_options np os : forall s s', Forall ansi_or os -> options np os s = Some s' ->
  (c_method (fst s) = METHOD_DEFAULT \/ c_method (fst s) = METHOD_SEED) ->
  (forall u, Cli_Model.c_seed (fst s) = Some u -> Ansi_Model.ansi_seed_valid u = true) ->
  (forall u, Cli_Model.c_seed (fst s') = Some u -> Ansi_Model.ansi_seed_valid u = true) /\
  ((c_method (fst s) = METHOD_SEED /\ c_seed_algo (fst s) = SEED_ANSI) \/ (exists a, In (OAnsi a) os) -> c_method (fst s') = METHOD_SEED /\ c_seed_algo (fst s') = SEED_ANSI).
Proof.
  induction os as [|o os IH]; intros s s' Pl H M V; cbn [options] in H.
  - injection H as <-. split; [exact V|]. intros [X|(a & [])]. exact X.
  - inversion Pl as [|? ? P1 P2]; subst. destruct (cli_parse np o s) as [s1|] eqn:E; [|discriminate H]. destruct P1 as [(arg & ->)|P1].
    + destruct s as (c & l). cbn [cli_parse fst] in *. unfold seed_option, add_method in E. cbn [SET upd_cfg fst snd] in E.
      assert (X : c_method (fst s1) = METHOD_SEED /\ c_seed_algo (fst s1) = SEED_ANSI /\ forall u, Cli_Model.c_seed (fst s1) = Some u -> Ansi_Model.ansi_seed_valid u = true).
      { assert (Y : Z.lor (c_method c) METHOD_SEED = METHOD_SEED) by (destruct M as [-> | ->]; reflexivity).
        destruct arg as [a|]; [destruct (Ansi_Model.ansi_seed_valid a) eqn:VA; [|discriminate E]|]; injection E as <-; cbn [fst]; split; [exact Y| |exact Y|]; (split; [reflexivity|]); [|exact V].
        intros u Hu. injection Hu as <-. exact VA. }
      destruct X as (X1 & X2 & X3). destruct (IH _ s' P2 H (or_intror X1) X3) as (A & B). split; [exact A|]. intros _. apply B. left. split; assumption.
    + pose proof (method_step np o s s1 P1 E) as Q. unfold method_of in Q. injection Q as Q1 Q2 Q3.
      destruct (IH _ s' P2 H) as (A & B); [rewrite Q1; exact M|rewrite Q3; exact V|]. split; [exact A|].
      intros [X|(a & [X|X])]; apply B; [left; rewrite Q1, Q2; exact X|subst o; contradiction P1|right; exists a; exact X].
Qed.
Lemma line_ansi np os arg cfg set : cli np os [arg] = Some (cfg, set) -> Forall ansi_or os -> In OFp os -> (exists a, In (OAnsi a) os) ->
  3 <= c_bits cfg < 2 ^ 61 -> 0 <= c_smooth_value cfg -> (forall u, Cli_Model.c_seed cfg = Some u -> Z.of_nat (length u) < 2 ^ 29) -> in_ansi cfg /\ c_count cfg < 2 ^ 63.
Proof.
  intros H Al F SU B S0 SL. assert (Kn : Forall known os) by (apply Forall_impl with (2 := Al); intros o [(a & ->)|]; [exact I|destruct o; cbn in *; auto]).
  destruct (line_held _ _ _ _ _ H Kn B S0) as (s & O & [L1 L2 L3 LS L4 L5 L6 L7 L8 L9]). pose proof (proj1 L1 F) as LF. split; [|exact L6].
  destruct (ansi_options np os _ _ Al O (or_introl eq_refl) ltac:(discriminate)) as (V & M). destruct (M (or_intror SU)) as (M1 & M2).
  split; [exact LF|]. constructor; [congruence|congruence| |exact L5]. intros u Hu. split; [|exact (SL u Hu)]. apply V. congruence.
Qed.

(** --f2m --ansi, when the field is not typed *)
Lemma line_ansi_binary np os arg cfg set : cli np os [arg] = Some (cfg, set) -> Forall ansi_or os -> In OF2m os -> (exists a, In (OAnsi a) os) ->
  Plan_Model.is_random cfg RANDOM_FIELD = true -> 3 <= c_bits cfg -> listed (c_bits cfg) -> 0 <= c_smooth_value cfg ->
  (forall u, Cli_Model.c_seed cfg = Some u -> Z.of_nat (length u) < 2 ^ 29) -> in_ansi_binary cfg /\ c_count cfg < 2 ^ 63.
Proof.
  intros H Al F SU R B3 BL S0 SL. assert (Kn : Forall known os) by (apply Forall_impl with (2 := Al); intros o [(a & ->)|]; [exact I|destruct o; cbn in *; auto]).
  assert (B : 3 <= c_bits cfg < 600) by (unfold listed in BL; lia).
  destruct (line_held _ _ _ _ _ H Kn ltac:(lia) S0) as (s & O & [L1 L2 L3 LS L4 L5 L6 L7 L8 L9]). pose proof (proj2 L1 F) as LF. split; [|exact L6].
  destruct (ansi_options np os _ _ Al O (or_introl eq_refl) ltac:(discriminate)) as (V & M). destruct (M (or_intror SU)) as (M1 & M2).
  constructor; [exact LF|exact R| |].
  - intros c E. destruct (Irr_Props.C42_irreducible_partial (c_bits cfg) BL) as (c' & E' & Ir & _). rewrite E in E'. injection E' as <-. exact Ir.
  - constructor; [congruence|congruence| |exact L5]. intros u Hu. split; [|exact (SL u Hu)]. apply V. congruence.
Qed.

(** --brainpool and --brainpool-rfc *)
Definition brainpool_option (o : copt) : Prop := exists a, o = OBrainpool a \/ o = OBrainpoolRfc a.
Definition brainpool_or (o : copt) : Prop := brainpool_option o \/ allowed o.
Definition brainpool_algo (c : config) : Prop := c_method c = METHOD_SEED /\ (c_seed_algo c = SEED_BRAINPOOL \/ c_seed_algo c = SEED_BRAINPOOL_RFC).
Lemma brainpool_options np os : forall s s', Forall brainpool_or os -> options np os s = Some s' ->
  (c_method (fst s) = METHOD_DEFAULT \/ c_method (fst s) = METHOD_SEED) ->
  (forall u, Cli_Model.c_seed (fst s) = Some u -> Brainpool_Model.brainpool_seed_valid u = true) ->
  (forall u, Cli_Model.c_seed (fst s') = Some u -> Brainpool_Model.brainpool_seed_valid u = true) /\
  (brainpool_algo (fst s) \/ (exists o, brainpool_option o /\ In o os) -> brainpool_algo (fst s')).
Proof.
  induction os as [|o os IH]; intros s s' Pl H M V; cbn [options] in H.
  - injection H as <-. split; [exact V|]. intros [X|(a & _ & [])]. exact X.
  - inversion Pl as [|? ? P1 P2]; subst. destruct (cli_parse np o s) as [s1|] eqn:E; [|discriminate H]. destruct P1 as [(arg & P1)|P1].
    + destruct s as (c & l).
      assert (X : brainpool_algo (fst s1) /\ forall u, Cli_Model.c_seed (fst s1) = Some u -> Brainpool_Model.brainpool_seed_valid u = true).
      { assert (Y : Z.lor (c_method c) METHOD_SEED = METHOD_SEED) by (destruct M as [M|M]; cbn [fst] in M; rewrite M; reflexivity).
        unfold brainpool_algo. destruct P1 as [-> | ->]; cbn [cli_parse fst] in *; unfold seed_option, add_method in E; cbn [SET upd_cfg fst snd] in E.
        all: destruct arg as [a|]; [destruct (Brainpool_Model.brainpool_seed_valid a) eqn:VA; [|discriminate E]|]; injection E as <-; cbn [fst]; (split; [split; [exact Y|]|]).
        all: try (left; reflexivity); try (right; reflexivity); try exact V.
        all: intros u Hu; injection Hu as <-; exact VA. }
      destruct X as (X1 & X3). destruct (IH _ s' P2 H (or_intror (proj1 X1)) X3) as (A & B). split; [exact A|]. intros _. apply B. left. exact X1.
    + pose proof (method_step np o s s1 P1 E) as Q. unfold method_of in Q. injection Q as Q1 Q2 Q3.
      destruct (IH _ s' P2 H) as (A & B); [rewrite Q1; exact M|rewrite Q3; exact V|]. split; [exact A|].
      intros [X|(a & X & [Y|Y])]; apply B; [left; unfold brainpool_algo in *; rewrite Q1, Q2; exact X|subst a; destruct X as (x & [-> | ->]); contradiction P1|right; exists a; auto].
Qed.
Lemma line_brainpool np os arg cfg set : cli np os [arg] = Some (cfg, set) -> Forall brainpool_or os -> (exists o, brainpool_option o /\ In o os) ->
  3 <= c_bits cfg < 2 ^ 61 -> 0 <= c_smooth_value cfg -> in_brainpool cfg /\ c_count cfg < 2 ^ 63.
Proof.
  intros H Al SU B S0. assert (Kn : Forall known os) by (apply Forall_impl with (2 := Al); intros o [(a & [-> | ->])|]; [exact I|exact I|destruct o; cbn in *; auto]).
  destruct (line_held _ _ _ _ _ H Kn B S0) as (s & O & [L1 L2 L3 LS L4 L5 L6 L7 L8 L9]). split; [|exact L6].
  destruct (brainpool_options np os _ _ Al O (or_introl eq_refl) ltac:(discriminate)) as (V & M). destruct (M (or_intror SU)) as (M1 & M2).
  destruct L5. constructor; try assumption; [congruence|rewrite L3; exact M2|]. intros u Hu. apply V. congruence.
Qed.

(** --nums *)
Definition nums_or (o : copt) : Prop := o = ONums \/ allowed o.
Lemma nums_options np os : forall s s', Forall nums_or os -> options np os s = Some s' ->
  (c_method (fst s) = METHOD_DEFAULT \/ c_method (fst s) = METHOD_SEED) ->
  (c_method (fst s) = METHOD_SEED /\ c_seed_algo (fst s) = SEED_NUMS) \/ In ONums os -> c_method (fst s') = METHOD_SEED /\ c_seed_algo (fst s') = SEED_NUMS.
Proof.
  induction os as [|o os IH]; intros s s' Pl H M; cbn [options] in H.
  - injection H as <-. intros [X|[]]. exact X.
  - inversion Pl as [|? ? P1 P2]; subst. destruct (cli_parse np o s) as [s1|] eqn:E; [|discriminate H]. destruct P1 as [->|P1].
    + destruct s as (c & l).
      assert (X : c_method (fst s1) = METHOD_SEED /\ c_seed_algo (fst s1) = SEED_NUMS).
      { assert (Y : Z.lor (c_method c) METHOD_SEED = METHOD_SEED) by (destruct M as [M|M]; cbn [fst] in M; rewrite M; reflexivity).
        cbn [cli_parse fst] in *. unfold seed_option, add_method in E. cbn [SET upd_cfg fst snd] in E. injection E as <-. cbn [fst]. split; [exact Y|reflexivity]. }
      intros _. apply (IH _ s' P2 H (or_intror (proj1 X))). left. exact X.
    + pose proof (method_step np o s s1 P1 E) as Q. unfold method_of in Q. injection Q as Q1 Q2 Q3.
      intros [X|[X|X]]; apply (IH _ s' P2 H); try (rewrite Q1; exact M); [left; rewrite Q1, Q2; exact X|subst o; contradiction P1|right; exact X].
Qed.
Lemma line_nums np os arg cfg set : cli np os [arg] = Some (cfg, set) -> Forall nums_or os -> In ONums os ->
  3 <= c_bits cfg < 2 ^ 61 -> 0 <= c_smooth_value cfg -> in_nums cfg /\ c_count cfg < 2 ^ 63.
Proof.
  intros H Al SU B S0. assert (Kn : Forall known os) by (apply Forall_impl with (2 := Al); intros o [->|]; [exact I|destruct o; cbn in *; auto]).
  destruct (line_held _ _ _ _ _ H Kn B S0) as (s & O & [L1 L2 L3 LS L4 L5 L6 L7 L8 L9]). split; [|exact L6].
  destruct (nums_options np os _ _ Al O (or_introl eq_refl) (or_intror SU)) as (M1 & M2). destruct L5. constructor; try assumption; congruence.
Qed.

(** --anomalous *)
Definition anomalous_or (o : copt) : Prop := o = OAnomalous \/ allowed o.
Lemma anomalous_options np os : forall s s', Forall anomalous_or os -> options np os s = Some s' ->
  (c_method (fst s) = METHOD_DEFAULT \/ c_method (fst s) = METHOD_ANOMALOUS) -> c_seed_algo (fst s') = c_seed_algo (fst s) /\
  (c_method (fst s) = METHOD_ANOMALOUS \/ In OAnomalous os -> c_method (fst s') = METHOD_ANOMALOUS).
Proof.
  induction os as [|o os IH]; intros s s' Pl H M; cbn [options] in H.
  - injection H as <-. split; [reflexivity|]. intros [X|[]]. exact X.
  - inversion Pl as [|? ? P1 P2]; subst. destruct (cli_parse np o s) as [s1|] eqn:E; [|discriminate H]. destruct P1 as [-> |P1].
    + destruct s as (c & l). cbn [cli_parse] in E. unfold add_method in E. cbn [SET upd_cfg fst snd] in E. injection E as <-. cbn [fst] in *.
      assert (X : Z.lor (c_method c) METHOD_ANOMALOUS = METHOD_ANOMALOUS) by (destruct M as [-> | ->]; reflexivity).
      destruct (IH _ s' P2 H) as (A & B); [right; exact X|]. split; [exact A|]. intros _. apply B. left. exact X.
    + pose proof (method_step np o s s1 P1 E) as Q. unfold method_of in Q. injection Q as Q1 Q2 Q3.
      destruct (IH _ s' P2 H) as (A & B); [rewrite Q1; exact M|]. split; [congruence|]. intros [X|[X|X]]; apply B; [left; congruence|subst o; contradiction P1|right; exact X].
Qed.
Lemma line_anomalous np os arg cfg set : cli np os [arg] = Some (cfg, set) -> Forall anomalous_or os -> In OFp os -> In OAnomalous os ->
  6 <= c_bits cfg < 2 ^ 61 -> 0 <= c_smooth_value cfg -> in_anomalous cfg /\ c_count cfg < 2 ^ 63.
Proof.
  intros H Al F SU B S0. assert (Kn : Forall known os) by (apply Forall_impl with (2 := Al); intros o [-> |]; [exact I|destruct o; cbn in *; auto]).
  assert (B3 : 3 <= c_bits cfg < 2 ^ 61) by lia.
  destruct (line_held _ _ _ _ _ H Kn B3 S0) as (s & O & [L1 L2 L3 _ L4 L5 L6 L7 L8 L9]). pose proof (proj1 L1 F) as LF. split; [|exact L6].
  destruct (anomalous_options np os _ _ Al O (or_introl eq_refl)) as (A & M). destruct L5 as [R1 _ R3 R4 R5 R6].
  constructor; try assumption; [rewrite L2; apply M; right; exact SU|rewrite L3; exact A].
Qed.

(** --family *)
Definition family_or (o : copt) : Prop := (exists a, o = OFamily a) \/ allowed o.
Lemma family_options np os : forall s s', Forall family_or os -> options np os s = Some s' ->
  (c_method (fst s) = METHOD_DEFAULT \/ c_method (fst s) = METHOD_FAMILY) -> c_seed_algo (fst s') = c_seed_algo (fst s) /\
  (c_method (fst s) = METHOD_FAMILY \/ (exists a, In (OFamily a) os) -> c_method (fst s') = METHOD_FAMILY).
Proof.
  induction os as [|o os IH]; intros s s' Pl H M; cbn [options] in H.
  - injection H as <-. split; [reflexivity|]. intros [X|(a & [])]. exact X.
  - inversion Pl as [|? ? P1 P2]; subst. destruct (cli_parse np o s) as [s1|] eqn:E; [|discriminate H]. destruct P1 as [(a & ->)|P1].
    + destruct s as (c & l). cbn [cli_parse] in E. unfold add_method in E. cbn [SET upd_cfg fst snd] in E. destruct (family_of a) as [v|]; [|discriminate E]. injection E as <-. cbn [fst] in *.
      assert (X : Z.lor (c_method c) METHOD_FAMILY = METHOD_FAMILY) by (destruct M as [-> | ->]; reflexivity).
      destruct (IH _ s' P2 H) as (A & B); [right; exact X|]. split; [exact A|]. intros _. apply B. left. exact X.
    + pose proof (method_step np o s s1 P1 E) as Q. unfold method_of in Q. injection Q as Q1 Q2 Q3.
      destruct (IH _ s' P2 H) as (A & B); [rewrite Q1; exact M|]. split; [congruence|]. intros [X|(a & [X|X])]; apply B; [left; congruence|subst o; contradiction P1|right; exists a; exact X].
Qed.
Lemma line_family np os arg cfg set : cli np os [arg] = Some (cfg, set) -> Forall family_or os -> (exists a, In (OFamily a) os) -> sextic (c_family cfg) ->
  1 <= c_bits cfg < 2 ^ 61 -> 0 <= c_smooth_value cfg -> in_family cfg /\ c_count cfg < 2 ^ 63.
Proof.
  intros H Al SU SX B S0. assert (Kn : Forall known os) by (apply Forall_impl with (2 := Al); intros o [(a & ->)|]; [exact I|destruct o; cbn in *; auto]).
  destruct (line_any _ _ _ _ _ H Kn (proj2 B) S0) as (s & O & [L1 L2 L3 _ L4 (_ & R1 & R2 & R3) L6 L7 L8 L9]). split; [|exact L6].
  destruct (family_options np os _ _ Al O (or_introl eq_refl)) as (A & M).
  constructor; try assumption; [rewrite L2; apply M; right; exact SU|rewrite L3; exact A|split; assumption].
Qed.

(** C75 for a command line. Full statement and what is missing: see C75_run_partial; here the configuration is the one
    that cli_parse makes of the options. *)
Theorem C75_line_partial np os arg cfg set P hexw hexp dec junk draws tries fuel avma delim ino readable writable reason io seadata fs kbd d input outer i :
  cli np os [arg] = Some (cfg, set) -> Forall plain os -> In OFp os -> In (ORandom None) os ->
  3 <= c_bits cfg < 2 ^ 61 -> 0 <= c_smooth_value cfg -> 0 <= c_count cfg ->
  pari_ok P (c_bits cfg) -> prints hexw hexp dec -> Hex_Props.prints_hex hexw ->
  Shell_Spec.separate ino writable io -> Shell_Spec.input_is ino readable io fs kbd d input ->
  Shell_Model.i_append io = false -> Shell_Spec.out_file ino writable io i ->
  let '(w, status) := Shell_Model.main ino readable writable (fun _ => None) reason true io seadata
      (exhaustive_do P cfg hexw hexp dec junk draws tries fuel avma delim (snd (Plan_Model.exhaustive_init cfg [N_method])) outer) (Shell_Model.fresh fs kbd) in
  status = Some 0 ->
  exists text cs, Shell_Model.files w i = Some text /\ Z.of_nat (length cs) = c_count cfg /\ Forall (wanted cfg hexw) cs /\
    (exists v, json text v) /\
    forall v, json text v -> exists ds, v = JArr ds /\ all read_curve ds = Some cs.
Proof.
  intros L Pl F R B S0 C0 PO OK HX S I NA O. destruct (line_scope _ _ _ _ _ L Pl F R B S0) as (IS & CU).
  apply (C75_run_partial P cfg PO IS hexw hexp dec OK HX junk draws tries fuel avma delim ino readable writable reason io seadata fs kbd d input outer i S I NA O). lia.
Qed.
Example C75_line_example : exists set, cli 4 line [lit "3"] = Some (ex_cfg, set) /\ Forall plain line /\ In OFp line /\ In (ORandom None) line /\
  3 <= c_bits ex_cfg < 2 ^ 61 /\ 0 <= c_smooth_value ex_cfg /\ 0 <= c_count ex_cfg.
Proof. eexists. split; [vm_compute; reflexivity|]. split; [repeat constructor|]. split; [cbn; auto|]. split; [cbn; auto|]. vm_compute. intuition congruence. Qed.
Print Assumptions C75_line_partial.

(** C76 for a command line. Full statement and what is missing: see C76_run_partial; here the configuration is the one
    that cli_parse makes of the options. *)
Theorem C76_line_partial np os arg cfg set P hexw hexp dec junk draws tries fuel avma ino readable writable reason io seadata fs kbd d input outer i :
  cli np os [arg] = Some (cfg, set) -> Forall allowed os -> In OFp os ->
  3 <= c_bits cfg < 2 ^ 61 -> 0 <= c_smooth_value cfg -> 0 <= c_count cfg ->
  (c_koblitz cfg = true -> forall e, In e Koblitz_Model.koblitz_curves -> Koblitz_Model.k_m e <> c_bits cfg mod 2 ^ 32) ->
  pari_ok P (c_bits cfg) -> prints hexw hexp dec -> Hex_Props.prints_hex hexw ->
  Shell_Spec.separate ino writable io -> Shell_Spec.input_is ino readable io fs kbd d input ->
  Shell_Model.i_append io = false -> Shell_Spec.out_file ino writable io i ->
  let '(w, status) := Shell_Model.main ino readable writable (fun _ => None) reason true io seadata
      (exhaustive_do P cfg hexw hexp dec junk draws tries fuel avma d (snd (Plan_Model.exhaustive_init cfg [N_method])) outer) (Shell_Model.fresh fs kbd) in
  status = Some 0 ->
  exists text cs, Shell_Model.files w i = Some text /\ Z.of_nat (length cs) = c_count cfg /\ each (wanted_default cfg hexw d) d input cs /\
    (exists v, json text v) /\
    forall v, json text v -> exists ds, v = JArr ds /\ all read_curve ds = Some cs.
Proof.
  intros L Pl F B S0 C0 T PO OK HX S I NA O. destruct (line_default _ _ _ _ _ L Pl F B S0 T) as (ID & CU).
  apply (C76_run_partial P cfg PO ID hexw hexp dec OK HX junk draws tries fuel avma ino readable writable reason io seadata fs kbd d input outer i S I NA O). lia.
Qed.
Example C76_line_example : exists set, cli 4 typed_line [lit "3"] = Some (typed_cfg, set) /\ Forall allowed typed_line /\ In OFp typed_line /\
  3 <= c_bits typed_cfg < 2 ^ 61 /\ 0 <= c_smooth_value typed_cfg /\ 0 <= c_count typed_cfg /\ c_koblitz typed_cfg = false.
Proof. eexists. split; [vm_compute; reflexivity|]. split; [repeat constructor|]. split; [cbn; auto|]. vm_compute. intuition congruence. Qed.
Print Assumptions C76_line_partial.

(** C77 for a command line. Full statement and what is missing: see C77_run_partial; here the configuration is the one
    that cli_parse makes of the options. *)
Theorem C77_line_partial np os arg cfg set P hexw hexp dec junk draws tries fuel avma ino readable writable reason io seadata fs kbd d input outer i :
  cli np os [arg] = Some (cfg, set) -> Forall (fun o => o = OSupersingular \/ allowed o) os -> In OFp os -> In OSupersingular os ->
  3 <= c_bits cfg < 2 ^ 61 -> 0 <= c_smooth_value cfg -> 0 <= c_count cfg ->
  pari_ok P (c_bits cfg) -> supersingular_ok P (c_bits cfg) -> prints hexw hexp dec -> Hex_Props.prints_hex hexw ->
  Shell_Spec.separate ino writable io -> Shell_Spec.input_is ino readable io fs kbd d input ->
  Shell_Model.i_append io = false -> Shell_Spec.out_file ino writable io i ->
  let '(w, status) := Shell_Model.main ino readable writable (fun _ => None) reason true io seadata
      (exhaustive_do P cfg hexw hexp dec junk draws tries fuel avma d (snd (Plan_Model.cm_init cfg false [N_method])) outer) (Shell_Model.fresh fs kbd) in
  status = Some 0 ->
  exists text cs, Shell_Model.files w i = Some text /\ Z.of_nat (length cs) = c_count cfg /\ each (wanted_supersingular cfg hexw d) d input cs /\
    (exists v, json text v) /\
    forall v, json text v -> exists ds, v = JArr ds /\ all read_curve ds = Some cs.
Proof.
  intros L Pl F SU B S0 C0 PO SO OK HX S I NA O. destruct (line_supersingular _ _ _ _ _ L Pl F SU B S0) as (IS & CU).
  apply (C77_run_partial P cfg PO SO IS hexw hexp dec OK HX junk draws tries fuel avma ino readable writable reason io seadata fs kbd d input outer i S I NA O). lia.
Qed.
Example C77_line_example : exists set, cli 4 super_line [lit "3"] = Some (super_cfg, set) /\ Forall (fun o => o = OSupersingular \/ allowed o) super_line /\
  In OFp super_line /\ In OSupersingular super_line /\
  3 <= c_bits super_cfg < 2 ^ 61 /\ 0 <= c_smooth_value super_cfg /\ 0 <= c_count super_cfg.
Proof.
  eexists. split; [vm_compute; reflexivity|]. split; [repeat constructor; (right; exact I) || (left; reflexivity)|]. split; [cbn; auto|]. split; [cbn; auto|]. vm_compute. intuition congruence.
Qed.
Print Assumptions C77_line_partial.

(** C78 for a command line. Full statement and what is missing: see C78_run_partial; here the configuration is the one
    that cli_parse makes of the options. *)
Theorem C78_line_partial np os arg cfg set P hexw hexp dec junk draws tries fuel avma ino readable writable reason io seadata fs kbd d input outer i :
  cli np os [arg] = Some (cfg, set) -> Forall ansi_or os -> In OFp os -> (exists a, In (OAnsi a) os) ->
  3 <= c_bits cfg < 2 ^ 61 -> 0 <= c_smooth_value cfg -> 0 <= c_count cfg -> (forall u, Cli_Model.c_seed cfg = Some u -> Z.of_nat (length u) < 2 ^ 29) ->
  pari_ok P (c_bits cfg) -> ansi_ok P -> prints hexw hexp dec -> Hex_Props.prints_hex hexw ->
  Shell_Spec.separate ino writable io -> Shell_Spec.input_is ino readable io fs kbd d input ->
  Shell_Model.i_append io = false -> Shell_Spec.out_file ino writable io i ->
  let '(w, status) := Shell_Model.main ino readable writable (fun _ => None) reason true io seadata
      (exhaustive_do P cfg hexw hexp dec junk draws tries fuel avma d (snd (Plan_Model.exhaustive_init cfg [N_method])) outer) (Shell_Model.fresh fs kbd) in
  status = Some 0 ->
  exists text cs, Shell_Model.files w i = Some text /\ Z.of_nat (length cs) = c_count cfg /\
    each (fun l c => huge l \/ wanted_ansi cfg hexw d l c) d input cs /\
    (exists v, json text v) /\
    forall v, json text v -> exists ds, v = JArr ds /\ all read_curve ds = Some cs.
Proof.
  intros L Pl F SU B S0 C0 SL PO AO OK HX S I NA O. destruct (line_ansi _ _ _ _ _ L Pl F SU B S0 SL) as (IA & CU).
  apply (C78_run_partial P cfg PO AO IA hexw hexp dec OK HX junk draws tries fuel avma ino readable writable reason io seadata fs kbd d input outer i S I NA O). lia.
Qed.
Example C78_line_example : exists set, cli 4 ansi_line [lit "3"] = Some (ansi_cfg, set) /\ Forall ansi_or ansi_line /\
  In OFp ansi_line /\ In (OAnsi None) ansi_line /\
  3 <= c_bits ansi_cfg < 2 ^ 61 /\ 0 <= c_smooth_value ansi_cfg /\ 0 <= c_count ansi_cfg /\ Cli_Model.c_seed ansi_cfg = None.
Proof.
  eexists. split; [vm_compute; reflexivity|]. split; [repeat (apply Forall_cons; [(right; exact I) || (left; eexists; reflexivity)|]); apply Forall_nil|]. split; [cbn; auto|]. split; [cbn; auto|]. vm_compute. intuition congruence.
Qed.
Print Assumptions C78_line_partial.

(** C79 for a command line. Full statement and what is missing: see C79_run_partial; here the configuration is the one
    that cli_parse makes of the options. *)
Theorem C79_line_partial np os arg cfg set P hexw hexp dec junk draws tries fuel avma delim ino readable writable reason io seadata fs kbd d input outer i :
  cli np os [arg] = Some (cfg, set) -> Forall allowed os -> In OF2m os -> In (ORandom None) os ->
  3 <= c_bits cfg -> listed (c_bits cfg) -> 0 <= c_smooth_value cfg -> 0 <= c_count cfg ->
  pari_over P (binary_over (c_bits cfg)) -> prints hexw hexp dec -> Hex_Props.prints_hex hexw ->
  Shell_Spec.separate ino writable io -> Shell_Spec.input_is ino readable io fs kbd d input ->
  Shell_Model.i_append io = false -> Shell_Spec.out_file ino writable io i ->
  let '(w, status) := Shell_Model.main ino readable writable (fun _ => None) reason true io seadata
      (exhaustive_do P cfg hexw hexp dec junk draws tries fuel avma delim (snd (Plan_Model.exhaustive_init cfg [N_method])) outer) (Shell_Model.fresh fs kbd) in
  status = Some 0 ->
  exists text cs, Shell_Model.files w i = Some text /\ Z.of_nat (length cs) = c_count cfg /\ Forall (wanted_binary cfg hexw) cs /\
    (exists v, json text v) /\
    forall v, json text v -> exists ds, v = JArr ds /\ all read_curve ds = Some cs.
Proof.
  intros L Al F R B BL S0 C0 PO OK HX S I NA O. destruct (line_binary _ _ _ _ _ L Al F R B BL S0) as (IB & CU).
  apply (C79_run_partial P cfg PO IB hexw hexp dec OK HX junk draws tries fuel avma delim ino readable writable reason io seadata fs kbd d input outer i S I NA O). lia.
Qed.
Example C79_line_example : exists set, cli 4 line2 [lit "3"] = Some (binary_cfg, set) /\ Forall allowed line2 /\ In OF2m line2 /\ In (ORandom None) line2 /\
  3 <= c_bits binary_cfg /\ listed (c_bits binary_cfg) /\ 0 <= c_smooth_value binary_cfg /\ 0 <= c_count binary_cfg /\ c_koblitz binary_cfg = false.
Proof.
  eexists. split; [vm_compute; reflexivity|]. split; [repeat constructor|]. split; [cbn; auto|]. split; [cbn; auto|]. split; [vm_compute; discriminate|].
  split; [left; vm_compute; split; discriminate|]. vm_compute. intuition congruence.
Qed.
Print Assumptions C79_line_partial.

(** C80 for a command line. Full statement and what is missing: see C80_run_partial; here the configuration is the one
    that cli_parse makes of the options. *)
Theorem C80_line_partial np os arg cfg set P hexw hexp dec junk draws tries fuel avma ino readable writable reason io seadata fs kbd d input outer i :
  cli np os [arg] = Some (cfg, set) -> Forall brainpool_or os -> (exists o, brainpool_option o /\ In o os) ->
  3 <= c_bits cfg < 2 ^ 61 -> 0 <= c_smooth_value cfg -> 0 <= c_count cfg ->
  pari_ok P (c_bits cfg) -> brainpool_ok P (c_bits cfg) -> prints hexw hexp dec -> Hex_Props.prints_hex hexw ->
  Shell_Spec.separate ino writable io -> Shell_Spec.input_is ino readable io fs kbd d input ->
  Shell_Model.i_append io = false -> Shell_Spec.out_file ino writable io i ->
  let '(w, status) := Shell_Model.main ino readable writable (fun _ => None) reason true io seadata
      (exhaustive_do P cfg hexw hexp dec junk draws tries fuel avma d (snd (Plan_Model.exhaustive_init cfg [N_method])) outer) (Shell_Model.fresh fs kbd) in
  status = Some 0 ->
  exists text cs, Shell_Model.files w i = Some text /\ Z.of_nat (length cs) = c_count cfg /\ each (wanted_brainpool cfg hexw d) d input cs /\
    (exists v, json text v) /\
    forall v, json text v -> exists ds, v = JArr ds /\ all read_curve ds = Some cs.
Proof.
  intros L Pl SU B S0 C0 PO BO OK HX S I NA O. destruct (line_brainpool _ _ _ _ _ L Pl SU B S0) as (IB & CU).
  apply (C80_run_partial P cfg PO BO IB hexw hexp dec OK HX junk draws tries fuel avma ino readable writable reason io seadata fs kbd d input outer i S I NA O). lia.
Qed.
Example C80_line_example : exists set, cli 4 (seed_of_text seed_a) [lit "3"] = Some (brainpool_of seed_a, set) /\ Forall brainpool_or (seed_of_text seed_a) /\
  (exists o, brainpool_option o /\ In o (seed_of_text seed_a)) /\
  3 <= c_bits (brainpool_of seed_a) < 2 ^ 61 /\ 0 <= c_smooth_value (brainpool_of seed_a) /\ 0 <= c_count (brainpool_of seed_a).
Proof.
  eexists. split; [vm_compute; reflexivity|]. split; [repeat (apply Forall_cons; [(right; exact I) || (left; eexists; left; reflexivity)|]); apply Forall_nil|].
  split; [eexists; split; [eexists; left; reflexivity|cbn; auto]|]. vm_compute. intuition congruence.
Qed.
Print Assumptions C80_line_partial.

(** C81 for a command line. Full statement and what is missing: see C81_run_partial; here the configuration is the one
    that cli_parse makes of the options. *)
Theorem C81_line_partial np os arg cfg set P hexw hexp dec junk draws tries fuel avma ino readable writable reason io seadata fs kbd d input outer i :
  cli np os [arg] = Some (cfg, set) -> Forall nums_or os -> In ONums os ->
  3 <= c_bits cfg < 2 ^ 61 -> 0 <= c_smooth_value cfg -> 0 <= c_count cfg ->
  pari_ok P (c_bits cfg) -> nums_ok P (c_bits cfg) -> prints hexw hexp dec -> Hex_Props.prints_hex hexw ->
  Shell_Spec.separate ino writable io -> Shell_Spec.input_is ino readable io fs kbd d input ->
  Shell_Model.i_append io = false -> Shell_Spec.out_file ino writable io i ->
  let '(w, status) := Shell_Model.main ino readable writable (fun _ => None) reason true io seadata
      (exhaustive_do P cfg hexw hexp dec junk draws tries fuel avma d (snd (Plan_Model.exhaustive_init cfg [N_method])) outer) (Shell_Model.fresh fs kbd) in
  status = Some 0 ->
  exists text cs, Shell_Model.files w i = Some text /\ Z.of_nat (length cs) = c_count cfg /\ Forall (wanted_nums cfg hexw (undisturbed cfg draws)) cs /\
    (exists v, json text v) /\
    forall v, json text v -> exists ds, v = JArr ds /\ all read_curve ds = Some cs.
Proof.
  intros L Pl SU B S0 C0 PO NO OK HX S I NA O. destruct (line_nums _ _ _ _ _ L Pl SU B S0) as (IN & CU).
  apply (C81_run_partial P cfg PO NO IN hexw hexp dec OK HX junk draws tries fuel avma ino readable writable reason io seadata fs kbd d input outer i S I NA O). lia.
Qed.
Example C81_line_example : exists set, cli 4 nums_line [lit "3"] = Some (nums_cfg, set) /\ Forall nums_or nums_line /\ In ONums nums_line /\
  3 <= c_bits nums_cfg < 2 ^ 61 /\ 0 <= c_smooth_value nums_cfg /\ 0 <= c_count nums_cfg.
Proof.
  eexists. split; [vm_compute; reflexivity|]. split; [repeat (apply Forall_cons; [(right; exact I) || (left; reflexivity)|]); apply Forall_nil|].
  split; [cbn; auto|]. vm_compute. intuition congruence.
Qed.
Print Assumptions C81_line_partial.

(** C82 for a command line. Full statement and what is missing: see C82_run_partial; here the configuration is the one
    that cli_parse makes of the options. *)
Theorem C82_line_partial np os arg cfg set P hexw hexp dec junk draws tries fuel avma ino readable writable reason io seadata fs kbd d input outer i :
  cli np os [arg] = Some (cfg, set) -> Forall anomalous_or os -> In OFp os -> In OAnomalous os ->
  6 <= c_bits cfg < 2 ^ 61 -> 0 <= c_smooth_value cfg -> 0 <= c_count cfg ->
  anomalous_ok P (c_bits cfg) -> anomalous_true (c_bits cfg) -> prints hexw hexp dec -> Hex_Props.prints_hex hexw ->
  Shell_Spec.separate ino writable io -> Shell_Spec.input_is ino readable io fs kbd d input ->
  Shell_Model.i_append io = false -> Shell_Spec.out_file ino writable io i ->
  let '(w, status) := Shell_Model.main ino readable writable (fun _ => None) reason true io seadata
      (exhaustive_do P cfg hexw hexp dec junk draws tries fuel avma d (snd (Plan_Model.cm_init cfg false [N_method])) outer) (Shell_Model.fresh fs kbd) in
  status = Some 0 ->
  exists text cs, Shell_Model.files w i = Some text /\ Z.of_nat (length cs) = c_count cfg /\ Forall (wanted_anomalous cfg hexw) cs /\
    (exists v, json text v) /\
    forall v, json text v -> exists ds, v = JArr ds /\ all read_curve ds = Some cs.
Proof.
  intros L Pl F SU B S0 C0 AO AT OK HX S I NA O. destruct (line_anomalous _ _ _ _ _ L Pl F SU B S0) as (IA & CU).
  apply (C82_run_partial P cfg AO AT IA hexw hexp dec OK HX junk draws tries fuel avma ino readable writable reason io seadata fs kbd d input outer i S I NA O). lia.
Qed.
Example C82_line_example : exists set, cli 4 anomalous_line [lit "6"] = Some (anomalous_cfg, set) /\ Forall anomalous_or anomalous_line /\ In OFp anomalous_line /\ In OAnomalous anomalous_line /\
  6 <= c_bits anomalous_cfg < 2 ^ 61 /\ 0 <= c_smooth_value anomalous_cfg /\ 0 <= c_count anomalous_cfg.
Proof.
  eexists. split; [vm_compute; reflexivity|]. split; [repeat (apply Forall_cons; [(right; exact I) || (left; reflexivity)|]); apply Forall_nil|].
  split; [cbn; auto|]. split; [cbn; auto|]. vm_compute. intuition congruence.
Qed.
Print Assumptions C82_line_partial.

(** C83 for a command line. Full statement and what is missing: see C83_run_partial; here the configuration is the one
    that cli_parse makes of the options. Which family it is: C56_values. *)
Theorem C83_line_partial np os arg cfg set P hexw hexp dec junk draws tries fuel avma ino readable writable reason io seadata fs kbd d input outer i :
  cli np os [arg] = Some (cfg, set) -> Forall family_or os -> (exists a, In (OFamily a) os) -> sextic (c_family cfg) ->
  1 <= c_bits cfg < 2 ^ 61 -> 0 <= c_smooth_value cfg -> 0 <= c_count cfg ->
  family_ok P cfg -> prints hexw hexp dec -> Hex_Props.prints_hex hexw ->
  Shell_Spec.separate ino writable io -> Shell_Spec.input_is ino readable io fs kbd d input ->
  Shell_Model.i_append io = false -> Shell_Spec.out_file ino writable io i ->
  let '(w, status) := Shell_Model.main ino readable writable (fun _ => None) reason true io seadata
      (exhaustive_do P cfg hexw hexp dec junk draws tries fuel avma d (snd (Plan_Model.exhaustive_init cfg [N_method])) outer) (Shell_Model.fresh fs kbd) in
  status = Some 0 ->
  exists text cs, Shell_Model.files w i = Some text /\ Z.of_nat (length cs) = c_count cfg /\ each (wanted_family cfg hexw (undisturbed cfg draws) d) d input cs /\
    (exists v, json text v) /\
    forall v, json text v -> exists ds, v = JArr ds /\ all read_curve ds = Some cs.
Proof.
  intros L Pl SU SX B S0 C0 FO OK HX S I NA O. destruct (line_family _ _ _ _ _ L Pl SU SX B S0) as (IF & CU).
  apply (C83_run_partial P cfg FO IF hexw hexp dec OK HX junk draws tries fuel avma ino readable writable reason io seadata fs kbd d input outer i S I NA O). lia.
Qed.
Example C83_line_example : exists set, cli 4 family_line [lit "1"] = Some (family_cfg1, set) /\ Forall family_or family_line /\ (exists a, In (OFamily a) family_line) /\
  sextic (c_family family_cfg1) /\ 1 <= c_bits family_cfg1 < 2 ^ 61 /\ 0 <= c_smooth_value family_cfg1 /\ 0 <= c_count family_cfg1.
Proof.
  eexists. split; [vm_compute; reflexivity|]. split; [repeat (apply Forall_cons; [(right; exact I) || (left; eexists; reflexivity)|]); apply Forall_nil|].
  split; [eexists; cbn; right; left; reflexivity|]. vm_compute. intuition congruence.
Qed.
Print Assumptions C83_line_partial.

(** C84 for a command line. Full statement and what is missing: see C84_run_partial; here the configuration is the one
    that cli_parse makes of the options. *)
Theorem C84_line_partial np os arg cfg set P hexw hexp dec junk draws tries fuel avma ino readable writable reason io seadata fs kbd d input outer i :
  cli np os [arg] = Some (cfg, set) -> Forall ansi_or os -> In OF2m os -> (exists a, In (OAnsi a) os) -> Plan_Model.is_random cfg RANDOM_FIELD = true ->
  3 <= c_bits cfg -> listed (c_bits cfg) -> 0 <= c_smooth_value cfg -> 0 <= c_count cfg -> (forall u, Cli_Model.c_seed cfg = Some u -> Z.of_nat (length u) < 2 ^ 29) ->
  pari_over P (binary_over (c_bits cfg)) -> never_top cfg draws -> prints hexw hexp dec -> Hex_Props.prints_hex hexw ->
  Shell_Spec.separate ino writable io -> Shell_Spec.input_is ino readable io fs kbd d input ->
  Shell_Model.i_append io = false -> Shell_Spec.out_file ino writable io i ->
  let '(w, status) := Shell_Model.main ino readable writable (fun _ => None) reason true io seadata
      (exhaustive_do P cfg hexw hexp dec junk draws tries fuel avma d (snd (Plan_Model.exhaustive_init cfg [N_method])) outer) (Shell_Model.fresh fs kbd) in
  status = Some 0 ->
  exists text cs, Shell_Model.files w i = Some text /\ Z.of_nat (length cs) = c_count cfg /\
    each (fun l c => huge l \/ wanted_ansi_binary cfg hexw d l c) d input cs /\
    (exists v, json text v) /\
    forall v, json text v -> exists ds, v = JArr ds /\ all read_curve ds = Some cs.
Proof.
  intros L Pl F SU R B BL S0 C0 SL PO NT OK HX S I NA O. destruct (line_ansi_binary _ _ _ _ _ L Pl F SU R B BL S0 SL) as (IA & CU).
  apply (C84_run_partial P cfg PO IA hexw hexp dec OK HX junk draws NT tries fuel avma ino readable writable reason io seadata fs kbd d input outer i S I NA O). lia.
Qed.
Example C84_line_example : exists set, cli 4 ansi2_line [lit "3"] = Some (ansi2_cfg, set) /\ Forall ansi_or ansi2_line /\
  In OF2m ansi2_line /\ In (OAnsi None) ansi2_line /\ Plan_Model.is_random ansi2_cfg RANDOM_FIELD = true /\ never_top ansi2_cfg ansi2_draws /\
  3 <= c_bits ansi2_cfg /\ listed (c_bits ansi2_cfg) /\ 0 <= c_smooth_value ansi2_cfg /\ 0 <= c_count ansi2_cfg /\ Cli_Model.c_seed ansi2_cfg = None.
Proof.
  eexists. split; [vm_compute; reflexivity|]. split; [repeat (apply Forall_cons; [(right; exact I) || (left; eexists; reflexivity)|]); apply Forall_nil|]. split; [cbn; auto|]. split; [cbn; auto|].
  split; [reflexivity|]. split; [apply ansi2_never_top; reflexivity|]. split; [vm_compute; discriminate|]. split; [left; vm_compute; split; discriminate|]. vm_compute. intuition congruence.
Qed.
Print Assumptions C84_line_partial.

(** C85 for a command line. Full statement and what is missing: see C85_run_partial; here the configuration is the one
    that cli_parse makes of the options. *)
Theorem C85_line_partial np os arg cfg set P hexw hexp dec junk draws tries fuel avma ino readable writable reason io seadata fs kbd d input outer i :
  cli np os [arg] = Some (cfg, set) -> Forall allowed os -> In OF2m os -> Plan_Model.is_random cfg RANDOM_FIELD = true ->
  3 <= c_bits cfg -> listed (c_bits cfg) -> 0 <= c_smooth_value cfg -> 0 <= c_count cfg ->
  pari_over P (binary_over (c_bits cfg)) -> prints hexw hexp dec -> Hex_Props.prints_hex hexw ->
  Shell_Spec.separate ino writable io -> Shell_Spec.input_is ino readable io fs kbd d input ->
  Shell_Model.i_append io = false -> Shell_Spec.out_file ino writable io i ->
  let '(w, status) := Shell_Model.main ino readable writable (fun _ => None) reason true io seadata
      (exhaustive_do P cfg hexw hexp dec junk draws tries fuel avma d (snd (Plan_Model.exhaustive_init cfg [N_method])) outer) (Shell_Model.fresh fs kbd) in
  status = Some 0 ->
  exists text cs, Shell_Model.files w i = Some text /\ Z.of_nat (length cs) = c_count cfg /\
    each (fun l c => Forall (usable d (c_bits cfg)) l -> wanted_binary_typed cfg hexw d l c) d input cs /\
    (exists v, json text v) /\
    forall v, json text v -> exists ds, v = JArr ds /\ all read_curve ds = Some cs.
Proof.
  intros L Al F R B BL S0 C0 PO OK HX S I NA O. destruct (line_binary_typed _ _ _ _ _ L Al F R B BL S0) as (IB & CU).
  apply (C85_run_partial P cfg PO IB hexw hexp dec OK HX junk draws tries fuel avma ino readable writable reason io seadata fs kbd d input outer i S I NA O). lia.
Qed.
Example C85_line_example : exists set, cli 4 typed2_line [lit "3"] = Some (typed2_cfg, set) /\ Forall allowed typed2_line /\ In OF2m typed2_line /\
  Plan_Model.is_random typed2_cfg RANDOM_FIELD = true /\ Plan_Model.is_random typed2_cfg RANDOM_A = false /\
  3 <= c_bits typed2_cfg /\ listed (c_bits typed2_cfg) /\ 0 <= c_smooth_value typed2_cfg /\ 0 <= c_count typed2_cfg.
Proof.
  eexists. split; [vm_compute; reflexivity|]. split; [repeat constructor|]. split; [cbn; auto|]. split; [reflexivity|]. split; [reflexivity|]. split; [vm_compute; discriminate|].
  split; [left; vm_compute; split; discriminate|]. vm_compute. intuition congruence.
Qed.
Print Assumptions C85_line_partial.

(** --order *)
Definition order_or (t : str) (o : copt) : Prop := o = OOrder t \/ allowed o.
Lemma text_step np o s s' : allowed o -> cli_parse np o s = Some s' -> c_cm_order (fst s') = c_cm_order (fst s).
Proof.
  intros Pl H. destruct s as (c & l). destruct o; try contradiction Pl; cbn [cli_parse SET upd_cfg fst snd] in H.
  all: repeat match type of H with
  | (let (_, _) := ?x in _) = _ => destruct x
  | match ?x with _ => _ end = _ => destruct x; try discriminate H
  | (if ?x then _ else _) = _ => destruct x; try discriminate H
  end; try (injection H as <-; reflexivity).
  all: cbv zeta in H; repeat match type of H with (if ?x then _ else _) = _ => destruct x; try discriminate H end; injection H as <-; try destruct (0 <? np); reflexivity.
Qed.
Lemma order_options np t os : forall s s', Forall (order_or t) os -> options np os s = Some s' ->
  (c_method (fst s) = METHOD_DEFAULT \/ (c_method (fst s) = METHOD_CM /\ c_cm_order (fst s) = Some t)) -> c_seed_algo (fst s') = c_seed_algo (fst s) /\
  (c_method (fst s) = METHOD_CM \/ In (OOrder t) os -> c_method (fst s') = METHOD_CM /\ c_cm_order (fst s') = Some t).
Proof.
  induction os as [|o os IH]; intros s s' Pl H M; cbn [options] in H.
  - injection H as <-. split; [reflexivity|]. intros [X|[]]. destruct M as [M|M]; [rewrite M in X; discriminate X|exact M].
  - inversion Pl as [|? ? P1 P2]; subst. destruct (cli_parse np o s) as [s1|] eqn:E; [|discriminate H]. destruct P1 as [-> |P1].
    + destruct s as (c & l). cbn [cli_parse] in E. unfold add_method in E. cbn [SET upd_cfg fst snd] in E. destruct (regexec t); [|discriminate E]. injection E as <-. cbn [fst] in *.
      assert (X : Z.lor (c_method c) METHOD_CM = METHOD_CM) by (destruct M as [-> |(-> & _)]; reflexivity).
      destruct (IH _ s' P2 H) as (A & B); [right; split; [exact X|reflexivity]|]. split; [exact A|]. intros _. apply B. left. exact X.
    + pose proof (method_step np o s s1 P1 E) as Q. unfold method_of in Q. injection Q as Q1 Q2 Q3. pose proof (text_step np o s s1 P1 E) as Q4.
      destruct (IH _ s' P2 H) as (A & B); [rewrite Q1, Q4; exact M|]. split; [congruence|].
      intros [X|[X|X]]; apply B; [left; congruence|subst o; contradiction P1|right; exact X].
Qed.
Lemma line_text np os arg cfg set s : cli np os [arg] = Some (cfg, set) -> options np os (cfg0, []) = Some s -> c_cm_order cfg = c_cm_order (fst s).
Proof.
  intros H O. unfold cli in H. rewrite O in H. destruct s as (c & l). unfold cli_arg in H. destruct (strtoul arg) as (b & rest). destruct rest; [|discriminate H]. cbn [upd_cfg fst snd] in H.
  match type of H with (if cli_end_ok ?x then _ else _) = _ => set (c1 := x) in *; destruct (cli_end_ok c1); [|discriminate H] end.
  assert (X : cfg = cli_defaults c1) by (apply (f_equal (fun o => match o with Some (x, _) => x | None => cfg0 end)) in H; symmetry; exact H).
  assert (C : c_cm_order c1 = c_cm_order c) by reflexivity. clear - X C. cbn [fst]. rewrite <- C. clearbody c1. subst cfg. unfold cli_defaults.
  repeat match goal with |- context [if ?b then _ else _] => destruct b end; reflexivity.
Qed.
Lemma line_order np os arg cfg set t N : cli np os [arg] = Some (cfg, set) -> Forall (order_or t) os -> In (OOrder t) os ->
  c_bits cfg < 2 ^ 61 -> 0 <= c_smooth_value cfg -> Input_Props.magnitude t N -> prime N -> 21 < N -> N mod 3 = 2 -> c_points_type cfg <> POINTS_RANDOM ->
  in_order cfg t N /\ c_count cfg < 2 ^ 63.
Proof.
  intros H Al F B S0 MN PN LN TN TY. assert (Kn : Forall known os) by (apply Forall_impl with (2 := Al); intros o [-> |]; [exact I|destruct o; cbn in *; auto]).
  destruct (line_any _ _ _ _ _ H Kn B S0) as (s & O & [L1 L2 L3 _ L4 (_ & T & A & SM) L6 L7 L8 L9]). split; [|exact L6].
  destruct (order_options np t os _ _ Al O (or_introl eq_refl)) as (AL & M). destruct (M (or_intror F)) as (M1 & M2).
  constructor; try assumption; [congruence|rewrite L3; exact AL|rewrite (line_text _ _ _ _ _ _ H O); exact M2| |lia].
  change (c_points_type cfg <> 2) in TY. clear - T TY. lia.
Qed.
(** C88 for a command line. Full statement and what is missing: see C88_run_partial; here the configuration is the one
    that cli_parse makes of the options. *)
Theorem C88_line_partial np os arg cfg set t N P hexw hexp dec junk draws tries fuel avma ino readable writable reason io seadata fs kbd d input outer i :
  cli np os [arg] = Some (cfg, set) -> Forall (order_or t) os -> In (OOrder t) os ->
  c_bits cfg < 2 ^ 61 -> 0 <= c_smooth_value cfg -> 0 <= c_count cfg -> c_points_type cfg <> POINTS_RANDOM ->
  Input_Props.magnitude t N -> prime N -> 21 < N -> N mod 3 = 2 -> cm_ok P N -> prints hexw hexp dec -> Hex_Props.prints_hex hexw ->
  Shell_Spec.separate ino writable io -> Shell_Spec.input_is ino readable io fs kbd d input ->
  Shell_Model.i_append io = false -> Shell_Spec.out_file ino writable io i ->
  let '(w, status) := Shell_Model.main ino readable writable (fun _ => None) reason true io seadata
      (exhaustive_do P cfg hexw hexp dec junk draws tries fuel avma d (snd (Plan_Model.cm_init cfg true [N_method])) outer) (Shell_Model.fresh fs kbd) in
  status = Some 0 ->
  exists text cs, Shell_Model.files w i = Some text /\ Z.of_nat (length cs) = c_count cfg /\ each (wanted_order cfg hexw N) d input cs /\
    (exists v, json text v) /\
    forall v, json text v -> exists ds, v = JArr ds /\ all read_curve ds = Some cs.
Proof.
  intros L Pl F B S0 C0 TY MN PN LN TN CO OK HX S I NA O. destruct (line_order _ _ _ _ _ _ _ L Pl F B S0 MN PN LN TN TY) as (IO & CU).
  apply (C88_run_partial P cfg t N CO IO hexw hexp dec OK HX junk draws tries fuel avma ino readable writable reason io seadata fs kbd d input outer i S I NA O). lia.
Qed.
Example C88_line_example : exists set, cli 4 order_line [lit "6"] = Some (cfg71, set) /\ Forall (order_or (lit "71")) order_line /\ In (OOrder (lit "71")) order_line /\
  c_bits cfg71 < 2 ^ 61 /\ 0 <= c_smooth_value cfg71 /\ 0 <= c_count cfg71 /\ c_points_type cfg71 <> POINTS_RANDOM.
Proof.
  eexists. split; [vm_compute; reflexivity|]. split; [repeat (apply Forall_cons; [(right; exact I) || (left; reflexivity)|]); apply Forall_nil|].
  split; [cbn; auto|]. vm_compute. intuition congruence.
Qed.
Print Assumptions C88_line_partial.
