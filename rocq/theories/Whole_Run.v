(** From the stages of a plan to the file of a run: what holds of every plan that ends like those of the random
    curves (Whole_Proofs.search_result). *)
From Coq Require Import Ascii String Znumtheory.
From Verif Require Import Base Fp Ec Poly_Model Points_Model Points_Props Hex_Model Cli_Model Json_Spec CurveText_Spec.
From Verif Require Import Whole_Model Whole_Spec Whole_Reads Whole_Stages Whole_Proofs Whole_Output Shell_Fields.
From Verif Require Bits_Spec Ansi_Model CurveText_Model CurveText_Props Plan_Model Engine_Model Shell_Model Shell_Spec Shell_Props RunText_Props Output_Props Hex_Props Json_Proofs.
Local Open Scope Z_scope.
Local Open Scope list_scope.
Notation str := (list ascii).

(** how a field is published *)
Definition shown_field (f : field) : pub_field :=
  match f with
  | Prime p => PubPrime p
  | Binary poly => PubBinary (map Z.of_nat (exponents poly) ++ repeat 0 (4 - length (exponents poly)))
  end.
(** the seed, the field and the coefficients of a published curve are those of [k] *)
Definition shows (k : curve) (c : pub) : Prop :=
  pub_seed c = option_map (fun s => seed_text (seed_bits s)) (k_seed k) /\
  (exists p, k_field k = Some p /\ pub_f c = shown_field p) /\
  (exists x, k_a k = Some x /\ pub_a c = elem_int x) /\ (exists y, k_b k = Some y /\ pub_b c = elem_int y).

(** and the generators *)
Definition shows_gens (k : curve) (c : pub) : Prop :=
  exists g, k_gens k = Some g /\ map (fun s => xy_of (fst s)) (pub_groups c) = map (fun s => p_point (s_gen s)) g.

(** ** A search that succeeds *)
Section Found.
Variable P : pari.
Variable cfg : config.
Variable hexw hexp dec : Z -> str.
Hypothesis HX : Hex_Props.prints_hex hexw.
Variable over : field -> Z -> Z -> Prop.
Variable Sg : curve -> nat -> Prop.
Variable p : field.
Variables a b : Z.
Variable c : curve.
Variable pos : nat.
Variable o : CurveText_Model.ccurve.
Hypothesis F : ended P cfg over hexw Sg c pos p a b.
Hypothesis TO : to_output c = Ok o.
Hypothesis FB : fitsb cfg hexw hexp dec o = true.

Lemma found_output : exists g x y, k_gens c = Some g /\ k_a c = Some x /\ k_b c = Some y /\ elem_int x = a /\ elem_int y = b /\ k_field c = Some p /\
  o = CurveText_Model.CCurve p (option_map seed_bits (k_seed c)) x y (points p a b) (map (hsub p) g) (to_meta (k_meta c)) /\
  Forall (fun s => printable_group (hsub p s)) g.
Proof.
  destruct (e_points _ _ _ _ _ _ _ _ _ _ F) as (g & Kg & _).
  destruct (e_vals _ _ _ _ _ _ _ _ _ _ F) as (Kp & _ & _ & x & y & Ka & Kb & Va & Vb). destruct (e_order _ _ _ _ _ _ _ _ _ _ F) as (Ko & _).
  exists g, x, y. repeat (split; [assumption|]).
  unfold to_output in TO. rewrite Kp, Ka, Kb, Ko, Kg in TO. cbn [need bind] in TO.
  assert (E : o = CurveText_Model.CCurve p (option_map seed_bits (k_seed c)) x y (points p a b) (map (hsub p) g) (to_meta (k_meta c))) by congruence.
  split; [exact E|]. pose proof (fitsb_fits _ _ _ _ _ FB) as ((_ & _ & _ & _ & _ & G) & _). rewrite E in G. cbn [CurveText_Model.c_gens] in G. now rewrite Forall_map in G.
Qed.
Lemma found_shows : shows c (published (c_metadata cfg) o).
Proof.
  destruct found_output as (g & x & y & Kg & Ka & Kb & _ & _ & Kp & -> & _). unfold shows, published.
  cbn [pub_seed pub_f pub_a pub_b CurveText_Model.c_seed CurveText_Model.c_field CurveText_Model.c_a CurveText_Model.c_b].
  split; [now destruct (k_seed c)|]. split; [exists p; now split|]. split; [exists x; now split|exists y; now split].
Qed.

Lemma found_gens : shows_gens c (published (c_metadata cfg) o).
Proof.
  destruct found_output as (g & x & y & Kg & _ & _ & _ & _ & _ & E & PG). exists g. split; [exact Kg|].
  assert (GE : pub_groups (published (c_metadata cfg) o) = map (pubsub p) g) by (rewrite E; cbn [published pub_groups CurveText_Model.c_gens]; apply pub_groups_h).
  rewrite GE, map_map. apply map_ext_in. intros s Is. cbn [pubsub fst]. apply pub_xy. rewrite Forall_forall in PG. apply (group_given p s). exact (PG s Is).
Qed.

Lemma found_wanted : pub_f (published (c_metadata cfg) o) = shown_field p /\ wanted_curve cfg hexw p (published (c_metadata cfg) o).
Proof.
  destruct found_output as (g & x & y & Kg & Ka & Kb & Va & Vb & Kp & E & PG).
  assert (GV : Forall (fun s => given (s_gen s) /\ Forall given (rpoints s)) g) by (apply Forall_impl with (2 := PG); intros s; apply group_given).
  destruct (e_vals _ _ _ _ _ _ _ _ _ _ F) as (_ & _ & (Ia & Ib) & _). pose proof (e_curve _ _ _ _ _ _ _ _ _ _ F) as CO.
  destruct (e_order _ _ _ _ _ _ _ _ _ _ F) as (Ko & OW). destruct (e_points _ _ _ _ _ _ _ _ _ _ F) as (g' & Kg' & PL).
  assert (g' = g) by congruence. subst g'.
  assert (GG : Forall given (map s_gen g)) by (rewrite Forall_map; apply Forall_impl with (2 := GV); tauto).
  assert (FG : Forall finite g) by (apply Forall_impl with (2 := GV); unfold finite, given; tauto).
  destruct (PL FG) as (RG & RL & RA).
  assert (GE : pub_groups (published (c_metadata cfg) o) = map (pubsub p) g) by (rewrite E; cbn [published pub_groups CurveText_Model.c_gens]; apply pub_groups_h).
  assert (Room : room (doc hexw hexp dec (published (c_metadata cfg) o)) 0 < 2 ^ 31 - 1) by (apply (fitsb_fits _ _ _ _ _ FB)).
  pose proof (doc_weight hexw hexp dec (published (c_metadata cfg) o)) as DW. rewrite GE in DW.
  split; [rewrite E; reflexivity|]. unfold wanted_curve.
  rewrite GE. rewrite E. cbn [published pub_a pub_b pub_seed CurveText_Spec.pub_order pub_meta CurveText_Model.c_a CurveText_Model.c_b CurveText_Model.c_seed CurveText_Model.c_order CurveText_Model.c_meta]. cbv zeta.
  rewrite Va, Vb.
  split; [exact (co_ns _ _ _ CO)|]. split; [reflexivity|]. split; [exact OW|]. split; [|split; [|split; [|split]]].
  - rewrite map_map. cbn [pubsub fst]. rewrite <- (map_map s_gen (pubpt p)). now apply pub_gens.
  - rewrite Forall_map. rewrite Forall_forall in *. intros s Is. apply pub_points; [apply (GV s Is)|apply (GV s Is)|now apply RL].
  - now apply pub_amount.
  - exact (e_meta _ _ _ _ _ _ _ _ _ _ F).
  - intros s Hs Ih Ns Ls. pose proof (e_hex _ _ _ _ _ _ _ _ _ _ F s Hs) as H. unfold check in H. rewrite Kp, Ka, Kb, Ko, Kg in H. cbn [need bind] in H.
    rewrite (hgens_given p g PG) in H. cbn [bind] in H. rewrite <- (numbers_given p a b (option_map seed_bits (k_seed c)) x y g GV Va Vb).
    assert (NE : g <> []) by (intros ->; unfold hex_check_param in H; cbn [map h_gens h_seed] in H; revert H; clear; intros H;
      repeat match type of H with (bind ?m ?k) = Ok _ => let E := fresh in destruct m eqn:E; cbn [bind] in H; try discriminate H end).
    set (hc := HCurve (option_map seed_bits (k_seed c)) p x y (points p a b) (map (hgen_pub p) g)) in *.
    pose proof (fitsb_fits _ _ _ _ _ FB) as ((_ & SD & A0 & B0 & O0 & _) & _). rewrite E in SD, A0, B0, O0.
    cbn [CurveText_Model.c_seed CurveText_Model.c_a CurveText_Model.c_b CurveText_Model.c_order] in SD, A0, B0, O0. rewrite Va in A0. rewrite Vb in B0.
    assert (SA : Hex_Props.sane hexw hc).
    { destruct (hex_lengths hexw hexp dec p g GV) as (L1 & L2 & L3).
      split; [unfold hc; cbn [h_seed]; destruct (option_map seed_bits (k_seed c)); [apply SD|exact I]|]. split; [|split; [|split; [|split; [|split]]]].
      - unfold hc. rewrite (numbers_given p a b _ x y g GV Va Vb). apply numbers_pos; [pose proof (co_field _ _ _ CO) as CF; unfold field_ok in CF; clear - CF; destruct p; [lia|exact I]|exact A0|exact B0|exact O0|exact PG].
      - cbn. destruct g; [congruence|discriminate].
      - cbn. rewrite Forall_map. apply Forall_impl with (2 := GV). intros z (A & B). cbn [hgen_pub hg_point hg_points]. unfold given in A. split.
        + destruct (p_point (s_gen z)) as [[? ?]|]; [discriminate|congruence].
        + rewrite !Forall_map. apply Forall_impl with (2 := B). intros q Q. unfold given in Q. destruct (p_point q) as [[? ?]|]; [discriminate|congruence].
      - cbn [h_gens hc]. rewrite map_length. lia.
      - cbn [h_gens hc]. unfold Str_Model.max_alloc. lia.
      - cbn [h_gens hc]. unfold Str_Model.max_alloc. lia. }
    destruct (proj1 (proj1 (Hex_Props.C58_exact_partial hexw s hc HX SA Ih Ns Ls)) H) as (t & [(bb & X & ->)|(m & Im & ->)] & Ct); [right|left].
    + unfold hc in X. cbn [h_seed] in X. rewrite X. exists (seed_text bb). split; [reflexivity|]. unfold seed_text.
      apply Hex_Props.contains_app_r. apply (Hex_Props.contains_app_r ["0"%char; "x"%char]). exact Ct.
    + exists m. split; [exact Im|exact Ct].
Qed.
End Found.

(** where no undefined behaviour is to be expected *)
Lemma result_defined P cfg over hexw En (SF : Prop) r w : safe cfg -> SF ->
  match r with Engine_Model.Returned r => (r = 1 /\ success P cfg over hexw En w) \/ (r = 0 /\ failed cfg SF w) | Engine_Model.NoFuel => True | _ => False end ->
  match r with
  | Engine_Model.Returned 1 => w_wrong w = None /\ exists c, to_output (w_curve w) = Ok c
  | Engine_Model.Returned 0 => w_wrong w <> Some Undefined
  | Engine_Model.NoFuel => True
  | _ => False
  end.
Proof.
  intros SA SF' S. destruct r as [r| | |]; try exact S.
  destruct S as [(-> & (W & p & a & b & F))|(-> & S)]; [|exact (S (conj SA SF'))].
  split; [exact W|]. unfold to_output.
  destruct (e_vals _ _ _ _ _ _ _ _ _ _ F) as (-> & _ & _ & x & y & -> & -> & _). destruct (e_order _ _ _ _ _ _ _ _ _ _ F) as (-> & _).
  destruct (e_points _ _ _ _ _ _ _ _ _ _ F) as (g & -> & _). eexists. reflexivity.
Qed.

(** ** The run *)
Section Run.
Variable P : pari.
Variable cfg : config.
Variable hexw hexp dec : Z -> str.
Hypothesis OK : prints hexw hexp dec.
Hypothesis HX : Hex_Props.prints_hex hexw.
Variable junk : nat -> ascii.
Variable draws : Z -> nat -> draw.
Variable tries fuel : nat.
Variable avma : Z.
Variable delim : ascii.
Variable su : Plan_Model.setup_t.
Variable over : field -> Z -> Z -> Prop.
Variable En : list str -> curve -> nat -> Prop.
Variable SF : Prop.
(** the lists of fields that are looked at *)
Variable lok : list str -> Prop.
(** the result of a search, for every such list of fields to read from *)
Hypothesis SR : forall l i fuel av r w, lok l -> search P cfg hexw tries delim l (draws i) su fuel av = (r, w) ->
  match r with Engine_Model.Returned r => (r = 1 /\ success P cfg over hexw (En l) w) \/ (r = 0 /\ failed cfg SF w) | Engine_Model.NoFuel => True | _ => False end.
Notation gen := (one_curve P cfg hexw hexp dec draws tries fuel avma delim su).
Notation asks := (ask P cfg hexw hexp dec draws tries fuel avma delim su).
Notation shown := (RunText_Props.shown hexw hexp dec junk (c_metadata cfg)).
Notation fits := (RunText_Props.fits hexw hexp dec (c_metadata cfg)).

(** what a published curve is when the fields [l] were read for it *)
Definition found (l : list str) (c : pub) : Prop :=
  exists k p, (En l k (length l) /\ shows k c) /\ k_field k = Some p /\ over p (pub_a c) (pub_b c) /\ wanted_curve cfg hexw p c /\ shows_gens k c.
Definition sought (l : list str) (c : CurveText_Model.ccurve) : Prop := fits c /\ (lok l -> found l (published (c_metadata cfg) c)).

Lemma finished_found l i r w c : search P cfg hexw tries delim l (draws i) su fuel avma = (r, w) -> (length l <= w_pos w)%nat ->
  finished cfg hexw hexp dec r w = Shell_Model.Done (Some c) -> sought l c.
Proof.
  intros S A H. pose proof (search_bound _ _ _ _ _ _ _ _ _ _ _ _ S) as B. unfold finished in H. destruct r as [r| | |]; try discriminate H.
  assert (R1 : r = 1) by (destruct r as [|[| |]|]; try reflexivity; destruct (w_wrong w) as [[]|]; discriminate H). subst r.
  destruct (to_output (w_curve w)) as [o| | |] eqn:TO; try discriminate H. destruct (fitsb cfg hexw hexp dec o) eqn:FB; [|discriminate H].
  injection H as <-. split; [now apply fitsb_fits|]. intros LO. apply (SR _ _ _ _ _ _ LO) in S. destruct S as [(_ & (_ & p & a & b & F))|(X & _)]; [|discriminate X]. exists (w_curve w), p.
  destruct (e_vals _ _ _ _ _ _ _ _ _ _ F) as (V1 & V2 & _ & x & y & Kx & Ky & Ex & Ey).
  pose proof (found_shows P cfg hexw hexp dec over (En l) p a b (w_curve w) (w_pos w) o F TO FB) as SH.
  assert (V3 : over p (pub_a (published (c_metadata cfg) o)) (pub_b (published (c_metadata cfg) o))).
  { destruct SH as (_ & _ & (x' & Kx' & ->) & (y' & Ky' & ->)). rewrite Kx in Kx'. injection Kx' as <-. rewrite Ky in Ky'. injection Ky' as <-. now rewrite Ex, Ey. }
  split; [split|].
  - replace (length l) with (w_pos w) by lia. apply (e_known _ _ _ _ _ _ _ _ _ _ F).
  - exact SH.
  - split; [exact V1|]. split; [exact V3|]. split; [apply (found_wanted P cfg hexw hexp dec HX over (En l) p a b (w_curve w) (w_pos w) o F TO FB)|].
    exact (found_gens P cfg hexw hexp dec over (En l) p a b (w_curve w) (w_pos w) o F TO FB).
Qed.
Lemma finished_cases r w : (exists c, finished cfg hexw hexp dec r w = Shell_Model.Done c) \/ (exists s, finished cfg hexw hexp dec r w = Shell_Model.Exit s /\ s <> 0).
Proof.
  unfold finished, UNDEFINED, UNFINISHED.
  repeat match goal with |- context [match ?x with _ => _ end] => destruct x; try (left; eexists; reflexivity); try (right; eexists; split; [reflexivity|discriminate]) end.
Qed.
Lemma ask_rule d whole : forall n i k,
  let l := taken d k whole in let input := left_over d k whole in
  (length l <= w_pos (snd (search P cfg hexw tries delim l (draws i) su fuel avma)))%nat ->
  Shell_Spec.says Shell_Model.Out (asks n i l) d input = [] /\ Shell_Spec.ends (asks n i l) d input <> Shell_Model.Exited 0 /\
  forall c, Shell_Spec.ends (asks n i l) d input = Shell_Model.Returned (Some c) -> exists k', sought (taken d k' whole) c /\ leaves (asks n i l) d input = left_over d k' whole.
Proof.
  induction n as [|n IH]; intros i k l input RE; cbn [ask]; destruct (search P cfg hexw tries delim l (draws i) su fuel avma) as [r w] eqn:S; cbn [snd] in RE.
  all: assert (FI : Shell_Spec.says Shell_Model.Out (finished cfg hexw hexp dec r w) d input = [] /\ Shell_Spec.ends (finished cfg hexw hexp dec r w) d input <> Shell_Model.Exited 0 /\
    forall c, Shell_Spec.ends (finished cfg hexw hexp dec r w) d input = Shell_Model.Returned (Some c) -> exists k', sought (taken d k' whole) c /\ leaves (finished cfg hexw hexp dec r w) d input = left_over d k' whole).
  1, 3: destruct (finished_cases r w) as [(c & E)|(s & E & N)]; rewrite E; cbn; (split; [reflexivity|]); (split; [congruence|]);
    intros c' X; try discriminate X; exists k; (split; [|reflexivity]); apply (finished_found l i r w); [exact S|exact RE|rewrite E; congruence].
  - destruct (w_wrong w) as [[]|]; try exact FI. cbn. split; [reflexivity|]. split; [discriminate|]. intros c X. discriminate X.
  - destruct (w_wrong w) as [[]|] eqn:SV; try exact FI. clear FI. specialize (IH i (Datatypes.S k)). cbv zeta in IH.
    rewrite taken_snoc, left_snoc in IH. fold l input in IH. cbn [Shell_Spec.says Shell_Spec.ends leaves]. destruct (Shell_Model.field d input) as (t, rest). apply IH.
    destruct (search P cfg hexw tries delim (l ++ [fst (t, rest)]) (draws i) su fuel avma) as [r' w'] eqn:S'. exact (search_more _ _ _ _ _ _ _ _ _ _ _ _ _ _ _ S SV S').
Qed.

(** the file of the run *)
Theorem run_file_if ino readable writable reason io seadata fs kbd d input outer i :
  Shell_Spec.separate ino writable io -> Shell_Spec.input_is ino readable io fs kbd d input ->
  Shell_Model.i_append io = false -> Shell_Spec.out_file ino writable io i -> 0 <= c_count cfg < 2 ^ 64 ->
  let '(w, status) := Shell_Model.main ino readable writable (fun _ => None) reason true io seadata
      (exhaustive_do P cfg hexw hexp dec junk draws tries fuel avma delim su outer) (Shell_Model.fresh fs kbd) in
  status = Some 0 ->
  exists text cs, Shell_Model.files w i = Some text /\ Z.of_nat (length cs) = c_count cfg /\ each (fun l c => lok l -> found l c) d input cs /\
    (exists v, json text v) /\
    forall v, json text v -> exists ds, v = JArr ds /\ all read_curve ds = Some cs.
Proof.
  intros S I NA O B.
  pose proof (Shell_Props.C71_contents_partial ino readable writable (fun _ => None) reason io seadata
    (exhaustive_do P cfg hexw hexp dec junk draws tries fuel avma delim su outer) fs kbd d input (fun _ => eq_refl) S I) as H.
  destruct (Shell_Model.main _ _ _ _ _ true io seadata _ (Shell_Model.fresh fs kbd)) as (w, status). destruct H as (-> & H & _). intros E.
  destruct (H i O) as (F & _). unfold Shell_Spec.kept in F. rewrite NA in F. cbn [app] in F.
  destruct (exhaustive_fields shown gen sought d
    (fun j inp => proj1 (ask_rule d inp fuel j 0 (Nat.le_0_l _))) (fun j inp => proj1 (proj2 (ask_rule d inp fuel j 0 (Nat.le_0_l _)))) (fun j inp => proj2 (proj2 (ask_rule d inp fuel j 0 (Nat.le_0_l _))))
    (c_count cfg) outer input B E) as (cs & N & PS & T).
  assert (FT : Forall fits cs) by (apply (each_all sought) with (2 := PS); intros l c (X & _); exact X).
  exists (list_ascii_of_string (Output_Props.array (map shown cs))), (map (published (c_metadata cfg)) cs). split; [rewrite F; f_equal; exact T|].
  split; [now rewrite map_length|]. split; [apply each_map; apply (each_impl sought) with (2 := PS); intros l c (_ & X); exact X|].
  pose proof (RunText_Props.array_json _ _ (RunText_Props.shown_all hexw hexp dec OK junk (c_metadata cfg) cs FT)) as J. split; [eexists; exact J|].
  intros v K. exists (map (fun c => doc hexw hexp dec (published (c_metadata cfg) c)) cs). split; [exact (Json_Proofs.json_unique _ _ _ K J)|].
  clear - OK FT. induction FT as [|c cs (Pc & _) _ IH]; [reflexivity|]. cbn [map all].
  rewrite (CurveText_Props.read_ok hexw hexp dec OK), IH by (now apply CurveText_Props.printable_good). reflexivity.
Qed.
End Run.

(** for every list of fields *)
Section Every.
Variable P : pari.
Variable cfg : config.
Variable hexw hexp dec : Z -> str.
Hypothesis OK : prints hexw hexp dec.
Hypothesis HX : Hex_Props.prints_hex hexw.
Variable junk : nat -> ascii.
Variable draws : Z -> nat -> draw.
Variable tries fuel : nat.
Variable avma : Z.
Variable delim : ascii.
Variable su : Plan_Model.setup_t.
Variable over : field -> Z -> Z -> Prop.
Variable En : list str -> curve -> nat -> Prop.
Variable SF : Prop.
Hypothesis SR : forall l i fuel av r w, search P cfg hexw tries delim l (draws i) su fuel av = (r, w) ->
  match r with Engine_Model.Returned r => (r = 1 /\ success P cfg over hexw (En l) w) \/ (r = 0 /\ failed cfg SF w) | Engine_Model.NoFuel => True | _ => False end.
Theorem run_file ino readable writable reason io seadata fs kbd d input outer i :
  Shell_Spec.separate ino writable io -> Shell_Spec.input_is ino readable io fs kbd d input ->
  Shell_Model.i_append io = false -> Shell_Spec.out_file ino writable io i -> 0 <= c_count cfg < 2 ^ 64 ->
  let '(w, status) := Shell_Model.main ino readable writable (fun _ => None) reason true io seadata
      (exhaustive_do P cfg hexw hexp dec junk draws tries fuel avma delim su outer) (Shell_Model.fresh fs kbd) in
  status = Some 0 ->
  exists text cs, Shell_Model.files w i = Some text /\ Z.of_nat (length cs) = c_count cfg /\ each (found cfg hexw over En) d input cs /\
    (exists v, json text v) /\
    forall v, json text v -> exists ds, v = JArr ds /\ all read_curve ds = Some cs.
Proof.
  intros S I NA O B.
  pose proof (run_file_if P cfg hexw hexp dec OK HX junk draws tries fuel avma delim su over En SF (fun _ => True) (fun l i fuel av r w _ => SR l i fuel av r w)
    ino readable writable reason io seadata fs kbd d input outer i S I NA O B) as H.
  destruct (Shell_Model.main _ _ _ _ _ true io seadata _ (Shell_Model.fresh fs kbd)) as (w, status). intros E.
  destruct (H E) as (text & cs & F & N & EA & J). exists text, cs. split; [exact F|]. split; [exact N|]. split; [|exact J].
  apply each_impl with (2 := EA). intros l c X. exact (X Logic.I).
Qed.
Theorem search_defined l i r w : safe cfg -> SF -> search P cfg hexw tries delim l (draws i) su fuel avma = (r, w) ->
  match r with
  | Engine_Model.Returned 1 => w_wrong w = None /\ exists c, to_output (w_curve w) = Ok c
  | Engine_Model.Returned 0 => w_wrong w <> Some Undefined
  | Engine_Model.NoFuel => True
  | _ => False
  end.
Proof. intros SA SF' S. exact (result_defined P cfg over hexw (En l) SF r w SA SF' (SR _ _ _ _ _ _ S)). Qed.
End Every.
