(** What holds before each stage of a search, and so of its result. *)
From Coq Require Import Ascii Znumtheory.
From Verif Require Import Base Fp Ec Random_Model Random_Props Poly_Model Points_Model Points_Props Gens_Props Hex_Model Cli_Model.
From Verif Require Import Whole_Model Whole_Spec Whole_Group Whole_Stages.
From Verif Require Plan_Model Engine_Model Engine_Rule Ec_Fp.
Local Open Scope Z_scope.
Local Open Scope list_scope.

(** when no undefined behaviour is to be expected *)
Definition safe (cfg : config) : Prop := c_hex_check cfg = None /\ (c_unique cfg = true \/ c_cofactor cfg = false).

(** ** The first four stages are for the seed, the field and the coefficients; the others leave these alone *)
Definition same_front (c c' : curve) : Prop := k_seed c' = k_seed c /\ k_field c' = k_field c /\ k_a c' = k_a c /\ k_b c' = k_b c /\ k_static c' = k_static c.
Lemma same_refl c : same_front c c. Proof. repeat split. Qed.
Lemma same_trans a b c : same_front a b -> same_front b c -> same_front a c.
Proof. intros (A1 & A2 & A3 & A4 & A5) (B1 & B2 & B3 & B4 & B5). repeat split; congruence. Qed.
Definition tail_gen (f : Plan_Model.gen_f) : bool :=
  match f with
  | Plan_Model.gen_skip | Plan_Model.curve_gen_any | Plan_Model.order_gen_any | Plan_Model.order_gen_prime | Plan_Model.order_gen_cofactor
  | Plan_Model.order_gen_smooth | Plan_Model.order_gen_koblitz | Plan_Model.supersingular_gen_order | Plan_Model.anomalous_gen_order | Plan_Model.nums_gen_order | Plan_Model.family_gen_order | Plan_Model.cm_gen_order | Plan_Model.gens_gen_any | Plan_Model.gens_gen_one | Plan_Model.gens_gen_cofactor
  | Plan_Model.point_gen_random | Plan_Model.points_gen_random | Plan_Model.points_gen_prime | Plan_Model.points_gen_nonprime
  | Plan_Model.points_gen_allgroups | Plan_Model.metadata_gen => true
  | _ => false
  end.
Lemma tail_keeps P cfg tries delim f arg d t k k' r : tail_gen f = true -> generator P cfg tries delim f arg d t k = Ok (k', r) -> same_front k k'.
Proof.
  intros T H. destruct f; try discriminate T; cbn [generator] in H; unfold put_order, put_gens, put_points in H;
  repeat match type of H with
  | bind ?m _ = Ok _ => let x := fresh "x" in destruct m as [x| | |]; [cbn [bind] in H|discriminate H..]; try destruct x as [[? ?] ?]
  | (let '(_, _) := ?x in _) = _ => destruct x
  | Ok (match ?o with _ => _ end, _) = _ => destruct o
  | Ok (match ?o with _ => _ end) = _ => destruct o
  | Ok (if ?o then _ else _) = _ => destruct o
  | Ok (if ?o then _ else _, _) = _ => destruct o
  end; apply (f_equal (fun z => match z with Ok (y, _) => y | _ => k end)) in H; cbv beta iota in H; rewrite <- H; repeat split.
Qed.

(** a prime field is large enough for every curve to have a point besides that at infinity *)
Definition large (f : field) : Prop := match f with Prime p => 3 < p | Binary _ => True end.

(** ** What holds of the curve that a search finds *)
Section Ended.
Variable P : pari.
Variable cfg : config.
Variable over : field -> Z -> Z -> Prop.
Variable hexw : Z -> str.
Variable Sg : curve -> nat -> Prop.
(** the value of the coefficients when the curve is made *)
Definition values (c : curve) (p : field) (a b : Z) : Prop :=
  k_field c = Some p /\ over p a b /\ (inside p a /\ inside p b) /\
  exists x y, k_a c = Some x /\ k_b c = Some y /\ CurveText_Spec.elem_int x = a /\ CurveText_Spec.elem_int y = b.
Definition points_fact (c : curve) (p : field) (a b : Z) : Prop :=
  exists g, k_gens c = Some g /\ (Forall finite g -> rgens cfg p a b (map s_gen g) /\ Forall (rlisting cfg p a b) g /\ ramount cfg g).
(** [Sg] is what the plan tells of it and of the number of fields that were read *)
Record ended (c : curve) (pos : nat) (p : field) (a b : Z) : Prop := {
  e_known : Sg c pos;
  e_vals : values c p a b;
  e_curve : curve_ok p a b;
  e_order : k_order c = Some (points p a b) /\ order_wanted cfg (points p a b);
  e_points : points_fact c p a b;
  e_hex : forall s, c_hex_check cfg = Some s -> check P hexw Plan_Model.hex_check_param (Some (Plan_Model.Hex s)) c = Ok 1;
  e_meta : metadata_wanted cfg p a b (points p a b) (if c_metadata cfg then to_meta (k_meta c) else CurveText_Spec.no_meta)
}.
Definition success (w : world) : Prop := w_wrong w = None /\ exists p a b, ended (w_curve w) (w_pos w) p a b.
Definition failed (SF : Prop) (w : world) : Prop := safe cfg /\ SF -> w_wrong w <> Some Undefined.
End Ended.

Section Search.
Variable P : pari.
Variable cfg : config.
Variable over : field -> Z -> Z -> Prop.
Hypothesis OV : forall f a b, over f a b -> field_fits cfg f.
Hypothesis PO : pari_on P over.
Hypothesis IS : in_tail cfg.
Variable hexw : Z -> str.
Variable tries : nat.
Variable delim : ascii.
Variable inputs : list str.
Variable draws : nat -> draw.
Notation bits := (c_bits cfg).
Notation gen := (generator P cfg tries delim).
Notation chk := (check P hexw).
Local Notation values := (values over).
Local Notation points_fact := (points_fact cfg).

(** The functions of the first four stages, of the curve, of the order and of the generators, with their arguments, the
    checks of the order and of the generators, and what is known of the curve and the number of fields that were read: before
    each of the first four stages and after them [St], when there is a curve [Sk], before the order is checked [Sn] and after
    that [So], before the generators are checked [Sc] and after that [Sg]. *)
Variables f0 f1 f2 f3 fc fo fg : Plan_Model.gen_f.
Variables g0 g1 g2 g3 gc go ga : option Plan_Model.arg_t.
Variables cho chg : list Plan_Model.check_f.
Variable un0 : Plan_Model.unroll_f.
Variable St : Z -> curve -> nat -> Prop.
Variables Sk Sn So Sc Sg : curve -> nat -> Prop.
Variable SF : Prop.
Definition front (k : Z) : Plan_Model.gen_f * option Plan_Model.arg_t :=
  if k =? 0 then (f0, g0) else if k =? 1 then (f1, g1) else if k =? 2 then (f2, g2) else (f3, g3).
Hypothesis no_seeds : seeds f0 = false -> seeds f1 = false /\ seeds f2 = false /\ seeds f3 = false /\ seeds fg = false.
Hypothesis St_seed : forall k c pos, 0 <= k <= 4 -> St k c pos -> seeds f0 = false -> k_seed c = None.
Hypothesis St_new : St 0 (curve_start draws) 0.
(** after a timeout *)
Hypothesis St_0 : forall c pos, (exists n, d_timeout (draws n) = true) -> (seeds f0 = false -> k_seed c = None) -> St 0 c pos.
(** no curve: back to the field, like after every other failure that is not an error *)
Hypothesis St_curve : forall c pos p a b, Sk c pos -> values c p a b -> ellinit P p a b = true -> ell_get_disc P p a b = 0 -> St 1 c pos.
Hypothesis St_same : forall k c c' pos, same_front c c' -> St k c pos -> St k c' pos.
Hypothesis St_step : forall k d c pos, (exists n, d = draws n) -> 0 <= k < 4 -> St k c pos -> (reads (fst (front k)) = true -> (pos < length inputs)%nat) ->
  let pos' := if reads (fst (front k)) then Datatypes.S pos else pos in
  match gen (fst (front k)) (snd (front k)) d (nth pos inputs []) c with
  | Ok (c', r) => (r = 1 /\ St (k + 1) c' pos') \/ r = Engine_Model.INT_MIN \/ (-8 <= r <= 0 /\ 0 <= k + r /\ St (k + r) c' pos')
  | UB => ~ SF
  | _ => True
  end.
Hypothesis fc_seeds : seeds f0 = false -> seeds fc = false.
Hypothesis fc_reads : reads fc = false.
Hypothesis fc_ok : forall d t c pos, St 4 c pos ->
  match gen fc gc d t c with
  | Ok (c', r) => (r = 1 /\ Sk c' pos /\ exists p a b, values c' p a b /\ k_curve c' = Some (p, a, b) /\ ellinit P p a b = true) \/ r = Engine_Model.INT_MIN \/
                  (-4 <= r <= 0 /\ St (4 + r) c' pos)
  | UB => ~ SF
  | _ => True
  end.
Hypothesis fo_tail : tail_gen fo = true.
Hypothesis fo_ok : forall d t c p a b pos, Sk c pos -> values c p a b -> curve_ok p a b -> k_curve c = Some (p, a, b) ->
  match gen fo go d t c with
  | Ok (c', r) => (r = 1 /\ c' = set_order (Some (points p a b)) c /\ order_wanted cfg (points p a b) /\ Sn c' pos) \/ (-5 <= r <= -1 /\ St (5 + r) c' pos)
  | UB => ~ SF
  | _ => True
  end.
(** the curve and its order *)
Definition counted (c : curve) (p : field) (a b : Z) : Prop :=
  values c p a b /\ curve_ok p a b /\ k_curve c = Some (p, a, b) /\ k_order c = Some (points p a b) /\ order_wanted cfg (points p a b).
Hypothesis cho_ok : forall f c p a b pos, In f cho -> Sn c pos -> counted c p a b ->
  match chk f None c with Ok r => 0 < r \/ (r = -4 /\ St 1 c pos) | UB => ~ SF | _ => True end.
Hypothesis cho_pass : forall c p a b pos, Sn c pos -> counted c p a b -> (forall f, In f cho -> exists r, chk f None c = Ok r /\ 0 < r) -> So c pos.
(** generators that were just made *)
Definition gens_fact (g : list (subgroup_t pt)) (p : field) (a b : Z) : Prop :=
  (Forall finite g -> rgens cfg p a b (map s_gen g)) /\ Forall fresh g /\
  (safe cfg /\ SF -> Forall finite g) /\ Forall (rtrue p a b) (map s_gen g) /\ (1 < points p a b -> g <> []).
Hypothesis fg_reads : reads fg = false.
Hypothesis fg_ok : forall d t c p a b pos, So c pos -> counted c p a b ->
  match gen fg ga d t c with
  | Ok (c', r) => (r = 1 /\ exists s g, c' = set_gens (Some g) (set_seed s c) /\ gens_fact g p a b /\ Sc c' pos) \/ r = Engine_Model.INT_MIN \/ (r = -5 /\ St 1 c' pos)
  | UB => ~ SF
  | _ => True
  end.
Hypothesis chg_ok : forall f c p a b pos g, In f chg -> Sc c pos -> counted c p a b -> k_gens c = Some g -> gens_fact g p a b ->
  match chk f None c with Ok r => 0 < r \/ (r = -5 /\ St 1 c pos) | UB => ~ SF | _ => True end.
Hypothesis chg_pass : forall c p a b pos g, Sc c pos -> counted c p a b -> k_gens c = Some g -> gens_fact g p a b ->
  (forall f, In f chg -> exists r, chk f None c = Ok r /\ 0 < r) -> Sg c pos.
Hypothesis Sk_seed : forall c pos, Sk c pos -> seeds f0 = false -> k_seed c = None.
Hypothesis So_seed : forall c pos, So c pos -> seeds f0 = false -> k_seed c = None.
Hypothesis Sg_seed : forall c pos, Sg c pos -> seeds f0 = false -> k_seed c = None.
Hypothesis Sg_hex : forall c pos p a b, c_hex_check cfg <> None -> Sg c pos -> counted c p a b -> St 1 c pos.
Hypothesis SF_big : forall c pos p, SF -> Sg c pos -> k_field c = Some p -> large p.
Hypothesis Sg_same : forall c c' pos, same_front c c' -> k_order c' = k_order c -> option_map (map s_gen) (k_gens c') = option_map (map s_gen) (k_gens c) ->
  Sg c pos -> Sg c' pos.

(** what is known of the curve and the number of fields before the stage [k] *)
Definition St_at (k : Z) (c : curve) (pos : nat) : Prop := if k <=? 4 then St k c pos else if k =? 5 then Sk c pos else if k =? 6 then So c pos else Sg c pos.
Record facts (k : Z) (c : curve) (pos : nat) (p : field) (a b : Z) : Prop := {
  f_front : St_at k c pos;
  f_vals : 5 <= k -> values c p a b;
  f_curve : 5 <= k -> k_curve c = Some (p, a, b) /\ ellinit P p a b = true /\ curve_ok p a b;
  f_order : 6 <= k -> k_order c = Some (points p a b) /\ order_wanted cfg (points p a b);
  f_gens : k = 7 -> exists g, k_gens c = Some g /\ gens_fact g p a b;
  f_points : 8 <= k -> points_fact c p a b;
  f_hex : 8 <= k -> forall s, c_hex_check cfg = Some s -> chk Plan_Model.hex_check_param (Some (Plan_Model.Hex s)) c = Ok 1;
  f_meta : 9 <= k -> metadata_wanted cfg p a b (points p a b) (if c_metadata cfg then to_meta (k_meta c) else CurveText_Spec.no_meta)
}.
Definition before (k : Z) (w : world) : Prop := w_wrong w = None /\ exists p a b, facts k (w_curve w) (w_pos w) p a b.
(** after the function of the stage [k], before the checks *)
Definition after (k : Z) (w : world) : Prop := w_wrong w = None /\ exists p a b,
  if k =? 4 then Sk (w_curve w) (w_pos w) /\ values (w_curve w) p a b /\ k_curve (w_curve w) = Some (p, a, b) /\ ellinit P p a b = true
  else if k =? 5 then Sn (w_curve w) (w_pos w) /\ ellinit P p a b = true /\ counted (w_curve w) p a b
  else if k =? 6 then Sc (w_curve w) (w_pos w) /\ ellinit P p a b = true /\ counted (w_curve w) p a b /\ exists g, k_gens (w_curve w) = Some g /\ gens_fact g p a b
  else if k =? 7 then Sg (w_curve w) (w_pos w) /\ ellinit P p a b = true /\ counted (w_curve w) p a b /\ points_fact (w_curve w) p a b
  else facts (k + 1) (w_curve w) (w_pos w) p a b.
Local Notation failed := (failed cfg SF).
Lemma facts_over k c pos p a b : 5 <= k -> facts k c pos p a b -> over p a b.
Proof. intros L F. apply (f_vals _ _ _ _ _ _ F L). Qed.
Lemma facts_inside k c pos p a b : 5 <= k -> facts k c pos p a b -> inside p a /\ inside p b.
Proof. intros L F. apply (f_vals _ _ _ _ _ _ F L). Qed.
Lemma facts_counted k c pos p a b : 6 <= k -> facts k c pos p a b -> counted c p a b.
Proof.
  intros L F. destruct (f_curve _ _ _ _ _ _ F ltac:(lia)) as (A & _ & B). destruct (f_order _ _ _ _ _ _ F L) as (C & D).
  split; [apply (f_vals _ _ _ _ _ _ F); lia|]. auto.
Qed.
Lemma before_front k w : 0 <= k <= 4 -> w_wrong w = None -> St k (w_curve w) (w_pos w) -> before k w.
Proof.
  intros L W S. assert (SA : St_at k (w_curve w) (w_pos w)) by (unfold St_at; destruct (Z.leb_spec k 4); [exact S|lia]).
  split; [exact W|]. exists (Prime 0), 0, 0. constructor; intros; try lia. exact SA.
Qed.
Lemma at_seed k c pos : 0 <= k -> St_at k c pos -> seeds f0 = false -> k_seed c = None.
Proof.
  intros L S. unfold St_at in S. destruct (Z.leb_spec k 4).
  - apply (St_seed k c pos); [lia|exact S].
  - destruct (k =? 5); [exact (Sk_seed _ _ S)|]. destruct (k =? 6); [exact (So_seed _ _ S)|exact (Sg_seed _ _ S)].
Qed.

Definition checks_cell (l : list Plan_Model.check_f) : option (list Plan_Model.check_f) := match l with [] => None | _ => Some l end.
Notation plan_setup := (Plan_Model.mkSetup
  [Some f0; Some f1; Some f2; Some f3; Some fc; Some fo; Some fg; Some (points_f cfg); Some (meta_f cfg)]
  [g0; g1; g2; g3; gc; go; ga; points_arg cfg; None]
  [None; None; None; None; Some [Plan_Model.curve_check_nonzero]; checks_cell cho; checks_cell chg; hex_cell cfg; None]
  [None; None; None; None; None; None; None; hex_arg cfg; None]
  [Some un0; Some Plan_Model.unroll_skip; Some Plan_Model.unroll_skip; Some Plan_Model.unroll_skip;
   Some Plan_Model.curve_unroll; Some Plan_Model.unroll_skip; Some Plan_Model.gens_unroll; Some Plan_Model.points_unroll; None]).
Definition su : Engine_Model.setup world := engine_setup P cfg hexw tries delim inputs draws plan_setup.
Notation back := (Engine_Rule.back su 0 0 before failed).

Lemma cell_keeps i f k : 0 < i -> cell [Some un0; Some Plan_Model.unroll_skip; Some Plan_Model.unroll_skip; Some Plan_Model.unroll_skip;
   Some Plan_Model.curve_unroll; Some Plan_Model.unroll_skip; Some Plan_Model.gens_unroll; Some Plan_Model.points_unroll; None] i = Some f -> same_front k (unroll f k).
Proof.
  intros L H. unfold cell in H. destruct (i <? 0); [discriminate|]. destruct (Z.to_nat i) as [|n] eqn:E; [lia|]. cbn [nth_error] in H.
  do 8 (destruct n as [|n]; [cbn [nth_error] in H; first [discriminate H | injection H as <-; repeat split]|]). destruct n; discriminate H.
Qed.
Lemma unroll_keeps n : forall i t w ev w', 0 <= t -> Engine_Model.unroll_loop su n i t w = (ev, Some w') ->
  w_wrong w' = w_wrong w /\ w_pos w' = w_pos w /\ same_front (w_curve w) (w_curve w').
Proof.
  induction n as [|n IH]; intros i t w ev w' T H; cbn [Engine_Model.unroll_loop] in H.
  - destruct (i >? t); [discriminate|]. injection H as _ <-. repeat split.
  - rewrite Z.gtb_ltb in H. destruct (Z.ltb_spec t i) as [L|L]; [|injection H as _ <-; repeat split].
    destruct (Engine_Model.unrolls su i) as [u|] eqn:E; [|now apply IH in H].
    unfold su, engine_setup in E. cbn [Engine_Model.unrolls Plan_Model.s_unrolls] in E.
    match type of E with match ?x with _ => _ end = _ => destruct x as [f|] eqn:Ef; [|discriminate] end. injection E as <-. cbn [undo] in H.
    destruct (-1 >=? 0); [discriminate|].
    destruct (Engine_Model.unroll_loop su n (i + -1) t _) as [ev2 o] eqn:R. injection H as _ ->. apply IH in R; [|exact T]. cbn [w_curve w_pos w_wrong] in R.
    destruct R as (A & B & C). split; [exact A|]. split; [exact B|]. apply (same_trans _ (unroll f (w_curve w))); [|exact C].
    apply (cell_keeps i f); [lia|exact Ef].
Qed.

Lemma unroll_goes n : forall i t w, Z.of_nat n = i - t -> snd (Engine_Model.unroll_loop su n i t w) <> None.
Proof.
  induction n as [|n IH]; intros i t w H; cbn [Engine_Model.unroll_loop].
  - rewrite Z.gtb_ltb. destruct (Z.ltb_spec t i); [lia|discriminate].
  - rewrite Z.gtb_ltb. destruct (Z.ltb_spec t i); [|discriminate]. destruct (Engine_Model.unrolls su i) as [u|] eqn:E; [|apply IH; lia].
    unfold su, engine_setup in E. cbn [Engine_Model.unrolls] in E.
    match type of E with match ?x with _ => _ end = _ => destruct x as [f|]; [|discriminate] end. injection E as <-. cbn [undo].
    change (-1 >=? 0) with false. cbv iota. match goal with |- context [Engine_Model.unroll_loop su n ?a ?b ?c] => specialize (IH a b c ltac:(lia)); destruct (Engine_Model.unroll_loop su n a b c) as [ev2 o] end. exact IH.
Qed.
Lemma back_front k d w : w_wrong w = None -> d <> Engine_Model.INT_MIN -> 0 <= k + d <= 4 -> St (k + d) (w_curve w) (w_pos w) -> back k d w.
Proof.
  intros W D L S. split; [lia|]. intros _ _. split; [lia|]. rewrite Z.max_r by lia. intros ev w2 H. apply unroll_keeps in H; [|lia]. destruct H as (A & B & C).
  apply before_front; [lia|congruence|]. rewrite B. exact (St_same _ _ _ _ C S).
Qed.
Lemma back_min k w : failed w -> back k Engine_Model.INT_MIN w.
Proof. intros F. split; [auto|]. congruence. Qed.

Lemma stage_rule k f arg w av w' av' o : 0 <= k < 9 -> w_wrong w = None -> St_at k (w_curve w) (w_pos w) -> (seeds f0 = false -> seeds f = false) ->
  (forall d, (exists n, d = draws n) -> (reads f = true -> (w_pos w < length inputs)%nat) ->
   let pos' := if reads f then Datatypes.S (w_pos w) else w_pos w in
   match gen f arg d (nth (w_pos w) inputs []) (w_curve w) with
   | Ok (c, r) => (r = 1 /\ after k (mkWorld c (Datatypes.S (w_calls w)) pos' None)) \/ r = Engine_Model.INT_MIN \/
                  (-8 <= r <= 0 /\ 0 <= k + r <= 4 /\ St (k + r) c pos')
   | UB => ~ (safe cfg /\ SF)
   | _ => True
   end) ->
  stage P cfg tries delim inputs draws f arg w av = (w', av', o) ->
  match o with
  | Engine_Model.Ret d => (0 < d -> d = 1 /\ after k w') /\ (d <= 0 -> back k d w')
  | Engine_Model.Timeout => back k (0 - k) w'
  end.
Proof.
  intros L W S0 SE H E. unfold stage in E. specialize (H (draws (w_calls w)) (ex_intro _ (w_calls w) eq_refl)). set (d := draws (w_calls w)) in *.
  destruct (reads f && (negb (d_timeout d) || d_ate d) && (length inputs <=? w_pos w)%nat)%bool eqn:Es.
  { injection E as <- _ <-. split; [unfold Engine_Model.INT_MIN; lia|]. intros _. apply back_min. intros _. cbn. discriminate. }
  destruct (d_timeout d) eqn:DT.
  - injection E as <- _ <-. apply back_front; [exact W|unfold Engine_Model.INT_MIN; lia|lia|]. replace (k + (0 - k)) with 0 by lia. apply St_0; [exists (w_calls w); exact DT|]. cbn [w_curve].
    intros N. unfold interrupted. rewrite (SE N). cbn [k_seed set_seed]. apply (at_seed k _ (w_pos w)); [lia|exact S0|exact N].
  - cbn [negb orb] in *. rewrite andb_true_r in *. rewrite andb_false_iff in Es.
    assert (H' := H (fun R => match Es with or_introl X => False_ind _ (eq_true_false_abs _ R X) | or_intror X => proj1 (Nat.leb_gt _ _) X end)). clear H. cbv zeta in H'.
    destruct (generator P cfg tries delim f arg d (nth (w_pos w) inputs []) (w_curve w)) as [[c r]| | |]; injection E as <- _ <-.
    + rewrite W. destruct H' as [(-> & A)|[->|(B & C & D)]]; [split; [intros _; auto|lia]| |].
      * split; [unfold Engine_Model.INT_MIN; lia|]. intros _. apply back_min. intros _. cbn. discriminate.
      * split; [lia|]. intros _. apply back_front; [reflexivity|unfold Engine_Model.INT_MIN; lia|exact C|exact D].
    + split; [unfold Engine_Model.INT_MIN; lia|]. intros _. apply back_min. intros S _. exact (H' S).
    + split; [unfold Engine_Model.INT_MIN; lia|]. intros _. apply back_min. intros S. cbn. discriminate.
    + split; [unfold Engine_Model.INT_MIN; lia|]. intros _. apply back_min. intros S. cbn. discriminate.
Qed.

Lemma nonsingular_disc p a b : over p a b -> inside p a -> inside p b -> discriminant p a b <> 0 -> curve_ok p a b.
Proof.
  intros O A B H. destruct (OV p a b O) as (_ & F). destruct p as [q|c]; constructor; try assumption; [| |exact (proj1 F)].
  - unfold discriminant in H. pose proof (prime_ge_2 q F) as L. split; [exact F|]. assert (q <> 2); [intros ->|lia]. apply H. apply Z.mod_divide; [lia|]. exists (-8 * (4 * a ^ 3 + 27 * b ^ 2)). ring.
  - intros E. apply H. unfold discriminant. pose proof (prime_ge_2 q F). rewrite Z.mul_mod, E, Z.mul_0_r, Z.mod_0_l by lia. reflexivity.
Qed.
Lemma finite_same g g' : map s_gen g' = map s_gen g -> Forall finite g' -> Forall finite g.
Proof.
  revert g'. induction g as [|s g IH]; intros g' E F; [constructor|]. destruct g' as [|s' g']; [discriminate|]. injection E as E1 E2.
  inversion F as [|? ? F1 F2]; subst. constructor; [|now apply (IH g')]. unfold finite in *. now rewrite <- E1.
Qed.

Lemma same_front_of c c' : k_seed c' = k_seed c -> k_field c' = k_field c -> k_a c' = k_a c -> k_b c' = k_b c -> k_static c' = k_static c -> same_front c c'.
Proof. repeat split; assumption. Qed.
(** a stage that does not touch what is known *)
Ltac keep F := constructor; unfold St_at; cbn [Z.leb Z.compare Pos.compare Pos.compare_cont Z.eqb Pos.eqb]; cbn [k_field k_a k_b k_curve k_order k_gens k_meta set_field set_a set_b set_curve set_order set_gens set_meta]; intros; try lia;
  first [refine (St_same _ _ _ _ (same_front_of _ _ _ _ _ _ _) (f_front _ _ _ _ _ _ F)); reflexivity | refine (Sg_same _ _ _ (same_front_of _ _ _ _ _ _ _) _ _ (f_front _ _ _ _ _ _ F)); reflexivity | exact (f_vals _ _ _ _ _ _ F ltac:(lia))
       | exact (f_curve _ _ _ _ _ _ F ltac:(lia)) | exact (f_order _ _ _ _ _ _ F ltac:(lia)) | idtac].
Ltac at_cell H := lazy beta iota zeta delta [su engine_setup cell Engine_Model.generators Engine_Model.validators Engine_Model.unrolls
  Plan_Model.s_gens Plan_Model.s_gargs Plan_Model.s_checks Plan_Model.s_cargs Plan_Model.s_unrolls
  nth_error Z.ltb Z.compare Z.to_nat Pos.to_nat Pos.iter_op Nat.add map] in H.
Lemma tail_reads f : tail_gen f = true -> reads f = false.
Proof. destruct f; (discriminate || reflexivity). Qed.
Lemma tail_seeds f : tail_gen f = true -> seeds f = false.
Proof. destruct f; (discriminate || reflexivity). Qed.
Lemma front_seeds k : 0 <= k < 4 -> seeds f0 = false -> seeds (fst (front k)) = false.
Proof.
  intros L N. destruct (no_seeds N) as (N1 & N2 & N3 & _). unfold front. destruct (k =? 0); [exact N|]. destruct (k =? 1); [exact N1|]. destruct (k =? 2); [exact N2|exact N3].
Qed.
Lemma points_tail : tail_gen (points_f cfg) = true.
Proof. unfold points_f. repeat match goal with |- context [if ?b then _ else _] => destruct b end; reflexivity. Qed.
Lemma meta_tail : tail_gen (meta_f cfg) = true.
Proof. unfold meta_f. destruct (c_metadata cfg); reflexivity. Qed.

Lemma gen_ok k g w av w' av' o : 0 <= k < 9 -> Engine_Model.generators su k = Some g -> before k w -> g w av = (w', av', o) ->
  match o with
  | Engine_Model.Ret d => (0 < d -> d = 1 /\ after k w') /\ (d <= 0 -> back k d w')
  | Engine_Model.Timeout => back k (0 - k) w'
  end.
Proof.
  intros L Eg (W & p & a & b & F) E.
  assert (FR : forall j, j = k -> 0 <= j < 4 -> stage P cfg tries delim inputs draws (fst (front j)) (snd (front j)) w av = (w', av', o) ->
    match o with Engine_Model.Ret d => (0 < d -> d = 1 /\ after k w') /\ (d <= 0 -> back k d w') | Engine_Model.Timeout => back k (0 - k) w' end).
  { intros j -> Lj Ej. eapply stage_rule; [lia|exact W|exact (f_front _ _ _ _ _ _ F)| | |exact Ej]; [apply (front_seeds k Lj)|]. intros d DR R. cbv zeta.
    assert (SA : St k (w_curve w) (w_pos w)) by (pose proof (f_front _ _ _ _ _ _ F) as X; unfold St_at in X; destruct (Z.leb_spec k 4); [exact X|lia]).
    pose proof (St_step k d (w_curve w) (w_pos w) DR Lj SA R) as H. cbv zeta in H.
    destruct (gen (fst (front k)) (snd (front k)) d (nth (w_pos w) inputs []) (w_curve w)) as [[c r]| | |]; [|tauto|exact I|exact I].
    destruct H as [(-> & H)|[H|(A & B & C)]]; [left|right; left; exact H|right; right].
    - split; [reflexivity|]. match goal with |- after k ?w1 => pose proof (before_front (k + 1) w1 ltac:(lia) eq_refl H) as (_ & X) end.
      split; [reflexivity|]. destruct X as (p1 & a1 & b1 & X). exists p1, a1, b1.
      destruct (Z.eqb_spec k 4); [lia|]. destruct (Z.eqb_spec k 5); [lia|]. destruct (Z.eqb_spec k 6); [lia|]. destruct (Z.eqb_spec k 7); [lia|]. exact X.
    - split; [exact A|]. split; [lia|exact C]. }
  assert (KK : k = 0 \/ k = 1 \/ k = 2 \/ k = 3 \/ k = 4 \/ k = 5 \/ k = 6 \/ k = 7 \/ k = 8) by lia.
  repeat match type of KK with _ \/ _ => destruct KK as [->|KK] end; [..|subst k]; at_cell Eg; injection Eg as <-;
    [apply (FR 0); [reflexivity|lia|exact E]|apply (FR 1); [reflexivity|lia|exact E]|apply (FR 2); [reflexivity|lia|exact E]|apply (FR 3); [reflexivity|lia|exact E]|..];
    clear FR; (eapply stage_rule; [lia|exact W|exact (f_front _ _ _ _ _ _ F)| | |exact E]; [first [intros _; apply tail_seeds; auto using points_tail, meta_tail; fail | exact fc_seeds | intros N; apply (no_seeds N)]|]); intros d _ _; clear E w' av' o; unfold after; cbn [w_wrong w_curve w_pos Z.eqb Pos.eqb]; cbv zeta;
    [rewrite fc_reads|rewrite (tail_reads fo fo_tail)|rewrite fg_reads|rewrite (tail_reads _ points_tail)|rewrite (tail_reads _ meta_tail)].
  - (* CURVE *) pose proof (fc_ok d (nth (w_pos w) inputs []) (w_curve w) (w_pos w) (f_front _ _ _ _ _ _ F)) as H.
    destruct (gen fc gc d (nth (w_pos w) inputs []) (w_curve w)) as [[c' r]| | |] eqn:G; [|tauto|exact I|exact I].
    destruct H as [(-> & S5 & p' & a' & b' & V & Kc & Ei)|[H|(R4 & S4)]]; [left|right; left; exact H|right; right].
    + split; [reflexivity|]. split; [reflexivity|]. exists p', a', b'. auto.
    + split; [lia|]. split; [lia|exact S4].
  - (* ORDER *) destruct (f_curve _ _ _ _ _ _ F ltac:(lia)) as (Kc & Ei & ns). pose proof (f_vals _ _ _ _ _ _ F ltac:(lia)) as V.
    pose proof (fo_ok d (nth (w_pos w) inputs []) (w_curve w) p a b (w_pos w) (f_front _ _ _ _ _ _ F) V ns Kc) as H.
    destruct (gen fo go d (nth (w_pos w) inputs []) (w_curve w)) as [[c' r]| | |] eqn:G; [|tauto|exact I|exact I].
    destruct H as [(-> & -> & O & SN)|(R5 & S1)]; [left|right; right].
    + split; [reflexivity|]. split; [reflexivity|]. exists p, a, b. split; [exact SN|]. split; [exact Ei|]. split; [exact V|]. split; [exact ns|]. split; [exact Kc|]. split; [reflexivity|exact O].
    + split; [lia|]. split; [lia|exact S1].
  - (* GENERATORS *) destruct (f_curve _ _ _ _ _ _ F ltac:(lia)) as (Kc & Ei & ns). pose proof (facts_counted 6 _ _ _ _ _ ltac:(lia) F) as C.
    pose proof (fg_ok d (nth (w_pos w) inputs []) (w_curve w) p a b (w_pos w) (f_front _ _ _ _ _ _ F) C) as H.
    destruct (gen fg ga d (nth (w_pos w) inputs []) (w_curve w)) as [[c' r]| | |] eqn:G; [|tauto|exact I|exact I].
    destruct H as [(-> & s & g & -> & GF & SC)|[->|(-> & S1)]]; [left|right; left; reflexivity|right; right].
    + split; [reflexivity|]. split; [reflexivity|]. exists p, a, b. split; [exact SC|]. split; [exact Ei|]. split; [exact C|]. exists g. split; [reflexivity|exact GF].
    + split; [lia|]. split; [lia|exact S1].
  - (* POINTS *) destruct (f_curve _ _ _ _ _ _ F ltac:(lia)) as (Kc & Ei & ns). destruct (f_gens _ _ _ _ _ _ F eq_refl) as (g & Kg & G1 & G2 & G3 & G4 & G5).
    pose proof (points_stage P cfg over OV PO p a b (facts_over 7 _ _ _ _ _ ltac:(lia) F) ns IS tries delim d (nth (w_pos w) inputs []) (w_curve w) g Kc Kg G4 G2) as H.
    destruct (gen (points_f cfg) (points_arg cfg) d (nth (w_pos w) inputs []) (w_curve w)) as [[c' r]| | |]; try exact I.
    + destruct H as (-> & g' & -> & S1 & S2). left. split; [reflexivity|]. split; [reflexivity|]. exists p, a, b.
      split; [refine (Sg_same (w_curve w) _ _ (same_front_of _ _ _ _ _ _ _) _ _ (f_front _ _ _ _ _ _ F)); try reflexivity; cbn [k_gens set_gens option_map]; rewrite Kg, S1; reflexivity|].
      split; [exact Ei|]. split; [exact (facts_counted 7 _ _ _ _ _ ltac:(lia) F)|].
      exists g'. split; [reflexivity|]. rewrite S1. intros Fi. pose proof (finite_same g g' S1 Fi) as Fi'. split; [exact (G1 Fi')|exact (S2 Fi')].
    + intros (SA & SF'). apply H. split; [now apply G3|]. apply G5. apply (many_points p a b ns).
      apply (SF_big (w_curve w) (w_pos w) p SF'); [apply (f_front _ _ _ _ _ _ F)|apply (f_vals _ _ _ _ _ _ F); lia].
  - (* METADATA *) destruct (f_curve _ _ _ _ _ _ F ltac:(lia)) as (Kc & Ei & ns). destruct (f_vals _ _ _ _ _ _ F ltac:(lia)) as (Kp & _). destruct (f_order _ _ _ _ _ _ F ltac:(lia)) as (Ko & O).
    pose proof (facts_over 8 _ _ _ _ _ ltac:(lia) F) as CO. destruct (facts_inside 8 _ _ _ _ _ ltac:(lia) F) as (IA & IB).
    pose proof (meta_stage P cfg over OV PO p a b (facts_over 8 _ _ _ _ _ ltac:(lia) F) ns tries delim d (nth (w_pos w) inputs []) (w_curve w) Kp Kc Ko (pc_disc _ _ PO p a b CO IA IB Ei)) as H.
    destruct (gen (meta_f cfg) None d (nth (w_pos w) inputs []) (w_curve w)) as [[c' r]| | |]; [|destruct H|destruct H|exact I].
    destruct H as (-> & H & M). left. split; [reflexivity|]. split; [reflexivity|]. exists p, a, b.
    destruct H as [->|(m & ->)].
    + keep F; [apply (f_points _ _ _ _ _ _ F); lia|now apply (f_hex _ _ _ _ _ _ F)|exact M].
    + keep F; [apply (f_points _ _ _ _ _ _ F); lia|now apply (f_hex _ _ _ _ _ _ F)|exact M].
Qed.

Lemma hex_results f s c st r : hex_check_param f s c st = Ok r -> r = 1 \/ r = OFFSET_FIELD - st.
Proof.
  unfold hex_check_param. intros H.
  repeat match type of H with (bind ?m ?k) = Ok _ => let E := fresh in destruct m eqn:E; cbn [bind] in H; [clear E|discriminate H..] end.
  injection H as <-. match goal with |- context [if ?b then _ else _] => destruct b end; auto.
Qed.
Lemma check_hex_results arg c r : chk Plan_Model.hex_check_param arg c = Ok r -> r = 1 \/ r = -6.
Proof.
  unfold check. destruct arg as [[]|]; try discriminate. intros H.
  repeat match type of H with (bind ?m ?k) = Ok _ => let E := fresh in destruct m eqn:E; cbn [bind] in H; [clear E|discriminate H..] end.
  apply hex_results in H. exact H.
Qed.

Lemma check_rule k f arg w : 0 <= k < 9 -> w_wrong w = None ->
  match chk f arg (w_curve w) with Ok r => 0 < r \/ (-8 <= r <= 0 /\ 0 <= k + r <= 4 /\ St (k + r) (w_curve w) (w_pos w)) | UB => ~ (safe cfg /\ SF) | _ => True end ->
  (0 < snd (validator P hexw f arg w) -> fst (validator P hexw f arg w) = w) /\
  (snd (validator P hexw f arg w) <= 0 -> back k (snd (validator P hexw f arg w)) (fst (validator P hexw f arg w))).
Proof.
  intros L W H. unfold validator. destruct (check P hexw f arg (w_curve w)) as [r| | |]; cbn [fst snd].
  - split; [reflexivity|]. intros R. destruct H as [H|(A & B & C)]; [lia|]. apply back_front; [exact W|unfold Engine_Model.INT_MIN; lia|exact B|exact C].
  - split; [unfold Engine_Model.INT_MIN; lia|]. intros _. apply back_min. intros S _. exact (H S).
  - split; [unfold Engine_Model.INT_MIN; lia|]. intros _. apply back_min. intros S. cbn. discriminate.
  - split; [unfold Engine_Model.INT_MIN; lia|]. intros _. apply back_min. intros S. cbn. discriminate.
Qed.

Lemma cell_map (l : list Plan_Model.check_f) : match checks_cell l with Some cs => Some (map (fun f => validator P hexw f None) cs) | None => None end =
  match l with [] => None | _ => Some (map (fun f => validator P hexw f None) l) end.
Proof. destruct l; reflexivity. Qed.
Lemma validators_cases k cs : 0 <= k < 9 -> Engine_Model.validators su k = Some cs ->
  (k = 4 /\ cs = [validator P hexw Plan_Model.curve_check_nonzero None]) \/
  (k = 5 /\ cs = map (fun f => validator P hexw f None) cho) \/
  (k = 6 /\ cs = map (fun f => validator P hexw f None) chg) \/
  (k = 7 /\ exists s, c_hex_check cfg = Some s /\ cs = [validator P hexw Plan_Model.hex_check_param (Some (Plan_Model.Hex s))]).
Proof.
  intros L H.
  assert (KK : k = 0 \/ k = 1 \/ k = 2 \/ k = 3 \/ k = 4 \/ k = 5 \/ k = 6 \/ k = 7 \/ k = 8) by lia.
  repeat match type of KK with _ \/ _ => destruct KK as [->|KK] end; [..|subst k]; at_cell H; try discriminate H.
  - injection H as <-. left. auto.
  - right. left. split; [reflexivity|]. destruct cho; [discriminate H|]. cbn [checks_cell] in H. injection H as <-. reflexivity.
  - right. right. left. split; [reflexivity|]. destruct chg; [discriminate H|]. cbn [checks_cell] in H. injection H as <-. reflexivity.
  - right. right. right. split; [reflexivity|]. unfold hex_cell, hex_arg in H. destruct (c_hex_check cfg) as [s|]; [|discriminate]. injection H as <-. eauto.
Qed.
Lemma validators_order : cho <> [] -> Engine_Model.validators su 5 = Some (map (fun f => validator P hexw f None) cho).
Proof. intros N. transitivity (match checks_cell cho with Some cs => Some (map (fun f => validator P hexw f None) cs) | None => None end); [reflexivity|]. rewrite cell_map. destruct cho; [contradiction|reflexivity]. Qed.
Lemma validators_gens : chg <> [] -> Engine_Model.validators su 6 = Some (map (fun f => validator P hexw f None) chg).
Proof. intros N. transitivity (match checks_cell chg with Some cs => Some (map (fun f => validator P hexw f None) cs) | None => None end); [reflexivity|]. rewrite cell_map. destruct chg; [contradiction|reflexivity]. Qed.
Lemma passed (k : Z) (l : list Plan_Model.check_f) w : (l <> [] -> Engine_Model.validators su k = Some (map (fun f => validator P hexw f None) l)) ->
  (forall cs c, Engine_Model.validators su k = Some cs -> In c cs -> 0 < snd (c w)) ->
  forall f, In f l -> exists r, chk f None (w_curve w) = Ok r /\ 0 < r.
Proof.
  intros V H f I. assert (N : l <> []) by (intros ->; destruct I). specialize (H _ (validator P hexw f None) (V N)).
  assert (J : In (validator P hexw f None) (map (fun f => validator P hexw f None) l)) by (apply in_map_iff; exists f; auto). specialize (H J).
  unfold validator in H. destruct (chk f None (w_curve w)) as [r| | |]; cbn [snd] in H; [exists r; auto|unfold Engine_Model.INT_MIN in H; lia..].
Qed.

Lemma check_ok k cs c w : 0 <= k < 9 -> Engine_Model.validators su k = Some cs -> In c cs -> after k w ->
  (0 < snd (c w) -> fst (c w) = w) /\ (snd (c w) <= 0 -> back k (snd (c w)) (fst (c w))).
Proof.
  intros L V I (W & p & a & b & A).
  destruct (validators_cases k cs L V) as [(-> & ->)|[(-> & ->)|[(-> & ->)|(-> & s & Es & ->)]]]; cbn [Z.eqb Pos.eqb] in A.
  - destruct I as [<-|[]]; apply check_rule; try assumption.
    destruct A as (F & V' & A & Ei). unfold check. rewrite A. cbn [need bind]. destruct (Z.eqb_spec (ell_get_disc P p a b) 0) as [D|D]; [right|left; lia].
    split; [lia|]. split; [lia|]. apply (St_curve _ _ p a b); assumption.
  - apply in_map_iff in I. destruct I as (f & <- & I). apply check_rule; try assumption. destruct A as (F & _ & C).
    pose proof (cho_ok f (w_curve w) p a b (w_pos w) I F C) as H. destruct (chk f None (w_curve w)) as [r| | |]; [|tauto|exact Logic.I|exact Logic.I].
    destruct H as [H|(-> & S1)]; [left; exact H|right]. split; [lia|]. split; [lia|exact S1].
  - apply in_map_iff in I. destruct I as (f & <- & I). apply check_rule; try assumption. destruct A as (F & _ & C & g & Kg & GF).
    pose proof (chg_ok f (w_curve w) p a b (w_pos w) g I F C Kg GF) as H. destruct (chk f None (w_curve w)) as [r| | |]; [|tauto|exact Logic.I|exact Logic.I].
    destruct H as [H|(-> & S1)]; [left; exact H|right]. split; [lia|]. split; [lia|exact S1].
  - destruct I as [<-|[]]; apply check_rule; try assumption.
    destruct (chk Plan_Model.hex_check_param (Some (Plan_Model.Hex s)) (w_curve w)) as [r| | |] eqn:E; try exact I.
    + apply check_hex_results in E. destruct E as [->| ->]; [left; lia|right]. split; [lia|]. split; [lia|]. destruct A as (A & _ & C & _). apply (Sg_hex _ _ p a b); [congruence|exact A|exact C].
    + intros ((S & _) & _). congruence.
Qed.

Lemma post_ok k w : 0 <= k < 9 -> after k w -> (forall cs c, Engine_Model.validators su k = Some cs -> In c cs -> 0 < snd (c w)) -> before (k + 1) w.
Proof.
  intros L (W & p & a & b & A) H. split; [exact W|]. exists p, a, b.
  destruct (Z.eqb_spec k 4) as [->|N4]; [|destruct (Z.eqb_spec k 5) as [->|N5]; [|destruct (Z.eqb_spec k 6) as [->|N6]; [|destruct (Z.eqb_spec k 7) as [->|N7]; [|exact A]]]].
  - destruct A as (F & V' & Kc & Ei). assert (V : Engine_Model.validators su 4 = Some [validator P hexw Plan_Model.curve_check_nonzero None]) by reflexivity.
    specialize (H _ _ V (or_introl eq_refl)). unfold validator, check in H. rewrite Kc in H. cbn [need bind] in H.
    assert (CO : over p a b) by apply V'. assert (IA : inside p a) by apply V'. assert (IB : inside p b) by apply V'. rewrite (pc_disc _ _ PO p a b CO IA IB Ei) in H.
    destruct (Z.eqb_spec (discriminant p a b) 0) as [Z0|NZ]; [cbn in H; lia|].
    constructor; intros; try lia; [exact F|exact V'|]. split; [exact Kc|]. split; [exact Ei|]. now apply nonsingular_disc.
  - destruct A as (F & Ei & C). destruct C as (C1 & C2 & C3 & C4 & C5) eqn:EC. clear EC. pose proof (conj C1 (conj C2 (conj C3 (conj C4 C5)))) as C'.
    constructor; intros; try lia; [|exact C1|auto|auto].
    apply (cho_pass _ p a b); [exact F|exact C'|exact (passed 5 cho w validators_order H)].
  - destruct A as (F & Ei & C & g & Kg & GF). destruct C as (C1 & C2 & C3 & C4 & C5) eqn:EC. clear EC. pose proof (conj C1 (conj C2 (conj C3 (conj C4 C5)))) as C'.
    constructor; intros; try lia; [|exact C1|auto|auto|eauto].
    apply (chg_pass _ p a b _ g); [exact F|exact C'|exact Kg|exact GF|exact (passed 6 chg w validators_gens H)].
  - destruct A as (F & Ei & C & PF). destruct C as (C1 & C2 & C3 & C4 & C5).
    constructor; intros; try lia; [exact F|exact C1|auto|auto|exact PF|].
    match goal with E : c_hex_check cfg = Some ?s |- _ => rename s into s0; rename E into Es end.
    assert (V : Engine_Model.validators su 7 = Some [validator P hexw Plan_Model.hex_check_param (Some (Plan_Model.Hex s0))])
      by (transitivity (match hex_cell cfg with Some cs => Some (map (fun f => validator P hexw f (hex_arg cfg)) cs) | None => None end); [reflexivity|]; unfold hex_cell, hex_arg; rewrite Es; reflexivity).
    specialize (H _ _ V (or_introl eq_refl)). unfold validator in H.
    destruct (check P hexw Plan_Model.hex_check_param (Some (Plan_Model.Hex s0)) (w_curve w)) as [r| | |] eqn:E; try (cbn [snd] in H; unfold Engine_Model.INT_MIN in H; lia).
    cbn [snd] in H. pose proof (check_hex_results _ _ _ E) as [->| ->]; [reflexivity|lia].
Qed.

(** The result of a search. *)
Theorem search_by fuel av r w : search P cfg hexw tries delim inputs draws plan_setup fuel av = (r, w) ->
  match r with Engine_Model.Returned r => (r = 1 /\ success P cfg over hexw Sg w) \/ (r = 0 /\ failed w) | Engine_Model.NoFuel => True | _ => False end.
Proof.
  unfold search. fold su. destruct (Engine_Model.exhaustive_gen su 0 9 fuel (mkWorld (curve_start draws) 0 0 None) av) as [[tr r'] w'] eqn:E. intros [= <- <-].
  unfold Engine_Model.exhaustive_gen in E.
  assert (X : match r' with Engine_Model.Returned r => (r = 1 /\ before 9 w') \/ (r = 0 /\ failed w') | Engine_Model.NoFuel => True | _ => False end).
  2: { destruct r' as [r'| | |]; try exact X. destruct X as [(X & W & p & a & b & F)|X]; [left|right; exact X]. split; [exact X|]. split; [exact W|]. exists p, a, b.
       constructor; [exact (f_front _ _ _ _ _ _ F)|apply (f_vals _ _ _ _ _ _ F)|apply (f_curve _ _ _ _ _ _ F)|apply (f_order _ _ _ _ _ _ F)|apply (f_points _ _ _ _ _ _ F)|apply (f_hex _ _ _ _ _ _ F)|apply (f_meta _ _ _ _ _ _ F)]; lia. }
  eapply (Engine_Rule.rule su 0 9 0 before after failed); [| | | | | | | |exact E].
  - intros k g w1 a1 w2 a2 o L G B H. exact (gen_ok k g w1 a1 w2 a2 o L G B H).
  - intros k cs c w1 L V I A. exact (check_ok k cs c w1 L V I A).
  - intros k w1 L A H. exact (post_ok k w1 L A H).
  - lia.
  - intros k L. assert (KK : k = 0 \/ k = 1 \/ k = 2 \/ k = 3 \/ k = 4 \/ k = 5 \/ k = 6 \/ k = 7 \/ k = 8) by lia.
    repeat match type of KK with _ \/ _ => destruct KK as [->|KK] end; [..|subst k]; discriminate.
  - intros k t w1 L _. apply unroll_goes; lia.
  - unfold Engine_Model.INT_MAX. lia.
  - apply before_front; [lia|reflexivity|exact St_new].
Qed.
End Search.

(** ** Plans that make the curve with curve_gen_any *)
Section Any.
Variable P : pari.
Variable cfg : config.
Variable over : field -> Z -> Z -> Prop.
Hypothesis OV : forall f a b, over f a b -> field_fits cfg f.
Hypothesis PO : pari_on P over.
Hypothesis IS : in_tail cfg.
Variable hexw : Z -> str.
Variable tries : nat.
Variable delim : ascii.
Variable inputs : list str.
Variable draws : nat -> draw.
Notation bits := (c_bits cfg).
Notation gen := (generator P cfg tries delim).
Notation chk := (check P hexw).
Local Notation values := (values over).
Local Notation points_fact := (points_fact cfg).

Variables f0 f1 f2 f3 fo fg : Plan_Model.gen_f.
Variables g0 g1 g2 g3 go ga : option Plan_Model.arg_t.
Variables cho chg : list Plan_Model.check_f.
Variable un0 : Plan_Model.unroll_f.
Variable St : Z -> curve -> nat -> Prop.
Variables Sn So Sc Sg : curve -> nat -> Prop.
Variable SF : Prop.
Local Notation front := (front f0 f1 f2 f3 g0 g1 g2 g3).
Hypothesis no_seeds : seeds f0 = false -> seeds f1 = false /\ seeds f2 = false /\ seeds f3 = false /\ seeds fg = false.
Hypothesis St_seed : forall k c pos, 0 <= k <= 4 -> St k c pos -> seeds f0 = false -> k_seed c = None.
Hypothesis St_new : St 0 (curve_start draws) 0.
(** after a timeout *)
Hypothesis St_0 : forall c pos, (exists n, d_timeout (draws n) = true) -> (seeds f0 = false -> k_seed c = None) -> St 0 c pos.
(** no curve: back to the field, like after every other failure that is not an error *)
Hypothesis St_curve : forall c pos p a b, St 4 c pos -> values c p a b -> ellinit P p a b = false \/ (ellinit P p a b = true /\ ell_get_disc P p a b = 0) -> St 1 c pos.
Hypothesis St_same : forall k c c' pos, same_front c c' -> St k c pos -> St k c' pos.
Hypothesis St_4 : forall c pos, St 4 c pos -> exists p a b, values c p a b.
Hypothesis St_step : forall k d c pos, (exists n, d = draws n) -> 0 <= k < 4 -> St k c pos -> (reads (fst (front k)) = true -> (pos < length inputs)%nat) ->
  let pos' := if reads (fst (front k)) then Datatypes.S pos else pos in
  match gen (fst (front k)) (snd (front k)) d (nth pos inputs []) c with
  | Ok (c', r) => (r = 1 /\ St (k + 1) c' pos') \/ r = Engine_Model.INT_MIN \/ (-8 <= r <= 0 /\ 0 <= k + r /\ St (k + r) c' pos')
  | UB => ~ SF
  | _ => True
  end.
Hypothesis fo_tail : tail_gen fo = true.
Hypothesis fo_ok : forall d t c p a b pos, St 4 c pos -> values c p a b -> curve_ok p a b -> k_curve c = Some (p, a, b) ->
  match gen fo go d t c with
  | Ok (c', r) => (r = 1 /\ c' = set_order (Some (points p a b)) c /\ order_wanted cfg (points p a b) /\ Sn c' pos) \/ (-5 <= r <= -1 /\ St (5 + r) c' pos)
  | UB => ~ SF
  | _ => True
  end.
Local Notation counted := (counted cfg over).
Hypothesis cho_ok : forall f c p a b pos, In f cho -> Sn c pos -> counted c p a b ->
  match chk f None c with Ok r => 0 < r \/ (r = -4 /\ St 1 c pos) | UB => ~ SF | _ => True end.
Hypothesis cho_pass : forall c p a b pos, Sn c pos -> counted c p a b -> (forall f, In f cho -> exists r, chk f None c = Ok r /\ 0 < r) -> So c pos.
Local Notation gens_fact := (gens_fact cfg SF).
Hypothesis fg_reads : reads fg = false.
Hypothesis fg_ok : forall d t c p a b pos, So c pos -> counted c p a b ->
  match gen fg ga d t c with
  | Ok (c', r) => (r = 1 /\ exists s g, c' = set_gens (Some g) (set_seed s c) /\ gens_fact g p a b /\ Sc c' pos) \/ r = Engine_Model.INT_MIN \/ (r = -5 /\ St 1 c' pos)
  | UB => ~ SF
  | _ => True
  end.
Hypothesis chg_ok : forall f c p a b pos g, In f chg -> Sc c pos -> counted c p a b -> k_gens c = Some g -> gens_fact g p a b ->
  match chk f None c with Ok r => 0 < r \/ (r = -5 /\ St 1 c pos) | UB => ~ SF | _ => True end.
Hypothesis chg_pass : forall c p a b pos g, Sc c pos -> counted c p a b -> k_gens c = Some g -> gens_fact g p a b ->
  (forall f, In f chg -> exists r, chk f None c = Ok r /\ 0 < r) -> Sg c pos.
Hypothesis So_seed : forall c pos, So c pos -> seeds f0 = false -> k_seed c = None.
Hypothesis Sg_seed : forall c pos, Sg c pos -> seeds f0 = false -> k_seed c = None.
Hypothesis Sg_hex : forall c pos p a b, c_hex_check cfg <> None -> Sg c pos -> counted c p a b -> St 1 c pos.
Hypothesis SF_big : forall c pos p, SF -> Sg c pos -> k_field c = Some p -> large p.
Hypothesis Sg_same : forall c c' pos, same_front c c' -> k_order c' = k_order c -> option_map (map s_gen) (k_gens c') = option_map (map s_gen) (k_gens c) ->
  Sg c pos -> Sg c' pos.

Theorem search_result fuel av r w : search P cfg hexw tries delim inputs draws (Plan_Model.mkSetup
  [Some f0; Some f1; Some f2; Some f3; Some Plan_Model.curve_gen_any; Some fo; Some fg; Some (points_f cfg); Some (meta_f cfg)]
  [g0; g1; g2; g3; None; go; ga; points_arg cfg; None]
  [None; None; None; None; Some [Plan_Model.curve_check_nonzero]; checks_cell cho; checks_cell chg; hex_cell cfg; None]
  [None; None; None; None; None; None; None; hex_arg cfg; None]
  [Some un0; Some Plan_Model.unroll_skip; Some Plan_Model.unroll_skip; Some Plan_Model.unroll_skip;
   Some Plan_Model.curve_unroll; Some Plan_Model.unroll_skip; Some Plan_Model.gens_unroll; Some Plan_Model.points_unroll; None]) fuel av = (r, w) ->
  match r with Engine_Model.Returned r => (r = 1 /\ success P cfg over hexw Sg w) \/ (r = 0 /\ failed cfg SF w) | Engine_Model.NoFuel => True | _ => False end.
Proof.
  apply (search_by P cfg over OV PO IS hexw tries delim inputs draws f0 f1 f2 f3 Plan_Model.curve_gen_any fo fg g0 g1 g2 g3 None go ga cho chg un0 St (St 4) Sn So Sc Sg SF); try assumption.
  - intros c pos p a b S V E D. apply (St_curve c pos p a b S V). right. auto.
  - reflexivity.
  - reflexivity.
  - intros d t c pos S. destruct (St_4 c pos S) as (p & a & b & V). pose proof V as (Kp & _ & _ & x & y & Ka & Kb & Va & Vb).
    cbn [generator]. rewrite Kp, Ka, Kb. cbn [need bind]. cbv zeta. rewrite Va, Vb. destruct (ellinit P p a b) eqn:Ei; [left|right; right].
    + split; [reflexivity|]. split; [refine (St_same 4 _ _ _ _ S); repeat split|]. exists p, a, b. auto.
    + split; [lia|]. apply (St_curve _ _ p a b S V). left. exact Ei.
  - intros c pos S. apply (St_seed 4 c pos); [lia|exact S].
Qed.
End Any.

(** ** Plans without checks of the order and of the generators, which are made as the configuration asks for *)
Section Plain.
Variable P : pari.
Variable cfg : config.
Variable over : field -> Z -> Z -> Prop.
Hypothesis OV : forall f a b, over f a b -> field_fits cfg f.
Hypothesis PO : pari_on P over.
Hypothesis IS : in_tail cfg.
Variable hexw : Z -> str.
Variable tries : nat.
Variable delim : ascii.
Variable inputs : list str.
Variable draws : nat -> draw.
Notation gen := (generator P cfg tries delim).
Variables f0 f1 f2 f3 fo : Plan_Model.gen_f.
Variables g0 g1 g2 g3 go ga : option Plan_Model.arg_t.
Variable un0 : Plan_Model.unroll_f.
Variable St : Z -> curve -> nat -> Prop.
Variable SF : Prop.
Hypothesis no_seeds : seeds f1 = false /\ seeds f2 = false /\ seeds f3 = false.
Hypothesis St_seed : forall k c pos, 0 <= k <= 4 -> St k c pos -> seeds f0 = false -> k_seed c = None.
Hypothesis St_0 : forall c pos, (seeds f0 = false -> k_seed c = None) -> St 0 c pos.
Hypothesis St_down : forall j k c pos, 0 <= j <= 1 -> j <= k <= 4 -> St k c pos -> St j c pos.
Hypothesis St_same : forall k c c' pos, same_front c c' -> St k c pos -> St k c' pos.
Hypothesis St_4 : forall c pos, St 4 c pos -> exists p a b, values over c p a b.
Hypothesis St_step : forall k d c pos, (exists n, d = draws n) -> 0 <= k < 4 -> St k c pos -> (reads (fst (front f0 f1 f2 f3 g0 g1 g2 g3 k)) = true -> (pos < length inputs)%nat) ->
  let pos' := if reads (fst (front f0 f1 f2 f3 g0 g1 g2 g3 k)) then Datatypes.S pos else pos in
  match gen (fst (front f0 f1 f2 f3 g0 g1 g2 g3 k)) (snd (front f0 f1 f2 f3 g0 g1 g2 g3 k)) d (nth pos inputs []) c with
  | Ok (c', r) => (r = 1 /\ St (k + 1) c' pos') \/ r = Engine_Model.INT_MIN \/ (-8 <= r <= 0 /\ 0 <= k + r /\ St (k + r) c' pos')
  | UB => ~ SF
  | _ => True
  end.
(** where no undefined behaviour is claimed *)
Hypothesis St_big : forall c pos p, SF -> St 4 c pos -> k_field c = Some p -> large p.
Hypothesis fo_tail : tail_gen fo = true.
Hypothesis fo_ok : forall d t c p a b pos, St 4 c pos -> values over c p a b -> curve_ok p a b -> k_curve c = Some (p, a, b) ->
  match gen fo go d t c with
  | Ok (c', r) => (r = 1 /\ c' = set_order (Some (points p a b)) c /\ order_wanted cfg (points p a b)) \/ r = -4
  | UB => ~ SF
  | _ => True
  end.
Hypothesis ga_ok : c_cofactor cfg = true -> ga = gens_arg cfg.

Lemma gens_tail : tail_gen (gens_f cfg) = true.
Proof. unfold gens_f. destruct (c_unique cfg); [reflexivity|]. destruct (c_cofactor cfg); reflexivity. Qed.
Theorem plain_result fuel av r w : search P cfg hexw tries delim inputs draws (Plan_Model.mkSetup
  [Some f0; Some f1; Some f2; Some f3; Some Plan_Model.curve_gen_any; Some fo; Some (gens_f cfg); Some (points_f cfg); Some (meta_f cfg)]
  [g0; g1; g2; g3; None; go; ga; points_arg cfg; None]
  [None; None; None; None; Some [Plan_Model.curve_check_nonzero]; None; None; hex_cell cfg; None]
  [None; None; None; None; None; None; None; hex_arg cfg; None]
  [Some un0; Some Plan_Model.unroll_skip; Some Plan_Model.unroll_skip; Some Plan_Model.unroll_skip;
   Some Plan_Model.curve_unroll; Some Plan_Model.unroll_skip; Some Plan_Model.gens_unroll; Some Plan_Model.points_unroll; None]) fuel av = (r, w) ->
  match r with Engine_Model.Returned r => (r = 1 /\ success P cfg over hexw (St 4) w) \/ (r = 0 /\ failed cfg SF w) | Engine_Model.NoFuel => True | _ => False end.
Proof.
  assert (D1 : forall c pos, St 4 c pos -> St 1 c pos) by (intros c pos; apply St_down; lia).
  apply (search_result P cfg over OV PO IS hexw tries delim inputs draws f0 f1 f2 f3 fo (gens_f cfg) g0 g1 g2 g3 go ga [] [] un0 St (St 4) (St 4) (St 4) (St 4) SF); try assumption.
  - intros _. destruct no_seeds as (A & B & C). split; [exact A|]. split; [exact B|]. split; [exact C|]. exact (tail_seeds _ gens_tail).
  - apply St_0. reflexivity.
  - intros c pos _. apply St_0.
  - intros c pos p a b S _ _. exact (D1 _ _ S).
  - intros d t c p a b pos S V C Kc. pose proof (fo_ok d t c p a b pos S V C Kc) as H.
    destruct (gen fo go d t c) as [[c' r']| | |] eqn:G; try exact H. destruct H as [(H1 & H2 & H3)| ->]; [left; split; [exact H1|]; split; [exact H2|]; split; [exact H3|]; rewrite H2; apply (St_same 4 c); [repeat split|exact S]|right]. split; [lia|].
    apply (St_same 1 c); [exact (tail_keeps _ _ _ _ _ _ _ _ _ _ _ fo_tail G)|exact (D1 _ _ S)].
  - intros f c p a b pos [].
  - intros c p a b pos S _ _. exact S.
  - exact (tail_reads _ gens_tail).
  - intros d t c p a b pos S (V & ns & Kc & Ko & O).
    destruct (gens_stage P cfg over OV PO p a b (proj1 (proj2 V)) ns tries delim d t c ga ga_ok Kc Ko O) as (c' & r' & G0 & [(-> & g & -> & G1 & G2 & G3 & G4)| ->]); rewrite G0; [left|right; right].
    + split; [reflexivity|]. exists (k_seed c), g. split; [reflexivity|]. split; [|apply (St_same 4 c); [repeat split|exact S]].
      split; [intros _; exact G1|]. split; [exact G2|]. split; [intros ((_ & U) & _); exact (G3 U)|exact G4].
    + split; [reflexivity|]. apply (St_same 1 c); [exact (tail_keeps _ _ _ _ _ _ _ _ _ _ _ gens_tail G0)|exact (D1 _ _ S)].
  - intros f c p a b pos g [].
  - intros c p a b pos g S _ _ _ _. exact S.
  - intros c pos S. apply (St_seed 4 c pos); [lia|exact S].
  - intros c pos S. apply (St_seed 4 c pos); [lia|exact S].
  - intros c pos p a b _ S _. exact (D1 _ _ S).
  - intros c c' pos A _ _. apply (St_same 4 c c' pos A).
Qed.
End Plain.
