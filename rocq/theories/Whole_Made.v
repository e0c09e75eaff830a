(** Plans that choose a seed and a field and then make both coefficients at once: what is needed of their functions. *)
From Coq Require Import Ascii Znumtheory.
From Verif Require Import Base Fp Ec Poly_Model Cli_Model CurveText_Spec Whole_Model Whole_Spec Whole_Stages Whole_Proofs Whole_Front Whole_Run Whole_Default.
From Verif Require Plan_Model Engine_Model Ansi_Model.
Local Open Scope Z_scope.
Local Open Scope list_scope.

(** an implication whose premise is a false comparison of two numbers *)
Ltac vac := let X := fresh in intros X; exfalso; apply X; reflexivity.

Section Made.
(** the random numbers of which [f3_ok] holds *)
Variable dok : draw -> Prop.
Variable P : pari.
Variable cfg : config.
(** the curves that can come up *)
Variable on : field -> Z -> Z -> Prop.
Hypothesis on_fits : forall f a b, on f a b -> field_fits cfg f.
Hypothesis PO : pari_on P on.
Hypothesis IR : in_tail cfg.
Variable tries : nat.
Variable delim : ascii.
Notation bits := (c_bits cfg).
Notation gen := (generator P cfg tries delim).
Variables f0 f1 f3 fo : Plan_Model.gen_f.
Variables g0 g1 g2 g3 go ga : option Plan_Model.arg_t.
Variable un0 : Plan_Model.unroll_f.
Variable SF : Prop.
(** the fields that can be picked, by what stands for them *)
Variable X : Type.
Variable fld : X -> field.
Variable fok : X -> Prop.
(** what is known of the seed and of the field, with the fields of the input that were read for them, and of the
    coefficients *)
Variable seeded : list str -> option any_seed -> Prop.
Variable picked : list str -> X -> Prop.
Variable made : option any_seed -> X -> Z -> Z -> Prop.
Hypothesis no_seed : seeds f0 = false -> forall l s, seeded l s -> s = None.
Hypothesis only_seed : seeds f1 = false /\ seeds f3 = false.
Hypothesis f0_ok : forall d t c, (seeds f0 = false -> k_seed c = None) -> match gen f0 g0 d t c with
  | Ok (c', r) => (r = 1 /\ seeded (text_of f0 t) (k_seed c')) \/ r = Engine_Model.INT_MIN \/ (r = 0 /\ c' = c)
  | UB => ~ SF
  | _ => True
  end.
Hypothesis f1_ok : forall d t c, match gen f1 g1 d t c with
  | Ok (c', r) => (r = 1 /\ exists p, c' = set_field (fld p) c /\ fok p /\ picked (text_of f1 t) p) \/ r = Engine_Model.INT_MIN \/ (r = 0 /\ c' = c)
  | UB => ~ SF
  | _ => True
  end.
Hypothesis f3_reads : reads f3 = false.
Hypothesis f3_ok : forall d t c p ls lp, dok d -> k_field c = Some (fld p) -> fok p -> seeded ls (k_seed c) -> picked lp p ->
  match gen f3 g3 d t c with
  | Ok (c', r) => (r = 1 /\ exists x y, c' = set_b y (set_a x c) /\ made (k_seed c) p (elem_int x) (elem_int y)) \/ r = Engine_Model.INT_MIN \/ (-3 <= r <= -2 /\ c' = c)
  | UB => ~ SF
  | _ => True
  end.
Hypothesis big : forall l p, SF -> picked l p -> large (fld p).
Hypothesis fo_tail : tail_gen fo = true.
Hypothesis made_on : forall l s p a b, fok p -> picked l p -> made s p a b -> on (fld p) a b /\ inside (fld p) a /\ inside (fld p) b.
Hypothesis fo_ok : forall d t c p a b, made (k_seed c) p a b -> values on c (fld p) a b -> curve_ok (fld p) a b -> k_curve c = Some (fld p, a, b) ->
  match gen fo go d t c with
  | Ok (c', r) => (r = 1 /\ c' = set_order (Some (points (fld p) a b)) c /\ order_wanted cfg (points (fld p) a b)) \/ r = -4
  | UB => ~ SF
  | _ => True
  end.
Hypothesis ga_ok : c_cofactor cfg = true -> ga = gens_arg cfg.

(** before the stage [k], when [pos] fields of [l] were read; [l0] and [l1] were read for attempts that came to nothing *)
Definition made_front (l : list str) (k : Z) (c : curve) (pos : nat) : Prop :=
  (seeds f0 = false -> k_seed c = None) /\
  (1 <= k -> exists l0 ls lf, firstn pos l = l0 ++ ls ++ lf /\ (reads f1 = false -> lf = []) /\ seeded ls (k_seed c) /\
    (2 <= k -> exists l1 lp p, lf = l1 ++ lp /\ k_field c = Some (fld p) /\ fok p /\ picked lp p /\
      (4 <= k -> exists x y, k_a c = Some x /\ k_b c = Some y /\ made (k_seed c) p (elem_int x) (elem_int y)))).

Lemma made_down l j k c pos : 0 <= j <= 1 -> j <= k -> made_front l k c pos -> made_front l j c pos.
Proof.
  intros A B (S & H). split; [exact S|]. intros L. destruct (H ltac:(lia)) as (l0 & ls & lf & C & E & D & _). exists l0, ls, lf.
  split; [exact C|]. split; [exact E|]. split; [exact D|]. lia.
Qed.
Lemma made_result hexw l draws fuel av r w : (forall n, dok (draws n)) ->
  search P cfg hexw tries delim l draws (Plan_Model.mkSetup
    [Some f0; Some f1; Some Plan_Model.gen_skip; Some f3; Some Plan_Model.curve_gen_any; Some fo; Some (gens_f cfg); Some (points_f cfg); Some (meta_f cfg)]
    [g0; g1; g2; g3; None; go; ga; points_arg cfg; None]
    [None; None; None; None; Some [Plan_Model.curve_check_nonzero]; None; None; hex_cell cfg; None]
    [None; None; None; None; None; None; None; hex_arg cfg; None]
    [Some un0; Some Plan_Model.unroll_skip; Some Plan_Model.unroll_skip; Some Plan_Model.unroll_skip;
     Some Plan_Model.curve_unroll; Some Plan_Model.unroll_skip; Some Plan_Model.gens_unroll; Some Plan_Model.points_unroll; None]) fuel av = (r, w) ->
  match r with Engine_Model.Returned r => (r = 1 /\ success P cfg on hexw (made_front l 4) w) \/ (r = 0 /\ failed cfg SF w)
  | Engine_Model.NoFuel => True | _ => False end.
Proof.
  intros DO. apply (plain_result P cfg _ on_fits PO IR hexw tries delim l draws _ _ _ _ _ _ _ _ _ _ _ _ (made_front l) SF).
  - destruct only_seed as (A & B). split; [exact A|]. split; [reflexivity|exact B].
  - intros k c pos _ (S & _) E. exact (S E).
  - intros c pos S. split; [exact S|]. vac.
  - intros j k c pos L M H. apply (made_down l j k); [lia|lia|exact H].
  - intros k c c' pos (S1 & S2 & S3 & S4 & _) H. unfold made_front. rewrite S1, S2, S3, S4. exact H.
  - intros c pos (_ & H). destruct (H ltac:(discriminate)) as (l0 & ls & lf & _ & _ & _ & G). destruct (G ltac:(discriminate)) as (l1 & lp & p & _ & A & B & Y & M).
    destruct (M ltac:(discriminate)) as (x & y & Ka & Kb & MM). destruct (made_on lp _ p _ _ B Y MM) as (N & IN). exists (fld p), (elem_int x), (elem_int y). split; [exact A|]. split; [exact N|]. split; [exact IN|]. exists x, y. auto.
  - intros k d c pos (n & ->) Lk (S & H) RD. specialize (DO n). set (d := draws n) in *. clearbody d. assert (KK : k = 0 \/ k = 1 \/ k = 2 \/ k = 3) by lia.
    destruct KK as [->|[->|[->| ->]]]; cbn [front Z.eqb Pos.eqb fst snd] in *; cbv zeta.
    + pose proof (f0_ok d (nth pos l []) c S) as F. destruct (gen f0 g0 d (nth pos l []) c) as [[c' r']| | |]; [|exact F|exact I|exact I].
      destruct F as [(-> & F)|[F|(-> & ->)]]; [left|right; left; exact F|right; right].
      * split; [reflexivity|]. split; [intros E; exact (no_seed E _ _ F)|]. intros _. exists (firstn pos l), (text_of f0 (nth pos l [])), [].
        split; [rewrite (firstn_text _ _ _ RD), app_nil_r; reflexivity|]. split; [reflexivity|]. split; [exact F|]. vac.
      * split; [split; discriminate|]. split; [discriminate|]. split; [exact S|]. vac.
    + destruct (H ltac:(discriminate)) as (l0 & ls & lf & C & NR & D & _).
      assert (NR' : reads f1 = false -> lf ++ text_of f1 (nth pos l []) = []) by (intros E; rewrite (NR E); unfold text_of; rewrite E; reflexivity).
      pose proof (f1_ok d (nth pos l []) c) as F. destruct (gen f1 g1 d (nth pos l []) c) as [[c' r']| | |]; [|exact F|exact I|exact I].
      destruct F as [(-> & p & -> & A & B)|[F|(-> & ->)]]; [left|right; left; exact F|right; right].
      * split; [reflexivity|]. split; [exact S|]. intros _. exists l0, ls, (lf ++ text_of f1 (nth pos l [])).
        split; [rewrite (firstn_text _ _ _ RD), C, <- !app_assoc; reflexivity|]. split; [exact NR'|]. split; [exact D|]. intros _. exists lf, (text_of f1 (nth pos l [])), p.
        split; [reflexivity|]. split; [reflexivity|]. split; [exact A|]. split; [exact B|]. vac.
      * split; [split; discriminate|]. split; [discriminate|]. split; [exact S|]. intros _. exists l0, ls, (lf ++ text_of f1 (nth pos l [])).
        split; [rewrite (firstn_text _ _ _ RD), C, <- !app_assoc; reflexivity|]. split; [exact NR'|]. split; [exact D|]. vac.
    + left. split; [reflexivity|]. split; [exact S|]. intros _. destruct (H ltac:(discriminate)) as (l0 & ls & lf & C & NR & D & G). exists l0, ls, lf.
      split; [exact C|]. split; [exact NR|]. split; [exact D|]. intros _. destruct (G ltac:(discriminate)) as (l1 & lp & p & A & B & F3 & Y & _). exists l1, lp, p.
      split; [exact A|]. split; [exact B|]. split; [exact F3|]. split; [exact Y|]. vac.
    + destruct (H ltac:(discriminate)) as (l0 & ls & lf & C & NR & D & G). destruct (G ltac:(discriminate)) as (l1 & lp & p & A & B & F3 & Y & _).
      pose proof (f3_ok d (nth pos l []) c p ls lp DO B F3 D Y) as F. rewrite f3_reads. destruct (gen f3 g3 d (nth pos l []) c) as [[c' r']| | |]; [|exact F|exact I|exact I].
      destruct F as [(-> & x & y & -> & M)|[F|(R3 & ->)]]; [left|right; left; exact F|right; right].
      * split; [reflexivity|]. split; [exact S|]. intros _. exists l0, ls, lf. split; [exact C|]. split; [exact NR|]. split; [exact D|]. intros _. exists l1, lp, p.
        split; [exact A|]. split; [exact B|]. split; [exact F3|]. split; [exact Y|]. intros _. exists x, y. split; [reflexivity|]. split; [reflexivity|exact M].
      * split; [lia|]. split; [lia|]. apply (made_down l _ 3); [lia|lia|]. split; [exact S|]. intros _. exists l0, ls, lf. split; [exact C|]. split; [exact NR|]. split; [exact D|].
        intros _. exists l1, lp, p. split; [exact A|]. split; [exact B|]. split; [exact F3|]. split; [exact Y|]. vac.
  - intros c pos p SF' (_ & H) K. destruct (H ltac:(discriminate)) as (l0 & ls & lf & _ & _ & _ & G). destruct (G ltac:(discriminate)) as (l1 & lp & q & _ & A & _ & C & _).
    assert (p = fld q) by congruence. subst p. exact (big lp q SF' C).
  - exact fo_tail.
  - intros d t c p a b pos (_ & H) V ns K. destruct (H ltac:(discriminate)) as (l0 & ls & lf & _ & _ & _ & G). destruct (G ltac:(discriminate)) as (l1 & lp & q & _ & A & _ & _ & M).
    destruct (M ltac:(discriminate)) as (x & y & Ka & Kb & MM). pose proof V as (Kf & _ & _ & x' & y' & Ka' & Kb' & <- & <-).
    assert (p = fld q) by congruence. subst p. rewrite Ka in Ka'. injection Ka' as <-. rewrite Kb in Kb'. injection Kb' as <-. exact (fo_ok d t c q _ _ MM V ns K).
  - exact ga_ok.
Qed.

(** what that means for a published curve *)
Lemma made_shows hexw l c : found cfg hexw on (fun l => made_front l 4) l c -> exists p s, pub_f c = shown_field (fld p) /\ fok p /\
  pub_seed c = option_map (fun s => seed_text (seed_bits s)) s /\ made s p (pub_a c) (pub_b c) /\
  (exists l0 ls l1 lp, l = l0 ++ ls ++ l1 ++ lp /\ (reads f1 = false -> l1 ++ lp = []) /\ seeded ls s /\ picked lp p) /\ wanted_curve cfg hexw (fld p) c.
Proof.
  intros (k & f & ((S & St) & SH & (q & Kf & Pf') & (x & Kx & Px) & (y & Ky & Py)) & KF & Of & W & _).
  assert (Pf : pub_f c = shown_field f) by (replace f with q by congruence; exact Pf').
  destruct (St ltac:(discriminate)) as (l0 & ls & lf & C & NR & D & G). destruct (G ltac:(discriminate)) as (l1 & lp & p & -> & A & B & Y & M).
  destruct (M ltac:(discriminate)) as (x' & y' & Kx' & Ky' & MM).
  assert (f = fld p) by congruence. subst f. rewrite Kx in Kx'. injection Kx' as <-. rewrite Ky in Ky'. injection Ky' as <-.
  exists p, (k_seed k). split; [exact Pf|]. split; [exact B|]. split; [exact SH|]. split; [rewrite Px, Py; exact MM|]. split; [|exact W].
  exists l0, ls, l1, lp. rewrite firstn_all in C. auto.
Qed.
End Made.
