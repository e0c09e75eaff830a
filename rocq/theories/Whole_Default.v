(** C76: a whole run of the default method over a prime field, with parameters that are random, typed in or Koblitz. *)
From Coq Require Import Ascii String Znumtheory.
From Verif Require Import Base Fp Ec Poly_Model Points_Model Random_Model Random_Props Cli_Model Json_Spec CurveText_Spec.
From Verif Require Import Whole_Model Whole_Spec Whole_Stages Whole_Proofs Whole_Front Whole_Run Shell_Fields.
From Verif Require CurveText_Model CurveText_Props Plan_Model Engine_Model Shell_Model Shell_Spec Hex_Props Input_Model Input_Props Koblitz_Model Koblitz_Props.
Local Open Scope Z_scope.
Local Open Scope list_scope.

(** ** The plan *)
Definition plain (cfg : config) : bool := negb (c_prime cfg) && negb (c_cofactor cfg) && negb (c_smooth cfg).
Record in_default (cfg : config) : Prop := {
  id_field : c_field cfg = FIELD_PRIME;
  id_method : c_method cfg = METHOD_DEFAULT;
  id_algo : c_seed_algo cfg = 0;
  id_value : c_koblitz cfg = true -> c_koblitz_value cfg = 0 \/ c_koblitz_value cfg = 1;
  (** over a prime field the order in the table of Koblitz curves is wrong, see C45 *)
  id_table : c_koblitz cfg = true -> plain cfg = true -> forall e, In e Koblitz_Model.koblitz_curves -> Koblitz_Model.k_m e <> c_bits cfg mod 2 ^ 32;
  id_rest : in_range cfg
}.
Section Functions.
Variable cfg : config.
Definition field_f : Plan_Model.gen_f := if Plan_Model.is_random cfg RANDOM_FIELD then Plan_Model.field_gen_random else Plan_Model.field_gen_input.
Definition a_f : Plan_Model.gen_f :=
  if c_koblitz cfg then if c_koblitz_value cfg =? 0 then Plan_Model.a_gen_zero else Plan_Model.a_gen_one
  else if Plan_Model.is_random cfg RANDOM_A then Plan_Model.a_gen_random else Plan_Model.a_gen_input.
Definition b_f : Plan_Model.gen_f :=
  if c_koblitz cfg then Plan_Model.b_gen_one else if Plan_Model.is_random cfg RANDOM_B then Plan_Model.b_gen_random else Plan_Model.b_gen_input.
Definition ord_f : Plan_Model.gen_f := if (plain cfg && c_koblitz cfg)%bool then Plan_Model.order_gen_koblitz else order_f cfg.
End Functions.
Lemma plan cfg u : c_method cfg = METHOD_DEFAULT -> c_seed_algo cfg = 0 -> (c_koblitz cfg = true -> c_koblitz_value cfg = 0 \/ c_koblitz_value cfg = 1) -> in_range cfg ->
  snd (Plan_Model.exhaustive_init cfg u) = Plan_Model.mkSetup
  [Some Plan_Model.gen_skip; Some (field_f cfg); Some (a_f cfg); Some (b_f cfg);
   Some Plan_Model.curve_gen_any; Some (ord_f cfg); Some (gens_f cfg); Some (points_f cfg); Some (meta_f cfg)]
  [None; None; None; None; None; order_arg cfg; gens_arg cfg; points_arg cfg; None]
  [None; None; None; None; Some [Plan_Model.curve_check_nonzero]; None; None; hex_cell cfg; None]
  [None; None; None; None; None; None; None; hex_arg cfg; None]
  [Some Plan_Model.unroll_skip; Some Plan_Model.unroll_skip; Some Plan_Model.unroll_skip; Some Plan_Model.unroll_skip;
   Some Plan_Model.curve_unroll; Some Plan_Model.unroll_skip; Some Plan_Model.gens_unroll; Some Plan_Model.points_unroll; None].
Proof.
  intros M A V R. pose proof (in_type _ R) as T.
  assert (HP : forall g, Plan_Model.points_init cfg g = Plan_Model.put Plan_Model.POINTS (points_f cfg) g).
  { intros g. unfold Plan_Model.points_init, points_f.
    assert (TT : c_points_type cfg = 0 \/ c_points_type cfg = 1 \/ c_points_type cfg = 2 \/ c_points_type cfg = 3 \/ c_points_type cfg = 4) by lia.
    destruct TT as [->|[->|[->|[->| ->]]]]; [reflexivity|reflexivity| |reflexivity|reflexivity].
    destruct (c_points_amount cfg =? 0); reflexivity. }
  assert (HU : forall u g, exists u', Plan_Model.unique_init cfg u g = (u', Plan_Model.put Plan_Model.GENERATORS (gens_f cfg) g)).
  { intros u' g. unfold Plan_Model.unique_init, gens_f. destruct (c_unique cfg); [eauto|]. destruct (c_cofactor cfg); eauto. }
  assert (HM : forall g, (if c_metadata cfg then Plan_Model.put Plan_Model.METADATA Plan_Model.metadata_gen g else Plan_Model.put Plan_Model.METADATA Plan_Model.gen_skip g)
             = Plan_Model.put Plan_Model.METADATA (meta_f cfg) g).
  { intros g. unfold meta_f. destruct (c_metadata cfg); reflexivity. }
  assert (HG : exists u', Plan_Model.exhaustive_ginit cfg u = (u', [Some Plan_Model.gen_skip; Some (field_f cfg); Some (a_f cfg); Some (b_f cfg);
   Some Plan_Model.curve_gen_any; Some (ord_f cfg); Some (gens_f cfg); Some (points_f cfg); Some (meta_f cfg)])).
  { unfold Plan_Model.exhaustive_ginit. rewrite A, M. cbv zeta. change (METHOD_DEFAULT =? METHOD_SEED) with false.
    change (METHOD_DEFAULT =? METHOD_FAMILY) with false. change (METHOD_DEFAULT =? METHOD_TWIST) with false. change (negb (0 =? 0)) with false. cbn iota.
    unfold ord_f, order_f, plain, field_f, a_f, b_f.
    destruct (c_koblitz cfg); [destruct (V eq_refl) as [-> | ->]; cbn [Z.eqb Pos.eqb]|].
    all: destruct (c_prime cfg); [|destruct (c_cofactor cfg); [|destruct (c_smooth cfg)]]; cbn [negb andb].
    all: match goal with |- context [Plan_Model.unique_init _ ?v ?g] => destruct (HU v g) as (u' & ->) end.
    all: rewrite HM, HP; eexists; try (destruct (Plan_Model.is_random cfg RANDOM_FIELD); try (destruct (Plan_Model.is_random cfg RANDOM_A), (Plan_Model.is_random cfg RANDOM_B))); reflexivity. }
  destruct HG as (u1 & HG). unfold Plan_Model.exhaustive_init. rewrite HG. clear HG HP HU HM.
  unfold Plan_Model.exhaustive_cinit, Plan_Model.exhaustive_ainit, Plan_Model.exhaustive_uinit, Plan_Model.hex_args, order_arg, gens_arg, points_arg, hex_cell, hex_arg.
  rewrite A, M. change (METHOD_DEFAULT =? METHOD_SEED) with false. change (METHOD_DEFAULT =? METHOD_FAMILY) with false. change (negb (0 =? 0)) with false.
  cbn [orb]. cbn iota. cbn [snd]. f_equal.
  - destruct (c_points_type cfg =? POINTS_RANDOM), (c_cofactor cfg), (c_smooth cfg); reflexivity.
  - destruct (c_hex_check cfg); reflexivity.
  - destruct (c_hex_check cfg); reflexivity.
Qed.

(** ** The stages *)
Lemma firstn_next {A} (d : A) l : forall n, (n < length l)%nat -> firstn (Datatypes.S n) l = firstn n l ++ [nth n l d].
Proof. induction l as [|x l IH]; intros n L; [cbn in L; lia|]. destruct n as [|n]; [reflexivity|]. cbn [length] in L. cbn [nth app]. rewrite (firstn_cons (Datatypes.S n)), (IH n) by lia. reflexivity. Qed.

(** the fields that one call of a function reads *)
Definition text_of (f : Plan_Model.gen_f) (t : str) : list str := if reads f then [t] else [].
Lemma firstn_text f l pos : (reads f = true -> (pos < length l)%nat) -> firstn (if reads f then Datatypes.S pos else pos) l = firstn pos l ++ text_of f (nth pos l []).
Proof. intros H. unfold text_of. destruct (reads f); [apply firstn_next; auto|now rewrite app_nil_r]. Qed.

Section Field.
Variable P : pari.
Variable cfg : config.
Hypothesis PO : pari_ok P (c_bits cfg).
Hypothesis Hb : 3 <= c_bits cfg < 2 ^ 61.
Hypothesis FP : c_field cfg = FIELD_PRIME.
Variable tries : nat.
Variable delim : ascii.
Hypothesis DL : reads (field_f cfg) = true -> Input_Props.delimiter delim.
Notation bits := (c_bits cfg).
Notation gen := (generator P cfg tries delim).
Lemma field_stage d t c : match gen (field_f cfg) None d t c with
  | Ok (c', r) => (r = 1 /\ exists p, c' = set_field (Prime p) c /\ field_over bits p /\ field_chosen cfg delim (text_of (field_f cfg) t) p) \/ r = Engine_Model.INT_MIN \/ (r = 0 /\ c' = c)
  | UB => False
  | _ => True
  end.
Proof.
  assert (D := DL).
  unfold field_f, field_chosen, text_of in *. destruct (Plan_Model.is_random cfg RANDOM_FIELD).
  - pose proof (field_random P cfg PO Hb FP tries delim None d t c) as H. destruct (gen Plan_Model.field_gen_random None d t c) as [[c' r]| | |]; try exact H.
    destruct H as (-> & p & -> & A & B & C). left. split; [reflexivity|]. exists p. split; [reflexivity|]. split; [exact C|]. split; [reflexivity|exact B].
  - pose proof (field_input P cfg PO Hb FP tries delim (D eq_refl) None d t c) as H. destruct (gen Plan_Model.field_gen_input None d t c) as [[c' r]| | |]; try exact I; [|exact H].
    destruct H as [(-> & p & -> & A & B)|H]; [left|right; exact H]. split; [reflexivity|]. exists p. split; [reflexivity|]. split; [exact A|]. exists t. split; [reflexivity|exact B].
Qed.
End Field.

Section Default.
Variable P : pari.
Variable cfg : config.
Hypothesis PO : pari_ok P (c_bits cfg).
Hypothesis ID : in_default cfg.
Variable tries : nat.
Variable delim : ascii.
Hypothesis DL : (reads (field_f cfg) || reads (a_f cfg) || reads (b_f cfg))%bool = true -> Input_Props.delimiter delim.
Notation bits := (c_bits cfg).
Notation gen := (generator P cfg tries delim).
(** what was read for a coefficient that is not there yet *)
Definition pending (h : how) (l : list str) : Prop := match h with Typed => Forall (refused delim bits) l | _ => l = [] end.

Lemma default_bits : 3 <= bits < 2 ^ 61. Proof. exact (in_bits _ (id_rest _ ID)). Qed.
Lemma a_stage d t c p r0 : k_field c = Some (Prime p) -> field_over bits p -> pending (how_a cfg) r0 ->
  match gen (a_f cfg) None d t c with
  | Ok (c', r) => (r = 1 /\ exists x, c' = set_a x c /\ coefficient (how_a cfg) delim bits p (r0 ++ text_of (a_f cfg) t) (elem_int x) /\ (c_koblitz cfg = true -> x = Int (c_koblitz_value cfg))) \/
     r = Engine_Model.INT_MIN \/ (r = 0 /\ c' = c /\ pending (how_a cfg) (r0 ++ text_of (a_f cfg) t))
  | _ => False
  end.
Proof.
  intros K FO PE. assert (D : reads (a_f cfg) = true -> Input_Props.delimiter delim) by (intros E; apply DL; rewrite E; now rewrite orb_true_r).
  pose proof (id_value _ ID) as V. pose proof (prime_ge_2 p (proj1 FO)) as P2.
  unfold a_f, how_a, text_of, pending, coefficient in *. destruct (c_koblitz cfg); [|destruct (Plan_Model.is_random cfg RANDOM_A)].
  - rewrite PE. destruct (V eq_refl) as [-> | ->]; cbn; left; (split; [reflexivity|]); eexists; (split; [reflexivity|]); cbn; (split; [|reflexivity]); (split; [lia|]); auto.
  - rewrite PE. destruct (a_random P cfg tries delim None d t c p K FO) as (x & -> & X). left. split; [reflexivity|]. exists (Int x). split; [reflexivity|]. cbn. split; [auto|discriminate].
  - cbn [generator reads]. rewrite K. cbn [need bind]. destruct (coefficient_input cfg default_bits delim (D eq_refl) t p ltac:(lia)) as [(x & -> & X & Y)|[-> |(-> & Y)]]; cbn [put_a].
    + left. split; [reflexivity|]. exists x. split; [reflexivity|]. split; [|discriminate]. split; [exact X|]. exists r0, t. auto.
    + right; left. reflexivity.
    + right; right. split; [reflexivity|]. split; [reflexivity|]. apply Forall_app. split; [exact PE|]. constructor; [exact Y|constructor].
Qed.
Lemma b_stage d t c p r0 : k_field c = Some (Prime p) -> field_over bits p -> pending (how_b cfg) r0 ->
  match gen (b_f cfg) None d t c with
  | Ok (c', r) => (r = 1 /\ exists x, c' = set_b x c /\ coefficient (how_b cfg) delim bits p (r0 ++ text_of (b_f cfg) t) (elem_int x)) \/
     r = Engine_Model.INT_MIN \/ (r = 0 /\ c' = c /\ pending (how_b cfg) (r0 ++ text_of (b_f cfg) t))
  | _ => False
  end.
Proof.
  intros K FO PE. assert (D : reads (b_f cfg) = true -> Input_Props.delimiter delim) by (intros E; apply DL; rewrite E; now rewrite orb_true_r).
  pose proof (prime_ge_2 p (proj1 FO)) as P2.
  unfold b_f, how_b, text_of, pending, coefficient in *. destruct (c_koblitz cfg); [|destruct (Plan_Model.is_random cfg RANDOM_B)].
  - rewrite PE. cbn. left. split; [reflexivity|]. eexists. split; [reflexivity|]. cbn. split; [lia|]. auto.
  - rewrite PE. destruct (b_random P cfg tries delim None d t c p K FO) as (x & -> & X). left. split; [reflexivity|]. exists (Int x). split; [reflexivity|]. cbn. auto.
  - cbn [generator reads]. rewrite K. cbn [need bind]. destruct (coefficient_input cfg default_bits delim (D eq_refl) t p ltac:(lia)) as [(x & -> & X & Y)|[-> |(-> & Y)]]; cbn [put_b].
    + left. split; [reflexivity|]. exists x. split; [reflexivity|]. split; [exact X|]. exists r0, t. auto.
    + right; left. reflexivity.
    + right; right. split; [reflexivity|]. split; [reflexivity|]. apply Forall_app. split; [exact PE|]. constructor; [exact Y|constructor].
Qed.
Lemma ord_stage d t c p a b x : values (every (prime_over bits)) c p a b -> curve_ok p a b -> k_curve c = Some (p, a, b) ->
  k_a c = Some x -> (c_koblitz cfg = true -> x = Int (c_koblitz_value cfg)) ->
  match gen (ord_f cfg) (order_arg cfg) d t c with
  | Ok (c', r) => (r = 1 /\ c' = set_order (Some (points p a b)) c /\ order_wanted cfg (points p a b)) \/ r = -4
  | _ => False
  end.
Proof.
  intros (_ & OO & _) ns K Ka Kx. unfold ord_f.
  destruct (plain cfg && c_koblitz cfg)%bool eqn:E.
  - apply andb_true_iff in E. destruct E as (E1 & E2). cbn [generator]. rewrite Ka, (Kx E2), K. cbn [need bind]. unfold Koblitz_Model.order_gen_koblitz. cbn [Koblitz_Model.itou bind].
    unfold Koblitz_Model.koblitz_get_order. rewrite Koblitz_Props.find_exact.
    destruct (find _ Koblitz_Model.koblitz_curves) as [e|] eqn:F.
    + exfalso. apply find_some in F. destruct F as (Ie & F). apply andb_true_iff in F. destruct F as (F & _). apply Z.eqb_eq in F. exact (id_table _ ID E2 E1 e Ie F).
    + cbn [bind]. rewrite (pc_card _ _ _ _ (pc_curve _ _ PO p a b OO ns)). left. split; [reflexivity|]. split; [reflexivity|].
      unfold plain in E1. unfold order_wanted. destruct (c_prime cfg), (c_cofactor cfg), (c_smooth cfg); try discriminate E1. repeat split; discriminate.
  - destruct (order_stage P cfg _ (prime_fits _) PO p a b OO ns (id_rest _ ID) tries delim d t c K) as (c' & r' & -> & X). exact X.
Qed.

(** what is known of the curve before the stage [k], when [pos] fields of [l] were read *)
Definition default_front (l : list str) (k : Z) (c : curve) (pos : nat) : Prop :=
  k_seed c = None /\ (2 <= k -> exists p l0 lp la lb, k_field c = Some (Prime p) /\ field_over bits p /\ field_chosen cfg delim lp p /\
    firstn pos l = l0 ++ lp ++ la ++ lb /\
    (if k =? 2 then pending (how_a cfg) la
     else exists x, k_a c = Some x /\ coefficient (how_a cfg) delim bits p la (elem_int x) /\ (c_koblitz cfg = true -> x = Int (c_koblitz_value cfg))) /\
    (if k =? 2 then lb = [] else if k =? 3 then pending (how_b cfg) lb
     else exists y, k_b c = Some y /\ coefficient (how_b cfg) delim bits p lb (elem_int y))).
Lemma no_text h : pending h []. Proof. destruct h; [constructor|reflexivity..]. Qed.
Lemma default_result hexw l draws fuel av r w u :
  search P cfg hexw tries delim l draws (snd (Plan_Model.exhaustive_init cfg u)) fuel av = (r, w) ->
  match r with Engine_Model.Returned r => (r = 1 /\ success P cfg (every (prime_over bits)) hexw (default_front l 4) w) \/ (r = 0 /\ failed cfg (Plan_Model.is_random cfg RANDOM_FIELD = true) w)
  | Engine_Model.NoFuel => True | _ => False end.
Proof.
  rewrite (plan cfg u (id_method _ ID) (id_algo _ ID) (id_value _ ID) (id_rest _ ID)). pose proof (id_rest _ ID) as IR. pose proof (in_bits _ IR) as Hb.
  apply (plain_result P cfg _ (prime_fits _) PO IR hexw tries delim l draws _ _ _ _ _ _ _ _ _ _ _ _ (default_front l) (Plan_Model.is_random cfg RANDOM_FIELD = true)).
  - split; [|split].
    + unfold field_f. destruct (Plan_Model.is_random cfg RANDOM_FIELD); reflexivity.
    + unfold a_f. destruct (c_koblitz cfg); [destruct (c_koblitz_value cfg =? 0); reflexivity|]. destruct (Plan_Model.is_random cfg RANDOM_A); reflexivity.
    + unfold b_f. destruct (c_koblitz cfg); [reflexivity|]. destruct (Plan_Model.is_random cfg RANDOM_B); reflexivity.
  - intros k c pos _ (S & _) _. exact S.
  - intros c pos S. split; [now apply S|]. lia.
  - intros j k c pos L M (S & H). split; [exact S|]. lia.
  - intros k c c' pos (S1 & S2 & S3 & S4 & _) H. unfold default_front. rewrite S1, S2, S3, S4. exact H.
  - intros c pos (_ & H). destruct (H ltac:(lia)) as (p & l0 & lp & la & lb & A & B & C & D & E & G). cbn [Z.eqb Pos.eqb] in E, G.
    destruct E as (x & Ka & _). destruct G as (y & Kb & _).
    exists (Prime p), (elem_int x), (elem_int y). split; [exact A|]. split; [exact B|]. split; [split; exact I|]. exists x, y. auto.
  - intros k d c pos _ Lk (S & H) RD. assert (KK : k = 0 \/ k = 1 \/ k = 2 \/ k = 3) by lia.
    destruct KK as [->|[->|[->| ->]]]; cbn [front Z.eqb Pos.eqb fst snd] in *; cbv zeta.
    + left. split; [reflexivity|]. split; [exact S|]. lia.
    + assert (DF : reads (field_f cfg) = true -> Input_Props.delimiter delim) by (intros E; apply DL; rewrite E; reflexivity).
      pose proof (field_stage P cfg PO Hb (id_field _ ID) tries delim DF d (nth pos l []) c) as F.
      destruct (gen (field_f cfg) None d (nth pos l []) c) as [[c' r']| | |]; [|destruct F|exact I|exact I].
      destruct F as [(-> & p & -> & A & B)|[F|(-> & ->)]]; [left|right; left; exact F|right; right].
      * split; [reflexivity|]. split; [exact S|]. intros _. exists p, (firstn pos l), (text_of (field_f cfg) (nth pos l [])), [], []. cbn [Z.eqb Pos.eqb].
        split; [reflexivity|]. split; [exact A|]. split; [exact B|]. split; [rewrite (firstn_text _ _ _ RD), app_nil_r; reflexivity|]. split; [apply no_text|reflexivity].
      * split; [lia|]. split; [lia|]. split; [exact S|]. lia.
    + destruct (H ltac:(lia)) as (p & l0 & lp & la & lb & A & B & C & D & E & G). cbn [Z.eqb Pos.eqb] in E, G. subst lb. rewrite app_nil_r in D.
      pose proof (a_stage d (nth pos l []) c p la A B E) as F. destruct (gen (a_f cfg) None d (nth pos l []) c) as [[c' r']| | |]; [|destruct F..].
      destruct F as [(-> & x & -> & F1 & F2)|[F|(-> & -> & F)]]; [left|right; left; exact F|right; right].
      * split; [reflexivity|]. split; [exact S|]. intros _. exists p, l0, lp, (la ++ text_of (a_f cfg) (nth pos l [])), []. cbn [Z.eqb Pos.eqb Z.add Pos.add Pos.succ].
        split; [exact A|]. split; [exact B|]. split; [exact C|]. split; [rewrite (firstn_text _ _ _ RD), D, app_nil_r, <- !app_assoc; reflexivity|].
        split; [exists x; split; [reflexivity|split; assumption]|apply no_text].
      * split; [lia|]. split; [lia|]. split; [exact S|]. intros _. exists p, l0, lp, (la ++ text_of (a_f cfg) (nth pos l [])), []. cbn [Z.eqb Pos.eqb Z.add].
        split; [exact A|]. split; [exact B|]. split; [exact C|]. split; [rewrite (firstn_text _ _ _ RD), D, app_nil_r, <- !app_assoc; reflexivity|]. split; [exact F|reflexivity].
    + destruct (H ltac:(lia)) as (p & l0 & lp & la & lb & A & B & C & D & E & G). cbn [Z.eqb Pos.eqb] in E, G.
      pose proof (b_stage d (nth pos l []) c p lb A B G) as F. destruct (gen (b_f cfg) None d (nth pos l []) c) as [[c' r']| | |]; [|destruct F..].
      destruct F as [(-> & y & -> & F1)|[F|(-> & -> & F)]]; [left|right; left; exact F|right; right].
      * split; [reflexivity|]. split; [exact S|]. intros _. exists p, l0, lp, la, (lb ++ text_of (b_f cfg) (nth pos l [])). cbn [Z.eqb Pos.eqb Z.add Pos.add Pos.succ].
        split; [exact A|]. split; [exact B|]. split; [exact C|]. split; [rewrite (firstn_text _ _ _ RD), D, <- !app_assoc; reflexivity|].
        split; [exact E|]. exists y. split; [reflexivity|exact F1].
      * split; [lia|]. split; [lia|]. split; [exact S|]. intros _. exists p, l0, lp, la, (lb ++ text_of (b_f cfg) (nth pos l [])). cbn [Z.eqb Pos.eqb Z.add].
        split; [exact A|]. split; [exact B|]. split; [exact C|]. split; [rewrite (firstn_text _ _ _ RD), D, <- !app_assoc; reflexivity|]. split; [exact E|exact F].
  - intros c pos p RF (_ & H) K. destruct (H ltac:(lia)) as (q & l0 & lp & la & lb & A & B & C & _). assert (p = Prime q) by congruence. subst p.
    unfold field_chosen in C. rewrite RF in C. apply (bits_over cfg Hb); [apply B|apply C].
  - unfold ord_f, order_f. destruct (_ && _)%bool; [reflexivity|]. destruct (c_prime cfg); [reflexivity|]. destruct (c_cofactor cfg); [reflexivity|]. destruct (c_smooth cfg); reflexivity.
  - intros d t c p a b pos (_ & H) V ns K. destruct (H ltac:(lia)) as (q & l0 & lp & la & lb & _ & _ & _ & _ & (x & Kx & _ & Ix) & _).
    pose proof (ord_stage d t c p a b x V ns K Kx Ix) as X. destruct (gen (ord_f cfg) (order_arg cfg) d t c) as [[c' r']| | |]; [exact X|destruct X..].
  - reflexivity.
Qed.
End Default.

(** ** The run *)
Section Run.
Variable P : pari.
Variable cfg : config.
Hypothesis PO : pari_ok P (c_bits cfg).
Hypothesis ID : in_default cfg.
Variable hexw hexp dec : Z -> list ascii.
Hypothesis OK : prints hexw hexp dec.
Hypothesis HX : Hex_Props.prints_hex hexw.
Variable junk : nat -> ascii.
Variable draws : Z -> nat -> draw.
Variable tries fuel : nat.
Variable avma : Z.
Notation setup := (snd (Plan_Model.exhaustive_init cfg [N_method])).

Lemma default_shows delim l c : found cfg hexw (every (prime_over (c_bits cfg))) (fun l => default_front cfg delim l 4) l c -> wanted_default cfg hexw delim l c.
Proof.
  intros (k & f & ((S & St) & SH & (q & Kf & Pf') & (x & Kx & Px) & (y & Ky & Py)) & KF & Of & W & _).
  assert (Pf : pub_f c = shown_field f) by (replace f with q by congruence; exact Pf').
  destruct (St ltac:(lia)) as (p' & l0 & lp & la & lb & A & (B1 & B2) & C & D & (x' & Kx' & E & _) & (y' & Ky' & F)).
  destruct f as [p|?]; [|destruct Of]. assert (p' = p) by (rewrite A in Kf; injection Kf as <-; rewrite Pf in Pf'; cbn in Pf'; congruence). subst p'. rewrite Kx in Kx'. injection Kx' as <-. rewrite Ky in Ky'. injection Ky' as <-.
  exists p. split; [exact Pf|]. split; [rewrite SH, S; reflexivity|]. split; [exact B1|]. split; [exact B2|]. split; [|exact W].
  exists l0, lp, la, lb. rewrite Px, Py. rewrite firstn_all in D. split; [exact D|]. split; [exact C|]. split; [exact E|exact F].
Qed.
Lemma default_file delim ino readable writable reason io seadata fs kbd d input outer i :
  ((reads (field_f cfg) || reads (a_f cfg) || reads (b_f cfg))%bool = true -> Input_Props.delimiter delim) ->
  Shell_Spec.separate ino writable io -> Shell_Spec.input_is ino readable io fs kbd d input ->
  Shell_Model.i_append io = false -> Shell_Spec.out_file ino writable io i -> 0 <= c_count cfg < 2 ^ 64 ->
  let '(w, status) := Shell_Model.main ino readable writable (fun _ => None) reason true io seadata
      (exhaustive_do P cfg hexw hexp dec junk draws tries fuel avma delim setup outer) (Shell_Model.fresh fs kbd) in
  status = Some 0 ->
  exists text cs, Shell_Model.files w i = Some text /\ Z.of_nat (length cs) = c_count cfg /\ each (wanted_default cfg hexw delim) d input cs /\
    (exists v, json text v) /\
    forall v, json text v -> exists ds, v = JArr ds /\ all read_curve ds = Some cs.
Proof.
  intros DL S I NA O B.
  pose proof (run_file P cfg hexw hexp dec OK HX junk draws tries fuel avma delim setup (every (prime_over (c_bits cfg))) (fun l => default_front cfg delim l 4) _
    (fun l i fuel av r w => default_result P cfg PO ID tries delim DL hexw l (draws i) fuel av r w _) ino readable writable reason io seadata fs kbd d input outer i S I NA O B) as H.
  destruct (Shell_Model.main _ _ _ _ _ true io seadata _ (Shell_Model.fresh fs kbd)) as (w, status). intros E.
  destruct (H E) as (text & cs & F & N & EA & J). exists text, cs. split; [exact F|]. split; [exact N|]. split; [|exact J].
  apply (each_impl (found cfg hexw (every (prime_over (c_bits cfg))) (fun l => default_front cfg delim l 4))) with (2 := EA). intros l c. apply default_shows.
Qed.
(** C76. Full statement: for every method and field. Missing: other fields and methods; texts that are no numbers and
    the numbers -1, -2 and those below (see C47 and C54); Koblitz curves whose order is tabulated (see C45); the sizes
    that are printed fit (fitsb). *)
Theorem C76_run_partial ino readable writable reason io seadata fs kbd d input outer i :
  Shell_Spec.separate ino writable io -> Shell_Spec.input_is ino readable io fs kbd d input ->
  Shell_Model.i_append io = false -> Shell_Spec.out_file ino writable io i -> 0 <= c_count cfg < 2 ^ 64 ->
  let '(w, status) := Shell_Model.main ino readable writable (fun _ => None) reason true io seadata
      (exhaustive_do P cfg hexw hexp dec junk draws tries fuel avma d setup outer) (Shell_Model.fresh fs kbd) in
  status = Some 0 ->
  exists text cs, Shell_Model.files w i = Some text /\ Z.of_nat (length cs) = c_count cfg /\ each (wanted_default cfg hexw d) d input cs /\
    (exists v, json text v) /\
    forall v, json text v -> exists ds, v = JArr ds /\ all read_curve ds = Some cs.
Proof.
  intros S I. apply default_file; [|exact S|exact I]. intros _. unfold Shell_Spec.input_is in I. unfold Input_Props.delimiter.
  destruct (Shell_Model.i_input io); destruct I as (-> & _); auto.
Qed.
(** A search leaves no undefined behaviour behind when the field is random, nothing filters the digits and the
    generators are not the point at infinity. *)
Theorem C76_defined_partial d l i r w : Input_Props.delimiter d -> safe cfg -> Plan_Model.is_random cfg RANDOM_FIELD = true ->
  search P cfg hexw tries d l (draws i) setup fuel avma = (r, w) ->
  match r with
  | Engine_Model.Returned 1 => w_wrong w = None /\ exists c, to_output (w_curve w) = Ok c
  | Engine_Model.Returned 0 => w_wrong w <> Some Undefined
  | Engine_Model.NoFuel => True
  | _ => False
  end.
Proof.
  intros DL SF RF S. exact (search_defined P cfg hexw draws tries fuel avma d setup (every (prime_over (c_bits cfg))) (fun l => default_front cfg d l 4) _
    (fun l i fuel av r w => default_result P cfg PO ID tries d (fun _ => DL) hexw l (draws i) fuel av r w _) l i r w SF RF S).
Qed.
End Run.
Print Assumptions C76_run_partial.
Print Assumptions C76_defined_partial.
