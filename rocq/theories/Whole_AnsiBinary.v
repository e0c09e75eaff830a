(** C84: a whole run of the method of ANSI X9.62 over a random binary field. *)
From Coq Require Import Ascii String.
From Verif Require Import Base Ec Irr_Spec Poly_Model Points_Model Random_Model Random_Props Cli_Model Json_Spec CurveText_Spec.
From Verif Require Import Whole_Model Whole_Spec Whole_Stages Whole_Proofs Whole_Front Whole_Run Whole_Default Whole_Binary Whole_Made Whole_Ansi Shell_Fields Whole_Output.
From Verif Require Bits_Spec Ansi_Spec Ansi_Model Ansi_Proofs Ansi_Bound Plan_Model Engine_Model Shell_Model Shell_Spec Hex_Props Input_Props.
Local Open Scope Z_scope.
Local Open Scope list_scope.

Record in_ansi_binary (cfg : config) : Prop := {
  iab_field : c_field cfg = FIELD_BINARY;
  iab_random : Plan_Model.is_random cfg RANDOM_FIELD = true;
  (** see C42 *)
  iab_poly : forall c, field_binaryr (c_bits cfg) = Ok c -> irreducible_poly c;
  iab_any : in_ansi_any cfg
}.

Section Run.
Variable P : pari.
Variable cfg : config.
Hypothesis PO : pari_over P (binary_over (c_bits cfg)).
Hypothesis IA : in_ansi_binary cfg.
Variable hexw hexp dec : Z -> list ascii.
Hypothesis OK : prints hexw hexp dec.
Hypothesis HX : Hex_Props.prints_hex hexw.
Variable junk : nat -> ascii.
Variable draws : Z -> nat -> draw.
Hypothesis NT : never_top cfg draws.
Variable tries fuel : nat.
Variable avma : Z.
Notation bits := (c_bits cfg).
Notation tbits := (Z.to_nat (c_bits cfg)).
Notation setup := (snd (Plan_Model.exhaustive_init cfg [N_method])).

Definition poly_ok (c : list Z) : Prop := binary_over bits (Binary c) /\ bits < 2 ^ 32 /\ nth 0 c 0 = 1 /\ (length (exponents c) <= 4)%nat.
Definition ansi2_made (s : option any_seed) (c : list Z) (a b : Z) : Prop :=
  has_bits a bits /\ 0 < b < 2 ^ bits /\
  forall sd, s = Some (AnsiSeed sd) -> Ansi_Proofs.seeded sd tbits -> b = Ansi_Spec.ansi_b padded_sha1 (Bits_Spec.bits_of (Ansi_Model.seed sd)) tbits.
Definition ansi2_front (d : ascii) (l : list str) : Z -> curve -> nat -> Prop :=
  made_front (seed_f cfg) (field_f cfg) (list Z) Binary poly_ok (ansi_seeded cfg d) (fun _ _ => True) ansi2_made l.
(** the degree has a polynomial (C41), and no seeds are typed *)
Definition ansi2_safe : Prop := bits <> 1060 /\ reads (seed_f cfg) = false.
Definition not_top (d : draw) : Prop := forall r, random_int bits (d_one d) = Ok r -> r <> 2 ^ bits.

Lemma ansi2_equation delim d t c p ls : not_top d -> k_field c = Some (Binary p) -> poly_ok p -> ansi_seeded cfg delim ls (k_seed c) ->
  match generator P cfg tries delim Plan_Model.ansi_gen_equation None d t c with
  | Ok (c', r) => (r = 1 /\ exists x y, c' = set_b y (set_a x c) /\ ansi2_made (k_seed c) p (elem_int x) (elem_int y)) \/ r = Engine_Model.INT_MIN \/ (-3 <= r <= -2 /\ c' = c)
  | UB => ~ ansi2_safe
  | _ => True
  end.
Proof.
  intros DT K _ (sd & S & SS). destruct (tbits_ok cfg (iab_any _ IA)) as (TB & T1 & T2). pose proof (ansi_bits cfg (iab_any _ IA)) as B.
  cbn [generator]. rewrite (iab_field _ IA), S, K. change (FIELD_BINARY =? FIELD_PRIME) with false. change (FIELD_BINARY =? FIELD_BINARY) with true. cbv iota. cbn [need_ansi need bind].
  assert (2 ^ 61 < 2 ^ 63) by reflexivity. destruct (C62_int_partial bits (d_one d) ltac:(lia)) as (i & EI & HI). pose proof (DT i EI) as NI. rewrite EI. cbn [bind].
  destruct HI as [HI|HI]; [|contradiction].
  assert (V : forall z, 0 <= z -> elem_int (field_ielement (Binary p) z) = z) by (intros z Hz; cbn [field_ielement elem_int]; apply at_two_digits; exact Hz).
  assert (I0 : 0 <= i) by (unfold has_bits in HI; assert (0 < 2 ^ (bits - 1)) by (apply Z.pow_pos_nonneg; lia); lia).
  assert (SH : Ansi_Bound.shaped sd tbits) by (destruct SS as [(_ & SH & _)|(Sd & _)]; [exact SH|exact (Ansi_Bound.seeded_shaped _ _ Sd)]).
  assert (EX : Ansi_Proofs.seeded sd tbits -> Ansi_Model.ansi_gen_equation_f2m (d_mem d) (field_ielement (Binary p)) sd i =
    Ok (if Ansi_Spec.ansi_b padded_sha1 (Bits_Spec.bits_of (Ansi_Model.seed sd)) tbits =? 0 then inr (-3)
        else inl (field_ielement (Binary p) i, field_ielement (Binary p) (Ansi_Spec.ansi_b padded_sha1 (Bits_Spec.bits_of (Ansi_Model.seed sd)) tbits)))).
  { intros Sd. exact (Ansi_Proofs.equation_f2m_ok (d_mem d) (field_ielement (Binary p)) sd tbits i Sd T1 T2). }
  destruct (Ansi_Model.ansi_gen_equation_f2m (d_mem d) (field_ielement (Binary p)) sd i) as [r| | |] eqn:E; cbn [bind]; try exact I.
  - destruct (Ansi_Bound.f2m_shape _ _ _ _ _ _ SH T1 T2 E) as [->|(z & -> & Z1 & Z2)].
    + right. right. split; [lia|reflexivity].
    + left. split; [reflexivity|]. exists (field_ielement (Binary p) i), (field_ielement (Binary p) z). split; [reflexivity|]. unfold ansi2_made. rewrite !V by lia. rewrite TB in Z2.
      split; [exact HI|]. split; [lia|]. intros sd' ES Sd. injection ES as <-. specialize (EX Sd).
      assert (BB : 0 <= Ansi_Spec.ansi_b padded_sha1 (Bits_Spec.bits_of (Ansi_Model.seed sd)) tbits) by (apply Ansi_Proofs.ansi_b_bound; [intros; apply Ansi_Proofs.sha1_length|exact T1]).
      revert EX BB. generalize (Ansi_Spec.ansi_b padded_sha1 (Bits_Spec.bits_of (Ansi_Model.seed sd)) tbits). intros b EX BB.
      destruct (b =? 0); [discriminate EX|]. assert (EB : field_ielement (Binary p) z = field_ielement (Binary p) b) by congruence. rewrite <- (V z), EB, V by lia. reflexivity.
  - intros (_ & NR). destruct SS as [(RD & _)|(Sd & _)]; [congruence|]. specialize (EX Sd). discriminate EX.
Qed.
Lemma ansi2_result d l i fuel' av r w :
  search P cfg hexw tries d l (draws i) setup fuel' av = (r, w) ->
  match r with Engine_Model.Returned r => (r = 1 /\ success P cfg (every (binary_over bits)) hexw (ansi2_front d l 4) w) \/ (r = 0 /\ failed cfg ansi2_safe w)
  | Engine_Model.NoFuel => True | _ => False end.
Proof.
  pose proof (iab_any _ IA) as IA'. rewrite (ansi_plan cfg [N_method] IA'). pose proof (in_bits _ (ia_rest _ IA')) as Hb.
  assert (FI : forall f (a b : Z), every (binary_over bits) f a b -> field_fits cfg f) by (intros f a b; apply binary_fits; lia).
  apply (made_result not_top P cfg (every (binary_over bits)) FI PO (ia_rest _ IA')); [..|exact (NT i)].
  - intros E. exfalso. revert E. unfold seed_f. destruct (Cli_Model.c_seed cfg); [|destruct (Plan_Model.is_random cfg RANDOM_SEED)]; discriminate.
  - split; [|reflexivity]. unfold field_f. destruct (Plan_Model.is_random cfg RANDOM_FIELD); reflexivity.
  - intros dr t c _. pose proof (seed_stage P cfg IA' tries d dr t c) as F. destruct (generator P cfg tries d (seed_f cfg) None dr t c) as [[c' r']| | |]; [exact F|intros (_ & X); congruence|exact I|exact I].
  - intros dr t c. pose proof (binary_stage P cfg tries d dr t c ltac:(lia) (iab_field _ IA) (iab_random _ IA) (iab_poly _ IA)) as F.
    destruct (generator P cfg tries d (field_f cfg) None dr t c) as [[c' r']| | |]; [|intros (X & _); contradiction|exact I|exact I].
    destruct F as (-> & p & -> & F). left. split; [reflexivity|]. exists p. split; [reflexivity|]. split; [exact F|exact I].
  - reflexivity.
  - intros dr t c p ls lp D K F S _. exact (ansi2_equation d dr t c p ls D K F S).
  - intros l' p _ _. exact I.
  - unfold order_f. destruct (c_prime cfg); [reflexivity|]. destruct (c_cofactor cfg); [reflexivity|]. destruct (c_smooth cfg); reflexivity.
  - intros l' s p a b (BO & _) _ (A & B & _). split; [exact BO|]. assert (0 < 2 ^ (bits - 1)) by (apply Z.pow_pos_nonneg; lia). unfold has_bits in A.
    split; apply (inside_bits bits); (exact BO || lia).
  - intros dr t c p a b _ (_ & CO & _) ns K.
    destruct (order_stage P cfg _ FI PO _ a b CO ns (ia_rest _ IA') tries d dr t c K) as (c' & r' & -> & X). exact X.
  - reflexivity.
Qed.
Lemma ansi2_shows d l c : found cfg hexw (every (binary_over bits)) (fun l => ansi2_front d l 4) l c -> huge l \/ wanted_ansi_binary cfg hexw d l c.
Proof.
  intros F. destruct (made_shows _ _ _ _ _ _ _ _ _ _ _ _ _ F) as (p & s & Pf & (BO & _ & N0 & L4) & SE & (A & B & N) & (l0 & ls & l1 & lp & E & NR & (sd & -> & SS) & _) & W).
  assert (RF : reads (field_f cfg) = false) by (unfold field_f; rewrite (iab_random _ IA); reflexivity). rewrite (NR RF), app_nil_r in E.
  destruct SS as [(_ & _ & t & -> & T)|(Sd & G)].
  - left. exists t. split; [|exact T]. rewrite E. apply in_or_app. right. left. reflexivity.
  - right. pose proof (in_bits _ (ia_rest _ (iab_any _ IA))) as Hb. exists (map Z.of_nat (exponents p) ++ repeat 0 (4 - length (exponents p))), p, (Bits_Spec.bits_of (Ansi_Model.seed sd)).
    split; [exact Pf|]. split; [apply (spelled_ok bits); assumption || lia|]. split; [exact BO|].
    split; [|split; [exists l0, ls; auto|]; split; [exact (N sd eq_refl Sd)|]; split; [exact B|]; split; [exact A|exact W]].
    rewrite SE. cbn [option_map seed_bits]. unfold seed_text. destruct Sd as ((_ & _ & -> & _) & _). unfold Bits_Spec.bits_of. rewrite map_length, seq_length. reflexivity.
Qed.

(** C84. Full statement: for every field. Missing: typed fields; degrees whose polynomial is not shown to be irreducible
    (see C42); runs in which random_int gives 2^bits (see C84_top_refuted); seeds of 512 MB and more; the sizes that are
    printed fit (fitsb). *)
Theorem C84_run_partial ino readable writable reason io seadata fs kbd d input outer i :
  Shell_Spec.separate ino writable io -> Shell_Spec.input_is ino readable io fs kbd d input ->
  Shell_Model.i_append io = false -> Shell_Spec.out_file ino writable io i -> 0 <= c_count cfg < 2 ^ 64 ->
  let '(w, status) := Shell_Model.main ino readable writable (fun _ => None) reason true io seadata
      (exhaustive_do P cfg hexw hexp dec junk draws tries fuel avma d setup outer) (Shell_Model.fresh fs kbd) in
  status = Some 0 ->
  exists text cs, Shell_Model.files w i = Some text /\ Z.of_nat (length cs) = c_count cfg /\
    each (fun l c => huge l \/ wanted_ansi_binary cfg hexw d l c) d input cs /\
    (exists v, json text v) /\
    forall v, json text v -> exists ds, v = JArr ds /\ all read_curve ds = Some cs.
Proof.
  intros S I NA O B.
  pose proof (run_file P cfg hexw hexp dec OK HX junk draws tries fuel avma d setup (every (binary_over bits)) (fun l => ansi2_front d l 4) _
    (fun l i fuel av r w => ansi2_result d l i fuel av r w) ino readable writable reason io seadata fs kbd d input outer i S I NA O B) as H.
  destruct (Shell_Model.main _ _ _ _ _ true io seadata _ (Shell_Model.fresh fs kbd)) as (w, status). intros E.
  destruct (H E) as (text & cs & F & N & EA & J). exists text, cs. split; [exact F|]. split; [exact N|]. split; [|exact J].
  apply (each_impl (found cfg hexw (every (binary_over bits)) (fun l => ansi2_front d l 4))) with (2 := EA). intros l c. apply ansi2_shows.
Qed.
(** A search leaves no undefined behaviour behind when the seed is not typed, save for degree 1060: there is no r that
    could be zero. *)
Theorem C84_defined_partial d l i r w : safe cfg -> c_bits cfg <> 1060 ->
  (Cli_Model.c_seed cfg <> None \/ Plan_Model.is_random cfg RANDOM_SEED = true) ->
  search P cfg hexw tries d l (draws i) setup fuel avma = (r, w) ->
  match r with
  | Engine_Model.Returned 1 => w_wrong w = None /\ exists c, to_output (w_curve w) = Ok c
  | Engine_Model.Returned 0 => w_wrong w <> Some Undefined
  | Engine_Model.NoFuel => True
  | _ => False
  end.
Proof.
  intros SA N60 NS S. apply (search_defined P cfg hexw draws tries fuel avma d setup (every (binary_over bits)) (fun l => ansi2_front d l 4) _
    (fun l i fuel av r w => ansi2_result d l i fuel av r w) l i r w SA); [|exact S].
  split; [exact N60|]. unfold seed_f. destruct (Cli_Model.c_seed cfg); [reflexivity|]. destruct NS as [NS| ->]; [destruct NS; reflexivity|reflexivity].
Qed.
End Run.
Print Assumptions C84_run_partial.
Print Assumptions C84_defined_partial.
