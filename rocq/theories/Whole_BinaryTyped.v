(** C85: a whole run of the default method over a random binary field, with coefficients that are random, typed in or
    Koblitz. *)
From Coq Require Import Ascii String.
From Verif Require Import Base Ec Irr_Spec Poly_Model Points_Model Random_Model Cli_Model Json_Spec CurveText_Spec.
From Verif Require Import Whole_Model Whole_Spec Whole_Stages Whole_Proofs Whole_Output Whole_Run Whole_Default Whole_Binary Shell_Fields.
From Verif Require CurveText_Model Plan_Model Engine_Model Shell_Model Shell_Spec Hex_Props Input_Model Input_Props Irr_Props Cli_Spec.
Import ListNotations.
Local Open Scope Z_scope.
Local Open Scope list_scope.

Record in_binary_typed (cfg : config) : Prop := {
  ibt_field : c_field cfg = FIELD_BINARY;
  ibt_method : c_method cfg = METHOD_DEFAULT;
  ibt_algo : c_seed_algo cfg = 0;
  ibt_random : Plan_Model.is_random cfg RANDOM_FIELD = true;
  ibt_value : c_koblitz cfg = true -> c_koblitz_value cfg = 0 \/ c_koblitz_value cfg = 1;
  (** see C42 *)
  ibt_poly : forall c, field_binaryr (c_bits cfg) = Ok c -> irreducible_poly c;
  ibt_rest : in_range cfg
}.

Lemma ielement_abs c v : elem_int (field_ielement (Binary c) v) = Z.abs v.
Proof.
  replace (field_ielement (Binary c) v) with (field_ielement (Binary c) (Z.abs v)) by (now destruct v).
  cbn [field_ielement elem_int]. apply at_two_digits. lia.
Qed.
(** a number that is typed for a coefficient *)
Lemma binary_input delim bits c t : Input_Props.delimiter delim -> 3 <= bits -> usable delim bits t ->
  let o := fst (Input_Model.a_gen_input delim bits (Binary c) (field_stream t)) in
  (exists x, o = Input_Model.Value x /\ 0 <= elem_int x < 2 ^ bits /\ typed delim t (fun v => v <= 2 ^ bits /\ elem_int x = Z.abs v)) \/
  o = Input_Model.Stop \/ (o = Input_Model.Again /\ refused delim bits t).
Proof.
  intros DL B U. cbv zeta. set (s := field_stream t). destruct (Input_Props.C47_coefficient_partial delim bits (Binary c) s DL ltac:(lia) eq_refl) as (He & Hn & H).
  change (Input_Model.rest s) with t in *.
  assert (PW : 0 < 2 ^ bits) by (apply Z.pow_pos_nonneg; lia).
  destruct U as [->|(u & r & closed & It & U)]; [right; left; exact (He eq_refl)|].
  destruct U as [->|(v & N & V1 & V2)].
  - right; right. assert (C : closed = true) by (inversion It; subst; [reflexivity|congruence]). subst closed. split; [exact (Hn r It)|].
    intros u' r' closed' v It' N. destruct (H u' r' closed' v It' N) as (_ & [(X & _)|(_ & X)]); [|exact X]. rewrite (Hn r It) in X. discriminate X.
  - assert (G : forall u' r' closed' v', Input_Props.item delim t u' r' closed' -> Input_Props.number u' v' ->
        (fst (Input_Model.a_gen_input delim bits (Binary c) s) = Input_Model.Value (field_ielement (Binary c) v') /\ v' <= 2 ^ bits) \/
        (~ Input_Props.is_value (fst (Input_Model.a_gen_input delim bits (Binary c) s)) /\ (2 ^ bits < v' \/ v' = -1 \/ v' = -2))) by (intros u' r' cl v' It' N'; exact (proj2 (H u' r' cl v' It' N'))).
    destruct (fst (Input_Model.a_gen_input delim bits (Binary c) s)) as [x| |] eqn:E.
    + left. exists x. split; [reflexivity|]. destruct (G _ _ _ _ It N) as [(X & Y)|(X & _)]; [|exfalso; apply X; eexists; reflexivity].
      assert (X0 : x = field_ielement (Binary c) v) by congruence. split; [rewrite X0, ielement_abs; lia|]. intros u' r' cl v' It' N'.
      destruct (G _ _ _ _ It' N') as [(X' & Y')|(X' & _)]; [|exfalso; apply X'; eexists; reflexivity]. assert (X0' : x = field_ielement (Binary c) v') by congruence. split; [exact Y'|]. rewrite X0'. apply ielement_abs.
    + right; right. split; [reflexivity|]. intros u' r' cl v' It' N'. destruct (G _ _ _ _ It' N') as [(X' & _)|(_ & X')]; [discriminate X'|exact X'].
    + right; left. reflexivity.
Qed.

Section Typed.
Variable P : pari.
Variable cfg : config.
Hypothesis PO : pari_over P (binary_over (c_bits cfg)).
Hypothesis IB : in_binary_typed cfg.
Variable tries : nat.
Variable delim : ascii.
Hypothesis DL : (reads (a_f cfg) || reads (b_f cfg))%bool = true -> Input_Props.delimiter delim.
Notation bits := (c_bits cfg).
Notation gen := (generator P cfg tries delim).
Definition small (x : element) : Prop := 0 <= elem_int x < 2 ^ bits.

Lemma typed_bits : 3 <= bits < 2 ^ 61. Proof. exact (in_bits _ (ibt_rest _ IB)). Qed.
Lemma a_typed d t k c r0 : k_field k = Some (Binary c) -> binary_over bits (Binary c) -> (reads (a_f cfg) = true -> usable delim bits t) -> pending cfg delim (how_a cfg) r0 ->
  match gen (a_f cfg) None d t k with
  | Ok (k', r) => (r = 1 /\ exists x, k' = set_a x k /\ binary_coefficient (how_a cfg) delim bits (r0 ++ text_of (a_f cfg) t) (elem_int x) /\ (c_koblitz cfg = true -> x = Int (c_koblitz_value cfg))) \/
     r = Engine_Model.INT_MIN \/ (r = 0 /\ k' = k /\ pending cfg delim (how_a cfg) (r0 ++ text_of (a_f cfg) t))
  | _ => False
  end.
Proof.
  intros K BO US PE. assert (D : reads (a_f cfg) = true -> Input_Props.delimiter delim) by (intros E; apply DL; rewrite E; reflexivity).
  pose proof (ibt_value _ IB) as V. pose proof typed_bits as B.
  unfold a_f, how_a, text_of, pending, binary_coefficient in *. destruct (c_koblitz cfg); [|destruct (Plan_Model.is_random cfg RANDOM_A)].
  - rewrite PE. destruct (V eq_refl) as [E|E]; rewrite E; cbn [Z.eqb generator reads app]; left; (split; [reflexivity|]); eexists; (split; [reflexivity|]); (split; [|reflexivity]);
      cbn [elem_int]; (split; [apply small_inside; auto|auto]).
  - rewrite PE. cbn [generator]. rewrite K. cbn [need bind]. destruct (genrand_ok bits c (d_one d) B BO) as (x & -> & X). left. split; [reflexivity|].
    exists x. split; [reflexivity|]. split; [auto|discriminate].
  - cbn [generator reads]. rewrite K. cbn [need bind]. destruct (binary_input delim bits c t (D eq_refl) ltac:(lia) (US eq_refl)) as [(x & -> & X & Y)|[-> |(-> & Y)]]; cbn [put_a].
    + left. split; [reflexivity|]. exists x. split; [reflexivity|]. split; [|discriminate]. split; [exact X|]. exists r0, t. auto.
    + right; left. reflexivity.
    + right; right. split; [reflexivity|]. split; [reflexivity|]. apply Forall_app. split; [exact PE|]. constructor; [exact Y|constructor].
Qed.
Lemma b_typed d t k c r0 : k_field k = Some (Binary c) -> binary_over bits (Binary c) -> (reads (b_f cfg) = true -> usable delim bits t) -> pending cfg delim (how_b cfg) r0 ->
  match gen (b_f cfg) None d t k with
  | Ok (k', r) => (r = 1 /\ exists x, k' = set_b x k /\ binary_coefficient (how_b cfg) delim bits (r0 ++ text_of (b_f cfg) t) (elem_int x)) \/
     r = Engine_Model.INT_MIN \/ (r = 0 /\ k' = k /\ pending cfg delim (how_b cfg) (r0 ++ text_of (b_f cfg) t))
  | _ => False
  end.
Proof.
  intros K BO US PE. assert (D : reads (b_f cfg) = true -> Input_Props.delimiter delim) by (intros E; apply DL; rewrite E; apply orb_true_r).
  pose proof typed_bits as B.
  unfold b_f, how_b, text_of, pending, binary_coefficient in *. destruct (c_koblitz cfg); [|destruct (Plan_Model.is_random cfg RANDOM_B)].
  - rewrite PE. cbn [generator reads app]. left. split; [reflexivity|]. eexists. split; [reflexivity|]. cbn [elem_int]. split; [apply small_inside; auto|auto].
  - rewrite PE. cbn [generator]. rewrite K. cbn [need bind]. destruct (genrand_ok bits c (d_one d) B BO) as (x & -> & X). left. split; [reflexivity|].
    exists x. split; [reflexivity|]. auto.
  - cbn [generator reads]. rewrite K. cbn [need bind]. destruct (binary_input delim bits c t (D eq_refl) ltac:(lia) (US eq_refl)) as [(x & -> & X & Y)|[-> |(-> & Y)]]; cbn [put_b].
    + left. split; [reflexivity|]. exists x. split; [reflexivity|]. split; [exact X|]. exists r0, t. auto.
    + right; left. reflexivity.
    + right; right. split; [reflexivity|]. split; [reflexivity|]. apply Forall_app. split; [exact PE|]. constructor; [exact Y|constructor].
Qed.

(** what is known of the curve before the stage [k], when [pos] fields of [l] were read *)
Definition typed_front (l : list str) (k : Z) (c : curve) (pos : nat) : Prop :=
  k_seed c = None /\ (2 <= k -> exists poly l0 la lb, k_field c = Some (Binary poly) /\ binary_over bits (Binary poly) /\
    (bits < 2 ^ 32 /\ nth 0 poly 0 = 1 /\ (length (exponents poly) <= 4)%nat) /\ firstn pos l = l0 ++ la ++ lb /\
    (if k =? 2 then pending cfg delim (how_a cfg) la
     else exists x, k_a c = Some x /\ binary_coefficient (how_a cfg) delim bits la (elem_int x) /\ (c_koblitz cfg = true -> x = Int (c_koblitz_value cfg))) /\
    (if k =? 2 then lb = [] else if k =? 3 then pending cfg delim (how_b cfg) lb
     else exists y, k_b c = Some y /\ binary_coefficient (how_b cfg) delim bits lb (elem_int y))).
Lemma nth_usable l pos f : Forall (usable delim bits) l -> (reads f = true -> (pos < length l)%nat) -> reads f = true -> usable delim bits (nth pos l []).
Proof. intros F R E. rewrite Forall_forall in F. apply F, nth_In, R, E. Qed.
Lemma typed_result hexw l draws fuel av r w u : Forall (usable delim bits) l ->
  search P cfg hexw tries delim l draws (snd (Plan_Model.exhaustive_init cfg u)) fuel av = (r, w) ->
  match r with Engine_Model.Returned r => (r = 1 /\ success P cfg (every (binary_over bits)) hexw (typed_front l 4) w) \/ (r = 0 /\ failed cfg (bits <> 1060) w)
  | Engine_Model.NoFuel => True | _ => False end.
Proof.
  intros US. pose proof (ibt_rest _ IB) as IR. rewrite (plan cfg u (ibt_method _ IB) (ibt_algo _ IB) (ibt_value _ IB) IR). pose proof (in_bits _ IR) as Hb.
  apply (plain_result P cfg _ (binary_over_fits cfg IR) PO IR hexw tries delim l draws _ _ _ _ _ _ _ _ _ _ _ _ (typed_front l) (bits <> 1060)).
  - split; [|split].
    + unfold field_f. destruct (Plan_Model.is_random cfg RANDOM_FIELD); reflexivity.
    + unfold a_f. destruct (c_koblitz cfg); [destruct (c_koblitz_value cfg =? 0); reflexivity|]. destruct (Plan_Model.is_random cfg RANDOM_A); reflexivity.
    + unfold b_f. destruct (c_koblitz cfg); [reflexivity|]. destruct (Plan_Model.is_random cfg RANDOM_B); reflexivity.
  - intros k c pos _ (S & _) _. exact S.
  - intros c pos S. split; [now apply S|]. lia.
  - intros j k c pos L M (S & H). split; [exact S|]. lia.
  - intros k c c' pos (S1 & S2 & S3 & S4 & _) H. unfold typed_front. rewrite S1, S2, S3, S4. exact H.
  - intros c pos (_ & H). destruct (H ltac:(lia)) as (p & l0 & la & lb & A & B & C & D & E & G). cbn [Z.eqb Pos.eqb] in E, G.
    destruct E as (x & Ka & (X & _) & _). destruct G as (y & Kb & (Y & _)).
    exists (Binary p), (elem_int x), (elem_int y). split; [exact A|]. split; [exact B|].
    split; [split; apply (inside_bits bits); assumption || lia|]. exists x, y. auto.
  - intros k d c pos _ Lk (S & H) RD. assert (KK : k = 0 \/ k = 1 \/ k = 2 \/ k = 3) by lia.
    destruct KK as [->|[->|[->| ->]]]; cbn [front Z.eqb Pos.eqb fst snd] in *; cbv zeta.
    + left. split; [reflexivity|]. split; [exact S|]. lia.
    + assert (RF : reads (field_f cfg) = false) by (unfold field_f; rewrite (ibt_random _ IB); reflexivity).
      pose proof (binary_stage P cfg tries delim d (nth pos l []) c ltac:(lia) (ibt_field _ IB) (ibt_random _ IB) (ibt_poly _ IB)) as F.
      destruct (gen (field_f cfg) None d (nth pos l []) c) as [[c' r']| | |]; [|intros X; contradiction|exact I|exact I].
      destruct F as (-> & p & -> & A & B). left. split; [reflexivity|]. split; [exact S|]. intros _. exists p, (firstn pos l), [], []. cbn [Z.eqb Pos.eqb].
      split; [reflexivity|]. split; [exact A|]. split; [exact B|]. rewrite RF. split; [now rewrite app_nil_r|]. split; [apply no_text|reflexivity].
    + destruct (H ltac:(lia)) as (p & l0 & la & lb & A & B & C & D & E & G). cbn [Z.eqb Pos.eqb] in E, G. subst lb. rewrite app_nil_r in D.
      pose proof (a_typed d (nth pos l []) c p la A B (nth_usable l pos _ US RD) E) as F. destruct (gen (a_f cfg) None d (nth pos l []) c) as [[c' r']| | |]; [|destruct F..].
      destruct F as [(-> & x & -> & F1 & F2)|[F|(-> & -> & F)]]; [left|right; left; exact F|right; right].
      * split; [reflexivity|]. split; [exact S|]. intros _. exists p, l0, (la ++ text_of (a_f cfg) (nth pos l [])), []. cbn [Z.eqb Pos.eqb Z.add Pos.add Pos.succ].
        split; [exact A|]. split; [exact B|]. split; [exact C|]. split; [rewrite (firstn_text _ _ _ RD), D, app_nil_r, <- !app_assoc; reflexivity|].
        split; [exists x; split; [reflexivity|split; assumption]|apply no_text].
      * split; [lia|]. split; [lia|]. split; [exact S|]. intros _. exists p, l0, (la ++ text_of (a_f cfg) (nth pos l [])), []. cbn [Z.eqb Pos.eqb Z.add].
        split; [exact A|]. split; [exact B|]. split; [exact C|]. split; [rewrite (firstn_text _ _ _ RD), D, app_nil_r, <- !app_assoc; reflexivity|]. split; [exact F|reflexivity].
    + destruct (H ltac:(lia)) as (p & l0 & la & lb & A & B & C & D & E & G). cbn [Z.eqb Pos.eqb] in E, G.
      pose proof (b_typed d (nth pos l []) c p lb A B (nth_usable l pos _ US RD) G) as F. destruct (gen (b_f cfg) None d (nth pos l []) c) as [[c' r']| | |]; [|destruct F..].
      destruct F as [(-> & y & -> & F1)|[F|(-> & -> & F)]]; [left|right; left; exact F|right; right].
      * split; [reflexivity|]. split; [exact S|]. intros _. exists p, l0, la, (lb ++ text_of (b_f cfg) (nth pos l [])). cbn [Z.eqb Pos.eqb Z.add Pos.add Pos.succ].
        split; [exact A|]. split; [exact B|]. split; [exact C|]. split; [rewrite (firstn_text _ _ _ RD), D, <- !app_assoc; reflexivity|].
        split; [exact E|]. exists y. split; [reflexivity|exact F1].
      * split; [lia|]. split; [lia|]. split; [exact S|]. intros _. exists p, l0, la, (lb ++ text_of (b_f cfg) (nth pos l [])). cbn [Z.eqb Pos.eqb Z.add].
        split; [exact A|]. split; [exact B|]. split; [exact C|]. split; [rewrite (firstn_text _ _ _ RD), D, <- !app_assoc; reflexivity|]. split; [exact E|exact F].
  - intros c pos p _ (_ & H) K. destruct (H ltac:(lia)) as (q & l0 & la & lb & A & _). assert (p = Binary q) by congruence. subst p. exact I.
  - unfold ord_f, order_f. destruct (_ && _)%bool; [reflexivity|]. destruct (c_prime cfg); [reflexivity|]. destruct (c_cofactor cfg); [reflexivity|]. destruct (c_smooth cfg); reflexivity.
  - intros d t c p a b pos (_ & H) V ns K. destruct (H ltac:(lia)) as (q & l0 & la & lb & _ & _ & (Small & _) & _ & (x & Kx & _ & Ix) & (y & Ky & Iy)).
    assert (Yb : c_koblitz cfg = true -> b = 1).
    { intros KO. destruct V as (_ & _ & _ & (x0 & y0 & _ & Ky0 & _ & <-)). assert (y0 = y) by congruence. subst y0. unfold binary_coefficient, how_b in Iy. rewrite KO in Iy. apply Iy. }
    pose proof (ord_binary P cfg PO IR (ibt_value _ IB) tries delim d t c p a b x V ns K Small Kx Ix Yb) as X. destruct (gen (ord_f cfg) (order_arg cfg) d t c) as [[c' r']| | |]; [exact X|destruct X..].
  - reflexivity.
Qed.
End Typed.

(** ** The run *)
Section Run.
Variable P : pari.
Variable cfg : config.
Hypothesis PO : pari_over P (binary_over (c_bits cfg)).
Hypothesis IB : in_binary_typed cfg.
Variable hexw hexp dec : Z -> list ascii.
Hypothesis OK : prints hexw hexp dec.
Hypothesis HX : Hex_Props.prints_hex hexw.
Variable junk : nat -> ascii.
Variable draws : Z -> nat -> draw.
Variable tries fuel : nat.
Variable avma : Z.
Notation setup := (snd (Plan_Model.exhaustive_init cfg [N_method])).

Lemma typed_shows delim l c : found cfg hexw (every (binary_over (c_bits cfg))) (fun l => typed_front cfg delim l 4) l c -> wanted_binary_typed cfg hexw delim l c.
Proof.
  intros (k & f & ((S & St) & SH & (q & Kf & Pf) & (x & Kx & Px) & (y & Ky & Py)) & KF & Of & W & _). pose proof (typed_bits cfg IB) as B.
  destruct (St ltac:(lia)) as (poly & l0 & la & lb & A & BO & (_ & N0 & L4) & D & (x' & Kx' & E & _) & (y' & Ky' & F)).
  assert (q = Binary poly) by congruence. assert (f = Binary poly) by congruence. subst q f. assert (x' = x) by congruence. assert (y' = y) by congruence. subst x' y'.
  exists (map Z.of_nat (exponents poly) ++ repeat 0 (4 - length (exponents poly))), poly. split; [exact Pf|]. split; [apply (spelled_ok (c_bits cfg)); assumption || lia|].
  split; [exact BO|]. split; [rewrite SH, S; reflexivity|]. split; [|exact W]. exists l0, la, lb. rewrite Px, Py. rewrite firstn_all in D. auto.
Qed.
(** C85. Full statement: for every field. Missing: typed fields; degrees whose polynomial is not shown to be irreducible
    (see C42); curves for which a number was typed that is no element of the field (see C85_top_refuted) or a text that is
    no number (see C47); the sizes that are printed fit (fitsb). *)
Theorem C85_run_partial ino readable writable reason io seadata fs kbd d input outer i :
  Shell_Spec.separate ino writable io -> Shell_Spec.input_is ino readable io fs kbd d input ->
  Shell_Model.i_append io = false -> Shell_Spec.out_file ino writable io i -> 0 <= c_count cfg < 2 ^ 64 ->
  let '(w, status) := Shell_Model.main ino readable writable (fun _ => None) reason true io seadata
      (exhaustive_do P cfg hexw hexp dec junk draws tries fuel avma d setup outer) (Shell_Model.fresh fs kbd) in
  status = Some 0 ->
  exists text cs, Shell_Model.files w i = Some text /\ Z.of_nat (length cs) = c_count cfg /\
    each (fun l c => Forall (usable d (c_bits cfg)) l -> wanted_binary_typed cfg hexw d l c) d input cs /\
    (exists v, json text v) /\
    forall v, json text v -> exists ds, v = JArr ds /\ all read_curve ds = Some cs.
Proof.
  intros S I NA O B.
  assert (DL : Input_Props.delimiter d) by (unfold Shell_Spec.input_is in I; unfold Input_Props.delimiter; destruct (Shell_Model.i_input io); destruct I as (-> & _); auto).
  pose proof (run_file_if P cfg hexw hexp dec OK HX junk draws tries fuel avma d setup (every (binary_over (c_bits cfg))) (fun l => typed_front cfg d l 4) _ (Forall (usable d (c_bits cfg)))
    (fun l i fuel av r w US => typed_result P cfg PO IB tries d (fun _ => DL) hexw l (draws i) fuel av r w _ US) ino readable writable reason io seadata fs kbd d input outer i S I NA O B) as H.
  destruct (Shell_Model.main _ _ _ _ _ true io seadata _ (Shell_Model.fresh fs kbd)) as (w, status). intros E.
  destruct (H E) as (text & cs & F & N & EA & J). exists text, cs. split; [exact F|]. split; [exact N|]. split; [|exact J].
  apply each_impl with (2 := EA). intros l c X US. apply typed_shows. exact (X US).
Qed.
(** A search leaves no undefined behaviour behind, save for degree 1060 (see C41), when nothing filters the digits and
    the generators are not the point at infinity. *)
Theorem C85_defined_partial d l i r w : Input_Props.delimiter d -> Forall (usable d (c_bits cfg)) l -> safe cfg -> c_bits cfg <> 1060 ->
  search P cfg hexw tries d l (draws i) setup fuel avma = (r, w) ->
  match r with
  | Engine_Model.Returned 1 => w_wrong w = None /\ exists c, to_output (w_curve w) = Ok c
  | Engine_Model.Returned 0 => w_wrong w <> Some Undefined
  | Engine_Model.NoFuel => True
  | _ => False
  end.
Proof.
  intros DL US SF N S. exact (result_defined P cfg (every (binary_over (c_bits cfg))) hexw _ _ r w SF N (typed_result P cfg PO IB tries d (fun _ => DL) hexw l (draws i) fuel avma r w _ US S)).
Qed.
End Run.
(** The number 2^m is taken for a coefficient over the field of 2^m elements, and is none of its elements. *)
Theorem C85_top_refuted : exists bits c t v x, binary_over bits (Binary c) /\ Input_Props.item ","%char t (lit "8") [] true /\ Input_Props.number (lit "8") v /\ v = 2 ^ bits /\
  fst (Input_Model.a_gen_input ","%char bits (Binary c) (field_stream t)) = Input_Model.Value x /\ elem_int x = 2 ^ bits /\ ~ inside (Binary c) (elem_int x).
Proof.
  exists 3, [1; 1; 0; 1], (lit "8,"), 8, (FF [0; 0; 0; 1]).
  assert (B : binary_over 3 (Binary [1; 1; 0; 1])).
  { destruct (Irr_Props.C42_irreducible_partial 3 ltac:(lia)) as (c & E & Ir & _). vm_compute in E. injection E as <-.
    split; [exact Ir|]. split; [reflexivity|]. split; [reflexivity|]. repeat (apply Forall_cons; [auto|]). apply Forall_nil. }
  split; [exact B|]. split; [apply (Input_Props.item_closed ","%char (lit "8") []); vm_compute; intuition discriminate|].
  split; [apply Input_Props.num_pos; change 8 with (Cli_Spec.dec (lit "8")); Input_Props.is_dec|]. split; [reflexivity|].
  split; [vm_compute; reflexivity|]. split; [reflexivity|]. rewrite (inside_bits 3 _ _ ltac:(lia) B). vm_compute. intuition discriminate.
Qed.
Print Assumptions C85_top_refuted.
Print Assumptions C85_run_partial.
Print Assumptions C85_defined_partial.
