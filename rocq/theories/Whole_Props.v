(** C75: one whole run over a prime field, from the search to the file. *)
From Coq Require Import Ascii String Znumtheory.
From Verif Require Import Base Fp Ec Poly_Model Points_Model Random_Model Random_Props Cli_Model Json_Spec CurveText_Spec.
From Verif Require Import Whole_Model Whole_Spec Whole_Stages Whole_Proofs Whole_Front Whole_Run Whole_Default Shell_Fields.
From Verif Require CurveText_Model CurveText_Props Plan_Model Engine_Model Shell_Model Shell_Spec Hex_Props.
Local Open Scope Z_scope.
Local Open Scope list_scope.

(** ** Random curves: a case of the default method, see Whole_Default *)
Record in_scope (cfg : config) : Prop := {
  in_end : cli_end_ok cfg = true;
  in_field : c_field cfg = FIELD_PRIME;
  in_method : c_method cfg = METHOD_DEFAULT;
  in_algo : c_seed_algo cfg = 0;
  in_koblitz : c_koblitz cfg = false;
  in_random : Plan_Model.is_random cfg RANDOM_FIELD = true /\ Plan_Model.is_random cfg RANDOM_A = true /\ Plan_Model.is_random cfg RANDOM_B = true;
  in_rest : in_range cfg
}.
Lemma scope_default cfg : in_scope cfg -> in_default cfg.
Proof. intros [E F M A K R Rest]. constructor; try assumption; rewrite K; discriminate. Qed.
Lemma scope_reads cfg : in_scope cfg -> (reads (field_f cfg) || reads (a_f cfg) || reads (b_f cfg))%bool = false.
Proof. intros [E F M A K (R1 & R2 & R3) Rest]. unfold field_f, a_f, b_f. rewrite K, R1, R2, R3. reflexivity. Qed.

Section Random.
Variable P : pari.
Variable cfg : config.
Hypothesis PO : pari_ok P (c_bits cfg).
Hypothesis IS : in_scope cfg.
Variable hexw hexp dec : Z -> list ascii.
Hypothesis OK : prints hexw hexp dec.
Hypothesis HX : Hex_Props.prints_hex hexw.
Variable junk : nat -> ascii.
Variable draws : Z -> nat -> draw.
Variable tries fuel : nat.
Variable avma : Z.
Variable delim : ascii.
Notation setup := (snd (Plan_Model.exhaustive_init cfg [N_method])).

(** C75. Full statement: for every method, field and option. Missing: other fields and methods, seeds, --koblitz and
    given parameters (in_scope), for which see C76 and the properties after it; the sizes that are printed fit (fitsb). *)
Theorem C75_run_partial ino readable writable reason io seadata fs kbd d input outer i :
  Shell_Spec.separate ino writable io -> Shell_Spec.input_is ino readable io fs kbd d input ->
  Shell_Model.i_append io = false -> Shell_Spec.out_file ino writable io i -> 0 <= c_count cfg < 2 ^ 64 ->
  let '(w, status) := Shell_Model.main ino readable writable (fun _ => None) reason true io seadata
      (exhaustive_do P cfg hexw hexp dec junk draws tries fuel avma delim setup outer) (Shell_Model.fresh fs kbd) in
  status = Some 0 ->
  exists text cs, Shell_Model.files w i = Some text /\ Z.of_nat (length cs) = c_count cfg /\ Forall (wanted cfg hexw) cs /\
    (exists v, json text v) /\
    forall v, json text v -> exists ds, v = JArr ds /\ all read_curve ds = Some cs.
Proof.
  intros S I NA O B.
  pose proof (default_file P cfg PO (scope_default cfg IS) hexw hexp dec OK HX junk draws tries fuel avma delim ino readable writable reason io seadata fs kbd d input outer i) as H.
  rewrite (scope_reads cfg IS) in H. specialize (H ltac:(discriminate) S I NA O B).
  destruct (Shell_Model.main _ _ _ _ _ true io seadata _ (Shell_Model.fresh fs kbd)) as (w, status). intros E.
  destruct (H E) as (text & cs & F & N & EA & J). exists text, cs. split; [exact F|]. split; [exact N|]. split; [|exact J].
  apply (each_all (wanted_default cfg hexw delim)) with (2 := EA). clear - IS. destruct (in_random _ IS) as (R1 & R2 & R3).
  intros l c (p & Pf & SE & Pp & _ & (l0 & lp & la & lb & _ & FC & (A & _) & (B & _)) & W). unfold field_chosen in FC. rewrite R1 in FC.
  exists p. split; [exact Pf|]. split; [exact SE|]. split; [exact Pp|]. split; [apply FC|]. split; [exact A|]. split; [exact B|exact W].
Qed.

(** A search leaves no undefined behaviour behind when nothing filters the digits and the generators are not the
    point at infinity. *)
Theorem C75_defined_partial l i r w : safe cfg -> search P cfg hexw tries delim l (draws i) setup fuel avma = (r, w) ->
  match r with
  | Engine_Model.Returned 1 => w_wrong w = None /\ exists c, to_output (w_curve w) = Ok c
  | Engine_Model.Returned 0 => w_wrong w <> Some Undefined
  | Engine_Model.NoFuel => True
  | _ => False
  end.
Proof.
  intros SF S. refine (search_defined P cfg hexw draws tries fuel avma delim setup (every (prime_over (c_bits cfg))) (fun l => default_front cfg delim l 4) _
    (fun l i fuel av r w => default_result P cfg PO (scope_default cfg IS) tries delim _ hexw l (draws i) fuel av r w _) l i r w SF (proj1 (in_random _ IS)) S).
  rewrite (scope_reads cfg IS). discriminate.
Qed.
End Random.
Print Assumptions C75_run_partial.
Print Assumptions C75_defined_partial.
