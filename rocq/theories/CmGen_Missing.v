(** C87: the generators of --order without the text of an order, as src/exhaustive/arg.h:14-18 (HAS_ARG) has it. *)
From Coq Require Import String.
From Verif Require Import Base Cli_Model Input_Model CmGen_Model.
From Verif Require Engine_Model CmPrime_Props CmAny_Props CmGen_Props.
Local Open Scope Z_scope.

(** A generator that was given no text stores nothing and returns the value that ends the generation, see
    Engine_Model; one that was given a text does not, so that the two can be told apart. *)
Definition stops {A} (r : res (option A * Z)) : Prop := exists v, r = Ok (None, v) /\ v = Engine_Model.INT_MIN.

Theorem C87_missing : forall forprime kronecker cornacchia2 isprime glog issquarefree quaddisc norm_traces (curve point : Type)
  class_roots curve_of (twist : curve -> curve) (random_point : curve -> Z -> point) mul_is_inf rounds fuel rnd rnd1 arg,
  (stops (cm_gen_curve_prime forprime kronecker cornacchia2 isprime glog curve point class_roots curve_of twist random_point mul_is_inf rounds fuel rnd arg) <-> arg = None) /\
  (stops (cm_gen_curve_any isprime issquarefree quaddisc norm_traces curve point class_roots curve_of twist random_point mul_is_inf fuel rnd1 arg) <-> arg = None) /\
  (stops (Ok (cm_gen_order arg)) <-> arg = None) /\ (arg <> None -> snd (cm_gen_order arg) = 1).
Proof.
  intros. unfold stops. destruct arg as [s|]; cbn [cm_gen_curve_prime cm_gen_curve_any cm_gen_order snd].
  - split; [|split; [|split; [|reflexivity]]].
    + split; [|discriminate]. intros (v & E & _). destruct (curve_loop _ _ _ _ _ _ _ _ _ _ _ _ _ _ _ _ _); discriminate E.
    + split; [|discriminate]. intros (v & E & V). destruct (CmAny_Model.good_qdisc_minimal _ _ _ _ _ _) as [[d p]| | |]; try discriminate E. cbn [bind] in E.
      destruct (CmAny_Model.cm_construct_curve _ _ _ _ _ _ _ _ _ _ _ _ _) as [[c|]| | |]; cbn [bind] in E; try discriminate E.
      assert (W : v = -3) by congruence. rewrite W in V. discriminate V.
    + split; [|discriminate]. intros (v & E & _). discriminate E.
  - repeat split; try (exists (- 2 ^ 31); split; reflexivity). intros N. now contradiction N.
Qed.
Print Assumptions C87_missing.
(** 71 is given: nothing stops; no text: all three do. *)
Example C87_missing_example : cm_gen_order (Some (lit "71")) = (Some 71, 1) /\ stops (Ok (cm_gen_order None)).
Proof. split; [vm_compute; reflexivity|]. exists (- 2 ^ 31). split; reflexivity. Qed.
