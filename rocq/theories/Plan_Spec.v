(** What a generation plan should be (C26) and what it means for an option to
    have an effect (C27). *)
From Coq Require Import Ascii String.
From Verif Require Import Base Str_Model Cli_Model Plan_Model.
Local Open Scope Z_scope.

Definition gen_at (su : setup_t) (i : nat) : option gen_f := nth i (s_gens su) None.
Definition garg_at (su : setup_t) (i : nat) : option arg_t := nth i (s_gargs su) None.
Definition checks_at (su : setup_t) (i : nat) : list check_f := match nth i (s_checks su) None with Some l => l | None => [] end.
Definition carg_at (su : setup_t) (i : nat) : option arg_t := nth i (s_cargs su) None.
Definition unroll_at (su : setup_t) (i : nat) : option unroll_f := nth i (s_unrolls su) None.

(** ** The functions that fail without an argument (HAS_ARG,
    src/exhaustive/arg.h:14): src/gen/gens.c:50, src/gen/order.c:50 and 70,
    src/gen/point.c:27, src/cm/anomalous.c:92 and 108, src/cm/cm_any.c:251 and
    272, src/cm/cm_prime.c:142; points_gen_trial (src/gen/point.c:96) gets its
    argument during the search. *)
Definition reads (g : gen_f) : option (arg_t -> Prop) :=
  match g with
  | gens_gen_cofactor | order_gen_cofactor => Some (fun a => exists n, a = Cofactor n)
  | order_gen_smooth => Some (fun a => exists n, a = Smooth n)
  | points_gen_random => Some (fun a => exists n, a = Amount n)
  | anomalous_gen_field | anomalous_gen_equation => Some (fun a => exists n, a = Discr n)
  | cm_gen_curve_any | cm_gen_curve_prime | cm_gen_order => Some (fun a => exists s, a = Order (Some s))
  | _ => None
  end.

(** ** The plan, stage by stage, from what the user asked for *)

Inductive procedure := PPlain | PTwist | PAnsi | PBrainpool | PBrainpoolRfc | PNums | PFamily | PCm | PAnomalous | PSupersingular.
Definition procedure_of (c : config) : option procedure :=
  if c_method c =? METHOD_DEFAULT then Some PPlain
  else if c_method c =? METHOD_TWIST then Some PTwist
  else if c_method c =? METHOD_FAMILY then Some PFamily
  else if c_method c =? METHOD_CM then Some PCm
  else if c_method c =? METHOD_ANOMALOUS then Some PAnomalous
  else if c_method c =? METHOD_SUPERSINGULAR then Some PSupersingular
  else if c_method c =? METHOD_SEED then
    (if c_seed_algo c =? SEED_ANSI then Some PAnsi
     else if c_seed_algo c =? SEED_BRAINPOOL then Some PBrainpool
     else if c_seed_algo c =? SEED_BRAINPOOL_RFC then Some PBrainpoolRfc
     else if c_seed_algo c =? SEED_NUMS then Some PNums else None)
  else None.

Definition rnd (c : config) (i : Z) : bool := Z.testbit (c_random c) i.
Definition pick (b : bool) (x y : gen_f) : gen_f := if b then x else y.

Definition want_seed (p : procedure) (c : config) : gen_f :=
  match p with
  | PAnsi => if c_seed c then ansi_gen_seed_argument else pick (rnd c 0) ansi_gen_seed_random ansi_gen_seed_input
  | PBrainpool => if c_seed c then brainpool_gen_seed_argument else pick (rnd c 0) brainpool_gen_seed_random brainpool_gen_seed_input
  | PBrainpoolRfc => if c_seed c then brainpool_rfc_gen_seed_argument else pick (rnd c 0) brainpool_rfc_gen_seed_random brainpool_rfc_gen_seed_input
  | PFamily => pick (negb (c_random c =? 0)) family_gen_seed_random family_gen_seed_input
  | _ => gen_skip
  end.
Definition want_field (p : procedure) (c : config) : gen_f :=
  match p with
  | PPlain | PTwist | PAnsi | PSupersingular => pick (rnd c 1) field_gen_random field_gen_input
  | PBrainpool | PBrainpoolRfc => brainpool_gen_field
  | PNums => nums_gen_field
  | PFamily => family_gen_field
  | PAnomalous => anomalous_gen_field
  | PCm => gen_skip
  end.
Definition want_a (p : procedure) (c : config) : gen_f :=
  match p with
  | PPlain | PTwist =>
      if c_koblitz c then pick (c_koblitz_value c =? 1) a_gen_one a_gen_zero else pick (rnd c 2) a_gen_random a_gen_input
  | PNums => nums_gen_a
  | _ => gen_skip
  end.
Definition want_b (p : procedure) (c : config) : gen_f :=
  match p with
  | PPlain | PTwist => if c_koblitz c then b_gen_one else pick (rnd c 3) b_gen_random b_gen_input
  | PAnsi => ansi_gen_equation
  | PBrainpool => brainpool_gen_equation
  | PBrainpoolRfc => brainpool_rfc_gen_equation
  | PNums => nums_gen_b
  | PFamily => if (c_family c =? FAMILY_KSS16) || (c_family c =? FAMILY_KSS40) then family_gen_equation_cm else family_gen_equation_iter
  | PAnomalous => anomalous_gen_equation
  | PSupersingular => supersingular_gen_equation
  | PCm => gen_skip
  end.
Definition want_curve (p : procedure) (order_prime : bool) : gen_f :=
  match p with
  | PTwist => curve_gen_any_twist
  | PCm => pick order_prime cm_gen_curve_prime cm_gen_curve_any
  | _ => curve_gen_any
  end.
Definition want_order (p : procedure) (c : config) : gen_f :=
  match p with
  | PPlain | PTwist | PAnsi =>
      if c_prime c then order_gen_prime
      else if c_cofactor c then order_gen_cofactor
      else if c_smooth c then order_gen_smooth
      else match p with PAnsi => order_gen_any | _ => pick (c_koblitz c) order_gen_koblitz order_gen_any end
  | PBrainpool | PBrainpoolRfc => order_gen_prime
  | PNums => nums_gen_order
  | PFamily => family_gen_order
  | PCm => cm_gen_order
  | PAnomalous => anomalous_gen_order
  | PSupersingular => supersingular_gen_order
  end.
Definition want_gens (p : procedure) (c : config) : gen_f :=
  match p with
  | PPlain | PTwist | PAnsi => if c_unique c then gens_gen_one else if c_cofactor c then gens_gen_cofactor else gens_gen_any
  | PBrainpool | PBrainpoolRfc => brainpool_gen_gens
  | PNums => nums_gen_gens
  | PFamily => gens_gen_any
  | PCm | PAnomalous | PSupersingular => pick (c_unique c) gens_gen_one gens_gen_any
  end.
Definition want_points (p : procedure) (order_prime : bool) (c : config) : gen_f :=
  match p, order_prime with
  | PCm, true => points_gen_prime
  | _, _ =>
      if c_points_type c =? POINTS_RANDOM then pick (c_points_amount c =? 0) point_gen_random points_gen_random
      else if c_points_type c =? POINTS_PRIME then points_gen_prime
      else if c_points_type c =? POINTS_NONPRIME then points_gen_nonprime
      else if c_points_type c =? POINTS_ALL then points_gen_allgroups
      else gen_skip
  end.
Definition want (p : procedure) (order_prime : bool) (c : config) : list (option gen_f) :=
  map Some [want_seed p c; want_field p c; want_a p c; want_b p c; want_curve p order_prime; want_order p c; want_gens p c;
            want_points p order_prime c; pick (c_metadata c) metadata_gen gen_skip].

(** the checks wanted after each stage *)
Definition want_checks (p : procedure) (c : config) (i : nat) : list check_f :=
  if (i =? CURVE)%nat then [curve_check_nonzero]
  else if (i =? POINTS)%nat then (match c_hex_check c with Some _ => [hex_check_param] | None => [] end)
  else if (i =? ORDER)%nat then (match p with PBrainpool | PBrainpoolRfc => [brainpool_check_order] | _ => [] end)
  else if (i =? GENERATORS)%nat then
    (match p with PBrainpool | PBrainpoolRfc | PNums => [gens_check_anomalous; brainpool_check_gens] | _ => [] end)
  else [].

(** ** What the configuration contributes to a run: the plan, without the
    arguments no function reads, and the values read while generating: the
    field type (src/gen/field.c:24), the seed's text (src/exhaustive/ansi.c:50,
    brainpool.c:77) and the family (src/exhaustive/family.c:97). *)
Definition read_arg (g : option gen_f) (a : option arg_t) : option arg_t :=
  match g with
  | Some g => match reads g with Some _ => a | None => None end
  | None => None
  end.
Definition read_carg (v : option (list check_f)) (a : option arg_t) : option arg_t :=
  match v with
  | Some l => if existsb (fun f => match f with hex_check_param => true | _ => false end) l then a else None
  | None => None
  end.
Fixpoint zip_with {A B C} (f : A -> B -> C) (l : list A) (m : list B) : list C :=
  match l, m with x :: l, y :: m => f x y :: zip_with f l m | _, _ => [] end.
Definition effective_setup (su : setup_t) : setup_t :=
  mkSetup (s_gens su) (zip_with read_arg (s_gens su) (s_gargs su)) (s_checks su) (zip_with read_carg (s_checks su) (s_cargs su)) (s_unrolls su).
Definition effective (j : job) : job :=
  match j with
  | JExhaustive su n => JExhaustive (effective_setup su) n
  | JCm su n => JCm (effective_setup su) n
  | JInvalid s1 s2 p t => JInvalid (effective_setup s1) (effective_setup s2) p t
  end.
Definition reads_seed (j : job) : bool :=
  match j with
  | JExhaustive su _ => match gen_at su SEED with
      | Some ansi_gen_seed_argument | Some brainpool_gen_seed_argument | Some brainpool_rfc_gen_seed_argument => true | _ => false end
  | _ => false
  end.
Definition reads_family (j : job) : bool :=
  match j with JExhaustive su _ => match gen_at su FIELD with Some family_gen_field => true | _ => false end | _ => false end.

Definition effect (c : config) (order_prime : bool) : job * Z * option str * option Z :=
  let j := snd (main_job c order_prime) in
  (effective j, c_field c, if reads_seed j then c_seed c else None, if reads_family j then Some (c_family c) else None).

(** [c'] differs from [c] at most in what the option sets, with a value the
    option can give *)
Definition same_but (n : name) (c c' : config) : Prop :=
  match n with
  | N_field => exists v, (v = FIELD_PRIME \/ v = FIELD_BINARY) /\ c' = set_field v c
  | N_method => exists v, In v [METHOD_DEFAULT; METHOD_CM; METHOD_ANOMALOUS; METHOD_SEED; METHOD_INVALID; METHOD_TWIST; METHOD_SUPERSINGULAR; METHOD_FAMILY] /\ c' = set_method v c
  | N_count => exists v, c' = set_count v c
  | N_random => exists v, 0 <= v <= RANDOM_ALL /\ c' = set_random v c
  | N_prime => exists v, c' = set_prime v c
  | N_cm_order => exists v, c' = set_cm_order v c
  | N_koblitz => exists v, c' = set_koblitz v c
  | N_koblitz_value => exists v, (v = 0 \/ v = 1) /\ c' = set_koblitz_value v c
  | N_smooth => exists b v, c' = set_smooth_value v (set_smooth b c)
  | N_cofactor => exists b v, c' = set_cofactor_value v (set_cofactor b c)
  | N_invalid_primes => exists v, c' = set_invalid_primes v c
  | N_seed_algo => exists v, In v [SEED_NONE; SEED_ANSI; SEED_BRAINPOOL; SEED_BRAINPOOL_RFC; SEED_NUMS] /\ c' = set_seed_algo v c
  | N_seed => exists v, c' = set_seed v c
  | N_family => exists v, FAMILY_BN <= v <= FAMILY_KSS40 /\ c' = set_family v c
  | N_unique => exists v, c' = set_unique v c
  | N_hex_check => exists v, c' = set_hex_check v c
  | N_points => exists t a, POINTS_PRIME <= t <= POINTS_NONE /\ c' = set_points_type t (set_points_amount a c)
  | N_metadata => exists v, c' = set_metadata v c
  end.
(** the option has an effect *)
Definition matters (n : name) (c : config) (order_prime : bool) : Prop :=
  exists c', same_but n c c' /\ effect c' order_prime <> effect c order_prime.

(** the options that the fixed procedures override without saying so *)
Definition overridden (n : name) (c : config) (order_prime : bool) : Prop :=
  match n with
  | N_prime | N_cofactor | N_smooth | N_unique =>
      c_seed_algo c = SEED_BRAINPOOL \/ c_seed_algo c = SEED_BRAINPOOL_RFC \/ c_seed_algo c = SEED_NUMS
  | N_points => c_method c = METHOD_CM /\ order_prime = true
  | N_random => c_method c = METHOD_ANOMALOUS
  | _ => False
  end.
