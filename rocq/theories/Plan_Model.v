(** Model of how the configuration becomes a generation plan:
    /repo/src/exhaustive/exhaustive.c:46-341, /repo/src/cm/cm.c:21-223,
    /repo/src/invalid/invalid.c:19-69, /repo/src/ecgen.c:122-131, and of the
    warning about ignored options: /repo/src/misc/config.c:18-115.

    Function pointers are represented by constructors naming the C functions;
    the arrays indexed by OFFSET_SEED = 0 .. OFFSET_METADATA = 8 are lists of
    nine cells, [None] is NULL. *)
From Coq Require Import Ascii String.
From Verif Require Import Base Str_Model Cli_Model.
Local Open Scope Z_scope.

Inductive gen_f :=
| gen_skip
| field_gen_random | field_gen_input | a_gen_random | a_gen_input | a_gen_zero | a_gen_one
| b_gen_random | b_gen_input | b_gen_one
| ansi_gen_seed_argument | ansi_gen_seed_random | ansi_gen_seed_input | ansi_gen_equation
| brainpool_gen_seed_argument | brainpool_gen_seed_random | brainpool_gen_seed_input
| brainpool_gen_field | brainpool_gen_equation | brainpool_gen_gens
| brainpool_rfc_gen_seed_argument | brainpool_rfc_gen_seed_random | brainpool_rfc_gen_seed_input
| brainpool_rfc_gen_equation
| nums_gen_field | nums_gen_a | nums_gen_b | nums_gen_order | nums_gen_gens
| family_gen_seed_random | family_gen_seed_input | family_gen_field
| family_gen_equation_cm | family_gen_equation_iter | family_gen_order
| order_gen_prime | order_gen_cofactor | order_gen_smooth | order_gen_koblitz | order_gen_any
| gens_gen_one | gens_gen_cofactor | gens_gen_any
| curve_gen_any | curve_gen_any_twist | metadata_gen
| points_gen_random | point_gen_random | points_gen_prime | points_gen_nonprime | points_gen_allgroups | points_gen_trial
| cm_gen_curve_prime | cm_gen_curve_any | cm_gen_order
| anomalous_gen_field | anomalous_gen_equation | anomalous_gen_order
| supersingular_gen_equation | supersingular_gen_order.

Inductive check_f :=
| curve_check_nonzero | hex_check_param | brainpool_check_order | gens_check_anomalous | brainpool_check_gens.

Inductive unroll_f := seed_unroll | unroll_skip | curve_unroll | gens_unroll | points_unroll.

(** what an arg_t points to *)
Inductive arg_t :=
| Amount (n : Z)       (** &cfg->points.amount *)
| Cofactor (n : Z)     (** &cfg->cofactor_value *)
| Smooth (n : Z)       (** &cfg->smooth_value *)
| Hex (s : str)        (** cfg->hex_check *)
| Order (s : option str)  (** the order's text *)
| Discr (i : Z).       (** index into the anomalous tables *)

Record setup_t := mkSetup {
  s_gens : list (option gen_f);
  s_gargs : list (option arg_t);
  s_checks : list (option (list check_f));
  s_cargs : list (option arg_t);
  s_unrolls : list (option unroll_f)
}.

Definition SEED := 0%nat.
Definition FIELD := 1%nat.
Definition A := 2%nat.
Definition B := 3%nat.
Definition CURVE := 4%nat.
Definition ORDER := 5%nat.
Definition GENERATORS := 6%nat.
Definition POINTS := 7%nat.
Definition METADATA := 8%nat.

Definition nine {T} : list (option T) := repeat None 9.
(** an array cell assignment [t[i] = v] *)
Definition put {T} (i : nat) (v : T) (t : list (option T)) : list (option T) := upd t i (Some v).

Definition is_random (c : config) (what : Z) : bool := negb (Z.land (c_random c) what =? 0).
Definition is_some {T} (o : option T) : bool := match o with Some _ => true | None => false end.

(** src/exhaustive/exhaustive.c:236-257 and src/cm/cm.c:40-61 *)
Definition points_init (c : config) (g : list (option gen_f)) : list (option gen_f) :=
  if c_points_type c =? POINTS_RANDOM then
    (if negb (c_points_amount c =? 0) then put POINTS points_gen_random g else put POINTS point_gen_random g)
  else if c_points_type c =? POINTS_PRIME then put POINTS points_gen_prime g
  else if c_points_type c =? POINTS_NONPRIME then put POINTS points_gen_nonprime g
  else if c_points_type c =? POINTS_ALL then put POINTS points_gen_allgroups g
  else if c_points_type c =? POINTS_NONE then put POINTS gen_skip g
  else g.

(** src/exhaustive/exhaustive.c:60-66 and 212-218: GET_BOOL marks the option
    as used when it is evaluated *)
Definition unique_init (c : config) (u : list name) (g : list (option gen_f)) : list name * list (option gen_f) :=
  let u := N_unique :: u in
  if c_unique c then (u, put GENERATORS gens_gen_one g)
  else
    let u := N_cofactor :: u in
    if c_cofactor c then (u, put GENERATORS gens_gen_cofactor g)
    else (u, put GENERATORS gens_gen_any g).

(** the SEED stage of an algorithm, src/exhaustive/exhaustive.c:71-81, 92-102,
    110-121 *)
Definition seed_init (c : config) (fa fr fi : gen_f) (u : list name) (g : list (option gen_f)) : list name * list (option gen_f) :=
  let u := N_seed :: u in
  if is_some (c_seed c) then (u, put SEED fa g)
  else
    let u := N_random :: u in
    if is_random c RANDOM_SEED then (u, put SEED fr g) else (u, put SEED fi g).

(** src/exhaustive/exhaustive.c:46-258; [u] are the options marked as used so
    far *)
Definition exhaustive_ginit (c : config) (u : list name) : list name * list (option gen_f) :=
  let g := nine in
  let u := N_field :: u in
  let u := N_seed_algo :: u in
  let '(u, g) :=
    if negb (c_seed_algo c =? 0) then
      let u := N_prime :: u in
      let '(u, g) :=
        if c_prime c then (u, put ORDER order_gen_prime g)
        else
          let u := N_cofactor :: u in
          if c_cofactor c then (u, put ORDER order_gen_cofactor g)
          else
            let u := N_smooth :: u in
            if c_smooth c then (u, put ORDER order_gen_smooth g) else (u, put ORDER order_gen_any g) in
      let '(u, g) := unique_init c u g in
      if c_seed_algo c =? SEED_ANSI then
        let '(u, g) := seed_init c ansi_gen_seed_argument ansi_gen_seed_random ansi_gen_seed_input u g in
        let u := N_random :: u in
        let g := if is_random c RANDOM_FIELD then put FIELD field_gen_random g else put FIELD field_gen_input g in
        let g := put A gen_skip g in
        (u, put B ansi_gen_equation g)
      else if c_seed_algo c =? SEED_BRAINPOOL then
        let '(u, g) := seed_init c brainpool_gen_seed_argument brainpool_gen_seed_random brainpool_gen_seed_input u g in
        let g := put FIELD brainpool_gen_field g in
        let g := put A gen_skip g in
        let g := put B brainpool_gen_equation g in
        let g := put ORDER order_gen_prime g in
        (u, put GENERATORS brainpool_gen_gens g)
      else if c_seed_algo c =? SEED_BRAINPOOL_RFC then
        let '(u, g) := seed_init c brainpool_rfc_gen_seed_argument brainpool_rfc_gen_seed_random brainpool_rfc_gen_seed_input u g in
        let g := put FIELD brainpool_gen_field g in
        let g := put A gen_skip g in
        let g := put B brainpool_rfc_gen_equation g in
        let g := put ORDER order_gen_prime g in
        (u, put GENERATORS brainpool_gen_gens g)
      else if c_seed_algo c =? SEED_NUMS then
        let g := put SEED gen_skip g in
        let g := put FIELD nums_gen_field g in
        let g := put A nums_gen_a g in
        let g := put B nums_gen_b g in
        let g := put ORDER nums_gen_order g in
        (u, put GENERATORS nums_gen_gens g)
      else (u, g)
    else if c_method c =? METHOD_FAMILY then
      let u := N_random :: u in
      let g := if negb (c_random c =? 0) then put SEED family_gen_seed_random g else put SEED family_gen_seed_input g in
      let g := put FIELD family_gen_field g in
      let g := put A gen_skip g in
      let g := if (c_family c =? FAMILY_KSS16) || (c_family c =? FAMILY_KSS40) then put B family_gen_equation_cm g
               else put B family_gen_equation_iter g in
      let g := put ORDER family_gen_order g in
      (u, put GENERATORS gens_gen_any g)
    else
      let g := put SEED gen_skip g in
      let u := N_random :: u in
      let g := if is_random c RANDOM_FIELD then put FIELD field_gen_random g else put FIELD field_gen_input g in
      let u := N_koblitz :: u in
      let '(u, g) :=
        if c_koblitz c then
          let u := N_koblitz_value :: u in
          let g := if c_koblitz_value c =? 0 then put A a_gen_zero g
                   else if c_koblitz_value c =? 1 then put A a_gen_one g else g in
          (u, put B b_gen_one g)
        else
          let u := N_random :: u in
          let g := if is_random c RANDOM_A then put A a_gen_random g else put A a_gen_input g in
          let g := if is_random c RANDOM_B then put B b_gen_random g else put B b_gen_input g in
          (u, g) in
      let u := N_prime :: u in
      let '(u, g) :=
        if c_prime c then (u, put ORDER order_gen_prime g)
        else
          let u := N_cofactor :: u in
          if c_cofactor c then (u, put ORDER order_gen_cofactor g)
          else
            let u := N_smooth :: u in
            if c_smooth c then (u, put ORDER order_gen_smooth g)
            else
              let u := N_koblitz :: u in
              if c_koblitz c then (u, put ORDER order_gen_koblitz g) else (u, put ORDER order_gen_any g) in
      unique_init c u g in
  let u := N_method :: u in
  let g := if c_method c =? METHOD_TWIST then put CURVE curve_gen_any_twist g else put CURVE curve_gen_any g in
  let u := N_metadata :: u in
  let g := if c_metadata c then put METADATA metadata_gen g else put METADATA gen_skip g in
  let u := N_points :: u in
  (u, points_init c g).

(** src/exhaustive/exhaustive.c:260-292 *)
Definition exhaustive_cinit (c : config) (u : list name) : list name * list (option (list check_f)) :=
  let v := put CURVE [curve_check_nonzero] nine in
  let u := N_hex_check :: u in
  let v := if is_some (c_hex_check c) then put POINTS [hex_check_param] v else v in
  let u := N_method :: u in
  if c_method c =? METHOD_SEED then
    let u := N_seed_algo :: u in
    if (c_seed_algo c =? SEED_BRAINPOOL) || (c_seed_algo c =? SEED_BRAINPOOL_RFC) then
      (u, put GENERATORS [gens_check_anomalous; brainpool_check_gens] (put ORDER [brainpool_check_order] v))
    else if c_seed_algo c =? SEED_NUMS then (u, put GENERATORS [gens_check_anomalous; brainpool_check_gens] v)
    else (u, v)
  else (u, v).

(** src/exhaustive/exhaustive.c:294-326: (gen_argss, check_argss) *)
Definition hex_args (c : config) : list (option arg_t) :=
  match c_hex_check c with Some s => put POINTS (Hex s) nine | None => nine end.
Definition exhaustive_ainit (c : config) : list (option arg_t) * list (option arg_t) :=
  let ga := if c_points_type c =? POINTS_RANDOM then put POINTS (Amount (c_points_amount c)) nine else nine in
  let ga := if c_cofactor c then put GENERATORS (Cofactor (c_cofactor_value c)) (put ORDER (Cofactor (c_cofactor_value c)) ga) else ga in
  let ga := if c_smooth c then put ORDER (Smooth (c_smooth_value c)) ga else ga in
  (ga, hex_args c).

(** src/exhaustive/exhaustive.c:328-341 *)
Definition exhaustive_uinit (c : config) : list (option unroll_f) :=
  let un := nine in
  let un := if negb (c_seed_algo c =? 0) || (c_method c =? METHOD_FAMILY) then put SEED seed_unroll un else put SEED unroll_skip un in
  let un := put FIELD unroll_skip un in
  let un := put A unroll_skip un in
  let un := put B unroll_skip un in
  let un := put CURVE curve_unroll un in
  let un := put ORDER unroll_skip un in
  let un := put GENERATORS gens_unroll un in
  put POINTS points_unroll un.

(** src/exhaustive/exhaustive.c:450-456 *)
Definition exhaustive_init (c : config) (u : list name) : list name * setup_t :=
  let '(u, g) := exhaustive_ginit c u in
  let '(u, v) := exhaustive_cinit c u in
  let '(ga, ca) := exhaustive_ainit c in
  (u, mkSetup g ga v ca (exhaustive_uinit c)).

(** src/cm/cm.c:21-95; [prime] tells whether the requested order is a prime *)
Definition cm_ginit (c : config) (prime : bool) (u : list name) : list name * list (option gen_f) :=
  let u := N_field :: u in
  let g := put SEED gen_skip nine in
  let u := N_unique :: u in
  let g := if c_unique c then put GENERATORS gens_gen_one g else put GENERATORS gens_gen_any g in
  let u := N_metadata :: u in
  let g := if c_metadata c then put METADATA metadata_gen g else put METADATA gen_skip g in
  let u := N_points :: u in
  let g := points_init c g in
  let u := N_method :: u in
  if c_method c =? METHOD_CM then
    let g := put FIELD gen_skip g in
    let g := put A gen_skip g in
    let g := put B gen_skip g in
    let g := if prime then put POINTS points_gen_prime (put CURVE cm_gen_curve_prime g) else put CURVE cm_gen_curve_any g in
    (u, put ORDER cm_gen_order g)
  else if c_method c =? METHOD_ANOMALOUS then
    let u := N_random :: u in
    let g := put FIELD anomalous_gen_field g in
    let g := put A gen_skip g in
    let g := put B anomalous_gen_equation g in
    let g := put CURVE curve_gen_any g in
    (u, put ORDER anomalous_gen_order g)
  else if c_method c =? METHOD_SUPERSINGULAR then
    let u := N_random :: u in
    let g := if is_random c RANDOM_FIELD then put FIELD field_gen_random g else put FIELD field_gen_input g in
    let g := put A gen_skip g in
    let g := put B supersingular_gen_equation g in
    let g := put CURVE curve_gen_any g in
    (u, put ORDER supersingular_gen_order g)
  else (u, g).

(** src/cm/cm.c:97-139; for a list of factors the order's text is computed
    (line 192), here it is represented by the text the user gave *)
Definition cm_ainit (c : config) : list (option arg_t) * list (option arg_t) :=
  let ga := nine in
  let ga := if c_method c =? METHOD_CM then put ORDER (Order (c_cm_order c)) (put CURVE (Order (c_cm_order c)) ga) else ga in
  let ga := if c_method c =? METHOD_ANOMALOUS then put B (Discr 3) (put FIELD (Discr 3) ga) else ga in
  let ga := if c_points_type c =? POINTS_RANDOM then put POINTS (Amount (c_points_amount c)) ga else ga in
  (ga, hex_args c).

(** src/cm/cm.c:141-149 *)
Definition cm_cinit (c : config) (u : list name) : list name * list (option (list check_f)) :=
  let v := put CURVE [curve_check_nonzero] nine in
  let u := N_hex_check :: u in
  (u, if is_some (c_hex_check c) then put POINTS [hex_check_param] v else v).

(** src/cm/cm.c:151-223 without the reading of the order (see Order_Model) *)
Definition cm_init (c : config) (prime : bool) (u : list name) : list name * setup_t :=
  let u := if c_method c =? METHOD_CM then N_cm_order :: u else u in
  let '(u, g) := cm_ginit c prime u in
  let '(ga, ca) := cm_ainit c in
  let '(u, v) := cm_cinit c u in
  (u, mkSetup g ga v ca (exhaustive_uinit c)).

(** src/invalid/invalid.c:19-43 *)
Definition invalid_original_ginit (c : config) (u : list name) : list name * list (option gen_f) :=
  let u := N_field :: u in
  let g := put SEED gen_skip nine in
  let u := N_random :: u in
  let g := if is_random c RANDOM_FIELD then put FIELD field_gen_random g else put FIELD field_gen_input g in
  let g := if is_random c RANDOM_A then put A a_gen_random g else put A a_gen_input g in
  let g := if is_random c RANDOM_B then put B b_gen_random g else put B b_gen_input g in
  let g := put GENERATORS gens_gen_any g in
  let g := put CURVE curve_gen_any g in
  let g := put ORDER order_gen_any g in
  (u, put METADATA gen_skip g).

(** src/invalid/invalid.c:45-59 *)
Definition invalid_invalid_ginit (c : config) (u : list name) : list name * list (option gen_f) :=
  let g := put SEED gen_skip nine in
  let g := put FIELD gen_skip g in
  let g := put A gen_skip g in
  let g := put B b_gen_random g in
  let g := put CURVE curve_gen_any g in
  let g := put ORDER order_gen_any g in
  let u := N_unique :: u in
  let g := if c_unique c then put GENERATORS gens_gen_one g else put GENERATORS gens_gen_any g in
  let g := put POINTS points_gen_trial g in
  (u, put METADATA gen_skip g).

(** src/invalid/invalid.c:61-69 *)
Definition invalid_checks : list (option (list check_f)) := put CURVE [curve_check_nonzero] nine.

(** What the program runs (src/ecgen.c:122-131, exhaustive.c:490-507,
    cm.c:232-253, invalid.c:331-385): the setups and the configuration values
    they are run with. [primes] is -i's argument. *)
Inductive job :=
| JExhaustive (su : setup_t) (count : Z)
| JCm (su : setup_t) (count : Z)
| JInvalid (orig inv : setup_t) (primes : option str) (threads : Z).

Definition main_job (c : config) (order_prime : bool) : list name * job :=
  let u := [N_method] in
  if (c_method c =? METHOD_CM) || (c_method c =? METHOD_ANOMALOUS) || (c_method c =? METHOD_SUPERSINGULAR) then
    let '(u, su) := cm_init c order_prime u in
    (N_count :: u, JCm su (c_count c))
  else if c_method c =? METHOD_INVALID then
    let '(u, g1) := invalid_original_ginit c u in
    let '(u, g2) := invalid_invalid_ginit c u in
    (N_invalid_primes :: u,
     JInvalid (mkSetup g1 nine invalid_checks nine (exhaustive_uinit c))
              (mkSetup g2 nine invalid_checks nine (exhaustive_uinit c)) (c_invalid_primes c) (c_threads c))
  else
    let '(u, su) := exhaustive_init c u in
    (N_count :: u, JExhaustive su (c_count c)).

(** src/misc/config.c:20-115: the options warned about; family is not looked
    at. *)
Definition report_names : list name :=
  [N_field; N_method; N_count; N_random; N_prime; N_cm_order; N_koblitz; N_koblitz_value; N_smooth; N_cofactor;
   N_invalid_primes; N_seed_algo; N_seed; N_unique; N_hex_check; N_points; N_metadata].
Definition config_report_unused (set used : list name) : list name :=
  filter (fun n => has n set && negb (has n used)) report_names.
