(** Model of a whole run of the exhaustive method: the plan that the configuration gives
    (Plan_Model), its stages as the functions of the other models, the engine that runs them (Engine_Model) and
    the program around it (Shell_Model), put together.

    Covered are the stages of the plans for curves over a prime field that are random, given on the input or Koblitz, made
    from an ANSI X9.62 or a Brainpool seed, by NUMS, supersingular, anomalous, of a given order or of a family (but for KSS16 and KSS40), and for random or Koblitz curves over a random binary field: a function that
    is not one of them ends in undefined behaviour, which the theorems show not to happen. Not modelled here: the log and the prompts, the memory (see Own_Model) and the
    PARI stack (see Stk_Model). The point at infinity is [None]. *)
From Coq Require Import Ascii String.
From Verif Require Import Base Str_Model Cli_Model Poly_Model Random_Model Points_Model Hex_Model CurveText_Model.
From Verif Require Json_Spec Plan_Model Engine_Model Shell_Model CurveText_Spec RunText_Props.
From Verif Require Bits_Model Ansi_Model Brainpool_Model Nums_Model Supersingular_Model Anomalous_Model Family_Model Koblitz_Model Input_Model CmGen_Model.
Local Open Scope Z_scope.

Notation pt := (option (Z * Z)).

(** PARI. A curve is given by the field and the two coefficients it was initialised with, as numbers. What is random
    also takes a number that may be anything. *)
Record pari := mkPari {
  isprime : Z -> bool;
  randomprime : Z -> Z -> Z -> option Z;
  ellinit : field -> Z -> Z -> bool;              (** false: the empty vector *)
  ell_get_disc : field -> Z -> Z -> Z;
  ell_get_j : field -> Z -> Z -> Z;
  ellff_get_card : field -> Z -> Z -> Z;
  ellsea : field -> Z -> Z -> Z;                  (** ellsea(curve, 1) *)
  ellff_get_gens : field -> Z -> Z -> Z -> list pt;
  ellmul : field -> Z -> Z -> pt -> Z -> pt;
  ellorder : field -> Z -> Z -> pt -> Z;
  Z_factor : Z -> list (Z * Z);
  znorder : Z -> Z -> Z;
  coredisc2 : Z -> Z * Z;
  kronecker : Z -> Z -> Z;
  nextprime : Z -> Z;
  class_roots : Z -> Z -> list Z;             (** FpX_roots(polclass(-q, 0, 0), p) *)
  Fp_invsafe : Z -> Z -> option Z;
  Fp_issquare : Z -> Z -> bool;
  Fp_sqrt : Z -> Z -> Z;
  Fp_sqrtn : Z -> Z -> Z -> option Z;
  ellordinate : field -> Z -> Z -> Z -> list Z;
  forprime : Z -> Z -> list Z;                (** the primes between two numbers *)
  cornacchia2 : Z -> Z -> option (Z * Z);
  glog : Z -> Z;                              (** ground(glog(n)) *)
  issquarefree : Z -> bool;
  quaddisc : Z -> Z;
  norm_traces : Z -> Z -> list Z;             (** see CmAny_Model *)
  ellfromj : Z -> Z -> option (Z * Z);        (** ellinit(ellfromj(Mod(j, p))): the coefficients *)
  elltwist : Z -> Z -> Z -> Z * Z;            (** the quadratic twist of a curve over p elements *)
  ellrandom : Z -> Z -> Z -> Z -> pt          (** a point of a curve over p elements *)
}.

(** seed_t, src/misc/types.h:37-60: the bits and a part that depends on the type *)
Inductive any_seed := AnsiSeed (s : Ansi_Model.seed_t) | BrainpoolSeed (s : Brainpool_Model.bp_t) | FamilySeed (z : Z) (s : Bits_Model.bits_t).
Definition seed_bits (s : any_seed) : Bits_Model.bits_t := match s with AnsiSeed s => Ansi_Model.seed s | BrainpoolSeed s => Brainpool_Model.bseed s | FamilySeed _ s => s end.

(** The fields of curve_t that the stages use, src/misc/types.h:88-110; NULL is [None]. [k_curve] are the values
    that the PARI object was made of; ngens is the length of [k_gens]. [k_static] is no field: it is the variable b of
    src/exhaustive/nums.c:29 while curve_b is this curve, and [None] while it is not; with --family that of
    src/exhaustive/family.c:112 (no plan has both). *)
Record curve := mkCurve {
  k_seed : option any_seed;
  k_field : option field; k_a : option element; k_b : option element;
  k_curve : option (field * Z * Z);
  k_order : option Z;
  k_gens : option (list (subgroup_t pt));
  k_meta : option meta_t;
  k_static : option Z
}.
(** src/obj/curve.c: curve_new, calloc *)
Definition curve_new : curve := mkCurve None None None None None None None None None.

Definition set_seed s k := mkCurve s (k_field k) (k_a k) (k_b k) (k_curve k) (k_order k) (k_gens k) (k_meta k) (k_static k).
Definition set_field p k := mkCurve (k_seed k) (Some p) (k_a k) (k_b k) (k_curve k) (k_order k) (k_gens k) (k_meta k) (k_static k).
Definition set_a a k := mkCurve (k_seed k) (k_field k) (Some a) (k_b k) (k_curve k) (k_order k) (k_gens k) (k_meta k) (k_static k).
Definition set_b b k := mkCurve (k_seed k) (k_field k) (k_a k) (Some b) (k_curve k) (k_order k) (k_gens k) (k_meta k) (k_static k).
Definition set_curve c k := mkCurve (k_seed k) (k_field k) (k_a k) (k_b k) c (k_order k) (k_gens k) (k_meta k) (k_static k).
Definition set_order n k := mkCurve (k_seed k) (k_field k) (k_a k) (k_b k) (k_curve k) n (k_gens k) (k_meta k) (k_static k).
Definition set_gens g k := mkCurve (k_seed k) (k_field k) (k_a k) (k_b k) (k_curve k) (k_order k) g (k_meta k) (k_static k).
Definition set_meta m k := mkCurve (k_seed k) (k_field k) (k_a k) (k_b k) (k_curve k) (k_order k) (k_gens k) (Some m) (k_static k).
Definition set_static b k := mkCurve (k_seed k) (k_field k) (k_a k) (k_b k) (k_curve k) (k_order k) (k_gens k) (k_meta k) b.

(** a NULL pointer is not to be used *)
Definition need {A} (o : option A) : res A := match o with Some x => Ok x | None => UB end.
(** what is not covered for a binary field *)
Definition need_prime (o : option field) : res Z := match o with Some (Prime p) => Ok p | _ => UB end.
(** the part of the seed that a function uses is the one that was set *)
Definition need_ansi (o : option any_seed) : res Ansi_Model.seed_t := match o with Some (AnsiSeed s) => Ok s | _ => UB end.
Definition need_family (o : option any_seed) : res Z := match o with Some (FamilySeed z _) => Ok z | _ => UB end.
Definition need_brainpool (o : option any_seed) : res Brainpool_Model.bp_t := match o with Some (BrainpoolSeed s) => Ok s | _ => UB end.
(** Elements: a t_INTMOD, or the t_FFELT whose value at two is [x], see Poly_Model. PARI has no negative ones, but the
    model's PARI could. *)
Definition elem (f : field) (x : Z) : element :=
  match f with Prime p => Mod x p | Binary _ => if x <? 0 then Int x else FF (gtopoly (digits2 x)) end.
(** the degree of the polynomial of a t_FFELT *)
Definition degree (c : list Z) : Z := Z.of_nat (length c) - 1.
(** PARI's genrand(field), from a number that may be anything: an integer for a prime, see Random_Model, and else a
    t_FFELT *)
Definition genrand (f : field) (t : Z) : res element :=
  match f with
  | Prime p => do a <- random_field_element p t; Ok (Int a)
  | Binary c => Ok (FF (gtopoly (digits2 (t mod 2 ^ degree c))))
  end.

(** What the world decides about one call of a stage: the random source; what fresh memory holds; whether the timeout
    comes, what the curve looks like then and whether a field of the input was read before; the stack pointer; whether the
    new curve is where one was before for which nums.c still has a b (only the first call of a search is asked). *)
Record draw := mkDraw {
  d_one : Z; d_two : Z; d_seq : nat -> Z; d_grid : nat -> nat -> Z; d_mem : nat -> N;
  d_timeout : bool; d_junk : curve; d_ate : bool; d_avma : Z;
  d_static : option Z
}.

(** The state of a search: the curve, the number of calls so far, the number of fields of the input that were read,
    what went wrong. [Starved]: the search needs more of the input than it was given. *)
Inductive wrong := Undefined | Stopped | NoFuel | Starved.
Record world := mkWorld { w_curve : curve; w_calls : nat; w_pos : nat; w_wrong : option wrong }.

Section Whole.
Variable P : pari.
Variable cfg : config.
Notation bits := (c_bits cfg).
Variable hexw : Z -> str.                (** pari_sprintf("%P0#*x", cfg->hex_digits, n) *)
Variable tries : nat.                    (** bounds the loops of random_prime and of the constructions *)
Variable delim : ascii.                  (** between the fields of the input *)
Variable inputs : list str.              (** the fields that can be read *)
Variable draws : nat -> draw.

(** an argument, read as an unsigned long or a size_t *)
Definition number (arg : option Plan_Model.arg_t) : res Z :=
  match arg with
  | Some (Plan_Model.Amount n) | Some (Plan_Model.Cofactor n) | Some (Plan_Model.Smooth n) => Ok (u64 n)
  | _ => UB
  end.

Definition put_order (k : curve) (r : Z * option Z) : res (curve * Z) :=
  Ok (match snd r with Some n => set_order (Some n) k | None => k end, fst r).
Definition put_gens (k : curve) (r : Z * list (subgroup_t pt)) : res (curve * Z) :=
  Ok (if fst r =? 1 then set_gens (Some (snd r)) k else k, fst r).
Definition put_a (k : curve) (r : Input_Model.outcome element) : res (curve * Z) :=
  Ok (match r with Input_Model.Value e => (set_a e k, 1) | Input_Model.Again => (k, 0) | Input_Model.Stop => (k, Engine_Model.INT_MIN) end).
Definition put_b (k : curve) (r : Input_Model.outcome element) : res (curve * Z) :=
  Ok (match r with Input_Model.Value e => (set_b e k, 1) | Input_Model.Again => (k, 0) | Input_Model.Stop => (k, Engine_Model.INT_MIN) end).
Definition put_field (k : curve) (r : Input_Model.outcome Z) : res (curve * Z) :=
  Ok (match r with Input_Model.Value p => (set_field (Prime p) k, 1) | Input_Model.Again => (k, 0) | Input_Model.Stop => (k, Engine_Model.INT_MIN) end).
Definition put_points (k : curve) (gens : res (list (subgroup_t pt))) : res (curve * Z) :=
  do g <- gens; Ok (set_gens (Some g) k, 1).

(** the functions that read one field of the input *)
Definition reads (f : Plan_Model.gen_f) : bool :=
  match f with
  | Plan_Model.field_gen_input | Plan_Model.a_gen_input | Plan_Model.b_gen_input | Plan_Model.ansi_gen_seed_input
  | Plan_Model.brainpool_gen_seed_input | Plan_Model.brainpool_rfc_gen_seed_input | Plan_Model.family_gen_seed_input => true
  | _ => false
  end.
(** an index into the table of anomalous.c *)
Definition index (arg : option Plan_Model.arg_t) : res nat := match arg with Some (Plan_Model.Discr i) => Ok (Z.to_nat i) | _ => UB end.
(** the text of the order of the CM method, see CmGen_Model *)
Definition order_text (arg : option Plan_Model.arg_t) : res (option str) :=
  match arg with None => Ok None | Some (Plan_Model.Order (Some s)) => Ok (Some s) | Some _ => UB end.
(** src/cm/cm_any.c:136-212: curves over p elements, (p, a, b), and their points *)
Definition cm_curve (j p : Z) : option (Z * Z * Z) := match ellfromj P j p with Some (a, b) => Some (p, a, b) | None => None end.
Definition cm_twist (e : Z * Z * Z) : Z * Z * Z := let '(p, a, b) := e in let '(a, b) := elltwist P p a b in (p, a, b).
Definition cm_point (e : Z * Z * Z) (t : Z) : pt := let '(p, a, b) := e in ellrandom P p a b t.
Definition cm_inf (e : Z * Z * Z) (Q : pt) (k : Z) : bool := let '(p, a, b) := e in match ellmul P (Prime p) a b Q k with None => true | Some _ => false end.
(** the end of src/cm/cm_prime.c:141-160 and src/cm/cm_any.c:250-269 *)
Definition put_cm (k : curve) (r : option (Z * (Z * Z * Z)) * Z) : res (curve * Z) :=
  match r with
  | (Some (p, (q, a, b)), r) => Ok (set_curve (Some (Prime q, a, b)) (set_b (Mod b q) (set_a (Mod a q) (set_field (Prime p) k))), r)
  | (None, r) => Ok (k, r)
  end.
(** the random numbers for a loop *)
Definition tape (d : draw) : list Z := map (d_seq d) (seq 0 tries).
(** the i-th value of random_int(cfg->bits) in a loop; it does not fail, see C62 *)
Definition random_ints (d : draw) (i : nat) : Z := match random_int bits (d_seq d i) with Ok z => z | _ => 0 end.
(** the i-th value of random_bits(n) *)
Definition random_bits (d : draw) (i n : nat) : N := Z.to_N (d_seq d i mod 2 ^ Z.of_nat n).
(** an empty field is the end of the input *)
Definition field_stream (t : str) : Input_Model.stream := Input_Model.Stream t false.

(** The generators: src/exhaustive/exhaustive.c (gen_skip), src/gen/field.c:11-50 (field_gen_random,
    field_gen_input), src/gen/equation.c, src/exhaustive/ansi.c:39-176, src/exhaustive/brainpool.c:67-255,
    src/exhaustive/brainpool_rfc.c, src/exhaustive/nums.c, src/exhaustive/family.c:77-172 (but for family_gen_equation_cm), src/cm/supersingular.c, src/cm/anomalous.c:91-129, src/gen/curve.c:8-36,
    src/gen/order.c:24-121, src/gen/gens.c:22-94, src/gen/point.c, src/gen/metadata.c. [t] is the field that was read. The
    array of length zero in brainpool_hash is taken as GNU C does (see C15); the type of the seed, which nothing here
    depends on, is left out. *)
Definition generator (f : Plan_Model.gen_f) (arg : option Plan_Model.arg_t) (d : draw) (t : str) (k : curve) : res (curve * Z) :=
  match f with
  | Plan_Model.gen_skip => Ok (k, 1)
  | Plan_Model.ansi_gen_seed_random => do r <- random_int 160 (d_one d); do s <- Ansi_Model.ansi_gen_seed_random r bits; Ok (set_seed (Some (AnsiSeed s)) k, 1)
  | Plan_Model.ansi_gen_seed_argument => do u <- need (Cli_Model.c_seed cfg); do s <- Ansi_Model.ansi_gen_seed_argument u bits; Ok (set_seed (Some (AnsiSeed s)) k, 1)
  | Plan_Model.ansi_gen_seed_input =>
      do o <- Ansi_Model.ansi_gen_seed_input (fst (Input_Model.input_string delim (field_stream t))) bits;
      Ok (match o with Some s => (set_seed (Some (AnsiSeed s)) k, 1) | None => (k, 0) end)
  | Plan_Model.ansi_gen_equation =>
      if Cli_Model.c_field cfg =? FIELD_PRIME then
        do s <- need_ansi (k_seed k); do p <- need_prime (k_field k);
        do r <- Ansi_Model.ansi_gen_equation_fp (d_mem d) (Fp_invsafe P) (Fp_issquare P) (Fp_sqrt P) (random_ints d) tries s p;
        let '(_, a, b) := r in Ok (set_b (Int b) (set_a (Int a) k), 1)
      else if Cli_Model.c_field cfg =? FIELD_BINARY then
        do s <- need_ansi (k_seed k); do f <- need (k_field k); do i <- random_int bits (d_one d);
        do r <- Ansi_Model.ansi_gen_equation_f2m (d_mem d) (field_ielement f) s i;
        Ok (match r with inl (a, b) => (set_b b (set_a a k), 1) | inr e => (k, e) end)
      else Ok (k, Engine_Model.INT_MIN)
  | Plan_Model.brainpool_gen_seed_random | Plan_Model.brainpool_rfc_gen_seed_random =>
      do s <- Brainpool_Model.brainpool_gen_seed_random (random_bits d) bits; Ok (set_seed (Some (BrainpoolSeed s)) k, 1)
  | Plan_Model.brainpool_gen_seed_argument | Plan_Model.brainpool_rfc_gen_seed_argument =>
      do u <- need (Cli_Model.c_seed cfg); do s <- Brainpool_Model.brainpool_gen_seed_argument u bits; Ok (set_seed (Some (BrainpoolSeed s)) k, 1)
  | Plan_Model.brainpool_gen_seed_input | Plan_Model.brainpool_rfc_gen_seed_input =>
      do o <- Brainpool_Model.brainpool_gen_seed_input (fst (Input_Model.input_string delim (field_stream t))) bits;
      Ok (match o with Some s => (set_seed (Some (BrainpoolSeed s)) k, 1) | None => (k, 0) end)
  | Plan_Model.brainpool_gen_field =>
      do s <- need_brainpool (k_seed k);
      do r <- Brainpool_Model.brainpool_gen_field (d_mem d) true (nextprime P) (isprime P) tries bits s;
      let '(p, s) := r in Ok (set_field (Prime p) (set_seed (Some (BrainpoolSeed s)) k), 1)
  | Plan_Model.brainpool_gen_equation =>
      do s <- need_brainpool (k_seed k); do p <- need_prime (k_field k);
      do r <- Brainpool_Model.brainpool_gen_equation (d_mem d) true (Fp_invsafe P) (Fp_sqrtn P) (Fp_issquare P) tries p s;
      let '(a, b, s) := r in Ok (set_b (Mod b p) (set_a (Mod a p) (set_seed (Some (BrainpoolSeed s)) k)), 1)
  | Plan_Model.brainpool_rfc_gen_equation =>
      do s <- need_brainpool (k_seed k); do p <- need_prime (k_field k);
      do r <- Brainpool_Model.brainpool_rfc_gen_equation (d_mem d) true (Fp_invsafe P) (Fp_sqrtn P) (Fp_issquare P) tries p s;
      let '(a, b, s) := r in Ok (set_b (Mod b p) (set_a (Mod a p) (set_seed (Some (BrainpoolSeed s)) k)), 1)
  | Plan_Model.nums_gen_field => do p <- Nums_Model.nums_gen_field (isprime P) tries bits; Ok (set_field (Prime p) k, 1)
  | Plan_Model.nums_gen_a => do p <- need_prime (k_field k); Ok (set_a (Mod (Nums_Model.nums_gen_a p) p) k, 1)
  | Plan_Model.nums_gen_b =>
      do p <- need_prime (k_field k);
      let '(st, b) := Nums_Model.nums_gen_b (option_map (fun b => (b, 0)) (k_static k)) 0 p in
      Ok (set_b (Mod b p) (set_static (option_map fst st) k), 1)
  | Plan_Model.family_gen_seed_random =>
      do i <- random_int bits (d_one d); let z := Family_Model.family_gen_seed_random i (d_two d mod 2) in
      do s <- Bits_Model.bits_from_i z; Ok (set_seed (Some (FamilySeed z s)) k, 1)
  | Plan_Model.family_gen_seed_input =>
      let z := Family_Model.family_gen_seed_input (fst (Input_Model.input_int delim bits (field_stream t))) in
      do s <- Bits_Model.bits_from_i z; Ok (set_seed (Some (FamilySeed z s)) k, 1)
  | Plan_Model.family_gen_field =>
      do z <- need_family (k_seed k); do s <- need (Family_Model.store (c_family cfg));
      Ok (match Family_Model.family_gen_field (isprime P) s z with Some p => (set_field (Prime p) k, 1) | None => (k, -1) end)
  | Plan_Model.family_gen_equation_iter =>
      do p <- need_prime (k_field k);
      let '((a, b), st) := Family_Model.family_gen_equation_iter 0 p (Family_Model.Bs (k_static k) (option_map (fun _ => 0) (k_static k))) in
      Ok (set_b (Mod b p) (set_a (Mod a p) (set_static (Family_Model.b_val st) k)), 1)
  | Plan_Model.family_gen_order =>
      do e <- need (k_curve k); let '(f, a, b) := e in
      do z <- need_family (k_seed k); do s <- need (Family_Model.store (c_family cfg));
      do r <- Family_Model.family_gen_order s z (ellff_get_card P f a b);
      Ok (match r with Some n => (set_order (Some n) k, 1) | None => (k, -2) end)
  | Plan_Model.field_gen_input => if negb (Cli_Model.c_field cfg =? FIELD_PRIME) then UB else put_field k (fst (Input_Model.field_gen_input_prime (isprime P) delim bits (field_stream t)))
  | Plan_Model.a_gen_input => do p <- need (k_field k); put_a k (fst (Input_Model.a_gen_input delim bits p (field_stream t)))
  | Plan_Model.b_gen_input => do p <- need (k_field k); put_b k (fst (Input_Model.a_gen_input delim bits p (field_stream t)))
  | Plan_Model.a_gen_zero => Ok (set_a (Int 0) k, 1)
  | Plan_Model.a_gen_one => Ok (set_a (Int 1) k, 1)
  | Plan_Model.b_gen_one => Ok (set_b (Int 1) k, 1)
  | Plan_Model.supersingular_gen_equation =>
      do p <- need_prime (k_field k);
      do r <- Supersingular_Model.gen_equation (kronecker P) (nextprime P) (class_roots P) tries p;
      Ok (match r with Some (a, b) => (set_b (Mod b p) (set_a (Mod a p) k), 1) | None => (k, -2) end)
  | Plan_Model.supersingular_gen_order => do p <- need_prime (k_field k); do _ <- need (k_curve k); Ok (set_order (Some (Supersingular_Model.gen_order p)) k, 1)
  | Plan_Model.anomalous_gen_field =>
      do i <- index arg; do r <- Anomalous_Model.gen_field (isprime P) (kronecker P) tries i bits (tape d); Ok (set_field (Prime (fst r)) k, 1)
  | Plan_Model.anomalous_gen_equation =>
      do i <- index arg; do p <- need_prime (k_field k);
      do r <- Anomalous_Model.gen_equation (kronecker P) i p (tape d);
      let '(a, b, _) := r in Ok (set_b (Mod b p) (set_a (Mod a p) k), 1)
  | Plan_Model.anomalous_gen_order => do p <- need_prime (k_field k); do _ <- need (k_curve k); Ok (set_order (Some (Anomalous_Model.gen_order p)) k, 1)
  | Plan_Model.cm_gen_curve_prime =>
      do s <- order_text arg;
      do r <- CmGen_Model.cm_gen_curve_prime (forprime P) (kronecker P) (cornacchia2 P) (isprime P) (glog P) (Z * Z * Z) pt
        (fun D => class_roots P (- D)) cm_curve cm_twist cm_point cm_inf tries tries (d_grid d) s;
      put_cm k r
  | Plan_Model.cm_gen_curve_any =>
      do s <- order_text arg;
      do r <- CmGen_Model.cm_gen_curve_any (isprime P) (issquarefree P) (quaddisc P) (norm_traces P) (Z * Z * Z) pt
        (fun D => class_roots P (- D)) cm_curve cm_twist cm_point cm_inf tries (d_seq d) s;
      put_cm k r
  | Plan_Model.cm_gen_order =>
      do s <- order_text arg;
      let '(o, r) := CmGen_Model.cm_gen_order s in Ok (match o with Some n => set_order (Some n) k | None => k end, r)
  | Plan_Model.field_gen_random =>
      if Cli_Model.c_field cfg =? FIELD_PRIME then do p <- random_prime (randomprime P) (isprime P) tries bits (d_seq d); Ok (set_field (Prime p) k, 1)
      else if Cli_Model.c_field cfg =? FIELD_BINARY then do c <- field_binaryr bits; Ok (set_field (Binary c) k, 1)
      else Ok (k, Engine_Model.INT_MIN)
  | Plan_Model.a_gen_random => do p <- need (k_field k); do a <- genrand p (d_one d); Ok (set_a a k, 1)
  | Plan_Model.b_gen_random => do p <- need (k_field k); do b <- genrand p (d_one d); Ok (set_b b k, 1)
  | Plan_Model.curve_gen_any =>
      do p <- need (k_field k); do a <- need (k_a k); do b <- need (k_b k);
      let a := CurveText_Spec.elem_int a in let b := CurveText_Spec.elem_int b in
      Ok (if ellinit P p a b then (set_curve (Some (p, a, b)) k, 1) else (k, -3))
  | Plan_Model.order_gen_any => do e <- need (k_curve k); let '(p, a, b) := e in put_order k (order_gen_any (ellff_get_card P p a b))
  | Plan_Model.order_gen_prime => do e <- need (k_curve k); let '(p, a, b) := e in put_order k (order_gen_prime (isprime P) (ellsea P p a b))
  | Plan_Model.order_gen_cofactor =>
      do e <- need (k_curve k); let '(p, a, b) := e in
      do h <- number arg; put_order k (order_gen_cofactor (isprime P) h (ellff_get_card P p a b))
  | Plan_Model.order_gen_smooth =>
      do e <- need (k_curve k); let '(p, a, b) := e in
      do h <- number arg; put_order k (order_gen_smooth (Z_factor P) h (ellff_get_card P p a b))
  | Plan_Model.order_gen_koblitz =>
      do x <- need (k_a k); do e <- need (k_curve k); let '(p, a, b) := e in
      do n <- Koblitz_Model.order_gen_koblitz bits x (ellff_get_card P p a b); Ok (set_order (Some n) k, 1)
  | Plan_Model.nums_gen_order =>
      do e <- need (k_curve k); let '(f, a, b) := e in
      do p <- need_prime (k_field k); put_order k (Nums_Model.nums_gen_order (isprime P) p (ellsea P f a b))
  | Plan_Model.gens_gen_any =>
      do e <- need (k_curve k); let '(p, a, b) := e in
      do n <- need (k_order k); put_gens k (gens_gen_any (ellorder P p a b) n (ellff_get_gens P p a b (d_one d)))
  | Plan_Model.gens_gen_one =>
      do e <- need (k_curve k); let '(p, a, b) := e in
      do n <- need (k_order k); put_gens k (gens_gen_one (ellorder P p a b) n (ellff_get_gens P p a b (d_one d)) [])
  | Plan_Model.gens_gen_cofactor =>
      do e <- need (k_curve k); let '(p, a, b) := e in
      do n <- need (k_order k); do h <- number arg;
      do r <- gens_gen_cofactor (ellmul P p a b) (ellorder P p a b) n h (ellff_get_gens P p a b (d_one d)) []; put_gens k r
  | Plan_Model.brainpool_gen_gens =>
      do s <- need_brainpool (k_seed k); do e <- need (k_curve k); let '(p, a, b) := e in
      do n <- need (k_order k);
      do r <- Brainpool_Model.brainpool_gen_gens (d_mem d) true (fun x y => Some (x, y)) (ellordinate P p a b) (ellmul P p a b) (ellorder P p a b)
                tries (Z.odd (d_one d)) n s;
      let k := set_seed (Some (BrainpoolSeed (snd r))) k in
      Ok (match fst r with
          | Some (g, o, h, _) => (set_gens (Some [mkSub (mkPoint g o (Some h)) 0 None]) k, 1)
          | None => (k, Engine_Model.INT_MIN)
          end)
  | Plan_Model.nums_gen_gens =>
      do e <- need (k_curve k); let '(f, a, b) := e in
      do p <- need_prime (k_field k); do n <- need (k_order k);
      do r <- Nums_Model.nums_gen_gens (ellordinate P f a b) (fun g => ellorder P f a b (Some g)) tries p n;
      let '(g, o, h) := r in Ok (set_gens (Some [mkSub (mkPoint (Some g) o (Some h)) 0 None]) k, 1)
  | Plan_Model.point_gen_random =>
      do e <- need (k_curve k); let '(p, a, b) := e in
      do g <- need (k_gens k); put_points k (point_gen_random (ellmul P p a b) (ellorder P p a b) g (d_one d) (d_two d))
  | Plan_Model.points_gen_random =>
      do e <- need (k_curve k); let '(p, a, b) := e in
      do g <- need (k_gens k); do n <- number arg;
      put_points k (points_gen_random (ellmul P p a b) (ellorder P p a b) g (Z.to_nat n) (d_seq d) (d_grid d))
  | Plan_Model.points_gen_prime =>
      do e <- need (k_curve k); let '(p, a, b) := e in
      do g <- need (k_gens k); put_points k (points_gen_prime (ellmul P p a b) (Z_factor P) (isprime P) g)
  | Plan_Model.points_gen_nonprime =>
      do e <- need (k_curve k); let '(p, a, b) := e in
      do g <- need (k_gens k); put_points k (points_gen_nonprime (ellmul P p a b) (Z_factor P) (isprime P) g)
  | Plan_Model.points_gen_allgroups =>
      do e <- need (k_curve k); let '(p, a, b) := e in
      do g <- need (k_gens k); put_points k (points_gen_allgroups (ellmul P p a b) (Z_factor P) (isprime P) g)
  | Plan_Model.metadata_gen =>
      do e <- need (k_curve k); let '(p, a, b) := e in
      do q <- need (k_field k); do n <- need (k_order k);
      do m <- (match q with
               | Prime q => metadata_gen (znorder P) (coredisc2 P) false q
               | Binary c => metadata_gen (znorder P) (coredisc2 P) true (degree c)
               end) n (ell_get_j P p a b) (ell_get_disc P p a b);
      Ok (set_meta m k, 1)
  | _ => UB
  end.

(** ** What the filter and the output see *)
(** points are pairs of elements *)
Definition hp (p : field) (q : pt) : hpoint := match q with Some (x, y) => Some (elem p x, elem p y) | None => None end.
Definition hpt (p : field) (q : point_t pt) : point_t hpoint := mkPoint (hp p (p_point q)) (p_order q) (p_cofactor q).
Definition hsub (p : field) (s : subgroup_t pt) : subgroup_t hpoint :=
  mkSub (hpt p (s_gen s)) (s_npoints s) (match s_points s with Some l => Some (map (option_map (hpt p)) l) | None => None end).
(** src/gen/hex.c:23-41 reads npoints entries of points *)
Definition sub_points (s : subgroup_t pt) : res (list pt) :=
  if (s_npoints s =? 0)%nat then Ok []
  else do l <- need (s_points s); if (length l <? s_npoints s)%nat then UB else mapm (fun o => do q <- need o; Ok (p_point q)) (firstn (s_npoints s) l).
Definition hgen_of (p : field) (s : subgroup_t pt) : res hgen := do l <- sub_points s; Ok (HGen (hp p (p_point (s_gen s))) (map (hp p) l)).

(** The checks: src/gen/curve.c:48-54, src/exhaustive/brainpool.c:257-275, src/gen/gens.c:96-104 (cfg->field is that of the
    curve's field), src/gen/hex.c:43-126; hex_check_param is called at the stage of the points *)
Definition check (f : Plan_Model.check_f) (arg : option Plan_Model.arg_t) (k : curve) : res Z :=
  match f with
  | Plan_Model.curve_check_nonzero => do e <- need (k_curve k); let '(p, a, b) := e in Ok (if ell_get_disc P p a b =? 0 then -3 else 1)
  | Plan_Model.brainpool_check_order => do p <- need_prime (k_field k); do n <- need (k_order k); Ok (Brainpool_Model.brainpool_check_order n p)
  | Plan_Model.gens_check_anomalous =>
      do f <- need (k_field k); do g <- need (k_gens k);
      Ok (match f with Prime p => gens_check_anomalous false p g | Binary _ => gens_check_anomalous true 0 g end)
  | Plan_Model.brainpool_check_gens =>
      do p <- need_prime (k_field k); do g <- need (k_gens k);
      match g with s :: _ => Ok (Brainpool_Model.brainpool_check_gens (znorder P) p (p_order (s_gen s))) | [] => UB end
  | Plan_Model.hex_check_param =>
      match arg with
      | Some (Plan_Model.Hex s) =>
          do p <- need (k_field k); do a <- need (k_a k); do b <- need (k_b k); do n <- need (k_order k);
          do g <- need (k_gens k); do hg <- mapm (hgen_of p) g;
          hex_check_param hexw s (HCurve (option_map seed_bits (k_seed k)) p a b n hg) OFFSET_POINTS
      | _ => UB
      end
  end.

(** src/gen/curve.c:56-62, src/gen/gens.c:134-139, src/gen/point.c:174-182, src/gen/seed.c:64-67 *)
Definition unroll (f : Plan_Model.unroll_f) (k : curve) : curve :=
  match f with
  | Plan_Model.unroll_skip => k
  | Plan_Model.seed_unroll => set_seed None k
  | Plan_Model.curve_unroll => set_curve None k
  | Plan_Model.gens_unroll => set_gens None k
  | Plan_Model.points_unroll =>
      set_gens (match k_gens k with Some g => Some (map (fun s => mkSub (s_gen s) (s_npoints s) None) g) | None => None end) k
  end.

(** ** The engine's view of a stage *)
(** an error of PARI stops the program; it and undefined behaviour are recorded and end the search *)
Definition outcome {A} (r : res A) : option wrong :=
  match r with Ok _ => None | UB => Some Undefined | Abort => Some Stopped | Fuel => Some NoFuel end.
(** A stage that is interrupted may have left anything in the curve, but only these write the seed. *)
Definition seeds (f : Plan_Model.gen_f) : bool :=
  match f with
  | Plan_Model.ansi_gen_seed_random | Plan_Model.ansi_gen_seed_argument | Plan_Model.ansi_gen_seed_input
  | Plan_Model.brainpool_gen_seed_random | Plan_Model.brainpool_gen_seed_argument | Plan_Model.brainpool_gen_seed_input
  | Plan_Model.brainpool_rfc_gen_seed_random | Plan_Model.brainpool_rfc_gen_seed_argument | Plan_Model.brainpool_rfc_gen_seed_input
  | Plan_Model.brainpool_gen_field | Plan_Model.brainpool_gen_equation | Plan_Model.brainpool_rfc_gen_equation | Plan_Model.brainpool_gen_gens
  | Plan_Model.family_gen_seed_random | Plan_Model.family_gen_seed_input => true
  | _ => false
  end.
Definition interrupted (f : Plan_Model.gen_f) (k j : curve) : curve := if seeds f then j else set_seed (k_seed k) j.
Definition stage (f : Plan_Model.gen_f) (arg : option Plan_Model.arg_t) (w : world) (avma : Z) : world * Z * Engine_Model.gout :=
  let d := draws (w_calls w) in
  let n := Datatypes.S (w_calls w) in
  let eats := (reads f && (negb (d_timeout d) || d_ate d))%bool in
  if (eats && (length inputs <=? w_pos w)%nat)%bool
  then (mkWorld (w_curve w) n (w_pos w) (Some Starved), d_avma d, Engine_Model.Ret Engine_Model.INT_MIN)
  else
    let pos := if eats then Datatypes.S (w_pos w) else w_pos w in
    if d_timeout d then (mkWorld (interrupted f (w_curve w) (d_junk d)) n pos (w_wrong w), d_avma d, Engine_Model.Timeout)
    else match generator f arg d (nth (w_pos w) inputs []) (w_curve w) with
         | Ok (k, r) => (mkWorld k n pos (w_wrong w), d_avma d, Engine_Model.Ret r)
         | r => (mkWorld (w_curve w) n pos (outcome r), d_avma d, Engine_Model.Ret Engine_Model.INT_MIN)
         end.
Definition validator (f : Plan_Model.check_f) (arg : option Plan_Model.arg_t) (w : world) : world * Z :=
  match check f arg (w_curve w) with
  | Ok r => (w, r)
  | r => (mkWorld (w_curve w) (w_calls w) (w_pos w) (outcome r), Engine_Model.INT_MIN)
  end.
Definition undo (f : Plan_Model.unroll_f) (w : world) : world * Z :=
  (mkWorld (unroll f (w_curve w)) (w_calls w) (w_pos w) (w_wrong w), -1).

(** the arrays of a setup, indexed by the state *)
Definition cell {A} (l : list (option A)) (i : Z) : option A :=
  if i <? 0 then None else match nth_error l (Z.to_nat i) with Some o => o | None => None end.
Definition engine_setup (s : Plan_Model.setup_t) : Engine_Model.setup world :=
  Engine_Model.mkSetup
    (fun i => match cell (Plan_Model.s_gens s) i with Some f => Some (stage f (cell (Plan_Model.s_gargs s) i)) | None => None end)
    (fun i => match cell (Plan_Model.s_checks s) i with
              | Some cs => Some (map (fun f => validator f (cell (Plan_Model.s_cargs s) i)) cs)
              | None => None end)
    (fun i => match cell (Plan_Model.s_unrolls s) i with Some f => Some (undo f) | None => None end).

(** a new curve; nums.c or family.c may have a b for its address *)
Definition curve_start : curve := set_static (d_static (draws 0%nat)) curve_new.
(** src/exhaustive/exhaustive.c:471-474: a search on a new curve, from OFFSET_SEED to OFFSET_END *)
Definition search (s : Plan_Model.setup_t) (fuel : nat) (avma : Z) : Engine_Model.stop * world :=
  let '(_, r, w) := Engine_Model.exhaustive_gen (engine_setup s) 0 9 fuel (mkWorld curve_start 0 0 None) avma in (r, w).

(** the curve for the output, src/io/output.c:51-176 *)
Definition to_meta (m : option meta_t) : cmeta :=
  match m with
  | Some m => CMeta (Some (Points_Model.m_j m)) (Some (Points_Model.m_disc m)) (Points_Model.m_embedding m)
                    (Some (Points_Model.m_frobenius m)) (m_cm_disc m) (Points_Model.m_conductor m)
  | None => CurveText_Spec.no_meta
  end.
Definition to_output (k : curve) : res ccurve :=
  do p <- need (k_field k); do a <- need (k_a k); do b <- need (k_b k); do n <- need (k_order k); do g <- need (k_gens k);
  Ok (CCurve p (option_map seed_bits (k_seed k)) a b n (map (hsub p) g) (to_meta (k_meta k))).
End Whole.

(** No program ends with a negative status: these stand for undefined behaviour and for a search that the model
    does not follow to its end. *)
Definition UNDEFINED : Z := -1.
Definition UNFINISHED : Z := -2.

Section Run.
Variable P : pari.
Variable cfg : config.
Variable hexw hexp dec : Z -> str.
Variable junk : nat -> ascii.
(** what the world decides about the i-th curve *)
Variable draws : Z -> nat -> draw.
Variable tries fuel : nat.
Variable avma : Z.
Variable delim : ascii.
Variable su : Plan_Model.setup_t.        (** the plan, see Plan_Model.main_job *)

(** the printing of the curve does not leave the behaviour that is defined: see C68 *)
Definition fitsb (c : ccurve) : bool :=
  let affineb q := match p_point q with Some (x, y) => (0 <=? CurveText_Spec.elem_int x) && (0 <=? CurveText_Spec.elem_int y) | None => false end
                   && (0 <=? p_order q) && match p_cofactor q with Some h => 0 <=? h | None => true end in
  let groupb g := affineb (s_gen g) &&
    match s_points g with
    | None => (s_npoints g =? 0)%nat
    | Some l => (s_npoints g =? length l)%nat && forallb (fun q => match q with Some q => affineb q | None => false end) l
    end in
  match CurveText_Model.c_field c with Prime p => 0 <=? p | Binary c => (length (CurveText_Spec.exponents c) <=? 4)%nat end &&
  match CurveText_Model.c_seed c with
  | Some s => (Bits_Model.allocated s <=? length (Bits_Model.buf s))%nat && (Bits_Model.BYTE_LEN (Bits_Model.bitlen s) <=? Bits_Model.allocated s)%nat &&
              forallb (fun x => N.ltb x 256) (Bits_Model.buf s) && (Z.of_nat (Bits_Model.bitlen s) <? 2 ^ 48)
  | None => true
  end &&
  (0 <=? CurveText_Spec.elem_int (c_a c)) && (0 <=? CurveText_Spec.elem_int (c_b c)) && (0 <=? c_order c) &&
  forallb groupb (c_gens c) &&
  (Json_Spec.room (CurveText_Spec.doc hexw hexp dec (CurveText_Spec.published (c_metadata cfg) c)) 0 <? 2 ^ 31 - 1).

(** What the program does after a search. PARI's errors end it with the status 1. *)
Definition finished (r : Engine_Model.stop) (w : world) : Shell_Model.prog (option ccurve) :=
  match r with
  | Engine_Model.Returned 1 =>
      match to_output (w_curve w) with
      | Ok c => if fitsb c then Shell_Model.Done (Some c) else Shell_Model.Exit UNDEFINED
      | _ => Shell_Model.Exit UNDEFINED
      end
  | Engine_Model.Returned _ =>
      match w_wrong w with
      | None => Shell_Model.Done None
      | Some Stopped => Shell_Model.Exit 1
      | Some Undefined => Shell_Model.Exit UNDEFINED
      | Some _ => Shell_Model.Exit UNFINISHED
      end
  | Engine_Model.NoFuel => Shell_Model.Exit UNFINISHED
  | _ => Shell_Model.Exit UNDEFINED
  end.
(** The search for the i-th curve as a part of the program: with the fields that were read so far; when it needs one
    more, that one is read. [n] bounds their number. *)
Fixpoint ask (n : nat) (i : Z) (l : list str) : Shell_Model.prog (option ccurve) :=
  let '(r, w) := search P cfg hexw tries delim l (draws i) su fuel avma in
  match w_wrong w with
  | Some Starved => match n with O => Shell_Model.Exit UNFINISHED | S n => Shell_Model.Read (fun t => ask n i (l ++ [t])) end
  | _ => finished r w
  end.
Definition one_curve (i : Z) : Shell_Model.prog (option ccurve) := ask fuel i [].
(** src/exhaustive/exhaustive.c:466-507 and src/cm/cm.c:225-253; [None]: not finished *)
Definition exhaustive_do (outer : nat) : Shell_Model.prog (option Z) :=
  Shell_Model.exhaustive_generate (fun c => list_ascii_of_string (RunText_Props.shown hexw hexp dec junk (c_metadata cfg) c)) one_curve outer (c_count cfg).
End Run.
