(** Model of the command line: /repo/src/io/cli.c and /repo/src/misc/config.h.

    [argp_failure(state, 1, ...)] and [argp_usage] leave the program: the
    outcome [None]. The library argp itself is not modelled; a command line is
    the list of options in the order they are given and the list of the other
    arguments. Options that only pass a file name or a verbosity on (input,
    output, append, verbose, data-dir) do not touch the modelled part of the
    configuration. *)
From Coq Require Import Ascii String.
From Verif Require Import Base Str_Model Ansi_Model Brainpool_Model.
Local Open Scope Z_scope.

Notation str := (list ascii).
Definition lit (s : string) : str := list_ascii_of_string s.

Fixpoint str_eqb (s t : str) : bool :=
  match s, t with
  | [], [] => true
  | c :: s, d :: t => Ascii.eqb c d && str_eqb s t
  | _, _ => false
  end.

(** strstr(s, t) == s *)
Fixpoint prefix_b (t s : str) : bool :=
  match t, s with
  | [], _ => true
  | c :: t, d :: s => Ascii.eqb c d && prefix_b t s
  | _ :: _, [] => false
  end.

(** tolower(3), isspace(3), isdigit(3) in the C locale *)
Definition tolower (c : ascii) : ascii :=
  let n := nat_of_ascii c in if ((65 <=? n) && (n <=? 90))%nat then ascii_of_nat (n + 32) else c.
Definition strcasecmp0 (s t : str) : bool := str_eqb (map tolower s) (map tolower t).
Definition isspace (c : ascii) : bool :=
  let n := nat_of_ascii c in ((n =? 32) || ((9 <=? n) && (n <=? 13)))%nat.
Definition isdigit (c : ascii) : bool :=
  let n := nat_of_ascii c in ((48 <=? n) && (n <=? 57))%nat.

(** strtol(3) and strtoul(3) in base 10: white space, sign, digits, the rest.
    No digits: value 0 and the end pointer is the start. *)
Fixpoint skip_space (s : str) : str :=
  match s with c :: t => if isspace c then skip_space t else s | [] => [] end.
Definition take_sign (s : str) : bool * str :=
  match s with
  | c :: t => if Ascii.eqb c "-" then (true, t) else if Ascii.eqb c "+" then (false, t) else (false, s)
  | [] => (false, [])
  end.
Fixpoint take_digits (acc : Z) (s : str) : Z * str :=
  match s with
  | c :: t => if isdigit c then take_digits (10 * acc + (Z.of_nat (nat_of_ascii c) - 48)) t else (acc, s)
  | [] => (acc, [])
  end.
Definition scan (s : str) : option (bool * Z * str) :=
  let (neg, t) := take_sign (skip_space s) in
  match t with
  | c :: _ => if isdigit c then let (v, r) := take_digits 0 t in Some (neg, v, r) else None
  | [] => None
  end.
Definition ULONG_MAX : Z := 2 ^ 64 - 1.
Definition LONG_MAX : Z := 2 ^ 63 - 1.
Definition strtoul (s : str) : Z * str :=
  match scan s with
  | Some (neg, v, r) => ((if ULONG_MAX <? v then ULONG_MAX else if neg then u64 (- v) else v), r)
  | None => (0, s)
  end.
Definition strtol (s : str) : Z * str :=
  match scan s with
  | Some (neg, v, r) => ((if neg then Z.max LONG_MIN (- v) else Z.min LONG_MAX v), r)
  | None => (0, s)
  end.

(** src/misc/config.h:14-79: the enumerations *)
Definition FIELD_PRIME : Z := 1.
Definition FIELD_BINARY : Z := 2.
Definition POINTS_PRIME : Z := 0.
Definition POINTS_NONPRIME : Z := 1.
Definition POINTS_RANDOM : Z := 2.
Definition POINTS_ALL : Z := 3.
Definition POINTS_NONE : Z := 4.
Definition RANDOM_SEED : Z := 1.
Definition RANDOM_FIELD : Z := 2.
Definition RANDOM_A : Z := 4.
Definition RANDOM_B : Z := 8.
Definition RANDOM_EQUATION : Z := 12.
Definition RANDOM_ALL : Z := 15.
Definition METHOD_DEFAULT : Z := 0.
Definition METHOD_CM : Z := 1.
Definition METHOD_ANOMALOUS : Z := 2.
Definition METHOD_SEED : Z := 4.
Definition METHOD_INVALID : Z := 8.
Definition METHOD_TWIST : Z := 16.
Definition METHOD_SUPERSINGULAR : Z := 32.
Definition METHOD_FAMILY : Z := 64.
Definition SEED_NONE : Z := 0.
Definition SEED_ANSI : Z := 1.
Definition SEED_BRAINPOOL : Z := 2.
Definition SEED_BRAINPOOL_RFC : Z := 3.
Definition SEED_FIPS : Z := 4.
Definition SEED_NUMS : Z := 5.
Definition FAMILY_BN : Z := 0.
Definition FAMILY_BLS12 : Z := 1.
Definition FAMILY_BLS24 : Z := 2.
Definition FAMILY_KSS16 : Z := 3.
Definition FAMILY_KSS18 : Z := 4.
Definition FAMILY_KSS36 : Z := 5.
Definition FAMILY_KSS40 : Z := 6.

(** src/misc/config.h:84-158 (config_t); [points.type] and [points.amount] are
    two fields here; the file names, verbosity and format are left out. *)
Record config := mkConfig {
  c_field : Z;
  c_method : Z;
  c_count : Z;
  c_random : Z;
  c_prime : bool;
  c_cm_order : option str;
  c_koblitz : bool;
  c_koblitz_value : Z;
  c_smooth : bool;
  c_smooth_value : Z;
  c_cofactor : bool;
  c_cofactor_value : Z;
  c_invalid_primes : option str;
  c_seed_algo : Z;
  c_seed : option str;
  c_family : Z;
  c_unique : bool;
  c_hex_check : option str;
  c_points_type : Z;
  c_points_amount : Z;
  c_metadata : bool;
  c_memory : Z;
  c_threads : Z;
  c_thread_memory : Z;
  c_timeout : Z;
  c_bits : Z;
  c_hex_digits : Z
}.

(** main clears the structure first (src/ecgen.c:111) *)
Definition cfg0 : config := mkConfig 0 0 0 0 false None false 0 false 0 false 0 None 0 None 0 false None 0 0 false 0 0 0 0 0 0.

(** assignments [cfg->x = v] *)
Definition set_field (v : Z) (c : config) : config :=
  mkConfig v (c_method c) (c_count c) (c_random c) (c_prime c) (c_cm_order c) (c_koblitz c) (c_koblitz_value c) (c_smooth c) (c_smooth_value c) (c_cofactor c) (c_cofactor_value c) (c_invalid_primes c) (c_seed_algo c) (c_seed c) (c_family c) (c_unique c) (c_hex_check c) (c_points_type c) (c_points_amount c) (c_metadata c) (c_memory c) (c_threads c) (c_thread_memory c) (c_timeout c) (c_bits c) (c_hex_digits c).
Definition set_method (v : Z) (c : config) : config :=
  mkConfig (c_field c) v (c_count c) (c_random c) (c_prime c) (c_cm_order c) (c_koblitz c) (c_koblitz_value c) (c_smooth c) (c_smooth_value c) (c_cofactor c) (c_cofactor_value c) (c_invalid_primes c) (c_seed_algo c) (c_seed c) (c_family c) (c_unique c) (c_hex_check c) (c_points_type c) (c_points_amount c) (c_metadata c) (c_memory c) (c_threads c) (c_thread_memory c) (c_timeout c) (c_bits c) (c_hex_digits c).
Definition set_count (v : Z) (c : config) : config :=
  mkConfig (c_field c) (c_method c) v (c_random c) (c_prime c) (c_cm_order c) (c_koblitz c) (c_koblitz_value c) (c_smooth c) (c_smooth_value c) (c_cofactor c) (c_cofactor_value c) (c_invalid_primes c) (c_seed_algo c) (c_seed c) (c_family c) (c_unique c) (c_hex_check c) (c_points_type c) (c_points_amount c) (c_metadata c) (c_memory c) (c_threads c) (c_thread_memory c) (c_timeout c) (c_bits c) (c_hex_digits c).
Definition set_random (v : Z) (c : config) : config :=
  mkConfig (c_field c) (c_method c) (c_count c) v (c_prime c) (c_cm_order c) (c_koblitz c) (c_koblitz_value c) (c_smooth c) (c_smooth_value c) (c_cofactor c) (c_cofactor_value c) (c_invalid_primes c) (c_seed_algo c) (c_seed c) (c_family c) (c_unique c) (c_hex_check c) (c_points_type c) (c_points_amount c) (c_metadata c) (c_memory c) (c_threads c) (c_thread_memory c) (c_timeout c) (c_bits c) (c_hex_digits c).
Definition set_prime (v : bool) (c : config) : config :=
  mkConfig (c_field c) (c_method c) (c_count c) (c_random c) v (c_cm_order c) (c_koblitz c) (c_koblitz_value c) (c_smooth c) (c_smooth_value c) (c_cofactor c) (c_cofactor_value c) (c_invalid_primes c) (c_seed_algo c) (c_seed c) (c_family c) (c_unique c) (c_hex_check c) (c_points_type c) (c_points_amount c) (c_metadata c) (c_memory c) (c_threads c) (c_thread_memory c) (c_timeout c) (c_bits c) (c_hex_digits c).
Definition set_cm_order (v : option str) (c : config) : config :=
  mkConfig (c_field c) (c_method c) (c_count c) (c_random c) (c_prime c) v (c_koblitz c) (c_koblitz_value c) (c_smooth c) (c_smooth_value c) (c_cofactor c) (c_cofactor_value c) (c_invalid_primes c) (c_seed_algo c) (c_seed c) (c_family c) (c_unique c) (c_hex_check c) (c_points_type c) (c_points_amount c) (c_metadata c) (c_memory c) (c_threads c) (c_thread_memory c) (c_timeout c) (c_bits c) (c_hex_digits c).
Definition set_koblitz (v : bool) (c : config) : config :=
  mkConfig (c_field c) (c_method c) (c_count c) (c_random c) (c_prime c) (c_cm_order c) v (c_koblitz_value c) (c_smooth c) (c_smooth_value c) (c_cofactor c) (c_cofactor_value c) (c_invalid_primes c) (c_seed_algo c) (c_seed c) (c_family c) (c_unique c) (c_hex_check c) (c_points_type c) (c_points_amount c) (c_metadata c) (c_memory c) (c_threads c) (c_thread_memory c) (c_timeout c) (c_bits c) (c_hex_digits c).
Definition set_koblitz_value (v : Z) (c : config) : config :=
  mkConfig (c_field c) (c_method c) (c_count c) (c_random c) (c_prime c) (c_cm_order c) (c_koblitz c) v (c_smooth c) (c_smooth_value c) (c_cofactor c) (c_cofactor_value c) (c_invalid_primes c) (c_seed_algo c) (c_seed c) (c_family c) (c_unique c) (c_hex_check c) (c_points_type c) (c_points_amount c) (c_metadata c) (c_memory c) (c_threads c) (c_thread_memory c) (c_timeout c) (c_bits c) (c_hex_digits c).
Definition set_smooth (v : bool) (c : config) : config :=
  mkConfig (c_field c) (c_method c) (c_count c) (c_random c) (c_prime c) (c_cm_order c) (c_koblitz c) (c_koblitz_value c) v (c_smooth_value c) (c_cofactor c) (c_cofactor_value c) (c_invalid_primes c) (c_seed_algo c) (c_seed c) (c_family c) (c_unique c) (c_hex_check c) (c_points_type c) (c_points_amount c) (c_metadata c) (c_memory c) (c_threads c) (c_thread_memory c) (c_timeout c) (c_bits c) (c_hex_digits c).
Definition set_smooth_value (v : Z) (c : config) : config :=
  mkConfig (c_field c) (c_method c) (c_count c) (c_random c) (c_prime c) (c_cm_order c) (c_koblitz c) (c_koblitz_value c) (c_smooth c) v (c_cofactor c) (c_cofactor_value c) (c_invalid_primes c) (c_seed_algo c) (c_seed c) (c_family c) (c_unique c) (c_hex_check c) (c_points_type c) (c_points_amount c) (c_metadata c) (c_memory c) (c_threads c) (c_thread_memory c) (c_timeout c) (c_bits c) (c_hex_digits c).
Definition set_cofactor (v : bool) (c : config) : config :=
  mkConfig (c_field c) (c_method c) (c_count c) (c_random c) (c_prime c) (c_cm_order c) (c_koblitz c) (c_koblitz_value c) (c_smooth c) (c_smooth_value c) v (c_cofactor_value c) (c_invalid_primes c) (c_seed_algo c) (c_seed c) (c_family c) (c_unique c) (c_hex_check c) (c_points_type c) (c_points_amount c) (c_metadata c) (c_memory c) (c_threads c) (c_thread_memory c) (c_timeout c) (c_bits c) (c_hex_digits c).
Definition set_cofactor_value (v : Z) (c : config) : config :=
  mkConfig (c_field c) (c_method c) (c_count c) (c_random c) (c_prime c) (c_cm_order c) (c_koblitz c) (c_koblitz_value c) (c_smooth c) (c_smooth_value c) (c_cofactor c) v (c_invalid_primes c) (c_seed_algo c) (c_seed c) (c_family c) (c_unique c) (c_hex_check c) (c_points_type c) (c_points_amount c) (c_metadata c) (c_memory c) (c_threads c) (c_thread_memory c) (c_timeout c) (c_bits c) (c_hex_digits c).
Definition set_invalid_primes (v : option str) (c : config) : config :=
  mkConfig (c_field c) (c_method c) (c_count c) (c_random c) (c_prime c) (c_cm_order c) (c_koblitz c) (c_koblitz_value c) (c_smooth c) (c_smooth_value c) (c_cofactor c) (c_cofactor_value c) v (c_seed_algo c) (c_seed c) (c_family c) (c_unique c) (c_hex_check c) (c_points_type c) (c_points_amount c) (c_metadata c) (c_memory c) (c_threads c) (c_thread_memory c) (c_timeout c) (c_bits c) (c_hex_digits c).
Definition set_seed_algo (v : Z) (c : config) : config :=
  mkConfig (c_field c) (c_method c) (c_count c) (c_random c) (c_prime c) (c_cm_order c) (c_koblitz c) (c_koblitz_value c) (c_smooth c) (c_smooth_value c) (c_cofactor c) (c_cofactor_value c) (c_invalid_primes c) v (c_seed c) (c_family c) (c_unique c) (c_hex_check c) (c_points_type c) (c_points_amount c) (c_metadata c) (c_memory c) (c_threads c) (c_thread_memory c) (c_timeout c) (c_bits c) (c_hex_digits c).
Definition set_seed (v : option str) (c : config) : config :=
  mkConfig (c_field c) (c_method c) (c_count c) (c_random c) (c_prime c) (c_cm_order c) (c_koblitz c) (c_koblitz_value c) (c_smooth c) (c_smooth_value c) (c_cofactor c) (c_cofactor_value c) (c_invalid_primes c) (c_seed_algo c) v (c_family c) (c_unique c) (c_hex_check c) (c_points_type c) (c_points_amount c) (c_metadata c) (c_memory c) (c_threads c) (c_thread_memory c) (c_timeout c) (c_bits c) (c_hex_digits c).
Definition set_family (v : Z) (c : config) : config :=
  mkConfig (c_field c) (c_method c) (c_count c) (c_random c) (c_prime c) (c_cm_order c) (c_koblitz c) (c_koblitz_value c) (c_smooth c) (c_smooth_value c) (c_cofactor c) (c_cofactor_value c) (c_invalid_primes c) (c_seed_algo c) (c_seed c) v (c_unique c) (c_hex_check c) (c_points_type c) (c_points_amount c) (c_metadata c) (c_memory c) (c_threads c) (c_thread_memory c) (c_timeout c) (c_bits c) (c_hex_digits c).
Definition set_unique (v : bool) (c : config) : config :=
  mkConfig (c_field c) (c_method c) (c_count c) (c_random c) (c_prime c) (c_cm_order c) (c_koblitz c) (c_koblitz_value c) (c_smooth c) (c_smooth_value c) (c_cofactor c) (c_cofactor_value c) (c_invalid_primes c) (c_seed_algo c) (c_seed c) (c_family c) v (c_hex_check c) (c_points_type c) (c_points_amount c) (c_metadata c) (c_memory c) (c_threads c) (c_thread_memory c) (c_timeout c) (c_bits c) (c_hex_digits c).
Definition set_hex_check (v : option str) (c : config) : config :=
  mkConfig (c_field c) (c_method c) (c_count c) (c_random c) (c_prime c) (c_cm_order c) (c_koblitz c) (c_koblitz_value c) (c_smooth c) (c_smooth_value c) (c_cofactor c) (c_cofactor_value c) (c_invalid_primes c) (c_seed_algo c) (c_seed c) (c_family c) (c_unique c) v (c_points_type c) (c_points_amount c) (c_metadata c) (c_memory c) (c_threads c) (c_thread_memory c) (c_timeout c) (c_bits c) (c_hex_digits c).
Definition set_points_type (v : Z) (c : config) : config :=
  mkConfig (c_field c) (c_method c) (c_count c) (c_random c) (c_prime c) (c_cm_order c) (c_koblitz c) (c_koblitz_value c) (c_smooth c) (c_smooth_value c) (c_cofactor c) (c_cofactor_value c) (c_invalid_primes c) (c_seed_algo c) (c_seed c) (c_family c) (c_unique c) (c_hex_check c) v (c_points_amount c) (c_metadata c) (c_memory c) (c_threads c) (c_thread_memory c) (c_timeout c) (c_bits c) (c_hex_digits c).
Definition set_points_amount (v : Z) (c : config) : config :=
  mkConfig (c_field c) (c_method c) (c_count c) (c_random c) (c_prime c) (c_cm_order c) (c_koblitz c) (c_koblitz_value c) (c_smooth c) (c_smooth_value c) (c_cofactor c) (c_cofactor_value c) (c_invalid_primes c) (c_seed_algo c) (c_seed c) (c_family c) (c_unique c) (c_hex_check c) (c_points_type c) v (c_metadata c) (c_memory c) (c_threads c) (c_thread_memory c) (c_timeout c) (c_bits c) (c_hex_digits c).
Definition set_metadata (v : bool) (c : config) : config :=
  mkConfig (c_field c) (c_method c) (c_count c) (c_random c) (c_prime c) (c_cm_order c) (c_koblitz c) (c_koblitz_value c) (c_smooth c) (c_smooth_value c) (c_cofactor c) (c_cofactor_value c) (c_invalid_primes c) (c_seed_algo c) (c_seed c) (c_family c) (c_unique c) (c_hex_check c) (c_points_type c) (c_points_amount c) v (c_memory c) (c_threads c) (c_thread_memory c) (c_timeout c) (c_bits c) (c_hex_digits c).
Definition set_memory (v : Z) (c : config) : config :=
  mkConfig (c_field c) (c_method c) (c_count c) (c_random c) (c_prime c) (c_cm_order c) (c_koblitz c) (c_koblitz_value c) (c_smooth c) (c_smooth_value c) (c_cofactor c) (c_cofactor_value c) (c_invalid_primes c) (c_seed_algo c) (c_seed c) (c_family c) (c_unique c) (c_hex_check c) (c_points_type c) (c_points_amount c) (c_metadata c) v (c_threads c) (c_thread_memory c) (c_timeout c) (c_bits c) (c_hex_digits c).
Definition set_threads (v : Z) (c : config) : config :=
  mkConfig (c_field c) (c_method c) (c_count c) (c_random c) (c_prime c) (c_cm_order c) (c_koblitz c) (c_koblitz_value c) (c_smooth c) (c_smooth_value c) (c_cofactor c) (c_cofactor_value c) (c_invalid_primes c) (c_seed_algo c) (c_seed c) (c_family c) (c_unique c) (c_hex_check c) (c_points_type c) (c_points_amount c) (c_metadata c) (c_memory c) v (c_thread_memory c) (c_timeout c) (c_bits c) (c_hex_digits c).
Definition set_thread_memory (v : Z) (c : config) : config :=
  mkConfig (c_field c) (c_method c) (c_count c) (c_random c) (c_prime c) (c_cm_order c) (c_koblitz c) (c_koblitz_value c) (c_smooth c) (c_smooth_value c) (c_cofactor c) (c_cofactor_value c) (c_invalid_primes c) (c_seed_algo c) (c_seed c) (c_family c) (c_unique c) (c_hex_check c) (c_points_type c) (c_points_amount c) (c_metadata c) (c_memory c) (c_threads c) v (c_timeout c) (c_bits c) (c_hex_digits c).
Definition set_timeout (v : Z) (c : config) : config :=
  mkConfig (c_field c) (c_method c) (c_count c) (c_random c) (c_prime c) (c_cm_order c) (c_koblitz c) (c_koblitz_value c) (c_smooth c) (c_smooth_value c) (c_cofactor c) (c_cofactor_value c) (c_invalid_primes c) (c_seed_algo c) (c_seed c) (c_family c) (c_unique c) (c_hex_check c) (c_points_type c) (c_points_amount c) (c_metadata c) (c_memory c) (c_threads c) (c_thread_memory c) v (c_bits c) (c_hex_digits c).
Definition set_bits (v : Z) (c : config) : config :=
  mkConfig (c_field c) (c_method c) (c_count c) (c_random c) (c_prime c) (c_cm_order c) (c_koblitz c) (c_koblitz_value c) (c_smooth c) (c_smooth_value c) (c_cofactor c) (c_cofactor_value c) (c_invalid_primes c) (c_seed_algo c) (c_seed c) (c_family c) (c_unique c) (c_hex_check c) (c_points_type c) (c_points_amount c) (c_metadata c) (c_memory c) (c_threads c) (c_thread_memory c) (c_timeout c) v (c_hex_digits c).
Definition set_hex_digits (v : Z) (c : config) : config :=
  mkConfig (c_field c) (c_method c) (c_count c) (c_random c) (c_prime c) (c_cm_order c) (c_koblitz c) (c_koblitz_value c) (c_smooth c) (c_smooth_value c) (c_cofactor c) (c_cofactor_value c) (c_invalid_primes c) (c_seed_algo c) (c_seed c) (c_family c) (c_unique c) (c_hex_check c) (c_points_type c) (c_points_amount c) (c_metadata c) (c_memory c) (c_threads c) (c_thread_memory c) (c_timeout c) (c_bits c) v.

(** src/misc/config.h:163-182 (config_names_t). The flags that are up are
    kept as a list. *)
Inductive name :=
| N_field | N_method | N_count | N_random | N_prime | N_cm_order | N_koblitz | N_koblitz_value
| N_smooth | N_cofactor | N_invalid_primes | N_seed_algo | N_seed | N_family | N_unique
| N_hex_check | N_points | N_metadata.
Definition name_eq_dec (a b : name) : {a = b} + {a <> b}.
Proof. decide equality. Defined.
Definition has (n : name) (l : list name) : bool := if in_dec name_eq_dec n l then true else false.

(** src/io/cli.c:116-133; [None] is argp_failure *)
Definition cli_parse_memory (s : str) : option Z :=
  match scan s with
  | None => None
  | Some _ =>
      let (read, suffix) := strtoul s in
      Some (match suffix with
            | [] => read
            | c :: _ =>
                if Ascii.eqb c "k" || Ascii.eqb c "K" then u64 (read * 1000)
                else if Ascii.eqb c "m" || Ascii.eqb c "M" then u64 (read * 1000000)
                else if Ascii.eqb c "g" || Ascii.eqb c "G" then u64 (read * 1000000000)
                else read
            end)
  end.

(** src/io/cli.c:135-151 *)
Definition cli_parse_time (s : str) : option Z :=
  match scan s with
  | None => None
  | Some _ =>
      let (read, suffix) := strtoul s in
      Some (match suffix with
            | [] => read
            | c :: _ =>
                if Ascii.eqb c "m" || Ascii.eqb c "M" then u64 (read * 60)
                else if Ascii.eqb c "h" || Ascii.eqb c "H" then u64 (read * 3600)
                else if Ascii.eqb c "d" || Ascii.eqb c "D" then u64 (read * 86400)
                else read
            end)
  end.

(** src/io/cli.c:103: the extended regular expression
    [((0[xX][0-9a-fA-F]+)|([0-9]+))(,((0[xX][0-9a-fA-F]+)|([0-9]+)))*].
    [re_num s] lists what can remain of [s] after one alternative matched a
    prefix, [re_list] after the whole expression did; regexec (line 271)
    looks for a match starting anywhere. *)
Fixpoint after_many (p : ascii -> bool) (s : str) : list str :=
  match s with
  | c :: t => if p c then t :: after_many p t else []
  | [] => []
  end.
Definition re_num (s : str) : list str :=
  (match s with
   | c0 :: c1 :: t => if Ascii.eqb c0 "0" && (Ascii.eqb c1 "x" || Ascii.eqb c1 "X") then after_many isxdigit t else []
   | _ => []
   end) ++ after_many isdigit s.
Fixpoint re_list (fuel : nat) (s : str) : list str :=
  match fuel with
  | O => []
  | S f => flat_map (fun r => r :: match r with
                                    | c :: t => if Ascii.eqb c "," then re_list f t else []
                                    | [] => [] end) (re_num s)
  end.
Fixpoint regexec (s : str) : bool :=
  negb (match re_list (S (length s)) s with [] => true | _ => false end) ||
  match s with [] => false | _ :: t => regexec t end.

(** strtok(arg, ","): the maximal non-empty runs without a comma *)
Fixpoint tokens_aux (cur : str) (s : str) : list str :=
  match s with
  | [] => match cur with [] => [] | _ => [rev cur] end
  | c :: t => if Ascii.eqb c "," then (match cur with [] => tokens_aux [] t | _ => rev cur :: tokens_aux [] t end)
              else tokens_aux (c :: cur) t
  end.
Definition tokens (s : str) : list str := tokens_aux [] s.

(** src/io/cli.c:16-95: the options; an optional argument is an [option]. *)
Inductive copt :=
| OFp | OF2m
| OInvalid (arg : option str) | OOrder (arg : str) | OAnomalous | OSupersingular | OFamily (arg : str)
| OAnsi (arg : option str) | OBrainpool (arg : option str) | ONums | OBrainpoolRfc (arg : option str) | OTwist
| OCount (arg : str) | ORandom (arg : option str) | OPrime | OSmooth (arg : str) | OCofactor (arg : str)
| OKoblitz (arg : option str) | OUnique | OHexcheck (arg : str) | OMetadata | OPoints (arg : str)
| OMemory (arg : str) | OTstack (arg : str) | OTimeout (arg : str) | OThreads (arg : str)
| OOther.

Definition state := (config * list name)%type.
Definition SET (n : name) (s : state) : state := (fst s, n :: snd s).
Definition upd_cfg (f : config -> config) (s : state) : state := (f (fst s), snd s).

(** src/io/cli.c:370-388: one token of --random *)
Definition random_token (r : option Z) (t : str) : option Z :=
  match r with
  | None => None
  | Some r =>
      if str_eqb t (lit "seed") then Some (Z.lor r RANDOM_SEED)
      else if str_eqb t (lit "field") then Some (Z.lor r RANDOM_FIELD)
      else if str_eqb t (lit "a") then Some (Z.lor r RANDOM_A)
      else if str_eqb t (lit "b") then Some (Z.lor r RANDOM_B)
      else if str_eqb t (lit "equation") then Some (Z.lor r RANDOM_EQUATION)
      else None
  end.

(** src/io/cli.c:290-306 *)
Definition family_of (arg : str) : option Z :=
  if strcasecmp0 arg (lit "BN") then Some FAMILY_BN
  else if strcasecmp0 arg (lit "BLS12") then Some FAMILY_BLS12
  else if strcasecmp0 arg (lit "BLS24") then Some FAMILY_BLS24
  else if strcasecmp0 arg (lit "KSS16") then Some FAMILY_KSS16
  else if strcasecmp0 arg (lit "KSS18") then Some FAMILY_KSS18
  else if strcasecmp0 arg (lit "KSS36") then Some FAMILY_KSS36
  else if strcasecmp0 arg (lit "KSS40") then Some FAMILY_KSS40
  else None.

(** src/io/cli.c:452-464 *)
Definition points_of (num_end : str) : option Z :=
  if prefix_b (lit "random") num_end then Some POINTS_RANDOM
  else if prefix_b (lit "prime") num_end then Some POINTS_PRIME
  else if prefix_b (lit "all") num_end then Some POINTS_ALL
  else if prefix_b (lit "nonprime") num_end then Some POINTS_NONPRIME
  else if prefix_b (lit "none") num_end then Some POINTS_NONE
  else None.

(** src/io/cli.c:425-440: the text kept, [None] if it is not hexadecimal *)
Definition hexcheck_of (arg : str) : option str :=
  let start := if (2 <? List.length arg)%nat then
                 match arg with
                 | c0 :: c1 :: t => if Ascii.eqb c0 "0" && (Ascii.eqb c1 "x" || Ascii.eqb c1 "X") then t else arg
                 | _ => arg
                 end else arg in
  if forallb isxdigit start then Some start else None.

Section Parse.
  Context (nprocs : Z).   (** sysconf(_SC_NPROCESSORS_ONLN) *)

  Definition add_method (m : Z) (s : state) : state :=
    SET N_method (upd_cfg (fun c => set_method (Z.lor (c_method c) m) c) s).

  (** a seed option: src/io/cli.c:308-322, 323-337, 344-358 *)
  Definition seed_option (algo : Z) (valid : str -> bool) (arg : option str) (s : state) : option state :=
    let s := add_method METHOD_SEED s in
    let s := SET N_seed_algo (upd_cfg (set_seed_algo algo) s) in
    match arg with
    | None => Some s
    | Some a => if valid a then Some (SET N_seed (upd_cfg (set_seed (Some a)) s)) else None
    end.

  (** src/io/cli.c:242-511 *)
  Definition cli_parse (o : copt) (s : state) : option state :=
    match o with
    | OFp => Some (SET N_field (upd_cfg (fun c => set_field (Z.lor (c_field c) FIELD_PRIME) c) s))
    | OF2m => Some (SET N_field (upd_cfg (fun c => set_field (Z.lor (c_field c) FIELD_BINARY) c) s))
    | OInvalid arg =>
        let s := add_method METHOD_INVALID s in
        match arg with
        | None => Some s
        | Some a =>
            if forallb (fun c => isdigit c || Ascii.eqb c "-") a
            then Some (SET N_invalid_primes (upd_cfg (set_invalid_primes (Some a)) s)) else None
        end
    | OOrder arg =>
        let s := add_method METHOD_CM s in
        if regexec arg then Some (SET N_cm_order (upd_cfg (set_cm_order (Some arg)) s)) else None
    | OAnomalous => Some (add_method METHOD_ANOMALOUS s)
    | OSupersingular => Some (add_method METHOD_SUPERSINGULAR s)
    | OFamily arg =>
        let s := add_method METHOD_FAMILY s in
        match family_of arg with Some f => Some (upd_cfg (set_family f) s) | None => None end
    | OAnsi arg => seed_option SEED_ANSI ansi_seed_valid arg s
    | OBrainpool arg => seed_option SEED_BRAINPOOL brainpool_seed_valid arg s
    | ONums => seed_option SEED_NUMS (fun _ => true) None s
    | OBrainpoolRfc arg => seed_option SEED_BRAINPOOL_RFC brainpool_seed_valid arg s
    | OTwist => Some (add_method METHOD_TWIST s)
    | OCount arg => Some (SET N_count (upd_cfg (set_count (i64 (fst (strtoul arg)))) s))
    | ORandom arg =>
        match (match arg with
               | Some a => fold_left random_token (tokens a) (Some (c_random (fst s)))
               | None => Some RANDOM_ALL end) with
        | Some r => Some (SET N_random (upd_cfg (set_random r) s))
        | None => None
        end
    | OPrime => Some (SET N_prime (upd_cfg (set_prime true) s))
    | OSmooth arg => Some (upd_cfg (set_smooth_value (fst (strtol arg))) (SET N_smooth (upd_cfg (set_smooth true) s)))
    | OCofactor arg => Some (upd_cfg (set_cofactor_value (fst (strtol arg))) (SET N_cofactor (upd_cfg (set_cofactor true) s)))
    | OKoblitz arg =>
        let s := SET N_koblitz (upd_cfg (set_koblitz true) s) in
        match arg with
        | None => Some s
        | Some a =>
            let v := fst (strtol a) in
            if (v =? 0) || (v =? 1) then Some (SET N_koblitz_value (upd_cfg (set_koblitz_value v) s)) else None
        end
    | OUnique => Some (SET N_unique (upd_cfg (set_unique true) s))
    | OHexcheck arg =>
        match hexcheck_of arg with
        | Some t => Some (SET N_hex_check (upd_cfg (set_hex_check (Some t)) s))
        | None => None
        end
    | OMetadata => Some (SET N_metadata (upd_cfg (set_metadata true) s))
    | OPoints arg =>
        let (amount, num_end) := strtol arg in
        match points_of num_end with
        | Some ty => Some (SET N_points (upd_cfg (fun c => set_points_type ty (set_points_amount (u64 amount) c)) s))
        | None => None
        end
    | OMemory arg => match cli_parse_memory arg with Some v => Some (upd_cfg (set_memory v) s) | None => None end
    | OTstack arg => match cli_parse_memory arg with Some v => Some (upd_cfg (set_thread_memory v) s) | None => None end
    | OTimeout arg => match cli_parse_time arg with Some v => Some (upd_cfg (set_timeout v) s) | None => None end
    | OThreads arg =>
        if str_eqb arg (lit "auto") || str_eqb arg (lit "AUTO") then
          Some (if 0 <? nprocs then upd_cfg (set_threads nprocs) s else s)
        else
          let v := fst (strtoul arg) in
          if v =? 0 then None else Some (upd_cfg (set_threads v) s)
    | OOther => Some s
    end.

  (** src/io/cli.c:514-526 *)
  Definition cli_arg (arg : str) (s : state) : option state :=
    let (b, rest) := strtoul arg in
    match rest with
    | _ :: _ => None
    | [] => Some (upd_cfg (fun c => set_hex_digits (u64 (2 * (b / 8 + (if b mod 8 =? 0 then 0 else 1)))) (set_bits b c)) s)
    end.

  (** src/io/cli.c:153-225: the checks of cli_end; C bools count as 0 or 1 *)
  Definition cli_end_ok (c : config) : bool :=
    let m := c_method c in
    let binary := c_field c =? FIELD_BINARY in
    negb ((c_field c =? 0) || (c_field c =? Z.lor FIELD_PRIME FIELD_BINARY)) &&
    negb (1 <? Z.b2z (c_prime c) + Z.b2z (c_smooth c) + Z.b2z (c_cofactor c)) &&
    ((m =? METHOD_DEFAULT) || (m =? METHOD_CM) || (m =? METHOD_ANOMALOUS) || (m =? METHOD_SEED) ||
     (m =? METHOD_INVALID) || (m =? METHOD_TWIST) || (m =? METHOD_SUPERSINGULAR) || (m =? METHOD_FAMILY)) &&
    negb ((m =? METHOD_SEED) && ((c_seed_algo c =? SEED_BRAINPOOL) || (c_seed_algo c =? SEED_BRAINPOOL_RFC)) && binary) &&
    negb ((m =? METHOD_SEED) && (c_seed_algo c =? SEED_NUMS) && binary) &&
    negb ((m =? METHOD_CM) && binary) &&
    negb ((m =? METHOD_ANOMALOUS) && binary) &&
    negb ((m =? METHOD_FAMILY) && binary) &&
    negb ((m =? METHOD_SUPERSINGULAR) && binary) &&
    negb ((m =? METHOD_SEED) && (c_seed_algo c =? SEED_NUMS) && negb (c_random c =? 0)) &&
    negb ((m =? METHOD_ANOMALOUS) && (c_random c =? 0)).

  (** src/io/cli.c:226-239: the default values *)
  Definition cli_defaults (c : config) : config :=
    let c := if c_count c =? 0 then set_count 1 c else c in
    let c := if c_memory c =? 0 then set_memory 1000000000 c else c in
    let c := if c_threads c =? 0 then set_threads 1 c else c in
    if c_thread_memory c =? 0 then set_thread_memory (u64 (c_bits c * 2000000)) c else c.

  Fixpoint options (os : list copt) (s : state) : option state :=
    match os with
    | [] => Some s
    | o :: os => match cli_parse o s with Some s => options os s | None => None end
    end.

  (** the whole command line: exactly one argument (lines 515-517, 530-532),
      checks at the end *)
  Definition cli (os : list copt) (args : list str) : option state :=
    match args with
    | [a] =>
        match options os (cfg0, []) with
        | Some s =>
            match cli_arg a s with
            | Some s => if cli_end_ok (fst s) then Some (upd_cfg cli_defaults s) else None
            | None => None
            end
        | None => None
        end
    | _ => None
    end.
End Parse.
