{
 "claims": [
  {
   "property": "C01",
   "status": "proved",
   "theorems": [
    "C01_hex_roundtrip",
    "C01_to_hex"
   ],
   "note": "hex round trip for every text; bits_to_hex for every well-formed string of either sign"
  },
  {
   "property": "C02",
   "status": "proved",
   "theorems": [
    "C02_integer_roundtrip",
    "C02_fixed_length_roundtrip",
    "C02_fixed_length_cut"
   ],
   "note": "all integers, all lengths; when the number does not fit the leading bits are kept"
  },
  {
   "property": "C03",
   "status": "partial",
   "theorems": [
    "C03_binary_text",
    "C03_raw_bytes",
    "C03_raw_bits",
    "C03_bitvec",
    "C03_copy",
    "C03_cpy_nonempty",
    "C03_cpy_empty_refuted",
    "C03_equality",
    "C03_rawlen"
   ],
   "note": "all conversions, bits_copy and bits_eq proved; bits_cpy proved for a non-empty source and refuted for an empty one (the destination is left unchanged)"
  },
  {
   "property": "C04",
   "status": "proved",
   "theorems": [
    "C04_concat",
    "C04_concat_in_place"
   ],
   "note": "total length below 2^64 bits; arguments are distinct objects from the first"
  },
  {
   "property": "C05",
   "status": "partial",
   "theorems": [
    "C05_or",
    "C05_and",
    "C05_not",
    "C05_not_in_place",
    "C05_reverse",
    "C05_reverse_empty_refuted"
   ],
   "note": "and/or/not proved for all strings; reversal for non-empty strings; reversing an empty string is a zero-length VLA (undefined), refuted"
  },
  {
   "property": "C06",
   "status": "partial",
   "theorems": [
    "C06_shift",
    "C06_lengthen",
    "C06_shorten",
    "C06_integer_shift",
    "C06_dirty_lengthen_refuted"
   ],
   "note": "proved for strings with clean padding (all constructors except bits_from_raw give it, all operations keep it); lengthening on the right is refuted for bits_from_raw strings with leftover bits"
  },
  {
   "property": "C07",
   "status": "partial",
   "theorems": [
    "C07_rotation_source",
    "C07_rotation_partial",
    "C07_rotation_refuted",
    "C07_rotation_wrong_source"
   ],
   "note": "true for amounts >= 0 and for lengths dividing 2^64; refuted for every other length with a negative amount (long % size_t)"
  },
  {
   "property": "C08",
   "status": "partial",
   "theorems": [
    "C08_random_onto_partial",
    "C08_random_multiple_of_8_refuted"
   ],
   "note": "proved for lengths not divisible by 8; refuted for multiples of 8, whose last byte is always 0"
  },
  {
   "property": "C09",
   "status": "proved",
   "theorems": [
    "C09_memory_safety",
    "C09_empty_shift_refuted"
   ],
   "note": "every sequence of calls; preconditions listed in Bits_Client.legal (shift/rotate/reverse need a non-empty string: zero-length VLA)"
  },
  {
   "property": "C10",
   "status": "proved",
   "theorems": [
    "C10_is_sha1",
    "C10_final_reinitialises"
   ],
   "note": "every byte string; SHA1_Update's int length (< 2^31 bytes per call) is the only restriction"
  },
  {
   "property": "C11",
   "status": "proved",
   "theorems": [
    "C11_split_independent"
   ],
   "note": "every cutting of every message"
  },
  {
   "property": "C12",
   "status": "partial",
   "theorems": [
    "C12_seed_from_text",
    "C12_seed_from_random",
    "C12_r_partial",
    "C12_r_any_length",
    "C12_odd_digits_refuted",
    "C12_seed_input"
   ],
   "note": "proved for seeds of a whole number of bytes and every field size; refuted for seeds with an odd number of hex digits, where the hashed string has 4 extra zero bits; what is computed instead is proved for all seeds"
  },
  {
   "property": "C13",
   "status": "partial",
   "theorems": [
    "C13_verifiable",
    "C13_progress",
    "C13_null_inverse",
    "C13_zero_r_refuted"
   ],
   "note": "r b^2 = a^3 proved for every seed and field from the contracts of the PARI functions; when r = 0 mod p the step is undefined (NULL inverse), refuted by a concrete seed"
  },
  {
   "property": "C14",
   "status": "partial",
   "theorems": [
    "C14_binary",
    "C14_binary_standard_partial",
    "C14_odd_digits_refuted"
   ],
   "note": "proved for seeds of a whole number of bytes; refuted for odd digit counts; b = 0 goes back to the seed step"
  },
  {
   "property": "C15",
   "status": "partial",
   "theorems": [
    "C15_seed_from_text",
    "C15_seed_random",
    "C15_seed_rejected",
    "C15_update",
    "C15_expand",
    "C15_lengths",
    "C15_zero_length_array_refuted"
   ],
   "note": "proved for every seed, w and v; for L <= 160 the C code declares a zero-length array, which GNU C accepts (vla0 = true) and ISO C does not (refuted)"
  },
  {
   "property": "C16",
   "status": "proved",
   "theorems": [
    "C16_field",
    "C16_field_exact",
    "C16_deterministic",
    "C16_progress"
   ],
   "note": "partial correctness, uniqueness and progress from the contracts of nextprime and isprime"
  },
  {
   "property": "C17",
   "status": "proved",
   "theorems": [
    "C17_original",
    "C17_original_progress",
    "C17_rfc"
   ],
   "note": "both procedures; contracts of Fp_invsafe, Fp_sqrtn, Fp_issquare are hypotheses, an instance is given"
  },
  {
   "property": "C18",
   "status": "proved",
   "theorems": [
    "C18_order",
    "C18_embedding"
   ],
   "note": "decision rules for all integers; multiplicative order contract is a hypothesis"
  },
  {
   "property": "C19",
   "status": "proved",
   "theorems": [
    "C19_largest",
    "C19_any_result",
    "C19_one_bit_diverges"
   ],
   "note": "total correctness for every s >= 2; divergence for s = 1 is proved as well"
  },
  {
   "property": "C20",
   "status": "partial",
   "theorems": [
    "C20_restart_partial",
    "C20_same_address_refuted",
    "C20_same_address",
    "C20_skipped_two",
    "C20_all_values",
    "C20_increasing",
    "C20_order"
   ],
   "note": "proved when a curve is not stored at the address of the curve before it; refuted when it is (b continues); twist order rule proved"
  },
  {
   "property": "C21",
   "status": "proved",
   "theorems": [
    "C21_complete",
    "C21_established"
   ],
   "note": "for stage functions that go forward by at most one stage and undo hooks that go back one (all in /repo)"
  },
  {
   "property": "C22",
   "status": "proved",
   "theorems": [
    "C22_range",
    "C22_back",
    "C22_abort",
    "C22_stack"
   ],
   "note": "same assumptions; also the PARI stack pointer discipline"
  },
  {
   "property": "C23",
   "status": "proved",
   "theorems": [
    "C23_limit",
    "C23_failure",
    "C23_unlimited",
    "C23_terminates"
   ],
   "note": "limit, reasons for failure, and termination with a bound"
  },
  {
   "property": "C24",
   "status": "proved",
   "theorems": [
    "C24_timeout",
    "C24_not_output"
   ],
   "note": "a timeout is a possible outcome of every generator call; the signal machinery itself is C25"
  },
  {
   "property": "C25",
   "status": "partial",
   "theorems": [
    "C25_jump_partial",
    "C25_window_refuted",
    "C25_stale_refuted",
    "C25_late_no_effect",
    "C25_own_timer",
    "C25_left_pending_refuted",
    "C25_timers"
   ],
   "note": "proved that a jump happens only while the flag is up and never after stop, and that each started timer is deleted exactly once; refuted: a signal between raising the flag and sigsetjmp jumps to an unset or stale buffer, and a signal left pending by timer_delete can interrupt a later computation"
  },
  {
   "property": "C26",
   "status": "partial",
   "theorems": [
    "C26_plan",
    "C26_invalid",
    "C26_undo_partial",
    "C26_undo_refuted"
   ],
   "note": "every accepted command line, all methods: generators, arguments and checks are complete and match the options; undo hooks up to POINTS; the METADATA stage has no undo hook (refuted, harmless)"
  },
  {
   "property": "C27",
   "status": "partial",
   "theorems": [
    "C27_reported",
    "C27_unreported_partial",
    "C27_override_refuted",
    "C27_value_refuted"
   ],
   "note": "a reported option has no effect (proved); a set and unreported option matters or is on an explicit list of overridden options (proved); refuted for that list: Brainpool/NUMS ignore prime, cofactor, smooth and unique, a prime CM order ignores points, anomalous ignores what is random"
  },
  {
   "property": "C28",
   "status": "partial",
   "theorems": [
    "C28_success_partial",
    "C28_first_fails_partial",
    "C28_failure_text",
    "C28_refuted",
    "C28_failure_not_json"
   ],
   "note": "proved when all curves are generated and when the first fails; when a later one fails the separator before it has been written already (refuted); the text is then no JSON text at all (C28_failure_not_json)"
  },
  {
   "property": "C29",
   "status": "partial",
   "theorems": [
    "C29_refused_partial",
    "C29_prime",
    "C29_stale",
    "C29_refuted"
   ],
   "note": "proved for prime fields by point counting methods that set the order afresh, and for any field when no earlier attempt got past the order stage; refuted: the order of an earlier attempt is used for the twist"
  },
  {
   "property": "C30",
   "status": "partial",
   "theorems": [
    "C30_all",
    "C30_prime",
    "C30_nonprime",
    "C30_many_refuted"
   ],
   "note": "proved for every n > 1 with fewer than 63 prime factors counted with multiplicity (the prime list: every n > 1); from 63 on the listing stops with an error (refuted)"
  },
  {
   "property": "C31",
   "status": "proved",
   "theorems": [
    "C31_from_orders",
    "C31_prime",
    "C31_all",
    "C31_nonprime"
   ],
   "note": "any group, any list of divisors; the three generation functions for generators of order > 1 (with C30's bound on the number of factors)"
  },
  {
   "property": "C32",
   "status": "partial",
   "theorems": [
    "C32_first_partial",
    "C32_single_partial",
    "C32_refuted"
   ],
   "note": "refuted: only the first listed prime dividing a generator's order gets a point; proved that the first one does, and the claim where at most one listed prime divides each generator's order"
  },
  {
   "property": "C33",
   "status": "partial",
   "theorems": [
    "C33_points",
    "C33_point_partial",
    "C33_infinity_refuted",
    "C33_trivial_group_refuted"
   ],
   "note": "several points: proved; one point: may be the point at infinity (refuted); without generators undefined behaviour (refuted)"
  },
  {
   "property": "C34",
   "status": "partial",
   "theorems": [
    "C34_labels",
    "C34_unique",
    "C34_cofactor_partial",
    "C34_order_refuted",
    "C34_single_refuted"
   ],
   "note": "proved for cyclic groups and for cofactors the prime does not divide, for the first generator; refuted: other generators are listed too, and on Z/4 x Z/2 with cofactor 4 the generator is infinity"
  },
  {
   "property": "C35",
   "status": "proved",
   "theorems": [
    "C35_prime",
    "C35_prime_sound",
    "C35_cofactor",
    "C35_smooth"
   ],
   "note": "contracts of isprime, factor and ellsea as hypotheses"
  },
  {
   "property": "C36",
   "status": "partial",
   "theorems": [
    "C36_embedding_partial",
    "C36_noncoprime_refuted",
    "C36_anomalous",
    "C36_check_embedding"
   ],
   "note": "anomalous check proved; embedding degree proved when order and field size are coprime or equal; otherwise PARI stops the program (refuted by y^2 = x^3 + 3x over 5 elements, 10 points)"
  },
  {
   "property": "C37",
   "status": "partial",
   "theorems": [
    "C37_range_partial",
    "C37_single_partial",
    "C37_default_partial",
    "C37_default_refuted",
    "C37_zero_refuted",
    "C37_open_refuted"
   ],
   "note": "ranges a-b and a- (2 <= a) and single numbers proved; without a range one prime too many (exact list proved, claim refuted); 0 gives no primes at all and 1- never stops (refuted)"
  },
  {
   "property": "C38",
   "status": "partial",
   "theorems": [
    "C38_result",
    "C38_terminates",
    "C38_output",
    "C38_no_primes_refuted"
   ],
   "note": "every sequence of random curves: results, number, order property, output; with no primes the output is not closed (refuted)"
  },
  {
   "property": "C39",
   "status": "partial",
   "theorems": [
    "C39_exclusion",
    "C39_safe",
    "C39_claims",
    "C39_counter",
    "C39_curves",
    "C39_printed",
    "C39_done",
    "C39_wakeup",
    "C39_no_deadlock",
    "C39_can_finish",
    "C39_no_primes_refuted"
   ],
   "note": "proved for every number of threads, schedule, curve sequence and spurious wake-up, for a non-empty list of distinct primes: data-race freedom, exclusive claims, counter, curves, each printed exactly once, no lost wake-up, no deadlock, and the end stays reachable; with an empty list the main thread waits for ever (refuted)"
  },
  {
   "property": "C40",
   "status": "partial",
   "theorems": [
    "C40_batch_partial",
    "C40_refuted"
   ],
   "note": "exact shape of the output proved; well-formed exactly when the last batch is a single curve; refuted by a concrete schedule otherwise"
  },
  {
   "property": "C41",
   "status": "partial",
   "theorems": [
    "C41_found_partial",
    "C41_none",
    "C41_none_above",
    "C41_refuted",
    "C41_coefficients"
   ],
   "note": "proved for every degree from 2 to 10000 except 1060, and for all others; degree 1060 is announced but missing and dereferences NULL (refuted)"
  },
  {
   "property": "C42",
   "status": "partial",
   "theorems": [
    "C42_quotient_field",
    "C42_no_small_factor_partial",
    "C42_irreducible_partial"
   ],
   "note": "irreducible (and the quotient a field) for every degree 2..200 and 233, 239, 277, 283, 311, 331, 347, 349, 359, 409, 571, by a Rabin test proved sound for all degrees; for every tabulated degree 2..10000 only: no factor of degree at most 6. Missing: full irreducibility of the other degrees (too much computation for the kernel)"
  },
  {
   "property": "C43",
   "status": "proved",
   "theorems": [
    "C43_integer",
    "C43_element",
    "C43_params",
    "C43_params_prime"
   ],
   "note": "both directions, prime and binary fields; parameters of every trinomial and pentanomial"
  },
  {
   "property": "C44",
   "status": "partial",
   "theorems": [
    "C44_orders",
    "C44_lookup",
    "C44_exact_partial",
    "C44_refuted",
    "C44_points",
    "C44_table"
   ],
   "note": "all 20 orders are proved to count the points of the curve over the field of every irreducible polynomial of the degree, and over that of the polynomial the program takes, which is proved irreducible; exact lookup for arguments below 2^32, modulo 2^32 above (refuted)"
  },
  {
   "property": "C45",
   "status": "partial",
   "theorems": [
    "C45_binary_partial",
    "C45_refuted",
    "C45_twist_refuted",
    "C45_points_partial"
   ],
   "note": "proved for accepted configurations with a binary field without a twist, the points of the curve being counted; prime fields get the order of a binary curve and the twist method reads a field element as an integer (refuted)"
  },
  {
   "property": "C46",
   "status": "partial",
   "theorems": [
    "C46_parameters",
    "C46_integral",
    "C46_embedding",
    "C46_trace_partial",
    "C46_trace_refuted",
    "C46_accepted"
   ],
   "note": "for every family and every z: p, r and t are integers where defined, r divides p+1-t and Phi_k(p), 4p-t^2 is |D| times a square, accepted parameters have the order checked; the trace stored for BN (6n+1 instead of 6n^2+1) is wrong, refuted; no code reads it"
  },
  {
   "property": "C47",
   "status": "partial",
   "theorems": [
    "C47_coefficient_partial",
    "C47_prime_partial",
    "C47_text_refuted",
    "C47_negative_refuted",
    "C47_binary_refuted",
    "C47_binary_partial",
    "C47_family_refuted"
   ],
   "note": "coefficient and prime field stages proved for the end of the input, empty items and numbers; the binary field stage exact in the numbers read: what is accepted, with which coefficients, and how much input is consumed; refuted for other text (becomes 0), negative coefficients over binary fields, the binary field stage at the end of the input and the family parameter"
  },
  {
   "property": "C48",
   "status": "partial",
   "theorems": [
    "C48_form",
    "C48_near",
    "C48_size_partial",
    "C48_size_range_partial",
    "C48_refuted",
    "C48_invariant",
    "C48_first",
    "C48_choice"
   ],
   "note": "form, invariant, non-singularity and absence of errors for all sizes and choices; exact size for 13 to 1626 bits and for all larger sizes outside five residue classes modulo 1620; refuted for 7, 8, 10, 11, 12 and fewer than 6 bits"
  },
  {
   "property": "C49",
   "status": "proved",
   "theorems": [
    "C49_order",
    "C49_elementary",
    "C49_two"
   ],
   "note": "number of points counted for every prime; for p = 1 mod 12 given that roots of the class polynomial are invariants of supersingular curves (visible hypothesis on PARI's polclass/FpX_roots); termination of the search for q is not claimed"
  },
  {
   "property": "C50",
   "status": "partial",
   "theorems": [
    "C50_subsets",
    "C50_sound",
    "C50_first_partial",
    "C50_round_partial",
    "C50_refuted",
    "C50_empty_refuted",
    "C50_minimal"
   ],
   "note": "soundness of both searches (prime and composite orders) for every history; completeness within the current list of primes; refuted in general: for order 7 the subset {-3} is passed over when the list grows and the search never ends, and orders with no admissible prime up to log N (173) end with an error"
  },
  {
   "property": "C51",
   "status": "partial",
   "theorems": [
    "C51_exact",
    "C51_room",
    "C51_refuted",
    "C51_parameters",
    "C51_standard_partial",
    "C51_K_refuted"
   ],
   "note": "the listing is exact whenever it finishes, for every D > 0; the room reserved is 2*floor(sqrt(D/3)) forms, refuted for D = 11 (and others); the exact condition for no overflow is proved; the integer parameters I, J, L, M, N agree with the standard for D not divisible by 4, K does except for D = 5 modulo 8 (refuted)"
  },
  {
   "property": "C52",
   "status": "partial",
   "theorems": [
    "C52_prime",
    "C52_composite_partial",
    "C52_equal",
    "C52_j0_refuted",
    "C52_j0_composite_refuted",
    "C52_composite_refuted",
    "C52_foreign_refuted",
    "C52_small_refuted",
    "C52_equal_refuted"
   ],
   "note": "prime orders over fields of more than 13 elements (given that the curve or its twist has the order, which fails for invariant 0); composite orders under coprimality and if foreign points do not interfere; refuted for invariant 0 (order 43, D = -3), common factors (order 9 over F_11), foreign points (order 6 over F_7), small fields, and order p + 1 (never ends)"
  },
  {
   "property": "C53",
   "status": "partial",
   "theorems": [
    "C53_outcome",
    "C53_list",
    "C53_refuted",
    "C53_size_refuted"
   ],
   "note": "product and refusal exact for every list, outcome exact for every text; refuted: the expression is not anchored, and orders of bits + 1 bits are accepted"
  },
  {
   "property": "C54",
   "status": "partial",
   "theorems": [
    "C54_bound_partial",
    "C54_prime",
    "C54_refuted"
   ],
   "note": "accepted numbers are at most 2^bits and accepted primes fit; refuted for 2^bits and negative numbers"
  },
  {
   "property": "C55",
   "status": "partial",
   "theorems": [
    "C55_delimited_partial",
    "C55_refuted"
   ],
   "note": "exact when the item is followed by a delimiter; at the end of the input the last character is lost (refuted)"
  },
  {
   "property": "C56",
   "status": "partial",
   "theorems": [
    "C56_exact",
    "C56_config",
    "C56_seed_partial",
    "C56_seed_refuted",
    "C56_random",
    "C56_values"
   ],
   "note": "exact characterisation of accepted option sequences (proved); the clause about the seed holds when seeds are given to the algorithm used and is refuted for a seed left by an earlier algorithm option"
  },
  {
   "property": "C57",
   "status": "partial",
   "theorems": [
    "C57_join_partial",
    "C57_join_empty_refuted",
    "C57_join_empty_long_refuted",
    "C57_joinv_partial",
    "C57_joinv_eleven_refuted",
    "C57_cnt",
    "C57_is_hex",
    "C57_concat"
   ],
   "note": "str_join proved for one or more strings and refuted for none; str_joinv proved up to 10 strings and refuted from 11; counting and hex recognition proved for every string"
  },
  {
   "property": "C58",
   "status": "partial",
   "theorems": [
    "C58_found",
    "C58_exact_partial",
    "C58_prefix_refuted",
    "C58_boundary_refuted",
    "C58_binary_refuted"
   ],
   "note": "no matching curve is lost, for every pattern; exact for patterns not ending in 0; refuted for the pattern 0 (the 0x prefix), for patterns spanning two points (no separator) and for the exponents of binary fields, which are not searched"
  },
  {
   "property": "C59",
   "status": "partial",
   "theorems": [
    "C59_free",
    "C59_free_null",
    "C59_copy_partial",
    "C59_clone_partial",
    "C59_copy_free",
    "C59_seed_unroll",
    "C59_gens_unroll",
    "C59_curve_unroll",
    "C59_points_unroll",
    "C59_copy_refuted",
    "C59_copy_null_refuted",
    "C59_twist_refuted"
   ],
   "note": "freeing and unrolling exact for every curve in every stage; copies are new, independent and equal in seed bits, parameters, generators and points; refuted: metadata and the type of the seed are not copied, an array with NULL in it cannot be copied, twist_rand loses what PARI cached"
  },
  {
   "property": "C60",
   "status": "partial",
   "theorems": [
    "C60_prime_field",
    "C60_binary_field",
    "C60_noncoprime_refuted"
   ],
   "note": "proved when order and field size are coprime or equal; otherwise the program stops (refuted by a curve of order 10 over 5 elements); j is passed on from PARI"
  },
  {
   "property": "C61",
   "status": "partial",
   "theorems": [
    "C61_memory_partial",
    "C61_time_partial",
    "C61_options",
    "C61_rejected",
    "C61_garbage_refuted",
    "C61_overflow_refuted",
    "C61_exact",
    "C61_one"
   ],
   "note": "digits with a documented suffix and a product below 2^64 (proved); rejected exactly when there is no leading number (proved); the value for every other text, with signs, too many digits and anything behind the number (C61_exact, C61_one); refuted: other suffixes and trailing text are accepted, large products wrap, negative numbers are accepted"
  },
  {
   "property": "C62",
   "status": "partial",
   "theorems": [
    "C62_int_partial",
    "C62_int_refuted",
    "C62_prime",
    "C62_prime_refuted",
    "C62_range",
    "C62_range_any",
    "C62_field_element"
   ],
   "note": "ranges proved; an integer of b bits can be 2^b (refuted) and has b bits otherwise; primes of two or more bits proved, one bit gives 2 (refuted)"
  },
  {
   "property": "C63",
   "status": "proved",
   "theorems": [
    "C63_generator"
   ],
   "note": "elliptic curve functions are parameters"
  },
  {
   "property": "C64",
   "status": "partial",
   "theorems": [
    "C64_generator",
    "C64_single_root_refuted"
   ],
   "note": "proved when every x has zero or two points; a single root (point of order 2) is read past the end, refuted"
  },
  {
   "property": "C65",
   "status": "partial",
   "theorems": [
    "C65_partial",
    "C65_refuted"
   ],
   "note": "coefficient and prime field stages end the run; the binary field stage repeats for ever (refuted, through the engine model)"
  },
  {
   "property": "C66",
   "status": "partial",
   "theorems": [
    "C66_subgroup",
    "C66_twist_refuted"
   ],
   "note": "exact for the curves of the roots; refuted: twists are not tried"
  },
  {
   "property": "C67",
   "status": "proved",
   "theorems": [
    "C67_serialise",
    "C67_built",
    "C67_string_checked",
    "C67_text_utf8"
   ],
   "note": "grammar of RFC 8259 for strings, arrays and objects (all that is built); unambiguous; buffer exact; names distinct, which the interface guarantees; texts shorter than 2^31 - 1 bytes"
  },
  {
   "property": "C68",
   "status": "partial",
   "theorems": [
    "C68_readback",
    "C68_infinity_refuted",
    "C68_null_refuted",
    "C68_run"
   ],
   "note": "proved for curves all of whose points are finite, and for whole runs that succeed, given that PARI prints numbers; refuted: a point at infinity or a NULL point is undefined behaviour; a run that fails later prints no JSON (C28)"
  },
  {
   "property": "C69",
   "status": "partial",
   "theorems": [
    "C69_search_partial",
    "C69_same_address_refuted",
    "C69_same_address",
    "C69_seed_partial",
    "C69_seed_any",
    "C69_seed_refuted"
   ],
   "note": "order of the attempts exact when a curve is not at the address of the one before; sign and size of a random parameter exact, either sign reached for every magnitude; refuted: a curve at the same address as the one before goes on with its b, and a random parameter can be 2^bits, of bits + 1 bits"
  },
  {
   "property": "C70",
   "status": "partial",
   "theorems": [
    "C70_stack_partial",
    "C70_twist_partial",
    "C70_brainpool_partial",
    "C70_twist_refuted",
    "C70_brainpool_refuted",
    "C70_failure_refuted",
    "C70_timeout_refuted",
    "C70_sea_refuted"
   ],
   "note": "proved for every accepted command line except the methods twist and Brainpool, with timeouts anywhere except while a static b is replaced (NUMS, families by iteration); for twist only the order, for Brainpool only the candidate p can be stale. Refuted: twist reads the order of the candidate before; brainpool_gen_field adds one to a p it has released; a timeout between gunclone and gclone in nums_gen_b; curve_free after a failed generation; order_gen_sea caches a released number. The method invalid is C74"
  },
  {
   "property": "C71",
   "status": "partial",
   "theorems": [
    "C71_streams",
    "C71_frame",
    "C71_no_input",
    "C71_contents_partial",
    "C71_json_partial",
    "C71_append_not_json",
    "C71_cli_refuted",
    "C71_unopened_refuted",
    "C71_full_refuted",
    "C71_same_file_refuted",
    "C71_log_refuted",
    "C71_lost_refuted"
   ],
   "note": "streams, frame and missing input proved without conditions on files and writes; contents and JSON for writes that succeed and three different files, once cli_init has succeeded. Refuted: cli_init failing; an output file that cannot be opened; a full disk; output = input; output = log; old output lost when the input is missing; appended output is never JSON"
  },
  {
   "property": "C72",
   "status": "partial",
   "theorems": [
    "C72_device",
    "C72_injective",
    "C72_clock",
    "C72_no_clock",
    "C72_ends_refuted",
    "C72_accepted_refuted"
   ],
   "note": "device, injectivity and fall-back proved. Refuted: a device that opens and delivers nothing makes the loop endless; a reading of 0 ns gives PARI the seed 0, which it refuses"
  },
  {
   "property": "C73",
   "status": "partial",
   "theorems": [
    "C73_exhaustive",
    "C73_cm",
    "C73_cm_list_partial",
    "C73_list_refuted",
    "C73_invalid",
    "C73_no_primes_refuted"
   ],
   "note": "exhaustive method, CM with one number, anomalous, supersingular and invalid proved. A list of factors for --order leaves exactly one block, the text of the product (refuted with a witness); the invalid method without primes frees nothing (refuted). The engine and the searches are parameters that clean up after themselves"
  },
  {
   "property": "C74",
   "status": "partial",
   "theorems": [
    "C74_single_partial",
    "C74_main_partial",
    "C74_thread_partial",
    "C74_thread_refuted",
    "C74_timeout_refuted",
    "C74_failure_refuted"
   ],
   "note": "proved for one thread and for the main thread except after the curve to invalidate could not be made; a thread: while it searches only NULL entries of the generators can be followed, and only after a timeout; at its end only b and order of the last candidate can be stale. Refuted with witnesses: each of these three"
  },
  {
   "property": "C75",
   "status": "partial",
   "theorems": [
    "C75_run_partial",
    "C75_defined_partial",
    "C75_line_partial"
   ],
   "note": "proved for --fp with --random (field and coefficients), every combination of --prime, --cofactor, --smooth, --unique, --points, --metadata, --hex-check, --count, with the group of the curve proved to be a group rather than assumed. Missing: seeds, binary fields and the other methods (C76 has typed parameters and --koblitz); absence of undefined behaviour only without --hex-check and with --cofactor only together with --unique"
  },
  {
   "property": "C76",
   "status": "partial",
   "theorems": [
    "C76_run_partial",
    "C76_defined_partial",
    "C76_defined_refuted",
    "C76_line_partial"
   ],
   "note": "proved for the default method over prime fields, texts that are numbers, and sizes that are not in the table of Koblitz curves (where the order is wrong, see C45). Missing: texts that are no numbers (C47), binary fields. Undefined behaviour is excluded for random fields only: refuted for a typed field with three elements, if the allocation of 0 bytes gives a block (with PARI's functions the program ends there, C89)"
  },
  {
   "property": "C77",
   "status": "partial",
   "theorems": [
    "C77_run_partial",
    "C77_defined_partial",
    "C77_filters_refuted",
    "C77_line_partial"
   ],
   "note": "proved for --supersingular over prime fields, typed or random primes; for p = 1 mod 12 given that roots of the class polynomial are invariants of supersingular curves. Missing: texts that are no numbers (C47). Undefined behaviour is excluded for random fields without --hex-check. Refuted: that --prime has an effect"
  },
  {
   "property": "C78",
   "status": "partial",
   "theorems": [
    "C78_run_partial",
    "C78_defined_partial",
    "C78_printed_refuted",
    "C78_defined_refuted",
    "C78_end_never",
    "C78_line_partial"
   ],
   "note": "proved for --ansi over prime fields, seeds of less than 512 MB, given, typed or random. Binary fields are C84. Missing: texts that are no numbers (C47). Undefined behaviour is excluded for random fields, seeds that are not typed and r different from 0; refuted for r = 0. Refuted: that X9.62 makes the curve out of the seed that is printed (odd number of digits)"
  },
  {
   "property": "C79",
   "status": "partial",
   "theorems": [
    "C79_run_partial",
    "C79_defined_partial",
    "C79_line_partial"
   ],
   "note": "proved for --f2m --random, with or without --koblitz, every combination of --prime, --cofactor, --smooth, --unique, --points, --metadata, --hex-check, --count; the group of the curve is proved to be a group. From the command line for the degrees 3 to 200 and 233, 239, 277, 283, 311, 331, 347, 349, 359, 409, 571 (C42), tabulated orders of Koblitz curves included (C44). Typed coefficients are C85. Missing: typed fields, other degrees, the other methods"
  },
  {
   "property": "C80",
   "status": "partial",
   "theorems": [
    "C80_run_partial",
    "C80_one_curve",
    "C80_repeats",
    "C80_printed_refuted",
    "C80_defined_refuted",
    "C80_line_partial"
   ],
   "note": "proved for both algorithms, all sizes, seeds given, typed or random. Missing: typed seeds with a zero byte in them. With a seed argument all runs give one curve (C80_repeats). Refuted: that the seed that is printed gives the curve again; that there is no undefined behaviour (the generator can be the point at infinity)"
  },
  {
   "property": "C81",
   "status": "partial",
   "theorems": [
    "C81_twist",
    "C81_run_partial",
    "C81_defined",
    "C81_one_curve",
    "C81_least_refuted",
    "C81_line_partial"
   ],
   "note": "proved for all sizes and command lines with --nums (C81_run_partial, C81_line_partial), no undefined behaviour (C81_defined), one curve per size when nothing interferes (C81_one_curve); the points of a curve and its twist add up to 2p + 2 (C81_twist). Missing: texts of 2 GB. Refuted: that b is the least one when a curve is stored at the address of the one before (C81_least_refuted)"
  },
  {
   "property": "C82",
   "status": "partial",
   "theorems": [
    "C82_run_partial",
    "C82_defined",
    "C82_line_partial"
   ],
   "note": "proved for all sizes of 6 bits or more and command lines with --fp --anomalous (C82_run_partial, C82_line_partial), no undefined behaviour (C82_defined). Missing: that the curves that anomalous.c makes have p points (Miyaji's theorem, the hypothesis anomalous_true); sizes below 6 bits; texts of 2 GB"
  },
  {
   "property": "C83",
   "status": "partial",
   "theorems": [
    "C83_run_partial",
    "C83_defined",
    "C83_line_partial"
   ],
   "note": "proved for BN, BLS12, BLS24, KSS18 and KSS36, all parameter sizes from 1 bit on, random or typed parameters, all command lines with --family (C83_run_partial, C83_line_partial), no undefined behaviour (C83_defined). Missing: KSS16 and KSS40, whose equation comes from the CM construction; texts of 2 GB"
  },
  {
   "property": "C84",
   "status": "partial",
   "theorems": [
    "C84_run_partial",
    "C84_defined_partial",
    "C84_zero_seed",
    "C84_top_refuted",
    "C84_line_partial"
   ],
   "note": "proved for --f2m --ansi with a field that is not typed and seeds of less than 512 MB, given, typed or random (C84_run_partial, C84_line_partial), no undefined behaviour with a seed that is not typed (C84_defined_partial), and that a seed argument with b = 0 never gives a curve (C84_zero_seed). Missing: typed fields, degrees for which the polynomial is not shown to be irreducible (C42). Refuted: that a is always an element of the field, random_int may give 2^m (C84_top_refuted); C84_run_partial excludes that draw"
  },
  {
   "property": "C85",
   "status": "partial",
   "theorems": [
    "C85_run_partial",
    "C85_defined_partial",
    "C85_top_refuted",
    "C85_line_partial"
   ],
   "note": "proved for --f2m with the default method and a field that is not typed, every combination of typed, random and Koblitz coefficients (C85_run_partial, C85_line_partial), no undefined behaviour for degrees other than 1060 (C85_defined_partial). Missing: typed fields, degrees for which the polynomial is not shown to be irreducible (C42), curves for which a number outside -2^m < v, v <> 2^m or a text that is no number was typed. Refuted: that every number that is taken is an element of the field (C85_top_refuted)"
  },
  {
   "property": "C86",
   "status": "partial",
   "theorems": [
    "C86_pohlig_hellman",
    "C86_no_argument",
    "C86_one_point_refuted",
    "C86_discriminant",
    "C86_binary",
    "C86_fundamental",
    "C86_discriminant_refuted"
   ],
   "note": "both checks are characterised for every order above 1, every prime and every bound, from the contracts of factor and core. Refuted: an order of 1 (a curve over 3 elements) reads past the empty list of primes; that the discriminant is compared (a curve over 19 elements with discriminant -40 is refused by the bound 12)"
  },
  {
   "property": "C87",
   "status": "partial",
   "theorems": [
    "C87_discriminant",
    "C87_prime_partial",
    "C87_any_partial",
    "C87_nothing",
    "C87_order_refuted",
    "C87_missing"
   ],
   "note": "proved for every prime order above 21 whose discriminant is not -3, in particular for all that are 2 modulo 3, from the theory of complex multiplication and the contracts of cornacchia2 and isprime as visible hypotheses; for other orders under the conditions of C52. Refuted: --order=43 stores a curve with 28 points and the order 43. Without the text of an order nothing is stored and the generation ends, and only then (C87_missing)"
  },
  {
   "property": "C88",
   "status": "partial",
   "theorems": [
    "C88_run_partial",
    "C88_defined",
    "C88_order_refuted",
    "C88_line_partial",
    "C88_points_partial",
    "C88_points_defined",
    "C88_points_line_partial"
   ],
   "note": "proved for every prime order above 21 that is 2 modulo 3 and all command lines with --order (C88_points_partial, C88_points_line_partial), no undefined behaviour (C88_points_defined); complex multiplication is the visible hypothesis cm_ok. Refuted for orders that are 1 modulo 3: a run with --order=43 prints the order 43 for a curve with 28 points (C88_order_refuted). Missing: the other such orders, orders up to 21, texts of 2 GB"
  },
  {
   "property": "C89",
   "status": "partial",
   "theorems": [
    "C89_memdup",
    "C89_strdup",
    "C89_realloc",
    "C89_array",
    "C89_nothing",
    "C89_generators_refuted",
    "C89_generators_partial",
    "C89_generators",
    "C89_set",
    "C89_wrap_refuted"
   ],
   "note": "copies, reallocation, arrays and set_mem_funcs proved for all allocation functions that meet their contract; refuted: a curve with a single point ends the program with 'Couldn't alloc.' as PARI gives NULL for 0 bytes (C89_generators_refuted), and num * sizeof wraps (C89_wrap_refuted). Proved for all other curves (C89_generators); over primes above 3 and binary fields there are no such (C89_generators_partial)"
  }
 ]
}