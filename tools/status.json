{
 "C01": {
  "status": "proved",
  "note": "hex round trip for every text; bits_to_hex for every well-formed string of either sign"
 },
 "C02": {
  "status": "proved",
  "note": "all integers, all lengths; when the number does not fit the leading bits are kept"
 },
 "C03": {
  "status": "partial",
  "note": "all conversions, bits_copy and bits_eq proved; bits_cpy proved for a non-empty source and refuted for an empty one (the destination is left unchanged)"
 },
 "C04": {
  "status": "proved",
  "note": "total length below 2^64 bits; arguments are distinct objects from the first"
 },
 "C05": {
  "status": "partial",
  "note": "and/or/not proved for all strings; reversal for non-empty strings; reversing an empty string is a zero-length VLA (undefined), refuted"
 },
 "C06": {
  "status": "partial",
  "note": "proved for strings with clean padding (all constructors except bits_from_raw give it, all operations keep it); lengthening on the right is refuted for bits_from_raw strings with leftover bits"
 },
 "C07": {
  "status": "partial",
  "note": "true for amounts >= 0 and for lengths dividing 2^64; refuted for every other length with a negative amount (long % size_t)"
 },
 "C08": {
  "status": "partial",
  "note": "proved for lengths not divisible by 8; refuted for multiples of 8, whose last byte is always 0"
 },
 "C09": {
  "status": "proved",
  "note": "every sequence of calls; preconditions listed in Bits_Client.legal (shift/rotate/reverse need a non-empty string: zero-length VLA)"
 },
 "C10": {
  "status": "proved",
  "note": "every byte string; SHA1_Update's int length (< 2^31 bytes per call) is the only restriction"
 },
 "C11": {
  "status": "proved",
  "note": "every cutting of every message"
 },
 "C12": {
  "status": "partial",
  "note": "proved for seeds of a whole number of bytes and every field size; refuted for seeds with an odd number of hex digits, where the hashed string has 4 extra zero bits; what is computed instead is proved for all seeds"
 },
 "C13": {
  "status": "partial",
  "note": "r b^2 = a^3 proved for every seed and field from the contracts of the PARI functions; when r = 0 mod p the step is undefined (NULL inverse), refuted by a concrete seed"
 },
 "C14": {
  "status": "partial",
  "note": "proved for seeds of a whole number of bytes; refuted for odd digit counts; b = 0 goes back to the seed step"
 },
 "C57": {
  "status": "partial",
  "note": "str_join proved for one or more strings and refuted for none; str_joinv proved up to 10 strings and refuted from 11; counting and hex recognition proved for every string"
 },
 "C15": {
  "status": "partial",
  "note": "proved for every seed, w and v; for L <= 160 the C code declares a zero-length array, which GNU C accepts (vla0 = true) and ISO C does not (refuted)"
 },
 "C16": {
  "status": "proved",
  "note": "partial correctness, uniqueness and progress from the contracts of nextprime and isprime"
 },
 "C17": {
  "status": "proved",
  "note": "both procedures; contracts of Fp_invsafe, Fp_sqrtn, Fp_issquare are hypotheses, an instance is given"
 },
 "C18": {
  "status": "proved",
  "note": "decision rules for all integers; multiplicative order contract is a hypothesis"
 },
 "C63": {
  "status": "proved",
  "note": "elliptic curve functions are parameters"
 },
 "C19": {
  "status": "proved",
  "note": "total correctness for every s >= 2; divergence for s = 1 is proved as well"
 },
 "C20": {
  "status": "partial",
  "note": "proved when a curve is not stored at the address of the curve before it; refuted when it is (b continues); twist order rule proved"
 },
 "C64": {
  "status": "partial",
  "note": "proved when every x has zero or two points; a single root (point of order 2) is read past the end, refuted"
 },
 "C21": {
  "status": "proved",
  "note": "for stage functions that go forward by at most one stage and undo hooks that go back one (all in /repo)"
 },
 "C22": {
  "status": "proved",
  "note": "same assumptions; also the PARI stack pointer discipline"
 },
 "C23": {
  "status": "proved",
  "note": "limit, reasons for failure, and termination with a bound"
 },
 "C24": {
  "status": "proved",
  "note": "a timeout is a possible outcome of every generator call; the signal machinery itself is C25"
 },
 "C25": {
  "status": "partial",
  "note": "proved that a jump happens only while the flag is up and never after stop, and that each started timer is deleted exactly once; refuted: a signal between raising the flag and sigsetjmp jumps to an unset or stale buffer, and a signal left pending by timer_delete can interrupt a later computation"
 },
 "C26": {
  "status": "partial",
  "note": "every accepted command line, all methods: generators, arguments and checks are complete and match the options; undo hooks up to POINTS; the METADATA stage has no undo hook (refuted, harmless)"
 },
 "C27": {
  "status": "partial",
  "note": "a reported option has no effect (proved); a set and unreported option matters or is on an explicit list of overridden options (proved); refuted for that list: Brainpool/NUMS ignore prime, cofactor, smooth and unique, a prime CM order ignores points, anomalous ignores what is random"
 },
 "C56": {
  "status": "partial",
  "note": "exact characterisation of accepted option sequences (proved); the clause about the seed holds when seeds are given to the algorithm used and is refuted for a seed left by an earlier algorithm option"
 },
 "C61": {
  "status": "partial",
  "note": "digits with a documented suffix and a product below 2^64 (proved); rejected exactly when there is no leading number (proved); the value for every other text, with signs, too many digits and anything behind the number (C61_exact, C61_one); refuted: other suffixes and trailing text are accepted, large products wrap, negative numbers are accepted"
 },
 "C30": {
  "status": "partial",
  "note": "proved for every n > 1 with fewer than 63 prime factors counted with multiplicity (the prime list: every n > 1); from 63 on the listing stops with an error (refuted)"
 },
 "C31": {
  "status": "proved",
  "note": "any group, any list of divisors; the three generation functions for generators of order > 1 (with C30's bound on the number of factors)"
 },
 "C32": {
  "status": "partial",
  "note": "refuted: only the first listed prime dividing a generator's order gets a point; proved that the first one does, and the claim where at most one listed prime divides each generator's order"
 },
 "C33": {
  "status": "partial",
  "note": "several points: proved; one point: may be the point at infinity (refuted); without generators undefined behaviour (refuted)"
 },
 "C34": {
  "status": "partial",
  "note": "proved for cyclic groups and for cofactors the prime does not divide, for the first generator; refuted: other generators are listed too, and on Z/4 x Z/2 with cofactor 4 the generator is infinity"
 },
 "C35": {
  "status": "proved",
  "note": "contracts of isprime, factor and ellsea as hypotheses"
 },
 "C36": {
  "status": "partial",
  "note": "anomalous check proved; embedding degree proved when order and field size are coprime or equal; otherwise PARI stops the program (refuted by y^2 = x^3 + 3x over 5 elements, 10 points)"
 },
 "C60": {
  "status": "partial",
  "note": "proved when order and field size are coprime or equal; otherwise the program stops (refuted by a curve of order 10 over 5 elements); j is passed on from PARI"
 },
 "C62": {
  "status": "partial",
  "note": "ranges proved; an integer of b bits can be 2^b (refuted) and has b bits otherwise; primes of two or more bits proved, one bit gives 2 (refuted)"
 },
 "C28": {
  "status": "partial",
  "note": "proved when all curves are generated and when the first fails; when a later one fails the separator before it has been written already (refuted); the text is then no JSON text at all (C28_failure_not_json)"
 },
 "C29": {
  "status": "partial",
  "note": "proved for prime fields by point counting methods that set the order afresh, and for any field when no earlier attempt got past the order stage; refuted: the order of an earlier attempt is used for the twist"
 },
 "C37": {
  "status": "partial",
  "note": "ranges a-b and a- (2 <= a) and single numbers proved; without a range one prime too many (exact list proved, claim refuted); 0 gives no primes at all and 1- never stops (refuted)"
 },
 "C38": {
  "status": "partial",
  "note": "every sequence of random curves: results, number, order property, output; with no primes the output is not closed (refuted)"
 },
 "C39": {
  "status": "partial",
  "note": "proved for every number of threads, schedule, curve sequence and spurious wake-up, for a non-empty list of distinct primes: data-race freedom, exclusive claims, counter, curves, each printed exactly once, no lost wake-up, no deadlock, and the end stays reachable; with an empty list the main thread waits for ever (refuted)"
 },
 "C40": {
  "status": "partial",
  "note": "exact shape of the output proved; well-formed exactly when the last batch is a single curve; refuted by a concrete schedule otherwise"
 },
 "C41": {
  "status": "partial",
  "note": "proved for every degree from 2 to 10000 except 1060, and for all others; degree 1060 is announced but missing and dereferences NULL (refuted)"
 },
 "C43": {
  "status": "proved",
  "note": "both directions, prime and binary fields; parameters of every trinomial and pentanomial"
 },
 "C44": {
  "status": "partial",
  "note": "all 20 orders are proved to count the points of the curve over the field of every irreducible polynomial of the degree, and over that of the polynomial the program takes, which is proved irreducible; exact lookup for arguments below 2^32, modulo 2^32 above (refuted)"
 },
 "C45": {
  "status": "partial",
  "note": "proved for accepted configurations with a binary field without a twist, the points of the curve being counted; prime fields get the order of a binary curve and the twist method reads a field element as an integer (refuted)"
 },
 "C46": {
  "status": "partial",
  "note": "for every family and every z: p, r and t are integers where defined, r divides p+1-t and Phi_k(p), 4p-t^2 is |D| times a square, accepted parameters have the order checked; the trace stored for BN (6n+1 instead of 6n^2+1) is wrong, refuted; no code reads it"
 },
 "C47": {
  "status": "partial",
  "note": "coefficient and prime field stages proved for the end of the input, empty items and numbers; the binary field stage exact in the numbers read: what is accepted, with which coefficients, and how much input is consumed; refuted for other text (becomes 0), negative coefficients over binary fields, the binary field stage at the end of the input and the family parameter"
 },
 "C54": {
  "status": "partial",
  "note": "accepted numbers are at most 2^bits and accepted primes fit; refuted for 2^bits and negative numbers"
 },
 "C55": {
  "status": "partial",
  "note": "exact when the item is followed by a delimiter; at the end of the input the last character is lost (refuted)"
 },
 "C65": {
  "status": "partial",
  "note": "coefficient and prime field stages end the run; the binary field stage repeats for ever (refuted, through the engine model)"
 },
 "C58": {
  "status": "partial",
  "note": "no matching curve is lost, for every pattern; exact for patterns not ending in 0; refuted for the pattern 0 (the 0x prefix), for patterns spanning two points (no separator) and for the exponents of binary fields, which are not searched"
 },
 "C48": {
  "status": "partial",
  "note": "form, invariant, non-singularity and absence of errors for all sizes and choices; exact size for 13 to 1626 bits and for all larger sizes outside five residue classes modulo 1620; refuted for 7, 8, 10, 11, 12 and fewer than 6 bits"
 },
 "C49": {
  "status": "proved",
  "note": "number of points counted for every prime; for p = 1 mod 12 given that roots of the class polynomial are invariants of supersingular curves (visible hypothesis on PARI's polclass/FpX_roots); termination of the search for q is not claimed"
 },
 "C51": {
  "status": "partial",
  "note": "the listing is exact whenever it finishes, for every D > 0; the room reserved is 2*floor(sqrt(D/3)) forms, refuted for D = 11 (and others); the exact condition for no overflow is proved; the integer parameters I, J, L, M, N agree with the standard for D not divisible by 4, K does except for D = 5 modulo 8 (refuted)"
 },
 "C50": {
  "status": "partial",
  "note": "soundness of both searches (prime and composite orders) for every history; completeness within the current list of primes; refuted in general: for order 7 the subset {-3} is passed over when the list grows and the search never ends, and orders with no admissible prime up to log N (173) end with an error"
 },
 "C52": {
  "status": "partial",
  "note": "prime orders over fields of more than 13 elements (given that the curve or its twist has the order, which fails for invariant 0); composite orders under coprimality and if foreign points do not interfere; refuted for invariant 0 (order 43, D = -3), common factors (order 9 over F_11), foreign points (order 6 over F_7), small fields, and order p + 1 (never ends)"
 },
 "C53": {
  "status": "partial",
  "note": "product and refusal exact for every list, outcome exact for every text; refuted: the expression is not anchored, and orders of bits + 1 bits are accepted"
 },
 "C66": {
  "status": "partial",
  "note": "exact for the curves of the roots; refuted: twists are not tried"
 },
 "C59": {
  "status": "partial",
  "note": "freeing and unrolling exact for every curve in every stage; copies are new, independent and equal in seed bits, parameters, generators and points; refuted: metadata and the type of the seed are not copied, an array with NULL in it cannot be copied, twist_rand loses what PARI cached"
 },
 "C42": {
  "status": "partial",
  "note": "irreducible (and the quotient a field) for every degree 2..200 and 233, 239, 277, 283, 311, 331, 347, 349, 359, 409, 571, by a Rabin test proved sound for all degrees; for every tabulated degree 2..10000 only: no factor of degree at most 6. Missing: full irreducibility of the other degrees (too much computation for the kernel)"
 },
 "C67": {
  "status": "proved",
  "note": "grammar of RFC 8259 for strings, arrays and objects (all that is built); unambiguous; buffer exact; names distinct, which the interface guarantees; texts shorter than 2^31 - 1 bytes"
 },
 "C68": {
  "status": "partial",
  "note": "proved for curves all of whose points are finite, and for whole runs that succeed, given that PARI prints numbers; refuted: a point at infinity or a NULL point is undefined behaviour; a run that fails later prints no JSON (C28)"
 },
 "C69": {
  "status": "partial",
  "note": "order of the attempts exact when a curve is not at the address of the one before; sign and size of a random parameter exact, either sign reached for every magnitude; refuted: a curve at the same address as the one before goes on with its b, and a random parameter can be 2^bits, of bits + 1 bits"
 },
 "C70": {
  "status": "partial",
  "note": "proved for every accepted command line except the methods twist and Brainpool, with timeouts anywhere except while a static b is replaced (NUMS, families by iteration); for twist only the order, for Brainpool only the candidate p can be stale. Refuted: twist reads the order of the candidate before; brainpool_gen_field adds one to a p it has released; a timeout between gunclone and gclone in nums_gen_b; curve_free after a failed generation; order_gen_sea caches a released number. The method invalid is C74"
 },
 "C71": {
  "status": "partial",
  "note": "streams, frame and missing input proved without conditions on files and writes; contents and JSON for writes that succeed and three different files, once cli_init has succeeded. Refuted: cli_init failing; an output file that cannot be opened; a full disk; output = input; output = log; old output lost when the input is missing; appended output is never JSON"
 },
 "C72": {
  "status": "partial",
  "note": "device, injectivity and fall-back proved. Refuted: a device that opens and delivers nothing makes the loop endless; a reading of 0 ns gives PARI the seed 0, which it refuses"
 },
 "C73": {
  "status": "partial",
  "note": "exhaustive method, CM with one number, anomalous, supersingular and invalid proved. A list of factors for --order leaves exactly one block, the text of the product (refuted with a witness); the invalid method without primes frees nothing (refuted). The engine and the searches are parameters that clean up after themselves"
 },
 "C74": {
  "status": "partial",
  "note": "proved for one thread and for the main thread except after the curve to invalidate could not be made; a thread: while it searches only NULL entries of the generators can be followed, and only after a timeout; at its end only b and order of the last candidate can be stale. Refuted with witnesses: each of these three"
 },
 "C75": {
  "status": "partial",
  "note": "proved for --fp with --random (field and coefficients), every combination of --prime, --cofactor, --smooth, --unique, --points, --metadata, --hex-check, --count, with the group of the curve proved to be a group rather than assumed. Missing: seeds, binary fields and the other methods (C76 has typed parameters and --koblitz); absence of undefined behaviour only without --hex-check and with --cofactor only together with --unique"
 },
 "C76": {
  "status": "partial",
  "note": "proved for the default method over prime fields, texts that are numbers, and sizes that are not in the table of Koblitz curves (where the order is wrong, see C45). Missing: texts that are no numbers (C47), binary fields. Undefined behaviour is excluded for random fields only: refuted for a typed field with three elements, if the allocation of 0 bytes gives a block (with PARI's functions the program ends there, C89)"
 },
 "C77": {
  "status": "partial",
  "note": "proved for --supersingular over prime fields, typed or random primes; for p = 1 mod 12 given that roots of the class polynomial are invariants of supersingular curves. Missing: texts that are no numbers (C47). Undefined behaviour is excluded for random fields without --hex-check. Refuted: that --prime has an effect"
 },
 "C78": {
  "status": "partial",
  "note": "proved for --ansi over prime fields, seeds of less than 512 MB, given, typed or random. Binary fields are C84. Missing: texts that are no numbers (C47). Undefined behaviour is excluded for random fields, seeds that are not typed and r different from 0; refuted for r = 0. Refuted: that X9.62 makes the curve out of the seed that is printed (odd number of digits)"
 },
 "C79": {
  "status": "partial",
  "note": "proved for --f2m --random, with or without --koblitz, every combination of --prime, --cofactor, --smooth, --unique, --points, --metadata, --hex-check, --count; the group of the curve is proved to be a group. From the command line for the degrees 3 to 200 and 233, 239, 277, 283, 311, 331, 347, 349, 359, 409, 571 (C42), tabulated orders of Koblitz curves included (C44). Typed coefficients are C85. Missing: typed fields, other degrees, the other methods"
 },
 "C80": {
  "status": "partial",
  "note": "proved for both algorithms, all sizes, seeds given, typed or random. Missing: typed seeds with a zero byte in them. With a seed argument all runs give one curve (C80_repeats). Refuted: that the seed that is printed gives the curve again; that there is no undefined behaviour (the generator can be the point at infinity)"
 },
 "C81": {
  "status": "partial",
  "note": "proved for all sizes and command lines with --nums (C81_run_partial, C81_line_partial), no undefined behaviour (C81_defined), one curve per size when nothing interferes (C81_one_curve); the points of a curve and its twist add up to 2p + 2 (C81_twist). Missing: texts of 2 GB. Refuted: that b is the least one when a curve is stored at the address of the one before (C81_least_refuted)"
 },
 "C82": {
  "status": "partial",
  "note": "proved for all sizes of 6 bits or more and command lines with --fp --anomalous (C82_run_partial, C82_line_partial), no undefined behaviour (C82_defined). Missing: that the curves that anomalous.c makes have p points (Miyaji's theorem, the hypothesis anomalous_true); sizes below 6 bits; texts of 2 GB"
 },
 "C83": {
  "status": "partial",
  "note": "proved for BN, BLS12, BLS24, KSS18 and KSS36, all parameter sizes from 1 bit on, random or typed parameters, all command lines with --family (C83_run_partial, C83_line_partial), no undefined behaviour (C83_defined). Missing: KSS16 and KSS40, whose equation comes from the CM construction; texts of 2 GB"
 },
 "C84": {
  "status": "partial",
  "note": "proved for --f2m --ansi with a field that is not typed and seeds of less than 512 MB, given, typed or random (C84_run_partial, C84_line_partial), no undefined behaviour with a seed that is not typed (C84_defined_partial), and that a seed argument with b = 0 never gives a curve (C84_zero_seed). Missing: typed fields, degrees for which the polynomial is not shown to be irreducible (C42). Refuted: that a is always an element of the field, random_int may give 2^m (C84_top_refuted); C84_run_partial excludes that draw"
 },
 "C85": {
  "status": "partial",
  "note": "proved for --f2m with the default method and a field that is not typed, every combination of typed, random and Koblitz coefficients (C85_run_partial, C85_line_partial), no undefined behaviour for degrees other than 1060 (C85_defined_partial). Missing: typed fields, degrees for which the polynomial is not shown to be irreducible (C42), curves for which a number outside -2^m < v, v <> 2^m or a text that is no number was typed. Refuted: that every number that is taken is an element of the field (C85_top_refuted)"
 },
 "C86": {
  "status": "partial",
  "note": "both checks are characterised for every order above 1, every prime and every bound, from the contracts of factor and core. Refuted: an order of 1 (a curve over 3 elements) reads past the empty list of primes; that the discriminant is compared (a curve over 19 elements with discriminant -40 is refused by the bound 12)"
 },
 "C87": {
  "status": "partial",
  "note": "proved for every prime order above 21 whose discriminant is not -3, in particular for all that are 2 modulo 3, from the theory of complex multiplication and the contracts of cornacchia2 and isprime as visible hypotheses; for other orders under the conditions of C52. Refuted: --order=43 stores a curve with 28 points and the order 43. Without the text of an order nothing is stored and the generation ends, and only then (C87_missing)"
 },
 "C88": {
  "status": "partial",
  "note": "proved for every prime order above 21 that is 2 modulo 3 and all command lines with --order (C88_points_partial, C88_points_line_partial), no undefined behaviour (C88_points_defined); complex multiplication is the visible hypothesis cm_ok. Refuted for orders that are 1 modulo 3: a run with --order=43 prints the order 43 for a curve with 28 points (C88_order_refuted). Missing: the other such orders, orders up to 21, texts of 2 GB"
 },
 "C89": {
  "status": "partial",
  "note": "copies, reallocation, arrays and set_mem_funcs proved for all allocation functions that meet their contract; refuted: a curve with a single point ends the program with 'Couldn't alloc.' as PARI gives NULL for 0 bytes (C89_generators_refuted), and num * sizeof wraps (C89_wrap_refuted). Proved for all other curves (C89_generators); over primes above 3 and binary fields there are no such (C89_generators_partial)"
 }
}
