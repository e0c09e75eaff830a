{"id": "C01", "title": "Hex text of a bit string round-trips", "statement": "Converting a hexadecimal text to a bit string and printing it back gives the same text in lower case, left-padded with one zero digit when the number of digits is odd; and printing any bit string gives exactly the base-16 digits of the number it denotes, padded to whole bytes, with a leading '-' exactly when the sign flag is set.", "quantifier": "every hexadecimal text and every bit string (any length, any content, either sign)", "why_tests_cant": "the number of bit strings of each length is exponential and the byte-boundary cases depend on the length mod 8; unit tests fix a handful of literals", "anchors": ["src/util/bits.c: bits_from_hex, bits_to_hex"]}
{"id": "C02", "title": "Integers and bit strings convert without loss", "statement": "Converting any integer to a bit string and back gives the same integer; converting to a fixed length gives the integer again whenever it fits, with leading zero bits; and for numbers that do not fit, the result denotes the number's leading bits.", "quantifier": "every integer (either sign, any size) and every requested length", "why_tests_cant": "integers are unbounded; tests sample a few", "anchors": ["src/util/bits.c: bits_from_i, bits_from_i_len, bits_to_i"]}
{"id": "C03", "title": "Binary text, raw bytes, bit vectors and copies preserve the bit string; equality is equality of contents", "statement": "Building a bit string from a binary text, from raw bytes or from a bit vector and reading it back in the same form gives the input; a copy has the same contents; and the equality test is true exactly when sign, length and every bit agree, regardless of the unused bits of the last byte.", "quantifier": "every bit string, every binary text, every byte buffer with every bit length it can hold", "why_tests_cant": "padding bits of the last byte make equal strings differ in memory; only a proof covers all contents", "anchors": ["src/util/bits.c: bits_from_bin, bits_to_bin, bits_from_raw, bits_to_raw, bits_from_bitvec, bits_to_bitvec, bits_copy, bits_cpy, bits_eq"]}
{"id": "C04", "title": "Concatenation appends the bits of all arguments in order", "statement": "Concatenating a bit string with any list of further bit strings gives the bits of the first followed by those of each argument in order, keeps the sign of the first, and leaves the arguments unchanged.", "quantifier": "every list of bit strings of any lengths (also empty ones, also lengths not divisible by 8)", "why_tests_cant": "the offsets are misaligned in general; all pairs of lengths mod 8 and all contents matter", "anchors": ["src/util/bits.c: bits_concat, bits_concatz, bits_concatzv"]}
{"id": "C05", "title": "And, or, not and reversal act bitwise", "statement": "And/or of two bit strings act bit by bit with the strings aligned at their last bit (so on the magnitudes as integers) and have the length of the longer one; not flips exactly the bits of the string; the reversal reverses the string.", "quantifier": "every pair of bit strings of any lengths", "why_tests_cant": "lengths and contents are unbounded", "anchors": ["src/util/bits.c: bits_bitwise, bits_or, bits_and, bits_notz, bits_rotz"]}
{"id": "C06", "title": "Shifts, lengthening and shortening have their arithmetic meaning", "statement": "A plain shift by n moves every bit n places left (right for negative n) filling with zero bits and keeping the length; an integer shift multiplies the denoted magnitude by 2^n (floor-divides for negative n); lengthening by n adds n zero bits on the left (right for negative n); shortening by n drops the n leftmost (rightmost for negative n) bits.", "quantifier": "every bit string and every amount (in range of the string length for shortening)", "why_tests_cant": "amount and length are unbounded; in-memory leftovers beyond the end of the string only show for particular histories", "anchors": ["src/util/bits.c: bits_shiftz, bits_shiftiz, bits_lengthenz, bits_shortenz"]}
{"id": "C07", "title": "Rotation rotates by the given amount in either direction", "statement": "Rotating a non-empty bit string by n makes bit i of the result equal to bit (i+n) mod length of the original, for positive and negative n.", "quantifier": "every non-empty bit string and every signed amount", "why_tests_cant": "the existing test uses one byte; the failing cases need a length that is not a power of two and a wrapping negative amount", "anchors": ["src/util/bits.c: bits_shiftrz, bits_shiftr"]}
{"id": "C08", "title": "Random bit strings can take every value of the requested length", "statement": "For every requested length and every bit string of that length there is a sequence of random numbers for which the random generator returns exactly that bit string.", "quantifier": "every length, every target value, every outcome of the random source", "why_tests_cant": "a test sees one random sample and cannot see a value that is never produced", "anchors": ["src/util/bits.c: bits_new_rand", "src/util/random.c: random_bits"]}
{"id": "C09", "title": "Bit-string operations never touch memory outside their buffers", "statement": "Starting from bit strings made by the constructors, every sequence of bit-string operations keeps the buffer at least as large as the length needs, and no operation reads or writes outside a buffer, provided shortening never removes more bits than there are.", "quantifier": "every sequence of bit-string operations with every argument", "why_tests_cant": "out-of-bounds accesses depend on the whole history of lengthening/shortening and may go unnoticed by tests", "anchors": ["src/util/bits.c: all operations", "src/util/bits.h: BYTE_LEN, GET_BIT, SET_BIT"]}
{"id": "C10", "title": "The bundled hash is SHA-1", "statement": "For every message the init/update/final sequence returns the 20-byte digest that FIPS 180-1 defines for it (padding, 64-bit big-endian length, 80 rounds).", "quantifier": "every message of fewer than 2^31 bytes per update call", "why_tests_cant": "the message space is unbounded; block-boundary lengths and the reuse of the schedule buffer between blocks need an argument", "anchors": ["lib/sha1/sha1.c: SHA1_Init, SHA1_Update, SHA1_Final, shaHashBlock"]}
{"id": "C11", "title": "Hashing does not depend on how the message is split", "statement": "Feeding a message in any number of pieces of any sizes gives the same digest as feeding it at once.", "quantifier": "every message and every way of cutting it into pieces", "why_tests_cant": "the number of splittings is exponential", "anchors": ["lib/sha1/sha1.c: SHA1_Update"]}
{"id": "C12", "title": "ANSI X9.62 prime-field seeds give the standard's r", "statement": "For a seed of g bits and a field of t bits, the number derived from the seed is the integer whose binary expansion is the h = t-160s rightmost bits of SHA-1(seed) with the leftmost of them set to 0, followed by SHA-1((seed+i) mod 2^g) for i=1..s, s=floor((t-1)/160); it has at most t-1 significant bits and depends on nothing but the seed and t.", "quantifier": "every seed and every field size t >= 1", "why_tests_cant": "seeds and sizes are unbounded; a test vector checks one seed and one size", "anchors": ["src/exhaustive/ansi.c: seed_tsh, seed_stoi, ansi_gen_equation"]}
{"id": "C13", "title": "ANSI X9.62 prime curves are verifiable from their seed", "statement": "Every curve that the verifiably random prime-field method accepts satisfies r*b^2 = a^3 (mod p), with r the number the seed determines, whatever the random choices of a.", "quantifier": "every prime, every seed, every sequence of random choices", "why_tests_cant": "randomised; needs all choices of a", "anchors": ["src/exhaustive/ansi.c: ansi_gen_equation_fp"]}
{"id": "C14", "title": "ANSI X9.62 binary curves take b from the seed", "statement": "For a binary field of m bits the coefficient b is the field element whose bit string is the standard's W_0||...||W_s for the seed, is never zero, and the step fails back to choosing a new seed exactly when that string is zero.", "quantifier": "every seed and every extension degree", "why_tests_cant": "unbounded seeds and degrees", "anchors": ["src/exhaustive/ansi.c: ansi_gen_equation_f2m"]}
{"id": "C15", "title": "Brainpool hash expansion and seed update follow the procedure", "statement": "Updating a 160-bit seed adds 1 modulo 2^160 and keeps 160 bits. Expanding a seed with parameters (w, v) gives exactly w+160v bits: the w rightmost bits of SHA-1(s) followed by SHA-1 of s+1, ..., s+v (each modulo 2^160, as 160 bits); with v=floor((L-1)/160), w=L-160v-1 the result has L-1 bits for coefficients (L for the field).", "quantifier": "every seed and every field size L >= 1", "why_tests_cant": "wrap-around at 2^160 and every residue of L mod 160 matter", "anchors": ["src/exhaustive/brainpool.c: brainpool_update_seed, brainpool_hash, seed_wv"]}
{"id": "C16", "title": "Brainpool fields are L-bit primes congruent to 3 mod 4 fixed by the seed", "statement": "Whenever the Brainpool field step finishes, the field is a prime p = 3 (mod 4) with 2^(L-1) <= p < 2^L, it is the smallest such prime greater than the integer expanded from the final seed, every earlier seed in the chain gave no L-bit prime, and the result is a function of the initial seed.", "quantifier": "every seed and every bit size", "why_tests_cant": "the loop over seeds is unbounded", "anchors": ["src/exhaustive/brainpool.c: brainpool_gen_field"]}
{"id": "C17", "title": "Brainpool coefficients satisfy the procedure's conditions", "statement": "Whenever the Brainpool equation step finishes, -3/a is a fourth power modulo p, b is a square (original procedure) or a non-square (RFC 5639 procedure), 4a^3+27b^2 is non-zero, and a and b are the values expanded from the recorded seed chain.", "quantifier": "every prime, every seed, every run of the loop", "why_tests_cant": "unbounded search loop over seeds", "anchors": ["src/exhaustive/brainpool.c: brainpool_gen_equation", "src/exhaustive/brainpool_rfc.c: brainpool_rfc_gen_equation"]}
{"id": "C18", "title": "Brainpool acceptance checks enforce order < p and a large embedding degree", "statement": "A Brainpool curve is only accepted if its order is smaller than p and the embedding degree l of the generator order n satisfies l > (n-1)/100; otherwise generation goes back to the stated step.", "quantifier": "every curve, order and field", "why_tests_cant": "pure decision rule over unbounded integers", "anchors": ["src/exhaustive/brainpool.c: brainpool_check_order, brainpool_check_gens"]}
{"id": "C19", "title": "NUMS fields are the largest suitable primes", "statement": "The NUMS field step returns the largest prime below 2^s that is congruent to 3 modulo 4, for every bit size s >= 2.", "quantifier": "every bit size", "why_tests_cant": "the maximality statement ranges over all smaller candidates", "anchors": ["src/exhaustive/nums.c: nums_gen_field"]}
{"id": "C20", "title": "NUMS tries b = 1, 3, 4, 5, ... in order for every curve and uses the right twist order", "statement": "Within one curve the NUMS coefficient b takes the values 1, 3, 4, 5, ... in increasing order without skipping a usable value; every new curve starts again at b=1; the twist order used in the acceptance test is 2(p+1) minus the curve order.", "quantifier": "every number of retries, every sequence of generated curves, every reuse of memory addresses", "why_tests_cant": "depends on static state kept between curves and on allocator behaviour", "anchors": ["src/exhaustive/nums.c: nums_gen_b, nums_gen_order"]}
{"id": "C21", "title": "A successful run means every stage and every check succeeded on the final values", "statement": "When curve generation between two stages reports success, the last execution of each stage in between, in order, reported success, all checks attached to it passed on its result, and no stage was re-executed or undone after a later stage consumed its result without that later stage being executed again.", "quantifier": "every combination of stages, checks and their outcomes, every sequence of failures, back-steps and timeouts", "why_tests_cant": "the set of failure/back-step histories is infinite", "anchors": ["src/exhaustive/exhaustive.c: exhaustive_gen_retry, exhaustive_gen"]}
{"id": "C22", "title": "Backtracking never leaves the stage range and always undoes later stages first", "statement": "When a stage asks to go back, generation resumes at the requested stage or, if that precedes the starting stage, at the starting stage; every later stage's undo hook is called once, latest first, before resuming; stage indexes stay within the arrays; a request that would go before stage 0 aborts with failure.", "quantifier": "every stage result, every history", "why_tests_cant": "unbounded histories", "anchors": ["src/exhaustive/exhaustive.c: exhaustive_gen_retry"]}
{"id": "C23", "title": "The retry limit bounds repeated failures of a stage", "statement": "With a positive retry limit r, generation never executes a stage again after it failed r times without succeeding in between, and reports failure in that case; with limit 0 it never gives up because of repeated failures.", "quantifier": "every retry limit and failure history", "why_tests_cant": "unbounded histories", "anchors": ["src/exhaustive/exhaustive.c: exhaustive_gen_retry"]}
{"id": "C24", "title": "A timed-out stage restarts generation from the starting stage", "statement": "If a stage times out, its result is discarded, no check is run on it, and generation resumes from the starting stage after undoing later stages; the timed-out curve is never output unless the stage is later completed.", "quantifier": "every stage and every moment at which the timer can fire", "why_tests_cant": "timer interrupts can hit any point of any stage", "anchors": ["src/exhaustive/exhaustive.c: exhaustive_gen_retry", "src/util/timeout.c"]}
{"id": "C25", "title": "The timeout handler never jumps into a finished computation", "statement": "The timer signal causes a jump only while a timed computation is active and only to the point established by that computation; after the computation stops, a late signal has no effect; every timer that is started is deleted exactly once.", "quantifier": "every interleaving of signal delivery with the start/stop calls", "why_tests_cant": "signal timing cannot be enumerated by tests", "anchors": ["src/util/timeout.c: timeout_handle, timeout_start, timeout_stop", "src/util/timeout.h"]}
{"id": "C26", "title": "Every accepted command line yields a complete generation plan", "statement": "For every configuration that command-line parsing accepts for the exhaustive, seeded, CM-like or invalid methods, every stage that will be run has a generator and an undo hook, and the plan matches the options (e.g. prime/cofactor/smooth order selection, unique generator, point selection).", "quantifier": "every accepted combination of options", "why_tests_cant": "the option space is a large product", "anchors": ["src/exhaustive/exhaustive.c: exhaustive_ginit, exhaustive_uinit, exhaustive_cinit", "src/io/cli.c"]}
{"id": "C27", "title": "Options that have no effect are reported", "statement": "Every option the user sets either influences the generation plan or is reported as unused in the warning at the end.", "quantifier": "every combination of options", "why_tests_cant": "the option space is a large product; an ignored option is silent", "anchors": ["src/misc/config.c: config_report_unused", "src/exhaustive/exhaustive.c: exhaustive_ginit"]}
{"id": "C28", "title": "Exhaustive output is a well-formed JSON array of exactly the generated curves", "statement": "The exhaustive method writes an opening bracket, the curves generated so far separated by commas, and a closing bracket: with n successful curves the array has exactly n elements and no stray separator, also when generation fails part-way.", "quantifier": "every requested count, every point of failure", "why_tests_cant": "failure position is arbitrary", "anchors": ["src/exhaustive/exhaustive.c: exhaustive_generate", "src/io/output.c"]}
{"id": "C29", "title": "Twisted curves get the order of the twist", "statement": "With the twist method, the order reported for a curve is the order of that very curve, i.e. 2q+2 minus the order of the curve it is a twist of, whatever earlier attempts were made.", "quantifier": "every field, every curve, every history of failed attempts", "why_tests_cant": "the defect needs a failed attempt followed by another", "anchors": ["src/gen/curve.c: curve_gen_any_twist", "src/math/twists.c: twist_rand_to"]}
{"id": "C30", "title": "Subgroup listings are exactly the divisors", "statement": "For every order n > 1 the list of all subgroup orders is the strictly increasing list of all divisors of n greater than 1, the prime list is the strictly increasing list of its prime divisors, and the non-prime list is the strictly increasing list of its composite divisors.", "quantifier": "every n > 1", "why_tests_cant": "n is unbounded and the subset enumeration has exponentially many cases", "anchors": ["src/math/subgroup.c: subgroups_prime, subgroups_nonprime, subgroups_all, subgroups_divisors"]}
{"id": "C31", "title": "Points generated for subgroup orders have exactly those orders", "statement": "For every generator G of order n and every listed subgroup order d dividing n, the generated point is a multiple of G, has order exactly d, and is labelled with d.", "quantifier": "every group, every generator, every list of divisors of its order", "why_tests_cant": "quantifies over all groups and orders", "anchors": ["src/gen/point.c: points_from_orders, points_gen_prime, points_gen_allgroups, points_gen_nonprime"]}
{"id": "C32", "title": "Every requested prime order dividing a curve's order gets a point", "statement": "On a curve of the invalid-curve attack, for every listed prime that divides the order of some generator, a point of that order is generated.", "quantifier": "every list of primes and every set of generators", "why_tests_cant": "needs curves whose order is divisible by several listed primes", "anchors": ["src/gen/point.c: points_gen_trial"]}
{"id": "C33", "title": "Random points are non-trivial subgroup elements", "statement": "Randomly generated points are multiples of a generator, are never the point at infinity, carry their true order, and exactly the requested number is produced.", "quantifier": "every group, every generator order, every random choice", "why_tests_cant": "the bad random choice is rare", "anchors": ["src/gen/point.c: points_gen_random, point_gen_random", "src/util/random.c: random_range"]}
{"id": "C34", "title": "Cofactor selection yields a generator of order order/cofactor", "statement": "With a cofactor requested, the single generator produced has order equal to curve order divided by the cofactor, is labelled with its true order and with that cofactor.", "quantifier": "every curve group, every generating set, every cofactor", "why_tests_cant": "group structure is arbitrary", "anchors": ["src/gen/gens.c: gens_gen_cofactor", "src/gen/order.c: order_gen_cofactor"]}
{"id": "C35", "title": "Order filters accept exactly the requested orders", "statement": "Prime selection accepts exactly prime orders; cofactor selection exactly orders h*r with r prime and h the cofactor; smooth selection exactly orders all of whose prime factors have at most the requested number of bits; otherwise generation goes back to choosing the field.", "quantifier": "every order, cofactor and bound", "why_tests_cant": "unbounded integers", "anchors": ["src/gen/order.c: order_gen_prime, order_gen_cofactor, order_gen_smooth"]}
{"id": "C36", "title": "Embedding degree and anomalous checks are correct", "statement": "The embedding degree reported for order n over a field of q elements is the least k >= 1 with n dividing q^k - 1 (0 exactly when n = q); the anomalous check rejects a prime-field curve exactly when some generator has order p.", "quantifier": "every prime/order pair", "why_tests_cant": "unbounded integers", "anchors": ["src/gen/gens.c: gens_get_embedding, gens_check_anomalous", "src/gen/metadata.c: metadata_gen"]}
{"id": "C37", "title": "Invalid-curve primes are the requested primes", "statement": "With a range a-b the primes used are exactly all primes in [a,b] in increasing order; with a single value n exactly the smallest prime >= n; with no range, the primes 2,3,5,... up to the first point where their product exceeds the square of the order.", "quantifier": "every order and every range", "why_tests_cant": "ranges and orders are unbounded", "anchors": ["src/invalid/invalid.c: invalid_primes"]}
{"id": "C38", "title": "Single-threaded invalid-curve search covers every prime once with clean output", "statement": "When the single-threaded search finishes, each prime has exactly one curve whose order it divides, each such curve is output exactly once, at the moment it was found, and separators appear exactly between consecutive curves.", "quantifier": "every sequence of random curves and every list of distinct primes", "why_tests_cant": "random search of unbounded length", "anchors": ["src/invalid/invalid.c: invalid_curves_single"]}
{"id": "C39", "title": "Multi-threaded invalid-curve search: no prime is lost, duplicated or stuck", "statement": "For every number of threads and every interleaving: no prime is assigned to two threads, the counter equals the number of finished primes, every finished curve has the order property for its prime, when the main thread stops every prime has been printed exactly once, and the main thread can always make progress (no lost wake-up) once a curve is finished.", "quantifier": "every number of threads, every schedule, every sequence of random curves, spurious wake-ups included", "why_tests_cant": "schedules cannot be enumerated by tests", "anchors": ["src/invalid/invalid.c: invalid_curves_threaded", "src/invalid/invalid_thread.c: invalid_thread"]}
{"id": "C40", "title": "Multi-threaded invalid-curve output is a well-formed JSON array", "statement": "For every schedule, the curves of the invalid-curve attack are printed with exactly one separator between consecutive curves and none after the last.", "quantifier": "every number of threads and every schedule", "why_tests_cant": "the bad schedule is timing dependent", "anchors": ["src/invalid/invalid.c: invalid_curves_threaded, invalid_do"]}
{"id": "C41", "title": "Binary fields: every supported degree has a tabulated polynomial", "statement": "For every degree m from 2 to 10000 the lookup returns a trinomial or pentanomial of degree exactly m with distinct middle exponents strictly between 0 and m; for any other m it reports that none exists.", "quantifier": "every m", "why_tests_cant": "tables hold about ten thousand entries that tests do not enumerate", "anchors": ["src/math/poly.c: poly_find, poly_exists, poly_gen, tables"]}
{"id": "C42", "title": "Tabulated field polynomials are irreducible", "statement": "The polynomial used for a random binary field is irreducible over GF(2), so the quotient is a field.", "quantifier": "every tabulated degree", "why_tests_cant": "large table of constants", "anchors": ["src/math/poly.c: tables", "src/gen/field.c: field_gen_random"]}
{"id": "C43", "title": "Field elements and integers convert both ways", "statement": "Converting an integer smaller than the field size to a field element and back gives the same integer, for prime and binary fields; and the reported binary-field parameters (m, e1, e2, e3) are the exponents of the field polynomial in decreasing order.", "quantifier": "every field and every integer below its size; every trinomial and pentanomial", "why_tests_cant": "unbounded", "anchors": ["src/gen/field.c: field_elementi, field_ielement, field_params"]}
{"id": "C44", "title": "Tabulated Koblitz orders are the true orders and are found for exactly the tabulated curves", "statement": "Lookup by (m, a) finds an entry exactly for the tabulated pairs, and the tabulated order is the number of points of the curve y^2+xy=x^3+ax^2+1 over the field with 2^m elements (equivalently 2^m + 1 - V_m with V the Lucas sequence of the curve).", "quantifier": "every pair (m, a)", "why_tests_cant": "table of large constants; lookup quantifies over all pairs", "anchors": ["src/math/koblitz.c: koblitz_find, koblitz_get_order, koblitz_curves"]}
{"id": "C45", "title": "The Koblitz order table is used only for binary Koblitz curves", "statement": "A tabulated order is assigned to a curve only if the curve is defined over the binary field of the tabulated degree; for other curves the order is computed.", "quantifier": "every accepted configuration", "why_tests_cant": "needs a specific combination of options", "anchors": ["src/gen/order.c: order_gen_koblitz", "src/exhaustive/exhaustive.c: exhaustive_ginit"]}
{"id": "C46", "title": "Pairing-friendly family parameters define curves", "statement": "For every family and every parameter z for which p(n(z)) and r(n(z)) are integers, r divides p+1-t, r divides Phi_k(p) for the family's embedding degree k, and 4p - t^2 is |D| times a square, where t is the family's trace.", "quantifier": "every family, every integer z", "why_tests_cant": "polynomial identities over all integers", "anchors": ["src/exhaustive/family.c: family_init"]}
{"id": "C47", "title": "Failed or exhausted input never becomes a curve parameter", "statement": "When reading a number from the user or file fails (empty line, number too large, end of input), no value is used as a parameter; a number the user types is used as typed or rejected.", "quantifier": "every input stream", "why_tests_cant": "input streams are unbounded; the sentinel values collide with real inputs", "anchors": ["src/io/input.c: input_i, input_prime, input_int", "src/exhaustive/family.c: family_gen_seed_input", "src/gen/equation.c: a_gen_input, b_gen_input", "src/gen/field.c: field_gen_input"]}
{"id": "C48", "title": "Anomalous construction: p has the claimed form, size and j-invariant", "statement": "The anomalous method's field prime satisfies 4p = 1 + D*(2b+1)^2, has the requested number of bits, and the constructed curve has the j-invariant of discriminant -D.", "quantifier": "every bit size and every random choice", "why_tests_cant": "random choices unbounded", "anchors": ["src/cm/anomalous.c: anomalous_init, anomalous_prime, anomalous_gen_field, anomalous_gen_equation"]}
{"id": "C49", "title": "Supersingular construction: the reported order p+1 is the number of points", "statement": "The order reported by the supersingular method, p+1, is the true number of points of the constructed curve.", "quantifier": "every prime p", "why_tests_cant": "unbounded primes; needs a counting argument", "anchors": ["src/cm/supersingular.c: supersingular_gen_equation, supersingular_gen_order"]}
{"id": "C50", "title": "CM discriminant search is sound and complete", "statement": "For a prime order N, every accepted discriminant D and prime p satisfy (p+1-N)^2 - 4p = D*y^2 with D negative and = 5 (mod 8); and as the prime list grows, every subset of the small primes is eventually tried as a discriminant.", "quantifier": "every order, every growth history of the prime list", "why_tests_cant": "enumeration order depends on history", "anchors": ["src/cm/cm_prime.c: qdisc_next, qdisc_init, good_qdisc_minimal, add_primes"]}
{"id": "C51", "title": "Reduced quadratic forms are enumerated exactly and within the buffer", "statement": "The class-group enumeration returns each primitive reduced form [A,B,C] with AC-B^2=D exactly once and nothing else, and never writes more forms than it reserved room for.", "quantifier": "every D > 0", "why_tests_cant": "D is unbounded; the overflow needs particular D", "anchors": ["src/cm/p1363.c: p1363_group, p1363_forms"]}
{"id": "C52", "title": "CM curve selection returns a curve with the requested order", "statement": "The curve chosen between a candidate and its quadratic twist has the requested number of points.", "quantifier": "every order/twist pair, every random point", "why_tests_cant": "random point choice", "anchors": ["src/cm/cm_any.c: cm_construct_curve"]}
{"id": "C53", "title": "CM order argument is parsed exactly", "statement": "The order given as a decimal number or as a comma-separated list of factors is accepted exactly when it is such a list, the order used is their product, and it is rejected if it has more bits than the field size.", "quantifier": "every argument string", "why_tests_cant": "unbounded strings", "anchors": ["src/cm/cm.c: cm_order, cm_init"]}
{"id": "C54", "title": "Numbers read from input fit the requested size", "statement": "A number accepted for a field of the given bit size is non-negative and has at most that many bits.", "quantifier": "every input line and bit size", "why_tests_cant": "unbounded", "anchors": ["src/io/input.c: input_i"]}
{"id": "C55", "title": "Text fields are read completely", "statement": "Reading a text value returns exactly the characters before the next delimiter or the end of the input.", "quantifier": "every input stream", "why_tests_cant": "unbounded streams; end-of-file without delimiter", "anchors": ["src/io/input.c: input_string"]}
{"id": "C56", "title": "Only consistent command lines are accepted", "statement": "Accepted command lines select exactly one field type, at most one method, at most one of prime/cofactor/smooth, a seed of valid length and alphabet for the selected seed algorithm, and no binary field for methods that need a prime field.", "quantifier": "every sequence of options", "why_tests_cant": "sequences of options are unbounded (repeated and reordered options)", "anchors": ["src/io/cli.c: cli_parse, cli_end"]}
{"id": "C57", "title": "String helpers compute what they say within their buffers", "statement": "Joining strings returns the strings with the separator between consecutive ones, in a buffer large enough, for every number of strings; counting returns the number of occurrences; the hex test accepts exactly hexadecimal texts with an optional 0x prefix.", "quantifier": "every list of strings, every separator, every text", "why_tests_cant": "heap overflow needs more strings than tests use", "anchors": ["src/util/str.c: str_join, str_joinv, str_cnt, str_is_hex"]}
{"id": "C58", "title": "The hex-pattern filter accepts exactly curves containing the pattern", "statement": "A curve passes the hex filter at the end exactly when the hexadecimal expansion of at least one of its parameters contains the pattern (case-insensitively).", "quantifier": "every pattern and curve", "why_tests_cant": "false matches across parameter boundaries need specific values", "anchors": ["src/gen/hex.c: hex_check_param, hex_point, hex_points"]}
{"id": "C59", "title": "Curves are freed exactly once and copies are independent and complete", "statement": "Copying a curve gives a curve with the same parameters, seed and metadata that shares no memory with the original; freeing releases every owned object exactly once and leaves no dangling pointer in the structure.", "quantifier": "every curve in every stage of completion", "why_tests_cant": "partial curves have many shapes", "anchors": ["src/obj/curve.c", "src/obj/subgroup.c", "src/obj/point.c", "src/gen/seed.c"]}
{"id": "C60", "title": "Metadata is consistent with the curve", "statement": "The reported Frobenius trace t, CM discriminant D and conductor f satisfy t = q+1-n and t^2 - 4q = D*f^2 with D fundamental, and the reported j-invariant is that of the curve.", "quantifier": "every curve", "why_tests_cant": "unbounded integers", "anchors": ["src/gen/metadata.c: metadata_gen"]}
{"id": "C61", "title": "Memory and time suffixes scale as documented", "statement": "Size options accept a decimal number with an optional K/M/G suffix (time: s/m/h/d) and give number times the suffix factor; text with other suffixes is rejected.", "quantifier": "every argument string", "why_tests_cant": "unbounded strings, overflow", "anchors": ["src/io/cli.c: cli_parse_memory, cli_parse_time"]}
{"id": "C62", "title": "Random integers and primes stay in the requested range", "statement": "A random integer (prime) of b bits has exactly b bits; a random number from a half-open range is at least the lower bound and below the upper bound.", "quantifier": "every bit size, every range and every outcome of the random source", "why_tests_cant": "boundary outcomes have negligible probability in tests", "anchors": ["src/util/random.c: random_int, random_prime, random_range, random_field_element"]}
{"id": "C63", "title": "Brainpool generators are a seed-determined multiple of the point with the smallest x", "statement": "The Brainpool generator is [k]P where k is the integer expanded (with the coefficient parameters) from the seed after the last one used, P is a point whose x coordinate is the smallest x >= 0 with a point on the curve, and the recorded order and cofactor are ord(G) and floor(N / ord(G)).", "quantifier": "every curve, every seed", "why_tests_cant": "unbounded search for x and arbitrary seeds", "anchors": ["src/exhaustive/brainpool.c: brainpool_gen_gens"]}
{"id": "C64", "title": "NUMS generators have the smallest x and the smaller y", "statement": "The NUMS generator is the point with the smallest x >= 1 for which the curve has a point and with the smaller of the two y values; order and cofactor recorded are ord(G) and floor(N / ord(G)).", "quantifier": "every curve", "why_tests_cant": "unbounded search for x; single-root case", "anchors": ["src/exhaustive/nums.c: nums_gen_gens"]}
{"id": "C65", "title": "Exhausted input ends the run", "statement": "When the input (file or terminal) has ended, a generation stage that needs another number ends the run with failure instead of being repeated.", "quantifier": "every stage reading from the input, every configuration", "why_tests_cant": "the failure is a run that never ends, which a test with a time limit cannot tell from a slow one, and it needs every input-reading stage", "anchors": ["src/io/input.c:13-33", "src/gen/field.c:36-96", "src/gen/equation.c:14-32", "src/exhaustive/exhaustive.c:343-443"]}
{"id": "C66", "title": "CM construction for a subgroup order", "statement": "The curve constructed from a discriminant for a subgroup of order r has a number of points divisible by r, and a curve is found whenever a curve of that discriminant (or its twist) has such an order.", "quantifier": "every r, discriminant and prime field, every set of class polynomial roots", "why_tests_cant": "depends on number-theoretic data of arbitrary size", "anchors": ["src/cm/cm_any.c: cm_construct_curve_subgroup", "src/exhaustive/family.c: family_gen_equation_cm"]}
{"id": "C67", "title": "The JSON library writes valid JSON for exactly the document built", "statement": "For a document built through the library's interface whose text is not too long for an int, serialising gives a text that is valid JSON, that denotes exactly that document and no other, and the size computed beforehand is the size written, so nothing is written outside the buffer.", "quantifier": "every nesting of objects, arrays and strings of arbitrary bytes", "why_tests_cant": "the documents and the strings in them are unbounded; the buffer size and the writing are two separate passes that must agree on all of them", "anchors": ["lib/parson/parson.c: json_serialize_to_string_pretty, json_serialize_string, json_object_set_value, json_object_dotset_value"]}
{"id": "C68", "title": "A printed curve can be read back", "statement": "The text printed for a curve is valid JSON from which the field, the seed, both coefficients, the order, the subgroups with all their points, orders and cofactors and the metadata can be read back unchanged; the output of a run is one JSON array of the generated curves in order.", "quantifier": "every curve over prime and binary fields, every number of subgroups, points and curves", "why_tests_cant": "the number, size and structure of curves are unbounded", "anchors": ["src/io/output.c: output_jjson, output_json_point, output_sjson", "src/exhaustive/exhaustive.c: exhaustive_generate"]}
{"id": "C69", "title": "The family search tries every b in order and every sign", "statement": "For each new curve of a pairing-friendly family with discriminant -3 the attempts use a = 0 and b = 1, 2, 3, ... without gaps or repetition; a random family parameter has the requested number of bits and can have either sign.", "quantifier": "every sequence of curves and attempts, every field, every random number", "why_tests_cant": "the search keeps static state between curves, keyed by an address that may be reused", "anchors": ["src/exhaustive/family.c: family_gen_equation_iter, family_gen_seed_random", "src/exhaustive/exhaustive.c: exhaustive_generate"]}
{"id": "C70", "title": "No number is used after its stack memory was taken back", "statement": "Throughout a run no generator, check, undo function or output function reads a PARI number whose stack memory was released (avma = ltop, gerepile, the engine's rollback) or whose clone was freed, none follows a NULL pointer, and the stack pointer is only ever lowered to an older position, whatever the values computed and wherever timeouts interrupt a generator.", "quantifier": "every accepted command line with a generation method, every outcome of every comparison and search, every position of timeouts, every number of curves", "why_tests_cant": "released stack memory keeps its contents until it is reused, so reading it rarely shows; the paths depend on values, rollbacks and timeouts", "anchors": ["src/exhaustive/exhaustive.c: exhaustive_gen_retry, exhaustive_generate", "src/gen/*.c", "src/exhaustive/{ansi,brainpool,brainpool_rfc,nums,family}.c", "src/cm/{anomalous,supersingular,cm_any,cm_prime}.c", "src/math/{twists,subgroup}.c"]}
{"id": "C71", "title": "What ends up in the files", "statement": "A run of ecgen uses only open streams and leaves none open; it changes no file but those named by --output and --verbose; the output file (or stdout) ends up with exactly the text the method writes, after the old contents if --append is given, and with status 0 the exhaustive method leaves a JSON array of the requested number of curves; the exit status is the method's, and 1 when the input cannot be read.", "quantifier": "all settings of --output, --append, --input and --verbose, all file systems, all paths (also two names of one file), all methods and inputs, any write falling short", "why_tests_cant": "the tests look at parts of the output of a few runs; which streams are open at which exit, two names for one file, a full disk and unopenable files are never tried", "anchors": ["src/ecgen.c:55-135", "src/io/output.c: output_init, output_quit", "src/io/input.c: input_init, input_quit", "src/exhaustive/exhaustive.c: exhaustive_generate"]}
{"id": "C72", "title": "The seed of the random generator", "statement": "random_reseed gives PARI the number made of the first eight bytes of /dev/urandom, however many pieces they are delivered in and without writing outside the variable, so that different bytes give different seeds; only when the device cannot be opened or delivers zeros is the clock used; it always ends and always with a seed PARI accepts.", "quantifier": "all contents of the device, all ways fread cuts them into pieces, all readings of the clock", "why_tests_cant": "the device and the clock cannot be controlled from a test; short reads, a device that delivers nothing and a reading of 0 ns do not happen there", "anchors": ["src/util/random.c:11-36"]}
{"id": "C73", "title": "The memory of a setup", "statement": "Building a setup (arguments, checks, discriminants, texts) puts into memory exactly the arguments and checks that the command line asks for, no block is used after it was freed, none is freed twice (also where two setups share their arrays), and when the method returns every block has been freed.", "quantifier": "all accepted command lines of the exhaustive, CM, anomalous, supersingular and invalid methods, all states of memory, every behaviour of the engine that cleans up after itself", "why_tests_cant": "the tests run a few option sets and do not look at memory that is lost; which options meet in one slot of the arrays depends on combinations", "anchors": ["src/exhaustive/exhaustive.c: exhaustive_clear, exhaustive_cinit, exhaustive_ainit, exhaustive_do", "src/exhaustive/arg.c", "src/exhaustive/check.c", "src/cm/cm.c: cm_ainit, cm_init, cm_do", "src/cm/anomalous.c: anomalous_init, anomalous_quit", "src/invalid/invalid.c: invalid_do"]}
{"id": "C74", "title": "The PARI stack in the invalid-curve method", "statement": "While the invalid-curve method makes the curve to invalidate, searches with one thread or several, keeps, copies, prints and frees curves, no number is read after its stack memory was taken back or it was freed, no NULL pointer is followed, and the stack pointer is never raised; a curve a thread has published stays readable for the main thread until that frees it.", "quantifier": "all accepted command lines for the method, all values PARI computes, all timeouts, any number of primes, rounds, copies and threads", "why_tests_cant": "a number on memory taken back usually still reads correctly; which candidate is last when another thread ends the search, and where a timeout comes, is not repeatable", "anchors": ["src/invalid/invalid.c: invalid_primes, invalid_curves_single, invalid_curves_threaded, invalid_original_curve, invalid_do", "src/invalid/invalid_thread.c: invalid_thread", "src/exhaustive/exhaustive.c: exhaustive_gen_retry", "src/obj/curve.c: curve_copy, curve_free", "src/gen/point.c: points_gen_trial, points_unroll"]}
{"id": "C75", "title": "A whole run over a prime field", "statement": "A run with --fp and --random that ends with status 0 leaves in the output file a JSON array of exactly --count objects. Each, read as numbers, is a curve that was asked for: a prime of the requested size; reduced coefficients of a nonsingular curve; its true number of points, prime, smooth or with the cofactor that was asked for; generators that lie on the curve, carry their true orders and cofactors and generate the group (one with --unique); the points of --points, of true orders and in the subgroup of their generator; with --metadata the invariants of the curve and without it none; with --hex-check the digits in one of its numbers. A search does not run into undefined behaviour.", "quantifier": "all command lines of the exhaustive method over a prime field with random parameters, all random draws, timeouts, numbers of failed attempts, file systems in which output, log and input are different files", "why_tests_cant": "the tests check one stage at a time on a few curves; that the stages fit together for every combination of options, after any backtracking, and that what is printed is what was found, needs an argument over all runs", "anchors": ["src/ecgen.c: main", "src/io/cli.c: cli_parse, cli_end", "src/exhaustive/exhaustive.c: exhaustive_init, exhaustive_gen_retry, exhaustive_generate, exhaustive_do", "src/gen/field.c: field_gen_random", "src/gen/equation.c: a_gen_random, b_gen_random", "src/gen/curve.c: curve_gen_any, curve_check_nonzero", "src/gen/order.c: order_gen_any, order_gen_prime, order_gen_cofactor, order_gen_smooth", "src/gen/gens.c", "src/gen/point.c", "src/gen/metadata.c: metadata_gen", "src/gen/hex.c: hex_check_param", "src/io/output.c: output_o, output_s"]}
{"id": "C76", "title": "Typed parameters and Koblitz coefficients reach the output", "statement": "A run of the default method over a prime field that ends with status 0 leaves in the output file a JSON array of exactly --count objects, made of consecutive parts of the input. The prime of each curve is the last prime that was typed for it, or has the requested size if it is random. Its coefficients are the numbers that were typed next, reduced modulo the prime, with only refused numbers (too large, or the reserved -1 and -2) typed in between; or reduced random ones; or those of --koblitz. Everything else is as asked for in C75. No text that was typed for one curve is used for another, and no text is skipped.", "quantifier": "all command lines of the default method over a prime field, each of the three parameters typed or random or --koblitz, all inputs from a file or the keyboard, all draws, timeouts and failed attempts, all file systems in which output, log and input are different files", "why_tests_cant": "which typed number ends up in which curve depends on where attempts fail and on timeouts between the prompts; tests type one curve that succeeds at once", "anchors": ["src/gen/field.c: field_gen_input, field_gen_random", "src/gen/equation.c: a_gen_input, b_gen_input, a_gen_zero, a_gen_one, b_gen_one", "src/gen/order.c: order_gen_koblitz", "src/io/input.c: input_i, input_int, input_prime", "src/exhaustive/exhaustive.c: exhaustive_ginit, exhaustive_gen_retry, exhaustive_generate", "src/io/cli.c: cli_parse, cli_end", "src/ecgen.c: main", "src/io/output.c: output_o"]}
{"id": "C77", "title": "A whole run for supersingular curves", "statement": "A run with --fp --supersingular that ends with status 0 leaves in the output file a JSON array of exactly --count objects, made of consecutive parts of the input. The prime of each is the last prime that was typed for it, or has the requested size if it is random; the coefficients are reduced; the curve is nonsingular and has exactly p + 1 points, which is the order that is printed; generators, points, metadata and digits are as asked for in C75. With a random field and without --hex-check a search does not run into undefined behaviour.", "quantifier": "all command lines of the supersingular method over a prime field, the prime typed or random, all inputs, draws, timeouts and failed attempts, all file systems in which output, log and input are different files", "why_tests_cant": "the tests run a few sizes and do not count points; that the curve and the order match needs the theory of supersingular curves for every prime, and that this reaches the file an argument over all runs", "anchors": ["src/cm/supersingular.c: supersingular_gen_equation, supersingular_gen_order", "src/cm/cm.c: cm_init, cm_do", "src/gen/field.c: field_gen_input, field_gen_random", "src/exhaustive/exhaustive.c: exhaustive_gen_retry, exhaustive_generate", "src/io/cli.c: cli_parse, cli_end", "src/ecgen.c: main", "src/io/output.c: output_o"]}
{"id": "C78", "title": "A whole run for curves from a seed", "statement": "A run with --fp --ansi that ends with status 0 leaves in the output file a JSON array of exactly --count objects, made of consecutive parts of the input. Each has a seed: that of the argument, the last valid one that was typed for it, or a random one of 160 bits, printed with two digits for every byte. The prime is the last one typed for it or a random one of the requested size, and the coefficients satisfy r b^2 = a^3 modulo p for the r that X9.62 makes out of the bits of the seed (hashed as whole bytes). Order, generators, points, metadata and digits are as asked for in C75. With a random field, a seed that is not typed and r different from zero, a search does not run into undefined behaviour. When the input ends where a seed is expected, the search does not end.", "quantifier": "all command lines of the ANSI method over a prime field, seed and prime typed, random or given, all inputs, draws, timeouts and failed attempts, all file systems in which output, log and input are different files", "why_tests_cant": "the tests check one or two seeds and do not recompute r from the printed curve; that every published curve can be checked against the seed needs an argument over all seeds and runs, including those in which a timeout or a failed attempt replaces the seed", "anchors": ["src/exhaustive/ansi.c: ansi_gen_seed_argument, ansi_gen_seed_random, ansi_gen_seed_input, ansi_gen_equation", "src/exhaustive/exhaustive.c: exhaustive_ginit, exhaustive_gen_retry, exhaustive_generate", "src/gen/seed.c: seed_unroll", "src/io/input.c: input_string", "src/io/cli.c: cli_parse, cli_end", "src/ecgen.c: main", "src/io/output.c: output_o"]}
{"id": "C79", "title": "A whole run over a binary field", "statement": "A run with --f2m --random that ends with status 0 leaves in the output file a JSON array of exactly --count objects. Each names the exponents of one irreducible polynomial of the requested degree (four numbers, zeros for those that are not there), and two coefficients below 2^bits; with --koblitz a is the chosen 0 or 1 and b is 1. The curve y^2 + xy = x^3 + ax^2 + b over the field of that polynomial is nonsingular, the printed order is its number of points, and generators, points, metadata and digits are as asked for in C75, in the group of that curve. With a degree other than 1060 and without --hex-check a search does not run into undefined behaviour.", "quantifier": "all command lines of the default method over a random binary field with random or Koblitz coefficients, for the degrees with a polynomial known to be irreducible, all draws, timeouts and failed attempts, all file systems in which output, log and input are different files", "why_tests_cant": "the tests run small degrees and do not check that the printed numbers describe one curve and its group; that needs the group law over every binary field and an argument over all runs", "anchors": ["src/gen/field.c: field_gen_random, field_binaryr", "src/gen/equation.c: a_gen_random, b_gen_random, a_gen_zero, a_gen_one, b_gen_one", "src/math/poly.c: poly_find, poly_gen", "src/math/koblitz.c: koblitz_get_order", "src/exhaustive/exhaustive.c: exhaustive_ginit, exhaustive_generate", "src/io/cli.c: cli_parse, cli_end", "src/ecgen.c: main", "src/io/output.c: output_o"]}
{"id": "C80", "title": "A whole run with --brainpool or --brainpool-rfc", "statement": "A run with --brainpool or --brainpool-rfc that ends with status 0 leaves in the output file a JSON array of exactly --count objects. For each there is a first seed of 160 bits (the argument, the last one typed, or a random one) from which the Brainpool procedure makes the printed prime, coefficients and generator: the seeds are taken one after the other, a field, equation or order that does not fit is skipped and no other, the order is the number of points, prime and smaller than p, with an embedding degree above (n - 1) / 100, and the generator is the multiple of a point with the smallest x that the last seed says. With a seed argument and without --hex-check all curves of all runs are the same, up to the sign of the generator.", "quantifier": "all command lines with one of the two options, all sizes of 3 bits or more, all seeds, draws, timeouts and failed attempts, all file systems in which output, log and input are different files", "why_tests_cant": "the tests compare a few known seeds; that no seed is skipped or used twice after a failed attempt, for every seed and size, needs an invariant over all attempts of a search", "anchors": ["src/exhaustive/brainpool.c: brainpool_gen_field, brainpool_gen_equation, brainpool_gen_gens", "src/exhaustive/brainpool_rfc.c: brainpool_rfc_gen_equation", "src/gen/order.c", "src/gen/gens.c", "src/exhaustive/exhaustive.c: exhaustive_ginit, exhaustive_generate", "src/io/cli.c: cli_parse, cli_end", "src/ecgen.c: main", "src/io/output.c: output_o"]}
{"id": "C81", "title": "A run with --nums publishes the NUMS curve of its size", "statement": "A run of ecgen with --nums that ends with status 0 leaves in the output file a JSON array of exactly --count objects. Each is a curve y^2 = x^3 - 3x + b over the largest prime below 2^bits that is 3 modulo 4, without a seed; the printed order is its number of points, that number and that of the twist are prime, it is not the prime of the field, the embedding degree is above (n - 1) / 100, and the generator is the point with the smallest x > 0 and the smaller y. If no attempt times out, no curve is stored at the address of the one before it and --hex-check is not given, b is the least positive number with these properties, so all curves of all runs of that size are the same. No search does anything undefined (the two square roots that are compared exist) without --hex-check.", "quantifier": "all command lines with --nums, all sizes of 3 bits or more, all draws, timeouts, addresses of curves and failed attempts, all file systems in which output, log and input are different files", "why_tests_cant": "the tests run a few small sizes; that no value of b is skipped after any sequence of failures at any stage, and that a curve with a single square root never gets as far as the generator, is a statement about all sizes and searches", "anchors": ["src/exhaustive/nums.c: nums_gen_field, nums_gen_a, nums_gen_b, nums_gen_order, nums_gen_gens", "src/gen/gens.c: gens_check_anomalous", "src/exhaustive/brainpool.c: brainpool_check_gens", "src/exhaustive/exhaustive.c: exhaustive_ginit, exhaustive_cinit, exhaustive_generate", "src/io/cli.c: cli_parse, cli_end", "src/ecgen.c: main", "src/io/output.c: output_o"]}
{"id": "C82", "title": "A run with --anomalous publishes curves with as many points as the field has elements", "statement": "A run of ecgen with --fp --random --anomalous and at least 6 bits that ends with status 0 leaves in the output file a JSON array of exactly --count objects. Each is a curve over a prime p = 163 * (m(m+1)) + 41 that is at most 2^bits, and has exactly the size asked for except where the integer division by 163 makes it come out short (C48); its j-invariant is -640320^3, its printed order is p and equals its number of points, and generators and points are as --unique and --points say, of true orders. No search does anything undefined without --hex-check.", "quantifier": "all command lines with --anomalous, all sizes of 6 bits or more, all draws, timeouts and failed attempts, all file systems in which output, log and input are different files", "why_tests_cant": "the tests run a few sizes with random draws; that the curve belongs to the field it is printed with after any sequence of timeouts and failures, for all sizes and draws, needs an invariant over all attempts of a search", "anchors": ["src/cm/anomalous.c: anomalous_gen_field, anomalous_gen_equation, anomalous_gen_order", "src/cm/cm.c: cm_ginit, cm_ainit, cm_cinit, cm_do", "src/exhaustive/exhaustive.c: exhaustive_generate", "src/io/cli.c: cli_parse, cli_end", "src/ecgen.c: main", "src/io/output.c: output_o"]}
{"id": "C83", "title": "A run with --family publishes curves of the family, with the embedding degree of the family", "statement": "A run of ecgen with --fp --family=F, where F is BN, BLS12, BLS24, KSS18 or KSS36, that ends with status 0 leaves in the output file a JSON array of exactly --count objects. Each has the parameter z in hexadecimal as its seed: of the size asked for and of either sign with --random, what was typed for this curve otherwise (-1 if that is above 2^bits). Its field has p(z) elements for the formula of the family, p(z) is prime, its equation is y^2 = x^3 + b, its printed order is its number of points and is divisible by the prime r(z), and p(z) has modulo r(z) the order 12, 12, 24, 18 or 36 of the family. b is the least positive one for which r(z) divides the number of points, if no timeout interferes and no curve gets the address of an earlier one. Generators and points are of true orders and as --points says. No search does anything undefined without --hex-check.", "quantifier": "all command lines with --family, all five families, all sizes of the parameter, all draws, typed inputs, timeouts and failed attempts, all file systems in which output, log and input are different files", "why_tests_cant": "the tests run the families with one size of 16 bits and look at nothing but the exit code; the embedding degree for all parameters is an algebraic fact about the formulas, and that curve, field and parameter belong together after any sequence of timeouts and failures needs an invariant over all attempts", "anchors": ["src/exhaustive/family.c: family_gen_seed_random, family_gen_seed_input, family_gen_field, family_gen_equation_iter, family_gen_order", "src/exhaustive/exhaustive.c: exhaustive_ginit, exhaustive_generate", "src/io/input.c: input_int", "src/io/cli.c: cli_parse, cli_end", "src/ecgen.c: main", "src/io/output.c: output_o"]}
{"id": "C84", "title": "A whole run for curves from a seed over a binary field", "statement": "A run with --f2m --ansi --random=field that ends with status 0 leaves in the output file a JSON array of exactly --count objects, made of consecutive parts of the input. Each has the reduction polynomial of the tables for the degree, and a seed: that of the argument, the last valid one that was typed for it, or a random one of 160 bits, printed with two digits for every byte. Its b is the number that X9.62 makes out of the bits of the seed (hashed as whole bytes) and is not zero; its a is random with the top bit set. Order, generators, points, metadata and digits are as asked for in C79. With a seed that is not typed and a degree other than 1060 a search does not run into undefined behaviour. A seed argument for which b is zero never gives a curve. If the random number for a is 2^m, a is not an element of the field of degree m.", "quantifier": "all command lines of the ANSI method over a binary field that is not typed, seeds typed, random or given, all inputs, draws other than 2^m, timeouts and failed attempts, all file systems in which output, log and input are different files", "why_tests_cant": "the tests run one seed over one binary field and do not recompute b from the printed seed; that every published b fits the seed beside it needs an argument over all seeds, degrees and runs, including those in which a timeout or b = 0 replaces the seed; a seed that never succeeds looks like a slow one", "anchors": ["src/exhaustive/ansi.c: ansi_gen_seed_argument, ansi_gen_seed_random, ansi_gen_seed_input, ansi_gen_equation, ansi_gen_equation_f2m", "src/gen/field.c: field_gen_random, field_binaryr", "src/util/random.c: random_int", "src/exhaustive/exhaustive.c: exhaustive_ginit, exhaustive_gen_retry, exhaustive_generate", "src/gen/seed.c: seed_unroll", "src/io/cli.c: cli_parse, cli_end", "src/ecgen.c: main", "src/io/output.c: output_o"]}
{"id": "C85", "title": "A whole run over a binary field with coefficients that are typed in", "statement": "A run with --f2m and the default method whose field is not typed (--random=field) and that ends with status 0 leaves in the output file a JSON array of exactly --count objects, made of consecutive parts of the input. Each has the reduction polynomial of the tables for the degree. Its a and its b are, each on its own, a random element, the coefficient of --koblitz, or the absolute value of the last number that was typed for it; before that number only numbers above 2^m and the marks -1 and -2 were typed for it, and read as refused. Order, generators, points, metadata and digits are as asked for in C79. For a degree other than 1060 a search does not run into undefined behaviour. This is for inputs of numbers above -2^m other than 2^m, of empty items and of missing ones: 2^m is taken for a coefficient although it is no element of the field.", "quantifier": "all command lines of the default method over a binary field that is not typed, all subsets of typed, random and Koblitz coefficients, all inputs (a curve is described as long as the items read for it are usable), draws, timeouts and failed attempts, all file systems in which output, log and input are different files", "why_tests_cant": "a test types a few coefficients for one field; that after every sequence of refused numbers, singular curves, wrong orders and timeouts the published coefficients are the last ones typed needs an argument over all inputs and runs", "anchors": ["src/gen/equation.c: a_gen_input, b_gen_input, a_gen_random, b_gen_random, a_gen_zero, a_gen_one, b_gen_one", "src/gen/field.c: field_gen_random, field_binaryr, field_ielement", "src/io/input.c: input_int, input_i", "src/exhaustive/exhaustive.c: exhaustive_ginit, exhaustive_gen_retry, exhaustive_generate", "src/io/cli.c: cli_parse, cli_end", "src/ecgen.c: main", "src/io/output.c: output_o"]}
{"id": "C86", "title": "Checks of the order's largest prime factor and of the discriminant", "statement": "order_check_pohlig_hellman with a text for the number v passes (1) exactly if a prime above v divides the order, and otherwise goes back to the field stage (-4). order_check_discriminant over a prime field passes exactly if the square free part of t^2 - 4p is above v in absolute value, t = p + 1 - order, and otherwise goes back to the field stage; over a binary field it always passes. Without an argument both end the generation. In terms of the discriminant D of the imaginary quadratic field it is D that is compared if D is odd and D/4 if it is even. For an order of 1 the first check must not read an entry that is not there.", "quantifier": "all orders, primes, bounds written in decimal or hexadecimal", "why_tests_cant": "the tests have one order with two bounds; that the comparison uses the greatest prime and a number that does not depend on how t^2 - 4p is written as d f^2 needs uniqueness of the square free part", "anchors": ["src/gen/order.c: order_check_pohlig_hellman, order_check_discriminant", "src/gen/field.c: field_elementi"]}
{"id": "C87", "title": "The curve made for --order has exactly that many points", "statement": "When cm_gen_curve_prime returns 1 for the text of a prime N, the field it stores has a prime number p of elements, the curve it stores has exactly N points, and N is what cm_gen_order stores as the order. When cm_gen_curve_any returns 1 for the text of a number N, the same holds. Without an argument both return INT_MIN and store nothing; when no curve is found cm_gen_curve_any goes back to the field stage (-3).", "quantifier": "all orders written in decimal or hexadecimal, all random points", "why_tests_cant": "the tests construct one or two curves; whether the curve or its twist is taken depends on a random point, and one family of discriminants has more twists than the two that are tried", "anchors": ["src/cm/cm_prime.c: cm_gen_curve_prime", "src/cm/cm_any.c: cm_gen_curve_any, cm_gen_order, cm_construct_curve"]}
{"id": "C88", "title": "A run with --order publishes curves with exactly that many points", "statement": "A run of ecgen with --fp --order=N, where N is a prime, that ends with status 0 leaves in the output file a JSON array of exactly --count objects. Each is a curve without a seed over a field with a prime number p of elements, not singular, with coefficients between 0 and p - 1, whose number of points is N, and N is the order that is printed. Its generator generates all points. The points that are printed are those of prime order, whatever --points says; --prime, --cofactor and --smooth have no effect. No search does anything undefined without --hex-check.", "quantifier": "all prime orders, all command lines with --order, all draws, timeouts and failed attempts, all file systems in which output, log and input are different files", "why_tests_cant": "the tests run two or three orders and look at nothing but the exit code; which discriminant is taken and whether the curve or its twist is right depends on N and on random points", "anchors": ["src/cm/cm.c: cm_init, cm_ginit, cm_ainit, cm_cinit, cm_do", "src/cm/cm_prime.c: cm_gen_curve_prime, qdisc_next", "src/cm/cm_any.c: cm_construct_curve, cm_gen_order", "src/exhaustive/exhaustive.c: exhaustive_generate", "src/io/cli.c: cli_parse, cli_end", "src/ecgen.c: main", "src/io/output.c: output_o"]}
{"id": "C89", "title": "Memory functions return a fresh block with the right contents, or end the program", "statement": "try_memdup(mem, len) and try_strdup(str) return a new block that holds the first len bytes, or the text with its final NUL; every other block is unchanged. try_realloc(ptr, size) returns a block of that size that starts with the old bytes. An array of num objects is new, all entries are NULL, and it is long enough. When there is no memory, the program ends with EXIT_FAILURE and a message (or with PARI's error), and nothing is returned. set_mem_funcs decides which functions are used from then on. The generators of every curve can be stored.", "quantifier": "all sizes, contents, heaps and allocation functions that do what the C standard says of them; all curves over prime fields from 3 elements and over binary fields", "why_tests_cant": "the tests copy a few short texts and cannot make an allocation fail; the block of 0 bytes is asked for only on a curve with a single point, which only fields with 2, 3 and 4 elements have", "anchors": ["src/util/memory.c: alloc, try_malloc, try_calloc, try_realloc, try_strdup, try_memdup, try_free, set_mem_funcs", "src/obj/obj.h: OBJS", "src/gen/gens.c: gens_put"]}
