# Formal model of ecgen in Rocq (Coq 8.16.1)

The source of truth is the C code in `/repo` (J08nY/ecgen, pinned commit). It is only read, never built or run.
The model lives in `rocq/theories/`. File naming per area `X`:

* `X_Model.v` – Gallina transcription of the C functions; every definition cites file and lines.
* `X_Spec.v` – (when the property needs one) a small specification written without looking at the model's helpers.
* `X_Proofs.v` – lemmas.
* `X_Props.v` – only property theorems, each closed by `exact lemma.` and followed by `Print Assumptions`,
  plus `Example`s showing that the hypotheses are met by concrete non-trivial cases.

## Conventions

* C integers: `Z`/`N`/`nat` with explicit `mod 2^64` (or 2^32, 2^8) wherever the code relies on wrap-around.
* Undefined behaviour (out-of-bounds access, NULL dereference, zero-length VLA, over-wide shift, signed overflow)
  is the distinct outcome `UB` of the result type `res` in `Base.v`; it is never silently totalised away.
* Unbounded loops take fuel; running out is the distinct outcome `Fuel`, excluded in statements ("whenever it finishes").
* PARI functions (isprime, factor, nextprime, ellmul, ellorder, ellff_get_card, genrand, square roots ...) are function
  parameters of the model. The properties assumed of them are visible hypotheses of each theorem, never axioms.
* A property that the faithful model violates gets a theorem `..._refuted` exhibiting a concrete counterexample, plus the
  strongest true restriction (`..._partial` or a precisely guarded theorem). Each is listed under "Findings".

## Plan per property

| id | model | proof |
|----|-------|-------|
| C01–C06 | `bits_t` as record {bytes; sign; bitlen}, `allocated` = buffer size; all operations of bits.c byte by byte | abstraction to `list bool`, each operation commutes with its list meaning; integer meaning via big-endian value |
| C07 | `bits_shiftrz` with the `long % size_t` conversion | rotation for amount>0 and for power-of-two lengths; refuted for length 10, amount −1 |
| C08 | `bits_new_rand` over an oracle stream of random numbers | exact image of the generator; refuted for lengths divisible by 8 |
| C09 | checked reads/writes (`UB` when outside the buffer) | invariant over arbitrary operation sequences |
| C10, C11 | sha1.c with 32-bit words, the sliding W array and byte counter | refinement to a list-based FIPS 180-1 specification; streaming lemma |
| C12–C14 | ansi.c on top of bits + SHA-1 | equality with a direct number-theoretic spec of W; algebra in Z/p |
| C15–C18 | brainpool.c, brainpool_rfc.c, loops with fuel | as above; loop invariants |
| C19, C20 | nums.c incl. static state and object addresses | loop invariant; refutation of "new curve starts at b=1" under address reuse |
| C21–C24 | `exhaustive_gen_retry` as step function over abstract stages with oracle outcomes, trace recorded | invariants over all traces |
| C25–C27 | configuration record, ginit/cinit/uinit, used/set marks | case analysis over all configurations |
| C28 | output event list of `exhaustive_generate` | induction on count; refuted on failure after the first curve |
| C29 | curve record with stale `order`, twist step | refuted by a two-attempt history; correct for first attempts |
| C30 | subgroup.c subset enumeration | divisor combinatorics over prime factor lists |
| C31–C34 | point.c, gens.c over an abstract finite group given by its laws | order arithmetic; refutations for trial points, infinity, cofactor edge case |
| C35, C36 | order.c filters, embedding degree | direct, with oracle specifications |
| C37 | invalid_primes loop | loop invariant |
| C38 | invalid_curves_single | loop invariant over oracle curves |
| C39, C40 | transition system: N worker threads + main thread, mutex and condition variable | inductive invariant over all interleavings; refutation by a concrete schedule |
| C41, C42 | the four tables as generated data, bsearch | sortedness + coverage by computation lifted by lemma (finite domain); 1060 is missing: refuted; irreducibility by Rabin's test, proved sound on numbers read as GF(2) polynomials (GF2.v: ring, Bezout, Fermat for x) and run on degrees 2-200, 233, 239, 277, 283, 311, 331, 347, 349, 359, 409, 571; all tabulated degrees: no factor of degree <= 6 (residues of the exponents modulo 15, 31, 63). The specification (Irr_Spec.v) speaks of coefficient lists and convolution only |
| C43 | conversions as base-2 digit lists | round trip |
| C44, C45 | koblitz table | computation over the finite table against the Lucas sequence; that this sequence counts the points is proved for every degree (Kb_Zeta: the polynomials over GF(2) prime to x, a multiplicative sign on them, Newton's identities for its power sums; Kb_Field: minimal polynomials, traces and roots in a field with 2^m elements; Kb_Count: the points of Ec_F2m); refutation for prime fields |
| C46 | family polynomials over Z | ring identities |
| C47, C54, C55, C65 | input.c over a character stream | case analysis; refutations at EOF/sentinels |
| C48 | anomalous.c arithmetic | algebra; refutation of table entries |
| C49 | supersingular.c | point counting by bijections mod p |
| C50 | cm_prime.c qdisc_next | algebra; refutation of completeness |
| C51 | p1363_group | soundness/completeness vs reduced forms; refutation of the buffer bound |
| C52 | cm_construct_curve over an abstract group | Lagrange argument; refutation for composite orders |
| C53, C56, C61 | cli.c parsing | case analysis, refutations |
| C57 | str.c | induction; refutation of buffer bounds |
| C58 | hex.c | refutation (cross-boundary and prefix matches), one direction proved |
| C59 | obj/*.c ownership | object-id multiset accounting |
| C60 | metadata.c | algebra |
| C62 | random.c | ranges, refutation of exact bit length |
| C67 | parson.c: building and pretty serialisation, the dry run with buf = NULL and the run into the buffer as one function over an optional position | grammar as inductive relations (Json_Spec.v), unambiguity through a reader, serialiser = text of the grammar by induction on the document, bound on the length |
| C68 | output.c: output_jjson, output_sjson | the document equals a directly described one; a separate reader of documents returns the published curve; whole runs by C28 |
| C69 | family.c: family_gen_equation_iter, family_gen_seed_random | runs of calls with the statics; draws by C62 |
| C70 | all functions a plan can name, as programs over a machine with PARI's stack, clones, saved stack pointers and pointers (Stk_Model, Stk_Gens), run by the engine of C25 (Stk_Engine) | an abstract interpreter over sets of saved stack pointers each number is older than (Stk_Check), proved sound (Stk_Sound); a table of what lives at each stage (Stk_Table), checked per stage by computation, and induction over the engine's run (Stk_Run) |
| C71 | ecgen.c (init, quit, main), output_init, output_quit, input_init, input_quit, the reading of a field, over a file system with shared files, positions, append mode and writes that fall short | an invariant of the stream pointers for everything that can be written and read; a separate description of what a method says (Shell_Spec); exhaustive_generate and C68 on top |
| C72 | random.c: random_reseed | induction over the calls of fread with a prefix of the eight bytes as invariant |
| C73 | arg.c, check.c, exhaustive_clear, exhaustive_cinit, exhaustive_ainit, exhaustive_do, cm_ainit, cm_cinit, cm_do, anomalous_init, anomalous_quit, invalid_do over a heap of numbered blocks (Setup_Model); engine and searches are parameters | a small separation logic over lists of blocks (Setup_Proofs), tied to the plan of C56 |
| C74 | invalid.c and invalid_thread.c on the machine of C70 (Stk_Invalid): the curve to invalidate, the search with one thread, the main thread and one thread of several, each on a stack of its own | the checker and the engine lemmas of C70, over the ranges of stages invalid.c runs (Stk_InvalidRun); published curves are looked at after every operation |
| C75 | the plan of C25-C27, the stages of C10-C24 and C58 as functions on one curve, the engine of C01, the program of C71, put together (Whole_Model) | the group of a curve over F_p is proved to be an abelian group (Ec_Group, Ec_Fp, Abelian), so the group contracts of the single stages become facts; a rule for the engine (Engine_Rule): an invariant per stage that timeouts and unrolling keep; the facts of the last stage carried through the printing of C68 and the streams of C71 |
| C76 | as C75, with the functions that read parameters (Whole_Model) | an invariant that says which of the fields read so far belong to which parameter (Whole_Default); a simulation of searches with one field more (Whole_Reads) |
| C77 | as C76, with the plan of the supersingular method | Whole_Made has the front of every plan that makes a curve out of a field and a seed; the number of points comes from C49 |
| C78 | as C76, with the plan of the seed method | the front of Whole_Made; the stages of C12 and C13, whose contracts now hold for one modulus only (Whole_Ansi) |
| C79 | as C75, with a random binary field; the polynomial comes from the tables of C41 | the group of y^2 + xy = x^3 + ax^2 + b over a field of characteristic 2 is proved to be an abelian group (Ec_Group2, Ec_F2m over the polynomials of C42); Ec puts it next to that of Ec_Fp, and the stages are proved for both |
| C80 | as C76, with the plan of the seed method | Brainpool: the seeds are followed through all failed attempts (`brainpool_turn`), with the stages of C14 to C17 (Whole_Brainpool); Whole_BrainpoolOne: one seed has one curve |
| C81 | as C80 | NUMS: the values of b that were tried are counted through all failed attempts (`counter`, `tried`), with the stages of C19, C20 and C64 (Whole_Nums); C81_one_curve: the size alone decides the curve; the condition on the twist counts the points of y^2 = x^3 - 3x - b (C81_twist) |
| C82 | as C77, with the generators of anomalous.c over one tape of draws per stage (`tape`) | the front of Whole_Made, whose contract for PARI is now one for the curves that can occur (`pari_on`); prime and invariant from C48 (Whole_Anomalous) |
| C83 | as C76, with the generators of family.c for BN, BLS12, BLS24, KSS18 and KSS36 | the front of Whole_Family (what b was tried, what was typed); formulas from C46, embedding degree from the formulas by ring identities and the cyclotomic factors |
| C84 | as C78 and C79: the plan of the seed method with a random binary field, ansi_gen_equation_f2m | the front of Whole_Made, now for fields of either kind; the polynomial from C41 and C42, b from C12, the length of the seeds from Ansi_Bound (Whole_AnsiBinary) |
| C85 | as C79, with a_gen_input and b_gen_input over a binary field | a front that says what was typed for a and for b before each stage, as in C76; the stages after it as in C79 (Whole_BinaryTyped) |
| C86 | order_check_pohlig_hellman, order_check_discriminant; factor and core are parameters with contracts | the last entry of a sorted list is the greatest; the square free part is unique (OrderCheck_Props) |
| C87 | cm_gen_curve_prime, cm_gen_curve_any, cm_gen_order on the models of C50 and C52 | C50 gives the Hasse bound and C52 the number of points; -3 needs N = 1 modulo 3 (CmGen_Props); without an argument: CmGen_Missing |
| C88 | as C77, with the plan of the CM method for a prime order and the generators of C87 | the stages of Whole_Proofs, which no longer fix the function of the curve stage (`search_by`); the number of points from C87 (Whole_Order); any --points by comparing two plans that differ in an argument nobody reads (Whole_OrderAny) |
| C89 | memory.c over a heap of numbered blocks of bytes, the allocation functions as parameters (Mem_Model) | contracts of malloc, calloc, realloc as hypotheses; the number of generators from the structure of the group (Ec_Some) (Mem_Props) |

The numbering follows `properties.jsonl`. This table is refined below as the work proceeds.

## Trusted base

* Coq's kernel (coqc 8.16.1, checked again with coqchk). `vm_compute` is used for concrete witnesses and examples;
  coqchk re-checks these proofs with the ordinary conversion.
* `Print Assumptions` beneath every property theorem reports "Closed under the global context": no axiom is used.
  (coqchk lists library axioms of `Coq.ssr.ssrunder` because the file is part of a loaded library; no theorem depends on them.)
* The transcription from C to Gallina. It was made by reading; nothing was compiled or run. Each definition names the file
  and the lines. Simplifications are stated in the comment of the definition.
* PARI/GP, the C library and POSIX are outside. A function of theirs is a parameter; what is assumed of it is a visible
  hypothesis of the theorem, and an `Example` next to it gives an instance for which the hypotheses hold.

## What is modelled, what is not

| file in /repo/src | modelled | not modelled |
|---|---|---|
| util/bits.c | all operations except bits_print/bits_new allocation failure | memory exhaustion |
| util/str.c | all | |
| util/memory.c, the arrays of obj/obj.h | all (C89) | the allocation functions themselves (contracts `malloc_ok`, `calloc_ok`, `realloc_ok`, `nothing_is_null`: PARI's functions give NULL for 0 bytes); realloc of NULL. The other models take every allocation to succeed |
| lib/parson/parson.c | objects, arrays, strings; set, dotset, append; pretty serialisation | numbers, booleans, null, parsing and comments (nothing in src uses them); parent pointers; allocation failure |
| io/output.c | all | PARI's number formatting (contract prints: the number is printed); metadata values are integers |
| util/random.c | random_reseed up to setrand; integer, range and prime draws | quality of the generator; the byte order is that of x86-64 |
| util/timeout.c | start/stop/handler as a transition system | timer resolution |
| io/cli.c | option parsing, end checks, defaults | help texts, argp itself |
| misc/config.c | report_unused through the plan of C27 | printing |
| gen/seed.c, exhaustive/ansi.c, brainpool.c, brainpool_rfc.c, nums.c | all generation functions | |
| exhaustive/family.c | formulas, seed, field, order and equation stages | PARI's parser of the formulas |
| exhaustive/exhaustive.c, arg.c, check.c | engine, plan (ginit, ainit, cinit, uinit, unique, quantities), output loop | debug log |
| gen/curve.c, order.c, gens.c, point.c, metadata.c, math/subgroup.c, math/twists.c | all (order_check_pohlig_hellman and order_check_discriminant, which no plan installs, in C86) | PARI curve arithmetic |
| math/poly.c, gen/field.c (conversions, parameters), math/koblitz.c, order_gen_koblitz | all, tables generated from the source by tools/polytab.py | PARI's representation of field elements |
| io/input.c, the input branches of gen/field.c, gen/equation.c, family.c | all | prompts, read errors |
| gen/hex.c | all, for curves with finite points | PARI's number formatting (contract prints_hex: 0x and hexadecimal digits) |
| cm/anomalous.c | all, square roots as exact reals | PARI reals of 640 bits: beyond about 1280 bits the rounding to an integer raises a precision error (observed) |
| cm/supersingular.c | all | class polynomials (contract: their roots are invariants of supersingular curves) |
| cm/cm_prime.c | all | the logarithm of the order (a parameter), cornacchia2 (contract) |
| cm/cm_any.c | all | class polynomials, curve arithmetic (parameters with contracts; concrete arithmetic for the refutations) |
| cm/cm.c | order argument in cm_init; the rest through the plan of C25-C27 | PARI's table of known primes |
| cm/p1363.c | p1363_group, integer parameters I, J, K, L, M, N | real and complex arithmetic, the class polynomial (only the tests call them) |
| ecgen.c | init, quit and main as far as streams, files and the status are concerned | PARI's start and end, memory, the debug build's exit(42) |
| obj/*.c, the copy, free and unroll functions, twist_rand | all, as a heap of numbered blocks | PARI's stack pointer (a stack block stays); obj_free frees the cached clones (assumed); allocation failure |
| invalid/invalid.c, invalid_thread.c | prime list, both searches, output | PARI thread set-up |

The stack of C70. The programs of Stk_Gens.v keep what matters for lifetimes: allocation, avma = ltop, gerepile, clones,
aliases, reads. Every condition on values is a free choice (`dec`), every position can be a timeout (`cut`). What a check
leaves on the stack is taken off. Reaching the bound on the iterations of a loop counts as a timeout in a generator and
ends the generation in a check. PARI errors are not modelled, nor is the stack running full. The method invalid is C74.

The runs of C75 to C85 and C88. Whole_Model has its own state: the fields of one curve_t, with a point as a pair of numbers, the
static b of nums.c or family.c while it belongs to this curve, and the number of fields of the input that were read. Whether a new
curve is at the address of the one before it, and which b was kept for that, is a free choice (`d_static`). A timeout in
the b step between gunclone and gclone is C70's. A timeout may leave any curve behind that the unrolling sees (the seed
only if the stage is one of the seed's) and may or may not have taken a field of the input. `in_default` is the
configuration of C76: prime field, default method, no seed, 3 to 2^61 - 1 bits, not a size in the table of Koblitz curves if
that is used; `in_scope` of C75 also has no --koblitz and everything random; `in_supersingular` of C77 has that method,
`in_ansi` of C78 the seed method with the ANSI algorithm and a seed below 512 MB, if one is given,
`in_brainpool` of C80 one of the two Brainpool algorithms, `in_nums` of C81 that of NUMS, `in_anomalous` of C82 the anomalous method and at least 6 bits,
`in_family` of C83 the method for families, one of the five families with the equation y^2 = x^3 + b, and 1 to 2^61 - 1 bits (of the parameter, not of the field).
`in_binary` of C79 has a binary field, the default method, a random field, random or Koblitz coefficients, and a degree for
which the polynomial of the tables is irreducible; `in_ansi_binary` of C84 the same field with the seed method of C78;
`in_binary_typed` of C85 the default method over such a field with any coefficients; `in_order` of C88 the CM method with a
prime order above 21 that is 2 modulo 3. The rounds of its loops are bounded by `tries`, like those of other stages.
C75_line_partial to C88_line_partial get them from the options. A search is a function of the fields it is given; it says when it needs one more, and the program then
reads one (`ask`). Whole_Reads shows that the field is used, Shell_Fields that the curves use consecutive parts of the input.
Whole_Stages and Whole_Proofs have the stages from that of the curve on and are used for every plan; Whole_Front and
Whole_Default those before; Whole_Run goes from a search to the file.
What is assumed of PARI is `pari_ok`: a true primality test, factorisation, and for the curves over odd primes below 2^bits
the number of points, generators (at most two), orders and multiples in the group of Ec_Fp, discriminant, invariant,
coredisc2 and znorder; for C79 `pari_over` with the binary fields of the degree, where the elements are numbers with the
coefficients as bits. Whole_Example has an instance for three bits (the primes 3, 5 and 7; in Whole_BinaryEx both fields with
eight elements) that meets it and runs. A curve
that cannot be printed (fitsb: a point at infinity, a negative number, a text of 2 GB) counts as undefined behaviour. That
every curve over a prime above 3 has a point besides the one at infinity, so that PARI returns at least one generator, is
proved (Ec_Some, Stepanov's argument); over the field with three elements it is false (C76_defined_refuted). C77 adds `supersingular_ok`: kronecker, nextprime and, for primes that are 1 modulo
12, the roots of class polynomials (for p = 3 PARI could not meet that contract, so C49_order no longer asks for it there).
C78 adds `ansi_ok`: inverses and square roots modulo primes. A published curve of C78 need not fit its seed if a field of the
input of 512 MB or more was read for it (`huge`): lengths are kept in 32 bits there; the same holds in C84, which adds
`never_top`: random_int(m), which gives a, is never 2^m (C84_top_refuted shows what happens then). C85 describes a curve as long as
each field of the input that was read for it is `usable`: empty, missing, or a number above -2^m other than 2^m. The numbers of
other curves may be anything.
C80 adds `brainpool_ok`: nextprime gives the next prime itself, ellinit succeeds for curves that are not singular, the order
of p modulo 1 is 1, and inverses, fourth roots, squares and ordinates are found if there are any. Undefined behaviour is not
excluded in C80 (see the findings). C81 adds `nums_ok`: ellinit succeeds for curves that are not singular, ellordinate gives
the ordinates, each once. C82 has its contract (`anomalous_ok`, with `pari_on`) for the curves with the invariant -640320^3 over
primes 163m(m + 1) + 41 only, and a kronecker symbol. It assumes `anomalous_true`, that such a curve has p points if
anomalous.c makes it (Miyaji): a theorem about complex multiplication that is not proved here. The example proves it for six
bits by counting; a calculation outside Coq agrees for the primes 367, 1019, 1997, 3301, 4931 and 11777. C83 has its contract (`family_ok`) for the curves y^2 = x^3 + b over
the fields of the family whose parameter is in range only, with ellinit as for C81. C88 has its contract (`cm_ok`) for the curves that come from the roots of class polynomials:
one of such a curve and its twist has N points (complex multiplication, not proved here), random points lie on the curve.
That a search ends is not claimed.

Areas added later are listed with their properties in the table above; properties without an entry in MANIFEST.json have no
model yet.

## Findings (each one a `_refuted` theorem unless marked "observed")

Bit strings and SHA-1 seeds
* C03 bits_cpy with an empty source leaves the destination unchanged.
* C05, C15 zero-length VLAs (reversing the empty string; brainpool_hash for L <= 160) are undefined in ISO C.
* C06 lengthening to the right exposes leftover padding bits of bits_from_raw.
* C07 bits_shiftrz with a negative amount is wrong unless the length divides 2^64 (`long % size_t`).
* C08 bits_new_rand: for lengths divisible by 8 the last byte is always 0.
* C12, C14 seeds with an odd number of hex digits hash four extra zero bits.
* C13 r = 0 mod p dereferences a NULL inverse.
* C20 a curve allocated at the address of the previous one continues with its b; C64 gen_gens reads a second root where
  there is one; s = 1 never ends (proved as part of C19).
* C57 str_join of no strings wraps the buffer size (a buffer of 0 bytes ends the program with PARI's functions, see C89); str_joinv overflows from the 11th string on.

Engine, command line, plan
* C25 a signal between raising the flag and sigsetjmp uses an unset or stale buffer; a signal left pending by timer_delete
  can interrupt a later computation.
* C26 the METADATA stage has no undo hook (harmless).
* C27 options set, used for nothing and not reported: prime/cofactor/smooth/unique with Brainpool and NUMS, points with a
  prime CM order, the random parts with anomalous curves.
* C77 --prime, --cofactor and --smooth are accepted with --supersingular (with a warning) and have no effect; the order p + 1
  is never prime. Observed: for p = 3 (mod 4) the curve is y^2 = x^3 - x, whose group is not cyclic, so --supersingular --unique
  retries without end if such a prime is typed.
* C78 a seed with an odd number of digits is printed with a zero in front, and the printed seed does not give the curve
  (C78_printed_refuted); the seed of P-256 with three bits is undefined (C78_defined_refuted); at the end of the input
  a seed is asked for again and again without end (C78_end_never). Observed: the check 4r + 27 != 0 mod p of X9.62 is not
  made; such seeds give singular curves only, until another prime is drawn or typed.
* C84 over a binary field a is random_int(m), which may be 2^m and then is no element of the field (C84_top_refuted); with a
  seed argument for which b is zero the search never succeeds, and the seed is not reported as unusable (C84_zero_seed).
* C85 the number 2^m is taken for a coefficient over the field of degree m, the bound is off by one (C85_top_refuted); a
  negative number is taken and its sign dropped.
* C86 order_check_pohlig_hellman reads the last of no primes when the order is 1 (C86_one_point_refuted);
  order_check_discriminant compares a quarter of the discriminant when that is even (C86_discriminant_refuted).
* C80 the seed that is printed with a Brainpool curve is that of the generator, the last one used; a run with that seed gives
  another curve (C80_printed_refuted). The multiple of the base point can be the point at infinity, which cannot be printed
  (C80_defined_refuted). With a seed argument every curve of --count, and every other run, has the same numbers (C80_repeats).
* C81 with --nums every curve of --count is the same one, with the least b that will do, unless a timeout interferes or the
  allocator hands out the address of the curve before: then b goes on from there (C81_least_refuted).
* C82 with --anomalous the options --prime, --cofactor and --smooth have no effect; below 6 bits the field is that with 41
  elements whatever was asked for (C48).
* C83 with --family the options --unique, --prime, --cofactor and --smooth have no effect. At the end of the input the
  parameter is -2, and --family=bls12 publishes the curve over 37 elements with it (family_at_eof); a number above 2^bits or
  a text that is no number makes it -1 (with BN a curve over 19 elements); a negative number is taken whatever its size.
* C56 the seed of an earlier seed option is kept for another algorithm.
* C61 unknown suffixes and trailing text are accepted, products wrap, negative numbers are accepted.
* C28 when a later curve fails, the separator before it has already been written.
* C29 the twist step uses the order left by an earlier attempt (`--twist --unique`), so the curve gets a wrong order.

Points, generators, orders
* C30 63 or more prime factors stop the listing with an error; order 1 gives NULL.
* C32 points_gen_trial makes a point only for the first prime dividing a generator's order.
* C33 point_gen_random may return infinity; a curve without generators is undefined behaviour.
* C76, C89 such a curve can be typed in: --fp --points=random 3 with the input 3,2,2 has no generator. gens_put then asks for an
  array of 0 bytes, PARI's pari_calloc gives NULL for that, and the program ends with "Couldn't alloc." and status 1
  (C89_generators_refuted), although there is memory. The same happens to a random curve with a single point. Whole_Model has no failing allocations, so its run goes on and reads
  curve->generators[0] (C76_defined_refuted); that is what happens when memory.c is compiled without ECGEN_PARI_MEM and
  calloc gives a block for 0 bytes. Theorems about runs with status 0 are not affected.
* C89 the product num * sizeof of an array wraps for 2^61 and more objects (nothing asks for so many). Observed: the array holds
  pointers but is made for that many whole objects.
* C34 gens_gen_cofactor lists the other generators too; on Z/4 x Z/2 with cofactor 4 the generator is infinity.
* C36, C60 embedding degree: PARI stops when gcd(q, n) is neither 1 nor q.
* C62 random_int of b bits may be 2^b; a 1-bit prime is 2.
* C69 as in C20: a family curve at the address of the previous one continues with its b; a random family parameter may be
  2^b in size.

Invalid curves
* C37 without a range one prime too many; "0-10" and "0" give none; "1-" never ends.
* C38, C39 with no primes the single-threaded output is left open and the threaded search waits for ever.
* C40 the curves of the last batch of a threaded run are printed without separators.

Fields and tables
* C41 degree 1060 is announced by poly_exists but is in neither table: `--f2m -r 1060` dereferences NULL.
* C44 koblitz_find truncates its arguments to unsigned int.
* C45 `--fp --koblitz` assigns the tabulated order of the binary curve to a curve over a prime field; `--koblitz --twist`
  passes a field element to itou.
* C46 the trace stored for BN curves is 6n + 1 instead of 6n^2 + 1 (nothing reads it).

Input
* C47 text that is no number is the coefficient 0; a negative coefficient over a binary field is its absolute value; the
  binary field stage takes the end of the input for an absent exponent; the family parameter may be a sentinel (-1, -2).
* C54 2^bits and negative numbers are accepted. C55 the last text of a file without a final delimiter loses a character.
* C65 the binary field stage is repeated for ever at the end of the input.

Complex multiplication
* C48 the anomalous method asked for 7 or 8 bits always gives p = 41 (6 bits); for 10, 11 and 12 bits it can give 367, 1019
  and 1997, each one bit short; below 6 bits p = 41 is too long. From 13 bits on the size is right, except possibly for
  sizes above 1626 in five residue classes modulo 1620 (a prime 163 b (b+1) + 41 just below a power of two is excluded by
  congruences everywhere else). The table entry for discriminant -43 has the wrong invariant ((-1024)^3 instead of
  (-960)^3) and the one for -67 is overwritten by -163; only the last is used.
* C50 when the list of primes grows, the index i keeps its value although the bits are counted from the front of the list:
  of the grown list only the subsets with one of the first k elements (k = number of new primes) are tried. For order 7
  every later candidate is even and the search never ends. When no prime up to log N is admissible (173, and 3 % of the
  16-bit primes) the array is reallocated to size 0, which PARI reports as an error. Observed: the intervals overlap at
  their ends, and after a failed construction with i at the end the same primes are added once more, so primes repeat; the
  stored trace is x also when the prime is N + 1 - x.
* C52 with D = -3 the only curve tried is y^2 = x^3 + 1 (and its quadratic twist), but there are six twists: `--order=43`
  gives D = -3, p = 31 and a curve with 28 points that is reported to have 43. For composite orders a point whose order is a
  common factor decides wrongly (9 points over F_11: curve with 15), the point of the twist is multiplied with the
  arithmetic of the curve (6 points over F_7: curve with 10), and for order p + 1 the loop never ends.
* C87 the consequence for the generators: `--order=43` stores a curve with 28 points over 31 elements together with the
  order 43 (C87_order_refuted). In a whole run that order is printed (C88_order_refuted).
* C88 with a prime --order, --points has no effect: --points=all and --points=none print the points of prime order (observed in
  cm_ginit; C88_points_partial proves it); --prime, --cofactor, --smooth have no effect either.
* C53 `--order="7 or so"` is order 7; an order of bits + 1 bits is accepted. Observed: line 187 factors the product so far
  instead of the factor; a list is never treated as a prime order.
* C66 cm_construct_curve_subgroup does not try twists.
* C51 p1363_group reserves 2*floor(sqrt(D/3)) entries, fewer than the number of reduced forms for D = 1, 2, 11, 26, 41, 59,
  74, 89, 101, ... (about one D in nine below 3000): writes past the vector. p1363_K is 5 for D = 5 (mod 8), where IEEE P1363
  A.14.4.1 has 4; the other parameters agree with it (the table was written down from memory of the standard; for D = 5 the
  value 4 gives the known unit (1 + sqrt 5) / 2).

Filters
* C58 the pattern 0 matches every curve (0x); the points of a subgroup are concatenated without a separator, so a pattern
  ending in 0 can match across two points; the exponents of a binary field are not searched.

Random numbers
* C72 random_reseed does not end if /dev/urandom opens and delivers nothing; without the device and at 0 ns the seed is 0, which
  PARI's setrand refuses. Without the device there are at most 10^9 different seeds, and threads started together can share one.

Output
* C68 a point at infinity among the points of a subgroup is printed through gel(point, 2), outside the vector; a NULL
  point is dereferenced.
* C28 (again) with the grammar of C67: the output of a run that fails after the first curve is no JSON text at all.

* C71 when --output cannot be opened the curves go to stdout with status 0; results of fprintf are never looked at, so a full
  disk gives a shortened file with status 0; the output is opened (and emptied) before the input: a missing input file
  destroys the old output, and --output naming the file of --input leaves nothing to read; --output and --verbose naming the
  same file overwrite each other; a file appended to twice is no JSON text (whatever the two texts); when cli_init fails,
  quit closes three NULL streams. Observed: the help says that the verbose text goes to stdout, it goes to stderr.

Memory
* C73 the text of the order of a list of factors (pari_sprintf, cm.c:192-194) is never freed, also when the order is refused; with
  no primes the invalid method returns without clearing the setup, the curve and the list. --cofactor with --smooth would
  lose an argument; the command line refuses the pair. Observed: pari_realloc of the list to 0 bytes is an error in PARI with
  a C library that gives NULL for it, before the message about missing orders.
* C59 curve_copy and curve_clone leave the metadata behind, seed_copy the type of the seed and what belongs to it; an array
  with NULL in it cannot be copied; twist_rand overwrites the old t_ELL without obj_free, so what PARI cached is never freed.
* C74 a timeout in gens_put during the search of a thread (invalid_thread.c:49): the engine returns 0 without undoing the stage,
  and points_unroll (invalid_thread.c:85, point.c:177) follows the NULL entries of curve->generators. A crash with --invalid
  --threads and --timeout.
* C74 the curve_free at the end of a thread (invalid_thread.c:90) looks at b and order of a candidate whose stack line 88 has taken
  back; invalid.c:325 does the same with field, a, b when the curve to invalidate cannot be made.
* C70 twists.c:16-20 and 24-28 compute the order of the twist from `curve->order` before it is set: with --twist --unique, after a
  rollback it is the released order of the candidate before. brainpool.c:117 releases p, line 119 uses it. A timeout in
  nums_gen_b between gunclone and gclone leaves the static b freed. When the generation of a curve fails,
  exhaustive.c:473 looks at released numbers. order_gen_sea (order.c:42-43) caches a released number in the curve; no plan
  installs it.

Observed while reading, no theorem
* cli: "" is accepted as bit size 0; the order regex is not anchored; `--points=5prime` ignores the number; the family is
  never reported as unused; koblitz is allowed with a prime field (see C45).
* engine: the stage resumed at is not undone itself, so a seed is leaked when going back to SEED.
* points_gen_trial drops the result of vec_append (point.c:121); subgroups_all gives NULL for a group of order 1.
