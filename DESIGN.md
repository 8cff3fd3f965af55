# Formal model of Microsoft/PQCrypto-LWEKE (FrodoKEM) in Coq 8.16.1

Contents: method; modelled and unmodelled code; per-property table; trusted base;
simplifications; what was found in the code.

## Method

The C code is modelled function by function as total, computable Gallina in a
small "C monad" (`theories/CSem.v`):

* a computation returns `Ok value trace` or `Err e`, where `e` is a distinct
  outcome for each kind of undefined behaviour (out-of-bounds access, read of an
  uninitialised cell, signed overflow, bad shift, misaligned access, overlapping
  memcpy, data race on the AES global), for a failed assertion and for an exhausted
  loop bound (`OutOfFuel`).  A theorem that ends in `Ok` therefore also says that
  none of these happens;
* `trace` records every branch decision, loop range, array index and pointer
  offset, so constant-time claims are equalities of traces;
* arrays are `list Z` of raw unsigned bit patterns; `-1` marks an uninitialised
  cell; every access is bounds- and initialisation-checked;
* a pointer into a buffer (`&pk[16]`) is a bounds-checked slice that is
  written back (stricter than C, where the callee could run past the slice into
  the rest of the buffer);
* the caller's buffers of the three API functions are address ranges of one flat
  byte memory, so they may overlap; the functions' automatic arrays are separate
  objects whose final contents are part of the result;
* type punning (`(uint8_t*)S`) is an explicit byte <-> uint16 conversion that
  depends on the host's byte order;
* the build (parameter set, AES or SHAKE for A, reference / portable / AVX2,
  portable AES or AES-NI, byte order) is a record `config`; theorems quantify over it.

Specifications (`*Spec.v`) are written separately, without the monad and without
the model's helpers: FIPS 202 bit by bit (`KeccakSpec`), FIPS 197 with the S-box
computed from the field (`AesSpec`), packing bit by bit (`UtilSpec`), matrix
formulas as sums of integers (`MatrixSpec`), FrodoKEM KeyGen/Encaps/Decaps
(`FrodoSpec`), SP 800-90A CTR_DRBG with an integer counter (`DrbgSpec`).
`Prop*.v` files contain the property theorems, each followed by `Print Assumptions`
and by an `Example` that a non-trivial case meets its hypotheses.

Proof techniques: a weakest-precondition calculus (`wp`) with loop invariants for
functional correctness and absence of undefined behaviour; a relational calculus
(`low`) for trace equality; refinement from code to spec; lane/bit-level lemmas
(`Z.testbit` extensionality) for Keccak and packing; for threads, an inductive
invariant over every schedule of byte-sized actions (`ConcProofs`), plus a
refinement from thread programs to the single-thread model (`ConcKemProofs`).
`vm_compute` is used only for closed finite tables (S-box, CDF tables over all 65536
words), where the sweep is exhaustive and therefore a proof, for the witnesses of
`_refuted` theorems and for `Example`s.

## What is modelled

| code | model | proofs |
|------|-------|--------|
| src/util.c (pack, unpack, ct_verify, ct_select, clear_bytes) and src/noise.c | Util | UtilSpec, UtilProofs, PropUtil |
| src/sha3/fips202.c | Fips202 | KeccakSpec, KeccakProofs, ShakeProofs, PropShake |
| src/sha3/fips202x4.c and the parts of keccak4x/ it calls (AVX2) | Fips202x4 | Fips202x4Proofs, PropShake4x |
| sequences of squeezeblocks calls; shake128_squeezeblocks4x | ShakeInc | PropShakeInc |
| the other functions of keccak4x/KeccakP-1600-times4-SIMD256.c and -SnP.h | Keccak4x | Keccak4xSpec, Keccak4xProofs, PropKeccak4x |
| src/aes/aes_c.c, aes_ni.c, aes.c, the EVP calls of the OpenSSL builds | Aes | AesSpec, AesProofs, AesProofs2, PropAes |
| src/frodo_macrify.c (portable and AVX2, AES and SHAKE), src/frodo_macrify_reference.c | Macrify | MatrixSpec, MatrixProofs, MatrixProofs2, EncodeProofs, PropMatrix |
| src/kem.c; src/frodo640.c, frodo976.c, frodo1344.c; src/api_frodo*.h; byte-order macros of src/config.h | Kem, Params | FrodoSpec, KemProofs, KemWp, FrodoFacts, PropKem, PropKem2, PropBind, PropParams |
| src/random/random.c (Unix and Windows) | Random | PropRandom |
| tests/rng.c, AES256_ECB of tests/rng.h | Rng | DrbgSpec, RngProofs, PropRng |
| traces of everything called from kem.c | the same models | LowProofs, LowKem, PropCT |
| python3/frodokem.py, class FrodoKEM | Py | PyProofs, PyKem, PropPy, PropPyLen |
| python3/nist_kat.py; the constructor of frodokem.py | NistKat | PropNist |
| block encryption by several threads | Conc, ConcAes | ConcProofs, PropConc |
| randombytes by several threads (Unix) | ConcRandom | ConcRandomProofs, PropConcRandom |
| the API by several threads with that randombytes | ConcLib | ConcLibProofs, PropConcLib, PropConcRace |
| tests/PQCtestKAT_kem640.c and its five variants: main, FindMarker, ReadHex | Str, Kat | KatSpec, KatProofs, PropKat |
| tests/test_kem.c: kem_test | TestKem | PropTest, PropTestCT |
| tests/ds_benchmark.h; tests/test_kem.c: kem_bench, main | Bench | PropBench |
| keypair / enc / dec by several threads, and stopped at any action | ConcKem | PackProgProofs, ConcKemProofs, PropConcKem, CrashProofs, PropCrash, PropCrashLib |
| the same calls, and randombytes, on a machine with relaxed memory | Relaxed, RelaxedRandom, RelaxedLib, RelaxedHist | RelaxedProofs, PropRelaxed, PropRelaxedRandom, RelaxedLibProofs, PropRelaxedLib, PropRelaxedSession, RelaxedFair, PropRelaxedFair, RelaxedHistProofs, PropRelaxedHist, PropRelaxedHistFair |
| calls from signal handlers, nested to any depth, with random.c | Signals | SignalsProofs, PropSignals |
| the local arrays of shake128 / shake256 after the call | Residue | KeccakInj, ResidueProofs, PropResidue |
| the strings that keypair, enc and dec hash | RowQueries, Queries | RowQueriesProofs, QueriesProofs, PropQueries |
| sequences of API calls in one process, with random.c | Process, WinProcess | PropProcess, PropProcessCT, PropWindows, PropWindowsCT |
| sequences of API calls in each of several threads, with random.c | ConcHist | ConcHistProofs, PropConcHist |
| rounds of threads: fork and join | ConcRounds | ConcRoundsProofs, PropConcRounds |
| processes that fork | Fork | PropFork |
| the API of the OpenSSL builds with library calls that may fail; handleErrors | OpenSsl | OpenSslProofs, PropOpenSsl |
| Makefile (options, object files, archives, linking), the Visual Studio projects (files and definitions), the rest of src/config.h, keccak4x/brg_endian.h, symbols of all files | Build, ByteOrder | BuildSpec, BuildProofs, PropBuild, PropByteOrder |
| Makefile under make -j | ParMake | ParMakeProofs, ParResume, PropParMake |
| decryption failures of the whole library | the same models | FailSpec, Tail, TailNum, PropFail |

## What is not modelled

* OpenSSL itself.  The branches under `USE_OPENSSL` (the default of the Makefile) are modelled;
  the EVP calls appear as functions that compute AES as FIPS 197 says, touch only their buffers
  and are safe to call from several threads with separate contexts.  Failing calls and
  `handleErrors`, which aborts the process then, are in OpenSsl.v only (C44); the other
  properties are about runs in which OpenSSL does not fail.  C17 speaks about the accesses
  of this repository's code only.
* The Valgrind annotations (`DO_VALGRIND_CHECK`) and memcheck. They mark secrets as undefined so that memcheck reports a branch or an
  address that depends on them on the inputs of one run; that no branch and no address depends on them, for all inputs, is C17
  (with the portable AES, whose table look-ups depend on seedA, for equal public parts of the key), and for a whole run of the
  program that the Valgrind build runs, C57.
* keccak4x/: the other settings of the unrolling macros (with them FastLoop_Absorb does not compile: the
  declaration of `i` is commented out), `roundsN`, which nothing uses, and the branches for XOP and under `#if 0`.
* tests/ other than the files listed in the table above.
* Compilers, caches and instruction timing.  Threads are sequentially consistent, byte by byte, except in
  C54 and C55, where memory is relaxed but no store is made before a load that precedes it in the program.  In C56 the
  accesses of an interrupted call are made in the order of the source.
* Python's libraries: `struct`, `bitstring`, `Crypto.Cipher.AES`, `hashlib` and
  float division appear as functions with the documented behaviour (SHAKE and AES are
  the FIPS specifications; the floats that occur are exact, their operands being below 2^53).

## Per property

| id | what is modelled | how it is proved |
|----|------------------|------------------|
| C01 | kem.c, all three functions, every callee; three processes, possibly three builds | C05 for each function, then algebra over Z_q on the specification, C13 |
| C02 | crypto_kem_dec | refinement to Decaps, C11 (unique encoding), C15, C16 |
| C03 | crypto_kem_dec on arbitrary bytes | wp of the checked model |
| C04 | keypair, enc | wp of the checked model; frame of the memory |
| C05 | kem.c against FrodoSpec | refinement, memory equal to the old one with the outputs spliced in |
| C06 | frodo_macrify.c (portable and AVX2), frodo_macrify_reference.c | both refine the same matrix formula |
| C07 | host byte order is a parameter | refinement; the optimized S'A+E' is refuted by a run |
| C08 | aes_c.c, aes_ni.c, aes.c; OpenSSL as an oracle | refinement to AesSpec; table by exhaustive evaluation |
| C09 | fips202.c | refinement to KeccakSpec (bit level) |
| C10 | fips202x4.c, four-way permutation | lane projection |
| C11, C12 | pack/unpack | loop invariant on bit positions |
| C13 | encode/decode | arithmetic |
| C14 | noise.c + three tables | loop invariant; exhaustive 65536 sweep |
| C15, C16 | util.c | loop invariant, bit lemmas |
| C17 | traces of everything called from kem.c | relational logic; a run shows that the condition for the table AES is needed |
| C18 | final contents of the locals of the three functions | wp |
| C19 | overflow checks in the model | wp |
| C20 | random.c; open() and read() results as an oracle list | induction on the oracle |
| C21 | random.c (Windows) + kem.c | witness (`_refuted`) and general statement; a message with an unset byte makes SHAKE fail, whatever its length (`shake_unwritten`) |
| C22 | aes_c.c global pointer, any number of threads | AES-NI: invariant over all schedules; portable: witness |
| C23 | frodokem.py | refinement to the same specification; exact set of decode differences |
| C24 | tests/rng.c | refinement; induction over the request sequence |
| C25 | keypair | corollary of C05 |
| C26 | A generation | refinement; both sides the same matrix |
| C27 | sampling bounds | arithmetic; shipped parameters do not meet the bound (witness) |
| C28 | dec | corollary of C02 |
| C29 | enc/dec with the clobbered buffer | refinement |
| C30 | fips202.c | corollary of C09 + squeeze lemma |
| C31 | alignment checks | wp; equivalence for sk |
| C32 | overlap of the caller's buffers in flat memory, for all three functions | wp; witness for enc; keypair cut at the memcpy of src/kem.c:57 |
| C33 | the API as thread programs | invariant over all schedules; refinement to Kem |
| C34 | the parameter and header files | evaluation of the finite tables + length lemmas for all inputs |
| C35 | config.h macros and the conditions that select them; brg_endian.h as a function of the macros that are defined | arithmetic; cases of the options; cases of the macros |
| C36 | the encryption inside the KEM with the sampler's input strings as arguments (FailSpec), tied to the API by C01 | exponential-moment bound over all strings (Tail), certified numerics (TailNum), union bound |
| C37 | random.c with its static variable, the descriptors and the device shared by all calls | invariant over all schedules and answers; measure for progress |
| C38 | the KAT program on a file given as bytes; fscanf, strncmp, isxdigit as the C standard says | every function refined to a function on lists; the verdict by induction over the records |
| C39 | kem_test | C05 for the four API calls of a round; induction over the rounds; C28 for the failures |
| C40 | nist_kat.py, the constructor | the C generator is run on the seed (C24 makes that a statement about CTR_DRBG); refinement of the Python methods (C23); C38 for the C side |
| C41 | the threads of C33 with the random.c of C37 in place of given generators | simulation: a run is a run of C37 seen from random.c and, with the bytes that it will deliver given in advance, a run of C33 seen from the arguments' memory; three stages for progress |
| C42 | the next access of every thread in a reachable state of C33, C37 and C41 | the invariants of C33 and C41 give each thread's footprint; the portable AES by running each thread up to its store of the global |
| C43 | a list of API calls and stores, the state of random.c and of the system passed from call to call; on Windows the answers of BCryptGenRandom | C05 and C20 for each call, C21 for a failed request; induction over the list |
| C44 | the OpenSSL builds of the three functions with an arbitrary set of failing EVP calls | each statement of OpenSsl.v follows its counterpart in Kem.v and Macrify.v; the calls made are collected along the way; then C05 |
| C45 | lists of API calls and stores in each of several threads over the shared memory and the shared random.c; every call has its own buffer for random bytes | the simulation of C41 for lists of calls; what holds between two calls is proved for the run in which the thread stops there; progress by the stages each thread goes through |
| C46 | the absorb and squeezeblocks functions of fips202.c and fips202x4.c, any list of requests | the state before a request is the sponge state at that block; induction over the list |
| C47 | every function of the keccak4x interface, any list of calls | a state object is the interleaving of four states (`inst`); each function is proved byte by byte against `add_at`, `put_at`, `get_at`, the permutation lane by lane; induction over the list |
| C48 | Makefile assignments and prerequisites, config.h, defined and used symbols of each object file, loading from an archive | options reduce to finitely many cases; histories by induction (`made_by`); archives have one of six shapes; linking by evaluation of all cases on the symbol tables, lifted by a simulation |
| C49 | rounds of threads (ConcHist.v) in the memory and with the state of random.c the last round left | C45 for each round; effects of calls depend only on what they read, so the threads of a round can be done one after another; the random bytes are renumbered into one stream; rounds by induction; the key exchange from the sequential history |
| C50 | a tree of processes, each with its memory, `lock` and descriptors; the steps of randombytes (ConcRandom.v) interleave, the device's position is shared | an invariant over all schedules: the memory of every process is the history of its line of descent, every request number has its own bytes; a rank that every served turn decreases for the end; symbolic runs for the closed and the reused descriptor |
| C51 | pairs of calls of the API, each in its own process | corollary of C05 and C02: the hashed string is the ciphertext and a key of fixed length; a witness for chosen secret keys by counting (three ciphertexts with one message, each key accepts at most one) |
| C52 | ds_benchmark.h, kem_bench and main of test_kem.c, clocks as lists of readings | invariant of the timer (Welford's recurrences over Q) by induction on the readings; C05 for what is measured; C39 for the exit status |
| C53 | ConcKem.v, stopped after any number of actions or any schedule | a refinement in which stores go to bytes of higher and higher ranks (`rising`), each value being the top bits of the byte's final one; frodo_pack action by action (`pack_inside`); every thread is at a point of its own run alone (`trail`); with random.c, through the simulation of C41 and an invariant that a thread without its random bytes has stored nothing (`waiting_ok`) |
| C54 | the programs of ConcKem.v over a memory of timestamped messages with a view per thread (Relaxed.v) | an invariant over all schedules and choices: in the footprint of a thread there is one readable message per address, that of its run alone; views are merged by waiting; every unfinished thread has a choice that lets it go on; with random.c (RelaxedLib.v) by a simulation of C54 with the bytes given in advance and of C55; over any number of rounds by induction, the waiting thread's knowledge of [lock] carried from round to round; under every fair schedule (C54_library_fair) by well-founded induction on what is left of each thread's program before and after its request, and by C55_fair for the request; threads that do any number of calls (C54_histories, RelaxedHist.v) by the same simulation, with ConcHistProofs.script as each thread's program, and by cutting a thread's list of actions for what it knows between two of them; that they end under every fair schedule (C54_histories_fair) by C55_fair's argument up to the next moment at which some thread enters a new stage, of which there are finitely many |
| C55 | the actions of ConcRandom.v with relaxed accesses to `lock` (RelaxedRandom.v) | the invariant of C37 holds with the newest value of `lock`: if that is -1, a thread that knows of it is still in the loop that opens the device; once stores are seen at once, the machine is that of C37; under every fair schedule (C55_fair) by measures that never grow: first no -1 is stored any more, then every call leaves the loop that opens the device (the number of -1 it can still see decreases), then the newest value is a descriptor and every read gives bytes; C55_unseen_refuted: without stores being seen after some time a call may never return |
| C56 | the world of C41 with a stack of the calls in progress, of which only the innermost takes actions (Signals.v) | safety: a nested run is a schedule of C41; progress: if a call in the stack is past the loop that opens the device then `lock` is a descriptor and no call above it opens the device, so the innermost call comes nearer to its return with each action; the portable AES fails by a run of C22 |
| C57 | kem_test of C39 with the traces of C17 | the relational rules of CSem.v through the three calls (low_keypair, low_enc, low_dec, which need nothing of the secrets) and the test's own code; the verdicts of the two comparisons from C39's characterisation |
| C58 | kem_keygen, kem_encaps and kem_decaps of Py.v (C23) | the assertions come first; the rest from C23; random strings of any length through the slices of kem_keygen, and the first index that encode misses |
| C59 | shake128/shake256, keccak_absorb and frodo_mul_add_sa_plus_e with their local arrays in the result (Residue.v), and keypair, enc and dec with those of their last calls | the models with and without remains are equal; each step mapping of Keccak-f is injective (theta: the recurrence of the column parities doubled six times), hence so are the permutation and the absorption of a last block |
| C60 | keypair, enc and dec (Queries.v) and the two routines that make A (RowQueries.v) with the list of the strings they hash | the models with and without the list are equal; the rows by partial correctness of the loops; the exact lists by the steps of C05; separation by the lengths of the shipped sets and the domain bytes 0x5F and 0x96 |
| C61 | make -j: the recipes of the Makefile as lists of lines on the files of the build, interleaved by a schedule | invariant over all schedules, per directory; measure and fairness for the end; simulation by a run from empty directories for runs that are stopped and started again; witnesses for the two failures |

MANIFEST.json names the theorems.

## Trusted base

* The Coq 8.16.1 kernel, including its virtual machine (`vm_compute`), and coqchk.
* The standard library.  **`Print Assumptions` says "Closed under the global context"
  for every theorem named in MANIFEST.json**: no axiom is used, not even the standard
  library's.
* The translation from C and Python to the model, by reading; each definition cites
  the lines it models.
* The transcription of the published standards in `*Spec.v`.  They are exercised by
  `Example`s on published test vectors (FIPS 197, FIPS 202).
* The models of the AES-NI and AVX2 intrinsics, from Intel's documentation, and of the EVP
  calls, from OpenSSL's.

## Simplifications that affect what a theorem says

* C10, C31: the shuffle tables `rho8`, `rho56` of keccak4x are loaded with aligned
  loads but declared without an alignment; the model has a flag for it, and the
  theorems about the four-way code assume it is set (`C31_shuffle_tables` shows what
  happens otherwise).
* C17: the trace is the sequence of branches, loop bounds, indices and ranges.  The time an
  instruction takes is not modelled (read by eye: the source divides only constants, lengths and
  loop counters).  In the theorems about single calls the random
  generator is an oracle whose own trace is assumed equal in the two runs; `C17_history` proves
  that for random.c, the system answering the two processes alike.
* C20: `read` and `open` follow a list of results; an exhausted list is `OutOfFuel`.
* C22, C33: sequentially consistent byte accesses.  A callee that works on a range of the
  caller's memory is a load of the range, a computation and a store of the range (frodo_pack, which
  clears its output and builds its bytes up, has the accesses of the source).  In C33
  each call has its own random generator (the descriptor shared by random.c is not part of
  that theorem).
* C37: accesses to the static variable `lock` are sequentially consistent; each read() is one
  action.  C42 shows that they are the only ones for which this matters, other accesses being
  free of races.
* C24: request lengths below 2^31 and fewer than 2^31 - 2 requests (beyond
  that the code's `int`s overflow).
* C38: the file is a list of bytes, read to its end without an I/O error; printing is left out.
  The request length of keypair is below 2^31 (it is 48 to 80 bytes).
* C39: the ciphertext is at most 131072 bytes long (beyond that the 16-bit XOR of the test could
  be void); it is at an even address, which the test's cast to uint16_t* needs and its
  declaration as a byte array does not promise.
* C41: the buffers for the random bytes (local arrays in kem.c) lie in a memory apart from the
  arguments' memory; the hash of pk in encapsulation, which is local, is placed after the
  request instead of before it.
* C40: text printed before an exception is not modelled; none is raised before the final
  assertion.
* Everywhere: the effective-type ("strict aliasing") rules of C are not modelled, and automatic
  arrays are assumed aligned for the casts that the code applies to them (see 15 below; the
  caller's buffers are not assumed aligned, see C31).  Except in C48, linking is not modelled: each
  theorem is about one variant in one program.
* C53: stores take effect in the order of the source (a compiler may reorder them).
* C52: double is modelled by the rational numbers (no rounding) and a square root by its square.
* C48: an object file is made if and only if it is not there (the sources do not change); a run that stops
  early is one that needs fewer object files.  Variables of the Makefile other than the four options,
  set on the command line, are not modelled.
* C59: the arrays of the last call of shake and of the keccak_absorb in it, and sp of frodo_mul_add_sa_plus_e; not the
  lanes in KeccakF1600_StatePermute nor vector temporaries.  What becomes of dead stack memory afterwards is outside C.
* C61: a line of a recipe is one indivisible action, and one that fails changes nothing.  A run that is stopped leaves whole
  object files (make removes the one it was writing; a kill of make itself is not modelled) and anything in the three
  directories.  `tests` is also a directory of the sources and not phony; its recipe is run all the same, as its prerequisites
  are no files.
* C26: N <= 32768 (beyond that `N*N` overflows `int` in the source).

## What was found

1. frodo_mul_add_sa_plus_e of frodo_macrify.c does not convert A to host byte order: an
   optimized build on a big-endian host computes wrong ciphertexts
   (`C07_sa_optimized_refuted`).
2. The Python reference rounds half to even in decode, C rounds up: they differ exactly on
   ties (`C23_decode`, `C23_decode_tie_refuted`).  Such ties need a noise of exactly
   q/2^(B+1), so honest ciphertexts practically never reach them, but a malformed ciphertext can.
3. randombytes(buf, n) with n >= 2^31 writes nothing and returns success; a read() that
   keeps returning 0 makes it spin (`C20_large_refuted`, `C20_eof_spins`).
4. keypair and enc ignore a failure of randombytes; after one they compute with
   uninitialised memory or with whatever was there (`C21_*`).
5. The portable AES is not reentrant: a two-thread schedule corrupts both results
   (`C22_portable_refuted`).
6. crypto_kem_dec needs an even sk address (`C31_dec_iff`).  AES-NI key schedules need 16-byte
   alignment; rho8/rho56 need 32-byte alignment that nothing requests.
7. enc leaves B' and dec leaves B'' and C' in their stack frames (not marked secret in
   the source; stated in `C18_enc`, `C18_dec`).  C' of a rejected ciphertext is sensitive.
8. A ct buffer that overlaps pk changes the result of enc (`C32_enc_any_overlap_refuted`).
   A pk buffer that overlaps sk makes key generation undefined (`C32_keypair_undefined`)
   or puts secret bytes into the public key while 0 is returned (`C32_keypair_leak`).
9. In-place AES calls memcpy with equal pointers.
10. The static descriptor of random.c is shared without synchronisation: two first calls both
   open the device and one descriptor is never used again (`C37_one_descriptor_refuted`); a
   failed open() in one thread can make another one, already past its own open, wait until the
   first is run again (`C37_waits_for_others`).  No schedule corrupts the delivered bytes.
11. The KAT program reports success on a file without records, and on one cut off after a
   "count = " (`C38_no_records`, `C38_only_complete_refuted`).  ReadHex takes a value with too few
   digits as if padded with zeros on the left and keeps the last digits of one with too many
   (`C38_readhex`).  A count that does not fit an int is undefined behaviour.
12. kem_test ignores the codes returned by the API and reads `char bytes[4]` and the byte array
   `ct` through pointers to wider integers.
13. FrodoKEM("...") of frodokem.py with an unknown name raises nothing: `assert "Unknown variant"`
   asserts a non-empty string (`C40_unknown_raises_refuted`).
14. In a portable build for AES any two overlapping calls of the API, of whatever kind, can race
   on `state` of aes_c.c, and a call can find the other's pointer there (`C42_portable_refuted`).
   First calls of randombytes race on `lock` (`C42_lock_race_refuted`).
15. Read by eye, outside the model: the uint16_t arrays of frodo_macrify.c:28-30 and the byte
   arrays `seed_A_separated` and `mu` are accessed through pointers to wider integers;
   `CDF_TABLE` and `CDF_TABLE_LEN` are writable.
16. make does not know that object files depend on its options: the two commands of README.md:72
   and :99 in a row build programs, PQCtestKAT_kem_shake among them, that use AES
   (`C48_last_options_refuted`).  make KATS adds to an archive that earlier runs left (`C48_archive`).
17. frodo640.c, frodo976.c and frodo1344.c define eleven external symbols of the same names, so two
   variants cannot be linked into one program, although README.md:158 asks to add all three
   libraries to a project (`C48_two_variants_refuted`).
18. A shared secret does not commit to the public key if the secret keys are chosen by an adversary: a
   rejected ciphertext is hashed with the string s alone (`C51_chosen_keys_refuted`).
19. The benchmark prints a deviation of 0 after exactly two runs (`C52_two_runs_refuted`; `== 2` looks like a slip).
   rdtsc of Unix builds for AMD64 reads edx:eax with the constraint "=A", which on that processor names one
   register, so that cycles are counted modulo 2^32 (`C52_cycles_refuted`).  Where long has 32 bits, as
   on Windows, `tv_sec * 1000000` overflows (`C52_long32_refuted`).
20. kem_keygen of frodokem.py does not look at the length of what its random source returns: a source that stops
   early gives keys with less or no randomness (`C58_short_source_refuted`).
21. shake128 and shake256 do not clear their arrays: after enc and dec the shared secret is still in the frame of
   the last call, in the clear, the block of keccak_absorb held k in the clear when it returned, and the state determines k
   (`C59_cleared_refuted`, `C59_enc`, `C59_dec`).  The matrix product leaves eight entries of S' in its frame.
22. make -j is not safe: lib640_for_KATs (and those of the other sets) writes to a directory that lib640 removes and makes, and
   nothing orders the two.  It can fail after make clean (`C61_succeeds_refuted`), and after an earlier build it can exit
   with 0 and leave no KAT program (`C61_success_refuted`).
23. brg_endian.h takes a host about which no macro says anything for little-endian, so that its test does not protect such a
   big-endian host (`C35_keccak4x_default_refuted`).

## Testing against wrong programs

seeded/LOG.jsonl records, one line per attempt, an edit of the model as a realistic bug would
make it, and which theorems then fail.  Edits are made in scratch copies.  "Theorems that
failed" names the first lemma that no longer goes through and the theorems that depend on it.
