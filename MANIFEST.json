{
 "claims": [
  {
   "property": "C09",
   "status": "proved",
   "theorems": [
    "C09_shake128",
    "C09_shake256"
   ],
   "note": "shake128/shake256 of fips202.c equal bit-level FIPS 202 for all messages and output lengths"
  },
  {
   "property": "C11",
   "status": "proved",
   "theorems": [
    "C11_unpack_pack",
    "C11_pack_unpack",
    "C11_encoding_unique"
   ],
   "note": ""
  },
  {
   "property": "C12",
   "status": "proved",
   "theorems": [
    "C12_pack_bits",
    "C12_unpack_bits",
    "C12_high_bits_ignored"
   ],
   "note": ""
  },
  {
   "property": "C14",
   "status": "proved",
   "theorems": [
    "C14_sample_exact",
    "C14_distribution"
   ],
   "note": ""
  },
  {
   "property": "C15",
   "status": "proved",
   "theorems": [
    "C15_ct_verify"
   ],
   "note": ""
  },
  {
   "property": "C16",
   "status": "proved",
   "theorems": [
    "C16_ct_select"
   ],
   "note": ""
  },
  {
   "property": "C30",
   "status": "proved",
   "theorems": [
    "C30_prefix128",
    "C30_prefix256",
    "C30_absorb_squeeze"
   ],
   "note": ""
  },
  {
   "property": "C08",
   "status": "proved",
   "theorems": [
    "C08_aes128",
    "C08_aes256",
    "C08_aes128_inplace",
    "C08_aes256_inplace",
    "C08_schedules"
   ],
   "note": "portable and AES-NI AES equal FIPS 197 (S-box from the field definition), any number of blocks; the AES-NI instructions are modelled from the Intel manual"
  },
  {
   "property": "C10",
   "status": "proved",
   "theorems": [
    "C10_shake128_4x",
    "C10_equals_four_calls",
    "C10_no_cross_lane"
   ],
   "note": "assumes the shuffle tables rho8/rho56 sit on 32-byte boundaries (see C31); AVX2 intrinsics modelled from the Intel guide"
  },
  {
   "property": "C13",
   "status": "proved",
   "theorems": [
    "C13_encode",
    "C13_decode_exact",
    "C13_roundtrip"
   ],
   "note": ""
  },
  {
   "property": "C19",
   "status": "proved",
   "theorems": [
    "C19_as_sa_no_overflow",
    "C19_mul_bs",
    "C19_mul_add_sb_plus_e",
    "C19_add",
    "C19_sub",
    "C19_key_decode",
    "C13_encode",
    "C14_sample_exact"
   ],
   "note": "every int-typed operation of the model is range-checked; the theorems show no check ever fails"
  },
  {
   "property": "C26",
   "status": "proved",
   "theorems": [
    "C26_as_plus_e",
    "C26_sa_plus_e",
    "C26_same_matrix"
   ],
   "note": "N up to 32768 (beyond that N*N overflows int in the source)"
  },
  {
   "property": "C01",
   "status": "proved",
   "theorems": [
    "C01_agreement"
   ],
   "note": "three processes, possibly different builds; satisfiability: C01_setting_exists"
  },
  {
   "property": "C02",
   "status": "proved",
   "theorems": [
    "C02_implicit_rejection"
   ],
   "note": ""
  },
  {
   "property": "C03",
   "status": "proved",
   "theorems": [
    "C03_dec_total"
   ],
   "note": ""
  },
  {
   "property": "C04",
   "status": "proved",
   "theorems": [
    "C04_keypair",
    "C04_enc"
   ],
   "note": ""
  },
  {
   "property": "C05",
   "status": "proved",
   "theorems": [
    "C05_keypair",
    "C05_enc",
    "C05_dec"
   ],
   "note": ""
  },
  {
   "property": "C06",
   "status": "proved",
   "theorems": [
    "C06_as_builds_agree",
    "C06_sa_builds_agree",
    "C06_C07_keypair",
    "C06_C07_C29_enc",
    "C06_C07_C29_dec"
   ],
   "note": ""
  },
  {
   "property": "C07",
   "status": "proved",
   "theorems": [
    "C07_as_any_endian",
    "C07_sa_reference_any_endian",
    "C07_sa_optimized_big_endian",
    "C07_sa_optimized_refuted",
    "C06_C07_keypair",
    "C06_C07_C29_enc",
    "C06_C07_C29_dec"
   ],
   "note": "holds for key generation in every build and for enc/dec in the reference build; refuted for the optimized sa_plus_e on a big-endian host"
  },
  {
   "property": "C18",
   "status": "proved",
   "theorems": [
    "C18_keypair",
    "C18_enc",
    "C18_dec"
   ],
   "note": "the arrays the source marks as secret; what is left in the others is stated too"
  },
  {
   "property": "C21",
   "status": "proved",
   "theorems": [
    "C21_failure_ignored",
    "C21_enc_failure_ignored",
    "C21_failure_reported_refuted",
    "C21_keypair_unwritten",
    "C21_enc_unwritten",
    "C21_keypair_on_windows_failure",
    "C21_enc_on_windows_failure"
   ],
   "note": "the wanted property is refuted"
  },
  {
   "property": "C25",
   "status": "proved",
   "theorems": [
    "C25_layout"
   ],
   "note": ""
  },
  {
   "property": "C27",
   "status": "proved",
   "theorems": [
    "C27_no_failure",
    "C27_shipped",
    "C27_coefficients"
   ],
   "note": ""
  },
  {
   "property": "C28",
   "status": "proved",
   "theorems": [
    "C28_unique_ciphertext",
    "C28_modified_rejected",
    "C28_honest_accepted"
   ],
   "note": ""
  },
  {
   "property": "C29",
   "status": "proved",
   "theorems": [
    "C29_in_place_result",
    "C06_C07_C29_enc",
    "C06_C07_C29_dec"
   ],
   "note": ""
  },
  {
   "property": "C31",
   "status": "proved",
   "theorems": [
    "C31_dec_iff",
    "C31_dec_misaligned",
    "C31_avx2_dec",
    "C31_avx2_enc",
    "C31_misaligned_e"
   ],
   "note": "assumes the four-way SHAKE's shuffle tables are 32-byte aligned (not requested by the source; C31_shuffle_tables)"
  },
  {
   "property": "C32",
   "status": "proved",
   "theorems": [
    "C32_dec_any_overlap",
    "C32_enc_tolerated",
    "C32_enc_any_overlap_refuted",
    "C32_keypair_undefined",
    "C32_keypair_overlap",
    "C32_keypair_leak"
   ],
   "note": "Key generation: exact condition for undefined behaviour, exact memory otherwise."
  },
  {
   "property": "C20",
   "status": "proved",
   "theorems": [
    "C20_exact",
    "C20_whole_buffer",
    "C20_returns",
    "C20_consecutive",
    "C20_large_writes_nothing",
    "C20_large_refuted",
    "C20_eof_spins",
    "C20_windows",
    "C20_keypair_on_nix"
   ],
   "note": "refuted for lengths of 2^31 and more"
  },
  {
   "property": "C24",
   "status": "proved",
   "theorems": [
    "C24_be128",
    "C24_increment",
    "C24_init",
    "C24_generate",
    "C24_sequence",
    "C24_kat_keypair",
    "C24_kat_enc"
   ],
   "note": "tests/rng.c with any of the AES implementations refines CTR_DRBG for every seed and request sequence; requests below 2^31 bytes and fewer than 2^31-2 requests (the int index and the int counter overflow beyond). The KAT key generation and encapsulation are determined by the seed."
  },
  {
   "property": "C17",
   "status": "proved",
   "theorems": [
    "C17_keypair",
    "C17_enc",
    "C17_dec",
    "C17_table_aes_needed",
    "C17_sample",
    "C17_ct_verify",
    "C17_ct_select",
    "C17_decode",
    "C17_history",
    "C17_alike",
    "C17_windows"
   ],
   "note": "Two runs that agree on the public seed of A (needed only for the portable, table-based AES) end normally with the same trace of branches, loop bounds, indices and ranges. C17_table_aes_needed shows that the condition cannot be dropped for the portable AES. C17_keypair and C17_enc take a random generator that leaves the same trace in both runs; C17_history has random.c (Unix) in its place, whose trace it proves equal when the system answers alike, and any sequence of calls. C17_windows is the same for a process on Windows, where BCryptGenRandom may also fail. Instruction timing is not modelled."
  },
  {
   "property": "C23",
   "status": "proved",
   "theorems": [
    "C23_parameters",
    "C23_pack",
    "C23_unpack",
    "C23_sample",
    "C23_encode",
    "C23_decode",
    "C23_gen",
    "C23_keygen",
    "C23_encaps",
    "C23_decaps",
    "C23_decaps_total",
    "C23_exchange",
    "C23_decode_tie_refuted"
   ],
   "note": "C23_decode characterises exactly on which matrices the two decoders differ; C23_decode_tie_refuted is such a matrix. The Python float division is modelled exactly (its operands are below 2^24, so no rounding occurs)."
  },
  {
   "property": "C22",
   "status": "proved",
   "theorems": [
    "C22_ni",
    "C22_portable_alone",
    "C22_portable_sequence",
    "C22_portable_refuted"
   ],
   "note": "AES-NI: any number of threads, every schedule, sequentially consistent byte accesses. Portable: right alone and in sequence; a two-thread schedule that corrupts both outputs is exhibited."
  },
  {
   "property": "C33",
   "status": "proved",
   "theorems": [
    "C33_threads"
   ],
   "note": "Threads are interleaved at the granularity of single byte accesses, sequentially consistent. Every call's random generator is its own oracle (the generator's shared descriptor is not part of this theorem). Builds that generate A with the portable AES are excluded; C22_portable_refuted shows why."
  },
  {
   "property": "C34",
   "status": "proved",
   "theorems": [
    "C34_published",
    "C34_advertised"
   ],
   "note": "The distribution tables are covered by C14_distribution."
  },
  {
   "property": "C35",
   "status": "proved",
   "theorems": [
    "C35_byte_order_macros",
    "C35_reads_little_endian",
    "C35_selected",
    "C35_unknown_architecture_refuted",
    "C35_keccak4x_decides",
    "C35_keccak4x_accepts",
    "C35_keccak4x_refuses",
    "C35_keccak4x_default_refuted",
    "C35_keccak4x_arm_refuted"
   ],
   "note": "C35_selected is about the conditions of config.h with every set of options of make. C35_unknown_architecture_refuted: without __BYTE_ORDER__ a build that names no architecture is taken for x64. C35_keccak4x_*: the header brg_endian.h for every set of defined macros; it takes a host about which nothing is defined for little-endian."
  },
  {
   "property": "C36",
   "status": "proved",
   "theorems": [
    "C36_failure_rate",
    "C36_api",
    "C36_all_pairs"
   ],
   "note": "Counts the strings that feed the sampler; that SHAKE makes every pair about equally likely is an assumption on SHAKE that no theorem here states. The proved rates are about 6 bits weaker than the published 2^-138.7, 2^-199.6, 2^-252.5 (an exponential-moment bound and a union bound over 64 entries and two signs)."
  },
  {
   "property": "C37",
   "status": "proved",
   "theorems": [
    "C37_threads",
    "C37_lock",
    "C37_returns",
    "C37_one_descriptor_refuted",
    "C37_waits_for_others"
   ],
   "note": "Loads and stores of the static variable are sequentially consistent; C11 calls the unsynchronised accesses a data race. C37_one_descriptor_refuted and C37_waits_for_others show the two weaknesses named in the statement."
  },
  {
   "property": "C38",
   "status": "proved",
   "theorems": [
    "C38_verdict",
    "C38_total",
    "C38_same_verdict",
    "C38_find",
    "C38_readhex",
    "C38_right_files",
    "C38_no_records",
    "C38_only_complete_refuted"
   ],
   "note": "C38_total leaves one kind of file out: a count that does not fit an int, on which fscanf has undefined behaviour (the model's UB_overflow). C38_only_complete_refuted and C38_no_records: the harness does not notice that records are missing."
  },
  {
   "property": "C39",
   "status": "proved",
   "theorems": [
    "C39_verdict",
    "C39_altered",
    "C39_fails_only"
   ],
   "note": "The codes the API returns are not looked at by the test."
  },
  {
   "property": "C40",
   "status": "proved",
   "theorems": [
    "C40_hard_coded",
    "C40_constructor",
    "C40_run",
    "C40_accepted_by_C",
    "C40_main",
    "C40_unknown_raises_refuted"
   ],
   "note": "That the program reaches its end is stated under the condition that the noise of the six fixed exchanges is within the decryption bound (quiet); evaluating it in Coq is too expensive, C36 bounds how rarely it fails. Everything printed is proved without that condition."
  },
  {
   "property": "C41",
   "status": "proved",
   "theorems": [
    "C41_threads",
    "C41_returns"
   ],
   "note": "Unix. The builds of C33 (without the portable AES); accesses are sequentially consistent; the buffers for the random bytes are local to the threads."
  },
  {
   "property": "C42",
   "status": "proved",
   "theorems": [
    "C42_race_free",
    "C42_library",
    "C42_lock_race_free",
    "C42_lock_race_refuted",
    "C42_portable_refuted"
   ],
   "note": "C42_lock_race_refuted and C42_portable_refuted are the two kinds of races that exist; they hold for any two calls, not for a single witness."
  },
  {
   "property": "C43",
   "status": "proved",
   "theorems": [
    "C43_history",
    "C43_returns",
    "C43_untouched",
    "C43_session",
    "C43_placed",
    "C43_windows",
    "C43_windows_unreported"
   ],
   "note": "Unix, and Windows in C43_windows. An exhausted list of answers of the system is the outcome OutOfFuel (still waiting); C43_returns says when it does not occur. One thread; C33 and C41 are about several. The global of aes_c.c is not carried from call to call: every block sets it before it is used, whatever it was (C22_portable_alone)."
  },
  {
   "property": "C44",
   "status": "proved",
   "theorems": [
    "C44_keypair",
    "C44_enc",
    "C44_dec",
    "C44_aes256_ecb",
    "C44_returned",
    "C44_failed"
   ],
   "note": "OpenSSL is an oracle: which of its calls fail is arbitrary, what a successful call computes is FIPS 197. The statements are for N < 32768, so that lengths fit the int of the EVP interface; the shipped sets have N <= 1344."
  },
  {
   "property": "C45",
   "status": "proved",
   "theorems": [
    "C45_threads",
    "C45_returns",
    "C45_placed"
   ],
   "note": "Unix. The builds of C33 (without the portable AES); accesses are sequentially consistent; every call has its own local buffer for random bytes. Threads do not write where others read; handing over keys is in C49."
  },
  {
   "property": "C46",
   "status": "proved",
   "theorems": [
    "C46_shake128",
    "C46_shake256",
    "C46_shake128_4x"
   ],
   "note": "The plain functions absorb into a state of zeroes, as their callers in fips202.c do (keccak_absorb does not clear it)."
  },
  {
   "property": "C47",
   "status": "proved",
   "theorems": [
    "C47_history",
    "C47_large_step_refuted",
    "C47_zero_step_refuted"
   ],
   "note": "The states are 32-byte aligned as KeccakP1600times4_statesAlignment asks. The two refuted theorems are the cases the statement excepts; FrodoKEM does not call the loop."
  },
  {
   "property": "C48",
   "status": "proved",
   "theorems": [
    "C48_clean",
    "C48_history",
    "C48_made_once",
    "C48_links",
    "C48_last_options_refuted",
    "C48_two_variants_refuted",
    "C48_visual_studio"
   ],
   "note": "make is modelled by which object files it makes and archives; the compiler, its own options and the contents of the C library and OpenSSL are not. C48_links says exactly when object files of different runs link. The refuted theorems are that the options of the last run count, and that a program can use two variants."
  },
  {
   "property": "C49",
   "status": "proved",
   "theorems": [
    "C49_rounds",
    "C49_no_fault",
    "C49_ends",
    "C49_session"
   ],
   "note": "Unix, the builds of C33 (without the portable AES), sequentially consistent accesses. Threads are synchronised by waiting for all of them (fork and join, or a barrier); finer synchronisation (locks, queues) is not modelled."
  },
  {
   "property": "C50",
   "status": "proved",
   "theorems": [
    "C50_fork",
    "C50_ends",
    "C50_closed",
    "C50_device_only_refuted",
    "C50_placed"
   ],
   "note": "Unix, one thread per process. The computation of a call apart from its request for random bytes is one step, since no other process sees its memory. fork() succeeds. C50_closed and C50_device_only_refuted are the limits the statement names."
  },
  {
   "property": "C51",
   "status": "proved",
   "theorems": [
    "C51_ciphertext",
    "C51_sender_receiver",
    "C51_senders",
    "C51_receivers",
    "C51_chosen_keys_refuted",
    "C51_calls_exist"
   ],
   "note": "The colliding strings are named in the statements (that some collision of SHAKE exists would be true anyway). C51_chosen_keys_refuted is the limit the statement names; C51_calls_exist shows that the hypotheses are met."
  },
  {
   "property": "C52",
   "status": "proved",
   "theorems": [
    "C52_figures",
    "C52_iterations",
    "C52_two_runs_refuted",
    "C52_cycles_refuted",
    "C52_ends",
    "C52_never",
    "C52_still",
    "C52_backwards_refuted",
    "C52_long32_refuted",
    "C52_windows_clock",
    "C52_bench",
    "C52_bench_ends",
    "C52_main"
   ],
   "note": "double is modelled by the rational numbers and a standard deviation by its square. The refuted theorems are the exceptions the statement names."
  },
  {
   "property": "C53",
   "status": "proved",
   "theorems": [
    "C53_alone",
    "C53_threads",
    "C53_again",
    "C53_again_alone",
    "C53_library",
    "C53_library_again"
   ],
   "note": "C53_library is for calls of several threads that take their random bytes from random.c (Unix), stopped while some of them still wait for theirs. C53_alone is for one call in every build, C53_threads for calls of several threads in builds without the portable AES (C42 refutes the other). Actions are in the order of the source; those of frodo_pack are modelled one by one."
  },
  {
   "property": "C54",
   "status": "proved",
   "theorems": [
    "C54_threads",
    "C54_session",
    "C54_library",
    "C54_library_ends",
    "C54_library_rounds",
    "C54_library_session",
    "C54_library_fair",
    "C54_fair_schedules",
    "C54_histories",
    "C54_histories_fair",
    "C54_histories_fair_schedules",
    "C54_histories_ends"
   ],
   "note": "C54_library and C54_library_ends: together with random.c of C55; C54_library_rounds and C54_library_session: threads started and waited for again and again. C54_library_fair: every fair schedule ends; C54_fair_schedules: every run can be continued to one. C54_histories: threads that each make any number of calls, without waiting for each other. C54_histories_fair, C54_histories_fair_schedules, C54_histories_ends: all of them do all their actions under every fair schedule, and every run can be continued to one. Loads and stores are those of ConcKem.v (C33), with per-location coherence only and no order between locations; speculated stores (load buffering) are not in the machine. Examples show that it is weaker than sequential consistency and that waiting matters. C42 refutes the builds with the portable AES already under sequential consistency."
  },
  {
   "property": "C55",
   "status": "proved",
   "theorems": [
    "C55_threads",
    "C55_lock",
    "C55_returns",
    "C55_fair",
    "C55_unseen_refuted"
   ],
   "note": "The accesses to the static variable lock are relaxed: a load takes any message not older than what the thread knows, a store any later time. The buffers are each thread's own. C55_fair: every fair schedule in which stores are seen after some time; C55_unseen_refuted: the latter is needed. C55_opens_again shows a behaviour that sequential consistency excludes."
  },
  {
   "property": "C56",
   "status": "proved",
   "theorems": [
    "C56_handlers",
    "C56_returns",
    "C56_portable_refuted"
   ],
   "note": "The interrupted and the interrupting calls are those of C41 with turns that nest. C56_returns is for infinite runs in which handlers come at any moments; unlike C37 and C41 it needs no fairness between the calls. C56_portable_refuted has the failure of the portable AES. That a compiler could keep the non-volatile variable lock in a register is outside the model."
  },
  {
   "property": "C57",
   "status": "proved",
   "theorems": [
    "C57_trace",
    "C57_passing"
   ],
   "note": "Observations are those of C17: branches, loop bounds and indices. Memcheck itself (how undefinedness spreads through instructions) is not modelled: the theorem is the semantic fact its rule approximates. The comparison by memcmp of two secrets already marked as defined is one access to each. With the portable AES the lookups depend on the seed of A (C17_table_aes_needed), so there the bytes z of the two runs must be the same."
  },
  {
   "property": "C58",
   "status": "proved",
   "theorems": [
    "C58_encaps",
    "C58_decaps",
    "C58_keygen_source",
    "C58_short_source_refuted",
    "C58_encaps_source"
   ],
   "note": "Python with its assertions on (without -O). C58_short_source_refuted: a random source that stops after s goes unnoticed."
  },
  {
   "property": "C59",
   "status": "proved",
   "theorems": [
    "C59_shake_same",
    "C59_absorb_same",
    "C59_sa_same",
    "C59_keypair_same",
    "C59_enc_same",
    "C59_dec_same",
    "C59_permutation_injective",
    "C59_shake_remains",
    "C59_cleared_refuted",
    "C59_shipped",
    "C59_keypair",
    "C59_enc",
    "C59_dec"
   ],
   "note": "The wanted property (the functions that keypair, enc and dec call leave no secret in their frames) is refuted. In the model are the arrays of the last call of shake128/shake256 and of the keccak_absorb in it, and the array sp of frodo_mul_add_sa_plus_e; not scalars such as the lanes of the permutation. What later calls of the program do to dead stack memory is outside C."
  },
  {
   "property": "C60",
   "status": "proved",
   "theorems": [
    "C60_as_same",
    "C60_sa_same",
    "C60_keypair_same",
    "C60_enc_same",
    "C60_dec_same",
    "C60_keypair",
    "C60_enc",
    "C60_dec",
    "C60_formed",
    "C60_separated"
   ],
   "note": "The calls of SHAKE are recorded in copies of the functions, which the _same theorems show to be equal to the originals but for the record."
  },
  {
   "property": "C61",
   "status": "proved",
   "theorems": [
    "C61_clean",
    "C61_tests",
    "C61_serial",
    "C61_two_steps",
    "C61_ends",
    "C61_resumed",
    "C61_resumed_tests",
    "C61_succeeds_refuted",
    "C61_success_refuted"
   ],
   "note": "Each line of a recipe is one indivisible action (rm -rf and ar on one directory do not overlap). Two wanted properties are refuted: that make -j succeeds where make does, and that its exit status 0 means that the KAT programs are there when make clean was not run before."
  }
 ]
}