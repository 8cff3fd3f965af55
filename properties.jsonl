{"id": "C01", "title": "Encapsulate/decapsulate agreement under the exact noise condition", "statement": "If a key pair comes from crypto_kem_keypair and (ct, ss) from crypto_kem_enc on its public key, then crypto_kem_dec on ct and that secret key returns exactly ss whenever every entry of the accumulated noise S'E + E'' - E'S (reduced to the centred range mod q) lies in [-q/2^(B+1), q/2^(B+1)); and when an entry lies outside, the recovered message differs from the encapsulated one.", "quantifier": "All randomness strings, all three parameter sets (and every parameter choice meeting the stated side conditions), all build variants on little-endian hosts.", "why_tests_cant": "Failure probability is about 2^-139 or less: no test run ever meets the failing branch, and success on samples says nothing about the exact boundary.", "anchors": ["src/kem.c:crypto_kem_keypair", "src/kem.c:crypto_kem_enc", "src/kem.c:crypto_kem_dec", "src/frodo_macrify.c:frodo_key_decode"]}
{"id": "C02", "title": "Implicit rejection is exact", "statement": "crypto_kem_dec derives ss from the recovered message's key k' exactly when re-encrypting the recovered message reproduces the received ciphertext byte for byte; in every other case ss is SHAKE(ct || s) with the secret s stored in the secret key.", "quantifier": "Every ciphertext of the right length and every secret-key byte string of the right length, honest or not.", "why_tests_cant": "There are 2^77760 or more ciphertexts; a wrong comparison on one bit position or an unmasked high bit shows only on inputs an adversary builds.", "anchors": ["src/kem.c:crypto_kem_dec", "src/util.c:ct_verify", "src/util.c:ct_select"]}
{"id": "C03", "title": "Decapsulation never misbehaves on malformed input", "statement": "crypto_kem_dec terminates, returns 0, and performs no out-of-bounds access, no read of uninitialised memory, no signed overflow and no invalid shift, whatever the ct and sk bytes are.", "quantifier": "Every ct and sk byte string of the advertised length; sk buffer 2-byte aligned.", "why_tests_cant": "Undefined behaviour can depend on particular byte values; fuzzing covers a negligible part of the input space.", "anchors": ["src/kem.c:crypto_kem_dec"]}
{"id": "C04", "title": "Key generation and encapsulation: exact output sizes, every byte determined, no undefined behaviour", "statement": "crypto_kem_keypair fills exactly CRYPTO_PUBLICKEYBYTES and CRYPTO_SECRETKEYBYTES bytes, crypto_kem_enc exactly CRYPTO_CIPHERTEXTBYTES and CRYPTO_BYTES; every output byte is written with a defined value; nothing outside is touched and the previous contents of the output buffers have no influence; both return 0.", "quantifier": "All randomness strings and all public-key byte strings of the right length (not only honestly generated ones), all previous buffer contents.", "why_tests_cant": "A test cannot see an unwritten byte that happens to have the right value nor an out-of-bounds access without a crash, and malformed public keys are never exercised.", "anchors": ["src/kem.c:crypto_kem_keypair", "src/kem.c:crypto_kem_enc", "src/api_frodo640.h"]}
{"id": "C05", "title": "The KEM computes the published FrodoKEM algorithms", "statement": "For all inputs the three API functions return what the FrodoKEM specification's KeyGen, Encaps and Decaps algorithms return, stated with matrices over Z_q, bit-string packing, and SHAKE as in FIPS 202.", "quantifier": "All randomness, keys and ciphertexts, all parameter sets, AES and SHAKE matrix generation.", "why_tests_cant": "Known-answer tests cover 100 points per parameter set.", "anchors": ["src/kem.c", "src/frodo_macrify.c", "src/frodo_macrify_reference.c", "src/util.c", "src/noise.c"]}
{"id": "C06", "title": "Reference, optimized and AVX2 builds are interchangeable", "statement": "On a little-endian host the reference, the optimized portable and the AVX2 matrix routines produce identical outputs, hence the three API functions produce identical keys, ciphertexts and shared secrets in every build.", "quantifier": "All seeds, all secret and error matrices (any 16-bit values), AES and SHAKE matrix generation, every dimension N divisible by 16.", "why_tests_cant": "The block structures differ (row-wise, 4 rows, 8 rows, 16 lanes); a disagreement could need particular operand values (sign, carry).", "anchors": ["src/frodo_macrify.c:frodo_mul_add_as_plus_e", "src/frodo_macrify.c:frodo_mul_add_sa_plus_e", "src/frodo_macrify_reference.c"]}
{"id": "C07", "title": "Byte order of the host does not change outputs", "statement": "On a big-endian host keys, ciphertexts and shared secrets are the same bytes as on a little-endian host. (Holds for the reference build; the optimized build violates it because frodo_mul_add_sa_plus_e does not convert A.)", "quantifier": "All inputs; both host byte orders; reference and optimized builds.", "why_tests_cant": "The test machines are little-endian; the statement is about hosts the test suite does not run on.", "anchors": ["src/config.h:LE_TO_UINT16", "src/frodo_macrify.c:frodo_mul_add_sa_plus_e", "src/kem.c"]}
{"id": "C08", "title": "Portable AES, AES-NI AES and FIPS-197 agree", "statement": "AES128/AES256 key schedules and block encryptions of the portable and the AES-NI implementation both equal FIPS-197 encryption, and ECB mode applies it to each 16-byte block.", "quantifier": "Every 128/256-bit key, every block, every number of blocks, in-place or not.", "why_tests_cant": "2^256 key/block pairs; test vectors cover a handful.", "anchors": ["src/aes/aes_c.c", "src/aes/aes_ni.c", "src/aes/aes.c"]}
{"id": "C09", "title": "shake128/shake256 implement FIPS 202", "statement": "For every message and every output length the functions return SHAKE128/SHAKE256 as defined bit by bit in FIPS 202 (Keccak-p[1600,24], pad10*1, suffix 1111), write exactly the requested number of bytes and never touch memory outside the buffers.", "quantifier": "All message byte strings, all output lengths (including 0, block multiples and partial blocks).", "why_tests_cant": "Unbounded message and output lengths; block-boundary behaviour for each residue.", "anchors": ["src/sha3/fips202.c:shake128", "src/sha3/fips202.c:shake256", "src/sha3/fips202.c:KeccakF1600_StatePermute"]}
{"id": "C10", "title": "The four-way SHAKE128 equals four independent SHAKE128 calls", "statement": "shake128_4x on four messages of equal length writes to each output exactly what shake128 would produce for the corresponding message; no lane influences another.", "quantifier": "All four-tuples of equal-length messages, all output lengths.", "why_tests_cant": "Cross-lane leakage can need particular values; lengths unbounded.", "anchors": ["src/sha3/fips202x4.c:shake128_4x", "src/sha3/keccak4x/KeccakP-1600-times4-SIMD256.c"]}
{"id": "C11", "title": "Packing is lossless", "statement": "Packing a vector of D-bit values and unpacking it returns the vector, and unpacking a byte string of D*n/8 bytes then packing returns the byte string; so public keys and ciphertexts have exactly one encoding.", "quantifier": "All vectors of any length (multiple of 8) and every width D from 1 to 16; all byte strings.", "why_tests_cant": "Vector length and width are unbounded/generic and the value space is astronomically large.", "anchors": ["src/util.c:frodo_pack", "src/util.c:frodo_unpack"]}
{"id": "C12", "title": "Packing semantics bit by bit, including short buffers and dirty high bits", "statement": "Bit k of the packed stream (most significant bit first) is bit D-1-(k mod D) of element k/D; bits above D of an element never influence the output; if the output buffer is too short only the first outlen*8 bits are copied; if it is too long the rest is zero. Unpacking likewise.", "quantifier": "All input vectors (any 16-bit values), all lengths of input and output, all widths 1..16.", "why_tests_cant": "Quantifies over all length combinations, including non-multiples of 8.", "anchors": ["src/util.c:frodo_pack", "src/util.c:frodo_unpack"]}
{"id": "C13", "title": "Message encoding tolerates exactly the advertised noise", "statement": "Decoding encode(mu) + e returns mu for every error e with entries in [-q/2^(B+1), q/2^(B+1)) modulo q, and decodes some entry differently for any other e; in particular decode(encode(mu)) = mu.", "quantifier": "All messages mu, all error matrices, every D and B with 1 <= B < D <= 16, B <= 8.", "why_tests_cant": "2^128..2^256 messages times all noise values; boundary values are exponentially unlikely.", "anchors": ["src/frodo_macrify.c:frodo_key_encode", "src/frodo_macrify.c:frodo_key_decode"]}
{"id": "C14", "title": "Noise sampling follows the published distribution exactly", "statement": "For a 16-bit random word the sample is +-t where t is the number of CDF entries below the word's upper 15 bits, the sign is the low bit, zero has a single representation, and over the 65536 words each value is hit exactly as often as the published table says; each output depends only on the word at its position.", "quantifier": "All 16-bit words, all vector lengths, three CDF tables.", "why_tests_cant": "Distribution exactness concerns all 65536 inputs at every position of arbitrarily long vectors.", "anchors": ["src/noise.c:frodo_sample_n", "src/frodo640.c:CDF_TABLE", "src/frodo976.c:CDF_TABLE", "src/frodo1344.c:CDF_TABLE"]}
{"id": "C15", "title": "Constant-time comparison is exact", "statement": "ct_verify returns 0 if the two arrays are equal element by element and -1 otherwise.", "quantifier": "All pairs of uint16_t arrays of any length.", "why_tests_cant": "A sign or shift slip could miss differences in one bit position only, at any index.", "anchors": ["src/util.c:ct_verify"]}
{"id": "C16", "title": "Constant-time selection is exact", "statement": "ct_select copies the first array when the selector is 0 and the second when it is -1, for every byte, and ct_verify never returns any other selector.", "quantifier": "All arrays of any length.", "why_tests_cant": "Quantifies over all contents and lengths.", "anchors": ["src/util.c:ct_select"]}
{"id": "C17", "title": "Control flow and memory addresses are independent of secrets", "statement": "The sequence of branch decisions, loop counts and array indices executed by keypair, enc and dec depends only on the public seed of A (and with SHAKE generation not even on that): not on the secret s, S, E, the message mu, the decryption result, nor on whether decapsulation accepts.", "quantifier": "All pairs of executions whose public matrix seed agrees, whatever their secrets and ciphertexts.", "why_tests_cant": "A 2-safety property over all pairs of secrets; the timing attack of Guo-Johansson-Nilsson was on code whose tests all passed.", "anchors": ["src/kem.c:crypto_kem_dec", "src/util.c", "src/noise.c", "src/frodo_macrify.c"]}
{"id": "C18", "title": "Secrets are wiped before returning", "statement": "When keypair, enc or dec return, every local buffer the source marks as containing secret data (S, E, seeds, mu, k, V, S', E', E'', W, hash inputs) is zero in full.", "quantifier": "All inputs and randomness.", "why_tests_cant": "Dead stack memory is not observable by a test, and a length slip would leave a tail of the buffer.", "anchors": ["src/kem.c", "src/util.c:clear_bytes"]}
{"id": "C19", "title": "No signed overflow in matrix arithmetic", "statement": "Every int-typed intermediate (int16 times uint16 products, sums, differences) in the multiplication, addition, subtraction, sampling and decoding routines stays in [-2^31, 2^31), for any 16-bit matrix contents.", "quantifier": "All 16-bit matrix entries, all dimensions.", "why_tests_cant": "Extreme operand values (-32768 * 65535) have negligible probability under random tests.", "anchors": ["src/frodo_macrify.c", "src/frodo_macrify_reference.c", "src/noise.c"]}
{"id": "C20", "title": "randombytes fills the whole buffer despite short reads", "statement": "On Linux, if the system eventually delivers the bytes, randombytes returns success only after every requested byte has been written, in order, whatever the pattern of short reads and transient errors; a buffer length of 2^31 or more violates this (the length is truncated to int and nothing is written although success is returned).", "quantifier": "All schedules of read() results (short counts, errors), all lengths.", "why_tests_cant": "Schedules of short reads and transient failures are not under a test's control.", "anchors": ["src/random/random.c:randombytes"]}
{"id": "C21", "title": "A randomness failure is not reported by the KEM", "statement": "The property 'when the random generator fails, key generation and encapsulation do not return success' is false of this code: both ignore the return value and return 0, using whatever bytes the buffer held. If the failing generator leaves the buffer as it is, as on Windows, both read memory that was never set: their behaviour is undefined.", "quantifier": "All failure outcomes of the generator.", "why_tests_cant": "The generator does not fail on test machines.", "anchors": ["src/kem.c:crypto_kem_keypair", "src/kem.c:crypto_kem_enc", "src/random/random.c"]}
{"id": "C22", "title": "Concurrent use of the portable AES", "statement": "AES-NI block encryption called from any number of threads gives each thread its sequential result under every interleaving; the portable implementation does not, because both share one global pointer to the current state.", "quantifier": "All numbers of threads, all interleavings at byte granularity, all inputs.", "why_tests_cant": "A race needs particular schedules.", "anchors": ["src/aes/aes_c.c:state", "src/aes/aes_c.c:Cipher", "src/aes/aes_ni.c"]}
{"id": "C23", "title": "The Python reference and the C code agree", "statement": "frodokem.py's pack, unpack, sample, encode, matrix generation, key generation and encapsulation compute the same bytes as the C code; its decode agrees exactly except on ties, where Python rounds half to even and C rounds up.", "quantifier": "All inputs, all parameter sets.", "why_tests_cant": "Ties occur with negligible probability in random tests; agreement is claimed for all inputs.", "anchors": ["python3/frodokem.py", "src/frodo_macrify.c:frodo_key_decode"]}
{"id": "C24", "title": "Deterministic generator used for known-answer tests", "statement": "The AES256-CTR-DRBG in tests/rng.c returns the byte stream defined by SP 800-90A CTR_DRBG without derivation function for every seed and every sequence of requests, with the 128-bit counter incrementing with full carry, and its output depends only on the seed and the request lengths.", "quantifier": "All 48-byte seeds, all sequences of request lengths.", "why_tests_cant": "Carry propagation across counter bytes is hit with probability 2^-8..2^-128 per request.", "anchors": ["tests/rng.c:randombytes", "tests/rng.c:AES256_CTR_DRBG_Update"]}
{"id": "C25", "title": "Secret key layout", "statement": "The secret key is s || pk || S^T || H(pk): the embedded public key equals the returned public key, the hash is SHAKE of it, and S is stored as 2-byte little-endian values such that unpacking pk gives A*S + E for the stored S and a noise matrix E in the support of the distribution.", "quantifier": "All randomness, all parameter sets, both host byte orders (reference build).", "why_tests_cant": "Consistency over all randomness; endianness not tested.", "anchors": ["src/kem.c:crypto_kem_keypair"]}
{"id": "C26", "title": "Matrix generation is the published one and identical on both sides", "statement": "Row-wise generation in keypair and column/blocked generation in enc and dec use the same matrix A: entry (i,j) is the little-endian 16-bit word that the specification prescribes from AES128_seedA(i || 8*floor(j/8) || 0...) or SHAKE128(i || seedA).", "quantifier": "All seeds, all i, j < N, N up to 32768 and divisible by 16.", "why_tests_cant": "1.8 million entries for each of 2^128 seeds.", "anchors": ["src/frodo_macrify.c", "src/frodo_macrify_reference.c"]}
{"id": "C27", "title": "Wrong noise cannot break a fixed bound", "statement": "If the sampled matrices satisfy 2*N*t^2 + t <= q/2^(B+1) - 1 entrywise (t = largest magnitude in the table) decapsulation always succeeds; for the shipped parameters the exact worst case is computed and shown not to meet the bound, i.e. the scheme is correct only statistically, and every sampled coefficient is at most 12, 10, 6 in magnitude.", "quantifier": "All randomness.", "why_tests_cant": "Worst-case statement.", "anchors": ["src/noise.c", "src/frodo640.c"]}
{"id": "C28", "title": "At most one ciphertext is accepted per recovered message", "statement": "For a fixed secret key, two accepted ciphertexts from which the same message is recovered are identical byte strings; so any change to an accepted ciphertext that does not change the recovered message is rejected.", "quantifier": "All secret keys, all ciphertext pairs.", "why_tests_cant": "Quantifies over all pairs.", "anchors": ["src/kem.c:crypto_kem_dec"]}
{"id": "C29", "title": "Overwriting the error matrix in place is harmless", "statement": "The optimized S'A+E' routine destroys its error operand; the values it returns, and everything later computed by enc and dec, equal those of the version that leaves it intact, and S' and E'' stored next to it are not modified.", "quantifier": "All inputs.", "why_tests_cant": "Adjacent-buffer corruption depends on sizes and values.", "anchors": ["src/frodo_macrify.c:frodo_mul_add_sa_plus_e", "src/kem.c"]}
{"id": "C30", "title": "SHAKE output is prefix-consistent", "statement": "Requesting m bytes and requesting n >= m bytes for the same message give outputs that agree on the first m bytes; absorb followed by squeezeblocks gives the same stream.", "quantifier": "All messages and all lengths.", "why_tests_cant": "Unbounded lengths.", "anchors": ["src/sha3/fips202.c"]}
{"id": "C31", "title": "Alignment requirement of decapsulation", "statement": "crypto_kem_dec reads the stored S through a uint16_t pointer into sk; this is defined exactly when the sk buffer starts at an even address. All 32-byte aligned vector loads and stores in the AVX2 matrix code are aligned and in range (the two shuffle constants of the four-way Keccak are loaded with an aligned load although they are not declared aligned; the model assumes the compiler aligns them).", "quantifier": "All buffer addresses; all loop iterations; all N divisible by 16.", "why_tests_cant": "malloc and stack buffers in tests are always aligned.", "anchors": ["src/kem.c:crypto_kem_dec", "src/frodo_macrify.c:frodo_mul_add_sa_plus_e"]}
{"id": "C32", "title": "Buffer overlap", "statement": "Decapsulation may write ss over any part of ct or sk (all inputs are consumed before ss is written); encapsulation writes ct before it has read all of pk, so a ct buffer overlapping pk changes the result; key generation is undefined exactly when pk overlaps the copy of pk inside sk, and with any other overlap it returns 0 and leaves bytes of the secret key in the public key.", "quantifier": "All overlap offsets.", "why_tests_cant": "Tests use distinct buffers.", "anchors": ["src/kem.c"]}
{"id": "C33", "title": "Concurrent use of the API", "statement": "In builds that do not use the portable AES (SHAKE for A, AES-NI or OpenSSL), any number of threads may call keypair, enc and dec at the same time, sharing keys and ciphertexts as inputs: under every interleaving each call returns 0 and leaves in its output buffers what the FrodoKEM algorithms prescribe, and no other memory changes.", "quantifier": "Any number of threads, any mix of the three calls, every interleaving, every parameter set, all inputs.", "why_tests_cant": "The number of interleavings is astronomical and a race shows only in a few.", "anchors": ["src/kem.c:crypto_kem_keypair", "src/kem.c:crypto_kem_enc", "src/kem.c:crypto_kem_dec", "src/aes/aes_c.c:state"]}
{"id": "C34", "title": "Shipped parameters and advertised sizes", "statement": "The three instances use the published parameters (n, q, B, key length, SHAKE variant), and CRYPTO_PUBLICKEYBYTES, CRYPTO_SECRETKEYBYTES, CRYPTO_CIPHERTEXTBYTES and CRYPTO_BYTES in the API headers are the lengths of what the functions produce.", "quantifier": "All randomness, keys and messages; the three instances.", "why_tests_cant": "A test compares with itself: if all sides use the same wrong constant it passes.", "anchors": ["src/api_frodo640.h", "src/api_frodo976.h", "src/api_frodo1344.h", "src/frodo640.c", "src/frodo976.c", "src/frodo1344.c"]}
{"id": "C35", "title": "Byte-order macros", "statement": "The byte-wise fallback of LE_TO_UINT16 and UINT16_TO_LE, used when the compiler does not tell its byte order, computes the same function as the specialised definitions on hosts of either byte order. Whatever the options of make, the definitions that are selected read a word whose bytes are b0, b1 as b0 + 256 b1 and store the low byte first, if the compiler is right about the byte order it tells, or, where it tells none, the build is for ARM or the host is little-endian. The four-way permutation has a test of its own: whatever macros are defined it decides; it is compiled with the macros of a little-endian host and refused with those of a big-endian host, if they tell the order in one of four usual forms or name a listed machine. A host about which nothing is defined is taken for little-endian.", "quantifier": "All 16-bit values, both byte orders, all options of make, all answers of the compiler, all sets of defined macros.", "why_tests_cant": "The fallback is not compiled by common compilers, and big-endian hosts are rarely tested.", "anchors": ["src/config.h:LE_TO_UINT16", "src/config.h:UINT16_TO_LE", "src/sha3/keccak4x/brg_endian.h:PLATFORM_BYTE_ORDER"]}
{"id": "C36", "title": "Decryption failures are rare", "statement": "For each of the three instances, any matrix seed and any message: among all pairs of pseudorandom strings that can feed the noise sampler in key generation and encapsulation, at most a fraction 2^-133 (FrodoKEM-640), 2^-194 (FrodoKEM-976), 2^-246 (FrodoKEM-1344) makes the decrypted message differ. When the pair used in an exchange is not one of them, decapsulation through the API returns the encapsulated secret.", "quantifier": "All pairs of byte strings of 32n and 32n+128 bytes (counted exactly, not sampled), all matrix seeds, all messages, both ways to generate A.", "why_tests_cant": "A failure would never be seen in any feasible number of test runs; the published rates come from a numerical script.", "anchors": ["src/kem.c:crypto_kem_dec", "src/noise.c:frodo_sample_n", "src/util.c:frodo_key_decode", "src/frodo640.c:CDF_TABLE", "src/frodo976.c:CDF_TABLE", "src/frodo1344.c:CDF_TABLE"]}
{"id": "C37", "title": "randombytes from several threads", "statement": "Any number of threads may call randombytes on Unix at the same time, whatever open() and read() answer: no call has undefined behaviour, a call that returns returns 0 and its whole buffer then holds bytes of the device, in order, no byte being delivered twice; nothing else is written, and in the end the shared descriptor is valid. Once the system calls succeed, every call returns if every thread keeps getting turns. (The shared variable may cost extra descriptors, and a thread may have to wait for another.)", "quantifier": "Any number of calls, all disjoint buffers below 2^31 bytes, every interleaving, every sequence of answers of open and read.", "why_tests_cant": "The interleavings and system-call failures that matter (an open failing between another thread's open and read) cannot be provoked by tests.", "anchors": ["src/random/random.c:randombytes", "src/random/random.c:lock"]}
{"id": "C38", "title": "Verdict of the known-answer tests", "statement": "Run on a response file made of complete records, the KAT program returns 0 exactly when, for every record, the key pair, ciphertext and shared secret derived from its seed by CTR_DRBG and FrodoKEM are the recorded ones and the ciphertext decapsulates to the shared secret; it returns -2 or -4 only when some record is wrong in the corresponding way. On any file whatever it ends without undefined behaviour (unless a count overflows int), and the verdict depends on the parameter set and the generator of A only. Every list of seeds has a file on which it passes. A file with missing records is not noticed.", "quantifier": "All files, all records, all seeds; every build and byte order the API supports.", "why_tests_cant": "The program is itself the test; nothing tests that it compares the right buffers, reads the digits in the right order, or stops at the first wrong record.", "anchors": ["tests/PQCtestKAT_kem640.c:main", "tests/PQCtestKAT_kem640.c:FindMarker", "tests/PQCtestKAT_kem640.c:ReadHex", "tests/PQCtestKAT_kem640_shake.c", "tests/PQCtestKAT_kem976.c", "tests/PQCtestKAT_kem976_shake.c", "tests/PQCtestKAT_kem1344.c", "tests/PQCtestKAT_kem1344_shake.c"]}
{"id": "C39", "title": "Verdict of the self test", "statement": "The self test reports success exactly when in every round the honest ciphertext decapsulates to the encapsulated secret and the ciphertext altered by the test decapsulates to the rejection secret F(ct || s). The altered ciphertext always differs from the honest one, in at most the two bytes of one aligned position. On this library a round fails only if the honest ciphertext has a decryption failure or the altered ciphertext happens to be, byte for byte, an encryption of another message.", "quantifier": "Any number of rounds, all bytes the random generator may deliver, both byte orders, every build the API supports.", "why_tests_cant": "The program is itself the test; whether the alteration can be void (XOR with 0) or out of bounds for some random position is seen by no run.", "anchors": ["tests/test_kem.c:kem_test"]}
{"id": "C40", "title": "The Python known-answer program prints the C test vector", "statement": "For each of the six variants, nist_kat.py prints the first test vector of the C known-answer tests: its hard-coded random bytes are the outputs of CTR_DRBG after seeding with the seed of that vector, the printed pk, sk, ct and ss are those prescribed for the seed, and the C known-answer program of any build, run on the printed record with the seed filled in, finds all four values right. The six names select the six variants; an unknown name raises no exception.", "quantifier": "All six variants, every C build and memory; all names given to the constructor.", "why_tests_cant": "The README only says that the outputs should agree; running both compares one build on one host, and the seed is not in the repository.", "anchors": ["python3/nist_kat.py:NISTKAT", "python3/nist_kat.py:NISTRNG", "python3/frodokem.py:__init__", "README.md"]}
{"id": "C41", "title": "The API from several threads with the shared random generator", "statement": "Any number of threads may each call crypto_kem_keypair, crypto_kem_enc or crypto_kem_dec at the same time on Unix, with nothing but the library's own randombytes: in every schedule and whatever open() and read() answer, a call that has returned has returned 0 and its outputs are those FrodoKEM gives for bytes of /dev/urandom; no byte of the device goes into two calls or twice into one; memory that is nobody's output does not change. If every thread keeps getting turns and the system calls succeed from some moment on, every call returns.", "quantifier": "Any number of threads, every parameter set, matrix generator and build without the portable AES, all memories and placements where no call writes what another one uses, every interleaving of byte accesses and system calls, every sequence of answers of open and read; every fair infinite schedule.", "why_tests_cant": "Tests see a few schedules; a lost retry or a descriptor overwritten by another thread shows only in particular interleavings with failing system calls.", "anchors": ["src/kem.c:crypto_kem_keypair", "src/kem.c:crypto_kem_enc", "src/kem.c:crypto_kem_dec", "src/random/random.c:randombytes", "src/random/random.c:lock"]}
{"id": "C42", "title": "No data races", "statement": "Calls of the API from several threads on separate outputs never access the same byte of memory at once with one of the accesses a store, nor a global variable of the library, unless the build generates A with the portable AES; with the library's own randombytes the only shared variable involved in a race is its static descriptor, and that one only while the device has not yet been opened. With the portable AES any two calls that overlap in time can race on its global, and a call can then use the other call's pointer.", "quantifier": "Any number of threads, every parameter set and build, all memories and placements where no call writes what another one uses, every interleaving, every behaviour of open and read.", "why_tests_cant": "A race detector reports the races of the schedules it sees; absence is a statement about all schedules.", "anchors": ["src/kem.c:crypto_kem_keypair", "src/kem.c:crypto_kem_enc", "src/kem.c:crypto_kem_dec", "src/random/random.c:lock", "src/aes/aes_c.c:state"]}
{"id": "C43", "title": "Any history of calls in one process", "statement": "A process that calls crypto_kem_keypair, crypto_kem_enc and crypto_kem_dec in any order, any number of times, and stores into its own memory in between, sees every call return 0 and its memory at the end is what FrodoKEM prescribes for that sequence: each call's outputs are those for the next bytes of /dev/urandom, which are consumed in order, none twice and none skipped, and nothing else changes. So a secret encapsulated to a key pair made earlier in the history decapsulates later, whatever calls come in between, exactly when the noise is within bounds. The process gets to its end whenever the device can be opened and keeps delivering. On Windows the same holds if every request for random bytes is served; otherwise the process has undefined behaviour, and no call ever returns an error code.", "quantifier": "All finite sequences of calls and stores, all addresses in range, all memories, all contents of the device, all behaviours of open and read (failures, short reads) and all answers of BCryptGenRandom, every parameter set and build, including the portable AES.", "why_tests_cant": "State carried from call to call (the descriptor of random.c, the global of aes_c.c) could leak into a later call after one particular history only.", "anchors": ["src/kem.c:crypto_kem_keypair", "src/kem.c:crypto_kem_enc", "src/kem.c:crypto_kem_dec", "src/random/random.c:randombytes", "src/random/random.c:lock"]}
{"id": "C44", "title": "Failures of OpenSSL never give a wrong result", "statement": "In the builds with OpenSSL a call of the API that returns has returned 0 with the outputs FrodoKEM prescribes, although any call of the OpenSSL library it makes may fail: the process aborts at the first one that fails. A call of the API that returns has made exactly one cipher context, initialised it once, encrypted whole blocks amounting to the matrix A, and freed the context once after its last use; with SHAKE it does not use the library.", "quantifier": "Every pattern of failing library calls, every parameter set, the reference, optimized and AVX2 builds, all keys, ciphertexts, random bytes, memories and addresses in range.", "why_tests_cant": "OpenSSL practically never fails in a test run (it needs memory exhaustion or a disabled provider), so an unchecked return value is never seen.", "anchors": ["src/frodo_macrify.c:frodo_mul_add_as_plus_e", "src/frodo_macrify.c:frodo_mul_add_sa_plus_e", "src/frodo_macrify_reference.c:frodo_mul_add_as_plus_e", "src/frodo_macrify_reference.c:frodo_mul_add_sa_plus_e", "src/aes/aes.c:handleErrors", "src/aes/aes.c:AES128_free_schedule", "tests/rng.h:AES256_ECB"]}
{"id": "C45", "title": "Threads that use the library again and again", "statement": "Threads that each make any number of calls of crypto_kem_keypair, crypto_kem_enc and crypto_kem_dec, and store into their own memory in between, do not disturb each other although they share the random number generator: whenever a thread is between two of its calls, the memory it uses is what FrodoKEM prescribes for the calls it has made so far, in their order, each with its own random bytes, which were delivered in order and to no other call of any thread. All calls return 0, and every thread gets through all its calls if it is given turns and /dev/urandom can from some moment on be opened and read.", "quantifier": "Any number of threads with any lists of calls on memory that no other thread writes, all interleavings byte access by byte access, all behaviours of open and read in every call, every parameter set, all builds whose generation of A has no global state.", "why_tests_cant": "A descriptor left half-opened by one thread's call only matters for a call another thread makes much later; the number of interleavings of whole histories is beyond any test.", "anchors": ["src/kem.c:crypto_kem_keypair", "src/kem.c:crypto_kem_enc", "src/kem.c:crypto_kem_dec", "src/random/random.c:randombytes", "src/random/random.c:lock"]}
{"id": "C46", "title": "The SHAKE stream handed out in pieces", "statement": "After a message has been absorbed, any sequence of squeeze calls hands out consecutive pieces of the one SHAKE128 or SHAKE256 output of that message: the buffer of every call starts with the whole blocks asked for, continuing where the call before it stopped, and its other bytes are untouched. The concatenation of the pieces does not depend on how the request was cut. The same holds for each of the four instances of the AVX2 functions, independently of the others.", "quantifier": "Every message of every length, every number of calls, every number of blocks per call (0 included), every earlier content of the buffers; for the AVX2 functions four messages of equal length and every earlier content of the state.", "why_tests_cant": "The position in the stream lives in the state across calls; a slip (permuting once too often between calls, a call with 0 blocks that permutes) shows only for particular ways of cutting the request.", "anchors": ["src/sha3/fips202.c:shake128_absorb", "src/sha3/fips202.c:shake128_squeezeblocks", "src/sha3/fips202.c:shake256_absorb", "src/sha3/fips202.c:shake256_squeezeblocks", "src/sha3/fips202x4.c:shake128_absorb4x", "src/sha3/fips202x4.c:shake128_squeezeblocks4x"]}
{"id": "C47", "title": "Four Keccak states behind one interface", "statement": "The interface of keccak4x acts on four separate states of 200 bytes: after the states have been initialised, any sequence of calls (xor, overwrite or read any bytes of one state, or any number of lanes of all four with any distance between their data, 12 or 24 rounds of the permutation on all four, the fast absorbing loop) leaves each state as if it were alone and were given only its own data, and every call that reads delivers exactly the asked bytes of the asked state and leaves the rest of the buffer alone. The fast absorbing loop absorbs as many whole blocks as the data holds and returns the number of bytes by which it went ahead, unless its serial offset is 0 (it does not return) or larger than the data one step needs (it can read past the end).", "quantifier": "Every sequence of calls, every instance, offset and length within the 200 bytes, every number of lanes and every offset between the data, all data, every content of the memory before the initialisation; 12 and 24 rounds.", "why_tests_cant": "Lengths, offsets and lane counts select among many vector paths with shuffles (lanes in groups of four, the rest, partial lanes); FrodoKEM itself uses few of them, and mixing of instances shows only for particular combinations.", "anchors": ["src/sha3/keccak4x/KeccakP-1600-times4-SIMD256.c:KeccakP1600times4_AddBytes", "src/sha3/keccak4x/KeccakP-1600-times4-SIMD256.c:KeccakP1600times4_ExtractLanesAll", "src/sha3/keccak4x/KeccakP-1600-times4-SIMD256.c:KeccakP1600times4_PermuteAll_12rounds", "src/sha3/keccak4x/KeccakP-1600-times4-SIMD256.c:KeccakF1600times4_FastLoop_Absorb", "src/sha3/keccak4x/KeccakP-1600-times4-SnP.h:KeccakP1600times4_AddByte"]}
{"id": "C48", "title": "What make builds, for all options and histories", "statement": "A build from scratch succeeds for any values of ARCH, OPT_LEVEL, GENERATION_A and USE_OPENSSL, documented or not, for all three variants and for the test and KAT programs; the code it contains is the one the README promises for these options, and its API is FrodoKEM with A generated as GENERATION_A says (on big-endian hosts: with OPT_LEVEL=REFERENCE). After any history of runs of make with any options, removals of object files and archives left by earlier runs included, a program either does not link or has the code of the runs that made its frodo*.o and aes.o and computes FrodoKEM with the generator named when frodo*.o was made; no mixture of object files gives anything else. Without make clean this need not be the generator named last: make followed by make GENERATION_A=SHAKE128, as in the README, gives programs that use AES. The Visual Studio solution gives the optimized portable code with the portable AES, also to a program that has the libraries of all three variants and uses one; no program that uses two variants links.", "quantifier": "Every string as the value of each option, every list of runs of make and removals, every variant, both programs, both byte orders, and then every input of the API; for two variants every program, archive and library.", "why_tests_cant": "The options multiply with each other and with what earlier runs left behind; a test run sees one combination, usually from a fresh checkout.", "anchors": ["Makefile:USE_OPT_LEVEL", "Makefile:AES_NI_OBJS", "Makefile:SHAKEx4_OBJS", "Makefile:lib640", "Makefile:KATS", "src/config.h:USE_AVX2", "src/aes/aes.c:AES128_load_schedule", "src/frodo640.c:CDF_TABLE", "VisualStudio/frodoKEM-640.vcxproj", "README.md"]}
{"id": "C49", "title": "Threads that hand keys and ciphertexts to one another", "statement": "A program that starts threads, waits for them and starts threads again gets, at the end, the memory that a single thread would have got by making the same calls one after another, although the threads of a round run interleaved, share the random number generator and use keys and ciphertexts that other threads made in earlier rounds. The random bytes of the calls were delivered by the device, none to two calls; all calls return 0 and nothing undefined happens in any round; all rounds end if the threads get their turns and the device can in the end be opened and read. In particular a key pair made by one thread, an encapsulation by a second and a decapsulation by a third give equal shared secrets whenever the noise is tolerated, provided nobody overwrites the keys, the ciphertext and the secrets.", "quantifier": "Any number of rounds, each with any number of threads with any lists of calls (inside a round no thread writes where another reads or writes), all interleavings byte access by byte access, all behaviours of open and read, every parameter set, all builds whose generation of A has no global state.", "why_tests_cant": "State that survives from round to round (the memory, the descriptor of random.c) meets every interleaving of the rounds before; tests of threads see a few schedules.", "anchors": ["src/kem.c:crypto_kem_keypair", "src/kem.c:crypto_kem_enc", "src/kem.c:crypto_kem_dec", "src/random/random.c:randombytes", "src/random/random.c:lock"]}
{"id": "C50", "title": "Processes that fork", "statement": "A process may fork between any two calls, and its children too; each goes on with its copy of the memory. Whatever the processes do, in whatever order they run and wherever one of them is killed, every process computes what FrodoKEM prescribes for the calls of its own line of descent, one after another; every call returns 0 and nothing undefined happens. No byte of the random device is given out twice, to no two calls of any processes: parent and child never make the same key pair or secret from the same bytes. A process that gets its turns and whose requests the system serves finishes, whatever the others do. This needs the descriptor the library keeps: after the program has closed it (closing all descriptors, as daemons do) the next call that needs random bytes never ends, and if another file gets that number the call returns 0 with keys made from the contents of that file.", "quantifier": "All trees of processes with any lists of calls, all interleavings of their steps inside randombytes, all behaviours of open and read, every point at which a process may be killed, every parameter set and every build (the portable AES included).", "why_tests_cant": "The copied static variable and the shared device position meet every interleaving of the processes; a repeated byte would show only if two processes happened to be compared.", "anchors": ["src/kem.c:crypto_kem_keypair", "src/kem.c:crypto_kem_enc", "src/kem.c:crypto_kem_dec", "src/random/random.c:randombytes", "src/random/random.c:lock"]}
{"id": "C51", "title": "What a shared secret commits to", "statement": "If two parties end with the same shared secret of the same parameter set, they agree on the ciphertext, and, when the secret keys were made by the library and the ciphertexts were accepted, on the public key and the message; the same holds for a sender and a receiver and for two senders. The only exceptions are collisions of SHAKE on byte strings that are determined by the parties' inputs, and a rejection string s that equals the other party's derived key or rejection string. For the ciphertext this holds for arbitrary, even malformed or maliciously chosen, secret keys; for the public key it does not: any two public keys can be put in secret keys that give the same secret for one ciphertext.", "quantifier": "all parameter sets, builds, byte strings as secret keys, public keys and ciphertexts, all random strings, memories and addresses", "why_tests_cant": "A test sees that some secrets differ; that no two inputs give equal secrets without a hash collision ranges over all pairs of calls.", "anchors": ["src/kem.c:crypto_kem_keypair", "src/kem.c:crypto_kem_enc", "src/kem.c:crypto_kem_dec"]}
{"id": "C52", "title": "The benchmark prints what it measured, and the test program's exit status is the verdict of its self test", "statement": "When the timing of an operation for a number of seconds ends, the operation has been run exactly until the clock has shown that time in all (or, with the other macro, as often as asked for); the iterations, total time and mean time printed are those of the runs, and the deviation is the population standard deviation, except that 0 is printed after exactly two runs; the mean and deviation of the cycles are those of the counter, of which a Unix build for AMD64 sees only the low 32 bits. It ends if the clock shows at least one microsecond per run, need not end on a clock that stands still, and is undefined if the clock goes back behind the start, or where long has 32 bits. Whatever the clocks show, encapsulation and decapsulation are measured on a key pair made by the library and on a ciphertext encapsulated against that key. The exit status is 0 exactly if all rounds of the self test pass, with or without the benchmark.", "quantifier": "all clock readings and their number, all operations, targets and word sizes, all random bytes, parameter sets and memories", "why_tests_cant": "A test sees one run of one clock; figures, termination and undefined behaviour depend on every sequence of clock readings.", "anchors": ["tests/ds_benchmark.h:TIME_OPERATION_SECONDS", "tests/ds_benchmark.h:STOP_TIMER", "tests/ds_benchmark.h:FINALIZE_TIMER", "tests/ds_benchmark.h:gettimeofday", "tests/test_kem.c:kem_bench", "tests/test_kem.c:main"]}
{"id": "C53", "title": "What an interrupted call leaves in the caller's memory", "statement": "If a call of the API is stopped at any moment, alone or among calls of other threads, the caller's memory outside the outputs is unchanged; every byte of the secret key or of the shared secret being written is still the old one or already the final one, never another value; a byte of the shared secret has been written only if the ciphertext is complete, and a byte of the secret key only if the public key is. A byte of a public key or a ciphertext being written is the old one or consists of some of the top bits of the final one and zeros, so that nothing is ever visible there that the finished output does not show. If the outputs are apart from the inputs, the inputs are still there, so that repeating the call with the same arguments and random bytes gives the outputs the first one would have given. A call that is stopped while it waits for the operating system's random bytes has changed nothing.", "quantifier": "all moments and schedules, answers of the operating system, parameter sets, builds, memories, addresses and random bytes", "why_tests_cant": "A test cannot stop a call at every access to memory, in every interleaving.", "anchors": ["src/kem.c:crypto_kem_keypair", "src/kem.c:crypto_kem_enc", "src/kem.c:crypto_kem_dec", "src/random/random.c:randombytes"]}
{"id": "C54", "title": "Calls by several threads on machines whose threads see stores late and in different orders", "statement": "On a machine with relaxed memory, where a thread may go on reading old bytes after another thread has stored new ones, and threads may see the stores to different bytes in different orders, calls of the API by several threads that write nowhere another one reads or writes still return 0 and give the outputs FrodoKEM prescribes. Everybody who has waited for a thread reads those outputs and nothing else in the buffers of its call; for one who has waited for all threads the memory is one memory again, with all outputs and otherwise unchanged, so that key pairs, encapsulations and decapsulations by different threads, with no other synchronisation than waiting for each other, agree on the secret as they do in one thread. The same holds when the calls take their random bytes from the device through the one file descriptor all threads share: the outputs are those for bytes of the device's stream, of which no byte is used twice, not even by threads started long after one another, or in different calls of one thread: a thread that makes many calls, and everybody who has waited for it, finds after each of them what FrodoKEM prescribes for its calls so far. No thread can get stuck, and if the threads merely keep running, the system calls succeed from some moment on and every store of the shared descriptor is seen after some time, all calls return.", "quantifier": "all numbers of threads, schedules, choices of the message each load takes and of the time of each store, memories, addresses, random bytes, parameter sets, and builds without the portable AES in use", "why_tests_cant": "A test sees the few reorderings one processor happens to produce; the property is about every one the memory model allows.", "anchors": ["src/kem.c:crypto_kem_keypair", "src/kem.c:crypto_kem_enc", "src/kem.c:crypto_kem_dec", "src/random/random.c:randombytes"]}
{"id": "C55", "title": "Random bytes for several threads on machines with relaxed memory", "statement": "On Unix, if several threads call the random generator at once on a machine where a thread may see the stores of others late or in another order, every call that returns has returned 0 and filled its whole buffer with bytes of the operating system's stream, in the stream's order; no byte of the stream is handed out twice, to two calls or to one, and no memory outside the buffers changes. When all threads have been waited for, the descriptor the next calls use is an open one. Whatever was seen late, once stores are seen and the system calls succeed every call returns within a number of turns linear in the request; and if threads merely keep running and every store is seen after some time, however long, every call returns. If a thread never sees a store, its call may never return although the device is open.", "quantifier": "all numbers of threads, requests, schedules, choices of the value each load of the shared descriptor variable sees and of the order of the stores to it, and answers of the operating system", "why_tests_cant": "The shared variable is read and written without synchronisation; a test on one processor sees few of the values the memory model allows a load to return.", "anchors": ["src/random/random.c:randombytes", "src/random/random.c:lock"]}
{"id": "C56", "title": "Calls made from signal handlers", "statement": "On Unix, a call of the API may be interrupted at any moment, also while it asks for random bytes, by a signal handler that itself calls the API on buffers of its own, and so on to any depth. Every call then returns 0 with the outputs FrodoKEM prescribes for fresh bytes of the operating system's stream; no byte of the stream is used twice, what a handler's call has returned is not changed when the interrupted call goes on, and bytes that are no call's output do not change. Once the system calls succeed every call returns: a handler never waits for the call it interrupts, and the interrupted call never waits for a handler. In builds where the portable AES is in use this fails: an interrupted encryption overwrites the result of the handler's.", "quantifier": "all numbers of calls, moments of interruption, depths, answers of the operating system, memories, addresses, parameter sets, and builds without the portable AES in use", "why_tests_cant": "A test would have to deliver signals between every two memory accesses, at every depth and for every behaviour of the system calls.", "anchors": ["src/kem.c:crypto_kem_keypair", "src/kem.c:crypto_kem_enc", "src/kem.c:crypto_kem_dec", "src/random/random.c:randombytes", "src/random/random.c:lock", "src/aes/aes_c.c:state"]}
{"id": "C57", "title": "The constant-time self test has nothing to report", "statement": "The branches taken and the addresses touched in a whole run of the self test (any number of rounds of key generation, encapsulation, decapsulation and decapsulation of an altered ciphertext) depend on nothing the library draws: they are the same for any two runs that alter the same positions and whose comparisons of shared secrets come out alike, in particular for any two runs that pass. So the build that marks all random bytes of the library as undefined and runs the test under memcheck finds no branch and no address that depends on them, whatever the random bytes. With the portable AES there is one exception: the bytes from which the public seed of the matrix A is made, which decide addresses of table look-ups; runs with equal such bytes leave the same trace.", "quantifier": "all pairs of runs, all numbers of rounds, all random bytes, memories, parameter sets and builds", "why_tests_cant": "The Valgrind run looks at the values of one execution at a time and reports only what that execution meets; here two arbitrary executions are compared.", "anchors": ["tests/test_kem.c:kem_test", "src/kem.c:crypto_kem_keypair", "src/kem.c:crypto_kem_enc", "src/kem.c:crypto_kem_dec", "Makefile:DO_VALGRIND_CHECK"]}
{"id": "C58", "title": "The Python implementation and byte strings of the wrong length", "statement": "kem_encaps raises AssertionError exactly when the public key does not have the length of a public key, before it asks for random bytes; kem_decaps raises AssertionError exactly when the secret key or the ciphertext does not have its length. On inputs of the right lengths both return byte strings of the advertised lengths. A random source that returns too few bytes makes kem_encaps raise IndexError; kem_keygen refuses only a string shorter than s and otherwise makes a key pair from the seeds as far as there are any, so that a source that stops after s gives one fixed key pair (but for s). An exception of the source reaches the caller.", "quantifier": "all byte strings of all lengths, all random sources, all six variants", "why_tests_cant": "The lengths that are refused are infinitely many, and that every input of the right length is accepted cannot be enumerated.", "anchors": ["python3/frodokem.py:kem_keygen", "python3/frodokem.py:kem_encaps", "python3/frodokem.py:kem_decaps"]}
{"id": "C59", "title": "Secrets that SHAKE and the matrix product leave behind", "statement": "The wiping of C18 covers the arrays of keypair, enc and dec only. When shake128 or shake256 returns, its array t still starts with the last bytes of the output (all of them if the output is shorter than the rate), the block of the keccak_absorb that it called still starts with the part of the input after the last full block, and its state array s determines that part: no other input with the same full blocks leaves the same s (the permutation is injective). So the frames of the last call of SHAKE in crypto_kem_enc and crypto_kem_dec hold the shared secret and the key k (for a rejected ciphertext: the secret s of the key pair), both in the clear. The product S'A of the optimized builds leaves the last eight entries of the secret matrix S' in its array sp. The last call of SHAKE in crypto_kem_keypair leaves only what hashing the public key leaves.", "quantifier": "All inputs and output lengths of the two functions; all inputs, randomness and builds of keypair, enc and dec.", "why_tests_cant": "Dead stack memory is not observable by a test, and that no two inputs leave the same state is a statement about all pairs of inputs.", "anchors": ["src/sha3/fips202.c:shake128", "src/sha3/fips202.c:shake256", "src/sha3/fips202.c:KeccakF1600_StatePermute", "src/sha3/fips202.c:keccak_absorb", "src/frodo_macrify.c:frodo_mul_add_sa_plus_e", "src/kem.c:crypto_kem_enc", "src/kem.c:crypto_kem_dec"]}
{"id": "C60", "title": "One string is never hashed for two purposes", "statement": "Key generation, encapsulation and decapsulation use SHAKE for seven purposes: the seed of A, the noise of a key pair, the digest of a public key, the derivation of seedSE and k from the digest and the message, the noise of an encapsulation, the shared secret, and (in SHAKE builds) the rows of A. Each call hashes exactly the string of the specification: z; 0x5F and seedSE; pk; H(pk) and mu; 0x96 and seedSE'; ct and k (or s); the row number and seedA. Whatever two calls of the API, of the same or of different parameter sets, and whatever keys, ciphertexts and random bytes, a string that is hashed for one purpose is never hashed for another; decapsulation makes the same hash calls for accepted and rejected ciphertexts up to the last string.", "quantifier": "All pairs of calls of the three functions with all inputs, random bytes and builds, for the three shipped parameter sets.", "why_tests_cant": "That two strings differ for all inputs of two calls is a statement about pairs of runs; a test sees no collision in any sample, whether or not the domains are separated.", "anchors": ["src/kem.c:crypto_kem_keypair", "src/kem.c:crypto_kem_enc", "src/kem.c:crypto_kem_dec", "src/frodo_macrify.c:frodo_mul_add_as_plus_e", "src/frodo_macrify.c:frodo_mul_add_sa_plus_e"]}
{"id": "C61", "title": "Running make in parallel", "statement": "make -j, which runs the recipes of targets at the same time where the prerequisites allow it: whatever the options and the interleaving, it ends. If it reports success after make clean, all six programs (self test and known-answer test of the three parameter sets) are there and contain the code and compute the function that the options name; without make clean this holds of the three self tests. Two wanted properties fail: make -j can fail where make succeeds, with all options (the archives of the known-answer tests are not ordered after the recipes that remove and make their directories), and after an earlier build it can report success although a known-answer program has been removed. Nothing fails if the three libraries are made before the targets of the known-answer tests are begun, as without -j. make can be stopped at any point, any number of times, and started again with the same options, whatever is left in the three directories: without -j it then succeeds and all six programs come out as if it had not been stopped; with -j this holds of the self tests if it reports success.", "quantifier": "All options, all histories of earlier runs of make, all interleavings of the recipes' lines, all points at which a run is stopped.", "why_tests_cant": "Which interleaving happens depends on the machine and its load; a build server sees a few of them.", "anchors": ["Makefile:all", "Makefile:lib640", "Makefile:tests", "Makefile:lib640_for_KATs", "Makefile:KATS"]}
