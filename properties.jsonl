{"id": "C01", "title": "ML-KEM key generation is FIPS 203 KeyGen", "statement": "For every parameter set, KemCore::generate_deterministic(d, z) yields a key pair whose serialised decapsulation and encapsulation keys are exactly the byte strings FIPS 203 ML-KEM.KeyGen_internal(d, z) prescribes (dk = dk_PKE || ek || H(ek) || z).", "quantifier": "every pair of 32-byte seeds d, z, every well-formed parameter set (incl. ML-KEM-512/768/1024), every behaviour of the SHA-3 functions", "why_tests_cant": "2^512 seeds; a known-answer test pins 25 seeds per parameter set and cannot see an error confined to other coefficient values, indices or nonces", "anchors": ["ml-kem/src/kem.rs: DecapsulationKey::generate_deterministic, EncapsulationKey::new", "ml-kem/src/pke.rs: DecryptionKey::generate", "ml-kem/src/lib.rs: KemCore"]}
{"id": "C02", "title": "ML-KEM encapsulation is FIPS 203 Encaps", "statement": "encapsulate_deterministic(m) on an encapsulation key obtained from generate or from_bytes returns exactly the (ciphertext, shared key) that FIPS 203 ML-KEM.Encaps_internal(ek, m) prescribes for the serialised key.", "quantifier": "every encapsulation key reachable by generate or from_bytes, every 32-byte m, every well-formed parameter set", "why_tests_cant": "the key and message spaces are astronomically large; compression, encoding and modular reduction each have value-dependent corner cases", "anchors": ["ml-kem/src/kem.rs: EncapsulationKey::encapsulate_deterministic_inner", "ml-kem/src/pke.rs: EncryptionKey::encrypt"]}
{"id": "C03", "title": "ML-KEM decapsulation is FIPS 203 Decaps", "statement": "decapsulate(c) on a decapsulation key obtained from generate or from_bytes returns exactly what FIPS 203 ML-KEM.Decaps_internal(dk, c) prescribes for the serialised key, for honest, mangled and adversarial ciphertexts alike.", "quantifier": "every reachable decapsulation key, every ciphertext byte string of the right length", "why_tests_cant": "chosen-ciphertext inputs are not sampled meaningfully by tests; a single wrong coefficient decode or comparison only shows on specific ciphertexts", "anchors": ["ml-kem/src/kem.rs: Decapsulate for DecapsulationKey", "ml-kem/src/pke.rs: DecryptionKey::decrypt"]}
{"id": "C04", "title": "Encapsulate/decapsulate agree whenever the lattice noise is in range", "statement": "If (ct, K) is produced by encapsulating to a generated key pair, decapsulate(ct) = K whenever every coefficient of the decryption noise e.y + e2 + c_v - s.(e1 + c_u) (in R_q, centred) lies within the decoding interval; at the K-PKE level decryption returns the message if and only if that condition holds.", "quantifier": "every d, z, m, every parameter set, every SHA-3 behaviour; noise expressed by ring products of the sampled secrets", "why_tests_cant": "the decryption failure probability is below 2^-138, so tests can neither observe a failure nor establish which inputs are safe", "anchors": ["ml-kem/src/kem.rs: encapsulate, decapsulate", "ml-kem/src/pke.rs: generate, encrypt, decrypt", "ml-kem/README.md"]}
{"id": "C05", "title": "Unconditional ML-KEM round trip does not hold", "statement": "There is no guarantee that decapsulate inverts encapsulate for every possible output of the noise-generating hash: some noise (within the centred-binomial range) makes decapsulation return the implicit-rejection key instead of the encapsulated one.", "quantifier": "existential: a parameter set, hash behaviour and seeds for which the agreement fails", "why_tests_cant": "requires exhibiting an event of negligible probability under the real hash; sampling never produces it", "anchors": ["ml-kem/src/pke.rs: decrypt, encrypt", "ml-kem/src/lib.rs: doc example asserting k_send == k_recv"]}
{"id": "C06", "title": "Implicit rejection", "statement": "decapsulate(c) returns J(z || c) whenever the re-encryption of the decrypted message differs from c in any byte, and returns the derived key K' exactly when all bytes agree; no third outcome and no error exists.", "quantifier": "every reachable decapsulation key and every ciphertext", "why_tests_cant": "the comparison is a masked fold over all bytes; a test cannot flip every subset of bits", "anchors": ["ml-kem/src/kem.rs: decapsulate, constant_time_eq"]}
{"id": "C07", "title": "No panic, overflow or out-of-bounds access in ML-KEM", "statement": "generate, generate_deterministic, encapsulate, encapsulate_deterministic, decapsulate, from_bytes and as_bytes never panic: no checked-arithmetic overflow, no out-of-range index or slice, no array-length mismatch and no undefined behaviour from unwrap_unchecked or raw pointer reads, on any input of the declared type.", "quantifier": "every input byte array of the right size, every parameter set, every RNG and hash output", "why_tests_cant": "absence of panics is universally quantified over all intermediate integer values", "anchors": ["ml-kem/src/algebra.rs", "ml-kem/src/compress.rs", "ml-kem/src/encode.rs", "ml-kem/src/util.rs: Truncate, Flatten, Unflatten"]}
{"id": "C08", "title": "Decapsulation key serialisation round trip", "statement": "For every decapsulation key dk that generate, generate_deterministic or from_bytes can produce, from_bytes(as_bytes(dk)) == dk (all fields, including the stored h and z).", "quantifier": "every reachable decapsulation key, every parameter set", "why_tests_cant": "depends on every coefficient value; round-trip tests sample random keys", "anchors": ["ml-kem/src/kem.rs: EncodedSizeUser for DecapsulationKey", "ml-kem/src/param.rs: concat_dk, split_dk"]}
{"id": "C09", "title": "Encapsulation key serialisation round trip", "statement": "For every encapsulation key ek produced by generate or by EncapsulationKey::from_bytes, from_bytes(as_bytes(ek)) == ek.", "quantifier": "every such key, every parameter set", "why_tests_cant": "depends on every coefficient value", "anchors": ["ml-kem/src/kem.rs: EncodedSizeUser for EncapsulationKey", "ml-kem/src/param.rs: concat_ek, split_ek"]}
{"id": "C10", "title": "Key parsing reduces non-canonical coefficients and nothing else", "statement": "as_bytes(from_bytes(b)) equals b if and only if every 12-bit coefficient field of b is below q = 3329; otherwise it equals b with each such field reduced mod q and all other bytes (rho, h, z) unchanged. In particular the FIPS 203 encapsulation-key modulus check is not performed: distinct byte strings parse to equal keys.", "quantifier": "every byte string of key length, every parameter set", "why_tests_cant": "inputs with coefficients in q..4095 are not produced by key generation, so codec tests never see them", "anchors": ["ml-kem/src/encode.rs: byte_decode", "ml-kem/src/pke.rs: from_bytes", "ml-kem/src/kem.rs: from_bytes"]}
{"id": "C11", "title": "A parsed decapsulation key keeps the supplied H(ek) unchecked", "statement": "DecapsulationKey::from_bytes stores the h field it is given; it equals H of the embedded encapsulation key only if the input said so, so dk.encapsulation_key() can differ from EncapsulationKey::from_bytes of the same bytes. When h is the true hash the two are equal.", "quantifier": "every decapsulation key byte string (positive part); an explicit witness (negative part)", "why_tests_cant": "tests only parse keys the library itself produced", "anchors": ["ml-kem/src/kem.rs: DecapsulationKey::from_bytes (XXX comment)", "ml-kem/src/kem.rs: encapsulation_key"]}
{"id": "C12", "title": "Randomised entry points equal the deterministic ones on the bytes drawn", "statement": "generate(rng) draws exactly two 32-byte blocks d then z and equals generate_deterministic(d, z); encapsulate(rng) draws exactly one 32-byte block m and equals encapsulate_deterministic(m); the RNG is left exactly as after those draws, and decapsulate draws nothing.", "quantifier": "every RNG (arbitrary state and fill_bytes function), every key", "why_tests_cant": "tests fix one RNG and cannot observe over- or under-consumption for all RNGs", "anchors": ["ml-kem/src/kem.rs: generate, encapsulate", "ml-kem/src/crypto.rs: rand"]}
{"id": "C13", "title": "Encoded sizes", "statement": "Serialised decapsulation keys, encapsulation keys, ciphertexts and shared keys have exactly the sizes of FIPS 203 Table 3 (1632/800/768/32, 2400/1184/1088/32, 3168/1568/1568/32) and every byte is in range, for all keys and messages.", "quantifier": "every reachable key, every message, all three parameter sets", "why_tests_cant": "sizes come from type-level arithmetic combined with data-dependent construction; needs all inputs", "anchors": ["ml-kem/src/param.rs", "ml-kem/src/lib.rs: MlKem512Params, MlKem768Params, MlKem1024Params"]}
{"id": "C14", "title": "The key pair returned by generate is consistent", "statement": "The encapsulation key returned by generate equals dk.encapsulation_key(), and its serialisation is the ek section embedded in as_bytes(dk), whose h section is the SHA3-256 of that ek section.", "quantifier": "every seed pair, every parameter set", "why_tests_cant": "relation between fields for all keys", "anchors": ["ml-kem/src/kem.rs: KemCore::generate, encapsulation_key"]}
{"id": "C15", "title": "Dropping a decapsulation key erases its secrets (zeroize feature)", "statement": "After drop with the zeroize feature, every coefficient of the secret vector and every byte of z are zero and the array shapes are unchanged, whatever the key held before.", "quantifier": "every decapsulation key of every shape", "why_tests_cant": "must hold for all lengths and contents; memory contents after drop are not inspectable in safe tests", "anchors": ["ml-kem/src/kem.rs: Drop", "ml-kem/src/pke.rs: Zeroize", "ml-kem/src/algebra.rs: Zeroize"]}
{"id": "C16", "title": "Encryption uses the transpose of the key-generation matrix", "statement": "The matrix expanded from rho with transpose = true is the matrix transpose of the one expanded with transpose = false, entry (i,j) being SampleNTT(rho || j || i), and transposing twice is the identity.", "quantifier": "every rho, every k, every XOF behaviour", "why_tests_cant": "index-swap errors are invisible for symmetric or k = 1 cases and must be excluded for all indices", "anchors": ["ml-kem/src/algebra.rs: NttMatrix::sample_uniform, NttVector::sample_uniform, transpose"]}
{"id": "C17", "title": "Noise nonces are never reused within an operation", "statement": "Within key generation and within encryption, every PRF call uses a distinct nonce, and the nonces are exactly 0..2k-1 and 0..2k respectively; every XOF call uses a distinct (j,i) index pair.", "quantifier": "every parameter set with k within the u8 range", "why_tests_cant": "a reuse would not break round-trip tests", "anchors": ["ml-kem/src/algebra.rs: PolynomialVector::sample_cbd", "ml-kem/src/pke.rs: generate, encrypt"]}
{"id": "C18", "title": "Field arithmetic is exact", "statement": "On canonical operands, field addition, subtraction, multiplication, Barrett reduction (for all values reachable from a base-case product) and the base-case multiplication return the canonical representative of the exact result modulo 3329 without intermediate overflow.", "quantifier": "all operands in [0, q), all 32-bit values up to 2(q-1)^2 for the Barrett reduction", "why_tests_cant": "q^4 operand combinations for the base-case multiplication", "anchors": ["ml-kem/src/algebra.rs: FieldElement"]}
{"id": "C19", "title": "The NTT evaluates the polynomial at the FIPS 203 points", "statement": "For every polynomial f, ntt(f) is the tuple f mod (X^2 - zeta^(2 BitRev7(i)+1)), i = 0..127, with canonical coefficients.", "quantifier": "all 3329^256 polynomials", "why_tests_cant": "linear map on a 256-dimensional space; tests use one or two vectors", "anchors": ["ml-kem/src/algebra.rs: Polynomial::ntt, ZETA_POW_BITREV"]}
{"id": "C20", "title": "ntt and ntt_inverse are mutually inverse", "statement": "ntt_inverse(ntt(f)) = f and ntt(ntt_inverse(g)) = g.", "quantifier": "all polynomials f and all NTT representations g", "why_tests_cant": "the repository test checks one polynomial", "anchors": ["ml-kem/src/algebra.rs: ntt, ntt_inverse"]}
{"id": "C21", "title": "NTT-domain multiplication is multiplication in R_q", "statement": "ntt_inverse(ntt(f) * ntt(g)) is the product of f and g modulo X^256 + 1 and q; NTT-domain addition is polynomial addition.", "quantifier": "all pairs of polynomials", "why_tests_cant": "bilinear map; one pair tested", "anchors": ["ml-kem/src/algebra.rs: Mul for NttPolynomial, GAMMA, base_case_multiply"]}
{"id": "C22", "title": "Vector and matrix products are the module operations", "statement": "The NTT vector dot product and matrix-vector product equal the sums of NTT-domain products, for every dimension.", "quantifier": "all k, all vectors and matrices", "why_tests_cant": "dimension-generic", "anchors": ["ml-kem/src/algebra.rs: NttVector, NttMatrix"]}
{"id": "C23", "title": "Compression is exact rounding", "statement": "compress with d bits maps x in [0,q) to round(2^d x / q) mod 2^d, for every d in 1..12, with no overflow, using no division.", "quantifier": "all x in [0,q), all d in 1..12", "why_tests_cant": "tests cover only some d", "anchors": ["ml-kem/src/compress.rs: Compress::compress"]}
{"id": "C24", "title": "Decompression is exact rounding", "statement": "decompress with d bits maps y in [0,2^d) to round(q y / 2^d), below q, for every d in 1..12.", "quantifier": "all y in [0,2^d), all d in 1..12", "why_tests_cant": "tests cover only some d", "anchors": ["ml-kem/src/compress.rs: Compress::decompress"]}
{"id": "C25", "title": "Compression round trips", "statement": "compress(decompress(y)) = y for every y in [0,2^d), d in 1..11; decompress(compress(x)) differs from x by at most round(q / 2^(d+1)) modulo q for d in 1..12.", "quantifier": "all x, y, d, lifted to all polynomials and vectors", "why_tests_cant": "all polynomial inputs", "anchors": ["ml-kem/src/compress.rs"]}
{"id": "C26", "title": "Byte encoding is FIPS 203 ByteEncode", "statement": "Encoding a polynomial with d-bit coefficients gives the byte string whose little-endian bit sequence is the concatenation of the coefficients' d-bit little-endian representations; vectors encode to the concatenation of their entries.", "quantifier": "all polynomials with coefficients below 2^d, all d in 1..12, all vector lengths", "why_tests_cant": "2^(256 d) inputs", "anchors": ["ml-kem/src/encode.rs: byte_encode, Encode", "ml-kem/src/util.rs: Flatten"]}
{"id": "C27", "title": "Byte decoding is FIPS 203 ByteDecode", "statement": "Decoding a byte string with d bits gives the 256 consecutive little-endian d-bit fields of its bit sequence, reduced mod q exactly when d = 12.", "quantifier": "all byte strings of length 32 d, all d in 1..12", "why_tests_cant": "2^(256 d) inputs", "anchors": ["ml-kem/src/encode.rs: byte_decode, Encode", "ml-kem/src/util.rs: Unflatten"]}
{"id": "C28", "title": "Encoding round trips", "statement": "decode(encode(f)) = f for every polynomial with coefficients below 2^d (below q when d = 12); encode(decode(b)) = b for every byte string when d < 12, and for d = 12 iff all fields are below q. Encoding is injective on that domain. The same for vectors.", "quantifier": "all polynomials, byte strings, d in 1..12, vector lengths", "why_tests_cant": "unbounded domain", "anchors": ["ml-kem/src/encode.rs"]}
{"id": "C29", "title": "Uniform sampling is FIPS 203 SampleNTT", "statement": "sample_uniform returns the first 256 12-bit candidates below q of the XOF byte stream, in order, independent of the 96-byte buffering; it needs exactly as many stream groups as FIPS 203 does, and it terminates exactly when the stream contains 256 acceptable candidates.", "quantifier": "every infinite byte stream", "why_tests_cant": "buffer-boundary and rejection patterns depend on the stream; tests see a handful of streams", "anchors": ["ml-kem/src/algebra.rs: FieldElementReader, NttPolynomial::sample_uniform"]}
{"id": "C30", "title": "CBD sampling is FIPS 203 SamplePolyCBD", "statement": "sample_cbd maps a 64*eta byte string to the polynomial whose i-th coefficient is (sum of bits 2 i eta .. 2 i eta + eta - 1) minus (sum of the next eta bits) mod q; every coefficient is within [-eta, eta].", "quantifier": "all byte strings, eta in {2,3}", "why_tests_cant": "2^(512 eta) inputs", "anchors": ["ml-kem/src/algebra.rs: sample_cbd", "ml-kem/src/param.rs: ones_array"]}
{"id": "C31", "title": "Masked comparison and selection are exact", "statement": "The byte comparison returns 0xff on equal bytes and 0 otherwise; folded over two equal-length strings it is 0xff iff they are equal; the masked select then returns exactly one of the two candidate keys.", "quantifier": "all bytes and all equal-length byte strings", "why_tests_cant": "all lengths", "anchors": ["ml-kem/src/kem.rs: constant_time_eq, decapsulate"]}
{"id": "C32", "title": "Unsafe reshaping and truncation helpers are sound", "statement": "flatten and unflatten read only in-bounds memory and are mutually inverse in row-major order; truncate never reaches the unwrap_unchecked error branch and keeps exactly the low-order bits.", "quantifier": "all array shapes and contents, all integers of the source type", "why_tests_cant": "generic over all lengths; undefined behaviour is not observable by tests", "anchors": ["ml-kem/src/util.rs"]}
{"id": "C33", "title": "X-Wing key expansion", "statement": "encapsulation_key() of an X-Wing decapsulation key sk is ML-KEM-768.KeyGen(seed[0..32], seed[32..64]).ek || X25519(seed[64..96], 9) with seed = SHAKE128(sk, 96); generate_key_pair draws exactly 32 bytes which become as_bytes() of the decapsulation key.", "quantifier": "every 32-byte sk and every RNG", "why_tests_cant": "seed space; ordering of the three XOF reads", "anchors": ["x-wing/src/lib.rs: expand_key, encapsulation_key, generate_key_pair"]}
{"id": "C34", "title": "X-Wing encapsulation", "statement": "encapsulate(rng) draws 32 bytes m then 32 bytes e, and returns ciphertext ML-KEM-768.Encaps(pk_M, m).ct || X25519(e, 9) with shared secret SHA3-256(label || ss_M || X25519(e, pk_X) || ct_X || pk_X).", "quantifier": "every encapsulation key and RNG", "why_tests_cant": "key/randomness space, field order", "anchors": ["x-wing/src/lib.rs: Encapsulate, combiner"]}
{"id": "C35", "title": "X-Wing decapsulation", "statement": "decapsulate(ct) returns SHA3-256(label || ML-KEM-768.Decaps(sk_M, ct_M) || X25519(sk_X, ct_X) || ct_X || pk_X) for the expanded key, and is infallible.", "quantifier": "every sk and every 1120-byte ciphertext", "why_tests_cant": "ciphertext space", "anchors": ["x-wing/src/lib.rs: Decapsulate, combiner"]}
{"id": "C36", "title": "X-Wing round trip", "statement": "Encapsulating to encapsulation_key(sk) and decapsulating with sk give the same shared secret whenever the embedded ML-KEM-768 noise is in range and X25519 satisfies the Diffie-Hellman identity; also through serialisation of key and ciphertext.", "quantifier": "every sk, every RNG", "why_tests_cant": "probabilistic failure event of negligible probability", "anchors": ["x-wing/src/lib.rs"]}
{"id": "C37", "title": "X-Wing serialisation", "statement": "Ciphertext::from(as_bytes(ct)) = ct and as_bytes(from(b)) = b for every 1120-byte b; EncapsulationKey round trips from as_bytes; DecapsulationKey bytes are the seed verbatim; encapsulation-key parsing is lossless exactly on canonical ML-KEM encodings.", "quantifier": "every value and byte string of the declared sizes", "why_tests_cant": "2^8960 ciphertext strings", "anchors": ["x-wing/src/lib.rs: as_bytes, From"]}
{"id": "C38", "title": "X-Wing combiner input is unambiguous", "statement": "The hash input built by the combiner is an injective function of (ss_M, ss_X, ct_X, pk_X): 134 bytes, so two different tuples never hash the same string.", "quantifier": "all quadruples of 32-byte strings", "why_tests_cant": "all tuples", "anchors": ["x-wing/src/lib.rs: combiner"]}
{"id": "C39", "title": "X-Wing secrets are erased on drop (zeroize feature)", "statement": "Dropping an X-Wing decapsulation key zeroes all its 32 seed bytes and dropping a ciphertext zeroes all its bytes.", "quantifier": "every key and ciphertext", "why_tests_cant": "memory after drop is not observable", "anchors": ["x-wing/src/lib.rs: derive(Zeroize, ZeroizeOnDrop)"]}
{"id": "C40", "title": "DH KEM agreement", "statement": "For every DH KEM (generic elliptic curve and X25519), decapsulating the encapsulated key with the decapsulator from random_keypair gives the encapsulator's shared secret, for any RNG state at either side, provided scalar multiplication commutes.", "quantifier": "every RNG, every curve whose scalar action commutes", "why_tests_cant": "all scalars", "anchors": ["dhkem/src/ecdh_kem.rs", "dhkem/src/x25519_kem.rs", "dhkem/src/lib.rs: DhKem"]}
{"id": "C41", "title": "DH KEM encapsulation uses one fresh ephemeral key and is infallible", "statement": "encapsulate draws exactly one secret from the RNG, the encapsulated key is its public key and the shared secret is its DH with the recipient key; decapsulate is deterministic, consumes no randomness, and neither returns an error.", "quantifier": "every RNG and key", "why_tests_cant": "all RNG states", "anchors": ["dhkem/src/ecdh_kem.rs", "dhkem/src/x25519_kem.rs"]}
{"id": "C42", "title": "DH wrapper newtypes are transparent", "statement": "From, AsRef, into_inner, the derived equality and ordering, and zeroize of DhEncapsulator / DhDecapsulator act exactly as on the wrapped value.", "quantifier": "every wrapped type and value", "why_tests_cant": "generic over all types", "anchors": ["dhkem/src/lib.rs: DhEncapsulator, DhDecapsulator"]}
{"id": "C43", "title": "API histories refine a byte-string specification", "statement": "Over any finite sequence of API calls (generate, encapsulation_key, as_bytes, from_bytes, encapsulate, decapsulate, clone, on any number of keys sharing one RNG), every observable output equals that of the FIPS 203 specification operating on serialised keys only; in particular serialising and re-parsing keys at any point never changes later behaviour.", "quantifier": "every finite operation sequence, every interleaving of operations on different keys", "why_tests_cant": "unbounded histories", "anchors": ["ml-kem/src/kem.rs", "ml-kem/src/lib.rs: KemCore, EncodedSizeUser"]}
{"id": "C44", "title": "Final comparison and key selection in decapsulate are data-oblivious", "statement": "Between decryption and return, the sequence of branches taken and memory locations accessed by the comparison and selection code depends only on lengths, never on the compared ciphertexts or on the two candidate keys.", "quantifier": "every pair of equal-length ciphertexts and keys", "why_tests_cant": "timing tests cannot establish independence for all secrets", "anchors": ["ml-kem/src/kem.rs: decapsulate, constant_time_eq"]}
{"id": "C45", "title": "The sampling budget of the model is a ghost, and termination is characterised", "statement": "Whenever key generation, encapsulation or decapsulation returns a result within some number of XOF blocks, it returns the same result with any larger number; some number suffices exactly when each of the k*k XOF streams expanded from the key's rho holds 256 candidates below q; a key pair that was generated can always be used for encapsulation and decapsulation without further sampling work.", "quantifier": "every hash behaviour, parameter set, key, message, ciphertext and pair of budgets", "why_tests_cant": "non-termination and unbounded loops cannot be observed by running", "anchors": ["ml-kem/src/algebra.rs: sample_uniform, FieldElementReader::next", "ml-kem/src/kem.rs", "ml-kem/src/pke.rs"]}
{"id": "C46", "title": "Encapsulation binds the shared secret to the key, the message and the ciphertext", "statement": "Two encapsulations (any two honest encapsulation keys, any messages) with the same shared secret used the same key bytes and message and produced the same ciphertext, unless the two explicitly named inputs are a collision of the first half of G or of H. For keys embedded in a parsed decapsulation key the secret binds the stored h and the message.", "quantifier": "every hash behaviour, pair of keys and messages", "why_tests_cant": "universally quantified over keys and messages", "anchors": ["ml-kem/src/kem.rs: encapsulate_deterministic_inner"]}
{"id": "C47", "title": "Decapsulation binds the shared secret to the ciphertext and, for generated keys, to the key", "statement": "Two decapsulations under one key (honest or parsed from arbitrary bytes) with equal shared secrets were given equal ciphertexts, unless explicitly named inputs collide in G, in J or between G and J. Under two generated keys, equal secrets imply equal ciphertexts and equal encapsulation keys, or equal ciphertexts and equal z, or a named collision.", "quantifier": "every hash behaviour, pair of keys and ciphertexts", "why_tests_cant": "universally quantified; collisions and rejections cannot be sampled", "anchors": ["ml-kem/src/kem.rs: decapsulate", "ml-kem/src/crypto.rs: G, J"]}
{"id": "C48", "title": "Without the FIPS 203 hash check, parsed keys do not bind the shared secret", "statement": "DecapsulationKey::from_bytes takes h from the input unchecked: for any two generated key pairs and any 32-byte h, overwriting h in both encodings gives two accepted keys and ciphertexts that decapsulate to the same secret G(m || h) without any hash collision (for every message whose decryption noise is in range under both keys).", "quantifier": "every pair of key pairs, every h, every message with in-range noise", "why_tests_cant": "needs adversarial key material; the test-suite only parses keys it serialised", "anchors": ["ml-kem/src/kem.rs: DecapsulationKey::from_bytes, decapsulate"]}
{"id": "C49", "title": "X-Wing shared secrets bind the ciphertext and the public key", "statement": "Two X-Wing decapsulations with equal shared secrets, for any seeds and ciphertexts, had the same ciphertext, X25519 public key and X25519 shared secret, and the same ML-KEM public key or the same rejection seed, unless explicitly named inputs collide in SHA3-256, G or J or between G and J.", "quantifier": "every hash behaviour, X25519 implementation, pair of seeds and ciphertexts", "why_tests_cant": "universally quantified over seeds and ciphertexts", "anchors": ["x-wing/src/lib.rs: combiner, decapsulate, expand_key"]}
{"id": "C50", "title": "sample_cbd is exactly the centred binomial distribution", "statement": "For eta in {2,3} and every polynomial p, the number of byte strings of length 64*eta on which Polynomial::sample_cbd returns p is the product over the 256 coefficients of binomial(2*eta, eta + c_i), c_i being the centred representative of coefficient i. Hence on uniform bytes the coefficients are independent and centred-binomial, and exactly the polynomials with all |c_i| <= eta occur.", "quantifier": "every polynomial, every enumeration of the byte strings", "why_tests_cant": "2^1024 (2^1536) inputs; statistical tests only estimate", "anchors": ["ml-kem/src/algebra.rs: Polynomial::sample_cbd", "ml-kem/src/param.rs: ones_array"]}
{"id": "C51", "title": "sample_uniform is exactly uniform", "statement": "For every budget n, all polynomials are returned by NttPolynomial::sample_uniform on exactly the same number of 3n-byte strings, and that number is the number of sequences of 2n values below 4096 whose first 256 values below q are prescribed. From 384 bytes on every polynomial occurs.", "quantifier": "every n, every pair of polynomials, every enumeration of the byte strings", "why_tests_cant": "a bias between 3329^256 outcomes is not observable", "anchors": ["ml-kem/src/algebra.rs: FieldElementReader, NttPolynomial::sample_uniform"]}
{"id": "C52", "title": "X-Wing API histories refine a byte-string specification", "statement": "Over any finite sequence of X-Wing calls (generate_key_pair, DecapsulationKey::generate, encapsulation_key, from and as_bytes of keys and ciphertexts, encapsulate, decapsulate, clone, ==, on any number of objects sharing one RNG), chosen adaptively, every observable output equals that of the draft operating on byte strings only, and no call panics; serialising and re-parsing an encapsulation key or a ciphertext at any point changes nothing. Two encapsulation keys are identical values exactly if their bytes are; == holds exactly if the ML-KEM bytes agree and x25519-dalek calls the points equal.", "quantifier": "every finite operation sequence and adaptive client, every RNG, hash and X25519 behaviour", "why_tests_cant": "unbounded histories", "anchors": ["x-wing/src/lib.rs"]}
{"id": "C53", "title": "Observable behaviour of the whole ml-kem code is independent of secrets, except at two places", "statement": "For any two hash behaviours, any two decapsulation keys whose public matrices are expanded from the same XOF streams, and any two ciphertexts, the sequences of branches, memory accesses (offset, count, size), divisions, loop counts and hash input lengths of decapsulate are the same, apart from the branch in FieldElement::small_reduce and the ONES table lookups of sample_cbd; the same holds for encapsulate_deterministic (any messages), generate_deterministic (any seeds leading to the same XOF streams) and DecapsulationKey::as_bytes (any keys), in every build mode. The two exceptions are real: the branch shows whether a sum wraps, the lookups determine the PRF output, and the observations of key generation determine the secret vector.", "quantifier": "all pairs of reachable keys, ciphertexts, messages, seeds; all parameter sets; all pairs of hash behaviours that agree on the streams of the public matrix", "why_tests_cant": "non-interference relates all pairs of executions; timing tests are statistical", "anchors": ["ml-kem/src/kem.rs", "ml-kem/src/pke.rs", "ml-kem/src/algebra.rs", "ml-kem/src/encode.rs", "ml-kem/src/compress.rs", "ml-kem/src/util.rs"]}
{"id": "C54", "title": "Builds with and without overflow checks behave identically", "statement": "Every ml-kem API operation, on every reachable key and every input of the right type, returns the same value and shows the same observations in a build with overflow checks (overflow panics) and without (values wrap, shift amounts are masked); both are the value of the functional model.", "quantifier": "all keys, inputs, parameter sets, hash behaviours", "why_tests_cant": "an overflow may need a particular key or ciphertext; debug and release tests never meet it", "anchors": ["ml-kem/src/algebra.rs", "ml-kem/src/compress.rs", "ml-kem/src/encode.rs", "ml-kem/src/pke.rs", "ml-kem/src/kem.rs"]}
{"id": "C55", "title": "Rejection sampling ends soon for almost all XOF outputs", "statement": "Of all byte strings of length 3n, at most the fraction 4^255 (6397/16384)^(2n) give no polynomial when read by sample_uniform (fewer than 256 accepted candidates); with five SHAKE128 blocks (840 bytes) the fraction is at most 2^-247, and it tends to 0: below 2^-e from 255+e groups of three bytes on. With uniformly random answers to the k^2 XOF queries of key generation, the whole of generate_deterministic needs more than five blocks for any matrix entry with probability at most 2^-243 for k <= 4, and otherwise returns a key pair.", "quantifier": "all n, all parameter sets, all seeds, all behaviours of the other hash queries; exact counts over all byte strings", "why_tests_cant": "the event has probability below 2^-240; no test meets it", "anchors": ["ml-kem/src/algebra.rs", "ml-kem/src/crypto.rs", "ml-kem/src/kem.rs"]}
{"id": "C56", "title": "Decapsulation failures are rare", "statement": "With uniformly random answers to the PRF queries of key generation and encapsulation, and for every behaviour of the other hash queries (in particular every public matrix), every seed and every message, the sender and the receiver derive different ML-KEM keys with probability at most 2^-80 (ML-KEM-512), 2^-90 (768), 2^-107 (1024); the same for K-PKE encryption and decryption with random noise. For any fixed message and any fixed encryption randomness chosen independently of the secret key, decryption fails for a fraction of at most 2^-10, 2^-15, 2^-23 of the secret keys.", "quantifier": "all hash behaviours outside the named queries, all seeds, messages and matrices; exact counts over all answers (byte strings)", "why_tests_cant": "the failure events are too rare to be met by tests, and the bound is over all keys and messages", "anchors": ["ml-kem/src/pke.rs", "ml-kem/src/kem.rs", "ml-kem/src/algebra.rs", "ml-kem/src/compress.rs"]}
{"id": "C57", "title": "X25519 is scalar multiplication on Curve25519 and its twist", "statement": "The X25519 function of RFC 7748 section 5 (Montgomery ladder, clamped scalar, masked top bit) returns, for every scalar string and every input string, the encoded u-coordinate of the multiple, by the decoded scalar, of a point with the input's u-coordinate on v^2 = u^3 + 486662 u^2 + u or on its twist 2 v^2 = u^3 + 486662 u^2 + u; every u is on one of the two; both are commutative groups under chord-and-tangent addition. Hence X25519(a, X25519(b, u)) = X25519(b, X25519(a, u)) for all strings.", "quantifier": "all 32-byte scalars, all input strings, all curve points", "why_tests_cant": "an algebraic identity over a field of 2^255 - 19 elements; tests see a few points, and the exceptional cases of ladder and group law (u = 0, infinity, twist) are met with negligible probability", "anchors": ["x-wing/src/lib.rs", "dhkem/src/x25519_kem.rs"]}
{"id": "C58", "title": "X-Wing and the X25519 KEM agree with RFC 7748's X25519, unconditionally in the group", "statement": "With X25519 as RFC 7748 defines it, the receiver of the X25519 KEM derives the sender's secret for all keys and RNGs, and X-Wing decapsulation returns the sender's secret whenever the ML-KEM noise is in range. No commutation property is assumed.", "quantifier": "all seeds, all RNGs and states, all hash behaviours", "why_tests_cant": "agreement over all key pairs; tests fix a few", "anchors": ["x-wing/src/lib.rs", "dhkem/src/x25519_kem.rs"]}
{"id": "C59", "title": "X-Wing disagreements are rare", "statement": "With uniformly random answers to the PRF queries of ML-KEM key generation and encapsulation, and for every behaviour of the other hash queries, every X-Wing seed, every RNG and every state of it, the sender and the receiver of an X-Wing encapsulation derive different shared secrets with probability at most 2^-90.", "quantifier": "all hash behaviours outside the named queries, all seeds, RNGs and RNG states; exact counts over all answers (byte strings)", "why_tests_cant": "the event is too rare to be met by tests, and the bound is over all seeds, RNGs and matrices", "anchors": ["x-wing/src/lib.rs", "ml-kem/src/kem.rs", "ml-kem/src/pke.rs"]}
{"id": "C60", "title": "x-wing behaves identically in builds with and without overflow checks", "statement": "generate_key_pair, encapsulation_key, encapsulate, decapsulate and the conversions of keys and ciphertexts to and from bytes, written as sequences of machine operations, return the value of the functional model of x-wing, and return the same value and show the same observations in a build with overflow checks and without.", "quantifier": "all seeds, reachable encapsulation keys and ciphertexts, RNGs and RNG states, byte strings, hash behaviours and X25519 functions", "why_tests_cant": "an overflow or an out-of-range slice may need a particular key or ciphertext", "anchors": ["x-wing/src/lib.rs", "ml-kem/src/kem.rs"]}
{"id": "C61", "title": "Observable behaviour of x-wing is independent of secrets, except at the two places of ml-kem", "statement": "For any two seeds whose public matrices are expanded from the same XOF streams and any two ciphertexts, the sequences of branches, memory accesses, divisions, loop counts and calls (hash, RNG, X25519, with the number of bytes) of X-Wing decapsulation are the same, apart from the two places of C53, in every build mode; likewise for deriving the encapsulation key, for generating a key pair, and for encapsulation to any two keys with any two RNGs. The exceptions matter: since decapsulation expands the key anew each time, the lookups of a single decapsulation determine the ML-KEM secret vector.", "quantifier": "all pairs of seeds, ciphertexts, keys, RNGs, hash behaviours and X25519 functions", "why_tests_cant": "non-interference relates all pairs of executions; timing tests are statistical", "anchors": ["x-wing/src/lib.rs", "ml-kem/src/kem.rs", "ml-kem/src/algebra.rs"]}
{"id": "C62", "title": "The ECDH mechanisms over secp256k1, P-256, P-384 and P-521 agree on the shared secret", "statement": "The points of each of the four curves form a commutative group under the addition of SEC 1; the base point of SEC 2 lies on the curve; hence multiplication by scalars commutes, and for every key pair and every encapsulation to it decapsulation returns the encapsulated shared secret, which is the octet string of the x-coordinate of the SEC 1 Diffie-Hellman primitive. Public keys and encapsulated keys lie on the curve.", "quantifier": "all points, all scalars, all pairs of RNGs and RNG states, all ways of drawing scalars", "why_tests_cant": "about 2^256 or more scalars and points; the special cases of the addition law (doubling, opposite points, infinity) are not reached by random tests", "anchors": ["dhkem/src/lib.rs", "dhkem/src/ecdh_kem.rs"]}
{"id": "C63", "title": "Encoded public keys identify the key", "statement": "to_encoded_point of a DhEncapsulator, with or without compression, is injective on the points of the curve, including the point at infinity, and has the lengths 33/65, 33/65, 49/97 and 67/133.", "quantifier": "all pairs of points of the curve, both compression modes", "why_tests_cant": "injectivity relates all pairs of keys", "anchors": ["dhkem/src/lib.rs"]}
{"id": "C64", "title": "Ciphertexts cannot be hit by chance, so decapsulation rejects foreign ciphertexts", "statement": "When the PRF outputs that feed the noise of an encryption are uniform, encryption and encapsulation return any fixed ciphertext with probability at most 2^-47 (ML-KEM-512), 2^-71 (ML-KEM-768) or 2^-694 (ML-KEM-1024). Hence decapsulation of any fixed ciphertext returns the rejection key J(z, c) except with that probability.", "quantifier": "all reachable keys, messages, ciphertexts, hash functions, all PRF outputs for y; counted over all PRF outputs for e1 and e2", "why_tests_cant": "the bound counts 256^384 or more noise strings; a test samples a few", "anchors": ["ml-kem/src/pke.rs", "ml-kem/src/kem.rs"]}
{"id": "C65", "title": "Decapsulation is the inverse of encapsulation and implicitly rejects everything else", "statement": "If decapsulation returns K for ciphertext c, then either (c, K) is the encapsulation of the message that c decrypts to, or K = J(z, c) and c is not the encapsulation of any message that it decrypts to. For keys without decryption failures encapsulation is injective, decapsulation returns K exactly if (c, K) is an encapsulation or K is the rejection key of a c that is no encapsulation, and two keys with equal public part and equal z decapsulate every ciphertext alike, whatever their secret vectors.", "quantifier": "all reachable keys, all ciphertexts of the right length, all messages, all hash functions", "why_tests_cant": "the claim that nothing else is accepted quantifies over all ciphertexts and all messages", "anchors": ["ml-kem/src/kem.rs"]}
{"id": "C66", "title": "The orders of Curve25519 and of its twist", "statement": "Curve25519 has exactly 8 l points and its twist exactly 4 l' points, with l = 2^252 + 27742317777372353535851937790883648493 and l' = 2^253 - 55484635554744707071703875581767296995, both prime. The base point (u = 9) has order l.", "quantifier": "all points of the two curves", "why_tests_cant": "the curves have about 2^255 points", "anchors": ["dhkem/src/x25519_kem.rs", "x-wing/src/lib.rs"]}
{"id": "C67", "title": "When X25519 shared secrets are all zeros", "statement": "With the function of RFC 7748, encapsulation and decapsulation of the X25519 KEM succeed and return 32 zero bytes exactly if the peer's key decodes modulo p to one of five values (the u-coordinates of the points of order at most 8), for every secret. Keys from key generation and encapsulated keys from encapsulation never decode to these values, so between honest parties the shared secret is never zero. X-Wing accepts such keys and ciphertexts too; its shared secret is then the combiner of the ML-KEM secret, zeros and public values.", "quantifier": "all secrets, all peer keys including unreduced ones and ones with the top bit set, all RNGs and states, all hash functions", "why_tests_cant": "the 'only if' direction quantifies over all pairs of a secret and a peer key", "anchors": ["dhkem/src/x25519_kem.rs", "x-wing/src/lib.rs"]}
{"id": "C68", "title": "X25519 shared secrets and public keys do not repeat", "statement": "For a peer key outside the five values of C67, two secrets give the same shared secret exactly if their clamped scalars are equal or add up to 8 times the prime order of the peer key's curve. Hence at most 64 of the 2^256 secrets lead to any given shared secret, and to any given public key: with uniform RNG output the X25519 KEM returns any given shared secret, and any given encapsulated key, with probability at most 2^-250.", "quantifier": "all secrets, all peer keys, all values", "why_tests_cant": "counts over 2^256 secrets", "anchors": ["dhkem/src/x25519_kem.rs", "x-wing/src/lib.rs"]}
{"id": "C69", "title": "K-PKE hides messages, up to module-LWE", "statement": "When the PRF outputs are uniform, the probability that an attacker answers 1 on a public key and a ciphertext of a message it chose for that key is exactly the sum of the gap of an explicit distinguisher against the MLWE samples of the public key, the average gap of an explicit distinguisher against the k+1 MLWE samples of the ciphertext, and a term that does not depend on the message. Hence the advantage in telling two messages apart is a difference of four MLWE gaps with no remainder, and an attacker guesses a uniform message with probability at most 2^-256 plus gaps.", "quantifier": "all attackers (any functions), all ways of choosing messages, all parameter sets, all hash functions elsewhere, all matrices sampling can return", "why_tests_cant": "an equation between probabilities over 2^3072 and more tapes, for every attacker", "anchors": ["ml-kem/src/pke.rs"]}
{"id": "C70", "title": "ML-KEM shared secrets look random to a passive attacker", "statement": "In the random-oracle model (the hash answers at the honest parties' secret inputs are uniform, arbitrary elsewhere; the attacker asks N hash questions of its choice adaptively), an attacker that sees the public key, the ciphertext and either the shared secret or a random string answers 1 with probabilities that differ by at most 2((4N+1)/2^256 + gap1 + gap2), where the gaps are those of two explicit MLWE distinguishers that run the attacker and watch for the question m || H(ek).", "quantifier": "all adaptive attackers, all N, all parameter sets, all hash functions elsewhere, all matrices sampling can return", "why_tests_cant": "a bound over all attackers and over all seeds, messages and oracle answers", "anchors": ["ml-kem/src/kem.rs", "ml-kem/src/pke.rs"]}
{"id": "C71", "title": "ML-KEM shared secrets look random to an attacker with a decapsulation oracle", "statement": "In the random-oracle model (G at every m || H(ek), J at every z || c and the PRF answers of the honest parties uniform, arbitrary functions elsewhere), an attacker that asks N hash questions and any number of decapsulations of ciphertexts other than the challenge answers 1, on the real shared secret and on a random string, with probabilities that differ by at most 2((7N+1)/2^256 + N delta + failure + gap1 + gap2). delta is the average over keys of a bound, for every message, of the probability that its encryption fails to decrypt; failure is the probability that the challenge does, at most 2^-80, 2^-90, 2^-107 for the three parameter sets; the gaps are those of two explicit MLWE distinguishers that run the attacker and answer all its questions without a secret key.", "quantifier": "all adaptive attackers, all N, all numbers of decapsulation questions, all parameter sets, all hash functions elsewhere, all matrices sampling can return", "why_tests_cant": "a bound over all attackers and over all seeds, messages and random functions", "anchors": ["ml-kem/src/kem.rs", "ml-kem/src/pke.rs"]}
{"id": "C72", "title": "X-Wing shared secrets look random to an attacker with a decapsulation oracle that knows the X25519 secrets", "statement": "In the random-oracle model of C71, with SHA3-256 at label || K || x (K the challenge's ML-KEM secret) and the expansion of the X-Wing seed uniform as well, an attacker that is told the X25519 secret keys of both parties, asks N hash questions and has D ciphertexts other than the challenge decapsulated answers 1, on the real shared secret and on a random string, with probabilities that differ by at most (32(N+D)+6)/2^256 + 4(N+D) delta + 6/2^90 + 2 gaps. delta is as in C71; the gaps are those of MLWE distinguishers that run the attacker through an explicit attacker against ML-KEM-768 asking N+D hash questions and D decapsulations. Ciphertexts that share the challenge's ML-KEM part but not its X25519 part are answered too, and nothing is assumed of X25519 beyond the lengths of its outputs.", "quantifier": "all adaptive attackers, all N and D, all X25519 functions, all hash functions elsewhere, all matrices sampling can return", "why_tests_cant": "a bound over all attackers and over all seeds, messages and random functions", "anchors": ["x-wing/src/lib.rs", "ml-kem/src/kem.rs", "ml-kem/src/pke.rs"]}
{"id": "C73", "title": "X-Wing shared secrets look random if X25519 is hard, even if ML-KEM's secrets are known", "statement": "With SHA3-256 at label || (128 bytes) and the expansion of the X-Wing seed random, and whatever the seeds d, z, m of ML-KEM are (the attacker may know them), an attacker that asks N hash questions and has ciphertexts other than the challenge decapsulated answers 1, on the real shared secret and on a random string, with probabilities that differ by at most the probability that an explicit solver, given the two X25519 public keys and an oracle recognising results of the first secret key, returns their Diffie-Hellman result, plus the probability that the attacker sends a ciphertext of 1120 bytes whose ML-KEM part differs from the challenge's and reveals a second preimage of the ML-KEM secret under G or J, plus 2N/2^256.", "quantifier": "all adaptive attackers, all N, all numbers of decapsulations, all ML-KEM seeds, all hash functions elsewhere, all X25519 functions with the Diffie-Hellman identity", "why_tests_cant": "a bound over all attackers and over all seeds and random functions", "anchors": ["x-wing/src/lib.rs", "ml-kem/src/kem.rs"]}
{"id": "C74", "title": "Raw Diffie-Hellman secrets do not identify the encapsulated key", "statement": "dhkem returns the Diffie-Hellman result and leaves the extraction of RFC 9180 to the caller. Two X25519 encapsulated keys have the same shared secret exactly if 8 times their points have the same u-coordinate, which does not depend on the decapsulating key; in particular every encapsulated key has a different one (top bit inverted) with the same secret, and on the other curves the opposite point has the same secret. Hence an attacker with a single decapsulation of another encapsulated key answers 1 with probability 1 on the real shared secret and 2^-256 on a random string. X-Wing is not affected: inverting that bit of ct_X leaves both component secrets as they are and changes the input of SHA3-256.", "quantifier": "all secrets, all pairs of encapsulated keys, all points of all curves of SEC 1, all seeds", "why_tests_cant": "the 'only if' direction and the independence of the key quantify over all secrets and pairs of keys; the success probability is over all seeds", "anchors": ["dhkem/src/x25519_kem.rs", "dhkem/src/ecdh_kem.rs", "dhkem/src/lib.rs", "x-wing/src/lib.rs"]}
{"id": "C75", "title": "X-Wing shared secrets look random if X25519 is hard, in the random-oracle model, even if ML-KEM's secrets are known", "statement": "As C73, but with the answers of G (first half, at m || H(ek)) and of J (at z || c) random as well: an attacker that asks N hash questions and has D ciphertexts decapsulated sends a second preimage with probability at most (N + 2D)/2^256, so it answers 1, on the real shared secret and on a random string, with probabilities that differ by at most the probability that the explicit solver returns the Diffie-Hellman result of the two X25519 public keys, plus (3N + 2D)/2^256. The second halves of G (encryption randomness) and ML-KEM's seeds d, z, m are arbitrary and may be known to the attacker. For constant G and J an attacker with one decapsulation wins, so the assumption is needed.", "quantifier": "all adaptive attackers, all N and D, all ML-KEM seeds, all tables of encryption randomness, all hash functions elsewhere, all X25519 functions with the Diffie-Hellman identity", "why_tests_cant": "a bound over all attackers and over all seeds and random functions", "anchors": ["x-wing/src/lib.rs", "ml-kem/src/kem.rs"]}
{"id": "C76", "title": "How often a whole session fails, over all random-oracle answers", "statement": "Generate a key pair, encapsulate to it and decapsulate, through the API and with any RNG. If the hash functions answer the honest parties at random (sigma of G(d || k), K and r of G(m || H(ek)), five SHAKE128 blocks for each matrix entry, all PRF outputs) and are arbitrary elsewhere, then the two parties fail to obtain the same key (or key generation or encapsulation fail to return, or anything panics) with probability at most 2^-80 (ML-KEM-512), 2^-90 (ML-KEM-768, X-Wing), 2^-107 (ML-KEM-1024), plus 2^-243 plus 2^-256. No hypothesis about the matrix or about collisions of seeds remains.", "quantifier": "all RNGs and RNG states, all matrix seeds rho, all hash functions away from the honest queries", "why_tests_cant": "a failure probability below 2^-79 cannot be observed, and the statement is about all RNGs and hash functions", "anchors": ["ml-kem/src/kem.rs", "ml-kem/src/pke.rs", "ml-kem/src/algebra.rs", "x-wing/src/lib.rs"]}
{"id": "C77", "title": "How often decryption fails when the matrix is random too", "statement": "Over the XOF output from which key generation samples the matrix, together with all PRF outputs of key generation and encryption, a K-PKE key pair is generated and yet an encryption does not decrypt to the message with probability at most 2^-126 (ML-KEM-512), 2^-152 (ML-KEM-768), 2^-163 (ML-KEM-1024), for every message and every number of XOF bytes. Hence a whole session (generate, encapsulate, decapsulate through the API, any RNG, hash functions arbitrary away from the honest queries) ends without a common key with probability at most that plus 2^-243 plus 2^-256; the same for X-Wing with 2^-152. FIPS 203 quotes the estimates 2^-138.8, 2^-164.8 and 2^-174.8, which treat the rounding errors of u as independent.", "quantifier": "all messages, seeds, RNGs and RNG states, all hash functions away from the honest queries", "why_tests_cant": "a failure probability below 2^-126 cannot be observed, and the published estimates are heuristic", "anchors": ["ml-kem/src/pke.rs", "ml-kem/src/algebra.rs", "ml-kem/src/compress.rs", "ml-kem/src/kem.rs", "x-wing/src/lib.rs"]}
{"id": "C78", "title": "ML-KEM shared secrets look random to active attackers if module-LWE with a random matrix is hard, with all other terms as numbers", "statement": "In the random-oracle model (G, J, the XOF at the public seed and the PRF answer at random; everything else is an arbitrary fixed function) an attacker that asks N hash questions and any number of decapsulation questions answers 1, on the real shared secret and on a random string, with probabilities that differ by at most (14N + 2)/2^256 + 2(N + 1)/2^delta + 2|gap1| + 2|gap2|, with delta = 126 (ML-KEM-512), 152 (ML-KEM-768), 163 (ML-KEM-1024). gap1 and gap2 are the gaps of two explicit distinguishers for module-LWE with a uniformly random matrix: k by k with the noise of key generation, and k+1 by k with the noise of encryption. No matrix and no failure probability is assumed, as it is in C71. For X-Wing, against attackers that know both X25519 secrets, the same with (32(N+D) + 6)/2^256 + (4(N+D) + 6)/2^152 and twice the expected gaps of two ML-KEM-768 attackers.", "quantifier": "all adaptive attackers, all N and D, all public seeds rho, all XOF output lengths, all hash functions elsewhere, all X25519 functions with 32-byte outputs", "why_tests_cant": "a bound over all attackers and over all random functions", "anchors": ["ml-kem/src/kem.rs", "ml-kem/src/pke.rs", "ml-kem/src/algebra.rs", "x-wing/src/lib.rs"]}
{"id": "C79", "title": "The width of usize does not matter", "statement": "ml-kem computes indices, window ends and shift amounts in usize. Every ml-kem and x-wing operation, on every reachable key and every input of the right type, returns the same value and shows the same observations on every target whose usize has at least 16 bits (the least Rust allows), in builds with and without overflow checks; the value is that of the functional model, whose indices are natural numbers.", "quantifier": "all keys, inputs, parameter sets, hash behaviours, RNGs, widths of usize from 16 bits, both build modes", "why_tests_cant": "tests run on one target; an index that overflows on a 16-bit target is never seen", "anchors": ["ml-kem/src/algebra.rs:239-262, 337-415", "ml-kem/src/encode.rs:17-66"]}
{"id": "C80", "title": "The four ECDH mechanisms of dhkem: group orders and collisions", "statement": "secp256k1, P-256, P-384 and P-521 have exactly as many points as the prime n that SEC 2 gives as the order of the base point. So each point is kG for exactly one k below n, and every point but infinity has order n. With scalars from 1 to n-1 and points other than infinity: no key pair, encapsulation or decapsulation meets the point at infinity (the failure case of the Diffie-Hellman primitive); every point but infinity is the public key, and the ciphertext, of exactly one scalar; two encapsulations to one public key have the same shared secret iff their scalars are equal or add up to n, that is iff their ciphertexts are equal or opposite; each shared secret that occurs belongs to exactly two scalars; one secret key maps two ciphertexts to the same shared secret iff they are equal or opposite; two secret keys decapsulate a ciphertext alike iff their public keys are equal or opposite.", "quantifier": "all points, scalars in [1, n-1], RNGs, scalar samplers with values in that range, and the four curves", "why_tests_cant": "the groups have about 2^256 to 2^521 elements; an output collision or a failure for special points would not be met by chance", "anchors": ["dhkem/src/ecdh_kem.rs:24-66", "dhkem/src/lib.rs:156-170"]}
{"id": "C81", "title": "K-PKE ciphertexts do not tell for whom they are, up to module-LWE", "statement": "Two key pairs are generated; the attacker sees both public keys, chooses a message depending on them, and sees its encryption to one of the two. For either recipient and every message, the probability that the attacker answers 1 equals that of an experiment in which the ciphertext is made of uniform polynomials, so that neither the recipient nor the message occurs in it, plus gaps of explicit distinguishers for the module-LWE problem. So the attacker tells the recipients apart by at most 4 eps1 + 2 eps2, if those gaps are at most eps1 (public keys) and eps2 (ciphertexts).", "quantifier": "all attackers (message choices and tests), seeds and randomness with distinct expansions, hash behaviours, well-formed parameter sets; averages over all PRF answers", "why_tests_cant": "a statement about probabilities over 2^3000 and more inputs and about every attacker", "anchors": ["ml-kem/src/pke.rs:33-199"]}
{"id": "C82", "title": "ML-KEM encapsulations do not tell for whom they are, in the random-oracle model, up to module-LWE", "statement": "Two ML-KEM key pairs are generated; the attacker sees both public keys, and a ciphertext with its shared secret that was encapsulated to one of them, and may ask N questions to the hash functions that the honest parties use. With either recipient, the probability that it answers 1 differs from that of an experiment without a recipient (uniform polynomials as ciphertext, uniform shared secret, hash functions independent of both) by at most (6N+4)/2^256 and the gaps of five explicit distinguishers for module-LWE. So it tells the recipients apart with probability at most (12N+8)/2^256 + 6 eps1 + 4 eps2, if those gaps are at most eps1 (public keys) and eps2 (ciphertexts).", "quantifier": "all attackers with N adaptive hash questions, public seeds, implicit-rejection values, hash behaviours outside the honest parties' secret inputs, well-formed parameter sets; averages over all seeds, messages and hash answers", "why_tests_cant": "a statement about probabilities over 2^3000 and more inputs and about every attacker", "anchors": ["ml-kem/src/kem.rs:129-230", "ml-kem/src/pke.rs:33-199"]}
{"id": "C83", "title": "X-Wing encapsulations do not tell for whom they are, in the random-oracle model, up to module-LWE, even to an attacker that knows every X25519 secret", "statement": "Two X-Wing key pairs are generated from seeds; the attacker sees both public keys, and a ciphertext with its shared secret that was encapsulated to one of them, and may ask N questions to the hash functions that the honest parties use. It may depend on the X25519 secrets of both parties and of the encapsulation, and X25519 may be any function with values of 32 bytes. With either recipient, the probability that it answers 1 differs from that of an experiment without a recipient (uniform polynomials as ML-KEM ciphertext, uniform shared secret, hash functions independent of both) by at most (15N+13)/2^256 and the module-LWE gaps of C82 for two explicit attackers against ML-KEM-768: one shows the given attacker the X25519 values and a fixed shared secret, the other watches whether it hashes a string with the ML-KEM secret. So it tells the recipients apart with probability at most (30N+26)/2^256 + 12 eps1 + 8 eps2, if those gaps are at most eps1 (public keys) and eps2 (ciphertexts).", "quantifier": "all attackers with N adaptive hash questions, X25519 functions, X25519 secrets, public seeds, implicit-rejection values, hash behaviours outside the honest parties' secret inputs; averages over all seeds, messages and hash answers", "why_tests_cant": "a statement about probabilities over 2^3000 and more inputs and about every attacker", "anchors": ["x-wing/src/lib.rs:80-101", "x-wing/src/lib.rs:163-198", "x-wing/src/lib.rs:254-275", "ml-kem/src/kem.rs:129-230"]}
{"id": "C84", "title": "Failing random number generators: key generation and encapsulation fail exactly where FIPS 203 does", "statement": "For a generator whose fill_bytes may panic, and which may leave parts of the buffer unwritten: ML-KEM key generation and encapsulation give what Algorithms 19 and 20 of FIPS 203 give on the buffers the generator returned, and panic exactly when those return the failure symbol; likewise X-Wing's key generation and encapsulation (also when only its second draw fails: then ML-KEM's part is lost), and dhkem's. After a failure the generator is not used again. Every buffer it is given has 32 bytes, all zero, so a byte it does not write is zero and not old memory. For generators that do not fail, these models equal those of the other properties.", "quantifier": "all generators (state machines that may panic at any call and see the buffer), generator states, hash functions, parameter sets, keys, X25519 functions", "why_tests_cant": "the tests use generators that never fail; quantifies over all generators and failure positions", "anchors": ["ml-kem/src/crypto.rs:13-17", "ml-kem/src/kem.rs:129-133", "ml-kem/src/kem.rs:193-199", "ml-kem/src/kem.rs:236-240", "x-wing/src/lib.rs:80-101", "x-wing/src/lib.rs:163-167", "x-wing/src/lib.rs:254-258", "x-wing/src/lib.rs:283-287", "dhkem/src/x25519_kem.rs:15-51", "dhkem/src/ecdh_kem.rs:24-66"]}
{"id": "C85", "title": "Histories with a failing generator: failed calls leave no trace", "statement": "A client that makes any sequence of ML-KEM API calls (choosing each from all earlier results), with a generator that may panic at any draw, and that catches the panics and goes on, sees exactly what FIPS 203 on serialised keys gives, where a call with a failed draw changes nothing but the generator. No other call panics: in every reachable state, a call fails only if it is a key generation or an encapsulation and one of its draws failed, and then the keys are as before.", "quantifier": "all clients (adaptive), lengths of histories, generators and their states, hash functions, parameter sets", "why_tests_cant": "quantifies over all histories and all positions of failures; the tests use generators that never fail", "anchors": ["ml-kem/src/crypto.rs:13-17", "ml-kem/src/kem.rs:129-133", "ml-kem/src/kem.rs:193-199", "ml-kem/src/kem.rs:236-240"]}
{"id": "C86", "title": "X-Wing histories with a failing generator: failed calls leave no trace", "statement": "A client that makes any sequence of X-Wing calls (choosing each from all earlier results), with a generator that may panic at any draw, and that catches the panics and goes on, sees exactly what the draft gives on byte strings, where a call with a failed draw changes nothing but the generator; also when only the second draw of an encapsulation fails. In every reachable state, a call fails only if it is a key generation or an encapsulation and one of its draws failed, and then keys and ciphertexts are as before.", "quantifier": "all clients (adaptive), lengths of histories, generators and their states, hash functions, X25519 functions, equality tests on X25519 public keys", "why_tests_cant": "quantifies over all histories and all positions of failures; the tests use generators that never fail", "anchors": ["x-wing/src/lib.rs:80-101", "x-wing/src/lib.rs:163-167", "x-wing/src/lib.rs:254-258", "x-wing/src/lib.rs:283-287", "ml-kem/src/crypto.rs:13-17"]}
{"id": "C87", "title": "Comparing decapsulation keys with == reveals the secret vector to an observer of the comparisons", "statement": "== on decapsulation keys is true exactly for equal keys. The comparisons it makes show the position of the first differing coefficient of the two secret vectors. There is a procedure that, for every decapsulation key, finds the encoded secret vector by having keys of its choice parsed and compared with that key, seeing nothing but the outcomes of the comparisons made, with at most 3329 questions per coefficient.", "quantifier": "all keys (generated or parsed), parameter sets, hash functions", "why_tests_cant": "the tests see only the result of ==; the attack is claimed for all keys", "anchors": ["ml-kem/src/kem.rs:23", "ml-kem/src/kem.rs:53-68", "ml-kem/src/kem.rs:147", "ml-kem/src/pke.rs:15", "ml-kem/src/pke.rs:93", "ml-kem/src/algebra.rs:17", "ml-kem/src/algebra.rs:184", "ml-kem/src/algebra.rs:419"]}
{"id": "C88", "title": "The Debug output of a decapsulation key contains the whole key", "statement": "The decimal numbers in the text that {:?} gives for a decapsulation key are, in order, the coefficients of the secret vector, those of the public vector, rho, H(ek) and z. So two decapsulation keys with the same Debug output are equal.", "quantifier": "all keys (generated or parsed), parameter sets, hash functions; any text without digits that hybrid-array puts around the elements of an array", "why_tests_cant": "the tests never look at the Debug output; the claim is for all keys", "anchors": ["ml-kem/src/kem.rs:23", "ml-kem/src/kem.rs:147", "ml-kem/src/pke.rs:15", "ml-kem/src/pke.rs:93", "ml-kem/src/algebra.rs:17", "ml-kem/src/algebra.rs:184", "ml-kem/src/algebra.rs:419"]}
