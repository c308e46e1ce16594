{
 "claims": [
  {
   "property": "C01",
   "status": "proved",
   "theorems": [
    "C01_keygen"
   ],
   "note": ""
  },
  {
   "property": "C02",
   "status": "proved",
   "theorems": [
    "C02_encaps",
    "C02_encaps_from_bytes",
    "C02_encaps_any"
   ],
   "note": ""
  },
  {
   "property": "C03",
   "status": "proved",
   "theorems": [
    "C03_decaps",
    "C03_decaps_from_bytes"
   ],
   "note": ""
  },
  {
   "property": "C04",
   "status": "proved",
   "theorems": [
    "C04_kpke",
    "C04_round_trip",
    "C04_norm_bound"
   ],
   "note": "All hash behaviours; parameter sets with du, dv <= 11 (d = 12 is a reduction modulo q, not a compression). The noise is written with the schoolbook ring product in Spec/Noise.v. C04_kpke is the iff at the K-PKE level; C04_round_trip the agreement of keys at the ML-KEM level."
  },
  {
   "property": "C05",
   "status": "proved",
   "theorems": [
    "C05_no_unconditional_round_trip"
   ],
   "note": "For each of the three parameter sets, one hash behaviour for which every message other than 0^32 fails to round-trip."
  },
  {
   "property": "C06",
   "status": "proved",
   "theorems": [
    "C06_implicit_rejection",
    "C06_any_byte_difference"
   ],
   "note": ""
  },
  {
   "property": "C07",
   "status": "proved",
   "theorems": [
    "C07_generate_deterministic",
    "C07_generate",
    "C07_encapsulate_deterministic",
    "C07_encapsulate",
    "C07_decapsulate",
    "C07_from_bytes",
    "C07_as_bytes"
   ],
   "note": ""
  },
  {
   "property": "C08",
   "status": "proved",
   "theorems": [
    "C08_dk_round_trip"
   ],
   "note": ""
  },
  {
   "property": "C09",
   "status": "proved",
   "theorems": [
    "C09_ek_round_trip",
    "C09_ek_round_trip_any"
   ],
   "note": ""
  },
  {
   "property": "C10",
   "status": "proved",
   "theorems": [
    "C10_ek",
    "C10_dk",
    "C10_no_modulus_check"
   ],
   "note": ""
  },
  {
   "property": "C11",
   "status": "proved",
   "theorems": [
    "C11_h_kept",
    "C11_agrees_iff",
    "C11_h_not_checked"
   ],
   "note": ""
  },
  {
   "property": "C12",
   "status": "proved",
   "theorems": [
    "C12_generate",
    "C12_encapsulate",
    "C12_generate_draws",
    "C12_encapsulate_draws"
   ],
   "note": ""
  },
  {
   "property": "C13",
   "status": "proved",
   "theorems": [
    "C13_sizes",
    "C13_table_3"
   ],
   "note": ""
  },
  {
   "property": "C14",
   "status": "proved",
   "theorems": [
    "C14_consistent"
   ],
   "note": ""
  },
  {
   "property": "C15",
   "status": "proved",
   "theorems": [
    "C15_drop_erases"
   ],
   "note": ""
  },
  {
   "property": "C16",
   "status": "proved",
   "theorems": [
    "C16_entries",
    "C16_transposed",
    "C16_transposed_entries",
    "C16_involutive"
   ],
   "note": ""
  },
  {
   "property": "C17",
   "status": "proved",
   "theorems": [
    "C17_traces_are_the_model",
    "C17_generate_nonces",
    "C17_encrypt_nonces",
    "C17_no_reuse_generate",
    "C17_no_reuse_encrypt",
    "C17_generate_pairs"
   ],
   "note": ""
  },
  {
   "property": "C18",
   "status": "proved",
   "theorems": [
    "C18_field_arithmetic",
    "C18_barrett_reduce",
    "C18_base_case_multiply"
   ],
   "note": ""
  },
  {
   "property": "C19",
   "status": "proved",
   "theorems": [
    "C19_ntt_evaluates",
    "C19_ntt_closed_form",
    "C19_points"
   ],
   "note": ""
  },
  {
   "property": "C20",
   "status": "proved",
   "theorems": [
    "C20_ntt_inverse_ntt",
    "C20_ntt_ntt_inverse"
   ],
   "note": ""
  },
  {
   "property": "C21",
   "status": "proved",
   "theorems": [
    "C21_ntt_mul_is_ring_mul",
    "C21_ntt_add_is_ring_add"
   ],
   "note": ""
  },
  {
   "property": "C22",
   "status": "proved",
   "theorems": [
    "C22_dot_product",
    "C22_matrix_product",
    "C22_vector_add",
    "C22_dot_is_ring_inner_product"
   ],
   "note": ""
  },
  {
   "property": "C23",
   "status": "proved",
   "theorems": [
    "C23_compress",
    "C23_compress_poly",
    "C23_compress_vec"
   ],
   "note": ""
  },
  {
   "property": "C24",
   "status": "proved",
   "theorems": [
    "C24_decompress",
    "C24_decompress_canonical",
    "C24_decompress_poly"
   ],
   "note": ""
  },
  {
   "property": "C25",
   "status": "proved",
   "theorems": [
    "C25_compress_decompress",
    "C25_compress_decompress_poly",
    "C25_decompress_compress_error",
    "C25_decompress_compress_error_poly",
    "C25_d12_not_injective"
   ],
   "note": ""
  },
  {
   "property": "C26",
   "status": "proved",
   "theorems": [
    "C26_encode_bits",
    "C26_encode_is_ByteEncode",
    "C26_encode_vec"
   ],
   "note": ""
  },
  {
   "property": "C27",
   "status": "proved",
   "theorems": [
    "C27_decode_fields",
    "C27_decode_is_ByteDecode",
    "C27_decode_vec"
   ],
   "note": ""
  },
  {
   "property": "C28",
   "status": "proved",
   "theorems": [
    "C28_decode_encode",
    "C28_encode_decode",
    "C28_encode_decode_12",
    "C28_encode_injective",
    "C28_vec_decode_encode",
    "C28_vec_encode_decode"
   ],
   "note": ""
  },
  {
   "property": "C29",
   "status": "proved",
   "theorems": [
    "C29_is_SampleNTT",
    "C29_first_256",
    "C29_result_is_poly",
    "C29_finishes_iff",
    "C29_budget_irrelevant"
   ],
   "note": ""
  },
  {
   "property": "C30",
   "status": "proved",
   "theorems": [
    "C30_is_SamplePolyCBD",
    "C30_range"
   ],
   "note": ""
  },
  {
   "property": "C31",
   "status": "proved",
   "theorems": [
    "C31_byte_eq",
    "C31_compare",
    "C31_select"
   ],
   "note": ""
  },
  {
   "property": "C32",
   "status": "proved",
   "theorems": [
    "C32_flatten",
    "C32_unflatten",
    "C32_unflatten_ref",
    "C32_flatten_unflatten",
    "C32_unflatten_flatten",
    "C32_truncate"
   ],
   "note": ""
  },
  {
   "property": "C33",
   "status": "proved",
   "theorems": [
    "C33_encapsulation_key",
    "C33_generate",
    "C33_generate_bytes"
   ],
   "note": "For every behaviour of SHA-3 and every X25519 with 32-byte outputs whose public key is the scalar applied to the base point (x25519_ok)."
  },
  {
   "property": "C34",
   "status": "proved",
   "theorems": [
    "C34_encapsulate",
    "C34_draws",
    "C34_safe"
   ],
   "note": "Draws are counted with a logging RNG; keys are all keys the public API can produce."
  },
  {
   "property": "C35",
   "status": "proved",
   "theorems": [
    "C35_decapsulate",
    "C35_bytes",
    "C35_safe"
   ],
   "note": "Also from any 1120 bytes directly; never panics."
  },
  {
   "property": "C36",
   "status": "proved",
   "theorems": [
    "C36_round_trip"
   ],
   "note": "Exact noise condition of C04; the Diffie-Hellman identity of X25519 is a hypothesis (x25519-dalek is outside the repository)."
  },
  {
   "property": "C37",
   "status": "proved",
   "theorems": [
    "C37_ciphertext",
    "C37_encapsulation_key",
    "C37_decapsulation_key"
   ],
   "note": ""
  },
  {
   "property": "C38",
   "status": "proved",
   "theorems": [
    "C38_combiner_input"
   ],
   "note": "The hash input function is the same for all hash behaviours, so it is the string that is hashed."
  },
  {
   "property": "C39",
   "status": "proved",
   "theorems": [
    "C39_erased"
   ],
   "note": "The derived Zeroize/ZeroizeOnDrop are modelled as zeroing every field."
  },
  {
   "property": "C40",
   "status": "proved",
   "theorems": [
    "C40_ecdh",
    "C40_x25519",
    "C40_needs_commutation"
   ],
   "note": "The Diffie-Hellman identity is a hypothesis; C40_needs_commutation shows that it cannot be dropped. C58 and C62 discharge it for X25519 and for the four Weierstrass curves."
  },
  {
   "property": "C41",
   "status": "proved",
   "theorems": [
    "C41_ecdh",
    "C41_x25519",
    "C41_keypair",
    "C41_x25519_keypair",
    "C41_decapsulate"
   ],
   "note": ""
  },
  {
   "property": "C42",
   "status": "proved",
   "theorems": [
    "C42_wrappers",
    "C42_surjective"
   ],
   "note": ""
  },
  {
   "property": "C43",
   "status": "proved",
   "theorems": [
    "C43_histories",
    "C43_no_crash",
    "C43_reparse"
   ],
   "note": "Adaptive clients; includes equality tests and re-parsing. The hash stored in an encapsulation key taken out of a parsed decapsulation key is part of the abstract state (see C11)."
  },
  {
   "property": "C44",
   "status": "proved",
   "theorems": [
    "C44_oblivious",
    "C44_trace",
    "C44_decapsulate"
   ],
   "note": "Leakage semantics for a small imperative language (Spec/Leakage.v: every branch and every array index is an event); kem.rs:79-83 and 100-116 as programs (Model/Leaky.v). C44_oblivious: equal event lists for any data of equal lengths, complete or truncated runs (by soundness of a type system). C44_trace: the event list in closed form, and the run computes what the functional model computes. C44_decapsulate: this holds for the tail of every decapsulate call. Source level only: what the compiler makes of it is not modelled. The replaced early-exit code is shown to leak (C44_early_exit_leaks)."
  },
  {
   "property": "C45",
   "status": "proved",
   "theorems": [
    "C45_generate",
    "C45_encapsulate",
    "C45_decapsulate",
    "C45_generate_terminates",
    "C45_encapsulate_terminates",
    "C45_decapsulate_terminates",
    "C45_generated_keys_work"
   ],
   "note": "C45_generate, C45_encapsulate, C45_decapsulate: monotonicity in the budget. C45_*_terminates: some budget suffices iff every stream shake128(rho || j || i) has 256 candidates below q (probability is not modelled). C45_generated_keys_work: no further budget is needed to use a generated key. C45_never shows the hypothesis can fail for an arbitrary stream."
  },
  {
   "property": "C46",
   "status": "proved",
   "theorems": [
    "C46_encapsulation",
    "C46_embedded"
   ],
   "note": "C46_encapsulation for generated or parsed encapsulation keys, C46_embedded for keys inside a decapsulation key. Collisions are stated for the two named inputs (an existential collision would be vacuous). C46_C47_case: a toy hash where the collision alternative is the one that holds."
  },
  {
   "property": "C47",
   "status": "proved",
   "theorems": [
    "C47_decapsulation",
    "C47_ciphertext",
    "C47_generated_keys"
   ],
   "note": "C47_decapsulation (any two reachable keys), C47_ciphertext (one key), C47_generated_keys (two generated keys). No claim that the hashes are collision resistant: hs is arbitrary."
  },
  {
   "property": "C48",
   "status": "proved",
   "theorems": [
    "C48_unchecked_hash"
   ],
   "note": "Documents a deviation from FIPS 203 section 7.3 (hash check is not performed; see C11). The noise hypothesis is that of C04. C48_case: two different toy keys with one secret."
  },
  {
   "property": "C49",
   "status": "proved",
   "theorems": [
    "C49_decapsulation",
    "C49_ciphertext"
   ],
   "note": "C49_decapsulation and C49_ciphertext. Any X25519 function of the right type; equal z with different ML-KEM public keys is possible only if both runs reject."
  },
  {
   "property": "C50",
   "status": "proved",
   "theorems": [
    "C50_binomial",
    "C50_support"
   ],
   "note": "Exact counts over any duplicate-free list of all byte strings of the length; probability statements follow by dividing by 256^(64 eta). C50_case: 6^256 and 20^256 strings give the zero polynomial."
  },
  {
   "property": "C51",
   "status": "proved",
   "theorems": [
    "C51_uniform",
    "C51_exact",
    "C51_all_occur"
   ],
   "note": "C51_uniform, C51_exact (closed recursion), C51_all_occur. The XOF output is an arbitrary byte string here; that SHAKE128 output is uniform is not claimed."
  },
  {
   "property": "C52",
   "status": "proved",
   "theorems": [
    "C52_histories",
    "C52_no_crash",
    "C52_reparse",
    "C52_equality"
   ],
   "note": "Adaptive clients; [==] of x25519-dalek public keys is a parameter."
  },
  {
   "property": "C53",
   "status": "proved",
   "theorems": [
    "C53_decapsulate",
    "C53_encapsulate",
    "C53_generate",
    "C53_as_bytes",
    "C53_branch_reveals",
    "C53_lookups_reveal",
    "C53_generate_reveals"
   ],
   "note": "The two runs may use different hash functions and budgets; only the XOF streams of the public matrix must coincide. Source-level observations, defined in Spec/Ops.v: arithmetic and bitwise operations are taken to be constant-time; the calls into sha3 show their input length only. du, dv < 12 is required (12-bit fields are parsed with a division; true of the standard sets). Key parsing is not covered: it divides secret values by the constant q (C53_division_case). C53_branch_reveals, C53_lookups_reveal and C53_generate_reveals show that the two exceptions cannot be dropped."
  },
  {
   "property": "C54",
   "status": "proved",
   "theorems": [
    "C54_generate",
    "C54_encapsulate",
    "C54_decapsulate",
    "C54_decaps_key_from_bytes",
    "C54_encaps_key_from_bytes",
    "C54_decaps_key_as_bytes",
    "C54_encaps_key_as_bytes"
   ],
   "note": "Model/Ops.v restates every ml-kem function as a program of machine operations; its outcome is proved equal to the functional model. Arithmetic on usize is included, at the narrowest width of 16 bits (other widths: C79)."
  },
  {
   "property": "C55",
   "status": "proved",
   "theorems": [
    "C55_tail",
    "C55_total",
    "C55_five_blocks",
    "C55_vanishes",
    "C55_key_generation",
    "C55_key_generation_five_blocks"
   ],
   "note": "A count of byte strings, as in C50/C51. with_matrix (Spec/Random.v) replaces the answers of the XOF to the k^2 queries of key generation by an arbitrary byte string, the other hash queries stay arbitrary. That SHAKE128 behaves like a random function is not claimed."
  },
  {
   "property": "C56",
   "status": "proved",
   "theorems": [
    "C56_every_encryption",
    "C56_kpke",
    "C56_kem"
   ],
   "note": "Proved bounds (Chernoff with the rounding of v taken in the worst case and the rounding of u averaged over e1); the literature's estimates, which average over the matrix as well, are 2^-139, 2^-164, 2^-174. C56_kem needs that the randomness derived by encapsulation never equals the PRF key sigma of key generation (a collision in the second half of G). The matrix is any one that sampling returns (premise A_hat = Some Ah; C55 bounds the rest)."
  },
  {
   "property": "C57",
   "status": "proved",
   "theorems": [
    "C57_group",
    "C57_every_u",
    "C57_scalar_multiplication",
    "C57_composition",
    "C57_commutes"
   ],
   "note": "About the function of Spec/RFC7748.v, which the model takes x25519-dalek to implement (checked on the RFC's and the draft's vectors in Tests/XWingVectors.v). Includes a proof that 2^255 - 19 is prime. The order of the base point is not computed."
  },
  {
   "property": "C58",
   "status": "proved",
   "theorems": [
    "C58_xwing_round_trip",
    "C58_x25519_kem"
   ],
   "note": "C36 and C40 without the hypothesis x25519_commutes, for the function of Spec/RFC7748.v. That x25519-dalek computes it is outside the model."
  },
  {
   "property": "C59",
   "status": "proved",
   "theorems": [
    "C59_xwing",
    "C59_xwing_rfc7748"
   ],
   "note": "Same reading of the probability as C56_kem: the shares of answers (Y, W, B) to the named PRF queries, with the premise that the encryption coins never equal the key generation seed sigma (a hash collision) and that the matrix sampling ends. C59_xwing_rfc7748 assumes nothing of the group."
  },
  {
   "property": "C60",
   "status": "proved",
   "theorems": [
    "C60_generate_key_pair",
    "C60_encapsulation_key",
    "C60_encapsulate",
    "C60_decapsulate",
    "C60_bytes"
   ],
   "note": "Model/XWingOps.v on top of Model/Ops.v. Calls of sha3, the RNG and x25519-dalek are single operations; what happens inside those crates is outside the model."
  },
  {
   "property": "C61",
   "status": "proved",
   "theorems": [
    "C61_encapsulation_key",
    "C61_generate_key_pair",
    "C61_decapsulate",
    "C61_encapsulate",
    "C61_reveals"
   ],
   "note": "Source-level observations as in C53; calls of sha3, the RNG and x25519-dalek show that they happen and how many bytes they process. C61_reveals shows that the exceptions cannot be dropped."
  },
  {
   "property": "C62",
   "status": "proved",
   "theorems": [
    "C62_group",
    "C62_curves",
    "C62_multiples",
    "C62_commutes",
    "C62_ecdh",
    "C62_dhkem",
    "C62_decapsulate",
    "C62_group_case",
    "C62_group_needed",
    "C62_ecdh_case",
    "C62_dhkem_case"
   ],
   "note": "The curve crates are taken to compute the multiples of Spec/SEC1.v (checked on the vector of dhkem/tests/hpke_p256_test.rs in Tests/P256.v). The orders of the base points are not computed."
  },
  {
   "property": "C63",
   "status": "proved",
   "theorems": [
    "C63_encoded_point",
    "C63_length",
    "C63_field_length",
    "C63_case"
   ],
   "note": "dhkem delegates to the curve crate; the encoding is that of SEC 1 section 2.3.3."
  },
  {
   "property": "C64",
   "status": "proved",
   "theorems": [
    "C64_encrypt",
    "C64_encapsulate",
    "C64_rejects"
   ],
   "note": "The bounds are those of the noise e1 alone; y and the compressed v contribute nothing to them. The assumption that PRF outputs are uniform is the counting itself."
  },
  {
   "property": "C65",
   "status": "proved",
   "theorems": [
    "C65_outcome",
    "C65_accepts",
    "C65_injective",
    "C65_inverse",
    "C65_public"
   ],
   "note": "C65_injective, C65_inverse and C65_public are for keys without decryption failures; C05 shows that the premise is needed, C56 bounds the probability of failures. C65_case instantiates the premise for every parsed key under a hash function with zero noise."
  },
  {
   "property": "C66",
   "status": "proved",
   "theorems": [
    "C66_orders",
    "C66_base_point"
   ],
   "note": "For the curves of Spec/Curve25519.v. No Hasse bound is used: the sizes of the two curves add up to 2p + 2, and each is a multiple of the claimed order."
  },
  {
   "property": "C67",
   "status": "proved",
   "theorems": [
    "C67_points",
    "C67_zero",
    "C67_encapsulate",
    "C67_decapsulate",
    "C67_public",
    "C67_honest",
    "C67_xwing_encapsulate",
    "C67_xwing_decapsulate"
   ],
   "note": "For the function of Spec/RFC7748.v; that x25519-dalek computes it is outside the model. RFC 9180 section 7.1.4 asks for the zero check that dhkem leaves to its caller; the X-Wing draft asks for none."
  },
  {
   "property": "C68",
   "status": "proved",
   "theorems": [
    "C68_same_secret",
    "C68_secrets",
    "C68_public_keys",
    "C68_encapsulate"
   ],
   "note": "For the function of Spec/RFC7748.v. The bound 64 is 2 scalars times 2^5 values of the bits that clamping overwrites; C68_case is a pair with different scalars."
  },
  {
   "property": "C69",
   "status": "proved",
   "theorems": [
    "C69_hybrid",
    "C69_indistinguishable",
    "C69_bound",
    "C69_one_way"
   ],
   "note": "Nothing is assumed about the hardness of MLWE: the theorems are equations and inequalities between averages, with the distinguishers key_test and ct_test of Spec/Lwe.v. The attacker is an arbitrary rational-valued function (its probability of answering 1); running times are not modelled. The uniform PRF outputs model the PRF as a random function at the two keys sigma and r, which must differ (premise)."
  },
  {
   "property": "C70",
   "status": "proved",
   "theorems": [
    "C70_one_hash_function",
    "C70_passive"
   ],
   "note": "Passive: no decapsulation questions. The seed z is fixed, as it plays no part. The hash functions are programmed at G(d||k), G(m||H(ek)) and the PRF inputs under sigma and r; everywhere else they are an arbitrary fixed function. Running times are not modelled; the distinguishers finds_key_test and finds_ct_test (Spec/Attacker.v) run the attacker once."
  },
  {
   "property": "C71",
   "status": "proved",
   "theorems": [
    "C71_numbers",
    "C71_active",
    "C71_failure"
   ],
   "note": "Nothing is assumed about the hardness of MLWE or about delta; with a hash function without failures delta = 0 (C71_case). rho (and so the matrix) is fixed, as in C69 and C70. The attacker asks classical questions. Running times are not modelled: the distinguishers sim_key_test and sim_ct_test (Spec/Tables.v) run the attacker once with whole random tables, which a program would fill in lazily. G and J are random tables at m || H(ek) and z || c; everywhere else, and for H, XOF and the PRF at other keys, the hash functions are an arbitrary fixed function. The owner answers the challenge and strings that are not ciphertexts with nothing."
  },
  {
   "property": "C72",
   "status": "proved",
   "theorems": [
    "C72_reduction",
    "C72_numbers"
   ],
   "note": "C72_reduction bounds the advantage by that of an explicit attacker against ML-KEM-768 (C71's game); C72_numbers puts in C71's bound. As in C71, nothing is assumed about the hardness of MLWE or about delta, rho is fixed, questions are classical and running times are not modelled. The attacker is given both X25519 secret keys, so the statement covers a complete break of X25519; C73 is the converse. The key pair and the encapsulation are those of generate_key_pair and encapsulate with an RNG that reads the seeds from a string."
  },
  {
   "property": "C73",
   "status": "proved",
   "theorems": [
    "C73_reduction"
   ],
   "note": "Nothing is assumed about the hardness of the Diffie-Hellman problem or of second preimages: the bound is stated in terms of the explicit solver dh_solver (Spec/Solver.v) and of ciphertexts the attacker sends. Questions are classical, running times are not modelled; the solver holds whole random tables, which a program would fill in lazily. The expansion of the seed is random, as in C72."
  },
  {
   "property": "C74",
   "status": "proved",
   "theorems": [
    "C74_same_secret",
    "C74_independent",
    "C74_x25519",
    "C74_ecdh",
    "C74_attack",
    "C74_xwing"
   ],
   "note": "With the X25519 function of RFC 7748 and the curves of SEC 1 (any curve with an odd prime modulus and nonzero discriminant). A limit of the code's interface as documented, not a deviation: lib.rs:11-16 says extraction is left to the user."
  },
  {
   "property": "C75",
   "status": "proved",
   "theorems": [
    "C75_second_preimages",
    "C75_reduction"
   ],
   "note": "C75_second_preimages is the bound on the extra term of C73 for random G and J; C75_reduction the resulting reduction to the X25519 Diffie-Hellman problem with a recognising oracle. Instances with RFC 7748's X25519 in XWingGapCases."
  },
  {
   "property": "C76",
   "status": "proved",
   "theorems": [
    "C76_ml_kem",
    "C76_xwing",
    "C76_xwing_rfc7748"
   ],
   "note": "session_world programs the hash function at the honest parties' queries; session_probability averages over all answers. C76_case (WholeSessionCases) exhibits answers for which a session succeeds and answers for which it fails."
  },
  {
   "property": "C77",
   "status": "proved",
   "theorems": [
    "C77_kpke",
    "C77_ml_kem",
    "C77_xwing",
    "C77_xwing_rfc7748"
   ],
   "note": "The event (misdecrypts, session_world) is the one of C56/C76; only the averaging changes: the XOF bytes that feed the matrix are averaged over too. C77_case (RandomMatrixCases) gives, for every seed, message and acceptable XOF output, tapes with which decryption fails and tapes with which it succeeds."
  },
  {
   "property": "C78",
   "status": "proved",
   "theorems": [
    "C78_active",
    "C78_xwing",
    "C78_xwing_rfc7748"
   ],
   "note": "Combines C71 and C72 with C51 (the matrix is uniform over the XOF answers, UniformMatrix.average_uniform) and C77 (in the form: for some message, wrong_any_average). Nothing is assumed about the hardness of MLWE: the distinguishers are mlwe_key_test and mlwe_ct_test of Spec/RandomLwe.v. They choose XOF answers that give the matrix they are told, and the games count as 0 when no matrix is found (at most 2^-243 of the answers with five blocks, C78_case_found). The public seed rho is fixed, so XOF answers for other seeds are arbitrary. Questions are classical and running times are not modelled."
  },
  {
   "property": "C79",
   "status": "proved",
   "theorems": [
    "C79_mlkem",
    "C79_xwing"
   ],
   "note": "The usize operations of the code at run time are explicit in Model/Ops.v: 2*i and 2*i+1, j+len, start+len, 2*len, k+=1, k-=1, start+3, D::USIZE*j. Arithmetic on type-level sizes and in the tables happens at compile time, and the counters inside iterators belong to the standard library; both are natural numbers in the model."
  },
  {
   "property": "C80",
   "status": "proved",
   "theorems": [
    "C80_orders",
    "C80_points",
    "C80_no_failure",
    "C80_public",
    "C80_encapsulate",
    "C80_two_scalars",
    "C80_decapsulate",
    "C80_secret_keys",
    "C80_orders_case",
    "C80_needed",
    "C80_encapsulate_case"
   ],
   "note": "The orders, their primality and the number of points are proved from the parameters in Spec/SEC1.v and Spec/SEC1Orders.v, with no bound assumed (Hasse's theorem is not used). That NonZeroScalar holds a scalar from 1 to n-1, and that PublicKey holds a point other than infinity, are facts about the elliptic-curve crate, outside the repository, and appear as premises; C80_needed shows what happens without them."
  },
  {
   "property": "C81",
   "status": "proved",
   "theorems": [
    "C81_hybrid",
    "C81_anonymous",
    "C81_bound"
   ],
   "note": "Nothing is assumed about the hardness of module-LWE: the theorems are equations between averages. The statement is about K-PKE, the encryption scheme inside ML-KEM, without hash questions of the attacker."
  },
  {
   "property": "C82",
   "status": "proved",
   "theorems": [
    "C82_blind",
    "C82_anonymous",
    "C82_bound"
   ],
   "note": "Nothing is assumed about the hardness of module-LWE. The attacker is passive: it asks hash questions, but no decapsulations."
  },
  {
   "property": "C83",
   "status": "proved",
   "theorems": [
    "C83_blind",
    "C83_anonymous",
    "C83_bound"
   ],
   "note": "Nothing is assumed about the hardness of module-LWE, nor about X25519. The attacker is passive: it asks hash questions, but no decapsulations."
  },
  {
   "property": "C84",
   "status": "proved",
   "theorems": [
    "C84_generate",
    "C84_encapsulate",
    "C84_xwing_generate",
    "C84_xwing_encapsulate",
    "C84_x25519_encapsulate",
    "C84_x25519_keypair",
    "C84_ecdh",
    "C84_buffers",
    "C84_agree"
   ],
   "note": "For the four curves, EphemeralSecret::random (outside the repository) is any operation on the generator."
  },
  {
   "property": "C85",
   "status": "proved",
   "theorems": [
    "C85_histories",
    "C85_failures"
   ],
   "note": "That a caught panic leaves the client's keys unchanged is part of the model (the calls take &self; no interior mutability)."
  },
  {
   "property": "C86",
   "status": "proved",
   "theorems": [
    "C86_histories",
    "C86_failures"
   ],
   "note": "As for C85: that a caught panic leaves the client's objects unchanged is part of the model."
  },
  {
   "property": "C87",
   "status": "proved",
   "theorems": [
    "C87_equality",
    "C87_position",
    "C87_secret"
   ],
   "note": "A negative result about the derived PartialEq. Outside the repository: == of hybrid-array's Array is that of slices, element by element up to the first difference; memcmp on bytes shows only its result."
  },
  {
   "property": "C88",
   "status": "proved",
   "theorems": [
    "C88_contents",
    "C88_determines"
   ],
   "note": "A negative result about the derived Debug. Outside the repository: core's formatting, by its documented output."
  }
 ]
}