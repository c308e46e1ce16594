# Formal model of RustCrypto/KEMs in Rocq (Coq 8.16.1)

Subject: `/repo` (crates `ml-kem`, `x-wing`, `dhkem`) at the pinned commit.
Properties: `properties.jsonl`. Status per property: `MANIFEST.json`.
Build: `cd rocq && coq_makefile -f _CoqProject -o Makefile && make -j4`.

## Layout

| directory | content |
|---|---|
| `theories/Base` | `Res.v` outcome monad and array combinators; `Oracles.v` interface types (bytes, hashes, RNG, parameter sets); `Failing.v` RNGs that may panic |
| `theories/Model` | the code, function by function, each definition citing file and lines |
| `theories/Spec` | independent specifications. They import `Base` and the standard library only, never the model |
| `theories/Proofs` | lemmas |
| `theories/Properties` | the theorems, named after the properties (`C01_...`), each with a concrete case meeting its hypotheses |
| `theories/Tests` | `MlKem*.v`, `XWingVectors.v`, `P256.v`: the model run on the repository's test vectors (validation of the model; tests, not proofs). `Toy.v`: small stand-ins for the hash functions, used by the concrete cases |

| model file | code |
|---|---|
| `Machine`, `Util` | integer types and checked operators; `ml-kem/src/util.rs` |
| `Algebra`, `Sample` | `ml-kem/src/algebra.rs` (fields, NTT; samplers), CBD tables of `param.rs` |
| `Compress`, `Encode`, `Crypto`, `Param`, `Pke`, `Kem` | the module of that name in `ml-kem/src` (`Param` also the parameter sets in `lib.rs`) |
| `Traced` | `Sample`, `Pke`, `Kem` once more with a log of hash queries (C17); proved to erase to the originals |
| `Session` | a client calling the API of `Kem` (C43) |
| `Leaky` | the tail of `decapsulate` as a program with a leakage semantics (C44); proved to compute what `Kem` computes |
| `Ops` | every ml-kem function again, as a program of single machine operations with build modes and observations (C53, C54, C79); proved to compute what the functional model computes |
| `XWing` | `x-wing/src/lib.rs` |
| `XWingOps` | every x-wing function again, as a program of machine operations on top of `Ops`; a call of sha3, of the RNG or of x25519-dalek is one operation (C60, C61) |
| `XWingSession` | a client calling the API of `XWing` (C52) |
| `DhKem` | `dhkem/src/{lib,ecdh_kem,x25519_kem}.rs` |
| `Fallible` | the randomised entry points of the three crates again, with an RNG that gets the buffer and may panic (C84) |
| `FailingSession` | histories of ML-KEM API calls with such an RNG, by a client that catches panics (C85). Assumed of `catch_unwind`: a caught panic leaves the client's keys as they were, as the calls take `&self` and the crate has no interior mutability or global state |
| `FailingXWing` | the same for X-Wing (C86) |
| `KeyEq` | `==` on keys with the comparisons it branches on (C87) |
| `KeyDebug` | `{:?}` on a decapsulation key, as text (C88) |

| specification file | content |
|---|---|
| `FIPS202`, `FIPS203` | SHA-3 functions; ML-KEM, with NTT, rounding and bit strings in their mathematical definition |
| `Domains` | value domains (field elements, polynomials, canonical encodings), sections of encoded keys |
| `Noise` | the decryption noise of K-PKE over R_q (C04, C36, C48) |
| `Session`, `XWingSession` | clients, histories and the byte-string machines (C43, C52) |
| `Counting` | enumerations of byte strings, counts, binomials (C50, C51) |
| `Random` | hash functions whose answers to a list of queries are read from a byte string, so that byte strings can be counted (C55, C56) |
| `Lwe` | averages; the module-LWE gap of a distinguisher; the distinguishers of the reduction for K-PKE (C69) |
| `Attacker` | attackers as trees of hash (and decapsulation) questions; hash functions with programmed answers (C70) |
| `Tables` | random functions as tables; the simulation of ML-KEM's owner without a secret key (C71) |
| `RandomLwe` | the module-LWE gap for a random matrix; the XOF and the PRF as random functions; the distinguishers of the reduction with a random matrix (C78) |
| `Hybrid` | SHA3-256 with a random table behind a prefix; an attacker against X-Wing turned into one against ML-KEM-768 (C72) |
| `Solver` | an attacker against X-Wing turned into a solver of the X25519 Diffie-Hellman problem (C73) |
| `Leakage` | a small language whose executions record branches and memory accesses (C44) |
| `Ops` | machine operations: their result in a build with and without overflow checks, and what an observer sees of them (C53, C54, C60, C61); `usize` of a given width (C79) |
| `XWing`, `RFC7748` | X-Wing draft; X25519 (test vectors, C57, C58) |
| `Randomness` | FIPS 203's and X-Wing's randomised algorithms with draws that may be NULL (C84) |
| `FailingSession` | the machine of `Session` with draws that may fail; a failed call changes nothing but the generator (C85) |
| `FailingXWing` | likewise the machine of `XWingSession` (C86) |
| `Guessing` | a procedure that finds a vector through comparisons (C87) |
| `Numbers` | the decimal numbers in a text (C88) |
| `Curve25519` | the points of v^2 = u^3 + 486662 u^2 + u and of its twist, with their addition (C57), their orders and low-order points (C66-C68) |
| `SEC1` | curves y^2 = x^3 + a x + b, point addition, ECDH and encodings of SEC 1; secp256k1, P-256, P-384, P-521 (C62, C63) |
| `SEC1Orders` | the orders that SEC 2 gives for these curves, and what makes a number the order (C80) |

## Modelling decisions

* Outcomes: every modelled function returns `Ok v`, `Panic`, `UB` or `NoFuel`.
  `Panic` is a checked-arithmetic overflow, out-of-range index or slice, or array length
  mismatch. `UB` is `unwrap_unchecked` on `Err` or an out-of-bounds raw pointer read.
  Overflow is modelled as in a build with overflow checks. The theorems show it never
  happens. That a build without the checks computes the same is a theorem about the
  second model `Ops`, where both builds are modelled (C54).
* `NoFuel`: the only loop of the code whose iteration count is not fixed by types is the
  rejection loop in `FieldElementReader::next`. The model gives each sampled polynomial a
  budget `n` of 3-byte groups; the specification `SampleNTT n` has the same budget.
  Conformance theorems are equations `model n x = lift (spec n x)` for all `n`: they say the
  code returns the specified value as soon as the specification does, never panics, never
  reaches UB, and fails to return only if the XOF stream has too few acceptable candidates.
* Integers are mathematical integers with explicit range checks per operation. `usize`
  values (indices, lengths) are natural numbers without overflow checks in the functional
  model. In the model `Ops` each `usize` operation performed at run time is explicit and
  overflows at 16 bits, the narrowest width; both models are proved to agree, and C79
  extends this to all widths. Arithmetic on type-level sizes is done by the compiler and
  stays unchecked.
* Arrays are lists; array sizes (typenum) are natural-number parameters, and the length
  checks that Rust's types make redundant are kept in the model where the code performs a
  dynamic operation (`collect`, `copy_from_slice`, slices, raw pointer reads).
* Parameter sets are a record `(k, eta1, eta2, du, dv)`; theorems hold for all `wf_params`
  (`1 <= k <= 127`, `eta` in {2,3}, `1 <= du, dv <= 12`), which includes the three standard
  sets.
* Outside the repository and hence parameters of the model, universally quantified in the
  theorems:
  * `sha3` (record `hashes`). Built-in assumptions: `update` calls concatenate, `read`
    calls return successive segments of one stream. Explicit hypothesis `hash_ok`: output
    lengths and byte ranges. `Spec/FIPS202.v` is a concrete instance, proved `hash_ok`.
  * the RNG (record `rng`): any state, any `fill_bytes`; hypothesis `rng_ok`: it fills the
    buffer with bytes. (C84 has RNGs that panic or leave bytes unwritten; the code does not
    use `try_fill_bytes`.)
  * `x25519-dalek` (record `x25519_impl`; in C52 also `==` of its public keys),
    `elliptic-curve` (record `ec_curve`); the
    Diffie-Hellman identity is an explicit hypothesis where it is needed.
  * `hybrid-array` (`Array`, `concat`, `split_ref`, `collect`), `typenum`, `core`: modelled
    by their documented behaviour (list operations).
* Not modelled: Rust's type system and borrow checker, compiler and code generation, the
  `Debug` (except C88) and `Default` impls, the semantics of volatile writes used by `zeroize`
  (only their effect on the value), memory of moved or copied values, timing (except the
  source-level observations of C44, C53, C61 and C87), benches and tests, `no_std`/feature
  plumbing.

## Properties: what is modelled and how it is proved

| id | how |
|---|---|
| C01-C03 | equations between `Model/Kem.v` on abstract keys and `Spec/FIPS203.v` on bytes; by composing refinement lemmas for each layer (field, NTT, sampling, compression, encoding) |
| C04 | algebra over R_q: `v - s.u = mu + noise`, using that NTT is a ring isomorphism; exact decoding interval of 1-bit compression (an equivalence, not only a bound); re-encryption of the same message gives the same ciphertext |
| C05 | a hash behaviour with legal but extreme samples, for which the noise is computed symbolically; all three parameter sets |
| C06, C31 | bit-level lemma on all bytes, induction over lists |
| C07 | corollary of the equations (right-hand sides are `Ok`/`NoFuel`) |
| C08-C11, C28, C37 | encode/decode inverse lemmas (C26, C27) uniform in d |
| C12, C33-C35, C41 | unfolding of RNG threading + C01-C03 |
| C13 | lengths of the specification outputs |
| C14, C15, C39, C42 | record-level reasoning, list induction |
| C16, C17 | `from_fn` lemmas; list of oracle queries of an instrumented model |
| C18 | Barrett error bound by linear arithmetic |
| C19, C20 | every layer of butterflies is one simultaneous map of the coefficients; invariant: after the layer with m blocks, block s is the input modulo X^(256/m) minus the root of the block. The tables enter through 3 * 128 identities between entries |
| C21, C22 | evaluation homomorphism Z_q[X]/(X^256+1) -> Z_q[X]/(X^2-gamma_i); division with remainder by X^2-gamma_i |
| C23-C25 | the multiply-and-shift division is exact on the range reached (error bound by linear arithmetic), for every d; lifted to lists |
| C26, C27 | bit-list representation of chunks, uniform in d |
| C29 | invariant relating reader state (buffer, position, pending candidate, budget) to the candidate stream |
| C30 | table lemma + C27 |
| C32 | list lemmas |
| C36 | C04 + Diffie-Hellman hypothesis |
| C38 | length-based injectivity of concatenation |
| C40 | commutation hypothesis (discharged in C58 and C62) |
| C43, C52 | simulation by induction on the history; the client is an arbitrary adaptive strategy |
| C44 | type system for the leakage language, sound for traces; the value computed equals the functional model |
| C45 | monotonicity of rejection sampling in the budget |
| C50, C51 | bijections byte strings <-> 12-bit candidates / 2 eta-bit fields; counting over tuples by induction |
| C53 | relational induction over pairs of programs: same observations, related results; for the converse, the lookups of one program determine its result |
| C55 | Markov's inequality with weight 4 on rejected candidates: a product over candidates, computed by induction on tuples; union bound over the matrix entries |
| C56 | the noise is a linear form in the CBD fields of s and e; exponential Markov inequality: the weight factors over the coefficients, evaluated for the best base a/b; given y, the coefficient of e1 + c_u depends on one field of e1, maximised over all 3329 values of A^T y; final comparison by rounded-up fixed-point powers |
| C57, C58 | primality of 2^255 - 19 by a chain of Pocklington certificates; both curves mapped to Edwards curves with a complete addition law, whose associativity is a polynomial identity with a certificate checked by `ring`; the ladder invariant "the two projective points are nQ and (n+1)Q" by induction over the bits, u = 0 apart; on the twist the ladder runs with the sign of z changed |
| C59 | whenever the ML-KEM part agrees so does X-Wing (X25519 commutes), so C56's count bounds X-Wing's |
| C60, C61 | as C54 and C53, one layer up; the two runs may use different hash functions, X25519 functions and RNGs |
| C62, C63 | primality of the four moduli by Pocklington certificates; the group law of a Weierstrass curve over any field of characteristic other than 2: the slope of a line satisfies two equations valid for chords and tangents alike, in which associativity is one identity checked by `field`, apart from the cases with opposite or collinear points; transfer to integers modulo p |
| C64 | for a fixed u before noise, at most 15 of the 16 (d_u = 10) or 10 of the 16 (d_u = 11) outcomes of one coefficient of e1 compress to a given value; product over the 256 k coefficients |
| C65 | decapsulation as decryption followed by encapsulation; the case of zero noise is computed at the level of the specification |
| C66 | l and l' by Pocklington certificates; in a finite commutative group the sum of all elements shows that the size kills every point; points of order 8 and l (4 and l' on the twist, by running the ladder) make the sizes multiples of 8 l and 4 l'; every u but 0 belongs to two points of exactly one of the curves, so the sizes add up to 2p + 2 = 8 l + 4 l' |
| C67, C68 | explicit halving of points: which u have a double with a given u, by non-residues, stops at order 8; the rest of the order is l or l', and clamped scalars are 8 m with m < 2^252 |
| C69 | public keys and ciphertexts as MLWE samples over R_q (NTT isomorphism of C20-C22); adding the encoded message permutes the uniform vectors |
| C70 | the attacker run against the programmed and the unprogrammed hash function agree unless it hits a programmed point (induction on the attacker); each hidden string is independent of the run against the unprogrammed function, so N questions hit it with probability at most N/2^256, except m, for which C69's hybrid is used first |
| C71 | re-indexing the tables of G and J along a bijection (the entries of G at m and of J at Enc(m) exchanged) turns decapsulation into a lookup that needs no secret key, and G(m) into a lookup at Enc(m); it is a bijection of tables because each c has one plaintext. The views differ only if the attacker asks the challenge's m, or an m whose encryption fails to decrypt: the first is bounded by C69's hybrid, the second question by question against the randomness table (N times the failure probability), the failure of the challenge itself by C56 |
| C72 | the attacker against X-Wing is run inside an attacker against ML-KEM-768 that draws the X25519 keys and the table of SHA3-256(label \|\| K \|\| x) itself. With the real K this is the game of X-Wing, unless the attacker asks for the expansion of the seed or another decapsulation meets K; with a random K it shows nothing about the shared secret unless the attacker asks for label \|\| K, and then the real and random shared secrets are exchanged by updating one entry of the table. Both ends are compared by C71 |
| C73 | SHA3-256 at label \|\| ss_M \|\| X25519(sk, u) \|\| u \|\| pk is exchanged with a second table at ss_M \|\| u (the bijection of C71): decapsulation then needs no X25519 secret, only an oracle that recognises its results. The challenge's entry is used elsewhere only by a question that contains the Diffie-Hellman result, or by a decapsulation with the same ML-KEM secret, which C47's case analysis turns into a second preimage |
| C74 | clamped scalars are 8m with 0 < m < 2^252, so m times a point is infinity only on points of order dividing 8 (C66): 8mQ = +-8mR iff 8Q = +-8R; no u other than 0 is on both curves; the attack is one run of the game, averaged |
| C75 | the attacker's run is a tree of questions to the tables of G and J: one per hash question, two per decapsulation. Questions are answered by fresh uniform values unless repeated; each equals the challenge's G(m) with probability 2^-256 (induction over the tree, fixing the answers already given) |
| C76 | union of three events: sigma = r, some matrix entry runs out of XOF output (C55), the noise is too large (C56 for the matrix at hand, which is arbitrary there); outside of them the session succeeds by C01-C04 |
| C77 | as C56 (exponential moments of the noise over the tapes), and the average over the matrix as well: for a fixed y the columns of A^T y are, over the NTT slots where some entry of y is non-zero, uniform, so the moments of the rounding errors of u become averages over all residues; the slots where all of y vanishes are charged separately by counting the y with a given set of zero slots |
| C78 | C71's bound for each choice of the XOF and PRF answers, averaged: the matrix sampled from uniform XOF answers is uniform (every matrix has accepting(2n)(256)^(k^2) tapes, C51), so the LWE gaps average to MLWE gaps; the failure terms average to C77's event, made uniform in the message |
| C79 | the indices are bounded by the constants of the loops (256, 128), by the table length (a successful lookup of zeta bounds k) or by the buffer length (96); a shift amount that does not fit in 16 bits exceeds 127 and panics in the functional model too; any program that does not panic at 16 bits with overflow checks runs identically at every width |
| C80 | n G = infinity by a chain of 290 to 610 additions with given slopes; n prime by Pocklington certificates, and for P-521 one step of elliptic-curve primality proving (a 361-bit prime whose predecessor we could not factor); x^3 + a x + b has no root modulo p (by a Lucas sequence at (p-1)/3 or (p+1)/3), so every x belongs to no point or to two and the number of points is odd; it is a multiple of n and at most 2 p + 1 < 3 n, so it is n. The rest is the theory of a group of prime order. Multiplication of numbers goes through a windowed algorithm, proved equal to `*`, because `coqchk` has no virtual machine |
| C81 | C69's hybrid for the recipient, with the key of the other party held fixed; in its last term the recipient's key is uniform, and one more gap makes it a generated key again, so that the term is the same for both recipients |
| C82 | the game of C82 is C70's game, played with hash functions in which the key of the other party is programmed, unless seeds collide; then C69's hybrid with the attacker as test, C81's last step, and removing the other party's programming (an attacker notices only if it guesses a seed of 32 bytes) |
| C83 | the game of C83 is C82's game with the attacker that adds the X25519 values, unless seeds collide or are guessed, or the attacker hashes the ML-KEM secret; the latter is the answer 1 of a second attacker in C82's game, which C82 compares with the game without a recipient, where that secret is independent of what the attacker sees |
| C84 | a second model of the randomised entry points (`Model/Fallible.v`), in which `fill_bytes` gets the buffer and may panic; case distinction on the draws, then C01, C02, C33 and C34 |
| C85 | each call with its draws becomes a deterministic call of C43's refinement; induction over the history |
| C86 | C52's refinement for the calls without draws; C34's lemmas, split at the second draw, for encapsulation; induction over the history |
| C87 | the comparisons of a vector are those of its coefficients as one list; induction over the coefficients; C08's lemmas for the keys the observer makes |
| C88 | the numbers of a text are those of its parts when something other than a digit lies between; decimal printing by induction on the digits |
| C54 | any program that does not panic with overflow checks runs identically without them; C07 |
| C46-C49 | case analysis on the specification side of C01-C03, C35; collisions are stated for named inputs |

## Findings about the code

These are theorems, not guesses; each is a deliberate or accidental deviation that a user
should know of.

* `EncapsulationKey::from_bytes` performs no modulus check (FIPS 203 section 7.2): it reduces.
  Two encodings can give the same key (C10).
* `DecapsulationKey::from_bytes` performs no hash check (FIPS 203 section 7.3): the stored h is
  used as is (C11). Consequence: keys that share h share secrets across key pairs (C48).
* `==` on X-Wing encapsulation keys compares the X25519 part with x25519-dalek's `==`. If that
  compares points and not bytes, two keys can be `==` and still lead to different shared
  secrets, since the combiner hashes the bytes (C38, C52).
* The X25519 KEM of dhkem returns the all-zero shared secret as a success when the peer's key is
  one of the low-order points (C67); RFC 9180 section 7.1.4 asks implementations to check for
  it. Callers have to call `SharedSecret::was_contributory` themselves.
* An unconditional round trip is false: FIPS 203 has decryption failures, and C05 exhibits them.
* Secret-dependent control flow and addresses (C53): the `if` of `FieldElement::small_reduce`
  (algebra.rs:36-42) shows whether a secret sum is at least q; the `ONES` table lookups of
  `sample_cbd` show every byte of the PRF output, so that the observations of key generation
  determine the secret vector. X-Wing expands its key at every decapsulation, so there one
  decapsulation is enough (C61). Everything else in key generation, encapsulation,
  decapsulation and serialisation shows nothing secret. Parsing a decapsulation key also
  divides secret values by the constant q. These are statements about the source; whether
  the compiler emits branches or divisions is outside the model.
* `==` on decapsulation keys (derived `PartialEq`, kem.rs:23) stops at the first difference, so
  its running time shows how many leading coefficients of the secret vectors agree. Whoever can
  have keys of their choice compared with a secret one finds its secret vector with at most 3329
  comparisons per coefficient (C87). C53 does not cover `==`.
* `{:?}` on a decapsulation key (derived `Debug`, kem.rs:23) prints the secret vector and z in
  full (C88), so a key that gets into a log message is lost.

## Trusted base

* Coq 8.16.1's kernel (type checker and its reduction machines). `coqchk` re-checks all files
  without the virtual machine.
* `Print Assumptions` answers "Closed under the global context" for every property theorem:
  no axiom of the standard library or of our own is used. `theories/Properties/Assumptions.v`
  prints this on every build. The context summary of `coqchk` additionally lists the
  constants of the library file `Coq.ssr.ssrunder` (module-type parameters loaded with `lia`'s
  dependencies); no theorem depends on them.
* Hypotheses of the theorems about parts outside the repository. They are premises, visible
  in the statements:
  `hash_ok`, `rng_ok`, `x25519_ok` (32-byte results; `PublicKey::from` is the base point
  action), `x25519_commutes`, `ec_commutes`. The first three are proved satisfiable by concrete
  instances. RFC 7748's X25519 satisfies `x25519_ok` and `x25519_commutes` (C57), so C58 needs
  neither. The four curves of dhkem satisfy `ec_commutes` (C62): there the premise is that the
  curve crates compute the multiples of SEC 1; C80 also takes scalars from 1 to n - 1 and points
  other than infinity as premises, the invariants of `NonZeroScalar` and `PublicKey`.
* The hand transcription of the Rust code into `Model/`. Mitigated by running the model on
  the repository's ACVP, X-Wing and HPKE (P-256) vectors in `Tests/`, and by mutation tests.
* The reading of FIPS 203, the X-Wing draft, RFC 7748, SEC 1 and SEC 2 in `Spec/`.

The known-answer tests (`Tests/`) are evaluated by the virtual machine when the file is
compiled (`Definition result := Eval vm_compute in ...`, then `result = true`): they validate
the transcription and no theorem depends on them.

## Mutation tests

`seeded/LOG.jsonl` has one line per attempt: a definition of the model is edited in a scratch
copy like a realistic bug, all dependents are rebuilt, every proof that no longer checks is
replaced by `Admitted`, and `Print Assumptions` on each property theorem tells which of them
depend on a broken proof. A mutant none of whose claims fail is a reason to tighten a
theorem; the line records what was done.
