-Q theories Verif

theories/Base/Res.v
theories/Base/Oracles.v
theories/Base/Failing.v
theories/Spec/FIPS202.v
theories/Spec/FIPS203.v
theories/Spec/Domains.v
theories/Spec/Guessing.v
theories/Spec/Numbers.v
theories/Spec/Noise.v
theories/Spec/Session.v
theories/Spec/RFC7748.v
theories/Spec/Curve25519.v
theories/Spec/SEC1.v
theories/Spec/XWing.v
theories/Spec/Randomness.v
theories/Spec/FailingSession.v
theories/Spec/XWingSession.v
theories/Spec/FailingXWing.v
theories/Spec/Leakage.v
theories/Spec/Counting.v
theories/Spec/Random.v
theories/Spec/Lwe.v
theories/Spec/Attacker.v
theories/Spec/Tables.v
theories/Spec/RandomLwe.v
theories/Spec/Hybrid.v
theories/Spec/Solver.v
theories/Spec/Ops.v
theories/Model/Machine.v
theories/Model/Util.v
theories/Model/Algebra.v
theories/Model/Compress.v
theories/Model/Encode.v
theories/Model/Crypto.v
theories/Model/Sample.v
theories/Model/Param.v
theories/Model/Pke.v
theories/Model/Kem.v
theories/Model/KeyEq.v
theories/Model/KeyDebug.v
theories/Model/Traced.v
theories/Model/XWing.v
theories/Model/DhKem.v
theories/Model/Fallible.v
theories/Model/Session.v
theories/Model/FailingSession.v
theories/Model/XWingSession.v
theories/Model/FailingXWing.v
theories/Model/Leaky.v
theories/Model/Ops.v
theories/Model/XWingOps.v
theories/Tests/Hex.v
theories/Tests/Toy.v
theories/Tests/MlKem512.v
theories/Tests/MlKem768.v
theories/Tests/MlKem1024.v
theories/Tests/XWingVectors.v
theories/Tests/P256.v
theories/Proofs/Basics.v
theories/Proofs/Field.v
theories/Proofs/Poly.v
theories/Proofs/CompressProofs.v
theories/Proofs/NttProofs.v
theories/Proofs/NttAlgebra.v
theories/Proofs/EncodeProofs.v
theories/Proofs/VecEncode.v
theories/Proofs/SampleProofs.v
theories/Proofs/PkeProofs.v
theories/Proofs/KemProofs.v
theories/Proofs/HashProofs.v
theories/Proofs/NttDivision.v
theories/Proofs/Inner.v
theories/Proofs/Correctness.v
theories/Proofs/TracedProofs.v
theories/Proofs/XWingProofs.v
theories/Proofs/LeakProofs.v
theories/Proofs/CountProofs.v
theories/Proofs/OpsProofs.v
theories/Proofs/ObliviousProofs.v
theories/Proofs/RevealProofs.v
theories/Proofs/TailProofs.v
theories/Proofs/FailureProofs.v
theories/Proofs/FailureAverage.v
theories/Proofs/FailureNumbers.v
theories/Proofs/Slots.v
theories/Proofs/SlotSums.v
theories/Proofs/MatrixColumn.v
theories/Proofs/MatrixSum.v
theories/Proofs/MatrixAverage.v
theories/Proofs/MatrixNumbers.v
theories/Proofs/UniformMatrix.v
theories/Proofs/LweProofs.v
theories/Proofs/AttackerProofs.v
theories/Proofs/TableProofs.v
theories/Proofs/TreeProofs.v
theories/Proofs/HybridProofs.v
theories/Proofs/SpreadProofs.v
theories/Proofs/Primes.v
theories/Proofs/Edwards.v
theories/Proofs/Montgomery.v
theories/Proofs/X25519Proofs.v
theories/Proofs/Curve25519Proofs.v
theories/Proofs/FastMul.v
theories/Proofs/CurvePrimes.v
theories/Proofs/Torsion.v
theories/Proofs/OrderPrimes.v
theories/Proofs/CurveOrder.v
theories/Proofs/Weierstrass.v
theories/Proofs/PrimeField.v
theories/Proofs/SEC1Proofs.v
theories/Proofs/Sec1Chain.v
theories/Proofs/Sec1Order.v
theories/Proofs/Sec1Reductions.v
theories/Proofs/Ecpp.v
theories/Proofs/Cubic.v
theories/Proofs/Sec1Primes.v
theories/Proofs/Chain_k256.v
theories/Proofs/Chain_p256.v
theories/Proofs/Chain_p384.v
theories/Proofs/Chain_p521.v
theories/Spec/SEC1Orders.v
theories/Proofs/Sec1Sizes.v
theories/Properties/Arithmetic.v
theories/Properties/Coding.v
theories/Properties/Kem.v
theories/Properties/KemCases.v
theories/Properties/Correctness.v
theories/Properties/Sampling.v
theories/Properties/XWing.v
theories/Properties/Dh.v
theories/Properties/X25519.v
theories/Properties/Sec1.v
theories/Properties/Sessions.v
theories/Properties/XWingSessions.v
theories/Properties/Leakage.v
theories/Properties/Budget.v
theories/Properties/Binding.v
theories/Properties/Distribution.v
theories/Properties/Operations.v
theories/Properties/Tail.v
theories/Properties/Failure.v
theories/Properties/Spread.v
theories/Properties/Inverse.v
theories/Properties/LowOrder.v
theories/Properties/XWingFailure.v
theories/Properties/XWingOps.v
theories/Properties/Secrecy.v
theories/Properties/Anonymity.v
theories/Properties/KemSecrecy.v
theories/Properties/KemAnonymity.v
theories/Properties/XWingAnonymity.v
theories/Properties/Randomness.v
theories/Properties/KeyEq.v
theories/Properties/KeyDebug.v
theories/Properties/RandomnessSessions.v
theories/Properties/RandomnessXWing.v
theories/Properties/ActiveSecrecy.v
theories/Properties/ActiveCases.v
theories/Properties/XWingSecrecy.v
theories/Properties/XWingSecrecyCases.v
theories/Properties/XWingDh.v
theories/Properties/XWingDhCases.v
theories/Properties/XWingGap.v
theories/Properties/XWingGapCases.v
theories/Properties/DhMalleable.v
theories/Properties/Sec1Orders.v
theories/Properties/WholeSession.v
theories/Properties/WholeSessionCases.v
theories/Properties/RandomMatrix.v
theories/Properties/RandomMatrixCases.v
theories/Properties/MlweSecrecy.v
theories/Properties/MlweSecrecyCases.v
theories/Properties/IndexWidth.v
theories/Properties/Assumptions.v
