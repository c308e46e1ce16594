(** What the property theorems rest on.  Each file's theorems are used in one
    proof of [True], so that one [Print Assumptions] per file covers all of
    them.  The answers, printed when this file is compiled, are all "Closed
    under the global context": no axiom is used. *)
From Verif.Properties Require ActiveCases.
From Verif.Properties Require ActiveSecrecy.
From Verif.Properties Require Anonymity.
From Verif.Properties Require Arithmetic.
From Verif.Properties Require Binding.
From Verif.Properties Require Budget.
From Verif.Properties Require Coding.
From Verif.Properties Require Correctness.
From Verif.Properties Require Dh.
From Verif.Properties Require DhMalleable.
From Verif.Properties Require Distribution.
From Verif.Properties Require Failure.
From Verif.Properties Require IndexWidth.
From Verif.Properties Require Inverse.
From Verif.Properties Require Kem.
From Verif.Properties Require KemAnonymity.
From Verif.Properties Require KemCases.
From Verif.Properties Require KemSecrecy.
From Verif.Properties Require KeyDebug.
From Verif.Properties Require KeyEq.
From Verif.Properties Require Leakage.
From Verif.Properties Require LowOrder.
From Verif.Properties Require MlweSecrecy.
From Verif.Properties Require MlweSecrecyCases.
From Verif.Properties Require Operations.
From Verif.Properties Require RandomMatrix.
From Verif.Properties Require RandomMatrixCases.
From Verif.Properties Require Randomness.
From Verif.Properties Require RandomnessSessions.
From Verif.Properties Require RandomnessXWing.
From Verif.Properties Require Sampling.
From Verif.Properties Require Sec1.
From Verif.Properties Require Sec1Orders.
From Verif.Properties Require Secrecy.
From Verif.Properties Require Sessions.
From Verif.Properties Require Spread.
From Verif.Properties Require Tail.
From Verif.Properties Require WholeSession.
From Verif.Properties Require WholeSessionCases.
From Verif.Properties Require X25519.
From Verif.Properties Require XWing.
From Verif.Properties Require XWingAnonymity.
From Verif.Properties Require XWingDh.
From Verif.Properties Require XWingDhCases.
From Verif.Properties Require XWingFailure.
From Verif.Properties Require XWingGap.
From Verif.Properties Require XWingGapCases.
From Verif.Properties Require XWingOps.
From Verif.Properties Require XWingSecrecy.
From Verif.Properties Require XWingSecrecyCases.
From Verif.Properties Require XWingSessions.

Definition ActiveCases_theorems : True.
Proof.
  pose proof Verif.Properties.ActiveCases.C71_numbers.
  exact I.
Defined.
Print Assumptions ActiveCases_theorems.

Definition ActiveSecrecy_theorems : True.
Proof.
  pose proof Verif.Properties.ActiveSecrecy.C71_active.
  pose proof Verif.Properties.ActiveSecrecy.C71_failure.
  exact I.
Defined.
Print Assumptions ActiveSecrecy_theorems.

Definition Anonymity_theorems : True.
Proof.
  pose proof Verif.Properties.Anonymity.C81_hybrid.
  pose proof Verif.Properties.Anonymity.C81_anonymous.
  pose proof Verif.Properties.Anonymity.C81_bound.
  exact I.
Defined.
Print Assumptions Anonymity_theorems.

Definition Arithmetic_theorems : True.
Proof.
  pose proof Verif.Properties.Arithmetic.C18_field_arithmetic.
  pose proof Verif.Properties.Arithmetic.C18_barrett_reduce.
  pose proof Verif.Properties.Arithmetic.C18_base_case_multiply.
  pose proof Verif.Properties.Arithmetic.C19_ntt_evaluates.
  pose proof Verif.Properties.Arithmetic.C19_ntt_closed_form.
  pose proof Verif.Properties.Arithmetic.C19_points.
  pose proof Verif.Properties.Arithmetic.C20_ntt_inverse_ntt.
  pose proof Verif.Properties.Arithmetic.C20_ntt_ntt_inverse.
  pose proof Verif.Properties.Arithmetic.C21_ntt_mul_is_ring_mul.
  pose proof Verif.Properties.Arithmetic.C21_ntt_add_is_ring_add.
  pose proof Verif.Properties.Arithmetic.C22_dot_product.
  pose proof Verif.Properties.Arithmetic.C22_matrix_product.
  pose proof Verif.Properties.Arithmetic.C22_vector_add.
  pose proof Verif.Properties.Arithmetic.C22_dot_is_ring_inner_product.
  exact I.
Defined.
Print Assumptions Arithmetic_theorems.

Definition Binding_theorems : True.
Proof.
  pose proof Verif.Properties.Binding.C46_encapsulation.
  pose proof Verif.Properties.Binding.C46_embedded.
  pose proof Verif.Properties.Binding.C47_decapsulation.
  pose proof Verif.Properties.Binding.C47_ciphertext.
  pose proof Verif.Properties.Binding.C47_generated_keys.
  pose proof Verif.Properties.Binding.C48_unchecked_hash.
  pose proof Verif.Properties.Binding.C49_decapsulation.
  pose proof Verif.Properties.Binding.C49_ciphertext.
  exact I.
Defined.
Print Assumptions Binding_theorems.

Definition Budget_theorems : True.
Proof.
  pose proof Verif.Properties.Budget.C45_generate.
  pose proof Verif.Properties.Budget.C45_encapsulate.
  pose proof Verif.Properties.Budget.C45_decapsulate.
  pose proof Verif.Properties.Budget.C45_generate_terminates.
  pose proof Verif.Properties.Budget.C45_encapsulate_terminates.
  pose proof Verif.Properties.Budget.C45_decapsulate_terminates.
  pose proof Verif.Properties.Budget.C45_generated_keys_work.
  exact I.
Defined.
Print Assumptions Budget_theorems.

Definition Coding_theorems : True.
Proof.
  pose proof Verif.Properties.Coding.C23_compress.
  pose proof Verif.Properties.Coding.C23_compress_poly.
  pose proof Verif.Properties.Coding.C23_compress_vec.
  pose proof Verif.Properties.Coding.C24_decompress.
  pose proof Verif.Properties.Coding.C24_decompress_canonical.
  pose proof Verif.Properties.Coding.C24_decompress_poly.
  pose proof Verif.Properties.Coding.C25_compress_decompress.
  pose proof Verif.Properties.Coding.C25_compress_decompress_poly.
  pose proof Verif.Properties.Coding.C25_decompress_compress_error.
  pose proof Verif.Properties.Coding.C25_decompress_compress_error_poly.
  pose proof Verif.Properties.Coding.C25_d12_not_injective.
  pose proof Verif.Properties.Coding.C26_encode_bits.
  pose proof Verif.Properties.Coding.C26_encode_is_ByteEncode.
  pose proof Verif.Properties.Coding.C26_encode_vec.
  pose proof Verif.Properties.Coding.C27_decode_fields.
  pose proof Verif.Properties.Coding.C27_decode_is_ByteDecode.
  pose proof Verif.Properties.Coding.C27_decode_vec.
  pose proof Verif.Properties.Coding.C28_decode_encode.
  pose proof Verif.Properties.Coding.C28_encode_decode.
  pose proof Verif.Properties.Coding.C28_encode_decode_12.
  pose proof Verif.Properties.Coding.C28_encode_injective.
  pose proof Verif.Properties.Coding.C28_vec_decode_encode.
  pose proof Verif.Properties.Coding.C28_vec_encode_decode.
  pose proof Verif.Properties.Coding.C32_flatten.
  pose proof Verif.Properties.Coding.C32_unflatten.
  pose proof Verif.Properties.Coding.C32_unflatten_ref.
  pose proof Verif.Properties.Coding.C32_flatten_unflatten.
  pose proof Verif.Properties.Coding.C32_unflatten_flatten.
  pose proof Verif.Properties.Coding.C32_truncate.
  exact I.
Defined.
Print Assumptions Coding_theorems.

Definition Correctness_theorems : True.
Proof.
  pose proof Verif.Properties.Correctness.C04_kpke.
  pose proof Verif.Properties.Correctness.C04_round_trip.
  pose proof Verif.Properties.Correctness.C04_norm_bound.
  pose proof Verif.Properties.Correctness.C05_no_unconditional_round_trip.
  exact I.
Defined.
Print Assumptions Correctness_theorems.

Definition Dh_theorems : True.
Proof.
  pose proof Verif.Properties.Dh.C40_ecdh.
  pose proof Verif.Properties.Dh.C40_x25519.
  pose proof Verif.Properties.Dh.C40_needs_commutation.
  pose proof Verif.Properties.Dh.C41_ecdh.
  pose proof Verif.Properties.Dh.C41_x25519.
  pose proof Verif.Properties.Dh.C41_keypair.
  pose proof Verif.Properties.Dh.C41_x25519_keypair.
  pose proof Verif.Properties.Dh.C41_decapsulate.
  pose proof Verif.Properties.Dh.C42_wrappers.
  pose proof Verif.Properties.Dh.C42_surjective.
  exact I.
Defined.
Print Assumptions Dh_theorems.

Definition DhMalleable_theorems : True.
Proof.
  pose proof Verif.Properties.DhMalleable.C74_same_secret.
  pose proof Verif.Properties.DhMalleable.C74_independent.
  pose proof Verif.Properties.DhMalleable.C74_x25519.
  pose proof Verif.Properties.DhMalleable.C74_ecdh.
  pose proof Verif.Properties.DhMalleable.C74_attack.
  pose proof Verif.Properties.DhMalleable.C74_xwing.
  exact I.
Defined.
Print Assumptions DhMalleable_theorems.

Definition Distribution_theorems : True.
Proof.
  pose proof Verif.Properties.Distribution.C50_binomial.
  pose proof Verif.Properties.Distribution.C50_support.
  pose proof Verif.Properties.Distribution.C51_uniform.
  pose proof Verif.Properties.Distribution.C51_exact.
  pose proof Verif.Properties.Distribution.C51_all_occur.
  exact I.
Defined.
Print Assumptions Distribution_theorems.

Definition Failure_theorems : True.
Proof.
  pose proof Verif.Properties.Failure.C56_every_encryption.
  pose proof Verif.Properties.Failure.C56_kpke.
  pose proof Verif.Properties.Failure.C56_kem.
  exact I.
Defined.
Print Assumptions Failure_theorems.

Definition IndexWidth_theorems : True.
Proof.
  pose proof Verif.Properties.IndexWidth.C79_mlkem.
  pose proof Verif.Properties.IndexWidth.C79_xwing.
  exact I.
Defined.
Print Assumptions IndexWidth_theorems.

Definition Inverse_theorems : True.
Proof.
  pose proof Verif.Properties.Inverse.C65_outcome.
  pose proof Verif.Properties.Inverse.C65_accepts.
  pose proof Verif.Properties.Inverse.C65_injective.
  pose proof Verif.Properties.Inverse.C65_inverse.
  pose proof Verif.Properties.Inverse.C65_public.
  exact I.
Defined.
Print Assumptions Inverse_theorems.

Definition Kem_theorems : True.
Proof.
  pose proof Verif.Properties.Kem.C01_keygen.
  pose proof Verif.Properties.Kem.C02_encaps.
  pose proof Verif.Properties.Kem.C02_encaps_from_bytes.
  pose proof Verif.Properties.Kem.C02_encaps_any.
  pose proof Verif.Properties.Kem.C03_decaps.
  pose proof Verif.Properties.Kem.C03_decaps_from_bytes.
  pose proof Verif.Properties.Kem.C06_implicit_rejection.
  pose proof Verif.Properties.Kem.C06_any_byte_difference.
  pose proof Verif.Properties.Kem.C07_generate_deterministic.
  pose proof Verif.Properties.Kem.C07_generate.
  pose proof Verif.Properties.Kem.C07_encapsulate_deterministic.
  pose proof Verif.Properties.Kem.C07_encapsulate.
  pose proof Verif.Properties.Kem.C07_decapsulate.
  pose proof Verif.Properties.Kem.C07_from_bytes.
  pose proof Verif.Properties.Kem.C07_as_bytes.
  pose proof Verif.Properties.Kem.C08_dk_round_trip.
  pose proof Verif.Properties.Kem.C09_ek_round_trip.
  pose proof Verif.Properties.Kem.C09_ek_round_trip_any.
  pose proof Verif.Properties.Kem.C10_ek.
  pose proof Verif.Properties.Kem.C10_dk.
  pose proof Verif.Properties.Kem.C10_no_modulus_check.
  pose proof Verif.Properties.Kem.C11_h_kept.
  pose proof Verif.Properties.Kem.C11_agrees_iff.
  pose proof Verif.Properties.Kem.C11_h_not_checked.
  pose proof Verif.Properties.Kem.C12_generate.
  pose proof Verif.Properties.Kem.C12_encapsulate.
  pose proof Verif.Properties.Kem.C12_generate_draws.
  pose proof Verif.Properties.Kem.C12_encapsulate_draws.
  pose proof Verif.Properties.Kem.C13_sizes.
  pose proof Verif.Properties.Kem.C14_consistent.
  pose proof Verif.Properties.Kem.C13_table_3.
  pose proof Verif.Properties.Kem.C15_drop_erases.
  pose proof Verif.Properties.Kem.C31_byte_eq.
  pose proof Verif.Properties.Kem.C31_compare.
  pose proof Verif.Properties.Kem.C31_select.
  exact I.
Defined.
Print Assumptions Kem_theorems.

Definition KemAnonymity_theorems : True.
Proof.
  pose proof Verif.Properties.KemAnonymity.C82_blind.
  pose proof Verif.Properties.KemAnonymity.C82_anonymous.
  pose proof Verif.Properties.KemAnonymity.C82_bound.
  exact I.
Defined.
Print Assumptions KemAnonymity_theorems.

Definition KemSecrecy_theorems : True.
Proof.
  pose proof Verif.Properties.KemSecrecy.C70_one_hash_function.
  pose proof Verif.Properties.KemSecrecy.C70_passive.
  exact I.
Defined.
Print Assumptions KemSecrecy_theorems.

Definition KeyDebug_theorems : True.
Proof.
  pose proof Verif.Properties.KeyDebug.C88_contents.
  pose proof Verif.Properties.KeyDebug.C88_determines.
  exact I.
Defined.
Print Assumptions KeyDebug_theorems.

Definition KeyEq_theorems : True.
Proof.
  pose proof Verif.Properties.KeyEq.C87_equality.
  pose proof Verif.Properties.KeyEq.C87_position.
  pose proof Verif.Properties.KeyEq.C87_secret.
  exact I.
Defined.
Print Assumptions KeyEq_theorems.

Definition Leakage_theorems : True.
Proof.
  pose proof Verif.Properties.Leakage.C44_oblivious.
  pose proof Verif.Properties.Leakage.C44_trace.
  pose proof Verif.Properties.Leakage.C44_decapsulate.
  exact I.
Defined.
Print Assumptions Leakage_theorems.

Definition LowOrder_theorems : True.
Proof.
  pose proof Verif.Properties.LowOrder.C66_orders.
  pose proof Verif.Properties.LowOrder.C66_base_point.
  pose proof Verif.Properties.LowOrder.C67_points.
  pose proof Verif.Properties.LowOrder.C67_zero.
  pose proof Verif.Properties.LowOrder.C67_encapsulate.
  pose proof Verif.Properties.LowOrder.C67_decapsulate.
  pose proof Verif.Properties.LowOrder.C67_public.
  pose proof Verif.Properties.LowOrder.C67_honest.
  pose proof Verif.Properties.LowOrder.C67_xwing_encapsulate.
  pose proof Verif.Properties.LowOrder.C67_xwing_decapsulate.
  pose proof Verif.Properties.LowOrder.C68_same_secret.
  pose proof Verif.Properties.LowOrder.C68_secrets.
  pose proof Verif.Properties.LowOrder.C68_public_keys.
  pose proof Verif.Properties.LowOrder.C68_encapsulate.
  exact I.
Defined.
Print Assumptions LowOrder_theorems.

Definition MlweSecrecy_theorems : True.
Proof.
  pose proof Verif.Properties.MlweSecrecy.C78_active.
  pose proof Verif.Properties.MlweSecrecy.C78_xwing.
  exact I.
Defined.
Print Assumptions MlweSecrecy_theorems.

Definition MlweSecrecyCases_theorems : True.
Proof.
  pose proof Verif.Properties.MlweSecrecyCases.C78_xwing_rfc7748.
  exact I.
Defined.
Print Assumptions MlweSecrecyCases_theorems.

Definition Operations_theorems : True.
Proof.
  pose proof Verif.Properties.Operations.C54_generate.
  pose proof Verif.Properties.Operations.C54_encapsulate.
  pose proof Verif.Properties.Operations.C54_decapsulate.
  pose proof Verif.Properties.Operations.C54_decaps_key_from_bytes.
  pose proof Verif.Properties.Operations.C54_encaps_key_from_bytes.
  pose proof Verif.Properties.Operations.C54_decaps_key_as_bytes.
  pose proof Verif.Properties.Operations.C54_encaps_key_as_bytes.
  pose proof Verif.Properties.Operations.C53_decapsulate.
  pose proof Verif.Properties.Operations.C53_encapsulate.
  pose proof Verif.Properties.Operations.C53_generate.
  pose proof Verif.Properties.Operations.C53_as_bytes.
  pose proof Verif.Properties.Operations.C53_branch_reveals.
  pose proof Verif.Properties.Operations.C53_lookups_reveal.
  pose proof Verif.Properties.Operations.C53_generate_reveals.
  exact I.
Defined.
Print Assumptions Operations_theorems.

Definition RandomMatrix_theorems : True.
Proof.
  pose proof Verif.Properties.RandomMatrix.C77_kpke.
  pose proof Verif.Properties.RandomMatrix.C77_ml_kem.
  pose proof Verif.Properties.RandomMatrix.C77_xwing.
  exact I.
Defined.
Print Assumptions RandomMatrix_theorems.

Definition RandomMatrixCases_theorems : True.
Proof.
  pose proof Verif.Properties.RandomMatrixCases.C77_xwing_rfc7748.
  exact I.
Defined.
Print Assumptions RandomMatrixCases_theorems.

Definition Randomness_theorems : True.
Proof.
  pose proof Verif.Properties.Randomness.C84_generate.
  pose proof Verif.Properties.Randomness.C84_encapsulate.
  pose proof Verif.Properties.Randomness.C84_xwing_generate.
  pose proof Verif.Properties.Randomness.C84_xwing_encapsulate.
  pose proof Verif.Properties.Randomness.C84_x25519_encapsulate.
  pose proof Verif.Properties.Randomness.C84_x25519_keypair.
  pose proof Verif.Properties.Randomness.C84_ecdh.
  pose proof Verif.Properties.Randomness.C84_buffers.
  pose proof Verif.Properties.Randomness.C84_agree.
  exact I.
Defined.
Print Assumptions Randomness_theorems.

Definition RandomnessSessions_theorems : True.
Proof.
  pose proof Verif.Properties.RandomnessSessions.C85_histories.
  pose proof Verif.Properties.RandomnessSessions.C85_failures.
  exact I.
Defined.
Print Assumptions RandomnessSessions_theorems.

Definition RandomnessXWing_theorems : True.
Proof.
  pose proof Verif.Properties.RandomnessXWing.C86_histories.
  pose proof Verif.Properties.RandomnessXWing.C86_failures.
  exact I.
Defined.
Print Assumptions RandomnessXWing_theorems.

Definition Sampling_theorems : True.
Proof.
  pose proof Verif.Properties.Sampling.C29_is_SampleNTT.
  pose proof Verif.Properties.Sampling.C29_first_256.
  pose proof Verif.Properties.Sampling.C29_result_is_poly.
  pose proof Verif.Properties.Sampling.C29_finishes_iff.
  pose proof Verif.Properties.Sampling.C29_budget_irrelevant.
  pose proof Verif.Properties.Sampling.C30_is_SamplePolyCBD.
  pose proof Verif.Properties.Sampling.C30_range.
  pose proof Verif.Properties.Sampling.C16_entries.
  pose proof Verif.Properties.Sampling.C16_transposed.
  pose proof Verif.Properties.Sampling.C16_transposed_entries.
  pose proof Verif.Properties.Sampling.C16_involutive.
  pose proof Verif.Properties.Sampling.C17_traces_are_the_model.
  pose proof Verif.Properties.Sampling.C17_generate_nonces.
  pose proof Verif.Properties.Sampling.C17_encrypt_nonces.
  pose proof Verif.Properties.Sampling.C17_no_reuse_generate.
  pose proof Verif.Properties.Sampling.C17_no_reuse_encrypt.
  pose proof Verif.Properties.Sampling.C17_generate_pairs.
  exact I.
Defined.
Print Assumptions Sampling_theorems.

Definition Sec1_theorems : True.
Proof.
  pose proof Verif.Properties.Sec1.C62_group.
  pose proof Verif.Properties.Sec1.C62_curves.
  pose proof Verif.Properties.Sec1.C62_multiples.
  pose proof Verif.Properties.Sec1.C62_commutes.
  pose proof Verif.Properties.Sec1.C62_ecdh.
  pose proof Verif.Properties.Sec1.C62_dhkem.
  pose proof Verif.Properties.Sec1.C62_decapsulate.
  pose proof Verif.Properties.Sec1.C63_encoded_point.
  pose proof Verif.Properties.Sec1.C63_length.
  pose proof Verif.Properties.Sec1.C63_field_length.
  pose proof Verif.Properties.Sec1.C62_group_case.
  pose proof Verif.Properties.Sec1.C62_group_needed.
  pose proof Verif.Properties.Sec1.C62_ecdh_case.
  pose proof Verif.Properties.Sec1.C62_dhkem_case.
  pose proof Verif.Properties.Sec1.C63_case.
  exact I.
Defined.
Print Assumptions Sec1_theorems.

Definition Sec1Orders_theorems : True.
Proof.
  pose proof Verif.Properties.Sec1Orders.C80_orders.
  pose proof Verif.Properties.Sec1Orders.C80_points.
  pose proof Verif.Properties.Sec1Orders.C80_no_failure.
  pose proof Verif.Properties.Sec1Orders.C80_public.
  pose proof Verif.Properties.Sec1Orders.C80_encapsulate.
  pose proof Verif.Properties.Sec1Orders.C80_two_scalars.
  pose proof Verif.Properties.Sec1Orders.C80_decapsulate.
  pose proof Verif.Properties.Sec1Orders.C80_secret_keys.
  pose proof Verif.Properties.Sec1Orders.C80_orders_case.
  pose proof Verif.Properties.Sec1Orders.C80_needed.
  pose proof Verif.Properties.Sec1Orders.C80_encapsulate_case.
  exact I.
Defined.
Print Assumptions Sec1Orders_theorems.

Definition Secrecy_theorems : True.
Proof.
  pose proof Verif.Properties.Secrecy.C69_hybrid.
  pose proof Verif.Properties.Secrecy.C69_indistinguishable.
  pose proof Verif.Properties.Secrecy.C69_bound.
  pose proof Verif.Properties.Secrecy.C69_one_way.
  exact I.
Defined.
Print Assumptions Secrecy_theorems.

Definition Sessions_theorems : True.
Proof.
  pose proof Verif.Properties.Sessions.C43_histories.
  pose proof Verif.Properties.Sessions.C43_no_crash.
  pose proof Verif.Properties.Sessions.C43_reparse.
  exact I.
Defined.
Print Assumptions Sessions_theorems.

Definition Spread_theorems : True.
Proof.
  pose proof Verif.Properties.Spread.C64_encrypt.
  pose proof Verif.Properties.Spread.C64_encapsulate.
  pose proof Verif.Properties.Spread.C64_rejects.
  exact I.
Defined.
Print Assumptions Spread_theorems.

Definition Tail_theorems : True.
Proof.
  pose proof Verif.Properties.Tail.C55_tail.
  pose proof Verif.Properties.Tail.C55_total.
  pose proof Verif.Properties.Tail.C55_five_blocks.
  pose proof Verif.Properties.Tail.C55_vanishes.
  pose proof Verif.Properties.Tail.C55_key_generation.
  pose proof Verif.Properties.Tail.C55_key_generation_five_blocks.
  exact I.
Defined.
Print Assumptions Tail_theorems.

Definition WholeSession_theorems : True.
Proof.
  pose proof Verif.Properties.WholeSession.C76_ml_kem.
  pose proof Verif.Properties.WholeSession.C76_xwing.
  exact I.
Defined.
Print Assumptions WholeSession_theorems.

Definition WholeSessionCases_theorems : True.
Proof.
  pose proof Verif.Properties.WholeSessionCases.C76_xwing_rfc7748.
  exact I.
Defined.
Print Assumptions WholeSessionCases_theorems.

Definition X25519_theorems : True.
Proof.
  pose proof Verif.Properties.X25519.C57_group.
  pose proof Verif.Properties.X25519.C57_every_u.
  pose proof Verif.Properties.X25519.C57_scalar_multiplication.
  pose proof Verif.Properties.X25519.C57_composition.
  pose proof Verif.Properties.X25519.C57_commutes.
  pose proof Verif.Properties.X25519.C58_xwing_round_trip.
  pose proof Verif.Properties.X25519.C58_x25519_kem.
  exact I.
Defined.
Print Assumptions X25519_theorems.

Definition XWing_theorems : True.
Proof.
  pose proof Verif.Properties.XWing.C33_encapsulation_key.
  pose proof Verif.Properties.XWing.C33_generate.
  pose proof Verif.Properties.XWing.C33_generate_bytes.
  pose proof Verif.Properties.XWing.C34_encapsulate.
  pose proof Verif.Properties.XWing.C34_draws.
  pose proof Verif.Properties.XWing.C34_safe.
  pose proof Verif.Properties.XWing.C35_decapsulate.
  pose proof Verif.Properties.XWing.C35_bytes.
  pose proof Verif.Properties.XWing.C35_safe.
  pose proof Verif.Properties.XWing.C36_round_trip.
  pose proof Verif.Properties.XWing.C37_ciphertext.
  pose proof Verif.Properties.XWing.C37_encapsulation_key.
  pose proof Verif.Properties.XWing.C37_decapsulation_key.
  pose proof Verif.Properties.XWing.C38_combiner_input.
  pose proof Verif.Properties.XWing.C39_erased.
  exact I.
Defined.
Print Assumptions XWing_theorems.

Definition XWingAnonymity_theorems : True.
Proof.
  pose proof Verif.Properties.XWingAnonymity.C83_blind.
  pose proof Verif.Properties.XWingAnonymity.C83_anonymous.
  pose proof Verif.Properties.XWingAnonymity.C83_bound.
  exact I.
Defined.
Print Assumptions XWingAnonymity_theorems.

Definition XWingDh_theorems : True.
Proof.
  pose proof Verif.Properties.XWingDh.C73_reduction.
  exact I.
Defined.
Print Assumptions XWingDh_theorems.

Definition XWingFailure_theorems : True.
Proof.
  pose proof Verif.Properties.XWingFailure.C59_xwing.
  pose proof Verif.Properties.XWingFailure.C59_xwing_rfc7748.
  exact I.
Defined.
Print Assumptions XWingFailure_theorems.

Definition XWingGap_theorems : True.
Proof.
  pose proof Verif.Properties.XWingGap.C75_second_preimages.
  pose proof Verif.Properties.XWingGap.C75_reduction.
  exact I.
Defined.
Print Assumptions XWingGap_theorems.

Definition XWingOps_theorems : True.
Proof.
  pose proof Verif.Properties.XWingOps.C60_generate_key_pair.
  pose proof Verif.Properties.XWingOps.C60_encapsulation_key.
  pose proof Verif.Properties.XWingOps.C60_encapsulate.
  pose proof Verif.Properties.XWingOps.C60_decapsulate.
  pose proof Verif.Properties.XWingOps.C60_bytes.
  pose proof Verif.Properties.XWingOps.C61_encapsulation_key.
  pose proof Verif.Properties.XWingOps.C61_generate_key_pair.
  pose proof Verif.Properties.XWingOps.C61_decapsulate.
  pose proof Verif.Properties.XWingOps.C61_encapsulate.
  pose proof Verif.Properties.XWingOps.C61_reveals.
  exact I.
Defined.
Print Assumptions XWingOps_theorems.

Definition XWingSecrecy_theorems : True.
Proof.
  pose proof Verif.Properties.XWingSecrecy.C72_reduction.
  pose proof Verif.Properties.XWingSecrecy.C72_numbers.
  exact I.
Defined.
Print Assumptions XWingSecrecy_theorems.

Definition XWingSessions_theorems : True.
Proof.
  pose proof Verif.Properties.XWingSessions.C52_histories.
  pose proof Verif.Properties.XWingSessions.C52_no_crash.
  pose proof Verif.Properties.XWingSessions.C52_reparse.
  pose proof Verif.Properties.XWingSessions.C52_equality.
  exact I.
Defined.
Print Assumptions XWingSessions_theorems.
