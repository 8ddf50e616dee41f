{
 "claims": [
  {
   "property": "C01",
   "status": "proved",
   "theorems": [
    "C01_number_roundtrip",
    "C01_bits_roundtrip",
    "C01_api",
    "C01_convert",
    "C01_tobits",
    "C01_tobits_negative_size"
   ],
   "note": "Every width and value; C01_api is about the exported functions themselves."
  },
  {
   "property": "C02",
   "status": "proved",
   "theorems": [
    "C02_parameters",
    "C02_block_count",
    "C02_noise",
    "C02_unknown_level",
    "C02_keys",
    "C02_shipped",
    "C02_info",
    "C02_info_same",
    "C02_same",
    "C02_blocks",
    "C02_start"
   ],
   "note": "For every level, unknown ones included; noise standard deviations are compared with the intended reals."
  },
  {
   "property": "C03",
   "status": "proved",
   "theorems": [
    "C03_f64_to_torus",
    "C03_torus_roundtrip",
    "C03_negation",
    "C03_portable"
   ],
   "note": "For every finite float64; C03_portable for every result of an out-of-range conversion."
  },
  {
   "property": "C04",
   "status": "proved",
   "theorems": [
    "C04_bool_roundtrip"
   ],
   "note": "Every dimension, key, mask and noise; the set of noises that flip the bit is exact."
  },
  {
   "property": "C05",
   "status": "proved",
   "theorems": [
    "C05_add",
    "C05_sub",
    "C05_neg",
    "C05_addmul",
    "C05_submul",
    "C05_add_assign",
    "C05_mul",
    "C05_mul_refuted"
   ],
   "note": "Every dimension, key and ciphertext."
  },
  {
   "property": "C06",
   "status": "proved",
   "theorems": [
    "C06_message_roundtrip",
    "C06_margin",
    "C06_noiseless",
    "C06_moduli",
    "C06_modulus_refuted",
    "C06_message_roundtrip_pow2",
    "C06_modulus_zero_panics",
    "C06_modulus_too_big_panics"
   ],
   "note": "Exact for powers of two up to 2^31; for other moduli below 2^20 up to one unit of noise. C06_noiseless: exactly which moduli work without noise; C06_modulus_refuted: M = 32896 does not."
  },
  {
   "property": "C07",
   "status": "proved",
   "theorems": [
    "C07_encoder_roundtrip",
    "C07_encoder_noisy",
    "C07_decode_nearest",
    "C07_portable",
    "C07_encode_pow2",
    "C07_agrees_with_encryption",
    "C07_modulus_zero_panics"
   ],
   "note": "Moduli below 2^20 (powers of two: up to 2^31)."
  },
  {
   "property": "C08",
   "status": "proved",
   "theorems": [
    "C08_not",
    "C08_not_refuted",
    "C08_not_gate"
   ],
   "note": "Refuted for phases exactly 0 and 1/2 (C08_not_refuted); proved for all others."
  },
  {
   "property": "C09",
   "status": "proved",
   "theorems": [
    "C09_constant"
   ],
   "note": "Every key and dimension; false is encoded one unit off -1/8."
  },
  {
   "property": "C10",
   "status": "proved",
   "theorems": [
    "C10_rotate",
    "C10_compose",
    "C10_period",
    "C10_exact_refuted",
    "C10_older"
   ],
   "note": "The exact product is refuted (negated coefficients are off by one); C10_rotate says what is computed."
  },
  {
   "property": "C11",
   "status": "proved",
   "theorems": [
    "C11_alias_refuted",
    "C11_distinct"
   ],
   "note": "Refuted for rotation in place; C11_distinct for distinct buffers."
  },
  {
   "property": "C12",
   "status": "proved",
   "theorems": [
    "C12_decompose",
    "C12_agree"
   ],
   "note": "Both decomposition functions, every base and number of levels with at most 32 bits."
  },
  {
   "property": "C13",
   "status": "proved",
   "theorems": [
    "C13_product_exact"
   ],
   "note": "With exact real arithmetic; the float64 version is C14."
  },
  {
   "property": "C14",
   "status": "proved",
   "theorems": [
    "C14_product_error",
    "C14_key_product_exact",
    "C14_finite",
    "C14_cis_exists"
   ],
   "note": "All degrees 2^4..2^51 and every machine: choice of fused operations, accuracy of cmplx.Exp assumed (mc_ok), out-of-range conversions arbitrary."
  },
  {
   "property": "C15",
   "status": "proved",
   "theorems": [
    "C15_roundtrip"
   ],
   "note": "Float64, every degree up to 2^51 and every polynomial."
  },
  {
   "property": "C16",
   "status": "proved",
   "theorems": [
    "C16_in_bounds",
    "C16_other_degrees"
   ],
   "note": "Every arithmetic; other degrees panic in the constructor."
  },
  {
   "property": "C17",
   "status": "proved",
   "theorems": [
    "C17_roundtrip",
    "C17_phase"
   ],
   "note": "Float64 and exact arithmetic through one arithmetic parameter."
  },
  {
   "property": "C18",
   "status": "proved",
   "theorems": [
    "C18_extract",
    "C18_assign_same"
   ],
   "note": "Exact up to one unit per key bit, because the code negates by complement."
  },
  {
   "property": "C19",
   "status": "proved",
   "theorems": [
    "C19_bootstrap_iff",
    "C19_bootstrap_refuted",
    "C19_extract2_refuted",
    "C19_works_iff"
   ],
   "note": "Refuted: both panic at every shipped level. C19_works_iff and C19_bootstrap_iff say for which sizes they would work."
  },
  {
   "property": "C20",
   "status": "proved",
   "theorems": [
    "C20_product",
    "C20_product_trgsw",
    "C20_worst"
   ],
   "note": "The error of a given run is a hypothesis of C20_product; C20_worst bounds it for every run in float64."
  },
  {
   "property": "C21",
   "status": "proved",
   "theorems": [
    "C21_cmux",
    "C21_cmux_trgsw",
    "C21_second_operand_lost"
   ],
   "note": "C21_second_operand_lost: the scratch buffer passed as second operand is overwritten."
  },
  {
   "property": "C22",
   "status": "proved",
   "theorems": [
    "C22_rotate",
    "C22_exponent",
    "C22_step_noise"
   ],
   "note": "Noise is that of the run (sum of the steps), bounded by C20_worst."
  },
  {
   "property": "C23",
   "status": "proved",
   "theorems": [
    "C23_same"
   ],
   "note": "Equality of results, not only of phases."
  },
  {
   "property": "C24",
   "status": "proved",
   "theorems": [
    "C24_keyswitch",
    "C24_assign_same",
    "C24_generated_keys"
   ],
   "note": "C24_generated_keys ties it to keys made by the key generator."
  },
  {
   "property": "C25",
   "status": "proved",
   "theorems": [
    "C25_ksk_schedules",
    "C25_bsk_schedules"
   ],
   "note": "Every interleaving of the goroutines' writes."
  },
  {
   "property": "C26",
   "status": "proved",
   "theorems": [
    "C26_bootstrap",
    "C26_noise_bound"
   ],
   "note": "Run noise as hypothesis, and its worst-case bound in float64."
  },
  {
   "property": "C27",
   "status": "proved",
   "theorems": [
    "C27_gates",
    "C27_mux"
   ],
   "note": "All ten gates and MUX, for all input noises within the margin."
  },
  {
   "property": "C28",
   "status": "proved",
   "theorems": [
    "C28_circuits",
    "C28_circuits_float64"
   ],
   "note": "By induction on the circuit; C28_circuits_float64 needs no assumption on the run."
  },
  {
   "property": "C29",
   "status": "proved",
   "theorems": [
    "C29_adder",
    "C29_adder_float64"
   ],
   "note": "Any number of bits."
  },
  {
   "property": "C30",
   "status": "proved",
   "theorems": [
    "C30_batch",
    "C30_truth",
    "C30_truth_float64",
    "C30_xnor_refuted",
    "C30_reuse_refuted"
   ],
   "note": "BatchXNOR computes XOR: C30_xnor_refuted. Reusing one evaluator in a batch: C30_reuse_refuted."
  },
  {
   "property": "C31",
   "status": "proved",
   "theorems": [
    "C31_schedules",
    "C31_no_reuse_possible",
    "C31_reuse_refuted",
    "C31_reuse_levels"
   ],
   "note": "Every schedule; C31_reuse_refuted for evaluators that serve two goroutines."
  },
  {
   "property": "C32",
   "status": "proved",
   "theorems": [
    "C32_lifetime",
    "C32_reset",
    "C32_user_buffers"
   ],
   "note": "Which buffers stay valid, for every later sequence of calls."
  },
  {
   "property": "C33",
   "status": "proved",
   "theorems": [
    "C33_bootstrap",
    "C33_bootstrap_assign",
    "C33_rotate",
    "C33_programs",
    "C33_product",
    "C33_cmux"
   ],
   "note": "Results do not depend on what the evaluator did before."
  },
  {
   "property": "C34",
   "status": "proved",
   "theorems": [
    "C34_copy",
    "C34_refuted"
   ],
   "note": "Refuted: a copy's decomposer has one level, so its bootstraps panic; C34_copy says what a copy shares and owns."
  },
  {
   "property": "C35",
   "status": "proved",
   "theorems": [
    "C35_works",
    "C35_sizes",
    "C35_message_refuted",
    "C35_smaller_refuted"
   ],
   "note": "Gates work at 128 bit and Uint1 only; the refutations show what happens at the other levels."
  },
  {
   "property": "C36",
   "status": "proved",
   "theorems": [
    "C36_alone",
    "C36_separate",
    "C36_ends",
    "C36_turns",
    "C36_circuits_float64",
    "C36_start",
    "C36_refuted",
    "C36_refuted_float64"
   ],
   "note": "Separate evaluators: every schedule. Shared evaluator: refuted."
  },
  {
   "property": "C37",
   "status": "proved",
   "theorems": [
    "C37_layout",
    "C37_window",
    "C37_full",
    "C37_custom",
    "C37_modulus_N_refuted",
    "C37_copy",
    "C37_copy_from",
    "C37_clear"
   ],
   "note": "C37_modulus_N_refuted: with modulus N the table is off by one."
  },
  {
   "property": "C38",
   "status": "proved",
   "theorems": [
    "C38_lut",
    "C38_lut_temp",
    "C38_lut_assign",
    "C38_func",
    "C38_func_assign",
    "C38_message",
    "C38_message_pow2",
    "C38_rounding",
    "C38_noise_bound",
    "C38_message_float64"
   ],
   "note": "Run noise as hypothesis, and C38_message_float64 without it."
  },
  {
   "property": "C39",
   "status": "proved",
   "theorems": [
    "C39_nibble_adder",
    "C39_nibble_adder_float64"
   ],
   "note": "Every pair of bytes and both carries."
  },
  {
   "property": "C40",
   "status": "proved",
   "theorems": [
    "C40_modswitch",
    "C40_portable"
   ],
   "note": "Every table size 2^k and torus value; C40_portable for every machine."
  },
  {
   "property": "C41",
   "status": "proved",
   "theorems": [
    "C41_public_key",
    "C41_below_eighth",
    "C41_total"
   ],
   "note": "Every public key, key pair and message; the noise sum is that of the drawn subset."
  },
  {
   "property": "C42",
   "status": "proved",
   "theorems": [
    "C42_symmetric",
    "C42_asymmetric",
    "C42_shipped",
    "C42_run",
    "C42_run_bit"
   ],
   "note": "Both kinds of re-encryption key, every shipped level."
  },
  {
   "property": "C43",
   "status": "proved",
   "theorems": [
    "C43_phase",
    "C43_message"
   ],
   "note": "Any number of hops."
  },
  {
   "property": "C44",
   "status": "proved",
   "theorems": [
    "C44_symmetric",
    "C44_asymmetric"
   ],
   "note": "Exactly which bases and lengths panic."
  },
  {
   "property": "C45",
   "status": "proved",
   "theorems": [
    "C45_bit_vectors",
    "C45_bit_vectors_roundtrip"
   ],
   "note": "Every length."
  },
  {
   "property": "C46",
   "status": "proved",
   "theorems": [
    "C46_contents",
    "C46_trgsw_rows",
    "C46_no_ksk"
   ],
   "note": "Row by row, for every key and noise."
  },
  {
   "property": "C47",
   "status": "proved",
   "theorems": [
    "C47_refuted",
    "C47_noiseless",
    "C47_rounding",
    "C47_kept"
   ],
   "note": "Refuted at Uint2 to Uint8, whose noise rounds to zero: Attack.v recovers the key; C47_kept says at which levels the noise survives."
  },
  {
   "property": "C48",
   "status": "proved",
   "theorems": [
    "C48_keys_refuted",
    "C48_missing_keys",
    "C48_repeats",
    "C48_same_seed",
    "C48_public_key_refuted"
   ],
   "note": "Refuted: the seeds of math/rand collide modulo 2^31 - 1."
  },
  {
   "property": "C49",
   "status": "proved",
   "theorems": [
    "C49_exact",
    "C49_float64",
    "C49_returns",
    "C49_slices"
   ],
   "note": "Any program over the Fourier API, exact and float64. C49_slices: the calls on buffers, whichever are the same, compute exactly the slice functions the ciphertext operations use."
  },
  {
   "property": "C50",
   "status": "proved",
   "theorems": [
    "C50_program",
    "C50_program_float64",
    "C50_chain_float64",
    "C50_adder_float64"
   ],
   "note": "Any program of linear operations and tables."
  },
  {
   "property": "C51",
   "status": "proved",
   "theorems": [
    "C51_position",
    "C51_capacity",
    "C51_capacity_uint5",
    "C51_uint8_refuted",
    "C51_uint7_refuted",
    "C51_refresh_uint8_refuted",
    "C51_refresh_uint7_refuted"
   ],
   "note": "Refuted at Uint7 and Uint8 for a positive fraction of masks; the capacity of the other levels is proved."
  },
  {
   "property": "C52",
   "status": "proved",
   "theorems": [
    "C52_parties",
    "C52_parties_float64",
    "C52_message_float64"
   ],
   "note": "Any number of parties and hops in one program."
  },
  {
   "property": "C53",
   "status": "proved",
   "theorems": [
    "C53_refuted",
    "C53_key",
    "C53_chain",
    "C53_decryption"
   ],
   "note": "Refuted: chosen ciphertexts through a proxy reveal the delegator's key."
  },
  {
   "property": "C54",
   "status": "proved",
   "theorems": [
    "C54_rotations",
    "C54_new",
    "C54_fourth_refuted",
    "C54_manager",
    "C54_aligned",
    "C54_memory_refuted",
    "C54_pool_memory",
    "C54_clear",
    "C54_clear_short",
    "C54_ring",
    "C54_reset",
    "C54_numbered",
    "C54_copy_in",
    "C54_names",
    "C54_names_differ",
    "C54_log2"
   ],
   "note": "C54_fourth_refuted: an operand that is the fourth last result is overwritten while read; C54_memory_refuted: the reported memory is too large."
  },
  {
   "property": "C55",
   "status": "proved",
   "theorems": [
    "C55_keys",
    "C55_gates",
    "C55_gates_float64",
    "C55_line",
    "C55_pbs",
    "C55_pbs_float64",
    "C55_add",
    "C55_add_float64",
    "C55_reencryption",
    "C55_reencryption_fits"
   ],
   "note": "The example programs as written, for every input they accept."
  },
  {
   "property": "C56",
   "status": "proved",
   "theorems": [
    "C56_noise",
    "C56_mean_square",
    "C56_one_hop",
    "C56_chain",
    "C56_public_key",
    "C56_public_key_128",
    "C56_asymmetric_128",
    "C56_symmetric_128",
    "C56_many",
    "C56_many_bits",
    "C56_many_messages",
    "C56_many_symmetric_128"
   ],
   "note": "Counting over coin tosses; for the noise of a concrete key, with the mean square of the noise as the measure. C56_many, C56_many_bits, C56_many_messages: one set of keys for a list of ciphertexts; C56_many_symmetric_128 at the 128-bit level."
  },
  {
   "property": "C57",
   "status": "proved",
   "theorems": [
    "C57_bootstrap",
    "C57_many",
    "C57_cut_worst",
    "C57_gate",
    "C57_lut",
    "C57_gate_128"
   ],
   "note": "Counting over the signs of the cloud key's noise."
  },
  {
   "property": "C58",
   "status": "proved",
   "theorems": [
    "C58_same_ring",
    "C58_ring_sizes",
    "C58_rotation_refuted",
    "C58_batch_refuted",
    "C58_gates_refuted"
   ],
   "note": "Refuted when ring sizes differ; C58_same_ring when they agree."
  },
  {
   "property": "C59",
   "status": "proved",
   "theorems": [
    "C59_alone",
    "C59_separate",
    "C59_ends",
    "C59_turns",
    "C59_messages",
    "C59_messages_float64",
    "C59_start",
    "C59_refuted",
    "C59_refuted_float64"
   ],
   "note": "Separate evaluators: every schedule. Shared evaluator: refuted."
  },
  {
   "property": "C60",
   "status": "proved",
   "theorems": [
    "C60_roundtrip",
    "C60_bool",
    "C60_noisy",
    "C60_wrapping",
    "C60_refuted",
    "C60_bootstrap",
    "C60_custom",
    "C60_too_fine",
    "C60_too_coarse"
   ],
   "note": "The round trip, its noise margins and the custom-scale bootstrap are proved; C60_refuted: for a scale such as 1/3 with M = 2 message 0 is lost to noise -1."
  },
  {
   "property": "C61",
   "status": "proved",
   "theorems": [
    "C61_program",
    "C61_program_float64",
    "C61_bits",
    "C61_to_bit_float64",
    "C61_to_message_float64"
   ],
   "note": "Complete for programs on one evaluator; the ciphertexts are different buffers, none of them the gates' test vector."
  },
  {
   "property": "C62",
   "status": "proved",
   "theorems": [
    "C62_alone",
    "C62_separate",
    "C62_ends",
    "C62_turns",
    "C62_messages",
    "C62_messages_float64",
    "C62_start",
    "C62_refuted"
   ],
   "note": "Complete for goroutines with an evaluator each; refuted for a gate and a programmable bootstrap on one evaluator.  Allocation and the atomicity of single accesses are as for C36."
  },
  {
   "property": "C63",
   "status": "proved",
   "theorems": [
    "C63_parties",
    "C63_parties_float64"
   ],
   "note": "Complete for parties of one parameter set in one process with one evaluator; the desks' buffers are different from each other and from the test vectors, as they are after any program that starts with empty desks."
  },
  {
   "property": "C64",
   "status": "proved",
   "theorems": [
    "C64_form",
    "C64_dummy_refuted"
   ],
   "note": "NewTRLWELv1FFT proved; NewTRLWELv1FFTDummy's slices are twice too long, so using it as an output panics (_refuted)."
  },
  {
   "property": "C65",
   "status": "proved",
   "theorems": [
    "C65_program",
    "C65_program_float64",
    "C65_start",
    "C65_adder_float64"
   ],
   "note": "C65_program for any arithmetic with run-specific noise, C65_program_float64 with worst-case noise, C65_start links fresh encryptions, C65_adder_float64 adds numbers in any base; demo with moduli 20, 12, 4, 2 and a decimal sum."
  },
  {
   "property": "C66",
   "status": "proved",
   "theorems": [
    "C66_total",
    "C66_bootstrap",
    "C66_same",
    "C66_honest",
    "C66_honest_float64",
    "C66_keys",
    "C66_join"
   ],
   "note": "C66_total and C66_bootstrap: no panic and no foreign buffer changed for arbitrary contents; C66_same: results depend on the client's own inputs only; C66_honest and C66_honest_float64: correct results after any history; C66_keys: generated keys have the shape; C66_join: a client can join at any time. Case: a key of NaN, then an honest program that decrypts."
  },
  {
   "property": "C67",
   "status": "proved",
   "theorems": [
    "C67_separate",
    "C67_ends",
    "C67_turns",
    "C67_client",
    "C67_honest",
    "C67_honest_float64",
    "C67_start"
   ],
   "note": "C67_separate: no panic, every client gets what it gets alone, foreign buffers unchanged; C67_ends and C67_turns: no schedule gets stuck and complete schedules exist; C67_client: an honest client meets the hypotheses; C67_honest and C67_honest_float64: its results decrypt correctly under every schedule; C67_start: any requests can be served so. Case: a key of NaN in one goroutine, a mixed program of bits and messages in the other."
  },
  {
   "property": "C68",
   "status": "proved",
   "theorems": [
    "C68_short_values",
    "C68_short_gates",
    "C68_short_bootstraps",
    "C68_copy_refuted",
    "C68_long_values",
    "C68_long_gates",
    "C68_larger_refuted",
    "C68_short_key",
    "C68_long_key",
    "C68_short_cloud_key",
    "C68_short_cloud_key_gates",
    "C68_smaller_level",
    "C68_long_cloud_key",
    "C68_long_cloud_key_gates"
   ],
   "note": "C68_short_values, C68_short_gates, C68_short_bootstraps: a short ciphertext panics in every operand position; C68_copy_refuted: Copy accepts it and pads with zeros; C68_long_values, C68_long_gates: only the first n+1 entries of a long one matter; C68_larger_refuted: so encryptions of true and false of a larger dimension become indistinguishable. Cases: an encryption of dimension 3 at dimensions 5 and 2. Keys: C68_short_key, C68_long_key, C68_short_cloud_key, C68_short_cloud_key_gates, C68_smaller_level, C68_long_cloud_key, C68_long_cloud_key_gates."
  },
  {
   "property": "C69",
   "status": "proved",
   "theorems": [
    "C69_flight",
    "C69_histories",
    "C69_possible",
    "C69_bits",
    "C69_bits_float64",
    "C69_alone",
    "C69_refuted",
    "C69_others",
    "C69_others_bits",
    "C69_others_bits_float64",
    "C69_others_progress",
    "C69_others_next",
    "C69_others_schedules",
    "C69_others_histories"
   ],
   "note": "C69_flight: no panic, nothing outside the pool changes, and without reuse every finished result is right at every moment; C69_histories: the states after any batches are among the starting states; C69_possible: such a schedule exists for every flight; C69_bits, C69_bits_float64: what each user's batch gate returns then decrypts right; C69_alone: a batch of one is always right alone; C69_refuted: but beside another user's batch of one its result can be replaced by the other user's. C69_others, C69_others_bits, C69_others_bits_float64: the same when batches are called at any time during the flight, with arguments computed since it began, other code runs between the events and the pool loses evaluators; C69_others_progress, C69_others_next: goroutines and further calls can always finish on an evaluator of their own; C69_others_schedules, C69_others_histories: the schedules and starting states of C69_flight are among these. Cases: a bootstrap of what another returned in the same flight; two users with different keys at the tiny set, and at its variant of even dimension."
  },
  {
   "property": "C70",
   "status": "proved",
   "theorems": [
    "C70_event",
    "C70_enabled",
    "C70_turns",
    "C70_finish",
    "C70_right",
    "C70_batch",
    "C70_gate"
   ],
   "note": "C70_event: every event lowers the number of events left by one, that of its own goroutine only, and none are left exactly when all goroutines have finished; C70_enabled: an unfinished goroutine always has an event, which does not panic; C70_turns: a goroutine has finished exactly when it has run as often as it had events before it; C70_finish: schedules are bounded by n + 4 events per goroutine and every moment extends to the end of all; C70_right: and, if no evaluator has been handed out twice so far, to an end at which every result is right; C70_batch: every partial schedule of a batch alone extends to one with which it returns; C70_gate: the same for every batch gate, whose preparation never fails. Scheduler fairness is not modelled. Cases: two users' goroutines and a batch of two ciphertexts at the tiny set."
  }
 ]
}