{
 "claims": [
  {
   "property": "C01",
   "status": "proved",
   "theorems": [
    "C01_int_encode",
    "C01_int_decode"
   ],
   "note": ""
  },
  {
   "property": "C02",
   "status": "proved",
   "theorems": [
    "C02_vec_codec",
    "C02_vec_decode_domain",
    "C02_fields"
   ],
   "note": ""
  },
  {
   "property": "C03",
   "status": "proved",
   "theorems": [
    "C03_moduli_prime",
    "C03_ops_modular",
    "C03_field_laws",
    "C03_inverse"
   ],
   "note": ""
  },
  {
   "property": "C04",
   "status": "proved",
   "theorems": [
    "C04_nth_root",
    "C04_fields_ok",
    "C04_gen_order"
   ],
   "note": ""
  },
  {
   "property": "C05",
   "status": "proved",
   "theorems": [
    "C05_pow2_helpers",
    "C05_bitrev"
   ],
   "note": ""
  },
  {
   "property": "C06",
   "status": "proved",
   "theorems": [
    "C06_ntt",
    "C06_ntt_argument",
    "C06_ntt_bad_size"
   ],
   "note": ""
  },
  {
   "property": "C07",
   "status": "proved",
   "theorems": [
    "C07_inverse_ntt"
   ],
   "note": ""
  },
  {
   "property": "C08",
   "status": "proved",
   "theorems": [
    "C08_interpolant_unique",
    "C08_poly_eval_batched",
    "C08_poly_eval_batched_rejects"
   ],
   "note": ""
  },
  {
   "property": "C09",
   "status": "proved",
   "theorems": [
    "C09_extend_values",
    "C09_extend_any"
   ],
   "note": ""
  },
  {
   "property": "C10",
   "status": "proved",
   "theorems": [
    "C10_double_and_mul"
   ],
   "note": ""
  },
  {
   "property": "C11",
   "status": "proved",
   "theorems": [
    "C11_poly_arith",
    "C11_poly_eval_total_refuted"
   ],
   "note": "C11_poly_eval_total_refuted: poly_eval raises IndexError on a nonempty all-zero coefficient list."
  },
  {
   "property": "C12",
   "status": "proved",
   "theorems": [
    "C12_poly_interp",
    "C12_poly_interp_rejects"
   ],
   "note": ""
  },
  {
   "property": "C13",
   "status": "proved",
   "theorems": [
    "C13_vec_ops",
    "C13_xor"
   ],
   "note": ""
  },
  {
   "property": "C14",
   "status": "proved",
   "theorems": [
    "C14_share_reconstruct",
    "C14_share_hiding"
   ],
   "note": ""
  },
  {
   "property": "C15",
   "status": "proved",
   "theorems": [
    "C15_turboshake_domain",
    "C15_turboshake_injective",
    "C15_fixed_key_domain",
    "C15_fixed_key_injective"
   ],
   "note": ""
  },
  {
   "property": "C16",
   "status": "proved",
   "theorems": [
    "C16_format_dst_injective",
    "C16_format_dst_domain"
   ],
   "note": ""
  },
  {
   "property": "C17",
   "status": "proved",
   "theorems": [
    "C17_stream",
    "C17_blocks",
    "C17_sigma_injective",
    "C17_turboshake_stream"
   ],
   "note": ""
  },
  {
   "property": "C18",
   "status": "proved",
   "theorems": [
    "C18_rejection_sampling",
    "C18_bound_irrelevant",
    "C18_uniform"
   ],
   "note": ""
  },
  {
   "property": "C19",
   "status": "proved",
   "theorems": [
    "C19_split",
    "C19_fast_forward"
   ],
   "note": ""
  },
  {
   "property": "C20",
   "status": "proved",
   "theorems": [
    "C20_encode_decode",
    "C20_decode_range",
    "C20_decode_linear",
    "C20_too_large",
    "C20_decode_short"
   ],
   "note": ""
  },
  {
   "property": "C21",
   "status": "proved",
   "theorems": [
    "C21_gadget_eval_poly",
    "C21_PolyEval_init"
   ],
   "note": ""
  },
  {
   "property": "C22",
   "status": "proved",
   "theorems": [
    "C22_constructors",
    "C22_Count",
    "C22_Histogram",
    "C22_Sum",
    "C22_SumVec",
    "C22_MultihotCountVec",
    "C22_encode_rejects_refuted"
   ],
   "note": "C22_encode_rejects_refuted: the unqualified claim that encode rejects every out-of-range measurement is false of the code (Histogram.encode(-1) and Sum.encode(-1) succeed); the theorems state exactly what happens."
  },
  {
   "property": "C23",
   "status": "proved",
   "theorems": [
    "C23_Count_rejects",
    "C23_Sum_rejects",
    "C23_Histogram_rejects",
    "C23_SumVec_rejects",
    "C23_MultihotCountVec_rejects"
   ],
   "note": ""
  },
  {
   "property": "C24",
   "status": "proved",
   "theorems": [
    "C24_circuits_ok",
    "C24_run_flp_complete"
   ],
   "note": ""
  },
  {
   "property": "C25",
   "status": "proved",
   "theorems": [
    "C25_query_linear"
   ],
   "note": ""
  },
  {
   "property": "C26",
   "status": "proved",
   "theorems": [
    "C26_soundness",
    "C26_soundness_shares"
   ],
   "note": ""
  },
  {
   "property": "C27",
   "status": "proved",
   "theorems": [
    "C27_prove_length",
    "C27_query_guard",
    "C27_decide_total"
   ],
   "note": ""
  },
  {
   "property": "C28",
   "status": "proved",
   "theorems": [
    "C28_shard",
    "C28_instances"
   ],
   "note": ""
  },
  {
   "property": "C29",
   "status": "proved",
   "theorems": [
    "C29_count",
    "C29_sum",
    "C29_sumvec",
    "C29_multiproof",
    "C29_histogram",
    "C29_multihot"
   ],
   "note": "run_result: the exact aggregate, or ValueError when the derived query randomness of some report is rejected by the FLP, or OutOfFuel when the model's bound on rejection sampling is hit."
  },
  {
   "property": "C30",
   "status": "proved",
   "theorems": [
    "C30_verify_next",
    "C30_binding"
   ],
   "note": ""
  },
  {
   "property": "C31",
   "status": "proved",
   "theorems": [
    "C31_input_share",
    "C31_verifier_share",
    "C31_public_share",
    "C31_verifier_message",
    "C31_shares",
    "C31_agg_param",
    "C31_public_share_refuted"
   ],
   "note": "C31_public_share_refuted: without joint randomness decode_public_share accepts every string."
  },
  {
   "property": "C32",
   "status": "proved",
   "theorems": [
    "C32_single_use"
   ],
   "note": ""
  },
  {
   "property": "C33",
   "status": "proved",
   "theorems": [
    "C33_sum",
    "C33_order",
    "C33_total",
    "C33_unshard"
   ],
   "note": ""
  },
  {
   "property": "C34",
   "status": "proved",
   "theorems": [
    "C34_constructor",
    "C34_gen",
    "C34_eval"
   ],
   "note": ""
  },
  {
   "property": "C35",
   "status": "proved",
   "theorems": [
    "C35_independent",
    "C35_arguments"
   ],
   "note": ""
  },
  {
   "property": "C36",
   "status": "proved",
   "theorems": [
    "C36_pack",
    "C36_pack_unpack",
    "C36_empty_refuted",
    "C36_public_share"
   ],
   "note": "C36_empty_refuted: pack_bits([]) succeeds but unpack_bits(b\"\", 0) raises IndexError."
  },
  {
   "property": "C37",
   "status": "proved",
   "theorems": [
    "C37_constructor",
    "C37_run",
    "C37_exact",
    "C37_level_refuted"
   ],
   "note": "C37_level_refuted: the constructor accepts any BITS but the level is encoded in two bytes, so verify_init fails at every level >= 2^16."
  },
  {
   "property": "C38",
   "status": "proved",
   "theorems": [
    "C38_inner",
    "C38_leaf",
    "C38_sketch"
   ],
   "note": ""
  },
  {
   "property": "C39",
   "status": "proved",
   "theorems": [
    "C39_is_valid",
    "C39_history",
    "C39_unique",
    "C39_bound",
    "C39_negative_refuted"
   ],
   "note": "C39_negative_refuted: with a negative previous level (which the encoding excludes) is_valid slices from the end and admits a parameter that does not refine the previous one."
  },
  {
   "property": "C40",
   "status": "proved",
   "theorems": [
    "C40_codec",
    "C40_errors",
    "C40_encode",
    "C40_short_refuted"
   ],
   "note": "C40_short_refuted: encode_agg_param accepts a prefix of the wrong bit length when the byte counts match, and decoding then returns a padded prefix."
  },
  {
   "property": "C41",
   "status": "proved",
   "theorems": [
    "C41_evaluate",
    "C41_evaluate_total",
    "C41_reveal",
    "C41_message",
    "C41_message_errors",
    "C41_init",
    "C41_release"
   ],
   "note": ""
  },
  {
   "property": "C42",
   "status": "proved",
   "theorems": [
    "C42_input_share",
    "C42_public_share",
    "C42_shares",
    "C42_message"
   ],
   "note": ""
  },
  {
   "property": "C43",
   "status": "proved",
   "theorems": [
    "C43_framing",
    "C43_decode_raises"
   ],
   "note": ""
  },
  {
   "property": "C44",
   "status": "proved",
   "theorems": [
    "C44_ping_pong",
    "C44_prio3",
    "C44_poplar1",
    "C44_tester"
   ],
   "note": ""
  },
  {
   "property": "C45",
   "status": "proved",
   "theorems": [
    "C45_never_raises",
    "C45_rounds_init",
    "C45_rounds",
    "C45_rejects",
    "C45_rejects_helper_init",
    "C45_histories",
    "C45_by_one_refuted"
   ],
   "note": "C45_by_one_refuted: the round number goes up by two per ping_pong_continued call (one message received, one sent), not by one."
  },
  {
   "property": "C46",
   "status": "proved",
   "theorems": [
    "C46_helper_init",
    "C46_continued"
   ],
   "note": ""
  },
  {
   "property": "C47",
   "status": "proved",
   "theorems": [
    "C47_run_daf",
    "C47_one_output_each"
   ],
   "note": ""
  },
  {
   "property": "C48",
   "status": "proved",
   "theorems": [
    "C48_prio3_joint_rand",
    "C48_prio3_refuted"
   ],
   "note": "C48_prio3_refuted: Prio3Count accepts an empty list of verifier shares."
  },
  {
   "property": "C49",
   "status": "proved",
   "theorems": [
    "C49_shard_sizes",
    "C49_init"
   ],
   "note": ""
  },
  {
   "property": "C50",
   "status": "proved",
   "theorems": [
    "C50_soundness",
    "C50_verify_init",
    "C50_zero_proofs_refuted"
   ],
   "note": "C50_zero_proofs_refuted: the constructor accepts num_proofs = 0, and then every measurement share verifies."
  },
  {
   "property": "C51",
   "status": "proved",
   "theorems": [
    "C51_reconstruct",
    "C51_nonzero",
    "C51_aggregate",
    "C51_zero_refuted"
   ],
   "note": "C51_zero_refuted: shamir_unshard raises IndexError on the shares of a zero polynomial."
  },
  {
   "property": "C52",
   "status": "proved",
   "theorems": [
    "C52_sum",
    "C52_order",
    "C52_total",
    "C52_unshard"
   ],
   "note": ""
  },
  {
   "property": "C53",
   "status": "proved",
   "theorems": [
    "C53_sizes",
    "C53_measurement",
    "C53_shard"
   ],
   "note": ""
  },
  {
   "property": "C54",
   "status": "proved",
   "theorems": [
    "C54_verify_init"
   ],
   "note": ""
  },
  {
   "property": "C55",
   "status": "proved",
   "theorems": [
    "C55_run_vdaf",
    "C55_one_output_each",
    "C55_two_parties"
   ],
   "note": ""
  },
  {
   "property": "C56",
   "status": "proved",
   "theorems": [
    "C56_verify_init_total"
   ],
   "note": ""
  },
  {
   "property": "C57",
   "status": "proved",
   "theorems": [
    "C57_privacy"
   ],
   "note": ""
  },
  {
   "property": "C58",
   "status": "proved",
   "theorems": [
    "C58_tags_disjoint",
    "C58_prio3",
    "C58_poplar1",
    "C58_ids"
   ],
   "note": ""
  },
  {
   "property": "C59",
   "status": "proved",
   "theorems": [
    "C59_prio3"
   ],
   "note": ""
  },
  {
   "property": "C60",
   "status": "proved",
   "theorems": [
    "C60_poplar1"
   ],
   "note": ""
  },
  {
   "property": "C61",
   "status": "proved",
   "theorems": [
    "C61_deploy",
    "C61_count",
    "C61_sum",
    "C61_sumvec",
    "C61_histogram",
    "C61_multihot",
    "C61_poplar1"
   ],
   "note": ""
  },
  {
   "property": "C62",
   "status": "proved",
   "theorems": [
    "C62_aggregate",
    "C62_contribution",
    "C62_honest",
    "C62_report"
   ],
   "note": ""
  },
  {
   "property": "C63",
   "status": "proved",
   "theorems": [
    "C63_verifier",
    "C63_view",
    "C63_std"
   ],
   "note": ""
  },
  {
   "property": "C64",
   "status": "proved",
   "theorems": [
    "C64_inner0",
    "C64_inner1",
    "C64_leaf0",
    "C64_leaf1"
   ],
   "note": ""
  },
  {
   "property": "C65",
   "status": "proved",
   "theorems": [
    "C65_query",
    "C65_complete",
    "C65_sound",
    "C65_refuted"
   ],
   "note": "C65_refuted: random choices for which the unit test on Prio3Count raises IndexError."
  },
  {
   "property": "C66",
   "status": "proved",
   "theorems": [
    "C66_padded",
    "C66_script",
    "C66_multiproof",
    "C66_refuted"
   ],
   "note": "C66_refuted: an invalid SumVec measurement and a proof accepted for 6 query values in Field64 where the script's estimate allows 4."
  },
  {
   "property": "C67",
   "status": "proved",
   "theorems": [
    "C67_total",
    "C67_Count",
    "C67_Sum",
    "C67_Histogram",
    "C67_SumVec",
    "C67_MultihotCountVec",
    "C67_script"
   ],
   "note": ""
  },
  {
   "property": "C68",
   "status": "proved",
   "theorems": [
    "C68_aggregate",
    "C68_inner",
    "C68_leaf",
    "C68_honest",
    "C68_mixed"
   ],
   "note": ""
  },
  {
   "property": "C69",
   "status": "proved",
   "theorems": [
    "C69_circuits",
    "C69_languages",
    "C69_average",
    "C69_average_empty",
    "C69_higher_degree",
    "C69_flptest",
    "C69_flptest_run",
    "C69_flptest_insecure"
   ],
   "note": ""
  },
  {
   "property": "C70",
   "status": "proved",
   "theorems": [
    "C70_daf"
   ],
   "note": ""
  },
  {
   "property": "C71",
   "status": "proved",
   "theorems": [
    "C71_check",
    "C71_assertions",
    "C71_generated",
    "C71_Prio3",
    "C71_Poplar1",
    "C71_number_refuted"
   ],
   "note": "C71_number_refuted: a vector with an additional aggregate share passes; the theorem therefore assumes the number of aggregate shares."
  },
  {
   "property": "C72",
   "status": "proved",
   "theorems": [
    "C72_ending",
    "C72_multi_round",
    "C72_run",
    "C72_rejects"
   ],
   "note": ""
  },
  {
   "property": "C73",
   "status": "proved",
   "theorems": [
    "C73_gen",
    "C73_uniform",
    "C73_independent",
    "C73_even"
   ],
   "note": ""
  },
  {
   "property": "C74",
   "status": "proved",
   "theorems": [
    "C74_view",
    "C74_real"
   ],
   "note": ""
  },
  {
   "property": "C75",
   "status": "proved",
   "theorems": [
    "C75_view",
    "C75_std",
    "C75_real"
   ],
   "note": ""
  },
  {
   "property": "C76",
   "status": "proved",
   "theorems": [
    "C76_inner",
    "C76_leaf",
    "C76_offsets"
   ],
   "note": ""
  },
  {
   "property": "C77",
   "status": "proved",
   "theorems": [
    "C77_run",
    "C77_tampered",
    "C77_cases",
    "C77_all_rejected_refuted"
   ],
   "note": "C77_all_rejected_refuted: changes of a wire seed of a proof can go unnoticed at every test point."
  },
  {
   "property": "C78",
   "status": "proved",
   "theorems": [
    "C78_histogram_edits",
    "C78_count_edits",
    "C78_poplar1_edits",
    "C78_gen_rand",
    "C78_count",
    "C78_histogram",
    "C78_failure",
    "C78_bad_message",
    "C78_count_cases",
    "C78_poplar1",
    "C78_poplar1_level0"
   ],
   "note": ""
  },
  {
   "property": "C79",
   "status": "proved",
   "theorems": [
    "C79_arithmetic",
    "C79_ntt_fields",
    "C79_polynomials"
   ],
   "note": "That the tests pass whatever they draw is false of the code, which C79_arithmetic and C79_polynomials state exactly: drawing zero, or the zero polynomial, makes them fail."
  },
  {
   "property": "C80",
   "status": "proved",
   "theorems": [
    "C80_compares",
    "C80_bit_strings",
    "C80_product",
    "C80_run_test",
    "C80_exhaustive",
    "C80_index_encoding",
    "C80_suite"
   ],
   "note": ""
  },
  {
   "property": "C81",
   "status": "proved",
   "theorems": [
    "C81_harness",
    "C81_count",
    "C81_sum",
    "C81_sumvec",
    "C81_histogram",
    "C81_multihot",
    "C81_multiproof",
    "C81_average",
    "C81_higher_degree",
    "C81_flptest"
   ],
   "note": "excused: ValueError only when the query randomness derived from the drawn values is rejected by the FLP; OutOfFuel only when the model's bound on rejection sampling is hit."
  },
  {
   "property": "C82",
   "status": "proved",
   "theorems": [
    "C82_poplar1_case",
    "C82_poplar1",
    "C82_assertions",
    "C82_poplar1_units",
    "C82_daf"
   ],
   "note": ""
  },
  {
   "property": "C83",
   "status": "proved",
   "theorems": [
    "C83_run_flp",
    "C83_gadget",
    "C83_harness",
    "C83_length",
    "C83_suite",
    "C83_tests",
    "C83_always",
    "C83_labels",
    "C83_histogram_lucky",
    "C83_histogram_refuted",
    "C83_others",
    "C83_round_trip"
   ],
   "note": "C83_histogram_refuted: when the vector that the test of Histogram draws and labels False is a unit vector, the test never passes."
  },
  {
   "property": "C84",
   "status": "proved",
   "theorems": [
    "C84_test",
    "C84_both",
    "C84_rejection",
    "C84_vector",
    "C84_prefix",
    "C84_idpf",
    "C84_wrapped",
    "C84_readable",
    "C84_wrapped_refuted",
    "C84_bitrev"
   ],
   "note": "C84_wrapped_refuted: with an odd indentation a printed line can split a byte; with an indentation of 72 ValueError is raised and beyond it nothing is printed."
  },
  {
   "property": "C85",
   "status": "proved",
   "theorems": [
    "C85_load",
    "C85_multiproof_refuted",
    "C85_params",
    "C85_positive",
    "C85_main",
    "C85_printed",
    "C85_prints"
   ],
   "note": "C85_multiproof_refuted: two multiproof VDAFs with different numbers of proofs have the same name and recorded integers, so the test cannot tell them apart."
  },
  {
   "property": "C86",
   "status": "proved",
   "theorems": [
    "C86_turboshake",
    "C86_turboshake_refuted",
    "C86_fixedkey",
    "C86_flp",
    "C86_prio3",
    "C86_poplar1",
    "C86_computes",
    "C86_count",
    "C86_checks_refuted"
   ],
   "note": "C86_turboshake_refuted: next(0) of the listing returns all bytes read before. C86_checks_refuted: without the omitted checks SumVec encodes [-1] like [127] (max 255), Count encodes 2, and decide accepts a verifier with trailing elements. Line 2457 of the document lacks a + (the model has it)."
  },
  {
   "property": "C87",
   "status": "proved",
   "theorems": [
    "C87_honest",
    "C87_tree",
    "C87_cost",
    "C87_robust",
    "C87_finishes"
   ],
   "note": ""
  },
  {
   "property": "C88",
   "status": "proved",
   "theorems": [
    "C88_helper_shares",
    "C88_view",
    "C88_independent"
   ],
   "note": ""
  },
  {
   "property": "C89",
   "status": "proved",
   "theorems": [
    "C89_pingpong",
    "C89_prio3_input",
    "C89_prio3_verifier",
    "C89_prio3_public",
    "C89_prio3_message",
    "C89_prio3_agg",
    "C89_lenient_refuted",
    "C89_poplar1_public",
    "C89_poplar1_input",
    "C89_poplar1_verifier",
    "C89_poplar1_message",
    "C89_poplar1_agg",
    "C89_agg_param"
   ],
   "note": "C89_lenient_refuted: some decoders also read strings that are not of the structure; the statement says which."
  },
  {
   "property": "C90",
   "status": "proved",
   "theorems": [
    "C90_always",
    "C90_truncate",
    "C90_flp",
    "C90_tests",
    "C90_assertion"
   ],
   "note": ""
  },
  {
   "property": "C91",
   "status": "proved",
   "theorems": [
    "C91_fields",
    "C91_prio3",
    "C91_multiproof",
    "C91_poplar1",
    "C91_idpf",
    "C91_usages",
    "C91_proofs_many",
    "C91_proofs_refuted"
   ],
   "note": "C91_proofs_refuted and C91_proofs_many: the constructor accepts any number of proofs, the document only 1 to 255."
  },
  {
   "property": "C92",
   "status": "proved",
   "theorems": [
    "C92_length",
    "C92_lower",
    "C92_sqrt",
    "C92_tight"
   ],
   "note": ""
  },
  {
   "property": "C93",
   "status": "proved",
   "theorems": [
    "C93_key_forges",
    "C93_forgeable",
    "C93_aggregator",
    "C93_aggregator_shift",
    "C93_aggregator_poplar1"
   ],
   "note": ""
  },
  {
   "property": "C94",
   "status": "proved",
   "theorems": [
    "C94_flp",
    "C94_prio3",
    "C94_how_many",
    "C94_poplar1_inner",
    "C94_poplar1_leaf",
    "C94_poplar1_bit"
   ],
   "note": ""
  },
  {
   "property": "C95",
   "status": "proved",
   "theorems": [
    "C95_sumvec",
    "C95_misread",
    "C95_digits",
    "C95_sum"
   ],
   "note": ""
  },
  {
   "property": "C96",
   "status": "proved",
   "theorems": [
    "C96_levels",
    "C96_not_counts"
   ],
   "note": ""
  },
  {
   "property": "C97",
   "status": "proved",
   "theorems": [
    "C97_steered",
    "C97_everything",
    "C97_target"
   ],
   "note": ""
  },
  {
   "property": "C98",
   "status": "proved",
   "theorems": [
    "C98_malleable",
    "C98_tampered",
    "C98_reveals"
   ],
   "note": ""
  },
  {
   "property": "C99",
   "status": "proved",
   "theorems": [
    "C99_outcome",
    "C99_offline",
    "C99_rare",
    "C99_sumvec"
   ],
   "note": ""
  },
  {
   "property": "C100",
   "status": "proved",
   "theorems": [
    "C100_refused",
    "C100_reveals",
    "C100_harmless"
   ],
   "note": ""
  },
  {
   "property": "C101",
   "status": "proved",
   "theorems": [
    "C101_deploy",
    "C101_strings",
    "C101_robust",
    "C101_aggregate",
    "C101_count",
    "C101_sum",
    "C101_sumvec",
    "C101_histogram",
    "C101_multihot",
    "C101_poplar1"
   ],
   "note": ""
  },
  {
   "property": "C102",
   "status": "proved",
   "theorems": [
    "C102_view",
    "C102_everything"
   ],
   "note": ""
  },
  {
   "property": "C103",
   "status": "proved",
   "theorems": [
    "C103_coalition",
    "C103_exact",
    "C103_std",
    "C103_real"
   ],
   "note": ""
  },
  {
   "property": "C104",
   "status": "proved",
   "theorems": [
    "C104_coalition",
    "C104_exact",
    "C104_real"
   ],
   "note": ""
  },
  {
   "property": "C105",
   "status": "proved",
   "theorems": [
    "C105_flp",
    "C105_prio3",
    "C105_binding",
    "C105_vanishes",
    "C105_bit",
    "C105_unused",
    "C105_output"
   ],
   "note": ""
  },
  {
   "property": "C106",
   "status": "proved",
   "theorems": [
    "C106_shape",
    "C106_reach",
    "C106_line",
    "C106_zero",
    "C106_branch",
    "C106_double"
   ],
   "note": ""
  },
  {
   "property": "C107",
   "status": "proved",
   "theorems": [
    "C107_count",
    "C107_sum",
    "C107_sumvec",
    "C107_histogram",
    "C107_multihot",
    "C107_poplar1"
   ],
   "note": ""
  },
  {
   "property": "C108",
   "status": "proved",
   "theorems": [
    "C108_split",
    "C108_words",
    "C108_poplar1",
    "C108_lossless"
   ],
   "note": ""
  }
 ]
}