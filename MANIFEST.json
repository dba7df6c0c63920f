{
 "claims": [
  {
   "property": "C01",
   "status": "proved",
   "theorems": [
    "C01_fir_upsampling"
   ],
   "note": ""
  },
  {
   "property": "C02",
   "status": "proved",
   "theorems": [
    "C02_fir_downsampling"
   ],
   "note": ""
  },
  {
   "property": "C03",
   "status": "proved",
   "theorems": [
    "C03_passthrough"
   ],
   "note": ""
  },
  {
   "property": "C04",
   "status": "proved",
   "theorems": [
    "C04_partition_independent"
   ],
   "note": ""
  },
  {
   "property": "C05",
   "status": "proved",
   "theorems": [
    "C05_partition_bit_exact_refuted",
    "C05_alignment_bit_exact_refuted",
    "C05_downsampling_bit_exact_refuted",
    "C05_sse_same_in_exact_arithmetic"
   ],
   "note": "The single precision differences are exhibited by three programs."
  },
  {
   "property": "C06",
   "status": "proved",
   "theorems": [
    "C06_reordering_stays_inside",
    "C06_vector_kernel"
   ],
   "note": ""
  },
  {
   "property": "C07",
   "status": "proved",
   "theorems": [
    "C07_ratio_2_accuracy",
    "C07_ratio_2_agree",
    "C07_accuracy",
    "C07_agree"
   ],
   "note": ""
  },
  {
   "property": "C08",
   "status": "proved",
   "theorems": [
    "C08_fir_memory_safe"
   ],
   "note": ""
  },
  {
   "property": "C09",
   "status": "proved",
   "theorems": [
    "C09_footprint",
    "C09_output_defined"
   ],
   "note": ""
  },
  {
   "property": "C10",
   "status": "proved",
   "theorems": [
    "C10_empty_block"
   ],
   "note": ""
  },
  {
   "property": "C11",
   "status": "proved",
   "theorems": [
    "C11_short_block_aborts",
    "C11_empty_up_processes_a_sample",
    "C11_short_down_processes_two_samples",
    "C11_empty_up_out_of_bounds",
    "C11_short_down_out_of_bounds",
    "C11_sse_does_nothing"
   ],
   "note": ""
  },
  {
   "property": "C12",
   "status": "proved",
   "theorems": [
    "C12_odd_block_rejected"
   ],
   "note": ""
  },
  {
   "property": "C13",
   "status": "proved",
   "theorems": [
    "C13_rejected_block_has_no_effect_refuted"
   ],
   "note": "The remaining effect of a rejected block is exhibited by a program."
  },
  {
   "property": "C14",
   "status": "proved",
   "theorems": [
    "C14_upsampling_composes",
    "C14_upsampling_composes_exact",
    "C14_upsampling_composes_vector"
   ],
   "note": ""
  },
  {
   "property": "C15",
   "status": "proved",
   "theorems": [
    "C15_downsampling_composes",
    "C15_downsampling_composes_exact",
    "C15_downsampling_composes_vector"
   ],
   "note": ""
  },
  {
   "property": "C16",
   "status": "proved",
   "theorems": [
    "C16_copies",
    "C16_in_place",
    "C16_delay",
    "C16_reset"
   ],
   "note": "std::copy onto itself is modelled as an element-wise copy."
  },
  {
   "property": "C17",
   "status": "proved",
   "theorems": [
    "C17_sample_counts"
   ],
   "note": ""
  },
  {
   "property": "C18",
   "status": "proved",
   "theorems": [
    "C18_constructible",
    "C18_unusable"
   ],
   "note": ""
  },
  {
   "property": "C19",
   "status": "proved",
   "theorems": [
    "C19_find_precision",
    "C19_monotone"
   ],
   "note": ""
  },
  {
   "property": "C20",
   "status": "proved",
   "theorems": [
    "C20_precision_name",
    "C20_names"
   ],
   "note": ""
  },
  {
   "property": "C21",
   "status": "proved",
   "theorems": [
    "C21_order_and_sse",
    "C21_ratio_1"
   ],
   "note": ""
  },
  {
   "property": "C22",
   "status": "proved",
   "theorems": [
    "C22_fir_delay_ratio_2",
    "C22_delay_nonnegative",
    "C22_iir_multiple_of_half_refuted"
   ],
   "note": "Last sentence as a refutation."
  },
  {
   "property": "C23",
   "status": "proved",
   "theorems": [
    "C23_ramp",
    "C23_ramp_ratio_2"
   ],
   "note": ""
  },
  {
   "property": "C24",
   "status": "proved",
   "theorems": [
    "C24_linear_phase",
    "C24_impulse_response_symmetric"
   ],
   "note": ""
  },
  {
   "property": "C25",
   "status": "proved",
   "theorems": [
    "C25_fir_dc_gain",
    "C25_iir_settles",
    "C25_iir_limit"
   ],
   "note": ""
  },
  {
   "property": "C26",
   "status": "proved",
   "theorems": [
    "C26_linear",
    "C26_time_invariant"
   ],
   "note": ""
  },
  {
   "property": "C27",
   "status": "proved",
   "theorems": [
    "C27_tap_sums",
    "C27_bounded"
   ],
   "note": ""
  },
  {
   "property": "C28",
   "status": "proved",
   "theorems": [
    "C28_no_overflow",
    "C28_intermediates"
   ],
   "note": ""
  },
  {
   "property": "C29",
   "status": "proved",
   "theorems": [
    "C29_upsampler_forgets",
    "C29_downsampler_forgets"
   ],
   "note": ""
  },
  {
   "property": "C30",
   "status": "proved",
   "theorems": [
    "C30_sse_window_refuted"
   ],
   "note": "Last sentence as a refutation."
  },
  {
   "property": "C31",
   "status": "proved",
   "theorems": [
    "C31_iir_upsampling",
    "C31_iir_downsampling"
   ],
   "note": ""
  },
  {
   "property": "C32",
   "status": "proved",
   "theorems": [
    "C32_sse_iir_same_exact",
    "C32_sse_iir_bit_exact",
    "C32_sse_iir_bit_exact_F32"
   ],
   "note": ""
  },
  {
   "property": "C33",
   "status": "proved",
   "theorems": [
    "C33_up",
    "C33_down"
   ],
   "note": ""
  },
  {
   "property": "C34",
   "status": "proved",
   "theorems": [
    "C34_bounded",
    "C34_decay"
   ],
   "note": ""
  },
  {
   "property": "C35",
   "status": "proved",
   "theorems": [
    "C35_chain_lossless",
    "C35_upsampler_ratio_2",
    "C35_energy"
   ],
   "note": ""
  },
  {
   "property": "C36",
   "status": "proved",
   "theorems": [
    "C36_reads_behind_the_input",
    "C36_values_behind_do_not_matter",
    "C36_reads_behind_the_input_all_ratios"
   ],
   "note": ""
  },
  {
   "property": "C37",
   "status": "proved",
   "theorems": [
    "C37_iir_memory_safe"
   ],
   "note": "See C36 for the over-read of the vector downsampler."
  },
  {
   "property": "C38",
   "status": "proved",
   "theorems": [
    "C38_reset_like_new",
    "C38_output_determined_by_calls"
   ],
   "note": ""
  },
  {
   "property": "C39",
   "status": "proved",
   "theorems": [
    "C39_instances_independent"
   ],
   "note": ""
  },
  {
   "property": "C40",
   "status": "proved",
   "theorems": [
    "C40_silence"
   ],
   "note": ""
  },
  {
   "property": "C41",
   "status": "proved",
   "theorems": [
    "C41_causality"
   ],
   "note": ""
  },
  {
   "property": "C42",
   "status": "proved",
   "theorems": [
    "C42_alignment",
    "C42_no_false_sharing",
    "C42_no_sharing_with_others",
    "C42_construct",
    "C42_construct_from",
    "C42_destruct",
    "C42_assign",
    "C42_malloc_failure",
    "C42_overflow_refuted"
   ],
   "note": ""
  },
  {
   "property": "C43",
   "status": "proved",
   "theorems": [
    "C43_copy"
   ],
   "note": ""
  },
  {
   "property": "C44",
   "status": "proved",
   "theorems": [
    "C44_in_place",
    "C44_same_result",
    "C44_fir_in_place_refuted"
   ],
   "note": "The exception (FIR, ratio 2, vector code) is exhibited by a program."
  },
  {
   "property": "C45",
   "status": "proved",
   "theorems": [
    "C45_ipowp",
    "C45_ipowp_negative"
   ],
   "note": ""
  },
  {
   "property": "C46",
   "status": "proved",
   "theorems": [
    "C46_group_delay",
    "C46_literals",
    "C46_documented"
   ],
   "note": ""
  },
  {
   "property": "C47",
   "status": "proved",
   "theorems": [
    "C47_not_the_phase_delay"
   ],
   "note": ""
  },
  {
   "property": "C48",
   "status": "proved",
   "theorems": [
    "C48_upsampling_accuracy",
    "C48_downsampling_accuracy",
    "C48_alias_rejection",
    "C48_test_thresholds",
    "C48_linear_interpolation"
   ],
   "note": ""
  },
  {
   "property": "C49",
   "status": "proved",
   "theorems": [
    "C49_sine_upsampling",
    "C49_sine_downsampling"
   ],
   "note": ""
  },
  {
   "property": "C50",
   "status": "proved",
   "theorems": [
    "C50_round_trip"
   ],
   "note": ""
  },
  {
   "property": "C51",
   "status": "proved",
   "theorems": [
    "C51_decreasing",
    "C51_transition",
    "C51_rejected"
   ],
   "note": ""
  },
  {
   "property": "C52",
   "status": "proved",
   "theorems": [
    "C52_wider_band",
    "C52_monotone",
    "C52_smallest",
    "C52_total",
    "C52_attenuation",
    "C52_positive_refuted"
   ],
   "note": ""
  },
  {
   "property": "C53",
   "status": "proved",
   "theorems": [
    "C53_coefficients",
    "C53_one_coefficient"
   ],
   "note": ""
  },
  {
   "property": "C54",
   "status": "proved",
   "theorems": [
    "C54_tables"
   ],
   "note": ""
  },
  {
   "property": "C55",
   "status": "proved",
   "theorems": [
    "C55_no_abort",
    "C55_upper_frequencies",
    "C55_fail_conv",
    "C55_tolerance_refuted"
   ],
   "note": ""
  },
  {
   "property": "C56",
   "status": "proved",
   "theorems": [
    "C56_upsampling_accuracy",
    "C56_downsampling_accuracy",
    "C56_alias_rejection",
    "C56_transient",
    "C56_nominal",
    "C56_almost_nominal_144",
    "C56_nominal_144_refuted"
   ],
   "note": ""
  },
  {
   "property": "C57",
   "status": "proved",
   "theorems": [
    "C57_upsampling_delay",
    "C57_downsampling_delay",
    "C57_group_delay"
   ],
   "note": ""
  },
  {
   "property": "C58",
   "status": "proved",
   "theorems": [
    "C58_accuracy",
    "C58_sse_accuracy",
    "C58_agree",
    "C58_no_overflow"
   ],
   "note": ""
  },
  {
   "property": "C59",
   "status": "proved",
   "theorems": [
    "C59_sse_error_grows",
    "C59_use_sse_has_no_effect_refuted"
   ],
   "note": ""
  },
  {
   "property": "C60",
   "status": "proved",
   "theorems": [
    "C60_safe",
    "C60_decides",
    "C60_exact",
    "C60_no_false_alarm_refuted"
   ],
   "note": ""
  },
  {
   "property": "C61",
   "status": "proved",
   "theorems": [
    "C61_fir_upsampling",
    "C61_fir_downsampling",
    "C61_fir_alias_rejection",
    "C61_correctly_rounded_input",
    "C61_fir_upsampling_snr",
    "C61_fir_downsampling_snr",
    "C61_iir_upsampling",
    "C61_iir_downsampling",
    "C61_iir_alias_rejection"
   ],
   "note": ""
  },
  {
   "property": "C62",
   "status": "proved",
   "theorems": [
    "C62_construct",
    "C62_process",
    "C62_reset",
    "C62_output",
    "C62_bit_exact",
    "C62_accuracy",
    "C62_bounded",
    "C62_silence",
    "C62_documented_class"
   ],
   "note": ""
  },
  {
   "property": "C63",
   "status": "proved",
   "theorems": [
    "C63_below_8",
    "C63_above_8_construct",
    "C63_above_8_small_blocks",
    "C63_above_8_large_blocks",
    "C63_above_8_delay",
    "C63_above_8_reset",
    "C63_gap"
   ],
   "note": ""
  },
  {
   "property": "C64",
   "status": "proved",
   "theorems": [
    "C64_split",
    "C64_single",
    "C64_low_exact",
    "C64_low_bit_exact",
    "C64_low_sse_refuted",
    "C64_sum_difference",
    "C64_energy",
    "C64_mirror",
    "C64_sine",
    "C64_bands",
    "C64_overlap_refuted"
   ],
   "note": "Two sentences as refutations: the low band with SSE instructions, and overlapping outputs."
  },
  {
   "property": "C65",
   "status": "proved",
   "theorems": [
    "C65_sections",
    "C65_mirror",
    "C65_sine"
   ],
   "note": ""
  },
  {
   "property": "C66",
   "status": "proved",
   "theorems": [
    "C66_upsampling",
    "C66_downsampling",
    "C66_oversampling",
    "C66_subsampling",
    "C66_test_thresholds"
   ],
   "note": ""
  },
  {
   "property": "C67",
   "status": "proved",
   "theorems": [
    "C67_upsampling",
    "C67_downsampling",
    "C67_oversampling",
    "C67_subsampling",
    "C67_oversampling_snr",
    "C67_subsampling_snr"
   ],
   "note": ""
  },
  {
   "property": "C68",
   "status": "proved",
   "theorems": [
    "C68_no_error",
    "C68_ends",
    "C68_exact",
    "C68_single_precision",
    "C68_check_accuracy_full",
    "C68_only_upwards"
   ],
   "note": ""
  },
  {
   "property": "C69",
   "status": "proved",
   "theorems": [
    "C69_upsampling",
    "C69_downsampling",
    "C69_oversampling",
    "C69_subsampling",
    "C69_transient",
    "C69_oversampling_delay",
    "C69_energy",
    "C69_all_pass"
   ],
   "note": "In real arithmetic; single precision for IIR resamplers is C58 and C61."
  },
  {
   "property": "C70",
   "status": "proved",
   "theorems": [
    "C70_energy",
    "C70_difference",
    "C70_round_trip",
    "C70_nothing_lost"
   ],
   "note": ""
  },
  {
   "property": "C71",
   "status": "proved",
   "theorems": [
    "C71_upsampling",
    "C71_downsampling",
    "C71_oversampling",
    "C71_subsampling",
    "C71_oversampling_delay"
   ],
   "note": ""
  },
  {
   "property": "C72",
   "status": "proved",
   "theorems": [
    "C72_default_run",
    "C72_run_with_arguments",
    "C72_vector_iir_reads_behind",
    "C72_exact_arithmetic",
    "C72_single_precision",
    "C72_large_error_not_reported",
    "C72_only_downwards",
    "C72_few_arguments",
    "C72_wrong_words",
    "C72_no_filter",
    "C72_negative_ratio"
   ],
   "note": ""
  },
  {
   "property": "C73",
   "status": "proved",
   "theorems": [
    "C73_all_addresses"
   ],
   "note": ""
  },
  {
   "property": "C74",
   "status": "proved",
   "theorems": [
    "C74_fir_recovers",
    "C74_iir_never_recovers",
    "C74_iir_overflow"
   ],
   "note": ""
  },
  {
   "property": "C75",
   "status": "proved",
   "theorems": [
    "C75_conversion",
    "C75_nearest",
    "C75_impulse_up",
    "C75_impulse_down"
   ],
   "note": ""
  },
  {
   "property": "C76",
   "status": "proved",
   "theorems": [
    "C76_large_block",
    "C76_large_block_refuted"
   ],
   "note": ""
  },
  {
   "property": "C77",
   "status": "proved",
   "theorems": [
    "C77_parse",
    "C77_main",
    "C77_settings",
    "C77_accuracy",
    "C77_huge_block"
   ],
   "note": ""
  },
  {
   "property": "C78",
   "status": "proved",
   "theorems": [
    "C78_design",
    "C78_all",
    "C78_run_time"
   ],
   "note": ""
  },
  {
   "property": "C79",
   "status": "proved",
   "theorems": [
    "C79_performance_test",
    "C79_performance_test_reads_behind",
    "C79_performance_test_no_filter",
    "C79_simple",
    "C79_simple_sine",
    "C79_down_frequencies",
    "C79_distort_without_oversampling",
    "C79_distort",
    "C79_usage",
    "C79_wrong_words"
   ],
   "note": ""
  },
  {
   "property": "C80",
   "status": "proved",
   "theorems": [
    "C80_performance",
    "C80_performance_overflow",
    "C80_impulse",
    "C80_releases",
    "C80_impulse_values",
    "C80_enough_space"
   ],
   "note": ""
  },
  {
   "property": "C81",
   "status": "proved",
   "theorems": [
    "C81_table",
    "C81_table_exact",
    "C81_table_single_precision",
    "C81_enough_values",
    "C81_spectrum_exact",
    "C81_spectrum_single_precision",
    "C81_sine"
   ],
   "note": ""
  },
  {
   "property": "C82",
   "status": "proved",
   "theorems": [
    "C82_usage",
    "C82_overflow",
    "C82_panda",
    "C82_zita",
    "C82_exact",
    "C82_exact_overflow",
    "C82_sine",
    "C82_float_overflow",
    "C82_float",
    "C82_float_frequencies"
   ],
   "note": ""
  },
  {
   "property": "C83",
   "status": "proved",
   "theorems": [
    "C83_decay",
    "C83_never_silent",
    "C83_vector_decay_refuted",
    "C83_fir_silence"
   ],
   "note": "Decay for non-vector code and for even numbers of coefficients; the rest of the statement by examples; for vector code with odd numbers of coefficients the decay is refuted."
  },
  {
   "property": "C84",
   "status": "proved",
   "theorems": [
    "C84_no_error",
    "C84_ends",
    "C84_check_exact",
    "C84_check_refuted",
    "C84_accuracy_single_precision"
   ],
   "note": "Last sentence as a refutation."
  },
  {
   "property": "C85",
   "status": "proved",
   "theorems": [
    "C85_upsampling_keeps_all",
    "C85_oversampling_keeps_all",
    "C85_energy_returns",
    "C85_downsampling_loses",
    "C85_fir_upsampling_keeps",
    "C85_fir_downsampling_loses",
    "C85_single_precision_refuted"
   ],
   "note": ""
  }
 ]
}