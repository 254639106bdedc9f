{
 "claims": [
  {
   "property": "C01",
   "status": "proved",
   "theorems": [
    "C01_radial_is_rodrigues",
    "C01_circle_polynomial"
   ],
   "note": "Exact reals; rho = 0 is covered by C02 and C01_circle_polynomial."
  },
  {
   "property": "C02",
   "status": "proved",
   "theorems": [
    "C02_rim_and_centre"
   ],
   "note": ""
  },
  {
   "property": "C03",
   "status": "proved",
   "theorems": [
    "C03_wavefront_bounded",
    "C03_phase_bounded",
    "C03_radial_bounded",
    "C03_circle_bounded"
   ],
   "note": ""
  },
  {
   "property": "C04",
   "status": "proved",
   "theorems": [
    "C04_orthogonal",
    "C04_orthonormal_refuted"
   ],
   "note": "Orthogonal with the stated norms; the documentation's 'orthonormal' is refuted."
  },
  {
   "property": "C05",
   "status": "proved",
   "theorems": [
    "C05_index_checks",
    "C05_odd_vanishes_refuted"
   ],
   "note": "The documented 'n - |l| odd vanishes' is refuted (U(1,0) = rho)."
  },
  {
   "property": "C06",
   "status": "proved",
   "theorems": [
    "C06_symmetries"
   ],
   "note": ""
  },
  {
   "property": "C07",
   "status": "proved",
   "theorems": [
    "C07_enumeration_exact",
    "C07_count",
    "C07_position",
    "C07_prefix"
   ],
   "note": ""
  },
  {
   "property": "C08",
   "status": "proved",
   "theorems": [
    "C08_triangular_accepted",
    "C08_other_sizes_rejected",
    "C08_empty_rejected",
    "C08_order_binary64"
   ],
   "note": "Includes the binary64 evaluation of the order formula (Flocq)."
  },
  {
   "property": "C09",
   "status": "proved",
   "theorems": [
    "C09_linear",
    "C09_zero_padding",
    "C09_unit_vector"
   ],
   "note": ""
  },
  {
   "property": "C10",
   "status": "proved",
   "theorems": [
    "C10_pixels",
    "C10_polar_exists",
    "C10_arguments_unchanged",
    "C10_short_arrays"
   ],
   "note": ""
  },
  {
   "property": "C11",
   "status": "proved",
   "theorems": [
    "C11_no_piston",
    "C11_no_tilt",
    "C11_tilt_is_plane",
    "C11_piston_is_constant"
   ],
   "note": ""
  },
  {
   "property": "C12",
   "status": "proved",
   "theorems": [
    "C12_dish_size_independent",
    "C12_linear"
   ],
   "note": ""
  },
  {
   "property": "C13",
   "status": "proved",
   "theorems": [
    "C13_range",
    "C13_onto",
    "C13_constant",
    "C13_nonfinite",
    "C13_empty",
    "C13_axis1",
    "C13_axis0",
    "C13_binary64"
   ],
   "note": ""
  },
  {
   "property": "C14",
   "status": "proved",
   "theorems": [
    "C14_gain_offset",
    "C14_idempotent"
   ],
   "note": ""
  },
  {
   "property": "C15",
   "status": "proved",
   "theorems": [
    "C15_right_inverse",
    "C15_left_inverse"
   ],
   "note": ""
  },
  {
   "property": "C16",
   "status": "proved",
   "theorems": [
    "C16_rms",
    "C16_permutation",
    "C16_nan_counted",
    "C16_mean_of_valid_refuted"
   ],
   "note": ""
  },
  {
   "property": "C17",
   "status": "proved",
   "theorems": [
    "C17_value",
    "C17_outside_irrelevant",
    "C17_overwrites_argument",
    "C17_second_call",
    "C17_not_square"
   ],
   "note": ""
  },
  {
   "property": "C18",
   "status": "proved",
   "theorems": [
    "C18_ruze",
    "C18_circ"
   ],
   "note": ""
  },
  {
   "property": "C19",
   "status": "proved",
   "theorems": [
    "C19_matrices",
    "C19_singular",
    "C19_exact_fit"
   ],
   "note": ""
  },
  {
   "property": "C20",
   "status": "proved",
   "theorems": [
    "C20_columns",
    "C20_residual"
   ],
   "note": ""
  },
  {
   "property": "C21",
   "status": "proved",
   "theorems": [
    "C21_line",
    "C21_swap",
    "C21_vertical"
   ],
   "note": ""
  },
  {
   "property": "C22",
   "status": "proved",
   "theorems": [
    "C22_gain",
    "C22_peak_over_std",
    "C22_gain_scattered"
   ],
   "note": ""
  },
  {
   "property": "C23",
   "status": "proved",
   "theorems": [
    "C23_exact_mask",
    "C23_symmetric"
   ],
   "note": ""
  },
  {
   "property": "C24",
   "status": "proved",
   "theorems": [
    "C24_no_legs",
    "C24_L_zero",
    "C24_L_zero_refuted",
    "C24_sr_zero",
    "C24_sr_zero_refuted"
   ],
   "note": ""
  },
  {
   "property": "C25",
   "status": "proved",
   "theorems": [
    "C25_two_valued",
    "C25_symmetric",
    "C25_submask",
    "C25_no_shade",
    "C25_exact_mask",
    "C25_gap"
   ],
   "note": ""
  },
  {
   "property": "C26",
   "status": "proved",
   "theorems": [
    "C26_opd",
    "C26_closed_form",
    "C26_effelsberg"
   ],
   "note": ""
  },
  {
   "property": "C27",
   "status": "proved",
   "theorems": [
    "C27_parabolic",
    "C27_beyond_rim",
    "C27_beyond_rim_integer",
    "C27_beyond_rim_refuted",
    "C27_arity"
   ],
   "note": ""
  },
  {
   "property": "C28",
   "status": "proved",
   "theorems": [
    "C28_gauss",
    "C28_ignores_q",
    "C28_arity"
   ],
   "note": ""
  },
  {
   "property": "C29",
   "status": "proved",
   "theorems": [
    "C29_value",
    "C29_modulus",
    "C29_piston",
    "C29_conjugate"
   ],
   "note": ""
  },
  {
   "property": "C30",
   "status": "proved",
   "theorems": [
    "C30_parseval",
    "C30_power_conserved",
    "C30_too_small"
   ],
   "note": ""
  },
  {
   "property": "C31",
   "status": "proved",
   "theorems": [
    "C31_axes"
   ],
   "note": ""
  },
  {
   "property": "C32",
   "status": "proved",
   "theorems": [
    "C32_piston",
    "C32_amplitude_parabolic",
    "C32_amplitude_gauss",
    "C32_residual_piston",
    "C32_residual_amplitude"
   ],
   "note": ""
  },
  {
   "property": "C33",
   "status": "proved",
   "theorems": [
    "C33_ambiguity",
    "C33_manual"
   ],
   "note": ""
  },
  {
   "property": "C34",
   "status": "proved",
   "theorems": [
    "C34_shape",
    "C34_zero_on_model",
    "C34_grid",
    "C34_interp_exact",
    "C34_interp_between",
    "C34_interp_bilinear"
   ],
   "note": ""
  },
  {
   "property": "C35",
   "status": "proved",
   "theorems": [
    "C35_round_trip"
   ],
   "note": ""
  },
  {
   "property": "C36",
   "status": "proved",
   "theorems": [
    "C36_unsorted_refuted",
    "C36_repeated_refuted",
    "C36_high_index_refuted"
   ],
   "note": ""
  },
  {
   "property": "C37",
   "status": "proved",
   "theorems": [
    "C37_unchanged",
    "C37_bad_config",
    "C37_residual",
    "C37_residual_excluded"
   ],
   "note": ""
  },
  {
   "property": "C38",
   "status": "proved",
   "theorems": [
    "C38_documented_files"
   ],
   "note": ""
  },
  {
   "property": "C39",
   "status": "proved",
   "theorems": [
    "C39_stored_parameters"
   ],
   "note": ""
  },
  {
   "property": "C40",
   "status": "proved",
   "theorems": [
    "C40_starting_values",
    "C40_feasible_strict",
    "C40_feasible"
   ],
   "note": ""
  },
  {
   "property": "C41",
   "status": "proved",
   "theorems": [
    "C41_never_overwritten",
    "C41_hundred_and_second_refuted",
    "C41_overwritten_refuted"
   ],
   "note": ""
  },
  {
   "property": "C42",
   "status": "proved",
   "theorems": [
    "C42_no_collision",
    "C42_increasing"
   ],
   "note": ""
  },
  {
   "property": "C43",
   "status": "proved",
   "theorems": [
    "C43_crash",
    "C43_confined"
   ],
   "note": ""
  },
  {
   "property": "C44",
   "status": "proved",
   "theorems": [
    "C44_concurrent",
    "C44_different_names_separate",
    "C44_same_name_refuted"
   ],
   "note": ""
  },
  {
   "property": "C45",
   "status": "proved",
   "theorems": [
    "C45_csv_pairs",
    "C45_csv_succeeds",
    "C45_orders_disjoint"
   ],
   "note": ""
  },
  {
   "property": "C46",
   "status": "proved",
   "theorems": [
    "C46_preceded",
    "C46_readable",
    "C46_injective",
    "C46_length",
    "C46_others_kept",
    "C46_idempotent_refuted"
   ],
   "note": ""
  },
  {
   "property": "C47",
   "status": "proved",
   "theorems": [
    "C47_other_names_rejected",
    "C47_accepted",
    "C47_file",
    "C47_unique",
    "C47_missing_key"
   ],
   "note": ""
  },
  {
   "property": "C48",
   "status": "proved",
   "theorems": [
    "C48_round_trip"
   ],
   "note": ""
  },
  {
   "property": "C49",
   "status": "proved",
   "theorems": [
    "C49_offsets_rejected",
    "C49_succeeds",
    "C49_three_in_focus_refuted",
    "C49_new_file",
    "C49_nothing_overwritten",
    "C49_hundred_and_second"
   ],
   "note": ""
  },
  {
   "property": "C50",
   "status": "proved",
   "theorems": [
    "C50_block",
    "C50_on_the_limit",
    "C50_condition",
    "C50_recommended_safe",
    "C50_resolution_245_refuted"
   ],
   "note": ""
  },
  {
   "property": "C51",
   "status": "proved",
   "theorems": [
    "C51_figure_size",
    "C51_common_unit",
    "C51_pointing"
   ],
   "note": ""
  },
  {
   "property": "C52",
   "status": "proved",
   "theorems": [
    "C52_there_and_back",
    "C52_back_and_there",
    "C52_transform_pixel",
    "C52_stack",
    "C52_itransform_pixel",
    "C52_binary64"
   ],
   "note": ""
  },
  {
   "property": "C53",
   "status": "proved",
   "theorems": [
    "C53_itransform",
    "C53_written",
    "C53_nan_refuted",
    "C53_fraction_refuted"
   ],
   "note": "itransform as stated; the written table only for entries that are not NaN and up to whole micrometres: the unrestricted claim about write_lookup is refuted (C53_nan_refuted, C53_fraction_refuted)."
  },
  {
   "property": "C54",
   "status": "proved",
   "theorems": [
    "C54_written_back",
    "C54_exact",
    "C54_interpolated",
    "C54_write_succeeds",
    "C54_write_fails"
   ],
   "note": ""
  },
  {
   "property": "C55",
   "status": "proved",
   "theorems": [
    "C55_plain",
    "C55_corrected",
    "C55_once_refuted",
    "C55_returns"
   ],
   "note": "The intended statement is refuted; what the code does is proved."
  },
  {
   "property": "C56",
   "status": "proved",
   "theorems": [
    "C56_tilt",
    "C56_axis",
    "C56_rim",
    "C56_beyond",
    "C56_decreasing",
    "C56_range",
    "C56_grid"
   ],
   "note": ""
  },
  {
   "property": "C57",
   "status": "proved",
   "theorems": [
    "C57_linear",
    "C57_degrees",
    "C57_plain",
    "C57_periodic",
    "C57_determined",
    "C57_short"
   ],
   "note": ""
  },
  {
   "property": "C58",
   "status": "proved",
   "theorems": [
    "C58_shape",
    "C58_returns",
    "C58_residual"
   ],
   "note": ""
  },
  {
   "property": "C59",
   "status": "proved",
   "theorems": [
    "C59_position",
    "C59_within",
    "C59_distinct",
    "C59_quarter"
   ],
   "note": ""
  },
  {
   "property": "C60",
   "status": "proved",
   "theorems": [
    "C60_nointerp_refuted",
    "C60_nointerp_valueerror"
   ],
   "note": ""
  },
  {
   "property": "C61",
   "status": "proved",
   "theorems": [
    "C61_tilt_shift"
   ],
   "note": ""
  },
  {
   "property": "C62",
   "status": "proved",
   "theorems": [
    "C62_completes"
   ],
   "note": ""
  },
  {
   "property": "C63",
   "status": "proved",
   "theorems": [
    "C63_files_belong_together"
   ],
   "note": ""
  },
  {
   "property": "C64",
   "status": "proved",
   "theorems": [
    "C64_crash_leaves_final_or_unfinished"
   ],
   "note": ""
  },
  {
   "property": "C65",
   "status": "proved",
   "theorems": [
    "C65_determined",
    "C65_injective"
   ],
   "note": ""
  },
  {
   "property": "C66",
   "status": "proved",
   "theorems": [
    "C66_fit_all",
    "C66_fit_zpoly"
   ],
   "note": ""
  },
  {
   "property": "C67",
   "status": "proved",
   "theorems": [
    "C67_truncated",
    "C67_unwritten",
    "C67_short_table"
   ],
   "note": ""
  },
  {
   "property": "C68",
   "status": "proved",
   "theorems": [
    "C68_constructor",
    "C68_contours"
   ],
   "note": ""
  },
  {
   "property": "C69",
   "status": "proved",
   "theorems": [
    "C69_pyoof_layout",
    "C69_effelsberg_layout"
   ],
   "note": ""
  },
  {
   "property": "C70",
   "status": "proved",
   "theorems": [
    "C70_concurrent_refuted"
   ],
   "note": ""
  },
  {
   "property": "C71",
   "status": "proved",
   "theorems": [
    "C71_rows",
    "C71_reads_only",
    "C71_determined",
    "C71_after_fit"
   ],
   "note": ""
  },
  {
   "property": "C72",
   "status": "proved",
   "theorems": [
    "C72_order_one"
   ],
   "note": ""
  },
  {
   "property": "C73",
   "status": "proved",
   "theorems": [
    "C73_mean",
    "C73_mean_product",
    "C73_projection"
   ],
   "note": ""
  },
  {
   "property": "C74",
   "status": "proved",
   "theorems": [
    "C74_matrix",
    "C74_scale",
    "C74_nodiag_refuted",
    "C74_nodiag_old_refuted"
   ],
   "note": ""
  },
  {
   "property": "C75",
   "status": "proved",
   "theorems": [
    "C75_three_patterns",
    "C75_needs_three",
    "C75_only_if"
   ],
   "note": ""
  },
  {
   "property": "C76",
   "status": "proved",
   "theorems": [
    "C76_maps",
    "C76_returns",
    "C76_gain"
   ],
   "note": ""
  },
  {
   "property": "C77",
   "status": "proved",
   "theorems": [
    "C77_phase",
    "C77_phase_data",
    "C77_square_only"
   ],
   "note": ""
  },
  {
   "property": "C78",
   "status": "proved",
   "theorems": [
    "C78_after_fit",
    "C78_returns"
   ],
   "note": ""
  },
  {
   "property": "C79",
   "status": "proved",
   "theorems": [
    "C79_true_parameters",
    "C79_noise",
    "C79_close"
   ],
   "note": ""
  },
  {
   "property": "C80",
   "status": "proved",
   "theorems": [
    "C80_all_stored",
    "C80_completes"
   ],
   "note": ""
  },
  {
   "property": "C81",
   "status": "proved",
   "theorems": [
    "C81_division",
    "C81_as_if_alone",
    "C81_all_stored",
    "C81_completes"
   ],
   "note": ""
  },
  {
   "property": "C82",
   "status": "proved",
   "theorems": [
    "C82_mpi_script_refuted"
   ],
   "note": ""
  },
  {
   "property": "C83",
   "status": "proved",
   "theorems": [
    "C83_shows_simulation",
    "C83_completes"
   ],
   "note": ""
  },
  {
   "property": "C84",
   "status": "proved",
   "theorems": [
    "C84_second_run_refuted"
   ],
   "note": ""
  },
  {
   "property": "C85",
   "status": "proved",
   "theorems": [
    "C85_new_table",
    "C85_selection"
   ],
   "note": ""
  },
  {
   "property": "C86",
   "status": "proved",
   "theorems": [
    "C86_follows",
    "C86_no_deformation"
   ],
   "note": ""
  },
  {
   "property": "C87",
   "status": "proved",
   "theorems": [
    "C87_untouched",
    "C87_written",
    "C87_completes"
   ],
   "note": ""
  },
  {
   "property": "C88",
   "status": "proved",
   "theorems": [
    "C88_maps",
    "C88_contours",
    "C88_too_few",
    "C88_complete",
    "C88_lookup"
   ],
   "note": ""
  },
  {
   "property": "C89",
   "status": "proved",
   "theorems": [
    "C89_far_field",
    "C89_residual",
    "C89_interpolation"
   ],
   "note": ""
  },
  {
   "property": "C90",
   "status": "proved",
   "theorems": [
    "C90_sequence",
    "C90_documented",
    "C90_lower_orders",
    "C90_final"
   ],
   "note": ""
  },
  {
   "property": "C91",
   "status": "proved",
   "theorems": [
    "C91_more_orders"
   ],
   "note": ""
  },
  {
   "property": "C92",
   "status": "proved",
   "theorems": [
    "C92_table",
    "C92_follows",
    "C92_completes"
   ],
   "note": ""
  },
  {
   "property": "C93",
   "status": "proved",
   "theorems": [
    "C93_maps",
    "C93_gravity",
    "C93_follows",
    "C93_order_six_refuted"
   ],
   "note": ""
  },
  {
   "property": "C94",
   "status": "proved",
   "theorems": [
    "C94_nested",
    "C94_monotone",
    "C94_exact",
    "C94_start_refuted"
   ],
   "note": ""
  },
  {
   "property": "C95",
   "status": "proved",
   "theorems": [
    "C95_repeatable",
    "C95_in_sequence",
    "C95_succeeds_again"
   ],
   "note": ""
  },
  {
   "property": "C96",
   "status": "proved",
   "theorems": [
    "C96_bound",
    "C96_recovered",
    "C96_noise",
    "C96_amplitude_refuted"
   ],
   "note": ""
  },
  {
   "property": "C97",
   "status": "proved",
   "theorems": [
    "C97_stored",
    "C97_completes",
    "C97_amplitude_refuted",
    "C97_exact_refuted"
   ],
   "note": ""
  },
  {
   "property": "C98",
   "status": "proved",
   "theorems": [
    "C98_peak",
    "C98_loss",
    "C98_manual",
    "C98_ruze"
   ],
   "note": ""
  },
  {
   "property": "C99",
   "status": "proved",
   "theorems": [
    "C99_field",
    "C99_power",
    "C99_manual"
   ],
   "note": ""
  },
  {
   "property": "C100",
   "status": "proved",
   "theorems": [
    "C100_wavefront",
    "C100_mirror_v",
    "C100_mirror_u",
    "C100_transposed",
    "C100_symmetric"
   ],
   "note": ""
  },
  {
   "property": "C101",
   "status": "proved",
   "theorems": [
    "C101_coefficients",
    "C101_residual",
    "C101_telescopes",
    "C101_configurations",
    "C101_fit",
    "C101_equally_good"
   ],
   "note": ""
  },
  {
   "property": "C102",
   "status": "proved",
   "theorems": [
    "C102_missing_pixels",
    "C102_no_noise",
    "C102_scattered",
    "C102_empty",
    "C102_values",
    "C102_stored",
    "C102_gains",
    "C102_normalised_refuted"
   ],
   "note": ""
  },
  {
   "property": "C103",
   "status": "proved",
   "theorems": [
    "C103_pattern",
    "C103_residual",
    "C103_telescopes",
    "C103_fit"
   ],
   "note": ""
  },
  {
   "property": "C104",
   "status": "proved",
   "theorems": [
    "C104_lipschitz",
    "C104_best_exists",
    "C104_best_exists_amplitude",
    "C104_optimal",
    "C104_zero_amplitude",
    "C104_continuous_amplitude_refuted"
   ],
   "note": ""
  },
  {
   "property": "C105",
   "status": "proved",
   "theorems": [
    "C105_as_if_alone",
    "C105_fair",
    "C105_power_cut"
   ],
   "note": ""
  },
  {
   "property": "C106",
   "status": "proved",
   "theorems": [
    "C106_circle_polynomial",
    "C106_wavefront",
    "C106_order_ten",
    "C106_exceptions"
   ],
   "note": ""
  },
  {
   "property": "C107",
   "status": "proved",
   "theorems": [
    "C107_table",
    "C107_figures",
    "C107_observation"
   ],
   "note": ""
  },
  {
   "property": "C108",
   "status": "proved",
   "theorems": [
    "C108_rms",
    "C108_circle",
    "C108_efficiency"
   ],
   "note": ""
  },
  {
   "property": "C109",
   "status": "proved",
   "theorems": [
    "C109_grid",
    "C109_rim",
    "C109_rim_even",
    "C109_axes",
    "C109_axes_order"
   ],
   "note": ""
  },
  {
   "property": "C110",
   "status": "proved",
   "theorems": [
    "C110_phase",
    "C110_even",
    "C110_order_ten",
    "C110_exceptions"
   ],
   "note": ""
  },
  {
   "property": "C111",
   "status": "proved",
   "theorems": [
    "C111_residual",
    "C111_best",
    "C111_fit",
    "C111_covariances",
    "C111_broken",
    "C111_broken_fit"
   ],
   "note": ""
  },
  {
   "property": "C112",
   "status": "proved",
   "theorems": [
    "C112_field",
    "C112_turns",
    "C112_stored"
   ],
   "note": ""
  },
  {
   "property": "C113",
   "status": "proved",
   "theorems": [
    "C113_field",
    "C113_pattern",
    "C113_power",
    "C113_exceptions"
   ],
   "note": ""
  },
  {
   "property": "C114",
   "status": "proved",
   "theorems": [
    "C114_map",
    "C114_norm",
    "C114_residual",
    "C114_outside"
   ],
   "note": ""
  },
  {
   "property": "C115",
   "status": "proved",
   "theorems": [
    "C115_batch_telescope",
    "C115_mpi_telescopes",
    "C115_orders",
    "C115_simulation"
   ],
   "note": ""
  },
  {
   "property": "C116",
   "status": "proved",
   "theorems": [
    "C116_reported",
    "C116_success",
    "C116_stopped",
    "C116_rerun",
    "C116_any_file",
    "C116_unanswered_refuted",
    "C116_overwritten_refuted"
   ],
   "note": ""
  },
  {
   "property": "C117",
   "status": "proved",
   "theorems": [
    "C117_table",
    "C117_figures",
    "C117_pool_table",
    "C117_pool_figures",
    "C117_rows_table",
    "C117_rows_figures",
    "C117_rows_seen",
    "C117_early"
   ],
   "note": ""
  },
  {
   "property": "C118",
   "status": "proved",
   "theorems": [
    "C118_sum",
    "C118_cost",
    "C118_order",
    "C118_best",
    "C118_fit"
   ],
   "note": ""
  },
  {
   "property": "C119",
   "status": "proved",
   "theorems": [
    "C119_illumination",
    "C119_field",
    "C119_pattern",
    "C119_power",
    "C119_exceptions"
   ],
   "note": ""
  },
  {
   "property": "C120",
   "status": "proved",
   "theorems": [
    "C120_mask",
    "C120_path",
    "C120_field",
    "C120_pattern",
    "C120_power",
    "C120_exceptions"
   ],
   "note": ""
  },
  {
   "property": "C121",
   "status": "proved",
   "theorems": [
    "C121_map",
    "C121_residual",
    "C121_outside",
    "C121_cost",
    "C121_order",
    "C121_best",
    "C121_fit"
   ],
   "note": ""
  },
  {
   "property": "C122",
   "status": "proved",
   "theorems": [
    "C122_map",
    "C122_residual",
    "C122_outside",
    "C122_cost",
    "C122_order",
    "C122_best",
    "C122_fit"
   ],
   "note": ""
  },
  {
   "property": "C123",
   "status": "proved",
   "theorems": [
    "C123_field",
    "C123_pattern",
    "C123_power",
    "C123_exceptions",
    "C123_map",
    "C123_residual",
    "C123_outside",
    "C123_cost",
    "C123_order",
    "C123_best",
    "C123_fit"
   ],
   "note": ""
  },
  {
   "property": "C124",
   "status": "proved",
   "theorems": [
    "C124_read",
    "C124_count",
    "C124_one_meaning",
    "C124_written"
   ],
   "note": ""
  }
 ]
}
