{
 "claims": [
  {
   "property": "C01",
   "status": "proved",
   "theorems": [
    "C01_slant_range_is_distance",
    "C01_slant_range_symmetric",
    "C01_slant_range_overhead",
    "C01_slant_range_increasing"
   ],
   "note": ""
  },
  {
   "property": "C02",
   "status": "proved",
   "theorems": [
    "C02_nadir_is_geometric_angle",
    "C02_nadir_overhead_is_zero",
    "C02_nadir_raises_iff",
    "C02_nadir_nan_iff"
   ],
   "note": ""
  },
  {
   "property": "C03",
   "status": "proved",
   "theorems": [
    "C03_path_is_the_segment",
    "C03_path_endpoints",
    "C03_zero_length_path_raises"
   ],
   "note": ""
  },
  {
   "property": "C04",
   "status": "proved",
   "theorems": [
    "C04_path_below_higher_end"
   ],
   "note": ""
  },
  {
   "property": "C05",
   "status": "proved",
   "theorems": [
    "C05_elevation_sine_positive",
    "C05_elevation_offset",
    "C05_elevation_at_target_refuted"
   ],
   "note": "finding: the elevation angle fed to the image-quality equations is larger than the elevation angle at the target by ground_range/r_earth (C05_elevation_at_target_refuted)"
  },
  {
   "property": "C06",
   "status": "proved",
   "theorems": [
    "C06_noise_gain_raises_iff",
    "C06_noise_gain_is_std_ratio",
    "C06_noise_gain_value",
    "C06_noise_gain_lower_bound",
    "C06_noise_gain_minimal_iff_box",
    "C06_smoothing_never_amplifies",
    "C06_identity_kernel_gain_one"
   ],
   "note": ""
  },
  {
   "property": "C07",
   "status": "proved",
   "theorems": [
    "C07_decimal_kernel_accepted_refuted",
    "C07_witness_in_every_order",
    "C07_exact_kernel_raises_iff",
    "C07_exact_kernel_gain",
    "C07_quarters"
   ],
   "note": "finding: noise_gain rejects the kernel [-0.08, 1.16, -0.08] (and others) because of binary64 rounding; the natural claim is refuted"
  },
  {
   "property": "C08",
   "status": "proved",
   "theorems": [
    "C08_quantization_noise_is_uniform_std",
    "C08_quantization_noise_decreasing",
    "C08_quantization_noise_linear",
    "C08_quantization_noise_zero_bits",
    "C08_quantization_noise_whole_bits"
   ],
   "note": ""
  },
  {
   "property": "C09",
   "status": "proved",
   "theorems": [
    "C09_exact_lookup_succeeds_iff_listed",
    "C09_exact_lookup_row_unique",
    "C09_exact_lookup_total",
    "C09_unlisted_raises",
    "C09_missing_file_raises",
    "C09_damaged_file_raises",
    "C09_exact_lookup_columns",
    "C09_file_holds_one_key"
   ],
   "note": ""
  },
  {
   "property": "C10",
   "status": "proved",
   "theorems": [
    "C10_out_of_range_rejected",
    "C10_atmosphere_or_index_error"
   ],
   "note": ""
  },
  {
   "property": "C11",
   "status": "proved",
   "theorems": [
    "C11_exact_at_nodes"
   ],
   "note": ""
  },
  {
   "property": "C12",
   "status": "proved",
   "theorems": [
    "C12_result_is_blend_of_tightest_nodes",
    "C12_entries_stay_within_stored_bounds",
    "C12_transmission_stays_in_unit_interval",
    "C12_radiance_columns_stay_nonnegative"
   ],
   "note": ""
  },
  {
   "property": "C13",
   "status": "proved",
   "theorems": [
    "C13_wavelength_grid",
    "C13_wavelength_grid_exact_lookup"
   ],
   "note": "exact arithmetic; in binary64 the column changes in the last places (C117_wavelength_kept_refuted), which changes the samples of a band (C118)"
  },
  {
   "property": "C14",
   "status": "proved",
   "theorems": [
    "C14_every_altitude_available_refuted",
    "C14_gap_always_fails",
    "C14_documented_altitude_missing",
    "C14_success_set"
   ],
   "note": "finding: the interpolation grid lists 32.55 m but the database stores 0.0325 km; every altitude in (2, 75) m raises IndexError and the documented altitude 32.55 m is never available without interpolation (natural claim refuted, exact success set proved)"
  },
  {
   "property": "C15",
   "status": "proved",
   "theorems": [
    "C15_affine_in_altitude",
    "C15_affine_in_range",
    "C15_continuous_in_altitude",
    "C15_continuous_in_range"
   ],
   "note": ""
  },
  {
   "property": "C16",
   "status": "proved",
   "theorems": [
    "C16_atm_never_stale",
    "C16_atm_like_fresh_scenario",
    "C16_returned_arrays_are_kept"
   ],
   "note": ""
  },
  {
   "property": "C17",
   "status": "proved",
   "theorems": [
    "C17_loads_bounded_by_invalidations",
    "C17_second_read_is_free"
   ],
   "note": ""
  },
  {
   "property": "C18",
   "status": "proved",
   "theorems": [
    "C18_failed_read_changes_nothing",
    "C18_failed_read_invisible_in_history"
   ],
   "note": ""
  },
  {
   "property": "C19",
   "status": "proved",
   "theorems": [
    "C19_atm_unaffected_by_caller_refuted",
    "C19_returned_array_is_the_cache"
   ],
   "note": "finding: the array returned by Scenario.atm is the cache itself, so in-place edits by the caller leak into later reads (natural claim refuted)"
  },
  {
   "property": "C20",
   "status": "proved",
   "theorems": [
    "C20_square_full_fill_by_default",
    "C20_given_values_are_stored",
    "C20_arguments_are_stored",
    "C20_default_values",
    "C20_same_fill_factor_refuted",
    "C20_fill_factors_are_reciprocal",
    "C20_same_fill_factor_only_when_full",
    "C20_partial_fill_gives_overlapping_detectors",
    "C20_zero_width_raises"
   ],
   "note": "finding: an omitted w_y gets the reciprocal of the documented fill factor, so a partial fill in x yields a detector wider than its pitch in y"
  },
  {
   "property": "C21",
   "status": "proved",
   "theorems": [
    "C21_default_calibration",
    "C21_percentile_rank",
    "C21_percentile_value",
    "C21_percentile_of_one",
    "C21_given_calibration_is_stored",
    "C21_pixels_without_reflectance_rejected",
    "C21_reflectance_without_pixels_discarded"
   ],
   "note": ""
  },
  {
   "property": "C22",
   "status": "proved",
   "theorems": [
    "C22_capture_parameters_match_image",
    "C22_capture_fixed_values",
    "C22_zero_gsd_raises",
    "C22_zero_altitude_raises",
    "C22_default_scenario_has_no_atmosphere",
    "C22_baseline_undersampled"
   ],
   "note": "Findings: the scenario returned for the default altitude has no database atmosphere (IndexError); the estimated camera is undersampled by simulate_image's own guide (C22_baseline_undersampled)."
  },
  {
   "property": "C23",
   "status": "proved",
   "theorems": [
    "C23_blackbody_is_planck_and_positive",
    "C23_blackbody_increasing",
    "C23_blackbody_array"
   ],
   "note": ""
  },
  {
   "property": "C24",
   "status": "proved",
   "theorems": [
    "C24_wien_scaling",
    "C24_rayleigh_jeans_bound",
    "C24_absolute_zero"
   ],
   "note": ""
  },
  {
   "property": "C25",
   "status": "proved",
   "theorems": [
    "C25_irradiance_is_cone_factor",
    "C25_irradiance_bounds",
    "C25_slower_lens_is_darker",
    "C25_only_the_f_number_matters",
    "C25_raises_iff_no_aperture"
   ],
   "note": ""
  },
  {
   "property": "C26",
   "status": "proved",
   "theorems": [
    "C26_isothermal_interior",
    "C26_cold_stop_value",
    "C26_optics_value"
   ],
   "note": ""
  },
  {
   "property": "C27",
   "status": "proved",
   "theorems": [
    "C27_photon_count",
    "C27_wrong_qe_length_raises",
    "C27_wrong_irradiance_length_raises"
   ],
   "note": ""
  },
  {
   "property": "C28",
   "status": "proved",
   "theorems": [
    "C28_resampling_reads_the_table",
    "C28_reading_is_unique",
    "C28_resampling_bounds",
    "C28_raises_iff"
   ],
   "note": ""
  },
  {
   "property": "C29",
   "status": "proved",
   "theorems": [
    "C29_total_radiance_value",
    "C29_total_radiance_affine",
    "C29_hotter_is_brighter",
    "C29_mirror_ignores_temperature",
    "C29_surface_column_unused"
   ],
   "note": ""
  },
  {
   "property": "C30",
   "status": "proved",
   "theorems": [
    "C30_emissive_target_is_brighter",
    "C30_emissive_scene",
    "C30_reflective_scene"
   ],
   "note": ""
  },
  {
   "property": "C31",
   "status": "proved",
   "theorems": [
    "C31_signal_rate_value",
    "C31_signal_rate_affine",
    "C31_signal_rate_monotone"
   ],
   "note": ""
  },
  {
   "property": "C32",
   "status": "proved",
   "theorems": [
    "C32_well_fill",
    "C32_well_fill_binary64_refuted"
   ],
   "note": "exact arithmetic: proved. finding: in binary64 max_fill/total*total can exceed max_fill (25 electrons, limit 7)"
  },
  {
   "property": "C33",
   "status": "proved",
   "theorems": [
    "C33_no_overfill",
    "C33_counts"
   ],
   "note": ""
  },
  {
   "property": "C34",
   "status": "proved",
   "theorems": [
    "C34_swap_flips_sign",
    "C34_equal_scenes_give_zero"
   ],
   "note": ""
  },
  {
   "property": "C35",
   "status": "proved",
   "theorems": [
    "C35_noise_budget",
    "C35_noise_terms"
   ],
   "note": ""
  },
  {
   "property": "C36",
   "status": "proved",
   "theorems": [
    "C36_more_exposure_never_hurts"
   ],
   "note": "proved without the unsaturated restriction: |SNR| never decreases with exposure and is constant once the well is full"
  },
  {
   "property": "C37",
   "status": "proved",
   "theorems": [
    "C37_curve_within_well",
    "C37_overexposure_shortens_exposure",
    "C37_no_limit_when_it_fits",
    "C37_counts_nonnegative",
    "C37_no_band_raises",
    "C37_out_of_band_rows_ignored"
   ],
   "note": ""
  },
  {
   "property": "C38",
   "status": "proved",
   "theorems": [
    "C38_counts_are_physical",
    "C38_trend",
    "C38_interpolation_exact"
   ],
   "note": ""
  },
  {
   "property": "C39",
   "status": "proved",
   "theorems": [
    "C39_weights",
    "C39_weight_values"
   ],
   "note": "weights come from the last loop iteration (reflectance 1), so they exclude the target's own emission; with no signal at reflectance 1 they are NaN, not an error"
  },
  {
   "property": "C40",
   "status": "proved",
   "theorems": [
    "C40_target_temp_ignored",
    "C40_count_at_target_temp_refuted"
   ],
   "note": "finding: the target_temp argument is ignored, 300 K is hard-coded; the documented reading is refuted with a thermal-camera witness"
  },
  {
   "property": "C41",
   "status": "proved",
   "theorems": [
    "C41_unobscured_is_mtf",
    "C41_monotone_in_radius"
   ],
   "note": ""
  },
  {
   "property": "C42",
   "status": "proved",
   "theorems": [
    "C42_overlap_of_discs",
    "C42_spec_sane"
   ],
   "note": ""
  },
  {
   "property": "C43",
   "status": "proved",
   "theorems": [
    "C43_overlap_of_annuli",
    "C43_obscured_is_mtf",
    "C43_boundary_cases"
   ],
   "note": ""
  },
  {
   "property": "C44",
   "status": "proved",
   "theorems": [
    "C44_zero_defocus"
   ],
   "note": ""
  },
  {
   "property": "C45",
   "status": "proved",
   "theorems": [
    "C45_defocus_finite",
    "C45_defocus_limit"
   ],
   "note": ""
  },
  {
   "property": "C46",
   "status": "proved",
   "theorems": [
    "C46_cte_range",
    "C46_cte_periodic",
    "C46_cte_transfers_compose",
    "C46_cte_at_nyquist",
    "C46_cte_at_half_nyquist"
   ],
   "note": ""
  },
  {
   "property": "C47",
   "status": "proved",
   "theorems": [
    "C47_jitter_mtf",
    "C47_independent_jitters_add_in_quadrature",
    "C47_curvature_is_variance",
    "C47_jitter_value"
   ],
   "note": ""
  },
  {
   "property": "C48",
   "status": "proved",
   "theorems": [
    "C48_detector_is_transform_of_pixel",
    "C48_detector_bounds_and_zeros",
    "C48_zero_focal_length"
   ],
   "note": ""
  },
  {
   "property": "C49",
   "status": "proved",
   "theorems": [
    "C49_one_pixel",
    "C49_full_fill_is_one_big_detector",
    "C49_bounded",
    "C49_no_pixels_raises",
    "C49_array_factor",
    "C49_in_phase"
   ],
   "note": ""
  },
  {
   "property": "C50",
   "status": "proved",
   "theorems": [
    "C50_diffusion_mtf",
    "C50_diffusion_value"
   ],
   "note": ""
  },
  {
   "property": "C51",
   "status": "proved",
   "theorems": [
    "C51_drift_is_transform_of_smear",
    "C51_drift_along_one_axis",
    "C51_drift_bounds_and_zeros"
   ],
   "note": ""
  },
  {
   "property": "C52",
   "status": "proved",
   "theorems": [
    "C52_bounds",
    "C52_grid_samples",
    "C52_periodic",
    "C52_zero_ifov",
    "C52_reading",
    "C52_one_reading"
   ],
   "note": ""
  },
  {
   "property": "C53",
   "status": "proved",
   "theorems": [
    "C53_zero_frequency_is_one_refuted",
    "C53_where_the_sum_is"
   ],
   "note": "finding: the natural claim is refuted; for the two-tap mean filter the value at zero frequency is (1+cos(pi/100))/2 for every triangulation, and the sum of the kernel is found at Nyquist/99"
  },
  {
   "property": "C54",
   "status": "proved",
   "theorems": [
    "C54_gaussian_mtf",
    "C54_cutoff_value",
    "C54_zero_blur_raises",
    "C54_defocus_mtf",
    "C54_gaussian_value",
    "C54_defocus_value"
   ],
   "note": ""
  },
  {
   "property": "C55",
   "status": "proved",
   "theorems": [
    "C55_in_cutoff",
    "C55_short_vs_long",
    "C55_monotone_in_r0",
    "C55_infinite_r0",
    "C55_five_thirds_law"
   ],
   "note": ""
  },
  {
   "property": "C56",
   "status": "proved",
   "theorems": [
    "C56_between",
    "C56_monotone",
    "C56_zero_r0_raises",
    "C56_weight"
   ],
   "note": ""
  },
  {
   "property": "C57",
   "status": "proved",
   "theorems": [
    "C57_whole_steps",
    "C57_fractional_steps_exceed_one",
    "C57_mean_of_steps",
    "C57_magnitude"
   ],
   "note": ""
  },
  {
   "property": "C58",
   "status": "proved",
   "theorems": [
    "C58_wavefront_range",
    "C58_wavefront_monotone",
    "C58_wavefront_2",
    "C58_wavefront_value",
    "C58_wavefront_2_parabola"
   ],
   "note": ""
  },
  {
   "property": "C59",
   "status": "proved",
   "theorems": [
    "C59_weighted_average",
    "C59_stays_in_range",
    "C59_weights_are_relative"
   ],
   "note": ""
  },
  {
   "property": "C60",
   "status": "proved",
   "theorems": [
    "C60_duplicate_raises",
    "C60_average_of_one_is_one_refuted",
    "C60_length_mismatch_raises",
    "C60_single_wavelength_mismatch_is_silent",
    "C60_empty_raises"
   ],
   "note": "finding: duplicate wavelengths raise ValueError or silently break the average; one wavelength with several weights is silently scaled by w0/sum(w)"
  },
  {
   "property": "C61",
   "status": "proved",
   "theorems": [
    "C61_scales_with_wavelength",
    "C61_scales_with_turbulence",
    "C61_decreasing",
    "C61_finite",
    "C61_no_turbulence",
    "C61_scaling_from_one_micron",
    "C61_fried_formula"
   ],
   "note": ""
  },
  {
   "property": "C62",
   "status": "proved",
   "theorems": [
    "C62_profile",
    "C62_published_formula"
   ],
   "note": ""
  },
  {
   "property": "C63",
   "status": "proved",
   "theorems": [
    "C63_object_radii",
    "C63_object_radii_value",
    "C63_object_radii_zero_range",
    "C63_image_radii_linear",
    "C63_image_radii_zero_focal_length",
    "C63_dark_current_round_trip"
   ],
   "note": ""
  },
  {
   "property": "C64",
   "status": "proved",
   "theorems": [
    "C64_system_is_product",
    "C64_system_mtf",
    "C64_every_factor",
    "C64_never_amplifies",
    "C64_wider_bands_refuted"
   ],
   "note": "the product structure is proved with and without a filter kernel; the value at zero frequency and the bounds are for the case without one (see C53 for why a filter breaks them). Finding: for bands of more than three octaves the short-exposure turbulence formula, beyond eight times the cutoff of the longer wavelength, is unbounded and so is its weighted mean (C64_wider_bands_refuted)."
  },
  {
   "property": "C65",
   "status": "proved",
   "theorems": [
    "C65_no_turbulence_blur",
    "C65_geometry_is_irrelevant"
   ],
   "note": ""
  },
  {
   "property": "C66",
   "status": "proved",
   "theorems": [
    "C66_along_u",
    "C66_along_v",
    "C66_range",
    "C66_errors"
   ],
   "note": ""
  },
  {
   "property": "C67",
   "status": "proved",
   "theorems": [
    "C67_first_quadrant",
    "C67_every_angle_refuted",
    "C67_what_is_returned",
    "C67_minus_u"
   ],
   "note": "The full statement is refuted; the first-quadrant case and what is returned at every other angle are proved."
  },
  {
   "property": "C68",
   "status": "proved",
   "theorems": [
    "C68_unit_sum"
   ],
   "note": ""
  },
  {
   "property": "C69",
   "status": "proved",
   "theorems": [
    "C69_support",
    "C69_small_arrays",
    "C69_zero_spacing",
    "C69_direct_call",
    "C69_direct_call_zero",
    "C69_numpy_spacing"
   ],
   "note": ""
  },
  {
   "property": "C70",
   "status": "proved",
   "theorems": [
    "C70_even",
    "C70_every_size_refuted",
    "C70_odd",
    "C70_odd_modulated"
   ],
   "note": "Even sizes proved; refuted for odd sizes, where the exact effect (frequencies off by one, a cosine factor on the kernel of a real system) is proved."
  },
  {
   "property": "C71",
   "status": "proved",
   "theorems": [
    "C71_large_enough",
    "C71_every_size_refuted",
    "C71_too_small"
   ],
   "note": "Proved when the array is large enough; the statement for every size is refuted and the off-centre crop characterised."
  },
  {
   "property": "C72",
   "status": "proved",
   "theorems": [
    "C72_size",
    "C72_equal_spacing",
    "C72_samples",
    "C72_zero_spacing",
    "C72_zero_spacing_numpy",
    "C72_both_zero"
   ],
   "note": "The ZeroDivisionError is proved for Python spacings; numpy spacings of zero raise OverflowError, also proved."
  },
  {
   "property": "C73",
   "status": "proved",
   "theorems": [
    "C73_blur_constant",
    "C73_blur_range",
    "C73_blur_linear",
    "C73_blur_identity",
    "C73_resize_constant",
    "C73_resize_range",
    "C73_resize_linear",
    "C73_blur_value",
    "C73_resize_value"
   ],
   "note": ""
  },
  {
   "property": "C74",
   "status": "proved",
   "theorems": [
    "C74_uniform",
    "C74_sizes",
    "C74_linear",
    "C74_range",
    "C74_perfect_system",
    "C74_zero_range",
    "C74_zero_ifov",
    "C74_zero_range_numpy",
    "C74_zero_gsd_zero_range"
   ],
   "note": ""
  },
  {
   "property": "C75",
   "status": "proved",
   "theorems": [
    "C75_edge_response_is_sine_integral",
    "C75_antisymmetric",
    "C75_half_at_the_edge",
    "C75_relative_edge_response",
    "C75_scale",
    "C75_linear",
    "C75_slope_bounds"
   ],
   "note": ""
  },
  {
   "property": "C76",
   "status": "proved",
   "theorems": [
    "C76_overshoot"
   ],
   "note": ""
  },
  {
   "property": "C77",
   "status": "proved",
   "theorems": [
    "C77_detector_limit",
    "C77_resolved_frequency",
    "C77_better_with_snr"
   ],
   "note": ""
  },
  {
   "property": "C78",
   "status": "proved",
   "theorems": [
    "C78_monotone",
    "C78_scaling",
    "C78_formula",
    "C78_no_contrast_in_the_edge"
   ],
   "note": ""
  },
  {
   "property": "C79",
   "status": "proved",
   "theorems": [
    "C79_monotone",
    "C79_formula",
    "C79_overhead",
    "C79_rer_on_one_side",
    "C79_rer_fine_sampling",
    "C79_rer_drop",
    "C79_rer_monotone_refuted",
    "C79_published_difference",
    "C79_published_refuted"
   ],
   "note": "finding: monotone in everything but RER; at RER 0.9 the rating drops whenever the ground-plane GSD is above 2.291 inches (refuted), and does not when it is below 2.289 inches; finding: coefficient 0.334 of G/SNR where the published equation has 0.344 (the constant is from the literature, the repository holds no copy of the paper)"
  },
  {
   "property": "C80",
   "status": "proved",
   "theorems": [
    "C80_symmetric",
    "C80_mean",
    "C80_formula",
    "C80_two_edges",
    "C80_gsd_and_elevation",
    "C80_monotone",
    "C80_documented_case",
    "C80_one_reversed",
    "C80_reversal_lowers_refuted",
    "C80_both_reversed"
   ],
   "note": "finding: one negative edge response is squared away"
  },
  {
   "property": "C81",
   "status": "proved",
   "theorems": [
    "C81_visible_light",
    "C81_infrared",
    "C81_no_atmosphere",
    "C81_infrared_defaults_refuted"
   ],
   "note": "finding: in infrared the second assignment writes target_temperature = 280 again instead of background_temperature; the documented state is refuted and the actual state proved"
  },
  {
   "property": "C82",
   "status": "proved",
   "theorems": [
    "C82_forgets_kernel",
    "C82_forgets_error",
    "C82_order_independent_refuted"
   ],
   "note": "finding: order independence refuted; niirs after niirs5 always has noise gain 1, and a kernel that niirs rejects is accepted after niirs5"
  },
  {
   "property": "C83",
   "status": "proved",
   "theorems": [
    "C83_niirs_idempotent",
    "C83_niirs5_idempotent"
   ],
   "note": ""
  },
  {
   "property": "C84",
   "status": "proved",
   "theorems": [
    "C84_niirs_noise",
    "C84_niirs5_noise"
   ],
   "note": ""
  },
  {
   "property": "C85",
   "status": "proved",
   "theorems": [
    "C85_stacking",
    "C85_rating",
    "C85_niirs_inputs",
    "C85_niirs5_inputs",
    "C85_niirs",
    "C85_niirs5"
   ],
   "note": "finding: for a target darker than its background the snr is negative, and stacking frames lowers the GIQE 3, 4 and 5 ratings; the GIQE 5 theorem asks for an edge response of at most 1.9 (bright target) or 1 (dark target)"
  },
  {
   "property": "C86",
   "status": "proved",
   "theorems": [
    "C86_grid"
   ],
   "note": ""
  },
  {
   "property": "C87",
   "status": "proved",
   "theorems": [
    "C87_value",
    "C87_unique",
    "C87_calibration_points",
    "C87_monotone",
    "C87_order_irrelevant",
    "C87_shape_errors",
    "C87_two_distinct_values_refuted",
    "C87_single_point_raises_refuted",
    "C87_single_point_nan"
   ],
   "note": "finding: the docstring's ValueError for fewer than two calibration points does not happen (NaN image instead); repeated pixel values give NaN"
  },
  {
   "property": "C88",
   "status": "proved",
   "theorems": [
    "C88_pipeline",
    "C88_given_calibration",
    "C88_default_calibration",
    "C88_uniform_scene",
    "C88_success"
   ],
   "note": "the success theorem needs a point spread function without negative values; C96 shows that a negative blurred pixel makes the function raise; C98 is a class where everything is discharged"
  },
  {
   "property": "C89",
   "status": "proved",
   "theorems": [
    "C89_inverse_filter",
    "C89_product",
    "C89_normalised",
    "C89_optimal",
    "C89_nothing_left"
   ],
   "note": ""
  },
  {
   "property": "C90",
   "status": "proved",
   "theorems": [
    "C90_levels",
    "C90_order",
    "C90_gain_and_offset_irrelevant",
    "C90_constant_image",
    "C90_bad_percentiles"
   ],
   "note": "finding: a constant image has no 8-bit value (0/0)"
  },
  {
   "property": "C91",
   "status": "proved",
   "theorems": [
    "C91_variance",
    "C91_noiseless",
    "C91_no_converter",
    "C91_pixel_statistics"
   ],
   "note": ""
  },
  {
   "property": "C92",
   "status": "proved",
   "theorems": [
    "C92_compose",
    "C92_zero_focal_length",
    "C92_small_angle"
   ],
   "note": ""
  },
  {
   "property": "C93",
   "status": "proved",
   "theorems": [
    "C93_valid_path",
    "C93_overhead",
    "C93_error",
    "C93_same_range_refuted"
   ],
   "note": "refuted that both ranges agree: altitude 2000 m, ground range 1000 m"
  },
  {
   "property": "C94",
   "status": "proved",
   "theorems": [
    "C94_small_kernel"
   ],
   "note": ""
  },
  {
   "property": "C95",
   "status": "proved",
   "theorems": [
    "C95_niirs_succeeds",
    "C95_kernel_not_normalised",
    "C95_niirs5_succeeds",
    "C95_niirs_contrast",
    "C95_niirs5_contrast",
    "C95_niirs_edges",
    "C95_niirs5_edges",
    "C95_niirs_rated"
   ],
   "note": ""
  },
  {
   "property": "C96",
   "status": "proved",
   "theorems": [
    "C96_no_signal",
    "C96_flat_reference_image",
    "C96_negative_pixel"
   ],
   "note": "findings: three classes of inputs for which simulate_image cannot produce an image; NonFinite marks NaN that reaches the Poisson draw"
  },
  {
   "property": "C97",
   "status": "proved",
   "theorems": [
    "C97_psf_is_modulated"
   ],
   "note": "finding: the PSF carries a one-period cosine (consequence of C70 for the fixed odd size 1501)"
  },
  {
   "property": "C98",
   "status": "proved",
   "theorems": [
    "C98_coarse_scene"
   ],
   "note": ""
  },
  {
   "property": "C99",
   "status": "proved",
   "theorems": [
    "C99_centre_and_symmetry",
    "C99_nonnegative"
   ],
   "note": ""
  },
  {
   "property": "C100",
   "status": "proved",
   "theorems": [
    "C100_uses_current_atmosphere",
    "C100_loads_once",
    "C100_load_error"
   ],
   "note": ""
  },
  {
   "property": "C101",
   "status": "proved",
   "theorems": [
    "C101_attribute_reads_last_assignment",
    "C101_unassigned_attribute_keeps_initial_value",
    "C101_parameters_read_back"
   ],
   "note": ""
  },
  {
   "property": "C102",
   "status": "proved",
   "theorems": [
    "C102_integrated_irradiance_value",
    "C102_dark_scene_is_optics_emission",
    "C102_no_aperture_raises"
   ],
   "note": ""
  },
  {
   "property": "C103",
   "status": "proved",
   "theorems": [
    "C103_in_focus",
    "C103_quarter_wave",
    "C103_defocus_is_diffraction_refuted"
   ],
   "note": "finding: the series closes a parenthesis late (sin(2 beta (J1 - J3)) instead of sin(2 beta) (J1 - J3)) and its prefactor is 2/(pi alpha) instead of 4/(pi alpha), so the function is not the diffraction OTF of a defocused pupil"
  },
  {
   "property": "C104",
   "status": "proved",
   "theorems": [
    "C104_symmetric_kernel",
    "C104_displacement_refuted",
    "C104_moves_backwards"
   ],
   "note": "finding: filter2D correlates, so the phase of a complex OTF (tdi_OTF, filter_OTF of an asymmetric kernel) acts in the wrong direction; equality holds for symmetric kernels of odd size"
  },
  {
   "property": "C105",
   "status": "proved",
   "theorems": [
    "C105_niirs_budget",
    "C105_niirs5_budget",
    "C105_bars_alone"
   ],
   "note": ""
  },
  {
   "property": "C106",
   "status": "proved",
   "theorems": [
    "C106_niirs_chart",
    "C106_niirs5_chart",
    "C106_always_raises",
    "C106_returns_refuted"
   ],
   "note": "finding: every call ends in an exception (misspelt keyword arguments of annotate); the list of keywords that matplotlib knows is part of the trusted base"
  },
  {
   "property": "C107",
   "status": "proved",
   "theorems": [
    "C107_horizon_distance",
    "C107_stored_up_to_the_horizon",
    "C107_interpolated_only_in_sight",
    "C107_in_sight_suffices_refuted",
    "C107_in_sight_rejected",
    "C107_documented_look_from_space_refuted",
    "C107_look_from_space"
   ],
   "note": "findings: the README announces a nadir look from 500 km, but the table stores 550 km (500 km raises IndexError); a target in sight between grid points can be rejected because the far corner of its cell lies behind the horizon (2500 m, 159 km)"
  },
  {
   "property": "C108",
   "status": "proved",
   "theorems": [
    "C108_niirs",
    "C108_niirs5",
    "C108_bright_target",
    "C108_dark_target_refuted"
   ],
   "note": "finding: for a camera whose optics pass light below 2.9 microns but whose detector works at 8-12 microns, the standard target is darker than the background at night; the SNR is negative and then more noise never lowers a rating"
  },
  {
   "property": "C109",
   "status": "proved",
   "theorems": [
    "C109_niirs5",
    "C109_niirs"
   ],
   "note": ""
  },
  {
   "property": "C110",
   "status": "proved",
   "theorems": [
    "C110_eighths_exact",
    "C110_slant_range",
    "C110_niirs_nan",
    "C110_simulate_nan",
    "C110_flight_levels",
    "C110_shorter",
    "C110_system_nan",
    "C110_rating_nan",
    "C110_never_nan_refuted"
   ],
   "note": "Finding: the claim that nadir_angle never returns nan when looking straight down is refuted in binary64 (C110_never_nan_refuted). From 40 percent of the decimetre altitudes, 2000 ft among them, the argument of np.arccos exceeds one by rounding and niirs/niirs5 (interp=True) silently return nan; simulate_image with interp=True has the same failure at other altitudes. Whole metres are exact (C110_eighths_exact). np.cos and np.arccos enter only through np.cos(0) = 1 and np.arccos(x) = nan for x > 1."
  },
  {
   "property": "C111",
   "status": "proved",
   "theorems": [
    "C111_contrast",
    "C111_niirs",
    "C111_niirs5",
    "C111_orientation_refuted"
   ],
   "note": "niirs is stated for cameras without a sharpening mask (at most one row); niirs5 drops the mask anyway. That the GIQE 5 rating does not depend on the orientation is refuted for unequal pitches (C111_orientation_refuted): niirs5 uses gsd_x only, as a comment in the source admits (GIQE5 assumes all square detectors), but nothing checks it"
  },
  {
   "property": "C112",
   "status": "proved",
   "theorems": [
    "C112_calibration",
    "C112_gain",
    "C112_polarity",
    "C112_negative",
    "C112_negative_simulated"
   ],
   "note": "Pixel values are real numbers: an image whose remapped values would be clipped or rounded by its integer type is outside the statement. The complement of the blurred image is stated inside the frame and for cameras, scenes and geometries on which the simulation is meant to work; nothing is said about the noisy image of a negative, whose shot noise follows another signal"
  },
  {
   "property": "C113",
   "status": "proved",
   "theorems": [
    "C113_target_description_unused",
    "C113_replay",
    "C113_replay_refuted",
    "C113_isolation",
    "C113_pictures_unsharpened"
   ],
   "note": "finding: the target and background attributes of a scenario influence none of the three functions (documented for the niirs models, which override them; not documented for simulate_image, which never reads them); finding (C113_replay_refuted): order independence without the condition on the sharpening filter is false, because niirs5 overwrites the filter of the caller's sensor, which also changes later pictures"
  },
  {
   "property": "C114",
   "status": "proved",
   "theorems": [
    "C114_simulate_image",
    "C114_reference",
    "C114_photoelectrons"
   ],
   "note": "Stated for cameras without a sharpening mask (at most one row): with a mask the mask would have to be transposed too, and filter_OTF takes p_x for both axes."
  },
  {
   "property": "C115",
   "status": "proved",
   "theorems": [
    "C115_resample_size_f64",
    "C115_resample_own_f64",
    "C115_psf_size_f64",
    "C115_psf_own_f64",
    "C115_psf_power_f64",
    "C115_psf_own_refuted",
    "C115_psf_own_count",
    "C115_capture_f64",
    "C115_capture_matches",
    "C115_matched_camera",
    "C115_zero_spacing_f64"
   ],
   "note": "Finding: that otf_to_psf keeps its size when asked for its own spacing is refuted in binary64 (C115_psf_own_refuted): it cuts the quotient with int() where resample_2D rounds, so for 61 of the frequency spacings 1..1000 a 1501 x 1501 function comes back with 1500 samples a side and is interpolated needlessly; never for powers of two (C115_psf_power_f64). The binary64 statements cover the size computations; the statement about simulate_image is about real numbers."
  },
  {
   "property": "C116",
   "status": "proved",
   "theorems": [
    "C116_kernel",
    "C116_plane",
    "C116_simulate",
    "C116_half_pixel",
    "C116_few_pixels",
    "C116_undisplaced_refuted",
    "C116_baseline_frame",
    "C116_baseline",
    "C116_baseline_frame_database",
    "C116_baseline_database"
   ],
   "note": "Findings. That perfect optics (transfer function one everywhere) leave the picture alone is refuted (C116_undisplaced_refuted). A frame one pixel narrower than it has samples, which C115 shows rounding can produce, averages every pixel with its neighbours above and to the left (C116_half_pixel). Frames of 5, 7 and 9 pixels displace the picture by one or two whole pixels, because get_middle wraps around when the crop is larger than the array (C116_few_pixels). Real numbers; the true image stands for the reference image turned into photoelectrons. C116_baseline speaks of runs that return pictures; its example shows the other hypotheses for a concrete camera and atmosphere, since the sum of the 131 x 131 point spread function has not been bounded away from zero for it."
  },
  {
   "property": "C117",
   "status": "proved",
   "theorems": [
    "C117_lookup",
    "C117_lookup_one_row",
    "C117_lookup_else",
    "C117_lookup_tiny",
    "C117_grid",
    "C117_not_finite",
    "C117_out_of_range",
    "C117_gap",
    "C117_below",
    "C117_else",
    "C117_bounds",
    "C117_transmission",
    "C117_same_answers",
    "C117_close",
    "C117_wavelength_lookup",
    "C117_wavelength_kept_refuted",
    "C117_wavelength_changed",
    "C117_wavelength_close"
   ],
   "note": "Finding: that interpolation keeps the wavelength column (C13, true in exact arithmetic) is refuted in binary64 (C117_wavelength_kept_refuted): the two weighted wavelengths do not add up to the wavelength, from 1200 m 456 of the 1371 samples change in the last place. The conversion of the radiances from single precision is not modelled; the files hold arbitrary binary64 numbers. C117_lookup_tiny: a range too small to survive the division by 1000 counts as zero."
  },
  {
   "property": "C118",
   "status": "proved",
   "theorems": [
    "C118_band",
    "C118_first_mark_refuted",
    "C118_first_mark_lost",
    "C118_last_mark_lost",
    "C118_capture_rows",
    "C118_example_rows",
    "C118_band_fixed_refuted",
    "C118_example_loses",
    "C118_capture_gains",
    "C118_answered",
    "C118_emissive",
    "C118_emissive_refuted",
    "C118_emissive_grid"
   ],
   "note": "Findings, both last sentences of the statement are refuted in binary64 (C118_first_mark_refuted, C118_band_fixed_refuted). A band that begins at a mark loses its first sample for 321 of the 1371 marks, one that ends at a mark its last for 189; the 380-700 nm camera of ref_image.py lacks 380 nm. With interpolation the band depends on the altitude: at 98 of the 926 whole metres between 75 m and 1 km the 500-660 nm camera of the example script loses its sample at 660 nm, one of 16 intervals of the integral. A camera from 1e-6*2.9 m is treated as a reflective one (C118_emissive_refuted)."
  },
  {
   "property": "C119",
   "status": "proved",
   "theorems": [
    "C119_kernel",
    "C119_one_window",
    "C119_pixels",
    "C119_continued"
   ],
   "note": "get_middle keeps one sample more than asked when the sizes differ by an odd number, and from an array smaller than the window it keeps the last samples only (first_kept, kept); the zero frequency position of odd sizes is the one C70 reports"
  },
  {
   "property": "C120",
   "status": "proved",
   "theorems": [
    "C120_pictures",
    "C120_one_seeing"
   ],
   "note": "sequences of random numbers are arbitrary functions of rate and pixel"
  },
  {
   "property": "C121",
   "status": "proved",
   "theorems": [
    "C121_niirs5",
    "C121_niirs"
   ],
   "note": "ratings as numbers need positive edge responses and a contrast, which C95_niirs_rated and C109 give for oversampled cameras"
  },
  {
   "property": "C122",
   "status": "proved",
   "theorems": [
    "C122_even",
    "C122_odd",
    "C122_step",
    "C122_small",
    "C122_positions",
    "C122_against_exact",
    "C122_rating_size",
    "C122_edge_left_out_refuted",
    "C122_how_often"
   ],
   "note": "Finding: the first sentence is refuted for odd sizes (C122_edge_left_out_refuted): 535 of the 1000 odd sizes from 3 to 2001 give a sample too many, among them 1501, the size simulate_image uses, and 7, 11, 13, 15. The ratings are not affected (C122_rating_size). The interpolation itself is in exact arithmetic (C66)."
  },
  {
   "property": "C123",
   "status": "proved",
   "theorems": [
    "C123_three_values",
    "C123_which",
    "C123_unobscured",
    "C123_example_configuration_refuted",
    "C123_other_points",
    "C123_symmetry_refuted",
    "C123_negative_refuted",
    "C123_how_many_wavelengths"
   ],
   "note": "Finding: that the computed OTF is the exact one up to rounding, which the property would be without its exception, is refuted (C123_example_configuration_refuted, C123_symmetry_refuted, C123_negative_refuted). The grids are those of the shortest wavelength of the band; other wavelengths of a band enter the weighted sum with their own points. The library functions are parameters with a contract (good_libm), met by correctly rounded ones (Proof_F64Libm)."
  },
  {
   "property": "C124",
   "status": "proved",
   "theorems": [
    "C124_fine_sampling",
    "C124_whole_column",
    "C124_seven_microradians",
    "C124_five_centimetres",
    "C124_five_centimetres_as_sampled",
    "C124_seen_from_above",
    "C124_seen_from_above_fine"
   ],
   "note": "Finding (documentation): the 5 cm hold for a telescope on the ground; for the direction in which polychromatic_turbulence_OTF calls these functions the value is a hundred times larger (C124_seen_from_above). The vertical path is the code's own (altitude_along_slant_path); the isoplanatic angle is not computed by the code, its formula is part of the statement. Real arithmetic."
  },
  {
   "property": "C125",
   "status": "proved",
   "theorems": [
    "C125_default_scenario",
    "C125_binding",
    "C125_rejected",
    "C125_fifth_argument"
   ],
   "note": "Finding (tests): test_scenario.py:159 passes interp as the fifth positional argument, the aircraft speed (C125_fifth_argument); its seven assertions hold, and the four meant for interpolation hold with interp=True as well (Num_TestDb). Types are not checked by Python: a flag in a number's place counts as 1 or 0."
  },
  {
   "property": "C126",
   "status": "proved",
   "theorems": [
    "C126_rises_to_peak",
    "C126_falls_after_peak",
    "C126_total_radiance",
    "C126_share_of_band"
   ],
   "note": "real arithmetic; the constants are the code's own (hc, cc, kc); the improper integral is Coquelicot's is_RInt_gen; the numerical integrals are evaluated by the Interval library, whose results the kernel checks"
  },
  {
   "property": "C127",
   "status": "proved",
   "theorems": [
    "C127_blackbody",
    "C127_overflow",
    "C127_total_radiance",
    "C127_signal_rate",
    "C127_given_radiance",
    "C127_no_aperture"
   ],
   "note": "np.exp, ** and the order of np.sum are parameters with contracts (good_exp, good_pow, good_sum), met by correctly rounded functions and by a left-to-right loop (C127_libm); the interpolation of transmission and quantum efficiency to the wavelengths is not part of it: signal_rate receives them as arrays"
  },
  {
   "property": "C128",
   "status": "proved",
   "theorems": [
    "C128_sampled_rate",
    "C128_database_spacing",
    "C128_never_under"
   ],
   "note": "real arithmetic (C127 bounds the rounding); the radiance of the target is that of a blackbody without atmosphere: the tabulated atmosphere has no values between the samples to compare with; flat transmission and efficiency"
  },
  {
   "property": "C129",
   "status": "proved",
   "theorems": [
    "C129_zero_range",
    "C129_index_error",
    "C129_success",
    "C129_empty_grid_refuted",
    "C129_turbulence",
    "C129_coherence_diameter",
    "C129_defocus_radii"
   ],
   "note": "Finding (documentation): the IndexError documented for an empty grid is refuted (C129_empty_grid_refuted), and the documented ZeroDivisionError does not occur without turbulence or for a numpy range (C129_zero_range, C129_success). A filter kernel of several rows is left out: its functions evaluate scalars before looking at the grid, which the row-wise model does not show for an empty grid."
  },
  {
   "property": "C130",
   "status": "proved",
   "theorems": [
    "C130_detector",
    "C130_turbulence",
    "C130_turbulence_no_wavelength",
    "C130_wind",
    "C130_wind_finite",
    "C130_wavefront_no_wavelength",
    "C130_wavefront_finite",
    "C130_zero_weights",
    "C130_one_sample",
    "C130_no_turbulence",
    "C130_two_samples",
    "C130_two_samples_ratio",
    "C130_aperture"
   ],
   "note": "Finding (documentation): the warnings for turbulence_OTF ('nan if lambda0 and alpha are 0'), wavefront_OTF ('nan if lambda0 is 0') and coherence_diameter ('will FAIL if you give it a two-element path') describe inputs that give ordinary numbers; the warning for circular_aperture_OTF omits the infinity at zero frequency. Real numbers extended by infinities and nan: overflow to infinity is not part of it, and neither is rounding: for eta 1 below the cutoff the numerator is 0 in exact arithmetic only, a rounding residue there gives +-inf instead of nan (beyond the cutoff it is exactly 0 in both)."
  },
  {
   "property": "C131",
   "status": "proved",
   "theorems": [
    "C131_edge_response",
    "C131_relative_edge_response",
    "C131_overshoot",
    "C131_perfect_lens",
    "C131_any_pixel_refuted"
   ],
   "note": "Finding: that 50 samples give the relative edge response to within 0.4 for every pixel size is refuted (C131_any_pixel_refuted; pixels of two periods of the frequency step). Real arithmetic; the shift of the frequencies by 1e-6 cycles per radian is part of the error bound; the sample at the cutoff itself, which slice_otf leaves out, is 0. For edges that change by less than 2 e between two places only that the overshoot is one of the nine images is shown."
  },
  {
   "property": "C132",
   "status": "proved",
   "theorems": [
    "C132_aperture",
    "C132_niirs5"
   ],
   "note": "real arithmetic; with turbulence the wavelengths that give photoelectrons differ by at most a factor of four (the turbulence factor is not bounded by 1 far beyond the cutoff of a wavelength) and the aircraft speed is not negative; niirs with a kernel of one row evaluates the same sums (C121)"
  },
  {
   "property": "C133",
   "status": "proved",
   "theorems": [
    "C133_giqe5",
    "C133_giqe3",
    "C133_giqe4",
    "C133_relative_edge_response",
    "C133_niirs5"
   ],
   "note": "real arithmetic; the signal-to-noise ratio and ground sample distance of niirs5 are kept in the comparison, only the edge responses are replaced by exact ones"
  },
  {
   "property": "C134",
   "status": "proved",
   "theorems": [
    "C134_radiance",
    "C134_giqe_radiance",
    "C134_path",
    "C134_rows",
    "C134_surface_unused",
    "C134_surface_unused_simulation"
   ],
   "note": "real arithmetic; simulate_image from the loaded atmosphere on (simulate_rest of Model_Sim: loading and caching are C16 and C17)"
  },
  {
   "property": "C135",
   "status": "proved",
   "theorems": [
    "C135_no_table",
    "C135_no_table_simulation",
    "C135_sees_nothing",
    "C135_sees_nothing_simulation",
    "C135_when"
   ],
   "note": "finding: narrow bands between two samples of the database raise ValueError after the scenario has been changed"
  },
  {
   "property": "C136",
   "status": "proved",
   "theorems": [
    "C136_malformed",
    "C136_malformed_simulation",
    "C136_closed",
    "C136_closed_simulation",
    "C136_flat"
   ],
   "note": "simulate_image from the loaded atmosphere on (simulate_rest of Model_Sim: loading and caching are C16 and C100)"
  },
  {
   "property": "C137",
   "status": "proved",
   "theorems": [
    "C137_stray_ratings",
    "C137_stray_pictures",
    "C137_documented_refuted",
    "C137_extras",
    "C137_scene_ratings",
    "C137_scene_pictures"
   ],
   "note": "finding: C137_documented_refuted; niirs5 still hands back the stray light in the sensor it has changed"
  }
 ]
}
