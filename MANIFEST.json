{"claims": [
 {"property": "C01", "status": "proved", "theorems": ["C01_codec_round_trip", "C01_conjugation", "C01_blpair_injective", "C01_float_split"], "note": "in IEEE binary64 arithmetic"},
 {"property": "C02", "status": "partial", "theorems": ["C02_blpair_unique_refuted", "C02_decode_wrong_from_900", "C01_blpair_injective"], "note": "false as stated: antenna 1000 collides; injective below 1000, decodable below 900"},
 {"property": "C03", "status": "proved", "theorems": ["C03_polpair_round_trip", "C03_polpair_decode_total", "C03_polpair_injective"], "note": ""},
 {"property": "C04", "status": "proved", "theorems": ["C04_r_params_round_trip", "C04_r_params_stored_once", "C04_reserved_field_refuted"], "note": "the last theorem shows that the exclusion of a field called baselines is necessary"},
 {"property": "C05", "status": "proved", "theorems": ["C05_select_correct", "C05_select_lookup", "C05_select_ok_iff", "C05_select_wf", "C05_empty_spws_refuted"], "note": "select on in-memory objects; the last theorem records that an empty window list is accepted"},
 {"property": "C06", "status": "partial", "theorems": ["C06_labels_unchanged", "C06_labels_aligned_refuted"], "note": "false of the code: label arrays are never selected"},
 {"property": "C07", "status": "proved", "theorems": ["C07_select_common", "C07_select_common_blpairs", "C07_select_common_errors"], "note": "the unrestricted claim is C98"},
 {"property": "C08", "status": "proved", "theorems": ["C08_lookup", "C08_unknown_key", "C08_get_all_keys", "select_keeps_vectors"], "note": ""},
 {"property": "C09", "status": "proved", "theorems": ["C09_lengths", "C09_lengths_unfolded"], "note": "the unrestricted claim is C99"},
 {"property": "C10", "status": "proved", "theorems": ["C10_fold_bins", "C10_even_drops_first", "C10_fold_object", "C10_fold_total", "C10_fold_refuses_twice", "C10_fold_stats", "C10_fold_covariance", "C10_exact_window_rows"], "note": "the unrestricted claim is C100"},
 {"property": "C11", "status": "proved", "theorems": ["C11_combine_aligned", "C11_order_irrelevant"], "note": "the unrestricted claim is C101"},
 {"property": "C12", "status": "proved", "theorems": ["C12_overlap", "C12_rejects"], "note": "an if-and-only-if characterisation of the accepted lists and the returned axis"},
 {"property": "C13", "status": "proved", "theorems": ["C13_every_input_once", "C13_empty", "C13_associative", "C13_batches", "C13_no_files", "C13_same_object"], "note": "tree of n-1 merges for every merge function; the whole object is equal to that of one call for objects that differ in their blpair-times"},
 {"property": "C14", "status": "proved", "theorems": ["C14_get", "C14_read_your_writes", "C14_isolation", "C14_no_overwrite", "C14_read_only", "C14_listing", "C14_tree"], "note": "all histories of calls and all refusals to open; isolation and no-overwrite also at every crash point; the group name 'header' is reserved"},
 {"property": "C15", "status": "proved", "theorems": ["C15_never_torn", "C15_recoverable"], "note": "the unrestricted claim is C102"},
 {"property": "C16", "status": "proved", "theorems": ["C16_closed_after_call", "C16_kept_open", "C16_open_bounded"], "note": "the unrestricted claim is C103"},
 {"property": "C17", "status": "proved", "theorems": ["C17_merge", "C17_keep_open_required", "C17_contents"], "note": "the unrestricted claim is C104"},
 {"property": "C18", "status": "proved", "theorems": ["C18_weighted_mean", "C18_default_mean", "C18_groups", "C18_total", "C18_order_irrelevant", "C18_bounds", "C18_two_steps", "C18_recomputed_weights", "C18_error_bars", "C18_window_rows", "C18_metadata", "C18_two_steps_object", "C18_second_average_total", "average_averageable"], "note": "the unrestricted claim is C105"},
 {"property": "C19", "status": "proved", "theorems": ["C19_integer_weights", "C19_equal_weights", "C19_unnormalised", "C19_nonpositive_rejected"], "note": "the unrestricted claim is C106"},
 {"property": "C20", "status": "proved", "theorems": ["C20_sample", "C20_multiplicities", "C20_used_exactly", "C20_unknown_pair", "C20_split_over_objects"], "note": "the unrestricted claim is C107"},
 {"property": "C21", "status": "proved", "theorems": ["C21_partition", "C21_membership", "C21_errors"], "note": "the unrestricted claim is C108"},
 {"property": "C22", "status": "proved", "theorems": ["C22_assignment", "C22_mean", "C22_cutoff", "C22_unit_response", "C22_flagged_ignored", "C22_uniform_mean", "C22_inverse_variance_mean"], "note": "for any pseudo-inverse that behaves like numpy's on non-negative diagonal matrices"},
 {"property": "C23", "status": "proved", "theorems": ["C23_slices", "C23_average", "C23_errors"], "note": ""},
 {"property": "C24", "status": "proved", "theorems": ["C24_pairs", "C24_one_order", "C24_groups", "C24_errors"], "note": ""},
 {"property": "C25", "status": "proved", "theorems": ["C25_partition", "C25_red_bls", "C25_red_blpairs"], "note": "for any symmetric closeness test"},
 {"property": "C26", "status": "proved", "theorems": ["C26_range_jobs", "C26_first_round"], "note": "the unrestricted claim is C109"},
 {"property": "C27", "status": "proved", "theorems": ["C27_channels", "C27_none", "C27_errors", "C27_empty"], "note": "the unrestricted claim is C110"},
 {"property": "C28", "status": "proved", "theorems": ["C28_labels_unique", "C28_labels_stable", "C28_labels_given", "C28_lookup", "C28_labels_default", "C28_lengths", "C28_full_unique"], "note": "for histories of fewer than 100000 datasets, the range of the renaming counter"},
 {"property": "C29", "status": "proved", "theorems": ["C29_fresh_after_clear"], "note": "the unrestricted claim is C111"},
 {"property": "C30", "status": "proved", "theorems": ["C30_aligned", "C30_errors"], "note": "the unrestricted claim is C112"},
 {"property": "C31", "status": "proved", "theorems": ["C31_transparent", "C31_one_polarization"], "note": ""},
 {"property": "C32", "status": "proved", "theorems": ["q_hat_is_delay_spectrum", "q_hat_fft_equals_matrix", "q_hat_exact_norm_fft_refused", "Q_alt_accepts", "Q_alt_independent_of_method", "Q_alt_structure", "Q_alt_tensor_all_modes"], "note": "numpy's fft is modelled by the discrete Fourier sum it documents"},
 {"property": "C33", "status": "proved", "theorems": ["G_identity", "G_row_sum", "p_hat_mode_I", "q_hat_mean_is_response", "p_hat_flat_spectrum_unbiased", "window_rows_sum_to_one", "get_MW_accepts", "fully_flagged_gives_zero"], "note": "linalg.inv and the inverse square root enter as arbitrary matrices"},
 {"property": "C34", "status": "proved", "theorems": ["q_hat_swap_conjugates", "auto_q_hat_real_nonnegative", "cross_power_geometric_mean", "auto_q_hat_parseval", "q_hat_sesquilinear", "q_hat_keys_additive", "swap_conjugates_all"], "note": ""},
 {"property": "C35", "status": "proved", "theorems": ["analytic_noise_covariance_correct", "cov_q_structure", "cov_p_structure"], "note": "finite ensembles with arbitrary weights"},
 {"property": "C36", "status": "proved", "theorems": ["broadcast_one_window", "broadcast_only_adds", "broadcast_separable", "broadcast_unflag", "broadcast_every_dataset", "broadcast_idempotent", "broadcast_accepts", "broadcast_default_whole_band"], "note": "idempotence for thresholds below one and up to a million channels (integer comparison of the rational threshold)"},
 {"property": "C37", "status": "proved", "theorems": ["pstokes_combination", "pstokes_invert", "pstokes_unused", "pstokes_rejects", "filter_dsets_spec", "filter_dsets_accepts", "pol_arrays_combined"], "note": ""},
 {"property": "C38", "status": "proved", "theorems": ["interleave_splits_times", "interleave_accepts", "interleave_std_aligned", "trim_keeps_common", "trim_same_lsts", "trim_accepts"], "note": ""},
 {"property": "C39", "status": "partial", "theorems": ["taper_override_partial", "taper_override_refuted", "H_inverse_scalar_refuted", "mixed_polarizations_refused"], "note": "false of the code: the override reaches the beam integral but the delay adjustment uses self.taper; true with adjustment off"},
 {"property": "C40", "status": "proved", "theorems": ["spw_range_accepts", "update_spw_channels", "ftbeam_accepts", "window_frequencies", "bin_edges_exact", "bins_partition", "kpara_bins_exact"], "note": ""},
 {"property": "C41", "status": "proved", "theorems": ["P_N_value", "P_N_accepts", "P_N_scaling", "P_N_incoherent_average", "P_N_components", "P_SN_laws", "P_SN_correction_laws", "P_SN_flagged", "P_SN_monotone", "P_SN_correction_positive"], "note": ""},
 {"property": "C42", "status": "proved", "theorems": ["z2f_f2z", "f2z_z2f", "f2z_decreasing", "z2f_decreasing", "z2f_zero", "DC_little_h", "DM_little_h", "DA_little_h", "dRpara_little_h", "X2Y_little_h", "kperp_little_h", "kpara_little_h", "DM_of_DA"], "note": ""},
 {"property": "C43", "status": "proved", "theorems": ["integration_harmonic_mean", "integration_symmetric", "integration_equal", "integration_zero", "integration_scales", "mean_nsamp_constant", "mean_nsamp_flagged", "mean_nsamp_range", "mean_nsamp_clipped"], "note": ""},
 {"property": "C44", "status": "proved", "theorems": ["int_tuples_round_trip", "tuple_tuples_round_trip", "str_tuples_round_trip", "blpair_groups_round_trip", "mixed_formats_rejected"], "note": ""},
 {"property": "C45", "status": "proved", "theorems": ["bias_correction_values", "bias_correction_accepts", "bias_relative_errors", "bias_copy_untouched"], "note": ""},
 {"property": "C46", "status": "partial", "theorems": ["C46_failed_select_refuted", "C46_window_failure_harmless", "C46_valid_select_completes"], "note": "false of the code: metadata is edited before the failure is detected"},
 {"property": "C47", "status": "proved", "theorems": ["C47_excluded", "C47_drop", "C47_pairs", "C47_grouped"], "note": ""},
 {"property": "C48", "status": "proved", "theorems": ["C48_ascending"], "note": "the unrestricted claim is C113"},
 {"property": "C49", "status": "partial", "theorems": ["C49_adjacent", "C49_requested_separation_refuted", "C49_two_times"], "note": "the requested separation is ignored except for its shape: adjacent times are always subtracted"},
 {"property": "C50", "status": "proved", "theorems": ["C50_errors"], "note": "the unrestricted claim is C114"},
 {"property": "C51", "status": "partial", "theorems": ["C51_one_pair_partial", "C51_integration_refuted"], "note": "true for one baseline-pair; for Nb pairs the result is Nb times too large, because the normalisation takes the trace of a non-square array"},
 {"property": "C52", "status": "proved", "theorems": ["C52_metadata", "C52_data_rows"], "note": "the unrestricted claim is C115"},
 {"property": "C53", "status": "proved", "theorems": ["C53_window_one_length"], "note": "the unrestricted claim is C116"},
 {"property": "C54", "status": "partial", "theorems": ["C54_even_refuted", "C54_empty_kernel_refuted", "C54_asymmetric_kernel_refuted", "C23_average", "C54_broadcast_weights"], "note": "false of the code in all three respects; C23 is the case that holds"},
 {"property": "C55", "status": "proved", "theorems": ["C55_window_fresh", "C55_identity_value", "C55_dayenu_channels"], "note": ""},
 {"property": "C56", "status": "proved", "theorems": ["C56_set_extension", "set_filter_extension_spec"], "note": "the unrestricted claim is C117"},
 {"property": "C57", "status": "proved", "theorems": ["C57_atomic", "set_symmetric_taper_spec"], "note": "the unrestricted claim is C118"},
 {"property": "C58", "status": "proved", "theorems": ["C58_identity_windows"], "note": "the unrestricted claim is C119"},
 {"property": "C59", "status": "partial", "theorems": ["C59_second_polarization_refuted", "C31_one_polarization"], "note": "false of the code: the cache key lacks the polarization; true for one polarization"},
 {"property": "C60", "status": "proved", "theorems": ["C60_count"], "note": "the unrestricted claim is C120"},
 {"property": "C61", "status": "proved", "theorems": ["E_is_q_hat", "E_swap"], "note": ""},
 {"property": "C62", "status": "proved", "theorems": ["E_exact_norm_is_q_hat_diagonal"], "note": "the unrestricted claim is C121"},
 {"property": "C63", "status": "proved", "theorems": ["V_hermitian"], "note": ""},
 {"property": "C64", "status": "proved", "theorems": ["v_half_decorrelates_real"], "note": "the unrestricted claim is C122"},
 {"property": "C65", "status": "proved", "theorems": ["cov_accepts", "cov_exchange", "cov_hermitian", "cov_pseudo", "cov_unit_weights"], "note": ""},
 {"property": "C66", "status": "proved", "theorems": ["analytic_covariance_times", "analytic_covariance_per_time", "analytic_covariance_uniform"], "note": "the unrestricted claim is C123"},
 {"property": "C67", "status": "proved", "theorems": ["cov_p_propagates_above_threshold", "cov_p_hat_real_M"], "note": "the unrestricted claim is C124"},
 {"property": "C68", "status": "proved", "theorems": ["foreground_term_is_trace", "clip_sn_spec"], "note": ""},
 {"property": "C69", "status": "proved", "theorems": ["general_covariance_real_symmetric", "empirical_model_consistent"], "note": ""},
 {"property": "C70", "status": "proved", "theorems": ["broadcast_outside_windows_columns"], "note": "the unrestricted claim is C125"},
 {"property": "C71", "status": "partial", "theorems": ["pstokes_arguments_partial", "pstokes_arguments_refuted"], "note": "false of the code when pol_convention is unset on a one-polarization object: it is set on the caller's object; otherwise true"},
 {"property": "C72", "status": "proved", "theorems": ["trim_matched_within_tolerance"], "note": "the unrestricted claim is C126"},
 {"property": "C73", "status": "partial", "theorems": ["bool_switch_refuted", "str_tuples_blank_refuted", "str_tuples_round_trip"], "note": "false of the code"},
 {"property": "C74", "status": "proved", "theorems": ["DC_zero", "DC_derivative", "dRpara_is_derivative", "DC_increasing", "DM_flat", "DM_open", "DM_closed", "X2Y_positive", "default_curvature", "params_round_trip", "matter_sum", "default_cosmology"], "note": ""},
 {"property": "C75", "status": "partial", "theorems": ["matter_split_partial", "matter_split_refuted"], "note": "false of the code: the test 'np.isclose(...) is False' never holds, so inconsistent parts are kept; true when the parts already add up"},
 {"property": "C76", "status": "proved", "theorems": ["scalar_little_h", "noise_scalar_no_taper", "noise_scalar_is_density", "scalar_beam_ratio", "exact_norm_mean_X2Y", "scalar_positive", "gaussian_beam_areas"], "note": ""},
 {"property": "C77", "status": "partial", "theorems": ["noise_scalars_agree_partial", "noise_scalars_agree_refuted"], "note": "false of the code: the band of Sensitivity.calc_scalar ends one channel early; proportional with the ratio of bandwidths"},
 {"property": "C78", "status": "proved", "theorems": ["from_array_lookup", "from_array_missing", "from_array_accepts"], "note": ""},
 {"property": "C79", "status": "partial", "theorems": ["from_array_arguments_partial", "from_array_arguments_refuted"], "note": "false of the code: keys are renamed in, and polarizations added to, the caller's dictionaries"},
 {"property": "C80", "status": "proved", "theorems": ["Jy_to_mK_once", "Jy_to_mK_idempotent", "jy_factor_rayleigh_jeans"], "note": ""},
 {"property": "C81", "status": "partial", "theorems": ["Jy_to_mK_partial", "Jy_to_mK_ragged_refuted"], "note": "false of the code; true when all datasets have as many polarizations"},
 {"property": "C82", "status": "proved", "theorems": ["sensitivity_set_beam_cosmology", "sensitivity_params"], "note": "the unrestricted claim is C127"},
 {"property": "C83", "status": "proved", "theorems": ["noise_spectra_rows", "noise_spectra_accepts_float"], "note": ""},
 {"property": "C84", "status": "partial", "theorems": ["noise_spectra_dict_refuted", "noise_spectra_missing_times_refuted", "noise_spectra_stokes_refuted", "noise_spectra_rows"], "note": "false of the code"},
 {"property": "C85", "status": "partial", "theorems": ["bias_errors_sign_refuted", "bias_failure_refuted", "bias_copy_untouched"], "note": "false of the code"},
 {"property": "C86", "status": "proved", "theorems": ["corr_is_correlation", "corr_positive_semidefinite", "approx_covariance", "approx_covariance_accepts"], "note": ""},
 {"property": "C87", "status": "partial", "theorems": ["approx_covariance_accepts", "approx_covariance_folded_refuted"], "note": "false of the code: folded objects are refused with a shape error"},
 {"property": "C88", "status": "proved", "theorems": ["tsys_own_factor_sorted"], "note": "the unrestricted claim is C128"},
 {"property": "C89", "status": "proved", "theorems": ["window_beams_own", "uvwindow_pols_spec"], "note": "the unrestricted claim is C129"},
 {"property": "C90", "status": "proved", "theorems": ["cylindrical_rows_exact"], "note": "the unrestricted claim is C130"},
 {"property": "C91", "status": "proved", "theorems": ["cross_power", "cross_power_symmetric", "cross_power_nonneg", "rows_mirrored", "quarter_row_even", "quarter_row_odd", "odd_rows_exact", "cylindrical_normalised", "cylindrical_nonneg", "cylindrical_accepts"], "note": ""},
 {"property": "C92", "status": "proved", "theorems": ["spherical_rows_normalised", "spherical_rows_nonneg", "spherical_weights_scale", "spherical_redundant"], "note": ""},
 {"property": "C93", "status": "proved", "theorems": ["kpara_bins_cover_nonzero"], "note": "the unrestricted claim is C131"},
 {"property": "C94", "status": "partial", "theorems": ["kbins_units_partial", "kbins_units_refuted"], "note": "false of the code: equivalent units are accepted and the bare numbers used; true for the object's own unit"},
 {"property": "C95", "status": "proved", "theorems": ["run_and_write_outcomes"], "note": "the unrestricted claim is C132"},
 {"property": "C96", "status": "proved", "theorems": ["exact_rows_group", "exact_windows_inplace", "exact_windows_accepts"], "note": ""},
 {"property": "C97", "status": "partial", "theorems": ["exact_windows_folded_refuted", "exact_windows_accepts"], "note": "false of the code: shape error"},
 {"property": "C98", "status": "partial", "theorems": ["C07_polpairs_refuted", "C07_select_common"], "note": "false of the code: the list is computed and then not passed; the theorem without refuted says that all polarization pairs are kept; the part that holds is C07"},
 {"property": "C99", "status": "partial", "theorems": ["C09_fold_then_select_refuted", "C09_short_window_refuted", "C09_lengths"], "note": "false of the code after select(spws=) of a folded object and for windows of fewer than three delays; the part that holds is C09"},
 {"property": "C100", "status": "partial", "theorems": ["C10_covariance_zero_row_refuted", "C10_window_identity_refuted", "C10_fold_covariance"], "note": "false of the code for every size; the part that holds is C10"},
 {"property": "C101", "status": "partial", "theorems": ["C11_unsorted_windows_refuted", "C11_row_order_refuted", "C11_same_first_time_refuted", "C11_combine_aligned"], "note": "false of the code for unsorted windows, different row orders and equal first times; the part that holds is C11"},
 {"property": "C102", "status": "partial", "theorems": ["C15_failed_overwrite_refuted", "C15_crash_refuted", "C15_never_torn"], "note": "false of the code: the old spectrum is deleted before the new one is checked and written; the part that holds is C15"},
 {"property": "C103", "status": "partial", "theorems": ["C16_swmr_left_open_refuted", "C16_closed_after_call"], "note": "false of the code: the failing call leaves the file open; the part that holds is C16"},
 {"property": "C104", "status": "partial", "theorems": ["C17_substring_refuted", "C17_underscore_label_refuted", "C17_merge"], "note": "false of the code: any name containing the output name is merged; the part that holds is C17"},
 {"property": "C105", "status": "partial", "theorems": ["C18_two_steps_unequal_times_refuted", "C18_small_error_bars_refuted", "C18_exact_window_rows_refuted"], "note": "false of the code in all three respects; the part that holds is C18"},
 {"property": "C106", "status": "partial", "theorems": ["C19_weights_refuted", "C19_underweight_dropped", "C19_unnormalised_refuted", "C19_integer_weights"], "note": "false of the code: normalised weights are truncated to integers; the part that holds is C19"},
 {"property": "C107", "status": "partial", "theorems": ["C20_several_objects_refuted", "C20_several_objects_error"], "note": "false of the code: always a TypeError; the part that holds is C20"},
 {"property": "C108", "status": "partial", "theorems": ["C21_negative_refuted", "C21_errors"], "note": "false of the code: a negative number loses all baselines; the part that holds is C21"},
 {"property": "C109", "status": "partial", "theorems": ["C26_retry_index_refuted", "C26_range_jobs"], "note": "false of the code: retries run the index instead of the element; the part that holds is C26"},
 {"property": "C110", "status": "partial", "theorems": ["C27_slice_refuted", "C27_channels"], "note": "false of the code: slicing with the indices always loses the last channel; the part that holds is C27"},
 {"property": "C111", "status": "partial", "theorems": ["C29_stale_refuted", "C29_stale_dayenu_refuted", "C29_set_spw_refuted", "C29_same_size_refuted", "C29_symmetric_refuted", "C29_fresh_after_clear"], "note": "false of the code: the cache is not invalidated; the part that holds is C29"},
 {"property": "C112", "status": "partial", "theorems": ["C30_first_invalid_refuted", "C30_aligned"], "note": "false of the code: the metadata arrays are empty; the part that holds is C30"},
 {"property": "C113", "status": "partial", "theorems": ["C48_long_baselines_refuted", "C48_ascending"], "note": "false of the code: the lengths are compared as three-digit text; the part that holds is C48"},
 {"property": "C114", "status": "partial", "theorems": ["C50_small_errors_refuted", "C50_errors"], "note": "false of the code: results below 1e-8 are replaced by 1e40; the part that holds is C50"},
 {"property": "C115", "status": "partial", "theorems": ["C52_time_average_refuted", "C52_lst_wrap_refuted", "C52_metadata"], "note": "false of the code with time averaging and when LSTs wrap; the part that holds is C52"},
 {"property": "C116", "status": "partial", "theorems": ["C53_two_lengths_refuted", "C53_window_one_length"], "note": "false of the code for two lengths; the part that holds is C53"},
 {"property": "C117", "status": "partial", "theorems": ["C56_window_after_extension_refuted", "C56_set_extension"], "note": "false of the code when the window changes afterwards; the part that holds is C56"},
 {"property": "C118", "status": "partial", "theorems": ["C57_set_spw_refuted", "C57_set_extension_refuted", "C57_weights_accepted_refuted", "C57_atomic", "binary_weights"], "note": "false of set_spw and set_filter_extension, and of weights; the part that holds is C57"},
 {"property": "C119", "status": "partial", "theorems": ["C58_later_windows_refuted", "C58_one_sided_refuted", "C58_next_call_refuted", "C58_identity_windows"], "note": "false of the other weightings and after a failure; the part that holds is C58"},
 {"property": "C120", "status": "partial", "theorems": ["C60_repeated_refuted", "C60_count"], "note": "false of the code with repetitions; the part that holds is C60"},
 {"property": "C121", "status": "partial", "theorems": ["E_exact_norm_refuted", "E_exact_norm_is_q_hat_diagonal"], "note": "false of the code: the beam factor is applied after the multiplication by R2; the part that holds is C62"},
 {"property": "C122", "status": "partial", "theorems": ["v_half_complex_refuted", "v_half_decorrelates_real"], "note": "false for complex covariances: the eigenvectors are not conjugated; the part that holds is C64"},
 {"property": "C123", "status": "partial", "theorems": ["analytic_covariance_shortcut_refuted", "analytic_covariance_per_time"], "note": "false of the code: the shortcut looks only at C11; the part that holds is C66"},
 {"property": "C124", "status": "partial", "theorems": ["cov_p_small_refuted", "cov_p_hat_refuted", "cov_p_propagates_above_threshold"], "note": "false of the code for small numbers, and for complex M in cov_p_hat; the part that holds is C67"},
 {"property": "C125", "status": "partial", "theorems": ["broadcast_outside_windows_refuted", "broadcast_outside_windows_columns"], "note": "false of the code: a channel over the threshold is flagged over the whole band; the part that holds is C70"},
 {"property": "C126", "status": "partial", "theorems": ["trim_tolerance_refuted", "trim_matched_within_tolerance"], "note": "false of the code: LSTs are rounded to text, and those closer than the tolerance may be separated; the part that holds is C72"},
 {"property": "C127", "status": "partial", "theorems": ["sensitivity_new_cosmology_refuted", "sensitivity_beam_argument_refuted", "sensitivity_set_beam_cosmology", "sensitivity_params_refuted"], "note": "false of the code: set_cosmology does not reach the beam, set_beam changes the caller's beam; the part that holds is C82"},
 {"property": "C128", "status": "partial", "theorems": ["tsys_own_factor_refuted", "tsys_own_factor_sorted"], "note": "false of the code when the polarization axis is not alphabetical, as for nn, ee; the part that holds is C88"},
 {"property": "C129", "status": "partial", "theorems": ["window_beams_refuted", "window_beams_own"], "note": "false of the code: characters of the second name are compared, so that ('xx','yy') uses the xx beam twice; the part that holds is C89"},
 {"property": "C130", "status": "partial", "theorems": ["odd_quarter_refuted", "even_mirror_refuted", "cylindrical_rows_exact"], "note": "false of the code: for odd channel counts the row at 3/4 is that of the delay before it; for even ones mirrored rows are those of the opposite delay; the part that holds is C90"},
 {"property": "C131", "status": "partial", "theorems": ["kpara_bins_cover_refuted", "kpara_bins_cover_nonzero"], "note": "false of the code for delay 0; the part that holds is C93"},
 {"property": "C132", "status": "partial", "theorems": ["run_and_write_refuted", "run_and_write_outcomes"], "note": "false of the code: with clobber the old file is removed before the computation; the part that holds is C95"},
 {"property": "C133", "status": "proved", "theorems": ["write_succeeds", "write_read_round_trip", "required_parameters_stored", "statistics_in_order"], "note": "values are abstract: the encoding of attributes (byte strings, the cosmology as text) is assumed invertible; that the class's check passes is the hypothesis `complete`"},
 {"property": "C134", "status": "partial", "theorems": ["symmetric_taper_stored_refuted", "required_parameters_stored"], "note": "false of the code: symmetric_taper is declared without underscore, so it is neither written nor cleared"},
 {"property": "C135", "status": "proved", "theorems": ["partial_read_is_select"], "note": "what a selection does to the metadata is an arbitrary function here; UvpModel has the real one"},
 {"property": "C136", "status": "proved", "theorems": ["metadata_read_alone"], "note": ""},
 {"property": "C137", "status": "partial", "theorems": ["metadata_same_refuted", "metadata_read_alone"], "note": "false of the code: OmegaP, OmegaPP and r_params are only selected when the arrays are loaded"},
 {"property": "C138", "status": "proved", "theorems": ["read_replaces"], "note": ""},
 {"property": "C139", "status": "partial", "theorems": ["read_replaces_all_refuted", "read_replaces"], "note": "false of the code: symmetric_taper of the old object survives"},
 {"property": "C140", "status": "proved", "theorems": ["existing_file_kept"], "note": ""},
 {"property": "C141", "status": "partial", "theorems": ["overwrite_is_safe_refuted", "existing_file_kept"], "note": "false of the code: the old file is removed before the object is checked"},
 {"property": "C142", "status": "proved", "theorems": ["select_keeps_r_params", "r_params_read_back"], "note": "JSON is assumed to preserve values"},
 {"property": "C143", "status": "partial", "theorems": ["r_params_recorded_refuted", "select_drops_dataset_keys", "pspec_needs_r_params"], "note": "false of the code: pspec wants keys that start with the dataset, _select keeps only keys without"},
 {"property": "C144", "status": "proved", "theorems": ["eq_reflexive", "eq_within_tolerance", "eq_broadcast", "compared_parameters"], "note": "rational numbers, one-dimensional arrays"},
 {"property": "C145", "status": "partial", "theorems": ["eq_symmetric_refuted", "eq_total_refuted", "eq_same_shape_refuted", "eq_same_windows_refuted", "eq_distinguishes_nights_refuted", "eq_sees_parameter_refuted", "eq_nan_refuted", "eq_within_tolerance", "eq_missing_in_both", "eq_needs_data"], "note": "false of the code in each part; what does hold is C144"},
 {"property": "C146", "status": "proved", "theorems": ["sph_covariance"], "note": "real arithmetic"},
 {"property": "C147", "status": "proved", "theorems": ["set_cosmology_renormalizes", "set_cosmology_guarded", "set_cosmology_without_beam", "set_cosmology_last_wins", "set_cosmology_back"], "note": "real arithmetic; scalars non-zero; polarization pairs without duplicates"},
 {"property": "C148", "status": "partial", "theorems": ["set_cosmology_units", "set_cosmology_units_refuted", "contains_spec"], "note": "false of the code: h^-3 volumes are used whatever the units, and units that contain Mpc are kept"},
 {"property": "C149", "status": "partial", "theorems": ["set_cosmology_errors_refuted", "set_cosmology_relative_errors_refuted"], "note": "false of the code: only data_array is rescaled"},
 {"property": "C150", "status": "partial", "theorems": ["set_cosmology_back", "set_cosmology_exact_norm_refuted"], "note": "false of the code for exact_norm=True, which the object does not record; proved for scalars computed as set_cosmology does (pspec itself integrates with 2000 steps, not 1000)"},
 {"property": "C151", "status": "proved", "theorems": ["deltasq_values", "deltasq_unit_free", "deltasq_needs_cosmology"], "note": "real arithmetic"},
 {"property": "C152", "status": "partial", "theorems": ["deltasq_twice_refuted", "deltasq_then_cosmology_refuted"], "note": "false of the code in both cases"},
 {"property": "C153", "status": "proved", "theorems": ["trim_same_spacing_accepted", "trim_other_spacing_refused", "trim_accepts", "trim_rounds_to_nearest", "lst_spacing_is_median"], "note": "lst_tol=6, LSTs in units of 1e-9 radians"},
 {"property": "C154", "status": "partial", "theorems": ["trim_single_lst_refuted", "trim_accepts"], "note": "false of the code: the median of no differences is nan"},
 {"property": "C155", "status": "proved", "theorems": ["C30_refuses", "C30_errors"], "note": "the class of the error is not part of the claim"},
 {"property": "C156", "status": "proved", "theorems": ["subtract_matches"], "note": "real arithmetic; hypotheses spelled out in `subtractable`"},
 {"property": "C157", "status": "proved", "theorems": ["subtract_weights"], "note": "numpy: 1/0 = inf, 1/inf = 0, 0/0 = nan"},
 {"property": "C158", "status": "partial", "theorems": ["subtract_by_lst_refuted", "subtract_row_order_refuted", "subtract_matches"], "note": "false of the code: baseline-pairs and LSTs are selected independently and the rows are then paired by position"},
 {"property": "C159", "status": "partial", "theorems": ["subtract_covariance_refuted", "subtract_covariance_stale_refuted", "subtract_arrays"], "note": "false of the code: sqrt(cov1^2+cov2^2) is stored, and without statistics the covariance of the first object is kept"},
 {"property": "C160", "status": "partial", "theorems": ["subtract_window_refuted"], "note": "false of the code: sqrt(w1^2+w2^2) is stored"},
 {"property": "C161", "status": "partial", "theorems": ["subtract_polpairs_refuted", "subtract_folded_refuted"], "note": "false of the code: every such call ends in an error (proved for all inputs)"},
 {"property": "C162", "status": "proved", "theorems": ["blkey_spellings", "blkey_parts", "blkey_label", "blkey_errors"], "note": ""},
 {"property": "C163", "status": "partial", "theorems": ["blkey_unchecked_refuted"], "note": "false of the code: neither is checked"},
 {"property": "C164", "status": "proved", "theorems": ["validate_accepts", "validate_warns"], "note": "exact arithmetic"},
 {"property": "C165", "status": "partial", "theorems": ["validate_pairwise_refuted", "validate_wrap_refuted"], "note": "false of the code: comparison with the first dataset only, and not modulo 2 pi"},
 {"property": "C166", "status": "proved", "theorems": ["rephase_values", "rephase_amplitudes", "rephase_pol_slots"], "note": "the phase factor itself (utils.lst_rephase of hera_cal) is a parameter, exp(i(angle(lst_ref) - angle(lst)))"},
 {"property": "C167", "status": "partial", "theorems": ["rephase_skips_refuted", "rephase_twice_refuted"], "note": "false of the code: the guard warns and then goes on, and a second call turns the phases again"},
 {"property": "C168", "status": "partial", "theorems": ["rephase_pol_order_refuted"], "note": "false of the code: data are written back in the order of the reference's polarizations"},
 {"property": "C169", "status": "partial", "theorems": ["rephase_failure_refuted"], "note": "false of the code: datasets before the failing one stay rephased"},
 {"property": "C170", "status": "proved", "theorems": ["covq_single", "covq_many", "covq_times", "covq_keys"], "note": "exact arithmetic; division by zero is nan"},
 {"property": "C171", "status": "partial", "theorems": ["covq_time_range_refuted", "covq_times", "covq_time_at_end"], "note": "false of the code at the boundary: the number of times itself is accepted"},
 {"property": "C172", "status": "partial", "theorems": ["covq_inverse_weights_refuted", "covq_model_refuted"], "note": "false of the code: harmonic mean not divided by n; unknown models give nan throughout"},
 {"property": "C173", "status": "proved", "theorems": ["autos_nsamples", "autos_variance", "autos_symmetric"], "note": "exact arithmetic"},
 {"property": "C174", "status": "partial", "theorems": ["autos_integration_refuted", "autos_variance"], "note": "false of the code: median over all baselines"},
 {"property": "C175", "status": "proved", "theorems": ["bootstrap_names_distinct", "bootstrap_run_outputs"], "note": "hypothesis: no chosen spectrum is named like an output of a chosen spectrum"},
 {"property": "C176", "status": "proved", "theorems": ["bootstrap_run_safe", "bootstrap_run_nothing"], "note": ""},
 {"property": "C177", "status": "partial", "theorems": ["bootstrap_run_missing_refuted", "bootstrap_run_nothing"], "note": "false of the code: missing spectra are skipped; only a list without any existing spectrum is an error"},
 {"property": "C178", "status": "partial", "theorems": ["bootstrap_run_twice_refuted", "bootstrap_run_inputs_refuted", "bootstrap_run_failure_refuted", "bootstrap_run_safe"], "note": "false of the code: outputs are processed again by the next run, an input named like an output is replaced before it is processed, and a failed run leaves the outputs made so far"},
 {"property": "C179", "status": "proved", "theorems": ["run_pairs_default", "run_blpairs_fed"], "note": ""},
 {"property": "C180", "status": "proved", "theorems": ["pspec_run_outputs", "pspec_run_safe", "pspec_run_refuses", "default_group_distinct"], "note": ""},
 {"property": "C181", "status": "partial", "theorems": ["pspec_run_same_labels_refuted", "pspec_run_outputs"], "note": "false of the code: equal labels are accepted and with overwrite the last pair wins"},
 {"property": "C182", "status": "partial", "theorems": ["pspec_run_failure_refuted", "pspec_run_safe"], "note": "false of the code: the spectra of earlier pairs stay"},
 {"property": "C183", "status": "proved", "theorems": ["stats_set_get", "stats_shape"], "note": ""},
 {"property": "C184", "status": "partial", "theorems": ["stats_set_get_refuted", "stats_set_get"], "note": "false of the code: an array that was first set with real values drops imaginary parts"},
 {"property": "C185", "status": "proved", "theorems": ["stats_slice"], "note": ""},
 {"property": "C186", "status": "proved", "theorems": ["std_zero", "std_affine"], "note": "exact arithmetic"},
 {"property": "C187", "status": "proved", "theorems": ["percentile_mono", "percentile_ends", "percentile_median", "cinterval_names"], "note": "exact arithmetic"},
 {"property": "C188", "status": "partial", "theorems": ["cinterval_names_refuted", "cinterval_names"], "note": "false of the code: names are rounded to hundredths of a percent and collide"},
 {"property": "C189", "status": "proved", "theorems": ["circular_average_unique", "circular_average_turns", "circular_average_order", "circular_average_rotate", "circular_average_arc", "circular_average_two"], "note": "exact arithmetic"},
 {"property": "C190", "status": "partial", "theorems": ["circular_average_arithmetic_refuted", "circular_average_two"], "note": "false of the code (and stated by its documentation): 0, 0 and 90 degrees average to 26.6 degrees; holds for two angles"},
 {"property": "C191", "status": "proved", "theorems": ["bl_ang_direction", "bl_ang_conjugate"], "note": "exact arithmetic, no signed zeros"},
 {"property": "C192", "status": "partial", "theorems": ["bl_ang_conjugate_refuted", "bl_ang_redundant_refuted", "bl_ang_conjugate"], "note": "false of the code around east-west baselines that point west"},
 {"property": "C193", "status": "proved", "theorems": ["validate_exact", "validate_silent"], "note": "exact arithmetic"},
 {"property": "C194", "status": "partial", "theorems": ["validate_silent_refuted", "validate_silent"], "note": "false of the code: positions of the second dataset replace those of the first"},
 {"property": "C195", "status": "proved", "theorems": ["spw_range_z_spec", "spw_range_z_bounds"], "note": "exact arithmetic"},
 {"property": "C196", "status": "partial", "theorems": ["spw_range_z_docs_refuted", "spw_range_z_spec"], "note": "the documentation has the bounds the wrong way around"},
 {"property": "C197", "status": "proved", "theorems": ["config_groupings", "config_succeeds"], "note": ""},
 {"property": "C198", "status": "partial", "theorems": ["config_exclude_refuted", "config_read_refuted", "config_groupings"], "note": "false of the code: combinations are collected before the exclusion, and the first name is read with the first combination"},
 {"property": "C199", "status": "proved", "theorems": ["spw_range_uniform", "spw_lookup"], "note": "exact arithmetic"},
 {"property": "C200", "status": "partial", "theorems": ["spw_range_freqs_refuted", "spw_range_uniform"], "note": "false for gaps and for single channels (nan)"},
 {"property": "C201", "status": "partial", "theorems": ["spw_centre_refuted", "spw_centre"], "note": "false: half a channel higher"},
 {"property": "C202", "status": "proved", "theorems": ["time_indices_spec"], "note": "exact arithmetic"},
 {"property": "C203", "status": "partial", "theorems": ["time_indices_refuted", "time_indices_spec"], "note": "false: at Julian dates the tolerance is over 20 s"},
 {"property": "C204", "status": "proved", "theorems": ["blpair_groups_spec"], "note": ""},
 {"property": "C205", "status": "partial", "theorems": ["blpair_groups_refuted", "blpair_groups_spec"], "note": "false of the code"},
 {"property": "C206", "status": "proved", "theorems": ["blpair_seps_spec", "blpair_seps_missing"], "note": "the rotation to the local frame is a parameter that keeps lengths"},
 {"property": "C207", "status": "proved", "theorems": ["blpair_blvecs_spec"], "note": ""},
 {"property": "C208", "status": "proved", "theorems": ["normalize_blpairs_spec"], "note": ""},
 {"property": "C209", "status": "proved", "theorems": ["wedge_component_spec"], "note": "exact arithmetic"},
 {"property": "C210", "status": "partial", "theorems": ["waterfall_component_refuted", "waterfall_component_partial"], "note": "false: abs-imag draws the real part; flagged imaginary parts are drawn as 0"},
 {"property": "C211", "status": "proved", "theorems": ["fix_neg_spec", "waterfall_values"], "note": "exact arithmetic"},
 {"property": "C212", "status": "partial", "theorems": ["fix_neg_refuted", "fix_neg_spec"], "note": "false: with a flagged integration negative values become nan; the substitute is above data below 1e-10"},
 {"property": "C213", "status": "proved", "theorems": ["auto_title_spec", "auto_labels_distinguish", "lst_hours_spec"], "note": "the number format is a parameter"},
 {"property": "C214", "status": "partial", "theorems": ["auto_labels_distinguish_refuted", "auto_labels_distinguish"], "note": "false: equal LSTs on different days"},
 {"property": "C215", "status": "partial", "theorems": ["plot_size_refuted", "plot_size_partial"], "note": "false: counts groups, not spectra; holds for averaged groups and for single baseline-pairs"},
 {"property": "C216", "status": "partial", "theorems": ["deltasq_label_refuted", "deltasq_label_partial"], "note": "false with delay=True"},
 {"property": "C217", "status": "proved", "theorems": ["nside_spec", "subplots_spec"], "note": ""},
 {"property": "C218", "status": "partial", "theorems": ["subplots_refuted", "subplots_spec"], "note": "false for given axes that are too few"},
 {"property": "C219", "status": "partial", "theorems": ["pixel_refuted", "pixel_offset"], "note": "the first half holds; the second only in the middle of the axis"},
 {"property": "C220", "status": "proved", "theorems": ["wedge_delay_aligned"], "note": "np.argsort: any sorting permutation"},
 {"property": "C221", "status": "partial", "theorems": ["wedge_kperp_aligned_refuted", "wedge_kperp_aligned_partial", "horizon_slope"], "note": "false unless the rows are in order of length"},
 {"property": "C222", "status": "proved", "theorems": ["edges_spec", "wedge_rotate"], "note": "exact arithmetic"},
 {"property": "C223", "status": "partial", "theorems": ["wedge_select_refuted", "wedge_select_partial"], "note": "false unless times are given as well"},
 {"property": "C224", "status": "proved", "theorems": ["file_names_distinct", "file_name_spec"], "note": "formats of at least two letters"},
 {"property": "C225", "status": "partial", "theorems": ["file_name_refuted", "file_name_spec", "file_name_one_letter"], "note": "false: one character is compared with the whole format"},
 {"property": "C226", "status": "proved", "theorems": ["round_sigfig_spec", "tick_spec"], "note": "exact arithmetic"},
 {"property": "C227", "status": "proved", "theorems": ["kgrid_spec", "kgrid_spacing"], "note": "exact arithmetic"},
 {"property": "C228", "status": "partial", "theorems": ["kgrid_covers_refuted", "kgrid_covers_partial"], "note": "false: the width is fixed, so long baselines leave the grid"},
 {"property": "C229", "status": "proved", "theorems": ["kperp4bl_spec"], "note": "exact arithmetic"},
 {"property": "C230", "status": "partial", "theorems": ["beam_centre_even_refuted", "beam_centre_odd_partial"], "note": "false for even numbers of pixels: one pixel off"},
 {"property": "C231", "status": "partial", "theorems": ["interp_ft_refuted", "interp_ft_partial", "rgi_nodes", "rgi_outside"], "note": "false: only the diagonal is evaluated and repeated in each row"},
 {"property": "C232", "status": "proved", "theorems": ["kperp_bins_spec"], "note": "exact arithmetic"},
 {"property": "C233", "status": "partial", "theorems": ["kperp_bins_refuted", "kperp_bins_spec"], "note": "false with autocorrelations"},
 {"property": "C234", "status": "proved", "theorems": ["match_time_spec", "spw_start_spec"], "note": ""},
 {"property": "C235", "status": "proved", "theorems": ["temperature_rows", "meanT_bounds", "row_noise_value"], "note": "exact arithmetic; nearest-neighbour interpolation modelled as scipy does it"},
 {"property": "C236", "status": "proved", "theorems": ["temperature_flagged", "flagged_noise_infinite"], "note": ""},
 {"property": "C237", "status": "partial", "theorems": ["single_integration_refuted", "temperature_rows"], "note": "false with a single unflagged integration; holds with two or more"},
 {"property": "C238", "status": "partial", "theorems": ["repeated_lsts_refuted", "common_lsts_partial"], "note": "false when LSTs repeat; holds for common, distinct LSTs"},
 {"property": "C239", "status": "proved", "theorems": ["noise_error_both"], "note": ""},
 {"property": "C240", "status": "partial", "theorems": ["precomp_needs_autos_refuted", "precomp_partial"], "note": "false: the frequencies of the temperatures are read in any case"},
 {"property": "C241", "status": "partial", "theorems": ["psn_alone_refuted", "noise_error_both"], "note": "false: needs P_N among the statistics and uses a stale one"},
 {"property": "C242", "status": "proved", "theorems": ["check_sound", "check_types", "check_windows_when"], "note": "casts give values of the type and leave values of the type alone (hypothesis)"},
 {"property": "C243", "status": "proved", "theorems": ["check_idempotent"], "note": "same hypothesis"},
 {"property": "C244", "status": "partial", "theorems": ["check_shapes_refuted", "check_required_refuted", "check_spw_refuted", "check_sound"], "note": "false: shapes, time_2_array, symmetric_taper and repeated windows are not checked"},
 {"property": "C245", "status": "partial", "theorems": ["check_error_refuted", "check_failure_refuted", "check_idempotent", "names_sorted"], "note": "false: other exceptions, and earlier casts stay"},
 {"property": "C246", "status": "proved", "theorems": ["normalize_nested_spec", "normalize_spws_spec"], "note": ""},
 {"property": "C247", "status": "proved", "theorems": ["load_config_spec", "load_config_idempotent"], "note": ""},
 {"property": "C248", "status": "partial", "theorems": ["load_config_refuted", "load_config_spec"], "note": "false inside lists"},
 {"property": "C249", "status": "proved", "theorems": ["omit_flags_rows"], "note": ""},
 {"property": "C250", "status": "proved", "theorems": ["key_forms", "key_distinct"], "note": "polarization strings are numbered by pyuvdata (arbitrary function); antennas below 900 for baseline-pair integers"},
 {"property": "C251", "status": "proved", "theorems": ["get_cov_spec", "get_cov_errors"], "note": ""},
 {"property": "C252", "status": "proved", "theorems": ["window_function_spec", "exact_window_function_spec"], "note": ""},
 {"property": "C253", "status": "partial", "theorems": ["exact_window_folded", "exact_window_folded_refuted"], "note": "false: the slices and the polarization index are taken on the wrong axes"},
 {"property": "C254", "status": "partial", "theorems": ["set_stats_shape", "set_stats_folded_refuted", "folded_width"], "note": "false for folded objects"},
 {"property": "C255", "status": "proved", "theorems": ["adjustment_identity", "adjustment_full", "adjustment_bounds", "adjustment_flagged", "adjustment_error"], "note": "exact arithmetic; unit filter extension 0"},
 {"property": "C256", "status": "proved", "theorems": ["adjustment_weighted", "adjustment_no_response"], "note": ""},
 {"property": "C257", "status": "proved", "theorems": ["sphwf_distribution", "sphwf_windows", "sphwf_refusals", "sphwf_accepts"], "note": "from the averaged object on"},
 {"property": "C258", "status": "partial", "theorems": ["sphwf_times_partial", "sphwf_times_refuted", "sphwf_row_order"], "note": "false for several groups and times: the rows are group-major, the code reads them time-major"},
 {"property": "C259", "status": "partial", "theorems": ["sphwf_pols_refuted", "sphwf_distribution"], "note": "false: always ValueError; holds with one polarization pair"},
 {"property": "C260", "status": "partial", "theorems": ["sphwf_uninitialised_refuted", "sphwf_distribution"], "note": "false when no theory bin receives weight: np.divide with where and without out"},
 {"property": "C261", "status": "proved", "theorems": ["edge_units_converted"], "note": ""},
 {"property": "C262", "status": "partial", "theorems": ["edge_args_kept_refuted", "edge_same_array_refuted", "edge_units_converted"], "note": "false: in-place conversion of the caller's float arrays"},
 {"property": "C263", "status": "proved", "theorems": ["flagged_channels", "flagged_data"], "note": "np.linalg.pinv is any function with the Penrose conditions 2-4 on square matrices"},
 {"property": "C264", "status": "proved", "theorems": ["delays_values", "delays_order", "delays_pspecdata"], "note": ""},
 {"property": "C265", "status": "proved", "theorems": ["get_Q_even", "get_Q_shape"], "note": ""},
 {"property": "C266", "status": "partial", "theorems": ["get_Q_range", "get_Q_negative", "get_Q_negative_refuted"], "note": "false for negative modes, which count from the end"},
 {"property": "C267", "status": "proved", "theorems": ["integral_beam_spec", "integral_beam_positive", "integral_beam_bounds", "integral_beam_errors"], "note": "interpolation in frequency (pyuvdata) is an arbitrary function"},
 {"property": "C268", "status": "partial", "theorems": ["integral_beam_unknown_refuted", "integral_beam_errors"], "note": "false: ValueError; only beams without a response matrix give ones"},
 {"property": "C269", "status": "proved", "theorems": ["gaussian_values", "gaussian_shape", "gaussian_errors"], "note": ""},
 {"property": "C270", "status": "partial", "theorems": ["gaussian_one_width_refuted", "gaussian_errors"], "note": "false: ValueError"},
 {"property": "C271", "status": "proved", "theorems": ["file_pol_spec", "from_file_window", "from_file_contents"], "note": "str(Path(p)) is taken to be p"},
 {"property": "C272", "status": "proved", "theorems": ["clear_cache_keys"], "note": ""},
 {"property": "C273", "status": "proved", "theorems": ["C_model_precedence", "C_model_computed", "C_model_unknown_name", "C_model_needs_time", "C_model_frame"], "note": "matrices and their computation are arbitrary"},
 {"property": "C274", "status": "proved", "theorems": ["known_cov_stays"], "note": ""},
 {"property": "C275", "status": "proved", "theorems": ["empirical_ignores_time"], "note": ""},
 {"property": "C276", "status": "proved", "theorems": ["cross_covar_spec", "cross_covar_noise_models"], "note": ""},
 {"property": "C277", "status": "partial", "theorems": ["known_cross_covariance_used_refuted", "cross_covar_spec"], "note": "false: cross_covar_model looks for the key with the time of the call"},
 {"property": "C278", "status": "partial", "theorems": ["documented_key_used_refuted", "documented_key_never_read"], "note": "false: keys have six components"},
 {"property": "C279", "status": "proved", "theorems": ["inverse_follows_covariance"], "note": "without set_iC; inversion is one function of the matrix"},
 {"property": "C280", "status": "partial", "theorems": ["inverse_empirical_time_refuted", "inverse_follows_covariance"], "note": "false: the cached inverse keeps the time in its key and is not dropped by set_C of the covariance"},
 {"property": "C281", "status": "proved", "theorems": ["set_C_used_by_R", "R_ignores_later_set_C", "clear_cache_forgets_set_C"], "note": ""},
 {"property": "C282", "status": "partial", "theorems": ["set_C_refreshes_R_refuted", "R_ignores_later_set_C"], "note": "false: R is cached"},
 {"property": "C283", "status": "proved", "theorems": ["include_extension_no_effect", "weights_default_to_flags"], "note": ""},
 {"property": "C284", "status": "proved", "theorems": ["get_reds_exact", "get_reds_fails"], "note": "the groups of hera_cal's get_pos_reds are arbitrary"},
 {"property": "C285", "status": "partial", "theorems": ["autos_only_refuted", "autos_only_needs_add_autos"], "note": "false without add_autos"},
 {"property": "C286", "status": "partial", "theorems": ["single_antenna_refuted", "get_reds_fails"], "note": "false: IndexError"},
 {"property": "C287", "status": "proved", "theorems": ["ew_cut_is_east", "ew_cut_at_least_east"], "note": ""},
 {"property": "C288", "status": "partial", "theorems": ["ew_cut_refuted", "ew_cut_at_least_east", "ew_cut_is_east"], "note": "false with vertical components: the length is three-dimensional"},
 {"property": "C289", "status": "proved", "theorems": ["get_Omegas_columns", "get_Omegas_refuses", "get_Omegas_single"], "note": "beam integrals are arbitrary functions of the polarization"},
 {"property": "C290", "status": "proved", "theorems": ["validate_pol_spec"], "note": ""},
 {"property": "C291", "status": "partial", "theorems": ["validate_pol_own_orientation_refuted", "validate_pol_spec"], "note": "false: the orientation of the first dataset is used for both"},
 {"property": "C292", "status": "proved", "theorems": ["units_spec"], "note": ""},
 {"property": "C293", "status": "partial", "theorems": ["units_mixed_refuted", "units_spec"], "note": "false for datasets of different units"},
 {"property": "C294", "status": "proved", "theorems": ["spherical_edges", "linear_bins_accepted", "uneven_bins_refused", "even_bins_accepted"], "note": "exact arithmetic (np.arange)"},
 {"property": "C295", "status": "partial", "theorems": ["descending_bins_refuted", "spherical_edges"], "note": "false for descending bins, which the documentation excludes"},
 {"property": "C296", "status": "proved", "theorems": ["spherical_accepts"], "note": ""},
 {"property": "C297", "status": "proved", "theorems": ["spherical_rows", "spherical_value"], "note": ""},
 {"property": "C298", "status": "proved", "theorems": ["mean_k_in_bin"], "note": ""},
 {"property": "C299", "status": "partial", "theorems": ["weighted_k_refuted", "weighted_k_ignores_weights"], "note": "false: an unweighted mean"},
 {"property": "C300", "status": "proved", "theorems": ["empty_bin_warns"], "note": ""},
 {"property": "C301", "status": "partial", "theorems": ["empty_warning_refuted", "empty_bin_warns", "warning_exact"], "note": "false: weights are added to an array of integers, so that total weights below one count as zero"},
 {"property": "C302", "status": "proved", "theorems": ["spherical_order", "spherical_weight_counts", "get_spherical_refuses", "given_bins_used"], "note": "the default kperp bins depend on the greatest length only (hypothesis: equal for the two lists)"},
 {"property": "C303", "status": "proved", "theorems": ["noise_sim_values"], "note": "random deviates are arbitrary"},
 {"property": "C304", "status": "partial", "theorems": ["noise_conversion_refuted", "noise_conversion"], "note": "false for pseudo-Stokes polarizations: the factor sqrt(2) is applied twice"},
 {"property": "C305", "status": "proved", "theorems": ["noise_seed"], "note": ""},
 {"property": "C306", "status": "proved", "theorems": ["noise_not_inplace", "noise_inplace"], "note": ""},
 {"property": "C307", "status": "partial", "theorems": ["noise_inplace_refuted", "noise_inplace_extended", "noise_inplace"], "note": "false with Nextend > 0: the extended copy receives the noise and is dropped"},
 {"property": "C308", "status": "proved", "theorems": ["extended_times", "extended_once", "extended_rows"], "note": "times after pyuvdata's sum; exact arithmetic"},
 {"property": "C309", "status": "partial", "theorems": ["extended_contiguous_refuted", "extended_times", "extended_once"], "note": "false for two or more extensions: shifts accumulate"},
 {"property": "C310", "status": "proved", "theorems": ["gauss_cov_shape", "gauss_fg_rows"], "note": ""},
 {"property": "C311", "status": "proved", "theorems": ["jy_radiometer"], "note": ""},
 {"property": "C312", "status": "proved", "theorems": ["sky_sim_values", "sky_sim_refuses", "sky_sim_accepts"], "note": "polarizations abstract"},
 {"property": "C313", "status": "proved", "theorems": ["sky_sim_seed"], "note": ""},
 {"property": "C314", "status": "partial", "theorems": ["sky_seed_refuted", "sky_sim_seed"], "note": "false if the signal is common to all baselines"},
 {"property": "C315", "status": "proved", "theorems": ["from_data_pairs", "from_data_flat", "from_data_refuses"], "note": ""},
 {"property": "C316", "status": "proved", "theorems": ["select_twice_is_once", "select_once_is_twice", "select_order_irrelevant", "bls_and_blpairs_one_call_refuted"], "note": "objects are compared attribute by attribute, the order of dictionary entries aside; the alternative/condition difference of bls and blpairs is shown by an object"},
 {"property": "C317", "status": "proved", "theorems": ["select_idempotent", "select_windows_twice_refuted"], "note": ""},
 {"property": "C318", "status": "proved", "theorems": ["select_fold_commute", "select_windows_fold_refuted"], "note": ""},
 {"property": "C319", "status": "proved", "theorems": ["average_no_crosstalk"], "note": "as read by the getters of the averaged objects"},
 {"property": "C320", "status": "proved", "theorems": ["average_select_commute"], "note": "weights from integration times; unfolded object or no windows named"},
 {"property": "C321", "status": "proved", "theorems": ["average_fold_commute"], "note": "weights from integration times, equal weights of the members; real arithmetic"},
 {"property": "C322", "status": "proved", "theorems": ["split_rows_combine"], "note": "objects whose windows, rows and polarization pairs are stored once; times as integers"},
 {"property": "C323", "status": "proved", "theorems": ["split_pols_combine"], "note": "as C322, rounded times unique"},
 {"property": "C324", "status": "proved", "theorems": ["split_windows_combine", "split_folded_windows_refuted"], "note": "as C323, unfolded objects; the refuted theorem is the exception the statement mentions"},
 {"property": "C325", "status": "proved", "theorems": ["set_R_persists", "set_R_only"], "note": "Keys of the form R looks up; a key of another form is never read."},
 {"property": "C326", "status": "proved", "theorems": ["r_params_last", "r_params_needed"], "note": ""},
 {"property": "C327", "status": "proved", "theorems": ["tile_combinations", "tile_common_factor", "vanilla_valid", "vanilla_rows", "vanilla_usual", "vanilla_axes", "vanilla_units"], "note": "Exact arithmetic; beam arrays not modelled."},
 {"property": "C328", "status": "proved", "theorems": ["log_line", "log_contents", "log_lines_refuted"], "note": "json.dumps of a message that is not a string is not expanded."},
 {"property": "C329", "status": "proved", "theorems": ["load_dsets_spec", "load_cals_spec", "load_cals_record_refuted"], "note": "glob and pyuvdata's readers are arbitrary functions."},
 {"property": "C330", "status": "proved", "theorems": ["ordered_unique_places", "np_ordered_unique_correct"], "note": ""},
 {"property": "C331", "status": "proved", "theorems": ["time_difference_spec", "time_difference_errors"], "note": ""},
 {"property": "C332", "status": "proved", "theorems": ["covariance_propagates", "covariance_propagates_in_time"], "note": "Real and imaginary parts alike."},
 {"property": "C333", "status": "proved", "theorems": ["covariance_symmetric_positive", "covariance_diagonal"], "note": ""},
 {"property": "C334", "status": "partial", "theorems": ["covariance_repeated_refuted", "covariance_of_copies"], "note": "false of the code: k copies divide the covariance by k, as if they were independent"},
 {"property": "C335", "status": "proved", "theorems": ["weights_averaged", "weights_averaged_in_two_steps"], "note": ""},
 {"property": "C336", "status": "partial", "theorems": ["time_averaged_errors_refuted", "time_averaged_errors", "time_averaged_small_errors"], "note": "false of the code: a baseline-pair whose time-averaged variance is at most 1e-8 gets the error 1e20; holds above"},
 {"property": "C337", "status": "proved", "theorems": ["averaged_baselines", "averaged_baseline_vectors"], "note": ""},
 {"property": "C338", "status": "partial", "theorems": ["time_pairs_tolerance_refuted", "time_pairs_counted"], "note": "false of the code: times are rounded, so that two times closer than the tolerance may be separated; those further apart always are, equal ones never"},
 {"property": "C339", "status": "proved", "theorems": ["swmr_no_new_spectra", "swmr_existing_spectra"], "note": "the check of set_pspec; restrictions of h5py itself in SWMR mode are not modelled"},
 {"property": "C340", "status": "proved", "theorems": ["averaged_statistics", "averaged_statistics_refused"], "note": ""},
 {"property": "C341", "status": "proved", "theorems": ["statistics_independent", "statistics_averaged", "single_row_statistic"], "note": ""},
 {"property": "C342", "status": "partial", "theorems": ["repeated_statistic_refuted", "repeated_statistic_shape"], "note": "false of the code: a name given n times gives n times the rows and n times the polarizations, and wrong values"},
 {"property": "C343", "status": "proved", "theorems": ["inverse_variance_error", "inverse_variance_optimal"], "note": "for averaged variances above 1e-8, below which error bars become infinite (C105)"},
 {"property": "C344", "status": "partial", "theorems": ["left_over_weights_refuted", "left_over_weights"], "note": "false of the code when there are more lists of weights than groups: the surplus lists are used for the baseline-pairs in no group; holds when there is one list per group"},
 {"property": "C345", "status": "proved", "theorems": ["generate_pstokes_list", "generate_pstokes_atomic"], "note": ""},
 {"property": "C346", "status": "partial", "theorems": ["generate_pstokes_default_refuted"], "note": "false of the code: the default is the text 'pI', whose letters are taken one by one; always an error, and no file is written"},
 {"property": "C347", "status": "partial", "theorems": ["generate_pstokes_inplace_refuted", "generate_pstokes_keeps_refuted"], "note": "false of the code: without --clobber nothing is written, without --keep_vispols the linear polarizations are lost; with both, C345"},
 {"property": "C348", "status": "proved", "theorems": ["auto_noise_all", "auto_noise_failure"], "note": ""},
 {"property": "C349", "status": "partial", "theorems": ["auto_noise_spectra_refuted"], "note": "false of the code: always an UnboundLocalError; nothing changes"},
 {"property": "C350", "status": "proved", "theorems": ["bootstrap_script_call", "pspec_script_call", "call_arguments"], "note": "the names of options, parameters and defaults are transcribed from the sources; the rule for calls is Python's (call_arguments)"},
 {"property": "C351", "status": "partial", "theorems": ["bootstrap_script_extra_refuted"], "note": "false of the code: a TypeError; holds without added names (C350)"},
 {"property": "C352", "status": "partial", "theorems": ["bootstrap_defaults_refuted", "pspec_defaults_refuted"], "note": "false of the code in three and seven parameters, which the theorems list; the others agree"},
 {"property": "C353", "status": "partial", "theorems": ["merge_script_refuted"], "note": "false of the code: the parser it asks for does not exist, nor does the option uvp_split_str, nor the parameter of that name"},
 {"property": "C354", "status": "partial", "theorems": ["pspec_red_refuted", "broadcast_spec"], "note": "false of the code: every call of pspec() is a TypeError (no parameter avg_group), and the conversion a ValueError; nothing is ever stored"},
 {"property": "C355", "status": "proved", "theorems": ["C355_history", "C355_accepted_iff", "C355_add_appends", "C355_accepted_only"], "note": "what a call means is specified in AddSpec.v on the arguments alone; calibration is any function of the contents"},
 {"property": "C356", "status": "proved", "theorems": ["C356_dict_is_lists"], "note": ""},
 {"property": "C357", "status": "partial", "theorems": ["C357_refused_changes_nothing", "C361_failed_calibration_refuted"], "note": "the object is never changed, nor the contents unless a calibration raises; then the datasets calibrated before stay calibrated: false of the code in that case (C361_failed_calibration_refuted)"},
 {"property": "C358", "status": "proved", "theorems": ["C358_add_resets_range"], "note": ""},
 {"property": "C359", "status": "partial", "theorems": ["C359_no_weights_one", "C359_no_weights_dict", "C359_constructor_list", "C359_no_weights_list_refuted", "C359_constructor_dict_refuted"], "note": "holds of one dataset and of dicts given to add and of lists given to the constructor; false of lists of other lengths given to add and of dicts given to the constructor"},
 {"property": "C360", "status": "partial", "theorems": ["C360_add_keeps_stds", "C360_constructor_drops_stds_refuted"], "note": "holds of add; the constructor drops every error set when one is missing"},
 {"property": "C361", "status": "partial", "theorems": ["C361_calibrated_once", "C361_dset_idx", "C361_one_for_all_refuted"], "note": "one calibration for several datasets, as the constructor's documentation allows, is refused; a dataset that occurs twice in a call is calibrated twice"},
 {"property": "C362", "status": "proved", "theorems": ["spectra_drawn", "spectra_accepted"], "note": ""},
 {"property": "C363", "status": "proved", "theorems": ["stats_drawn", "unknown_statistics"], "note": ""},
 {"property": "C364", "status": "partial", "theorems": ["average_errors_keyerror", "time_average_errors_keyerror", "average_errors_refuted", "average_stats_refuted"], "note": "the claim is refuted: the average that is plotted never has statistics, so error is always a KeyError and plot_stats an AttributeError"},
 {"property": "C365", "status": "partial", "theorems": ["unknown_component_refuted"], "note": "refuted: it is an UnboundLocalError at the first spectrum, and nothing when there is none"},
 {"property": "C366", "status": "partial", "theorems": ["log_markers", "linear_markers_refuted"], "note": "holds on a logarithmic scale; on a linear scale all markers are filled"},
 {"property": "C367", "status": "proved", "theorems": ["log_line_sign", "linear_line_sign"], "note": ""},
 {"property": "C368", "status": "proved", "theorems": ["one_label", "legend_in_order", "legend_lost", "manual_labels_spec"], "note": "with neither lines nor markers no spectrum has an entry (legend_lost)"},
 {"property": "C369", "status": "proved", "theorems": ["enu_components", "enu_isometry", "enu_axes", "enu_linear", "horizontal_length"], "note": ""},
 {"property": "C370", "status": "proved", "theorems": ["seps_from_stored_vectors"], "note": ""},
 {"property": "C371", "status": "proved", "theorems": ["from_data_call", "from_data_accepts", "from_data_constructs", "from_data_beam", "from_data_group_pairs", "from_data_no_pols"], "note": ""},
 {"property": "C372", "status": "partial", "theorems": ["from_data_kwargs_refuted", "from_data_accepts"], "note": "refuted: store_cov, cov_model and input_data_weight are TypeErrors; holds for the other optional parameters of pspec"},
 {"property": "C373", "status": "proved", "theorems": ["from_data_other"], "note": "by an UnboundLocalError"},
 {"property": "C374", "status": "proved", "theorems": ["check_key_spec", "check_key_refuses", "check_key_index"], "note": "labels, which other methods accept, are a TypeError"},
 {"property": "C375", "status": "proved", "theorems": ["groups_by_antennas", "groups_by_integers", "groups_not_given"], "note": ""},
 {"property": "C376", "status": "proved", "theorems": ["groups_partition"], "note": ""},
 {"property": "C377", "status": "proved", "theorems": ["groups_refused", "C18_no_groups", "entries_refused"], "note": ""},
 {"property": "C378", "status": "partial", "theorems": ["groups_mixed_refuted"], "note": "false of the code: only the first baseline-pair of the first group is looked at. If it is a tuple, an integer elsewhere is a TypeError; if it is an integer, a later group that starts with a tuple is a ValueError, and a baseline-pair written as a tuple elsewhere is averaged into its group and again as a group of its own"},
 {"property": "C379", "status": "proved", "theorems": ["beam_uv_spec", "beam_uv_response"], "note": "what efield_to_power and peak_normalize promise is a hypothesis (pyuvdata)"},
 {"property": "C380", "status": "partial", "theorems": ["beam_uv_caller_refuted", "beam_uv_again"], "note": "false of the code for E-field beams, which are converted and normalised in place; a power beam is unchanged, and the second PSpecBeamUV of one object shares its beam and changes nothing"},
 {"property": "C381", "status": "proved", "theorems": ["bins_read", "one_width_for_all", "bins_refused", "bins_units", "scaled_bin", "bins_nonvacuous"], "note": "rounding is not modelled; a numpy integer as the width is accepted for one bin only"},
 {"property": "C382", "status": "partial", "theorems": ["overlap_small", "no_overlap_partial", "overlap_accepted"], "note": "false of the code: overlaps below 1e-6 are accepted, and with a negative width any overlap is; proved: without negative widths, a wavenumber in bins i<j is within (j-i) 1e-6 of the edge, and if edges do not overlap no wavenumber is in two bins"},
 {"property": "C383", "status": "partial", "theorems": ["nan_refused_partial", "nan_accepted", "bins_refused"], "note": "false of the code for one bin: None, which numpy reads as nan, makes a bin with no edges; refused when there are two or more bins"},
 {"property": "C384", "status": "partial", "theorems": ["summary_inj_partial", "summary_count", "summary_lines", "summary_refuted", "summary_text"], "note": "false of the code for labels with quotes and line ends; proved for labels without quotes, and for the number of datasets with any labels"},
 {"property": "C385", "status": "proved", "theorems": ["waterfalls_saved", "waterfalls_default_names", "waterfalls_files", "waterfalls_lost", "waterfalls_refused", "waterfalls_nonvacuous"], "note": "for other basenames the hypothesis is that the names of different keys differ (waterfalls_files); drawing itself is uvtools'"},
 {"property": "C386", "status": "proved", "theorems": ["waterfalls_colours"], "note": "how uvtools.plot.waterfall reads mx and drng is a definition (colour_range), not code of the repository"},
 {"property": "C387", "status": "partial", "theorems": ["old_file_read", "old_file_selected", "old_file_nonvacuous", "rows_asked_for"], "note": "false of the code with selections: Nbltpairs is that of the whole file after a selection by baselines, and a selection by baseline-pairs or times alone is an AttributeError; proved for whole files"},
 {"property": "C388", "status": "partial", "theorems": ["new_file_read_partial", "read_after_failure_refuted", "old_file_nonvacuous", "rows_asked_for", "new_file_counters"], "note": "false of the code for an object left by a failed read of an old file, whose Nblpairts is not cleared; proved for objects without Nblpairts and files of the present format"},
 {"property": "C389", "status": "proved", "theorems": ["old_polarizations", "new_polarizations", "old_exact_windows", "old_polarizations_case"], "note": "before the selection of rows and pairs"}
]}
