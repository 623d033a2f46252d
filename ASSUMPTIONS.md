# What `Print Assumptions` lists for each theorem

Generated by tools/assumptions.py: 583 theorems.

## No axioms (closed under the global context)

C01_call, C01_failed_to_complex, C01_fixed_buffer_refuted, C01_generic_sifft_refuted, C01_history, C01_rededicate_refuted, C01_to_complex_odd_refuted, C01_to_complex_refuted, C02_regrow_shows_old_data, C02_resize, C02_resize_b_vec, C02_resize_prefix, C02_resize_vec, C03_complex_ctor, C03_ctor_meta, C03_from_refuted, C03_gen_slice_refuted, C03_interleave, C04_rededicate, C04_rededicate_refuted, C05_surround_unbalanced, C05_zero_pad_b_center_complex, C05_zero_pad_b_center_real, C05_zero_pad_b_complex, C05_zero_pad_b_real, C05_zero_pad_b_too_small, C05_zero_pad_complex, C05_zero_pad_real, C05_zero_pad_too_small, C06_center_agree, C06_center_refuted, C06_interleave_empty_refuted, C06_surround_refuted, C06_zero_interleave_agree, C06_zero_pad_agree, C07_call, C07_center_refuted, C07_foreign, C07_matrix, C07_matrix_convolve, C07_matrix_convolve_refuted, C07_matrix_correlate, C07_misaligned_refuted, C07_session, C07_swapped, C07_zero_interleave_no_leak, C07_zero_pad_no_leak, C08_interleaved_length, C08_interleaved_meaning, C08_odd_storage_refuted, C08_zero_interleave_b_complex, C08_zero_interleave_b_real, C08_zero_interleave_complex, C08_zero_interleave_real, C09_reverse_complex, C09_reverse_involutive, C09_reverse_real, C10_ifft_shift_complex, C10_ifft_shift_real, C10_shift_roundtrip, C10_single_point_refuted, C10_swap_halves_complex, C10_swap_halves_real, C11_merge_complex, C11_merge_real, C11_merge_rejects, C11_merge_spare_refuted, C11_merge_split, C11_spare, C11_split_complex, C11_split_real, C11_split_rejects, C11_split_spare_refuted, C12_cum_sum, C12_cum_sum_undoes_diff_with_start, C12_diff, C12_diff_empty_refuted, C12_diff_with_start, C12_odd_storage_refuted, C13_add, C13_div, C13_mul, C13_mul_odd_storage_refuted, C13_offset_complex, C13_offset_real, C13_scale_complex, C13_scale_real, C13_sub, C14_add_smaller, C14_div_smaller, C14_mul_smaller, C14_sub_smaller, C15_any_interleaving, C15_empty_refuted, C15_in_place, C15_in_place_with_range, C15_pointwise_complex, C15_pointwise_real, C15_reports, C15_reports_zipped, C15_source_to_destination, C15_sym_pairs_refuted, C16_chunk_size, C16_partition, C17_ceiling, C18_complex, C18_misaligned_refuted, C18_mispaired_refuted, C18_real, C19_empty, C19_statistics_complex, C19_statistics_real, C19_sum, C19_sum_complex, C20_first_position_refuted, C20_lost_minimum_refuted, C20_merge, C20_merge_finished_refuted, C20_minimum, C21_split_complex, C21_split_empty_refuted, C21_split_real, C22_map_aggregate, C22_map_aggregate_complex, C22_map_aggregate_spare_refuted, C22_map_inplace, C22_map_inplace_complex, C22_odd_storage_refuted, C23_get_mag_phase, C23_get_magnitude, C23_get_magnitude_spare_refuted, C23_get_real_imag, C23_get_real_room_refuted, C23_get_then_set, C23_get_then_set_mag_phase, C23_getters, C23_getters_mismatch, C23_set_mag_phase, C23_set_rejects, C23_set_then_get, C24_magnitude, C24_to_complex, C24_to_complex_b, C24_to_complex_to_imag, C24_to_complex_to_real, C24_transforms, C24_wrong_space, C26_apply, C26_apply_first_half, C26_short_refuted, C26_uneven_refuted, C26_untouched_refuted, C27_errors, C27_reading, C27_reals, C28_selection_reals, C28_simd_complex, C28_simd_reals, C29_backward, C29_empty, C29_forward, C30_complex_refuted, C30_errors, C30_many_rows_refuted, C30_reals, C31_single_refuted, C32_fft_complex, C32_fft_real, C32_ifft, C32_ifft_real, C32_ifft_runtime_refuted, C32_ifft_shifted, C32_sifft, C32_sifft_runtime_refuted, C32_wrong_fft, C32_wrong_ifft, C32_wrong_sfft, C32_wrong_sifft, C33_even_rejected, C33_runtime_refuted, C34_empty_refuted, C34_mirror, C34_unique, C35_same_length_refuted, C35_single_refuted, C35_wrong_space, C36_compose, C36_decimatei_complex, C36_decimatei_real, C36_factor_zero_refuted, C36_inverse_complex, C36_inverse_real, C36_length, C37_complex, C39_buffered, C39_buffered_in_place, C39_construction, C39_conversions, C39_convolve_vector, C39_correlate, C39_cum_sum_refuted, C39_diff_with_start_refuted, C39_dot_matrix, C39_dot_vector, C39_fallible, C39_getters, C39_getters2, C39_getters_are_imag, C39_getters_refuted, C39_in_place, C39_map_aggregate, C39_matrix_argument, C39_missing_rows_refuted, C39_resampling, C39_resize, C39_setters2, C39_statistics, C39_statistics_split, C39_sum_missing, C39_sum_refuted, C39_sums, C39_sums_are_diff, C39_unchanged_matrix, C39_unchanged_refuted, C39_unchanged_vector, C39_vector_argument, C40_atan, C40_atan_refuted, C40_codes_distinct, C40_codes_unique, C40_complex_dot_products, C40_documented_refuted, C40_dot_products, C40_new, C40_new_refuted, C40_overwrite, C40_overwrite_refuted, C40_vector, C40_void, C40_void_refuted, C40_zero_is_success, C41_dot_prec, C41_statistics_prec, C41_sum_prec, C41_sum_prec_complex, C43_buffered, C43_call, C43_conversion, C43_convolve_signal, C43_erroneous, C43_fallible, C43_getter, C43_ifft_refuted, C43_inplace, C43_mirror_refuted, C43_set_refuted, C43_shift_refuted, C43_to_complex, C43_window_refuted, C44_complex_empty_refuted, C44_complex_roundtrip, C44_complex_spare_capacity_refuted, C44_real_roundtrip, C44_slice_roundtrip, C45_complex_factor_refuted, C45_dot_product, C45_longer_refuted, C45_rejects, C45_shorter_refuted, C46_enough_pieces, C46_short_refuted, C46_untouched_refuted, C47_abs, C47_expf, C47_log, C47_named, C47_powf, C47_root, C47_sqrt, C47_square, C47_unary, C48_conj, C48_exponential, C50_fft, C50_magnitude_spectrum, C50_number_spaces, C50_scratch_refuted, C50_to_complex, C50_to_real, C60_in_place, C60_in_place_with_range, C60_one_core, C60_source_to_destination, C61_as_exact, C61_values, C62_arithmetic, C62_magnitude, C62_magnitude_refuted, C62_norms, C62_norms_refuted, C62_selection, C62_sums, C62_vectors, C63_changed_unique, C63_data_at, C63_data_mut_at, C63_data_mut_range, C63_data_range, C63_datac_at, C63_datac_mut_at, C63_datac_mut_range, C63_datac_of_real_refuted, C63_datac_range, C63_operator, C64_complex, C64_ln_of_negative, C66_calibration, C66_default, C66_explicit, C66_large_first, C66_new, C66_no_cores_refuted, C66_no_panic, C66_par_complex, C66_par_real, C66_parallel, C66_three_cores_refuted, C67_f32_complex, C68_capacity, C68_collect_refuted, C68_like_a_list, C68_of_size, C68_panics, C68_resize_refuted, C68_small, C69_aggregate, C69_aggregate_errors, C69_complex_split, C69_complex_sums, C69_domain, C69_new_detailed, C69_new_settings, C69_reads_complex, C69_reads_reals, C69_set_len, C69_set_len_refuted, C69_set_value, C69_split, C69_statistics, C69_sums, C69_wrong_space_refuted, C70_call, C70_clone_refuted, C70_dangling, C70_getter_refuted, C70_no_dangling, C70_no_leaks, C70_others, C70_returned, C71_binary, C71_buffered, C71_conversion, C71_convolve_signal, C71_fallible, C71_fft_ifft, C71_get, C71_get_refuted, C71_inplace, C71_inplace_b, C71_metadata, C71_metadata_empty, C71_resampling, C71_rows_binary, C71_rows_binary_vec, C71_rows_buffered, C71_rows_conversion, C71_rows_convolve, C71_rows_diff, C71_rows_fallible, C71_rows_inplace, C71_rows_inplace_b, C71_rows_resampling, C71_rows_resize, C71_rows_set_delta, C71_sfft_refuted, C71_uniform, C72_apply_window, C72_convolve_symmetry, C72_map, C72_map_wrong_space, C72_symmetric_refuted, C72_transforms

## `ClassicalDedekindReals.sig_forall_dec`, `FunctionalExtensionality.functional_extensionality_dep`

C25_inside, C25_monotone, C25_refuted, C25_unwrap_wrap, C26_unapply, C28_function_scalar, C28_function_scalar_complex, C28_ratios, C37_hermite, C37_hermite_assertion_refuted, C37_hermite_points, C37_hermite_short_refuted, C37_linear, C37_linear_any, C37_linear_delay_refuted, C38_between, C38_between_complex, C38_left_refuted, C38_points, C38_points_complex, C38_right, C38_symmetric, C38_symmetric_complex, C53_gain, C55_gain, C56_complex, C56_kept_complex, C56_kept_reals, C56_reals, C57_delay_refuted, C57_same, C57_same_complex, C57_same_reals, C57_short_refuted, C57_simd_complex, C57_simd_reals, C65_binary, C65_matrix_binary_complex, C65_matrix_binary_reals, C66_break_even, C67_dot, C67_dot_complex, C67_f32, C67_statistics, C67_statistics_complex, C67_sum, C67_sum_complex, C73_anywhere, C73_cum_sum, C73_cum_sum_complex, C73_diff_cum_sum, C73_dot, C73_dot_complex, C73_statistics, C73_statistics_complex, C73_sum, C73_sum_complex, C74_convolve_function, C74_convolve_function_complex, C74_convolve_signal, C74_convolve_signal_any, C74_convolve_signal_complex, C74_convolve_signal_complex_any, C74_registers, C74_registers_complex, C74_registers_scalar, C75_windowed_sifft

## `ClassicalDedekindReals.sig_forall_dec`, `ClassicalDedekindReals.sig_not_dec`, `FunctionalExtensionality.functional_extensionality_dep`

C27_complex, C28_function_complex_refuted, C28_function_greater_refuted, C28_function_one, C28_function_real_refuted, C28_function_sampled, C28_gap_refuted, C28_selection_complex, C31_complex, C31_plain, C31_real, C31_windowed, C33_half_spectrum, C33_mirror, C35_correlate_padded, C35_spectra_product, C42_apply_builtin, C42_functions, C42_windows, C46_complex_response, C46_real_response, C46_wrong_domain, C49_plain, C49_sifft, C49_sifft_refuted, C49_sifft_single_refuted, C50_fft_ifft_refuted, C55_asymmetric, C55_complex, C55_even_refuted, C55_ideal, C55_no_factor, C55_no_images, C55_odd_refuted, C55_reals, C58_center, C58_ends, C58_hamming, C58_range, C58_unapply, C58_values, C59_cardinal, C59_continuous, C59_interpolatef, C59_spectra, C59_values, C75_windowed_sfft, C75_windowed_sfft_agrees, C75_windowed_sfft_refuted, C75_windowed_sfft_runtime_refuted

## `ClassicalDedekindReals.sig_forall_dec`, `ClassicalDedekindReals.sig_not_dec`, `Classical_Prop.classic`, `FunctionalExtensionality.functional_extensionality_dep`

C17_bound_sharp, C17_exact, C23_get_then_set_mag_phase_exact, C39_fft_ifft, C48_exponential_exact, C51_complex, C51_reals, C52_band_limited, C52_complex, C52_kept_complex, C52_kept_reals, C52_reals, C53_asymmetric, C53_centered_complex, C53_centered_reals, C53_complex, C53_odd_refuted, C53_reals, C54_complex, C54_reals, C54_reals_refuted, C61_log_of_expf, C61_powf, C64_cos, C64_exp, C64_exp_refuted, C64_expf, C64_ln, C64_ln_fine, C64_ln_refuted, C64_log, C64_position_refuted, C64_powf, C64_sin, C65_complex, C65_conversions, C65_conversions_b, C65_dot_products, C65_foreign_binary, C65_foreign_complex, C65_foreign_conversions_b, C65_foreign_reals, C65_foreign_transforms, C65_getters, C65_getters2, C65_matrix_complex, C65_matrix_conversions, C65_matrix_conversions_b, C65_matrix_dot_products, C65_matrix_getters, C65_matrix_reals, C65_matrix_sums, C65_matrix_transforms, C65_reals, C65_setters2, C65_statistics, C65_sums, C65_transforms, C67_f64, C67_plain, C67_split_refuted, C71_delta_refuted, C72_convolve, C72_interpolate, C72_interpolatef, C72_multiply_complex, C72_multiply_real, C72_unapply_window, C73_alignment_matters, C73_f64, C73_statistics_f64, C74_f64, C74_f64_any, C74_f64_complex_any
