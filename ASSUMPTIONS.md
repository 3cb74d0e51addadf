# Print Assumptions, per theorem

Generated by tools/assumptions.py from the compiled development.

## Closed under the global context

C01_calendar_days, C01_calendar_days_sum, C01_gregorian_refuted, C02_grace_month_bijection, C02_grace_month_decimal, C03_adjust_length, C03_adjust_nodup, C03_adjust_unique_kept, C04_doublet_outcomes, C04_repair_at_start, C04_repair_slipped_back, C04_repair_slipped_forward, C05_adjust_usable_refuted, C05_many_copies_become_zero, C06_day_of_year_form, C06_decimal_exact, C06_decimal_in_year, C06_decimal_monotone, C07_calendar_dates_value, C07_epoch_and_scale, C07_julian_day_number_unique, C07_no_gap_refuted, C08_convert_julian_gregorian, C08_convert_julian_julian, C08_roundtrip, C08_roundtrip_refuted, C09_delta_time, C102_from_ftp, C102_from_ftp_cases, C102_from_http, C102_listing, C103_archive, C103_log_refuted, C103_month, C103_month_refuted, C103_pages, C103_short_pages_refuted, C106_century_refuted, C106_days, C106_precision_refuted, C107_name_refuted, C10_reduce_by_date, C10_reduce_total, C113_complete_iff, C113_empty_date_file_refuted, C113_file_in_table, C113_no_date_file, C113_one_bad_product_refuted, C113_other_release_refuted, C113_run, C113_single_file_refuted, C113_table, C113_unknown_centre, C113_unknown_centre_alone, C115_every_line, C115_numbers_found, C115_pointed_numbers, C117_dict, C118_existing, C118_last_fits, C118_letters, C118_not_found, C118_other_case, C118_other_file_refuted, C118_pattern, C119_accepted, C119_dates, C119_directory, C119_fields, C119_no_version, C119_period, C119_reduce, C119_rejected, C119_release_refuted, C119_short_release_refuted, C119_sound, C119_string_order, C119_version, C11_early_months_refuted, C11_missing, C11_range, C11_single_month_refuted, C120_itsg, C120_month, C120_month_zero_refuted, C120_no_date, C120_no_month, C120_other_center, C120_swarm, C120_swarm_models, C121_cnes, C121_dealiasing_refuted, C121_default_version, C121_gfz5_refuted, C121_index, C121_laser, C121_no_mission_refuted, C121_old_index, C121_old_releases, C121_other_products, C121_refused, C121_release6, C121_run, C121_stopped, C121_versions, C123_bad_epochs, C123_date, C123_elapsed, C123_epochs, C123_failures, C123_fields, C123_fraction_refuted, C123_moments, C123_months_refuted, C123_units, C123_word_refuted, C125_all_pages, C125_dates, C125_endless_refuted, C125_failures, C125_granules, C125_header, C125_last_page_refuted, C125_metadata, C125_page_size, C125_query, C125_steps, C125_unavailable, C125_unknown_endpoint, C125_unlinked_page_refuted, C12_dictionary, C12_gfc_day, C12_gfc_year_end_refuted, C12_half_day_refuted, C12_middle, C12_same_month, C131_length, C131_text, C133_dated_never, C133_failed_reader, C133_forgets, C133_from_file, C133_from_file_never, C133_level2, C133_name, C133_no_degree, C133_no_header, C133_same_month, C133_twice, C133_undated, C133_whole_month, C135_dictionary, C135_no_hl, C136_dictionary, C136_fields, C136_loop, C136_nested, C136_new, C136_new_from_dictionary, C136_new_object, C136_single, C136_stale, C137_csr, C137_csr_default_refuted, C137_csr_interrupted, C137_csr_missing, C137_csr_unknown, C137_csr_years_refuted, C137_gfz, C137_gfz_time_refuted, C137_gsfc, C137_gsfc_missing, C138_figshare, C138_mismatch_refuted, C138_s3, C138_s3_case_refuted, C138_s3_no_key, C138_verified, C139_choices, C139_comma_refuted, C139_corrections, C139_default, C139_files, C139_max_degree_refuted, C139_max_order, C139_product, C139_release, C139_stale_release_refuted, C139_unit_index, C13_months, C140_bounded, C140_drive, C140_drive_half_refuted, C140_environment, C140_environment_refuted, C140_last_answer_refuted, C140_name_stored, C140_precedence, C140_stale_password_refuted, C140_stored, C140_typed, C141_binary_refuted, C141_error_log_refuted, C141_iterations_refuted, C141_log_empty_refuted, C141_no_log, C141_sorted, C141_sync, C141_terminal, C141_verbosity, C142_attributes, C142_failure, C142_files, C142_files_unique, C142_lares_refuted, C142_release_refuted, C142_slr_file, C142_success, C142_text_refuted, C142_title, C142_title_tells, C142_unsupported, C143_absolute, C143_broken, C143_demand, C143_optional, C143_outside_refuted, C143_path_refuted, C143_relative, C143_text, C143_words, C23_iterate_single_field, C25_expand_squeeze, C25_series_untouched, C39_init_unset, C40_Pa_attributes_refuted, C40_all_codes, C40_codes_have_attributes, C40_documented_codes, C40_negative_codes_refuted, C40_nonnegative_codes, C40_unknown_attributes, C43_lmax0_refuted, C44_documented_name_refuted, C58_columns, C59_components, C59_join, C59_two_slashes_refuted, C60_distinct, C60_fresh, C60_terminates, C60_unwritable_refuted, C62_lists, C62_metadata, C62_misaligned_refuted, C62_missing_feed_refuted, C62_unknown_endpoint, C64_calendar_to_julian_one_day_early, C64_consistent_refuted, C67_copy_independent, C74_arguments, C74_clean, C75_available, C75_grace_level2, C75_granules, C81_ambiguous, C81_csr, C81_errors, C81_first_day_refuted, C81_monthly, C81_months, C81_read, C81_three_refuted, C82_c50_refuted, C82_columns, C82_csr, C82_empty, C82_lares, C82_lares_single_refuted, C82_two_series, C82_week_center_refuted, C82_weekly, C82_weekly_bounds, C83_adjusted_twice_refuted, C83_month, C83_weekly, C83_zonal_weekly, C84_caron, C84_degree, C84_errors, C84_from_gia, C84_ice6g, C84_lmax0_refuted, C84_mmax, C84_mmax_keyword_refuted, C84_tables, C84_two_sections, C84_unknown_refuted, C84_wu10, C84_wu10_short, C85_directory_refuted, C85_first_day_refuted, C85_uci, C86_as_grace_date, C86_errors, C86_month, C86_month_of_date, C86_month_zero_refuted, C86_one_day_late_refuted, C86_swarm, C86_swarm_models_refuted, C99_name

## `ClassicalDedekindReals.sig_forall_dec`

C103_gzip, C103_gzip_crash_refuted, C108_order_refuted, C117_append_refuted, C117_dict_refuted, C117_failed_write_refuted, C117_months_name_refuted, C117_no_clobber, C117_object_after, C117_roundtrip, C117_title_sticks_refuted, C117_undated, C117_undated_series_refuted, C117_units_refuted, C117_user_names, C117_user_root, C117_user_stops, C118_lines, C118_no_files, C118_not_overwritten, C118_stopped, C118_too_many_names, C118_unknown_format_refuted, C131_loop, C132_copy_fresh, C132_reads_frozen, C14_flatten_content, C14_flatten_expand, C14_flatten_order, C15_add_common_block, C15_incompatible_raises, C17_truncate, C17_truncate_defaults, C17_truncate_id, C17_truncate_twice, C17_truncate_zonal_refuted, C18_repeated_month_raises, C18_repeated_request_refuted, C18_subset, C18_subset_missing_raises, C20_scale_array, C20_scale_series_refuted, C20_scale_values, C21_convolve_short_raises, C22_from_list, C22_from_list_sorted, C22_single_object_refuted, C23_index, C23_iterate, C23_nested_iteration_refuted, C24_copy_independent, C27_masked_array, C28_ascii_roundtrip, C28_netcdf_roundtrip, C32_matrix_lengths, C32_matrix_roundtrip, C33_power_valid, C66_iterate

## `ClassicalDedekindReals.sig_forall_dec`, `FunctionalExtensionality.functional_extensionality_dep`

C102_crash_refuted, C102_history, C102_idempotent, C102_interrupted_elsewhere, C102_list, C102_no_time_refuted, C102_repair, C102_second_refuted, C102_sync, C103_index_refuted, C106_counting_refuted, C106_endless_refuted, C106_extra_member_refuted, C106_read_back, C106_run, C106_second_run, C106_single_month_refuted, C106_time, C107_half_days_refuted, C107_oblateness, C114_noise, C115_fortran_time_refuted, C115_full_stop_refuted, C115_no_failure, C115_values, C116_before_first, C116_column_order_refuted, C116_formats, C116_frames, C116_last_degree_refuted, C116_missing_file, C116_unknown, C116_values, C116_zero_degree_refuted, C118_index, C122_error_longitude_first, C122_error_square, C122_error_unlabelled, C122_example, C122_exists_h5, C122_exists_nc, C122_formats, C122_from_list, C122_months, C122_no_file, C122_no_time, C122_no_variable, C122_only_this_file, C122_partial_attributes, C122_roundtrip, C122_series_without_dates, C122_title_kept, C122_written, C124_axes_of_the_files, C124_index, C124_lines_of_a_run, C124_same, C124_square_refuted, C124_too_many_names, C124_unknown_format_refuted, C126_grid, C126_rows_refuted, C127_data, C127_errors, C127_mask, C127_ocean_refuted, C127_west_refuted, C129_between, C129_channels, C129_comments, C129_errors, C129_lower_case_model, C129_positions, C129_table, C129_wheel, C130_errors, C130_joughin, C130_rignot, C130_seroussi, C131_even_grid, C131_extent, C131_spacing_latitudes, C131_spacing_longitudes, C131_spatial_text, C132_stale_refuted, C134_columns, C134_default_columns, C134_empty, C134_line, C134_new_object, C134_new_object_type, C134_reread, C134_write_new, C135_label_refuted, C135_last_frame, C135_new, C135_separate, C135_shared, C135_transform, C135_unknown_frame, C15_add_subtract_inverse, C16_divide_frame, C16_divide_values, C16_multiply_divide, C19_mean, C20_drift, C20_power, C20_scale_compose, C20_scale_one, C21_convolve, C21_convolve_compose, C21_convolve_unit, C24_alias_interferes, C28_ascii_month_refuted, C30_cmwe_roundtrip, C30_cmwe_values, C30_mmwe_roundtrip, C32_add_subtract_inverse, C32_elementwise, C32_mean, C32_multiply_divide_inverse, C33_offset_collision_refuted, C33_offset_ignored_refuted, C33_offset_scale, C33_power_refuted, C33_replace_invalid, C33_update_mask, C34_extend, C34_last_longitude_refuted, C35_flip_attached, C35_flip_time_month_refuted, C35_flip_twice, C36_ascii_roundtrip, C36_date_keyerror, C36_date_refuted, C36_missing_cells_refuted, C36_negative_longitude_refuted, C37_netcdf_orientation, C37_not_square, C37_square_refuted, C38_apply_gap_refuted, C38_apply_masked_refuted, C38_mean, C38_statistics, C48_isolated, C48_one_row, C51_before_first, C51_file_values, C51_interpolated, C51_last_degree_lost, C51_last_degree_refuted, C52_absolute, C52_cm_twice_refuted, C52_read_is_transform, C52_transform, C52_unknown_frame, C54_average, C54_edges, C54_removes_cycle, C54_reproduces, C57_break_time, C58_first_longitude_refuted, C58_increasing, C58_shift, C61_ceil, C61_even, C63_from_gsfc, C63_from_jpl, C63_wide_refuted, C66_from_list, C66_index, C66_index_thin_refuted, C66_subset, C66_subset_missing_month, C67_replace_invalid_leaks_refuted, C67_views_share_memory_refuted, C73_nearest, C73_node, C76_coefficients, C76_pole_tide_2010, C76_rate_lines_refuted, C76_times, C76_total, C85_no_header, C85_swenson, C85_tellus, C85_tellus_bad_order, C85_tellus_order_refuted, C93_conserves, C96_mask

## `ClassicalDedekindReals.sig_forall_dec`, `ClassicalDedekindReals.sig_not_dec`, `FunctionalExtensionality.functional_extensionality_dep`

C109_centred, C109_errors_refuted, C109_gfc, C109_mean, C109_months, C109_name_refuted, C132_amplitude, C132_field, C132_rotation, C13_coefficients, C13_corrections_order_refuted, C13_degree1_model, C13_incomplete, C13_total, C26_all_reads_frozen, C26_copy_reads_fresh, C26_first_read, C26_stale_read_refuted, C29_cartesian_roundtrip, C29_inverse_linear, C29_inverse_roundtrip, C29_linear, C29_no_coordinates, C42_errors, C42_least_squares, C42_linear, C42_narrow, C42_quadratic_removed, C42_untouched, C42_window, C43_poles, C43_prefix, C43_values, C44_derivative_shape_refuted, C44_small_degree_refuted, C46_linear, C46_single_point_refuted, C53_polynomial_identifiable, C53_relative_identifiable, C56_errors, C56_invariance, C56_nyquist, C56_omega_period, C57_break_time_refuted, C63_centers_modified_refuted, C63_gsfc_roundtrip, C63_jpl_roundtrip_refuted, C63_to_gsfc, C63_to_gsfc_0_360_refuted, C63_to_jpl_mask, C63_to_jpl_scaled_refuted, C65_kfactor, C65_kfactor_error_refuted, C69_returns, C69_weights_errors, C70_aliasing, C77_harmonics, C77_out_of_range, C77_scale, C77_triangle, C77_values, C77_zero, C83_monthly, C83_no_mean, C87_errors, C89_errors

## `ClassicalDedekindReals.sig_forall_dec`, `ClassicalDedekindReals.sig_not_dec`, `Classical_Prop.classic`, `FunctionalExtensionality.functional_extensionality_dep`

C100_ascii_refuted, C100_exact, C100_invariant, C100_map, C100_propagation, C100_rerun, C100_second_run, C100_stale_refuted, C101_lmin_refuted, C101_maps, C101_negative_refuted, C101_removed_refuted, C101_shared, C101_zero_magnitude_refuted, C104_amplitude, C104_exact, C104_example, C104_fit, C104_mask_refuted, C104_names, C104_nan, C104_order3_refuted, C104_order_refuted, C104_returns, C104_statistics, C104_unknown_refuted, C105_amplitude, C105_exact, C105_example, C105_fit, C105_inner, C105_mask_refuted, C105_names, C105_nan, C105_returns, C105_statistics, C107_geocenter, C107_interrupted_refuted, C107_read_back, C107_second_run, C107_versions_refuted, C108_complete, C108_interrupted, C108_maps, C108_missing_refuted, C108_second_run, C110_dates, C110_levels, C110_mask_refuted, C110_mass, C111_ascii_refuted, C111_dates, C111_fields_refuted, C111_square_refuted, C111_undated, C111_units, C112_breakpoint_returns, C112_breakpoint_wins, C112_example, C112_failed, C112_files, C112_fit, C112_order_refuted, C112_piecewise, C112_returns, C112_stem_refuted, C112_stops, C112_stream, C112_unknown_file_refuted, C112_unknown_refuted, C112_waves, C114_balance, C114_errors_of_data, C114_errors_scale, C114_gia_refuted, C114_no_noise, C114_seasonal, C114_singular, C114_text, C114_unknown_solver, C115_harmonics_file, C115_nan_refuted, C115_printed, C115_rewritten, C115_series_not_written, C126_bounds, C126_one_file_refuted, C126_order_refuted, C126_rasters, C126_recover, C126_same_as_maps, C128_cap, C128_decreasing, C128_errors, C128_half_wavelength, C31_copy_converts_alike_default_radius, C31_copy_keeps_fields, C31_copy_radius_refuted, C31_copy_sigma_refuted, C31_scale_radius_refuted, C32_from_harmonics, C32_from_harmonics_no_degree1, C39_earth_parameters, C39_geoid_roundtrip_refuted, C39_get_values, C39_harmonic_values, C39_no_degree, C39_roundtrip, C39_roundtrip_ellipsoidal, C39_short_love_numbers, C39_spatial_keeps_stale_factors, C39_unit_ratios, C40_codes_have_factors, C41_bounds, C41_degree_zero, C41_lmax_zero_refuted, C41_monotone, C41_monotone_large_cutoff_refuted, C41_no_smoothing, C41_prefix, C41_values, C42_window_monotone, C43_derivative, C44_agree, C44_derivative, C44_orthonormal, C44_pole_order_refuted, C44_pole_zonal, C44_values, C45_degree0_refuted, C45_equals_direct, C45_factors, C45_scale_free, C45_smoothing, C45_values, C46_stokes, C46_transform, C46_transform_mmax_refuted, C46_values, C47_custom, C47_errors, C47_gigatonnes, C47_harmonics, C47_linear, C47_longitude_periodic, C47_same_integral, C47_square_refuted, C47_water, C48_complementary, C48_missing_file, C48_values, C49_custom, C49_degree0, C49_mass, C49_single_point_refuted, C49_superposition, C50_fill, C50_homogeneous, C50_land, C50_mass, C50_no_iterations, C50_result, C50_zero_load, C53_R2, C53_data_err_modified, C53_dof, C53_errors, C53_exact, C53_least_squares, C53_likelihood, C53_linear, C53_orthogonal, C53_relative, C53_returns, C53_wsse_refuted, C55_amplitude, C55_unique, C56_frequency_refuted, C57_break_slope_error_refuted, C57_break_slope_error_witness, C57_error_scaling_refuted, C57_errors, C57_least_squares, C57_no_break, C68_agrees_with_holmes, C68_normalized, C68_unnormalized, C69_best_fit, C69_exact, C71_best_fit, C71_data_error, C71_exact, C71_quarterly_refuted, C71_returns, C71_weighted_exact, C71_weighted_fit, C71_weighted_short, C72_idempotent, C72_wrap, C78_custom, C78_disc, C78_mass, C78_whole_earth, C78_zonal_refuted, C79_area_refuted, C79_cap, C79_mass_refuted, C79_no_size, C79_same_as_disc, C80_more_noise, C80_no_noise, C80_other_units, C80_scale_invariant, C80_shrinks, C80_values, C85_dealiased, C85_dealiasing_dates, C85_errors, C85_radius_refuted, C85_slr, C87_series, C87_truncated_refuted, C88_one_pole, C88_order_errors, C88_poles_refuted, C88_recovers, C88_round_trip, C88_truncated, C89_meridional, C89_sectoral_refuted, C89_table, C89_zonal_refuted, C90_degree_one_refuted, C90_errors, C90_meridional, C90_top_refuted, C90_zonal, C90_zonal_exact, C91_cap, C91_disc, C91_isotropic, C91_mapped, C91_point, C92_average, C92_bounds, C92_kernel, C93_area, C93_error, C93_few_orders_refuted, C93_geoid_refuted, C93_inv, C93_least_squares, C93_linear, C93_recovers, C93_unknown, C94_integral, C94_no_leakage, C94_support, C95_degree, C95_power, C95_uncorrelated, C96_aod_group_refuted, C96_balance, C96_dealiasing, C96_fixed_point, C96_gia_only, C96_ignores, C96_models_refuted, C96_singular, C96_stop, C96_unique, C96_unknown_solver_refuted, C97_average, C97_interval, C97_maps, C97_one_file_refuted, C97_recover, C97_single_month_refuted, C97_smooth, C98_index_mean_refuted, C98_interval, C98_maps, C98_order_refuted, C98_smooth, C98_total, C98_undated_refuted, C99_best_fit, C99_conserves, C99_fields, C99_leakage_file, C99_one_month_refuted, C99_removed, C99_shared_name_refuted
