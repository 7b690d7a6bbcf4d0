# What Print Assumptions lists for each theorem of MANIFEST.json

Generated from the compiled files. All axioms are those of the standard library (Coq.Reals.ClassicalDedekindReals: sig_forall_dec, sig_not_dec; Coq.Logic.FunctionalExtensionality: functional_extensionality_dep; Coq.Logic.Classical_Prop: classic).

## Closed under the global context (no axioms)

131 theorems:
c11_firn_month, c34_fill_missing, c36_above, c44_updates, c44_once, c45_day_of_year, c48_any_schedule, c48_sequential, c48_completes, c48_roi, c49_method, c49_method_has_data, c53_edge, c53_retain, c55_retained_unchanged, c55_others_blank, c55_reset_succeeds_iff, c55_reset_never_fails_refuted, c55_needed_values_kept_refuted, c55_initialize, c55_reachable_wf, c56_parse_variable, c56_parse_category, c56_parse_rejects, c56_getitem, c56_add_category, c56_rejected_unchanged_refuted, c56_add_variable, c56_identifier, c57_exact, c57_accepts_iff, c57_roundtrip, c57_compose, c57_layers, c57_indexes, c58_run, c58_run_equals_singles, c58_run_once, c58_single_after_last, c58_each_date_once, c59_restored, c59_always_restored_refuted, c59_after_error, c59_during_step, c59_resolved, c60_calendar, c60_strict_flags, c60_processed_flags, c60_day_flag_refuted, c61_progress, c61_every_step_once, c61_memory, c61_unaligned, c61_every_step_once_refuted, c62_fixed_schedule, c62_interval, c62_month_aggregates, c62_month_instants, c62_month_aggregates_refuted, c62_half_period_refuted, c62_month_instants_refuted, c63_shape, c63_roundtrip_succeeds, c67_merge, c69_dates, c69_accepted, c69_date_only, c69_with_time, c69_ends_with_last_step, c69_pattern, c69_strip, c69_day_strings, c70_configure, c70_at_most_one, c70_ensure, c70_idempotent, c83_upsample, c83_downsample, c83_total, c83_crop, c91_netcdf_names, c92_time_axis, c92_names, c92_values, c93_every_step, c93_valid_iff, c95_variables, c95_default_variables, c95_unknown_variables, c95_values, c95_layers, c95_csv_columns, c95_csv_names, c95_csv_default, c95_csv_columns_refuted, c95_csv_files, c96_fields, c96_time_variables, c96_time_values, c96_dimensions, c96_dtype, c96_outside, c96_outside_refuted, c96_files, c96_file_names_refuted, c96_seconds_refuted, c96_stamp, c99_masks, c103_classes, c103_warnings, c104_integers, c104_reading, c104_days, c104_day_length, c104_aliases, c104_calendar, c104_once, c104_timestep, c104_weekday_refuted, c104_names, c104_current_names, c104_current_setting_refuted, c104_files, c106_step, c106_preparation, c106_counts, c106_order, c106_properties, c106_melt_method, c106_ready, c106_inputs

## sig_forall_dec

5 theorems:
c31_redistribution, c33_no_stations, c53_zero_refuted, c95_unknown_variables_refuted, c103_forest

## classic

2 theorems:
c63_values, c63_roundtrip

## functional_extensionality_dep, sig_forall_dec

210 theorems:
c01_melt, c01_melt_top_down, c01_melt_amount, c01_melt_order, c02_sublimation, c02_sublimation_any_pack, c02_no_nan_refuted, c02_amount, c03_runoff, c03_runoff_routing, c03_no_snow, c04_layering, c04_number_of_layers, c04_thin_remnant_nan_refuted, c05_redistribution, c05_no_nan, c05_heat_capacity, c06_add_snow, c08_melt_conserves_water, c08_no_ice_no_thickness, c08_no_melt, c10_runoff_routed, c10_routed_determined, c10_runoff_balance, c10_bare_ground, c11_transition_conserves, c11_transition_destination, c11_thickness_conserved_refuted, c11_update_layers, c11_update_layers_idle, c12_melt_energy, c12_melt_top_down, c12_refreeze_top_down, c12_regimes, c12_water_kept, c13_zero_below_threshold, c13_formula, c13_monotone, c13_no_snow, c13_missing_temperature, c13_melt_taken, c17_depth_swe, c17_heat_cap_positive, c18_capacity, c18_capacity_nonneg_refuted, c19_exact_and_unique, c19_no_zero_pivot, c19_exact_nonzero_pivots, c20_heat_equation, c20_unique, c20_energy, c20_equilibrium, c20_maximum_principle, c20_soil_energy, c21_columns, c21_solver_columns, c23_secant_stops, c23_secant_error, c23_secant_linear, c23_legacy_grid, c23_legacy_result, c23_legacy_bracket, c26_phase, c26_phase_step, c26_phase_monotone, c26_half_at_threshold, c26_negative_range, c27_factor_values, c27_monotone, c29_specific_humidity, c30_run_density, c30_library_density_refuted, c31_partition, c31_sum, c31_total, c31_missing_temp_is_not_rain_refuted, c31_redistributed_fields, c31_redistribution_total, c33_regression_exact, c33_regression_optimal, c36_buffer, c36_mean, c37_tables, c37_reduction, c37_stress, c37_depletion_fraction_refuted, c37_fao_table, c37_no_stress_range, c40_step, c40_run, c41_curve, c41_single, c41_bounds, c41_stages, c41_unequal, c41_height, c41_height_range, c41_height_max, c41_class, c41_new_year_refuted, c42_single, c42_cycles_refuted, c43_delta_h, c43_total, c43_gain, c43_loss, c43_terminus_refuted, c43_flat_refuted, c43_conserves, c43_frame, c43_pixels, c43_runs_out_refuted, c43_limit, c43_glacier_area, c43_shares, c45_hour_angle, c46_round, c46_terminates, c46_origins, c46_coverage, c51_rock_fraction, c53_retain_count_refuted, c62_written, c62_outside_roi, c62_interval_refuted, c63_coordinates, c63_dataset, c63_rejects, c64_selection, c64_order, c65_fails_iff, c66_normalize, c66_constant, c67_nested_refuted, c68_accepts_iff, c68_normalised, c68_idempotent, c71_soil_heat_flux, c71_base_flux_consistent_refuted, c71_base_flux_consistent_partial, c72_absolute_humidity, c72_derived_positive, c72_moist_air, c72_psychrometric, c72_precipitable, c75_pixel_albedo_is_topmost, c77_albedo, c77_layer_conductivity, c77_layer_temperature, c77_conductance, c77_moisture_availability, c77_latent_heat, c78_precipitation, c78_rows_consecutive, c78_total_conserved, c78_complete, c78_daily_precipitation, c78_gusts, c78_instantaneous, c78_means, c78_daily_data_unchanged_refuted, c78_ended_station_refuted, c79_speed_range, c80_selected, c80_single_segment, c81_net_radiation, c82_max_kc, c85_incidence_bound, c85_albedo, c85_means, c87_grid_accepted, c87_pixel_centre, c87_station_pixel, c87_extent, c87_roundtrip, c87_grid_stations_refuted, c87_grid_stations, c88_lists, c88_region, c88_extended, c88_stations, c88_station_marks, c88_elevation_refuted, c89_accepts_iff, c89_same_place, c89_svf_position_refuted, c90_raster, c90_inputs, c90_stops, c91_accepts_iff, c91_content, c91_precipitation, c91_cloud_fraction_refuted, c91_cloud_percent_refuted, c91_cloud_rule, c95_points, c95_points_accepted, c95_points_rejected, c96_duplicate_dates_refuted, c103_lai, c103_seasons, c103_no_memory, c103_forest_has_lai_refuted, c105_second_run, c105_all_runs, c105_files, c105_repeatable_refuted, c105_new_terrain_refuted, c108_density_refuted, c109_density_refuted

## functional_extensionality_dep, sig_forall_dec, sig_not_dec

79 theorems:
c02_sublimation_mass, c06_accumulation, c09_sublimation_amount, c09_sublimation_removes_from_top, c09_deposition_is_new_snow, c14_albedo_range_missing, c14_albedo_full_refresh, c14_albedo_partial_refresh, c14_missing_refreshed, c15_fresh_density, c16_anderson, c16_anderson_rate, c16_overburden, c22_outcome, c22_no_warm_ice, c22_melt_nonneg, c22_energy_closes, c22_reported_fluxes, c22_reported_sensible, c22_reported_moisture, c22_melt_bounded_partial, c27_ranges, c27_fraction_of_factor, c27_factor_of_fraction, c29_saturation_selection, c29_vapor_pressure, c35_loss_coeff, c45_unit, c45_directions, c45_declination, c45_equation_of_time, c46_shadows, c46_schedule, c46_completes, c46_origin_lit, c46_coverage_refuted, c46_missing, c51_emissivity_dry, c51_longwave, c51_clouds, c51_slopes, c52_normal, c52_normal_missing, c52_normal_plane, c53_curvature, c53_default_length, c53_plane, c72_round_trip, c72_emissivity, c74_water_balance, c74_water_balance_mass_fraction, c74_step_bounds, c75_aging_topmost, c76_accumulation, c76_compaction, c76_overburden, c84_horizon, c84_range, c84_mean, c84_available, c84_monotone, c84_directions, c84_open_sky, c85_eccentricity, c85_eccentricity_values, c85_incidence, c85_scattering, c99_pixels, c99_complete, c99_missing, c99_missing_melt_refuted, c100_secant, c100_legacy, c100_complete, c100_missing, c100_missing_temperature_refuted, c100_legacy_independent_refuted, c101_point_unique, c101_field

## classic, functional_extensionality_dep, sig_forall_dec

1 theorems:
c65_filters

## classic, functional_extensionality_dep, sig_forall_dec, sig_not_dec

251 theorems:
c07_balance, c07_balance_empirical, c07_balance_mass_fraction, c07_discarded, c07_no_nan, c14_albedo_range, c14_albedo_no_snowfall_decays, c14_albedo_decays_faster_when_melting, c14_multilayer_run, c16_empirical, c16_empirical_density, c16_pixel, c17_cover_fraction, c22_melt_bounded_refuted, c22_sensible_consistent_refuted, c23_balance_decreasing, c24_altitude_of_pressure, c24_pressure_of_altitude, c24_pressure_decreases, c24_sea_level, c25_rel_hum_of_dew_point, c25_dew_point_of_rel_hum, c25_dew_point_bound, c25_dew_point_increases, c27_cloud_fraction_from_humidity, c27_cloud_fraction_humidity_saturated, c28_round_trip, c28_components, c29_saturation, c29_wet_bulb_unique, c29_wet_bulb_below_air, c29_wet_bulb_error, c29_wet_bulb_saturated, c32_missing_iff, c32_ignores_missing, c32_weighted_mean, c32_exact, c32_bounded, c32_affine, c32_order, c33_reproduces_linear, c33_station_value, c33_deviation_bounded, c33_fractional_scales, c33_adjustment, c33_adjustment_station, c33_allowed_range, c33_limits, c33_humidity_station, c33_same_elevation_refuted, c33_fixed_accepted_refuted, c33_humidity_no_extrapolation_refuted, c34_factors, c34_zero_missing, c34_constant_scf, c34_constant_scf_cases, c34_kochendorfer, c34_kochendorfer_no_loss, c34_kochendorfer_monotone, c34_kochendorfer_loss_refuted, c34_wmo_gauges_refuted, c34_hellmann_snow, c34_hellmann_unchanged, c34_hellmann_mixed, c34_hellmann_negative_refuted, c34_hellmann_unbounded_refuted, c34_other_methods, c35_step, c35_balance, c35_excess, c35_run, c35_decreasing_lai_refuted, c35_recovers_refuted, c35_loss_rate, c35_leafless, c36_fraction, c36_inside, c36_outside, c36_grid, c36_missing_temperature_refuted, c36_bare, c37_step, c37_run, c37_exposed, c37_full_cover_refuted, c37_surface_layer, c37_sealed_scale, c38_step, c38_run, c39_actual, c39_rewets_partial, c39_rewets_refuted, c40_potential, c45_zenith, c45_parameters, c45_ranges, c47_sequential, c47_any_schedule_partial, c47_schedule_refuted, c47_mean, c47_negative, c47_reference_level, c47_reference_level_mean, c48_kernels, c48_outcome, c48_melt, c48_sublimation, c48_runoff, c48_anderson, c48_empirical, c48_heat, c48_soil_flux, c48_interpolation, c48_pixel_function, c49_bounded, c49_history, c49_previous, c49_between, c49_interpolated, c49_at_station, c49_available, c49_available_refuted, c50_unlimited, c50_range, c50_limited_partial, c50_limit_refuted, c50_negative_transmittance_refuted, c51_emissivity, c51_emissivity_increasing, c51_range, c52_slope, c52_missing, c52_aspect, c52_plane, c52_border_refuted, c52_small, c54_moisture_partition, c54_freezing, c54_freezing_monotone, c54_thermal_properties, c54_heat_capacity, c54_conductivity, c73_log_wind, c75_albedo_range, c77_roughness, c77_stability, c77_exchange_coefficient, c77_louis, c77_calm, c79_liston, c79_one, c79_available_refuted, c79_wind_slope, c81_reference, c81_deficit, c82_actual, c82_water, c82_snow, c82_climate, c82_sparse, c82_no_sun, c85_rayleigh, c85_gases, c85_vapor, c85_ozone, c85_aerosols, c85_visibility, c85_scattering_refuted, c85_night, c85_total, c85_direct, c85_direct_bounds, c85_diffuse_nonneg, c85_open_sky, c85_published, c85_diffuse, c86_pixel, c86_pixel_mass_fraction, c86_runs, c86_region, c86_pixel_cryolayers, c93_rejects_iff, c93_station, c93_every_step_refuted, c94_direction, c94_constant, c94_no_speed, c94_calm_refuted, c97_parameters, c97_initial, c97_unchecked_refuted, c97_step, c97_run, c97_warming, c97_equilibrium, c97_conductance, c97_dry_refuted, c97_texture, c97_flux, c98_fields, c98_saturated, c98_wet_bulb, c98_missing, c98_process, c98_succeeds, c98_missing_humidity_refuted, c98_no_pressure, c101_terminates, c101_derive, c101_process, c101_array_terminates, c101_no_exact_solution, c102_initialize_raises, c102_initialize, c102_step, c102_order, c102_water, c102_run, c102_limits, c102_sealed_run, c102_no_texture, c103_forest_without_lai, c104_time_zone, c107_above, c107_open, c107_forest, c107_sparse, c107_below_refuted, c107_vapour_refuted, c108_equation_partial, c108_overestimate_refuted, c109_rate_partial, c109_underestimate_refuted, c110_values, c110_outside, c110_wind_idw, c110_wind_method, c110_wind_liston, c110_depends, c110_station, c110_available, c110_gusts_partial, c110_succeeds, c110_gusts_refuted, c110_humidity_refuted, c110_order, c110_order_refuted, c111_stations, c111_value, c111_same_as_pixel_partial, c111_other_stations_refuted
