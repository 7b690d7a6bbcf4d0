{
 "claims": [
  {
   "property": "C01",
   "status": "proved",
   "theorems": [
    "c01_melt",
    "c01_melt_top_down",
    "c01_melt_amount",
    "c01_melt_order"
   ],
   "note": ""
  },
  {
   "property": "C02",
   "status": "partial",
   "theorems": [
    "c02_sublimation",
    "c02_sublimation_any_pack",
    "c02_sublimation_mass",
    "c02_no_nan_refuted",
    "c02_amount"
   ],
   "note": "Proved for every pack without an ice-free active layer below an ice-bearing one, and for every pack whenever no NaN arises; c02_no_nan_refuted exhibits the 0/0 NaN for the remaining packs."
  },
  {
   "property": "C03",
   "status": "proved",
   "theorems": [
    "c03_runoff",
    "c03_runoff_routing",
    "c03_no_snow"
   ],
   "note": ""
  },
  {
   "property": "C04",
   "status": "partial",
   "theorems": [
    "c04_layering",
    "c04_number_of_layers",
    "c04_thin_remnant_nan_refuted"
   ],
   "note": "Proved whenever no NaN arises; c04_thin_remnant_nan_refuted shows the 0/0 NaN of a remnant pack thinner than 1e-6 m with a fully melted layer."
  },
  {
   "property": "C05",
   "status": "proved",
   "theorems": [
    "c05_redistribution",
    "c05_no_nan",
    "c05_heat_capacity"
   ],
   "note": ""
  },
  {
   "property": "C06",
   "status": "proved",
   "theorems": [
    "c06_add_snow",
    "c06_accumulation"
   ],
   "note": ""
  },
  {
   "property": "C07",
   "status": "proved",
   "theorems": [
    "c07_balance",
    "c07_balance_empirical",
    "c07_balance_mass_fraction",
    "c07_discarded",
    "c07_no_nan"
   ],
   "note": "For every run without NaN; c07_no_nan gives sufficient conditions for the absence of NaN. The discarded remnant mass is explicit and bounded (c07_discarded). For pore-volume capacity with Anderson compaction the density condition is a hypothesis (all_routable)."
  },
  {
   "property": "C08",
   "status": "proved",
   "theorems": [
    "c08_melt_conserves_water",
    "c08_no_ice_no_thickness",
    "c08_no_melt"
   ],
   "note": ""
  },
  {
   "property": "C09",
   "status": "proved",
   "theorems": [
    "c09_sublimation_amount",
    "c09_sublimation_removes_from_top",
    "c09_deposition_is_new_snow"
   ],
   "note": ""
  },
  {
   "property": "C10",
   "status": "proved",
   "theorems": [
    "c10_runoff_routed",
    "c10_routed_determined",
    "c10_runoff_balance",
    "c10_bare_ground"
   ],
   "note": ""
  },
  {
   "property": "C11",
   "status": "proved",
   "theorems": [
    "c11_transition_conserves",
    "c11_transition_destination",
    "c11_thickness_conserved_refuted",
    "c11_update_layers",
    "c11_update_layers_idle",
    "c11_firn_month"
   ],
   "note": "c11_thickness_conserved_refuted records that the thickness of two merged layers is not the sum of their thicknesses."
  },
  {
   "property": "C12",
   "status": "proved",
   "theorems": [
    "c12_melt_energy",
    "c12_melt_top_down",
    "c12_refreeze_top_down",
    "c12_regimes",
    "c12_water_kept"
   ],
   "note": ""
  },
  {
   "property": "C13",
   "status": "proved",
   "theorems": [
    "c13_zero_below_threshold",
    "c13_formula",
    "c13_monotone",
    "c13_no_snow",
    "c13_missing_temperature",
    "c13_melt_taken"
   ],
   "note": ""
  },
  {
   "property": "C14",
   "status": "proved",
   "theorems": [
    "c14_albedo_range",
    "c14_albedo_range_missing",
    "c14_albedo_no_snowfall_decays",
    "c14_albedo_full_refresh",
    "c14_albedo_partial_refresh",
    "c14_albedo_decays_faster_when_melting",
    "c14_missing_refreshed",
    "c14_multilayer_run"
   ],
   "note": ""
  },
  {
   "property": "C15",
   "status": "proved",
   "theorems": [
    "c15_fresh_density"
   ],
   "note": ""
  },
  {
   "property": "C16",
   "status": "proved",
   "theorems": [
    "c16_anderson",
    "c16_anderson_rate",
    "c16_empirical",
    "c16_empirical_density",
    "c16_overburden",
    "c16_pixel"
   ],
   "note": ""
  },
  {
   "property": "C17",
   "status": "proved",
   "theorems": [
    "c17_depth_swe",
    "c17_cover_fraction",
    "c17_heat_cap_positive"
   ],
   "note": ""
  },
  {
   "property": "C18",
   "status": "partial",
   "theorems": [
    "c18_capacity",
    "c18_capacity_nonneg_refuted"
   ],
   "note": "c18_capacity_nonneg_refuted: negative for layers denser than ice, reachable with Anderson compaction."
  },
  {
   "property": "C19",
   "status": "proved",
   "theorems": [
    "c19_exact_and_unique",
    "c19_no_zero_pivot",
    "c19_exact_nonzero_pivots"
   ],
   "note": ""
  },
  {
   "property": "C20",
   "status": "proved",
   "theorems": [
    "c20_heat_equation",
    "c20_unique",
    "c20_energy",
    "c20_equilibrium",
    "c20_maximum_principle",
    "c20_soil_energy"
   ],
   "note": ""
  },
  {
   "property": "C21",
   "status": "proved",
   "theorems": [
    "c21_columns",
    "c21_solver_columns"
   ],
   "note": ""
  },
  {
   "property": "C22",
   "status": "partial",
   "theorems": [
    "c22_outcome",
    "c22_no_warm_ice",
    "c22_melt_nonneg",
    "c22_energy_closes",
    "c22_reported_fluxes",
    "c22_reported_sensible",
    "c22_reported_moisture",
    "c22_melt_bounded_partial",
    "c22_melt_bounded_refuted",
    "c22_sensible_consistent_refuted"
   ],
   "note": "Temperature, non-negativity, closure and the complete outcome are proved. Melt is bounded by the ice only when the surface starts at 0 degC (c22_melt_bounded_partial); c22_melt_bounded_refuted exhibits melt above the ice otherwise (the later melt routine only melts what is there). c22_sensible_consistent_refuted: the reported sensible heat flux has the wrong sign of the temperature change."
  },
  {
   "property": "C23",
   "status": "proved",
   "theorems": [
    "c23_balance_decreasing",
    "c23_secant_stops",
    "c23_secant_error",
    "c23_secant_linear",
    "c23_legacy_grid",
    "c23_legacy_result",
    "c23_legacy_bracket"
   ],
   "note": "Termination of the secant loop is not claimed for arbitrary balances (fuel); c23_secant_linear shows it for linear ones."
  },
  {
   "property": "C24",
   "status": "proved",
   "theorems": [
    "c24_altitude_of_pressure",
    "c24_pressure_of_altitude",
    "c24_pressure_decreases",
    "c24_sea_level"
   ],
   "note": ""
  },
  {
   "property": "C25",
   "status": "proved",
   "theorems": [
    "c25_rel_hum_of_dew_point",
    "c25_dew_point_of_rel_hum",
    "c25_dew_point_bound",
    "c25_dew_point_increases"
   ],
   "note": ""
  },
  {
   "property": "C26",
   "status": "proved",
   "theorems": [
    "c26_phase",
    "c26_phase_step",
    "c26_phase_monotone",
    "c26_half_at_threshold",
    "c26_negative_range"
   ],
   "note": ""
  },
  {
   "property": "C27",
   "status": "proved",
   "theorems": [
    "c27_ranges",
    "c27_factor_values",
    "c27_fraction_of_factor",
    "c27_factor_of_fraction",
    "c27_monotone",
    "c27_cloud_fraction_from_humidity",
    "c27_cloud_fraction_humidity_saturated"
   ],
   "note": ""
  },
  {
   "property": "C28",
   "status": "proved",
   "theorems": [
    "c28_round_trip",
    "c28_components"
   ],
   "note": ""
  },
  {
   "property": "C29",
   "status": "proved",
   "theorems": [
    "c29_saturation",
    "c29_saturation_selection",
    "c29_vapor_pressure",
    "c29_specific_humidity",
    "c29_wet_bulb_unique",
    "c29_wet_bulb_below_air",
    "c29_wet_bulb_error",
    "c29_wet_bulb_saturated"
   ],
   "note": ""
  },
  {
   "property": "C30",
   "status": "partial",
   "theorems": [
    "c30_run_density",
    "c30_library_density_refuted"
   ],
   "note": "The library function for dry air density is off by (RT)^2 (c30_library_density_refuted); the density used in a run is the right one."
  },
  {
   "property": "C31",
   "status": "partial",
   "theorems": [
    "c31_partition",
    "c31_sum",
    "c31_total",
    "c31_redistribution",
    "c31_missing_temp_is_not_rain_refuted",
    "c31_redistributed_fields",
    "c31_redistribution_total"
   ],
   "note": "With enforce_no_snow_below_rain a missing temperature counts as rain; everything else is proved. c31_redistribution only evaluates the definition; c31_redistributed_fields and c31_redistribution_total state what it means for the fields."
  },
  {
   "property": "C32",
   "status": "proved",
   "theorems": [
    "c32_missing_iff",
    "c32_ignores_missing",
    "c32_weighted_mean",
    "c32_exact",
    "c32_bounded",
    "c32_affine",
    "c32_order"
   ],
   "note": ""
  },
  {
   "property": "C33",
   "status": "partial",
   "theorems": [
    "c33_reproduces_linear",
    "c33_regression_exact",
    "c33_regression_optimal",
    "c33_station_value",
    "c33_deviation_bounded",
    "c33_fractional_scales",
    "c33_adjustment",
    "c33_adjustment_station",
    "c33_no_stations",
    "c33_allowed_range",
    "c33_limits",
    "c33_humidity_station",
    "c33_same_elevation_refuted",
    "c33_fixed_accepted_refuted",
    "c33_humidity_no_extrapolation_refuted"
   ],
   "note": "Proved under the stated conditions; c33_same_elevation_refuted (regression with stations at one elevation), c33_fixed_accepted_refuted (fixed lapse rate with several segments is refused) and c33_humidity_no_extrapolation_refuted (humidity limited by dew point temperatures) record where the code departs from the property. Numerical regression is exact real arithmetic; pwlf is an argument."
  },
  {
   "property": "C34",
   "status": "partial",
   "theorems": [
    "c34_factors",
    "c34_zero_missing",
    "c34_constant_scf",
    "c34_constant_scf_cases",
    "c34_kochendorfer",
    "c34_kochendorfer_no_loss",
    "c34_kochendorfer_monotone",
    "c34_kochendorfer_loss_refuted",
    "c34_wmo_gauges_refuted",
    "c34_hellmann_snow",
    "c34_hellmann_unchanged",
    "c34_hellmann_mixed",
    "c34_hellmann_negative_refuted",
    "c34_fill_missing",
    "c34_hellmann_unbounded_refuted",
    "c34_other_methods"
   ],
   "note": "Kochendorfer never reduces precipitation at or below 0 degC, nor at any temperature for us_un, us_sa, us_da, us_sdfir; c34_kochendorfer_loss_refuted: nor_sa at 10 degC. c34_wmo_gauges_refuted: all WMO gauges but Hellmann raise. c34_hellmann_negative_refuted: negative precipitation."
  },
  {
   "property": "C35",
   "status": "partial",
   "theorems": [
    "c35_step",
    "c35_balance",
    "c35_excess",
    "c35_run",
    "c35_decreasing_lai_refuted",
    "c35_recovers_refuted",
    "c35_loss_rate",
    "c35_loss_coeff",
    "c35_leafless"
   ],
   "note": "Balance, bounds and runs proved for non-negative snowfall and loads within capacity. c35_decreasing_lai_refuted: a load above a reduced capacity loses mass; c35_recovers_refuted: one missing input makes the load missing forever."
  },
  {
   "property": "C36",
   "status": "partial",
   "theorems": [
    "c36_fraction",
    "c36_inside",
    "c36_outside",
    "c36_above",
    "c36_grid",
    "c36_missing_temperature_refuted",
    "c36_buffer",
    "c36_mean",
    "c36_bare"
   ],
   "note": "Proved for pixels with a mean temperature; c36_missing_temperature_refuted: with at least two forest pixels, one of them without mean temperature, the assignment raises."
  },
  {
   "property": "C37",
   "status": "partial",
   "theorems": [
    "c37_tables",
    "c37_step",
    "c37_run",
    "c37_exposed",
    "c37_reduction",
    "c37_stress",
    "c37_depletion_fraction_refuted",
    "c37_full_cover_refuted",
    "c37_fao_table",
    "c37_surface_layer",
    "c37_no_stress_range",
    "c37_sealed_scale"
   ],
   "note": "Bounds for every history, given 0 <= REW < TEW, RAW < TAW (c37_tables: met by all soil textures if the adjusted depletion fraction is below 1) and a vegetation fraction below 1 (c37_exposed). c37_depletion_fraction_refuted and c37_full_cover_refuted show what happens otherwise."
  },
  {
   "property": "C38",
   "status": "proved",
   "theorems": [
    "c38_step",
    "c38_run"
   ],
   "note": ""
  },
  {
   "property": "C39",
   "status": "partial",
   "theorems": [
    "c39_actual",
    "c39_rewets_partial",
    "c39_rewets_refuted"
   ],
   "note": "Refuted: the percolation of the evaporation layer is calculated from its own previous value, so rain after a dry spell leaves the depletion unchanged (c39_rewets_refuted). c39_actual characterises the code; c39_rewets_partial covers the remaining cases."
  },
  {
   "property": "C40",
   "status": "proved",
   "theorems": [
    "c40_step",
    "c40_run",
    "c40_potential"
   ],
   "note": ""
  },
  {
   "property": "C41",
   "status": "partial",
   "theorems": [
    "c41_curve",
    "c41_single",
    "c41_bounds",
    "c41_stages",
    "c41_unequal",
    "c41_height",
    "c41_height_range",
    "c41_height_max",
    "c41_class",
    "c41_new_year_refuted"
   ],
   "note": "Proved for any list of cycles as a refinement of a stage by stage curve. c41_new_year_refuted: growing seasons across the turn of the year are cut off."
  },
  {
   "property": "C42",
   "status": "partial",
   "theorems": [
    "c42_single",
    "c42_cycles_refuted"
   ],
   "note": "Proved for a single set of stage lengths; c42_cycles_refuted: every list of cycles raises ValueError."
  },
  {
   "property": "C43",
   "status": "partial",
   "theorems": [
    "c43_delta_h",
    "c43_total",
    "c43_gain",
    "c43_loss",
    "c43_terminus_refuted",
    "c43_flat_refuted",
    "c43_conserves",
    "c43_frame",
    "c43_pixels",
    "c43_runs_out_refuted",
    "c43_limit",
    "c43_glacier_area",
    "c43_shares"
   ],
   "note": "Sums and bounds proved for glaciers whose updated pixels have pairwise different elevations, for every limit; c43_conserves covers the whole grid. Refuted in three corner cases: the surplus beyond the limit goes to the highest pixels and may exceed the limit there (c43_terminus_refuted), all pixels at one elevation give NaN (c43_flat_refuted), exhausted pixels create mass (c43_runs_out_refuted)."
  },
  {
   "property": "C44",
   "status": "proved",
   "theorems": [
    "c44_updates",
    "c44_once"
   ],
   "note": "For all runs with time steps up to 28 days, all start months. The snapshot is taken at the end of the first time step of the mass balance year, so that step is not part of the balance."
  },
  {
   "property": "C45",
   "status": "proved",
   "theorems": [
    "c45_unit",
    "c45_zenith",
    "c45_parameters",
    "c45_hour_angle",
    "c45_directions",
    "c45_ranges",
    "c45_declination",
    "c45_equation_of_time",
    "c45_day_of_year"
   ],
   "note": "All dates, positions and time zones: unit vector, angles and ranges; constants pinned by values at special days. The equation of time is bounded by 22 minutes only (the docstring says 16)."
  },
  {
   "property": "C46",
   "status": "partial",
   "theorems": [
    "c46_round",
    "c46_terminates",
    "c46_shadows",
    "c46_schedule",
    "c46_completes",
    "c46_origin_lit",
    "c46_origins",
    "c46_coverage",
    "c46_coverage_refuted",
    "c46_missing"
   ],
   "note": "The result equals a declarative description of hidden pixels for every schedule of the parallel loop, every sun, DEM and number of sweeps; every pixel is visited unless a line passes exactly between pixels; c46_coverage_refuted gives such a pixel, which is always lit."
  },
  {
   "property": "C47",
   "status": "partial",
   "theorems": [
    "c47_sequential",
    "c47_any_schedule_partial",
    "c47_schedule_refuted",
    "c47_mean",
    "c47_negative",
    "c47_reference_level",
    "c47_reference_level_mean"
   ],
   "note": "Sequential execution and every schedule of the mean are proved; c47_schedule_refuted exhibits two schedules of the parallel loop over directions with different results (data race), c47_any_schedule_partial states what holds for every schedule. c47_negative only restates the definition of negative openness. c47_reference_level holds for both signs and any schedule."
  },
  {
   "property": "C48",
   "status": "proved",
   "theorems": [
    "c48_any_schedule",
    "c48_sequential",
    "c48_completes",
    "c48_roi",
    "c48_kernels",
    "c48_outcome",
    "c48_melt",
    "c48_sublimation",
    "c48_runoff",
    "c48_anderson",
    "c48_empirical",
    "c48_heat",
    "c48_soil_flux",
    "c48_interpolation",
    "c48_pixel_function"
   ],
   "note": "Every interleaving of single array reads and writes. The loops of melt, sublimation, runoff, heat conduction, both compactions, soil heat flux and interpolation are modelled access by access and refine the functions of the other models; layer redistribution and soil properties are covered as arbitrary functions which read, then write their own pixel. The loops of shadows and openness are C46 and C47."
  },
  {
   "property": "C49",
   "status": "partial",
   "theorems": [
    "c49_method",
    "c49_method_has_data",
    "c49_bounded",
    "c49_history",
    "c49_previous",
    "c49_between",
    "c49_interpolated",
    "c49_at_station",
    "c49_available",
    "c49_available_refuted"
   ],
   "note": "Every configuration, station availability and history. c49_available_refuted: radiation stations inside the grid but outside the region of interest (no clear-sky irradiance) block the fallback and the irradiance is missing."
  },
  {
   "property": "C50",
   "status": "partial",
   "theorems": [
    "c50_unlimited",
    "c50_range",
    "c50_limited_partial",
    "c50_limit_refuted",
    "c50_negative_transmittance_refuted"
   ],
   "note": "Refuted: the clip applies to the denominator, so the air mass is never limited (c50_unlimited) and exceeds 34 near the horizon (c50_limit_refuted), where the Rayleigh transmittance is negative (c50_negative_transmittance_refuted). c50_limited_partial: true up to about 86 degrees."
  },
  {
   "property": "C51",
   "status": "proved",
   "theorems": [
    "c51_emissivity",
    "c51_emissivity_increasing",
    "c51_emissivity_dry",
    "c51_rock_fraction",
    "c51_longwave",
    "c51_range",
    "c51_clouds",
    "c51_slopes"
   ],
   "note": ""
  },
  {
   "property": "C52",
   "status": "partial",
   "theorems": [
    "c52_slope",
    "c52_missing",
    "c52_aspect",
    "c52_plane",
    "c52_border_refuted",
    "c52_small",
    "c52_normal",
    "c52_normal_missing",
    "c52_normal_plane"
   ],
   "note": "Inner pixels of every grid; c52_border_refuted: on a plane the gradient of border pixels is halved."
  },
  {
   "property": "C53",
   "status": "partial",
   "theorems": [
    "c53_edge",
    "c53_zero_refuted",
    "c53_retain",
    "c53_retain_count_refuted",
    "c53_curvature",
    "c53_default_length",
    "c53_plane"
   ],
   "note": "c53_zero_refuted: a shift by zero gives an empty array; c53_retain_count_refuted: the retaining shift moves by one pixel more than documented."
  },
  {
   "property": "C54",
   "status": "proved",
   "theorems": [
    "c54_moisture_partition",
    "c54_freezing",
    "c54_freezing_monotone",
    "c54_thermal_properties",
    "c54_heat_capacity",
    "c54_conductivity"
   ],
   "note": ""
  },
  {
   "property": "C55",
   "status": "partial",
   "theorems": [
    "c55_retained_unchanged",
    "c55_others_blank",
    "c55_reset_succeeds_iff",
    "c55_reset_never_fails_refuted",
    "c55_needed_values_kept_refuted",
    "c55_initialize",
    "c55_reachable_wf"
   ],
   "note": "Boolean variables cannot be reset and glaciers.glacier is not retained (refuted theorems); everything else is proved."
  },
  {
   "property": "C56",
   "status": "partial",
   "theorems": [
    "c56_parse_variable",
    "c56_parse_category",
    "c56_parse_rejects",
    "c56_getitem",
    "c56_add_category",
    "c56_rejected_unchanged_refuted",
    "c56_add_variable",
    "c56_identifier"
   ],
   "note": "Adding a category named \"categories\" raises, but the category stays registered (refuted theorem); everything else is proved."
  },
  {
   "property": "C57",
   "status": "proved",
   "theorems": [
    "c57_exact",
    "c57_accepts_iff",
    "c57_roundtrip",
    "c57_compose",
    "c57_layers",
    "c57_indexes"
   ],
   "note": ""
  },
  {
   "property": "C58",
   "status": "proved",
   "theorems": [
    "c58_run",
    "c58_run_equals_singles",
    "c58_run_once",
    "c58_single_after_last",
    "c58_each_date_once"
   ],
   "note": ""
  },
  {
   "property": "C59",
   "status": "partial",
   "theorems": [
    "c59_restored",
    "c59_always_restored_refuted",
    "c59_after_error",
    "c59_during_step",
    "c59_resolved"
   ],
   "note": "The number of threads is not restored if the step raises (refuted theorem); otherwise proved."
  },
  {
   "property": "C60",
   "status": "partial",
   "theorems": [
    "c60_calendar",
    "c60_strict_flags",
    "c60_processed_flags",
    "c60_day_flag_refuted"
   ],
   "note": "The flag for a new day is wrong for time steps of 28 days and more (refuted theorem); otherwise proved."
  },
  {
   "property": "C61",
   "status": "partial",
   "theorems": [
    "c61_progress",
    "c61_every_step_once",
    "c61_memory",
    "c61_unaligned",
    "c61_every_step_once_refuted"
   ],
   "note": "Proved for every fixed write frequency and, generally, whenever the first write date is a model date; c61_unaligned gives the exact behaviour otherwise and c61_every_step_once_refuted a failing run (7-hour steps, monthly writing)."
  },
  {
   "property": "C62",
   "status": "partial",
   "theorems": [
    "c62_written",
    "c62_outside_roi",
    "c62_fixed_schedule",
    "c62_interval",
    "c62_month_aggregates",
    "c62_month_instants",
    "c62_month_aggregates_refuted",
    "c62_half_period_refuted",
    "c62_month_instants_refuted",
    "c62_interval_refuted"
   ],
   "note": "The written value is the true aggregate since the previous written date, for every history (c62_written). Write dates are exact for fixed frequencies; for months and years under stated alignment conditions, with refutations showing what happens without them."
  },
  {
   "property": "C63",
   "status": "proved",
   "theorems": [
    "c63_values",
    "c63_shape",
    "c63_roundtrip",
    "c63_roundtrip_succeeds",
    "c63_coordinates",
    "c63_dataset",
    "c63_rejects"
   ],
   "note": ""
  },
  {
   "property": "C64",
   "status": "proved",
   "theorems": [
    "c64_selection",
    "c64_order"
   ],
   "note": ""
  },
  {
   "property": "C65",
   "status": "proved",
   "theorems": [
    "c65_filters",
    "c65_fails_iff"
   ],
   "note": ""
  },
  {
   "property": "C66",
   "status": "proved",
   "theorems": [
    "c66_normalize",
    "c66_constant"
   ],
   "note": "For arrays with two different values; c66_constant: constant arrays become all NaN."
  },
  {
   "property": "C67",
   "status": "partial",
   "theorems": [
    "c67_merge",
    "c67_nested_refuted"
   ],
   "note": "Proved for plain parameters; c67_nested_refuted: the leaf_area_index dictionary is replaced as a whole."
  },
  {
   "property": "C68",
   "status": "proved",
   "theorems": [
    "c68_accepts_iff",
    "c68_normalised",
    "c68_idempotent"
   ],
   "note": ""
  },
  {
   "property": "C69",
   "status": "proved",
   "theorems": [
    "c69_dates",
    "c69_accepted",
    "c69_date_only",
    "c69_with_time",
    "c69_ends_with_last_step",
    "c69_pattern",
    "c69_strip",
    "c69_day_strings"
   ],
   "note": ""
  },
  {
   "property": "C70",
   "status": "proved",
   "theorems": [
    "c70_configure",
    "c70_at_most_one",
    "c70_ensure",
    "c70_idempotent"
   ],
   "note": ""
  },
  {
   "property": "C71",
   "status": "partial",
   "theorems": [
    "c71_soil_heat_flux",
    "c71_base_flux_consistent_refuted",
    "c71_base_flux_consistent_partial"
   ],
   "note": "Proved when the last slot of the grid holds a soil temperature; the other case is refuted."
  },
  {
   "property": "C72",
   "status": "proved",
   "theorems": [
    "c72_round_trip",
    "c72_absolute_humidity",
    "c72_derived_positive",
    "c72_moist_air",
    "c72_psychrometric",
    "c72_precipitable",
    "c72_emissivity"
   ],
   "note": ""
  },
  {
   "property": "C73",
   "status": "proved",
   "theorems": [
    "c73_log_wind"
   ],
   "note": ""
  },
  {
   "property": "C74",
   "status": "proved",
   "theorems": [
    "c74_water_balance",
    "c74_water_balance_mass_fraction",
    "c74_step_bounds"
   ],
   "note": "For the pore volume formula the bulk densities of the snow layers (after compaction) must not exceed that of ice (run_light); no condition for the mass fraction formula."
  },
  {
   "property": "C75",
   "status": "proved",
   "theorems": [
    "c75_pixel_albedo_is_topmost",
    "c75_aging_topmost",
    "c75_albedo_range"
   ],
   "note": ""
  },
  {
   "property": "C76",
   "status": "proved",
   "theorems": [
    "c76_accumulation",
    "c76_compaction",
    "c76_overburden"
   ],
   "note": ""
  },
  {
   "property": "C77",
   "status": "proved",
   "theorems": [
    "c77_albedo",
    "c77_roughness",
    "c77_stability",
    "c77_exchange_coefficient",
    "c77_layer_conductivity",
    "c77_layer_temperature",
    "c77_conductance",
    "c77_moisture_availability",
    "c77_latent_heat",
    "c77_louis",
    "c77_calm"
   ],
   "note": ""
  },
  {
   "property": "C78",
   "status": "partial",
   "theorems": [
    "c78_precipitation",
    "c78_rows_consecutive",
    "c78_total_conserved",
    "c78_complete",
    "c78_daily_precipitation",
    "c78_gusts",
    "c78_instantaneous",
    "c78_means",
    "c78_daily_data_unchanged_refuted",
    "c78_ended_station_refuted"
   ],
   "note": "Proved for sub-daily time steps and for daily aggregation of sub-daily data. c78_daily_data_unchanged_refuted: daily data with a time step named 24h are shifted by one day; c78_ended_station_refuted: IndexError for records which end on the day before the start."
  },
  {
   "property": "C79",
   "status": "partial",
   "theorems": [
    "c79_liston",
    "c79_one",
    "c79_speed_range",
    "c79_available_refuted",
    "c79_wind_slope"
   ],
   "note": "Everything but availability: c79_available_refuted shows that uniform terrain gives missing wind."
  },
  {
   "property": "C80",
   "status": "proved",
   "theorems": [
    "c80_selected",
    "c80_single_segment"
   ],
   "note": ""
  },
  {
   "property": "C81",
   "status": "proved",
   "theorems": [
    "c81_reference",
    "c81_deficit",
    "c81_net_radiation"
   ],
   "note": ""
  },
  {
   "property": "C82",
   "status": "proved",
   "theorems": [
    "c82_actual",
    "c82_water",
    "c82_snow",
    "c82_max_kc",
    "c82_climate",
    "c82_sparse",
    "c82_no_sun"
   ],
   "note": ""
  },
  {
   "property": "C83",
   "status": "proved",
   "theorems": [
    "c83_upsample",
    "c83_downsample",
    "c83_total",
    "c83_crop"
   ],
   "note": ""
  },
  {
   "property": "C84",
   "status": "proved",
   "theorems": [
    "c84_horizon",
    "c84_range",
    "c84_mean",
    "c84_available",
    "c84_monotone",
    "c84_directions",
    "c84_open_sky"
   ],
   "note": "The illumination is an arbitrary function (oracle for the shadow algorithm, which is modelled for C46)."
  },
  {
   "property": "C85",
   "status": "partial",
   "theorems": [
    "c85_eccentricity",
    "c85_eccentricity_values",
    "c85_incidence",
    "c85_incidence_bound",
    "c85_rayleigh",
    "c85_gases",
    "c85_vapor",
    "c85_ozone",
    "c85_aerosols",
    "c85_visibility",
    "c85_scattering",
    "c85_scattering_refuted",
    "c85_night",
    "c85_total",
    "c85_direct",
    "c85_direct_bounds",
    "c85_diffuse_nonneg",
    "c85_open_sky",
    "c85_albedo",
    "c85_published",
    "c85_diffuse",
    "c85_means"
   ],
   "note": "Transmittances and diffuse irradiance for the stated physical parameter ranges; the code's scattering ratio (product instead of sum) is modelled as written."
  },
  {
   "property": "C86",
   "status": "proved",
   "theorems": [
    "c86_pixel",
    "c86_pixel_mass_fraction",
    "c86_runs",
    "c86_region",
    "c86_pixel_cryolayers"
   ],
   "note": ""
  },
  {
   "property": "C87",
   "status": "partial",
   "theorems": [
    "c87_grid_accepted",
    "c87_pixel_centre",
    "c87_station_pixel",
    "c87_extent",
    "c87_roundtrip",
    "c87_grid_stations_refuted",
    "c87_grid_stations"
   ],
   "note": "Bounds and extent of the grid differ at the lower and upper edge (refuted theorem); otherwise proved."
  },
  {
   "property": "C88",
   "status": "partial",
   "theorems": [
    "c88_lists",
    "c88_region",
    "c88_extended",
    "c88_stations",
    "c88_station_marks",
    "c88_elevation_refuted"
   ],
   "note": "Stations can add pixels without elevation (refuted theorem); otherwise proved."
  },
  {
   "property": "C89",
   "status": "partial",
   "theorems": [
    "c89_accepts_iff",
    "c89_same_place",
    "c89_svf_position_refuted"
   ],
   "note": "Only the size of the extended sky view factor file is checked (refuted theorem); otherwise proved."
  },
  {
   "property": "C90",
   "status": "proved",
   "theorems": [
    "c90_raster",
    "c90_inputs",
    "c90_stops"
   ],
   "note": ""
  },
  {
   "property": "C91",
   "status": "partial",
   "theorems": [
    "c91_accepts_iff",
    "c91_content",
    "c91_precipitation",
    "c91_cloud_fraction_refuted",
    "c91_cloud_percent_refuted",
    "c91_netcdf_names",
    "c91_cloud_rule"
   ],
   "note": "Cloud fraction without units is not converted, percentages are multiplied by 100 (refuted theorems); otherwise proved."
  },
  {
   "property": "C92",
   "status": "proved",
   "theorems": [
    "c92_time_axis",
    "c92_names",
    "c92_values"
   ],
   "note": ""
  },
  {
   "property": "C93",
   "status": "partial",
   "theorems": [
    "c93_rejects_iff",
    "c93_station",
    "c93_every_step_refuted",
    "c93_every_step",
    "c93_valid_iff"
   ],
   "note": "A gap between station records leaves time steps out (refuted theorem); otherwise proved."
  },
  {
   "property": "C94",
   "status": "partial",
   "theorems": [
    "c94_direction",
    "c94_constant",
    "c94_no_speed",
    "c94_calm_refuted"
   ],
   "note": "Calm averaged time steps get wind direction 270 (refuted theorem); otherwise proved."
  },
  {
   "property": "C95",
   "status": "partial",
   "theorems": [
    "c95_variables",
    "c95_default_variables",
    "c95_unknown_variables",
    "c95_unknown_variables_refuted",
    "c95_points",
    "c95_points_accepted",
    "c95_points_rejected",
    "c95_values",
    "c95_layers",
    "c95_csv_columns",
    "c95_csv_names",
    "c95_csv_default",
    "c95_csv_columns_refuted",
    "c95_csv_files"
   ],
   "note": "Proved for names without dots beyond the category and, for CSV, names without trailing digits; c95_unknown_variables_refuted and c95_csv_columns_refuted show what happens otherwise."
  },
  {
   "property": "C96",
   "status": "partial",
   "theorems": [
    "c96_fields",
    "c96_time_variables",
    "c96_time_values",
    "c96_dimensions",
    "c96_dtype",
    "c96_outside",
    "c96_outside_refuted",
    "c96_duplicate_dates_refuted",
    "c96_files",
    "c96_file_names_refuted",
    "c96_seconds_refuted",
    "c96_stamp"
   ],
   "note": "File uniqueness for names which do not end in a digit and full minutes; c96_file_names_refuted, c96_seconds_refuted, c96_duplicate_dates_refuted and c96_outside_refuted show what happens otherwise."
  },
  {
   "property": "C97",
   "status": "partial",
   "theorems": [
    "c97_parameters",
    "c97_initial",
    "c97_unchecked_refuted",
    "c97_step",
    "c97_run",
    "c97_warming",
    "c97_equilibrium",
    "c97_conductance",
    "c97_dry_refuted",
    "c97_texture",
    "c97_flux"
   ],
   "note": "Proved for sensible configurations while temperatures are positive; c97_unchecked_refuted (configurations are not checked) and c97_dry_refuted (soil without moisture) show what happens otherwise."
  },
  {
   "property": "C98",
   "status": "partial",
   "theorems": [
    "c98_fields",
    "c98_saturated",
    "c98_wet_bulb",
    "c98_missing",
    "c98_process",
    "c98_succeeds",
    "c98_missing_humidity_refuted",
    "c98_no_pressure"
   ],
   "note": "All but the precipitation phase is proved; with the wet-bulb method missing humidity turns all precipitation into rain (c98_missing_humidity_refuted). The wet-bulb temperature is characterised where its iteration ends."
  },
  {
   "property": "C99",
   "status": "partial",
   "theorems": [
    "c99_pixels",
    "c99_masks",
    "c99_complete",
    "c99_missing",
    "c99_missing_melt_refuted"
   ],
   "note": "All but one sentence is proved: with a missing input and a surface temperature above the melting point, all snow melts in one time step (c99_missing_melt_refuted)."
  },
  {
   "property": "C100",
   "status": "partial",
   "theorems": [
    "c100_secant",
    "c100_legacy",
    "c100_complete",
    "c100_missing",
    "c100_missing_temperature_refuted",
    "c100_legacy_independent_refuted"
   ],
   "note": "Proved except for two sentences: with a missing input the surface of freezing snow takes the temperature of the melting point (c100_missing_temperature_refuted), and with the legacy iteration the coldest pixel of the region limits the temperatures tried for all (c100_legacy_independent_refuted; c100_legacy states the dependence exactly). The moisture flux of freezing snow whose temperature was limited to the melting point belongs to the unlimited temperature (c100_complete)."
  },
  {
   "property": "C101",
   "status": "proved",
   "theorems": [
    "c101_terminates",
    "c101_point_unique",
    "c101_field",
    "c101_derive",
    "c101_process",
    "c101_array_terminates",
    "c101_no_exact_solution"
   ],
   "note": ""
  },
  {
   "property": "C102",
   "status": "proved",
   "theorems": [
    "c102_initialize_raises",
    "c102_initialize",
    "c102_step",
    "c102_order",
    "c102_water",
    "c102_run",
    "c102_limits",
    "c102_sealed_run",
    "c102_no_texture"
   ],
   "note": ""
  },
  {
   "property": "C103",
   "status": "partial",
   "theorems": [
    "c103_classes",
    "c103_warnings",
    "c103_forest",
    "c103_lai",
    "c103_seasons",
    "c103_no_memory",
    "c103_forest_has_lai_refuted",
    "c103_forest_without_lai"
   ],
   "note": "A forest class may lack a leaf area index, then the fields below its canopy are missing (refuted theorem); otherwise proved."
  },
  {
   "property": "C104",
   "status": "partial",
   "theorems": [
    "c104_integers",
    "c104_reading",
    "c104_days",
    "c104_day_length",
    "c104_aliases",
    "c104_calendar",
    "c104_once",
    "c104_timestep",
    "c104_weekday_refuted",
    "c104_names",
    "c104_current_names",
    "c104_current_setting_refuted",
    "c104_files",
    "c104_time_zone"
   ],
   "note": "Parsing of frequencies by pandas is a function argument; c104_day_length assumes that it reads n hours as n hours. Refuted parts: c104_weekday_refuted, c104_current_setting_refuted."
  },
  {
   "property": "C105",
   "status": "partial",
   "theorems": [
    "c105_second_run",
    "c105_all_runs",
    "c105_files",
    "c105_repeatable_refuted",
    "c105_new_terrain_refuted"
   ],
   "note": "The sky view factor itself is a function argument (C84). Rounding halves up; reading and writing of the file format is exact otherwise. Refuted parts: c105_repeatable_refuted, c105_new_terrain_refuted."
  },
  {
   "property": "C106",
   "status": "proved",
   "theorems": [
    "c106_step",
    "c106_preparation",
    "c106_counts",
    "c106_order",
    "c106_properties",
    "c106_melt_method",
    "c106_ready",
    "c106_inputs"
   ],
   "note": "Processes are events; what they do is modelled in the other files. Configurations are finite in number, runs are not. Exceptions that end a run are left out."
  },
  {
   "property": "C107",
   "status": "partial",
   "theorems": [
    "c107_above",
    "c107_open",
    "c107_forest",
    "c107_sparse",
    "c107_below_refuted",
    "c107_vapour_refuted"
   ],
   "note": "Earthly conditions as in C98. Refuted parts: c107_below_refuted, c107_vapour_refuted; c107_forest says exactly when the fields belong together."
  },
  {
   "property": "C108",
   "status": "partial",
   "theorems": [
    "c108_equation_partial",
    "c108_density_refuted",
    "c108_overestimate_refuted"
   ],
   "note": "Holds with the density the code uses (c108_equation_partial); that this is the density of air is refuted (c108_density_refuted, c108_overestimate_refuted). Water balance of sealed surfaces: C40."
  },
  {
   "property": "C109",
   "status": "partial",
   "theorems": [
    "c109_rate_partial",
    "c109_density_refuted",
    "c109_underestimate_refuted"
   ],
   "note": "Holds with the density the code uses (c109_rate_partial); that this is the density of saturated vapour is refuted (c109_density_refuted, c109_underestimate_refuted). Signs and monotonicity of the rate: C35."
  },
  {
   "property": "C110",
   "status": "partial",
   "theorems": [
    "c110_values",
    "c110_outside",
    "c110_wind_idw",
    "c110_wind_method",
    "c110_wind_liston",
    "c110_depends",
    "c110_station",
    "c110_available",
    "c110_gusts_partial",
    "c110_succeeds",
    "c110_gusts_refuted",
    "c110_humidity_refuted",
    "c110_order",
    "c110_order_refuted"
   ],
   "note": "c110_gusts_partial: same stations for speed and gusts and a fixed lapse rate. Refuted in general: c110_gusts_refuted, c110_humidity_refuted. c110_succeeds shows that the run of the hypotheses exists. c110_order: one linear trend segment and no two stations at the same place; with two at one place it is refuted (c110_order_refuted), and the piecewise fit of pwlf is not modelled."
  },
  {
   "property": "C111",
   "status": "partial",
   "theorems": [
    "c111_stations",
    "c111_value",
    "c111_same_as_pixel_partial",
    "c111_other_stations_refuted"
   ],
   "note": "Same value as a model pixel under an open sky (c111_same_as_pixel_partial); independence of the other stations is refuted (c111_other_stations_refuted)."
  }
 ]
}