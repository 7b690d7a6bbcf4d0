# Formal model of openAMUNDSEN in Rocq (Coq 8.16.1)

The properties are listed in `properties.jsonl`, the theorems proved for each in `MANIFEST.json`.
The model and the proofs are in `rocq/theories`. Each domain `X` has

* `XModel.v` – the model. Every definition cites the file and lines in `/repo/openamundsen`
  it models and says where it simplifies. No proofs of properties here.
* `XSpec.v` (where the specification needs definitions of its own) – the vocabulary of the
  property, written without the model's helpers.
* `XProofs.v` – lemmas.
* `XTheorems.v` – the property theorems `cNN_...`, each followed by `Print Assumptions`, with
  `Example`s showing concrete non-trivial cases that meet the hypotheses.
  `DetailTheorems.v` and `SnowDetailTheorems.v` hold theorems added after seeded faults had survived.

Names: `..._partial` is a part of the property (what is missing is said in the comment and in the
manifest note), `..._refuted` gives a witness for which the faithful model – hence the code –
violates the property; conditional theorems then say what does hold.

## Modelling decisions

* Floating point numbers are modelled as Coq reals `R` (exact arithmetic). Rounding, overflow and
  infinities are not modelled. Missing values (NaN) are `num := option R` wherever the code tests
  for or can produce NaN; a division whose denominator can be zero is guarded in the model and
  yields NaN explicitly (never Coq's totalised `/ 0`), or the theorem's hypotheses exclude it.
* Grids are lists of pixels, or functions of integer indices with explicit sizes. Per-pixel numba
  loops are a function of one pixel, plus an interleaving semantics of `prange`
  (`ParallelModel.v`, `ShadowModel.v`, `TerrainModel.v`) which quantifies over all schedules of the
  single array reads and writes.
* Time is integer seconds (`Z`) since an epoch, dates are calendar computations on integers.
* Configuration values are parameters of the model functions.
* Exceptions are values (`inl err`, `None`, an error constructor).
* Python dictionaries and lists are association lists and lists with the code's iteration order.
* Loops without a bound in the code (`while True`, secant iterations) take fuel; theorems are about
  the result whenever there is one, for every amount of fuel, and termination is proved
  separately where it holds.
* Third party libraries (numpy, pandas, xarray, rasterio, numba, ruamel, cerberus) are modelled
  only through the small piece of behaviour the code relies on; each such piece is a definition
  with a comment.

## Plan per property

| Property | Model | Proof |
|---|---|---|
| C01-C07 | `MultilayerModel`, `SnowModel`: one pixel = list of layers + layer count; loops as structural recursion | conservation by induction over layers; C07 invariant by induction over the history |
| C08-C13, C74-C76 | `CryoModel`: record per layer, 4 layers; temperature index / energy balance | algebra, invariants over histories |
| C14-C18 | `SnowModel`: albedo, density, compaction, properties, liquid water | real arithmetic, invariants over histories |
| C19-C21, C71 | `HeatModel`: Thomas algorithm over lists, heat conduction | induction on the size, dominance invariant on pivots |
| C22-C23, C77 | `SurfaceModel`: energy balances, exchange coefficients | real arithmetic; iteration as fuelled loop with exit condition |
| C24-C31, C72-C73 | `AtmosphereModel` | real analysis (exp/ln/sqrt/trigonometry from the standard library) |
| C32-C34, C79-C80 | `InterpModel`: inverse distances, regression, corrections, wind | induction over station lists, normal equations |
| C35-C36 | `CanopyModel` | invariants over histories |
| C37-C42, C81-C82 | `EtModel`: evapotranspiration, land cover | invariants over histories, refinement of a stage-by-stage curve |
| C43-C44 | `GlacierModel` | sums over pixel lists; state machine over dates |
| C45 | `SunModel` | trigonometry |
| C46, C83 | `ShadowModel` | refinement of a declarative description of hidden pixels, all schedules |
| C47, C52-C53, C84 | `TerrainModel` | grid induction, vector algebra, all schedules |
| C49-C51, C85 | `RadiationModel` | real arithmetic, station lists |
| C48 | `ParallelModel` | commutation of independent iterations, per kernel refinement |
| C54 | `SoilModel` | real arithmetic |
| C55-C56 | `StateModel` | list and string induction |
| C57, C63, C66 | `MaskModel` | index arithmetic |
| C58-C60, C69-C70 | `RunModel`, `TimeModel` | state machines, calendar arithmetic |
| C61-C62 | `OutputModel` | induction over date lists |
| C64-C65, C67-C68, C78 | `ForcingModel` | list induction |
| C87-C90 | `GridModel`: grid and raster metadata, pixel centres and indices, region of interest, station pixels, extended terrain grids, input files | real and integer arithmetic of the affine transform, list induction |
| C91-C94 | `DatasetModel`: datasets of single stations, their combination, reading, filtering and resampling of all stations, vector mean of wind directions | list induction, polar form of `arctan2` |
| C95 | `PointConfigModel`: variables, points, layers, CSV columns and file names of point outputs | induction over configurations, injectivity of decimal names |
| C96 | `GridFilesModel`: fields, time variables, dimensions, data types and raster files of gridded outputs | induction over fields and dates, uniqueness of file names, refinement of the results directory |
| C97 | `SoilRunModel`: soil initialisation and time steps of a soil column over a run | real arithmetic for the initial properties, induction over time steps for the heat balance |
| C98 | `MeteoFieldsModel`: all derived fields of a time step, pixel by pixel, with missing values | bounds on the exponentials for conditions on Earth, real arithmetic, lists of pixels |
| C99 | `GridBalanceModel`: the energy balance of the multilayer model as a program on masked arrays with missing values | algebra of masked selections: nested masks are conditionals per pixel; refinement to the pixel model `SurfaceModel` for complete inputs |
| C100 | `CryoGridModel`: the energy balance of the cryo layers and both temperature iterations as programs on masked, shrinking arrays with missing values | algebra of masked selections, induction over the iterations for a general loop on shrinking arrays; refinement to `CryoModel` and `SurfaceModel` for complete inputs |
| C101 | `AtmosphereModel.wet_bulb_temperature` and `WetBulbModel`: the iteration as the program on arrays that it is | bounds on the slopes of the two Magnus branches; contraction of the secant steps (factor 0.982) with the jump at 0 degC as bounded noise, five classes of pairs of iterates, induction over the number of steps; refinement of the array loop to the loop of each pixel |
| C102 | `EtGridModel`: `EvapotranspirationModel` as the program on masked arrays that it is, with initialization; `EtGridSpec`: what one pixel has to do, in terms of `EtModel` | masked assignments commute with pixelwise functions (refinement, class by class); classes are disjoint, so their order does not matter; induction over histories carries C37 and C40 to every pixel of a grid |
| C103 | `LandCoverModel`: `LandCover` and the forest pixels of the canopy model as programs on masked arrays | closed form of the loop over the sorted classes; disjoint masks are conditionals per pixel; season by C42 |
| C104 | `SettingsModel`: frequencies, deprecated names of settings, names of raster files, time zone of the simulation | texts as lists of characters; decimal notation by induction on the digits; unique splitting at the separator |
| C105 | `RerunModel`: files left behind by reading the inputs, runs one after the other | case analysis over the files; the written raster is accepted again; induction over the runs |
| C106 | `StepOrderModel`: initialisation and time step as sequences of events | reflection over all configurations, induction over the time steps; order and counts from the filtered list |
| C107 | `CanopyFieldsModel`: derived fields, then air above, then air below the canopy | composition of C98 and C36; refuted below the canopy |
| C108 | `sealed_potential` of `EtModel` against the equation stated separately | algebra; refuted for the density |
| C109 | `mass_loss_rate` of `CanopyModel` against the equations stated separately | algebra; refuted for the density of saturated vapour |
| C110 | `StationFieldsModel`: the driver of the station interpolation with selection of stations, masks and all variables, on top of `InterpModel` | induction over station and pixel lists; permutation invariance in `StationOrderTheorems`; refuted for gusts, for two stations at one place and for humidity without temperature |
| C111 | `ExtStationsModel`: selection of stations in the extended grid and their clear-sky irradiance | membership in lists, algebra; refuted for independence of other stations |
| C86 | `WaterModel`: phase partitioning, redistribution, canopy and snow model of all pixels in the order of `_model_interface` | balance of one pixel, induction over steps, sums over pixels |

No property had to be marked `not_applicable`.

## Trusted base

* Coq's kernel (the build is re-checked by `coqchk`). No kernel check is switched off.
* Axioms of the standard library, as printed by `Print Assumptions` below each theorem:
  `ClassicalDedekindReals.sig_forall_dec`, `ClassicalDedekindReals.sig_not_dec`,
  `FunctionalExtensionality.functional_extensionality_dep` (all from the construction of the real
  numbers) and `Classical_Prop.classic` (used by the real analysis library). `ASSUMPTIONS.md` lists
  them per theorem. There are no axioms, parameters or open obligations of our own and no other
  library is imported.
* The correspondence between the Gallina model and the Python source, by reading.
* Function arguments standing for code that is not modelled ("oracles"): the piecewise linear fit
  of `pwlf` (`InterpModel`; C80 and C33 hold for any fit), the illumination in the sky view factor
  (`TerrainModel`, any function; the shadow algorithm itself is modelled for C46), conversion of
  strings to times by pandas (`TimeModel`), the bodies of the model's processes in the run protocol
  (`RunModel`: any sequence of succeeding or failing steps).

## What is modelled

| Code | Modelled | Not modelled |
|---|---|---|
| `modules/snow/multilayermodel.py` | all numerical routines: compaction, accumulation, albedo, melt, sublimation, runoff, layer redistribution, heat conduction, the sequence of the time step | variable declarations |
| `modules/snow/cryolayermodel.py` | all: compaction, accumulation, albedo, transitions, melt (temperature index, enhanced, energy balance), cold content, sublimation, runoff, the time step | variable declarations |
| `modules/snow/snow.py` | albedo, fresh snow density, both compactions, properties, liquid water capacity | – |
| `tridiag.py`, `heatconduction.py` | all | array broadcasting |
| `modules/soil/*.py` | initialisation, moisture partition, heat capacity, conductivity, heat flux, runs of a soil column | allocation of state variables |
| `surface.py` | surface properties, exchange coefficients, energy balances, temperature iteration ; the balances of the multilayer model and of the cryo layers also as programs on masked arrays with missing values | selection of pixels by land cover |
| `meteo/atmosphere.py` | all functions; the array program of `wet_bulb_temperature` | vectorisation of the other functions; infinities from a division by zero |
| `meteo/interpolation.py`, `interpolation.py` | weights, regression (exact), segments, interpolation of parameters, wind | linear algebra of numpy (replaced by its exact solution) |
| `meteo/precipcorr.py` | all methods | – |
| `modules/canopy/canopy.py` | meteorology, interception, unloading, melt and sublimation of the load | mean temperature bookkeeping as a window |
| `modules/evapotranspiration/*` | coefficients, depletions, percolation, sealed surfaces, reference ET; the whole class as array program with masks | reading of soil texture grids |
| `modules/glacier/glaciermodel.py` | delta-h update, dates | – |
| `modules/radiation/*` | sun position, shadows, clear-sky, shortwave and longwave irradiance, cloud factors | file output |
| `terrain.py` | slopes, normals, shifts, openness, sky view factor, regridding | rasterio |
| `landcover.py` | all: LAI curve, parameter merging, classes and masks of the whole grid, warnings | – |
| `statevars.py` | variable names, categories, reset, definitions | numpy storage |
| `model.py` | run protocol, sequence of initialisation and time step, derived fields, dates, calendar flags, threads, precipitation phase, forcing checks, land cover parameters | bodies of reading and writing files, plotting |
| `conf.py` | validation rules, end dates, merge with defaults, deprecated names | cerberus schema language |
| `forcing.py`, `fileio/meteo.py` | station selection, range filters, resampling and aggregation, wind directions, datasets of stations and their combination, coverage of the period, pixels of stations | NetCDF/CSV parsing |
| `fileio/pointoutput.py`, `fileio/griddedoutput.py` | configuration of variables, points and fields, write dates, buffering, aggregation, layout, dimensions, CSV columns, file names | NetCDF/GeoTIFF encoding, attributes |
| `util.py` | masks, normalisation, frequencies, raster file names, merging | YAML |
| `fileio/raster.py` | checks of the metadata, fill values | file formats |
| `cli.py`, `liveview.py`, `logformat.py` | – | no semantic property beyond the libraries they call |

## Findings

Departures of the code from what its documentation or a user would expect, found while modelling.
Where a theorem records it, its name is given.

*Snow, soil, surface*
1. Multilayer sublimation divides 0/0 for an active layer without ice below the sublimated one (`c02_no_nan_refuted`).
2. Multilayer redistribution gives NaN for a remnant thinner than 1e-6 m with a fully melted layer (`c04_thin_remnant_nan_refuted`); packs thinner than 1e-6 m are discarded with their mass (`c07_discarded`).
3. The maximum liquid water content is negative for layers denser than ice (`c18_capacity_nonneg_refuted`), reachable with Anderson compaction.
4. A missing potential melt resets over-warm layers to 0 degC without melting anything.
5. Multilayer heat conduction uses the last snow slot rather than the soil as lower boundary for incompletely filled packs (`c71_base_flux_consistent_refuted`).
6. Merging cryospheric layers averages densities arithmetically, so thickness is not conserved (`c11_thickness_conserved_refuted`). Cold content above capacity is handed to the next layer. The compaction method "empirical" is refused.
7. Multilayer energy balance: the sensible flux is updated with the wrong sign (`c22_sensible_consistent_refuted`, `c22_reported_sensible`); the moisture flux belongs to the old temperature (`c22_reported_moisture`); partial melt is not limited by the ice present (`c22_melt_bounded_refuted`).
8. Surface temperature iteration: after clipping to 0 degC the humidity is still that of the unclipped temperature; the legacy temperature grid starts at the minimum over all pixels.
9. Surface conductance uses a maximum where the FSM reference uses a minimum (`c77_conductance` states the code's behaviour).
10. Soil without moisture leaves the frozen and unfrozen fractions unwritten.

*Atmosphere, forcing, interpolation*
11. `dry_air_density` of the library multiplies by R·T instead of dividing (`c30_library_density_refuted`); the sealed-surface evaporation has a similar error.
12. `enforce_no_snow_below_rain`: a missing temperature counts as rain (`c31_missing_temp_is_not_rain_refuted`).
13. Regression with stations at a single elevation uses the minimum norm fit, which scales the values (`c33_same_elevation_refuted`); fixed lapse rates with several segments are refused with a bare ValueError (`c33_fixed_accepted_refuted`); without extrapolation, relative humidity is clipped to the range of dew point temperatures (`c33_humidity_no_extrapolation_refuted`).
14. Precipitation correction: the WMO gauges nipher, tretyakov, us_sh and us_unsh always raise (`c34_wmo_gauges_refuted`); Hellmann with mixed precipitation can give negative precipitation (`c34_hellmann_negative_refuted`); Kochendorfer reduces precipitation of nor_sa above about 4 degC (`c34_kochendorfer_loss_refuted`).
15. Liston wind on uniform terrain is missing (`c79_available_refuted`).
16. Daily station data with a "24h" time step are shifted by a day (`c78_daily_data_unchanged_refuted`); station records ending the day before the start raise IndexError (`c78_ended_station_refuted`).
17. `make_point_dataset` counts variables instead of records in `len(data) > 10`; the message for wrong units reads the attribute it complains about.

*Canopy, evapotranspiration, glaciers, land cover*
18. A canopy load above a reduced capacity loses mass (`c35_decreasing_lai_refuted`); one missing input makes it missing forever (`c35_recovers_refuted`); a forest pixel without mean temperature raises a broadcasting error (`c36_missing_temperature_refuted`).
19. Evaporation layer: percolation subtracts its own previous value instead of the depletion, so rain does not re-wet the layer (`c39_rewets_refuted`). Adjusted depletion fractions can exceed 1 (`c37_depletion_fraction_refuted`); full vegetation cover gives NaN (`c37_full_cover_refuted`).
20. Growing seasons across New Year are cut off (`c41_new_year_refuted`); several LAI cycles raise ValueError (`c42_cycles_refuted`); the nested dictionary `leaf_area_index` of a class is replaced as a whole (`c67_nested_refuted`).
21. Glacier update: flat glaciers give NaN (`c43_flat_refuted`), exhausted pixels create mass (`c43_runs_out_refuted`), the surplus goes to the highest pixels and can exceed the limit (`c43_terminus_refuted`); the first step of the mass balance year is not part of the balance.

*Radiation, terrain*
22. Clear sky: the limit of the air mass is applied to the denominator (`c50_unlimited`, `c50_limit_refuted`), transmittances become negative near the horizon (`c50_negative_transmittance_refuted`); the scattering ratio multiplies where the reference adds (`c85_scattering_refuted`).
23. Radiation stations inside the grid but outside the region of interest block the humidity fallback (`c49_available_refuted`).
24. `_openness_dir` has a data race (`c47_schedule_refuted`); the shadow loops write the same values and are harmless (`c46_schedule`). Lines passing exactly between pixels leave pixels unvisited, hence always lit (`c46_coverage_refuted`). Missing DEM pixels hide terrain behind them (`c46_missing`). A sun exactly in the zenith divides by zero.
25. Slopes of border pixels are halved (`c52_border_refuted`); shifting by zero gives an empty array (`c53_zero_refuted`); the retaining shift moves one pixel too far (`c53_retain_count_refuted`); the sky view factor of a plain is cos²(1 deg) (`c84_open_sky`).

*Run, state, output, configuration*
26. Resetting a boolean variable raises KeyError (`c55_reset_never_fails_refuted`); the glacier variables needed later are not retained (`c55_needed_values_kept_refuted`).
27. Adding the category "categories" fails after registering it (`c56_rejected_unchanged_refuted`).
28. `run_single` after the end (or a failing step) does not restore the number of threads (`c59_always_restored_refuted`).
29. Day flags compare days of month only (`c60_day_flag_refuted` for 28-day steps).
30. Point output: rows are lost or files not created if the first write date is not a model date (`c61_unaligned`, `c61_every_step_once_refuted`). Gridded output: user dates off the model dates are never written (`c62_interval_refuted`); monthly and yearly aggregates (`c62_month_aggregates_refuted`, `c62_half_period_refuted`, `c62_month_instants_refuted`).
31. `global_mask` with a mask of three or more dimensions returns its argument; `normalize_array` of a constant array is NaN (`c66_constant`); `extend_roi_with_stations` can add pixels without elevation.
32. Configuration: `usaco` factors of zero raise ZeroDivisionError during validation; date-only ends with an unaligned start are rejected.
33. Stations on the lower or upper edge of the grid: selection by bounds (`bounds: "grid"`) and the test whether a station lies in a pixel of the grid disagree (`c87_grid_stations_refuted`).
34. A sky view factor file for the extended grid is compared by size only, a file for another place is accepted (`c89_svf_position_refuted`). With an extended DEM the values of the regular DEM and of its sky view factor file are ignored.
35. Stations extending the region can add pixels without elevation (`c88_elevation_refuted`).
36. Cloud fractions without units are not converted to percent, because `len(data)` counts variables instead of records (`c91_cloud_fraction_refuted`); with more than ten variables, cloud cover in percent which never exceeds 1 % is multiplied by 100 (`c91_cloud_percent_refuted`). Precipitation rates with irregular times raise AttributeError.
37. Gaps between the periods of stations pass the check for missing data; the run fails when it reaches the gap (`c93_every_step_refuted`), also with missing data allowed.
38. A calm averaged time step has wind direction 270 (`c94_calm_refuted`).
39. Point output: a variable named like a category ("meteo") is accepted and fails with KeyError at the first time step; names with several dots raise ValueError (`c95_unknown_variables_refuted`). CSV: a 2-dimensional variable with output name `soil_temp0` is silently replaced by layer 0 of `soil_temp` (`c95_csv_columns_refuted`). The test for inconsistent layer numbers uses the wrong key and is never reached.
40. Gridded output: instantaneous integer variables are 0 outside the region of interest instead of the declared fill value (`c96_outside_refuted`); of a date given twice only the first place is filled (`c96_duplicate_dates_refuted`).
41. Raster files overwrite each other if one output is named like a layer of another one (`c96_file_names_refuted`) or if time steps are shorter than a minute (`c96_seconds_refuted`).
42. The soil configuration is not checked: without sand and clay initialisation raises ZeroDivisionError, without layers IndexError, and fractions given in percent make the pore volume negative (`c97_unchecked_refuted`). `init_moisture_content: 0` is accepted, but leaves the unfrozen fraction missing, and with it the surface conductance and energy balance of all snow-free pixels (`c97_dry_refuted`).
43. Canopy pixels with a leaf area index of 0: without snowfall the intercepted load becomes missing, with snowfall 70 % of the load vanishes (`c35_leafless`).
44. With precipitation phase by wet-bulb temperature, pixels with missing humidity get rain at any temperature (`c98_missing_humidity_refuted`), and with `enforce_no_snow_below_rain` so do all pixels below them. Where only the pressure is missing, the wet-bulb temperature is the air temperature (`c98_no_pressure`).
45. Hellmann correction of mixed precipitation: at a catch ratio of 0 the factor is the largest double (`c34_hellmann_unbounded_refuted`).
46. If an input of the multilayer energy balance is missing while the surface temperature is above the melting point (snow has fallen on warm ground), the changes are set to zero, the surface counts as melting, and the whole snowpack melts in one time step; the surface temperature remains, so this is repeated for every snowfall as long as values are missing (`c99_missing_melt_refuted`).
47. Cryo layers: if an input of the energy balance is missing, the iteration for freezing snow stops at its first guess, so the surface gets the temperature of the melting point however cold the air is, for both iteration methods (`c100_missing`, `c100_missing_temperature_refuted`).
48. Cryo layers, legacy iteration: the lowest temperature tried is that of the coldest freezing pixel of the whole region minus 3 K, so that the result of a pixel depends on other pixels (`c100_legacy_independent_refuted`).
49. Cryo layers, secant iteration: the surface temperature is limited to the melting point after the iteration, but the saturation humidity stays that of the unlimited temperature, so that the moisture flux (sublimation) of snow in cold air under strong radiation is computed for a surface warmer than melting snow (`c100_complete`: the flux belongs to `x`, the temperature is `Rmin x T0`).
50. The saturation vapour pressure jumps by 0.07 Pa at 0 degC (610.71 Pa over ice, 610.78 Pa over water), so the psychrometer equation solved for the wet-bulb temperature has no solution for some inputs (`c101_no_exact_solution`). The iteration still ends (`c101_terminates`), since the jump is small compared with the tolerance of 0.01 K.
51. A pixel without soil texture (0 in the texture file) is accepted by the initialization, but its evapotranspiration and percolation are missing in all snow-free time steps unless it is a water body or sealed (`c102_no_texture`); one with a texture above 9 raises a KeyError (`c102_initialize_raises`).
52. A forest class may be configured without leaf area index; no warning is given, and below its canopy radiation, humidity, wind speed and (with a mean temperature) air temperature are missing from the first time step on (`c103_forest_has_lai_refuted`, `c103_forest_without_lai`).
53. Output frequencies that pandas accepts are refused with a ValueError from `int()` if they end with "D" but are not whole days: `W-WED`, `1.5D` (`c104_weekday_refuted`).
54. If a configuration contains a deprecated name beside the current one (`wind_speed` and `wind`, `night_method` and `clear_sky_fraction_night_method`), the value under the current name is silently lost; for `day_method` and `method` this is an error (`c104_current_setting_refuted`).
55. The first run in a directory uses the computed sky view factor, all later runs the one rounded to three decimals, so a repeated run does not reproduce the first one (`c105_repeatable_refuted`, bound in `c105_second_run`).
56. The stored sky view factor is used even if the DEM or `num_shadow_sweeps` changed afterwards (`c105_new_terrain_refuted`, `c105_all_runs`).
57. Vapour pressure, specific humidity, wet-bulb temperature and density are not computed again after the canopy model changed temperature and humidity; the energy balance below the canopy uses those of the air above (`c107_below_refuted`, `c107_vapour_refuted`).
58. Air density for evaporation from sealed surfaces is `press / R * Tv` instead of `press / (R * Tv)`, too large by about 85,000 (`c108_density_refuted`, `c108_overestimate_refuted`).
59. Sublimation of canopy snow: the density of saturated vapour is multiplied by 0.622 although the gas constant of water vapour is used (`c109_density_refuted`, `c109_underestimate_refuted`).
60. Gusts can be below the wind speed, as they are interpolated from other stations (`c110_gusts_refuted`). Humidity is missing everywhere if no single station measures both humidity and temperature, although both are measured (`c110_humidity_refuted`).
61. The clear-sky irradiance of a station in the extended grid depends on the other stations that report, since the means for the reflection by slopes are taken over these stations (`c111_other_stations_refuted`).
62. If two stations stand at the same place, the pixel there takes the value of the one read first, so that the fields depend on the order of the stations (`c110_order_refuted`).

## Testing the theorems

`seeded/LOG.jsonl` records edits of the model definitions (wrong operators, boundaries, dropped
cases, swapped arguments; and hand-made faults). How to read it:

- After an edit the dependent files were compiled until the first that failed. `failed` names the one
  proof seen to fail there, and nothing else. In about half of the records this is a lemma or an example
  and not a property theorem.
- `failed` means that the proof script was no longer accepted. It does not show that the statement is
  false of the edited model, since a script can also break for other reasons.
- `inferred_dependents` are the theorems that refer to the failed proof, directly or through others,
  found by a text search in the current sources. They were not compiled against the edit, and some
  are newer than the attempt. `claim` is derived from these names.
- `tightened` is filled only where an edit survived a first attempt and the proof that fails now was
  first committed after that round. For the other survivors of a first attempt it was not recorded.
- Earlier versions of the log listed the inferred theorems under `failed` and `tightened`. That
  overstated what had been observed.
- Edits with an empty `failed` were judged equivalent by hand, for the reason given in `note`.
