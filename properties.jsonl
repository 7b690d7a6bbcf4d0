{"id": "C01", "title": "Multilayer melt conserves water and never over-melts", "statement": "For a pixel of the multilayer snow model, the melt routine turns ice into liquid water layer by layer from the top: in every layer ice plus liquid water is unchanged, no layer ends with negative ice or negative thickness, layers outside the active ones are untouched, and the reported melt equals the total ice lost, is non-negative and never exceeds the ice that was there nor the potential melt plus the energy surplus of over-warm layers. No layer is warmer than 0 degC afterwards, and a layer melts completely before a deeper one receives melt energy from above.", "quantifier": "all numbers of layers, all non-negative layer contents, all temperatures, all potential melt amounts", "why_tests_cant": "Conservation has to hold for every combination of layer contents, including exact ties and empty layers.", "anchors": ["openamundsen/modules/snow/multilayermodel.py:_melt"]}
{"id": "C02", "title": "Multilayer sublimation removes exactly the sublimated mass", "statement": "The sublimation routine removes ice from the top down; total ice removed equals the positive part of the reported sublimation whenever that does not exceed the available ice; liquid water and temperature are untouched; no layer gets negative ice or thickness. A pack whose active layers all hold ice never produces NaN.", "quantifier": "all packs, all sublimation amounts", "why_tests_cant": "Needs all layer configurations including ties and empty layers.", "anchors": ["openamundsen/modules/snow/multilayermodel.py:_sublimation", "openamundsen/modules/snow/multilayermodel.py:MultilayerSnowModel.sublimation"]}
{"id": "C03", "title": "Multilayer runoff closes the liquid water budget", "statement": "Routing rain and melt water through the pack: initial ice + liquid water + rain (missing rain counted as 0) equals final ice + liquid water + runoff, refreezing equals the ice gained, no layer keeps more liquid water than its holding capacity, runoff and refreezing are non-negative, and a cold layer is never warmed above 0 degC by refreezing.", "quantifier": "all packs, all rain amounts including missing, all capacities", "why_tests_cant": "Budget closure over every layer state and every rain amount.", "anchors": ["openamundsen/modules/snow/multilayermodel.py:_runoff"]}
{"id": "C04", "title": "Multilayer re-discretisation reproduces the snow depth", "statement": "After layers are rebuilt, the number of layers is at most the configured maximum, layer thicknesses add up to the snow depth whenever the depth is at least 1e-6 m, every active layer has positive thickness, inactive layers are zero, all but the last active layer have exactly the configured minimum thickness, and below 1e-6 m there are no layers.", "quantifier": "all depths, all lists of minimum thicknesses", "why_tests_cant": "Boundary cases for every depth and configuration.", "anchors": ["openamundsen/modules/snow/multilayermodel.py:_update_layers"]}
{"id": "C05", "title": "Multilayer re-discretisation conserves ice, liquid water and heat", "statement": "Redistributing the contents of the old layers over the new layers preserves the totals of ice, liquid water and internal energy, for any old and new layering with the same total thickness and positive old thicknesses; new layer contents are non-negative; the new temperatures reproduce the redistributed energy.", "quantifier": "all old and new layerings of any length", "why_tests_cant": "Quantifies over all pairs of layerings; loop with data-dependent control flow.", "anchors": ["openamundsen/modules/snow/multilayermodel.py:_update_layers"]}
{"id": "C06", "title": "Adding snow adds exactly the given mass", "statement": "add_snow increases the ice of the top layer by exactly the given amount (NaN counts as 0), the liquid water by the given amount, the thickness by amount/density, and leaves all other layers and pixels unchanged; a snow-free pixel becomes a one-layer pixel at min(air temperature, 0 degC) with maximum albedo; a pixel with snow keeps layer count and temperature.", "quantifier": "all pixel states, amounts, densities", "why_tests_cant": "All states and missing values.", "anchors": ["openamundsen/modules/snow/multilayermodel.py:MultilayerSnowModel.add_snow", "openamundsen/modules/snow/multilayermodel.py:MultilayerSnowModel.accumulation"]}
{"id": "C07", "title": "Multilayer water balance over any run", "statement": "Over any sequence of time steps and forcings, the change of total ice plus liquid water of a pixel equals total snowfall plus rain minus total runoff minus total sublimation (deposition counted negative), up to the snow discarded when the pack is thinner than 1e-6 m; ice, liquid water and thickness stay non-negative throughout.", "quantifier": "every forcing history, every number of steps", "why_tests_cant": "Histories are unbounded; errors accumulate silently.", "anchors": ["openamundsen/modules/snow/multilayermodel.py", "openamundsen/model.py:OpenAmundsen._model_interface"]}
{"id": "C08", "title": "Cryolayer melt conserves water", "statement": "In the cryolayer model melting removes exactly the melt amount from ice and turns it into liquid water of the same layer, thickness shrinks proportionally, nothing becomes negative when melt does not exceed ice, and a layer with zero ice has zero thickness.", "quantifier": "all layers and melt amounts", "why_tests_cant": "All inputs.", "anchors": ["openamundsen/modules/snow/cryolayermodel.py:CryoLayerSnowModel.melt"]}
{"id": "C09", "title": "Cryolayer sublimation removes exactly the sublimated mass, from the top", "statement": "Sublimation is limited to the ice of the pixel; exactly that amount is removed, from the top layer downward, a layer losing mass only after all layers above it are used up; deposition is added as new snow; liquid water is untouched.", "quantifier": "all pixels, fluxes, layer states", "why_tests_cant": "All inputs.", "anchors": ["openamundsen/modules/snow/cryolayermodel.py:CryoLayerSnowModel.sublimation"]}
{"id": "C10", "title": "Cryolayer runoff closes the liquid water budget", "statement": "Liquid water before plus rain equals liquid water after plus runoff; afterwards every snow layer holds at most its capacity and firn and ice hold none; ice is untouched.", "quantifier": "all layer states, rain amounts", "why_tests_cant": "All inputs.", "anchors": ["openamundsen/modules/snow/cryolayermodel.py:CryoLayerSnowModel.runoff"]}
{"id": "C11", "title": "Cryolayer transitions conserve mass", "statement": "Moving a layer into the next one (new snow to old snow, old snow to firn, firn to ice) preserves the pixel's total ice, liquid water and cold content and empties the source layer; an empty destination takes over the source unchanged, otherwise density and albedo become mass-weighted means and the thickness does not grow; pixels outside the mask are unchanged. After the update no new snow is denser than the old snow threshold and no firn denser than the ice threshold; old snow becomes firn exactly in the first step of the configured month.", "quantifier": "all pixels, masks and layer states", "why_tests_cant": "All states.", "anchors": ["openamundsen/modules/snow/cryolayermodel.py:CryoLayerSnowModel.layer_transition", "openamundsen/modules/snow/cryolayermodel.py:CryoLayerSnowModel.update_layers"]}
{"id": "C12", "title": "Cryolayer energy balance never melts more than there is and never spends more energy than supplied", "statement": "For every layer and every energy supply, melt from the energy balance is between 0 and the ice available, and the time consumed by melting the layers from the surface downward never exceeds the time step.", "quantifier": "all layer states and energy balances", "why_tests_cant": "All inputs.", "anchors": ["openamundsen/surface.py:cryo_layer_energy_balance"]}
{"id": "C13", "title": "Temperature index melt is bounded", "statement": "Potential melt is zero below the threshold temperature, non-negative above, increasing in temperature and incoming radiation; the melt taken from the layers, top layer first, adds up to the potential melt capped by the available ice.", "quantifier": "all temperatures, radiations, layer states", "why_tests_cant": "All inputs.", "anchors": ["openamundsen/modules/snow/cryolayermodel.py:CryoLayerSnowModel.temperature_index"]}
{"id": "C14", "title": "Snow albedo always stays within the configured range", "statement": "Starting from an albedo in [min, max], after any sequence of time steps with any temperatures, snowfall amounts (including missing), time steps and either refresh method the albedo remains in [min, max]; without snowfall it never increases; with snowfall at or above the refresh rate it equals max.", "quantifier": "all histories of temperature and snowfall", "why_tests_cant": "Histories.", "anchors": ["openamundsen/modules/snow/snow.py:albedo"]}
{"id": "C15", "title": "Fresh snow density has a lower bound and is monotone", "statement": "Fresh snow density is at least 50 kg m-3, non-decreasing in temperature, equals 50 below -15 degC, is exactly 100 when temperature is missing; hence dividing by it never divides by zero.", "quantifier": "all temperatures including NaN", "why_tests_cant": "All reals.", "anchors": ["openamundsen/modules/snow/snow.py:fresh_snow_density"]}
{"id": "C16", "title": "Compaction only densifies and never changes mass", "statement": "Both compaction schemes leave ice and liquid water untouched, never increase a layer's thickness, never decrease its density, and keep thickness times density equal to layer mass; the empirical scheme never exceeds the maximum density for layers below it and leaves denser layers alone.", "quantifier": "all packs, temperatures, time steps", "why_tests_cant": "All inputs.", "anchors": ["openamundsen/modules/snow/snow.py:_compaction_anderson", "openamundsen/modules/snow/snow.py:_compaction_empirical"]}
{"id": "C17", "title": "Bulk snow properties are consistent with the layers", "statement": "Snow depth is the sum of thicknesses, SWE the sum of ice and liquid water, the snow cover fraction is in [0,1], zero exactly when there is no snow, non-decreasing in depth, and areal heat capacity is positive for non-empty layers.", "quantifier": "all packs, all depth scales", "why_tests_cant": "All inputs.", "anchors": ["openamundsen/modules/snow/snow.py:snow_properties"]}
{"id": "C18", "title": "Maximum liquid water content is well defined", "statement": "The holding capacity is zero for layers without thickness, non-negative whenever the layer is not denser than ice, and bounded by the configured fraction of pore volume (or ice mass).", "quantifier": "all layers, both methods", "why_tests_cant": "All inputs.", "anchors": ["openamundsen/modules/snow/snow.py:max_liquid_water_content"]}
{"id": "C19", "title": "The tridiagonal solver returns the exact solution", "statement": "For every size and every diagonally dominant tridiagonal matrix, the solver returns the unique vector satisfying all equations, in exact arithmetic; no pivot is zero.", "quantifier": "all n, all diagonally dominant systems, all right-hand sides", "why_tests_cant": "Unbounded n.", "anchors": ["openamundsen/tridiag.py:solve_tridiag"]}
{"id": "C20", "title": "Heat conduction conserves energy and obeys the boundary fluxes", "statement": "The layer temperature changes returned by the implicit conduction scheme satisfy the discrete heat equation: total heat gained by the layers equals time step times (surface flux minus flux into the bottom medium evaluated at the new temperature), for any number of layers; layers in equilibrium with no surface flux do not change; the scheme is unconditionally well posed.", "quantifier": "all layer counts, thicknesses, conductivities, capacities, temperatures", "why_tests_cant": "Unbounded number of layers.", "anchors": ["openamundsen/heatconduction.py:temp_change"]}
{"id": "C21", "title": "Array and single-pixel heat conduction agree", "statement": "The array version applied to all pixels gives for every pixel the same result as the single-column version.", "quantifier": "all grids, all pixels", "why_tests_cant": "All sizes.", "anchors": ["openamundsen/heatconduction.py:temp_change_array", "openamundsen/tridiag.py:solve_tridiag_array"]}
{"id": "C22", "title": "Surface temperature and melt from the energy balance", "statement": "After solving the surface energy balance for a snow surface, the surface temperature does not exceed 0 degC while ice remains, melt is non-negative and bounded by the ice available per time step, and the linearised energy balance closes.", "quantifier": "all surface states", "why_tests_cant": "All inputs.", "anchors": ["openamundsen/surface.py:solve_energy_balance"]}
{"id": "C23", "title": "Surface temperature iteration stops only at a converged or melting state", "statement": "When the iteration for the snow surface temperature ends, the last change is below the tolerance and the returned temperature is at most 0 degC.", "quantifier": "all forcings", "why_tests_cant": "Number of iterations unbounded.", "anchors": ["openamundsen/surface.py:iterate_surface_temperature"]}
{"id": "C24", "title": "Atmospheric pressure and altitude conversions are inverse", "statement": "pressure_to_altitude(atmospheric_pressure(z)) = z for all altitudes below the top of the model atmosphere and conversely; pressure is positive and strictly decreasing with altitude.", "quantifier": "all altitudes / pressures", "why_tests_cant": "All reals.", "anchors": ["openamundsen/meteo/atmosphere.py:atmospheric_pressure", "openamundsen/meteo/atmosphere.py:pressure_to_altitude"]}
{"id": "C25", "title": "Dew point and relative humidity conversions are inverse", "statement": "relative_humidity_from_dew_point_temperature(T, dew_point_temperature(T, rh)) = rh for all temperatures and positive humidities; the dew point does not exceed the air temperature for rh <= 100.", "quantifier": "all temperatures, humidities", "why_tests_cant": "All reals.", "anchors": ["openamundsen/meteo/atmosphere.py:dew_point_temperature", "openamundsen/meteo/atmosphere.py:relative_humidity_from_dew_point_temperature"]}
{"id": "C26", "title": "Precipitation phase is a fraction and monotone", "statement": "The snowfall fraction is in [0,1], non-increasing in temperature, 1/2 at the threshold for a positive range, 1 below and 0 above the transition range, a step for range 0, and negative ranges are rejected.", "quantifier": "all temperatures, thresholds, ranges", "why_tests_cant": "All reals.", "anchors": ["openamundsen/meteo/atmosphere.py:precipitation_phase"]}
{"id": "C27", "title": "Cloud factor and cloud fraction conversions are inverse and bounded", "statement": "Cloud factor and fraction stay in [0,1]; the conversions are mutually inverse on their ranges and monotone decreasing.", "quantifier": "all fractions/factors", "why_tests_cant": "All reals.", "anchors": ["openamundsen/meteo/atmosphere.py:cloud_factor_from_cloud_fraction", "openamundsen/meteo/atmosphere.py:cloud_fraction_from_cloud_factor"]}
{"id": "C28", "title": "Wind components round-trip", "statement": "Converting wind speed and direction to u/v and back returns the same speed and (for positive speeds) the same direction modulo 360.", "quantifier": "all speeds >= 0, all directions in [0,360)", "why_tests_cant": "All reals.", "anchors": ["openamundsen/meteo/atmosphere.py:wind_to_uv", "openamundsen/meteo/atmosphere.py:wind_from_uv"]}
{"id": "C29", "title": "Saturation vapour pressure is positive and increasing", "statement": "Saturation vapour pressure is positive and strictly increasing in temperature (over water, over ice); vapour pressure is between 0 and saturation for humidities in [0,100]; the psychrometric difference has at most one root.", "quantifier": "all temperatures above the pole of the formula", "why_tests_cant": "All reals.", "anchors": ["openamundsen/meteo/atmosphere.py:saturation_vapor_pressure", "openamundsen/meteo/atmosphere.py:vapor_pressure"]}
{"id": "C30", "title": "Dry air density follows the ideal gas law", "statement": "dry_air_density(T, p) * R * T = p, as the documented meaning (kg m-3) requires and as the model run itself computes it.", "quantifier": "all temperatures and pressures", "why_tests_cant": "All reals.", "anchors": ["openamundsen/meteo/atmosphere.py:dry_air_density", "openamundsen/model.py:OpenAmundsen._process_meteo_data"]}
{"id": "C31", "title": "Snowfall and rainfall partition precipitation", "statement": "Snowfall plus rainfall equals precipitation at every pixel (without redistribution factor), both are non-negative, missing phase counts as rain, and with enforce_no_snow_below_rain no pixel at or below the highest all-rain elevation receives snow while all higher pixels keep their fraction.", "quantifier": "all pixel lists, temperatures, precipitation values", "why_tests_cant": "All grids.", "anchors": ["openamundsen/model.py:OpenAmundsen._process_meteo_data"]}
{"id": "C32", "title": "Inverse distance weighting interpolates", "statement": "The interpolated value at a target is a convex combination of the available station values (between their minimum and maximum), equals the station value at a station location, ignores missing stations and is missing only when no station is available; it is invariant under constant shifts.", "quantifier": "all station sets and targets", "why_tests_cant": "Unbounded number of stations.", "anchors": ["openamundsen/interpolation.py:idw", "openamundsen/interpolation.py:_idw"]}
{"id": "C33", "title": "Detrending and retrending are exact", "statement": "Interpolating with a linear elevation trend reproduces a perfectly linear elevation dependence everywhere, returns the measured value at each station, and the final values are clipped to the allowed range and, without extrapolation, to the range of the station values; without stations precipitation is 0 and other variables are missing.", "quantifier": "all station sets, lapse rates, targets", "why_tests_cant": "Unbounded.", "anchors": ["openamundsen/meteo/interpolation.py:interpolate_param", "openamundsen/meteo/interpolation.py:_apply_linear_trend"]}
{"id": "C34", "title": "Station precipitation correction", "statement": "With constant_scf snow is multiplied by scf, rain unchanged, mixed in between; Kochendorfer never reduces precipitation; every documented WMO gauge (nipher, tretyakov, us_sh, us_unsh, hellmann) is accepted; zero precipitation stays zero; missing wind leaves precipitation unchanged.", "quantifier": "all stations, times, winds, temperatures", "why_tests_cant": "All inputs.", "anchors": ["openamundsen/meteo/precipcorr.py:correct_station_precipitation"]}
{"id": "C35", "title": "Canopy snow mass balance", "statement": "At forest pixels, snowfall above the canopy equals snowfall reaching the ground plus change of intercepted load plus sublimation; the load stays non-negative and at most the interception capacity; ground snowfall is non-negative.", "quantifier": "all loads, capacities, snowfall histories", "why_tests_cant": "Histories.", "anchors": ["openamundsen/modules/canopy/canopy.py:CanopyModel.snow"]}
{"id": "C36", "title": "Canopy meteorology modifications are bounded", "statement": "Below-canopy shortwave radiation and wind are at most the above-canopy values, humidity is in [0,100], canopy fraction in [0,1], the above-canopy values are preserved separately; the 24 h temperature buffer holds exactly the last day's values.", "quantifier": "all LAI, forcings, histories", "why_tests_cant": "Histories.", "anchors": ["openamundsen/modules/canopy/canopy.py:CanopyModel.meteorology", "openamundsen/modules/canopy/canopy.py:above_canopy_meteorology"]}
{"id": "C37", "title": "Evapotranspiration depletions stay within physical bounds", "statement": "Cumulative soil surface depletion stays in [0, total evaporable water] and root zone depletion in [0, total available water] for any history; the stress coefficient and evaporation reduction coefficient stay in [0,1].", "quantifier": "all histories of rain and reference ET", "why_tests_cant": "Histories.", "anchors": ["openamundsen/modules/evapotranspiration/evapotranspiration.py:EvapotranspirationModel._dual_coeff_crop_et", "openamundsen/modules/evapotranspiration/evapotranspiration.py:EvapotranspirationModel._root_zone_water_balance", "openamundsen/modules/evapotranspiration/evapotranspiration.py:EvapotranspirationModel._water_stress_coefficient"]}
{"id": "C38", "title": "Root zone water balance closes", "statement": "Rain equals actual evapotranspiration plus deep percolation minus the increase in depletion, unless the depletion is capped at total available water; percolation occurs only when the root zone is at field capacity.", "quantifier": "all states, rain, ET", "why_tests_cant": "All inputs.", "anchors": ["openamundsen/modules/evapotranspiration/evapotranspiration.py:EvapotranspirationModel._root_zone_water_balance"]}
{"id": "C39", "title": "Rain re-wets the evaporation layer", "statement": "With no evaporation, rain reduces the surface soil depletion by min(rain, depletion) (eqs. 77-79 of FAO-56), only the excess percolates.", "quantifier": "all states, rain amounts, histories", "why_tests_cant": "All inputs.", "anchors": ["openamundsen/modules/evapotranspiration/evapotranspiration.py:EvapotranspirationModel._dual_coeff_crop_et"]}
{"id": "C40", "title": "Sealed surface interception balance", "statement": "For sealed surfaces interception stays in [0, max], rain equals change in interception plus runoff, evaporation never exceeds interception.", "quantifier": "all histories", "why_tests_cant": "Histories.", "anchors": ["openamundsen/modules/evapotranspiration/evapotranspiration.py:EvapotranspirationModel._sealed_evaporation"]}
{"id": "C41", "title": "Crop coefficient curve", "statement": "For any list of growth cycles (stage lengths >= 0) and any day, the crop coefficient lies between the smallest and largest of the given coefficients, equals the minimum outside the growing period, is constant in the initial and mid stages and linear in between; zero-length stages never cause a division by zero.", "quantifier": "all stage length lists, all days", "why_tests_cant": "Unbounded lists.", "anchors": ["openamundsen/modules/evapotranspiration/evapotranspiration.py:crop_coefficient", "openamundsen/landcover.py:LandCover.growing_period_day"]}
{"id": "C42", "title": "Leaf area index for all configured classes", "statement": "For every land cover class with LAI parameters and any valid growth stage specification (single or several cycles), LAI is computed and lies in [min LAI, max LAI].", "quantifier": "all classes, stage lists, days", "why_tests_cant": "All configurations.", "anchors": ["openamundsen/landcover.py:LandCover.lai", "openamundsen/landcover.py:LandCover.growth_stage_lengths"]}
{"id": "C43", "title": "Glacier geometry update conserves mass", "statement": "The delta-h redistribution assigns to the updated pixels of a glacier a total mass change equal to the glacier's total mass balance, thickness stays non-negative, lowering is largest at the terminus and zero-thickness pixels do not change.", "quantifier": "all glaciers (any number of pixels), elevations, balances", "why_tests_cant": "Unbounded number of pixels.", "anchors": ["openamundsen/modules/glacier/glaciermodel.py:_ice_mass_change", "openamundsen/modules/glacier/glaciermodel.py:_mass_loss_surplus_distribution", "openamundsen/modules/glacier/glaciermodel.py:GlacierModel._update_geometry"]}
{"id": "C44", "title": "Glacier update happens exactly once per mass balance year", "statement": "The geometry is updated only at the last time step of the month before the configured start month, and only after a start of a mass balance year has been recorded.", "quantifier": "all date sequences and start months", "why_tests_cant": "Histories.", "anchors": ["openamundsen/modules/glacier/glaciermodel.py:GlacierModel.update"]}
{"id": "C45", "title": "Sun vector is a unit vector", "statement": "For all latitudes, hour angles and declinations the sun vector has length 1, its third component is the cosine of the zenith angle, and the sun is over the horizon exactly if that component is positive; hour angle advances 15 degrees per hour.", "quantifier": "all angles", "why_tests_cant": "All reals.", "anchors": ["openamundsen/modules/radiation/sunparams.py:sun_vector", "openamundsen/modules/radiation/sunparams.py:sun_parameters", "openamundsen/modules/radiation/sunparams.py:hour_angle"]}
{"id": "C46", "title": "Shadow computation terminates and is independent of thread scheduling", "statement": "For every DEM, resolution and sun position not exactly at the zenith, every scan line leaves the grid after finitely many steps, and the illumination map is the same for every order and interleaving in which scan lines are processed in parallel; values are 0 or 1 and scan line origins are lit by their own line.", "quantifier": "all grids, sun positions, schedules", "why_tests_cant": "Schedules cannot be enumerated by tests.", "anchors": ["openamundsen/modules/radiation/shadows.py:shadows"]}
{"id": "C47", "title": "Openness computation is independent of thread scheduling", "statement": "The openness of a pixel is the minimum zenith angle over all distances, for every order and interleaving of the parallel loop over distances. It does not depend on the level from which elevations are measured.", "quantifier": "all DEMs, distances, schedules", "why_tests_cant": "Schedules.", "anchors": ["openamundsen/terrain.py:_openness_dir"]}
{"id": "C48", "title": "Parallel per-pixel kernels are independent of thread scheduling", "statement": "Kernels running in parallel over the region of interest give the same result for every order and interleaving of pixels, because each iteration reads and writes only its own pixel; pixels outside the region are unchanged.", "quantifier": "all grids, schedules", "why_tests_cant": "Schedules.", "anchors": ["openamundsen/modules/snow/multilayermodel.py:_melt", "openamundsen/modules/snow/multilayermodel.py:_sublimation", "openamundsen/modules/snow/multilayermodel.py:_runoff", "openamundsen/modules/snow/multilayermodel.py:_update_layers", "openamundsen/modules/snow/snow.py:prange", "openamundsen/modules/soil/soil.py:_soil_properties", "openamundsen/modules/soil/soil.py:_soil_heat_flux"]}
{"id": "C49", "title": "Actual shortwave is at most clear-sky shortwave", "statement": "For every cloud factor method and every fallback path incoming shortwave is between 0 and the clear-sky value, cloud factor and fraction are in [0,1] or missing; the fallback chain always ends in a method for which data are available or in the constant method.", "quantifier": "all station availabilities, day/night, configurations", "why_tests_cant": "All combinations over histories.", "anchors": ["openamundsen/modules/radiation/irradiance.py:shortwave_irradiance"]}
{"id": "C50", "title": "Optical air mass is limited", "statement": "The relative optical air mass used for the transmittances never exceeds the documented validity limit 14.1952.", "quantifier": "all zenith angles below 90 degrees", "why_tests_cant": "All reals.", "anchors": ["openamundsen/modules/radiation/clearsky.py:_clear_sky_shortwave_irradiance"]}
{"id": "C51", "title": "Incoming longwave radiation is non-negative and bounded", "statement": "Clear-sky emissivity lies in (0,1); incoming longwave radiation is non-negative and increasing in cloud fraction when cloud emissivity exceeds clear-sky emissivity.", "quantifier": "all temperatures, humidities, cloud fractions, sky view factors", "why_tests_cant": "All reals.", "anchors": ["openamundsen/modules/radiation/irradiance.py:longwave_irradiance", "openamundsen/meteo/atmosphere.py:clear_sky_emissivity"]}
{"id": "C52", "title": "Terrain normal vectors are unit vectors and slopes/aspects are in range", "statement": "Every normal vector has length 1 with positive vertical component; slope in [0,90), aspect in [0,360); flat terrain has slope 0.", "quantifier": "all DEMs", "why_tests_cant": "All grids.", "anchors": ["openamundsen/terrain.py:normal_vector", "openamundsen/terrain.py:slope_aspect"]}
{"id": "C53", "title": "Array shifting", "statement": "Shifting an array by n in a direction reads exactly the pixel n away, with edge (or original) values where there is none, for every shape; curvature vanishes on horizontal terrain and in the interior of planes.", "quantifier": "all arrays, directions, n", "why_tests_cant": "All shapes.", "anchors": ["openamundsen/terrain.py:_shift_arr", "openamundsen/terrain.py:_shift_arr_retain", "openamundsen/terrain.py:curvature"]}
{"id": "C54", "title": "Soil moisture partition and soil heat", "statement": "Frozen plus unfrozen moisture fractions equal total moisture over saturation, each in [0,1], unfrozen equals total above freezing threshold; heat capacity and conductivity are positive.", "quantifier": "all soil states", "why_tests_cant": "All reals.", "anchors": ["openamundsen/modules/soil/soil.py:_soil_properties", "openamundsen/modules/soil/soil.py:_soil_heat_flux"]}
{"id": "C55", "title": "State reset keeps retained variables and blanks all others", "statement": "Resetting the state leaves every retain variable unchanged and sets every other variable everywhere to the no-data value of its type; this never fails whatever variables are registered, and values needed in later time steps are never blanked.", "quantifier": "all registered variable sets", "why_tests_cant": "All registrations.", "anchors": ["openamundsen/statevars.py:StateVariableManager.reset", "openamundsen/statevars.py:StateVariableContainer.add_variable"]}
{"id": "C56", "title": "State variable addressing", "statement": "parse accepts exactly 'category.variable' names; adding a category twice or with an invalid identifier is rejected and leaves the state unchanged; a variable added once keeps its metadata.", "quantifier": "all strings", "why_tests_cant": "All strings.", "anchors": ["openamundsen/statevars.py:StateVariableManager.parse", "openamundsen/statevars.py:StateVariableManager.add_category"]}
{"id": "C57", "title": "Local masks map to global masks exactly", "statement": "global_mask sets exactly those grid pixels whose position in the enclosing mask is selected, nothing else, and rejects masks of the wrong length; composing masks is consistent.", "quantifier": "all grids and masks", "why_tests_cant": "All shapes.", "anchors": ["openamundsen/model.py:OpenAmundsen.global_mask"]}
{"id": "C58", "title": "Run protocol", "statement": "run() processes every date exactly once in order; a second run(), run() after run_single(), or run_single() after the last date raises an error and changes nothing else; run() is equivalent to calling run_single() once per date.", "quantifier": "all call sequences", "why_tests_cant": "Call histories.", "anchors": ["openamundsen/model.py:OpenAmundsen.run", "openamundsen/model.py:OpenAmundsen.run_single"]}
{"id": "C59", "title": "Thread count is always restored", "statement": "After every call of run_single(), successful or raising, the global number of threads is the same as before the call; during the step it is the configured one, which never exceeds the available threads.", "quantifier": "all configurations, call sequences, failures", "why_tests_cant": "Failure points.", "anchors": ["openamundsen/model.py:OpenAmundsen.run_single", "openamundsen/model.py:OpenAmundsen._resolve_numba_threads"]}
{"id": "C60", "title": "Time step calendar flags", "statement": "first/last-of-day/month/year flags are true exactly when the previous/next potential time step lies in another calendar day/month/year.", "quantifier": "all dates and time steps", "why_tests_cant": "All dates.", "anchors": ["openamundsen/model.py:OpenAmundsen.timestep_props"]}
{"id": "C61", "title": "Every time step is written exactly once to point output", "statement": "Over a full run, the written time series contain every model date exactly once, in order, with that time step's values, for every write frequency and time step.", "quantifier": "all date sequences and write frequencies", "why_tests_cant": "All schedules of write dates.", "anchors": ["openamundsen/fileio/pointoutput.py:PointOutputManager.update", "openamundsen/fileio/pointoutput.py:PointOutputManager._current_chunk_dates"]}
{"id": "C62", "title": "Aggregated gridded output equals the true aggregate", "statement": "For each write date the written field is the sum or mean of the values of all time steps since the previous write date (or the instantaneous value), and the accumulators restart afterwards.", "quantifier": "all value histories and write dates", "why_tests_cant": "Histories.", "anchors": ["openamundsen/fileio/griddedoutput.py:GriddedOutputManager.update"]}
{"id": "C63", "title": "ROI pixel output reconstructs the grid", "statement": "Converting ROI-pixel layout output to a grid returns the original values at ROI pixels and no-data elsewhere, for every grid and region of interest.", "quantifier": "all grids, ROIs, values", "why_tests_cant": "All shapes.", "anchors": ["openamundsen/util.py:convert_roi_pixel_dataset_to_grid", "openamundsen/fileio/griddedoutput.py"]}
{"id": "C64", "title": "Station selection rules", "statement": "A station is used iff it is explicitly included or it lies within the bounds and is not excluded; order and uniqueness are preserved.", "quantifier": "all station lists, include/exclude lists, bounds", "why_tests_cant": "All lists.", "anchors": ["openamundsen/fileio/meteo.py:_apply_station_rules"]}
{"id": "C65", "title": "Range filters", "statement": "Range filters turn exactly the out-of-range values of the named variable into missing values and never alter other values.", "quantifier": "all series and filter lists", "why_tests_cant": "All series.", "anchors": ["openamundsen/fileio/meteo.py:_apply_filters"]}
{"id": "C66", "title": "Array normalisation", "statement": "normalize_array maps to the requested range with minimum and maximum attained, for every non-constant array.", "quantifier": "all arrays and ranges", "why_tests_cant": "All arrays.", "anchors": ["openamundsen/util.py:normalize_array"]}
{"id": "C67", "title": "Land cover parameters: user settings override defaults class by class", "statement": "User-specified parameters of a land cover class override the defaults of that class parameter by parameter; other classes and parameters keep their defaults.", "quantifier": "all configurations", "why_tests_cant": "All maps.", "anchors": ["openamundsen/conf.py:_merge_land_cover_params"]}
{"id": "C68", "title": "Configuration validation", "statement": "validate_config accepts exactly the configurations satisfying the documented cross-field rules.", "quantifier": "all configurations", "why_tests_cant": "All combinations.", "anchors": ["openamundsen/conf.py:validate_config"]}
{"id": "C69", "title": "End date inference", "statement": "If the end date has no time part the run ends at the last time step of that day; otherwise exactly at the given time; the dates of the run are start + k*timestep up to the end.", "quantifier": "all dates, time steps", "why_tests_cant": "All dates.", "anchors": ["openamundsen/conf.py:_parse_end_date", "openamundsen/model.py:OpenAmundsen._prepare_time_steps"]}
{"id": "C70", "title": "Default logging never duplicates handlers", "statement": "However often and in whichever processes a model configures logging, there is at most one default handler, foreign handlers are never removed, and no default handler is installed when the host application has its own.", "quantifier": "all call sequences, handler lists", "why_tests_cant": "Histories.", "anchors": ["openamundsen/model.py:OpenAmundsen.configure_logger", "openamundsen/model.py:OpenAmundsen._ensure_logger_configured"]}
{"id": "C71", "title": "Snow base and soil see the same heat flux", "statement": "The conductive flux leaving the lowest snow layer in the snow heat conduction equals the flux entering the soil in the soil heat conduction, for any number of snow layers.", "quantifier": "all layer counts, conductivities, temperatures", "why_tests_cant": "All layer counts.", "anchors": ["openamundsen/modules/snow/multilayermodel.py:_heat_conduction", "openamundsen/modules/soil/soil.py:soil_temperature"]}
{"id": "C72", "title": "Humidity conversions are consistent", "statement": "Converting relative humidity to vapour pressure, to absolute humidity and back returns the same relative humidity; latent heat, moist-air heat capacity and psychrometric constant are positive over the meteorological range.", "quantifier": "all temperatures and humidities", "why_tests_cant": "All reals.", "anchors": ["openamundsen/meteo/atmosphere.py:absolute_humidity", "openamundsen/meteo/atmosphere.py:relative_humidity"]}
{"id": "C73", "title": "Logarithmic wind profile", "statement": "The profile returns the reference speed at the reference height and zero at the roughness length, converting to another height and back is the identity, and speed increases with height.", "quantifier": "all speeds, heights, roughness lengths", "why_tests_cant": "All reals.", "anchors": ["openamundsen/meteo/atmosphere.py:log_wind_profile"]}
{"id": "C74", "title": "Cryolayer water balance over a whole run", "statement": "Starting from any valid state, any sequence of time steps with any (also missing) forcing keeps every layer valid (absent, or with positive ice and thickness and density = mass/thickness), produces no missing thickness, and changes the water of the pixel by exactly snowfall + rain - sublimation - runoff.", "quantifier": "all configurations, all forcing sequences of any length", "why_tests_cant": "Histories of any length.", "anchors": ["openamundsen/modules/snow/cryolayermodel.py:CryoLayerSnowModel", "openamundsen/model.py:OpenAmundsen._model_interface", "openamundsen/surface.py:cryo_layer_energy_balance"]}
{"id": "C75", "title": "Cryolayer albedo", "statement": "The albedo of a pixel is that of its topmost layer; aging acts on the surface layer only (on both snow layers if a single albedo is configured), exposed firn and ice take their constants; over any run snow layer albedos stay within the configured bounds.", "quantifier": "all states, forcings and run lengths", "why_tests_cant": "Histories of any length.", "anchors": ["openamundsen/modules/snow/cryolayermodel.py:CryoLayerSnowModel.albedo_aging", "openamundsen/modules/snow/cryolayermodel.py:CryoLayerSnowModel.update_properties"]}
{"id": "C76", "title": "Cryolayer accumulation and compaction", "statement": "Snowfall adds exactly its mass to the new snow layer at the fresh snow density; without snowfall nothing changes. Compaction never changes the water of a layer nor makes a snow or firn layer thicker; firn densifies at the constant configured rate and ice has the configured density.", "quantifier": "all states, temperatures, time steps", "why_tests_cant": "All reals.", "anchors": ["openamundsen/modules/snow/cryolayermodel.py:CryoLayerSnowModel.accumulation", "openamundsen/modules/snow/cryolayermodel.py:CryoLayerSnowModel.add_snow", "openamundsen/modules/snow/cryolayermodel.py:CryoLayerSnowModel.compaction"]}
{"id": "C77", "title": "Surface layer and exchange properties", "statement": "Surface albedo and roughness are the arithmetic and geometric mean of snow and ground weighted by snow cover; the stability correction is 1 in neutral, below 1 in stable and above 1 in unstable conditions; exchange coefficients are positive; the surface layer's conductivity is that of snow and soil in series, its temperature interpolates between soil and snow, both continuously in snow depth.", "quantifier": "all snow covers, temperatures, wind speeds, heights", "why_tests_cant": "All reals.", "anchors": ["openamundsen/surface.py:surface_properties", "openamundsen/surface.py:surface_layer_properties", "openamundsen/surface.py:stability_factor", "openamundsen/surface.py:calc_turbulent_exchange_coefficient", "openamundsen/surface.py:calc_moisture_availability"]}
{"id": "C78", "title": "Resampling of station data conserves precipitation", "statement": "When station records are resampled to the (sub-daily) time step of the model, the rows are time steps of the model without gaps, each time step's precipitation is the sum of the records within it (missing if one of them is missing), and the total is conserved; gusts are maxima, other variables the record at that time or the mean of the available records. Complete records give every time step.", "quantifier": "all records, intervals, periods, aggregation settings", "why_tests_cant": "Any series length, any time step.", "anchors": ["openamundsen/fileio/meteo.py:_resample_dataset", "openamundsen/fileio/meteo.py:_slice_and_resample_dataset"]}
{"id": "C79", "title": "Terrain-dependent wind", "statement": "The Liston-Elder wind model multiplies each interpolated wind speed by 1 + slope weight * scaled slope in wind direction + curvature weight * curvature, the scaled slope being between -1/2 and 1/2 with both bounds attained; directions are between 0 and 360 degrees and are diverted by at most 1/4 degree; speeds are at least 0.1 m/s; wind is available wherever the interpolated wind is.", "quantifier": "all targets, terrains, winds, weights", "why_tests_cant": "Any number of targets, all reals.", "anchors": ["openamundsen/meteo/interpolation.py:_liston_wind_correction", "openamundsen/meteo/interpolation.py:interpolate_station_data"]}
{"id": "C80", "title": "Choice of the number of regression segments", "statement": "The piecewise elevation regression returned is a fit with at most the configured number of segments, each holding the required number of stations, whose information criterion is better by the threshold than that of every fit with fewer segments; the single-segment fit is used when more segments do not pay off and is never lost.", "quantifier": "all station sets and fit results", "why_tests_cant": "Any number of segments and stations.", "anchors": ["openamundsen/meteo/interpolation.py:_piecewise_linear_fit"]}
{"id": "C81", "title": "Reference evapotranspiration responds to energy and dryness", "statement": "Reference evapotranspiration is never negative, is proportional to the length of the time step, does not decrease with net radiation or with the vapour pressure deficit, is zero without either, and in saturated air its latent heat is at most the available energy.", "quantifier": "all temperatures, pressures, humidities, wind speeds, radiation values and time steps", "why_tests_cant": "the inputs are continuous and the formula has several regimes (day, night, negative radiation)", "anchors": ["openamundsen/modules/evapotranspiration/evapotranspiration.py:EvapotranspirationModel._reference_evapotranspiration", "openamundsen/modules/evapotranspiration/evapotranspiration.py:EvapotranspirationModel._reference_net_radiation"]}
{"id": "C82", "title": "Actual evapotranspiration is bounded and correctly partitioned", "statement": "Evapotranspiration is zero on snow-covered land, unaffected by snow and never stressed over water bodies, zero where the reference value is missing, equals evaporation plus transpiration, is at most the maximum crop coefficient times the reference value, and stops at the wilting point; climate correction and sparse vegetation adjustment keep the coefficients within their limits.", "quantifier": "all land cover parameters, soil states, snow states and weather", "why_tests_cant": "the combination of class types, snow and soil states is unbounded", "anchors": ["openamundsen/modules/evapotranspiration/evapotranspiration.py:EvapotranspirationModel.evapotranspiration", "openamundsen/modules/evapotranspiration/evapotranspiration.py:EvapotranspirationModel._dual_coeff_crop_et", "openamundsen/modules/evapotranspiration/evapotranspiration.py:climate_correction", "openamundsen/modules/evapotranspiration/evapotranspiration.py:sparse_vegetation_adjustment"]}
{"id": "C83", "title": "Coarser resolution of shadows and terrain factors", "statement": "With downsampling, shadows and terrain factors computed on the coarse grid are transferred such that every pixel takes the value of the coarse pixel it lies in; the result has exactly the size of the grid for every grid size and factor, and with an extended grid every pixel takes the value at its own position.", "quantifier": "all grid sizes, downsampling factors and offsets of the extended grid", "why_tests_cant": "the sizes that do not divide evenly are unbounded in number", "anchors": ["openamundsen/modules/radiation/shadows.py:shadows", "openamundsen/modules/radiation/irradiance.py:clear_sky_shortwave_irradiance"]}
{"id": "C84", "title": "Sky view factor", "statement": "The sky view factor of every pixel is the mean, over all azimuths scanned, of the squared cosine of the elevation angle at which the pixel first comes into the sun; it lies between 0 and 1, does not depend on other pixels except through the illumination, decreases when more of the sky is hidden, and for a completely open sky equals the squared cosine of the smallest scanned elevation.", "quantifier": "all grids, illumination functions, azimuth and elevation ranges and steps", "why_tests_cant": "Any number of directions, elevations and pixels.", "anchors": ["openamundsen/terrain.py:sky_view_factor"]}
{"id": "C85", "title": "Clear-sky irradiance", "statement": "Without sun there is no clear-sky irradiance; with sun the direct part is non-negative, zero in shadow and on slopes facing away from the sun, and at most 97.51 % of the radiation at the top of the atmosphere, which stays within 4 % of the solar constant all year; a slope facing the sun receives the full beam; the diffuse part is non-negative for transmittances between 0 and 1; vapour, gas, ozone and Rayleigh transmittances never exceed 1; the mean albedo falls back to that of the soil when missing.", "quantifier": "all sun positions, terrains, pressures, water contents and configurations", "why_tests_cant": "All real inputs, any number of pixels.", "anchors": ["openamundsen/modules/radiation/clearsky.py:_clear_sky_shortwave_irradiance", "openamundsen/modules/radiation/clearsky.py:_transmittances", "openamundsen/modules/radiation/irradiance.py:clear_sky_shortwave_irradiance"]}
{"id": "C86", "title": "Water of the whole grid over any run", "statement": "Over any run and for every pixel, precipitation (after redistribution) plus the initial canopy load and snow equals the final canopy load and snow plus runoff, sublimation from the canopy and from the snow, and the mass of snow remnants too thin to be kept. The same holds for the sums over all pixels of the region, and for both snow models.", "quantifier": "all grids, numbers of time steps, configurations of phase partitioning, redistribution, canopy and snow model, all non-negative precipitation and any other forcing; forest pixels must not lose leaf area (see C35) and the run must be free of NaN (see C02, C04)", "why_tests_cant": "the balance involves four modules and every history; a test sees a few runs and a rounding tolerance", "anchors": ["openamundsen/model.py:OpenAmundsen._model_interface", "openamundsen/model.py:OpenAmundsen._process_meteo_data", "openamundsen/modules/canopy/canopy.py:CanopyModel.snow", "openamundsen/modules/snow/multilayermodel.py:MultilayerSnowModel", "openamundsen/modules/snow/cryolayermodel.py:CryoLayerSnowModel"]}
{"id": "C87", "title": "Grid coordinates, pixels and stations agree", "statement": "The model grid has exactly the size and position of the DEM file and is rejected unless it is north-up with square pixels of the configured resolution. Every pixel centre lies half a pixel inside its pixel; a station is assigned to the pixel whose area contains it and is within the grid exactly if some pixel contains it; the centre of a pixel is assigned to that pixel. Selecting stations by the grid bounds selects the stations which lie within the grid.", "quantifier": "all grid sizes, positions and resolutions, all station coordinates including pixel and grid edges", "why_tests_cant": "edges and corners of pixels have measure zero: tests with a few coordinates do not meet them, and the relation has to hold for every grid", "anchors": ["openamundsen/model.py:OpenAmundsen._initialize_grid", "openamundsen/util.py:ModelGrid.prepare_coordinates", "openamundsen/forcing.py:prepare_point_coordinates", "openamundsen/fileio/meteo.py:_apply_station_rules", "openamundsen/fileio/raster.py:read_raster_metadata"]}
{"id": "C88", "title": "The region of interest and its pixel lists", "statement": "The list of all points and the list of region points follow the raster order, the flat indices and row/column pairs of the region refer to the same pixels, and the region consists of the pixels with an elevation which are marked in the region file (all of them without a file). Extending the region by stations adds exactly the pixels containing stations inside the grid; every pixel of the region has an elevation.", "quantifier": "all grids, regions, region files and station positions", "why_tests_cant": "index bookkeeping has to hold for every mask; a test fixes a mask", "anchors": ["openamundsen/util.py:ModelGrid.prepare_coordinates", "openamundsen/util.py:ModelGrid.prepare_roi_coordinates", "openamundsen/model.py:OpenAmundsen._read_meteo_data", "openamundsen/model.py:OpenAmundsen._read_input_data", "openamundsen/forcing.py:prepare_point_coordinates"]}
{"id": "C89", "title": "Extended terrain files fit to the model grid", "statement": "An extended DEM is accepted exactly if it has the resolution of the grid and contains the grid at a whole number of pixels from its upper left corner; then each model pixel takes elevation and sky view factor from the pixel of the extended grid at the same place. A sky view factor file for the extended grid is accepted only if it describes the same area.", "quantifier": "all sizes and positions of grid and extended grid", "why_tests_cant": "offsets and containment have to be right for every pair of grids", "anchors": ["openamundsen/model.py:OpenAmundsen._read_extended_grids", "openamundsen/fileio/raster.py:read_raster_metadata"]}
{"id": "C90", "title": "Input rasters are used only if they match the grid", "statement": "A raster file is accepted exactly if its size, position and resolution are those of the model grid; then every pixel gets the value of the file and missing cells the given fill value. Model inputs are the values of the files for every pixel; a required file which is missing or does not match stops the run.", "quantifier": "all rasters, grids and combinations of required and available files", "why_tests_cant": "combinations of files and configuration options are many, and every pixel counts", "anchors": ["openamundsen/fileio/raster.py:read_raster_file", "openamundsen/fileio/raster.py:read_raster_metadata", "openamundsen/model.py:OpenAmundsen._read_input_data"]}
{"id": "C91", "title": "Datasets of single stations keep the data and check units", "statement": "make_point_dataset succeeds exactly if ID and position are available as arguments or in the data and all known variables have the expected or convertible units. The result has the times of the data, the arguments take precedence over the data, the name falls back to the ID, known variables keep their values (precipitation rates become amounts with the time step of the data, cloud cover as a fraction becomes percent), others are dropped.", "quantifier": "all data sets, variables, units, values including missing ones and combinations of arguments", "why_tests_cant": "all combinations of available metadata and units and any values have to be treated right", "anchors": ["openamundsen/forcing.py:make_point_dataset", "openamundsen/forcing.py:make_empty_point_dataset", "openamundsen/fileio/meteo.py:read_netcdf_meteo_file"]}
{"id": "C92", "title": "Combining stations neither loses nor invents records", "statement": "The combined dataset has a strictly increasing time axis with exactly the times at which some station has a record, the stations in the given order, the known variables occurring in some station (and the minimum ones, if requested), and at each variable, station and time exactly the value of the record of that station, missing otherwise.", "quantifier": "all numbers of stations, time axes, variables and values", "why_tests_cant": "an outer join over arbitrary, overlapping or disjoint time axes", "anchors": ["openamundsen/forcing.py:combine_point_datasets"]}
{"id": "C93", "title": "Reading meteorological data covers the simulation period", "statement": "With checks for missing data, reading succeeds exactly if all stations can be processed and their records reach from the start to the end of the period; without checks it succeeds whenever the stations can be processed, and gives all time steps of the period. Every variable of a station is the resampled series of the values left over by the filters, aligned with the times of the station; every time step of the period is available. A dataset passed by the user is accepted exactly if it has the right dimensions, variables and times.", "quantifier": "all lists of stations, time axes, filters, periods and time steps", "why_tests_cant": "gaps between stations and unaligned times are rarely in test data", "anchors": ["openamundsen/fileio/meteo.py:read_meteo_data", "openamundsen/fileio/meteo.py:_apply_filters", "openamundsen/fileio/meteo.py:_slice_and_resample_dataset", "openamundsen/forcing.py:is_valid_point_dataset"]}
{"id": "C94", "title": "Aggregated wind directions are vector means", "statement": "When records are averaged to longer time steps, the wind direction is that of the sum of the wind vectors of the records with both speed and direction, in [0, 360) degrees; equal directions are preserved; it is missing if no record has both or if wind speeds are not available, and calm time steps have no direction.", "quantifier": "all numbers of records, speeds, directions and missing values, all time steps", "why_tests_cant": "circular averages across north and cancelling vectors need all inputs", "anchors": ["openamundsen/fileio/meteo.py:_aggregate_wind_dir", "openamundsen/fileio/meteo.py:_resample_dataset", "openamundsen/meteo/atmosphere.py:wind_to_uv", "openamundsen/meteo/atmosphere.py:wind_from_uv"]}
{"id": "C95", "title": "Point outputs contain what was configured", "statement": "The variables of the point output are the default ones (if requested) followed by the configured ones, each with its own output name; a variable which is unknown, has no such name or whose name is taken twice is rejected. The points are the stations inside the region and the points of the configuration, with unique names; points outside the grid or with a name already used are rejected. The value in every output is that of the pixel (and layer) of the point; variables with layers get one coordinate per category. CSV files have one column per variable and layer and no column is lost if names are not ambiguous.", "quantifier": "all configurations, sets of stations and points, variables, numbers of layers and pixels", "why_tests_cant": "combinations of variables, names, layers and points are unlimited; collisions are rare in tests", "anchors": ["openamundsen/fileio/pointoutput.py:PointOutputManager.__init__", "openamundsen/fileio/pointoutput.py:PointOutputManager._create_dataset", "openamundsen/fileio/pointoutput.py:PointOutputManager.update"]}
{"id": "C96", "title": "Gridded outputs and raster files contain what was configured", "statement": "Every configured field with at least one write date in the run becomes one output under its own name, name clashes and pixel lists in raster formats are rejected. Fields share a time variable exactly if they have the same dates and are all instantaneous or all aggregated; bounds exist exactly for aggregated fields. The dimensions of each variable match the coordinates. Integer variables remain integers unless averaged. In raster formats there is at the end of the run exactly one file for every field, layer and date, holding these data, under a name with readable dates.", "quantifier": "all configurations, fields, dates, layers, time steps and runs of any length", "why_tests_cant": "file name collisions and grouping of dates depend on arbitrary configurations and whole runs", "anchors": ["openamundsen/fileio/griddedoutput.py:GriddedOutputManager.__init__", "openamundsen/fileio/griddedoutput.py:GriddedOutputManager.update", "openamundsen/fileio/griddedoutput.py:GriddedOutputManager._create_dataset", "openamundsen/fileio/griddedoutput.py:_field_key", "openamundsen/fileio/griddedoutput.py:GriddedOutputManager._field_dtype_and_fill_value"]}
{"id": "C97", "title": "Soil from initialisation over any run", "statement": "From a configuration with sensible sand and clay fractions, layers, moisture content and temperature, initialisation gives a soil whose properties lie between those of its constituents. In every later time step, layers, pore volumes and moisture contents are unchanged, and the heat gained by the soil column equals the heat supplied from above minus the heat lost through its lower end; in a run this holds for the totals. A soil which gains heat never cools below its coldest layer, and a soil of uniform temperature without heat supply does not change.", "quantifier": "all configurations, numbers of layers, snow covers, heat fluxes and numbers of time steps", "why_tests_cant": "conservation over a run of any length, with properties that change with temperature", "anchors": ["openamundsen/modules/soil/init.py:initialize", "openamundsen/modules/soil/soil.py:soil_properties", "openamundsen/modules/soil/soil.py:soil_heat_flux", "openamundsen/modules/soil/soil.py:soil_temperature"]}
{"id": "C98", "title": "Derived meteorological fields are consistent", "statement": "From temperature, humidity and elevation of a pixel, all derived fields (pressure, vapour pressures, specific humidity, heat capacity, latent heat, psychrometric constant, wet-bulb and dew point temperature, precipitable water, density) are available, positive and satisfy their defining relations with each other for all conditions met on Earth; in saturated air wet-bulb and dew point temperature equal the air temperature. Exactly the fields depending on a missing input are missing, and no field other than precipitation depends on other pixels. Snowfall and rainfall are parts of the precipitation by the temperature of the configured method and add up to the (redistributed) precipitation.", "quantifier": "all pixels, temperatures, humidities, elevations, missing values, configurations and numbers of pixels", "why_tests_cant": "a chain of eleven formulas with missing values, over unbounded grids", "anchors": ["openamundsen/model.py:OpenAmundsen._process_meteo_data", "openamundsen/meteo/atmosphere.py:wet_bulb_temperature", "openamundsen/meteo/atmosphere.py:precipitation_phase"]}
{"id": "C99", "title": "The energy balance of the whole grid treats every pixel on its own", "statement": "One time step of the multilayer energy balance gives every pixel of the region the result of its own balance: a first solution, with all ice melted if the surface would become warmer than the melting point, or a partial melt if it then would be colder; other pixels, their number and order and which of them melt make no difference, and pixels outside of the region keep all their values. Where all inputs are available, temperature, fluxes and melt are those of the balance of a single pixel (C22). Where an input is missing, the surface temperature stays as it is and nothing melts.", "quantifier": "all grids, regions, pixel states, missing values and time steps", "why_tests_cant": "the masked array program combines three nested selections of pixels; errors show up only for particular combinations of pixels in different states", "anchors": ["openamundsen/surface.py:multilayer_energy_balance", "openamundsen/surface.py:solve_energy_balance", "openamundsen/surface.py:calc_turbulent_fluxes", "openamundsen/model.py:OpenAmundsen.roi_mask_to_global"]}
{"id": "C100", "title": "The energy balance of the cryo layers treats every pixel on its own", "statement": "One time step of the cryo-layer energy balance never assigns arrays of different sizes and gives every pixel of the region the result of its own balance: melt from the uppermost layer down, refreezing and cold content, and the surface temperature found by the iteration, in which the pixels which have converged drop out one after the other; pixels outside of the region keep all values. The secant iteration ends exactly if it does for every freezing pixel. Where all inputs are available, layers, melt and refreezing are those of the balance of a single pixel (C12), snow-free surfaces have the air temperature, melting snow the melting point, freezing snow the temperature found by the iteration of a single pixel (C23), and all fluxes are those at this temperature. Where an input is missing, nothing melts or refreezes, and a surface in cold air stays below the melting point. The result does not depend on the other pixels.", "quantifier": "all grids, regions, pixel states, missing values, time steps and numbers of iterations", "why_tests_cant": "the masked array program shrinks five arrays in step with a mask of the grid while pixels converge at different iterations; errors show up only for particular combinations of pixels", "anchors": ["openamundsen/surface.py:cryo_layer_energy_balance", "openamundsen/surface.py:iterate_surface_temperature", "openamundsen/surface.py:energy_balance_remainder", "openamundsen/model.py:OpenAmundsen.roi_mask_to_global"]}
{"id": "C101", "title": "The wet-bulb temperature iteration always ends near the wet-bulb point", "statement": "For every air temperature between -93 and 50 degC, every relative humidity from 0 to 100 % and every elevation between -500 and 9000 m the iteration for the wet-bulb temperature ends, within 800 steps and without a division by zero, at a value within 0.56 K of the one temperature at which the psychrometer equation changes its sign, which lies between the air temperature and 50 K below it. On a field all pixels get the values they would get on their own, missing values stay missing, and so the preparation of the meteorological fields of a time step never hangs, whatever the pattern of values and missing values.", "quantifier": "all temperatures, humidities, elevations in the ranges stated, all fields, all patterns of missing values", "why_tests_cant": "the loop has no limit on the number of iterations: a single combination of inputs for which the secant steps do not shrink would hang a simulation, and the saturation pressure has a jump and a kink at 0 degC", "anchors": ["openamundsen/meteo/atmosphere.py:wet_bulb_temperature", "openamundsen/meteo/atmosphere.py:_water_vapor_pressure_difference", "openamundsen/model.py:OpenAmundsen._process_meteo_data"]}
{"id": "C102", "title": "Evapotranspiration of the whole grid follows the balance of each pixel", "statement": "The initialization gives every pixel of the region the parameters of its land cover class and soil texture and raises only if a pixel of the region has an unknown soil texture; after that no time step raises. In every time step a pixel of a class follows the rules for one pixel: reference evapotranspiration, crop coefficient and plant height of its class on that day, water balance of surface layer and root zone, or interception on sealed surfaces; snow-covered pixels and water bodies as stated for these. Pixels outside of the region keep all values; pixels of classes without parameters get reference values only. The order of the classes makes no difference. Over a run of any length, whatever the weather and the contents of variables that are reset between time steps, depletions stay within their limits.", "quantifier": "all grids, regions, class and texture maps, class parameters, traversal orders, missing values, weather histories and numbers of time steps", "why_tests_cant": "the array program combines masks of region, class, snow, rain and dry surface layers; errors show up only for particular combinations of pixels, and only after many time steps", "anchors": ["openamundsen/modules/evapotranspiration/evapotranspiration.py:EvapotranspirationModel.initialize", "openamundsen/modules/evapotranspiration/evapotranspiration.py:EvapotranspirationModel.evapotranspiration", "openamundsen/modules/evapotranspiration/evapotranspiration.py:EvapotranspirationModel._dual_coeff_crop_et", "openamundsen/model.py:OpenAmundsen.global_mask"]}
{"id": "C103", "title": "Land cover classes, leaf area index and forest pixels of the whole grid", "statement": "From the land cover map exactly the positive classes occurring in the region of interest and having parameters are used, each with exactly its pixels of the region; a warning is logged exactly once for each class without parameters and for each incomplete leaf area index. The canopy model works on exactly the pixels of the region with a forest class, and only these start with an empty canopy. In every time step all pixels of a class with a leaf area index get the value of their class for that day of the year (between minimum and maximum, minimum outside the season, maximum in mid-season) and the effective index increased by the configured amount, whatever the state was before; no other pixel changes. The step fails only for classes in use without growth stages, planting date or with several cycles. Every forest pixel has a leaf area index.", "quantifier": "all grids, regions, land cover maps, class parameters, days and earlier states", "why_tests_cant": "masks of classes and region, parameters that may be left out and classes that may be unknown combine without bound", "anchors": ["openamundsen/landcover.py:LandCover.initialize", "openamundsen/landcover.py:LandCover.lai", "openamundsen/modules/canopy/canopy.py:CanopyModel.initialize", "openamundsen/modules/canopy/canopy.py:CanopyModel.meteorology"]}
{"id": "C104", "title": "Settings given as text", "statement": "A frequency of n days is passed on as 24 n hours for every integer n (with sign, blanks and underscores as Python reads them), no number means one day, and a day has 86400 seconds; the older aliases H, M and Y become h, ME and YE with the same number in front, every other text is passed on unchanged, and a second pass changes nothing. Deprecated names of settings disappear, their values are found under the current names and all other settings are kept. Raster files of one directory have the same name only for the same kind, domain and resolution. The sun of a time step depends on the instant, not on the time zone in which the simulation dates are given. (Weekly frequencies anchored on Wednesday are refused as W-WED ends with D; a deprecated setting silently overwrites the current one, except for the cloudiness method.)", "quantifier": "all texts, integers, configuration dictionaries, file names, dates and time zones", "why_tests_cant": "texts and dictionaries are unbounded; the frequencies of the output and of the time step go through the same function", "anchors": ["openamundsen/util.py:to_offset", "openamundsen/util.py:offset_to_timedelta", "openamundsen/util.py:raster_filename", "openamundsen/conf.py:ConfigurationValidator", "openamundsen/model.py:OpenAmundsen._irradiance"]}
{"id": "C105", "title": "Runs in the same directory read the same inputs", "statement": "A second run with the same files either stops with the same error as the first one or reads exactly the same grids, except that a sky view factor the first run had to compute is then read from the file written by it, that is rounded to three decimals (difference at most 0.0005, missing pixels stay missing). From the second run on all runs read exactly the same, whatever the settings of the computation of the sky view factor are. Reading changes no existing file and creates no file except a missing sky view factor of the grid. (So the first run is not reproduced exactly by the second, and the stored factor is used without a warning after the DEM was replaced.)", "quantifier": "all sets of raster files, configurations and numbers of runs", "why_tests_cant": "the effect of files left behind by earlier runs depends on the history of the directory, for every combination of files", "anchors": ["openamundsen/model.py:OpenAmundsen._read_input_data", "openamundsen/model.py:OpenAmundsen._read_extended_grids", "openamundsen/fileio/raster.py:write_raster_file", "openamundsen/fileio/raster.py:read_raster_file"]}
{"id": "C106", "title": "Processes of a time step: selection, order and number", "statement": "In every configuration a time step consists of exactly the processes this configuration asks for, in the documented order: new date, reset, meteorological fields (interpolated, or set by the callback), derived fields, irradiance, leaf area index, air above and below the canopy, canopy snow, compaction of the old snow before the new snow falls, albedo, snow management, properties of snow, soil and surface, one of the two melt methods, heat conduction, melt, sublimation, runoff, properties again, layers, soil, evapotranspiration, glaciers, and the outputs at the end. In a run of any length every such process has run once per time step (the snow properties twice) and every preparation once; a process never runs before its component was created and initialised, in this order, and before the inputs it uses are read.", "quantifier": "all configurations (snow model, melt method, canopy, evapotranspiration, glaciers, snow management, input format, reset, live view, corrections) and numbers of time steps", "why_tests_cant": "the switches combine to thousands of configurations; tests run a few of them, and a missing initialisation shows up only in the one that leaves it out", "anchors": ["openamundsen/model.py:OpenAmundsen.initialize", "openamundsen/model.py:OpenAmundsen.run_single", "openamundsen/model.py:OpenAmundsen._model_interface", "openamundsen/model.py:OpenAmundsen._initialize_state_variables", "openamundsen/model.py:OpenAmundsen._read_input_data"]}
{"id": "C107", "title": "Humidity and density of the air belong to its temperature, above and below the canopy", "statement": "After a time step vapour pressure, saturation vapour pressure, specific humidity and density of every pixel belong to the temperature and relative humidity above the canopy, and outside of forests, without the canopy model and in forests too sparse to have an effect also to temperature and relative humidity at the ground. (In all other forests they do not belong to the air at the ground: the canopy model changes temperature and relative humidity there, the derived fields are not computed again. With air at the freezing point the vapour pressure the energy balance uses is lower than that of the air below the canopy.)", "quantifier": "all terrestrial temperatures, humidities and elevations, all leaf area indices, temperature histories of the last day and configurations", "why_tests_cant": "the fields are written by different modules within a time step; tests look at the modules one by one", "anchors": ["openamundsen/model.py:OpenAmundsen._process_meteo_data", "openamundsen/model.py:OpenAmundsen._model_interface", "openamundsen/modules/canopy/canopy.py:CanopyModel.meteorology", "openamundsen/modules/canopy/canopy.py:above_canopy_meteorology"]}
{"id": "C108", "title": "Evaporation of sealed surfaces follows the Penman-Monteith equation", "statement": "The potential evaporation of a dry sealed surface is that of the Penman-Monteith equation without surface resistance, cut off at zero, with the aerodynamic resistance of the logarithmic wind profile and the density of the air by the gas law. (It is not: the pressure is multiplied by the virtual temperature instead of divided by it, the density is too large by the square of the virtual temperature, and so is the part of the evaporation driven by the vapour pressure deficit.)", "quantifier": "all terrestrial temperatures, pressures, vapour pressures, wind speeds, radiation and time steps", "why_tests_cant": "the evaporation is limited by the water stored on the surface, so that the error looks like a fast drying surface in any test", "anchors": ["openamundsen/modules/evapotranspiration/evapotranspiration.py:EvapotranspirationModel._sealed_evaporation"]}
{"id": "C109", "title": "Sublimation of snow in the canopy follows the equations for ice spheres", "statement": "The mass loss rate of intercepted snow is that of an ice sphere with conduction of heat and diffusion of vapour in series, radiation absorbed on the sphere, ventilation by the wind within limits, and the density of saturated vapour at the temperature of the air. (It is not: a factor 0.622 that belongs to the gas constant of dry air is used together with that of water vapour. The density is 62.2 % of that of saturated vapour, and the rate is too small whenever there is any sublimation, by a factor between 0.622 and 1.)", "quantifier": "all temperatures, humidities, radiation, wind speeds, vapour pressures and canopy parameters", "why_tests_cant": "the error only scales a rate that is not measured; any single number looks plausible", "anchors": ["openamundsen/modules/canopy/canopy.py:CanopyModel.snow", "openamundsen/meteo/atmosphere.py:absolute_humidity"]}
{"id": "C110", "title": "The meteorological fields are those of the stations reporting each variable", "statement": "In every time step, each pixel of the region of interest gets the temperature, precipitation, humidity and wind interpolated from exactly those stations that report the variable at that time (humidity: also temperature; wind after Liston: speed and direction), whatever the stations report for other variables; humidity uses the temperature of the same pixel and time step. Pixels outside keep their values. At the pixel of a station its measurements come out. A field is missing exactly if no station reports the variable, precipitation is then zero. The order in which the stations are read does not matter. The gust speed is not below the wind speed. (It can be: gusts are interpolated from other stations than the speed. And humidity is missing everywhere if the stations measuring it do not measure temperature. And of two stations at the same place the one read first decides the pixel there.)", "quantifier": "all station data with any pattern of missing values, positions, grids, regions of interest, previous fields and interpolation settings", "why_tests_cant": "the pattern of missing values differs from variable to variable and from time step to time step; tests use complete data", "anchors": ["openamundsen/meteo/interpolation.py:interpolate_station_data", "openamundsen/meteo/interpolation.py:_param_station_data", "openamundsen/meteo/interpolation.py:_liston_wind_correction"]}
{"id": "C111", "title": "Clear-sky irradiance at stations outside the model grid", "statement": "With an extended grid, a clear-sky irradiance is computed for exactly those stations that lie in the extended grid but not in the model grid and report temperature and humidity. It is that of the pixel of the extended grid the station stands on, with the pressure of its elevation, the weather of the station and the mean albedo of the region of interest, the same as for a model pixel with these surroundings, and does not depend on the other stations. (It does: the sunlit share and the mean incidence used for the light reflected by slopes are taken over the stations that report. A station in the shade that starts to report lowers the irradiance, and so raises the cloud factor, of a sunlit one.)", "quantifier": "all stations, extended grids, terrain, sun positions, albedos and reports", "why_tests_cant": "the error is in the small part of light reflected from slopes and vanishes with one station or an open sky", "anchors": ["openamundsen/modules/radiation/irradiance.py:extended_grid_stations_clear_sky_shortwave_irradiance", "openamundsen/modules/radiation/clearsky.py:_clear_sky_shortwave_irradiance"]}
