(** Model of modules/radiation/clearsky.py and irradiance.py. Real arithmetic; None is NaN. x ** y is Rpower for the
    positive bases that occur. *)
From Verif Require Import Common Constants AtmosphereModel InterpModel.
Open Scope R_scope.

(** * Clear-sky shortwave irradiance (clearsky.py) *)
(** 90-96 *)
Definition eccentricity (da : R) : R :=
  1.000110 + 0.034221 * cos da + 0.001280 * sin da + 0.000719 * cos (2 * da) + 0.000077 * sin (2 * da).
(** 101-106; normal vectors have the second component towards the north, the sun vector towards the south *)
Definition incidence (sun normal : R * R * R) : R :=
  let '(sx, sy, sz) := sun in let '(nx, ny, nz) := normal in
  Rmax (sx * nx + sy * (- ny) + sz * nz) 0.
(** 109-111; .clip(max=14.1952) applies to the sum, not to its inverse *)
Definition air_mass (zenith : R) : R :=
  1 / Rmin (cos zenith + 0.15 * Rpower (93.885 - rad2deg zenith) (-1.253)) 14.1952.
(** 114, 257 *)
Definition press_corr (m press : R) : R := m * press / STANDARD_ATMOSPHERE.
(** 199-307 _transmittances; mp: pressure-corrected air mass *)
Definition trans_rayleigh (mp : R) : R := exp (- 0.0903 * Rpower mp 0.84) * (1 + mp - Rpower mp 1.01).
Definition trans_ozone (ozone m : R) : R :=
  let lm := ozone * 100 * m in
  1 - (0.1611 * lm * Rpower (1 + 139.48 * lm) (-0.3035) - 0.002715 * lm * 1 / (1 + 0.044 * lm + 0.0003 * lm ^ 2)).
Definition trans_gases (mp : R) : R := exp (- 0.0127 * Rpower mp 0.26).
Definition trans_vapor (pw m : R) : R :=
  let wm := pw / 10 * m in 1 - 2.4959 * wm * 1 / (Rpower (1 + 79.034 * wm) 0.6828 + 6.385 * wm).
Definition aerosol_base (vis : R) : R := 0.97 - 1.265 * Rpower (vis / 1000) (-0.66).
Definition trans_aerosols (vis mp : R) : R := Rpower (aerosol_base vis) (Rpower mp 0.9).
Definition elev_corr (elev : R) : R := 0.000022 * Rmin elev 3000.
Definition trans_aerosol_abs (ssa mp ta : R) : R := 1 - (1 - ssa) * (1 - mp + Rpower mp 1.06) * (1 - ta).
(** 156 (as in the code: a product where Corripio has a sum) *)
Definition scattering_ratio (zenith : R) : R := - 0.2562 * zenith ^ 2 * 0.1409 * zenith + 0.9067.

Record cs_config := CC { cc_ozone : R; cc_visibility : R; cc_ssa : R; cc_albedo : R }.
(** A pixel with all its values: normal vector, illumination (0 or 1), elevation, sky view factor, pressure, precipitable water *)
Record cs_pixel := CP { cp_normal : R * R * R; cp_shadow : R; cp_elev : R; cp_svf : R; cp_press : R; cp_pw : R }.
(** 183-188: the means over the region of interest; roi: its pixels as incidence and illumination *)
Definition sun_frac (roi : list (R * R)) : R := sumR (map snd roi) / INR (length roi).
Definition lit_aois (roi : list (R * R)) : list R := map fst (filter (fun p => if Req_EM_T (snd p) 1 then true else false) roi).
Definition mean_sun_aoi (roi : list (R * R)) : R :=
  match lit_aois roi with [] => 0 | l => sumR l / INR (length l) end.
(** 6-196 for one pixel: direct and diffuse irradiance *)
Definition clear_sky (c : cs_config) (da : R) (sun : R * R * R) (ground_albedo : R) (roi : list (R * R)) (p : cs_pixel) : R * R :=
  let zenith := acos (snd sun) in
  let aoi := incidence sun (cp_normal p) in
  let m := air_mass zenith in
  let mp := press_corr m (cp_press p) in
  let tr := trans_rayleigh mp in
  let toz := trans_ozone (cc_ozone c) m in
  let tg := trans_gases mp in
  let tv := trans_vapor (cp_pw p) m in
  let ta := trans_aerosols (cc_visibility c) mp in
  let taa := trans_aerosol_abs (cc_ssa c) mp ta in
  let trans_dir := clip 0 1 (tr * toz * tg * tv * ta + elev_corr (cp_elev p)) in
  let toa := SOLAR_CONSTANT * eccentricity da in
  let pot := toa * aoi * cp_shadow p in
  let dir := 0.9751 * pot * trans_dir in
  let k := 1 - mp + Rpower mp 1.02 in
  let rayleigh := 0.79 * toa * cos zenith * toz * tg * tv * taa * 0.5 * (1 - tr) / k in
  let sr := scattering_ratio zenith in
  let tar := ta / taa in
  let aerosols := 0.79 * toa * cos zenith * toz * tg * tv * taa * sr * (1 - tar) / k in
  let atm_albedo := cc_albedo c + (1 - sr) * (1 - tar) in
  let reflected := (dir * cos zenith + rayleigh + aerosols) * ground_albedo * atm_albedo / (1 - ground_albedo * atm_albedo) in
  let diff := rayleigh + aerosols + reflected in
  let terrain := (1 - cp_svf p) * (pot * trans_dir * sun_frac roi * mean_sun_aoi roi + diff) * ground_albedo in
  (dir, diff * cp_svf p + terrain).
(** irradiance.py:18-89 for one pixel: potential total, direct and diffuse irradiance; nothing at night *)
Definition clear_sky_irradiance (c : cs_config) (da : R) (sun : R * R * R) (over_horizon : bool) (ground_albedo : R) (roi : list (R * R)) (p : cs_pixel)
  : R * R * R :=
  let '(dir, diff) := if over_horizon then clear_sky c da sun ground_albedo roi p else (0, 0) in
  (dir + diff, dir, diff).
(** 22-26: the mean surface albedo of the region of interest, or that of the soil if any is missing *)
Definition mean_albedo (albedos : list num) (soil_albedo : R) : R :=
  match fold_right numplus (Some 0) albedos with
  | Some s => s / INR (length albedos)
  | None => soil_albedo end.

(** * Actual shortwave irradiance (irradiance.py:160-283) *)
Inductive cloud_method := Prescribed | ClearSkyFraction | Humidity | Constant.
Inductive night_method := NightHumidity | NightConstant.
Record cloud_config := CCF { cl_method : cloud_method; cl_night : night_method; cl_fallback : bool; cl_level : R; cl_sat : R; cl_efold : R;
  cl_lapse : R; cl_dew_lapse : R }.
(** A station at the current time step: position, altitude, records (None: missing), whether it lies within the grid, the clear-sky
    irradiance of its pixel (None outside the region of interest), whether it lies within the extended grid only, and the clear-sky
    irradiance computed for it there (92-157) *)
Record rst := RST { r_x : R; r_y : R; r_alt : R; r_temp : num; r_hum : num; r_cloud : num; r_sw : num; r_in_grid : bool; r_clear : num;
  r_in_ext : bool; r_ext_clear : num }.
Definition has (x : num) : bool := match x with Some _ => true | None => false end.
(** 171-174 *)
Definition cloud_stations (l : list rst) : list rst := filter (fun s => has (r_cloud s)) l.
(** 186-190 *)
Definition rad_stations (l : list rst) : list rst := filter (fun s => r_in_grid s && has (r_sw s)) l.
(** 111-115, 193-201: stations of the extended grid need temperature and humidity *)
Definition ext_rad_stations (l : list rst) : list rst := filter (fun s => r_in_ext s && negb (r_in_grid s) && has (r_temp s) && has (r_hum s) && has (r_sw s)) l.
(** 214-215 *)
Definition hum_stations (l : list rst) : list rst := filter (fun s => has (r_temp s) && has (r_hum s)) l.
Definition is_nil {A} (l : list A) : bool := match l with [] => true | _ => false end.
(** 171-222: the method that is used *)
Definition step_prescribed (c : cloud_config) (l : list rst) (m : cloud_method) : cloud_method :=
  match m with Prescribed => if is_nil (cloud_stations l) && cl_fallback c then ClearSkyFraction else m | _ => m end.
Definition step_clear_sky (c : cloud_config) (l : list rst) (sun_up ext : bool) (m : cloud_method) : cloud_method :=
  match m with
  | ClearSkyFraction =>
      if sun_up then
        if (is_nil (rad_stations l) && (negb ext || is_nil (ext_rad_stations l))) && cl_fallback c then Humidity else m
      else match cl_night c with NightHumidity => Humidity | NightConstant => Constant end
  | _ => m end.
Definition step_humidity (c : cloud_config) (l : list rst) (m : cloud_method) : cloud_method :=
  match m with Humidity => if is_nil (hum_stations l) && cl_fallback c then Constant else m | _ => m end.
Definition select_method (c : cloud_config) (l : list rst) (sun_up ext : bool) : cloud_method :=
  step_humidity c l (step_clear_sky c l sun_up ext (step_prescribed c l (cl_method c))).
(** 235-270: the points to interpolate *)
Definition hum_value (c : cloud_config) (s : rst) : num :=
  match r_temp s, r_hum s with
  | Some t, Some h => Some (cloud_factor_from_cloud_fraction (cloud_fraction_from_humidity t h (r_alt s) (cl_lapse c) (cl_dew_lapse c) (cl_level c * 100) (cl_sat c) (cl_efold c)))
  | _, _ => None end.
Definition ratio (a b : num) : num := match a with Some x => numdiv x b | None => None end.
Definition cloud_value (s : rst) : num := match r_cloud s with Some p => Some (cloud_factor_from_cloud_fraction (p / 100)) | None => None end.
Definition points (f : rst -> num) (l : list rst) : list pt := map (fun s => PT (Some (r_x s)) (Some (r_y s)) (f s)) l.
Definition cloud_points (c : cloud_config) (l : list rst) (ext : bool) (m : cloud_method) : list pt :=
  match m with
  | Humidity => points (hum_value c) (hum_stations l)
  | ClearSkyFraction => points (fun s => ratio (r_sw s) (r_clear s)) (rad_stations l) ++
                        (if ext then points (fun s => ratio (r_sw s) (r_ext_clear s)) (ext_rad_stations l) else [])
  | Prescribed => points cloud_value (cloud_stations l)
  | Constant => [] end.
(** 226-283 for one pixel at (x, y): cloud factor, cloud fraction and irradiance, from the previous cloud factor and the clear-sky
    irradiance *)
Definition cloud_factor (c : cloud_config) (l : list rst) (sun_up ext : bool) (prev : num) (x y : R) : num :=
  match select_method c l sun_up ext with
  | Constant => match prev with Some f => Some f | None => Some 0.75 end
  | m => option_map (clip 0 1) (idw (cloud_points c l ext m) x y 2 0)
  end.
Definition shortwave (c : cloud_config) (l : list rst) (sun_up ext : bool) (prev clear : num) (x y : R) : num * num * num :=
  let f := cloud_factor c l sun_up ext prev x y in
  (f, match f with Some v => cloud_fraction_from_cloud_factor v | None => None end,
   match clear, f with Some s, Some v => Some (s * v) | _, _ => None end).

(** * Incoming longwave radiation (irradiance.py:286-327) *)
(** 315-316; the snow water equivalents of the region of interest *)
Definition rock_fraction (swes : list R) : R :=
  INR (length (filter (fun s => if Req_EM_T s 0 then true else false) swes)) / INR (length swes).
(** 286-327 for one pixel *)
Definition longwave (pw temp svf cloud sw surface_temp rock : R) : R :=
  let e := clear_sky_emissivity pw in
  let clearsky := e * STEFAN_BOLTZMANN * temp ^ 4 * svf * (1 - cloud ^ 2) in
  let clouds := 0.976 * STEFAN_BOLTZMANN * temp ^ 4 * svf * cloud ^ 2 in
  let slopes := STEFAN_BOLTZMANN * (1 - svf) * (rock * (temp + 0.01 * sw) ^ 4 + (1 - rock) * surface_temp ^ 4) in
  clearsky + clouds + slopes.
