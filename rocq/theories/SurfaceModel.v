(** Model of surface.py for one pixel. All functions are vectorised over pixels, each pixel is
    processed independently (except the lower end of the legacy temperature grid, see
    [legacy_grid]). Simplification: every forcing and surface value is present (not NaN); where a
    value is missing the code sets the changes of [solve_energy_balance] to 0 (surface.py:775-780). *)
From Verif Require Import Common Constants AtmosphereModel.

(** Forcing of a pixel: s.meteo.{temp, wet_bulb_temp, wind_speed, spec_hum, atmos_press,
    dry_air_density, sw_in, lw_in, rainfall, snowfall}. *)
Record met := MET {
  m_temp : R; m_wb : R; m_wind : R; m_q : R; m_press : R; m_rhoa : R;
  m_swin : R; m_lwin : R; m_rain : R; m_snow : R }.
(** Surface of a pixel that does not change while the energy balance is solved:
    s.surface.{albedo, turbulent_exchange_coeff, conductance, therm_cond, thickness, layer_temp},
    s.snow.swe and s.snow.ice_content (all layers). *)
Record surf := SRF {
  s_alb : R; s_ch : R; s_cond : R; s_k : R; s_th : R; s_ltemp : R; s_swe : R; s_ices : list R }.
Definition top_ice (s : surf) : R := match s_ices s with [] => 0 | x :: _ => x end.

(** ** surface_properties, 27-60 *)
Definition surface_albedo (frac snow_alb soil_alb : R) : R :=
  if Rlt_dec 0 frac then frac * snow_alb + (1 - frac) * soil_alb else soil_alb.
Definition roughness (z_snow z_soil frac : R) : R := Rpower z_snow frac * Rpower z_soil (1 - frac).
Definition conductance (gsat unfrozen vsat vcrit : R) : R :=
  gsat * Rmax ((unfrozen * vsat / vcrit) ^ 2) 1.
(** 63-97 surface_layer_properties: thickness, temperature and conductivity of the surface layer from
    the topmost snow layer and the topmost soil layer. *)
Definition layer_thickness (dsnow dsoil : R) : R := Rmax dsnow dsoil.
Definition layer_temp (dsnow dsoil tsnow tsoil : R) : R :=
  if Rlt_dec dsoil dsnow then tsnow else tsoil + (tsnow - tsoil) * dsnow / dsoil.
Definition layer_cond (dsnow dsoil ksnow ksoil : R) : R :=
  if Rle_dec dsnow (dsoil / 2) then dsoil / (2 * dsnow / ksnow + (dsoil - 2 * dsnow) / ksoil) else ksnow.

(** ** stability_factor, 398-446 *)
Definition richardson (t ts wind ht hw : R) : R :=
  let u := if Req_EM_T wind 0 then 0.5 else wind in
  GRAVITATIONAL_ACCELERATION * hw ^ 2 * (t - ts) / (ht * t * u ^ 2).
Definition stability_c (b hw z0 : R) : R :=
  3 * b ^ 2 * VON_KARMAN ^ 2 * sqrt (hw / z0) / (ln (hw / z0)) ^ 2.
Definition stability_factor (t ts wind frac z_snow z_soil ht hw b : R) : R :=
  let ri := richardson t ts wind ht hw in
  let z0 := roughness z_snow z_soil frac in
  if Rle_dec 0 ri then 1 / (1 + 3 * b * ri * sqrt (1 + b * ri))
  else 1 - 3 * b * ri / (1 + stability_c b hw z0 * sqrt (- ri)).
(** 449-495 calc_turbulent_exchange_coefficient; [depth = Some d]: measurement height adjustment. *)
Definition exchange_coeff (z0 ht hw : R) (depth : option R) (stab : R -> R) (correct : bool) : R :=
  let ht' := match depth with Some d => Rmax (ht - d) 1 | None => ht end in
  let c := VON_KARMAN ^ 2 / (ln (hw / z0) * ln (ht' / (0.1 * z0))) in
  if correct then c * stab ht' else c.

(** ** Fluxes *)
(** 498-519 calc_radiation_balance *)
Definition lw_out (t : R) : R := 0.99 * STEFAN_BOLTZMANN * t ^ 4.
Definition net_radiation (m : met) (s : surf) (t : R) : R :=
  m_swin m - s_alb s * m_swin m + m_lwin m - lw_out t.
(** 522-539 calc_saturation_specific_humidity *)
Definition sat_spec_hum (m : met) (t : R) : R := specific_humidity (m_press m) (saturation_vapor_pressure None t).
(** 542-571 calc_moisture_availability *)
Definition moisture_availability (m : met) (s : surf) (qsat : R) : R :=
  if Rlt_dec 0 (s_swe s) then 1
  else if Rlt_dec qsat (m_q m) then 1
  else s_cond s / (s_cond s + s_ch s * m_wind m).
(** 574-595 calc_latent_heat *)
Definition latent_heat (m : met) (s : surf) (t : R) : R :=
  let v := latent_heat_of_vaporization (m_temp m) in
  if Rlt_dec 0 (top_ice s) then v + Lf else if Rlt_dec t T0 then v + Lf else v.
(** 598-622 calc_surface_flux *)
Definition surface_flux (s : surf) (t : R) : R := 2 * s_k s * (t - s_ltemp s) / s_th s.
(** 625-669 calc_turbulent_fluxes *)
Definition rhoa_ch_ua (m : met) (s : surf) : R := m_rhoa m * s_ch s * m_wind m.
Definition sens_flux (m : met) (s : surf) (t : R) : R :=
  SPEC_HEAT_CAP_DRY_AIR * rhoa_ch_ua m s * (m_temp m - t).
Definition moist_flux (m : met) (s : surf) (ma qsat : R) : R := ma * rhoa_ch_ua m s * (m_q m - qsat).
(** 672-703 calc_advective_heat *)
Definition advective (m : met) (dt t : R) : R :=
  (SPEC_HEAT_CAP_WATER * (m_temp m - t) * m_rain m + SPEC_HEAT_CAP_ICE * (m_wb m - t) * m_snow m) / dt.

(** ** solve_energy_balance, 738-787: (temperature, moisture flux, heat flux, sensible flux) changes *)
Record changes := CH { d_temp : R; d_moist : R; d_heat : R; d_sens : R }.
Definition no_change : changes := CH 0 0 0 0.
Definition solve (m : met) (s : surf) (dt t qsat ma lh net sens latf adv hf melt : R) : changes :=
  let rcu := rhoa_ch_ua m s in
  let dq := lh * qsat / (SPEC_GAS_CONSTANT_WATER_VAPOR * t ^ 2) in
  let dT := (net + sens + latf + adv - hf - Lf * (melt / dt)) /
            ((SPEC_HEAT_CAP_DRY_AIR + lh * ma * dq) * rcu + 2 * s_k s / s_th s
             + 4 * STEFAN_BOLTZMANN * t ^ 3) in
  CH dT (ma * rcu * dq * dT) (2 * s_k s * dT / s_th s) (SPEC_HEAT_CAP_DRY_AIR * rcu * dT).

(** ** multilayer_energy_balance, 127-202. Result: s.surface.{temp, moisture_flux, heat_flux,
    sens_heat_flux, lat_heat_flux}, s.meteo.net_radiation, s.snow.melt. *)
Record eb_result := EBR {
  r_temp : R; r_melt : R; r_moist : R; r_heat : R; r_sens : R; r_lat : R; r_net : R }.
Definition finish (m : met) (s : surf) (t qsat ma hf sens melt : R) (c : changes) : eb_result :=
  let t' := t + d_temp c in
  let mf := moist_flux m s ma qsat in
  EBR t' melt mf (hf + d_heat c) (sens + d_sens c) (latent_heat m s t' * mf) (net_radiation m s t').
Definition multilayer_energy_balance (m : met) (s : surf) (dt t : R) : eb_result :=
  let qsat := sat_spec_hum m t in
  let ma := moisture_availability m s qsat in
  let lh := latent_heat m s t in
  let net := net_radiation m s t in
  let hf := surface_flux s t in
  let sens := sens_flux m s t in
  let latf := lh * moist_flux m s ma qsat in
  let adv := advective m dt t in
  let c1 := solve m s dt t qsat ma lh net sens latf adv hf 0 in
  if Rlt_dec T0 (t + d_temp c1) then
    if Rlt_dec 0 (top_ice s) then
      let melt := sumR (s_ices s) in
      let c2 := solve m s dt t qsat ma lh net sens latf adv hf melt in
      if Rlt_dec (t + d_temp c2) T0 then
        (* partial melt: everything again at T0 *)
        let qsat' := sat_spec_hum m T0 in
        let lh' := latent_heat m s T0 in
        let sens' := sens_flux m s T0 in
        let hf' := surface_flux s T0 in
        let melt' := Rmax ((net_radiation m s T0 + sens' + lh' * moist_flux m s ma qsat'
                            + advective m dt T0 - hf') / Lf * dt) 0 in
        finish m s T0 qsat' ma hf' sens' melt' no_change
      else finish m s t qsat ma hf sens melt c2
    else finish m s t qsat ma hf sens 0 c1
  else finish m s t qsat ma hf sens 0 c1.

(** ** energy_balance_remainder, 790-840. [lh], [ma] and the heat flux were set before
    (cryo_layer_energy_balance, 240-247). *)
Definition remainder (m : met) (s : surf) (dt ma lh hf t : R) : R :=
  net_radiation m s t + sens_flux m s t + lh * moist_flux m s ma (sat_spec_hum m t) + advective m dt t - hf.

(** ** iterate_surface_temperature, 843-903, one pixel *)
(** 863-871: np.arange(T0, min_temp - 1e-6, -0.25); [lowest] is the minimum air temperature of all
    pixels processed. *)
Definition legacy_count (lowest : R) : nat :=
  Z.to_nat (1 - up (- ((T0 - (lowest - 3 - 1 / 1000000)) / 0.25))). (* ceil *)
Definition legacy_grid (lowest : R) : list R :=
  map (fun k => T0 - 0.25 * INR k) (seq 0 (legacy_count lowest)).
(** the temperature of a pixel follows the grid while its remainder is negative *)
Fixpoint legacy_walk (f : R -> R) (cur : R) (grid : list R) : R :=
  match grid with
  | [] => cur
  | g :: gs => if Rlt_dec (f g) 0 then legacy_walk f g gs else g
  end.
Definition legacy (f : R -> R) (t lowest : R) : R := legacy_walk f t (legacy_grid lowest).
(** 872-903: same secant loop as [AtmosphereModel.secant] (the tolerance is 1e-2 too, started at
    T0 - 10 and T0), then clipped at T0. *)
Definition secant_temp (f : R -> R) (fuel : nat) : option (option R) :=
  match secant f fuel (T0 - 10) T0 with
  | Some (Some x) => Some (Some (Rmin x T0))
  | r => r
  end.
