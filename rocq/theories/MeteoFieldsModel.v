(** Model of the derived meteorological fields of one time step (model.py:_process_meteo_data) for all pixels of the region.
    [None] in a [num] is NaN; numpy propagates it through every element-wise operation. *)
From Verif Require Import Common Constants AtmosphereModel.

(** Element-wise operations on NaN-able fields *)
Definition nmap (f : R -> R) (x : num) : num := match x with Some v => Some (f v) | None => None end.
Definition nmap2 (f : R -> R -> R) (x y : num) : num := match x, y with Some v, Some w => Some (f v w) | _, _ => None end.

(** Interpolated fields of a pixel: elevation (available), temperature (K), humidity (%), precipitation, and the snow redistribution factor. *)
Record mpix := MPIX { mp_dem : R; mp_temp : num; mp_rh : num; mp_precip : num; mp_srf : R }.
(** Configuration: meteo.precipitation_phase (method "wet_bulb_temp" or "temp"), and whether a field srf exists in the base state. *)
Record mcfg := MCFG { mc_phase : phase_cfg; mc_wet_bulb : bool; mc_srf : bool }.
(** Derived fields (without precipitation) *)
Record mder := MDER { md_press : num; md_sat : num; md_vap : num; md_spec_hum : num; md_heat_cap : num; md_lat : num; md_psych : num;
  md_wet_bulb : num; md_dew : num; md_prec_water : num; md_density : num }.

(** atmosphere.py:10-29: the power of a negative base is NaN (above the top of the modelled atmosphere). Exactly at the top the power is 0 in
    numpy; that single elevation is treated as above. *)
Definition press_field (dem : R) : num :=
  if Rlt_dec 0 (1 - GRAVITATIONAL_ACCELERATION * dem / (SPEC_HEAT_CAP_DRY_AIR * STANDARD_SEA_LEVEL_TEMPERATURE))
  then Some (atmospheric_pressure dem) else None.
(** atmosphere.py:349-369: the logarithm of zero gives -inf and a dew point of NaN (inf / inf), that of a negative number NaN. *)
Definition dew_field (temp rh : num) : num :=
  match temp, rh with
  | Some t, Some h => if Rlt_dec 0 (vapor_pressure (Some OverWater) t h) then Some (dew_point_temperature t h) else None
  | _, _ => None
  end.
(** atmosphere.py:317-346: pixels with missing vapour pressure (or temperature) are set to NaN and take no part in the
    iteration; a pixel where only the psychrometric constant is missing keeps its first value, the air temperature.
    Outer [None]: not finished. *)
Definition wet_bulb_field (fuel : nat) (temp vap psy : num) : option num :=
  match temp, vap, psy with
  | Some t, Some v, Some p => wet_bulb_temperature fuel t v p
  | Some t, Some _, None => Some (Some t)
  | _, _, _ => Some None
  end.

(** model.py:825-847 for one pixel. Outer [None]: the iteration for the wet-bulb temperature has not finished. *)
Definition derive (fuel : nat) (p : mpix) : option mder :=
  let press := press_field (mp_dem p) in
  let sat := nmap (saturation_vapor_pressure None) (mp_temp p) in
  let vap := nmap2 (vapor_pressure None) (mp_temp p) (mp_rh p) in
  let hum := nmap2 specific_humidity press vap in
  let cap := nmap specific_heat_capacity_moist_air hum in
  let lat := nmap latent_heat_of_vaporization (mp_temp p) in
  let psy := match press, cap, lat with Some a, Some b, Some c => Some (psychrometric_constant a b c) | _, _, _ => None end in
  match wet_bulb_field fuel (mp_temp p) vap psy with
  | None => None
  | Some wb => Some (MDER press sat vap hum cap lat psy wb (dew_field (mp_temp p) (mp_rh p))
                      (nmap2 precipitable_water (mp_temp p) vap) (nmap2 run_dry_air_density (mp_temp p) press))
  end.

(** model.py:849-854: temperature deciding about the phase *)
Definition phase_temp (c : mcfg) (p : mpix) (d : mder) : num := if mc_wet_bulb c then md_wet_bulb d else mp_temp p.
Definition phase_pixel (c : mcfg) (pd : mpix * mder) : ppix :=
  PPix (mp_dem (fst pd)) (phase_temp c (fst pd) (snd pd)) (mp_precip (fst pd)) (mp_srf (fst pd)).
(** model.py:871-877: snowfall, rainfall and precipitation of a pixel *)
Definition precip_result (c : mcfg) (p : mpix) (sr : num * num) : num * num * num :=
  if mc_srf c then redistribute_snow (mp_srf p) sr else (sr, mp_precip p).

(** model.py:815-877 for all pixels of the region: derived fields and (snowfall, rainfall, precipitation).
    [None]: not finished, or negative temp_range (ValueError). *)
Definition process (c : mcfg) (fuel : nat) (ps : list mpix) : option (list (mder * (num * num * num))) :=
  match all_some (map (derive fuel) ps) with
  | None => None
  | Some ds =>
      match precip_fields (mc_phase c) (map (phase_pixel c) (combine ps ds)) with
      | None => None
      | Some srs => Some (map (fun x => (fst (snd x), precip_result c (fst x) (snd (snd x)))) (combine ps (combine ds srs)))
      end
  end.
