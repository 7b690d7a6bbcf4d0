(** Model of meteo/atmosphere.py (one pixel at a time; all functions are element-wise) and of the
    derived meteorological fields in model.py:_process_meteo_data. [x ** y] on positive floats is
    [Rpower x y]; NaN inputs are modelled only where the code treats them explicitly. *)
From Verif Require Import Common Constants.

(** atmosphere.py:10-29 *)
Definition press_exp : R := SPEC_HEAT_CAP_DRY_AIR * MOLAR_MASS_DRY_AIR / UNIVERSAL_GAS_CONSTANT.
Definition atmospheric_pressure (elev : R) : R :=
  STANDARD_ATMOSPHERE *
  Rpower (1 - GRAVITATIONAL_ACCELERATION * elev
              / (SPEC_HEAT_CAP_DRY_AIR * STANDARD_SEA_LEVEL_TEMPERATURE)) press_exp.
(** atmosphere.py:32-54 *)
Definition pressure_to_altitude (pressure : R) : R :=
  (1 - Rpower (pressure / STANDARD_ATMOSPHERE) (1 / press_exp))
  * SPEC_HEAT_CAP_DRY_AIR * STANDARD_SEA_LEVEL_TEMPERATURE / GRAVITATIONAL_ACCELERATION.
(** atmosphere.py:57-74 *)
Definition dry_air_density (temp pressure : R) : R := pressure * (GAS_CONSTANT_DRY_AIR * temp).
(** model.py:847, the density used in the model run *)
Definition run_dry_air_density (temp pressure : R) : R := pressure / (GAS_CONSTANT_DRY_AIR * temp).
(** atmosphere.py:77-91 *)
Definition latent_heat_of_vaporization (temp : R) : R := Lv - 2361 * (temp - T0).

(** atmosphere.py:5-7 and 94-131. [None] chooses by temperature, as in the code. *)
Inductive surface_kind := OverWater | OverIce.
Definition magnus_water : R * R * R := (610.78, 17.08, 234.18).
Definition magnus_ice : R * R * R := (610.71, 22.44, 272.44).
Definition saturation_vapor_pressure (over : option surface_kind) (temp : R) : R :=
  let temp_c := temp - T0 in
  let '(ca, cb, cc) :=
    match over with
    | None => if Rle_dec 0 temp_c then magnus_water else magnus_ice
    | Some OverWater => magnus_water
    | Some OverIce => magnus_ice
    end in
  ca * exp (cb * temp_c / (cc + temp_c)).
(** atmosphere.py:134-156 *)
Definition vapor_pressure (over : option surface_kind) (temp rel_hum : R) : R :=
  saturation_vapor_pressure over temp * rel_hum / 100.
(** atmosphere.py:159-178 *)
Definition specific_humidity (press vap : R) : R := 0.622 * vap / (press - 0.378 * vap).
(** atmosphere.py:181-198 *)
Definition absolute_humidity (temp vap : R) : R := vap / (SPEC_GAS_CONSTANT_WATER_VAPOR * temp).
(** atmosphere.py:201-222 *)
Definition relative_humidity (temp abs_hum : R) : R :=
  100 * (SPEC_GAS_CONSTANT_WATER_VAPOR * temp * abs_hum) / saturation_vapor_pressure None temp.
(** atmosphere.py:225-239 *)
Definition specific_heat_capacity_moist_air (spec_hum : R) : R :=
  SPEC_HEAT_CAP_DRY_AIR * (1 + 0.84 * spec_hum).
(** atmosphere.py:242-262 *)
Definition psychrometric_constant (press cap lat : R) : R := cap * press / (0.622 * lat).
(** atmosphere.py:265-290 *)
Definition psychro_diff (temp wb vap psy : R) : R :=
  vap - (saturation_vapor_pressure None wb - psy * (temp - wb)).

(** atmosphere.py:317-346, wet_bulb_temperature for one pixel; each pixel follows its own
    iteration and is frozen once its own step is within the tolerance. The loop may not terminate:
    [fuel] bounds the number of iterations, [None] means "not finished"; a division 0/0 or x/0
    ([y1 = y0]) is reported as [Some None] (the pixel ends up NaN or infinite). *)
Definition secant_tol : R := 1 / 100.
Fixpoint secant (f : R -> R) (fuel : nat) (x0 x1 : R) : option (option R) :=
  match fuel with
  | O => None
  | S fuel' =>
      if Req_EM_T (f x1) (f x0) then Some None
      else
        let d := (x1 - x0) / (f x1 - f x0) * f x1 in
        if Rlt_dec secant_tol (Rabs d) then secant f fuel' x1 (x1 - d) else Some (Some x1)
  end.
Definition wet_bulb_temperature (fuel : nat) (temp vap psy : R) : option (option R) :=
  secant (fun wb => psychro_diff temp wb vap psy) fuel (temp - 10) temp.

(** atmosphere.py:349-369 *)
Definition dew_point_temperature (temp rel_hum : R) : R :=
  let '(ca, cb, cc) := magnus_water in
  let v := vapor_pressure (Some OverWater) temp rel_hum in
  cc * ln (v / ca) / (cb - ln (v / ca)) + T0.
(** atmosphere.py:372-393 *)
Definition relative_humidity_from_dew_point (temp dew : R) : R :=
  100 * saturation_vapor_pressure (Some OverWater) dew
  / saturation_vapor_pressure (Some OverWater) temp.
(** atmosphere.py:396-421 *)
Definition precipitable_water (temp vap : R) : R := 46.5 * (vap / 100) / temp * (1 / 1000 * 10000).

(** atmosphere.py:424-500, with the parameters pressure_level, saturation_cloud_fraction and
    e_folding_humidity. *)
Definition cloud_fraction_from_humidity (temp rel_hum elev lapse dew_lapse level sat_frac efold : R)
  : R :=
  let elev_diff := elev - pressure_to_altitude level in
  let td := dew_point_temperature temp rel_hum in
  let temp700 := temp - lapse * elev_diff in
  let td700 := td - dew_lapse * elev_diff in
  let rh700 := 100 * saturation_vapor_pressure None td700
               / saturation_vapor_pressure None temp700 in
  clip 0 1 (sat_frac * exp ((rh700 - 100) / (100 - efold))).

(** atmosphere.py:503-528 *)
Definition cloud_factor_from_cloud_fraction (f : R) : R :=
  clip 0 1 (1 - 0.233 * f - 0.415 * (f * f)).
(** atmosphere.py:531-557; a negative radicand gives NaN. *)
Definition cloud_fraction_from_cloud_factor (cf : R) : num :=
  let a := - 0.415 in let b := - 0.233 in let c := 1 in
  let disc := b * b - 4 * a * (c - cf) in
  if Rlt_dec disc 0 then None else Some (clip 0 1 ((- b - sqrt disc) / (2 * a))).
(** atmosphere.py:560-582 *)
Definition clear_sky_emissivity (prec_wat : R) : R :=
  let cm := prec_wat / 10 in 1 - (1 + cm) * exp (- sqrt (1.2 + 3 * cm)).

(** atmosphere.py:585-627; [None] = ValueError (negative range). A missing temperature gives 0 for
    range 0 (the comparison is false) and NaN otherwise. Only method "linear" exists; others raise. *)
Definition precipitation_phase (temp : num) (threshold range : R) : option num :=
  if Rlt_dec range 0 then None
  else if Req_EM_T range 0 then
    Some (match temp with
          | Some t => Some (if Rlt_dec t threshold then 1 else 0)
          | None => Some 0 end)
  else
    let t1 := threshold - range / 2 in let t2 := threshold + range / 2 in
    Some (match temp with
          | Some t => Some (clip 0 1 (1 - (t - t1) / (t2 - t1)))
          | None => None end).

(** atmosphere.py:630-656 *)
Definition log_wind_profile (ref_ws ref_h h z0 : R) : R := ref_ws * (ln (h / z0) / ln (ref_h / z0)).

(** numpy primitives used by the wind conversions *)
Definition deg2rad (x : R) : R := x * (PI / 180).
Definition rad2deg (x : R) : R := x * (180 / PI).
Definition fmod (x m : R) : R := x - m * IZR (Int_part (x / m)).   (* x % m for m > 0 *)
Definition arctan2 (y x : R) : R :=
  if Rlt_dec 0 x then atan (y / x)
  else if Rlt_dec x 0 then (if Rle_dec 0 y then atan (y / x) + PI else atan (y / x) - PI)
  else if Rlt_dec 0 y then PI / 2 else if Rlt_dec y 0 then - (PI / 2) else 0.
(** atmosphere.py:659-681 *)
Definition wind_to_uv (ws wd : R) : R * R :=
  (- ws * sin (deg2rad wd), - ws * cos (deg2rad wd)).
(** atmosphere.py:684-706 *)
Definition wind_from_uv (u v : R) : R * R :=
  (sqrt (u * u + v * v), fmod (270 - rad2deg (arctan2 v u)) 360).

(** ** model.py:849-877: precipitation phase of all ROI pixels *)
Record phase_cfg := PhaseCfg { threshold_temp : R; temp_range : R; enforce : bool }.
(** One ROI pixel: elevation, the temperature used for the partitioning, precipitation (NaN-able),
    snow redistribution factor. *)
Record ppix := PPix { elev : R; pp_temp : num; precip : num; srf : R }.
(** 856-861; [None]: precipitation_phase raised. *)
Definition snow_frac (c : phase_cfg) (p : ppix) : option R :=
  match precipitation_phase (pp_temp p) (threshold_temp c) (temp_range c) with
  | None => None
  | Some f => Some (nan_to_zero f)
  end.
(** [np.max] of a non-empty list *)
Fixpoint maxR (l : list R) : R :=
  match l with [] => 0 | [x] => x | x :: l' => Rmax x (maxR l') end.
(** 862-870 *)
Definition is_zero (x : R) : bool := if Req_EM_T x 0 then true else false.
Definition enforce_no_snow (c : phase_cfg) (ps : list (R * R)) : list R :=   (* (elev, frac) *)
  let rain := filter (fun ef => is_zero (snd ef)) ps in
  if enforce c then
    match rain with
    | [] => map snd ps
    | _ => let m := maxR (map fst rain) in
           map (fun ef => if Rle_dec (fst ef) m then 0 else snd ef) ps
    end
  else map snd ps.
Fixpoint all_some {A} (l : list (option A)) : option (list A) :=
  match l with
  | [] => Some []
  | Some x :: l' => match all_some l' with Some r => Some (x :: r) | None => None end
  | None :: _ => None
  end.
(** 849-872: (snowfall, rainfall) of every pixel. *)
Definition precip_fields (c : phase_cfg) (ps : list ppix) : option (list (num * num)) :=
  match all_some (map (snow_frac c) ps) with
  | None => None
  | Some fs =>
      let fr := enforce_no_snow c (combine (map elev ps) fs) in
      Some (map (fun '(p, f) => (numscale f (precip p), numscale (1 - f) (precip p)))
                (combine ps fr))
  end.
(** 874-877: redistribution with srf: (snowfall, rainfall, precip). *)
Definition redistribute_snow (srf : R) (sr : num * num) : num * num * num :=
  let s := numscale srf (fst sr) in (s, snd sr, numplus s (snd sr)).
