(** Model of _soil_properties (modules/soil/soil.py:31-209) for one soil layer of one pixel.
    [x ** y] on positive floats is [Rpower x y]; the theorems show that all bases are positive. *)
From Verif Require Import Common Constants.

Record soil_layer := SoilLayer {
  thickness : R; temp : R; heat_cap_dry : R; therm_cond_dry : R;
  moisture : R; moisture_sat : R; sat_water_pressure : R; clapp_hornberger : R;
  (* previous contents of the output arrays *)
  old_frozen : R; old_unfrozen : R }.
Record soil_props := SoilProps {
  heat_cap : R; therm_cond : R; frac_frozen : R; frac_unfrozen : R }.

(** soil.py:104-110 *)
Definition kappa : R :=
  1 * ((ICE_DENSITY / WATER_DENSITY) * Lf / (T0 * GRAVITATIONAL_ACCELERATION)).
(** soil.py:118-124 *)
Definition temp_max_frozen (s : soil_layer) : R :=
  T0 - sat_water_pressure s / kappa
       * Rpower (moisture_sat s / moisture s) (clapp_hornberger s).
(** soil.py:128-130 *)
Definition max_unfrozen (s : soil_layer) : R :=
  moisture_sat s *
  Rpower (- kappa * (temp s - T0) / sat_water_pressure s) (-1 / clapp_hornberger s).
(** soil.py:126-149 *)
Definition vol_unfrozen (s : soil_layer) : R :=
  if Rlt_dec (temp s) (temp_max_frozen s) then Rmin (max_unfrozen s) (moisture s) else moisture s.
Definition dtheta_dt (s : soil_layer) : R :=
  if Rlt_dec (temp s) (temp_max_frozen s) then
    kappa * moisture_sat s / (clapp_hornberger s * sat_water_pressure s)
    * Rpower (- kappa * (temp s - T0) / sat_water_pressure s) (-1 / clapp_hornberger s - 1)
  else 0.
(** soil.py:151-155 *)
Definition vol_frozen (s : soil_layer) : R :=
  (moisture s - vol_unfrozen s) * WATER_DENSITY / ICE_DENSITY.
(** soil.py:114-209 *)
Definition soil_properties (s : soil_layer) : soil_props :=
  if Rlt_dec 0 (moisture s) then
    let fu := vol_unfrozen s / moisture_sat s in
    let ff := (ICE_DENSITY / WATER_DENSITY) * vol_frozen s / moisture_sat s in
    let vol_heat_cap :=
      heat_cap_dry s + WATER_DENSITY * SPEC_HEAT_CAP_WATER * vol_unfrozen s
      + ICE_DENSITY * SPEC_HEAT_CAP_ICE * vol_frozen s
      + WATER_DENSITY * ((SPEC_HEAT_CAP_WATER - SPEC_HEAT_CAP_ICE) * temp s + Lf) * dtheta_dt s in
    let liquid_sat := moisture_sat s * (fu / (fu + ff)) in
    let tc_sat :=
      therm_cond_dry s * Rpower THERM_COND_WATER liquid_sat
      * Rpower THERM_COND_ICE (moisture_sat s - liquid_sat)
      / Rpower THERM_COND_AIR (moisture_sat s) in
    {| heat_cap := vol_heat_cap * thickness s;
       therm_cond := (tc_sat - therm_cond_dry s) * moisture s / moisture_sat s + therm_cond_dry s;
       frac_frozen := ff; frac_unfrozen := fu |}
  else
    {| heat_cap := heat_cap_dry s * thickness s; therm_cond := therm_cond_dry s;
       frac_frozen := old_frozen s; frac_unfrozen := old_unfrozen s |}.
