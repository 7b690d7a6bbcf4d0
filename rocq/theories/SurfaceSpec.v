(** Specification of the surface energy balance, written without the flux functions of the model. *)
From Verif Require Import Common Constants AtmosphereModel SurfaceModel.

(** Saturation specific humidity over a surface of temperature [t]. *)
Definition qs (m : met) (t : R) : R :=
  0.622 * saturation_vapor_pressure None t / (m_press m - 0.378 * saturation_vapor_pressure None t).
(** Net energy flux towards a surface of temperature [t] (W m-2) apart from the flux [g] conducted
    downwards: absorbed shortwave, longwave balance, sensible heat, latent heat ([lh] per kg, a
    fraction [ma] of the potential moisture flux) and heat advected by precipitation. *)
Definition energy_in (m : met) (s : surf) (dt ma lh t : R) : R :=
  (1 - s_alb s) * m_swin m + m_lwin m - 0.99 * STEFAN_BOLTZMANN * t ^ 4
  + SPEC_HEAT_CAP_DRY_AIR * m_rhoa m * s_ch s * m_wind m * (m_temp m - t)
  + lh * ma * m_rhoa m * s_ch s * m_wind m * (m_q m - qs m t)
  + 4180 * (m_temp m - t) * m_rain m / dt + 2100 * (m_wb m - t) * m_snow m / dt.
Definition conducted (s : surf) (t : R) : R := 2 * s_k s * (t - s_ltemp s) / s_th s.
Definition balance (m : met) (s : surf) (dt ma lh t : R) : R :=
  energy_in m s dt ma lh t - conducted s t.
(** Linear response of the outgoing fluxes to surface temperature (FSM, eq. of the surface balance). *)
Definition response (m : met) (s : surf) (ma lh t : R) : R :=
  (SPEC_HEAT_CAP_DRY_AIR + lh * ma * (lh * qs m t / (SPEC_GAS_CONSTANT_WATER_VAPOR * t ^ 2)))
    * (m_rhoa m * s_ch s * m_wind m)
  + 2 * s_k s / s_th s + 4 * STEFAN_BOLTZMANN * t ^ 3.
(** Surface temperature solving the linearised balance around [t] when [melt] kg m-2 melt. *)
Definition linear_temp (m : met) (s : surf) (dt ma lh t melt : R) : R :=
  t + (balance m s dt ma lh t - Lf * melt / dt) / response m s ma lh t.

(** Forcings and surfaces with physical values. *)
Record physical (m : met) (s : surf) (dt t : R) : Prop := {
  ph_dt : 0 < dt; ph_t : 0 < t; ph_wind : 0 <= m_wind m; ph_rhoa : 0 <= m_rhoa m;
  ph_ch : 0 <= s_ch s; ph_k : 0 <= s_k s; ph_th : 0 < s_th s; ph_cond : 0 < s_cond s;
  ph_rain : 0 <= m_rain m; ph_snow : 0 <= m_snow m;
  ph_air : m_temp m <= 1000;
  ph_press : 0.378 * saturation_vapor_pressure None t < m_press m }.
