(** C109: sublimation of canopy snow and the density of saturated vapour. *)
From Verif Require Import Common Constants AtmosphereModel CanopyModel CanopyTheorems.

(** ** Specification: mass loss rate (kg/s) of an ice sphere of a radius in air whose saturated vapour has density [rho] (Liston and Elder 2006, eq. 11-18).
    Resistances of heat conduction and of vapour diffusion in series. *)
Definition nusselt_number (radius viscosity ws : R) : R := 1.79 + 0.606 * sqrt (Rmin 10 (Rmax 0.7 (2 * radius * ws / viscosity))).
Definition omega_term (temp nu : R) : R := (2835000 * 0.0180153 / (8.314462618 * temp) - 1) / (0.025 * temp * nu).
Definition vapour_diffusivity (temp : R) : R := 0.0000206 * Rpower (temp / 273) 1.75.
Definition sphere_rate (radius viscosity albedo sw ws temp rh rho : R) : R :=
  let nu := nusselt_number radius viscosity ws in let om := omega_term temp nu in
  (2 * PI * radius * (rh / 100 - 1) - PI * radius ^ 2 * (1 - albedo) * sw * om) / (2835000 * om + 1 / (vapour_diffusivity temp * rho * nu)).
(** Density of a vapour by the gas law (gas constant of water vapour) *)
Definition vapour_density (temp press rho : R) : Prop := rho * (461.52 * temp) = press.

(** The rate is that of the equations with a saturation density of 0.622 sat_vap / (461.52 temp). Missing from the full property: that this is the density of
    saturated vapour. *)
Theorem c109_rate_partial : forall c albedo sw ws temp rh sat_vap, 0 < temp ->
  mass_loss_rate c albedo sw ws temp rh sat_vap = sphere_rate (c_radius c) (c_visc c) albedo sw ws temp rh (0.622 * (sat_vap / (461.52 * temp))).
Proof.
  intros c albedo sw ws temp rh sv T. unfold mass_loss_rate, sphere_rate. cbv zeta.
  change (absolute_humidity temp sv) with (sv / (461.52 * temp)).
  replace (1.79 + 0.606 * sqrt (clip 0.7 10 (2 * c_radius c * ws / c_visc c))) with (nusselt_number (c_radius c) (c_visc c) ws)
    by (unfold nusselt_number, clip; rewrite Rmin_comm, Rmax_comm; reflexivity).
  set (nu := nusselt_number _ _ _).
  replace (omega temp nu) with (omega_term temp nu).
  2:{ unfold omega, omega_term, THERM_COND_AIR, MOLAR_MASS_WATER, UNIVERSAL_GAS_CONSTANT. replace Ls with 2835000 by (unfold Ls, Lv, Lf; lra). unfold Rdiv. ring. }
  replace Ls with 2835000 by (unfold Ls, Lv, Lf; lra). unfold vapour_diffusivity. replace (2.06 / 100000) with 0.0000206 by lra. reflexivity.
Qed.
Print Assumptions c109_rate_partial.

(** It is not: the factor 0.622 is already contained in the gas constant of water vapour, the density used is only 62.2 % of that of saturated vapour. *)
Theorem c109_density_refuted : forall temp sat_vap rho, 0 < temp -> 0 < sat_vap -> vapour_density temp sat_vap rho ->
  0.622 * (sat_vap / (461.52 * temp)) = 0.622 * rho /\ 0.622 * rho < rho.
Proof.
  intros temp sv rho T S0 G. unfold vapour_density in G. assert (R0 : rho = sv / (461.52 * temp)).
  { rewrite <- G. assert (K : 461.52 <> 0) by lra. revert K. generalize 461.52. intros k K. field. split; lra. }
  rewrite R0. split; [reflexivity|]. assert (0 < sv / (461.52 * temp)) by (apply Rdiv_lt_0_compat; lra). lra.
Qed.
Print Assumptions c109_density_refuted.

(** Hence sublimation is underestimated whenever there is any: by the equations more is lost. At most by the factor 1 / 0.622. *)
Theorem c109_underestimate_refuted : forall c albedo sw ws temp rh sat_vap rho, valid_cfg c -> 0 < temp <= 1000 -> 0 < sat_vap -> albedo < 1 -> 0 <= sw -> rh <= 100 ->
  (rh < 100 \/ 0 < sw) -> vapour_density temp sat_vap rho ->
  let right := sphere_rate (c_radius c) (c_visc c) albedo sw ws temp rh rho in
  right < mass_loss_rate c albedo sw ws temp rh sat_vap < 0.622 * right /\ right < 0.
Proof.
  intros c albedo sw ws temp rh sv rho V T SV AL SW RH WET G. cbv zeta.
  destruct (c109_density_refuted temp sv rho (proj1 T) SV G) as [E LT]. rewrite c109_rate_partial by tauto. rewrite E.
  assert (R0 : 0 < rho) by lra. clear E. unfold sphere_rate. cbv zeta.
  assert (NU : 0 < nusselt_number (c_radius c) (c_visc c) ws) by apply nusselt_pos. set (nu := nusselt_number _ _ _) in *. clearbody nu.
  assert (OM : 0 < omega_term temp nu).
  { replace (omega_term temp nu) with (omega temp nu); [apply omega_pos; assumption|].
    unfold omega, omega_term, THERM_COND_AIR, MOLAR_MASS_WATER, UNIVERSAL_GAS_CONSTANT. replace Ls with 2835000 by (unfold Ls, Lv, Lf; lra). unfold Rdiv. ring. }
  set (om := omega_term temp nu) in *. clearbody om.
  assert (DI : 0 < vapour_diffusivity temp) by (unfold vapour_diffusivity; apply Rmult_lt_0_compat; [lra|apply exp_pos]).
  set (di := vapour_diffusivity temp) in *. clearbody di.
  pose proof PI_RGT_0 as PI0. assert (RA : 0 < c_radius c) by apply V. set (ra := c_radius c) in *. clearbody ra.
  set (x := 2 * PI * ra * (rh / 100 - 1) - PI * ra ^ 2 * (1 - albedo) * sw * om).
  assert (X : x < 0).
  { unfold x. assert (P1 : 0 < 2 * PI * ra) by nra. assert (P2 : 0 < PI * ra ^ 2 * (1 - albedo)) by (apply Rmult_lt_0_compat; [apply Rmult_lt_0_compat; [assumption|apply pow_lt; assumption]|lra]).
    set (y := PI * ra ^ 2 * (1 - albedo)) in *. clearbody y. assert (0 <= y * sw * om) by (repeat apply Rmult_le_pos; lra).
    destruct WET as [W|W]; [nra|]. assert (0 < y * sw * om) by (repeat apply Rmult_lt_0_compat; lra). nra. }
  clearbody x. set (u := di * rho * nu). assert (U : 0 < u) by (unfold u; repeat apply Rmult_lt_0_compat; assumption).
  replace (di * (0.622 * rho) * nu) with (0.622 * u) by (unfold u; ring). clearbody u.
  set (a := 2835000 * om). assert (A : 0 < a) by (unfold a; lra). clearbody a.
  assert (E1 : x / (a + 1 / u) = x * u / (a * u + 1)) by (field; split; [nra|lra]).
  assert (E2 : x / (a + 1 / (0.622 * u)) = 0.622 * (x * u) / (0.622 * (a * u) + 1)).
  { assert (K : 0 < 0.622) by lra. revert K. generalize 0.622. intros k K. field. assert (0 < k * u) by nra. assert (0 < a * (k * u)) by nra. repeat split; nra. }
  rewrite E1, E2. set (b := a * u). assert (B : 0 < b) by (unfold b; nra). set (z := x * u). assert (Z : z < 0) by (unfold z; nra). clearbody b z.
  assert (I1 : 0 < / (b + 1)) by (apply Rinv_0_lt_compat; lra). assert (I2 : 0 < / (0.622 * b + 1)) by (apply Rinv_0_lt_compat; lra).
  unfold Rdiv. assert (J1 : (b + 1) * / (b + 1) = 1) by (apply Rinv_r; lra). assert (J2 : (0.622 * b + 1) * / (0.622 * b + 1) = 1) by (apply Rinv_r; lra).
  set (i1 := / (b + 1)) in *. set (i2 := / (0.622 * b + 1)) in *. clearbody i1 i2.
  assert (C1 : i1 < i2) by nra. assert (C2 : 0.622 * i2 < i1).
  { apply Rmult_lt_reg_l with ((b + 1) * (0.622 * b + 1)); [nra|].
    replace ((b + 1) * (0.622 * b + 1) * (0.622 * i2)) with (0.622 * (b + 1) * ((0.622 * b + 1) * i2)) by ring.
    replace ((b + 1) * (0.622 * b + 1) * i1) with ((0.622 * b + 1) * ((b + 1) * i1)) by ring. rewrite J1, J2. lra. }
  split; [split|]; nra.
Qed.
Print Assumptions c109_underestimate_refuted.
Example c109_example : valid_cfg demo_cc /\ vapour_density 268.15 401.6 (401.6 / (461.52 * 268.15)) /\ 0 < 268.15 <= 1000 /\ 70 <= 100.
Proof. split; [apply demo_cc_valid|]. unfold vapour_density. repeat split; lra. Qed.
