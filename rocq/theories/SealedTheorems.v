(** C108: evaporation from sealed surfaces by the equation of Penman and Monteith. *)
From Verif Require Import Common Constants AtmosphereModel EtModel EtTheorems.

(** ** Specification: the equation, for air of a given density. Logarithmic wind profile over obstacles of height [hmax], heights of the measurements [hw] and [ht]. *)
Definition resistance (hmax hw ht ws : R) : R :=
  ln ((hw - 2 / 3 * hmax) / (0.123 * hmax)) * ln ((ht - 2 / 3 * hmax) / (0.0123 * hmax)) / (0.4 ^ 2 * ws).
(** Slope of the saturation vapour pressure curve (Pa/K) at a temperature in degrees Celsius *)
Definition slope_pa (tc : R) : R := 1000 * (4098 * (0.6108 * exp (17.27 * tc / (tc + 237.3))) / (tc + 237.3) ^ 2).
(** W/m2: energy part plus vapour part *)
Definition penman_monteith (rho cp ra slope gamma rn g deficit : R) : R := (slope * (rn - g) + rho * cp * deficit / ra) / (slope + gamma).
(** Water (kg/m2) evaporated in a time by a heat flux (W/m2) *)
Definition water (w dt : R) : R := w * dt / 2501000.
(** Density of air by the gas law *)
Definition gas_law (press tv rho : R) : Prop := rho * (287.058 * tv) = press.

(** The potential evaporation is the equation, cut off at zero, with the specific heat that belongs to the psychrometric constant, and with the density
    press / 287.058 * (1.01 temp). Missing from the full property: that this is the density of air. *)
Theorem c108_equation_partial : forall hmax hw ht ws rn g temp psych es ea press dt,
  sealed_potential hmax hw ht ws rn g temp psych es ea press dt =
  water (Rmax 0 (penman_monteith (press / 287.058 * (1.01 * temp)) (psych * 0.622 * 2501000 / press) (resistance hmax hw ht ws) (slope_pa (temp - 273.15)) psych rn g (es - ea))) dt.
Proof.
  intros. unfold sealed_potential, water, penman_monteith, resistance. cbv zeta. change T0 with 273.15. change (1000 * svp_slope (temp - 273.15)) with (slope_pa (temp - 273.15)).
  change Lv with 2501000. change GAS_CONSTANT_DRY_AIR with 287.058.
  replace (0.1 * (0.123 * hmax)) with (0.0123 * hmax) by lra. replace VON_KARMAN with 0.4 by (unfold VON_KARMAN; lra).
  set (ra := ln _ * ln _ / _). replace (psych * (1 + 0 / ra)) with psych by (unfold Rdiv; ring). rewrite Rmax_comm.
  set (m := Rmax 0 _). clearbody m. generalize 2501000 as l. intro l. unfold Rdiv. ring.
Qed.
Print Assumptions c108_equation_partial.

(** The density used is not that of air: it is larger by the square of the virtual temperature, about 85,000 times at 15 degrees. *)
Theorem c108_density_refuted : forall press temp rho, 0 < press -> 180 <= temp <= 330 -> gas_law press (1.01 * temp) rho ->
  press / 287.058 * (1.01 * temp) = rho * (1.01 * temp) ^ 2 /\ 33000 * rho < press / 287.058 * (1.01 * temp).
Proof.
  intros press temp rho P T G. unfold gas_law in G.
  assert (E : press / 287.058 * (1.01 * temp) = rho * (1.01 * temp) ^ 2) by (rewrite <- G; assert (K : 287.058 <> 0) by lra; revert K; generalize 287.058 as k; generalize (1.01 * temp) as y; intros y k K; field; exact K).
  split; [exact E|]. rewrite E. assert (0 < rho) by (apply Rmult_lt_reg_r with (287.058 * (1.01 * temp)); nra).
  rewrite (Rmult_comm 33000). apply Rmult_lt_compat_l; [assumption|]. assert (33000 < (1.01 * 180) ^ 2) by (cbn; lra). nra.
Qed.
Print Assumptions c108_density_refuted.

Lemma slope_pos tc : 180 - 273.15 <= tc -> 0 < slope_pa tc.
Proof. intro H. unfold slope_pa. pose proof (svp_slope_pos tc ltac:(lra)) as S0. unfold svp_slope in S0. lra. Qed.
(** Hence the evaporation is overestimated whenever the air is not saturated and there is wind: the part driven by the vapour pressure deficit is the equation's times
    (1.01 temp)^2. *)
Theorem c108_overestimate_refuted : forall hmax hw ht ws rn g temp psych es ea press dt rho,
  0 < press -> 180 <= temp <= 330 -> 0 < psych -> 0 < dt -> ea < es -> 0 < resistance hmax hw ht ws -> gas_law press (1.01 * temp) rho ->
  let pm r := penman_monteith r (psych * 0.622 * 2501000 / press) (resistance hmax hw ht ws) (slope_pa (temp - 273.15)) psych rn g (es - ea) in
  (rn = g -> sealed_potential hmax hw ht ws rn g temp psych es ea press dt = (1.01 * temp) ^ 2 * water (pm rho) dt) /\
  (g <= rn -> water (pm rho) dt < sealed_potential hmax hw ht ws rn g temp psych es ea press dt) /\
  (g <= rn -> 0 < water (pm rho) dt).
Proof.
  intros hmax hw ht ws rn g temp psych es ea press dt rho P T PS D DE RA G pm.
  destruct (c108_density_refuted press temp rho P T G) as [E BIG].
  assert (R0 : 0 < rho) by (unfold gas_law in G; apply Rmult_lt_reg_r with (287.058 * (1.01 * temp)); nra).
  pose proof (slope_pos (temp - 273.15) ltac:(lra)) as S0.
  rewrite c108_equation_partial, E. subst pm. cbv beta. unfold penman_monteith.
  set (ra := resistance hmax hw ht ws) in *. set (sl := slope_pa (temp - 273.15)) in *. clearbody ra sl.
  set (cp := psych * 0.622 * 2501000 / press).
  assert (C0 : 0 < cp) by (unfold cp, Rdiv; apply Rmult_lt_0_compat; [nra|apply Rinv_0_lt_compat; assumption]). clearbody cp.
  set (k := (1.01 * temp) ^ 2) in *. assert (K : 1 < k) by (unfold k; assert (181 < 1.01 * temp) by lra; nra). clearbody k.
  set (v := rho * cp * (es - ea) / ra).
  assert (V : 0 < v) by (unfold v, Rdiv; apply Rmult_lt_0_compat; [apply Rmult_lt_0_compat; [nra|lra]|apply Rinv_0_lt_compat; assumption]).
  replace (rho * k * cp * (es - ea) / ra) with (k * v) by (unfold v, Rdiv; ring). clearbody v.
  assert (I : 0 < / (sl + psych)) by (apply Rinv_0_lt_compat; lra).
  assert (W : 0 < / 2501000) by (apply Rinv_0_lt_compat; lra). unfold water. set (w := / 2501000) in *.
  unfold Rdiv. fold w. clearbody w. set (j := / (sl + psych)) in *. clearbody j.
  assert (WD : 0 < dt * w) by nra.
  split; [|split].
  - intros ->. replace ((sl * (g - g) + k * v) * j) with (k * v * j) by ring. replace ((sl * (g - g) + v) * j) with (v * j) by ring.
    rewrite Rmax_right; [ring|]. apply Rlt_le, Rmult_lt_0_compat; nra.
  - intros GR. assert (N : 0 <= sl * (rn - g)) by (apply Rmult_le_pos; lra). set (n := sl * (rn - g)) in *. clearbody n.
    apply Rlt_le_trans with ((n + k * v) * j * dt * w).
    + rewrite !Rmult_assoc. apply Rmult_lt_compat_r; [nra|nra].
    + rewrite !(Rmult_assoc _ dt w). apply Rmult_le_compat_r; [lra|apply Rmax_r].
  - intros GR. assert (N : 0 <= sl * (rn - g)) by (apply Rmult_le_pos; lra). rewrite Rmult_assoc. apply Rmult_lt_0_compat; [apply Rmult_lt_0_compat; lra|assumption].
Qed.
Print Assumptions c108_overestimate_refuted.
(** Asphalt (obstacles of 0.1 m), 10 m wind and 2 m temperature sensors, 3 m/s, 15 degrees, 900 hPa: the hypotheses are met. *)
Example c108_example : 0 < resistance 0.1 10 2 3 /\ exists rho, gas_law 90000 (1.01 * 288.15) rho /\ 1 < rho < 1.1.
Proof.
  split.
  - unfold resistance, Rdiv. apply Rmult_lt_0_compat; [|apply Rinv_0_lt_compat; lra].
    apply Rmult_lt_0_compat; rewrite <- ln_1; apply ln_increasing; lra.
  - exists (90000 / (287.058 * (1.01 * 288.15))). unfold gas_law. split; [lra|lra].
Qed.
