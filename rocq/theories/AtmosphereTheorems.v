(** Properties C24-C31, C72, C73: meteo/atmosphere.py and the derived fields of
    model.py:_process_meteo_data. *)
From Verif Require Import Common Constants AtmosphereModel AtmosphereProofs.

(** * C24 Pressure and altitude *)
Theorem c24_altitude_of_pressure : forall z, z < top_of_atmosphere ->
  pressure_to_altitude (atmospheric_pressure z) = z.
Proof.
  intros z H. pose proof (hfrac_pos z H) as P. pose proof press_exp_pos as E.
  unfold pressure_to_altitude, atmospheric_pressure. fold (hfrac z).
  replace (STANDARD_ATMOSPHERE * Rpower (hfrac z) press_exp / STANDARD_ATMOSPHERE)
    with (Rpower (hfrac z) press_exp) by (unfold STANDARD_ATMOSPHERE; field).
  rewrite Rpower_inv by lra. unfold hfrac. consts. field; lra.
Qed.
Print Assumptions c24_altitude_of_pressure.
Theorem c24_pressure_of_altitude : forall p, 0 < p ->
  atmospheric_pressure (pressure_to_altitude p) = p /\ pressure_to_altitude p < top_of_atmosphere.
Proof.
  intros p H. pose proof press_exp_pos as E.
  assert (Q : 0 < p / STANDARD_ATMOSPHERE) by (apply Rdiv_lt_0_compat; consts; lra).
  set (q := Rpower (p / STANDARD_ATMOSPHERE) (1 / press_exp)).
  assert (F : hfrac (pressure_to_altitude p) = q).
  { unfold hfrac, pressure_to_altitude. fold q. consts. field; lra. }
  split.
  - unfold atmospheric_pressure. fold (hfrac (pressure_to_altitude p)). rewrite F. unfold q.
    rewrite Rpower_inv' by lra. consts. field.
  - unfold pressure_to_altitude, top_of_atmosphere. fold q.
    pose proof (Rpower_pos' (p / STANDARD_ATMOSPHERE) (1 / press_exp)). fold q in H0.
    consts. apply Rmult_lt_compat_r; [apply Rinv_0_lt_compat; lra|]. nra.
Qed.
Print Assumptions c24_pressure_of_altitude.
Theorem c24_pressure_decreases : forall z z', z < z' -> z' < top_of_atmosphere ->
  0 < atmospheric_pressure z' < atmospheric_pressure z.
Proof.
  intros z z' L H. pose proof press_exp_pos. unfold atmospheric_pressure. fold (hfrac z) (hfrac z').
  assert (0 < STANDARD_ATMOSPHERE) by (consts; lra). split.
  - apply Rmult_lt_0_compat; auto. apply Rpower_pos'.
  - apply Rmult_lt_compat_l; auto. apply Rpower_incr; auto. apply hfrac_pos; auto. apply hfrac_anti; auto.
Qed.
Print Assumptions c24_pressure_decreases.
Theorem c24_sea_level : atmospheric_pressure 0 = 101325.
Proof.
  unfold atmospheric_pressure. rewrite Rmult_0_r. unfold Rdiv at 1. rewrite Rmult_0_l, Rminus_0_r.
  unfold Rpower. rewrite ln_1, Rmult_0_r, exp_0. unfold STANDARD_ATMOSPHERE. ring.
Qed.
Print Assumptions c24_sea_level.
(** All terrestrial elevations are covered. *)
Example c24_example : 9000 < top_of_atmosphere.
Proof. unfold top_of_atmosphere. consts. apply Rmult_lt_reg_r with 9.80665; [lra|]. unfold Rdiv. rewrite Rmult_assoc, Rinv_l by lra. lra. Qed.

(** * C25 Dew point and relative humidity *)
Theorem c25_rel_hum_of_dew_point : forall t rh, valid_temp (Some OverWater) t -> 0 < rh <= 100 ->
  relative_humidity_from_dew_point t (dew_point_temperature t rh) = rh.
Proof.
  intros t rh V H. unfold relative_humidity_from_dew_point.
  destruct (dew_sat t rh V H) as [_ ->]. unfold vapor_pressure.
  pose proof (sat_pos (Some OverWater) t). field. lra.
Qed.
Print Assumptions c25_rel_hum_of_dew_point.
Theorem c25_dew_point_of_rel_hum : forall t td, valid_temp (Some OverWater) t ->
  valid_temp (Some OverWater) td -> td <= t ->
  0 < relative_humidity_from_dew_point t td <= 100 /\
  dew_point_temperature t (relative_humidity_from_dew_point t td) = td.
Proof.
  intros t td V V' L.
  pose proof (sat_pos (Some OverWater) t) as P. pose proof (sat_pos (Some OverWater) td) as P'.
  pose proof (sat_mono (Some OverWater) td t V' L) as M.
  assert (R : 0 < relative_humidity_from_dew_point t td <= 100).
  { unfold relative_humidity_from_dew_point. split. apply Rdiv_lt_0_compat; lra.
    apply Rmult_le_reg_r with (saturation_vapor_pressure (Some OverWater) t); auto.
    unfold Rdiv. rewrite Rmult_assoc, Rinv_l by lra. lra. }
  split; auto. destruct (dew_sat t _ V R) as [VD E].
  apply (sat_inj (Some OverWater)); auto. rewrite E.
  unfold vapor_pressure, relative_humidity_from_dew_point. field. lra.
Qed.
Print Assumptions c25_dew_point_of_rel_hum.
(** The dew point is below the air temperature, equal to it exactly at saturation, and rises with
    humidity. *)
Theorem c25_dew_point_bound : forall t rh, valid_temp (Some OverWater) t -> 0 < rh <= 100 ->
  dew_point_temperature t rh <= t /\ (dew_point_temperature t rh = t <-> rh = 100).
Proof.
  intros t rh V H. destruct (dew_sat t rh V H) as [VD E].
  pose proof (sat_pos (Some OverWater) t) as P. unfold vapor_pressure in E.
  destruct (Rtotal_order (dew_point_temperature t rh) t) as [L|[L|L]].
  - pose proof (sat_incr (Some OverWater) _ _ VD L) as Q. split; [lra|]. split; intro; [lra|].
    subst. rewrite E in Q. lra.
  - split; [lra|]. split; intro; auto. rewrite L in E.
    assert (saturation_vapor_pressure (Some OverWater) t * (rh - 100) = 0) by lra.
    apply Rmult_integral in H1. lra.
  - pose proof (sat_incr (Some OverWater) _ _ V L) as Q. rewrite E in Q.
    assert (saturation_vapor_pressure (Some OverWater) t * rh <= saturation_vapor_pressure (Some OverWater) t * 100)
      by (apply Rmult_le_compat_l; lra). lra.
Qed.
Print Assumptions c25_dew_point_bound.
Theorem c25_dew_point_increases : forall t rh rh', valid_temp (Some OverWater) t ->
  0 < rh -> rh < rh' -> rh' <= 100 -> dew_point_temperature t rh < dew_point_temperature t rh'.
Proof.
  intros t rh rh' V H L H'. destruct (dew_sat t rh V ltac:(lra)) as [VD E].
  destruct (dew_sat t rh' V ltac:(lra)) as [VD' E'].
  pose proof (sat_pos (Some OverWater) t) as P. unfold vapor_pressure in *.
  destruct (Rlt_le_dec (dew_point_temperature t rh) (dew_point_temperature t rh')) as [|G]; auto.
  pose proof (sat_mono (Some OverWater) _ _ VD' G) as Q. rewrite E, E' in Q. nra.
Qed.
Print Assumptions c25_dew_point_increases.
Example c25_example : valid_temp (Some OverWater) 253 /\ 0 < 60 <= 100.
Proof. cbn; unfold T0; lra. Qed.

(** * C26 Precipitation phase *)
Theorem c26_phase : forall t thr rg, 0 < rg ->
  exists f, precipitation_phase (Some t) thr rg = Some (Some f) /\ 0 <= f <= 1 /\
    (t <= thr - rg / 2 -> f = 1) /\ (thr + rg / 2 <= t -> f = 0) /\
    (thr - rg / 2 <= t <= thr + rg / 2 -> f = (thr + rg / 2 - t) / rg).
Proof.
  intros t thr rg H. unfold precipitation_phase.
  destruct (Rlt_dec rg 0); [lra|]. destruct (Req_EM_T rg 0); [lra|].
  eexists; split; [reflexivity|].
  replace (1 - (t - (thr - rg / 2)) / (thr + rg / 2 - (thr - rg / 2))) with ((thr + rg / 2 - t) / rg)
    by (field; lra).
  assert (A : forall a, a <= 0 -> a / rg <= 0).
  { intros. unfold Rdiv. pose proof (Rinv_0_lt_compat _ H). nra. }
  assert (B : forall a, 0 <= a -> 0 <= a / rg).
  { intros. apply Rmult_le_pos; auto. left; apply Rinv_0_lt_compat; auto. }
  assert (C : forall a, rg <= a -> 1 <= a / rg).
  { intros. apply Rmult_le_reg_r with rg; auto. unfold Rdiv. rewrite Rmult_assoc, Rinv_l by lra. lra. }
  assert (D : forall a, a <= rg -> a / rg <= 1).
  { intros. apply Rmult_le_reg_r with rg; auto. unfold Rdiv. rewrite Rmult_assoc, Rinv_l by lra. lra. }
  unfold clip. split; [rmm; lra|]. split; [|split].
  - intro L. pose proof (C (thr + rg / 2 - t) ltac:(lra)). rmm; lra.
  - intro L. pose proof (A (thr + rg / 2 - t) ltac:(lra)). rmm; lra.
  - intro L. pose proof (B (thr + rg / 2 - t) ltac:(lra)). pose proof (D (thr + rg / 2 - t) ltac:(lra)). rmm; lra.
Qed.
Print Assumptions c26_phase.
Theorem c26_phase_step : forall t thr,
  precipitation_phase (Some t) thr 0 = Some (Some (if Rlt_dec t thr then 1 else 0)).
Proof. intros. unfold precipitation_phase. destruct (Rlt_dec 0 0); [lra|]. destruct (Req_EM_T 0 0); [reflexivity|lra]. Qed.
Print Assumptions c26_phase_step.
(** Monotone in temperature, 1/2 at the threshold, negative ranges rejected. *)
Theorem c26_phase_monotone : forall t t' thr rg f f', t <= t' ->
  precipitation_phase (Some t) thr rg = Some (Some f) ->
  precipitation_phase (Some t') thr rg = Some (Some f') -> 0 <= f' <= f /\ f <= 1.
Proof.
  intros t t' thr rg f f' L E E'.
  destruct (Rtotal_order rg 0) as [G|[-> |G]].
  - unfold precipitation_phase in E. destruct (Rlt_dec rg 0); [discriminate|lra].
  - rewrite c26_phase_step in *. injection E as <-. injection E' as <-.
    destruct (Rlt_dec t thr), (Rlt_dec t' thr); lra.
  - unfold precipitation_phase in *. destruct (Rlt_dec rg 0); [lra|]. destruct (Req_EM_T rg 0); [lra|].
    injection E as <-. injection E' as <-.
    assert ((t - (thr - rg / 2)) / (thr + rg / 2 - (thr - rg / 2)) <= (t' - (thr - rg / 2)) / (thr + rg / 2 - (thr - rg / 2))).
    { apply Rmult_le_compat_r; [|lra]. left; apply Rinv_0_lt_compat; lra. }
    unfold clip. rmm; lra.
Qed.
Print Assumptions c26_phase_monotone.
Theorem c26_half_at_threshold : forall thr rg, 0 < rg ->
  precipitation_phase (Some thr) thr rg = Some (Some (1/2)).
Proof.
  intros thr rg H. destruct (c26_phase thr thr rg H) as (f & -> & _ & _ & _ & E).
  rewrite E by lra. do 2 f_equal. field; lra.
Qed.
Print Assumptions c26_half_at_threshold.
Theorem c26_negative_range : forall t thr rg, precipitation_phase t thr rg = None <-> rg < 0.
Proof.
  intros. unfold precipitation_phase. destruct (Rlt_dec rg 0). split; auto.
  destruct (Req_EM_T rg 0); split; intros; try discriminate; lra.
Qed.
Print Assumptions c26_negative_range.
Example c26_example : exists f, precipitation_phase (Some 274) 273 4 = Some (Some f) /\ f = 1/4.
Proof. destruct (c26_phase 274 273 4 ltac:(lra)) as (f & E & _ & _ & _ & H). exists f; split; auto. rewrite H; lra. Qed.

(** * C27 Cloud factor and cloud fraction *)
Theorem c27_ranges : forall x, 0 <= cloud_factor_from_cloud_fraction x <= 1 /\
  (forall f, cloud_fraction_from_cloud_factor x = Some f -> 0 <= f <= 1).
Proof.
  intros x. unfold cloud_factor_from_cloud_fraction, cloud_fraction_from_cloud_factor, clip. split.
  - rmm; lra.
  - intros f. destruct (Rlt_dec _ _); [discriminate|]. intro H; injection H as <-. rmm; lra.
Qed.
Print Assumptions c27_ranges.
Theorem c27_factor_values : forall f, 0 <= f <= 1 ->
  cloud_factor_from_cloud_fraction f = 1 - 0.233 * f - 0.415 * (f * f) /\
  0.352 <= cloud_factor_from_cloud_fraction f.
Proof.
  intros f H. unfold cloud_factor_from_cloud_fraction, clip.
  assert (0.352 <= 1 - 0.233 * f - 0.415 * (f * f) <= 1) by nra.
  rmm; split; lra.
Qed.
Print Assumptions c27_factor_values.
Lemma sqrt_cloud f : 0 <= f ->
  sqrt (- 0.233 * - 0.233 - 4 * - 0.415 * (1 - (1 - 0.233 * f - 0.415 * (f * f)))) = 0.83 * f + 0.233.
Proof.
  intro H. replace (- 0.233 * - 0.233 - 4 * - 0.415 * (1 - (1 - 0.233 * f - 0.415 * (f * f))))
    with ((0.83 * f + 0.233) * (0.83 * f + 0.233)) by lra.
  apply sqrt_square. lra.
Qed.
Theorem c27_fraction_of_factor : forall f, 0 <= f <= 1 ->
  cloud_fraction_from_cloud_factor (cloud_factor_from_cloud_fraction f) = Some f.
Proof.
  intros f H. destruct (c27_factor_values f H) as [-> _]. unfold cloud_fraction_from_cloud_factor.
  destruct (Rlt_dec _ _); [exfalso; nra|]. f_equal.
  rewrite sqrt_cloud by lra.
  replace ((- - 0.233 - (0.83 * f + 0.233)) / (2 * - 0.415)) with f by lra.
  unfold clip. rmm; lra.
Qed.
Print Assumptions c27_fraction_of_factor.
(** Conversely for factors a cloud fraction can produce; smaller factors mean overcast (1). *)
Theorem c27_factor_of_fraction : forall cf, cf <= 1 ->
  exists f, cloud_fraction_from_cloud_factor cf = Some f /\
    (0.352 <= cf -> cloud_factor_from_cloud_fraction f = cf) /\ (cf <= 0.352 -> f = 1).
Proof.
  intros cf H. unfold cloud_fraction_from_cloud_factor.
  set (disc := - 0.233 * - 0.233 - 4 * - 0.415 * (1 - cf)).
  assert (D : 0.054 < disc) by (unfold disc; lra).
  destruct (Rlt_dec disc 0); [lra|]. eexists; split; [reflexivity|].
  pose proof (sqrt_sqrt disc ltac:(lra)) as S. pose proof (sqrt_pos disc) as P.
  set (s := sqrt disc) in *.
  replace ((- - 0.233 - s) / (2 * - 0.415)) with ((s - 0.233) / 0.83) by lra.
  assert (G : 0.233 <= s) by (unfold disc in S; nra).
  assert (F : 0 <= (s - 0.233) / 0.83) by lra.
  split.
  - intro L. assert (s <= 1.063) by (unfold disc in S; nra).
    assert ((s - 0.233) / 0.83 <= 1) by lra.
    replace (clip 0 1 ((s - 0.233) / 0.83)) with ((s - 0.233) / 0.83) by (unfold clip; rmm; lra).
    destruct (c27_factor_values ((s - 0.233) / 0.83) ltac:(lra)) as [-> _]. unfold disc in S. nra.
  - intro L. assert (1.063 <= s) by (unfold disc in S; nra). unfold clip; rmm; lra.
Qed.
Print Assumptions c27_factor_of_fraction.
Theorem c27_monotone : forall f f', 0 <= f -> f < f' -> f' <= 1 ->
  cloud_factor_from_cloud_fraction f' < cloud_factor_from_cloud_fraction f.
Proof.
  intros f f' H L H'. destruct (c27_factor_values f ltac:(lra)) as [-> _].
  destruct (c27_factor_values f' ltac:(lra)) as [-> _]. nra.
Qed.
Print Assumptions c27_monotone.
(** Cloud fraction from humidity: a fraction, increasing with the humidity at the pressure level. *)
Theorem c27_cloud_fraction_from_humidity : forall temp rh elev l dl lev sf ef,
  0 <= cloud_fraction_from_humidity temp rh elev l dl lev sf ef <= 1.
Proof. intros. unfold cloud_fraction_from_humidity, clip. rmm; lra. Qed.
Print Assumptions c27_cloud_fraction_from_humidity.
Theorem c27_cloud_fraction_humidity_saturated : forall temp elev l dl lev sf ef,
  valid_temp (Some OverWater) temp -> 0 <= sf <= 1 -> ef < 100 ->
  elev = pressure_to_altitude lev ->
  cloud_fraction_from_humidity temp 100 elev l dl lev sf ef = sf.
Proof.
  intros temp elev l dl lev sf ef V S E ->. unfold cloud_fraction_from_humidity.
  destruct (c25_dew_point_bound temp 100 V ltac:(lra)) as [_ [_ D]]. rewrite (D eq_refl).
  replace (pressure_to_altitude lev - pressure_to_altitude lev) with 0 by ring.
  rewrite !Rmult_0_r, !Rminus_0_r. pose proof (sat_pos None temp).
  replace (100 * saturation_vapor_pressure None temp / saturation_vapor_pressure None temp - 100) with 0 by (field; lra).
  unfold Rdiv at 1. rewrite Rmult_0_l, exp_0. unfold clip. rmm; lra.
Qed.
Print Assumptions c27_cloud_fraction_humidity_saturated.
Example c27_example : cloud_factor_from_cloud_fraction (1/2) = 0.77975 /\ valid_temp (Some OverWater) 280.
Proof. destruct (c27_factor_values (1/2) ltac:(lra)) as [-> _]. cbn; unfold T0; lra. Qed.

(** * C28 Wind components *)
Theorem c28_round_trip : forall ws wd, 0 < ws -> 0 <= wd < 360 ->
  let '(u, v) := wind_to_uv ws wd in wind_from_uv u v = (ws, wd).
Proof.
  intros ws wd Hs Hd. unfold wind_to_uv, wind_from_uv. pose proof PI_RGT_0 as P. f_equal.
  - replace (- ws * sin (deg2rad wd) * (- ws * sin (deg2rad wd)) + - ws * cos (deg2rad wd) * (- ws * cos (deg2rad wd)))
      with (ws * ws * (Rsqr (sin (deg2rad wd)) + Rsqr (cos (deg2rad wd)))) by (unfold Rsqr; ring).
    rewrite sin2_cos2, Rmult_1_r. apply sqrt_square; lra.
  - assert (A : forall t, rad2deg (deg2rad t) = t) by (intro; unfold rad2deg, deg2rad; field; lra).
    assert (B : forall t t', t < t' -> deg2rad t < deg2rad t').
    { intros. unfold deg2rad. apply Rmult_lt_compat_r; auto. apply Rdiv_lt_0_compat; lra. }
    assert (B' : forall t t', t <= t' -> deg2rad t <= deg2rad t').
    { intros. unfold deg2rad. apply Rmult_le_compat_r; auto. left; apply Rdiv_lt_0_compat; lra. }
    assert (C1 : deg2rad 180 = PI) by (unfold deg2rad; field).
    assert (C2 : deg2rad (-180) = - PI) by (unfold deg2rad; field).
    assert (S : forall k, k = 270 - wd \/ k = 270 - wd - 360 ->
      sin (deg2rad k) = - cos (deg2rad wd) /\ cos (deg2rad k) = - sin (deg2rad wd)).
    { intros k Hk.
      assert (E3 : forall x, sin (3 * (PI / 2) - x) = - cos x /\ cos (3 * (PI / 2) - x) = - sin x).
      { intro x. rewrite sin_minus, cos_minus, sin_3PI2, cos_3PI2. split; ring. }
      destruct Hk as [-> | ->].
      - replace (deg2rad (270 - wd)) with (3 * (PI / 2) - deg2rad wd) by (unfold deg2rad; field). apply E3.
      - replace (deg2rad (270 - wd - 360)) with (3 * (PI / 2) - deg2rad wd - 2 * PI) by (unfold deg2rad; field).
        destruct (E3 (deg2rad wd)) as [X Y].
        rewrite <- X, <- Y. rewrite <- (sin_period (3 * (PI / 2) - deg2rad wd - 2 * PI) 1).
        rewrite <- (cos_period (3 * (PI / 2) - deg2rad wd - 2 * PI) 1).
        cbn [INR]. split; f_equal; ring. }
    destruct (Rle_lt_dec (270 - wd) 180) as [L|L].
    + destruct (S (270 - wd)) as [X Y]; auto.
      replace (- ws * cos (deg2rad wd)) with (ws * sin (deg2rad (270 - wd))) by (rewrite X; ring).
      replace (- ws * sin (deg2rad wd)) with (ws * cos (deg2rad (270 - wd))) by (rewrite Y; ring).
      rewrite arctan2_polar; auto.
      * rewrite A. replace (270 - (270 - wd)) with (wd + 360 * IZR 0) by ring. apply fmod_period; auto.
      * rewrite <- C2, <- C1. split; [apply B; lra|apply B'; auto].
    + destruct (S (270 - wd - 360)) as [X Y]; auto.
      replace (- ws * cos (deg2rad wd)) with (ws * sin (deg2rad (270 - wd - 360))) by (rewrite X; ring).
      replace (- ws * sin (deg2rad wd)) with (ws * cos (deg2rad (270 - wd - 360))) by (rewrite Y; ring).
      rewrite arctan2_polar; auto.
      * rewrite A. replace (270 - (270 - wd - 360)) with (wd + 360 * IZR 1) by ring. apply fmod_period; auto.
      * rewrite <- C2, <- C1. split; [apply B; lra|apply B'; lra].
Qed.
Print Assumptions c28_round_trip.
(** The speed also survives for calm (0) and the components have the meteorological meaning. *)
Theorem c28_components : forall ws,
  wind_to_uv ws 0 = (0, - ws) /\ wind_to_uv ws 90 = (- ws, 0) /\
  (0 <= ws -> forall wd, fst (wind_from_uv (fst (wind_to_uv ws wd)) (snd (wind_to_uv ws wd))) = ws).
Proof.
  intro ws. unfold wind_to_uv. split; [|split].
  - unfold deg2rad. rewrite Rmult_0_l, sin_0, cos_0. f_equal; ring.
  - replace (deg2rad 90) with (PI / 2) by (unfold deg2rad; field). rewrite sin_PI2, cos_PI2. f_equal; ring.
  - intros H wd. cbn [fst snd]. unfold wind_from_uv. cbn [fst].
    replace (- ws * sin (deg2rad wd) * (- ws * sin (deg2rad wd)) + - ws * cos (deg2rad wd) * (- ws * cos (deg2rad wd)))
      with (ws * ws * (Rsqr (sin (deg2rad wd)) + Rsqr (cos (deg2rad wd)))) by (unfold Rsqr; ring).
    rewrite sin2_cos2, Rmult_1_r. apply sqrt_square; lra.
Qed.
Print Assumptions c28_components.
Example c28_example : 0 < 5 /\ 0 <= 300 < 360. Proof. lra. Qed.

(** * C29 Vapour pressure and wet-bulb temperature *)
Theorem c29_saturation : forall over t t', valid_temp over t -> t < t' ->
  0 < saturation_vapor_pressure over t < saturation_vapor_pressure over t'.
Proof. intros. split; [apply sat_pos|apply sat_incr; auto]. Qed.
Print Assumptions c29_saturation.
(** Which formula is used: water at and above 0 degC, ice below. *)
Theorem c29_saturation_selection : forall t,
  saturation_vapor_pressure None t =
  (if Rle_dec 273.15 t then 610.78 * exp (17.08 * (t - 273.15) / (234.18 + (t - 273.15)))
   else 610.71 * exp (22.44 * (t - 273.15) / (272.44 + (t - 273.15)))).
Proof.
  intro t. unfold saturation_vapor_pressure, T0, magnus_water, magnus_ice.
  destruct (Rle_dec 0 (t - 273.15)), (Rle_dec 273.15 t); auto; lra.
Qed.
Print Assumptions c29_saturation_selection.
Theorem c29_vapor_pressure : forall over t rh, 0 <= rh <= 100 ->
  0 <= vapor_pressure over t rh <= saturation_vapor_pressure over t /\
  vapor_pressure over t 100 = saturation_vapor_pressure over t.
Proof. intros over t rh H. unfold vapor_pressure. pose proof (sat_pos over t). repeat split; nra. Qed.
Print Assumptions c29_vapor_pressure.
(** Specific humidity is a mass fraction and increases with vapour pressure. *)
Theorem c29_specific_humidity : forall p v v', 0 <= v -> v < v' -> v' <= p ->
  0 <= specific_humidity p v < specific_humidity p v' /\ specific_humidity p v' <= 1.
Proof.
  intros p v v' H L H'. unfold specific_humidity.
  assert (A : 0 < p - 0.378 * v') by lra. assert (B : 0 < p - 0.378 * v) by lra.
  split; [split|].
  - apply Rmult_le_pos; [lra|]. left; apply Rinv_0_lt_compat; auto.
  - apply Rmult_lt_reg_r with ((p - 0.378 * v) * (p - 0.378 * v')). nra.
    replace (0.622 * v / (p - 0.378 * v) * ((p - 0.378 * v) * (p - 0.378 * v'))) with (0.622 * v * (p - 0.378 * v')) by (field; lra).
    replace (0.622 * v' / (p - 0.378 * v') * ((p - 0.378 * v) * (p - 0.378 * v'))) with (0.622 * v' * (p - 0.378 * v)) by (field; lra).
    nra.
  - apply Rmult_le_reg_r with (p - 0.378 * v'); auto. unfold Rdiv. rewrite Rmult_assoc, Rinv_l by lra. lra.
Qed.
Print Assumptions c29_specific_humidity.
(** The psychrometric equation has at most one solution; for vapour pressures up to saturation it is
    not above the air temperature. *)
Theorem c29_wet_bulb_unique : forall t v psy w w', 0 <= psy -> valid_temp None w -> valid_temp None w' ->
  psychro_diff t w v psy = 0 -> psychro_diff t w' v psy = 0 -> w = w'.
Proof.
  intros t v psy w w' P V V' E E'. unfold psychro_diff in *.
  destruct (Rtotal_order w w') as [L|[L|L]]; auto.
  - pose proof (sat_incr None w w' V L); nra.
  - pose proof (sat_incr None w' w V' L); nra.
Qed.
Print Assumptions c29_wet_bulb_unique.
Theorem c29_wet_bulb_below_air : forall t v psy w, 0 <= psy -> valid_temp None t ->
  v <= saturation_vapor_pressure None t -> psychro_diff t w v psy = 0 -> w <= t.
Proof.
  intros t v psy w P V H E. unfold psychro_diff in E.
  destruct (Rle_lt_dec w t) as [|L]; auto. pose proof (sat_incr None t w V L). nra.
Qed.
Print Assumptions c29_wet_bulb_below_air.
(** When the iteration ends, one more secant step would move the result by at most 0.01 K. *)
Lemma secant_exit f fuel x0 x1 x : secant f fuel x0 x1 = Some (Some x) ->
  exists x', f x' <> f x /\ Rabs ((x - x') / (f x - f x') * f x) <= 1/100.
Proof.
  revert x0 x1; induction fuel as [|n IH]; intros x0 x1; cbn [secant]; [discriminate|].
  destruct (Req_EM_T (f x1) (f x0)); [discriminate|].
  destruct (Rlt_dec secant_tol _) as [L|L]; [apply IH|].
  intro H; injection H as <-. exists x0. split; [congruence|]. unfold secant_tol in L. lra.
Qed.
(** Error of the returned wet-bulb temperature: with w the exact solution and s the mean slope of the
    saturation pressure over the last secant, |x - w| <= 0.01 K * (1 + s / psy). *)
Theorem c29_wet_bulb_error : forall fuel t v psy x w, 0 < psy ->
  wet_bulb_temperature fuel t v psy = Some (Some x) ->
  valid_temp None x -> valid_temp None w -> psychro_diff t w v psy = 0 ->
  exists x', x' <> x /\
    let s := (saturation_vapor_pressure None x - saturation_vapor_pressure None x') / (x - x') in
    Rabs (x - w) <= 1/100 * Rabs (1 + s / psy).
Proof.
  intros fuel t v psy x w P H V W E. apply secant_exit in H. destruct H as (x' & N & H).
  exists x'. assert (NX : x' <> x) by (intro; subst; auto). split; auto. cbv zeta.
  set (f := fun wb => psychro_diff t wb v psy) in *.
  set (s := (saturation_vapor_pressure None x - saturation_vapor_pressure None x') / (x - x')).
  assert (F : f x - f x' = - (psy + s) * (x - x')).
  { unfold f, psychro_diff, s. field. lra. }
  assert (NZ : psy + s <> 0).
  { intro Z. apply N. assert (ZZ : f x - f x' = 0) by (rewrite F; rewrite Z; ring). change (f x' = f x). lra. }
  assert (D : (x - x') / (f x - f x') * f x = - (f x / (psy + s))).
  { rewrite F. field. split; lra. }
  change (Rabs ((x - x') / (f x - f x') * f x) <= 1 / 100) in H. rewrite D, Rabs_Ropp in H.
  assert (A : Rabs (f x) <= 1/100 * Rabs (psy + s)).
  { unfold Rdiv in H. rewrite Rabs_mult, Rabs_inv in H.
    assert (0 < Rabs (psy + s)) by (apply Rabs_pos_lt; auto).
    apply Rmult_le_reg_r with (/ Rabs (psy + s)). apply Rinv_0_lt_compat; auto.
    rewrite Rmult_assoc, Rinv_r by lra. lra. }
  assert (B : psy * Rabs (x - w) <= Rabs (f x)).
  { unfold f, psychro_diff in *. 
    assert (EQ : v - (saturation_vapor_pressure None x - psy * (t - x)) =
      - ((saturation_vapor_pressure None x - saturation_vapor_pressure None w) + psy * (x - w))) by lra.
    rewrite EQ, Rabs_Ropp.
    destruct (Rtotal_order x w) as [L|[L|L]].
    - pose proof (sat_incr None x w V L) as I. rewrite (Rabs_left (x - w)) by lra.
      assert (psy * (x - w) < 0) by (nra).
      rewrite Rabs_left by lra. lra.
    - subst. rewrite !Rminus_eq_0, Rmult_0_r, Rplus_0_r, Rabs_R0. lra.
    - pose proof (sat_incr None w x W L) as I. rewrite (Rabs_right (x - w)) by lra.
      assert (0 < psy * (x - w)) by (apply Rmult_lt_0_compat; lra).
      rewrite Rabs_right by lra. lra. }
  replace (1 + s / psy) with ((psy + s) / psy) by (field; lra).
  unfold Rdiv at 2. rewrite Rabs_mult, Rabs_inv, (Rabs_right psy) by lra.
  apply Rmult_le_reg_l with psy; auto.
  replace (psy * (1 / 100 * (Rabs (psy + s) * / psy))) with (1/100 * Rabs (psy + s)) by (field; lra). lra.
Qed.
Print Assumptions c29_wet_bulb_error.
(** Saturated air: the air temperature itself is returned at once. *)
Theorem c29_wet_bulb_saturated : forall fuel t psy, 0 <= psy -> valid_temp None (t - 10) ->
  wet_bulb_temperature (S fuel) t (saturation_vapor_pressure None t) psy = Some (Some t).
Proof.
  intros fuel t psy P V. unfold wet_bulb_temperature. cbn [secant].
  assert (Z : psychro_diff t t (saturation_vapor_pressure None t) psy = 0) by (unfold psychro_diff; ring).
  rewrite Z. destruct (Req_EM_T _ _) as [E|E].
  - unfold psychro_diff in E. pose proof (sat_incr None (t - 10) t V ltac:(lra)). lra.
  - rewrite Rmult_0_r, Rabs_R0. unfold secant_tol. destruct (Rlt_dec _ _); [lra|reflexivity].
Qed.
Print Assumptions c29_wet_bulb_saturated.
Example c29_example : valid_temp None 263.15 /\ valid_temp None 253.15 /\ 0 <= 80 <= 100.
Proof. cbn; unfold T0; lra. Qed.

(** * C30 Dry air density *)
Theorem c30_run_density : forall t p, 0 < t -> run_dry_air_density t p * (287.058 * t) = p.
Proof. intros. unfold run_dry_air_density, GAS_CONSTANT_DRY_AIR. field. lra. Qed.
Print Assumptions c30_run_density.
(** The library function is wrong by the factor (R T)^2 for every positive pressure. *)
Theorem c30_library_density_refuted : forall t p, 200 < t -> 0 < p ->
  dry_air_density t p * (287.058 * t) <> p /\
  dry_air_density t p = run_dry_air_density t p * ((287.058 * t) * (287.058 * t)) /\
  run_dry_air_density t p < dry_air_density t p.
Proof.
  intros t p Ht Hp. unfold dry_air_density, run_dry_air_density, GAS_CONSTANT_DRY_AIR.
  assert (A : 50000 < 287.058 * t) by lra. set (q := 287.058 * t) in *. clearbody q.
  assert (B : p < p * q) by nra. assert (C : p * q < p * q * q) by nra. split; [|split].
  - lra.
  - field. lra.
  - assert (p / q < p). { apply Rmult_lt_reg_r with q; [lra|]. unfold Rdiv. rewrite Rmult_assoc, Rinv_l by lra. lra. }
    lra.
Qed.
Print Assumptions c30_library_density_refuted.
Example c30_example : 200 < 273 /\ 0 < 100000. Proof. lra. Qed.

(** * C31 Snowfall and rainfall *)
(** Fraction of the precipitation of a pixel falling as snow by its own temperature; missing
    temperatures count as rain. *)
Definition own_fraction (c : phase_cfg) (p : ppix) (f : R) : Prop :=
  match pp_temp p with
  | Some t => precipitation_phase (Some t) (threshold_temp c) (temp_range c) = Some (Some f)
  | None => f = 0
  end.
Definition is_rain_at_or_above (c : phase_cfg) (ps : list ppix) (z : R) : Prop :=
  exists q, In q ps /\ own_fraction c q 0 /\ z <= elev q.

Lemma snow_frac_own c p f : 0 <= temp_range c -> (snow_frac c p = Some f <-> own_fraction c p f).
Proof.
  intro H. unfold snow_frac, own_fraction, precipitation_phase.
  destruct (Rlt_dec (temp_range c) 0); [lra|].
  destruct (pp_temp p) as [t|]; destruct (Req_EM_T (temp_range c) 0); cbn [nan_to_zero]; split; intro E;
    try (injection E as <-); try (subst f); reflexivity.
Qed.
Lemma all_some_forall2 {A} (l : list (option A)) r : all_some l = Some r <-> Forall2 (fun o x => o = Some x) l r.
Proof.
  split.
  - revert r; induction l as [|[x|] l IH]; intros r; cbn; [intro H; injection H as <-; constructor| |discriminate].
    destruct (all_some l); [|discriminate]. intro H; injection H as <-. constructor; auto.
  - induction 1; cbn; auto. subst. rewrite IHForall2. auto.
Qed.


Lemma rain_filter c ps fs : Forall2 (own_fraction c) ps fs -> 0 <= temp_range c ->
  forall e, In e (map fst (filter (fun ef => is_zero (snd ef)) (combine (map elev ps) fs))) <->
            exists q, In q ps /\ own_fraction c q 0 /\ e = elev q.
Proof.
  intros F Hr e. split.
  - intro H. apply in_map_iff in H. destruct H as ((e' & f) & E1 & H2). cbn in E1. subst e'.
    apply filter_In in H2. destruct H2 as [H2 Z]. cbn in Z. unfold is_zero in Z. destruct (Req_EM_T f 0) as [->|]; [|discriminate].
    clear Hr Z. induction F as [|p f ps fs Hp F IH]; cbn in H2; [tauto|].
    destruct H2 as [H2|H2].
    + injection H2 as <- <-. exists p. repeat split; auto. left; auto.
    + destruct (IH H2) as (q & Q1 & Q2 & Q3). exists q; repeat split; auto. right; auto.
  - intros (q & Q1 & Q2 & Q3). subst e. apply in_map_iff. exists (elev q, 0). split; auto.
    apply filter_In. split; [|cbn; unfold is_zero; destruct (Req_EM_T 0 0); auto; lra].
    induction F as [|p f ps fs Hp F IH]; cbn in *; [tauto|]. destruct Q1 as [->|Q1]; [|right; auto].
    left. f_equal. apply (snow_frac_own c q) in Hp; auto. apply (snow_frac_own c q) in Q2; auto. congruence.
Qed.

Lemma combine_map_nth (g : R -> R -> R) ps fs i p f : nth_error ps i = Some p -> nth_error fs i = Some f ->
  nth_error (combine ps (map (fun ef => g (fst ef) (snd ef)) (combine (map elev ps) fs))) i = Some (p, g (elev p) f).
Proof.
  revert fs i. induction ps as [|q qs IH]; intros [|f' fs] [|i] Hp Hf; cbn in *; try discriminate.
  - congruence.
  - apply IH; auto.
Qed.
Theorem c31_partition : forall c ps out, precip_fields c ps = Some out ->
  length out = length ps /\
  forall i p s r, nth_error ps i = Some p -> nth_error out i = Some (s, r) ->
    exists f, 0 <= f <= 1 /\
      ((enforce c = true /\ is_rain_at_or_above c ps (elev p)) -> f = 0) /\
      (~ (enforce c = true /\ is_rain_at_or_above c ps (elev p)) -> own_fraction c p f) /\
      match precip p with
      | Some v => s = Some (f * v) /\ r = Some ((1 - f) * v)
      | None => s = None /\ r = None
      end.
Proof.
  intros c ps out H. unfold precip_fields in H.
  destruct (all_some (map (snow_frac c) ps)) as [fs|] eqn:E; [|discriminate]. injection H as <-.
  apply all_some_forall2 in E.
  assert (F0 : Forall2 (fun p f => snow_frac c p = Some f) ps fs).
  { clear -E. remember (map (snow_frac c) ps) as l eqn:El. revert ps El.
    induction E as [|o x l r Ho E IH]; intros [|p ps] El; cbn in El; try discriminate; constructor.
    - injection El as E1 E2. congruence.
    - injection El as E1 E2. auto. }
  clear E. destruct ps as [|p0 ps0].
  { inversion F0; subst. split; [unfold enforce_no_snow; destruct (enforce c); reflexivity|].
    intros i p s r Hi. destruct i; discriminate. }
  assert (Hr : 0 <= temp_range c).
  { inversion F0 as [|? ? ? ? A]; subst. unfold snow_frac, precipitation_phase in A.
    destruct (Rlt_dec (temp_range c) 0); [discriminate|lra]. }
  set (ps := p0 :: ps0) in *.
  assert (F : Forall2 (own_fraction c) ps fs).
  { clear -F0 Hr. induction F0; constructor; auto. apply snow_frac_own; auto. }
  assert (Len : length ps = length fs) by (clear -F; induction F; cbn; auto).
  pose proof (rain_filter c ps fs F Hr) as RF.
  set (efs := combine (map elev ps) fs) in *.
  set (rain := filter (fun ef => is_zero (snd ef)) efs) in *.
  assert (Snd : map snd efs = fs).
  { unfold efs. clear -Len. revert fs Len; induction ps as [|p ps IH]; intros [|f fs] L; cbn in *; try discriminate; auto. f_equal; auto. }
  (* the used fraction of each pixel *)
  set (g := fun (e f : R) => if enforce c then match rain with [] => f | _ => if Rle_dec e (maxR (map fst rain)) then 0 else f end else f).
  assert (EN : enforce_no_snow c efs = map (fun ef => g (fst ef) (snd ef)) efs).
  { unfold enforce_no_snow, g. fold rain. destruct (enforce c); auto. destruct rain; auto. }
  rewrite EN.
  assert (L2 : length (map (fun ef => g (fst ef) (snd ef)) efs) = length ps).
  { rewrite map_length. unfold efs. rewrite combine_length, map_length. lia. }
  split.
  { rewrite map_length, combine_length, L2. lia. }
  intros i p s r Hp Ho.
  rewrite nth_error_map in Ho.
  assert (NF : exists f, nth_error fs i = Some f).
  { destruct (nth_error fs i) eqn:Q; eauto. apply nth_error_None in Q. assert (i < length ps)%nat by (apply nth_error_Some; congruence). lia. }
  destruct NF as [f Hf].
  assert (OF : own_fraction c p f).
  { clear -F Hp Hf. revert i Hp Hf. induction F; intros [|i] Hp Hf; cbn in *; try discriminate; [congruence|eauto]. }
  assert (HC : nth_error (combine ps (map (fun ef => g (fst ef) (snd ef)) efs)) i = Some (p, g (elev p) f)).
  { unfold efs. apply combine_map_nth; auto. }
  rewrite HC in Ho. cbn in Ho. injection Ho as <- <-.
  exists (g (elev p) f).
  assert (R01 : 0 <= f <= 1).
  { unfold own_fraction in OF. destruct (pp_temp p) as [t|]; [|lra].
    destruct (c26_phase_monotone t t _ _ f f ltac:(lra) OF OF). lra. }
  assert (G : (enforce c = true /\ is_rain_at_or_above c ps (elev p) -> g (elev p) f = 0) /\
              (~ (enforce c = true /\ is_rain_at_or_above c ps (elev p)) -> g (elev p) f = f)).
  { unfold g. destruct (enforce c); [|split; [intros [? _]; discriminate|auto]].
    destruct (list_eq_dec (fun a b => Req_EM_T a b) (map fst rain) []) as [Z|NZ].
    - apply map_eq_nil in Z. rewrite Z. split; auto. intros [_ (q & Q1 & Q2 & Q3)].
      exfalso. assert (In (elev q) (map fst rain)) by (apply RF; eauto). rewrite Z in H. destruct H.
    - assert (X : (match rain with [] => f | _ => if Rle_dec (elev p) (maxR (map fst rain)) then 0 else f end)
        = if Rle_dec (elev p) (maxR (map fst rain)) then 0 else f) by (destruct rain; [destruct NZ; auto|auto]).
      rewrite X. split.
      + intros [_ (q & Q1 & Q2 & Q3)]. destruct (Rle_dec _ _) as [|N]; auto. exfalso. apply N.
        eapply Rle_trans; [exact Q3|]. apply maxR_ge. apply RF; eauto.
      + intro N. destruct (Rle_dec _ _) as [L|]; auto. exfalso. apply N. split; auto.
        pose proof (maxR_in _ NZ) as I. apply RF in I. destruct I as (q & Q1 & Q2 & Q3). exists q. repeat split; auto. lra. }
  destruct G as [G1 G2].
  assert (R2 : 0 <= g (elev p) f <= 1).
  { unfold g. destruct (enforce c); auto. destruct rain; auto. destruct (Rle_dec _ _); lra. }
  split; auto. split; auto. split.
  - intro N. rewrite G2 by auto. auto.
  - unfold numscale. destruct (precip p); auto.
Qed.
Print Assumptions c31_partition.

(** Consequence: the two parts add up to the precipitation and neither is negative. *)
Theorem c31_sum : forall c ps out i p v s r, precip_fields c ps = Some out ->
  nth_error ps i = Some p -> nth_error out i = Some (s, r) -> precip p = Some v -> 0 <= v ->
  exists a b, s = Some a /\ r = Some b /\ a + b = v /\ 0 <= a /\ 0 <= b.
Proof.
  intros c ps out i p v s r H Hp Ho Hv Nv.
  destruct (c31_partition c ps out H) as [_ P]. destruct (P i p s r Hp Ho) as (f & R & _ & _ & M).
  rewrite Hv in M. destruct M as [-> ->]. exists (f * v), ((1 - f) * v). repeat split; nra.
Qed.
Print Assumptions c31_sum.
(** It fails only for a negative configured range. *)
Theorem c31_total : forall c ps, 0 <= temp_range c -> exists out, precip_fields c ps = Some out.
Proof.
  intros c ps H. unfold precip_fields.
  assert (exists fs, all_some (map (snow_frac c) ps) = Some fs) as [fs ->].
  { induction ps as [|p ps [fs IH]]; cbn; [eauto|].
    assert (exists f, snow_frac c p = Some f) as [f ->].
    { unfold snow_frac, precipitation_phase. destruct (Rlt_dec _ _); [lra|]. destruct (Req_EM_T _ _); eauto. }
    rewrite IH. eauto. }
  eauto.
Qed.
Print Assumptions c31_total.
(** Redistribution scales the snowfall and keeps precipitation = snowfall + rainfall. *)
Theorem c31_redistribution : forall k a b,
  redistribute_snow k (Some a, Some b) = (Some (k * a), Some b, Some (k * a + b)).
Proof. reflexivity. Qed.
Print Assumptions c31_redistribution.
(** With enforce_no_snow_below_rain a single high pixel whose temperature is missing suppresses the
    snowfall of every pixel below it, however cold: missing data are counted as observed rain. *)
Theorem c31_missing_temp_is_not_rain_refuted :
  exists c ps out, precip_fields c ps = Some out /\
    nth_error ps 0 = Some (PPix 3000 None (Some 5) 1) /\
    nth_error ps 1 = Some (PPix 2000 (Some 253) (Some 5) 1) /\
    own_fraction c (PPix 2000 (Some 253) (Some 5) 1) 1 /\
    nth_error out 1 = Some (Some 0, Some 5).
Proof.
  set (c := PhaseCfg 273.15 2 true).
  set (ps := [PPix 3000 None (Some 5) 1; PPix 2000 (Some 253) (Some 5) 1]).
  destruct (c31_total c ps ltac:(cbn; lra)) as [out E].
  assert (O : own_fraction c (PPix 2000 (Some 253) (Some 5) 1) 1).
  { unfold own_fraction. cbn [pp_temp].
    destruct (c26_phase 253 (threshold_temp c) (temp_range c) ltac:(cbn; lra)) as (f & F & _ & G & _).
    rewrite F. do 2 f_equal. apply G. cbn; lra. }
  exists c, ps, out. repeat split; auto.
  destruct (c31_partition c ps out E) as [L P].
  destruct (nth_error out 1) as [[s r]|] eqn:Q.
  - destruct (P 1%nat _ s r eq_refl Q) as (f & R & Z & _ & M). cbn in M.
    assert (f = 0). { apply Z. split; auto. exists (PPix 3000 None (Some 5) 1). repeat split; cbn; auto; lra. }
    subst f. destruct M as [-> ->]. do 2 f_equal; f_equal; ring.
  - apply nth_error_None in Q. rewrite L in Q. cbn in Q. lia.
Qed.
Print Assumptions c31_missing_temp_is_not_rain_refuted.

(** * C72 Humidity conversions *)
Theorem c72_round_trip : forall t rh, 0 < t ->
  relative_humidity t (absolute_humidity t (vapor_pressure None t rh)) = rh.
Proof.
  intros t rh H. unfold relative_humidity, absolute_humidity, vapor_pressure.
  pose proof (sat_pos None t). unfold SPEC_GAS_CONSTANT_WATER_VAPOR. field. lra.
Qed.
Print Assumptions c72_round_trip.
Theorem c72_absolute_humidity : forall t v, 0 < t -> absolute_humidity t v * (461.52 * t) = v.
Proof. intros. unfold absolute_humidity, SPEC_GAS_CONSTANT_WATER_VAPOR. field. lra. Qed.
Print Assumptions c72_absolute_humidity.
(** Positivity of the derived constants on the meteorological range. *)
Theorem c72_derived_positive : forall t p q, 150 < t < 1000 -> 0 < p -> 0 <= q ->
  0 < latent_heat_of_vaporization t /\ 1004 < specific_heat_capacity_moist_air q /\
  0 < psychrometric_constant p (specific_heat_capacity_moist_air q) (latent_heat_of_vaporization t).
Proof.
  intros t p q Ht Hp Hq.
  assert (A : 0 < latent_heat_of_vaporization t) by (unfold latent_heat_of_vaporization, Lv, T0; lra).
  assert (B : 1004 < specific_heat_capacity_moist_air q) by (unfold specific_heat_capacity_moist_air, SPEC_HEAT_CAP_DRY_AIR; nra).
  split; [|split]; auto. unfold psychrometric_constant. apply Rdiv_lt_0_compat; nra.
Qed.
Print Assumptions c72_derived_positive.
Example c72_example : 150 < 280 < 1000. Proof. lra. Qed.

(** * C73 Logarithmic wind profile *)
Theorem c73_log_wind : forall ws h h' z0, 0 < z0 < h -> 0 < h' ->
  log_wind_profile ws h h z0 = ws /\ log_wind_profile ws h z0 z0 = 0 /\
  (z0 < h' -> log_wind_profile (log_wind_profile ws h h' z0) h' h z0 = ws) /\
  (0 < ws -> h < h' -> ws < log_wind_profile ws h h' z0) /\
  (0 < ws -> h' < h -> log_wind_profile ws h h' z0 < ws).
Proof.
  intros ws h h' z0 H H'. unfold log_wind_profile.
  assert (A : 0 < ln (h / z0)).
  { rewrite <- ln_1. apply ln_increasing; [lra|]. apply Rmult_lt_reg_r with z0; [lra|]. unfold Rdiv. rewrite Rmult_assoc, Rinv_l by lra. lra. }
  assert (M : forall x y, 0 < x -> x < y -> ln (x / z0) < ln (y / z0)).
  { intros. apply ln_increasing. apply Rdiv_lt_0_compat; lra. apply Rmult_lt_compat_r; auto. apply Rinv_0_lt_compat; lra. }
  split; [field; lra|]. split; [|split; [|split]].
  - replace (z0 / z0) with 1 by (field; lra). rewrite ln_1. unfold Rdiv. ring.
  - intro L. assert (0 < ln (h' / z0)).
    { rewrite <- ln_1. apply ln_increasing; [lra|]. apply Rmult_lt_reg_r with z0; [lra|]. unfold Rdiv. rewrite Rmult_assoc, Rinv_l by lra. lra. }
    field. lra.
  - intros P L. pose proof (M h h' ltac:(lra) L). rewrite <- (Rmult_1_r ws) at 1. apply Rmult_lt_compat_l; auto.
    apply Rmult_lt_reg_r with (ln (h / z0)); auto. unfold Rdiv. rewrite Rmult_assoc, Rinv_l by lra. lra.
  - intros P L. pose proof (M h' h ltac:(lra) L). rewrite <- (Rmult_1_r ws) at 2. apply Rmult_lt_compat_l; auto.
    apply Rmult_lt_reg_r with (ln (h / z0)); auto. unfold Rdiv. rewrite Rmult_assoc, Rinv_l by lra. lra.
Qed.
Print Assumptions c73_log_wind.
Example c73_example : 0 < 1/100 < 10 /\ 0 < 2. Proof. lra. Qed.
