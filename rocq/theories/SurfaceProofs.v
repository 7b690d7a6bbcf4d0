(** Lemmas about the surface energy balance. *)
From Verif Require Import Common Constants AtmosphereModel AtmosphereProofs SurfaceModel SurfaceSpec.

Lemma fluxes_spec m s dt ma lh t : dt <> 0 ->
  net_radiation m s t + sens_flux m s t + lh * moist_flux m s ma (sat_spec_hum m t) + advective m dt t
  = energy_in m s dt ma lh t.
Proof.
  intros D. unfold net_radiation, sens_flux, moist_flux, sat_spec_hum, specific_humidity, advective,
    energy_in, lw_out, rhoa_ch_ua. fold (qs m t). unfold SPEC_HEAT_CAP_WATER, SPEC_HEAT_CAP_ICE. field; auto.
Qed.
Lemma remainder_spec m s dt ma lh hf t : dt <> 0 ->
  remainder m s dt ma lh hf t = energy_in m s dt ma lh t - hf.
Proof. intros D. unfold remainder. rewrite fluxes_spec by auto. reflexivity. Qed.

Lemma solve_temp m s dt t ma lh melt : dt <> 0 ->
  t + d_temp (solve m s dt t (sat_spec_hum m t) ma lh (net_radiation m s t) (sens_flux m s t)
    (lh * moist_flux m s ma (sat_spec_hum m t)) (advective m dt t) (surface_flux s t) melt)
  = linear_temp m s dt ma lh t melt.
Proof.
  intros D. unfold solve, linear_temp. cbn [d_temp]. rewrite fluxes_spec by auto.
  unfold response, balance, sat_spec_hum, specific_humidity. fold (qs m t).
  unfold rhoa_ch_ua, surface_flux, conducted. f_equal. apply (f_equal2 Rdiv); [unfold Rdiv; ring|reflexivity].
Qed.

Lemma cp_pos : 0 < SPEC_HEAT_CAP_DRY_AIR. Proof. unfold SPEC_HEAT_CAP_DRY_AIR. lra. Qed.
Lemma sb_pos : 0 < STEFAN_BOLTZMANN. Proof. unfold STEFAN_BOLTZMANN. lra. Qed.
Lemma latent_heat_pos m s t : m_temp m <= 1000 -> 0 < latent_heat m s t.
Proof.
  intros A. unfold latent_heat, latent_heat_of_vaporization, Lv, Lf, T0. rsplit; lra.
Qed.
Lemma qs_nonneg m t : 0.378 * saturation_vapor_pressure None t < m_press m -> 0 <= qs m t.
Proof.
  intros H. pose proof (sat_pos None t). unfold qs. apply Rmult_le_pos; [lra|].
  left; apply Rinv_0_lt_compat; lra.
Qed.
Lemma availability_range m s q : 0 < s_cond s -> 0 <= s_ch s -> 0 <= m_wind m ->
  0 < moisture_availability m s q <= 1.
Proof.
  intros C H W. unfold moisture_availability. rsplit; try lra.
  assert (P : 0 <= s_ch s * m_wind m) by (apply Rmult_le_pos; auto). split.
  - apply Rdiv_lt_0_compat; lra.
  - apply Rmult_le_reg_r with (s_cond s + s_ch s * m_wind m); [lra|].
    unfold Rdiv. rewrite Rmult_assoc, Rinv_l by lra. lra.
Qed.
Lemma response_pos m s dt ma lh t : physical m s dt t -> 0 <= ma -> 0 <= lh ->
  0 < response m s ma lh t.
Proof.
  intros P A L. destruct P. unfold response.
  pose proof (qs_nonneg m t ph_press) as Q. pose proof cp_pos. pose proof sb_pos.
  assert (T3 : 0 < t ^ 3) by (apply pow_lt; auto).
  assert (T2 : 0 < t ^ 2) by (apply pow_lt; auto).
  assert (R1 : 0 <= m_rhoa m * s_ch s * m_wind m) by (repeat apply Rmult_le_pos; auto).
  assert (D1 : 0 <= lh * qs m t / (SPEC_GAS_CONSTANT_WATER_VAPOR * t ^ 2)).
  { apply Rmult_le_pos; [apply Rmult_le_pos; auto|]. left; apply Rinv_0_lt_compat.
    apply Rmult_lt_0_compat; auto. unfold SPEC_GAS_CONSTANT_WATER_VAPOR; lra. }
  assert (D2 : 0 <= lh * ma * (lh * qs m t / (SPEC_GAS_CONSTANT_WATER_VAPOR * t ^ 2)))
    by (apply Rmult_le_pos; auto; apply Rmult_le_pos; auto).
  assert (D3 : 0 <= 2 * s_k s / s_th s).
  { apply Rmult_le_pos; [lra|]. left; apply Rinv_0_lt_compat; auto. }
  assert (D4 : 0 < 4 * STEFAN_BOLTZMANN * t ^ 3) by (apply Rmult_lt_0_compat; lra).
  assert (D5 : 0 <= (SPEC_HEAT_CAP_DRY_AIR + lh * ma * (lh * qs m t / (SPEC_GAS_CONSTANT_WATER_VAPOR * t ^ 2)))
    * (m_rhoa m * s_ch s * m_wind m)) by (apply Rmult_le_pos; lra).
  lra.
Qed.

(** qs and the energy balance are monotone in the surface temperature *)
Lemma qs_mono m t t' : valid_temp None t -> t <= t' ->
  0.378 * saturation_vapor_pressure None t' < m_press m -> qs m t <= qs m t'.
Proof.
  intros V L P. pose proof (sat_mono None t t' V L) as S. pose proof (sat_pos None t) as S0.
  unfold qs. set (e := saturation_vapor_pressure None t) in *. set (e' := saturation_vapor_pressure None t') in *.
  apply Rmult_le_reg_r with ((m_press m - 0.378 * e) * (m_press m - 0.378 * e')).
  { apply Rmult_lt_0_compat; lra. }
  replace (0.622 * e / (m_press m - 0.378 * e) * ((m_press m - 0.378 * e) * (m_press m - 0.378 * e')))
    with (0.622 * e * (m_press m - 0.378 * e')) by (field; lra).
  replace (0.622 * e' / (m_press m - 0.378 * e') * ((m_press m - 0.378 * e) * (m_press m - 0.378 * e')))
    with (0.622 * e' * (m_press m - 0.378 * e)) by (field; lra).
  assert (0 < m_press m) by lra. nra.
Qed.
Lemma energy_in_decreasing m s dt ma lh t t' : physical m s dt t' -> valid_temp None t ->
  0 <= ma -> 0 <= lh -> 0 <= t -> t < t' -> energy_in m s dt ma lh t' < energy_in m s dt ma lh t.
Proof.
  intros P V A L T0' LT. destruct P. pose proof (qs_mono m t t' V (Rlt_le _ _ LT) ph_press) as Q.
  pose proof cp_pos. pose proof sb_pos. unfold energy_in.
  assert (T4 : t ^ 4 < t' ^ 4).
  { assert (A2 : t ^ 2 < t' ^ 2) by nra. assert (A3 : 0 <= t ^ 2) by nra.
    replace (t ^ 4) with (t ^ 2 * t ^ 2) by ring. replace (t' ^ 4) with (t' ^ 2 * t' ^ 2) by ring. nra. }
  assert (R1 : 0 <= m_rhoa m * s_ch s * m_wind m) by (repeat apply Rmult_le_pos; auto).
  assert (B1 : 0.99 * STEFAN_BOLTZMANN * t ^ 4 < 0.99 * STEFAN_BOLTZMANN * t' ^ 4)
    by (apply Rmult_lt_compat_l; lra).
  assert (B2 : SPEC_HEAT_CAP_DRY_AIR * m_rhoa m * s_ch s * m_wind m * (m_temp m - t')
    <= SPEC_HEAT_CAP_DRY_AIR * m_rhoa m * s_ch s * m_wind m * (m_temp m - t)).
  { apply Rmult_le_compat_l; [|lra].
    replace (SPEC_HEAT_CAP_DRY_AIR * m_rhoa m * s_ch s * m_wind m) with
      (SPEC_HEAT_CAP_DRY_AIR * (m_rhoa m * s_ch s * m_wind m)) by ring. apply Rmult_le_pos; lra. }
  assert (B3 : lh * ma * m_rhoa m * s_ch s * m_wind m * (m_q m - qs m t')
    <= lh * ma * m_rhoa m * s_ch s * m_wind m * (m_q m - qs m t)).
  { apply Rmult_le_compat_l; [|lra].
    replace (lh * ma * m_rhoa m * s_ch s * m_wind m) with (lh * ma * (m_rhoa m * s_ch s * m_wind m)) by ring.
    apply Rmult_le_pos; auto. apply Rmult_le_pos; auto. }
  assert (ID : 0 < / dt) by (apply Rinv_0_lt_compat; auto).
  assert (B4 : 4180 * (m_temp m - t') * m_rain m / dt <= 4180 * (m_temp m - t) * m_rain m / dt).
  { apply Rmult_le_compat_r; [lra|]. apply Rmult_le_compat_r; lra. }
  assert (B5 : 2100 * (m_wb m - t') * m_snow m / dt <= 2100 * (m_wb m - t) * m_snow m / dt).
  { apply Rmult_le_compat_r; [lra|]. apply Rmult_le_compat_r; lra. }
  lra.
Qed.

(** Grid walk *)
Lemma last_default {A} (l : list A) d d' : l <> [] -> last l d = last l d'.
Proof. induction l as [|x [|y l] IH]; intros N; [congruence|reflexivity|]. apply IH. discriminate. Qed.
Lemma legacy_walk_spec f gs : forall cur, let r := legacy_walk f cur gs in
  (exists l1 l2, gs = l1 ++ r :: l2 /\ Forall (fun g => f g < 0) l1 /\ 0 <= f r) \/
  (Forall (fun g => f g < 0) gs /\ r = last gs cur).
Proof.
  induction gs as [|g gs IH]; intros cur; cbn; [right; split; auto|].
  destruct (Rlt_dec (f g) 0) as [L|L].
  - destruct (IH g) as [(l1 & l2 & E & F & P)|(F & E)].
    + left. exists (g :: l1), l2. cbn in *. rewrite E at 1. auto.
    + right. split; [auto|]. cbn in E. rewrite E. destruct gs as [|g' gs]; [reflexivity|]. apply last_default; discriminate.
  - left. exists [], gs. repeat split; auto. lra.
Qed.
