(** C50 optical air mass, C85 clear-sky irradiance. *)
From Verif Require Import Common Constants AtmosphereModel AtmosphereProofs RadiationModel TerrainModel TerrainTheorems.
Open Scope R_scope.

(** * C50 *)
Lemma rpower_pos : forall x y, 0 < Rpower x y.
Proof. intros. unfold Rpower. apply exp_pos. Qed.
Lemma rpower_inv : forall x y, Rpower x (- y) = / Rpower x y.
Proof. apply Rpower_Ropp. Qed.
(** x^a decreases in the base for a negative exponent *)
Lemma rpower_neg_decr : forall x y a, 0 < x -> x < y -> 0 < a -> Rpower y (- a) < Rpower x (- a).
Proof.
  intros x y a X L A. unfold Rpower. apply exp_increasing. assert (ln x < ln y) by (apply ln_increasing; lra). nra.
Qed.
Lemma rpower_neg_le1 : forall x a, 1 <= x -> 0 <= a -> Rpower x (- a) <= 1.
Proof.
  intros x a X A. unfold Rpower. rewrite <- exp_0.
  assert (0 <= ln x) by (destruct (Req_dec x 1) as [-> |N]; [rewrite ln_1; lra|left; rewrite <- ln_1; apply ln_increasing; lra]).
  destruct (Req_dec (- a * ln x) 0) as [-> |N]; [lra|]. left. apply exp_increasing. nra.
Qed.
Definition zen_ok (z : R) := 0 <= z < PI / 2.
Lemma zen_deg : forall z, zen_ok z -> 0 <= rad2deg z < 90.
Proof.
  intros z [A B]. unfold rad2deg. pose proof PI_RGT_0 as P. assert (E : 180 / PI = / (PI / 180)) by (field; lra). split.
  - apply Rmult_le_pos; [lra|]. apply Rlt_le, Rdiv_lt_0_compat; lra.
  - replace 90 with (PI / 2 * (180 / PI)) by (field; lra). apply Rmult_lt_compat_r; [apply Rdiv_lt_0_compat; lra|lra].
Qed.
Lemma zen_cos : forall z, zen_ok z -> 0 < cos z <= 1.
Proof. intros z [A B]. pose proof PI_RGT_0. split; [apply cos_gt_0; lra|apply COS_bound]. Qed.
(** the denominator of the formula *)
Definition den (z : R) : R := cos z + 0.15 * Rpower (93.885 - rad2deg z) (-1.253).
Lemma den_bounds : forall z, zen_ok z -> cos z < den z < cos z + 0.15 /\ 0 < den z.
Proof.
  intros z H. pose proof (zen_deg z H) as D. pose proof (zen_cos z H) as C. unfold den.
  pose proof (rpower_pos (93.885 - rad2deg z) (-1.253)) as P.
  assert (L : Rpower (93.885 - rad2deg z) (-1.253) < 1).
  { replace (-1.253) with (- (1.253)) by lra. apply Rlt_le_trans with (Rpower 1 (- (1.253))); [apply rpower_neg_decr; lra|].
    unfold Rpower. rewrite ln_1, Rmult_0_r, exp_0. lra. }
  lra.
Qed.
(** The intended limit has no effect: for every zenith angle the air mass is the unlimited formula. *)
Theorem c50_unlimited : forall z, 0 <= z < PI / 2 -> air_mass z = 1 / (cos z + 0.15 * Rpower (93.885 - rad2deg z) (-1.253)).
Proof.
  intros z H. unfold air_mass. fold (den z). destruct (den_bounds z H) as [A B]. pose proof (zen_cos z H). rewrite Rmin_left; auto. lra.
Qed.
Print Assumptions c50_unlimited.
(** Positive, at most the secant of the zenith angle, and increasing towards the horizon. *)
Theorem c50_range : forall z, 0 <= z < PI / 2 -> 0 < air_mass z < 1 / cos z.
Proof.
  intros z H. rewrite c50_unlimited by auto. fold (den z). destruct (den_bounds z H) as [A B]. pose proof (zen_cos z H) as C. unfold Rdiv. rewrite !Rmult_1_l. split.
  - apply Rinv_0_lt_compat; auto.
  - apply Rinv_lt_contravar; [apply Rmult_lt_0_compat; lra|lra].
Qed.
Print Assumptions c50_range.
(** The property holds only while the sun is not too low: up to a zenith angle whose cosine is 1 / 14.1952 (about 86 degrees). *)
Theorem c50_limited_partial : forall z, 0 <= z < PI / 2 -> 1 / 14.1952 <= cos z -> air_mass z < 14.1952.
Proof.
  intros z H L. destruct (c50_range z H) as [_ B]. pose proof (zen_cos z H) as C. apply Rlt_le_trans with (1 / cos z); auto.
  unfold Rdiv in *. rewrite !Rmult_1_l in *. rewrite <- (Rinv_inv 14.1952). apply Rinv_le_contravar; [apply Rinv_0_lt_compat; lra|auto].
Qed.
Print Assumptions c50_limited_partial.
Example c50_example : 0 <= PI / 3 < PI / 2 /\ 1 / 14.1952 <= cos (PI / 3).
Proof. pose proof PI_RGT_0. rewrite cos_PI3. lra. Qed.

Lemma fourth_root : 1.4 <= Rpower 3.885 (1 / 4).
Proof.
  assert (E : 1.4 = Rpower (1.4 ^ 4) (1 / 4)).
  { rewrite <- (Rpower_pow 4) by lra. rewrite Rpower_mult. replace (INR 4 * (1 / 4)) with 1 by (cbn; lra). rewrite Rpower_1; lra. }
  rewrite E at 1. apply Rle_Rpower_l; lra.
Qed.
Lemma den_low : forall z, zen_ok z -> den z < cos z + 0.0276.
Proof.
  intros z H. pose proof (zen_deg z H) as D. unfold den. apply Rplus_lt_compat_l.
  assert (L : Rpower (93.885 - rad2deg z) (-1.253) < / (3.885 * 1.4)); [|assert (0.15 * / (3.885 * 1.4) < 0.0276); [|lra]].
  - replace (-1.253) with (- (1.253)) by lra. apply Rlt_le_trans with (Rpower 3.885 (- (1.253))); [apply rpower_neg_decr; lra|]. rewrite rpower_inv.
    apply Rinv_le_contravar; [lra|]. apply Rle_trans with (Rpower 3.885 (1.25)); [|apply Rle_Rpower; lra].
    replace 1.25 with (1 + 1 / 4) by lra. rewrite Rpower_plus, Rpower_1 by lra. apply Rmult_le_compat_l; [lra|apply fourth_root].
  - apply (Rmult_lt_reg_r (3.885 * 1.4)); [lra|]. rewrite Rmult_assoc, Rinv_l by lra. lra.
Qed.
(** Near the horizon the air mass exceeds 34, ... *)
Theorem c50_limit_refuted : exists z, 0 <= z < PI / 2 /\ 34 < air_mass z.
Proof.
  exists (acos 0.001). assert (H : zen_ok (acos 0.001)).
  { destruct (acos_bound 0.001) as [A _]. split; auto. destruct (Rlt_dec (acos 0.001) (PI / 2)) as [Y|Y]; auto. exfalso.
    assert (cos (acos 0.001) <= 0); [|rewrite cos_acos in H; lra]. pose proof (acos_bound 0.001) as [_ B]. apply cos_le_0; lra. }
  split; auto. rewrite c50_unlimited by auto. fold (den (acos 0.001)). pose proof (den_low _ H) as D. destruct (den_bounds _ H) as [_ P]. rewrite cos_acos in D by lra.
  unfold Rdiv. rewrite Rmult_1_l. apply (Rmult_lt_reg_r (den (acos 0.001))); auto. rewrite Rinv_l by lra. lra.
Qed.
Print Assumptions c50_limit_refuted.
Lemma low_ray : forall m, 34 < m -> 1 + m - Rpower m 1.01 < 0.
Proof.
  intros m M. replace 1.01 with (1 + 0.01) by lra. rewrite Rpower_plus, Rpower_1 by lra.
  assert (LN : 3 < ln m).
  { rewrite <- (ln_exp 3). apply ln_increasing; [apply exp_pos|]. apply Rle_lt_trans with 27; [|lra].
    replace 3 with (1 + (1 + 1)) by lra. rewrite !exp_plus. pose proof exp_le_3. pose proof (exp_pos 1).
    assert (exp 1 * exp 1 <= 9) by (replace 9 with (3 * 3) by lra; apply Rmult_le_compat; lra).
    replace 27 with (3 * 9) by lra. apply Rmult_le_compat; try lra. apply Rmult_le_pos; lra. }
  assert (E : 1 + 0.01 * ln m < Rpower m 0.01) by (unfold Rpower; apply exp_ineq1; lra). nra.
Qed.
(** ... where the transmittance of Rayleigh scattering is negative. *)
Theorem c50_negative_transmittance_refuted : exists z, 0 <= z < PI / 2 /\ trans_rayleigh (press_corr (air_mass z) STANDARD_ATMOSPHERE) < 0.
Proof.
  destruct c50_limit_refuted as [z [H L]]. exists z. split; auto. unfold press_corr. replace (air_mass z * STANDARD_ATMOSPHERE / STANDARD_ATMOSPHERE) with (air_mass z) by (unfold STANDARD_ATMOSPHERE; field).
  unfold trans_rayleigh. pose proof (low_ray _ L). pose proof (exp_pos (- 0.0903 * Rpower (air_mass z) 0.84)). nra.
Qed.
Print Assumptions c50_negative_transmittance_refuted.

(** * C85: radiation at the top of the atmosphere *)
Theorem c85_eccentricity : forall da, 0.9637 < eccentricity da < 1.0365.
Proof.
  intros da. unfold eccentricity. pose proof (COS_bound da). pose proof (SIN_bound da). pose proof (COS_bound (2 * da)). pose proof (SIN_bound (2 * da)). lra.
Qed.
Print Assumptions c85_eccentricity.
(** Largest on January 1, smallest half a year later; these values determine the coefficients. *)
Theorem c85_eccentricity_values :
  eccentricity 0 = 1.03505 /\ eccentricity PI = 0.966608 /\ eccentricity (PI / 2) = 1.000671 /\ eccentricity (- (PI / 2)) = 0.998111 /\
  eccentricity (PI / 4) = 1.000187 + 0.035501 * / sqrt 2 /\ eccentricity (- (PI / 4)) = 1.000033 + 0.032941 * / sqrt 2.
Proof.
  unfold eccentricity. assert (S2 : sqrt 2 <> 0) by (apply Rgt_not_eq, sqrt_lt_R0; lra).
  replace (2 * 0) with 0 by lra. replace (2 * (PI / 2)) with PI by lra. replace (2 * - (PI / 2)) with (- PI) by lra.
  replace (2 * (PI / 4)) with (PI / 2) by lra. replace (2 * - (PI / 4)) with (- (PI / 2)) by lra.
  rewrite !cos_neg, !sin_neg, cos_0, sin_0, cos_PI, sin_PI, cos_2PI, sin_2PI, cos_PI2, sin_PI2, cos_PI4, sin_PI4. unfold Rdiv. rewrite !Rmult_1_l.
  repeat split; lra.
Qed.
Print Assumptions c85_eccentricity_values.
(** The angle of incidence: on every plane, rising by p per metre towards the east and by q towards the south, the cosine of the angle
    between sun and normal of the plane; at most 1, and 1 exactly when the sun is perpendicular to the plane. *)
Theorem c85_incidence : forall rows cols res z0 p q r c sx sy sz, 0 < res -> (3 <= rows)%Z -> (3 <= cols)%Z ->
  let d := plane rows cols res z0 p q in in_arr d r c ->
  exists x y z, a_at (fst (fst (normal_vector d res))) r c = Some x /\ a_at (snd (fst (normal_vector d res))) r c = Some y /\ a_at (snd (normal_vector d res)) r c = Some z /\
    incidence (sx, sy, sz) (x, y, z) = Rmax 0 ((sz - p * sx - q * sy) / sqrt (1 + p ^ 2 + q ^ 2)).
Proof.
  intros rows cols res z0 p q r c sx sy sz RS S1 S2 d IN.
  destruct (c52_normal_plane rows cols res z0 p q r c RS S1 S2 IN) as (x & y & z & A & B & C & U & P & X & Y).
  exists x, y, z. repeat (split; [assumption|]). unfold incidence.
  assert (X' : x = - p * z) by (apply (Rmult_eq_compat_r z) in X; unfold Rdiv in X; rewrite Rmult_assoc, Rinv_l in X by lra; lra).
  assert (Y' : y = q * z) by (apply (Rmult_eq_compat_r z) in Y; unfold Rdiv in Y; rewrite Rmult_assoc, Rinv_l in Y by lra; lra).
  assert (K : 0 < 1 + p ^ 2 + q ^ 2) by nra.
  assert (Z : z = / sqrt (1 + p ^ 2 + q ^ 2)).
  { pose proof (sqrt_lt_R0 _ K) as SK. assert (SS : sqrt (1 + p ^ 2 + q ^ 2) * sqrt (1 + p ^ 2 + q ^ 2) = 1 + p ^ 2 + q ^ 2) by (apply sqrt_sqrt; lra).
    set (s := sqrt (1 + p ^ 2 + q ^ 2)) in *. clearbody s. subst x y.
    assert (E : (z * s) * (z * s) = 1) by (replace ((z * s) * (z * s)) with (z ^ 2 * (s * s)) by ring; rewrite SS; nra).
    assert (0 < z * s) by (apply Rmult_lt_0_compat; auto). assert (z * s = 1) by nra. apply (Rmult_eq_reg_r s); [|lra]. rewrite Rinv_l by lra. auto. }
  subst x y. rewrite Rmax_comm. f_equal. unfold Rdiv. rewrite <- Z. ring.
Qed.
Print Assumptions c85_incidence.
Theorem c85_incidence_bound : forall sx sy sz x y z, sx ^ 2 + sy ^ 2 + sz ^ 2 = 1 -> x ^ 2 + y ^ 2 + z ^ 2 = 1 ->
  0 <= incidence (sx, sy, sz) (x, y, z) <= 1 /\ (incidence (sx, sy, sz) (x, y, z) = 1 <-> (x, y, z) = (sx, - sy, sz)).
Proof.
  intros sx sy sz x y z A B. unfold incidence. set (d := sx * x + sy * - y + sz * z).
  assert (E : (sx - x) ^ 2 + (sy + y) ^ 2 + (sz - z) ^ 2 = 2 - 2 * d) by (unfold d; nra).
  assert (P : forall a : R, 0 <= a ^ 2) by (intros; nra).
  assert (D : d <= 1) by (pose proof (P (sx - x)); pose proof (P (sy + y)); pose proof (P (sz - z)); lra).
  split; [rmm; lra|]. split.
  - intros M. assert (d = 1) by (revert M; rmm; lra). pose proof (P (sx - x)). pose proof (P (sy + y)). pose proof (P (sz - z)).
    assert (Q : forall a : R, a ^ 2 = 0 -> a = 0) by (intros; nra).
    assert (sx - x = 0) by (apply Q; lra). assert (sy + y = 0) by (apply Q; lra). assert (sz - z = 0) by (apply Q; lra).
    f_equal; [f_equal|]; lra.
  - intros M. inversion M. subst x y z. assert (d = 1) by (unfold d; nra). rewrite H. rmm; lra.
Qed.
Print Assumptions c85_incidence_bound.

(** * C85: transmittances *)
Lemma ln_bound : forall u, 0 < u -> - (u * ln u) <= 1.
Proof.
  intros u U. assert (L : - ln u <= / u - 1).
  { rewrite <- ln_Rinv by auto. assert (0 < / u) by (apply Rinv_0_lt_compat; auto). set (v := / u) in *. clearbody v.
    destruct (Req_dec (ln v) 0) as [E|N]; [|pose proof (exp_ineq1 (ln v) N); rewrite exp_ln in H0 by auto; lra].
    rewrite <- (exp_ln v) at 2 by auto. rewrite E, exp_0. lra. }
  apply (Rmult_le_compat_l u) in L; [|lra]. rewrite Rmult_minus_distr_l, Rinv_r in L by lra. lra.
Qed.
Lemma rpower_gt1 : forall m a, 1 <= m -> 0 <= a -> 1 <= Rpower m a.
Proof. intros m a M A. rewrite <- (Rpower_O m) by lra. apply Rle_Rpower; lra. Qed.
(** Rayleigh scattering never increases radiation. *)
Theorem c85_rayleigh : forall m, 0 < m -> trans_rayleigh m < 1.
Proof.
  intros m M. unfold trans_rayleigh. set (p := Rpower m 0.84). assert (PP : 0 < p) by apply rpower_pos.
  assert (E : exp (- 0.0903 * p) < 1) by (rewrite <- exp_0; apply exp_increasing; nra). pose proof (exp_pos (- 0.0903 * p)) as EP.
  destruct (Rle_dec 1 m) as [G|L].
  - assert (m <= Rpower m 1.01) by (rewrite <- (Rpower_1 m) at 1 by lra; apply Rle_Rpower; lra). nra.
  - assert (F : m - Rpower m 1.01 <= 0.07 * p).
    { replace 1.01 with (1 + 0.01) by lra. rewrite Rpower_plus, Rpower_1 by lra.
      assert (A : 1 + 0.01 * ln m <= Rpower m 0.01).
      { unfold Rpower. destruct (Req_dec (0.01 * ln m) 0) as [Z|Z]; [rewrite Z, exp_0; lra|left; apply exp_ineq1; auto]. }
      assert (B : m - m * Rpower m 0.01 <= 0.01 * - (m * ln m)) by nra.
      assert (C : m = p * Rpower m 0.16) by (unfold p; rewrite <- Rpower_plus; replace (0.84 + 0.16) with 1 by lra; rewrite Rpower_1; lra).
      assert (D : - (m * ln m) <= p * 6.25).
      { set (u := Rpower m 0.16) in *. assert (U : 0 < u) by apply rpower_pos. assert (LU : ln u = 0.16 * ln m) by (unfold u, Rpower; apply ln_exp).
        pose proof (ln_bound u U) as LB. rewrite C at 1. replace (ln m) with (6.25 * ln u) by lra.
        replace (- (p * u * (6.25 * ln u))) with (p * (6.25 * - (u * ln u))) by ring. apply Rmult_le_compat_l; lra. }
      lra. }
    assert (X : 1 + m - Rpower m 1.01 <= exp (0.07 * p)) by (pose proof (exp_ineq1 (0.07 * p) ltac:(lra)); lra).
    apply Rle_lt_trans with (exp (- 0.0903 * p) * exp (0.07 * p)); [apply Rmult_le_compat_l; lra|]. rewrite <- exp_plus, <- exp_0. apply exp_increasing. lra.
Qed.
Print Assumptions c85_rayleigh.
Theorem c85_gases : forall m m', 0 < m -> m < m' -> 0 < trans_gases m' < trans_gases m /\ trans_gases m < 1.
Proof.
  intros m m' M L. unfold trans_gases. split; [split; [apply exp_pos|]|].
  - apply exp_increasing. assert (Rpower m 0.26 < Rpower m' 0.26) by (unfold Rpower; apply exp_increasing; assert (ln m < ln m') by (apply ln_increasing; lra); lra). lra.
  - rewrite <- exp_0. apply exp_increasing. pose proof (rpower_pos m 0.26). lra.
Qed.
Print Assumptions c85_gases.
(** Water vapour absorbs more than nothing, but never everything. *)
Theorem c85_vapor : forall w m, 0 <= w -> 0 < m -> 0.609 < trans_vapor w m <= 1 /\ (trans_vapor w m = 1 <-> w = 0).
Proof.
  intros w m W M. unfold trans_vapor. set (wm := w / 10 * m). assert (Q : 0 <= wm) by (unfold wm; apply Rmult_le_pos; lra).
  assert (Z : wm = 0 <-> w = 0) by (unfold wm; split; intros; [destruct (Req_dec w 0); auto; exfalso; assert (0 < w / 10 * m) by (apply Rmult_lt_0_compat; lra); lra|subst; lra]).
  clearbody wm. pose proof (rpower_gt1 (1 + 79.034 * wm) 0.6828 ltac:(lra) ltac:(lra)) as P. set (g := Rpower (1 + 79.034 * wm) 0.6828) in *. clearbody g.
  assert (D : 0 < g + 6.385 * wm) by lra.
  assert (A : 2.4959 * wm * 1 / (g + 6.385 * wm) * (g + 6.385 * wm) = 2.4959 * wm) by (field; lra).
  set (t := 2.4959 * wm * 1 / (g + 6.385 * wm)) in *.
  assert (T : 0 <= t) by (unfold t; apply Rmult_le_pos; [lra|apply Rlt_le, Rinv_0_lt_compat; auto]). clearbody t.
  assert (t < 0.391) by (destruct (Rlt_dec t 0.391); auto; exfalso; nra). split; [lra|]. rewrite <- Z. split; intros; [nra|]. subst. assert (t = 0) by nra. lra.
Qed.
Print Assumptions c85_vapor.
Lemma third_power : forall x, 1 <= x -> Rpower x 0.3035 <= x / 300 + 20 / 3.
Proof.
  intros x X. apply Rle_trans with (Rpower x (1 / 3)); [apply Rle_Rpower; lra|]. set (y := Rpower x (1 / 3)). assert (Y : 0 < y) by apply rpower_pos.
  assert (E : x = y * y * y) by (unfold y; rewrite <- !Rpower_plus; replace (1 / 3 + 1 / 3 + 1 / 3) with 1 by lra; rewrite Rpower_1; lra).
  assert (0 <= (y - 10) * (y - 10) * (y + 20)) by (apply Rmult_le_pos; [apply Rle_0_sqr|lra]). nra.
Qed.
(** Ozone never increases radiation. *)
Theorem c85_ozone : forall oz m, 0 <= oz -> 0 < m -> trans_ozone oz m <= 1 /\ trans_ozone 0 m = 1 /\ (oz * m <= 0.062 -> 0 < trans_ozone oz m).
Proof.
  intros oz m O M. unfold trans_ozone. split; [|split].
  - set (lm := oz * 100 * m). assert (L : 0 <= lm) by (unfold lm; apply Rmult_le_pos; lra). clearbody lm.
    replace (-0.3035) with (- (0.3035)) by lra. rewrite rpower_inv. pose proof (third_power (1 + 139.48 * lm) ltac:(lra)) as T. pose proof (rpower_pos (1 + 139.48 * lm) 0.3035) as P.
    set (g := Rpower (1 + 139.48 * lm) 0.3035) in *. clearbody g. assert (D : 1 <= 1 + 0.044 * lm + 0.0003 * lm ^ 2) by nra. set (d := 1 + 0.044 * lm + 0.0003 * lm ^ 2) in *.
    assert (DD : 1 + 0.044 * lm <= d) by (unfold d; nra). clearbody d.
    assert (A : 0.002715 * lm * 1 / d <= 0.1611 * lm * / g); [|lra].
    unfold Rdiv. rewrite Rmult_1_r. rewrite !(Rmult_comm _ lm), !Rmult_assoc. apply Rmult_le_compat_l; auto.
    apply (Rmult_le_reg_r (g * d)); [apply Rmult_lt_0_compat; lra|]. replace (0.002715 * / d * (g * d)) with (0.002715 * g) by (field; lra).
    replace (0.1611 * / g * (g * d)) with (0.1611 * d) by (field; lra). lra.
  - rewrite !Rmult_0_l. unfold Rdiv. rewrite !Rmult_0_r, !Rmult_0_l. lra.
  - intros H. set (lm := oz * 100 * m). assert (L : 0 <= lm <= 6.2) by (unfold lm; split; [apply Rmult_le_pos; lra|lra]). clearbody lm.
    pose proof (rpower_neg_le1 (1 + 139.48 * lm) 0.3035 ltac:(lra) ltac:(lra)) as P. replace (-0.3035) with (- (0.3035)) by lra.
    pose proof (rpower_pos (1 + 139.48 * lm) (- (0.3035))) as P'. set (g := Rpower (1 + 139.48 * lm) (- (0.3035))) in *. clearbody g.
    assert (D : 1 <= 1 + 0.044 * lm + 0.0003 * lm ^ 2) by nra. set (d := 1 + 0.044 * lm + 0.0003 * lm ^ 2) in *. clearbody d.
    assert (0 <= 0.002715 * lm * 1 / d) by (apply Rmult_le_pos; [lra|apply Rlt_le, Rinv_0_lt_compat; lra]). nra.
Qed.
Print Assumptions c85_ozone.
(** Aerosols: for visibilities above 1.6 km or so the base lies between 0 and 1, and so does the transmittance, decreasing with the air mass. *)
Theorem c85_aerosols : forall vis m, 0 < aerosol_base vis < 1 -> 0 < m -> 0 < trans_aerosols vis m < 1.
Proof.
  intros vis m B M. unfold trans_aerosols. split; [apply rpower_pos|]. unfold Rpower at 1. rewrite <- exp_0. apply exp_increasing.
  pose proof (rpower_pos m 0.9). assert (ln (aerosol_base vis) < 0) by (rewrite <- ln_1; apply ln_increasing; lra). nra.
Qed.
Print Assumptions c85_aerosols.
Theorem c85_visibility : forall vis, 2000 <= vis -> 0 < aerosol_base vis < 0.97.
Proof.
  intros vis V. unfold aerosol_base. pose proof (rpower_pos (vis / 1000) (-0.66)) as P. split; [|lra].
  assert (Rpower (vis / 1000) (-0.66) <= / (1.5)); [|assert (1.265 * / 1.5 < 0.97); [|lra]].
  - replace (-0.66) with (- (0.66)) by lra. rewrite rpower_inv. apply Rinv_le_contravar; [lra|].
    apply Rle_trans with (Rpower 2 0.66); [|apply Rle_Rpower_l; lra]. apply Rle_trans with (Rpower 2 (3 / 5)); [|apply Rle_Rpower; lra].
    replace 1.5 with (Rpower (Rpower 1.5 (5 / 3)) (3 / 5)) by (rewrite Rpower_mult; replace (5 / 3 * (3 / 5)) with 1 by lra; apply Rpower_1; lra).
    apply Rle_Rpower_l; [lra|]. split; [apply rpower_pos|].
    replace 2 with (Rpower (2 ^ 3) (1 / 3)) by (rewrite <- (Rpower_pow 3) by lra; rewrite Rpower_mult; replace (INR 3 * (1 / 3)) with 1 by (cbn; lra); apply Rpower_1; lra).
    replace (Rpower 1.5 (5 / 3)) with (Rpower (1.5 ^ 5) (1 / 3)) by (rewrite <- (Rpower_pow 5) by lra; rewrite Rpower_mult; f_equal; cbn; lra).
    apply Rle_Rpower_l; lra.
  - lra.
Qed.
Print Assumptions c85_visibility.
Theorem c85_scattering : forall z, 0 <= z <= PI / 2 -> 0.61 < scattering_ratio z <= 0.9067.
Proof.
  intros z [A B]. unfold scattering_ratio. pose proof PI_4 as P. assert (L : z <= 2) by lra.
  assert (0 <= z ^ 2 <= 4) by (split; nra). assert (0 <= z ^ 2 * z <= 8) by (split; [apply Rmult_le_pos; lra|nra]). nra.
Qed.
Print Assumptions c85_scattering.
(** Not the ratio of the reference (Corripio 2002; Iqbal 1983), -0.2562 z^2 + 0.1409 z + 0.9067: the second and third term are multiplied. With the
    sun within 28 degrees of the zenith the ratio is too small, with the sun more than 41 degrees away from the zenith too large, at the horizon by more than 40 %. *)
Theorem c85_scattering_refuted : let reference z := - 0.2562 * z ^ 2 + 0.1409 * z + 0.9067 in
  (forall z, 0 < z <= 0.5 -> scattering_ratio z < reference z) /\ (forall z, 0.7 <= z <= PI / 2 -> reference z < scattering_ratio z) /\
  1.4 * reference (PI / 2) < scattering_ratio (PI / 2).
Proof.
  cbv zeta. unfold scattering_ratio. pose proof PI_4 as P4. split; [|split].
  - intros z [A B]. assert (0 < z * (0.1409 - 0.2562 * z)) by (apply Rmult_lt_0_compat; lra). assert (0 < z * (0.2562 * 0.1409 * (z * z))) by (apply Rmult_lt_0_compat; nra). nra.
  - intros z [A B]. assert (0 < z * (0.2562 * z - 0.1409 - 0.2562 * 0.1409 * (z * z))); [|nra]. apply Rmult_lt_0_compat; [lra|]. nra.
  - pose proof PI2_3_2 as P3. set (h := PI / 2) in *. assert (H1 : 1.5 < h <= 2) by (unfold h; unfold h in P3; lra). clearbody h. clear P3 P4.
    assert (exists d, h = 1.5 + d /\ 0 < d <= 0.5) as (d & -> & D) by (exists (h - 1.5); lra).
    assert (0 < d * (0.5 * 0.5 * 4 - d * d)) by (apply Rmult_lt_0_compat; nra). assert (0 < d * d) by nra. nra.
Qed.
Print Assumptions c85_scattering_refuted.

(** * C85: irradiance *)
(** Nothing at night; the total is the sum of the two parts. *)
Theorem c85_night : forall c da sun ga roi p, clear_sky_irradiance c da sun false ga roi p = (0, 0, 0).
Proof. intros. unfold clear_sky_irradiance. f_equal; f_equal. lra. Qed.
Print Assumptions c85_night.
Theorem c85_total : forall c da sun up ga roi p tot dir diff, clear_sky_irradiance c da sun up ga roi p = (tot, dir, diff) ->
  tot = dir + diff /\ (up = true -> (dir, diff) = clear_sky c da sun ga roi p).
Proof.
  intros c da sun up ga roi p tot dir diff E. unfold clear_sky_irradiance in E. destruct up.
  - destruct (clear_sky c da sun ga roi p) as [a b]. inversion E. subst. auto.
  - inversion E. subst. split; auto. discriminate.
Qed.
Print Assumptions c85_total.
(** The direct part: the beam at the top of the atmosphere, projected on the slope, reduced by the product of the transmittances (plus a
    correction for the elevation), within the limits of no and full transmission. *)
Theorem c85_direct : forall c da sx sy sz ga roi p, exists T,
  fst (clear_sky c da (sx, sy, sz) ga roi p) = 0.9751 * (1366.1 * eccentricity da) * incidence (sx, sy, sz) (cp_normal p) * cp_shadow p * T /\ 0 <= T <= 1 /\
  let m := air_mass (acos sz) in let mp := m * cp_press p / 101325 in
  let prod := trans_rayleigh mp * trans_ozone (cc_ozone c) m * trans_gases mp * trans_vapor (cp_pw p) m * trans_aerosols (cc_visibility c) mp + 0.000022 * Rmin (cp_elev p) 3000 in
  (0 <= prod <= 1 -> T = prod) /\ (prod <= 0 -> T = 0) /\ (1 <= prod -> T = 1).
Proof.
  intros c da sx sy sz ga roi p.
  exists (clip 0 1 (trans_rayleigh (press_corr (air_mass (acos sz)) (cp_press p)) * trans_ozone (cc_ozone c) (air_mass (acos sz)) * trans_gases (press_corr (air_mass (acos sz)) (cp_press p))
    * trans_vapor (cp_pw p) (air_mass (acos sz)) * trans_aerosols (cc_visibility c) (press_corr (air_mass (acos sz)) (cp_press p)) + elev_corr (cp_elev p))).
  split; [|split].
  - unfold clear_sky. cbn [fst snd]. cbv zeta. unfold SOLAR_CONSTANT. rewrite <- !Rmult_assoc. reflexivity.
  - unfold clip. rmm; lra.
  - cbv zeta. unfold press_corr, elev_corr, STANDARD_ATMOSPHERE, clip. match goal with |- context [(0 <= ?q <= 1 -> _)] => set (w := q) end. clearbody w. repeat split; intros; rmm; lra.
Qed.
Print Assumptions c85_direct.
Theorem c85_direct_bounds : forall c da sx sy sz nx ny nz sh ga roi p, sx ^ 2 + sy ^ 2 + sz ^ 2 = 1 -> nx ^ 2 + ny ^ 2 + nz ^ 2 = 1 ->
  cp_normal p = (nx, ny, nz) -> cp_shadow p = sh -> sh = 0 \/ sh = 1 ->
  let dir := fst (clear_sky c da (sx, sy, sz) ga roi p) in
  0 <= dir <= 0.9751 * (1366.1 * eccentricity da) /\ (sh = 0 -> dir = 0) /\ (sx * nx - sy * ny + sz * nz <= 0 -> dir = 0).
Proof.
  intros c da sx sy sz nx ny nz sh ga roi p SU NU NV SH V dir. destruct (c85_direct c da sx sy sz ga roi p) as [T [E [B _]]]. fold dir in E. rewrite NV, SH in E.
  destruct (c85_incidence_bound sx sy sz nx ny nz SU NU) as [IB _]. pose proof (c85_eccentricity da) as EC. set (ec := eccentricity da) in *. set (ic := incidence (sx, sy, sz) (nx, ny, nz)) in *.
  assert (Z : sx * nx - sy * ny + sz * nz <= 0 -> ic = 0) by (intros H; unfold ic, incidence; rmm; lra). clearbody ec ic dir.
  set (K := 0.9751 * (1366.1 * ec)) in *. assert (0 < K) by (unfold K; lra). clearbody K. split; [|split].
  - rewrite E. assert (0 <= ic * sh * T <= 1) by (destruct V as [-> | -> ]; [lra|split; [apply Rmult_le_pos; lra|nra]]).
    replace (K * ic * sh * T) with (K * (ic * sh * T)) by ring. nra.
  - intros ->. rewrite E. ring.
  - intros H0. rewrite E, (Z H0). ring.
Qed.
Print Assumptions c85_direct_bounds.
Lemma kpos : forall m a, 0 < m -> 1 <= a -> 0 < 1 - m + Rpower m a.
Proof.
  intros m a M A. pose proof (rpower_pos m a). destruct (Rlt_dec m 1); [lra|].
  assert (m <= Rpower m a) by (rewrite <- (Rpower_1 m) at 1 by lra; apply Rle_Rpower; lra). lra.
Qed.
Lemma sumR_nonneg : forall l, (forall x, In x l -> 0 <= x) -> 0 <= sumR l.
Proof. induction l as [|a t IH]; intros H; [rewrite sumR_nil; lra|]. rewrite sumR_cons. assert (0 <= a) by (apply H; left; auto). assert (0 <= sumR t) by (apply IH; intros; apply H; right; auto). lra. Qed.
Lemma means_nonneg : forall roi, (forall p, In p roi -> 0 <= fst p /\ (snd p = 0 \/ snd p = 1)) -> 0 <= sun_frac roi /\ 0 <= mean_sun_aoi roi.
Proof.
  intros roi H. assert (Q : forall s n, 0 <= s -> 0 <= s / INR n).
  { intros s n S0. destruct n; [unfold Rdiv; cbn; rewrite Rinv_0; lra|]. apply Rmult_le_pos; auto. apply Rlt_le, Rinv_0_lt_compat, lt_0_INR. lia. }
  split.
  - unfold sun_frac. apply Q. apply sumR_nonneg. intros x I. apply in_map_iff in I. destruct I as [p [<- I]]. destruct (H p I) as [_ [E|E]]; rewrite E; lra.
  - unfold mean_sun_aoi. destruct (lit_aois roi) as [|a t] eqn:E; [lra|]. rewrite <- E. apply Q. apply sumR_nonneg. intros x I. unfold lit_aois in I. apply in_map_iff in I.
    destruct I as [p [<- I]]. apply filter_In in I. apply H. tauto.
Qed.
(** The diffuse part is never negative, for aerosols which do not absorb everything, ozone transmittances which are not negative and
    albedos below 1. *)
Theorem c85_diffuse_nonneg : forall c da sx sy sz ga roi p,
  let m := air_mass (acos sz) in let mp := m * cp_press p / 101325 in
  0 < sz <= 1 -> 0 < cp_press p -> 0 <= cp_pw p -> 2000 <= cc_visibility c -> 0 <= cc_ssa c <= 1 -> (1 - cc_ssa c) * (1 - mp + Rpower mp 1.06) < 1 ->
  0 <= trans_ozone (cc_ozone c) m -> 0 <= ga < 1 -> 0 <= cc_albedo c <= 0.6 -> 0 <= cp_svf p <= 1 -> cp_shadow p = 0 \/ cp_shadow p = 1 ->
  (forall q, In q roi -> 0 <= fst q /\ (snd q = 0 \/ snd q = 1)) ->
  0 <= snd (clear_sky c da (sx, sy, sz) ga roi p).
Proof.
  intros c da sx sy sz ga roi p m mp SZ PR PW VI SSA AB OZ GA CA SV SH RO. unfold clear_sky. cbn [fst snd]. cbv zeta. rewrite !cos_acos by lra.
  assert (ZO : 0 <= acos sz < PI / 2).
  { destruct (acos_bound sz) as [A B]. split; auto. destruct (Rlt_dec (acos sz) (PI / 2)); auto. exfalso. assert (cos (acos sz) <= 0) by (apply cos_le_0; lra). rewrite cos_acos in H; lra. }
  fold m. unfold press_corr, STANDARD_ATMOSPHERE. fold mp. destruct (c50_range _ ZO) as [MP _]. fold m in MP.
  assert (MPP : 0 < mp) by (unfold mp; apply Rdiv_lt_0_compat; [apply Rmult_lt_0_compat; auto|lra]).
  pose proof (c85_rayleigh mp MPP) as TR. destruct (c85_gases mp (mp + 1) MPP ltac:(lra)) as [TG1 TG2]. destruct (c85_vapor (cp_pw p) m PW MP) as [TV _].
  pose proof (c85_visibility _ VI) as VB. pose proof (c85_aerosols (cc_visibility c) mp ltac:(lra) MPP) as TA.
  pose proof (c85_scattering (acos sz) ltac:(lra)) as SR. pose proof (kpos mp 1.02 MPP ltac:(lra)) as KP. pose proof (kpos mp 1.06 MPP ltac:(lra)) as KP'.
  destruct (means_nonneg roi RO) as [SF MA].
  assert (IC : 0 <= incidence (sx, sy, sz) (cp_normal p)) by (unfold incidence; destruct (cp_normal p) as [[a b] d]; rmm; lra).
  pose proof (c85_eccentricity da) as EC.
  unfold trans_aerosol_abs. set (ta := trans_aerosols (cc_visibility c) mp) in *. set (kk := 1 - mp + Rpower mp 1.06) in *.
  set (taa := 1 - (1 - cc_ssa c) * kk * (1 - ta)). assert (TAA : ta < taa <= 1).
  { unfold taa. assert (0 <= (1 - cc_ssa c) * kk) by (apply Rmult_le_pos; lra). split; nra. }
  set (tr := trans_rayleigh mp) in *. set (toz := trans_ozone (cc_ozone c) m) in *. set (tg := trans_gases mp) in *. set (tv := trans_vapor (cp_pw p) m) in *.
  set (T := clip 0 1 (tr * toz * tg * tv * ta + elev_corr (cp_elev p))). assert (TB : 0 <= T <= 1) by (unfold T, clip; rmm; lra).
  set (sr := scattering_ratio (acos sz)) in *. set (k := 1 - mp + Rpower mp 1.02) in *. set (toa := SOLAR_CONSTANT * eccentricity da).
  assert (TOA : 0 < toa) by (unfold toa, SOLAR_CONSTANT; nra).
  set (ic := incidence (sx, sy, sz) (cp_normal p)) in *. set (sf := sun_frac roi) in *. set (ma := mean_sun_aoi roi) in *.
  assert (TAR : 0 < ta / taa < 1) by (split; [apply Rdiv_lt_0_compat; lra|apply (Rmult_lt_reg_r taa); [lra|]; unfold Rdiv; rewrite Rmult_assoc, Rinv_l by lra; lra]).
  set (tar := ta / taa) in *. assert (TG : 0 < tg) by (unfold tg, trans_gases; apply exp_pos).
  clearbody tr toz tg tv ta taa T sr k toa ic sf ma tar.
  set (pot := toa * ic * cp_shadow p). assert (POT : 0 <= pot) by (unfold pot; apply Rmult_le_pos; [nra|destruct SH as [-> | -> ]; lra]). clearbody pot.
  set (dir := 0.9751 * pot * T). assert (DIR : 0 <= dir) by (unfold dir; nra).
  assert (B0 : 0 <= 0.79 * toa * sz * toz * tg * tv * taa).
  { repeat (apply Rmult_le_pos; [|lra]). lra. }
  set (b0 := 0.79 * toa * sz * toz * tg * tv * taa) in *. clearbody b0.
  set (ray := b0 * 0.5 * (1 - tr) / k). assert (RAY : 0 <= ray) by (unfold ray; apply Rmult_le_pos; [apply Rmult_le_pos; [apply Rmult_le_pos; lra|lra]|apply Rlt_le, Rinv_0_lt_compat; auto]).
  set (aer := b0 * sr * (1 - tar) / k). assert (AER : 0 <= aer) by (unfold aer; apply Rmult_le_pos; [apply Rmult_le_pos; [apply Rmult_le_pos; lra|lra]|apply Rlt_le, Rinv_0_lt_compat; auto]).
  set (atm := cc_albedo c + (1 - sr) * (1 - tar)). assert (ATM : 0 <= atm <= 1) by (unfold atm; split; nra).
  clearbody dir ray aer atm. assert (GD : 0 < 1 - ga * atm) by nra.
  set (refl := (dir * sz + ray + aer) * ga * atm / (1 - ga * atm)). assert (RF : 0 <= refl).
  { unfold refl. apply Rmult_le_pos; [|apply Rlt_le, Rinv_0_lt_compat; auto]. apply Rmult_le_pos; [|lra]. apply Rmult_le_pos; [|lra]. nra. }
  clearbody refl. set (df := ray + aer + refl). assert (DF : 0 <= df) by (unfold df; lra). clearbody df.
  assert (0 <= df * cp_svf p) by (apply Rmult_le_pos; lra).
  assert (0 <= (1 - cp_svf p) * (pot * T * sf * ma + df) * ga); [|lra].
  apply Rmult_le_pos; [|lra]. apply Rmult_le_pos; [lra|]. assert (0 <= pot * T * sf * ma) by (repeat apply Rmult_le_pos; lra). lra.
Qed.
Print Assumptions c85_diffuse_nonneg.
(** Where the whole sky is visible nothing comes from the slopes. *)
Theorem c85_open_sky : forall c da sun ga roi roi' n sh el pr pw,
  snd (clear_sky c da sun ga roi (CP n sh el 1 pr pw)) = snd (clear_sky c da sun ga roi' (CP n sh el 1 pr pw)).
Proof. intros. unfold clear_sky. cbn [fst snd cp_svf cp_normal cp_shadow cp_elev cp_press cp_pw]. cbv zeta. ring. Qed.
Print Assumptions c85_open_sky.
(** The hypotheses of c85_diffuse_nonneg: overhead sun, default aerosol parameters. *)
Example c85_example : exists c p, let m := air_mass (acos 1) in let mp := m * cp_press p / 101325 in
  0 < cp_press p /\ 2000 <= cc_visibility c /\ cc_ssa c = 0.9 /\ (1 - cc_ssa c) * (1 - mp + Rpower mp 1.06) < 1 /\ cc_ozone c = 0.0035 /\ 0 <= trans_ozone (cc_ozone c) m /\
  cp_normal p = (0, 0, 1) /\ 0 < cp_svf p < 1.
Proof.
  assert (Z : acos 1 = 0) by apply acos_1. assert (ZO : 0 <= 0 < PI / 2) by (pose proof PI_RGT_0; lra).
  destruct (c50_range 0 ZO) as [A B]. rewrite cos_0 in B.
  exists (CC 0.0035 25000 0.9 0.0685), (CP (0, 0, 1) 1 1000 0.8 (101325 / air_mass 0) 10). cbn [cp_press cc_visibility cc_ssa cc_ozone cp_normal cp_svf]. rewrite Z. cbv zeta.
  replace (air_mass 0 * (101325 / air_mass 0) / 101325) with 1 by (field; lra). unfold Rpower. rewrite ln_1, Rmult_0_r, exp_0.
  repeat split; try lra; [apply Rdiv_lt_0_compat; lra|]. left. apply c85_ozone; lra.
Qed.
(** The mean albedo of the region, or that of the soil if any pixel has none. *)
Theorem c85_albedo : forall l soil,
  (In None l -> mean_albedo l soil = soil) /\
  (forall vs, l = map Some vs -> vs <> [] -> mean_albedo l soil * INR (length vs) = sumR vs).
Proof.
  intros l soil. unfold mean_albedo. split.
  - intros I. assert (E : fold_right numplus (Some 0) l = None); [|rewrite E; auto]. induction l as [|a t IH]; [inversion I|]. cbn. destruct I as [-> |I]; [auto|]. rewrite IH by auto. destruct a; auto.
  - intros vs -> N. assert (E : fold_right numplus (Some 0) (map Some vs) = Some (sumR vs)).
    { clear N. induction vs as [|a t IH]; [reflexivity|]. cbn [map fold_right]. rewrite IH. cbn. rewrite sumR_cons. auto. }
    rewrite E, map_length. assert (0 < INR (length vs)) by (destruct vs; [congruence|apply lt_0_INR; cbn; lia]). field. lra.
Qed.
Print Assumptions c85_albedo.
(** The transmittances of the published parameterisation (Corripio 2002, eqs. 3.8 to 3.19), in logarithmic form where they are exponential. *)
Theorem c85_published : forall m w vis oz el,
  0 < m ->
  ln (trans_gases m) = - (127 / 10000) * exp (26 / 100 * ln m) /\
  trans_rayleigh m = exp (- (903 / 10000) * exp (84 / 100 * ln m)) * (1 + m - exp (101 / 100 * ln m)) /\
  (1 - trans_vapor w m) * (exp (6828 / 10000 * ln (1 + 79034 / 10000 * (w * m))) + 6385 / 10000 * (w * m)) = (if Req_EM_T (exp (6828 / 10000 * ln (1 + 79034 / 10000 * (w * m))) + 6385 / 10000 * (w * m)) 0 then 0 else 24959 / 100000 * (w * m)) /\
  trans_ozone oz m = 1 - 1611 / 10000 * (100 * oz * m) * exp (- (3035 / 10000) * ln (1 + 13948 / 100 * (100 * oz * m))) + 2715 / 1000000 * (100 * oz * m) / (1 + 44 / 1000 * (100 * oz * m) + 3 / 10000 * (100 * oz * m) ^ 2) /\
  ln (trans_aerosols vis m) = exp (9 / 10 * ln m) * ln (97 / 100 - 1265 / 1000 * exp (- (66 / 100) * ln (vis / 1000))) /\
  (elev_corr el = 22 / 1000000 * Rmin el 3000).
Proof.
  intros m w vis oz el M. repeat split.
  - unfold trans_gases, Rpower. rewrite ln_exp. replace 0.26 with (26 / 100) by lra. lra.
  - unfold trans_rayleigh, Rpower. replace 0.84 with (84 / 100) by lra. replace 1.01 with (101 / 100) by lra. replace (- 0.0903) with (- (903 / 10000)) by lra. auto.
  - unfold trans_vapor, Rpower. replace 0.6828 with (6828 / 10000) by lra. replace (79.034 * (w / 10 * m)) with (79034 / 10000 * (w * m)) by lra.
    replace (6.385 * (w / 10 * m)) with (6385 / 10000 * (w * m)) by lra. replace (2.4959 * (w / 10 * m) * 1) with (24959 / 100000 * (w * m)) by lra.
    set (d := exp (6828 / 10000 * ln (1 + 79034 / 10000 * (w * m))) + 6385 / 10000 * (w * m)). destruct (Req_EM_T d 0) as [-> |N]; [ring|]. field. auto.
  - unfold trans_ozone, Rpower. replace (oz * 100 * m) with (100 * oz * m) by ring. replace (-0.3035) with (- (3035 / 10000)) by lra. replace 139.48 with (13948 / 100) by lra.
    replace 0.044 with (44 / 1000) by lra. replace 0.0003 with (3 / 10000) by lra. replace 0.1611 with (1611 / 10000) by lra. replace 0.002715 with (2715 / 1000000) by lra. unfold Rdiv. ring.
  - unfold trans_aerosols, aerosol_base, Rpower. rewrite ln_exp. replace 0.9 with (9 / 10) by lra. replace 0.97 with (97 / 100) by lra. replace 1.265 with (1265 / 1000) by lra. replace (-0.66) with (- (66 / 100)) by lra. auto.
Qed.
Print Assumptions c85_published.
(** The diffuse part in terms of its sources: [S] scattered by air molecules and aerosols; [D] including multiple reflections between ground
    and atmosphere (a fraction ground albedo times atmospheric albedo of whatever comes down comes down again); through the visible part of
    the sky; and reflected by the slopes hiding the rest. *)
Theorem c85_diffuse : forall c da sx sy sz ga roi p, -1 <= sz <= 1 ->
  let m := air_mass (acos sz) in let mp := m * cp_press p / 101325 in
  let ta := trans_aerosols (cc_visibility c) mp in
  let taa := 1 - (1 - cc_ssa c) * (1 - mp + Rpower mp 1.06) * (1 - ta) in
  let forward := 0.9067 - 0.2562 * 0.1409 * (acos sz) ^ 3 in
  let atm := cc_albedo c + (1 - forward) * (1 - ta / taa) in
  let beam := 1366.1 * eccentricity da in
  let dir := fst (clear_sky c da (sx, sy, sz) ga roi p) in
  taa <> 0 -> 1 - mp + Rpower mp 1.02 <> 0 -> 1 - ga * atm <> 0 ->
  exists S D,
    S * (1 - mp + Rpower mp 1.02) = 0.79 * beam * sz * trans_ozone (cc_ozone c) m * trans_gases mp * trans_vapor (cp_pw p) m * (taa * (1 - trans_rayleigh mp) / 2 + forward * (taa - ta)) /\
    D = S + ga * atm * (D + dir * sz) /\
    snd (clear_sky c da (sx, sy, sz) ga roi p) = cp_svf p * D + (1 - cp_svf p) * ga * (D + sun_frac roi * mean_sun_aoi roi * (dir / 0.9751)).
Proof.
  intros c da sx sy sz ga roi p SZ m mp ta taa forward atm beam dir N1 N2 N3.
  assert (FW : scattering_ratio (acos sz) = forward) by (unfold scattering_ratio, forward; lra).
  unfold dir. unfold clear_sky. cbn [fst snd]. cbv zeta. rewrite !cos_acos by lra. unfold press_corr, STANDARD_ATMOSPHERE, trans_aerosol_abs. fold m. fold mp. fold ta. fold taa. rewrite FW. fold atm.
  unfold SOLAR_CONSTANT. fold beam.
  set (T := clip 0 1 _). set (ic := incidence _ _). set (tr := trans_rayleigh mp). set (toz := trans_ozone _ _). set (tg := trans_gases mp). set (tv := trans_vapor _ _). set (k := 1 - mp + Rpower mp 1.02) in *.
  set (sf := sun_frac roi). set (ma := mean_sun_aoi roi).
  clearbody T ic tr toz tg tv k sf ma forward beam. clear FW dir.
  set (S0 := 0.79 * beam * sz * toz * tg * tv * taa * 0.5 * (1 - tr) / k + 0.79 * beam * sz * toz * tg * tv * taa * forward * (1 - ta / taa) / k).
  set (dir := 0.9751 * (beam * ic * cp_shadow p) * T).
  exists S0, (S0 + (dir * sz + S0) * ga * atm / (1 - ga * atm)). split; [|split].
  - unfold S0. replace 0.5 with (/ 2) by lra. clearbody taa ta. field. auto.
  - clearbody S0 dir atm. field. auto.
  - replace (dir / 0.9751) with (beam * ic * cp_shadow p * T) by (unfold dir; assert (NZ : 0.9751 <> 0) by lra; set (e := 0.9751) in *; clearbody e; field; auto). unfold S0. clearbody dir atm.
    set (q1 := 0.79 * beam * sz * toz * tg * tv * taa * 0.5 * (1 - tr) / k). set (q2 := 0.79 * beam * sz * toz * tg * tv * taa * forward * (1 - ta / taa) / k).
    clearbody q1 q2. unfold Rdiv. ring.
Qed.
Print Assumptions c85_diffuse.
(** The share of sunlit pixels and the mean incidence on them. *)
Theorem c85_means : forall roi, roi <> [] -> (forall q, In q roi -> snd q = 0 \/ snd q = 1) ->
  sun_frac roi * INR (length roi) = INR (length (filter (fun q => if Req_EM_T (snd q) 1 then true else false) roi)) /\
  mean_sun_aoi roi * (sun_frac roi * INR (length roi)) = sumR (map (fun q => fst q * snd q) roi).
Proof.
  intros roi N H. set (f := fun q : R * R => if Req_EM_T (snd q) 1 then true else false).
  assert (A : sumR (map snd roi) = INR (length (filter f roi)) /\ sumR (lit_aois roi) = sumR (map (fun q => fst q * snd q) roi)).
  { clear N. unfold lit_aois. fold f. induction roi as [|q t IH]; [split; reflexivity|]. destruct IH as [I1 I2]; [intros; apply H; right; auto|].
    cbn [map filter]. rewrite !sumR_cons, I1, <- I2. change (f q) with (if Req_EM_T (snd q) 1 then true else false).
    destruct (H q (or_introl eq_refl)) as [E|E]; rewrite E; destruct (Req_EM_T _ 1); try lra.
    split; [cbn [length]; rewrite S_INR; lra|cbn [map]; rewrite sumR_cons; lra]. }
  destruct A as [A1 A2]. assert (P : 0 < INR (length roi)) by (destruct roi; [congruence|apply lt_0_INR; cbn; lia]).
  assert (B : sun_frac roi * INR (length roi) = INR (length (filter f roi))) by (unfold sun_frac; rewrite A1; field; lra).
  split; auto. rewrite B, <- A2. unfold mean_sun_aoi. destruct (lit_aois roi) as [|a t] eqn:E; [rewrite sumR_nil; ring|]. rewrite <- E.
  replace (length (filter f roi)) with (length (lit_aois roi)) by (unfold lit_aois; rewrite map_length; auto).
  assert (0 < INR (length (lit_aois roi))) by (rewrite E; apply lt_0_INR; cbn; lia). field. lra.
Qed.
Print Assumptions c85_means.
