(** Proofs about the meteorological conversions. *)
From Verif Require Import Common Constants AtmosphereModel.

Lemma Rpower_pos' x y : 0 < Rpower x y. Proof. apply exp_pos. Qed.
Lemma Rpower_incr x y p : 0 < x -> x < y -> 0 < p -> Rpower x p < Rpower y p.
Proof. intros. apply Rlt_Rpower_l; auto. Qed.
Lemma Rpower_inv x p : 0 < x -> p <> 0 -> Rpower (Rpower x p) (1 / p) = x.
Proof. intros. rewrite Rpower_mult. replace (p * (1 / p)) with 1 by (field; auto). apply Rpower_1; auto. Qed.
Lemma Rpower_inv' x p : 0 < x -> p <> 0 -> Rpower (Rpower x (1 / p)) p = x.
Proof. intros. rewrite Rpower_mult. replace (1 / p * p) with 1 by (field; auto). apply Rpower_1; auto. Qed.

Ltac consts := unfold SPEC_HEAT_CAP_DRY_AIR, MOLAR_MASS_DRY_AIR, UNIVERSAL_GAS_CONSTANT,
  STANDARD_ATMOSPHERE, GRAVITATIONAL_ACCELERATION, STANDARD_SEA_LEVEL_TEMPERATURE, T0 in *.

Lemma press_exp_pos : 0 < press_exp.
Proof. unfold press_exp. consts. apply Rdiv_lt_0_compat; lra. Qed.

(** Height (m) where the modelled atmosphere ends. *)
Definition top_of_atmosphere : R :=
  SPEC_HEAT_CAP_DRY_AIR * STANDARD_SEA_LEVEL_TEMPERATURE / GRAVITATIONAL_ACCELERATION.
Definition hfrac (z : R) : R :=
  1 - GRAVITATIONAL_ACCELERATION * z / (SPEC_HEAT_CAP_DRY_AIR * STANDARD_SEA_LEVEL_TEMPERATURE).
Lemma hfrac_pos z : z < top_of_atmosphere -> 0 < hfrac z.
Proof.
  unfold hfrac, top_of_atmosphere. consts. intro H.
  apply Rmult_lt_compat_r with (r := 9.80665) in H; [|lra].
  unfold Rdiv in H. rewrite Rmult_assoc, Rinv_l, Rmult_1_r in H by lra.
  enough (9.80665 * z / (1004.68506 * (15 + 273.15)) < 1) by lra.
  apply Rmult_lt_reg_r with (1004.68506 * (15 + 273.15)); [lra|].
  unfold Rdiv. rewrite Rmult_assoc, Rinv_l by lra. lra.
Qed.
Lemma hfrac_anti z z' : z < z' -> hfrac z' < hfrac z.
Proof.
  unfold hfrac. consts. intro.
  enough (9.80665 * z / (1004.68506 * (15 + 273.15)) < 9.80665 * z' / (1004.68506 * (15 + 273.15))) by lra.
  apply Rmult_lt_compat_r; [|lra]. apply Rinv_0_lt_compat; lra.
Qed.

(** ** Magnus formula *)
Lemma magnus_incr ca cb cc t t' : 0 < ca -> 0 < cb -> 0 < cc -> 0 < cc + t -> t < t' ->
  ca * exp (cb * t / (cc + t)) < ca * exp (cb * t' / (cc + t')).
Proof.
  intros Ha Hb Hc H L. apply Rmult_lt_compat_l; auto. apply exp_increasing.
  assert (E : forall u, 0 < cc + u -> cb * u / (cc + u) = cb - cb * cc / (cc + u)) by (intros; field; lra).
  rewrite !E by lra.
  assert (cb * cc / (cc + t') < cb * cc / (cc + t)); [|lra].
  apply Rmult_lt_compat_l; [nra|]. apply Rinv_lt_contravar; nra.
Qed.

(** Validity range of the formulas: temperatures (K) above the pole. *)
Definition valid_temp (over : option surface_kind) (t : R) : Prop :=
  match over with
  | Some OverWater => T0 - 234.18 < t
  | _ => T0 - 272.44 < t
  end.

Lemma sat_pos over t : 0 < saturation_vapor_pressure over t.
Proof.
  unfold saturation_vapor_pressure, magnus_water, magnus_ice.
  destruct over as [[]|]; [| |destruct (Rle_dec _ _)]; apply Rmult_lt_0_compat; try apply exp_pos; lra.
Qed.
Lemma sat_incr over t t' : valid_temp over t -> t < t' ->
  saturation_vapor_pressure over t < saturation_vapor_pressure over t'.
Proof.
  unfold saturation_vapor_pressure, magnus_water, magnus_ice, valid_temp. intros V L.
  destruct over as [[]|].
  - apply magnus_incr; lra.
  - apply magnus_incr; lra.
  - destruct (Rle_dec 0 (t - T0)), (Rle_dec 0 (t' - T0)); try lra; try (apply magnus_incr; lra).
    apply Rlt_le_trans with 610.71.
    + rewrite <- Rmult_1_r. apply Rmult_lt_compat_l; [lra|]. rewrite <- exp_0. apply exp_increasing.
      assert (0 < / (272.44 + (t - T0))) by (apply Rinv_0_lt_compat; lra).
      unfold Rdiv. nra.
    + apply Rle_trans with 610.78; [lra|]. rewrite <- (Rmult_1_r 610.78) at 1. apply Rmult_le_compat_l; [lra|].
      rewrite <- exp_0. assert (0 <= 17.08 * (t' - T0) / (234.18 + (t' - T0))).
      { apply Rmult_le_pos; [lra|]. left. apply Rinv_0_lt_compat; lra. }
      destruct (Rle_lt_or_eq_dec _ _ H) as [P|P]; [left; apply exp_increasing; auto|rewrite <- P; lra].
Qed.
Lemma sat_mono over t t' : valid_temp over t -> t <= t' ->
  saturation_vapor_pressure over t <= saturation_vapor_pressure over t'.
Proof. intros V [L| ->]; [left; apply sat_incr; auto|right; auto]. Qed.
Lemma sat_inj over t t' : valid_temp over t -> valid_temp over t' ->
  saturation_vapor_pressure over t = saturation_vapor_pressure over t' -> t = t'.
Proof.
  intros V V' E. destruct (Rtotal_order t t') as [L|[L|L]]; auto.
  - pose proof (sat_incr over t t' V L); lra.
  - pose proof (sat_incr over t' t V' L); lra.
Qed.

(** Dew point: the temperature at which the vapour pressure is the saturation pressure. *)
Lemma dew_valid t rh : valid_temp (Some OverWater) t -> 0 < rh <= 100 ->
  ln (vapor_pressure (Some OverWater) t rh / 610.78) < 17.08.
Proof.
  cbn. intros V H. unfold vapor_pressure, saturation_vapor_pressure, magnus_water.
  set (tc := t - T0) in *. assert (0 < 234.18 + tc) by (unfold tc; lra).
  replace (610.78 * exp (17.08 * tc / (234.18 + tc)) * rh / 100 / 610.78)
    with (exp (17.08 * tc / (234.18 + tc)) * (rh / 100)) by (field; lra).
  rewrite ln_mult, ln_exp; [|apply exp_pos|lra].
  assert (ln (rh / 100) <= 0). { rewrite <- ln_1. destruct (Rle_lt_or_eq_dec rh 100 (proj2 H)) as [|E].
    left; apply ln_increasing; lra. rewrite E. right; f_equal; field. }
  assert (17.08 * tc / (234.18 + tc) < 17.08); [|lra].
  apply Rmult_lt_reg_r with (234.18 + tc); auto. unfold Rdiv. rewrite Rmult_assoc, Rinv_l by lra. nra.
Qed.
Lemma dew_sat t rh : valid_temp (Some OverWater) t -> 0 < rh <= 100 ->
  valid_temp (Some OverWater) (dew_point_temperature t rh) /\
  saturation_vapor_pressure (Some OverWater) (dew_point_temperature t rh)
  = vapor_pressure (Some OverWater) t rh.
Proof.
  intros V H. pose proof (dew_valid t rh V H) as D.
  assert (P : 0 < vapor_pressure (Some OverWater) t rh).
  { unfold vapor_pressure. pose proof (sat_pos (Some OverWater) t). apply Rdiv_lt_0_compat; [|lra]. nra. }
  unfold dew_point_temperature. cbn [magnus_water]. unfold magnus_water.
  set (v := vapor_pressure (Some OverWater) t rh) in *. set (L := ln (v / 610.78)) in *.
  assert (Q : 0 < 234.18 * 17.08 / (17.08 - L)) by (apply Rdiv_lt_0_compat; lra).
  assert (EQ : 234.18 + 234.18 * L / (17.08 - L) = 234.18 * 17.08 / (17.08 - L)) by (field; lra).
  split; [cbn; lra|].
  unfold saturation_vapor_pressure, magnus_water.
  replace (234.18 * L / (17.08 - L) + T0 - T0) with (234.18 * L / (17.08 - L)) by ring.
  rewrite EQ.
  replace (17.08 * (234.18 * L / (17.08 - L)) / (234.18 * 17.08 / (17.08 - L))) with L by (field; lra).
  unfold L. rewrite exp_ln; [field; lra|]. apply Rdiv_lt_0_compat; lra.
Qed.

(** ** arctan2 *)
Lemma arctan2_polar r t : 0 < r -> - PI < t <= PI -> arctan2 (r * sin t) (r * cos t) = t.
Proof.
  intros Hr [H1 H2]. pose proof PI_RGT_0 as P. unfold arctan2.
  assert (TAN : cos t <> 0 -> r * sin t / (r * cos t) = tan t) by (intro; unfold tan; field; lra).
  destruct (Rtotal_order (Rabs t) (PI / 2)) as [A|[A|A]].
  - assert (- (PI / 2) < t < PI / 2) by (apply Rabs_def2 in A; lra).
    pose proof (cos_gt_0 t ltac:(lra) ltac:(lra)).
    destruct (Rlt_dec 0 (r * cos t)) as [C|C]; [|exfalso; apply C; nra].
    rewrite TAN by lra. apply atan_tan; lra.
  - assert (E : t = PI / 2 \/ t = - (PI / 2)).
    { unfold Rabs in A. destruct (Rcase_abs t); [right; lra|left; lra]. }
    destruct E as [-> | ->].
    + rewrite cos_PI2, sin_PI2, Rmult_0_r, Rmult_1_r.
      destruct (Rlt_dec 0 0); [lra|]. destruct (Rlt_dec 0 r); [auto|lra].
    + rewrite cos_neg, sin_neg, cos_PI2, sin_PI2, Rmult_0_r.
      destruct (Rlt_dec 0 0); [lra|]. destruct (Rlt_dec 0 (r * - (1))); [lra|].
      destruct (Rlt_dec (r * - (1)) 0); [auto|lra].
  - unfold Rabs in A. destruct (Rcase_abs t).
    + (* -PI < t < -PI/2 *)
      assert (C : cos t < 0). { rewrite <- cos_neg. apply cos_lt_0; lra. }
      assert (S : sin t < 0). { apply sin_lt_0_var; lra. }
      destruct (Rlt_dec 0 (r * cos t)); [nra|]. destruct (Rlt_dec (r * cos t) 0); [|nra].
      destruct (Rle_dec 0 (r * sin t)); [nra|]. rewrite TAN by lra.
      replace (tan t) with (tan (t + PI)) by (unfold tan; rewrite neg_sin, neg_cos; field; lra).
      rewrite atan_tan by lra. lra.
    + assert (C : cos t < 0) by (apply cos_lt_0; lra).
      assert (S : 0 <= sin t) by (apply sin_ge_0; lra).
      destruct (Rlt_dec 0 (r * cos t)); [nra|]. destruct (Rlt_dec (r * cos t) 0); [|nra].
      destruct (Rle_dec 0 (r * sin t)); [|nra]. rewrite TAN by lra.
      replace (tan t) with (tan (t - PI)).
      2: { unfold tan. rewrite sin_minus, cos_minus, cos_PI, sin_PI. field. lra. }
      rewrite atan_tan by lra. lra.
Qed.

Lemma fmod_period x (k : Z) : 0 <= x < 360 -> fmod (x + 360 * IZR k) 360 = x.
Proof.
  intros H. unfold fmod.
  assert (E : Int_part ((x + 360 * IZR k) / 360) = k).
  { unfold Int_part.
    assert (A1 : (x + 360 * IZR k) / 360 = x / 360 + IZR k) by field.
    assert (A2 : x / 360 < 1) by (apply Rmult_lt_reg_r with 360; [lra|]; unfold Rdiv; rewrite Rmult_assoc, Rinv_l; lra).
    assert (A3 : 0 <= x / 360) by (apply Rmult_le_pos; lra).
    rewrite <- (tech_up ((x + 360 * IZR k) / 360) (k + 1)).
    - lia.
    - rewrite plus_IZR. lra.
    - rewrite plus_IZR. lra. }
  rewrite E. ring.
Qed.

(** ** Lists *)
Lemma maxR_ge l x : In x l -> x <= maxR l.
Proof.
  induction l as [|a l IH]; intros []; destruct l as [|b l].
  - subst; cbn; lra.
  - subst. change (x <= Rmax x (maxR (b :: l))). apply Rmax_l.
  - destruct H.
  - change (x <= Rmax a (maxR (b :: l))). eapply Rle_trans; [apply IH; auto|apply Rmax_r].
Qed.
Lemma maxR_in l : l <> [] -> In (maxR l) l.
Proof.
  induction l as [|a l IH]; [congruence|]. intros _. destruct l as [|b l]; [left; auto|].
  change (In (Rmax a (maxR (b :: l))) (a :: b :: l)).
  unfold Rmax. destruct (Rle_dec _ _); [right; apply IH; congruence|left; auto].
Qed.
