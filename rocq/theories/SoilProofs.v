(** Proofs about the soil properties. *)
From Verif Require Import Common Constants SoilModel.

Definition valid_soil (s : soil_layer) : Prop :=
  0 < thickness s /\ 0 < temp s /\ 0 < heat_cap_dry s /\ 0 < therm_cond_dry s /\
  0 <= moisture s <= moisture_sat s /\ 0 < moisture_sat s /\ 0 < sat_water_pressure s /\
  0 < clapp_hornberger s.

Lemma kappa_pos : 0 < kappa.
Proof.
  unfold kappa, ICE_DENSITY, WATER_DENSITY, Lf, T0, GRAVITATIONAL_ACCELERATION.
  rewrite Rmult_1_l. apply Rdiv_lt_0_compat; lra.
Qed.
Lemma Rpower_pos x y : 0 < Rpower x y.
Proof. apply exp_pos. Qed.
Lemma Rpower_anti x y p : 0 < x -> x < y -> p < 0 -> Rpower y p < Rpower x p.
Proof.
  intros. unfold Rpower. apply exp_increasing. assert (ln x < ln y) by (apply ln_increasing; auto). nra.
Qed.
Lemma Rpower_ge1 x y : 1 <= x -> 0 <= y -> 1 <= Rpower x y.
Proof.
  intros. replace 1 with (Rpower 1 y) by (unfold Rpower; rewrite ln_1, Rmult_0_r, exp_0; auto).
  apply Rle_Rpower_l; auto. lra.
Qed.

Section S.
Variable s : soil_layer.
Hypothesis V : valid_soil s.
Hypothesis W : 0 < moisture s.

Lemma ratio_pos : 0 < moisture_sat s / moisture s.
Proof. destruct V as (_ & _ & _ & _ & _ & H & _). apply Rdiv_lt_0_compat; auto. Qed.

(** [-kappa*(T-T0)/psi] compared with [(theta_s/theta)^b] decides freezing. *)
Lemma threshold : temp s < temp_max_frozen s <->
  Rpower (moisture_sat s / moisture s) (clapp_hornberger s)
  < - kappa * (temp s - T0) / sat_water_pressure s.
Proof.
  destruct V as (_ & _ & _ & _ & _ & _ & P & _). pose proof kappa_pos as K.
  unfold temp_max_frozen. set (r := Rpower _ _).
  assert (E : forall u, u = sat_water_pressure s / kappa * (u * kappa / sat_water_pressure s))
    by (intro; field; split; lra).
  assert (Q : 0 < sat_water_pressure s / kappa) by (apply Rdiv_lt_0_compat; auto).
  set (q := - kappa * (temp s - T0) / sat_water_pressure s).
  assert (EQ : T0 - temp s = sat_water_pressure s / kappa * q) by (unfold q; field; split; lra).
  split; intro H; nra.
Qed.

Lemma freezing_base : temp s < temp_max_frozen s ->
  0 < - kappa * (temp s - T0) / sat_water_pressure s.
Proof. intro H. apply threshold in H. pose proof (Rpower_pos (moisture_sat s / moisture s) (clapp_hornberger s)). lra. Qed.

Lemma below_threshold : temp s < temp_max_frozen s -> max_unfrozen s < moisture s.
Proof.
  intro H. apply threshold in H. destruct V as (_ & _ & _ & _ & M & S' & P & B).
  unfold max_unfrozen. set (q := - kappa * (temp s - T0) / sat_water_pressure s) in *.
  assert (E : Rpower (Rpower (moisture_sat s / moisture s) (clapp_hornberger s))
      (-1 / clapp_hornberger s) = moisture s / moisture_sat s).
  { rewrite Rpower_mult. replace (clapp_hornberger s * (-1 / clapp_hornberger s)) with (- (1)) by (field; lra).
    rewrite Rpower_Ropp, Rpower_1 by apply ratio_pos. field; lra. }
  assert (N : -1 / clapp_hornberger s < 0).
  { unfold Rdiv. pose proof (Rinv_0_lt_compat _ B). lra. }
  pose proof (Rpower_anti _ q _ (Rpower_pos _ _) H N) as A. rewrite E in A.
  apply Rmult_lt_reg_l with (/ moisture_sat s). apply Rinv_0_lt_compat; auto.
  rewrite <- Rmult_assoc, Rinv_l by lra. unfold Rdiv in A. lra.
Qed.
Lemma max_unfrozen_pos : 0 < max_unfrozen s.
Proof. destruct V as (_ & _ & _ & _ & _ & S' & _). unfold max_unfrozen. apply Rmult_lt_0_compat; auto. apply Rpower_pos. Qed.

Lemma vol_unfrozen_eq : vol_unfrozen s =
  if Rlt_dec (temp s) (temp_max_frozen s) then max_unfrozen s else moisture s.
Proof.
  unfold vol_unfrozen. destruct (Rlt_dec _ _); auto. apply Rmin_left.
  pose proof (below_threshold r); lra.
Qed.
Lemma vol_unfrozen_range : 0 < vol_unfrozen s <= moisture s.
Proof.
  rewrite vol_unfrozen_eq. pose proof max_unfrozen_pos. destruct (Rlt_dec _ _); [|lra].
  pose proof (below_threshold r); lra.
Qed.
Lemma dtheta_nonneg : 0 <= dtheta_dt s.
Proof.
  unfold dtheta_dt. destruct (Rlt_dec _ _); [|lra]. destruct V as (_ & _ & _ & _ & _ & S' & P & B).
  pose proof kappa_pos. apply Rmult_le_pos; [|left; apply Rpower_pos].
  left. apply Rdiv_lt_0_compat; apply Rmult_lt_0_compat; auto.
Qed.
Lemma vol_frozen_nonneg : 0 <= vol_frozen s.
Proof.
  unfold vol_frozen. pose proof vol_unfrozen_range. unfold WATER_DENSITY, ICE_DENSITY.
  apply Rmult_le_pos; [|lra]. nra.
Qed.
Lemma frozen_mass : ICE_DENSITY * vol_frozen s + WATER_DENSITY * vol_unfrozen s = WATER_DENSITY * moisture s.
Proof. unfold vol_frozen, ICE_DENSITY. field. Qed.
End S.

Lemma frac_sum s : valid_soil s -> 0 < moisture s ->
  vol_unfrozen s / moisture_sat s + (ICE_DENSITY / WATER_DENSITY) * vol_frozen s / moisture_sat s
  = moisture s / moisture_sat s.
Proof.
  intros V W. destruct V as (_ & _ & _ & _ & _ & S' & _).
  unfold vol_frozen, ICE_DENSITY, WATER_DENSITY. field. lra.
Qed.

(** Conductivity of the saturated soil lies above that of the dry soil. *)
Lemma tc_sat_ge (tcd ms u : R) : 0 < tcd -> 0 <= u <= ms ->
  tcd <= tcd * Rpower THERM_COND_WATER u * Rpower THERM_COND_ICE (ms - u) / Rpower THERM_COND_AIR ms.
Proof.
  intros Ht Hu.
  assert (E : Rpower THERM_COND_AIR ms = Rpower THERM_COND_AIR u * Rpower THERM_COND_AIR (ms - u)).
  { rewrite <- Rpower_plus. f_equal; ring. }
  rewrite E.
  assert (A : forall x w, 0 <= w -> THERM_COND_AIR <= x -> Rpower THERM_COND_AIR w <= Rpower x w).
  { intros. apply Rle_Rpower_l; auto. unfold THERM_COND_AIR in *; lra. }
  pose proof (A THERM_COND_WATER u ltac:(lra) ltac:(unfold THERM_COND_AIR, THERM_COND_WATER; lra)) as A1.
  pose proof (A THERM_COND_ICE (ms - u) ltac:(lra) ltac:(unfold THERM_COND_AIR, THERM_COND_ICE; lra)) as A2.
  pose proof (Rpower_pos THERM_COND_AIR u) as P1. pose proof (Rpower_pos THERM_COND_AIR (ms - u)) as P2.
  set (p := Rpower THERM_COND_AIR u) in *. set (q := Rpower THERM_COND_AIR (ms - u)) in *.
  apply Rmult_le_reg_r with (p * q). nra.
  unfold Rdiv. rewrite Rmult_assoc, Rinv_l by nra.
  set (v := Rpower THERM_COND_WATER u) in *. set (z := Rpower THERM_COND_ICE (ms - u)) in *.
  assert (p * q <= v * z) by (apply Rmult_le_compat; lra). nra.
Qed.
