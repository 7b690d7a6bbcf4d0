(** Property C54: soil moisture partition and soil thermal properties (modules/soil/soil.py). *)
From Verif Require Import Common Constants SoilModel SoilProofs.

(** The water in the soil is split into a frozen and an unfrozen part; both are fractions of
    saturation; nothing is created or lost. *)
Theorem c54_moisture_partition : forall s, valid_soil s -> 0 < moisture s ->
  let q := soil_properties s in
  frac_frozen q + frac_unfrozen q = moisture s / moisture_sat s /\
  0 <= frac_frozen q < 1 /\ 0 < frac_unfrozen q <= 1.
Proof.
  intros s V W q. unfold q, soil_properties. destruct (Rlt_dec 0 (moisture s)); [|lra].
  cbn [frac_frozen frac_unfrozen].
  pose proof (frac_sum s V W) as E. pose proof (vol_unfrozen_range s V W) as U.
  pose proof (vol_frozen_nonneg s V W) as F. destruct V as (_ & _ & _ & _ & M & S' & _).
  assert (P1 : 0 < vol_unfrozen s / moisture_sat s) by (apply Rdiv_lt_0_compat; lra).
  assert (P2 : 0 <= ICE_DENSITY / WATER_DENSITY * vol_frozen s / moisture_sat s).
  { apply Rmult_le_pos. apply Rmult_le_pos; auto. unfold ICE_DENSITY, WATER_DENSITY; lra.
    left; apply Rinv_0_lt_compat; auto. }
  assert (P3 : moisture s / moisture_sat s <= 1).
  { apply Rmult_le_reg_r with (moisture_sat s); auto. unfold Rdiv. rewrite Rmult_assoc, Rinv_l by lra. lra. }
  lra.
Qed.
Print Assumptions c54_moisture_partition.

(** Which part is frozen: everything is liquid at and above the threshold temperature of eq. (43);
    below it the unfrozen water follows the freezing curve of eq. (39) and some water is frozen. *)
Theorem c54_freezing : forall s, valid_soil s -> 0 < moisture s ->
  let q := soil_properties s in
  let kap := 917 / 1000 * 334000 / (273.15 * 9.80665) in
  let T_max := 273.15 - sat_water_pressure s / kap
                        * Rpower (moisture_sat s / moisture s) (clapp_hornberger s) in
  (T_max <= temp s -> frac_frozen q = 0 /\ frac_unfrozen q = moisture s / moisture_sat s) /\
  (temp s < T_max ->
     frac_unfrozen q = Rpower (kap * (273.15 - temp s) / sat_water_pressure s) (- (1 / clapp_hornberger s)) /\
     frac_unfrozen q < moisture s / moisture_sat s /\ 0 < frac_frozen q).
Proof.
  intros s V W q kap T_max.
  assert (Ek : kap = kappa) by (unfold kap, kappa, ICE_DENSITY, WATER_DENSITY, Lf, T0, GRAVITATIONAL_ACCELERATION; lra).
  assert (Et : T_max = temp_max_frozen s) by (unfold T_max, temp_max_frozen, T0; rewrite Ek; reflexivity).
  pose proof (frac_sum s V W) as E. pose proof (vol_unfrozen_eq s V W) as U.
  pose proof V as V'. destruct V' as (_ & _ & _ & _ & M & S' & P & B).
  unfold q, soil_properties. destruct (Rlt_dec 0 (moisture s)); [|lra]. cbn [frac_frozen frac_unfrozen].
  rewrite Et. split; intro H.
  - destruct (Rlt_dec _ _) in U; [lra|]. rewrite U in *. split; lra.
  - destruct (Rlt_dec _ _) in U; [|lra]. pose proof (below_threshold s V W H) as L.
    assert (vol_unfrozen s / moisture_sat s < moisture s / moisture_sat s).
    { rewrite U. apply Rmult_lt_compat_r; auto. apply Rinv_0_lt_compat; auto. }
    split; [|split; lra]. rewrite U. unfold max_unfrozen, T0. rewrite Ek.
    replace (- kappa * (temp s - 273.15)) with (kappa * (273.15 - temp s)) by ring.
    replace (-1 / clapp_hornberger s) with (- (1 / clapp_hornberger s)) by (field; lra).
    field. lra.
Qed.
Print Assumptions c54_freezing.

(** Colder soil never holds more unfrozen water. *)
Theorem c54_freezing_monotone : forall s s', valid_soil s -> valid_soil s' -> 0 < moisture s ->
  moisture s' = moisture s -> moisture_sat s' = moisture_sat s ->
  sat_water_pressure s' = sat_water_pressure s -> clapp_hornberger s' = clapp_hornberger s ->
  temp s' <= temp s ->
  frac_unfrozen (soil_properties s') <= frac_unfrozen (soil_properties s) /\
  frac_frozen (soil_properties s) <= frac_frozen (soil_properties s').
Proof.
  intros s s' V V' W E1 E2 E3 E4 L.
  assert (W' : 0 < moisture s') by lra.
  pose proof (c54_moisture_partition s V W) as (Q1 & _).
  pose proof (c54_moisture_partition s' V' W') as (Q2 & _).
  rewrite E1, E2 in Q2.
  enough (frac_unfrozen (soil_properties s') <= frac_unfrozen (soil_properties s)) by lra. clear Q1 Q2.
  unfold soil_properties. destruct (Rlt_dec 0 (moisture s)); [|lra]. destruct (Rlt_dec 0 (moisture s')); [|lra].
  cbn [frac_unfrozen]. rewrite E2. pose proof V as V2. destruct V2 as (_ & _ & _ & _ & M & S' & P & B).
  apply Rmult_le_compat_r. left; apply Rinv_0_lt_compat; auto.
  assert (TT : temp_max_frozen s' = temp_max_frozen s) by (unfold temp_max_frozen; rewrite E1, E2, E3, E4; auto).
  rewrite (vol_unfrozen_eq s' V' W'), (vol_unfrozen_eq s V W), TT, E1.
  destruct (Rlt_dec (temp s') (temp_max_frozen s)) as [A|A], (Rlt_dec (temp s) (temp_max_frozen s)) as [A'|A']; try lra.
  - unfold max_unfrozen. rewrite E2, E3, E4. apply Rmult_le_compat_l; [lra|].
    destruct (Req_dec (temp s') (temp s)) as [->|N]; [lra|]. left.
    pose proof kappa_pos. apply Rpower_anti.
    + apply freezing_base; auto.
    + apply Rmult_lt_compat_r; [apply Rinv_0_lt_compat; auto|]. nra.
    + unfold Rdiv. pose proof (Rinv_0_lt_compat _ B). lra.
  - left. rewrite <- E1. apply below_threshold; auto. rewrite TT; auto.
Qed.
Print Assumptions c54_freezing_monotone.

(** The thermal properties used by the heat conduction are positive (so its hypotheses are met):
    capacity at least that of the dry soil, conductivity between dry and saturated. *)
Theorem c54_thermal_properties : forall s, valid_soil s ->
  let q := soil_properties s in
  0 < heat_cap_dry s * thickness s <= heat_cap q /\ 0 < therm_cond_dry s <= therm_cond q.
Proof.
  intros s V q. pose proof V as V'. destruct V' as (H1 & H2 & H3 & H4 & M & S' & P & B).
  assert (0 < heat_cap_dry s * thickness s) by nra.
  unfold q, soil_properties. destruct (Rlt_dec 0 (moisture s)) as [W|W]; [|cbn; lra].
  cbn [heat_cap therm_cond].
  pose proof (vol_unfrozen_range s V W) as U. pose proof (vol_frozen_nonneg s V W) as F.
  pose proof (dtheta_nonneg s V) as D. split; split; auto.
  - apply Rmult_le_compat_r; [lra|].
    assert (0 <= (SPEC_HEAT_CAP_WATER - SPEC_HEAT_CAP_ICE) * temp s + Lf)
      by (unfold SPEC_HEAT_CAP_WATER, SPEC_HEAT_CAP_ICE, Lf; nra).
    assert (0 <= WATER_DENSITY * ((SPEC_HEAT_CAP_WATER - SPEC_HEAT_CAP_ICE) * temp s + Lf) * dtheta_dt s).
    { apply Rmult_le_pos; auto. apply Rmult_le_pos; auto. unfold WATER_DENSITY; lra. }
    assert (0 <= WATER_DENSITY * SPEC_HEAT_CAP_WATER * vol_unfrozen s) by (unfold WATER_DENSITY, SPEC_HEAT_CAP_WATER; nra).
    assert (0 <= ICE_DENSITY * SPEC_HEAT_CAP_ICE * vol_frozen s) by (unfold ICE_DENSITY, SPEC_HEAT_CAP_ICE; nra).
    lra.
  - set (fu := vol_unfrozen s / moisture_sat s). set (ff := ICE_DENSITY / WATER_DENSITY * vol_frozen s / moisture_sat s).
    assert (Pu : 0 < fu) by (apply Rdiv_lt_0_compat; lra).
    assert (Pf : 0 <= ff).
    { apply Rmult_le_pos. apply Rmult_le_pos; auto. unfold ICE_DENSITY, WATER_DENSITY; lra.
      left; apply Rinv_0_lt_compat; auto. }
    assert (R1 : 0 <= fu / (fu + ff) <= 1).
    { split. apply Rmult_le_pos; [lra|]. left; apply Rinv_0_lt_compat; lra.
      apply Rmult_le_reg_r with (fu + ff); [lra|]. unfold Rdiv. rewrite Rmult_assoc, Rinv_l by lra. lra. }
    pose proof (tc_sat_ge (therm_cond_dry s) (moisture_sat s) (moisture_sat s * (fu / (fu + ff))) H4 ltac:(nra)) as T.
    set (z := _ / Rpower THERM_COND_AIR (moisture_sat s)) in *.
    enough (0 <= (z - therm_cond_dry s) * moisture s / moisture_sat s) by lra.
    apply Rmult_le_pos; [nra|]. left; apply Rinv_0_lt_compat; auto.
Qed.
Print Assumptions c54_thermal_properties.

(** The heat capacity is that of the dry soil plus its water and ice, plus the latent heat of the
    water that melts per Kelvin: the slope of the freezing curve at the current temperature. *)
Definition with_temp (s : soil_layer) (T : R) : soil_layer :=
  SoilLayer (thickness s) T (heat_cap_dry s) (therm_cond_dry s) (moisture s) (moisture_sat s)
    (sat_water_pressure s) (clapp_hornberger s) (old_frozen s) (old_unfrozen s).
Theorem c54_heat_capacity : forall s, valid_soil s -> 0 < moisture s ->
  temp s <> temp_max_frozen s ->
  let water T := moisture_sat s * frac_unfrozen (soil_properties (with_temp s T)) in
  exists slope, derivable_pt_lim water (temp s) slope /\
    heat_cap (soil_properties s) / thickness s =
    heat_cap_dry s + 1000 * (4180 * water (temp s) + 2100 * (moisture s - water (temp s)))
    + 1000 * (334000 + (4180 - 2100) * temp s) * slope.
Proof.
  intros s V W N water. pose proof V as V'. destruct V' as (H1 & H2 & H3 & H4 & M & S' & P & B).
  assert (EW : forall T, water T = vol_unfrozen (with_temp s T)).
  { intro T. unfold water, soil_properties. cbn [moisture with_temp].
    destruct (Rlt_dec 0 (moisture s)); [|lra]. cbn [frac_unfrozen moisture_sat with_temp]. field. lra. }
  exists (dtheta_dt s). split.
  - assert (TM : forall T, temp_max_frozen (with_temp s T) = temp_max_frozen s) by reflexivity.
    destruct (Rtotal_order (temp s) (temp_max_frozen s)) as [L|[L|L]]; [|lra|].
    + (* frozen branch in a neighbourhood *)
      set (f := fun T => moisture_sat s * Rpower (- kappa * (T - T0) / sat_water_pressure s) (-1 / clapp_hornberger s)).
      assert (D : derivable_pt_lim f (temp s) (dtheta_dt s)).
      { unfold dtheta_dt. destruct (Rlt_dec _ _); [|lra].
        pose proof (freezing_base s V L) as FB.
        replace (kappa * moisture_sat s / (clapp_hornberger s * sat_water_pressure s) *
           Rpower (- kappa * (temp s - T0) / sat_water_pressure s) (-1 / clapp_hornberger s - 1))
        with (moisture_sat s * ((-1 / clapp_hornberger s *
           Rpower (- kappa * (temp s - T0) / sat_water_pressure s) (-1 / clapp_hornberger s - 1)) * (- kappa / sat_water_pressure s)))
          by (field; lra).
        unfold f. apply (derivable_pt_lim_scal (fun T => Rpower (- kappa * (T - T0) / sat_water_pressure s) (-1 / clapp_hornberger s))).
        apply (derivable_pt_lim_comp (fun T => - kappa * (T - T0) / sat_water_pressure s) (fun q => Rpower q (-1 / clapp_hornberger s))).
        - replace (- kappa / sat_water_pressure s) with ((- kappa / sat_water_pressure s) * (1 - 0)) by lra.
          apply derivable_pt_lim_ext with (f := fun T => (- kappa / sat_water_pressure s) * (T - T0)).
          intro; field; lra.
          apply (derivable_pt_lim_scal (fun T => T - T0)).
          apply (derivable_pt_lim_minus id (fun _ => T0)). apply derivable_pt_lim_id. apply derivable_pt_lim_const.
        - apply derivable_pt_lim_power; auto. }
      intros eps He. destruct (D eps He) as [d Hd].
      assert (G : 0 < Rmin d (temp_max_frozen s - temp s)) by (apply Rmin_pos; [apply cond_pos|lra]).
      exists (mkposreal _ G). intros h Hh Hl. cbn in Hl.
      assert (Rabs h < d /\ Rabs h < temp_max_frozen s - temp s) as [A1 A2]
        by (split; eapply Rlt_le_trans; [exact Hl|apply Rmin_l|exact Hl|apply Rmin_r]).
      pose proof (Rle_abs h).
      assert (EF : forall T, T < temp_max_frozen s -> 0 < T -> water T = f T).
      { intros T HT HT0. rewrite EW. rewrite vol_unfrozen_eq.
        - rewrite TM. cbn [temp with_temp]. destruct (Rlt_dec _ _); [|lra]. reflexivity.
        - repeat split; cbn; auto; lra.
        - exact W. }
      assert (EF' : forall T, T < temp_max_frozen s -> water T = f T).
      { intros T HT. destruct (Rlt_le_dec 0 T) as [Q|Q]; [apply EF; auto|].
        rewrite EW. unfold vol_unfrozen. rewrite TM. cbn [temp with_temp]. destruct (Rlt_dec _ _); [|lra].
        apply Rmin_left. unfold max_unfrozen. cbn.
        (* colder than zero kelvin: the curve keeps decreasing *)
        pose proof (below_threshold s V W L) as BT. unfold max_unfrozen in BT.
        eapply Rle_trans; [|left; exact BT]. apply Rmult_le_compat_l; [lra|]. left.
        pose proof kappa_pos. apply Rpower_anti.
        + apply freezing_base; auto.
        + apply Rmult_lt_compat_r; [apply Rinv_0_lt_compat; auto|]. nra.
        + unfold Rdiv. pose proof (Rinv_0_lt_compat _ B). lra. }
      rewrite (EF' (temp s)), (EF' (temp s + h)) by lra. apply Hd; auto.
    + (* unfrozen branch *)
      unfold dtheta_dt. destruct (Rlt_dec _ _); [lra|].
      intros eps He. assert (G : 0 < temp s - temp_max_frozen s) by lra.
      exists (mkposreal _ G). intros h Hh Hl. cbn in Hl.
      pose proof (Rle_abs (- h)) as A. rewrite Rabs_Ropp in A.
      assert (EF : forall T, temp_max_frozen s < T -> water T = moisture s).
      { intros T HT. rewrite EW. unfold vol_unfrozen. rewrite TM. cbn [temp with_temp].
        destruct (Rlt_dec _ _); [lra|]. reflexivity. }
      rewrite (EF (temp s)), (EF (temp s + h)) by lra.
      replace ((moisture s - moisture s) / h - 0) with 0 by (field; auto). rewrite Rabs_R0. auto.
  - rewrite !EW. replace (with_temp s (temp s)) with s by (destruct s; reflexivity).
    unfold soil_properties. destruct (Rlt_dec 0 (moisture s)); [|lra]. cbn [heat_cap].
    unfold vol_frozen, WATER_DENSITY, ICE_DENSITY, SPEC_HEAT_CAP_WATER, SPEC_HEAT_CAP_ICE, Lf. field. lra.
Qed.
Print Assumptions c54_heat_capacity.

(** The conductivity interpolates linearly between the dry and the saturated soil (Johansen); the
    saturated value is the dry one with the air in the pores replaced by water and ice in their
    current proportion. *)
Theorem c54_conductivity : forall s, valid_soil s ->
  let q := soil_properties s in
  let S := moisture s / moisture_sat s in
  exists w, 0 <= w <= moisture_sat s /\
    (0 < moisture s -> w * (frac_frozen q + frac_unfrozen q) = moisture_sat s * frac_unfrozen q) /\
    therm_cond q = (1 - S) * therm_cond_dry s +
      S * (therm_cond_dry s * (Rpower 0.56 w * Rpower 2.24 (moisture_sat s - w)) / Rpower 0.025 (moisture_sat s)).
Proof.
  intros s V q S. pose proof V as V'. destruct V' as (H1 & H2 & H3 & H4 & M & S' & P & B).
  destruct (Rlt_dec 0 (moisture s)) as [W|W].
  - pose proof (c54_moisture_partition s V W) as (Q1 & Q2 & Q3). fold q in Q1, Q2, Q3.
    exists (moisture_sat s * (frac_unfrozen q / (frac_unfrozen q + frac_frozen q))).
    set (fu := frac_unfrozen q) in *. set (ff := frac_frozen q) in *.
    assert (R1 : 0 <= fu / (fu + ff) <= 1).
    { split. apply Rmult_le_pos; [lra|]. left; apply Rinv_0_lt_compat; lra.
      apply Rmult_le_reg_r with (fu + ff); [lra|]. unfold Rdiv. rewrite Rmult_assoc, Rinv_l by lra. lra. }
    split; [nra|]. split. intros _. field. lra.
    unfold fu, ff, q, soil_properties. destruct (Rlt_dec 0 (moisture s)); [|lra].
    cbn [therm_cond frac_unfrozen frac_frozen]. unfold S, THERM_COND_WATER, THERM_COND_ICE, THERM_COND_AIR.
    set (w := moisture_sat s * _).
    pose proof (Rpower_pos 0.025 (moisture_sat s)). field. lra.
  - exists 0. split; [lra|]. split; [lra|]. unfold q, soil_properties. destruct (Rlt_dec 0 (moisture s)); [lra|].
    cbn [therm_cond]. unfold S. replace (moisture s) with 0 by lra.
    pose proof (Rpower_pos 0.025 (moisture_sat s)). field. lra.
Qed.
Print Assumptions c54_conductivity.

(** Moist soil at 260 K and at 280 K meets the hypotheses. *)
Example c54_example : forall T, T = 260 \/ T = 280 ->
  valid_soil (SoilLayer (1/10) T 2200000 (1/4) (1/5) (2/5) (1/5) 6 0 0).
Proof. intros T H. repeat split; cbn; lra. Qed.
