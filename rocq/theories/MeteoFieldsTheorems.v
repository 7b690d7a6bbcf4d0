(** Theorems about the derived meteorological fields (C98). *)
From Verif Require Import Common Constants AtmosphereModel AtmosphereProofs AtmosphereTheorems MeteoFieldsModel.

(** * Specification *)
(** Conditions met on Earth: -93 to 50 degrees Celsius, air which is neither totally dry nor oversaturated, land up to 9000 m *)
Definition earthly (p : mpix) (t h : R) : Prop :=
  mp_temp p = Some t /\ mp_rh p = Some h /\ 180 <= t <= 323.15 /\ 0 < h <= 100 /\ -500 <= mp_dem p <= 9000.
(** Share of snow in the precipitation of a pixel: by the temperature of the configured method; missing temperatures count as rain. *)
Definition snow_share (c : mcfg) (p : mpix) (d : mder) (f : R) : Prop :=
  match (if mc_wet_bulb c then md_wet_bulb d else mp_temp p) with
  | Some t => precipitation_phase (Some t) (threshold_temp (mc_phase c)) (temp_range (mc_phase c)) = Some (Some f)
  | None => f = 0
  end.
(** Some pixel at this elevation or above has only rain *)
Definition rain_above (c : mcfg) (pds : list (mpix * mder)) (z : R) : Prop :=
  exists q d, In (q, d) pds /\ snow_share c q d 0 /\ z <= mp_dem q.

(** * Pressure *)
Lemma press_range z : -500 <= z <= 9000 -> exists p, press_field z = Some p /\ p = atmospheric_pressure z /\ 22000 < p < 110000.
Proof.
  intro H. unfold press_field, atmospheric_pressure, STANDARD_ATMOSPHERE.
  assert (B : 0.69 <= 1 - GRAVITATIONAL_ACCELERATION * z / (SPEC_HEAT_CAP_DRY_AIR * STANDARD_SEA_LEVEL_TEMPERATURE) <= 1.017).
  { unfold GRAVITATIONAL_ACCELERATION, SPEC_HEAT_CAP_DRY_AIR, STANDARD_SEA_LEVEL_TEMPERATURE, T0. lra. }
  set (b := 1 - _) in *. clearbody b.
  assert (E : 3 < press_exp < 4).
  { unfold press_exp, SPEC_HEAT_CAP_DRY_AIR, MOLAR_MASS_DRY_AIR, UNIVERSAL_GAS_CONSTANT. lra. }
  set (e := press_exp) in *. clearbody e.
  destruct (Rlt_dec 0 b); [|lra]. eexists. split; [reflexivity|]. split; [reflexivity|].
  assert (P4 : forall x, 0 < x -> Rpower x 4 = x * x * x * x).
  { intros x X. replace 4 with (INR 4) by (cbn; lra). rewrite Rpower_pow by auto. cbn; ring. }
  assert (L : 0.2266 < Rpower b e).
  { apply Rlt_le_trans with (Rpower 0.69 e).
    - apply Rlt_le_trans with (Rpower 0.69 4). rewrite P4 by lra. lra.
      unfold Rpower. assert (ln 0.69 < 0) by (rewrite <- ln_1; apply ln_increasing; lra).
      destruct (Rle_lt_or_eq_dec (4 * ln 0.69) (e * ln 0.69)) as [C|C]; [nra| |].
      left; apply exp_increasing; auto. rewrite C; lra.
    - apply Rle_Rpower_l; lra. }
  assert (U : Rpower b e <= 1.08).
  { apply Rle_trans with (Rpower 1.017 e). apply Rle_Rpower_l; lra.
    apply Rle_trans with (Rpower 1.017 4). apply Rle_Rpower; lra. rewrite P4 by lra. lra. }
  lra.
Qed.
Lemma sat_max t : 180 <= t <= 323.15 -> saturation_vapor_pressure None t < 17000.
Proof.
  intro H. apply Rle_lt_trans with (saturation_vapor_pressure None 323.15).
  { apply sat_mono; [cbn; unfold T0; lra|lra]. }
  rewrite c29_saturation_selection. destruct (Rle_dec 273.15 323.15) as [_|]; [|lra].
  replace (17.08 * (323.15 - 273.15) / (234.18 + (323.15 - 273.15))) with (1 + 1 + 1 + (17.08 * 50 / 284.18 - 3)) by lra.
  rewrite !exp_plus. pose proof exp_le_3 as E3. pose proof (exp_pos 1) as E0.
  set (r := 17.08 * 50 / 284.18 - 3). assert (R1 : 0 < r < 0.01) by (unfold r; lra). clearbody r.
  assert (X : exp r <= 1.02).
  { pose proof (exp_ineq1_le (- r)) as Q. rewrite exp_Ropp in Q. pose proof (exp_pos r) as P.
    apply Rmult_le_compat_r with (r := exp r) in Q; [|lra]. rewrite Rinv_l in Q by lra. nra. }
  pose proof (exp_pos r) as P. set (e := exp 1) in *. set (x := exp r) in *. clearbody e x.
  assert (e * e <= 9) by nra. assert (e * e * e <= 27) by nra. assert (0 < e * e * e) by (apply Rmult_lt_0_compat; nra).
  assert (e * e * e * x <= 27 * 1.02) by nra. lra.
Qed.

(** * The chain of derived fields *)
(** On Earth all fields are available and consistent with each other: the vapour pressure is the humidity's part of the saturation pressure,
    humidity, heat capacity and psychrometric constant belong to it, the dew point is the temperature at which the vapour saturates, and the
    gas law holds for the density. *)
Theorem c98_fields : forall fuel p d t h, earthly p t h -> derive fuel p = Some d ->
  exists press sat vap q cap lat psy dew pw rho,
    md_press d = Some press /\ md_sat d = Some sat /\ md_vap d = Some vap /\ md_spec_hum d = Some q /\ md_heat_cap d = Some cap
    /\ md_lat d = Some lat /\ md_psych d = Some psy /\ md_dew d = Some dew /\ md_prec_water d = Some pw /\ md_density d = Some rho
    /\ press = atmospheric_pressure (mp_dem p) /\ sat = saturation_vapor_pressure None t
    /\ 100 * vap = h * sat /\ 0 < vap <= sat /\ sat < press
    /\ q * (press - 0.378 * vap) = 0.622 * vap /\ 0 < q < 1
    /\ cap = 1004.68506 * (1 + 0.84 * q) /\ lat = 2501000 - 2361 * (t - 273.15)
    /\ psy * (0.622 * lat) = cap * press /\ 0 < psy
    /\ dew <= t /\ 100 * saturation_vapor_pressure (Some OverWater) dew = h * saturation_vapor_pressure (Some OverWater) t
    /\ pw * t = 4.65 * vap /\ 0 < pw
    /\ rho * (287.058 * t) = press /\ 0 < rho.
Proof.
  intros fuel [z t0 h0 pr sf] d t h (T & Hh & TR & HR & ZR) D. cbn in T, Hh, ZR. subst t0 h0.
  unfold derive in D. cbn [mp_dem mp_temp mp_rh nmap nmap2] in D.
  destruct (press_range z ZR) as (pr0 & PF & PE & PR). rewrite PF in D. cbn [nmap nmap2] in D.
  destruct (wet_bulb_field _ _ _ _) as [wb|]; [|discriminate]. injection D as <-. cbn [md_press md_sat md_vap md_spec_hum md_heat_cap md_lat md_psych md_dew md_prec_water md_density].
  pose proof (sat_max t TR) as SM. pose proof (sat_pos None t) as SP.
  assert (VE : 100 * vapor_pressure None t h = h * saturation_vapor_pressure None t) by (unfold vapor_pressure; field).
  set (sat := saturation_vapor_pressure None t) in *. set (vap := vapor_pressure None t h) in *.
  assert (SE : sat = saturation_vapor_pressure None t) by reflexivity. clearbody sat vap.
  assert (V1 : 0 < vap) by nra. assert (V2 : vap <= sat) by nra.
  assert (DP : 0 < vapor_pressure (Some OverWater) t h).
  { unfold vapor_pressure. pose proof (sat_pos (Some OverWater) t) as SW. nra. }
  unfold dew_field. destruct (Rlt_dec 0 (vapor_pressure (Some OverWater) t h)); [|lra].
  assert (VW : valid_temp (Some OverWater) t) by (cbn; unfold T0; lra).
  destruct (c25_dew_point_bound t h VW HR) as [DB _]. destruct (dew_sat t h VW HR) as [_ DS].
  set (q := specific_humidity pr0 vap).
  assert (QE : q * (pr0 - 0.378 * vap) = 0.622 * vap) by (unfold q, specific_humidity; field; lra).
  assert (Q1 : 0 < q < 1). { clearbody q. split; nra. }
  set (lat := latent_heat_of_vaporization t). assert (LE : lat = 2501000 - 2361 * (t - 273.15)) by (unfold lat, latent_heat_of_vaporization, Lv, T0; lra).
  set (cap := specific_heat_capacity_moist_air q).
  assert (CE : cap = 1004.68506 * (1 + 0.84 * q)) by (unfold cap, specific_heat_capacity_moist_air, SPEC_HEAT_CAP_DRY_AIR; lra).
  clearbody cap lat q.
  exists pr0, sat, vap, q, cap, lat, (psychrometric_constant pr0 cap lat), (dew_point_temperature t h), (precipitable_water t vap), (run_dry_air_density t pr0).
  repeat (match goal with |- _ = _ /\ _ => split; [solve [reflexivity|assumption]|] end).
  assert (LP : 2000000 < lat) by lra.
  split; [lra|]. split; [lra|]. split; [auto|]. split; [auto|]. split; [auto|]. split; [auto|].
  split; [unfold psychrometric_constant; assert (LN : 0.622 * lat <> 0) by lra; set (w := 0.622 * lat) in *; clearbody w; field; auto|].
  split; [unfold psychrometric_constant; apply Rdiv_lt_0_compat; nra|].
  split; [auto|]. split; [rewrite DS; unfold vapor_pressure; field|].
  split.
  { unfold precipitable_water. transitivity (46.5 * (vap / 100) * (1 / 1000 * 10000)); [|lra].
    set (a := 46.5 * (vap / 100)). set (b := 1 / 1000 * 10000). clearbody a b. field. lra. }
  split; [unfold precipitable_water; apply Rmult_lt_0_compat; [apply Rdiv_lt_0_compat|]; lra|].
  split; [apply c30_run_density; lra|].
  unfold run_dry_air_density, GAS_CONSTANT_DRY_AIR. apply Rdiv_lt_0_compat; lra.
Qed.
Print Assumptions c98_fields.
Example c98_fields_example : earthly (MPIX 2000 (Some 268.15) (Some 80) (Some 1.5) 1) 268.15 80.
Proof. unfold earthly; cbn. repeat split; lra. Qed.

(** In saturated air, wet-bulb temperature and dew point equal the air temperature (and one iteration is enough). *)
Theorem c98_saturated : forall fuel p t, earthly p t 100 -> exists d, derive (S fuel) p = Some d /\ md_wet_bulb d = Some t /\ md_dew d = Some t
  /\ md_vap d = md_sat d.
Proof.
  intros fuel [z t0 h0 pr sf] t H. assert (H' := H). destruct H as (T & Hh & TR & HR & ZR). cbn in T, Hh, ZR. subst t0 h0.
  assert (VW : valid_temp (Some OverWater) t) by (cbn; unfold T0; lra).
  destruct (c25_dew_point_bound t 100 VW HR) as [_ DE]. assert (DE' : dew_point_temperature t 100 = t) by (apply DE; lra).
  assert (W : exists d, derive (S fuel) (MPIX z (Some t) (Some 100) pr sf) = Some d /\ md_wet_bulb d = Some t).
  { unfold derive. cbn [mp_dem mp_temp mp_rh nmap nmap2]. destruct (press_range z ZR) as (pr0 & PF & PE & PR). rewrite PF. cbn [nmap nmap2].
    unfold wet_bulb_field.
    assert (VS : vapor_pressure None t 100 = saturation_vapor_pressure None t) by (unfold vapor_pressure; field).
    rewrite VS. pose proof (sat_max t TR) as SM. pose proof (sat_pos None t) as SP.
    rewrite c29_wet_bulb_saturated; [eexists; split; reflexivity| |cbn; unfold T0; lra].
    left. apply c72_derived_positive; [lra|lra|]. unfold specific_humidity. apply Rmult_le_pos; [lra|]. left. apply Rinv_0_lt_compat. lra. }
  destruct W as (d & D & W). exists d. split; [auto|]. split; [auto|].
  destruct (c98_fields (S fuel) _ d t 100 H' D) as (press & sat & vap & q & cap & lat & psy & dew & pw & rho & F).
  destruct F as (_ & F2 & F3 & _ & _ & _ & _ & F8 & _ & _ & _ & _ & F13 & _).
  split.
  - rewrite F8. f_equal. assert (E : md_dew d = Some (dew_point_temperature t 100)).
    { unfold derive in D. cbn [mp_dem mp_temp mp_rh nmap nmap2] in D. destruct (wet_bulb_field _ _ _ _) as [wb|]; [|discriminate].
      injection D as <-. cbn [md_dew] in *. unfold dew_field in *. destruct (Rlt_dec 0 (vapor_pressure (Some OverWater) t 100)); [auto|discriminate]. }
    rewrite E in F8. injection F8 as <-. auto.
  - rewrite F2, F3. f_equal. lra.
Qed.
Print Assumptions c98_saturated.
Example c98_saturated_example : earthly (MPIX 1500 (Some 280) (Some 100) None 1) 280 100.
Proof. unfold earthly; cbn. repeat split; lra. Qed.

(** The wet-bulb temperature solves the psychrometer equation: an exact solution w is never above the air temperature, and the computed value
    differs from it by at most 0.01 K times one plus the ratio of the slope of the saturation pressure to the psychrometric constant. *)
Theorem c98_wet_bulb : forall fuel p d t h vap psy x w, earthly p t h -> derive fuel p = Some d ->
  md_vap d = Some vap -> md_psych d = Some psy -> md_wet_bulb d = Some x -> 1 < x -> 1 < w ->
  saturation_vapor_pressure None w - psy * (t - w) = vap ->
  w <= t /\ exists x', x' <> x /\
    Rabs (x - w) <= 1/100 * Rabs (1 + (saturation_vapor_pressure None x - saturation_vapor_pressure None x') / (x - x') / psy).
Proof.
  intros fuel p d t h vap psy x w E D V P X HX HW EQ.
  destruct (c98_fields fuel p d t h E D) as (press & sat & vap' & q & cap & lat & psy' & dew & pw & rho & F1 & F2 & F3 & F4 & F5 & F6 & F7 & F8 & F9 & F10 & F11 & F12 & F13 & F14 & F15 & F16 & F17 & F18 & F19 & F20 & F21 & _).
  rewrite V in F3. rewrite P in F7. injection F3 as <-. injection F7 as <-.
  assert (EQ' : psychro_diff t w vap psy = 0) by (unfold psychro_diff; lra).
  split.
  - apply (c29_wet_bulb_below_air t vap psy w); auto; [lra| |lra].
    destruct E as (_ & _ & TR & _). cbn; unfold T0; lra.
  - apply (c29_wet_bulb_error fuel t vap psy x w); auto; [|cbn; unfold T0; lra|cbn; unfold T0; lra].
    destruct p as [z t0 h0 pr sf]. destruct E as (T & Hh & _). cbn in T, Hh. subst t0 h0. unfold derive in D. cbn [mp_dem mp_temp mp_rh nmap nmap2] in D.
    destruct (wet_bulb_field _ _ _ _) as [wb|] eqn:W; [|discriminate]. injection D as <-. cbn [md_vap md_psych md_wet_bulb md_press md_spec_hum md_heat_cap md_lat] in *.
    subst wb. assert (V' := V). injection V' as <-. rewrite P in W. exact W.
Qed.
Print Assumptions c98_wet_bulb.
(** A case with the exact solution: saturated air *)
Example c98_wet_bulb_example : exists d psy, derive 1 (MPIX 1500 (Some 280) (Some 100) None 1) = Some d /\ md_psych d = Some psy
  /\ md_wet_bulb d = Some 280 /\ exists vap, md_vap d = Some vap /\ saturation_vapor_pressure None 280 - psy * (280 - 280) = vap.
Proof.
  destruct (c98_saturated 0 _ 280 c98_saturated_example) as (d & D & W & _ & VS).
  destruct (c98_fields 1 _ d 280 100 c98_saturated_example D) as (press & sat & vap & q & cap & lat & psy & dew & pw & rho & F1 & F2 & F3 & F4 & F5 & F6 & F7 & F8 & F9 & F10 & F11 & F12 & F13 & _).
  exists d, psy. repeat split; auto. exists vap. split; auto. rewrite F12 in F13. lra.
Qed.

(** * Missing values *)
(** Exactly the fields which need a missing input are missing; the pressure depends on the elevation only. *)
Theorem c98_missing : forall fuel p d, -500 <= mp_dem p <= 9000 -> derive fuel p = Some d ->
  md_press d <> None
  /\ (forall x, In x [md_sat d; md_lat d; md_density d] -> (x = None <-> mp_temp p = None))
  /\ (forall x, In x [md_vap d; md_spec_hum d; md_heat_cap d; md_psych d; md_prec_water d] -> (x = None <-> mp_temp p = None \/ mp_rh p = None))
  /\ (mp_temp p = None \/ mp_rh p = None -> md_wet_bulb d = None)
  /\ (md_dew d = None <-> mp_temp p = None \/ mp_rh p = None \/ exists h, mp_rh p = Some h /\ h <= 0).
Proof.
  intros fuel [z t h pr sf] d ZR D. cbn in ZR. unfold derive in D. cbn [mp_dem mp_temp mp_rh nmap nmap2] in *.
  destruct (press_range z ZR) as (pr0 & PF & _ & _). rewrite PF in D.
  destruct (wet_bulb_field _ _ _ _) as [wb|] eqn:W; [|discriminate]. injection D as <-.
  cbn [md_press md_sat md_vap md_spec_hum md_heat_cap md_lat md_psych md_dew md_prec_water md_density md_wet_bulb].
  split; [discriminate|].
  split; [intros x [<-|[<-|[<-|[]]]]; destruct t; cbn; split; intro; (discriminate || auto)|].
  split; [intros x I; cbn in I; repeat (destruct I as [<-|I]); [| | | | |contradiction]; destruct t, h; cbn; split; intro Q; auto; try discriminate; destruct Q; discriminate|].
  split.
  - intro Q. destruct t as [t|], h as [h|]; cbn in W; try (injection W as <-; reflexivity). destruct Q; discriminate.
  - unfold dew_field. destruct t as [t|], h as [h|]; try (split; intro; auto; fail).
    pose proof (sat_pos (Some OverWater) t) as SW. unfold vapor_pressure. destruct (Rlt_dec _ _) as [L|L].
    + split; [discriminate|]. intros [Q|[Q|(h' & Q & N)]]; try discriminate. injection Q as <-. exfalso. assert (saturation_vapor_pressure (Some OverWater) t * h <= 0) by nra. lra.
    + split; [|reflexivity]. intros _. right; right. exists h. split; auto. destruct (Rle_lt_dec h 0); auto.
      exfalso. apply L. assert (0 < saturation_vapor_pressure (Some OverWater) t * h) by (apply Rmult_lt_0_compat; auto). lra.
Qed.
Print Assumptions c98_missing.
Example c98_missing_example : exists d, derive 0 (MPIX 2000 (Some 260) None (Some 3) 1) = Some d /\ md_wet_bulb d = None /\ md_density d <> None.
Proof.
  assert (D : exists d, derive 0 (MPIX 2000 (Some 260) None (Some 3) 1) = Some d).
  { unfold derive. cbn [mp_dem mp_temp mp_rh nmap nmap2]. cbn [wet_bulb_field]. eauto. }
  destruct D as (d & D). exists d. destruct (c98_missing 0 (MPIX 2000 (Some 260) None (Some 3) 1) d ltac:(cbn; lra) D) as (_ & A & _ & B & _).
  split; auto. split. apply B; cbn; auto. intro Q. apply (A (md_density d)) in Q; [discriminate|cbn; auto].
Qed.

(** * All pixels *)
Lemma Forall2_nth {A B} (P : A -> B -> Prop) l l' : Forall2 P l l' -> forall i x, nth_error l i = Some x -> exists y, nth_error l' i = Some y /\ P x y.
Proof. induction 1; intros [|i] x0 E; cbn in *; try discriminate; eauto. injection E as <-; eauto. Qed.
Lemma combine_nth_error {A B} (l : list A) (l' : list B) i x y : nth_error l i = Some x -> nth_error l' i = Some y -> nth_error (combine l l') i = Some (x, y).
Proof. revert l' i; induction l as [|a l IH]; intros [|b l'] [|i] E1 E2; cbn in *; try discriminate; auto. congruence. Qed.
Lemma all_some_map {A B} (f : A -> option B) l r : all_some (map f l) = Some r -> Forall2 (fun x y => f x = Some y) l r.
Proof.
  intro H. apply all_some_forall2 in H. revert r H. induction l as [|a l IH]; intros r H; inversion H; subst; constructor; auto.
Qed.
Lemma F2_length {A B} (P : A -> B -> Prop) l l' : Forall2 P l l' -> length l = length l'.
Proof. induction 1; cbn; auto. Qed.

(** Fields other than precipitation depend on the values of their own pixel alone. Snowfall and rainfall are parts of the precipitation by
    the temperature of the configured method, with no snow at or below the highest pixel with rain if so configured; without redistribution
    factors precipitation is unchanged and the parts add up to it, with factors the snowfall is multiplied and precipitation becomes the sum. *)
Theorem c98_process : forall c fuel ps out, process c fuel ps = Some out -> length out = length ps /\
  exists pds, map fst pds = ps /\ map snd pds = map fst out /\
  forall i p, nth_error ps i = Some p -> exists d s r v, nth_error out i = Some (d, (s, r, v)) /\ derive fuel p = Some d /\
    exists f, 0 <= f <= 1
      /\ (enforce (mc_phase c) = true /\ rain_above c pds (mp_dem p) -> f = 0)
      /\ (~ (enforce (mc_phase c) = true /\ rain_above c pds (mp_dem p)) -> snow_share c p d f)
      /\ let k := if mc_srf c then mp_srf p else 1 in
         match mp_precip p with
         | None => s = None /\ r = None /\ v = None
         | Some x => s = Some (k * (f * x)) /\ r = Some ((1 - f) * x) /\ v = Some (k * (f * x) + (1 - f) * x)
         end.
Proof.
  intros c fuel ps out H. unfold process in H. destruct (all_some (map (derive fuel) ps)) as [ds|] eqn:A; [|discriminate].
  apply all_some_map in A. assert (LD := F2_length _ _ _ A).
  destruct (precip_fields (mc_phase c) (map (phase_pixel c) (combine ps ds))) as [srs|] eqn:PF; [|discriminate]. injection H as <-.
  destruct (c31_partition _ _ _ PF) as [LS PT]. rewrite map_length, combine_length, <- LD, Nat.min_id in LS.
  split. { rewrite map_length, !combine_length. lia. }
  exists (combine ps ds). split.
  { clear -LD. revert ds LD; induction ps as [|p ps IH]; intros [|d ds] L; cbn in *; try discriminate; auto. f_equal; auto. }
  split.
  { clear -LD LS. revert ds srs LD LS; induction ps as [|p ps IH]; intros [|d ds] [|s srs] L M; cbn in *; try discriminate; auto. f_equal; auto. }
  intros i p E. destruct (Forall2_nth _ _ _ A i p E) as (d & Ed & D).
  destruct (nth_error srs i) as [[s r]|] eqn:Es.
  2: { apply nth_error_None in Es. assert (i < length ps)%nat by (apply nth_error_Some; congruence). lia. }
  assert (EP : nth_error (map (phase_pixel c) (combine ps ds)) i = Some (phase_pixel c (p, d))).
  { rewrite nth_error_map, (combine_nth_error ps ds i p d E Ed). reflexivity. }
  destruct (PT i _ s r EP Es) as (f & F & Z & O & M).
  assert (OUT : nth_error (map (fun x : mpix * (mder * (num * num)) => (fst (snd x), precip_result c (fst x) (snd (snd x)))) (combine ps (combine ds srs))) i
                = Some (d, precip_result c p (s, r))).
  { rewrite nth_error_map, (combine_nth_error ps _ i p (d, (s, r)) E). reflexivity. apply combine_nth_error; auto. }
  assert (RA : rain_above c (combine ps ds) (mp_dem p) <-> is_rain_at_or_above (mc_phase c) (map (phase_pixel c) (combine ps ds)) (mp_dem p)).
  { unfold rain_above, is_rain_at_or_above. split.
    - intros (q & dq & I & S0 & L). exists (phase_pixel c (q, dq)). split; [apply in_map; auto|]. split; [exact S0|exact L].
    - intros (q & I & S0 & L). apply in_map_iff in I. destruct I as ((q' & dq) & <- & I). exists q', dq. split; [auto|]. split; [exact S0|exact L]. }
  cbn [elev phase_pixel fst snd precip] in Z, O, M.
  rewrite OUT. destruct (precip_result c p (s, r)) as [[s' r'] v'] eqn:PR. exists d, s', r', v'. split; [auto|]. split; [auto|].
  exists f. split; [auto|]. split; [intros [Q1 Q2]; apply Z; split; [auto|apply RA; auto]|].
  split; [intro N; apply O; intros [Q1 Q2]; apply N; split; [auto|apply RA; auto]|].
  cbv zeta. unfold precip_result in PR. destruct (mc_srf c).
  - cbn [redistribute_snow fst snd] in PR. unfold redistribute_snow in PR. injection PR as <- <- <-.
    destruct (mp_precip p) as [x|]; destruct M as [-> ->]; cbn; auto.
  - injection PR as <- <- <-. destruct (mp_precip p) as [x|]; destruct M as [-> ->]; repeat split; f_equal; ring.
Qed.
Print Assumptions c98_process.

(** It fails only if some wet-bulb iteration does not end or the configured range is negative. *)
Theorem c98_succeeds : forall c fuel ps, 0 <= temp_range (mc_phase c) -> (forall p, In p ps -> derive fuel p <> None) ->
  exists out, process c fuel ps = Some out.
Proof.
  intros c fuel ps R H. unfold process.
  assert (A : exists ds, all_some (map (derive fuel) ps) = Some ds).
  { induction ps as [|p ps IH]; cbn; [eauto|]. destruct (derive fuel p) as [d|] eqn:D; [|exfalso; apply (H p); [left; auto|auto]].
    destruct IH as [ds ->]; [intros q I; apply H; right; auto|]. eauto. }
  destruct A as [ds ->]. destruct (c31_total (mc_phase c) (map (phase_pixel c) (combine ps ds)) R) as [srs ->]. eauto.
Qed.
Print Assumptions c98_succeeds.
Example c98_process_example : exists out, process (MCFG (PhaseCfg 273.65 1 true) true true) 1
  [MPIX 2500 (Some 265) (Some 100) (Some 2) 1.2; MPIX 900 (Some 276) (Some 100) (Some 1) 1; MPIX 700 (Some 270) None None 0.8] = Some out.
Proof.
  apply c98_succeeds; [cbn; lra|]. intros p [<-|[<-|[<-|[]]]].
  - destruct (c98_saturated 0 (MPIX 2500 (Some 265) (Some 100) (Some 2) 1.2) 265) as (d & D & _); [unfold earthly; cbn; repeat split; lra|]. congruence.
  - destruct (c98_saturated 0 (MPIX 900 (Some 276) (Some 100) (Some 1) 1) 276) as (d & D & _); [unfold earthly; cbn; repeat split; lra|]. congruence.
  - unfold derive. cbn [mp_dem mp_temp mp_rh nmap nmap2 wet_bulb_field]. discriminate.
Qed.

(** With the wet-bulb method, missing humidity turns all precipitation into rain, however cold it is... *)
Theorem c98_missing_humidity_refuted : forall ph fuel z t x k, 0 <= temp_range ph -> enforce ph = false ->
  exists d, process (MCFG ph true false) fuel [MPIX z (Some t) None (Some x) k] = Some [(d, (Some 0, Some x, Some x))].
Proof.
  intros ph fuel z t x k R EF.
  destruct (c98_succeeds (MCFG ph true false) fuel [MPIX z (Some t) None (Some x) k] R) as [out E].
  { intros p [<-|[]]. unfold derive. cbn [mp_dem mp_temp mp_rh nmap nmap2 wet_bulb_field]. discriminate. }
  destruct (c98_process _ _ _ _ E) as (L & pds & _ & _ & P). destruct (P 0%nat _ eq_refl) as (d & s & r & v & O & D & f & F & _ & SS & M).
  destruct out as [|o [|]]; try discriminate. cbn in O. injection O as ->.
  cbn [mc_phase] in SS. rewrite EF in SS. specialize (SS ltac:(intros [Q _]; discriminate)).
  assert (W : md_wet_bulb d = None).
  { unfold derive in D. cbn [mp_dem mp_temp mp_rh nmap nmap2 wet_bulb_field] in D. injection D as <-. reflexivity. }
  unfold snow_share in SS. cbn [mc_wet_bulb] in SS. rewrite W in SS. subst f. cbn in M. destruct M as (-> & -> & ->).
  exists d. rewrite E. do 4 f_equal; [f_equal|]; f_equal; ring.
Qed.
Print Assumptions c98_missing_humidity_refuted.
(** ... although the air temperature would make it snow. *)
Example c98_missing_humidity_example : exists d, process (MCFG (PhaseCfg 273.65 1 false) false false) 0 [MPIX 2000 (Some 253) None (Some 5) 1]
  = Some [(d, (Some 5, Some 0, Some 5))].
Proof.
  destruct (c98_succeeds (MCFG (PhaseCfg 273.65 1 false) false false) 0 [MPIX 2000 (Some 253) None (Some 5) 1]) as [out E]; [cbn; lra| |].
  { intros p [<-|[]]. unfold derive. cbn [mp_dem mp_temp mp_rh nmap nmap2 wet_bulb_field]. discriminate. }
  destruct (c98_process _ _ _ _ E) as (L & pds & _ & _ & P). destruct (P 0%nat _ eq_refl) as (d & s & r & v & O & D & f & F & _ & SS & M).
  destruct out as [|o [|]]; try discriminate. cbn in O. injection O as ->.
  cbn [mc_phase enforce] in SS. specialize (SS ltac:(intros [Q _]; discriminate)).
  unfold snow_share in SS. cbn [mc_wet_bulb mp_temp mc_phase threshold_temp temp_range] in SS.
  destruct (c26_phase 253 273.65 1 ltac:(lra)) as (f' & F' & _ & G & _). rewrite F' in SS. injection SS as <-. rewrite (G ltac:(lra)) in M.
  cbn in M. destruct M as (-> & -> & ->). exists d. rewrite E. do 4 f_equal; [f_equal|]; f_equal; ring.
Qed.
(** Above the top of the modelled atmosphere (about 29.5 km) there is no pressure; the wet-bulb temperature is then the air temperature,
    however dry the air. *)
Theorem c98_no_pressure : forall fuel z t h pr k, 30000 < z -> exists d, derive fuel (MPIX z (Some t) (Some h) pr k) = Some d
  /\ md_press d = None /\ md_psych d = None /\ md_density d = None /\ md_wet_bulb d = Some t /\ md_vap d <> None.
Proof.
  intros fuel z t h pr k Z. unfold derive. cbn [mp_dem mp_temp mp_rh nmap nmap2].
  assert (PF : press_field z = None).
  { unfold press_field. destruct (Rlt_dec _ _) as [L|]; auto. exfalso. revert L.
    unfold GRAVITATIONAL_ACCELERATION, SPEC_HEAT_CAP_DRY_AIR, STANDARD_SEA_LEVEL_TEMPERATURE, T0. lra. }
  rewrite PF. cbn [nmap nmap2 wet_bulb_field]. eexists. repeat split. discriminate.
Qed.
Print Assumptions c98_no_pressure.
