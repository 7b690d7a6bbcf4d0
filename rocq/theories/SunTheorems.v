(** C45: position of the sun. *)
From Verif Require Import Common Constants TimeModel TimeProofs TimeTheorems SunModel.
Open Scope R_scope.

Definition sv_x (v : R * R * R) : R := fst (fst v).
Definition sv_y (v : R * R * R) : R := snd (fst v).
Definition sv_z (v : R * R * R) : R := snd v.
Lemma sc x : sin x * sin x + cos x * cos x = 1.
Proof. pose proof (sin2_cos2 x) as H. unfold Rsqr in H. exact H. Qed.
(** C45. The sun vector is a unit vector for all angles. *)
Theorem c45_unit : forall lat ha dec, let v := sun_vector lat ha dec in
  sv_x v * sv_x v + sv_y v * sv_y v + sv_z v * sv_z v = 1.
Proof.
  intros. unfold v, sun_vector, sv_x, sv_y, sv_z. cbn [fst snd].
  pose proof (sc (deg2rad lat)) as A. pose proof (sc (deg2rad ha)) as B. pose proof (sc (deg2rad dec)) as C.
  set (sa := sin (deg2rad lat)) in *. set (ca := cos (deg2rad lat)) in *.
  set (sh := sin (deg2rad ha)) in *. set (ch := cos (deg2rad ha)) in *.
  set (sd := sin (deg2rad dec)) in *. set (cd := cos (deg2rad dec)) in *.
  transitivity (sh * sh * (cd * cd) + (sa * sa + ca * ca) * (ch * ch * (cd * cd) + sd * sd)); [ring|].
  rewrite A. transitivity ((sh * sh + ch * ch) * (cd * cd) + sd * sd); [ring|]. rewrite B. lra.
Qed.
Print Assumptions c45_unit.
Lemma sv_bounds lat ha dec : -1 <= sv_z (sun_vector lat ha dec) <= 1.
Proof. pose proof (c45_unit lat ha dec) as H. cbv zeta in H. nra. Qed.
Lemma deg_rad x : deg2rad (rad2deg x) = x.
Proof. unfold deg2rad, rad2deg. pose proof PI_RGT_0. field. lra. Qed.
Lemma rad_deg x : rad2deg (deg2rad x) = x.
Proof. unfold deg2rad, rad2deg. pose proof PI_RGT_0. field. lra. Qed.
(** C45. The vertical component is the cosine of the reported zenith angle, which is between 0 and 180 degrees; the sun
    is over the horizon iff the vertical component is positive. *)
Theorem c45_zenith : forall t lon lat timezone, let p := sun_parameters t lon lat timezone in
  cos (deg2rad (sp_zenith p)) = sv_z (sp_vec p) /\ 0 <= sp_zenith p <= 180 /\
  (sp_over_horizon p = true <-> 0 < sv_z (sp_vec p)).
Proof.
  intros. unfold p, sun_parameters. cbn [sp_zenith sp_vec sp_over_horizon].
  set (v := sun_vector lat _ _). pose proof (sv_bounds lat (hour_angle t timezone lon (equation_of_time (IZR (dayofyear t))))
     (declination_angle (IZR (dayofyear t)))) as B. fold v in B. unfold sv_z in *.
  pose proof (acos_bound (snd v)) as AB. pose proof PI_RGT_0 as P. set (a := acos (snd v)) in *.
  assert (CA : cos a = snd v) by (apply cos_acos; exact B).
  assert (RD : forall x, rad2deg x = x * (180 / PI)) by (intro; unfold rad2deg; field; lra).
  assert (K : 0 < 180 / PI) by (apply Rdiv_lt_0_compat; lra). assert (KP : 180 / PI * PI = 180) by (field; lra).
  split; [rewrite deg_rad; exact CA|]. split; [rewrite RD; nra|].
  assert (Q : rad2deg a < 90 <-> 0 < snd v).
  { rewrite RD, <- CA. split.
    - intro H. apply cos_gt_0; [lra|]. assert (180 / PI * a < 180 / PI * (PI / 2)) by nra. nra.
    - intro H. destruct (Rlt_le_dec a (PI / 2)); [nra|].
      assert (cos a <= 0) by (apply cos_le_0; lra). lra. }
  destruct (Rlt_dec (rad2deg a) 90); split; intro H; try tauto; try discriminate.
Qed.
Print Assumptions c45_zenith.
(** Everything reported is computed for the date and position. *)
Theorem c45_parameters : forall t lon lat timezone, let p := sun_parameters t lon lat timezone in
  let doy := IZR (dayofyear t) in
  sp_day_angle p = 2 * PI / 365.25 * (doy - 1) /\ sp_eot p = equation_of_time doy /\
  sp_declination p = declination_angle doy /\ sp_hour_angle p = hour_angle t timezone lon (sp_eot p) /\
  sp_vec p = sun_vector lat (sp_hour_angle p) (sp_declination p).
Proof. intros. unfold p, doy, sun_parameters, day_angle, DAYS_PER_YEAR. cbn. tauto. Qed.
Print Assumptions c45_parameters.
(** C45. Hour angle: 15 degrees per hour within a day, one degree per degree of longitude, a quarter degree per minute
    of the equation of time, and unaffected if clock and time zone are changed together; zero at solar noon. *)
Theorem c45_hour_angle : forall t timezone lon eot,
  (forall s, (0 <= t mod DAY + s < DAY)%Z -> hour_angle (t + s) timezone lon eot = hour_angle t timezone lon eot + 15 * (IZR s / 3600)) /\
  (forall d, hour_angle t timezone (lon + d) eot = hour_angle t timezone lon eot + d) /\
  (forall m, hour_angle t timezone lon (eot + m) = hour_angle t timezone lon eot + m / 4) /\
  (forall k, (0 <= t mod DAY + k * 3600 < DAY)%Z -> hour_angle (t + k * 3600) (timezone + IZR k) lon eot = hour_angle t timezone lon eot) /\
  ((t mod DAY)%Z = 43200%Z -> hour_angle t timezone (15 * timezone) 0 = 0).
Proof.
  intros. assert (M : forall s, (0 <= t mod DAY + s < DAY)%Z -> ((t + s) mod DAY = t mod DAY + s)%Z).
  { intros s H. symmetry. apply Z.mod_unique with (t / DAY)%Z; [left; exact H|]. pose proof (Z.div_mod t DAY ltac:(unfold DAY; lia)). lia. }
  split; [|split; [|split; [|split]]].
  - intros s H. unfold hour_angle. rewrite (M s H), plus_IZR. field.
  - intro d. unfold hour_angle. field.
  - intro m. unfold hour_angle. field.
  - intros k H. unfold hour_angle. rewrite (M (k * 3600)%Z H), plus_IZR, mult_IZR. field.
  - intro H. unfold hour_angle. rewrite H. field.
Qed.
Print Assumptions c45_hour_angle.
(** C45. Directions: the first component points east (positive in the morning, negative in the afternoon); at solar noon
    the sun is in the meridian, to the south (second component) iff the declination is below the latitude, and its zenith
    angle is the difference of latitude and declination; morning and afternoon are mirror images. *)
Theorem c45_directions : forall lat ha dec, let v := sun_vector lat ha dec in
  (-180 < ha < 0 -> -90 < dec < 90 -> 0 < sv_x v) /\ (0 < ha < 180 -> -90 < dec < 90 -> sv_x v < 0) /\
  (ha = 0 -> sv_x v = 0 /\ sv_z v = cos (deg2rad (lat - dec)) /\
     (-90 <= lat <= 90 -> -90 < dec < 90 -> (0 < sv_y v <-> dec < lat))) /\
  sun_vector lat (- ha) dec = (- sv_x v, sv_y v, sv_z v).
Proof.
  intros. pose proof PI_RGT_0 as P. assert (K : forall x, deg2rad x = x * (PI / 180)) by (intro; unfold deg2rad; field).
  assert (KP : 0 < PI / 180) by lra.
  assert (CD : -90 < dec < 90 -> 0 < cos (deg2rad dec)) by (intros H; rewrite K; apply cos_gt_0; nra).
  unfold v, sun_vector, sv_x, sv_y, sv_z. cbn [fst snd]. split; [|split; [|split]].
  - intros H D. assert (sin (deg2rad ha) < 0) by (rewrite K; apply sin_lt_0_var; nra). specialize (CD D). nra.
  - intros H D. assert (0 < sin (deg2rad ha)) by (rewrite K; apply sin_gt_0; nra). specialize (CD D). nra.
  - intros ->. replace (deg2rad 0) with 0 by (unfold deg2rad; field). rewrite sin_0, cos_0. split; [ring|].
    replace (deg2rad (lat - dec)) with (deg2rad lat - deg2rad dec) by (unfold deg2rad; field).
    rewrite cos_minus. split; [ring|]. intros L D.
    assert (Y : sin (deg2rad lat) * 1 * cos (deg2rad dec) - cos (deg2rad lat) * sin (deg2rad dec) = sin (deg2rad (lat - dec))).
    { replace (deg2rad (lat - dec)) with (deg2rad lat - deg2rad dec) by (unfold deg2rad; field). rewrite sin_minus. ring. }
    rewrite Y, K. split.
    + intro H. destruct (Rlt_le_dec dec lat) as [|G]; [auto|]. exfalso. destruct G as [G| ->].
      * assert (sin ((lat - dec) * (PI / 180)) < 0) by (apply sin_lt_0_var; nra). lra.
      * replace ((dec - dec) * (PI / 180)) with 0 in H by ring. rewrite sin_0 in H. lra.
    + intro H. apply sin_gt_0; nra.
  - replace (deg2rad (- ha)) with (- deg2rad ha) by (unfold deg2rad; field). rewrite sin_neg, cos_neg.
    f_equal. f_equal. ring.
Qed.
Print Assumptions c45_directions.
(** C45. The declination stays within 25.1 degrees of the equator, the equation of time within 22 minutes. *)
Theorem c45_ranges : forall doy, -25.1 < declination_angle doy < 25.1 /\ -22 < equation_of_time doy < 22.
Proof.
  intro doy. split.
  - unfold declination_angle. cbv zeta. set (d := deg2rad _).
    pose proof (SIN_bound d). pose proof (COS_bound d). pose proof (SIN_bound (2 * d)). pose proof (COS_bound (2 * d)).
    pose proof (SIN_bound (3 * d)). pose proof (COS_bound (3 * d)). lra.
  - unfold equation_of_time. cbv zeta. set (d := day_angle doy).
    pose proof (SIN_bound d). pose proof (COS_bound d). pose proof (SIN_bound (2 * d)). pose proof (COS_bound (2 * d)).
    set (e := 0.0000075 + 0.001868 * cos d - 0.032077 * sin d - 0.014615 * cos (2 * d) - 0.040849 * sin (2 * d)).
    assert (E : -0.0895 < e < 0.0895) by (unfold e; lra).
    assert (P3 : 3 < PI) by (pose proof PI2_3_2; lra).
    assert (K : HOURS_PER_DAY * 60 / (2 * PI) = 720 / PI) by (unfold HOURS_PER_DAY; field; lra). rewrite K.
    assert (KB : 0 < 720 / PI < 240).
    { split; [apply Rdiv_lt_0_compat; lra|]. apply (Rmult_lt_reg_r PI); [lra|]. replace (720 / PI * PI) with 720 by (field; lra). lra. }
    nra.
Qed.
Print Assumptions c45_ranges.
(** C45. Declination through the year (365.25 days, from the spring equinox on day 79.346): zero at the spring equinox,
    23.43 degrees north a quarter of a year later, 23.42 degrees south after three quarters; between the quarters see the
    values after an eighth. *)
Theorem c45_declination : forall x, let dec q := declination_angle (79.346 + q * 365.25) in
  dec 0 = 0 /\ dec (1 / 4) = 23.4346 /\ dec (1 / 2) = 1.4758 /\ dec (3 / 4) = - 23.4212 /\
  dec (1 / 8) = 0.4872 + (23.2567 - 0.7580 - 0.1712 - 0.0201) / sqrt 2 /\ declination_angle (x + 365.25) = declination_angle x.
Proof.
  intros x dec. pose proof PI_RGT_0 as P.
  assert (D : forall q, dec q = let d := q * (2 * PI) in 0.3723 + 23.2567 * sin d - 0.7580 * cos d + 0.1149 * sin (2 * d) + 0.3656 * cos (2 * d)
     - 0.1712 * sin (3 * d) + 0.0201 * cos (3 * d)).
  { intro q. unfold dec, declination_angle. cbv zeta.
    replace (deg2rad (360 / DAYS_PER_YEAR * (79.346 + q * 365.25 - 79.346))) with (q * (2 * PI)); [reflexivity|].
    unfold deg2rad, DAYS_PER_YEAR. field; lra. }
  rewrite !D. cbv zeta.
  replace (0 * (2 * PI)) with 0 by ring. replace (2 * 0) with 0 by ring. replace (3 * 0) with 0 by ring. rewrite sin_0, cos_0.
  replace (1 / 4 * (2 * PI)) with (PI / 2) by field. replace (2 * (PI / 2)) with PI by field.
  replace (1 / 2 * (2 * PI)) with PI by field. replace (3 * (PI / 2)) with (PI + PI / 2) by field.
  replace (3 / 4 * (2 * PI)) with (PI + PI / 2) by field. replace (2 * (PI + PI / 2)) with (PI + 2 * PI) by field.
  replace (3 * (PI + PI / 2)) with (PI / 2 + 4 * PI) by field. replace (3 * PI) with (PI + 2 * PI) by ring.
  replace (1 / 8 * (2 * PI)) with (PI / 4) by field. replace (2 * (PI / 4)) with (PI / 2) by field.
  replace (3 * (PI / 4)) with (PI - PI / 4) by field.
  assert (S2 : forall y, sin (y + 2 * PI) = sin y) by (intro y; rewrite <- (sin_period y 1); f_equal; cbn; ring).
  assert (C2 : forall y, cos (y + 2 * PI) = cos y) by (intro y; rewrite <- (cos_period y 1); f_equal; cbn; ring).
  assert (S4 : forall y, sin (y + 4 * PI) = sin y) by (intro y; rewrite <- (sin_period y 2); f_equal; cbn; ring).
  assert (C4 : forall y, cos (y + 4 * PI) = cos y) by (intro y; rewrite <- (cos_period y 2); f_equal; cbn; ring).
  assert (S6 : forall y, sin (y + 6 * PI) = sin y) by (intro y; rewrite <- (sin_period y 3); f_equal; cbn; ring).
  assert (C6 : forall y, cos (y + 6 * PI) = cos y) by (intro y; rewrite <- (cos_period y 3); f_equal; cbn; ring).
  rewrite ?sin_2PI, ?cos_2PI, !S2, !C2, !S4, !C4. rewrite !cos_plus, !sin_plus, cos_minus, sin_minus, sin_PI, cos_PI, sin_PI2, cos_PI2, sin_PI4, cos_PI4.
  assert (Q : sqrt 2 <> 0) by (pose proof (sqrt_lt_R0 2); lra).
  split; [lra|]. split; [lra|]. split; [lra|]. split; [lra|]. split; [unfold Rdiv; set (k := / sqrt 2); lra|].
  unfold declination_angle. cbv zeta.
  replace (deg2rad (360 / DAYS_PER_YEAR * (x + 365.25 - 79.346))) with (deg2rad (360 / DAYS_PER_YEAR * (x - 79.346)) + 2 * PI)
    by (unfold deg2rad, DAYS_PER_YEAR; field; lra).
  set (d := deg2rad _). replace (2 * (d + 2 * PI)) with (2 * d + 4 * PI) by ring. replace (3 * (d + 2 * PI)) with (3 * d + 6 * PI) by ring.
  rewrite S2, C2, S4, C4, S6, C6. reflexivity.
Qed.
Print Assumptions c45_declination.
(** C45. Equation of time (as an angle) at the quarters and the first eighth of the year that begins on day 1. *)
Theorem c45_equation_of_time : let angle q := equation_of_time (1 + q * 365.25) * (2 * PI / 1440) in
  angle 0 = -0.0127395 /\ angle (1 / 4) = -0.0174545 /\ angle (1 / 2) = -0.0164755 /\ angle (3 / 4) = 0.0466995 /\
  angle (1 / 8) = -0.0408415 - 0.030209 / sqrt 2.
Proof.
  intro angle. pose proof PI_RGT_0 as P.
  assert (D : forall q, angle q = let d := q * (2 * PI) in
     0.0000075 + 0.001868 * cos d - 0.032077 * sin d - 0.014615 * cos (2 * d) - 0.040849 * sin (2 * d)).
  { intro q. unfold angle, equation_of_time, day_angle, HOURS_PER_DAY, DAYS_PER_YEAR. cbv zeta.
    replace (2 * PI / 365.25 * (1 + q * 365.25 - 1)) with (q * (2 * PI)) by (field; lra). field. lra. }
  rewrite !D. cbv zeta. clear D angle.
  replace (0 * (2 * PI)) with 0 by ring. replace (2 * 0) with 0 by ring. rewrite sin_0, cos_0.
  replace (1 / 4 * (2 * PI)) with (PI / 2) by field. replace (2 * (PI / 2)) with PI by field.
  replace (1 / 2 * (2 * PI)) with PI by field.
  replace (3 / 4 * (2 * PI)) with (PI + PI / 2) by field. replace (2 * (PI + PI / 2)) with (PI + 2 * PI) by field.
  replace (1 / 8 * (2 * PI)) with (PI / 4) by field. replace (2 * (PI / 4)) with (PI / 2) by field.
  assert (S2 : forall y, sin (y + 2 * PI) = sin y) by (intro y; rewrite <- (sin_period y 1); f_equal; cbn; ring).
  assert (C2 : forall y, cos (y + 2 * PI) = cos y) by (intro y; rewrite <- (cos_period y 1); f_equal; cbn; ring).
  rewrite ?sin_2PI, ?cos_2PI, !S2, !C2, !cos_plus, !sin_plus, sin_PI, cos_PI, sin_PI2, cos_PI2, sin_PI4, cos_PI4.
  assert (Q : sqrt 2 <> 0) by (pose proof (sqrt_lt_R0 2); lra).
  split; [lra|]. split; [lra|]. split; [lra|]. split; [lra|]. unfold Rdiv. set (k := / sqrt 2). lra.
Qed.
Print Assumptions c45_equation_of_time.
(** Day of the year: 1 on 1 January, one more every day, 365 or 366 on 31 December. *)
Lemma day_plus t : ((t + DAY) / DAY = t / DAY + 1)%Z.
Proof. unfold DAY. replace (t + 86400)%Z with (t + 1 * 86400)%Z by lia. rewrite Z.div_add; lia. Qed.
Theorem c45_day_of_year : forall t, (0 <= t)%Z -> (1 <= dayofyear t <= if leap (year (date_of t)) then 366 else 365)%Z /\
  (dayofyear t = 1 <-> month (date_of t) = 1 /\ day (date_of t) = 1)%Z /\
  (year (date_of (t + DAY)) = year (date_of t) -> dayofyear (t + DAY) = dayofyear t + 1)%Z.
Proof.
  intros t T. assert (Q : (0 <= t / DAY)%Z) by (apply Z.div_pos; unfold DAY; lia).
  pose proof (civil_ordinal (t / DAY) Q) as O. pose proof (civil_ordinal (t / DAY + 1) ltac:(lia)) as O'.
  unfold dayofyear, date_of. rewrite day_plus.
  destruct (civil_valid (t / DAY)) as [Y M D]. set (d := civil (t / DAY)) in *. set (d' := civil (t / DAY + 1)) in *.
  unfold ordinal in *. clearbody d d'. split; [|split].
  - clear - M D. unfold dbm, month_days in *. destruct d as [y m k]. cbn [year month day] in *.
    assert (C : In m [1; 2; 3; 4; 5; 6; 7; 8; 9; 10; 11; 12]%Z) by (cbn; lia).
    cbn [In] in C. generalize dependent (leap y). intros b G. decompose [or] C; clear C; try contradiction; subst m; destruct b;
      cbn [Z.leb Z.eqb Z.ltb Z.compare Pos.compare Pos.compare_cont Pos.eqb andb orb] in *; lia.
  - clear - M D. unfold dbm, month_days in *. destruct d as [y m k]. cbn [year month day] in *.
    assert (C : In m [1; 2; 3; 4; 5; 6; 7; 8; 9; 10; 11; 12]%Z) by (cbn; lia).
    cbn [In] in C. generalize dependent (leap y). intros b G. decompose [or] C; clear C; try contradiction; subst m; destruct b;
      cbn [Z.leb Z.eqb Z.ltb Z.compare Pos.compare Pos.compare_cont Pos.eqb andb orb] in *; lia.
  - intro E. rewrite E in *. lia.
Qed.
Print Assumptions c45_day_of_year.
(** Equinox at the equator: overhead at noon, in the east six hours earlier. *)
Example c45_example : -90 < declination_angle 172 < 90 /\ (0 <= 43200 mod DAY + 3600 < DAY)%Z /\
  sv_z (sun_vector 0 0 0) = 1 /\ sv_x (sun_vector 0 (-90) 0) = 1.
Proof.
  split; [pose proof (c45_ranges 172); lra|]. split; [cbn; unfold DAY; lia|].
  unfold sun_vector, sv_z, sv_x. cbn [fst snd].
  replace (deg2rad 0) with 0 by (unfold deg2rad; field).
  replace (deg2rad (-90)) with (- (PI / 2)) by (unfold deg2rad; field).
  rewrite sin_neg, sin_PI2, sin_0, cos_0. lra.
Qed.
