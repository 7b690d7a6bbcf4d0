(** Model of modules/radiation/sunparams.py. Real arithmetic; times in seconds. *)
From Verif Require Import Common Constants TimeModel TimeProofs.
Open Scope R_scope.

(** np.deg2rad, np.rad2deg *)
Definition deg2rad (x : R) : R := x * PI / 180.
Definition rad2deg (x : R) : R := x * 180 / PI.
(** pandas dayofyear: 1 for 1 January; dbm: days before the month *)
Definition dayofyear (t : Z) : Z := (dbm (year (date_of t)) (month (date_of t)) + day (date_of t))%Z.
(** 7-24 *)
Definition day_angle (doy : R) : R := 2 * PI / DAYS_PER_YEAR * (doy - 1).
(** 27-66 equation_of_time, minutes; only method "spencer" exists *)
Definition equation_of_time (doy : R) : R :=
  let da := day_angle doy in
  let eot := 0.0000075 + 0.001868 * cos da - 0.032077 * sin da - 0.014615 * cos (2 * da) - 0.040849 * sin (2 * da) in
  HOURS_PER_DAY * 60 / (2 * PI) * eot.
(** 69-100 *)
Definition declination_angle (doy : R) : R :=
  let d := deg2rad (360 / DAYS_PER_YEAR * (doy - 79.346)) in
  0.3723 + 23.2567 * sin d - 0.7580 * cos d + 0.1149 * sin (2 * d) + 0.3656 * cos (2 * d)
  - 0.1712 * sin (3 * d) + 0.0201 * cos (3 * d).
(** 103-138 hour_angle: local time t (seconds), timezone, longitude, equation of time *)
Definition hour_angle (t : Z) (timezone lon eot : R) : R :=
  let hour := IZR (t mod DAY) / 3600 in
  let lstm := 15 * timezone in
  let tc := 4 * (lon - lstm) + eot in
  let lst := hour + tc / 60 in
  15 * (lst - 12).
(** 141-179 *)
Definition sun_vector (lat ha dec : R) : R * R * R :=
  let la := deg2rad lat in let h := deg2rad ha in let d := deg2rad dec in
  (- sin h * cos d,
   sin la * cos h * cos d - cos la * sin d,
   cos la * cos h * cos d + sin la * sin d).
Record sun := SUN { sp_day_angle : R; sp_hour_angle : R; sp_declination : R; sp_eot : R; sp_vec : R * R * R;
  sp_zenith : R; sp_over_horizon : bool }.
(** 182-226 *)
Definition sun_parameters (t : Z) (lon lat timezone : R) : sun :=
  let doy := IZR (dayofyear t) in
  let eot := equation_of_time doy in
  let da := day_angle doy in
  let ha := hour_angle t timezone lon eot in
  let dec := declination_angle doy in
  let sv := sun_vector lat ha dec in
  let zenith := rad2deg (acos (snd sv)) in
  SUN da ha dec eot sv zenith (if Rlt_dec zenith 90 then true else false).
