(** Model of interpolation.py (inverse distance weighting), of meteo/interpolation.py and of the gauge
    corrections in meteo/precipcorr.py. Interpolation is element-wise in the targets, so one target is
    modelled at a time. Real arithmetic; a division by zero gives None (NaN or infinity). *)
From Verif Require Import Common Constants AtmosphereModel ForcingModel.

(** * interpolation.py *)
(** An interpolation point; all three fields may be NaN. *)
Record pt := PT { p_x : num; p_y : num; p_v : num }.
(** 82-86: points with finite coordinates and value (infinities are not modelled) *)
Definition finite_pts (l : list pt) : list (R * R * R) :=
  flat_map (fun p => match p_x p, p_y p, p_v p with Some x, Some y, Some v => [(x, y, v)] | _, _, _ => [] end) l.
(** 36 *)
Definition distance (x y smoothing : R) (p : R * R * R) : R :=
  let '(px, py, _) := p in sqrt ((x - px) * (x - px) + (y - py) * (y - py) + smoothing * smoothing).
(** 34-47: the loop over the points with the accumulators w and total; dist ** power for dist > 0 *)
Fixpoint idw_loop (x y power smoothing : R) (pts : list (R * R * R)) (w total : R) : R :=
  match pts with
  | [] => total / w
  | p :: t =>
      let d := distance x y smoothing p in
      if Req_EM_T d 0 then snd p
      else idw_loop x y power smoothing t (w + 1 / Rpower d power) (total + snd p / Rpower d power)
  end.
(** 52-106 idw with ignore_nan=True, one target *)
Definition idw (pts : list pt) (x y power smoothing : R) : num :=
  match finite_pts pts with
  | [] => None
  | ps => Some (idw_loop x y power smoothing ps 0 0)
  end.

(** * meteo/interpolation.py *)
(** One station with a value (stations without are dropped, 42) and its air temperature (used for humidity) *)
Record stn := SN { s_x : R; s_y : R; s_z : R; s_v : R; s_temp : R }.
Definition stn_pts (f : stn -> R) (l : list stn) : list pt := map (fun s => PT (Some (s_x s)) (Some (s_y s)) (Some (f s))) l.
Definition mean (l : list R) : R := sumR l / INR (length l).
(** 59-80 _linear_fit. numpy.polyfit scales the columns (x, 1) to unit length and takes the least squares
    solution of minimal norm; for equal x the two columns are parallel and the minimal solution splits the
    mean evenly between them (slope mean(y) / (2 x)); for x = 0 the scaling fails (0/0, LinAlgError: None). *)
Definition linear_fit (x y : list R) : option (R * R) :=
  if (length x <? 2)%nat then Some (0, 0)
  else
    let mx := mean x in let my := mean y in
    let sxx := sumR (map (fun a => (a - mx) * (a - mx)) x) in
    let sxy := sumR (map (fun p => (fst p - mx) * (snd p - my)) (combine x y)) in
    if Req_EM_T sxx 0 then
      if Req_EM_T mx 0 then None else Some (my / (2 * mx), my / 2)
    else Some (sxy / sxx, my - sxy / sxx * mx).

(** 83-143 _piecewise_linear_fit. The fit with a given number of segments is done by pwlf, whose result
    (break points, predictions and Akaike information criterion) is an argument; None: the fit raised. *)
Record pwfit := PW { pw_breaks : list R; pw_predict : R -> R; pw_aic : R }.
Definition count_between (xs : list R) (lo hi : R) : nat :=
  length (filter (fun x => (if Rle_dec lo x then true else false) && (if Rle_dec x hi then true else false)) xs).
(** 111-115: some segment has too few points *)
Definition sparse (xs : list R) (min_points : nat) (breaks : list R) : bool :=
  existsb (fun lh => (count_between xs (fst lh) (snd lh) <? min_points)%nat) (combine (removelast breaks) (tl breaks)).
(** 91-143: [n] iterations left, beginning with [k] segments *)
Fixpoint pw_loop (fit : nat -> option pwfit) (xs : list R) (min_points : nat) (threshold : R) (n k : nat)
    (best : option pwfit) : option pwfit :=
  match n with
  | O => best
  | S n' =>
      if (1 <? k)%nat && (length xs <? k * min_points)%nat then best
      else match fit k with
           | None => pw_loop fit xs min_points threshold n' (S k) best
           | Some m =>
               if (1 <? k)%nat && sparse xs min_points (pw_breaks m) then best
               else match best with
                    | None => pw_loop fit xs min_points threshold n' (S k) (Some m)
                    | Some b =>
                        if Rle_dec threshold (pw_aic b - pw_aic m)
                        then pw_loop fit xs min_points threshold n' (S k) (Some m)
                        else best
                    end
           end
  end.
Definition piecewise_linear_fit (fit : nat -> option pwfit) (xs : list R) (max_segments min_points : nat) (threshold : R)
  : option pwfit := pw_loop fit xs min_points threshold max_segments 1 None.

Inductive iparam := ITemp | IPrecip | IRelHum | IWindSpeed | IWindVec.
Inductive trend_method := Regression | Fixed | Fractional | AdjustmentFactor.
Record icfg := IC {
  i_trend : trend_method; i_lapse : R;                    (* lapse rate of the month *)
  i_extrapolate : bool; i_max_segments : nat; i_min_points : nat; i_threshold : R;
  i_fit : nat -> option pwfit }.
(** constants.py:107-115 *)
Definition allowed_range (p : iparam) : option (R * option R) :=
  match p with
  | ITemp | IPrecip => Some (0, None)
  | IRelHum => Some (0, Some 100)
  | IWindSpeed => Some (0.1, None)
  | IWindVec => None
  end.
Definition clip_opt (r : R * option R) (v : R) : R :=
  let v1 := Rmax v (fst r) in match snd r with Some hi => Rmin v1 hi | None => v1 end.
(** 146-177, 180-208 *)
Definition detrend (f : R -> R) (v z : R) : R := v - f z.
Definition retrend (f : R -> R) (v z : R) : R := v + f z.
(** Interpolation of detrended values with trend function f *)
Definition with_trend (f : R -> R) (data : stn -> R) (l : list stn) (x y z : R) : num :=
  match idw (stn_pts (fun s => detrend f (data s) (s_z s)) l) x y 2 0 with
  | Some v => Some (retrend f v z)
  | None => None
  end.
Inductive ierr := IValueError | ILinAlgError.
Definition minR (l : list R) : R := match l with [] => 0 | x :: t => fold_left Rmin t x end.
Definition maxiR (l : list R) : R := match l with [] => 0 | x :: t => fold_left Rmax t x end.
(** 442-519: the interpolation before the conversion of humidity and the range limits *)
Definition interpolate_core (c : icfg) (data : stn -> R) (l : list stn) (x y z : R) : ierr + num :=
  let zs := map s_z l in let vs := map data l in
  let linear (rate : R) := inr (with_trend (fun h => rate * h) data l x y z) in
  match i_trend c with
  | AdjustmentFactor =>
      inr (match idw (stn_pts data l) x y 2 0, idw (stn_pts s_z l) x y 2 0 with
           | Some v, Some zi =>
               let q := i_lapse c * (z - zi) in
               if Req_EM_T (1 - q) 0 then None else Some (v * ((1 + q) / (1 - q)))
           | _, _ => None
           end)
  | t =>
      if (i_max_segments c =? 1)%nat then
        match t with
        | Regression => match linear_fit zs vs with Some (slope, _) => linear slope | None => inl ILinAlgError end
        | Fractional => linear (i_lapse c * mean vs)
        | _ => linear (i_lapse c)
        end
      else match t with
           | Regression =>
               if (1 <? i_max_segments c)%nat then
                 match piecewise_linear_fit (i_fit c) zs (i_max_segments c) (i_min_points c) (i_threshold c) with
                 | Some m => inr (with_trend (pw_predict m) data l x y z)
                 | None => inr None
                 end
               else inl IValueError
           | _ => inl IValueError
           end
  end.
(** 372-535 interpolate_param for one target at (x, y, z) with air temperature ttemp. A failed piecewise fit
    returns NaN before the limits are applied, which makes no difference. *)
Definition interpolate_param (p : iparam) (c : icfg) (l : list stn) (x y z : R) (ttemp : num) : ierr + num :=
  match l with
  | [] => inr (match p with IPrecip => Some 0 | _ => None end)
  | _ =>
      let data := match p with IRelHum => fun s => dew_point_temperature (s_temp s) (s_v s) | _ => s_v end in
      match interpolate_core c data l x y z with
      | inl e => inl e
      | inr v =>
          let v1 := match p with
                    | IRelHum => match v, ttemp with
                                 | Some td, Some t => Some (relative_humidity_from_dew_point t td)
                                 | _, _ => None
                                 end
                    | _ => v
                    end in
          let v2 := if i_extrapolate c then v1
                    else match v1 with
                         | Some w => Some (clip (minR (map data l)) (maxiR (map data l)) w)
                         | None => None
                         end in
          inr (match allowed_range p, v2 with
               | Some r, Some w => Some (clip_opt r w)
               | _, w => w
               end)
      end
  end.

(** 538-591 _liston_wind_correction, from the interpolated wind components on: targets are given by
    (u, v, slope, aspect, scaled curvature). *)
Record wtarget := WT { w_u : R; w_v : R; w_slope : R; w_aspect : R; w_curv : R }.
Definition wind_slope (t : wtarget) : R :=
  deg2rad (w_slope t) * cos (deg2rad (snd (wind_from_uv (w_u t) (w_v t)) - w_aspect t)).
Definition liston_one (slope_weight curv_weight : R) (t : wtarget) (scaled : num) : num * num :=
  let '(ws, wd) := wind_from_uv (w_u t) (w_v t) in
  match scaled with
  | None => (None, None)
  | Some s =>
      (Some (ws * (1 + slope_weight * s + curv_weight * w_curv t)),
       Some (fmod (wd + - 0.5 * s * sin (- 2 * deg2rad (wd - w_aspect t))) 360))
  end.
Definition liston (slope_weight curv_weight : R) (ts : list wtarget) : list (num * num) :=
  map (fun ts => liston_one slope_weight curv_weight (fst ts) (snd ts))
      (combine ts (normalize_array (map (fun t => Some (wind_slope t)) ts) (- 0.5) 0.5)).
(** 313-317: the speed is limited to the allowed range *)
Definition liston_speed (v : num) : num := match v with Some w => Some (Rmax w 0.1) | None => None end.

(** * meteo/precipcorr.py *)
Inductive kgauge := KUsUn | KAllSa | KNorSa | KUsSa | KUsDa | KUsBda | KUsSdfir.
(** 14-22 *)
Definition k_coeffs (g : kgauge) : R * R * R * R :=
  match g with
  | KUsUn => (0.045, 1.21, 0.66, 8)
  | KAllSa => (0.03, 1.04, 0.57, 12)
  | KNorSa => (0.05, 0.66, 0.23, 12)
  | KUsSa => (0.03, 1.06, 0.63, 12)
  | KUsDa => (0.021, 0.74, 0.66, 8)
  | KUsBda => (0.01, 0.48, 0.51, 8)
  | KUsSdfir => (0.004, 0.00, 0.00, 8)
  end.
Inductive wgauge := WNipher | WTretyakov | WUsSh | WUsUnsh | WHellmann.
Inductive pcorr :=
  | ConstantScf (scf : R)
  | Wmo (g : wgauge)
  | Kochendorfer (g : kgauge)
  | OtherMethod.
(** One station and date: precipitation (NaN-able), temperature (deg C), wind speed and the snowfall fraction
    (NaN replaced by 0, 119); [h_wind], [h_temp] measurement heights, [z0] snow roughness length *)
Record psta := PS { ps_precip : num; ps_temp : num; ps_wind : num; ps_frac : R }.
Definition kind_snow (s : psta) (original : num) : bool := gt0 original && (if Req_EM_T (ps_frac s) 1 then true else false).
Definition kind_mixed (s : psta) (original : num) : bool :=
  gt0 original && (if Rlt_dec 0 (ps_frac s) then true else false) && (if Rlt_dec (ps_frac s) 1 then true else false).
(** 146-207: catch ratio (percent) of the WMO corrections; the last if-chain accepts Hellmann only.
    None: NotImplementedError; Some None: NaN *)
Definition wmo_ratio (g : wgauge) (h_wind h_temp z0 : R) (s : psta) (original : num) : option num :=
  match g with
  | WHellmann =>
      Some (if kind_snow s original || kind_mixed s original then
              match ps_wind s with
              | None => None
              | Some w =>
                  let u := Rmin (log_wind_profile w h_wind h_temp z0) 7 in
                  if kind_snow s original then Some (100 + 1.13 * (u * u) - 19.45 * u)
                  else match ps_temp s with
                       | None => None
                       | Some t => Some (96.63 + 0.41 * (u * u) - 9.84 * u + 5.95 * t)
                       end
              end
            else Some 100)
  | _ => None
  end.
(** np.nan_to_num replaces an infinite factor (catch ratio 0) by the largest float. *)
Definition FLOAT_MAX : R := 2 ^ 1024 - 2 ^ 971.
(** 136-226: correction factor; None: NotImplementedError. [original] is the precipitation before all
    corrections, which the positions of snow, mixed and any precipitation refer to (121-123). *)
Definition corr_factor (m : pcorr) (h_wind h_temp z0 : R) (s : psta) (original : num) : option R :=
  match m with
  | ConstantScf scf => Some (1 + ps_frac s * (scf - 1))
  | Wmo g => match wmo_ratio g h_wind h_temp z0 s original with
             | None => None
             | Some cr => Some (match cr with
                                | None => 1
                                | Some r => match numdiv 1 (Some (r / 100)) with Some f => f | None => FLOAT_MAX end
                                end)
             end
  | Kochendorfer g =>
      let '(a, b, c, max_u) := k_coeffs g in
      Some (if gt0 original then
              match ps_wind s, ps_temp s with
              | Some w, Some t => 1 / exp (- a * Rmin w max_u * (1 - atan (b * t) + c))
              | _, _ => 1
              end
            else 1)
  | OtherMethod => Some 1
  end.
(** 125-229: all configured corrections one after the other *)
Fixpoint correct_precip (ms : list pcorr) (h_wind h_temp z0 : R) (s : psta) (original cur : num) : option num :=
  match ms with
  | [] => Some cur
  | m :: t => match corr_factor m h_wind h_temp z0 s original with
              | None => None
              | Some f => correct_precip t h_wind h_temp z0 s original (numscale f cur)
              end
  end.
(** 232-306 _interpolate_temp_hum_wind for one variable and date: stations without a value get an interpolated
    one if some, but not all, stations have one ([interp] is interpolate_param for the given stations) *)
Definition fill_missing (interp : list (nat * R) -> nat -> num) (vals : list num) : list num :=
  let avail := flat_map (fun iv => match snd iv with Some v => [(fst iv, v)] | None => [] end) (combine (seq 0 (length vals)) vals) in
  if (0 <? length avail)%nat && (length avail <? length vals)%nat
  then map (fun iv => match snd iv with Some v => Some v | None => interp avail (fst iv) end) (combine (seq 0 (length vals)) vals)
  else vals.
