(** Model of meteo/interpolation.py 15-57 (_param_station_data), 210-357 (interpolate_station_data) and 538-591
    (_liston_wind_correction with its interpolation): the meteorological fields of one time step. Grids are lists of
    pixels in row-major order. The region of interest is taken to be non-empty (for an empty one the code would still
    fit the trend, which can raise). Elevations of pixels in the region of interest are known. *)
From Verif Require Import Common AtmosphereModel ForcingModel InterpModel.
Open Scope R_scope.

(** The measurements of one station at the date, and its position. Each may be NaN. *)
Record mstn := MS {
  m_x : num; m_y : num; m_z : num;
  m_temp : num; m_precip : num; m_rel_hum : num; m_wind_speed : num; m_wind_dir : num; m_gust : num }.
(** 41-57 for one parameter: stations where it, or a coordinate, is NaN are dropped (46) *)
Definition one_param (f : mstn -> num) (l : list mstn) : list stn :=
  flat_map (fun s => match f s, m_x s, m_y s, m_z s with
                     | Some v, Some x, Some y, Some z => [SN x y z v 0]
                     | _, _, _, _ => []
                     end) l.
(** 41-57 for two parameters: stations where any of them is NaN are dropped. The second is kept in [s_temp]. *)
Definition two_params (f g : mstn -> num) (l : list mstn) : list stn :=
  flat_map (fun s => match f s, g s, m_x s, m_y s, m_z s with
                     | Some v, Some w, Some x, Some y, Some z => [SN x y z v w]
                     | _, _, _, _, _ => []
                     end) l.

(** A pixel: position, elevation, slope, aspect, scaled curvature. *)
Record target := TG { t_x : R; t_y : R; t_z : R; t_slope : R; t_aspect : R; t_curv : R }.
Definition grid := list (bool * target).
(** 223-226: grid.roi, the coordinates of the pixels in it *)
Definition roi (g : grid) : list bool := map fst g.
Definition roi_targets (g : grid) : list target := map snd (filter fst g).
(** field[roi] = vals, field[roi] *)
Fixpoint masked_set (m : list bool) (field vals : list num) : list num :=
  match m, field with
  | true :: m', _ :: f' => match vals with v :: vs => v :: masked_set m' f' vs | [] => field end
  | false :: m', x :: f' => x :: masked_set m' f' vals
  | _, _ => field
  end.
Fixpoint masked_get (m : list bool) (field : list num) : list num :=
  match m, field with
  | true :: m', x :: f' => x :: masked_get m' f'
  | false :: m', _ :: f' => masked_get m' f'
  | _, _ => []
  end.

Inductive derr := DInterpolation (e : ierr) | DNotImplemented.
Definition bind {A B} (x : derr + A) (f : A -> derr + B) : derr + B := match x with inl e => inl e | inr a => f a end.
Fixpoint each {A} (f : A -> ierr + num) (l : list A) : derr + list num :=
  match l with
  | [] => inr []
  | a :: t => match f a with
              | inl e => inl (DInterpolation e)
              | inr v => bind (each f t) (fun vs => inr (v :: vs))
              end
  end.
(** interpolate_param for all targets, without and with target temperatures *)
Definition interpolate_all (p : iparam) (c : icfg) (l : list stn) (ts : list target) : derr + list num :=
  each (fun t => interpolate_param p c l (t_x t) (t_y t) (t_z t) None) ts.
Definition interpolate_humidity (c : icfg) (l : list stn) (ts : list target) (temps : list num) : derr + list num :=
  each (fun tt => interpolate_param IRelHum c l (t_x (fst tt)) (t_y (fst tt)) (t_z (fst tt)) (snd tt)) (combine ts temps).

(** 538-591 _liston_wind_correction. [l]: stations with speed and direction (the latter in [s_temp]) *)
Definition component (k : R * R -> R) (l : list stn) : list stn :=
  map (fun s => SN (s_x s) (s_y s) (s_z s) (k (wind_to_uv (s_v s) (s_temp s))) 0) l.
Definition wind_target (t : target) (uv : num * num) : option wtarget :=
  match uv with
  | (Some u, Some v) => Some (WT u v (t_slope t) (t_aspect t) (t_curv t))
  | _ => None
  end.
Definition liston_fields (sw cw : R) (ws : list (option wtarget)) : list (num * num) :=
  map (fun x => match fst x with Some t => liston_one sw cw t (snd x) | None => (None, None) end)
      (combine ws (normalize_array (map (fun w => match w with Some t => Some (wind_slope t) | None => None end) ws) (- 0.5) 0.5)).
Definition liston_correction (sw cw : R) (c : icfg) (l : list stn) (ts : list target) : derr + list (num * num) :=
  bind (interpolate_all IWindVec c (component fst l) ts) (fun us =>
  bind (interpolate_all IWindVec c (component snd l) ts) (fun vs =>
  inr (liston_fields sw cw (map (fun x => wind_target (fst x) (snd x)) (combine ts (combine us vs)))))).

Inductive wmethod := Idw | Liston | OtherWind.
Record dcfg := DC {
  d_temp : icfg; d_precip : icfg; d_hum : icfg; d_wind : icfg;
  d_method : wmethod; d_slope_weight : R; d_curv_weight : R;
  d_gusts : bool (* model.py:182: the meteorological data contain gusts *) }.
(** model.state.meteo *)
Record mfields := MF {
  f_temp : list num; f_precip : list num; f_rel_hum : list num; f_wind_speed : list num; f_wind_dir : list num; f_gust : list num }.

(** 229-246: temperature and precipitation; 250-270: humidity, with the temperature field just set *)
Definition thermal_fields (c : dcfg) (g : grid) (l : list mstn) (s : mfields) : derr + mfields :=
  bind (interpolate_all ITemp (d_temp c) (one_param m_temp l) (roi_targets g)) (fun t =>
  bind (interpolate_all IPrecip (d_precip c) (one_param m_precip l) (roi_targets g)) (fun p =>
  let temp := masked_set (roi g) (f_temp s) t in
  bind (interpolate_humidity (d_hum c) (two_params m_rel_hum m_temp l) (roi_targets g) (masked_get (roi g) temp)) (fun h =>
  inr (MF temp (masked_set (roi g) (f_precip s) p) (masked_set (roi g) (f_rel_hum s) h) (f_wind_speed s) (f_wind_dir s) (f_gust s))))).
(** 272-355 *)
Definition wind_fields (c : dcfg) (g : grid) (l : list mstn) (s : mfields) : derr + mfields :=
  match d_method c with
  | Idw =>
      bind (interpolate_all IWindSpeed (d_wind c) (one_param m_wind_speed l) (roi_targets g)) (fun w =>
      let s1 := MF (f_temp s) (f_precip s) (f_rel_hum s) (masked_set (roi g) (f_wind_speed s) w) (f_wind_dir s) (f_gust s) in
      if d_gusts c then
        bind (interpolate_all IWindSpeed (d_wind c) (one_param m_gust l) (roi_targets g)) (fun q =>
        inr (MF (f_temp s1) (f_precip s1) (f_rel_hum s1) (f_wind_speed s1) (f_wind_dir s1) (masked_set (roi g) (f_gust s1) q)))
      else inr s1)
  | Liston =>
      bind (liston_correction (d_slope_weight c) (d_curv_weight c) (d_wind c) (two_params m_wind_speed m_wind_dir l) (roi_targets g)) (fun w =>
      let s1 := MF (f_temp s) (f_precip s) (f_rel_hum s)
                   (masked_set (roi g) (f_wind_speed s) (map (fun x => liston_speed (fst x)) w))
                   (masked_set (roi g) (f_wind_dir s) (map snd w)) (f_gust s) in
      if d_gusts c then
        bind (liston_correction (d_slope_weight c) (d_curv_weight c) (d_wind c) (two_params m_gust m_wind_dir l) (roi_targets g)) (fun q =>
        inr (MF (f_temp s1) (f_precip s1) (f_rel_hum s1) (f_wind_speed s1) (f_wind_dir s1)
                (masked_set (roi g) (f_gust s1) (map (fun x => liston_speed (fst x)) q))))
      else inr s1)
  | OtherWind => inl DNotImplemented
  end.
(** 210-357 interpolate_station_data. An exception ends the run, so the fields set before it are not modelled. *)
Definition interpolate_station_data (c : dcfg) (g : grid) (l : list mstn) (s : mfields) : derr + mfields :=
  bind (thermal_fields c g l s) (wind_fields c g l).
