(** Model of modules/snow/snow.py. One pixel at a time: all of its functions are applied
    pixel-wise (vectorised numpy or a prange loop over pixels). *)
From Verif Require Import Common Constants.

(** One snow layer of one pixel: entries [k, i, j] of the state arrays thickness, ice_content,
    liquid_water_content, temp, heat_cap (multilayermodel.py:18-44). *)
Record layer := mkL { th : R; ice : R; lwc : R; tmp : R; hc : R }.

(** snow.albedo parameters, model.config.snow.albedo (data/configschema.yml, snow.albedo). *)
Inductive refresh_method := Binary | Continuous.
Record albedo_cfg := mkAC {
  a_min : R; a_max : R;
  melting_ts : R; cold_ts : R;         (* decay timescales in hours *)
  refresh_snowfall : R;                (* kg m-2 h-1 *)
  refresh : refresh_method }.

(** snow.py:50-58, albedo decay of one pixel. [temp] is the air or surface temperature selected
    by the configuration; NaN >= T0 is false, hence the cold timescale. *)
Definition albedo_decay (c : albedo_cfg) (dt : R) (temp : num) (alb : R) : R :=
  let warm := match temp with Some t => if Rle_dec T0 t then true else false | None => false end in
  let ts := if warm then SECONDS_PER_HOUR * melting_ts c else SECONDS_PER_HOUR * cold_ts c in
  a_min c + (alb - a_min c) * exp (-1 / ts * dt).

(** snow.py:60-73, albedo refresh of one pixel. *)
Definition albedo_refresh (c : albedo_cfg) (dt : R) (snowfall : num) (alb : R) : R :=
  let rate := match snowfall with Some s => s / dt | None => 0 end in
  let rrate := refresh_snowfall c / SECONDS_PER_HOUR in
  match refresh c with
  | Binary => if Rle_dec rrate rate then a_max c else alb
  | Continuous => alb + (a_max c - alb) * Rmin 1 (rate / rrate)
  end.

(** snow.py:9-73. A NaN albedo (snow-free pixel) stays NaN except that the binary refresh
    overwrites it. *)
Definition albedo_step (c : albedo_cfg) (dt : R) (temp snowfall : num) (alb : num) : num :=
  match alb with
  | Some a => Some (albedo_refresh c dt snowfall (albedo_decay c dt temp a))
  | None =>
      match refresh c with
      | Binary =>
          if Rle_dec (refresh_snowfall c / SECONDS_PER_HOUR)
                     (match snowfall with Some s => s / dt | None => 0 end)
          then Some (a_max c) else None
      | Continuous => None
      end
  end.

(** snow.py:76-101. [x ** 1.5] is written [x * sqrt x] (x >= 0 after the clip). *)
Definition fresh_snow_density (temp : num) : R :=
  match temp with
  | Some t =>
      let min_temp := T0 - 15 in
      let t' := Rmax t min_temp in
      50 + 1.7 * ((t' - min_temp) * sqrt (t' - min_temp))
  | None => 100
  end.

(** snow.py:205-244, one layer of _compaction_anderson: returns the new thickness and the new
    load. [air_temp] NaN makes the densification rate NaN which is replaced by 0 (line 235-236).
    The layer density (state variable written here) is [dens_anderson]. *)
Definition dens_layer (l : layer) : R := (ice l + lwc l) / th l.
Definition anderson_rate (air_temp : num) (load : R) (l : layer) : R :=
  match air_temp with
  | None => 0
  | Some ta =>
      let rho := dens_layer l in
      let c6 := if Rlt_dec 150 rho then exp (- 0.046 * (rho - 150)) else 1 in
      let c4 := if Rlt_dec 0 (lwc l) then 0.02 else 0.01 in
      let dens_compact := 0.001 * load * exp (- 0.08 * (T0 - ta) - 0.021 * rho) in
      let dens_metamorph := c4 * exp (- 0.04 * (T0 - ta)) * c6 in
      rho * (dens_compact + dens_metamorph)
  end.
Definition dens_anderson (dt : R) (air_temp : num) (load : R) (l : layer) : R :=
  dens_layer l + anderson_rate air_temp load l * (dt / SECONDS_PER_HOUR).

(** snow.py:203-244, the loop over the first [n] layers of a pixel. *)
Fixpoint compaction_anderson (n : nat) (dt : R) (air_temp : num) (load : R) (ls : list layer)
  : list layer :=
  match n, ls with
  | S n', l :: ls' =>
      if Rlt_dec 0 (th l) then
        let m := ice l + lwc l in
        let load1 := load + m / 2 in
        let rho := dens_anderson dt air_temp load1 l in
        mkL ((ice l + lwc l) / rho) (ice l) (lwc l) (tmp l) (hc l)
        :: compaction_anderson n' dt air_temp (load1 + m / 2) ls'
      else l :: compaction_anderson n' dt air_temp load ls'
  | _, _ => ls
  end.

(** snow.py:310-332, one layer of _compaction_empirical ([ts] in seconds). *)
Definition dens_empirical (dt ts max_cold max_melt : R) (l : layer) : R :=
  let rho := dens_layer l in
  let maxd := if Rlt_dec (tmp l) T0 then max_cold else max_melt in
  if Rlt_dec rho maxd then maxd + (rho - maxd) * exp (- dt / ts) else rho.
Definition compact_empirical_layer (dt ts max_cold max_melt : R) (l : layer) : layer :=
  if Rlt_dec 0 (th l) then
    let rho := dens_layer l in
    let maxd := if Rlt_dec (tmp l) T0 then max_cold else max_melt in
    if Rlt_dec rho maxd then
      mkL ((ice l + lwc l) / dens_empirical dt ts max_cold max_melt l)
          (ice l) (lwc l) (tmp l) (hc l)
    else l
  else l.
Fixpoint compaction_empirical (n : nat) (dt ts max_cold max_melt : R) (ls : list layer)
  : list layer :=
  match n, ls with
  | S n', l :: ls' =>
      compact_empirical_layer dt ts max_cold max_melt l
      :: compaction_empirical n' dt ts max_cold max_melt ls'
  | _, _ => ls
  end.

(** snow.py:335-366, snow_properties. *)
Definition snow_depth (ls : list layer) : R := sumR (map th ls).
Definition snow_swe (ls : list layer) : R := sumR (map (fun l => ice l + lwc l) ls).
Definition area_fraction (scale depth : R) : R :=
  if Rlt_dec 0 scale then tanh (depth / scale) else if Rlt_dec 0 depth then 1 else 0.
Definition layer_heat_cap (l : layer) : R :=
  ice l * SPEC_HEAT_CAP_ICE + lwc l * SPEC_HEAT_CAP_WATER.
Definition update_heat_cap (ls : list layer) : list layer :=
  map (fun l => mkL (th l) (ice l) (lwc l) (tmp l) (layer_heat_cap l)) ls.

(** snow.py:369-414, max_liquid_water_content of one layer; [mx] is
    snow.liquid_water_content.max. *)
Inductive lwc_method := PoreVolumeFraction | MassFraction.
Definition max_lwc (m : lwc_method) (mx : R) (l : layer) : R :=
  match m with
  | PoreVolumeFraction =>
      let porosity := if Rlt_dec 0 (th l) then 1 - ice l / (ICE_DENSITY * th l) else 0 in
      WATER_DENSITY * th l * porosity * mx
  | MassFraction => mx * ice l
  end.
