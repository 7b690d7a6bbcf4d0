(** Model of the configuration of point outputs (fileio/pointoutput.py): output variables, output points, the values
    taken from the state at one time step, and the columns of the CSV files. Conversion to single precision, longitude and
    latitude (a projection of x and y) and variables named like a coordinate (rejected by xarray) are not modelled. *)
From Coq Require Import Decimal DecimalString.
From Verif Require Import Common.
From Verif Require GridModel.
From Verif Require Export StateModel.
Open Scope string_scope.

Inductive perr := ConfigurationError | PValueError | PKeyError.
(** f"{n}" of a natural number *)
Definition dec (n : nat) : string := NilEmpty.string_of_uint (Nat.to_uint n).

(** * Variables *)
Record pvar := PV { pv_var : string; pv_out : string }.
(** pointoutput.py:33-35 (and griddedoutput.py:118-119): the last part of the variable name by default *)
Definition last_part (s : string) : string := List.last (split_dot s) "".
Definition point_var (v : string) (name : option string) : pvar :=
  PV v (match name with Some n => n | None => last_part v end).
(** 80-124 _default_output_vars *)
Definition default_vars : list pvar :=
  (map (fun v => point_var v None)
      ["meteo.temp"; "meteo.precip"; "meteo.snowfall"; "meteo.rainfall"; "meteo.rel_hum"; "meteo.wind_speed"; "meteo.sw_in";
       "meteo.sw_out"; "meteo.lw_in"; "meteo.lw_out"; "meteo.sw_in_clearsky"; "meteo.dir_in_clearsky"; "meteo.diff_in_clearsky";
       "meteo.cloud_factor"; "meteo.cloud_fraction"; "meteo.wet_bulb_temp"; "meteo.dew_point_temp"; "meteo.atmos_press";
       "meteo.sat_vap_press"; "meteo.vap_press"; "meteo.spec_hum"]
  ++ [point_var "surface.temp" (Some "surface_temp"); point_var "surface.heat_flux" (Some "surface_heat_flux");
      point_var "surface.sens_heat_flux" None; point_var "surface.lat_heat_flux" None;
      point_var "surface.advective_heat_flux" None; point_var "surface.albedo" (Some "surface_albedo");
      point_var "soil.temp" (Some "soil_temp"); point_var "soil.heat_flux" (Some "soil_heat_flux");
      point_var "snow.swe" (Some "swe"); point_var "snow.depth" (Some "snow_depth"); point_var "snow.temp" (Some "snow_temp");
      point_var "snow.thickness" (Some "snow_thickness"); point_var "snow.density" (Some "snow_density");
      point_var "snow.ice_content" None; point_var "snow.liquid_water_content" None; point_var "snow.melt" None;
      point_var "snow.runoff" None; point_var "snow.sublimation" None; point_var "snow.refreezing" None])%list.
(** 176-183: unknown variables are configuration errors; other exceptions pass. The lookup accepts the name of a category. *)
Fixpoint check_vars (m : manager) (vars : list pvar) : option perr :=
  match vars with
  | [] => None
  | v :: vars' =>
      match getitem m (pv_var v) with
      | inl (AttributeError | KeyError) => Some ConfigurationError
      | inl _ => Some PValueError
      | inr _ => check_vars m vars'
      end
  end.
(** 162-190: default variables, then those of the configuration (variable and name) *)
Definition point_vars (m : manager) (add_default : bool) (user : list (string * option string)) : perr + list pvar :=
  let vars := ((if add_default then default_vars else []) ++ map (fun u => point_var (fst u) (snd u)) user)%list in
  match check_vars m vars with
  | Some e => inl e
  | None =>
      if (List.length (nodup string_dec (map pv_out vars)) <? List.length vars)%nat then inl ConfigurationError
      else inr vars
  end.

(** * Points *)
Open Scope R_scope.
Record station := STN { s_name : string; s_x : R; s_y : R }.
Record upoint := UP { u_name : option string; u_x : R; u_y : R }.
Record point := PT { p_name : string; p_x : R; p_y : R; p_alt : num; p_row : nat; p_col : nat }.
(** 192-209: the stations within the region of interest, in the order of the meteorological dataset. With
    [extend], within_roi is also set for the other stations of the grid (model.py:184-189). *)
Definition default_points (g : GridModel.rmeta) (extend : bool) (roi : nat -> nat -> bool) (dem : nat -> nat -> num) (stations : list station) : list point :=
  map (fun s => let '(r, c) := GridModel.station_pixel g (s_x s, s_y s) in PT (s_name s) (s_x s) (s_y s) (dem r c) r c)
      (filter (fun s => (if extend then GridModel.extended_within_roi else GridModel.within_roi) g roi (s_x s, s_y s)) stations).
(** 211-258: the points of the configuration; [k] is point_num *)
Fixpoint add_points (g : GridModel.rmeta) (dem : nat -> nat -> num) (k : nat) (user : list upoint) (points : list point)
  : perr + list point :=
  match user with
  | [] => inr points
  | u :: user' =>
      let name := match u_name u with Some n => n | None => "point" ++ dec (k + 1) end in
      if existsb (String.eqb name) (map p_name points) then inl ConfigurationError
      else
        let '(row, col) := GridModel.rowcol (GridModel.m_tr g) (u_x u) (u_y u) in
        if ((row <? 0) || (row >=? Z.of_nat (GridModel.m_rows g)) || (col <? 0) || (col >=? Z.of_nat (GridModel.m_cols g)))%Z%bool
        then inl ConfigurationError
        else
          let r := Z.to_nat row in let c := Z.to_nat col in
          add_points g dem (S k) user' (points ++ [PT name (u_x u) (u_y u) (dem r c) r c])%list
  end.
Definition output_points (g : GridModel.rmeta) (extend : bool) (roi : nat -> nat -> bool) (dem : nat -> nat -> num) (add_default : bool)
    (stations : list station) (user : list upoint) : perr + list point :=
  add_points g dem 0 user (if add_default then default_points g extend roi dem stations else []).

(** * Values of one time step *)
(** 393-401: var_data[point_rows, point_cols] and var_data[:, point_rows, point_cols]; arrays are flattened in row-major
    order (StateModel). The result has one list per layer (one layer for 2-dimensional variables). *)
Definition pixel_index (g : GridModel.rmeta) (p : point) : nat := p_row p * GridModel.m_cols g + p_col p.
Definition take_points (g : GridModel.rmeta) (points : list point) (dim3 : nat) (a : list cell) : list (list (option cell)) :=
  map (fun l => map (fun p => nth_error a (l * (GridModel.m_rows g * GridModel.m_cols g) + pixel_index g p)) points)
      (seq 0 (Nat.max dim3 1)).
Definition take_var (m : manager) (g : GridModel.rmeta) (points : list point) (v : pvar) : exn + list (list (option cell)) :=
  match meta m (pv_var v), getitem m (pv_var v) with
  | inr d, inr (inr a) => inr (take_points g points (v_dim3 d) a)
  | inl e, _ => inl e
  | _, inl e => inl e
  | _, inr (inl _) => inl AttributeError
  end.

(** * Layers *)
(** 307-319 (griddedoutput.py:521-533): number of layers per category. The test looks for the category while the numbers
    are stored under the name of the coordinate. *)
Definition layer_coord (c : string) : string := c ++ "_layer".
Fixpoint layer_coords (vars : list (string * nat)) (d : dict nat) : perr + dict nat :=
  match vars with
  | [] => inr d
  | (c, dim3) :: vars' =>
      match dim3 with
      | O => layer_coords vars' d
      | _ =>
          match dget d c with
          | None => layer_coords vars' (dset d (layer_coord c) dim3)
          | Some _ => match dget d (layer_coord c) with
                      | None => inl PKeyError
                      | Some n => if (n =? dim3)%nat then layer_coords vars' d else inl PValueError
                      end
          end
      end
  end.
(** xr.Dataset: the sizes of all variables along a dimension must agree with the coordinate *)
Definition sizes_agree (vars : list (string * nat)) (d : dict nat) : bool :=
  forallb (fun v => match snd v with
                    | O => true
                    | n => match dget d (layer_coord (fst v)) with Some n' => (n' =? n)%nat | None => false end
                    end) vars.
Definition create_layers (vars : list (string * nat)) : perr + dict nat :=
  match layer_coords vars [] with
  | inl e => inl e
  | inr d => if sizes_agree vars d then inr d else inl PValueError
  end.

(** * CSV columns *)
(** What a column holds: variable [v] of the list of variables, all of it or one layer. *)
Inductive source := Whole (v : string) | Layer (v : string) (i : nat).
Definition ddel {A} (d : dict A) (k : string) : dict A := filter (fun e => negb (fst e =? k)) d.
(** 281-327: one entry per variable (a later variable of the same name would replace an earlier one) *)
Definition dataset_vars (vars : list (pvar * nat)) : dict source :=
  fold_left (fun d v => dset d (pv_out (fst v)) (Whole (pv_out (fst v)))) vars [].
(** 431-438 *)
Definition split_layers (d : dict source) (v : pvar * nat) : dict source :=
  match snd v with
  | O => d
  | n => let name := pv_out (fst v) in
         ddel (fold_left (fun d i => dset d (name ++ dec i) (Layer name i)) (seq 0 n) d) name
  end.
Definition csv_columns (vars : list (pvar * nat)) : dict source := fold_left split_layers vars (dataset_vars vars).
(** 441 *)
Definition csv_file (p : point) : string := "point_" ++ p_name p ++ ".csv".
