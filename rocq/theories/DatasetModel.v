(** Model of the station datasets: forcing.py (make_point_dataset, make_empty_point_dataset, combine_point_datasets,
    is_valid_point_dataset) and the reading of all stations (fileio/meteo.py read_meteo_data), including the aggregation of
    wind directions. Variables are named by strings. Reading of the files themselves is not modelled: a station file is the
    dataset it contains. *)
From Coq Require Export String.
From Verif Require Import Common TimeModel AtmosphereModel ForcingModel.
Open Scope string_scope.

(** constants.py:51-84 METEO_VAR_METADATA: names and units *)
Definition meteo_units : list (string * string) :=
  [("temp", "K"); ("precip", "kg m-2"); ("rel_hum", "%"); ("sw_in", "W m-2"); ("wind_speed", "m s-1");
   ("wind_speed_gust", "m s-1"); ("wind_dir", "degree"); ("cloud_fraction", "%")].
(** constants.py:85 *)
Definition minimum_vars : list string := ["temp"; "precip"; "rel_hum"; "sw_in"; "wind_speed"].
(** constants.py:87-95 NETCDF_VAR_MAPPINGS *)
Definition netcdf_names : list (string * string) :=
  [("tas", "temp"); ("pr", "precip"); ("hurs", "rel_hum"); ("rsds", "sw_in"); ("wss", "wind_speed");
   ("wind_dir", "wind_dir"); ("wind_speed_gust", "wind_speed_gust")].
Fixpoint assoc {A} (k : string) (l : list (string * A)) : option A :=
  match l with [] => None | (n, v) :: t => if String.eqb n k then Some v else assoc k t end.
Definition mem (k : string) (l : list string) : bool := existsb (String.eqb k) l.

(** Data passed to make_point_dataset: times, data variables (units attribute and values), attributes, and the coordinates of the
    station (also data variables) *)
Record var := VR { v_units : option string; v_vals : list num }.
Record rawdata := RD {
  rd_times : list Z; rd_vars : list (string * var); rd_id : option string; rd_name : option string;
  rd_lon : option R; rd_lat : option R; rd_alt : option R }.
Record pointds := PD {
  pd_id : string; pd_name : string; pd_lon : R; pd_lat : R; pd_alt : R;
  pd_times : list Z; pd_vars : list (string * list num) }.
Inductive merr := TypeErr | MeteoDataError | AttributeError | IndexErr.

(** pd.infer_freq for regular times: fewer than three dates raise ValueError, irregular ones give None. (Frequencies which are
    no fixed durations, e.g. months, are not recognised here.) *)
Inductive freq := TooFew | Irregular | Every (d : Z).
Fixpoint steps_of (d : Z) (l : list Z) : bool :=
  match l with a :: (b :: _) as t => (b - a =? d)%Z && steps_of d t | _ => true end.
Definition infer_freq (l : list Z) : freq :=
  match l with
  | a :: b :: c :: _ => if (0 <? b - a)%Z && steps_of (b - a) l then Every (b - a) else Irregular
  | _ => TooFew
  end.
(** Dataset.max() of one variable: NaN skipped *)
Definition max_le (l : list num) (b : R) : bool :=
  match num_max l with Some m => if Rle_dec m b then true else false | None => false end.
Definition opt_eqb (u : option string) (s : string) : bool := match u with Some t => String.eqb t s | None => false end.
(** len(data) of a dataset is the number of its data variables *)
Definition data_len (d : rawdata) : nat :=
  (List.length (rd_vars d) + (if rd_lon d then 1 else 0) + (if rd_lat d then 1 else 0) + (if rd_alt d then 1 else 0))%nat.
(** forcing.py:126-157: conversion and unit check of one variable *)
Definition convert_units (d : rawdata) (name units : string) (v : var) : merr + list num :=
  let check (v : var) := match v_units v with
                         | Some u => if String.eqb u units then inr (v_vals v) else inl MeteoDataError
                         | None => inr (v_vals v)
                         end in
  if String.eqb name "precip" then
    if opt_eqb (v_units v) "kg m-2 s-1" then
      match infer_freq (rd_times d) with
      | Every dt => check (VR (Some "kg m-2") (map (numscale (IZR dt)) (v_vals v)))
      | TooFew => check (VR (Some "kg m-2") (map (fun _ => None) (v_vals v)))
      | Irregular => inl AttributeError
      end
    else check v
  else if String.eqb name "cloud_fraction" then
    if opt_eqb (v_units v) "1" || ((10 <? data_len d)%nat && max_le (v_vals v) 1)
    then check (VR (Some "%") (map (numscale 100) (v_vals v)))
    else check v
  else check v.
(** forcing.py:114-159: the allowed variables contained in the data *)
Fixpoint convert_vars (d : rawdata) (l : list (string * string)) : merr + list (string * list num) :=
  match l with
  | [] => inr []
  | (name, units) :: t =>
      match assoc name (rd_vars d) with
      | None => convert_vars d t
      | Some v => match convert_units d name units v with
                  | inl e => inl e
                  | inr s => match convert_vars d t with inl e => inl e | inr r => inr ((name, s) :: r) end
                  end
      end
  end.
Definition first_of {A} (x y : option A) : option A := match x with Some _ => x | None => y end.
(** forcing.py:26-159 make_point_dataset with the keyword arguments point_id, name, lon, lat, alt *)
Definition make_point_dataset (d : rawdata) (id name : option string) (lon lat alt : option R) : merr + pointds :=
  match first_of id (rd_id d) with
  | None => inl TypeErr
  | Some i =>
    match first_of lon (rd_lon d), first_of lat (rd_lat d), first_of alt (rd_alt d) with
    | Some lo, Some la, Some al =>
        let nm := match first_of name (rd_name d) with Some n => n | None => i end in
        match convert_vars d meteo_units with
        | inl e => inl e
        | inr vs => inr (PD i nm lo la al (rd_times d) vs)
        end
    | _, _, _ => inl TypeErr
    end
  end.
(** meteo.py:189-193: renaming of NetCDF variables *)
Definition rename_netcdf (d : rawdata) : rawdata :=
  RD (rd_times d) (map (fun nv => (match assoc (fst nv) netcdf_names with Some n => n | None => fst nv end, snd nv)) (rd_vars d))
     (rd_id d) (rd_name d) (rd_lon d) (rd_lat d) (rd_alt d).

(** * Combination of stations *)
(** A dataset of several stations: time axis, stations, and values by variable, station and time *)
Record multids := MD {
  md_times : list Z; md_stations : list (string * string); md_vars : list string;
  md_vals : string -> nat -> Z -> num }.
(** Insertion into a sorted list without duplicates *)
Fixpoint insert (t : Z) (l : list Z) : list Z :=
  match l with
  | [] => [t]
  | x :: r => if (t <? x)%Z then t :: l else if (t =? x)%Z then l else x :: insert t r
  end.
(** Outer join of the time axes *)
Definition union_times (l : list (list Z)) : list Z := fold_right insert [] (List.concat l).
(** Value of a series at a time; NaN if there is none (reindexing of the outer join) *)
Fixpoint at_time (times : list Z) (vals : list num) (t : Z) : num :=
  match times, vals with
  | x :: ts, v :: vs => if (x =? t)%Z then v else at_time ts vs t
  | _, _ => None
  end.
(** forcing.py:228-276 combine_point_datasets *)
Definition combine (add_minimum : bool) (l : list pointds) : multids :=
  let names := filter (fun n => (add_minimum && mem n minimum_vars) || existsb (fun d => mem n (map fst (pd_vars d))) l)
                      (map fst meteo_units) in
  MD (union_times (map pd_times l)) (map (fun d => (pd_id d, pd_name d)) l) names
     (fun n k t => match nth_error l k with
                   | None => None
                   | Some d => if mem n names
                               then match assoc n (pd_vars d) with Some s => at_time (pd_times d) s t | None => None end
                               else None
                   end).

(** * Filtering and resampling of a whole station *)
Definition zip_times (times : list Z) (vals : list num) : timed := List.combine times vals.
Definition kind_of (name : string) : rkind :=
  if String.eqb name "precip" then RPrecip else if String.eqb name "wind_speed_gust" then RGust else ROther.
(** meteo.py:253-282: the filters of one variable in the order given; None: NotImplementedError *)
Fixpoint filter_series (name : string) (fs : list (string * rfilter)) (s : list num) : option (list num) :=
  match fs with
  | [] => Some s
  | (n, f) :: t => if String.eqb n name
                   then match apply_filter s f with Some s' => filter_series name t s' | None => None end
                   else filter_series name t s
  end.
Fixpoint filter_vars (fs : list (string * rfilter)) (vs : list (string * list num)) : option (list (string * list num)) :=
  match vs with
  | [] => Some []
  | (n, s) :: t => match filter_series n fs s, filter_vars fs t with
                   | Some s', Some t' => Some ((n, s') :: t')
                   | _, _ => None
                   end
  end.
(** meteo.py:634-644: wind components; a missing speed or direction gives missing components *)
Fixpoint components (ws wd : list num) : list (num * num) :=
  match ws, wd with
  | s :: ss, d :: ds => (match s, d with
                         | Some s, Some d => let '(u, v) := wind_to_uv s d in (Some u, Some v)
                         | _, _ => (None, None)
                         end) :: components ss ds
  | _, _ => []
  end.
(** meteo.py:647: direction of the averaged components *)
Definition direction (u v : num) : num :=
  match u, v with Some u, Some v => Some (snd (wind_from_uv u v)) | _, _ => None end.
(** Settings of the resampling: inferred interval of the data and whether it is named as the requested one (see
    slice_and_resample), requested interval, period, aggregation *)
Record rsettings := RS { rs_inferred : option Z; rs_same : bool; rs_freq : Z; rs_start : Z; rs_stop : Z; rs_aggregate : bool }.
Definition resampled (k : rkind) (r : rsettings) (times : list Z) (vals : list num) : option timed :=
  slice_and_resample k (rs_inferred r) (rs_same r) (rs_freq r) (rs_start r) (rs_stop r) (rs_aggregate r) (zip_times times vals).
Definition values_or_nil (o : option timed) : list num := match o with Some l => map snd l | None => [] end.
(** meteo.py:316-333,399-408: are values averaged? *)
Definition averages (r : rsettings) : bool :=
  match rs_inferred r with
  | None => false
  | Some i => negb (rs_same r) && (((rs_freq r =? DAY) && (i <? DAY))%Z || rs_aggregate r)
  end.
(** Values of one variable *)
Definition resampled_var (r : rsettings) (d : pointds) (name : string) (vals : list num) : list num :=
  if String.eqb name "wind_dir" && averages r then
    let ws := match assoc "wind_speed" (pd_vars d) with Some s => s | None => map (fun _ => None) vals end in
    let c := components ws vals in
    map (fun uv => direction (fst uv) (snd uv))
        (List.combine (values_or_nil (resampled ROther r (pd_times d) (map fst c)))
                      (values_or_nil (resampled ROther r (pd_times d) (map snd c))))
  else values_or_nil (resampled (kind_of name) r (pd_times d) vals).
(** meteo.py:119-131 for one station: filters, then slicing and resampling. None: an error. *)
Definition process_station (fs : list (string * rfilter)) (r : rsettings) (d : pointds) : option pointds :=
  match filter_vars fs (pd_vars d) with
  | None => None
  | Some vs =>
      let d1 := PD (pd_id d) (pd_name d) (pd_lon d) (pd_lat d) (pd_alt d) (pd_times d) vs in
      match resampled ROther r (pd_times d) (map (fun _ => None) (pd_times d)) with
      | None => None
      | Some rows => Some (PD (pd_id d) (pd_name d) (pd_lon d) (pd_lat d) (pd_alt d) (map fst rows)
                              (map (fun nv => (fst nv, resampled_var r d1 (fst nv) (snd nv))) vs))
      end
  end.

(** * Reading all stations *)
(** [process] is [process_station]; every error is reported as MeteoDataError. *)
Section Read.
  Variable process : pointds -> option pointds.
  Fixpoint process_all (l : list pointds) : merr + list pointds :=
    match l with
    | [] => inr []
    | d :: t => match process d with
                | None => inl MeteoDataError
                | Some d' => match process_all t with
                            | inl e => inl e
                            | inr r => inr (match pd_times d' with [] => r | _ => d' :: r end)
                            end
                end
    end.
  (** reindex(time=dates) *)
  Definition reindex (m : multids) (dates : list Z) : multids :=
    MD dates (md_stations m) (md_vars m)
       (fun n k t => if existsb (Z.eqb t) (md_times m) then md_vals m n k t else None).
  (** meteo.py:96-164, after the selection of the stations *)
  Definition read_meteo (stations : list pointds) (start stop f : Z) (raise_on_missing : bool) : merr + multids :=
    match stations with
    | [] => inl MeteoDataError
    | _ =>
      match process_all stations with
      | inl e => inl e
      | inr [] => if raise_on_missing then inl MeteoDataError
                  else inr (MD (date_range start stop f) [] minimum_vars (fun _ _ _ => None))
      | inr ds =>
          let m := combine true ds in
          let first := hd 0%Z (md_times m) in
          let last := List.last (md_times m) 0%Z in
          if (start <? first)%Z || (last <? stop)%Z
          then if raise_on_missing then inl MeteoDataError else inr (reindex m (date_range start stop f))
          else inr m
      end
    end.
End Read.

(** * forcing.py:376-391 is_valid_point_dataset *)
Definition metadata_vars : list string := ["station_name"; "lon"; "lat"; "alt"].
Fixpoint zlist_eqb (a b : list Z) : bool :=
  match a, b with
  | [], [] => true
  | x :: a', y :: b' => (x =? y)%Z && zlist_eqb a' b'
  | _, _ => false
  end.
(** dims, names of the variables, times; dates to be compared *)
Definition is_valid (dims vars : list string) (times : list Z) (dates : option (list Z)) : bool :=
  forallb (fun d => mem d ["station"; "time"]) dims && forallb (fun d => mem d dims) ["station"; "time"]
  && forallb (fun v => mem v vars) (metadata_vars ++ minimum_vars)
  && match dates with Some l => zlist_eqb l times | None => true end.
