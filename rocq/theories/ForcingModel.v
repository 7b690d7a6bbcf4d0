(** Model of the preparation of station data (fileio/meteo.py), util.normalize_array, the merging of
    land cover parameters and the cross-field configuration checks (conf.py). *)
From Verif Require Import TimeModel Constants Common.
Open Scope R_scope.

(** * Station selection *)
Record station := ST { st_id : nat; st_x : num; st_y : num }.
Definition num_ge (x : num) (b : R) : bool := match x with Some a => if Rle_dec b a then true else false | None => false end.
Definition num_lt (x : num) (b : R) : bool := match x with Some a => if Rlt_dec a b then true else false | None => false end.
Definition num_gt (x : num) (b : R) : bool := match x with Some a => if Rlt_dec b a then true else false | None => false end.
Record bbox := BB { x_min : R; y_min : R; x_max : R; y_max : R }.
(** meteo.py:591-596 *)
Definition in_bounds (b : bbox) (s : station) : bool :=
  num_ge (st_x s) (x_min b) && num_ge (st_y s) (y_min b) && num_lt (st_x s) (x_max b) && num_lt (st_y s) (y_max b).
(** 613: meta[~meta.index.duplicated(keep="first")] *)
Fixpoint dedup (seen : list nat) (l : list station) : list station :=
  match l with
  | [] => []
  | s :: t => if existsb (Nat.eqb (st_id s)) seen then dedup seen t else s :: dedup (st_id s :: seen) t
  end.
(** 602-611: meta_all.loc[[id]] are all rows with that ID; a missing ID is an error *)
Fixpoint add_included (all meta : list station) (include : list nat) : option (list station) :=
  match include with
  | [] => Some meta
  | i :: t => match filter (fun s => st_id s =? i)%nat all with
              | [] => None
              | found => add_included all (meta ++ found) t
              end
  end.
(** 561-614 _apply_station_rules; None: MeteoDataError *)
Definition apply_station_rules (meta : list station) (bounds : option bbox) (exclude include : option (list nat))
  : option (list station) :=
  let m1 := match bounds with Some b => filter (in_bounds b) meta | None => meta end in
  let m2 := match exclude with
            | Some ex => filter (fun s => negb (existsb (Nat.eqb (st_id s)) ex)) m1
            | None => m1
            end in
  match (match include with Some inc => add_included meta m2 inc | None => Some m2 end) with
  | Some m3 => Some (dedup [] m3)
  | None => None
  end.

(** * Range filters *)
(** A filter: variable, kind ("range" or another), and finite minimum and maximum if given *)
Record rfilter := RF { rf_var : nat; rf_range : bool; rf_min : option R; rf_max : option R }.
Definition series := list num.
(** 267-282 _apply_filter; None: NotImplementedError *)
Definition apply_filter (data : series) (f : rfilter) : option series :=
  if rf_range f then
    let d1 := match rf_min f with
              | Some lo => map (fun v => if num_lt v lo then None else v) data
              | None => data
              end in
    Some (match rf_max f with
          | Some hi => map (fun v => if num_gt v hi then None else v) d1
          | None => d1
          end)
  else None.
(** A data set maps variable names to series. *)
Definition dset := list (nat * series).
Fixpoint lookup {A} (k : nat) (d : list (nat * A)) : option A :=
  match d with [] => None | (k', v) :: t => if (k' =? k)%nat then Some v else lookup k t end.
Fixpoint assign {A} (k : nat) (v : A) (d : list (nat * A)) : list (nat * A) :=
  match d with
  | [] => [(k, v)]
  | (k', v') :: t => if (k' =? k)%nat then (k', v) :: t else (k', v') :: assign k v t
  end.
(** 253-264 _apply_filters *)
Fixpoint apply_filters (ds : dset) (fs : list rfilter) : option dset :=
  match fs with
  | [] => Some ds
  | f :: t => match lookup (rf_var f) ds with
              | None => apply_filters ds t
              | Some s => match apply_filter s f with
                          | Some s' => apply_filters (assign (rf_var f) s' ds) t
                          | None => None
                          end
              end
  end.

(** * Resampling of precipitation *)
(** meteo.py:428: Series.sum(skipna=False) *)
Fixpoint num_sum (l : list num) : num := match l with [] => Some 0 | x :: t => numplus x (num_sum t) end.
Definition timed := list (Z * num).
Open Scope Z_scope.
(** meteo.py:375-388: one bin (closed on the right) starting at [lo] *)
Definition bin (f lo : Z) (data : timed) : list num :=
  map snd (filter (fun r => (lo <? fst r) && (fst r <=? lo + f)) data).
(** meteo.py:403: mean of the available values of a bin (pandas mean, NaN skipped) *)
Fixpoint available (l : list num) : list R := match l with [] => [] | Some x :: t => x :: available t | None :: t => available t end.
Definition num_mean (l : list num) : num :=
  match available l with [] => None | v => Some (sumR v / INR (length v))%R end.
(** meteo.py:375-388: start of the bin containing time t, bins being (origin + k f, origin + (k+1) f] *)
Definition bin_start (f origin t : Z) : Z := origin + ((t - origin - 1) / f) * f.
Fixpoint bin_starts (n : nat) (lo f : Z) : list Z := match n with O => [] | S k => lo :: bin_starts k (lo + f) f end.
(** meteo.py:403,423: the bins of a regular resampling which covers the data from [first] to [last], by their labels: the
    right end ([right]) or the left end of each bin *)
Definition bin_labels (f origin : Z) (right : bool) (first last : Z) : list Z :=
  let lo := bin_start f origin first in
  map (fun b => if right then b + f else b)
      (bin_starts (Z.to_nat ((bin_start f origin last - lo) / f + 1)) lo f).
(** 394-418: the rows of the result. Left-over bins are cut off; without aggregation the rows are the
    requested dates within the period of the data. None: IndexError (no bins left). *)
Definition row_labels (f origin : Z) (right aggregate : bool) (start stop first last : Z) : option (list Z) :=
  if aggregate then
    match filter (fun L => (start <=? L) && (L <=? stop)) (bin_labels f origin right first last) with
    | [] => None
    | L :: t => Some (if L <? first then t else L :: t)
    end
  else Some (filter (fun L => (first <=? L) && (L <=? last)) (date_range start stop f)).
(** Precipitation is summed, for wind gusts the maximum is taken, everything else is averaged or sampled.
    (For wind directions see DatasetModel.) *)
Inductive rkind := RPrecip | RGust | ROther.
Definition max2 (x y : num) : num :=
  match x, y with Some a, Some b => Some (Rmax a b) | Some a, None => Some a | None, m => m end.
(** meteo.py:438: maximum of a bin, NaN skipped *)
Fixpoint num_max (l : list num) : num := match l with [] => None | x :: t => max2 x (num_max t) end.
(** meteo.py:413-420 reindex: the record at time t *)
Definition value_at (t : Z) (data : timed) : num :=
  match filter (fun r => fst r =? t) data with (_, v) :: _ => v | [] => None end.
(** meteo.py:403-445: value of the row with label L; sums and maxima are NaN for a row which is no bin (reindex) *)
Definition row_value (k : rkind) (f origin : Z) (right aggregate : bool) (first last : Z) (data : timed) (L : Z) : num :=
  let vals := bin f (if right then L - f else L) data in
  let is_bin := existsb (Z.eqb L) (bin_labels f origin right first last) in
  match k with
  | RPrecip => if is_bin then num_sum vals else None
  | RGust => if is_bin then num_max vals else None
  | ROther => if aggregate then num_mean vals else value_at L data
  end.
(** 343-459 _resample_dataset for one variable, the data being sorted by time. None: MeteoDataError or IndexError. *)
Definition resample (k : rkind) (f start stop : Z) (aggregate : bool) (data : timed) : option timed :=
  if DAY <? f then None
  else
    match data with
    | [] => Some []
    | r0 :: _ =>
        let first := fst r0 in
        let last := fst (List.last data r0) in
        let right := f <? DAY in
        let origin := if right then start else first in
        match row_labels f origin right aggregate start stop first last with
        | None => None
        | Some ls =>
            if forallb (fun L => existsb (fun r => fst r =? L) data) ls
            then Some (map (fun L => (L, row_value k f origin right aggregate first last data L)) ls)
            else None
        end
    end.
(** Dataset.sel(time=slice(a, b)) *)
Definition sel (a b : Z) (data : timed) : timed := filter (fun r => (a <=? fst r) && (fst r <=? b)) data.
(** 285-340 _slice_and_resample_dataset: [inferred] is the inferred interval of the data, [same_name] tells
    whether its name equals the one of the requested frequency. pd.to_timedelta(None) < td_1d fails. *)
Definition slice_and_resample (k : rkind) (inferred : option Z) (same_name : bool) (f start stop : Z) (aggregate : bool)
    (data : timed) : option timed :=
  match inferred with
  | None => if (2 <? length data)%nat then None
            else if f =? DAY then None
            else Some (sel start stop data)
  | Some i =>
      let daily := (f =? DAY) && (i <? DAY) in
      let aggregate := daily || aggregate in
      let stop := if daily then (stop + DAY) / DAY * DAY else stop in
      match (if same_name then Some data else resample k f start stop aggregate (sel (start - DAY) stop data)) with
      | Some d => Some (sel start stop d)
      | None => None
      end
  end.
(** forcing.py:123-132: precipitation rates (kg m-2 s-1) become sums over the time step *)
Definition rate_to_sum (dt : R) (data : series) : series := map (numscale dt) data.
Open Scope R_scope.

(** * util.py:360-384 normalize_array *)
Fixpoint nanmin (l : series) : num :=
  match l with
  | [] => None
  | x :: t => match x, nanmin t with Some a, Some b => Some (Rmin a b) | Some a, None => Some a | None, m => m end
  end.
Fixpoint nanmax (l : series) : num :=
  match l with
  | [] => None
  | x :: t => match x, nanmax t with Some a, Some b => Some (Rmax a b) | Some a, None => Some a | None, m => m end
  end.
(** A zero data range gives an infinite factor times zero, i.e. NaN. *)
Definition normalize_array (data : series) (lo hi : R) : series :=
  match nanmin data, nanmax data with
  | Some dmin, Some dmax =>
      if Req_EM_T (dmax - dmin) 0 then map (fun _ => None) data
      else map (fun x => match x with Some v => Some (lo + (hi - lo) / (dmax - dmin) * (v - dmin)) | None => None end) data
  | _, _ => map (fun _ => None) data
  end.

(** * conf.py:180-210 _merge_land_cover_params *)
(** A parameter is a plain value or a dictionary (leaf_area_index). *)
Inductive pval := PNum (r : R) | PDict (d : list (nat * R)).
Definition params := list (nat * pval).
Definition merge_class (base user : params) : params := fold_left (fun m kv => assign (fst kv) (snd kv) m) user base.
Definition merge_land_cover (defaults user : list (nat * params)) : list (nat * params) :=
  fold_left (fun m cp => match lookup (fst cp) m with
                         | Some base => assign (fst cp) (merge_class base (snd cp)) m
                         | None => assign (fst cp) (snd cp) m
                         end) user defaults.

(** * conf.py:213-333 validate_config *)
Inductive snow_model := Multilayer | Cryolayers.
Inductive melt_method := EnergyBalance | TemperatureIndex | EnhancedTemperatureIndex.
Inductive albedo_method := SnowAge | Usaco | Fsm.
Record albedo_cfg := AC {
  ac_method : albedo_method; ac_k_neg : R; ac_k_pos : R; ac_significant_snowfall : R;
  ac_cold_timescale : R; ac_melting_timescale : R; ac_temp_is_air : bool; ac_refresh_snowfall : R; ac_binary : bool }.
Record cfg := CFG {
  c_start : Z; c_end : Z; c_timestep : Z;
  c_crs_geographic : bool;                 (* pyproj.CRS(crs).is_geographic *)
  c_write_freq : option Z;                 (* None: not a fixed duration ("ME") *)
  c_snow : snow_model; c_melt : melt_method; c_ddf : option R; c_albedo_factor : option R;
  c_threshold : R;
  c_albedo : albedo_cfg;
  c_glaciers : bool; c_delta_h : bool }.
Inductive cerr := EndBeforeStart | DatesTimestep | GeographicCrs | WriteFreq | MeltMethod | MissingDdf
                | MissingAlbedoFactor | GlacierModel | ZeroDivision.
Definition set_threshold (c : cfg) (t : R) : cfg :=
  CFG (c_start c) (c_end c) (c_timestep c) (c_crs_geographic c) (c_write_freq c) (c_snow c) (c_melt c) (c_ddf c)
      (c_albedo_factor c) t (c_albedo c) (c_glaciers c) (c_delta_h c).
Definition set_albedo (c : cfg) (a : albedo_cfg) : cfg :=
  CFG (c_start c) (c_end c) (c_timestep c) (c_crs_geographic c) (c_write_freq c) (c_snow c) (c_melt c) (c_ddf c)
      (c_albedo_factor c) (c_threshold c) a (c_glaciers c) (c_delta_h c).
(** 293-317: deprecated albedo methods *)
Definition convert_albedo (a : albedo_cfg) : cerr + albedo_cfg :=
  match ac_method a with
  | Usaco =>
      if Req_EM_T (ac_k_neg a) 0 then inl ZeroDivision
      else if Req_EM_T (ac_k_pos a) 0 then inl ZeroDivision
      else inr (AC SnowAge (ac_k_neg a) (ac_k_pos a) (ac_significant_snowfall a)
                   (1 / ac_k_neg a * 24) (1 / ac_k_pos a * 24) true (ac_significant_snowfall a) true)
  | Fsm => inr (AC SnowAge (ac_k_neg a) (ac_k_pos a) (ac_significant_snowfall a)
                   (ac_cold_timescale a) (ac_melting_timescale a) false (ac_refresh_snowfall a) false)
  | SnowAge => inr a
  end.
Definition validate_config (c : cfg) : cerr + cfg :=
  if (c_end c <? c_start c)%Z then inl EndBeforeStart
  else if negb (dates_accepted (c_start c) (c_end c) (c_timestep c)) then inl DatesTimestep
  else if c_crs_geographic c then inl GeographicCrs
  else if (DAY <? c_timestep c)%Z
          && match c_write_freq c with Some w => negb (w mod c_timestep c =? 0)%Z | None => true end
  then inl WriteFreq
  else if match c_snow c, c_melt c with Multilayer, EnergyBalance => false | Multilayer, _ => true | _, _ => false end
  then inl MeltMethod
  else match (match c_melt c with
              | TemperatureIndex => match c_ddf c with None => Some MissingDdf | Some _ => None end
              | EnhancedTemperatureIndex =>
                  match c_ddf c with
                  | None => Some MissingDdf
                  | Some _ => match c_albedo_factor c with None => Some MissingAlbedoFactor | Some _ => None end
                  end
              | EnergyBalance => None
              end) with
       | Some e => inl e
       | None =>
           let c1 := if Rlt_dec (Rabs (c_threshold c)) 20 then set_threshold c (c_threshold c + T0) else c in
           match convert_albedo (c_albedo c1) with
           | inl e => inl e
           | inr a =>
               let c2 := set_albedo c1 a in
               if c_glaciers c2 && c_delta_h c2 && match c_snow c2 with Cryolayers => false | _ => true end
               then inl GlacierModel
               else inr c2
           end
       end.
