(** Model of the output managers: fileio/pointoutput.py (chunks and write dates) and
    fileio/griddedoutput.py (aggregation and write dates). *)
From Verif Require Import TimeModel TimeProofs Common.
Open Scope Z_scope.

(** * Point output *)
(** One row per date holds the values of all variables at all points ([V]); [None] is the fill value. *)
Inductive fmt := Netcdf | Csv | Memory.
Inductive exn := FileNotFound | IndexErr.
Section Point.
Context {V : Type}.
Variable format : fmt.
Variable dates : list Z.
Variable write_dates : list Z.
Definition dataset := list (Z * option V).
(** self.data and the contents of the output file ([None]: no file) *)
Record pstate := PS { p_data : option dataset; p_file : option dataset }.
(** pointoutput.py:345-370 _current_chunk_dates *)
Definition current_chunk (date : Z) : exn + list Z :=
  match format with
  | Memory => inr dates
  | _ =>
      match filter (fun w => date <=? w) write_dates with
      | [] => inl IndexErr
      | next :: _ =>
          match rev (filter (fun w => w <? date) write_dates) with
          | [] => inr (filter (fun d => d <=? next) dates)
          | prev :: _ => inr (filter (fun d => (prev <? d) && (d <=? next)) dates)
          end
      end
  end.
(** Writing at the position found by np.argmax(time == date): the first match, or 0 if there is none. *)
Fixpoint put (ds : dataset) (date : Z) (v : V) : option dataset :=
  match ds with
  | [] => None
  | (d, x) :: ds' => if d =? date then Some ((d, Some v) :: ds')
                     else option_map (cons (d, x)) (put ds' date v)
  end.
Definition put_row (ds : dataset) (date : Z) (v : V) : exn + dataset :=
  match put ds date v with
  | Some ds' => inr ds'
  | None => match ds with [] => inl IndexErr | (d, _) :: ds' => inr ((d, Some v) :: ds') end
  end.
(** 372-461 update. The file is written when the last date of the chunk is reached; it is overwritten
    if that date is the first write date and extended otherwise (netCDF: the file must exist; CSV:
    created on demand). *)
Definition point_update (s : pstate) (date : Z) (v : V) : exn + pstate :=
  match (match p_data s with
         | Some ds => inr ds
         | None => match current_chunk date with
                   | inl e => inl e
                   | inr c => inr (map (fun d => (d, None)) c)
                   end
         end) with
  | inl e => inl e
  | inr ds =>
      match put_row ds date v with
      | inl e => inl e
      | inr ds' =>
          let at_end := match format with
                        | Memory => false
                        | _ => match rev ds' with (d, _) :: _ => date =? d | [] => false end
                        end in
          if at_end then
            if match write_dates with w :: _ => date =? w | [] => false end
            then inr (PS None (Some ds'))
            else match format, p_file s with
                 | Netcdf, None => inl FileNotFound
                 | _, None => inr (PS None (Some ds'))
                 | _, Some old => inr (PS None (Some (old ++ ds')))
                 end
          else inr (PS (Some ds') (p_file s))
      end
  end.
Fixpoint point_run (s : pstate) (rows : list (Z * V)) : exn + pstate :=
  match rows with
  | [] => inr s
  | (d, v) :: rows' => match point_update s d v with inl e => inl e | inr s' => point_run s' rows' end
  end.
End Point.
Arguments pstate : clear implicits. Arguments PS {V}. Arguments p_data {V}. Arguments p_file {V}.
(** 144-160: write dates; [freq_dates] is pd.date_range(start, end, freq=write_freq) *)
Definition point_write_dates (freq_dates : list Z) (start stop : Z) : list Z :=
  let w := filter (fun d => (start <=? d) && (d <=? stop)) freq_dates in
  if existsb (Z.eqb stop) w then w else w ++ [stop].

(** * Gridded output *)
Open Scope R_scope.
Inductive agg := NoAgg | Sum | Mean.
(** One pixel of an aggregated field: [f_data] is None before the first step of an interval. *)
Record field := FD { f_data : option num; f_num : nat }.
Definition numsub (x y : num) : num := match x, y with Some a, Some b => Some (a - b) | _, _ => None end.
(** griddedoutput.py:205-235: aggregation of the current value of a pixel within the ROI *)
Definition accumulate (a : agg) (f : field) (cur : num) : field :=
  let old := match f_data f with Some x => x | None => Some 0 end in
  match a with
  | NoAgg => f
  | Sum => FD (Some (numplus old cur)) (S (f_num f))
  | Mean => FD (Some (numplus old (numscale (/ INR (f_num f + 1)) (numsub cur old)))) (S (f_num f))
  end.
(** np.flatnonzero(write_dates == date)[0] *)
Fixpoint first_index (date : Z) (l : list Z) : option nat :=
  match l with
  | [] => None
  | w :: t => if (w =? date)%Z then Some O else option_map S (first_index date t)
  end.
(** 205-338: one time step for one pixel; returns the value written and its time index, if any. Pixels
    outside the ROI keep the fill value (NaN). *)
Definition grid_update (a : agg) (write_dates : list Z) (in_roi : bool) (f : field) (date : Z) (cur : num)
  : field * option (nat * num) :=
  let f1 := match a with
            | NoAgg => f
            | _ => if in_roi then accumulate a f cur else FD (Some None) (S (f_num f))
            end in
  match first_index date write_dates with
  | None => (f1, None)
  | Some i =>
      let data := match a with NoAgg => cur | _ => match f_data f1 with Some x => x | None => None end end in
      (FD None 0, Some (i, data))
  end.
Fixpoint grid_run (a : agg) (write_dates : list Z) (in_roi : bool) (f : field) (rows : list (Z * num))
  : field * list (nat * num) :=
  match rows with
  | [] => (f, [])
  | (d, v) :: rows' =>
      let (f1, o) := grid_update a write_dates in_roi f d v in
      let (f2, ws) := grid_run a write_dates in_roi f1 rows' in
      (f2, match o with Some w => w :: ws | None => ws end)
  end.
Open Scope Z_scope.
(** 622-758 _freq_write_dates for output frequencies given as a multiple of a fixed duration (not
    anchored to months or years); None: ValueError. *)
Definition freq_write_dates (start stop model_step out_step : Z) (aggregated : bool) : option (list Z) :=
  if out_step <? model_step then None
  else if negb (out_step mod model_step =? 0) then None
  else if aggregated then Some (date_range (start + out_step - model_step) stop out_step)
  else Some (date_range start stop out_step).
(** 380-387: time bounds of aggregated fields: (previous write date or model start, write date) *)
Fixpoint time_bounds (prev : Z) (write_dates : list Z) : list (Z * Z) :=
  match write_dates with [] => [] | w :: t => (prev, w) :: time_bounds w t end.
(** 281-292: the interval in the name of raster files of aggregated fields starts one step after the
    previous write date, or at the model start *)
Definition file_interval (start model_step : Z) (write_dates : list Z) (i : nat) : option (Z * Z) :=
  match nth_error write_dates i with
  | None => None
  | Some w => match i with
              | O => Some (start, w)
              | S j => option_map (fun p => (p + model_step, w)) (nth_error write_dates j)
              end
  end.
(** 109-118: dates outside the run are dropped; a field without dates is discarded *)
Definition keep_write_dates (start stop : Z) (wd : list Z) : list Z :=
  filter (fun w => (start <=? w) && (w <=? stop)) wd.

(** ** Months and years (anchored output frequencies MS, ME, YS, YE) *)
(** Month k is month (k mod 12 + 1) of year k / 12; a period is [p] months: 1 or 12. *)
Definition month_index (t : Z) : Z := 12 * year (date_of t) + month (date_of t) - 1.
Definition month_start (k : Z) : Z := DAY * (dby (k / 12) + dbm (k / 12) (k mod 12 + 1)).
Definition period_index (p t : Z) : Z := month_index t / p.
Definition period_start (p k : Z) : Z := month_start (p * k).
Definition zrange (a b : Z) : list Z := map (fun n => a + Z.of_nat n) (seq 0 (Z.to_nat (b - a + 1))).
(** 709-735: aggregated, anchored. pd.period_range(start, end).asfreq(model_freq, how="end") gives the
    last [base] unit (day, hour or minute, the unit of the time step) of each period.
    None: NotImplementedError (or IndexError for an empty model date list) *)
Definition anchored_agg_dates (p base start stop step : Z) : option (list Z) :=
  if DAY <? step then None
  else
    let ends := map (fun k => period_start p (k + 1) - base)
                    (zrange (period_index p start) (period_index p stop)) in
    match ends, rev (filter (fun d => d <=? hd 0 ends) (date_range start stop step)) with
    | e0 :: _, d0 :: _ =>
        let wd := map (fun e => e + (d0 - e0)) ends in
        let wd := if 24 * 3600 <? e0 - d0 then tl wd else wd in
        Some (match rev wd with
              | l :: r => if stop <? l then rev r else wd
              | [] => wd
              end)
    | _, _ => None
    end.
(** 742-758: instantaneous, anchored: pd.date_range keeps the time of day of the first model date;
    for ME and YE, one day minus one time step is added for sub-daily steps *)
Definition anchored_inst_dates (p start stop step : Z) (at_end : bool) : list Z :=
  let tod := start mod DAY in
  let day k := (if at_end then period_start p (k + 1) - DAY else period_start p k) + tod in
  let wd := filter (fun w => (start <=? w) && (w <=? stop))
                   (map day (zrange (period_index p start) (period_index p stop))) in
  if at_end && (step <? DAY) then map (fun w => w + (DAY - step)) wd else wd.
