(** Model of the configuration, datasets and raster files of gridded outputs (fileio/griddedoutput.py). Aggregation and
    write dates are modelled in OutputModel, the positions of pixels in MaskModel. Descriptive attributes, compression, the
    encoding of times and the memory warning are not modelled. *)
From Verif Require Import Common TimeModel.
From Verif Require OutputModel.
From Verif Require Export PointConfigModel.
Open Scope string_scope.

(** * Fields *)
(** An entry of the configuration. [fc_dates]: the dates given there, or those of the frequency (_freq_write_dates) *)
Record fieldcfg := FC { fc_var : string; fc_name : option string; fc_agg : OutputModel.agg; fc_dates : list Z }.
(** griddedoutput.py:33-66 OutputField, without the running aggregates *)
Record ofield := OF { of_var : string; of_name : string; of_agg : OutputModel.agg; of_dates : list Z }.
Inductive gformat := GNetcdf | GMemory | GAscii | GGeotiff.
Inductive glayout := LGrid | LRoiPixel.
(** 86-131; [start] and [stop] are the first and last model date *)
Fixpoint create_fields (start stop : Z) (cfg : list fieldcfg) (fields : list ofield) : perr + list ofield :=
  match cfg with
  | [] => inr fields
  | c :: cfg' =>
      match OutputModel.keep_write_dates start stop (fc_dates c) with
      | [] => create_fields start stop cfg' fields
      | wd =>
          let name := match fc_name c with Some n => n | None => last_part (fc_var c) end in
          if existsb (String.eqb name) (map of_name fields) then inl ConfigurationError
          else create_fields start stop cfg' (fields ++ [OF (fc_var c) name (fc_agg c) wd])%list
      end
  end.
(** 84-143 __init__ *)
Definition gridded_output (start stop : Z) (format : gformat) (layout : glayout) (cfg : list fieldcfg) : perr + list ofield :=
  match create_fields start stop cfg [] with
  | inl e => inl e
  | inr fields =>
      match layout, format with
      | LRoiPixel, (GAscii | GGeotiff) => inl ConfigurationError
      | _, _ => inr fields
      end
  end.

(** * Time variables *)
Definition is_inst (a : OutputModel.agg) : bool := match a with OutputModel.NoAgg => true | _ => false end.
(** 69-70 _field_key *)
Definition tkey := (list Z * bool)%type.
Definition field_key (f : ofield) : tkey := (of_dates f, is_inst (of_agg f)).
Definition tkey_dec : forall a b : tkey, {a = b} + {a <> b}.
Proof. decide equality; [apply bool_dec|apply (list_eq_dec Z.eq_dec)]. Defined.
(** 360-366: the distinct keys in order of appearance; key k (from 0) is named time{k + 1} *)
Definition time_keys (fields : list ofield) : list tkey :=
  fold_left (fun ks f => if in_dec tkey_dec (field_key f) ks then ks else (ks ++ [field_key f])%list) fields [].
Fixpoint key_index (k : tkey) (ks : list tkey) : nat :=
  match ks with [] => 0 | x :: ks' => if tkey_dec x k then 0 else S (key_index k ks') end.
(** 368-370, 376-377 *)
Definition time_var (fields : list ofield) (f : ofield) : string :=
  let ks := time_keys fields in
  if (List.length ks =? 1)%nat then "time" else "time" ++ dec (key_index (field_key f) ks + 1).
(** 372-391: values and bounds of the time variables *)
Definition time_coords (start : Z) (fields : list ofield) : dict (list Z * option (list (Z * Z))) :=
  fold_left (fun d f => match dget d (time_var fields f) with
                        | Some _ => d
                        | None => dset d (time_var fields f)
                                    (of_dates f, if is_inst (of_agg f) then None else Some (OutputModel.time_bounds start (of_dates f)))
                        end) fields [].
(** 399-416: names of the time coordinate variables of the dataset *)
Definition time_coord_names (start : Z) (fields : list ofield) : list string :=
  flat_map (fun e => match snd (snd e) with Some _ => [fst e ++ "_bounds"; fst e] | None => [fst e] end) (time_coords start fields).

(** * Dimensions *)
(** 488-556: dimensions of a data variable and their sizes; [cat] is the category and [dim3] the number of layers *)
Definition var_dims (layout : glayout) (rows cols npix : nat) (tv : string) (ntimes : nat) (cat : string) (dim3 : nat) : list (string * nat) :=
  (tv, ntimes) ::
  ((match dim3 with O => [] | _ => [(layer_coord cat, dim3)] end)
   ++ (match layout with LGrid => [("y", rows); ("x", cols)] | LRoiPixel => [("pixel", npix)] end))%list.
(** 412-446, 558-560: dimension coordinates of the dataset *)
Definition dim_coords (layout : glayout) (rows cols npix : nat) (times : dict (list Z * option (list (Z * Z)))) (layers : dict nat) : list (string * nat) :=
  (map (fun e => (fst e, List.length (fst (snd e)))) times
   ++ (match layout with LGrid => [("x", cols); ("y", rows)] | LRoiPixel => [("pixel", npix)] end)
   ++ layers)%list.

(** * Data types *)
Inductive odtype := Int32 | Float32.
(** 594-619 _field_dtype_and_fill_value *)
Definition field_dtype (d : dtype) (a : OutputModel.agg) : odtype :=
  match d, a with
  | TInt, OutputModel.Mean => Float32
  | TInt, _ => Int32
  | _, _ => Float32
  end.
Definition fill_value (t : odtype) : cell := match t with Int32 => CInt (-2147483648) | Float32 => CFloat None end.
(** 205-243: value of a pixel outside the region of interest when a field is written; [c] is the value in the state *)
Definition outside_value (d : dtype) (a : OutputModel.agg) (c : cell) : cell :=
  match a with OutputModel.NoAgg => c | _ => fill_value (field_dtype d a) end.

(** * Raster files *)
(** f"{t:%Y-%m-%dT%H%M}" for years 1000 to 9999 *)
Definition digit_char (n : Z) : ascii := ascii_of_nat (48 + Z.to_nat (n mod 10)).
Definition pad2 (n : Z) : string := String (digit_char (n / 10)) (String (digit_char n) "").
Definition pad4 (n : Z) : string := pad2 (n / 100) ++ pad2 n.
Definition stamp (t : Z) : string :=
  let d := date_of t in
  pad4 (year d) ++ "-" ++ pad2 (month d) ++ "-" ++ pad2 (day d) ++ "T" ++ pad2 (t mod DAY / 3600) ++ pad2 (t mod 3600 / 60).
(** 279-291; [i] is the position of the date in the write dates *)
Definition date_str (start step : Z) (f : ofield) (i : nat) (date : Z) : string :=
  if is_inst (of_agg f) then stamp date
  else match OutputModel.file_interval start step (of_dates f) i with
       | Some (s, _) => stamp s ++ "_" ++ stamp date
       | None => ""
       end.
(** 264-270 *)
Definition extension (format : gformat) : string := match format with GAscii => "asc" | _ => "tif" end.
(** 293-319: the files of a field with [dim3] layers at one date, with the layer they hold *)
Definition field_files (start step : Z) (format : gformat) (f : ofield) (dim3 i : nat) (date : Z) : list (string * nat) :=
  let str := date_str start step f i date in
  match dim3 with
  | O => [(of_name f ++ "_" ++ str ++ "." ++ extension format, 0%nat)]
  | n => map (fun l => (of_name f ++ "_" ++ dec l ++ "_" ++ str ++ "." ++ extension format, l)) (seq 0 n)
  end.
(** What a file holds: output name of the field, layer, date *)
Definition content := (string * nat * Z)%type.
(** 197-319: all files written at one time step *)
Definition step_files (start step : Z) (format : gformat) (dim3 : ofield -> nat) (fields : list ofield) (date : Z) : list (string * content) :=
  flat_map (fun f => match OutputModel.first_index date (of_dates f) with
                     | None => []
                     | Some i => map (fun e => (fst e, (of_name f, snd e, date))) (field_files start step format f (dim3 f) i date)
                     end) fields.
(** The results directory at the end of the run: later files replace earlier files of the same name. *)
Definition results_dir (start step : Z) (format : gformat) (dim3 : ofield -> nat) (fields : list ofield) (dates : list Z) : dict content :=
  fold_left (fun d w => dset d (fst w) (snd w)) (flat_map (step_files start step format dim3 fields) dates) [].
