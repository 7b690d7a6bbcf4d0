(** Model of the grid and its inputs: raster files (fileio/raster.py), grid coordinates (util.py ModelGrid), the
    input rasters and the region of interest (model.py _initialize_grid, _read_input_data, _read_extended_grids), and
    the positions of stations in the grid (forcing.py prepare_point_coordinates, model.py initialize).
    A raster is a function of row and column. Floating point is replaced by exact reals; pixel edges are exact. *)
From Verif Require Import Common MaskModel ForcingModel.
Open Scope R_scope.

(** rasterio.Affine(a, 0, c, 0, e, f); rotated rasters do not exist in the ASCII grid format. *)
Record affine := AF { af_a : R; af_e : R; af_x : R; af_y : R }.
(** A raster file: header and values, None for nodata pixels; [rf_nodata] is the raw value of such pixels. *)
Record raster (A : Type) := RST { r_rows : nat; r_cols : nat; r_tr : affine; r_val : nat -> nat -> option A; r_nodata : A }.
Arguments RST {A}. Arguments r_rows {A}. Arguments r_cols {A}. Arguments r_tr {A}. Arguments r_val {A}. Arguments r_nodata {A}.
(** raster.py:26-31 the metadata dictionary (without CRS) *)
Record rmeta := RM { m_rows : nat; m_cols : nat; m_res : R; m_tr : affine }.
Inductive gerr := RasterFileError | FileNotFound.
Definition req (x y : R) : bool := if Req_EM_T x y then true else false.
(** raster.py:34-36: res[0] == res[1] == abs(res[0]), with ds.res = (a, -e) *)
Definition read_metadata {A} (f : raster A) : gerr + rmeta :=
  let rx := af_a (r_tr f) in
  let ry := - af_e (r_tr f) in
  if req rx ry && req ry (Rabs rx) then inr (RM (r_rows f) (r_cols f) rx (r_tr f)) else inl RasterFileError.
Definition affine_eqb (s t : affine) : bool :=
  req (af_a s) (af_a t) && req (af_e s) (af_e t) && req (af_x s) (af_x t) && req (af_y s) (af_y t).
(** raster.py:81-86: comparison of rows, cols, resolution and transform *)
Definition meta_eqb (m n : rmeta) : bool :=
  (m_rows m =? m_rows n)%nat && (m_cols m =? m_cols n)%nat && req (m_res m) (m_res n) && affine_eqb (m_tr m) (m_tr n).
(** raster.py:50-104 read_raster_file: values with nodata pixels replaced by [fill] (raw value if no fill is given) *)
Definition read_raster {A} (check : option rmeta) (fill : option A) (f : raster A) : gerr + (nat -> nat -> A) :=
  let values := fun i j => match r_val f i j with
                           | Some v => v
                           | None => match fill with Some x => x | None => r_nodata f end
                           end in
  match check with
  | None => inr values
  | Some m => match read_metadata f with
              | inl e => inl e
              | inr n => if meta_eqb n m then inr values else inl RasterFileError
              end
  end.

(** * Grid coordinates *)
(** model.py:435-458 _initialize_grid. A missing DEM file raises an error of rasterio (here FileNotFound). *)
Definition initialize_grid (dem : option (raster num)) (config_res : R) : gerr + rmeta :=
  match dem with
  | None => inl FileNotFound
  | Some f => match read_metadata f with
              | inl e => inl e
              | inr m => if req (m_res m) config_res then inr m else inl RasterFileError
              end
  end.
(** util.py:232-235 *)
Definition grid_bounds (m : rmeta) : bbox :=
  let x0 := af_x (m_tr m) in
  let y1 := af_y (m_tr m) in
  BB x0 (y1 - INR (m_rows m) * m_res m) (x0 + INR (m_cols m) * m_res m) y1.
(** util.py:237-244: xs[j], ys[i] *)
Definition pixel_x (m : rmeta) (j : nat) : R := grid_x (af_x (m_tr m)) (m_res m) (m_cols m) j.
Definition pixel_y (m : rmeta) (i : nat) : R := grid_y (af_y (m_tr m)) (m_res m) (m_rows m) i.
(** X.flat, Y.flat of np.meshgrid: row-major order *)
Definition flatten {A} (rows cols : nat) (f : nat -> nat -> A) : list A :=
  flat_map (fun i => map (f i) (seq 0 cols)) (seq 0 rows).
Definition all_points (m : rmeta) : list (R * R) := flatten (m_rows m) (m_cols m) (fun i j => (pixel_x m j, pixel_y m i)).
(** util.py:284-295 prepare_roi_coordinates *)
Definition roi_mask (m : rmeta) (roi : nat -> nat -> bool) : list bool := flatten (m_rows m) (m_cols m) roi.
Definition roi_points (m : rmeta) (roi : nat -> nat -> bool) : list (R * R) := select (all_points m) (roi_mask m roi).
Definition roi_idxs (m : rmeta) (roi : nat -> nat -> bool) : list (nat * nat) :=
  select (flatten (m_rows m) (m_cols m) (fun i j => (i, j))) (roi_mask m roi).
Definition roi_idxs_flat (m : rmeta) (roi : nat -> nat -> bool) : list nat := flatnonzero (roi_mask m roi).

(** * Extended grid *)
(** model.py:718-802: position of the grid in an extended DEM, as exact offsets (rasterio rowcol with op=float) *)
Definition is_integer (x : R) : bool := req x (IZR (Int_part x)).
Record extgrid := EG { eg_row : nat; eg_col : nat; eg_dem : nat -> nat -> num; eg_svf : nat -> nat -> num }.
Section Svf.
  (** terrain.sky_view_factor of a DEM, modelled elsewhere *)
  Variable calc_svf : nat -> nat -> (nat -> nat -> num) -> nat -> nat -> num.
  (** None: no extended DEM *)
  Definition read_extended (m : rmeta) (config_res : R) (ext : option (raster num)) (svf : option (raster num))
    : gerr + option extgrid :=
    match ext with
    | None => inr None
    | Some f =>
        match read_metadata f with
        | inl e => inl e
        | inr em =>
            if negb (req (m_res em) config_res) then inl RasterFileError
            else
              let dem := fun i j => match r_val f i j with Some v => v | None => None end in
              let t := m_tr m in
              let u := m_tr em in
              let row := (af_y t - af_y u) / af_e u in
              let col := (af_x t - af_x u) / af_a u in
              let lr_x := af_x t + INR (m_cols m) * af_a t in
              let lr_y := af_y t + INR (m_rows m) * af_e t in
              let ext_lr_x := af_x u + INR (m_cols em) * af_a u in
              let ext_lr_y := af_y u + INR (m_rows em) * af_e u in
              if negb (is_integer row && is_integer col) then inl RasterFileError
              else if Rlt_dec (af_x t) (af_x u) then inl RasterFileError
              else if Rlt_dec (af_y u) (af_y t) then inl RasterFileError
              else if Rlt_dec ext_lr_x lr_x then inl RasterFileError
              else if Rlt_dec lr_y ext_lr_y then inl RasterFileError
              else
                match svf with
                | Some s => if (r_rows s =? r_rows f)%nat && (r_cols s =? r_cols f)%nat
                            then inr (Some (EG (Z.to_nat (Int_part row)) (Z.to_nat (Int_part col)) dem
                                               (fun i j => match r_val s i j with Some v => v | None => None end)))
                            else inl RasterFileError
                | None => inr (Some (EG (Z.to_nat (Int_part row)) (Z.to_nat (Int_part col)) dem
                                        (calc_svf (r_rows f) (r_cols f) dem)))
                end
        end
    end.

  (** * Input rasters *)
  (** The raster files of a run; None: the file does not exist *)
  Record files := FI {
    fi_dem : option (raster num); fi_ext_dem : option (raster num); fi_svf : option (raster num); fi_ext_svf : option (raster num);
    fi_roi : option (raster Z); fi_srf : option (raster num); fi_lc : option (raster Z); fi_soil : option (raster Z);
    fi_glaciers : option (raster Z) }.
  (** Which inputs the configuration needs *)
  Record needs := ND { nd_srf : bool; nd_lc : bool; nd_soil : bool; nd_glaciers : bool }.
  Record inputs := IN {
    in_dem : nat -> nat -> num; in_svf : nat -> nat -> num; in_roi : nat -> nat -> bool;
    in_srf : option (nat -> nat -> num); in_lc : option (nat -> nat -> Z); in_soil : option (nat -> nat -> Z);
    in_glaciers : option (nat -> nat -> Z) }.
  (** A required file: error if missing or not matching the grid *)
  Definition required {A} (need : bool) (m : rmeta) (fill : option A) (f : option (raster A)) : gerr + option (nat -> nat -> A) :=
    if need then
      match f with
      | None => inl FileNotFound
      | Some f => match read_raster (Some m) fill f with inl e => inl e | inr v => inr (Some v) end
      end
    else inr None.
  (** model.py:589-624: DEM and sky view factor, from the extended grid if there is one *)
  Definition read_dem_svf (m : rmeta) (x : option extgrid) (fs : files) : gerr + ((nat -> nat -> num) * (nat -> nat -> num)) :=
    match x with
    | Some g => inr (fun i j => eg_dem g (eg_row g + i)%nat (eg_col g + j)%nat,
                     fun i j => eg_svf g (eg_row g + i)%nat (eg_col g + j)%nat)
    | None =>
        match required true m (Some None) (fi_dem fs) with
        | inl e => inl e
        | inr None => inl FileNotFound
        | inr (Some dem) =>
            match fi_svf fs with
            | None => inr (dem, calc_svf (m_rows m) (m_cols m) dem)
            | Some s => match read_raster (Some m) (Some None) s with inl e => inl e | inr v => inr (dem, v) end
            end
        end
    end.
  (** model.py:626-642: region of interest; nodata pixels are outside, pixels without elevation are excluded *)
  Definition read_roi (m : rmeta) (f : option (raster Z)) (dem : nat -> nat -> num) : gerr + (nat -> nat -> bool) :=
    let finite := fun i j => match dem i j with Some _ => true | None => false end in
    match f with
    | None => inr finite
    | Some r => match read_raster (Some m) (Some 0%Z) r with
                | inl e => inl e
                | inr v => inr (fun i j => negb (v i j =? 0)%Z && finite i j)
                end
    end.
  (** model.py:575-702 _read_input_data *)
  Definition read_input_data (m : rmeta) (config_res : R) (nd : needs) (fs : files) : gerr + inputs :=
    match read_extended m config_res (fi_ext_dem fs) (fi_ext_svf fs) with
    | inl e => inl e
    | inr x =>
    match read_dem_svf m x fs with
    | inl e => inl e
    | inr (dem, svf) =>
    match read_roi m (fi_roi fs) dem with
    | inl e => inl e
    | inr roi =>
    match required (nd_srf nd) m (Some None) (fi_srf fs) with
    | inl e => inl e
    | inr srf =>
    match required (nd_lc nd) m (Some 0%Z) (fi_lc fs) with
    | inl e => inl e
    | inr lc =>
    match required (nd_soil nd) m (Some 0%Z) (fi_soil fs) with
    | inl e => inl e
    | inr soil =>
    match required (nd_glaciers nd) m None (fi_glaciers fs) with
    | inl e => inl e
    | inr gl => inr (IN dem svf roi srf lc soil gl)
    end end end end end end end.
End Svf.

(** * Stations *)
(** forcing.py:322-324: rasterio.transform.rowcol (floor) *)
Definition rowcol (t : affine) (x y : R) : Z * Z :=
  (Int_part ((y - af_y t) / af_e t), Int_part ((x - af_x t) / af_a t)).
(** forcing.py:337-339 *)
Definition within_extent (m : rmeta) (p : R * R) : bool :=
  let '(r, c) := rowcol (m_tr m) (fst p) (snd p) in
  ((0 <=? c) && (c <? Z.of_nat (m_cols m)) && (0 <=? r) && (r <? Z.of_nat (m_rows m)))%Z.
(** Pixel of a station within the grid *)
Definition station_pixel (m : rmeta) (p : R * R) : nat * nat :=
  let '(r, c) := rowcol (m_tr m) (fst p) (snd p) in (Z.to_nat r, Z.to_nat c).
(** forcing.py:341-350 *)
Definition within_roi (m : rmeta) (roi : nat -> nat -> bool) (p : R * R) : bool :=
  if within_extent m p then let '(i, j) := station_pixel m p in roi i j else false.
(** model.py:170-180: extension of the region of interest with the stations *)
Definition extend_roi (m : rmeta) (roi : nat -> nat -> bool) (stations : list (R * R)) : nat -> nat -> bool :=
  let outside := filter (fun p => within_extent m p && negb (within_roi m roi p)) stations in
  fun i j => existsb (fun p => let '(r, c) := station_pixel m p in (r =? i)%nat && (c =? j)%nat) outside || roi i j.
Definition extended_within_roi (m : rmeta) (roi : nat -> nat -> bool) (p : R * R) : bool :=
  if within_extent m p && negb (within_roi m roi p) then true else within_roi m roi p.
