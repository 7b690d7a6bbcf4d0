(** Model of the files left behind by reading the inputs of a run (model.py _read_input_data, _read_extended_grids): the sky view factor is computed if its
    file is missing and written with three decimals; the next run reads the file. Reading itself is [read_input_data] of GridModel. *)
From Verif Require Import Common GridModel.
Open Scope R_scope.

(** decimal_precision=3 of the ASCII grid driver; halves are rounded up here (to even in the decimal output of C) *)
Definition round3 (x : R) : R := IZR (Int_part (1000 * x + 1 / 2)) / 1000.
(** fileio/raster.py:108-139 write_raster_file(file, data, transform, decimal_precision=3); no nodata value *)
Definition svf_raster (rows cols : nat) (tr : affine) (v : nat -> nat -> num) : raster num :=
  RST rows cols tr (fun i j => Some (option_map round3 (v i j))) None.
Definition with_svf (fs : files) (f : raster num) : files :=
  FI (fi_dem fs) (fi_ext_dem fs) (Some f) (fi_ext_svf fs) (fi_roi fs) (fi_srf fs) (fi_lc fs) (fi_soil fs) (fi_glaciers fs).
Definition with_ext_svf (fs : files) (f : raster num) : files :=
  FI (fi_dem fs) (fi_ext_dem fs) (fi_svf fs) (Some f) (fi_roi fs) (fi_srf fs) (fi_lc fs) (fi_soil fs) (fi_glaciers fs).
Section Svf.
  (** terrain.sky_view_factor with the configured number of sweeps *)
  Variable calc_svf : nat -> nat -> (nat -> nat -> num) -> nat -> nat -> num.
  (** model.py:737-753: the extended sky view factor is written after all checks of the extended DEM *)
  Definition files_after_extended (x : option extgrid) (fs : files) : files :=
    match x, fi_ext_dem fs, fi_ext_svf fs with
    | Some g, Some f, None => with_ext_svf fs (svf_raster (r_rows f) (r_cols f) (r_tr f) (eg_svf g))
    | _, _, _ => fs
    end.
  (** model.py:579-607: without an extended grid, after the DEM was read *)
  Definition files_after_svf (m : rmeta) (x : option extgrid) (fs : files) : files :=
    match x with
    | Some _ => fs
    | None => match fi_svf fs, read_dem_svf calc_svf m x fs with
              | None, inr (_, svf) => with_svf fs (svf_raster (m_rows m) (m_cols m) (m_tr m) svf)
              | _, _ => fs
              end
    end.
  (** The files after _read_input_data, also if it raises an exception later *)
  Definition files_after (m : rmeta) (config_res : R) (fs : files) : files :=
    match read_extended calc_svf m config_res (fi_ext_dem fs) (fi_ext_svf fs) with
    | inl _ => fs
    | inr x => files_after_svf m x (files_after_extended x fs)
    end.
  (** model.py:58-205 as far as grids are concerned: _initialize_grid, then _read_input_data *)
  Definition load (config_res : R) (nd : needs) (fs : files) : files * (gerr + inputs) :=
    match initialize_grid (fi_dem fs) config_res with
    | inl e => (fs, inl e)
    | inr m => (files_after m config_res fs, read_input_data calc_svf m config_res nd fs)
    end.
End Svf.
(** Runs one after the other in the same directory, each with its own number of sweeps; the inputs of every run *)
Fixpoint runs (config_res : R) (nd : needs) (calcs : list (nat -> nat -> (nat -> nat -> num) -> nat -> nat -> num)) (fs : files)
  : files * list (gerr + inputs) :=
  match calcs with
  | [] => (fs, [])
  | c :: r => let '(fs', res) := load c config_res nd fs in
              let '(fs'', ress) := runs config_res nd r fs' in (fs'', res :: ress)
  end.
