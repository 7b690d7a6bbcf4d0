(** Model of modules/radiation/irradiance.py 92-157: clear-sky irradiance at the stations which lie in the extended grid
    but not in the model grid. Elevation, sky view factor and illumination of the extended grid are taken to be known at
    the pixels of these stations. *)
From Verif Require Import Common AtmosphereModel RadiationModel.
Open Scope R_scope.

(** A station at the current time step: row and column relative to the model grid (negative to the north and west of
    it), whether it lies within the model grid, temperature and humidity *)
Record est := ES { e_row : Z; e_col : Z; e_within : bool; e_temp : num; e_hum : num }.
(** model.py:755-766: the extended grid and the position of the model grid in it *)
Record extgrid := EG {
  g_rows : Z; g_cols : Z; g_row_offset : Z; g_col_offset : Z;
  g_dem : Z -> Z -> R; g_svf : Z -> Z -> R; g_normal : Z -> Z -> R * R * R; g_shadow : Z -> Z -> R }.
(** 99-100, 123-124 *)
Definition ext_row (g : extgrid) (s : est) : Z := (e_row s + g_row_offset g)%Z.
Definition ext_col (g : extgrid) (s : est) : Z := (e_col s + g_col_offset g)%Z.
(** 103-108 *)
Definition in_ext (g : extgrid) (s : est) : bool :=
  ((0 <=? ext_row g s) && (0 <=? ext_col g s) && (ext_row g s <? g_rows g) && (ext_col g s <? g_cols g))%Z.
(** 110-115: with the temperature and humidity of the station *)
Definition ext_selected (g : extgrid) (l : list est) : list (est * R * R) :=
  flat_map (fun s => if in_ext g s && negb (e_within s) then
                       match e_temp s, e_hum s with Some t, Some h => [(s, t, h)] | _, _ => [] end
                     else []) l.
(** 131-150: the arguments for one station *)
Definition ext_pixel (g : extgrid) (x : est * R * R) : cs_pixel :=
  let '(s, t, h) := x in
  let z := g_dem g (ext_row g s) (ext_col g s) in
  CP (g_normal g (ext_row g s) (ext_col g s)) (g_shadow g (ext_row g s) (ext_col g s)) z (g_svf g (ext_row g s) (ext_col g s))
     (atmospheric_pressure z) (precipitable_water t (vapor_pressure None t h)).
(** 116-157 and clearsky.py:85-86: no region of interest is passed, so that the means are those over the stations.
    [albedos]: surface albedo of the region of interest (126-129). *)
Definition ext_irradiance (c : cs_config) (da : R) (sun : R * R * R) (albedos : list num) (soil_albedo : R) (g : extgrid) (l : list est)
  : list (est * R) :=
  let sel := ext_selected g l in
  let means := map (fun x => (incidence sun (cp_normal (ext_pixel g x)), cp_shadow (ext_pixel g x))) sel in
  map (fun x => let '(dir, diff) := clear_sky c da sun (mean_albedo albedos soil_albedo) means (ext_pixel g x) in (fst (fst x), dir + diff)) sel.
