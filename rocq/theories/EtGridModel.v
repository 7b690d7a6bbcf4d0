(** Model of modules/evapotranspiration/evapotranspiration.py:EvapotranspirationModel as the program on arrays that it is: masks of the pixels of
    each land cover class, of snow-covered and of wet pixels, and local arrays with one entry for every pixel of a mask. Values may be missing
    ([None] = NaN). The grid is one list of pixels, flattened in row-major order. The program is [None] if an exception is raised: a local array or
    mask of the wrong size, or a soil texture without parameters. Division by zero is treated as in EtModel. *)
From Verif Require Import Common Constants AtmosphereModel MeteoFieldsModel GridBalanceModel CryoGridModel CanopyModel EtModel.
Open Scope R_scope.

(** * Arrays *)
(** The state variables: s.snow.swe, s.meteo.{rainfall, top_canopy_sw_in, top_canopy_lw_in, top_canopy_temp, psych_const, sat_vap_press, vap_press,
    top_canopy_wind_speed, atmos_press}, those of s.evapotranspiration (78-138), s.land_cover.plant_height, and the local grid depletion_fraction
    of [initialize] *)
Inductive var := Swe | Rain | Sw | Lw | Temp | Psych | Es | Ea | Wind | Press
  | Evap | Transp | Et | EtRef | RefAlbedo | RefEmis | RefNet | SoilFlux | CropCoeff | BasalCoeff | EvapCoeff | Stress | Clim | De | Dr
  | Tew | Taw | Rew | Raw | Dp | Dpe | Inter | Height | DeplFrac.
Definition var_eq (x y : var) : {x = y} + {x <> y}. Proof. decide equality. Defined.
(** A pixel: whether it belongs to the region, land cover class, soil texture class, values of the variables *)
Record xpix := XP { x_roi : bool; x_lc : Z; x_tex : Z; x_val : var -> num }.
Definition setv (v : var) (x : num) (p : xpix) : xpix :=
  XP (x_roi p) (x_lc p) (x_tex p) (fun w => if var_eq w v then x else x_val p w).
Definition bind {A B} (x : option A) (f : A -> option B) : option B := match x with Some a => f a | None => None end.
(** s.v[m] *)
Definition col (v : var) (g : list xpix) (m : list bool) : list num := map (fun p => x_val p v) (take g m).
(** s.v[m] = a, an array with one entry for every pixel of m *)
Definition assign (g : list xpix) (m : list bool) (v : var) (a : list num) : option (list xpix) :=
  if (length a =? count m)%nat then Some (put g m (map2 (fun p x => setv v x p) (take g m) a)) else None.
(** s.v[m] = x *)
Definition fill (g : list xpix) (m : list bool) (v : var) (x : num) : list xpix := update g m (setv v x).
(** local[m] = a *)
Definition assign_local (l : list num) (m : list bool) (a : list num) : option (list num) :=
  if (length a =? count m)%nat then Some (put l m a) else None.
(** model.py:287-309 global_mask *)
Definition global_mask (loc outer : list bool) : option (list bool) :=
  if (length loc =? count outer)%nat then Some (expand outer loc) else None.
(** Elementwise functions: np.clip(x, 0, None) or np.maximum, np.nan_to_num, > *)
Definition nmax0 := nmap (fun x => Rmax x 0).
Definition fixnan (x : num) : num := Some (nan_to_zero x).
Definition ngt (x y : num) : bool := nlt y x.
(** Division by an exposed fraction of 0: see EtModel.surface_balance *)
Definition ndiv0 (x y : num) : num := match x, y with Some a, Some b => if Req_EM_T b 0 then None else Some (a / b) | _, _ => None end.
(** (a / b).clip(0, 1): see EtModel.stress_coeff *)
Definition ratio01 (x y : num) : num :=
  match x, y with
  | Some a, Some b => if Req_EM_T b 0 then if Rlt_dec 0 a then Some 1 else if Rlt_dec a 0 then Some 0 else None else Some (clip 0 1 (a / b))
  | _, _ => None
  end.

(** * Configuration *)
(** Parameters of a land cover class (data/land_cover_class_schema.yml); rooting depth and depletion fraction may be .nan. All keys are present. *)
Record lcpar := LP { c_sealed : bool; c_dual : bool; c_water : bool; c_sparse : option R; c_stages : stages; c_plant : Z; c_ini : R; c_mid : R; c_fin : R;
  c_height : R; c_scale : bool; c_depl : num; c_root : num; c_maxint : R }.
Record etcfg := EC { g_kmin : R; g_ws : R; g_rh : R; g_depth : R; g_grass_albedo : R; g_grass_emis : R; g_sealed_albedo : R; g_sealed_emis : R;
  g_hwind : R; g_htemp : R; g_dt : R; g_lat : R }.
(** Of the time step: day of year, declination (radians), sun over the horizon *)
Record etday := ED { d_doy : Z; d_decl : R; d_sun : bool }.
Definition lookup {A} (k : Z) (l : list (Z * A)) : option A := option_map snd (find (fun x => (fst x =? k)%Z) l).

(** * initialize, 138-222 *)
(** soiltexture.py:1-10 *)
Definition texture_of (z : Z) : option texture :=
  match z with
  | 1 => Some Sand | 2 => Some LoamySand | 3 => Some SandyLoam | 4 => Some Loam | 5 => Some SiltLoam | 6 => Some Silt
  | 7 => Some SiltClayLoam | 8 => Some SiltyClay | 9 => Some Clay | _ => None
  end%Z.
Definition roi_of (g : list xpix) : list bool := map x_roi g.
(** 146-148: the land cover classes of the region with parameters; 150-151 iterates over a set, so the order is arbitrary *)
Definition occurring (classes : list (Z * lcpar)) (g : list xpix) : list Z :=
  filter (fun k => (0 <? k)%Z && match lookup k classes with Some _ => true | None => false end) (nodup Z.eq_dec (map x_lc (take g (roi_of g)))).
(** 151 *)
Definition class_mask (g : list xpix) (k : Z) : list bool := map2 andb (map (fun p => (x_lc p =? k)%Z) g) (roi_of g).
(** One iteration of a loop over self.land_cover_class_pixels *)
Fixpoint each {A} (lcp : list (Z * list bool)) (classes : list (Z * lcpar)) (f : A -> list bool -> lcpar -> option A) (g : A) : option A :=
  match lcp with
  | [] => Some g
  | (k, pos) :: r => match lookup k classes with Some c => bind (f g pos c) (each r classes f) | None => None end
  end.
(** 224-238 _climate_correction *)
Definition init_climate (cfg : etcfg) (g : list xpix) (pos : list bool) (c : lcpar) : option (list xpix) :=
  Some (fill g pos Clim (Some (climate_correction (g_ws cfg) (g_rh cfg) (c_height c)))).
(** 156-160 *)
Definition init_depletion (g : list xpix) (pos : list bool) (c : lcpar) : option (list xpix) := Some (fill g pos DeplFrac (c_depl c)).
(** 167-195: the pixels with one soil texture, also outside of the region *)
Definition init_texture (cfg : etcfg) (g : list xpix) (stc : Z) : option (list xpix) :=
  let pos := map (fun p => (x_tex p =? stc)%Z) g in
  match texture_of stc with
  | None => None
  | Some t =>
      let fc := field_capacity t in let wp := wilting_point t in
      let g := fill g pos Tew (Some (1000 * (fc - 0.5 * wp) * g_depth cfg)) in
      let g := fill g pos Rew (Some (evaporable t)) in
      let g := fill g pos Taw (Some (1000 * (fc - wp))) in
      let g := fill g pos Dr (Some (1000 * (fc - fc))) in
      assign g pos DeplFrac (map (fun x => nmap (fun v => v * depletion_adjustment t) x) (col DeplFrac g pos))
  end.
Fixpoint init_textures (cfg : etcfg) (l : list Z) (g : list xpix) : option (list xpix) :=
  match l with [] => Some g | t :: r => bind (init_texture cfg g t) (init_textures cfg r) end.
(** 165-166; np.unique also sorts *)
Definition textures_in (g : list xpix) : list Z := filter (fun t => (0 <? t)%Z) (nodup Z.eq_dec (map x_tex (take g (roi_of g)))).
(** 200-206 *)
Definition init_root (g : list xpix) (pos : list bool) (c : lcpar) : option (list xpix) :=
  bind (assign g pos Taw (map (nmul (c_root c)) (col Taw g pos))) (fun g =>
  bind (assign g pos Dr (map (nmul (c_root c)) (col Dr g pos))) (fun g =>
  assign g pos Raw (map2 nmul (col DeplFrac g pos) (col Taw g pos)))).
(** 214-222 *)
Definition init_reference (cfg : etcfg) (g : list xpix) (pos : list bool) (c : lcpar) : option (list xpix) :=
  if c_sealed c then
    let g := fill g pos RefAlbedo (Some (g_sealed_albedo cfg)) in
    let g := fill g pos RefEmis (Some (g_sealed_emis cfg)) in
    Some (fill g pos Inter (Some 0))
  else
    let g := fill g pos RefAlbedo (Some (g_grass_albedo cfg)) in
    Some (fill g pos RefEmis (Some (g_grass_emis cfg))).
(** 138-222. [order]: the order in which the set of classes is traversed. The result also contains self.land_cover_class_pixels. *)
Definition et_initialize (cfg : etcfg) (classes : list (Z * lcpar)) (order : list Z) (g : list xpix) : option (list xpix * list (Z * list bool)) :=
  let roi := roi_of g in
  let lcp := map (fun k => (k, class_mask g k)) order in
  bind (each lcp classes (init_climate cfg) g) (fun g =>
  let g := fill g (map (fun _ => true) g) DeplFrac None in
  bind (each lcp classes init_depletion g) (fun g =>
  bind (init_textures cfg (textures_in g) g) (fun g =>
  bind (each lcp classes init_root g) (fun g =>
  let g := fill g roi De (Some 0) in
  let g := fill g roi Dpe (Some 0) in
  bind (each lcp classes (init_reference cfg) g) (fun g => Some (g, lcp)))))).

(** * One time step, 240-598 *)
(** 354-369 _reference_net_radiation *)
Definition reference_net (g : list xpix) : option (list xpix) :=
  let roi := roi_of g in
  let sw_bal := map2 nmul (map (nmap (fun a => 1 - a)) (col RefAlbedo g roi)) (col Sw g roi) in
  let lw_bal := map2 nsub (col Lw g roi)
    (map2 nmul (map (nmap (fun e => STEFAN_BOLTZMANN * e)) (col RefEmis g roi)) (map (nmap (fun t => t ^ 4)) (col Temp g roi))) in
  assign g roi RefNet (map2 nadd sw_bal lw_bal).
(** 371-410 _reference_evapotranspiration *)
Definition reference_evapotranspiration (cfg : etcfg) (d : etday) (g : list xpix) : option (list xpix) :=
  bind (reference_net g) (fun g =>
  let roi := roi_of g in
  let factor := if d_sun d then 0.1 else 0.5 in
  bind (assign g roi SoilFlux (map (nmap (fun x => factor * x)) (col RefNet g roi))) (fun g =>
  let conv := 1 / 1000000 * SECONDS_PER_HOUR in
  let Rn := map (nmap (fun x => x * conv)) (col RefNet g roi) in
  let G := map (nmap (fun x => x * conv)) (col SoilFlux g roi) in
  let T := map (nmap (fun t => t - T0)) (col Temp g roi) in
  let D := map (nmap svp_slope) T in
  let gamma := map (nmap (fun x => x / 1000)) (col Psych g roi) in
  let es := map (nmap (fun x => x / 1000)) (col Es g roi) in
  let ea := map (nmap (fun x => x / 1000)) (col Ea g roi) in
  let u2 := map (nmap (fun w => log_wind_profile w (g_hwind cfg) 2 0.03)) (col Wind g roi) in
  let upper := map2 nadd (map2 nmul (map (nmap (fun s => 0.408 * s)) D) (map2 nsub Rn G))
    (map2 nmul (map2 nmul (map2 ndiv (map (nmap (fun x => x * 37)) gamma) (map (nmap (fun t => t + 273)) T)) u2) (map2 nsub es ea)) in
  let lower := map2 nadd D (map2 nmul gamma (map (nmap (fun u => 1 + 0.34 * u)) u2)) in
  let ET0 := map nmax0 (map2 ndiv upper lower) in
  assign g roi EtRef (map (nmap (fun x => x * g_dt cfg / SECONDS_PER_HOUR)) ET0))).
(** 412-416 *)
Definition single_coeff (g : list xpix) (pos : list bool) : option (list xpix) :=
  let et_ref := map fixnan (col EtRef g pos) in
  assign g pos Et (map2 nmul (col CropCoeff g pos) et_ref).
(** 418-496. [ones]: np.ones(pos.sum()) *)
Definition dual_coeff (cfg : etcfg) (c : lcpar) (g : list xpix) (pos : list bool) : option (list xpix) :=
  let et_ref := map fixnan (col EtRef g pos) in
  let plant_height := col Height g pos in
  let kmin := g_kmin cfg in
  let max_crop_coeff := map2 (nmap2 Rmax) (map (nmap (fun x => 1.2 + x)) (col Clim g pos)) (map (nmap (fun x => x + 0.05)) (col BasalCoeff g pos)) in
  let veg_frac := match c_sparse c with
    | Some v => map (fun _ => Some v) (take g pos)
    | None => map2 (nmap2 Rpower)
        (map2 ndiv (map (nmap (fun x => Rmax (x - kmin) 0.01)) (col BasalCoeff g pos)) (map (nmap (fun x => x - kmin)) max_crop_coeff))
        (map (nmap (fun h => 1 + 0.5 * h)) plant_height)
    end in
  let exposed := map (nmap (fun v => Rmin (1 - v) 1)) veg_frac in
  let pos2 := map2 ngt (col De g pos) (col Rew g pos) in
  bind (global_mask pos2 pos) (fun pos3 =>
  let ones := repeat (Some 1 : num) (count pos) in
  bind (assign_local ones pos2 (map2 ndiv (map2 nsub (col Tew g pos3) (col De g pos3)) (map2 nsub (col Tew g pos3) (col Rew g pos3)))) (fun reduction =>
  bind (assign g pos EvapCoeff (map2 (nmap2 Rmin) (map2 nmul reduction (map2 nsub max_crop_coeff (col BasalCoeff g pos))) (map2 nmul exposed max_crop_coeff))) (fun g =>
  bind (assign g pos CropCoeff (map2 nadd (col BasalCoeff g pos) (col EvapCoeff g pos))) (fun g =>
  bind (assign g pos Evap (map2 nmul (col EvapCoeff g pos) et_ref)) (fun g =>
  bind (assign g pos Transp (map2 nmul (col BasalCoeff g pos) et_ref)) (fun g =>
  bind (assign g pos Et (map2 nadd (col Evap g pos) (col Transp g pos))) (fun g =>
  let precip := map fixnan (col Rain g pos) in
  bind (assign g pos Dpe (map nmax0 (map2 nsub precip (col Dpe g pos)))) (fun g =>
  bind (assign g pos De (map nmax0 (map2 nadd (map2 nadd (map2 nsub (col De g pos) precip) (map2 ndiv0 (col Evap g pos) exposed)) (col Dpe g pos)))) (fun g =>
  assign g pos De (map2 (nmap2 Rmin) (col De g pos) (col Tew g pos))))))))))).
(** 498-506 *)
Definition water_stress (g : list xpix) (pos : list bool) : option (list xpix) :=
  assign g pos Stress (map2 ratio01 (map2 nsub (col Taw g pos) (col Dr g pos)) (map2 nsub (col Taw g pos) (col Raw g pos))).
(** 508-539 *)
Definition root_balance (g : list xpix) (pos : list bool) : option (list xpix) :=
  let precip := map fixnan (col Rain g pos) in
  bind (assign g pos Dp (map nmax0 (map2 nsub (map2 nsub precip (col Et g pos)) (col Dr g pos)))) (fun g =>
  bind (assign g pos Dr (map nmax0 (map2 nadd (map2 nadd (map2 nsub (col Dr g pos) precip) (col Et g pos)) (col Dp g pos)))) (fun g =>
  assign g pos Dr (map2 (nmap2 Rmin) (col Dr g pos) (col Taw g pos)))).
(** 541-598 *)
Definition sealed_evaporation (cfg : etcfg) (c : lcpar) (g : list xpix) (pos : list bool) : option (list xpix) :=
  let pos_rain_local := map gt0 (col Rain g pos) in
  bind (global_mask pos_rain_local pos) (fun pos_rain =>
  bind (global_mask (map negb pos_rain_local) pos) (fun pos_dry =>
  bind (assign g pos_rain Inter (map2 nadd (col Inter g pos_rain) (map fixnan (col Rain g pos_rain)))) (fun g =>
  let runoff := map (nmap (fun x => Rmax (x - c_maxint c) 0)) (col Inter g pos_rain) in
  bind (assign g pos_rain Inter (map2 nsub (col Inter g pos_rain) runoff)) (fun g =>
  bind (assign g pos_rain Dp runoff) (fun g =>
  let g := fill g pos_rain Evap (Some 0) in
  let zom := 0.123 * c_height c in
  let d := 2 / 3 * c_height c in
  let ra := map (nmap (fun w => ln ((g_hwind cfg - d) / zom) * ln ((g_htemp cfg - d) / (0.1 * zom)) / (VON_KARMAN ^ 2 * w))) (col Wind g pos_dry) in
  let Rn := col RefNet g pos_dry in
  let G := col SoilFlux g pos_dry in
  let D := map (nmap (fun t => 1000 * svp_slope (t - T0))) (col Temp g pos_dry) in
  let gamma := col Psych g pos_dry in
  let rhoa := map2 nmul (map (nmap (fun p => p / GAS_CONSTANT_DRY_AIR)) (col Press g pos_dry)) (map (nmap (fun t => 1.01 * t)) (col Temp g pos_dry)) in
  let cp := map2 ndiv (map (nmap (fun x => x * 0.622 * Lv)) gamma) (col Press g pos_dry) in
  let upper := map2 nadd (map2 nmul D (map2 nsub Rn G)) (map2 ndiv (map2 nmul (map2 nmul rhoa cp) (map2 nsub (col Es g pos_dry) (col Ea g pos_dry))) ra) in
  let lower := map2 nadd D (map2 nmul gamma (map (nmap (fun r => 1 + 0 / r)) ra)) in
  let wm2 := map fixnan (map nmax0 (map2 ndiv upper lower)) in
  bind (assign g pos_dry Evap (map2 (nmap2 Rmin) (map (nmap (fun x => x / Lv * g_dt cfg)) wm2) (col Inter g pos_dry))) (fun g =>
  bind (assign g pos_dry Inter (map2 nsub (col Inter g pos_dry) (col Evap g pos_dry))) (fun g =>
  let g := fill g pos Transp (Some 0) in
  assign g pos Et (map2 nadd (col Evap g pos) (col Transp g pos))))))))).
(** 279-323: crop coefficient and plant height of a pixel with climate correction x (set by initialize, never missing) *)
Definition class_kc (cfg : etcfg) (d : etday) (c : lcpar) (x : num) : num * num :=
  let mid := match c_sparse c with Some v => sparse_adjustment (g_kmin cfg) (c_mid c) v (c_height c) (g_lat cfg) (d_decl d) | None => c_mid c end in
  match x with
  | None => (None, None)
  | Some clim =>
      match class_coefficient (c_stages c) (c_scale c) (growing_period_day (d_doy d) (c_plant c)) (c_ini c) mid (c_fin c) (g_kmin cfg) clim (c_height c) with
      | Some (k, h) => (Some k, Some h)
      | None => (None, None)
      end
  end.
(** 257-352: one land cover class *)
Definition class_step (cfg : etcfg) (d : etday) (snowies_roi : list bool) (g : list xpix) (pos : list bool) (c : lcpar) : option (list xpix) :=
  let roi := roi_of g in
  bind (global_mask (map2 andb (take pos roi) snowies_roi) roi) (fun pos_snow =>
  bind (global_mask (map2 andb (take pos roi) (map negb snowies_roi)) roi) (fun pos_snowfree =>
  if c_sealed c then
    let g := fill g pos_snow Evap (Some 0) in
    let g := fill g pos_snow Transp (Some 0) in
    let g := fill g pos_snow Et (Some 0) in
    sealed_evaporation cfg c g pos_snowfree
  else
    let k := map (fun x => fst (class_kc cfg d c x)) (col Clim g pos) in
    let h := map (fun x => snd (class_kc cfg d c x)) (col Clim g pos) in
    bind (assign g pos Height h) (fun g =>
    bind (if c_water c then bind (global_mask (take pos roi) roi) (fun m => Some (m, map (fun _ => false) m)) else Some (pos_snowfree, pos_snow)) (fun masks =>
    let pos_snowfree := fst masks in
    let pos_snow := snd masks in
    bind (if c_dual c then
            bind (assign g pos BasalCoeff k) (fun g =>
            bind (dual_coeff cfg c g pos_snowfree) (fun g =>
            let g := fill g pos_snow Evap (Some 0) in
            let g := fill g pos_snow Transp (Some 0) in
            Some (fill g pos_snow Et (Some 0))))
          else
            bind (assign g pos CropCoeff k) (fun g =>
            bind (single_coeff g pos_snowfree) (fun g =>
            Some (fill g pos_snow Et (Some 0))))) (fun g =>
    if c_water c then Some g
    else
      bind (water_stress g pos_snowfree) (fun g =>
      bind (if c_dual c then
              bind (assign g pos_snowfree Transp (map2 nmul (col Transp g pos_snowfree) (col Stress g pos_snowfree))) (fun g =>
              assign g pos_snowfree Et (map2 nadd (col Evap g pos_snowfree) (col Transp g pos_snowfree)))
            else assign g pos_snowfree Et (map2 nmul (col Et g pos_snowfree) (col Stress g pos_snowfree))) (fun g =>
      root_balance g pos))))))).
(** 240-352 evapotranspiration *)
Definition et_grid_step (cfg : etcfg) (classes : list (Z * lcpar)) (lcp : list (Z * list bool)) (d : etday) (g : list xpix) : option (list xpix) :=
  let roi := roi_of g in
  let snowies_roi := map gt0 (col Swe g roi) in
  let g := fill g roi CropCoeff None in
  let g := fill g roi BasalCoeff None in
  let g := fill g roi EvapCoeff None in
  let g := fill g roi Stress None in
  let g := fill g roi Dp (Some 0) in
  bind (reference_evapotranspiration cfg d g) (fun g =>
  each lcp classes (class_step cfg d snowies_roi) g).
