(** C102: what the evapotranspiration of a whole grid has to be, in terms of one pixel (EtModel). *)
From Verif Require Import Common Constants AtmosphereModel CanopyModel EtModel EtGridModel.
Open Scope R_scope.

(** The class of a pixel takes part if it is positive and has parameters. *)
Definition class_of (classes : list (Z * lcpar)) (p : xpix) : option lcpar :=
  if x_roi p && (0 <? x_lc p)%Z then lookup (x_lc p) classes else None.
(** Two grids differ only in the values of the variables *)
Definition same_site (p q : xpix) : Prop := x_roi q = x_roi p /\ x_lc q = x_lc p /\ x_tex q = x_tex p.
Definition crop_type (c : lcpar) : kc_type := if c_dual c then DualKc (c_sparse c) else SingleKc.
Definition mid_coeff (cfg : etcfg) (d : etday) (c : lcpar) : R :=
  match c_sparse c with Some v => sparse_adjustment (g_kmin cfg) (c_mid c) v (c_height c) (g_lat cfg) (d_decl d) | None => c_mid c end.
Definition coeff_of (cfg : etcfg) (d : etday) (c : lcpar) (clim : R) : option (R * R) :=
  class_coefficient (c_stages c) (c_scale c) (growing_period_day (d_doy d) (c_plant c)) (c_ini c) (mid_coeff cfg d c) (c_fin c) (g_kmin cfg) clim (c_height c).
Definition holds_soil (p : xpix) (sp : soilpar) : Prop :=
  x_val p Tew = Some (s_tew sp) /\ x_val p Rew = Some (s_rew sp) /\ x_val p Taw = Some (s_taw sp) /\ x_val p Raw = Some (s_raw sp).
Definition holds_state (p : xpix) (s : etst) : Prop := x_val p De = e_de s /\ x_val p Dpe = Some (e_dpe s) /\ x_val p Dr = e_dr s.
(** A time step takes a pixel of an unsealed class from p to p' *)
Definition crop_step (cfg : etcfg) (d : etday) (c : lcpar) (sp : soilpar) (clim : R) (s : etst) (p p' : xpix) : Prop :=
  exists kc h, coeff_of cfg d c clim = Some (kc, h) /\
  let '(s', o) := et_step (crop_type c) (c_water c) sp clim (g_kmin cfg) kc h (gt0 (x_val p Swe)) (x_val p' EtRef) (x_val p Rain) s in
  holds_state p' s' /\ x_val p' Et = o_et o /\ x_val p' Dp = o_dp o /\ x_val p' Stress = o_ks o /\ x_val p' Height = Some h /\
  x_val p' Evap = (if c_dual c then o_evap o else x_val p Evap) /\ x_val p' Transp = (if c_dual c then o_transp o else x_val p Transp).
(** The potential evaporation of a sealed pixel; missing if one of the inputs is *)
Definition potential_of (cfg : etcfg) (c : lcpar) (p : xpix) : num :=
  match x_val p Wind, x_val p RefNet, x_val p SoilFlux, x_val p Temp, x_val p Psych, x_val p Es, x_val p Ea, x_val p Press with
  | Some w, Some rn, Some sf, Some t, Some ps, Some es, Some ea, Some pr => Some (sealed_potential (c_height c) (g_hwind cfg) (g_htemp cfg) w rn sf t ps es ea pr (g_dt cfg))
  | _, _, _, _, _, _, _, _ => None
  end.
Definition sealed_pixel_step (cfg : etcfg) (c : lcpar) (i : R) (p p' : xpix) : Prop :=
  let '(i', e, ro) := sealed_step (c_maxint c) (gt0 (x_val p Swe)) (x_val p Rain) (potential_of cfg c p') i in
  x_val p' Inter = Some i' /\ x_val p' Evap = Some e /\ x_val p' Transp = Some 0 /\ x_val p' Et = Some e /\ x_val p' Dp = Some ro.
(** Net radiation, soil heat flux and evapotranspiration of the reference surface *)
Definition reference_values (cfg : etcfg) (d : etday) (p p' : xpix) : Prop :=
  match x_val p RefAlbedo, x_val p RefEmis, x_val p Sw, x_val p Lw, x_val p Temp with
  | Some a, Some e, Some sw, Some lw, Some t =>
      let rn := ref_net_radiation a e sw lw t in
      x_val p' RefNet = Some rn /\ x_val p' SoilFlux = Some ((if d_sun d then 0.1 else 0.5) * rn) /\
      x_val p' EtRef = match x_val p Psych, x_val p Es, x_val p Ea, x_val p Wind with
                       | Some ps, Some es, Some ea, Some w => Some (reference_et (d_sun d) rn t ps es ea w (g_hwind cfg) (g_dt cfg))
                       | _, _, _, _ => None
                       end
  | _, _, _, _, _ => x_val p' RefNet = None /\ x_val p' SoilFlux = None /\ x_val p' EtRef = None
  end.
(** Variables that a time step does not change in any pixel *)
Definition constant_var (v : var) : bool :=
  match v with
  | Swe | Rain | Sw | Lw | Temp | Psych | Es | Ea | Wind | Press | RefAlbedo | RefEmis | Clim | Tew | Taw | Rew | Raw | DeplFrac => true
  | _ => false
  end.
(** Variables that are not reset between time steps and that no other module changes *)
Definition kept_var (v : var) : bool :=
  match v with RefAlbedo | RefEmis | Clim | De | Dr | Tew | Taw | Rew | Raw | Dpe | Inter => true | _ => false end.
Definition between (p q : xpix) : Prop := same_site p q /\ forall v, kept_var v = true -> x_val q v = x_val p v.
(** A history: day, grid before and after each time step *)
Inductive history (cfg : etcfg) (classes : list (Z * lcpar)) (lcp : list (Z * list bool)) : list xpix -> list (etday * list xpix * list xpix) -> Prop :=
| h_nil g : history cfg classes lcp g []
| h_cons g d gi go r : Forall2 between g gi -> et_grid_step cfg classes lcp d gi = Some go -> history cfg classes lcp go r ->
    history cfg classes lcp g ((d, gi, go) :: r).
(** Coefficients of a pixel of an unsealed class after a time step *)
Definition crop_coeffs (cfg : etcfg) (d : etday) (c : lcpar) (sp : soilpar) (clim : R) (de : num) (p p' : xpix) : Prop :=
  exists kc h, coeff_of cfg d c clim = Some (kc, h) /\
  let ec := evaporation_coeff sp clim kc (exposed_fraction (vegetation_fraction (c_sparse c) clim (g_kmin cfg) kc h)) de in
  if c_dual c then
    x_val p' BasalCoeff = Some kc /\
    (if gt0 (x_val p Swe) && negb (c_water c) then x_val p' EvapCoeff = None /\ x_val p' CropCoeff = None
     else x_val p' EvapCoeff = Some ec /\ x_val p' CropCoeff = Some (kc + ec))
  else x_val p' CropCoeff = Some kc /\ x_val p' BasalCoeff = None /\ x_val p' EvapCoeff = None.
(** A pixel before and after a time step *)
Definition unchanged (l : list var) (p p' : xpix) : Prop := forall v, In v l -> x_val p' v = x_val p v.
Definition pixel_step (cfg : etcfg) (classes : list (Z * lcpar)) (d : etday) (p p' : xpix) : Prop :=
  same_site p p' /\ (forall v, constant_var v = true -> x_val p' v = x_val p v) /\
  (x_roi p = false -> p' = p) /\
  (x_roi p = true -> reference_values cfg d p p') /\
  match class_of classes p with
  | None => x_roi p = true -> unchanged [Evap; Transp; Et; De; Dr; Dpe; Inter; Height] p p' /\ x_val p' Dp = Some 0 /\
            x_val p' Stress = None /\ x_val p' CropCoeff = None /\ x_val p' BasalCoeff = None /\ x_val p' EvapCoeff = None
  | Some c =>
      if c_sealed c then unchanged [De; Dr; Dpe; Height] p p' /\ x_val p' Stress = None /\
        forall i, x_val p Inter = Some i -> sealed_pixel_step cfg c i p p'
      else unchanged [Inter] p p' /\
        forall sp clim s, x_val p Clim = Some clim -> holds_soil p sp -> holds_state p s ->
        crop_step cfg d c sp clim s p p' /\ crop_coeffs cfg d c sp clim (e_de s) p p'
  end.
(** A pixel before and after the initialization; known: its soil texture *)
Definition pixel_init (cfg : etcfg) (classes : list (Z * lcpar)) (p p' : xpix) : Prop :=
  same_site p p' /\
  (forall v, match v with Clim | DeplFrac | Tew | Rew | Taw | Raw | Dr | De | Dpe | RefAlbedo | RefEmis | Inter => False | _ => True end -> x_val p' v = x_val p v) /\
  (x_roi p = false -> unchanged [Clim; Raw; De; Dpe; RefAlbedo; RefEmis; Inter] p p') /\
  (x_roi p = true -> x_val p' De = Some 0 /\ x_val p' Dpe = Some 0) /\
  (x_roi p = true -> (x_tex p <= 0)%Z -> unchanged [Tew; Rew] p p') /\
  match class_of classes p with
  | None => unchanged [Clim; Raw; RefAlbedo; RefEmis; Inter] p p'
  | Some c =>
      x_val p' Clim = Some (climate_correction (g_ws cfg) (g_rh cfg) (c_height c)) /\
      x_val p' RefAlbedo = Some (if c_sealed c then g_sealed_albedo cfg else g_grass_albedo cfg) /\
      x_val p' RefEmis = Some (if c_sealed c then g_sealed_emis cfg else g_grass_emis cfg) /\
      x_val p' Inter = (if c_sealed c then Some 0 else x_val p Inter) /\
      (forall t root depl, texture_of (x_tex p) = Some t -> c_root c = Some root -> c_depl c = Some depl ->
         holds_soil p' (soil_params t (g_depth cfg) root depl) /\ holds_state p' et_init) /\
      ((x_tex p <= 0)%Z -> x_val p Taw = None -> x_val p Dr = None -> x_val p' Taw = None /\ x_val p' Raw = None /\ x_val p' Dr = None)
  end.
