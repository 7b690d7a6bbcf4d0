(** Model of modules/snow/cryolayermodel.py and of the melt / refreezing part of
    surface.py:cryo_layer_energy_balance, for one pixel. All of these functions are vectorised over
    pixels with boolean masks: each pixel is processed independently of all others. *)
From Verif Require Import Common Constants SnowModel.

(** One cryo layer: thickness, ice_content, liquid_water_content, cold_content, density,
    layer_albedo (cryolayermodel.py:28-66; temp and heat_cap are never used by this model). NaN
    thickness is not represented: an operation that would compute one returns [None]. *)
Record clayer := CL { cth : R; cice : R; clw : R; ccold : R; cdens : num; calb : num }.
(** Layers by CryoLayerID (15-20) and snow.albedo of the pixel. *)
Record cpix := CP { l_new : clayer; l_old : clayer; l_firn : clayer; l_ice : clayer; palb : num }.
Definition lays (p : cpix) : list clayer := [l_new p; l_old p; l_firn p; l_ice p].
(** 355-366 reset_layer *)
Definition reset_layer : clayer := CL 0 0 0 0 None None.
(** 78-93 initialize *)
Definition cinit : cpix := CP reset_layer reset_layer reset_layer reset_layer None.

Definition cmass (l : clayer) : R := cice l + clw l.
Definition tot_ice (p : cpix) : R := sumR (map cice (lays p)).
Definition tot_lw (p : cpix) : R := sumR (map clw (lays p)).
Definition tot_th (p : cpix) : R := sumR (map cth (lays p)).
Definition tot_cold (p : cpix) : R := sumR (map ccold (lays p)).
Definition to_layer (l : clayer) : layer := mkL (cth l) (cice l) (clw l) 0 0.

(** Configuration: snow.albedo, snow.cryolayers, snow.liquid_water_content. *)
Record ccfg := CC {
  cc_dt : R; cc_alb : albedo_cfg; alb_firn : R; alb_ice : R; single_albedo : bool;
  tr_old : R; tr_ice : R;                       (* cryolayers.transition.{old_snow,ice} *)
  cc_lwc : lwc_method; cc_mx : R;               (* liquid_water_content.{method,max} *)
  cold_cap : R; refr_factor : R }.              (* cold_holding_capacity, refreezing_factor *)

(** ** Compaction, 126-174 *)
(** snow.py:203-244 for one layer, see [SnowModel.compaction_anderson]; also writes the density. *)
Definition anderson_layer (dt : R) (air : num) (load : R) (l : clayer) : clayer * R :=
  if Rlt_dec 0 (cth l) then
    let m := cmass l in
    let rho := dens_anderson dt air (load + m / 2) (to_layer l) in
    (CL (m / rho) (cice l) (clw l) (ccold l) (Some rho) (calb l), load + m / 2 + m / 2)
  else (l, load).
(** 154-162: (transition.ice - 500) kg m-3 in ten years of 365.25 days *)
Definition firn_rate (c : ccfg) : R := (tr_ice c - 500) / (HOURS_PER_DAY * DAYS_PER_YEAR * 10).
Definition firn_layer (c : ccfg) (l : clayer) : option clayer :=
  if Rlt_dec 0 (cth l) then
    let d := numplus (cdens l) (Some (firn_rate c * (cc_dt c / SECONDS_PER_HOUR))) in
    match numdiv (cmass l) d with
    | Some t => Some (CL t (cice l) (clw l) (ccold l) d (calb l))
    | None => None
    end
  else Some l.
(** 164-174 *)
Definition ice_layer (c : ccfg) (l : clayer) : option clayer :=
  if Rlt_dec 0 (cth l) then
    match numdiv (cmass l) (Some (tr_ice c)) with
    | Some t => Some (CL t (cice l) (clw l) (ccold l) (Some (tr_ice c)) (calb l))
    | None => None
    end
  else Some l.
Definition compaction (c : ccfg) (air : num) (p : cpix) : option cpix :=
  let '(n', load) := anderson_layer (cc_dt c) air 0 (l_new p) in
  let '(o', _) := anderson_layer (cc_dt c) air load (l_old p) in
  match firn_layer c (l_firn p), ice_layer c (l_ice p) with
  | Some f', Some i' => Some (CP n' o' f' i' (palb p))
  | _, _ => None
  end.

(** ** add_snow, 420-464, for a pixel selected by [pos]; [albedo = None] is the default. *)
Definition add_snow (c : ccfg) (amount water density : R) (albedo : option R) (p : cpix) : cpix :=
  let n := l_new p in
  let init := (if Req_EM_T (cice n) 0 then if Rlt_dec 0 amount then true else false else false) in
  let alb_new :=
    match albedo with
    | Some a => Some a
    | None =>
        if init then
          if single_albedo c then
            if Rlt_dec 0 (cth (l_old p)) then calb (l_old p) else Some (a_max (cc_alb c))
          else Some (a_max (cc_alb c))
        else calb n
    end in
  let palb_new :=
    match albedo with Some a => Some a | None => if init then alb_new else palb p end in
  let ice' := cice n + amount in
  let lw' := clw n + water in
  let th' := cth n + amount / density in
  CP (CL th' ice' lw' (ccold n) (numdiv (ice' + lw') (Some th')) alb_new)
     (l_old p) (l_firn p) (l_ice p) palb_new.
(** 176-184 *)
Definition accumulation (c : ccfg) (snowfall wet_bulb : num) (p : cpix) : cpix :=
  match snowfall with
  | Some s => if Rlt_dec 0 s then add_snow c s 0 (fresh_snow_density wet_bulb) None p else p
  | None => p
  end.

(** ** Albedo, 95-124 *)
(** 410-418 update_surface_layer_type: the topmost layer with thickness; [None] = SNOW_FREE *)
Inductive cryo_id := NewSnow | OldSnow | Firn | Ice.
Definition surface_type (p : cpix) : option cryo_id :=
  if Rlt_dec 0 (cth (l_new p)) then Some NewSnow
  else if Rlt_dec 0 (cth (l_old p)) then Some OldSnow
  else if Rlt_dec 0 (cth (l_firn p)) then Some Firn
  else if Rlt_dec 0 (cth (l_ice p)) then Some Ice
  else None.
Definition set_alb (a : num) (l : clayer) : clayer := CL (cth l) (cice l) (clw l) (ccold l) (cdens l) a.
Definition albedo_aging (c : ccfg) (temp snowfall : num) (p : cpix) : cpix :=
  let pos_old := if Rlt_dec 0 (cth (l_old p)) then true else false in
  let pos_new := if Rlt_dec 0 (cth (l_new p)) then true else false in
  let a0 := if pos_new then calb (l_new p) else if pos_old then calb (l_old p) else palb p in
  let a := if pos_old || pos_new then albedo_step (cc_alb c) (cc_dt c) temp snowfall a0 else a0 in
  let st := surface_type p in
  let '(n', o') :=
    if single_albedo c then
      (if pos_new then set_alb a (l_new p) else l_new p,
       if pos_old then set_alb a (l_old p) else l_old p)
    else
      (match st with Some NewSnow => set_alb a (l_new p) | _ => l_new p end,
       match st with Some OldSnow => set_alb a (l_old p) | _ => l_old p end) in
  CP n' o'
     (match st with Some Firn => set_alb (Some (alb_firn c)) (l_firn p) | _ => l_firn p end)
     (match st with Some Ice => set_alb (Some (alb_ice c)) (l_ice p) | _ => l_ice p end) a.

(** ** Temperature index, 189-220: returns snow.melt. *)
Inductive ti_method :=
| TI (ddf : R)                                     (* temperature_index *)
| ETI (ddf af : R).                                (* enhanced_temperature_index *)
Definition SECONDS_PER_DAY' : R := SECONDS_PER_HOUR * HOURS_PER_DAY.
Definition potential_melt (m : ti_method) (thr dt : R) (temp alb sw : num) : num :=
  match temp with
  | None => None
  | Some t =>
      let dd := (t - thr) * (dt / SECONDS_PER_DAY') in
      match m with
      | TI ddf => Some (ddf * Rmax dd 0)
      | ETI ddf af =>
          if Rle_dec dd 0 then Some 0
          else match alb, sw with
               | Some a, Some s => Some (ddf * dd + af * (1 - a) * s * (dt / SECONDS_PER_DAY'))
               | _, _ => None
               end
      end
  end.
Definition temperature_index (m : ti_method) (thr dt : R) (temp alb sw : num) (p : cpix) : num :=
  if Rlt_dec 0 (tot_th p) then
    match potential_melt m thr dt temp alb sw with
    | Some x => Some (Rmin (Rmax x 0) (tot_ice p))
    | None => None
    end
  else Some 0.

(** ** Melt 222-238 and the mass removal of sublimation 257-269: one layer. [to_water] tells whether
    the removed ice becomes liquid water. Returns the remaining change. *)
Definition take_layer (to_water : bool) (chg : R) (l : clayer) : clayer * R :=
  if Rlt_dec 0 chg then
    if Rlt_dec 0 (cice l) then
      let cur := Rmin chg (cice l) in
      (CL (cth l * (1 - cur / cice l)) (cice l - cur)
          (if to_water then clw l + cur else clw l) (ccold l) (cdens l) (calb l),
       chg - cur)
    else (l, chg)
  else (l, chg).
Definition take (to_water : bool) (chg : R) (p : cpix) : cpix * R :=
  let '(n', c1) := take_layer to_water chg (l_new p) in
  let '(o', c2) := take_layer to_water c1 (l_old p) in
  let '(f', c3) := take_layer to_water c2 (l_firn p) in
  let '(i', c4) := take_layer to_water c3 (l_ice p) in
  (CP n' o' f' i' (palb p), c4).
(** 222-238 melt(); a NaN amount compares false and melts nothing. *)
Definition melt (amount : num) (p : cpix) : cpix :=
  match amount with Some m => fst (take true m p) | None => p end.

(** ** Sublimation, 240-277: new pixel and snow.sublimation. *)
Definition sublimation_amount (dt : R) (mflux : num) (p : cpix) : R :=
  if Rlt_dec 0 (tot_ice p) then
    Rmin (nan_to_zero (numscale (-1 * dt) mflux)) (tot_ice p)
  else 0.
Definition sublimation (c : ccfg) (mflux wet_bulb : num) (p : cpix) : cpix * R :=
  let s := sublimation_amount (cc_dt c) mflux p in
  let '(p1, chg) := take false s p in
  (if Rlt_dec chg 0 then add_snow c (- chg) 0 (fresh_snow_density wet_bulb) None p1 else p1, s).

(** ** Runoff, 279-297: new pixel and snow.runoff. *)
Definition set_lw (w : R) (l : clayer) : clayer := CL (cth l) (cice l) w (ccold l) (cdens l) (calb l).
Definition route_layer (cap ro : R) (l : clayer) : clayer * R :=
  if Rlt_dec 0 (cice l + clw l) then
    let w := clw l + ro in
    let r := Rmax (w - cap) 0 in
    (set_lw (w - r) l, r)
  else (l, ro).
Definition runoff (c : ccfg) (rain : num) (p : cpix) : cpix * R :=
  let cap l := max_lwc (cc_lwc c) (cc_mx c) (to_layer l) in
  let '(n', r1) := route_layer (cap (l_new p)) (nan_to_zero rain) (l_new p) in
  let '(o', r2) := route_layer (cap (l_old p)) r1 (l_old p) in
  let '(f', r3) := route_layer 0 r2 (l_firn p) in
  let '(i', r4) := route_layer 0 r3 (l_ice p) in
  (CP n' o' f' i' (palb p), r4).

(** ** update_properties, 340-353 (layer densities and pixel albedo; the bulk properties of
    snow.py:snow_properties are [SnowModel.snow_depth] etc.) *)
Definition layer_density (l : clayer) : clayer :=
  if Rlt_dec 0 (cth l) then
    CL (cth l) (cice l) (clw l) (ccold l) (Some ((cice l + clw l) / cth l)) (calb l)
  else l.
Definition update_properties (p : cpix) : cpix :=
  CP (layer_density (l_new p)) (layer_density (l_old p)) (layer_density (l_firn p))
     (layer_density (l_ice p))
     (if Rlt_dec 0 (cth (l_new p)) then calb (l_new p)
      else if Rlt_dec 0 (cth (l_old p)) then calb (l_old p)
      else if Rlt_dec 0 (cth (l_firn p)) then calb (l_firn p)
      else if Rlt_dec 0 (cth (l_ice p)) then calb (l_ice p) else None).

(** ** update_layers, 299-338 *)
(** 306-312 *)
Definition refresh_layer (l : clayer) : option clayer :=
  if Rle_dec (cmass l) 0 then Some reset_layer
  else match numdiv (cmass l) (cdens l) with
       | Some t => Some (CL t (cice l) (clw l) (ccold l) (cdens l) (calb l))
       | None => None
       end.
(** 368-408 layer_transition for one pixel: (new source, new destination). *)
Definition wmean (w1 w2 : R) (x y : num) : num := numplus (numscale w1 x) (numscale w2 y).
Definition transition (pos : bool) (src dst : clayer) : option (clayer * clayer) :=
  if pos then
    if Rlt_dec 0 (cth src) then
      if Rlt_dec 0 (cth dst) then
        let w := cmass src + cmass dst in
        let w1 := cmass src / w in
        let w2 := cmass dst / w in
        let i := cice dst + cice src in
        let q := clw dst + clw src in
        let d := wmean w1 w2 (cdens src) (cdens dst) in
        match numdiv (i + q) d with
        | Some t =>
            Some (reset_layer,
                  CL t i q (ccold dst + ccold src) d (wmean w1 w2 (calb src) (calb dst)))
        | None => None
        end
      else if Req_EM_T (cth dst) 0 then Some (reset_layer, src) else Some (reset_layer, dst)
    else Some (reset_layer, dst)
  else Some (src, dst).
(** 321-327: month of this and of the previous time step (None at the first one). *)
Definition firn_month (firn_mon mon : Z) (prev : option Z) : bool :=
  (mon =? firn_mon)%Z && match prev with Some q => negb (q =? firn_mon)%Z | None => false end.
Definition update_layers (c : ccfg) (to_firn : bool) (p : cpix) : option cpix :=
  match refresh_layer (l_new p), refresh_layer (l_old p), refresh_layer (l_firn p),
        refresh_layer (l_ice p) with
  | Some n, Some o, Some f, Some i =>
      match transition (numge (cdens n) (tr_old c)) n o with
      | None => None
      | Some (n1, o1) =>
          match transition to_firn o1 f with
          | None => None
          | Some (o2, f2) =>
              match transition (numge (cdens f2) (tr_ice c)) f2 i with
              | None => None
              | Some (f3, i3) => Some (CP n1 o2 f3 i3 (palb p))
              end
          end
      end
  | _, _, _, _ => None
  end.

(** ** surface.py:249-302: potential melt at air temperatures >= 0 degC. [eb] is the energy balance
    remainder at 0 degC (W m-2), the same for every layer. One layer: returns the layer, the melt
    added and the time left. *)
Definition set_cold (x : R) (l : clayer) : clayer := CL (cth l) (cice l) (clw l) x (cdens l) (calb l).
Definition eb_melt_layer (eb time : R) (l : clayer) : clayer * R * R :=
  if Rlt_dec 0 (cth l) then
    if Rlt_dec 0 time then
      if Rlt_dec 0 eb then
        let mt := Lf * (cice l + ccold l) / eb in
        if Rlt_dec mt time then (set_cold 0 l, cice l, time - mt)
        else
          let x := ccold l - eb * time / Lf in
          (set_cold (Rmax x 0) l, - Rmin x 0, time - mt)
      else (l, 0, time)
    else (l, 0, time)
  else (l, 0, time).
Definition eb_melt (eb dt : R) (p : cpix) : cpix * R :=
  let '(n', m1, t1) := eb_melt_layer eb dt (l_new p) in
  let '(o', m2, t2) := eb_melt_layer eb t1 (l_old p) in
  let '(f', m3, t3) := eb_melt_layer eb t2 (l_firn p) in
  let '(i', m4, t4) := eb_melt_layer eb t3 (l_ice p) in
  (CP n' o' f' i' (palb p), m1 + m2 + m3 + m4).

(** ** surface.py:304-338: refreezing and cold content at air temperatures below 0 degC. [avail] is
    the cold content available (kg m-2). Returns the layer, the refrozen amount and what is left. *)
Definition avail_cc (c : ccfg) (eb : R) : R := Rmax (-1 * eb * cc_dt c / Lf * refr_factor c) 0.
Definition refreeze_layer (cap avail : R) (l : clayer) : clayer * R * R :=
  if Rlt_dec 0 (cth l) then
    if Rlt_dec 0 avail then
      let r := Rmin (clw l) avail in
      let lw := clw l - r in let ic := cice l + r in
      let a1 := avail - r in
      let b := Rmin a1 (cap * (ic + lw) - ccold l) in
      (CL (cth l) ic lw (ccold l + b) (cdens l) (calb l), r, a1 - b)
    else (l, 0, avail)
  else (l, 0, avail).
Definition eb_refreeze (c : ccfg) (eb : R) (p : cpix) : cpix * R :=
  let '(n', r1, a1) := refreeze_layer (cold_cap c) (avail_cc c eb) (l_new p) in
  let '(o', r2, a2) := refreeze_layer (cold_cap c) a1 (l_old p) in
  (CP n' o' (l_firn p) (l_ice p) (palb p), r1 + r2).

(** surface.py:229-338: the two regimes; snow-free pixels (swe = 0) and NaN air temperatures take
    neither. [eb] is the energy balance remainder at 0 degC. Returns (pixel, melt, refreezing). *)
Definition cryo_energy_balance (c : ccfg) (temp : num) (eb : R) (p : cpix) : cpix * R * R :=
  if Rlt_dec 0 (tot_ice p + tot_lw p) then
    match temp with
    | Some t =>
        if Rle_dec T0 t then let '(q, m) := eb_melt eb (cc_dt c) p in (q, m, 0)
        else let '(q, r) := eb_refreeze c eb p in (q, 0, r)
    | None => (p, 0, 0)
    end
  else (p, 0, 0).

(** ** One time step, model.py:357-379 without snow management *)
Inductive melt_method := EB | TIM (m : ti_method) (thr : R).
Record cforcing := CF {
  f_temp : num; f_wb : num; f_atemp : num;        (* air, wet-bulb, albedo decay temperature *)
  f_snow : num; f_rain : num; f_sw : num; f_surfalb : num;
  f_eb : R; f_mflux : num; f_firn : bool }.
Record coutput := CO { o_melt : num; o_refr : R; o_subl : R; o_runoff : R }.
Definition cstep (c : ccfg) (mm : melt_method) (f : cforcing) (p0 : cpix)
  : option (cpix * coutput) :=
  match compaction c (f_temp f) p0 with
  | None => None
  | Some p1 =>
      let p2 := accumulation c (f_snow f) (f_wb f) p1 in
      let p3 := albedo_aging c (f_atemp f) (f_snow f) p2 in
      let p4 := update_properties p3 in
      let '(p5, m, rf) :=
        match mm with
        | EB => let '(q, m, r) := cryo_energy_balance c (f_temp f) (f_eb f) p4 in (q, Some m, r)
        | TIM ti thr => (p4, temperature_index ti thr (cc_dt c) (f_temp f) (f_surfalb f) (f_sw f) p4, 0)
        end in
      let p6 := melt m p5 in
      let '(p7, sb) := sublimation c (f_mflux f) (f_wb f) p6 in
      let '(p8, ro) := runoff c (f_rain f) p7 in
      match update_layers c (f_firn f) (update_properties p8) with
      | None => None
      | Some p9 => Some (p9, CO m rf sb ro)
      end
  end.
Fixpoint crun (c : ccfg) (mm : melt_method) (fs : list cforcing) (p : cpix)
  : option (cpix * list coutput) :=
  match fs with
  | [] => Some (p, [])
  | f :: fs' =>
      match cstep c mm f p with
      | None => None
      | Some (p1, o) =>
          match crun c mm fs' p1 with
          | None => None
          | Some (p2, os) => Some (p2, o :: os)
          end
      end
  end.
