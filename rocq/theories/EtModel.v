(** Model of modules/evapotranspiration/evapotranspiration.py and of the leaf area index in landcover.py. One pixel
    at a time; real arithmetic; None is NaN unless stated otherwise. *)
From Verif Require Import Common Constants AtmosphereModel CanopyModel.
Open Scope R_scope.

(** * crop_coefficient, 640-770 *)
(** Lengths of the initial, development, mid and late stages of a cycle *)
Definition cycle := (nat * nat * nat * nat)%type.
Fixpoint cumsum (o : nat) (l : list nat) : list nat := match l with [] => [] | x :: t => (o + x)%nat :: cumsum (o + x) t end.
(** np.searchsorted (left) in a sorted array: number of smaller elements *)
Definition searchsorted (l : list nat) (v : Z) : nat := length (filter (fun x => (Z.of_nat x <? v)%Z) l).
(** 726: stack the four arrays and read them column by column *)
Fixpoint interleave (a b c d : list nat) : list nat :=
  match a, b, c, d with
  | w :: a', x :: b', y :: c', z :: d' => w :: x :: y :: z :: interleave a' b' c' d'
  | _, _, _, _ => []
  end.
(** 718-729; None: ValueError (arrays of different sizes) *)
Definition crop_index (day : Z) (li ld lm ll : list nat) : option (nat * list nat) :=
  if ((length li =? length ld) && (length ld =? length lm) && (length lm =? length ll))%nat then
    let lengths := interleave li ld lm ll in
    Some (searchsorted (0%nat :: cumsum 0 lengths) day, lengths)
  else None.
(** 731-750 *)
Definition kc_value (day : Z) (idx : nat) (lengths : list nat) (ini mid fin kmin : R) : R :=
  let cum := cumsum 0 lengths in
  let since := IZR (day - Z.of_nat (nth (idx - 2) cum 0%nat)) / INR (nth (idx - 1) lengths 0%nat) in
  if (idx =? 0)%nat || (idx =? S (length cum))%nat then kmin
  else match ((idx - 1) mod 4)%nat with
       | 0%nat => ini
       | 1%nat => ini + since * (mid - ini)
       | 2%nat => mid
       | _ => mid + since * (fin - mid)
       end.
Definition crop_coefficient (day : Z) (li ld lm ll : list nat) (ini mid fin kmin : R) : option R :=
  match crop_index day li ld lm ll with
  | Some (idx, lengths) => Some (kc_value day idx lengths ini mid fin kmin)
  | None => None
  end.
(** 752-765 *)
Definition plant_height (day : Z) (li ld lm ll : list nat) (ini mid fin kmin hmax : R) : option R :=
  match crop_index day li ld lm ll with
  | Some (idx, lengths) =>
      let hmin := if (idx =? 0)%nat || (idx =? S (length lengths))%nat then 0
                  else match ((idx - 1) mod 4)%nat with
                       | 0%nat => kmin / mid * hmax
                       | 1%nat => ini / mid * hmax
                       | _ => hmax
                       end in
      Some (Rmax (kc_value day idx lengths ini mid fin kmin / mid * hmax) hmin)
  | None => None
  end.

(** * landcover.py *)
(** growth_stage_lengths (87-99): four integers or a list of cycles *)
Inductive stages := Single4 (c : cycle) | Cycles (l : list cycle).
Definition stage_arrays (s : stages) : list nat * list nat * list nat * list nat :=
  match s with
  | Single4 (a, b, c, d) => ([a], [b], [c], [d])
  | Cycles l => (map (fun x => fst (fst (fst x))) l, map (fun x => snd (fst (fst x))) l, map (fun x => snd (fst x)) l, map snd l)
  end.
(** 101-103 *)
Definition growing_period_day (day_of_year plant_date : Z) : Z := day_of_year - plant_date + 1.
(** 53-85 lai: (LAI, effective LAI), None: ValueError. "length_ini + length_dev" adds two integers, but concatenates
    two lists. *)
Definition leaf_area_index (s : stages) (day_of_year plant_date : Z) (lai_min lai_max add : R) : option (R * R) :=
  let day := growing_period_day day_of_year plant_date in
  let v := match s with
           | Single4 (a, b, c, d) => crop_coefficient day [0%nat] [(a + b)%nat] [c] [d] lai_min lai_max lai_min lai_min
           | Cycles l => let '(li, ld, lm, ll) := stage_arrays s in
                         crop_coefficient day [0%nat] (li ++ ld) lm ll lai_min lai_max lai_min lai_min
           end in
  match v with Some x => Some (x, x + add) | None => None end.
(** 295-321: the crop coefficient and plant height of a class; the middle and final coefficients include the climate
    correction if at least 0.45 *)
Definition class_coefficient (s : stages) (scale : bool) (day : Z) (ini mid fin kmin clim hmax : R) : option (R * R) :=
  let mid' := if Rle_dec 0.45 mid then mid + clim else mid in
  let fin' := if Rle_dec 0.45 fin then fin + clim else fin in
  let '(li, ld, lm, ll) := stage_arrays s in
  match crop_coefficient day li ld lm ll ini mid' fin' kmin, plant_height day li ld lm ll ini mid' fin' kmin hmax with
  | Some k, Some h => Some (k, if scale then h else hmax)
  | _, _ => None
  end.

(** * Coefficients: 601-637, 773-835 *)
Definition climate_correction (ws rh h : R) : R :=
  (0.04 * (clip 1 6 ws - 2) - 0.004 * (clip 20 80 rh - 45)) * Rpower (clip 0.1 10 h / 3) 0.3.
(** x ** y for x >= 0, y > 0 *)
Definition powr (x y : R) : R := if Req_EM_T x 0 then 0 else Rpower x y.
(** sin_mean_angle <> 0 *)
Definition sparse_adjustment (kmin kmid vf h lat decl : R) : R :=
  let s := sin lat * sin decl + cos lat * cos decl * cos 0 in
  let eff := Rmax (vf / s) 0 in
  kmin + (kmid - kmin) * Rmin (Rmin 1 (2 * vf)) (powr eff (1 / (1 + h))).

(** * Reference evapotranspiration, 354-410 *)
Definition ref_net_radiation (albedo emissivity sw lw temp : R) : R :=
  (1 - albedo) * sw + (lw - STEFAN_BOLTZMANN * emissivity * temp ^ 4).
(** 392, kPa/K for T in deg C *)
Definition svp_slope (t : R) : R := 4098 * (0.6108 * exp (17.27 * t / (t + 237.3))) / (t + 237.3) ^ 2.
Definition reference_et (day : bool) (rn temp psych es ea ws h_wind dt : R) : R :=
  let g := (if day then 0.1 else 0.5) * rn in
  let conv := 1 / 1000000 * SECONDS_PER_HOUR in
  let t := temp - T0 in
  let d := svp_slope t in
  let gamma := psych / 1000 in
  let u2 := log_wind_profile ws h_wind 2 0.03 in
  let et := (0.408 * d * (rn * conv - g * conv) + gamma * 37 / (t + 273) * u2 * (es / 1000 - ea / 1000))
            / (d + gamma * (1 + 0.34 * u2)) in
  Rmax et 0 * dt / SECONDS_PER_HOUR.

(** * Soil parameters, 12-59 and 155-206 *)
Inductive texture := Sand | LoamySand | SandyLoam | Loam | SiltLoam | Silt | SiltClayLoam | SiltyClay | Clay.
Definition field_capacity (x : texture) : R :=
  match x with
  | Sand => (0.07 + 0.17) / 2 | LoamySand => (0.11 + 0.19) / 2 | SandyLoam => (0.18 + 0.28) / 2
  | Loam => (0.20 + 0.30) / 2 | SiltLoam => (0.22 + 0.36) / 2 | Silt => (0.28 + 0.36) / 2
  | SiltClayLoam => (0.30 + 0.37) / 2 | SiltyClay => (0.30 + 0.42) / 2 | Clay => (0.32 + 0.40) / 2
  end.
Definition wilting_point (x : texture) : R :=
  match x with
  | Sand => (0.02 + 0.07) / 2 | LoamySand => (0.03 + 0.10) / 2 | SandyLoam => (0.06 + 0.16) / 2
  | Loam => (0.07 + 0.17) / 2 | SiltLoam => (0.09 + 0.21) / 2 | Silt => (0.12 + 0.22) / 2
  | SiltClayLoam => (0.17 + 0.24) / 2 | SiltyClay => (0.17 + 0.29) / 2 | Clay => (0.20 + 0.24) / 2
  end.
Definition evaporable (x : texture) : R :=
  match x with
  | Sand => (2 + 7) / 2 | LoamySand => (4 + 8) / 2 | SandyLoam => (6 + 10) / 2 | Loam => (8 + 10) / 2
  | SiltLoam | Silt | SiltClayLoam => (8 + 11) / 2 | SiltyClay | Clay => (8 + 12) / 2
  end.
Definition depletion_adjustment (x : texture) : R :=
  match x with
  | Sand => 1.10 | LoamySand => 1.075 | SandyLoam => 1.05 | Loam => 1.025 | SiltLoam => 1 | Silt => 0.975
  | SiltClayLoam => 0.95 | SiltyClay => 0.925 | Clay => 0.90
  end.
(** Total evaporable, readily evaporable, total available and readily available water *)
Record soilpar := SP { s_tew : R; s_rew : R; s_taw : R; s_raw : R }.
Definition soil_params (x : texture) (evap_depth rooting_depth depletion_fraction : R) : soilpar :=
  let taw := 1000 * (field_capacity x - wilting_point x) * rooting_depth in
  SP (1000 * (field_capacity x - 0.5 * wilting_point x) * evap_depth) (evaporable x)
     taw (depletion_fraction * depletion_adjustment x * taw).

(** * Water balance *)
Record etst := ES { e_de : num; e_dpe : R; e_dr : num }.     (* surface depletion, its percolation, root zone depletion *)
Definition et_init : etst := ES (Some 0) 0 (Some 0).          (* 187-191, 203, 208-212 *)
(** 418-496 _dual_coeff_crop_et; veg: fixed vegetation fraction of sparse classes *)
Definition max_kc (clim kcb : R) : R := Rmax (1.2 + clim) (kcb + 0.05).
Definition vegetation_fraction (veg : option R) (clim kmin kcb h : R) : R :=
  match veg with
  | Some v => v
  | None => Rpower (Rmax (kcb - kmin) 0.01 / (max_kc clim kcb - kmin)) (1 + 0.5 * h)
  end.
Definition exposed_fraction (veg : R) : R := Rmin (1 - veg) 1.
(** 453-459; a missing depletion compares as false *)
Definition reduction_coeff (p : soilpar) (de : num) : R :=
  match de with
  | Some d => if Rlt_dec (s_rew p) d then (s_tew p - d) / (s_tew p - s_rew p) else 1
  | None => 1
  end.
Definition evaporation_coeff (p : soilpar) (clim kcb exposed : R) (de : num) : R :=
  Rmin (reduction_coeff p de * (max_kc clim kcb - kcb)) (exposed * max_kc clim kcb).
(** 473-496; division by an exposed fraction of 0 gives 0/0 (the evaporation is 0 then) *)
Definition surface_percolation (rain dpe : R) : R := Rmax (rain - dpe) 0.
Definition surface_balance (p : soilpar) (rain evap exposed : R) (de : num) (dpe' : R) : num :=
  match de with
  | Some d => if Req_EM_T exposed 0 then None
              else Some (Rmin (Rmax (d - rain + evap / exposed + dpe') 0) (s_tew p))
  | None => None
  end.
(** 498-506 _water_stress_coefficient; a zero denominator gives inf, -inf or NaN before clipping *)
Definition stress_coeff (p : soilpar) (dr : num) : num :=
  match dr with
  | None => None
  | Some d =>
      if Req_EM_T (s_taw p - s_raw p) 0
      then if Rlt_dec 0 (s_taw p - d) then Some 1 else if Rlt_dec (s_taw p - d) 0 then Some 0 else None
      else Some (clip 0 1 ((s_taw p - d) / (s_taw p - s_raw p)))
  end.
(** 508-539 _root_zone_water_balance: (deep percolation, new depletion) *)
Definition root_zone (p : soilpar) (rain : R) (et dr : num) : num * num :=
  match et, dr with
  | Some e, Some d => let dp := Rmax (rain - e - d) 0 in
                      (Some dp, Some (Rmin (Rmax (d - rain + e + dp) 0) (s_taw p)))
  | _, _ => (None, None)
  end.
(** Results of a time step: evaporation and transpiration (None also if not calculated), evapotranspiration, deep
    percolation, stress coefficient *)
Record etout := EO { o_evap : num; o_transp : num; o_et : num; o_dp : num; o_ks : num }.
Inductive kc_type := SingleKc | DualKc (veg : option R).
(** 240-352 for one pixel of an unsealed class with crop coefficient kc and plant height h. 323-326: water bodies
    ignore snow. *)
Definition et_step (ty : kc_type) (water : bool) (p : soilpar) (clim kmin kc h : R) (snow : bool) (et_ref rain : num)
    (s : etst) : etst * etout :=
  let et0 := nan_to_zero et_ref in
  let r := nan_to_zero rain in
  if snow && negb water then
    let '(dp, dr') := root_zone p r (Some 0) (e_dr s) in
    let z := match ty with SingleKc => None | DualKc _ => Some 0 end in
    (ES (e_de s) (e_dpe s) dr', EO z z (Some 0) dp None)
  else match ty with
  | SingleKc =>
      if water then (s, EO None None (Some (kc * et0)) (Some 0) None)
      else
        let ks := stress_coeff p (e_dr s) in
        let et := numscale (kc * et0) ks in
        let '(dp, dr') := root_zone p r et (e_dr s) in
        (ES (e_de s) (e_dpe s) dr', EO None None et dp ks)
  | DualKc veg =>
      let exposed := exposed_fraction (vegetation_fraction veg clim kmin kc h) in
      let evap := evaporation_coeff p clim kc exposed (e_de s) * et0 in
      let dpe' := surface_percolation r (e_dpe s) in
      let de' := surface_balance p r evap exposed (e_de s) dpe' in
      if water then (ES de' dpe' (e_dr s), EO (Some evap) (Some (kc * et0)) (Some (evap + kc * et0)) (Some 0) None)
      else
        let ks := stress_coeff p (e_dr s) in
        let tr := numscale (kc * et0) ks in
        let et := lift1 (Rplus evap) tr in
        let '(dp, dr') := root_zone p r et (e_dr s) in
        (ES de' dpe' dr', EO (Some evap) tr et dp ks)
  end.

(** * Sealed surfaces, 541-598 *)
(** 562-592: potential evaporation (kg m-2); rhoa as in the code. ws = 0: ra is infinite there and 0 here, and
    the quotient by ra is 0 in both. *)
Definition sealed_potential (hmax h_wind h_temp ws rn g temp psych es ea press dt : R) : R :=
  let zom := 0.123 * hmax in
  let d := 2 / 3 * hmax in
  let ra := ln ((h_wind - d) / zom) * ln ((h_temp - d) / (0.1 * zom)) / (VON_KARMAN ^ 2 * ws) in
  let slope := 1000 * svp_slope (temp - T0) in
  let rhoa := press / GAS_CONSTANT_DRY_AIR * (1.01 * temp) in
  let cp := psych * 0.622 * Lv / press in
  Rmax ((slope * (rn - g) + rhoa * cp * (es - ea) / ra) / (slope + psych * (1 + 0 / ra))) 0 / Lv * dt.
(** One time step: (interception, evaporation, runoff); potential None: NaN (590: set to 0) *)
Definition sealed_step (max_int : R) (snow : bool) (rain potential : num) (inter : R) : R * R * R :=
  if snow then (inter, 0, 0)
  else if gt0 rain then
    let i1 := inter + nan_to_zero rain in
    let runoff := Rmax (i1 - max_int) 0 in
    (i1 - runoff, 0, runoff)
  else
    let e := Rmin (nan_to_zero potential) inter in (inter - e, e, 0).
