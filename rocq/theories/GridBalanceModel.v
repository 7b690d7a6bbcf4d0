(** Model of surface.py:multilayer_energy_balance as the program on arrays that it is: masks of the region, of melting and of partly melting
    pixels, and local arrays with one entry for every pixel of a mask. Values may be missing ([None] = NaN). The arrays of the state are one
    list of records, flattened in row-major order. Division by zero is not modelled (as in SurfaceModel). *)
From Verif Require Import Common Constants AtmosphereModel SurfaceModel MeteoFieldsModel.
Open Scope R_scope.

(** * numpy primitives *)
(** a[mask] *)
Fixpoint take {A} (a : list A) (m : list bool) : list A :=
  match a, m with
  | x :: a', b :: m' => if b then x :: take a' m' else take a' m'
  | _, _ => []
  end.
(** a[mask] = values *)
Fixpoint put {A} (a : list A) (m : list bool) (vs : list A) : list A :=
  match a, m with
  | x :: a', true :: m' => match vs with v :: vs' => v :: put a' m' vs' | [] => x :: a' end
  | x :: a', false :: m' => x :: put a' m' vs
  | _, _ => a
  end.
(** model.roi_mask_to_global (model.py:287-312) of a mask with one entry for every pixel of the region *)
Fixpoint expand (roi mask : list bool) : list bool :=
  match roi with
  | [] => []
  | true :: r => match mask with b :: m => b :: expand r m | [] => false :: expand r [] end
  | false :: r => false :: expand r mask
  end.
(** In-place update of the pixels of a mask from their own values *)
Definition update {A} (g : list A) (m : list bool) (f : A -> A) : list A := put g m (map f (take g m)).
Definition map2 {A B C} (f : A -> B -> C) (l : list A) (l' : list B) : list C := map (fun x => f (fst x) (snd x)) (combine l l').
(** Comparisons with NaN are false. *)
Definition nlt (x y : num) : bool := match x, y with Some a, Some b => if Rlt_dec a b then true else false | _, _ => false end.
Definition nadd := nmap2 Rplus. Definition nsub := nmap2 Rminus. Definition nmul := nmap2 Rmult. Definition ndiv := nmap2 Rdiv.
(** a.sum(axis=0) *)
Definition nsum (l : list num) : num := fold_right nadd (Some 0) l.

(** * State of a pixel *)
(** What the energy balance reads: s.meteo, s.surface and s.snow *)
Record efor := EF { f_temp : num; f_wb : num; f_wind : num; f_q : num; f_press : num; f_rhoa : num; f_swin : num; f_lwin : num; f_rain : num; f_snow : num;
  f_alb : num; f_ch : num; f_cond : num; f_k : num; f_th : num; f_ltemp : num; f_swe : num; f_ices : list num }.
(** What it writes: surface.{temp, sat_spec_hum, moisture_availability, lat_heat, sens_heat_flux, moisture_flux, lat_heat_flux, heat_flux,
    advective_heat_flux}, snow.melt, meteo.{sw_out, lw_out, net_radiation} *)
Record epix := EP { ef : efor; e_ts : num; e_qsat : num; e_ma : num; e_lh : num; e_sens : num; e_moist : num; e_latf : num; e_heat : num; e_adv : num;
  e_melt : num; e_swout : num; e_lwout : num; e_net : num }.
Definition f_top (f : efor) : num := match f_ices f with [] => None | x :: _ => x end.

(** * The steps, surface.py:498-703 *)
Definition set_ts (v : num) (p : epix) : epix :=
  EP (ef p) v (e_qsat p) (e_ma p) (e_lh p) (e_sens p) (e_moist p) (e_latf p) (e_heat p) (e_adv p) (e_melt p) (e_swout p) (e_lwout p) (e_net p).
Definition set_melt (v : num) (p : epix) : epix :=
  EP (ef p) (e_ts p) (e_qsat p) (e_ma p) (e_lh p) (e_sens p) (e_moist p) (e_latf p) (e_heat p) (e_adv p) v (e_swout p) (e_lwout p) (e_net p).
(** 522-539 *)
Definition calc_sat_hum (p : epix) : epix :=
  EP (ef p) (e_ts p) (nmap2 specific_humidity (f_press (ef p)) (nmap (saturation_vapor_pressure None) (e_ts p))) (e_ma p) (e_lh p) (e_sens p) (e_moist p)
     (e_latf p) (e_heat p) (e_adv p) (e_melt p) (e_swout p) (e_lwout p) (e_net p).
(** 542-571 *)
Definition calc_moisture (p : epix) : epix :=
  let f := ef p in
  let v := ndiv (f_cond f) (nadd (f_cond f) (nmul (f_ch f) (f_wind f))) in
  let v := if nlt (e_qsat p) (f_q f) then Some 1 else v in
  let v := if nlt (Some 0) (f_swe f) then Some 1 else v in
  EP f (e_ts p) (e_qsat p) v (e_lh p) (e_sens p) (e_moist p) (e_latf p) (e_heat p) (e_adv p) (e_melt p) (e_swout p) (e_lwout p) (e_net p).
(** 574-595 *)
Definition calc_latent (p : epix) : epix :=
  let f := ef p in
  let v := nmap latent_heat_of_vaporization (f_temp f) in
  EP f (e_ts p) (e_qsat p) (e_ma p) (if nlt (Some 0) (f_top f) || nlt (e_ts p) (Some T0) then nadd v (Some Lf) else v)
     (e_sens p) (e_moist p) (e_latf p) (e_heat p) (e_adv p) (e_melt p) (e_swout p) (e_lwout p) (e_net p).
(** 498-519 *)
Definition calc_radiation (p : epix) : epix :=
  let f := ef p in
  let so := nmul (f_alb f) (f_swin f) in
  let lo := nmap lw_out (e_ts p) in
  EP f (e_ts p) (e_qsat p) (e_ma p) (e_lh p) (e_sens p) (e_moist p) (e_latf p) (e_heat p) (e_adv p) (e_melt p) so lo
     (nsub (nadd (nsub (f_swin f) so) (f_lwin f)) lo).
(** 598-622 *)
Definition calc_flux (p : epix) : epix :=
  let f := ef p in
  EP f (e_ts p) (e_qsat p) (e_ma p) (e_lh p) (e_sens p) (e_moist p) (e_latf p)
     (ndiv (nmul (nmul (Some 2) (f_k f)) (nsub (e_ts p) (f_ltemp f))) (f_th f))
     (e_adv p) (e_melt p) (e_swout p) (e_lwout p) (e_net p).
(** 625-669; [sensible]: keyword argument *)
Definition n_rcu (f : efor) : num := nmul (nmul (f_rhoa f) (f_ch f)) (f_wind f).
Definition calc_turbulent (sensible : bool) (p : epix) : epix :=
  let f := ef p in
  let mf := nmul (nmul (e_ma p) (n_rcu f)) (nsub (f_q f) (e_qsat p)) in
  EP f (e_ts p) (e_qsat p) (e_ma p) (e_lh p)
     (if sensible then nmul (nmul (Some SPEC_HEAT_CAP_DRY_AIR) (n_rcu f)) (nsub (f_temp f) (e_ts p)) else e_sens p)
     mf (nmul (e_lh p) mf) (e_heat p) (e_adv p) (e_melt p) (e_swout p) (e_lwout p) (e_net p).
(** 672-703 *)
Definition calc_advective (dt : R) (p : epix) : epix :=
  let f := ef p in
  EP f (e_ts p) (e_qsat p) (e_ma p) (e_lh p) (e_sens p) (e_moist p) (e_latf p) (e_heat p)
     (ndiv (nadd (nmul (nmul (Some SPEC_HEAT_CAP_WATER) (nsub (f_temp f) (e_ts p))) (f_rain f))
                 (nmul (nmul (Some SPEC_HEAT_CAP_ICE) (nsub (f_wb f) (e_ts p))) (f_snow f))) (Some dt))
     (e_melt p) (e_swout p) (e_lwout p) (e_net p).
(** 738-787 for one pixel of the mask; missing changes are set to 0. *)
Definition nsolve (dt : R) (p : epix) : changes :=
  let f := ef p in
  let dq := ndiv (nmul (e_lh p) (e_qsat p)) (nmul (Some SPEC_GAS_CONSTANT_WATER_VAPOR) (nmap (fun t => t ^ 2) (e_ts p))) in
  let num_ := nsub (nsub (nadd (nadd (nadd (e_net p) (e_sens p)) (e_latf p)) (e_adv p)) (e_heat p))
                   (nmul (Some Lf) (ndiv (e_melt p) (Some dt))) in
  let den := nadd (nadd (nmul (nadd (Some SPEC_HEAT_CAP_DRY_AIR) (nmul (nmul (e_lh p) (e_ma p)) dq)) (n_rcu f))
                        (ndiv (nmul (Some 2) (f_k f)) (f_th f)))
                  (nmul (Some (4 * STEFAN_BOLTZMANN)) (nmap (fun t => t ^ 3) (e_ts p))) in
  let dT := ndiv num_ den in
  CH (nan_to_zero dT) (nan_to_zero (nmul (nmul (nmul (e_ma p) (n_rcu f)) dq) dT))
     (nan_to_zero (ndiv (nmul (nmul (Some 2) (f_k f)) dT) (f_th f)))
     (nan_to_zero (nmul (nmul (Some SPEC_HEAT_CAP_DRY_AIR) (n_rcu f)) dT)).
(** 175-185: melt of partly melting pixels *)
Definition partial_melt (dt : R) (p : epix) : num :=
  nmap (fun x => Rmax x 0)
    (nmul (ndiv (nsub (nadd (nadd (nadd (e_net p) (e_sens p)) (e_latf p)) (e_adv p)) (e_heat p)) (Some Lf)) (Some dt)).
(** 193-197: adding the changes *)
Definition add_changes (p : epix) (c : changes) : epix :=
  EP (ef p) (nadd (e_ts p) (Some (d_temp c))) (e_qsat p) (e_ma p) (e_lh p) (nadd (e_sens p) (Some (d_sens c))) (nadd (e_moist p) (Some (d_moist c)))
     (e_latf p) (nadd (e_heat p) (Some (d_heat c))) (e_adv p) (e_melt p) (e_swout p) (e_lwout p) (e_net p).

(** * 130-202 multilayer_energy_balance: arrays and masks *)
Definition grid_balance (dt : R) (roi : list bool) (g : list epix) : list epix :=
  let g := update g roi calc_sat_hum in
  let g := update g roi calc_moisture in
  let g := update g roi calc_latent in
  let g := update g roi (set_melt (Some 0)) in
  let g := update g roi calc_radiation in
  let g := update g roi calc_flux in
  let g := update g roi (calc_turbulent true) in
  let g := update g roi (calc_advective dt) in
  let ch := map (nsolve dt) (take g roi) in
  let melties_roi := map2 (fun p c => nlt (Some T0) (nadd (e_ts p) (Some (d_temp c))) && nlt (Some 0) (f_top (ef p))) (take g roi) ch in
  let '(g, ch) :=
    if existsb (fun b => b) melties_roi then
      let melties := expand roi melties_roi in
      let g := update g melties (fun p => set_melt (nsum (f_ices (ef p))) p) in
      let ch := put ch melties_roi (map (nsolve dt) (take g melties)) in
      let partial_roi := map2 andb melties_roi (map2 (fun p c => nlt (nadd (e_ts p) (Some (d_temp c))) (Some T0)) (take g roi) ch) in
      if existsb (fun b => b) partial_roi then
        let pm := expand roi partial_roi in
        let g := update g pm (set_ts (Some T0)) in
        let g := update g pm calc_latent in
        let g := update g pm calc_sat_hum in
        let g := update g pm calc_radiation in
        let g := update g pm calc_flux in
        let g := update g pm (calc_turbulent true) in
        let g := update g pm (calc_advective dt) in
        let g := update g pm (fun p => set_melt (partial_melt dt p) p) in
        (g, put ch partial_roi (map (fun _ => no_change) (take ch partial_roi)))
      else (g, ch)
    else (g, ch) in
  let g := put g roi (map2 add_changes (take g roi) ch) in
  let g := update g roi calc_radiation in
  let g := update g roi calc_latent in
  update g roi (calc_turbulent false).
