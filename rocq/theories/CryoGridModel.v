(** Model of surface.py:cryo_layer_energy_balance and iterate_surface_temperature as the programs on arrays that they are: masks of the region,
    of melting, freezing and iterating pixels, compressed arrays which shrink while pixels converge. Values of the meteorology and of the fluxes
    may be missing ([None] = NaN), those of the layers are not. Arrays of the state are one list of records. Division by zero gives a missing
    value (a pixel of the secant iteration with equal residuals stops; in the code it makes an infinite step and stops one step later). *)
From Verif Require Import Common Constants AtmosphereModel SurfaceModel MeteoFieldsModel GridBalanceModel.
From Verif Require CryoModel.
Open Scope R_scope.
Notation clayer := CryoModel.clayer.

(** * numpy primitives *)
(** np.where(mask.flat)[0] *)
Fixpoint where_from (o : nat) (m : list bool) : list nat :=
  match m with [] => [] | b :: m' => if b then o :: where_from (S o) m' else where_from (S o) m' end.
(** mask.flat[indices] = False *)
Definition clear (m : list bool) (idxs : list nat) : list bool :=
  map2 (fun i (b : bool) => if existsb (Nat.eqb i) idxs then false else b) (seq 0 (length m)) m.
Definition any (m : list bool) : bool := existsb (fun b => b) m.
Definition count (m : list bool) : nat := length (filter (fun b => b) m).
(** Outcome of a loop: finished, not finished within the given number of iterations, or an assignment of arrays with different sizes *)
Inductive outcome A := Done (a : A) | Unfinished | ShapeError.
Arguments Done {A}. Arguments Unfinished {A}. Arguments ShapeError {A}.
Definition obind {A B} (o : outcome A) (f : A -> outcome B) : outcome B :=
  match o with Done a => f a | Unfinished => Unfinished | ShapeError => ShapeError end.
Definition nle (x y : num) : bool := match x, y with Some a, Some b => if Rle_dec a b then true else false | _, _ => false end.

(** * State of a pixel *)
(** The surface ([c_e], whose inputs include snow.swe and snow.ice_content at the beginning), the cryo layers, snow.refreezing and the local
    arrays available_melt_time, en_bal, layer_melt_time and available_cc (of which only the entries in the region are used) *)
Record cgp := CG { c_e : epix; c_lay : list clayer; c_refr : num; c_time : R; c_eb : num; c_lmt : R; c_av : num }.
Definition with_e (f : epix -> epix) (p : cgp) : cgp := CG (f (c_e p)) (c_lay p) (c_refr p) (c_time p) (c_eb p) (c_lmt p) (c_av p).
Definition with_time (f : cgp -> R) (p : cgp) : cgp := CG (c_e p) (c_lay p) (c_refr p) (f p) (c_eb p) (c_lmt p) (c_av p).
Definition with_eb (v : num) (p : cgp) : cgp := CG (c_e p) (c_lay p) (c_refr p) (c_time p) v (c_lmt p) (c_av p).
Definition with_lmt (f : cgp -> R) (p : cgp) : cgp := CG (c_e p) (c_lay p) (c_refr p) (c_time p) (c_eb p) (f p) (c_av p).
Definition with_av (f : cgp -> num) (p : cgp) : cgp := CG (c_e p) (c_lay p) (c_refr p) (c_time p) (c_eb p) (c_lmt p) (f p).
Definition with_refr (f : cgp -> num) (p : cgp) : cgp := CG (c_e p) (c_lay p) (f p) (c_time p) (c_eb p) (c_lmt p) (c_av p).
Definition set_heat (v : num) (p : epix) : epix :=
  EP (ef p) (e_ts p) (e_qsat p) (e_ma p) (e_lh p) (e_sens p) (e_moist p) (e_latf p) v (e_adv p) (e_melt p) (e_swout p) (e_lwout p) (e_net p).
Definition add_melt (v : R) (p : cgp) : cgp := with_e (fun e => set_melt (nadd (e_melt e) (Some v)) e) p.
Definition layer (k : nat) (p : cgp) : clayer := nth k (c_lay p) CryoModel.reset_layer.
Fixpoint set_nth {A} (k : nat) (v : A) (l : list A) : list A :=
  match l, k with [], _ => [] | _ :: l', O => v :: l' | x :: l', S k' => x :: set_nth k' v l' end.
Definition with_layer (k : nat) (f : clayer -> clayer) (p : cgp) : cgp :=
  CG (c_e p) (set_nth k (f (layer k p)) (c_lay p)) (c_refr p) (c_time p) (c_eb p) (c_lmt p) (c_av p).

(** * 790-840 energy_balance_remainder: the pixels of a mask get the given temperatures; the result is stored as en_bal *)
Definition remainder_value (p : epix) : num := nsub (nadd (nadd (nadd (e_net p) (e_sens p)) (e_latf p)) (e_adv p)) (e_heat p).
Definition balance_remainder (dt : R) (g : list cgp) (pos : list bool) (temps : list num) : outcome (list cgp * list num) :=
  if (length temps =? count pos)%nat then
    let g := put g pos (map2 (fun p t => with_e (set_ts t) p) (take g pos) temps) in
    let g := update g pos (with_e calc_radiation) in
    let g := update g pos (with_e calc_sat_hum) in
    let g := update g pos (with_e (calc_turbulent true)) in
    let g := update g pos (with_e (calc_advective dt)) in
    Done (g, map (fun p => remainder_value (c_e p)) (take g pos))
  else ShapeError.
Definition store_eb (g : list cgp) (pos : list bool) (vals : list num) : list cgp := put g pos (map2 (fun p v => with_eb v p) (take g pos) vals).

(** * 843-903 iterate_surface_temperature *)
(** 882: the secant step *)
Definition secant_step (x0 x1 : R) (y0 y1 : num) : num :=
  match y0, y1 with Some a, Some b => if Req_EM_T b a then None else Some ((x1 - x0) / (b - a) * b) | _, _ => None end.
Definition beyond (d : num) : bool := match d with Some d => if Rlt_dec secant_tol (Rabs d) then true else false | None => false end.
Definition minus_step (x : R) (d : num) : R := match d with Some d => x - d | None => x end.
(** 881-900. [rem] stands for energy_balance_remainder(model, ...). *)
Fixpoint secant_loop {G} (rem : G -> list bool -> list R -> outcome (G * list num)) (fuel : nat) (g : G) (mask : list bool) (idxs : list nat)
    (x0 x1 : list R) (y0 y1 : list num) : outcome G :=
  match fuel with
  | O => Unfinished
  | S fuel' =>
      let d := map2 (fun xx yy => secant_step (fst xx) (snd xx) (fst yy) (snd yy)) (combine x0 x1) (combine y0 y1) in
      let iter_pos := map beyond d in
      if negb (any iter_pos) then Done g
      else
        let d := take d iter_pos in
        let x1 := take x1 iter_pos in
        let y1 := take y1 iter_pos in
        let x0 := x1 in
        let y0 := y1 in
        let x1 := map2 minus_step x1 d in
        let mask := clear mask (take idxs (map negb iter_pos)) in
        obind (rem g mask x1) (fun r => let '(g, y1) := r in
        secant_loop rem fuel' g mask (take idxs iter_pos) x0 x1 y0 y1)
  end.
(** 872-903 *)
Definition clip_ts (p : cgp) : cgp := with_e (fun e => set_ts (nmap (fun x => Rmin x T0) (e_ts e)) e) p.
Definition iterate_secant (dt : R) (fuel : nat) (g : list cgp) (frosties : list bool) : outcome (list cgp) :=
  if any frosties then
    let rem g m (xs : list R) := balance_remainder dt g m (map Some xs) in
    let idxs := where_from 0 frosties in
    let x0 := map (fun _ => T0 - 10) idxs in
    let x1 := map (fun _ => T0) idxs in
    obind (rem g frosties x0) (fun r => let '(g, y0) := r in
    obind (rem g frosties x1) (fun r => let '(g, y1) := r in
    obind (secant_loop rem fuel g frosties idxs x0 x1 y0 y1) (fun g =>
    Done (update g frosties clip_ts))))
  else Done g.
(** 860-871; frosties[roi] & (en_bal[roi] < 0) *)
Fixpoint legacy_loop (dt : R) (roi frosties : list bool) (temps : list R) (g : list cgp) (mask : list bool) : outcome (list cgp) :=
  match temps with
  | [] => Done g
  | t :: temps' =>
      obind (balance_remainder dt g mask (map (fun _ => Some t) (where_from 0 mask))) (fun r => let '(g, vals) := r in
      let g := store_eb g mask vals in
      let mask := expand roi (map2 andb (take frosties roi) (map (fun p => nlt (c_eb p) (Some 0)) (take g roi))) in
      legacy_loop dt roi frosties temps' g mask)
  end.
Definition lowest_temp (g : list cgp) (m : list bool) : R :=
  match map (fun p => nan_to_zero (f_temp (ef (c_e p)))) (take g m) with [] => 0 | t :: ts => fold_right Rmin t ts end.
Definition iterate_legacy (dt : R) (roi : list bool) (g : list cgp) (frosties : list bool) : outcome (list cgp) :=
  if any frosties then
    let low := lowest_temp g frosties in
    let g := update g roi (with_eb (Some 0)) in
    legacy_loop dt roi frosties (legacy_grid low) g frosties
  else Done g.

(** * 205-346 cryo_layer_energy_balance *)
Record gcfg := GC { g_dt : R; g_flux : R; g_refr : R; g_cap : R }. (* timestep, surface_heat_flux, refreezing_factor, cold_holding_capacity *)
Definition air (p : cgp) : num := f_temp (ef (c_e p)).
Definition has_snow (p : cgp) : bool := nlt (Some 0) (f_swe (ef (c_e p))).
(** 257-302: one layer of the melting loop *)
Definition melt_layer (c : gcfg) (roi melties_roi melties : list bool) (k : nat) (g : list cgp) : outcome (list cgp) :=
  let possible := expand roi (map2 andb melties_roi
    (map (fun p => (if Rlt_dec 0 (CryoModel.cth (layer k p)) then true else false) && (if Rlt_dec 0 (c_time p) then true else false)) (take g roi))) in
  obind (balance_remainder (g_dt c) g possible (map (fun p => e_ts (c_e p)) (take g possible))) (fun r => let '(g, vals) := r in
  let g := store_eb g possible vals in
  let layer_melties := expand roi (map2 andb (take possible roi) (map (fun p => nlt (Some 0) (c_eb p)) (take g roi))) in
  let g := update g roi (with_lmt (fun _ => 0)) in
  let g := update g layer_melties
             (with_lmt (fun p => Lf * (CryoModel.cice (layer k p) + CryoModel.ccold (layer k p)) / nan_to_zero (c_eb p))) in
  let total := expand roi (map2 andb (take layer_melties roi) (map (fun p => if Rlt_dec (c_lmt p) (c_time p) then true else false) (take g roi))) in
  let partial := expand roi (map2 andb (take layer_melties roi) (map (fun p => if Rle_dec (c_time p) (c_lmt p) then true else false) (take g roi))) in
  let g := update g total (fun p => add_melt (CryoModel.cice (layer k p)) p) in
  let g := update g total (with_layer k (CryoModel.set_cold 0)) in
  let g := update g partial (fun p => with_layer k (fun l => CryoModel.set_cold (CryoModel.ccold l - nan_to_zero (c_eb p) * c_time p / Lf) l) p) in
  let g := update g partial (fun p => add_melt (-1 * Rmin (CryoModel.ccold (layer k p)) 0) p) in
  let g := update g partial (with_layer k (fun l => CryoModel.set_cold (Rmax (CryoModel.ccold l) 0) l)) in
  Done (update g melties (with_time (fun p => c_time p - c_lmt p)))).
(** 312-338: one layer of the refreezing loop; [amount] and [buildup] are the local arrays *)
Definition refreeze_grid (c : gcfg) (roi frosties_roi : list bool) (k : nat) (g : list cgp) : list cgp :=
  let conties := expand roi (map2 andb frosties_roi
    (map (fun p => (if Rlt_dec 0 (CryoModel.cth (layer k p)) then true else false) && nlt (Some 0) (c_av p)) (take g roi))) in
  let amount := map (fun p => Rmin (CryoModel.clw (layer k p)) (nan_to_zero (c_av p))) (take g conties) in
  let each (f : cgp -> R -> cgp) (g : list cgp) (a : list R) := put g conties (map2 f (take g conties) a) in
  let g := each (fun p a => with_layer k (fun l => CryoModel.set_lw (CryoModel.clw l - a) l) p) g amount in
  let g := each (fun p a => with_layer k (fun l =>
    CryoModel.CL (CryoModel.cth l) (CryoModel.cice l + a) (CryoModel.clw l) (CryoModel.ccold l) (CryoModel.cdens l) (CryoModel.calb l)) p) g amount in
  let g := each (fun p a => with_refr (fun p => nadd (c_refr p) (Some a)) p) g amount in
  let g := each (fun p a => with_av (fun p => nsub (c_av p) (Some a)) p) g amount in
  let buildup := map (fun p => let l := layer k p in
    Rmin (nan_to_zero (c_av p)) (g_cap c * (CryoModel.cice l + CryoModel.clw l) - CryoModel.ccold l)) (take g conties) in
  let g := each (fun p b => with_layer k (fun l => CryoModel.set_cold (CryoModel.ccold l + b) l) p) g buildup in
  each (fun p b => with_av (fun p => nsub (c_av p) (Some b)) p) g buildup.
Inductive iteration := Secant (fuel : nat) | Legacy.
Definition cryo_grid (c : gcfg) (it : iteration) (roi : list bool) (g : list cgp) : outcome (list cgp) :=
  let g := update g roi (fun p => with_e (set_ts (air p)) p) in
  let snowies_roi := map has_snow (take g roi) in
  let melties_roi := map2 andb snowies_roi (map (fun p => nle (Some T0) (air p)) (take g roi)) in
  let frosties_roi := map2 andb snowies_roi (map (fun p => nlt (air p) (Some T0)) (take g roi)) in
  let snowies := expand roi snowies_roi in
  let melties := expand roi melties_roi in
  let frosties := expand roi frosties_roi in
  let snow_freeies := expand roi (map negb snowies_roi) in
  let g := update g roi (with_e calc_sat_hum) in
  let g := update g roi (with_e calc_moisture) in
  let g := update g roi (with_e calc_latent) in
  let g := update g roi (with_e (set_melt (Some 0))) in
  let g := update g roi (with_refr (fun _ => Some 0)) in
  let g := update g snowies (with_e (set_heat (Some (g_flux c)))) in
  let g := update g snow_freeies (with_e (set_heat None)) in
  let g := update g melties (with_e (set_ts (Some T0))) in
  let g := update g roi (with_time (fun _ => 0)) in
  let g := update g roi (with_eb None) in
  let g := update g melties (with_time (fun _ => g_dt c)) in
  obind (fold_left (fun o k => obind o (melt_layer c roi melties_roi melties k)) [0; 1; 2; 3]%nat (Done g)) (fun g =>
  obind (balance_remainder (g_dt c) g frosties (map (fun _ => Some T0) (where_from 0 frosties))) (fun r => let '(g, vals) := r in
  let g := store_eb g frosties vals in
  let g := update g roi (with_av (fun p => nmap (fun e => Rmax (-1 * e * g_dt c / Lf * g_refr c) 0) (c_eb p))) in
  let g := fold_left (fun g k => refreeze_grid c roi frosties_roi k g) [0; 1]%nat g in
  obind (match it with Secant fuel => iterate_secant (g_dt c) fuel g frosties | Legacy => iterate_legacy (g_dt c) roi g frosties end) (fun g =>
  let g := update g roi (with_e calc_radiation) in
  let g := update g roi (with_e (calc_turbulent true)) in
  Done (update g roi (with_e (calc_advective (g_dt c))))))).
