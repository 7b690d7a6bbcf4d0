(** Model of modules/canopy/canopy.py. Real arithmetic; None is NaN. *)
From Verif Require Import Common Constants AtmosphereModel.
Open Scope R_scope.

Definition lift1 (f : R -> R) (x : num) : num := match x with Some a => Some (f a) | None => None end.
Definition lift2 (f : R -> R -> R) (x y : num) : num :=
  match x, y with Some a, Some b => Some (f a b) | _, _ => None end.

(** The parameters of the canopy configuration *)
Record ccfg := CC {
  c_ext : R; c_tscale : R; c_flow : R; c_radius : R; c_visc : R; c_storage : R; c_exposure : R; c_ddf : R }.

(** * meteorology, 67-118 *)
(** 24-31: length of the temperature buffer, dt in seconds *)
Definition buffer_size (dt : Z) : nat := Z.to_nat (Z.max (86400 / dt) 1).
(** 76; np.log(0) is -inf and clipped to 0, the logarithm of a negative number NaN *)
Definition canopy_frac (lai : num) : num :=
  match lai with
  | None => None
  | Some l => if Rlt_dec 0 l then Some (clip 0 1 (0.55 + 0.29 * ln l)) else if Req_EM_T l 0 then Some 0 else None
  end.
(** One pixel: forest or not, effective LAI, meteorological fields, temperature buffer *)
Record mpix := MP {
  m_forest : bool; m_lai : num; m_temp : num; m_sw : num; m_lw : num; m_rh : num; m_ws : num; m_buf : list num }.
(** buf[idx] = v *)
Fixpoint set_nth {A} (i : nat) (v : A) (l : list A) : list A :=
  match l, i with
  | [], _ => []
  | _ :: t, O => v :: t
  | x :: t, S i' => x :: set_nth i' v t
  end.
(** 82-85 *)
Definition next_idx (size idx : nat) : nat := if (S idx =? size)%nat then 0%nat else S idx.
(** 87-89 np.nanmean *)
Definition available (l : list num) : list R := flat_map (fun x => match x with Some v => [v] | None => [] end) l.
Definition nanmean (l : list num) : num :=
  match available l with [] => None | vs => Some (sumR vs / INR (length vs)) end.
(** 92-104, for a pixel with a mean temperature *)
Definition inside_temp (c : ccfg) (frac : num) (mean : R) (temp : num) : num :=
  let delta := clip (-2) 2 ((mean - T0) / 3) in
  lift2 (fun f t => t - f * (t - (c_tscale c * (t - mean) + mean - delta))) frac temp.
(** All fields of one pixel, given its buffer with the new temperature *)
Definition inside (c : ccfg) (p : mpix) (buf : list num) : mpix :=
  if m_forest p then
    let f := canopy_frac (m_lai p) in
    let temp := match nanmean buf with Some m => inside_temp c f m (m_temp p) | None => m_temp p end in
    MP true (m_lai p) temp
       (lift2 (fun l v => v * exp (- c_ext c * l)) (m_lai p) (m_sw p))                              (* 78-80 *)
       (match f with
        | None => None
        | Some f => lift2 (fun v t => (1 - f) * v + f * STEFAN_BOLTZMANN * t ^ 4) (m_lw p) temp     (* 106-109 *)
        end)
       (lift2 (fun f v => clip 0 100 (v * (1 + 0.1 * f))) f (m_rh p))                               (* 111-113 *)
       (lift2 (fun l v => v * exp (- 0.4 * (c_flow c * l))) (m_lai p) (m_ws p))                     (* 117-118 *)
       buf
  else MP false (m_lai p) (m_temp p) (m_sw p) (m_lw p) (m_rh p) (m_ws p) buf.
(** The whole grid. 91-104 combines an array over all forest pixels (canopy_frac) with arrays over the forest
    pixels with a mean temperature; numpy raises ValueError if their lengths differ, except for a single forest
    pixel (None). *)
Definition forests (ps : list mpix) : list mpix := filter m_forest ps.
Definition meteorology (c : ccfg) (idx : nat) (ps : list mpix) : option (list mpix) :=
  let stored := map (fun p => (p, set_nth idx (m_temp p) (m_buf p))) ps in
  let fs := filter (fun pb => m_forest (fst pb)) stored in
  let finite := filter (fun pb => match nanmean (snd pb) with Some _ => true | None => false end) fs in
  if (length finite =? length fs)%nat || (length fs =? 1)%nat
  then Some (map (fun pb => inside c (fst pb) (snd pb)) stored)
  else None.
(** 239-251 above_canopy_meteorology, one pixel: (temp, rel_hum, wind_speed, sw_in, lw_in) are copied inside the ROI *)
Definition above_canopy (roi : bool) (p : mpix) (old : num * num * num * num * num) : num * num * num * num * num :=
  if roi then (m_temp p, m_rh p, m_ws p, m_sw p, m_lw p) else old.

(** * snow, 120-236 *)
(** 129-176: mass loss rate of an ice sphere (temp > 0 and sat_vap_press > 0, no division by zero) *)
Definition omega (temp nusselt : R) : R :=
  1 / (THERM_COND_AIR * temp * nusselt) * (Ls * MOLAR_MASS_WATER / (UNIVERSAL_GAS_CONSTANT * temp) - 1).
Definition mass_loss_rate (c : ccfg) (albedo sw ws temp rh sat_vap_press : R) : R :=
  let absorbed := PI * c_radius c ^ 2 * (1 - albedo) * sw in
  let reynolds := clip 0.7 10 (2 * c_radius c * ws / c_visc c) in
  let nusselt := 1.79 + 0.606 * sqrt reynolds in
  let sat_dens := 0.622 * absolute_humidity temp sat_vap_press in
  let diffusivity := 2.06 / 100000 * Rpower (temp / 273) 1.75 in
  let om := omega temp nusselt in
  (2 * PI * c_radius c * (rh / 100 - 1) - absorbed * om) / (Ls * om + 1 / (diffusivity * sat_dens * nusselt)).
(** 177-185: missing rates count as 0 *)
Definition loss_coeff (c : ccfg) (rate : num) : R :=
  nan_to_zero rate / (4 / 3 * PI * ICE_DENSITY * c_radius c ^ 3).
(** 192: exp(-snowfall / capacity); for capacity 0 exp(-inf) = 0 or 0/0 *)
Definition decay (snowfall capacity : R) : num :=
  if Req_EM_T capacity 0 then (if Rlt_dec 0 snowfall then Some 0 else None) else Some (exp (- snowfall / capacity)).
(** 199-203 *)
Definition exposure (c : ccfg) (load : num) (capacity : R) : R :=
  match load with
  | Some n => if Rlt_dec 0 n then (if Req_EM_T capacity 0 then 0 else c_exposure c * Rpower (n / capacity) (- 0.4)) else 0
  | None => 0
  end.
Record cres := CR {
  r_load : num; r_intercepted : num; r_sublimation : num; r_melt : num; r_snowfall : num; r_precip : num }.
(** 187-236; dt in seconds, coeff the sublimation loss rate coefficient *)
Definition canopy_snow (c : ccfg) (dt lai coeff : R) (load temp snowfall rainfall : num) : cres :=
  let capacity := c_storage c * lai in
  let new := match load, snowfall with
             | Some l, Some p => match decay p capacity with
                                 | Some e => Some (l + 0.7 * (capacity - l) * (1 - e))
                                 | None => None
                                 end
             | _, _ => None
             end in
  let intercepted := lift2 (fun n l => Rmax (n - l) 0) new load in
  let sublimation := lift1 (fun n => Rmax (Rmin (- exposure c new capacity * n * coeff * dt) n) 0) new in
  let load1 := lift2 Rminus new sublimation in
  let melt := lift2 (fun t l => Rmin (c_ddf c * Rmax (t - T0) 0 * dt / (SECONDS_PER_HOUR * HOURS_PER_DAY)) l) temp load1 in
  let ground := lift2 Rplus (lift2 Rminus snowfall intercepted) melt in
  CR (lift2 Rminus load1 melt) intercepted sublimation melt ground (lift2 Rplus ground rainfall).
(** 57-65 initialize: forest pixels start without load *)
Definition initial_load : num := Some 0.
