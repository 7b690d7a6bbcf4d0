(** Model of modules/snow/multilayermodel.py, one pixel at a time.

    Simplifications: floats are reals; NaN is modelled for the inputs melt, rainfall, snowfall,
    moisture flux and temperatures ([num]) and for the divisions that can be 0/0 (a boolean flag
    in the result tells that a NaN or an out-of-bounds access was produced). *)
From Verif Require Import Common Constants SnowModel.

(** State of one pixel: number of active layers (snow.num_layers[i, j]) and all layer slots
    (index 0 is the top; the slots beyond [ns] are inactive). *)
Record pixel := mkP { ns : nat; lays : list layer }.

Definition empty_layer : layer := mkL 0 0 0 T0 0.

(** multilayermodel.py:46-59, initialize, for a configuration with [n] layers. *)
Definition init_pixel (n : nat) : pixel := mkP 0 (repeat empty_layer n).

(** multilayermodel.py:265-291: loop body of _melt over the layers, top layer first.
    [chg] is ice_content_change (NaN if the potential melt is NaN), [act] is actual_melt. *)
Fixpoint melt_loop (n : nat) (chg : num) (act : R) (lys : list layer) : list layer * R :=
  match n, lys with
  | S n', l :: lys' =>
      let cold_content := hc l * (T0 - tmp l) in
      let over := if Rlt_dec cold_content 0 then true else false in
      let chg1 := if over then option_map (fun x => x - cold_content / Lf) chg else chg in
      let t1 := if over then T0 else tmp l in
      match chg1 with
      | Some x =>
          if Rlt_dec 0 x then
            if Rlt_dec (ice l) x then (* layer melts completely *)
              let r := melt_loop n' (Some (x - ice l)) (act + ice l) lys' in
              (mkL 0 0 (lwc l + ice l) t1 (hc l) :: fst r, snd r)
            else (* layer melts partially *)
              let r := melt_loop n' (Some 0) (act + x) lys' in
              (mkL (th l * (1 - x / ice l)) (ice l - x) (lwc l + x) t1 (hc l) :: fst r, snd r)
          else
            let r := melt_loop n' (Some x) act lys' in
            (mkL (th l) (ice l) (lwc l) t1 (hc l) :: fst r, snd r)
      | None =>
          let r := melt_loop n' None act lys' in
          (mkL (th l) (ice l) (lwc l) t1 (hc l) :: fst r, snd r)
      end
  | _, _ => (lys, act)
  end.
(** multilayermodel.py:213-291: new pixel state and the value written to snow.melt. *)
Definition melt (p : pixel) (pot : num) : pixel * R :=
  let r := melt_loop (ns p) pot 0 (lays p) in (mkP (ns p) (fst r), snd r).

(** multilayermodel.py:339-348: loop of _sublimation. The result also contains the amount left
    over and a flag telling that [0 / 0] made a thickness NaN (partial branch on a layer without
    ice). *)
Fixpoint sublim_loop (n : nat) (chg : R) (lys : list layer) : list layer * R * bool :=
  match n, lys with
  | S n', l :: lys' =>
      if Rlt_dec (ice l) chg then (* complete sublimation of layer *)
        let '(ls', rest, nan) := sublim_loop n' (chg - ice l) lys' in
        (mkL 0 0 (lwc l) (tmp l) (hc l) :: ls', rest, nan)
      else
        let '(ls', rest, nan) := sublim_loop n' 0 lys' in
        (mkL (th l * (1 - chg / ice l)) (ice l - chg) (lwc l) (tmp l) (hc l) :: ls', rest,
         (if Req_EM_T (ice l) 0 then true else false) || nan)
  | _, _ => (lys, chg, false)
  end.
(** multilayermodel.py:294-348 for a given value of snow.sublimation. *)
Definition sublimate (p : pixel) (subl : R) : pixel * bool :=
  let chg := Rmax subl 0 in
  if Rlt_dec 0 chg then
    let '(ls', _, nan) := sublim_loop (ns p) chg (lays p) in (mkP (ns p) ls', nan)
  else (p, false).

(** multilayermodel.py:176-210: add_snow for one pixel of [pos]; [amount] is ice_content,
    [water] is liquid_water_content, [air] the air temperature (NaN: np.minimum propagates NaN, not
    modelled), [amax] the maximum albedo. The albedo argument None is the only one used by the
    callers. A pixel without layer slots cannot exist (min_thickness is non-empty). *)
Definition add_snow (amax : R) (air : R) (amount : num) (water density : R)
  (p : pixel) (alb : num) : pixel * num :=
  let a := nan_to_zero amount in
  let fresh := Nat.eqb (ns p) 0 && (if Rlt_dec 0 a then true else false) in
  match lays p with
  | l :: rest =>
      (mkP (if fresh then 1%nat else ns p)
           (mkL (th l + a / density) (ice l + a) (lwc l + water)
                (if fresh then Rmin air T0 else tmp l) (hc l) :: rest),
       if fresh then Some amax else alb)
  | [] => (p, alb)
  end.

(** multilayermodel.py:67-75, accumulation: only where snowfall > 0. *)
Definition accumulation (amax air : R) (snowfall wet_bulb : num) (p : pixel) (alb : num)
  : pixel * num :=
  if gt0 snowfall then add_snow amax air snowfall 0 (fresh_snow_density wet_bulb) p alb
  else (p, alb).

Definition total_ice (p : pixel) : R := sumR (map ice (lays p)).
Definition total_lwc (p : pixel) : R := sumR (map lwc (lays p)).
Definition pack_mass (p : pixel) : R := sumR (map (fun l => ice l + lwc l) (lays p)).

(** multilayermodel.py:108-118: value of snow.sublimation for one pixel. [mflux] is the surface
    moisture flux, [tsurf] the surface temperature. *)
Definition sublimation_amount (dt : R) (mflux tsurf : num) (p : pixel) : R :=
  let top_ice := match lays p with l :: _ => ice l | [] => 0 end in
  let cold := match tsurf with Some t => if Rlt_dec t T0 then true else false | None => false end in
  if (if Rlt_dec 0 top_ice then true else false) || cold then
    let pot := match mflux with Some m => -1 * m * dt | None => 0 end in
    Rmin pot (total_ice p)
  else 0.

(** multilayermodel.py:108-137: deposition first, then sublimation. Result: pixel, albedo,
    snow.sublimation, NaN flag. *)
Definition sublimation (dt amax air : R) (mflux tsurf wet_bulb : num) (p : pixel) (alb : num)
  : pixel * num * R * bool :=
  let s := sublimation_amount dt mflux tsurf p in
  let frost := - Rmin s 0 in
  let '(p1, alb1) :=
    if Rlt_dec 0 frost then add_snow amax air (Some frost) 0 (fresh_snow_density wet_bulb) p alb
    else (p, alb) in
  let '(p2, nan) := sublimate p1 s in
  (p2, alb1, s, nan).

(** multilayermodel.py:420-439: loop of _runoff. [mx] is the list of max_liquid_water_content,
    [ro] the current value of runoff[i, j], [rf] of refreezing[i, j]. *)
Fixpoint runoff_loop (n : nat) (mx : list R) (ro rf : R) (lys : list layer)
  : list layer * R * R :=
  match n, lys, mx with
  | S n', l :: lys', m :: mx' =>
      let w := lwc l + ro in
      let ro1 := if Rlt_dec m w then w - m else 0 in
      let w1 := if Rlt_dec m w then m else w in
      let cold_content := hc l * (T0 - tmp l) in
      let d := if Rlt_dec 0 cold_content then Rmin w1 (cold_content / Lf) else 0 in
      let t1 := if Rlt_dec 0 cold_content then tmp l + Lf * d / hc l else tmp l in
      let '(ls', ro', rf') := runoff_loop n' mx' ro1 (rf + d) lys' in
      (mkL (th l) (ice l + d) (w1 - d) t1 (hc l) :: ls', ro', rf')
  | _, _, _ => (lys, ro, rf)
  end.
(** multilayermodel.py:139-154, 351-439: result pixel, runoff, refreezing. *)
Definition runoff (m : lwc_method) (mx : R) (rain : num) (p : pixel) : pixel * R * R :=
  let '(ls', ro, rf) :=
    runoff_loop (ns p) (map (max_lwc m mx) (lays p)) (nan_to_zero rain) 0 (lays p) in
  (mkP (ns p) ls', ro, rf).

(** multilayermodel.py:594-601: thicknesses of the new layers for snow depth [d]. *)
Fixpoint new_thicknesses (mt : list R) (d : R) : list R :=
  match mt with
  | [] => []
  | m :: mt' =>
      let d' := d - m in
      if Rle_dec d' m then (m + d') :: repeat 0 (length mt')
      else match mt' with
           | [] => [m + d']
           | _ :: _ => m :: new_thicknesses mt' d'
           end
  end.
(** The literal 1e-6 in multilayermodel.py:606 (m). *)
Definition thin_limit : R := 1 / 1000000.
(** multilayermodel.py:603-607. *)
Definition drop_thin (ths : list R) : list R :=
  map (fun t => if Rlt_dec t thin_limit then 0 else t) ths.
(** multilayermodel.py:609. *)
Fixpoint count_pos (ths : list R) : nat :=
  match ths with
  | [] => 0
  | t :: r => if Rlt_dec 0 t then S (count_pos r) else count_pos r
  end.

(** Local variables of the redistribution loop, multilayermodel.py:610-639; [bad] tells that a
    NaN weight (0 / 0) or an access beyond the last slot occurred. *)
Record rstate := mkS {
  knew : nat; rem : R;
  aice : list R; alwc : list R; aen : list R;
  bad : bool }.
(** thickness_prev, ice_content_prev, liquid_water_content_prev, energy_prev of an old layer. *)
Record old := mkO { ot : R; oi : R; ow : R; oe : R }.

(** [a[k] += x] *)
Fixpoint add_at (k : nat) (x : R) (l : list R) : list R :=
  match l, k with
  | [], _ => []
  | y :: r, O => (y + x) :: r
  | y :: r, S k' => y :: add_at k' x r
  end.

(** multilayermodel.py:616: min(new_thickness / thickness_prev, 1.0) with float division:
    0/0 = NaN ([None]), x/0 = inf for x > 0, -inf for x < 0 ([None] as well). *)
Definition weight (rem t : R) : option R :=
  if Req_EM_T t 0 then (if Rlt_dec 0 rem then Some 1 else None)
  else Some (Rmin (rem / t) 1).

(** multilayermodel.py:615-639: the [while True] loop for one old layer. [fuel] bounds the number
    of iterations; running out of it is reported through [bad] (it never happens, see
    MultilayerProofs). With a NaN weight the NaN goes to the accumulators and k_new advances. *)
Fixpoint inner (fuel : nat) (ths : list R) (nsn : nat) (s : rstate) (o : old) : rstate :=
  match fuel with
  | O => mkS (knew s) (rem s) (aice s) (alwc s) (aen s) true
  | S fuel' =>
      let oob := Nat.leb (length (aice s)) (knew s) in
      match weight (rem s) (ot o) with
      | None => mkS (S (knew s)) (rem s) (aice s) (alwc s) (aen s) true
      | Some w =>
          let ai := add_at (knew s) (w * oi o) (aice s) in
          let aw := add_at (knew s) (w * ow o) (alwc s) in
          let ae := add_at (knew s) (w * oe o) (aen s) in
          let b := bad s || oob in
          if Req_EM_T w 1 then mkS (knew s) (rem s - ot o) ai aw ae b
          else
            let o' := mkO (ot o * (1 - w)) (oi o * (1 - w)) (ow o * (1 - w)) (oe o * (1 - w)) in
            let k' := S (knew s) in
            if Nat.leb nsn k' then mkS k' (rem s) ai aw ae b
            else inner fuel' ths nsn (mkS k' (nth k' ths 0) ai aw ae b) o'
      end
  end.
(** multilayermodel.py:614: loop over the old layers. *)
Definition redistribute (ths : list R) (nsn : nat) (s : rstate) (olds : list old) : rstate :=
  fold_left (inner (S (length ths)) ths nsn) olds s.

(** multilayermodel.py:572-577 *)
Definition old_of (l : layer) : old := mkO (th l) (ice l) (lwc l) (hc l * (tmp l - T0)).

(** multilayermodel.py:641-648: the layers k < ns get temperature and heat capacity from the
    redistributed contents; the others keep their (stale) heat capacity and temperature T0. *)
Fixpoint build (n : nat) (ths ai aw ae : list R) (oldl : list layer) : list layer :=
  match ths, ai, aw, ae, oldl with
  | t :: ths', i :: ai', w :: aw', e :: ae', l :: oldl' =>
      match n with
      | S n' =>
          let h := i * SPEC_HEAT_CAP_ICE + w * SPEC_HEAT_CAP_WATER in
          mkL t i w (T0 + e / h) h :: build n' ths' ai' aw' ae' oldl'
      | O => mkL t i w T0 (hc l) :: build O ths' ai' aw' ae' oldl'
      end
  | _, _, _, _, _ => []
  end.

(** multilayermodel.py:517-653: _update_layers for one pixel; [mt] is snow.min_thickness (as many
    entries as layer slots), [depth] is snow.depth. *)
Definition update_layers (mt : list R) (depth : R) (p : pixel) : pixel * bool :=
  let L := length (lays p) in
  if Rlt_dec 0 depth then
    let ths := drop_thin (new_thicknesses mt depth) in
    let nsn := count_pos ths in
    let s0 := mkS 0 (nth 0 ths 0) (repeat 0 L) (repeat 0 L) (repeat 0 L) false in
    let s := redistribute ths nsn s0 (map old_of (firstn (ns p) (lays p))) in
    (mkP nsn (build nsn ths (aice s) (alwc s) (aen s) (lays p)), bad s)
  else
    (mkP 0 (map (fun l => mkL 0 0 0 T0 (hc l)) (lays p)), false).

(** * One model time step of the snow routines *)

(** snow.compaction.method with its parameters (snow.py:104-134; timescale in hours). *)
Inductive comp_method := Anderson | Empirical (timescale max_cold max_melt : R).

Record config := mkC {
  dt : R;                     (* model.timestep (s) *)
  mts : list R;               (* snow.min_thickness *)
  lwcm : lwc_method; lwcmax : R;
  comp : comp_method;
  acfg : albedo_cfg }.

(** What the snow routines read from the rest of the model in one time step. *)
Record forcing := mkF {
  f_snowfall : num; f_rain : num; f_wet_bulb : num; f_air : R;
  f_albedo_temp : num;        (* air or surface temperature used by the albedo routine *)
  f_melt : num;               (* snow.melt as set by the surface energy balance *)
  f_temps : list R;           (* layer temperatures after heat conduction *)
  f_mflux : num; f_tsurf : num }.

(** What they report. *)
Record output := mkOut {
  o_melt : R; o_sublimation : R; o_runoff : R; o_refreezing : R; o_nan : bool;
  o_depth : R; o_swe : R }.

(** snow.py:104-134 *)
Definition compaction (c : config) (air : R) (p : pixel) : pixel :=
  mkP (ns p)
    (match comp c with
     | Anderson => compaction_anderson (ns p) (dt c) (Some air) 0 (lays p)
     | Empirical ts mc mm =>
         compaction_empirical (ns p) (dt c) (SECONDS_PER_HOUR * ts) mc mm (lays p)
     end).

(** multilayermodel.py:503-514: heat conduction assigns new temperatures to the active layers
    only; here the values are arbitrary (see HeatModel.v for the computation). *)
Fixpoint set_temps (n : nat) (ts : list R) (lys : list layer) : list layer :=
  match n, ts, lys with
  | S n', t :: ts', l :: lys' => mkL (th l) (ice l) (lwc l) t (hc l) :: set_temps n' ts' lys'
  | _, _, _ => lys
  end.

(** snow.py:363-366 *)
Definition update_properties (p : pixel) : pixel := mkP (ns p) (update_heat_cap (lays p)).

(** model.py:335-387 (_model_interface), the snow calls in their order: compaction,
    accumulation, albedo_aging, update_properties, heat_conduction, melt, sublimation. Result:
    pixel before the routing of liquid water, albedo, snow.melt, snow.sublimation, NaN flag. *)
Definition before_routing (c : config) (f : forcing) (st : pixel * num)
  : pixel * num * R * R * bool :=
  let '(p, alb) := st in
  let amax := a_max (acfg c) in
  let p1 := compaction c (f_air f) p in
  let '(p2, alb2) := accumulation amax (f_air f) (f_snowfall f) (f_wet_bulb f) p1 alb in
  let alb3 := albedo_step (acfg c) (dt c) (f_albedo_temp f) (f_snowfall f) alb2 in
  let p3 := update_properties p2 in
  let p4 := mkP (ns p3) (set_temps (ns p3) (f_temps f) (lays p3)) in
  let '(p5, m) := melt p4 (f_melt f) in
  let '(p6, alb6, s, nan1) :=
    sublimation (dt c) amax (f_air f) (f_mflux f) (f_tsurf f) (f_wet_bulb f) p5 alb3 in
  (p6, alb6, m, s, nan1).

(** model.py:335-387, continued: runoff, update_properties, update_layers; the albedo of pixels
    without layers becomes NaN (multilayermodel.py:171). *)
Definition snow_step (c : config) (f : forcing) (st : pixel * num) : (pixel * num) * output :=
  let '(p6, alb6, m, s, nan1) := before_routing c f st in
  let '(p7, ro, rf) := runoff (lwcm c) (lwcmax c) (f_rain f) p6 in
  let p8 := update_properties p7 in
  let '(p9, nan2) := update_layers (mts c) (snow_depth (lays p8)) p8 in
  let alb9 := if Nat.eqb (ns p9) 0 then None else alb6 in
  ((p9, alb9), mkOut m s ro rf (nan1 || nan2) (snow_depth (lays p8)) (snow_swe (lays p8))).

(** A run: the snow routines over any sequence of time steps (model.py:211-285). *)
Fixpoint snow_run (c : config) (fs : list forcing) (st : pixel * num) : (pixel * num) * list output :=
  match fs with
  | [] => (st, [])
  | f :: r =>
      let '(st1, o) := snow_step c f st in
      let '(st2, os) := snow_run c r st1 in (st2, o :: os)
  end.
