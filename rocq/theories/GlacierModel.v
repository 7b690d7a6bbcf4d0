(** Model of modules/glacier/glaciermodel.py: the delta-h geometry update and when it happens. Real arithmetic; None is
    NaN. *)
From Verif Require Import Common Constants TimeModel.
Open Scope R_scope.

(** * Lists (ndarray.min, .max, np.argsort) *)
Definition list_min (l : list R) : R := fold_right Rmin (hd 0 l) l.
Definition list_max (l : list R) : R := fold_right Rmax (hd 0 l) l.
Fixpoint insert (x : R) (l : list R) : list R :=
  match l with [] => [x] | y :: t => if Rle_dec x y then x :: l else y :: insert x t end.
Definition sort (l : list R) : list R := fold_right insert [] l.
Definition add_num (x y : num) : num := numplus x y.

(** * Distribution of the mass change, 136-230 *)
(** 192-200 _delta_h for one normalized elevation *)
Definition delta_h (h area : R) : R :=
  let d := if Rle_dec 20000000 area then - ((h - 0.02) ^ 6 + 0.12 * (h - 0.02))
           else if Rle_dec 5000000 area then - ((h - 0.05) ^ 4 + 0.19 * (h - 0.05) + 0.01)
           else - ((h - 0.30) ^ 2 + 0.60 * (h - 0.30) + 0.09) in
  clip (-1) 0 d.
(** 229-230 _scale_mass_loss_surplus; NaN (0/0) if all elevations are equal *)
Definition scale_surplus (elevs : list R) (min_mass max_mass : R) : list num :=
  let lo := list_min elevs in let hi := list_max elevs in
  map (fun e => if Req_EM_T (hi - lo) 0 then None else Some ((max_mass - min_mass) * (e - lo) / (hi - lo) + min_mass)) elevs.
Definition num_sum (l : list num) : num := fold_right numplus (Some 0) l.
(** 203-226 _mass_loss_surplus_distribution *)
Definition surplus (loss : R) (elevs : list R) : list num :=
  let x0 := 0 in
  let x1 := loss / INR (length elevs) * 1.5 in
  match num_sum (scale_surplus elevs 0 x0), num_sum (scale_surplus elevs 0 x1) with
  | Some y0, Some y1 =>
      let k := (y1 - y0) / (x1 - x0) in
      let d := y0 - k * x0 in
      scale_surplus elevs 0 ((loss - d) / k)
  | _, _ => map (fun _ => None) elevs
  end.
(** mass_change[~clippies] += surplus *)
Fixpoint merge (lim : R) (mc : list R) (add : list num) : list num :=
  match mc with
  | [] => []
  | m :: t => if Rlt_dec m lim then Some lim :: merge lim t add
              else match add with a :: r => add_num (Some m) a :: merge lim t r | [] => Some m :: merge lim t [] end
  end.
(** 164-189 _ice_mass_change *)
Definition ice_mass_change (elevs : list R) (total area limit : R) : list num :=
  if Rlt_dec total 0 then
    let lo := list_min elevs in let hi := list_max elevs in
    if Req_EM_T (hi - lo) 0 then map (fun _ => None) elevs
    else
      let dh := map (fun e => delta_h ((hi - e) / (hi - lo)) area) elevs in
      let mc := map (fun d => total / sumR dh * d) dh in
      let clipped := filter (fun m => if Rlt_dec m limit then true else false) mc in
      let rest := filter (fun p : R * R => if Rlt_dec (fst p) limit then false else true) (combine mc elevs) in
      if Rlt_dec limit 0 then
        if (0 <? length clipped)%nat && (1 <? length rest)%nat then
          let diff := sumR mc - sumR (map (fun m => if Rlt_dec m limit then limit else m) mc) in
          merge limit mc (surplus diff (map snd rest))
        else map Some mc
      else map Some mc
  else map (fun _ => Some (total / INR (length elevs))) elevs.

(** * Update of the geometry, 58-131 *)
Record gpix := GP { g_id : Z; g_elev : R; g_ice0 : R; g_firn0 : R; g_ice1 : R; g_firn1 : R; g_thick : R }.
(** g_ice0, g_firn0: water equivalent of the ice and firn layers at the start of the mass balance year; g_ice1, g_firn1: now *)
Definition firn_mb (p : gpix) : R := g_firn1 p - g_firn0 p.
Definition total_mb (p : gpix) : R := (g_ice1 p - g_ice0 p) + firn_mb p.            (* 62-66 *)
Definition old_thickness (p : gpix) : R := g_ice0 p / ICE_DENSITY.                   (* 67 *)
Definition rgt0 (x : R) : bool := if Rlt_dec 0 x then true else false.
Definition on_glacier (id : Z) (p : gpix) : bool := (g_id p =? id)%Z && rgt0 (old_thickness p).      (* 71 *)
Definition thick_enough (p : gpix) : bool := if Rle_dec 10 (old_thickness p) then true else false.   (* 86 *)
(** 97-116: limit of the surface lowering. The number of terminus pixels (10 %, rounded up) is computed in floating point
    in the code. *)
Definition terminus_elev (elevs : list R) : R :=
  let n := ((length elevs + 9) / 10)%nat in
  Rmax (list_max (firstn n (sort elevs))) (list_min elevs + 50).
Definition terminus_mb (g : list gpix) : R :=
  let top := terminus_elev (map g_elev g) in
  list_min (map total_mb (filter (fun p => if Rle_dec (g_elev p) top then true else false) g)).
Definition allowed_change (g : list gpix) : R := Rmin (terminus_mb g) 0.
(** 124-126 *)
Definition new_thickness (p : gpix) (mc : num) : num :=
  match mc with Some m => Some (Rmax (old_thickness p + (m - firn_mb p) / ICE_DENSITY) 0) | None => None end.
(** Assignment to the pixels of a mask *)
Fixpoint scatter (sel : gpix -> bool) (px : list gpix) (vals : list num) (cur : list num) : list num :=
  match px, cur with
  | p :: px', c :: cur' =>
      if sel p then match vals with v :: vs => v :: scatter sel px' vs cur' | [] => c :: scatter sel px' [] cur' end
      else c :: scatter sel px' vals cur'
  | _, _ => []
  end.
(** 70-126: one glacier *)
Definition update_pixel (id : Z) (p : gpix) : bool := on_glacier id p && thick_enough p.
Definition update_glacier (res : R) (px : list gpix) (cur : list num) (id : Z) : list num :=
  let g := filter (on_glacier id) px in
  let u := filter thick_enough g in
  if (length u <? 2)%nat then cur                            (* also 74: no pixels *)
  else
    let total := sumR (map total_mb u) in
    let area := INR (length g) * res ^ 2 in
    let mc := ice_mass_change (map g_elev u) total area (allowed_change g) in
    scatter (update_pixel id) px (map (fun q => new_thickness (fst q) (snd q)) (combine u mc)) cur.
(** 58-131 _update_geometry: thickness of the ice layer of all pixels (128); the ice content (129) is this times the density of ice;
    the call of update_layers (131) is not modelled here *)
Definition update_geometry (res : R) (ids : list Z) (px : list gpix) : list num :=
  fold_left (update_glacier res px) ids (map (fun p => Some (g_thick p)) px).

(** * When, 42-56 *)
Definition mb_end_month (start_month : Z) : Z := if (1 <? start_month)%Z then (start_month - 1)%Z else 12%Z.
(** New snapshot; start and end of the mass balance year if the geometry is updated *)
Definition glacier_update {A} (start_month m : Z) (first last : bool) (snap : option A) (cur : A)
    : option A * option (A * A) :=
  if (m =? start_month)%Z && first then (Some cur, None)
  else if (m =? mb_end_month start_month)%Z && last then
    match snap with Some a => (snap, Some (a, cur)) | None => (snap, None) end
  else (snap, None).
(** All time steps of a run; the state after time step i is represented by its time *)
Fixpoint glacier_run (start_month : Z) (dates : list Z) (step : Z) (idxs : list nat) (snap : option Z) : list (option (Z * Z)) :=
  match idxs with
  | [] => []
  | i :: r =>
      match nth_error dates i, timestep_props dates step i with
      | Some t, Some p =>
          let '(snap', u) := glacier_update start_month (month (date_of t)) (strict_first_of_month p) (strict_last_of_month p) snap t in
          u :: glacier_run start_month dates step r snap'
      | _, _ => []
      end
  end.
