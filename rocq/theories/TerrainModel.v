(** Model of terrain.py. Real arithmetic; None is NaN. An array is its shape and a function of row and column. *)
From Verif Require Import Common.
From Verif Require Import AtmosphereModel.
Open Scope R_scope.

Record arr := ARR { a_rows : Z; a_cols : Z; a_at : Z -> Z -> num }.
Definition amap (f : R -> R) (a : arr) : arr := ARR (a_rows a) (a_cols a) (fun r c => option_map f (a_at a r c)).
(** np.roll(dem, (dr, dc), axis=(0, 1)) *)
Definition roll (dr dc : Z) (a : arr) : arr :=
  ARR (a_rows a) (a_cols a) (fun r c => a_at a ((r - dr) mod a_rows a)%Z ((c - dc) mod a_cols a)%Z).
(** z[dst, :] = z[src, :] and z[:, dst] = z[:, src] *)
Definition copy_row (dst src : Z) (a : arr) : arr :=
  ARR (a_rows a) (a_cols a) (fun r c => if (r =? dst)%Z then a_at a src c else a_at a r c).
Definition copy_col (dst src : Z) (a : arr) : arr :=
  ARR (a_rows a) (a_cols a) (fun r c => if (c =? dst)%Z then a_at a r src else a_at a r c).
(** 33, 111: any(np.array(dem.shape) < (3, 3)) *)
Definition too_small (a : arr) : bool := ((a_rows a <? 3) || (a_cols a <? 3))%Z.

(** 43-63: the eight neighbours (np.roll and the assignments to the edges) *)
Definition win_a (d : arr) : arr := copy_row 0 1 (copy_col 0 1 (roll 1 1 d)).
Definition win_b (d : arr) : arr := copy_row 0 1 (roll 1 0 d).
Definition win_c (d : arr) : arr := copy_row 0 1 (copy_col (a_cols d - 1) (a_cols d - 2) (roll 1 (-1) d)).
Definition win_d (d : arr) : arr := copy_col 0 1 (roll 0 1 d).
Definition win_f (d : arr) : arr := copy_col (a_cols d - 1) (a_cols d - 2) (roll 0 (-1) d).
Definition win_g (d : arr) : arr := copy_row (a_rows d - 1) (a_rows d - 2) (copy_col 0 1 (roll (-1) 1 d)).
Definition win_h (d : arr) : arr := copy_row (a_rows d - 1) (a_rows d - 2) (roll (-1) 0 d).
Definition win_i (d : arr) : arr :=
  copy_col (a_cols d - 1) (a_cols d - 2) (copy_row (a_rows d - 1) (a_rows d - 2) (roll (-1) (-1) d)).

(** Arithmetic with NaN *)
Definition nadd (x y : num) : num := match x, y with Some a, Some b => Some (a + b) | _, _ => None end.
Definition nsub (x y : num) : num := match x, y with Some a, Some b => Some (a - b) | _, _ => None end.
Definition nscale (k : R) (x : num) : num := option_map (Rmult k) x.

(** 65, 66; res is positive *)
Definition dzdx (d : arr) (res : R) (r c : Z) : num :=
  nscale (/ (8 * res))
    (nsub (nadd (nadd (a_at (win_c d) r c) (nscale 2 (a_at (win_f d) r c))) (a_at (win_i d) r c))
          (nadd (nadd (a_at (win_a d) r c) (nscale 2 (a_at (win_d d) r c))) (a_at (win_g d) r c))).
Definition dzdy (d : arr) (res : R) (r c : Z) : num :=
  nscale (/ (8 * res))
    (nsub (nadd (nadd (a_at (win_g d) r c) (nscale 2 (a_at (win_h d) r c))) (a_at (win_i d) r c))
          (nadd (nadd (a_at (win_a d) r c) (nscale 2 (a_at (win_b d) r c))) (a_at (win_c d) r c))).
(** np.arctan2(dzdy, -dzdx): where both gradients are zero, -dzdx is -0.0 and arctan2(0.0, -0.0) is pi *)
Definition aspect_angle (gy gx : R) : R :=
  if Req_EM_T gx 0 then (if Req_EM_T gy 0 then PI else arctan2 gy (- gx)) else arctan2 gy (- gx).
(** 69-76; the three masks are computed before any of them is applied *)
Definition to_azimuth (a : R) : R :=
  if Rlt_dec a 0 then 90 - a
  else if Rlt_dec 90 a then 360 - a + 90
  else 90 - a.
(** 11-78 *)
Definition slope_aspect (d : arr) (res : R) : arr * arr :=
  if too_small d then (ARR (a_rows d) (a_cols d) (fun _ _ => Some 0), ARR (a_rows d) (a_cols d) (fun _ _ => None))
  else
    (ARR (a_rows d) (a_cols d) (fun r c =>
       match dzdx d res r c, dzdy d res r c with
       | Some gx, Some gy => Some (rad2deg (atan (sqrt (gx ^ 2 + gy ^ 2))))
       | _, _ => None end),
     ARR (a_rows d) (a_cols d) (fun r c =>
       match dzdx d res r c, dzdy d res r c with
       | Some gx, Some gy => Some (to_azimuth (rad2deg (aspect_angle gy gx)))
       | _, _ => None end)).

(** 81-132 normal_vector: the three components *)
Definition fill_edges (d : arr) (a : arr) : arr := copy_col (a_cols d - 1) (a_cols d - 2) (copy_row 0 1 a).
Definition normal_vector (d : arr) (res : R) : arr * arr * arr :=
  if too_small d then
    (ARR (a_rows d) (a_cols d) (fun _ _ => Some 0), ARR (a_rows d) (a_cols d) (fun _ _ => Some 0),
     ARR (a_rows d) (a_cols d) (fun _ _ => Some 1))
  else
    let right := roll 0 (-1) d in
    let up := roll 1 0 d in
    let diag := roll 1 (-1) d in
    let v0 := fill_edges d (ARR (a_rows d) (a_cols d) (fun r c =>
      nscale (0.5 * res) (nsub (nadd (nsub (a_at d r c) (a_at right r c)) (a_at up r c)) (a_at diag r c)))) in
    let v1 := fill_edges d (ARR (a_rows d) (a_cols d) (fun r c =>
      nscale (0.5 * res) (nsub (nsub (nadd (a_at d r c) (a_at right r c)) (a_at up r c)) (a_at diag r c)))) in
    let v2 := fill_edges d (ARR (a_rows d) (a_cols d) (fun _ _ => Some (res ^ 2))) in
    let len r c := match a_at v0 r c, a_at v1 r c, a_at v2 r c with
                   | Some x, Some y, Some z => Some (sqrt (x ^ 2 + y ^ 2 + z ^ 2))
                   | _, _, _ => None end in
    let unit v := ARR (a_rows d) (a_cols d) (fun r c =>
      match a_at v r c, len r c with Some x, Some l => Some (x / l) | _, _ => None end) in
    (unit v0, unit v1, unit v2).

(** ** Shifting *)
(** np.pad(M, ((top, bottom), (left, right)), mode="edge") *)
Definition clampz (hi i : Z) : Z := Z.max 0 (Z.min hi i).
Definition pad_edge (top bottom left right : Z) (m : arr) : arr :=
  ARR (a_rows m + top + bottom) (a_cols m + left + right)
      (fun r c => a_at m (clampz (a_rows m - 1) (r - top)) (clampz (a_cols m - 1) (c - left))).
(** Python slices of an axis of length n: the first index and the length of [i:], [:-i] and [:]; [:-0] is [:0] *)
Inductive slice := From (i : Z) | UpTo (i : Z) | All.
Definition slice_start (n : Z) (s : slice) : Z := match s with From i => Z.min i n | _ => 0 end%Z.
Definition slice_len (n : Z) (s : slice) : Z :=
  match s with From i => Z.max 0 (n - i) | UpTo i => if (i =? 0)%Z then 0 else Z.max 0 (n - i) | All => n end%Z.
Definition take (rs cs : slice) (m : arr) : arr :=
  ARR (slice_len (a_rows m) rs) (slice_len (a_cols m) cs)
      (fun r c => a_at m (slice_start (a_rows m) rs + r) (slice_start (a_cols m) cs + c))%Z.
(** 403-418, mode "edge" *)
Definition shift_edge (m : arr) (dir n : Z) : option arr :=
  match dir with
  | 0%Z => Some (take (From n) All (pad_edge 0 n 0 0 m))
  | 1%Z => Some (take (From n) (UpTo n) (pad_edge 0 n n 0 m))
  | 2%Z => Some (take All (UpTo n) (pad_edge 0 0 n 0 m))
  | 3%Z => Some (take (UpTo n) (UpTo n) (pad_edge n 0 n 0 m))
  | 4%Z => Some (take (UpTo n) All (pad_edge n 0 0 0 m))
  | 5%Z => Some (take (UpTo n) (From n) (pad_edge n 0 0 n m))
  | 6%Z => Some (take All (From n) (pad_edge 0 0 0 n m))
  | 7%Z => Some (take (From n) (From n) (pad_edge 0 n 0 n m))
  | _ => None
  end.
(** S[rs, cs] = M[rs', cs'] for slices of equal lengths *)
Definition in_slice (n : Z) (s : slice) (i : Z) : bool :=
  ((slice_start n s <=? i) && (i <? slice_start n s + slice_len n s))%Z.
Definition assign (rs cs rs' cs' : slice) (m : arr) : arr :=
  ARR (a_rows m) (a_cols m) (fun r c =>
    if in_slice (a_rows m) rs r && in_slice (a_cols m) cs c
    then a_at m (slice_start (a_rows m) rs' + (r - slice_start (a_rows m) rs))
                (slice_start (a_cols m) cs' + (c - slice_start (a_cols m) cs))%Z
    else a_at m r c).
(** 421-466 _shift_arr_retain *)
Definition shift_retain (m : arr) (dir n : Z) : arr :=
  match dir with
  | 0%Z => assign (UpTo (n + 1)) All (From (1 + n)) All m
  | 1%Z => assign (UpTo (n + 1)) (From (1 + n)) (From (1 + n)) (UpTo (n + 1)) m
  | 2%Z => assign All (From (1 + n)) All (UpTo (n + 1)) m
  | 3%Z => assign (From (1 + n)) (From (1 + n)) (UpTo (n + 1)) (UpTo (n + 1)) m
  | 4%Z => assign (From (1 + n)) All (UpTo (n + 1)) All m
  | 5%Z => assign (From (1 + n)) (UpTo (n + 1)) (UpTo (n + 1)) (From (1 + n)) m
  | 6%Z => assign All (UpTo (n + 1)) All (From (1 + n)) m
  | 7%Z => assign (UpTo (n + 1)) (UpTo (n + 1)) (From (1 + n)) (From (1 + n)) m
  | _ => m
  end.
(** 374-418 _shift_arr *)
Definition shift_arr (m : arr) (dir n : Z) (retain : bool) : option arr :=
  if retain then Some (shift_retain m dir n) else shift_edge m dir n.

(** ** Curvature *)
(** int(np.ceil(x)) *)
Definition ceilz (x : R) : Z := (- Int_part (- x))%Z.
Definition nb (m : arr) (dir n r c : Z) : num := match shift_edge m dir n with Some s => a_at s r c | None => None end.
(** (z - (z1 + z2) / 2.0) / d *)
Definition bend (z z1 z2 : num) (d : R) : num := nscale (/ d) (nsub z (nscale (/ 2) (nadd z1 z2))).
(** 229-285 curvature, kind "liston" *)
Definition curvature (dem : arr) (res : R) (L : option R) : arr :=
  let l := match L with Some l => l | None => res end in
  let n := ceilz (l / res) in
  ARR (a_rows dem) (a_cols dem) (fun r c =>
    let z := a_at dem r c in
    nscale (/ 4)
      (nadd (nadd (nadd (bend z (nb dem 6 n r c) (nb dem 2 n r c) (2 * l)) (bend z (nb dem 4 n r c) (nb dem 0 n r c) (2 * l)))
                  (bend z (nb dem 5 n r c) (nb dem 1 n r c) (2 * sqrt 2 * l)))
            (bend z (nb dem 7 n r c) (nb dem 3 n r c) (2 * sqrt 2 * l)))).

(** ** Sky view factor *)
(** 193 np.arange(min_azim, max_azim, azim_step) for integers, azim_step >= 1 *)
Definition azimuths (lo hi step : Z) : list Z :=
  map (fun k => lo + Z.of_nat k * step)%Z (seq 0 (Z.to_nat ((hi - lo + step - 1) / step))).
(** 194-199; maxslope: np.nanmax(slope). elev_step is not used. *)
Definition max_elev (maxslope : R) : Z := Z.max (ceilz maxslope) 1.
Definition elevations (maxslope : R) : list Z := rev (map (fun k => 1 + Z.of_nat k)%Z (seq 0 (Z.to_nat (max_elev maxslope)))).
(** 207-218: the vector towards the sky in a direction *)
Definition sky_vector (azim elev : R) : R * R * R :=
  (sin (deg2rad azim) * cos (deg2rad elev), - cos (deg2rad azim) * cos (deg2rad elev), sin (deg2rad elev)).
(** 208-221 for one pixel: lit v says whether the pixel is illuminated by a sun at v (shadows) *)
Definition svf_cur (lit : R * R * R -> bool) (maxslope : R) (azim : Z) : Z :=
  fold_left (fun cur e => if lit (sky_vector (IZR azim) (IZR e)) then e else cur) (elevations maxslope) (max_elev maxslope).
(** 135-226 for one pixel of a grid of rows x cols pixels; without azimuths 0 / 0 *)
Definition sky_view_factor (rows cols : Z) (lit : R * R * R -> bool) (maxslope : R) (lo hi step : Z) : num :=
  if ((rows =? 1) && (cols =? 1))%Z then Some 1 else
  let az := azimuths lo hi step in
  match az with
  | [] => None
  | _ => Some (sumR (map (fun a => cos (deg2rad (IZR (svf_cur lit maxslope a))) ^ 2) az) / INR (length az))
  end.

(** ** Openness *)
(** 364: [1, np.sqrt(2)][dir % 2] *)
Definition diag_factor (dir : Z) : R := if (dir mod 2 =? 0)%Z then 1 else sqrt 2.
(** 364-366: the angle of distance number i *)
Definition open_angle (dem : arr) (res : R) (dir : Z) (i : nat) (r c : Z) : num :=
  match nsub (a_at (shift_retain dem dir (Z.of_nat i)) r c) (a_at dem r c) with
  | Some dz => Some (PI / 2 - arctan2 dz (res * (INR i + 1) * diag_factor dir))
  | None => None end.
(** An array of openness values: None is infinity *)
Definition omap := Z -> Z -> option R.
(** angle < opn; comparisons with NaN are false *)
Definition smaller (a : num) (o : option R) : bool :=
  match a, o with Some x, Some y => if Rlt_dec x y then true else false | Some _, None => true | None, _ => false end.
(** 363-369: the parallel loop over distances. An iteration finds the pixels to update (368) and later writes them (369);
    a schedule says in which order the iterations make these two steps. Each step is atomic here. *)
Inductive phase := Waiting | Found (idxs : Z -> Z -> bool) | Finished.
Record ostate := OS { o_map : omap; o_phase : nat -> phase }.
Definition ostart : ostate := OS (fun _ _ => None) (fun _ => Waiting).
Definition ostep (angle : nat -> Z -> Z -> num) (n : nat) (s : ostate) (i : nat) : ostate :=
  if (i <? n)%nat then
    match o_phase s i with
    | Waiting => OS (o_map s) (fun k => if (k =? i)%nat then Found (fun r c => smaller (angle i r c) (o_map s r c)) else o_phase s k)
    | Found idxs => OS (fun r c => if idxs r c then angle i r c else o_map s r c) (fun k => if (k =? i)%nat then Finished else o_phase s k)
    | Finished => s
    end
  else s.
Definition orun (angle : nat -> Z -> Z -> num) (n : nat) (schedule : list nat) : ostate := fold_left (ostep angle n) schedule ostart.
(** 336-371 _openness_dir *)
Definition openness_dir (dem : arr) (res L : R) (dir : Z) (schedule : list nat) : omap :=
  o_map (orun (open_angle dem res dir) (Z.to_nat (ceilz (L / res))) schedule).
(** 288-333: mean over the eight directions, or one map per direction *)
Definition openness (dem : arr) (res L : R) (negative : bool) (schedule : Z -> list nat) (dir : Z) : omap :=
  openness_dir (if negative then amap Ropp dem else dem) res L dir (schedule dir).
Definition dirs8 : list Z := [0; 1; 2; 3; 4; 5; 6; 7]%Z.
Definition osum (l : list (option R)) : option R := fold_right nadd (Some 0) l.
Definition openness_mean (dem : arr) (res L : R) (negative : bool) (schedule : Z -> list nat) : omap :=
  fun r c => nscale (/ 8) (osum (map (fun dir => openness dem res L negative schedule dir r c) dirs8)).
