(** Model of modules/radiation/shadows.py and of the resampling around it (irradiance.py:28-62). Real arithmetic; None is
    a missing elevation. The parallel loop over scan lines (66) is modelled by threads: a schedule says which line makes
    its next step. *)
From Verif Require Import Common.
Open Scope R_scope.

(** np.round: to the nearest integer, ties to even *)
Definition np_round (x : R) : Z :=
  let f := Int_part x in
  let d := x - IZR f in
  if Rlt_dec d (1 / 2) then f
  else if Rlt_dec (1 / 2) d then (f + 1)%Z
  else if Z.even f then f else (f + 1)%Z.

Record sgrid := SG { g_rows : Z; g_cols : Z; g_dem : Z -> Z -> num; g_res : R; g_sx : R; g_sy : R; g_sz : R }.
(** 38 np.max(np.abs(sun_vec[:2])) and inv_sun_vec *)
Definition sun_max (g : sgrid) : R := Rmax (Rabs (g_sx g)) (Rabs (g_sy g)).
Definition inv_x (g : sgrid) : R := - g_sx g / sun_max g.
Definition inv_y (g : sgrid) : R := - g_sy g / sun_max g.
(** 40-43 normal_sun_vec; with the sun exactly overhead the scalar divisions raise ZeroDivisionError (not modelled) *)
Definition normal_z (g : sgrid) : R := sqrt (g_sx g ^ 2 + g_sy g ^ 2).
Definition normal_x (g : sgrid) : R := - g_sx g * g_sz g / normal_z g.
Definition normal_y (g : sgrid) : R := - g_sy g * g_sz g / normal_z g.

(** 46-62: origins of the scan lines, for num_sweeps >= 1 or -1 *)
Definition sweeps (g : sgrid) (num_sweeps : Z) : Z := if (num_sweeps =? -1)%Z then Z.max (g_rows g) (g_cols g) else num_sweeps.
Definition rlt0 (x : R) : bool := if Rlt_dec x 0 then true else false.
Definition is_origin (g : sgrid) (num_sweeps i j : Z) : bool :=
  let k := sweeps g num_sweeps in
  let left := (j <? k)%Z in let top := (i <? k)%Z in
  let right := (g_cols g - k <=? j)%Z in let bottom := (g_rows g - k <=? i)%Z in
  if rlt0 (g_sx g) && rlt0 (g_sy g) then left || top
  else if rlt0 (g_sx g) then bottom || left
  else if rlt0 (g_sy g) then top || right
  else bottom || right.
(** np.nonzero: row by row *)
Definition zseq (n : Z) : list Z := map Z.of_nat (seq 0 (Z.to_nat n)).
Definition origins (g : sgrid) (num_sweeps : Z) : list (Z * Z) :=
  flat_map (fun i => map (pair i) (filter (is_origin g num_sweeps i) (zseq (g_cols g)))) (zseq (g_rows g)).

(** One scan line: origin, number of steps made, max_z_proj (None: -infinity; Some None: NaN), finished *)
Record line := LN { l_i : Z; l_j : Z; l_n : nat; l_max : option num; l_done : bool }.
Definition start_line (o : Z * Z) : line := LN (fst o) (snd o) 0 None false.      (* 67-70 *)
Definition inside (g : sgrid) (p : Z * Z) : bool :=
  let '(idy, jdx) := p in
  negb ((jdx <? 0) || (g_cols g <=? jdx) || (idy <? 0) || (g_rows g <=? idy))%Z.
(** 73-76 *)
Definition line_pixel (g : sgrid) (i j : Z) (n : nat) : Z * Z :=
  (np_round (IZR i + inv_y g * INR n), np_round (IZR j + inv_x g * INR n)).
(** 82-89 *)
Definition z_proj (g : sgrid) (n : nat) (elev : num) : num :=
  match elev with
  | Some z => Some (inv_x g * INR n * g_res g * normal_x g + inv_y g * INR n * g_res g * normal_y g + z * normal_z g)
  | None => None
  end.
(** z_proj < max_z_proj *)
Definition below (z : num) (m : option num) : bool :=
  match z, m with
  | Some a, Some (Some b) => if Rlt_dec a b then true else false
  | _, _ => false
  end.
(** 72-94: one iteration of the while loop; the pixel set to 0, if any *)
Definition line_step (g : sgrid) (l : line) : line * option (Z * Z) :=
  if l_done l then (l, None)
  else
    let p := line_pixel g (l_i l) (l_j l) (l_n l) in
    let n' := S (l_n l) in
    if negb (inside g p) then (LN (l_i l) (l_j l) n' (l_max l) true, None)
    else
      let z := z_proj g (l_n l) (g_dem g (fst p) (snd p)) in
      if below z (l_max l) then (LN (l_i l) (l_j l) n' (l_max l) false, Some p)
      else (LN (l_i l) (l_j l) n' (Some z) false, None).
(** The illumination map (64): true = 1 *)
Definition darken (illum : Z -> Z -> bool) (p : Z * Z) : Z -> Z -> bool :=
  fun r c => if ((r =? fst p) && (c =? snd p))%Z then false else illum r c.
Fixpoint upd {A} (l : list A) (k : nat) (x : A) : list A :=
  match l, k with [], _ => [] | _ :: t, O => x :: t | y :: t, S k' => y :: upd t k' x end.
(** Thread k makes one iteration *)
Definition sched_step (g : sgrid) (s : list line * (Z -> Z -> bool)) (k : nat) : list line * (Z -> Z -> bool) :=
  match nth_error (fst s) k with
  | None => s
  | Some l =>
      let '(l', w) := line_step g l in
      (upd (fst s) k l', match w with Some p => darken (snd s) p | None => snd s end)
  end.
Definition shadows_run (g : sgrid) (os : list (Z * Z)) (schedule : list nat) : list line * (Z -> Z -> bool) :=
  fold_left (sched_step g) schedule (map start_line os, fun _ _ => true).

(** * irradiance.py:33-62 *)
(** a[::f] and a.repeat(f), then the excess is cut off *)
Definition every {A} (d : A) (f : nat) (l : list A) : list A :=
  map (fun k => nth (k * f) l d) (seq 0 ((length l + f - 1) / f)).
Fixpoint repeat_each {A} (f : nat) (l : list A) : list A :=
  match l with [] => [] | x :: t => repeat x f ++ repeat_each f t end.
Definition cut {A} (n : nat) (l : list A) : list A := if (n <? length l)%nat then firstn n l else l.
Definition downsample {A} (d : A) (f : nat) (m : list (list A)) : list (list A) :=
  if (1 <? f)%nat then map (every d f) (every [] f m) else m.
(** [rows], [cols]: shape of the DEM *)
Definition upsample {A} (f rows cols : nat) (m : list (list A)) : list (list A) :=
  if (1 <? f)%nat then map (cut cols) (cut rows (map (repeat_each f) (repeat_each f m))) else m.
(** 58-62: the part of the extended grid that is the model grid *)
Definition crop {A} (row0 rows col0 cols : nat) (m : list (list A)) : list (list A) :=
  map (fun r => firstn cols (skipn col0 r)) (firstn rows (skipn row0 m)).
