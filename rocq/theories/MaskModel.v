(** Model of index and mask handling: model.py global_mask, util.py grid coordinates and the
    conversion of ROI-pixel datasets. Grids are flattened in row-major order. *)
From Coq Require Export String.
From Verif Require Import Common.
Open Scope nat_scope.

(** np.flatnonzero(mask) / np.where(mask.flat)[0] (util.py:295) *)
Fixpoint nonzero_from (k : nat) (m : list bool) : list nat :=
  match m with
  | [] => []
  | b :: m' => if b then k :: nonzero_from (S k) m' else nonzero_from (S k) m'
  end.
Definition flatnonzero (m : list bool) : list nat := nonzero_from 0 m.
(** a[mask] with a boolean mask of the same length *)
Fixpoint select {A} (a : list A) (m : list bool) : list A :=
  match a, m with
  | x :: a', b :: m' => if b then x :: select a' m' else select a' m'
  | _, _ => []
  end.
(** a.flat[i] = v *)
Fixpoint set_at {A} (a : list A) (i : nat) (v : A) : list A :=
  match a, i with
  | [], _ => []
  | _ :: a', O => v :: a'
  | x :: a', S i' => x :: set_at a' i' v
  end.
Inductive exn := ValueError | IndexError | KeyError.
(** a.flat[idxs] = v; indexes out of bounds raise. Negative indexes are not modelled. *)
Definition set_all {A} (a : list A) (idxs : list nat) (v : A) : exn + list A :=
  if forallb (fun i => i <? length a) idxs
  then inr (fold_left (fun a i => set_at a i v) idxs a) else inl IndexError.

(** A local mask: one- or two-dimensional (rows of equal width). *)
Inductive lmask := Mask1 (m : list bool) | Mask2 (width : nat) (rows : list (list bool)).
Inductive gmask := Grid1 (g : list bool) | Grid2 (rows : list (list bool)).
Fixpoint map_exn {A B} (f : A -> exn + B) (l : list A) : exn + list B :=
  match l with
  | [] => inr []
  | x :: l' => match f x with
               | inl e => inl e
               | inr y => match map_exn f l' with inl e => inl e | inr t => inr (y :: t) end
               end
  end.
(** model.py:287-309 global_mask for a grid with n pixels; [roi] is the region of interest. Arrays with
    more than two dimensions are not modelled (they return the second argument unchanged). *)
Definition global_mask (n : nat) (roi : list bool) (mask : lmask) (outer : option (list bool))
    (idxs : option (list nat)) : exn + gmask :=
  let gi := match idxs with
            | Some i => i
            | None => match outer with Some g => flatnonzero g | None => flatnonzero roi end
            end in
  let width := match mask with Mask1 m => length m | Mask2 w _ => w end in
  if negb (width =? length gi) then inl ValueError
  else match mask with
       | Mask1 m => match set_all (repeat false n) (select gi m) true with
                    | inl e => inl e | inr g => inr (Grid1 g) end
       | Mask2 _ rows =>
           match map_exn (fun m => set_all (repeat false n) (select gi m) true) rows with
           | inl e => inl e | inr g => inr (Grid2 g) end
       end.

(** * Grid coordinates *)
Open Scope R_scope.
(** np.linspace(a, b, n)[i] *)
Definition linspace (a b : R) (n i : nat) : R :=
  match n with
  | O | S O => a
  | S m => a + INR i * ((b - a) / INR m)
  end.
(** util.py:228-249: cell centres; rasterio.transform.xy gives the centres of the first and last
    column (row), the transform being (resolution, 0, xoff, 0, -resolution, yoff). *)
Definition grid_x (xoff res : R) (cols j : nat) : R :=
  linspace (xoff + (0 + 0.5) * res) (xoff + (INR cols - 1 + 0.5) * res) cols j.
Definition grid_y (yoff res : R) (rows i : nat) : R :=
  linspace (yoff - (0 + 0.5) * res) (yoff - (INR rows - 1 + 0.5) * res) rows i.
(** griddedoutput.py:529-530: lower left corner stored with ROI-pixel datasets *)
Definition xllcorner (xoff : R) : R := xoff.
Definition yllcorner (yoff res : R) (rows : nat) : R := yoff - INR rows * res.
(** util.py:121-122 *)
Definition conv_x (xll res : R) (j : nat) : R := xll + res * (INR j + 0.5).
Definition conv_y (yll res : R) (nrows i : nat) : R := yll + res * (INR nrows - INR i - 0.5).

(** * Conversion of ROI-pixel datasets *)
Open Scope nat_scope.
(** An n-dimensional array: its shape and its values as a function of the index list. *)
Record array (A : Type) := AR { shape : list nat; vals : list nat -> A }.
Arguments AR {A}. Arguments shape {A}. Arguments vals {A}.
(** np.moveaxis(a, p, -1) *)
Definition moveaxis_last {A} (a : array A) (p : nat) : array A :=
  AR (firstn p (shape a) ++ skipn (S p) (shape a) ++ [nth p (shape a) 0])
     (fun idx => vals a (firstn p idx ++ [last idx 0] ++ removelast (skipn p idx))).
(** Position of the last occurrence of i in idxs (later assignments win). *)
Fixpoint last_pos (i : nat) (idxs : list nat) : option nat :=
  match idxs with
  | [] => None
  | x :: t => match last_pos i t with
              | Some k => Some (S k)
              | None => if x =? i then Some 0 else None
              end
  end.
(** full = np.full((lead + (nrows, ncols), fill); full.reshape(lead + (-1,))[..., idxs] = values *)
Definition scatter {A} (fill : A) (values : array A) (nrows ncols : nat) (idxs : list nat) : array A :=
  AR (removelast (shape values) ++ [nrows; ncols])
     (fun idx =>
        let lead := firstn (length idx - 2) idx in
        match skipn (length idx - 2) idx with
        | [r; c] => match last_pos (r * ncols + c) idxs with
                    | Some k => vals values (lead ++ [k])
                    | None => fill
                    end
        | _ => fill
        end).
(** Position of a value in a list *)
Fixpoint index_of (i : nat) (l : list nat) : nat :=
  match l with [] => 0 | x :: t => if x =? i then 0 else S (index_of i t) end.
(** np.transpose(a, axes): axis d of the result is axis axes[d] of a *)
Definition transpose {A} (a : array A) (axes : list nat) : array A :=
  AR (map (fun d => nth d (shape a) 0) axes)
     (fun idx => vals a (map (fun d => nth (index_of d axes) idx 0) (seq 0 (length axes)))).

Record dvar (A : Type) := DV {
  dims : list string; data : array A; enc_fill : option A; attr_fill : option A }.
Arguments DV {A}. Arguments dims {A}. Arguments data {A}. Arguments enc_fill {A}. Arguments attr_fill {A}.
Fixpoint position (d : string) (l : list string) : option nat :=
  match l with
  | [] => None
  | x :: t => if String.eqb x d then Some 0 else option_map S (position d t)
  end.
(** util.py:150-177: one data variable *)
Definition convert_var {A} (nan : A) (nrows ncols : nat) (idxs : list nat) (v : dvar A) : exn + dvar A :=
  match position "pixel" (dims v) with
  | None => inr v
  | Some p =>
      let values := moveaxis_last (data v) p in
      let fill := match enc_fill v with
                  | Some f => f
                  | None => match attr_fill v with Some f => f | None => nan end
                  end in
      if negb (last (shape values) 0 =? length idxs) then inl ValueError
      else if negb (forallb (fun i => i <? nrows * ncols) idxs) then inl IndexError
      else
        let full := scatter fill values nrows ncols idxs in
        let nd := length (shape values) in
        let order := seq 0 p ++ [nd - 1; nd] ++ seq p (nd - 1 - p) in
        inr (DV (firstn p (dims v) ++ ["y"; "x"]%string ++ skipn (S p) (dims v))
                (transpose full order) None (attr_fill v))
  end.
(** A dataset: layout attribute, geometry attributes (nrows, ncols, resolution, xllcorner,
    yllcorner), coordinates other than pixel (opaque), data variables. *)
Record geo := GEO { g_nrows : nat; g_ncols : nat; g_res : R; g_xll : R; g_yll : R }.
Record dataset (A C : Type) := DS {
  d_layout : option string; d_geo : option geo; d_pixel : list nat;
  d_coords : list (string * C); d_xy : option (list R * list R); d_vars : list (string * dvar A) }.
Arguments DS {A C}. Arguments d_layout {A C}. Arguments d_geo {A C}. Arguments d_pixel {A C}.
Arguments d_coords {A C}. Arguments d_xy {A C}. Arguments d_vars {A C}.
(** util.py:100-184 convert_roi_pixel_dataset_to_grid. Existing x and y coordinates are replaced. *)
Definition convert {A C} (nan : A) (ds : dataset A C) : exn + dataset A C :=
  match d_layout ds with
  | Some l =>
      if String.eqb l "roi_pixel" then
        match d_geo ds with
        | None => inl KeyError
        | Some g =>
            let xs := map (conv_x (g_xll g) (g_res g)) (seq 0 (g_ncols g)) in
            let ys := map (conv_y (g_yll g) (g_res g) (g_nrows g)) (seq 0 (g_nrows g)) in
            let coords := filter (fun c => negb (String.eqb (fst c) "pixel" || String.eqb (fst c) "x"
                                                 || String.eqb (fst c) "y")%string) (d_coords ds) in
            match map_exn (fun nv => match convert_var nan (g_nrows g) (g_ncols g) (d_pixel ds) (snd nv) with
                                     | inl e => inl e | inr v => inr (fst nv, v) end) (d_vars ds) with
            | inl e => inl e
            | inr vars => inr (DS (Some "grid"%string) None [] coords (Some (xs, ys)) vars)
            end
        end
      else inl ValueError
  | None => inl ValueError
  end.
(** griddedoutput.py: a variable with dimensions (time[, layer], pixel) written in roi_pixel layout:
    values at [lead ++ [k]] are data[roi][k]. [grid] maps leading index and flat pixel to a value. *)
Definition written {A} (fill : A) (time_dim : string) (layer : option (string * nat)) (ntimes : nat)
    (roi : list bool) (grid : list nat -> nat -> A) : dvar A :=
  let idxs := flatnonzero roi in
  DV ([time_dim] ++ match layer with Some (d, _) => [d] | None => [] end ++ ["pixel"%string])
     (AR ([ntimes] ++ match layer with Some (_, n) => [n] | None => [] end ++ [length idxs])
         (fun idx => grid (removelast idx) (nth (last idx 0) idxs 0)))
     None (Some fill).
