(** Model of landcover.py:LandCover and of the forest pixels of modules/canopy/canopy.py as programs on arrays: the land cover classes of the
    region, a mask with the pixels of each class, and the leaf area index written through these masks. The grid is one list of pixels, flattened in
    row-major order. [None] as a value is NaN, as the result of a program an exception. *)
From Verif Require Import Common GridBalanceModel CanopyModel EtModel.
Open Scope R_scope.

(** * Configuration (data/land_cover_class_schema.yml); every parameter may be left out *)
Record laipar := LA { a_min : option R; a_max : option R; a_add : option R }.
Record lcclass := LC { l_forest : bool; l_lai : option laipar; l_stages : option stages; l_plant : option Z }.
(** config["land_cover"]["classes"][k]; None: KeyError *)
Definition config_of {A} (k : Z) (l : list (Z * A)) : option A := option_map snd (find (fun x => (fst x =? k)%Z) l).

(** * State: region of interest, s.land_cover.{land_cover, lai, lai_eff} *)
Record lpix := LX { p_roi : bool; p_class : Z; p_lai : num; p_eff : num }.
Inductive warning := UnknownClass (k : Z) | IncompleteLai (k : Z).
(** self.class_pixels, self.forest_classes, self.lai_classes; the warnings logged *)
Record lcstate := LS { s_pixels : list (Z * list bool); s_forest : list Z; s_lai : list Z; s_warnings : list warning }.

(** * landcover.py:20-51 initialize *)
(** np.unique: sorted, without repetitions *)
Fixpoint insert (k : Z) (l : list Z) : list Z :=
  match l with
  | [] => [k]
  | x :: r => if (k <? x)%Z then k :: l else if (k =? x)%Z then l else x :: insert k r
  end.
Definition unique (l : list Z) : list Z := fold_right insert [] l.
(** 27-28 *)
Definition region_classes (g : list lpix) : list Z := filter (fun k => (0 <? k)%Z) (unique (map p_class (take g (map p_roi g)))).
(** 39 *)
Definition pixels_of (k : Z) (g : list lpix) : list bool := map2 andb (map (fun p => (p_class p =? k)%Z) g) (map p_roi g).
(** 32-51, one iteration *)
Definition add_class (classes : list (Z * lcclass)) (g : list lpix) (st : lcstate) (k : Z) : lcstate :=
  match config_of k classes with
  | None => LS (s_pixels st) (s_forest st) (s_lai st) (s_warnings st ++ [UnknownClass k])
  | Some c =>
      let st := LS (s_pixels st ++ [(k, pixels_of k g)]) (s_forest st) (s_lai st) (s_warnings st) in
      let st := if l_forest c then LS (s_pixels st) (s_forest st ++ [k]) (s_lai st) (s_warnings st) else st in
      match l_lai c with
      | None => st
      | Some (LA (Some _) (Some _) _) => LS (s_pixels st) (s_forest st) (s_lai st ++ [k]) (s_warnings st)
      | Some _ => LS (s_pixels st) (s_forest st) (s_lai st) (s_warnings st ++ [IncompleteLai k])
      end
  end.
Definition lc_initialize (classes : list (Z * lcclass)) (g : list lpix) : lcstate :=
  fold_left (add_class classes g) (region_classes g) (LS [] [] [] []).

(** * 53-85 lai *)
Definition set_lai (l e : R) (p : lpix) : lpix := LX (p_roi p) (p_class p) (Some l) (Some e).
(** 57-85, one iteration; growth_stage_lengths (88-89) and growing_period_day (102-103) raise KeyError without their parameters, 70-80 ValueError *)
Definition class_lai (classes : list (Z * lcclass)) (doy : Z) (k : Z) : option (R * R) :=
  match config_of k classes with
  | Some c =>
      match l_lai c, l_stages c, l_plant c with
      | Some (LA (Some lo) (Some hi) add), Some st, Some pd =>
          leaf_area_index st doy pd lo hi (match add with Some a => a | None => 0 end)
      | _, _, _ => None
      end
  | None => None
  end.
Definition lai_iter (classes : list (Z * lcclass)) (st : lcstate) (doy : Z) (acc : option (list lpix)) (k : Z) : option (list lpix) :=
  match acc, class_lai classes doy k, config_of k (s_pixels st) with
  | Some g, Some (l, e), Some m => Some (update g m (set_lai l e))
  | _, _, _ => None
  end.
Definition lc_lai (classes : list (Z * lcclass)) (st : lcstate) (doy : Z) (g : list lpix) : option (list lpix) :=
  fold_left (lai_iter classes st doy) (s_lai st) (Some g).

(** * canopy.py:54-65 initialize *)
(** 57-63; a forest class without entry in class_pixels would raise KeyError *)
Definition or_masks (ms : list (list bool)) : option (list bool) :=
  match ms with [] => None | m :: r => Some (fold_left (map2 orb) r m) end.
Definition forest_pos (st : lcstate) (size : nat) : option (list bool) :=
  match s_forest st with
  | [] => Some (repeat false size)
  | ks => or_masks (flat_map (fun k => match config_of k (s_pixels st) with Some m => [m] | None => [] end) ks)
  end.
(** 65: canopy_intercepted_load[forest_pos] = 0.0 *)
Definition canopy_initialize (st : lcstate) (load : list num) : option (list num) :=
  match forest_pos st (length load) with
  | Some m => Some (update load m (fun _ => initial_load))
  | None => None
  end.
(** statevars.py reset: land_cover.{lai, lai_eff} are not retained *)
Definition reset_lai (p : lpix) : lpix := LX (p_roi p) (p_class p) None None.
