(** Specification vocabulary for the cryolayer model (C08-C13, C74, C75). *)
From Verif Require Import Common Constants SnowModel CryoModel.

(** A layer before and after removing some of its ice; [w]: removed ice becomes liquid water. The
    thickness shrinks in proportion to the ice. *)
Definition reduced (w : bool) (l l' : clayer) : Prop :=
  0 <= cice l' <= cice l /\
  cth l' * cice l = cth l * cice l' /\
  clw l' = clw l + (if w then cice l - cice l' else 0) /\
  ccold l' = ccold l /\ cdens l' = cdens l /\ calb l' = calb l.
(** Layers from top to bottom: below a layer that still has ice nothing changed. *)
Fixpoint top_down (ls ls' : list clayer) : Prop :=
  match ls, ls' with
  | l :: r, l' :: r' => (cice l' <= 0 \/ r' = r) /\ top_down r r'
  | [], [] => True
  | _, _ => False
  end.

(** Water routed downwards: a layer with mass keeps at most its capacity, passes water on only when
    full, and nothing is lost; layers without mass are passed through. [r]: inflow, [r']: outflow. *)
Inductive routed : list R -> R -> list clayer -> list clayer -> R -> Prop :=
| routed_nil r : routed [] r [] [] r
| routed_layer cap caps r l l' r1 ls ls' r' :
    0 < cice l + clw l ->
    cice l' = cice l -> cth l' = cth l -> ccold l' = ccold l -> cdens l' = cdens l -> calb l' = calb l ->
    clw l + r = clw l' + r1 -> 0 <= r1 -> clw l' <= cap -> (r1 = 0 \/ clw l' = cap) ->
    routed caps r1 ls ls' r' -> routed (cap :: caps) r (l :: ls) (l' :: ls') r'
| routed_skip cap caps r l ls ls' r' :
    cice l + clw l <= 0 -> routed caps r ls ls' r' -> routed (cap :: caps) r (l :: ls) (l :: ls') r'.

(** A layer as it is between time steps: absent (everything zero), or present with ice, positive
    thickness and density = mass / thickness. *)
Definition absent (l : clayer) : Prop := cth l = 0 /\ cice l = 0 /\ clw l = 0 /\ ccold l = 0.
Definition present (l : clayer) : Prop :=
  0 < cth l /\ 0 < cice l /\ 0 <= clw l /\ 0 <= ccold l /\
  cdens l = Some ((cice l + clw l) / cth l).
Definition coherent (l : clayer) : Prop := absent l \/ present l.
Definition coherent_pix (p : cpix) : Prop := Forall coherent (lays p).

(** For the pore-volume formula a layer denser than ice has negative capacity. The condition below
    is what the water balance needs: mass fraction formula, or, at every step of the run, bulk
    densities of the snow layers (after compaction) and of fresh snow not above that of ice. *)
Definition lighter_than_ice (l : clayer) : Prop := cice l + clw l <= ICE_DENSITY * cth l.
Definition step_light (c : ccfg) (f : cforcing) (p : cpix) : Prop :=
  cc_lwc c = MassFraction \/
  (fresh_snow_density (f_wb f) <= ICE_DENSITY /\
   forall p1, compaction c (f_temp f) p = Some p1 ->
     lighter_than_ice (l_new p1) /\ lighter_than_ice (l_old p1)).
Fixpoint run_light (c : ccfg) (mm : melt_method) (fs : list cforcing) (p : cpix) : Prop :=
  match fs with
  | [] => True
  | f :: fs' => step_light c f p /\ forall p' o, cstep c mm f p = Some (p', o) -> run_light c mm fs' p'
  end.
(** Forcing and configuration a run may have: missing values anywhere, rain not negative. *)
Definition forcing_ok (f : cforcing) : Prop := 0 <= nan_to_zero (f_rain f).
Definition ccfg_ok (c : ccfg) : Prop :=
  0 < cc_dt c /\ 500 <= tr_ice c /\ 0 <= cc_mx c /\ 0 <= cold_cap c.
(** Water in, water out. *)
Definition snow_in (f : cforcing) : R := match f_snow f with Some v => Rmax v 0 | None => 0 end.
Definition rain_in (f : cforcing) : R := nan_to_zero (f_rain f).

(** Liquid water a layer can hold (snow.py:max_liquid_water_content, in words: a fraction of the
    pore volume or of the ice mass). *)
Definition holding_capacity (m : lwc_method) (mx : R) (l : clayer) : R :=
  match m with
  | PoreVolumeFraction => if Rlt_dec 0 (cth l) then 1000 * cth l * (1 - cice l / (917 * cth l)) * mx else 0
  | MassFraction => cice l * mx
  end.

(** Energy [E] (J m-2) spent from the top layer down: each layer takes at most what removes its cold
    content and melts its ice, cold content first; [ms]: melt per layer. *)
Definition same_but_cold (l l' : clayer) : Prop :=
  cth l' = cth l /\ cice l' = cice l /\ clw l' = clw l /\ cdens l' = cdens l /\ calb l' = calb l.
Fixpoint energy_down (E : R) (ls ls' : list clayer) (ms : list R) : Prop :=
  match ls, ls', ms with
  | [], [], [] => True
  | l :: r, l' :: r', m :: ms' =>
      let e := Rmin E (Lf * (cice l + ccold l)) in
      Lf * (m + (ccold l - ccold l')) = e /\ 0 <= m <= cice l /\ 0 <= ccold l' <= ccold l /\
      (m = 0 \/ ccold l' = 0) /\ same_but_cold l l' /\ energy_down (E - e) r r' ms'
  | _, _, _ => False
  end.
(** Cold [A] (kg m-2 of water it can freeze) spent from the top down: it first refreezes the liquid
    water of a layer and then adds to its cold content up to [cap] times the layer's mass. *)
Fixpoint cold_down (cap A : R) (ls ls' : list clayer) (rs : list R) : Prop :=
  match ls, ls', rs with
  | [], [], [] => True
  | l :: r, l' :: r', x :: xs =>
      (0 < cth l -> 0 < A ->
        x = Rmin (clw l) A /\ ccold l' = Rmin (ccold l + (A - x)) (cap * (cice l + clw l))) /\
      (cth l <= 0 \/ A <= 0 -> x = 0 /\ l' = l) /\
      cice l' = cice l + x /\ clw l' = clw l - x /\ cth l' = cth l /\ cdens l' = cdens l /\
      calb l' = calb l /\ cold_down cap (A - x - (ccold l' - ccold l)) r r' xs
  | _, _, _ => False
  end.

(** Albedo of a layer, if it is there. *)
Definition alb_in (lo hi : R) (l : clayer) : Prop :=
  0 < cth l -> exists a, calb l = Some a /\ lo <= a <= hi.
Definition topmost (p : cpix) (l : clayer) : Prop :=
  exists above below, lays p = above ++ l :: below /\ 0 < cth l /\ Forall (fun x => cth x <= 0) above.
