(** Small specification vocabulary for the multilayer snow model. It does not mention the
    model's loops. *)
From Verif Require Import Common Constants SnowModel MultilayerModel.

(** Physically meaningful layers and pixels. *)
Definition wf_layer (l : layer) : Prop := 0 <= th l /\ 0 <= ice l /\ 0 <= lwc l /\ 0 <= hc l.
Definition wf_pixel (p : pixel) : Prop := (ns p <= length (lays p))%nat /\ Forall wf_layer (lays p).
Definition active (p : pixel) : list layer := firstn (ns p) (lays p).
Definition inactive (p : pixel) : list layer := skipn (ns p) (lays p).
Definition empty_slot (l : layer) : Prop := th l = 0 /\ ice l = 0 /\ lwc l = 0.

(** Melt equivalent (kg m-2) of the energy by which a layer exceeds the melting point. *)
Definition surplus (l : layer) : R := Rmax 0 (hc l * (tmp l - T0) / Lf).

(** Ice melted in each layer, from the top: each layer receives what the layers above left over
    plus its own surplus and melts at most its ice. *)
Fixpoint melted (avail : R) (ls : list layer) : list R :=
  match ls with
  | [] => []
  | l :: r =>
      let a := avail + surplus l in
      let m := Rmin (Rmax a 0) (ice l) in
      m :: melted (a - m) r
  end.

(** Layer [l'] is layer [l] after melting the amount [m] of its ice. *)
Definition after_melt (l : layer) (m : R) (l' : layer) : Prop :=
  ice l' = ice l - m /\ lwc l' = lwc l + m /\
  0 <= th l' <= th l /\ th l' * ice l = th l * ice l' /\
  hc l' = hc l /\ (0 < hc l -> tmp l' = Rmin (tmp l) T0) /\ (hc l = 0 -> tmp l' = tmp l).

(** Ice sublimated from each layer, from the top. *)
Fixpoint sublimed (avail : R) (ls : list layer) : list R :=
  match ls with
  | [] => []
  | l :: r => let m := Rmin avail (ice l) in m :: sublimed (avail - m) r
  end.
Definition after_sublim (l : layer) (m : R) (l' : layer) : Prop :=
  ice l' = ice l - m /\ lwc l' = lwc l /\
  0 <= th l' <= th l /\ th l' * ice l = th l * ice l' /\ hc l' = hc l /\ tmp l' = tmp l.

(** Zip relation of three lists. *)
Inductive Forall3 {A B C} (P : A -> B -> C -> Prop) : list A -> list B -> list C -> Prop :=
| Forall3_nil : Forall3 P [] [] []
| Forall3_cons a b c la lb lc : P a b c -> Forall3 P la lb lc -> Forall3 P (a :: la) (b :: lb) (c :: lc).

(** A pack in which no ice-free active layer lies below one that holds ice. *)
Fixpoint ice_free_on_top (ls : list layer) : Prop :=
  match ls with
  | [] => True
  | l :: r => (ice l = 0 /\ ice_free_on_top r) \/ (0 < ice l /\ Forall (fun l => 0 < ice l) r)
  end.

(** Water leaving the bottom of a layer with liquid water capacity [cap] receiving [inflow]. *)
Definition outflow (cap inflow : R) (l : layer) : R := Rmax 0 (lwc l + inflow - cap).
(** Inflow into each layer (first layer: rain); the capacities are given top to bottom. *)
Fixpoint inflows (caps : list R) (q : R) (ls : list layer) : list R :=
  match ls, caps with
  | l :: r, c :: cr => q :: inflows cr (outflow c q l) r
  | _, _ => []
  end.
(** Flux out of the lowest layer. *)
Fixpoint bottom_flux (caps : list R) (q : R) (ls : list layer) : R :=
  match ls, caps with
  | l :: r, c :: cr => bottom_flux cr (outflow c q l) r
  | _, _ => q
  end.
(** Amount that refreezes: limited by the water held and by the cold content. *)
Definition refrozen (cap inflow : R) (l : layer) : R :=
  if Rlt_dec 0 (hc l * (T0 - tmp l))
  then Rmin (lwc l + inflow - outflow cap inflow l) (hc l * (T0 - tmp l) / Lf) else 0.
Definition after_runoff (cap : R) (l : layer) (inflow : R) (l' : layer) : Prop :=
  let d := refrozen cap inflow l in
  th l' = th l /\ hc l' = hc l /\
  ice l' = ice l + d /\
  lwc l' = lwc l + inflow - outflow cap inflow l - d /\
  hc l' * (T0 - tmp l') = hc l * (T0 - tmp l) - Lf * d /\ (hc l = 0 -> tmp l' = tmp l).

(** Share of an old layer (thickness [ot]) lying above a depth [z] below its top. *)
Definition share (z t : R) : R :=
  if Req_EM_T t 0 then (if Rlt_dec 0 z then 1 else 0) else Rmin 1 (z / t).
(** Amount of a quantity [q] contained in the old pack above depth [z] (uniform within layers). *)
Fixpoint above (q : layer -> R) (z : R) (ls : list layer) : R :=
  match ls with
  | [] => 0
  | l :: r => q l * share z (th l) + above q (Rmax 0 (z - th l)) r
  end.
Definition energy (l : layer) : R := hc l * (tmp l - T0).
