(** Specification of tridiagonal systems and of heat conduction, independent of the solver. *)
From Verif Require Import Common.

(** Row k of the tridiagonal system. *)
Definition row (n : nat) (a b c x : nat -> R) (k : nat) : R :=
  (if Nat.eqb k 0 then 0 else a k * x (k - 1)%nat) + b k * x k
  + (if Nat.eqb k (n - 1) then 0 else c k * x (S k)).

(** Strict row diagonal dominance. *)
Definition dominant (n : nat) (a b c : nat -> R) : Prop :=
  forall k, (k < n)%nat ->
    (if Nat.eqb k 0 then 0 else Rabs (a k)) + (if Nat.eqb k (n - 1) then 0 else Rabs (c k))
    < Rabs (b k).

(** Thermal conductance between the centre of layer k and the centre of the layer below it (the
    bottom medium below the last layer): the two half-layer resistances are in series. *)
Definition conductances (n : nat) (dx lam : nat -> R) (dx_b lam_b : R) (K : nat -> R) : Prop :=
  forall k, (k < n)%nat ->
    K k * (dx k / 2 / lam k +
           (if Nat.eqb k (n - 1) then dx_b / 2 / lam_b else dx (S k) / 2 / lam (S k))) = 1.

(** Flux (W m-2) leaving layer k downwards at temperatures T. *)
Definition down (n : nat) (K T : nat -> R) (T_b : R) (k : nat) : R :=
  K k * (T k - (if Nat.eqb k (n - 1) then T_b else T (S k))).

(** The implicit heat equation: the heat gained by layer k during dt is the flux entering from above
    minus the flux leaving downwards, both at the temperatures [T'] at the end of the step. *)
Definition heat_equation (n : nat) (dt : R) (hcap K T T' : nat -> R) (T_b flux : R) : Prop :=
  forall k, (k < n)%nat ->
    hcap k * (T' k - T k) =
    dt * ((if Nat.eqb k 0 then flux else down n K T' T_b (k - 1)%nat) - down n K T' T_b k).
