(** Model of tridiag.py and heatconduction.py. Arrays are functions from the index to the value;
    assignments are [upd]. Floats are reals; the theorems show that no division by zero occurs
    (for positive heat capacities), so the NaN replacement of temp_change is the identity. *)
From Verif Require Import Common.

Definition arr := nat -> R.
Definition upd {A} (f : nat -> A) (k : nat) (v : A) : nat -> A :=
  fun j => if Nat.eqb j k then v else f j.

(** tridiag.py:45-48: the elimination loop for k = 1 .. m. *)
Fixpoint fwd (a c : arr) (m : nat) (b d : arr) : arr * arr :=
  match m with
  | O => (b, d)
  | S m' =>
      let '(b1, d1) := fwd a c m' b d in
      let k := S m' in
      let w := a k / b1 (k - 1)%nat in
      (upd b1 k (b1 k - w * c (k - 1)%nat), upd d1 k (d1 k - w * d1 (k - 1)%nat))
  end.
(** tridiag.py:53-54: back substitution for k = m-1 .. 0; x aliases the array b. *)
Fixpoint bwd (c d : arr) (m : nat) (x : arr) : arr :=
  match m with
  | O => x
  | S k => bwd c d k (upd x k ((d k - c k * x (S k)) / x k))
  end.
(** tridiag.py:4-56, solve_tridiag for n >= 1 equations (n = 0 raises an IndexError). *)
Definition solve_tridiag (n : nat) (a b c d : arr) : arr :=
  let '(b1, d1) := fwd a c (n - 1) b d in
  bwd c d1 (n - 1) (upd b1 (n - 1) (d1 (n - 1)%nat / b1 (n - 1)%nat)).

(** tridiag.py:59-82: the same on two-dimensional arrays; row operations act on all columns. *)
Definition arr2 := nat -> arr.
Fixpoint fwd2 (a c : arr2) (m : nat) (b d : arr2) : arr2 * arr2 :=
  match m with
  | O => (b, d)
  | S m' =>
      let '(b1, d1) := fwd2 a c m' b d in
      let k := S m' in
      let w := fun p => a k p / b1 (k - 1)%nat p in
      (upd b1 k (fun p => b1 k p - w p * c (k - 1)%nat p),
       upd d1 k (fun p => d1 k p - w p * d1 (k - 1)%nat p))
  end.
Fixpoint bwd2 (c d : arr2) (m : nat) (x : arr2) : arr2 :=
  match m with
  | O => x
  | S k => bwd2 c d k (upd x k (fun p => (d k p - c k p * x (S k) p) / x k p))
  end.
Definition solve_tridiag_array (n : nat) (a b c d : arr2) : arr2 :=
  let '(b1, d1) := fwd2 a c (n - 1) b d in
  bwd2 c d1 (n - 1) (upd b1 (n - 1) (fun p => d1 (n - 1)%nat p / b1 (n - 1)%nat p)).

(** heatconduction.py:70-73: conductance between layer k and the next one (the bottom medium for
    the last layer). *)
Definition cond_between (n : nat) (dx lam : arr) (dx_b lam_b : R) (k : nat) : R :=
  if Nat.eqb k (n - 1) then 2 / (dx k / lam k + dx_b / lam_b)
  else 2 / (dx k / lam k + dx (S k) / lam (S k)).

(** heatconduction.py:7-117, temp_change for n >= 1 layers. *)
Definition hc_a (n : nat) (dt : R) (K : arr) (k : nat) : R :=
  if Nat.eqb k 0 then 0 else - K (k - 1)%nat * dt.
Definition hc_b (n : nat) (dt : R) (K hcap : arr) (k : nat) : R :=
  if Nat.eqb k 0 then hcap 0%nat + K 0%nat * dt else hcap k + (K (k - 1)%nat + K k) * dt.
Definition hc_c (n : nat) (dt : R) (K : arr) (k : nat) : R :=
  if Nat.eqb k (n - 1) then 0 else - K k * dt.
Definition hc_d (n : nat) (dt : R) (T K : arr) (T_b flux : R) (k : nat) : R :=
  if Nat.eqb k 0 then (flux - K 0%nat * (T 0%nat - T 1%nat)) * dt
  else if Nat.eqb k (n - 1) then
    K (k - 1)%nat * (T (k - 1)%nat - T k) * dt + K k * (T_b - T k) * dt
  else K (k - 1)%nat * (T (k - 1)%nat - T k) * dt + K k * (T (S k) - T k) * dt.
Definition temp_change (n : nat) (dx : arr) (dt : R) (T lam : arr) (T_b dx_b lam_b flux : R)
  (hcap : arr) : arr :=
  let K := cond_between n dx lam dx_b lam_b in
  if Nat.eqb n 1 then
    fun k => (flux + K 0%nat * (T_b - T 0%nat)) * dt / (hcap 0%nat + K 0%nat * dt)
  else solve_tridiag n (hc_a n dt K) (hc_b n dt K hcap) (hc_c n dt K) (hc_d n dt T K T_b flux).

(** heatconduction.py:120-224, temp_change_array: first index layer, second index pixel. *)
Definition temp_change_array (n : nat) (dx : arr2) (dt : R) (T lam : arr2) (T_b dx_b lam_b flux : arr)
  (hcap : arr2) : arr2 :=
  let K : arr2 := fun k p =>
    if Nat.eqb k (n - 1) then 2 / (dx k p / lam k p + dx_b p / lam_b p)
    else 2 / (dx k p / lam k p + dx (S k) p / lam (S k) p) in
  if Nat.eqb n 1 then
    fun k p => (flux p + K 0%nat p * (T_b p - T 0%nat p)) * dt / (hcap 0%nat p + K 0%nat p * dt)
  else
    solve_tridiag_array n
      (fun k p => if Nat.eqb k 0 then 0 else - K (k - 1)%nat p * dt)
      (fun k p => if Nat.eqb k 0 then hcap 0%nat p + K 0%nat p * dt
                  else hcap k p + (K (k - 1)%nat p + K k p) * dt)
      (fun k p => if Nat.eqb k (n - 1) then 0 else - K k p * dt)
      (fun k p =>
         if Nat.eqb k 0 then (flux p - K 0%nat p * (T 0%nat p - T 1%nat p)) * dt
         else if Nat.eqb k (n - 1) then
           K (k - 1)%nat p * (T (k - 1)%nat p - T k p) * dt + K k p * (T_b p - T k p) * dt
         else K (k - 1)%nat p * (T (k - 1)%nat p - T k p) * dt + K k p * (T (S k) p - T k p) * dt).

(** multilayermodel.py:497-514, _heat_conduction for one pixel with [ns] > 0 active of [nmax]
    layers: the new temperatures. The bottom temperature is temp[-1, i, j] of the snow array. *)
Definition snow_heat_conduction (ns nmax : nat) (dx : arr) (dt : R) (temp lam : arr)
  (soil_dx soil_lam flux : R) (hcap : arr) : arr :=
  fun k => if Nat.ltb k ns
    then temp k + temp_change ns dx dt temp lam (temp (nmax - 1)%nat) soil_dx soil_lam flux hcap k
    else temp k.

(** soil.py:228-244, soil_temperature for one pixel: the bottom medium repeats the last layer. *)
Definition soil_temperature (n : nat) (dx : arr) (dt : R) (temp lam : arr) (flux : R) (hcap : arr)
  : arr :=
  fun k => temp k + temp_change n dx dt temp lam (temp (n - 1)%nat) (dx (n - 1)%nat)
                      (lam (n - 1)%nat) flux hcap k.

(** soil.py:324-339, _soil_heat_flux for one pixel. *)
Definition soil_heat_flux (ns : nat) (surf_flux soil_dx0 soil_T0 soil_lam0 : R)
  (snow_dx snow_T snow_lam : arr) : R :=
  if Nat.eqb ns 0 then surf_flux
  else 2 / (snow_dx (ns - 1)%nat / snow_lam (ns - 1)%nat + soil_dx0 / soil_lam0)
       * (snow_T (ns - 1)%nat - soil_T0).
