(** Shared definitions and tactics: sums over lists, missing values, comparisons on reals. *)
From Coq Require Export Reals List Lra Lia Psatz ZArith Bool Arith.
Export ListNotations.
Open Scope R_scope.

(** Sum of a list of reals (numpy's [.sum()]). *)
Definition sumR (l : list R) : R := fold_right Rplus 0 l.

(** A floating point value that may be NaN: [None] is NaN. *)
Definition num := option R.

(** [np.nan_to_num(x, nan=0.0)] / "if np.isnan(x): x = 0". *)
Definition nan_to_zero (x : num) : R := match x with Some v => v | None => 0 end.

(** Arithmetic on values that may be NaN; a zero denominator also counts as NaN. *)
Definition numscale (k : R) (x : num) : num := match x with Some v => Some (k * v) | None => None end.
Definition numplus (x y : num) : num :=
  match x, y with Some a, Some b => Some (a + b) | _, _ => None end.
Definition numdiv (x : R) (y : num) : num :=
  match y with Some d => if Req_EM_T d 0 then None else Some (x / d) | None => None end.
(** [x >= a] *)
Definition numge (x : num) (a : R) : bool :=
  match x with Some v => if Rle_dec a v then true else false | None => false end.

(** [x > 0] on a float that may be NaN: comparisons with NaN are false. *)
Definition gt0 (x : num) : bool :=
  match x with Some v => if Rlt_dec 0 v then true else false | None => false end.

(** [np.clip(x, lo, hi)] = minimum(maximum(x, lo), hi). *)
Definition clip (lo hi x : R) : R := Rmin (Rmax x lo) hi.

(** Case analysis on all real comparisons in sight; impossible branches are closed by [lra]. *)
Ltac rsplit :=
  repeat match goal with
  | |- context [Rlt_dec ?a ?b] => destruct (Rlt_dec a b); try (exfalso; lra)
  | |- context [Rle_dec ?a ?b] => destruct (Rle_dec a b); try (exfalso; lra)
  | |- context [Rgt_dec ?a ?b] => destruct (Rgt_dec a b); try (exfalso; lra)
  | |- context [Rge_dec ?a ?b] => destruct (Rge_dec a b); try (exfalso; lra)
  | |- context [Req_EM_T ?a ?b] => destruct (Req_EM_T a b); try (exfalso; lra)
  | |- context [Req_dec ?a ?b] => destruct (Req_dec a b); try (exfalso; lra)
  end.
(** Case analysis on all minima and maxima, innermost first. *)
Ltac no_minmax t :=
  lazymatch t with
  | context [Rmin _ _] => fail
  | context [Rmax _ _] => fail
  | _ => idtac
  end.
Ltac rmm_min a b :=
  let H := fresh "Hmin" in
  destruct (Rle_lt_dec a b) as [H|H];
  [ rewrite ?(Rmin_left a b H) in * | rewrite ?(Rmin_right a b (Rlt_le _ _ H)) in * ];
  try (exfalso; lra).
Ltac rmm_max a b :=
  let H := fresh "Hmax" in
  destruct (Rle_lt_dec a b) as [H|H];
  [ rewrite ?(Rmax_right a b H) in * | rewrite ?(Rmax_left a b (Rlt_le _ _ H)) in * ];
  try (exfalso; lra).
Ltac rmm :=
  repeat match goal with
  | |- context [Rmin ?a ?b] => no_minmax a; no_minmax b; rmm_min a b
  | |- context [Rmax ?a ?b] => no_minmax a; no_minmax b; rmm_max a b
  | _ : context [Rmin ?a ?b] |- _ => no_minmax a; no_minmax b; rmm_min a b
  | _ : context [Rmax ?a ?b] |- _ => no_minmax a; no_minmax b; rmm_max a b
  end.

Lemma sumR_nil : sumR [] = 0. Proof. reflexivity. Qed.
Lemma sumR_cons x l : sumR (x :: l) = x + sumR l. Proof. reflexivity. Qed.
Lemma sumR_app l1 l2 : sumR (l1 ++ l2) = sumR l1 + sumR l2.
Proof. unfold sumR; induction l1 as [|x l IH]; cbn; lra. Qed.
Lemma sumR_nonneg l : Forall (fun x => 0 <= x) l -> 0 <= sumR l.
Proof. unfold sumR; induction 1; cbn; lra. Qed.
Lemma sumR_repeat0 n : sumR (repeat 0 n) = 0.
Proof. unfold sumR; induction n; cbn; lra. Qed.
Lemma sumR_all0 l : Forall (fun x => x = 0) l -> sumR l = 0.
Proof. unfold sumR; induction 1; cbn; lra. Qed.
Lemma sumR_map_scal {A} (f : A -> R) c l : sumR (map (fun x => c * f x) l) = c * sumR (map f l).
Proof. unfold sumR; induction l as [|x l IH]; cbn; lra. Qed.
Lemma sumR_map_plus {A} (f g : A -> R) l :
  sumR (map (fun x => f x + g x) l) = sumR (map f l) + sumR (map g l).
Proof. unfold sumR; induction l as [|x l IH]; cbn; lra. Qed.
Lemma sumR_firstn_skipn n l : sumR l = sumR (firstn n l) + sumR (skipn n l).
Proof. rewrite <- sumR_app, firstn_skipn. reflexivity. Qed.
Lemma sumR_le l1 l2 : Forall2 Rle l1 l2 -> sumR l1 <= sumR l2.
Proof. unfold sumR; induction 1; cbn; lra. Qed.
#[global] Arguments sumR : simpl never.
#[global] Hint Rewrite sumR_nil sumR_cons sumR_app : sumR.
Ltac sumr := autorewrite with sumR in *; lra.
