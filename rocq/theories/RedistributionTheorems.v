(** Theorems about the redistribution of snowfall over all pixels, after the separation of the phases (C31). *)
From Verif Require Import Common AtmosphereModel AtmosphereTheorems.
Open Scope R_scope.

(** With redistribution, the rainfall of every pixel stays a part of the measured precipitation and the snowfall is the
    rest of it times the factor. The precipitation afterwards is their sum, it is not negative, and it differs from the
    measured one only by the added or removed snowfall: not at all for a factor of 1 or a pixel with rain only. *)
Theorem c31_redistributed_fields : forall c ps out i p v sr, precip_fields c ps = Some out ->
  nth_error ps i = Some p -> nth_error out i = Some sr -> precip p = Some v -> 0 <= v -> 0 <= srf p ->
  exists s r total, redistribute_snow (srf p) sr = (Some s, Some r, Some total) /\
    total = s + r /\ 0 <= s /\ 0 <= r <= v /\ s = srf p * (v - r) /\
    total - v = (srf p - 1) * (v - r) /\
    (srf p = 1 \/ r = v -> total = v) /\ (1 <= srf p -> v <= total) /\ (srf p <= 1 -> total <= v).
Proof.
  intros c ps out i p v [s0 r0] H P O V N K. destruct (c31_sum c ps out i p v s0 r0 H P O V N) as (a & b & -> & -> & E & A & B).
  exists (srf p * a), b, (srf p * a + b). split; [reflexivity|]. assert (EA : a = v - b) by lra.
  repeat split; auto; try nra; try (intros [F|F]; nra).
Qed.
Print Assumptions c31_redistributed_fields.
(** If the factor keeps the snowfall summed over the pixels, it keeps the precipitation summed over them. *)
Definition total_of (f : num * num * num -> num) (l : list (num * num * num)) : R :=
  fold_right (fun x acc => match f x with Some a => a + acc | None => acc end) 0 l.
Definition snow_of (x : num * num * num) : num := fst (fst x).
Definition precip_of (x : num * num * num) : num := snd x.
Definition before (sr : num * num) : num * num * num := (fst sr, snd sr, match fst sr, snd sr with Some a, Some b => Some (a + b) | _, _ => None end).
Theorem c31_redistribution_total : forall l : list (R * (R * R)),
  let pre := map (fun x => before (Some (fst (snd x)), Some (snd (snd x)))) l in
  let post := map (fun x => redistribute_snow (fst x) (Some (fst (snd x)), Some (snd (snd x)))) l in
  total_of precip_of post - total_of precip_of pre = total_of snow_of post - total_of snow_of pre.
Proof.
  intros l pre post. unfold pre, post. clear pre post. induction l as [|[k [a b]] l IH]; [cbn; lra|]. cbn [map].
  assert (C : forall f x m w, f x = Some w -> total_of f (x :: m) = w + total_of f m) by (intros f x m w E; cbn; rewrite E; auto).
  rewrite (C precip_of (redistribute_snow k (Some a, Some b)) _ (k * a + b) eq_refl), (C precip_of (before (Some a, Some b)) _ (a + b) eq_refl),
    (C snow_of (redistribute_snow k (Some a, Some b)) _ (k * a) eq_refl), (C snow_of (before (Some a, Some b)) _ a eq_refl).
  lra.
Qed.
Print Assumptions c31_redistribution_total.
Example c31_redistributed_example : exists out sr,
  precip_fields (PhaseCfg 273.15 2 false) [PPix 2000 (Some 253) (Some 5) 2] = Some out /\ nth_error out 0 = Some sr /\
  exists r, redistribute_snow 2 sr = (Some (2 * (5 - r)), Some r, Some (2 * (5 - r) + r)) /\ 0 <= r <= 5.
Proof.
  destruct (c31_total (PhaseCfg 273.15 2 false) [PPix 2000 (Some 253) (Some 5) 2]) as [out H]; [cbn; lra|].
  destruct (c31_partition _ _ _ H) as [L _]. destruct out as [|sr [|? ?]]; try discriminate. exists [sr], sr. split; auto. split; auto.
  destruct (c31_redistributed_fields _ _ _ 0%nat _ 5 sr H eq_refl eq_refl eq_refl) as (s & r & t & E & T & _ & B & S & _); [lra|cbn; lra|].
  cbn [srf] in *. exists r. subst. auto.
Qed.
