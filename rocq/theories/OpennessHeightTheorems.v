(** Theorems about openness and the reference level of the elevations (C47). *)
From Verif Require Import Common TerrainModel OpennessTheorems.
From Coq Require Import FunctionalExtensionality.
Open Scope R_scope.

(** The same terrain, with all known elevations higher by k *)
Definition raised (k : R) (dem : arr) : arr :=
  ARR (a_rows dem) (a_cols dem) (fun r c => match a_at dem r c with Some z => Some (z + k) | None => None end).

Lemma raised_at k m r c : a_at (raised k m) r c = match a_at m r c with Some z => Some (z + k) | None => None end.
Proof. reflexivity. Qed.
Lemma assign_raised rs cs rs' cs' k m r c :
  a_at (assign rs cs rs' cs' (raised k m)) r c = match a_at (assign rs cs rs' cs' m) r c with Some z => Some (z + k) | None => None end.
Proof. unfold assign. cbn [a_at a_rows a_cols raised]. destruct (_ && _); reflexivity. Qed.
Lemma shift_raised k m dir n r c :
  a_at (shift_retain (raised k m) dir n) r c = match a_at (shift_retain m dir n) r c with Some z => Some (z + k) | None => None end.
Proof. unfold shift_retain. destruct dir as [|p|p]; [apply assign_raised| |reflexivity]. do 3 (try destruct p as [p|p|]); try apply assign_raised; reflexivity. Qed.
Lemma open_angle_raised k dem res dir : open_angle (raised k dem) res dir = open_angle dem res dir.
Proof.
  extensionality i. extensionality r. extensionality c. unfold open_angle. rewrite shift_raised, raised_at.
  destruct (a_at (shift_retain dem dir (Z.of_nat i)) r c) as [a|]; [|reflexivity]. destruct (a_at dem r c) as [b|]; [|reflexivity].
  cbn. replace (a + k - (b + k)) with (a - b) by ring. reflexivity.
Qed.
(** Openness does not depend on the level from which elevations are measured, in every direction, for positive and
    negative openness and for any schedule of the parallel loop. *)
Theorem c47_reference_level : forall k dem res L negative schedule dir,
  openness (raised k dem) res L negative schedule dir = openness dem res L negative schedule dir.
Proof.
  intros k dem res L neg sch dir. unfold openness, openness_dir. destruct neg.
  - replace (amap Ropp (raised k dem)) with (raised (- k) (amap Ropp dem)); [rewrite open_angle_raised; auto|].
    unfold raised, amap. cbn. f_equal. extensionality r. extensionality c. destruct (a_at dem r c); cbn; auto. f_equal. ring.
  - rewrite open_angle_raised. auto.
Qed.
Print Assumptions c47_reference_level.
Theorem c47_reference_level_mean : forall k dem res L negative schedule,
  openness_mean (raised k dem) res L negative schedule = openness_mean dem res L negative schedule.
Proof.
  intros k dem res L neg sch. unfold openness_mean. extensionality r. extensionality c. do 2 f_equal.
  apply map_ext. intros dir. rewrite c47_reference_level. auto.
Qed.
Print Assumptions c47_reference_level_mean.
(** The terrain of [c47_example] at another level: it is not the same terrain, and its openness is the same. *)
Example c47_reference_level_example : a_at (raised 100 wall) 2 0 <> a_at wall 2 0 /\
  openness (raised 100 wall) 1 (3 / 2) true (fun _ => [1; 0; 1; 0]%nat) 4 = openness wall 1 (3 / 2) true (fun _ => [1; 0; 1; 0]%nat) 4.
Proof. split; [|apply c47_reference_level]. cbn. intros E. injection E. lra. Qed.
