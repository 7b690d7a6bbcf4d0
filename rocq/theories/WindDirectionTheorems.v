(** Theorems C94: wind directions of aggregated time steps. *)
From Coq Require Import Sorted.
From Verif Require Import Common TimeModel AtmosphereModel AtmosphereProofs AtmosphereTheorems TerrainTheorems ForcingModel ForcingTheorems
  ResampleTheorems InterpTheorems DatasetModel DatasetTheorems ReadingTheorems.
Open Scope string_scope.
Open Scope R_scope.

(** Wind speed and direction pairs with both values available, of the records within (lo, lo + f] and [a, b] *)
Fixpoint pairs (f lo a b : Z) (times : list Z) (ws wd : list num) : list (R * R) :=
  match times, ws, wd with
  | t :: ts, s :: ss, d :: ds =>
      let rest := pairs f lo a b ts ss ds in
      if ((lo <? t) && (t <=? lo + f) && (a <=? t) && (t <=? b))%Z
      then match s, d with Some s, Some d => (s, d) :: rest | _, _ => rest end
      else rest
  | _, _, _ => []
  end.
(** Components of the summed wind vector, towards east and north; the direction is the one the wind comes from. *)
Definition east (l : list (R * R)) : R := sumR (map (fun p => - fst p * sin (snd p * PI / 180)) l).
Definition north (l : list (R * R)) : R := sumR (map (fun p => - fst p * cos (snd p * PI / 180)) l).

Lemma deg_eq : forall x, deg2rad x = x * PI / 180.
Proof. intros x. unfold deg2rad. field. Qed.

Lemma polar_direction : forall u v, u <> 0 \/ v <> 0 -> exists a w, snd (wind_from_uv u v) = a /\ 0 <= a < 360 /\ 0 < w
  /\ u = - w * sin (a * PI / 180) /\ v = - w * cos (a * PI / 180).
Proof.
  intros u v H. destruct (atan2_polar_form v u ltac:(tauto)) as (t & T & B & Y & X).
  set (q := sqrt (u ^ 2 + v ^ 2)) in *. assert (Q : 0 < q) by (apply sqrt_lt_R0; nra).
  unfold wind_from_uv; cbn [snd]. rewrite T. exists (fmod (270 - rad2deg t) 360), q. split; [reflexivity|].
  split; [apply fmod_range; lra|]. split; [exact Q|]. pose proof PI_RGT_0 as P.
  unfold fmod. set (k := Int_part ((270 - rad2deg t) / 360)).
  assert (E : (270 - rad2deg t - 360 * IZR k) * PI / 180 = 3 * (PI / 2) - t - 2 * IZR k * PI) by (unfold rad2deg; field; lra).
  rewrite E.
  assert (PER : forall x, sin (x - 2 * IZR k * PI) = sin x /\ cos (x - 2 * IZR k * PI) = cos x).
  { intros x. destruct (Z_lt_le_dec k 0) as [K|K].
    - assert (EK : IZR k = - INR (Z.to_nat (- k))) by (rewrite INR_IZR_INZ, Z2Nat.id, opp_IZR by lia; ring).
      rewrite EK. replace (x - 2 * - INR (Z.to_nat (- k)) * PI) with (x + 2 * INR (Z.to_nat (- k)) * PI) by ring.
      split; [apply sin_period|apply cos_period].
    - assert (EK : IZR k = INR (Z.to_nat k)) by (rewrite INR_IZR_INZ, Z2Nat.id by lia; reflexivity).
      rewrite EK. split.
      + rewrite <- (sin_period (x - 2 * INR (Z.to_nat k) * PI) (Z.to_nat k)). f_equal. ring.
      + rewrite <- (cos_period (x - 2 * INR (Z.to_nat k) * PI) (Z.to_nat k)). f_equal. ring. }
  destruct (PER (3 * (PI / 2) - t)) as [-> ->].
  rewrite sin_minus, cos_minus, sin_3PI2, cos_3PI2. split; [rewrite X|rewrite Y]; ring.
Qed.
Lemma calm_direction : snd (wind_from_uv 0 0) = 270.
Proof.
  unfold wind_from_uv; cbn [snd]. unfold arctan2. destruct (Rlt_dec 0 0); [lra|]. unfold rad2deg.
  replace (270 - 0 * (180 / PI)) with (270 + 360 * IZR 0) by (rewrite Rmult_0_l; simpl; ring). apply fmod_period. lra.
Qed.

(** Averages of the components of the pairs in a bin *)
Lemma bin_pairs : forall f lo a b times ws wd, List.length ws = List.length times -> List.length wd = List.length times ->
  available (bin f lo (sel a b (zip_times times (map fst (components ws wd))))) = map (fun p => - fst p * sin (deg2rad (snd p))) (pairs f lo a b times ws wd)
  /\ available (bin f lo (sel a b (zip_times times (map snd (components ws wd))))) = map (fun p => - fst p * cos (deg2rad (snd p))) (pairs f lo a b times ws wd).
Proof.
  intros f lo a b times. induction times as [|t ts IH]; intros [|s ws] [|d wd] H1 H2; simpl in H1, H2; try discriminate; [split; reflexivity|].
  destruct (IH ws wd ltac:(lia) ltac:(lia)) as [I1 I2]. clear IH.
  cbn [components map pairs]. unfold zip_times in *. cbn [List.combine]. unfold sel, bin in *. cbn [filter fst].
  assert (C : ((lo <? t) && (t <=? lo + f) && (a <=? t) && (t <=? b) = ((a <=? t) && (t <=? b)) && ((lo <? t) && (t <=? lo + f)))%Z%bool) by
    (destruct (lo <? t)%Z, (t <=? lo + f)%Z, (a <=? t)%Z, (t <=? b)%Z; reflexivity).
  rewrite C. destruct ((a <=? t)%Z && (t <=? b)%Z); cbn [andb filter fst]; [|split; [exact I1|exact I2]].
  destruct ((lo <? t)%Z && (t <=? lo + f)%Z); cbn [filter map snd fst]; [|split; [exact I1|exact I2]].
  destruct s as [s|], d as [d|]; cbn [fst snd available map]; try (split; [exact I1|exact I2]).
  unfold wind_to_uv. cbn [fst snd available map]. rewrite I1, I2. split; reflexivity.
Qed.

Definition mean_labels (r : rsettings) (stop' : Z) (times : list Z) : option (list Z) :=
  option_map (tsel (rs_start r) stop') (labels_of (rs_freq r) (rs_start r) stop' true (tsel (rs_start r - DAY) stop' times)).
Lemma averaged_rows : forall r i times vals, rs_inferred r = Some i -> rs_same r = false ->
  ((rs_freq r = DAY /\ i < DAY)%Z \/ rs_aggregate r = true) -> List.length vals = List.length times ->
  let stop' := if ((rs_freq r =? DAY) && (i <? DAY))%Z then ((rs_stop r + DAY) / DAY * DAY)%Z else rs_stop r in
  resampled ROther r times vals =
  option_map (map (fun L => (L, num_mean (bin (rs_freq r) (if (rs_freq r <? DAY)%Z then L - rs_freq r else L)%Z (sel (rs_start r - DAY) stop' (zip_times times vals))))))
             (mean_labels r stop' times).
Proof.
  intros r i times vals Hi Hs Ha Hl stop'. unfold resampled, slice_and_resample. rewrite Hi, Hs. cbv zeta. fold stop'.
  assert (AG : ((rs_freq r =? DAY)%Z && (i <? DAY)%Z || rs_aggregate r)%bool = true).
  { destruct Ha as [[-> H]|H]; [|rewrite H; apply orb_true_r]. apply Z.ltb_lt in H. rewrite H, Z.eqb_refl. reflexivity. }
  rewrite AG, resample_labels, sel_times, zip_fst by exact Hl. unfold mean_labels.
  destruct (labels_of _ _ _ _ _) as [ls|] eqn:LO; [|reflexivity]. cbn [option_map]. f_equal. rewrite sel_map.
  apply map_ext_in. intros L HL. f_equal.
  destruct (sel (rs_start r - DAY) stop' (zip_times times vals)) as [|r0 l] eqn:SE; [|reflexivity].
  exfalso. assert (E : tsel (rs_start r - DAY) stop' times = []) by (rewrite <- (zip_fst times vals Hl), <- sel_times, SE; reflexivity).
  rewrite E in LO. unfold labels_of in LO. destruct (DAY <? rs_freq r)%Z; [discriminate|]. injection LO as <-. exact HL.
Qed.

Lemma mean_scaled : forall l, l <> [] -> exists n, 0 < n /\ forall g, num_mean (map Some (map g (l : list (R * R)))) = Some (sumR (map g l) / n).
Proof.
  intros l H. exists (INR (List.length l)). split; [apply lt_0_INR; destruct l; [contradiction|simpl; lia]|]. intros g. unfold num_mean.
  assert (A : forall x : list R, available (map Some x) = x) by (induction x as [|y x IH]; simpl; [reflexivity|rewrite IH; reflexivity]).
  rewrite A. destruct l as [|p l]; [contradiction|]. rewrite <- (map_length g (p :: l)). reflexivity.
Qed.

(** When values are averaged, the wind direction of a time step is missing if no record has both speed and direction, and otherwise
    the direction of the sum of the wind vectors, in [0, 360) degrees (270 if the vectors cancel). *)
Theorem c94_direction : forall r i d ws wd k x, rs_inferred r = Some i -> rs_same r = false ->
  ((rs_freq r = DAY /\ i < DAY)%Z \/ rs_aggregate r = true) ->
  assoc "wind_speed" (pd_vars d) = Some ws -> List.length ws = List.length (pd_times d) -> List.length wd = List.length (pd_times d) ->
  nth_error (resampled_var r d "wind_dir" wd) k = Some x ->
  exists L rows, resampled ROther r (pd_times d) wd = Some rows /\ nth_error (map fst rows) k = Some L /\
  let stop' := if ((rs_freq r =? DAY) && (i <? DAY))%Z then ((rs_stop r + DAY) / DAY * DAY)%Z else rs_stop r in
  let recs := pairs (rs_freq r) (if (rs_freq r <? DAY)%Z then L - rs_freq r else L)%Z (rs_start r - DAY) stop' (pd_times d) ws wd in
  (x = None <-> recs = [])
  /\ forall a, x = Some a ->
       0 <= a < 360
       /\ ((east recs <> 0 \/ north recs <> 0) -> exists w, 0 < w /\ east recs = - w * sin (a * PI / 180) /\ north recs = - w * cos (a * PI / 180))
       /\ (east recs = 0 -> north recs = 0 -> a = 270).
Proof.
  intros r i d ws wd k x Hi Hs Ha Hw Lw Ld H.
  assert (AV : averages r = true).
  { unfold averages. rewrite Hi, Hs. cbn [negb andb]. destruct Ha as [[-> Q]|Q]; [|rewrite Q; apply orb_true_r].
    apply Z.ltb_lt in Q. rewrite Q, Z.eqb_refl. reflexivity. }
  unfold resampled_var in H. rewrite AV, Hw in H. change ((("wind_dir" =? "wind_dir")%string && true)%bool) with true in H. cbv iota zeta in H.
  assert (LC : List.length (components ws wd) = List.length (pd_times d)) by (rewrite components_length; lia).
  set (stop' := if ((rs_freq r =? DAY) && (i <? DAY))%Z then ((rs_stop r + DAY) / DAY * DAY)%Z else rs_stop r) in *.
  rewrite (averaged_rows r i _ _ Hi Hs Ha) in H by (rewrite map_length; exact LC).
  rewrite (averaged_rows r i _ _ Hi Hs Ha) in H by (rewrite map_length; exact LC). fold stop' in H.
  rewrite (averaged_rows r i _ wd Hi Hs Ha Ld). fold stop'.
  destruct (mean_labels r stop' (pd_times d)) as [ls|]; [|cbn in H; destruct k; discriminate].
  cbn [option_map values_or_nil] in *. rewrite !map_map in H. cbn [snd] in H.
  set (bu := fun L => bin (rs_freq r) (if (rs_freq r <? DAY)%Z then L - rs_freq r else L)%Z (sel (rs_start r - DAY) stop' (zip_times (pd_times d) (map fst (components ws wd))))) in *.
  set (bv := fun L => bin (rs_freq r) (if (rs_freq r <? DAY)%Z then L - rs_freq r else L)%Z (sel (rs_start r - DAY) stop' (zip_times (pd_times d) (map snd (components ws wd))))) in *.
  assert (H' : exists L, nth_error ls k = Some L /\ x = direction (num_mean (bu L)) (num_mean (bv L))).
  { revert k H. induction ls as [|L ls IH]; intros [|k] H; cbn [map List.combine nth_error fst snd] in H; try discriminate.
    - injection H as <-. exists L. split; reflexivity.
    - destruct (IH k H) as (L' & A & B). exists L'. split; assumption. }
  destruct H' as (L & NL & ->). exists L. eexists. split; [reflexivity|]. split; [rewrite map_map; cbn [fst]; rewrite map_id; exact NL|].
  cbv zeta. set (recs := pairs _ _ _ _ _ _ _).
  destruct (bin_pairs (rs_freq r) (if (rs_freq r <? DAY)%Z then L - rs_freq r else L)%Z (rs_start r - DAY) stop' (pd_times d) ws wd Lw Ld) as [U V].
  change (available (bu L) = map (fun p => - fst p * sin (deg2rad (snd p))) recs) in U. change (available (bv L) = map (fun p => - fst p * cos (deg2rad (snd p))) recs) in V.
  assert (EE : east recs = sumR (map (fun p => - fst p * sin (deg2rad (snd p))) recs)) by (unfold east; f_equal; apply map_ext; intros p; rewrite deg_eq; reflexivity).
  assert (EN : north recs = sumR (map (fun p => - fst p * cos (deg2rad (snd p))) recs)) by (unfold north; f_equal; apply map_ext; intros p; rewrite deg_eq; reflexivity).
  destruct recs as [|p l] eqn:ER; [unfold num_mean; rewrite U; cbn [map direction]; split; [tauto|discriminate]|]. rewrite <- ER in *.
  assert (NE : recs <> []) by (rewrite ER; discriminate).
  assert (GU : forall (g : R * R -> R) b, available b = map g recs -> num_mean b = Some (sumR (map g recs) / INR (List.length recs))).
  { intros g b B. unfold num_mean. rewrite B, <- (map_length g recs). destruct (map g recs) eqn:M; [|reflexivity].
    apply (f_equal (@List.length R)) in M. rewrite map_length in M. destruct recs; [contradiction|discriminate]. }
  rewrite (GU _ _ U), (GU _ _ V), <- EE, <- EN. cbn [direction]. set (n := INR (List.length recs)).
  assert (Hn : 0 < n) by (apply lt_0_INR; rewrite ER; simpl; lia). assert (In0 : 0 < / n) by (apply Rinv_0_lt_compat; exact Hn).
  split; [split; [discriminate|intros; contradiction]|]. intros a A.
  assert (A2 : a = snd (wind_from_uv (east recs / n) (north recs / n))) by congruence. clear A. subst a.
  destruct (Req_dec (east recs) 0) as [E0|E0]; [destruct (Req_dec (north recs) 0) as [N0|N0]|].
  - rewrite E0, N0. replace (0 / n) with 0 by (unfold Rdiv; ring). rewrite calm_direction. split; [lra|]. split; [intros [Q|Q]; lra|reflexivity].
  - destruct (polar_direction (east recs / n) (north recs / n)) as (a & w & -> & B & W & X & Y).
    { right. unfold Rdiv. nra. }
    split; [exact B|]. split; [|intros _ Q; contradiction]. intros _. exists (w * n). split; [nra|]. split.
    + apply (Rmult_eq_reg_r (/ n)); [|lra]. transitivity (- w * sin (a * PI / 180)); [exact X|]. field. lra.
    + apply (Rmult_eq_reg_r (/ n)); [|lra]. transitivity (- w * cos (a * PI / 180)); [exact Y|]. field. lra.
  - destruct (polar_direction (east recs / n) (north recs / n)) as (a & w & -> & B & W & X & Y).
    { left. unfold Rdiv. nra. }
    split; [exact B|]. split; [|intros Q; contradiction]. intros _. exists (w * n). split; [nra|]. split.
    + apply (Rmult_eq_reg_r (/ n)); [|lra]. transitivity (- w * sin (a * PI / 180)); [exact X|]. field. lra.
    + apply (Rmult_eq_reg_r (/ n)); [|lra]. transitivity (- w * cos (a * PI / 180)); [exact Y|]. field. lra.
Qed.
Print Assumptions c94_direction.

(** Such a direction is unique: if all records of the time step have the same direction, the result is this direction. *)
Lemma sums_constant : forall l a, (forall p, In p l -> snd p = a) ->
  east l = - sumR (map fst l) * sin (a * PI / 180) /\ north l = - sumR (map fst l) * cos (a * PI / 180).
Proof.
  intros l a. unfold east, north. induction l as [|p l IH]; intros H; cbn [map]; [rewrite sumR_nil; split; ring|].
  rewrite !sumR_cons, (H p (or_introl eq_refl)). destruct IH as [-> ->]; [intros; apply H; right; assumption|]. split; ring.
Qed.
Theorem c94_constant : forall l a0 a w, l <> [] -> (forall p, In p l -> snd p = a0 /\ 0 < fst p) -> 0 <= a0 < 360 ->
  0 <= a < 360 -> 0 < w -> east l = - w * sin (a * PI / 180) -> north l = - w * cos (a * PI / 180) -> a = a0.
Proof.
  intros l a0 a w NE H A0 A W E N. destruct (sums_constant l a0 (fun p Hp => proj1 (H p Hp))) as [E' N'].
  assert (Q : 0 < sumR (map fst l)).
  { destruct l as [|p l]; [contradiction|]. cbn [map]. rewrite sumR_cons. assert (P := proj2 (H p (or_introl eq_refl))).
    assert (0 <= sumR (map fst l)); [|lra]. clear - H. assert (H' : forall q, In q l -> 0 < fst q) by (intros q Hq; apply H; right; exact Hq). clear H.
    induction l as [|q l IH]; cbn [map]; [rewrite sumR_nil; lra|]. rewrite sumR_cons. specialize (IH (fun z Hz => H' z (or_intror Hz))).
    specialize (H' q (or_introl eq_refl)). lra. }
  assert (R1 := c28_round_trip w a W A). assert (R2 := c28_round_trip _ a0 Q A0). unfold wind_to_uv in R1, R2. rewrite !deg_eq in R1, R2.
  rewrite <- E, <- N in R1. rewrite <- E', <- N' in R2. rewrite R1 in R2. injection R2 as _ ->. reflexivity.
Qed.
Print Assumptions c94_constant.

(** Without wind speeds no direction is known. *)
Theorem c94_no_speed : forall r d wd x, averages r = true -> assoc "wind_speed" (pd_vars d) = None -> List.length wd = List.length (pd_times d) ->
  In x (resampled_var r d "wind_dir" wd) -> x = None.
Proof.
  intros r d wd x AV N L H. unfold resampled_var in H. rewrite AV, N in H. change ((("wind_dir" =? "wind_dir")%string && true)%bool) with true in H. cbv iota zeta in H.
  assert (AV2 := AV). unfold averages in AV2. destruct (rs_inferred r) as [i|] eqn:Hi; [|discriminate].
  apply andb_prop in AV2. destruct AV2 as [Hs Ha]. apply negb_true_iff in Hs. apply orb_prop in Ha.
  assert (Ha' : (rs_freq r = DAY /\ i < DAY)%Z \/ rs_aggregate r = true).
  { destruct Ha as [Ha|Ha]; [left|right; exact Ha]. apply andb_prop in Ha. destruct Ha as [A B]. apply Z.eqb_eq in A. apply Z.ltb_lt in B. auto. }
  assert (C : components (map (fun _ => None) wd) wd = map (fun _ => (None, None)) wd) by (clear; induction wd; simpl; [reflexivity|rewrite IHwd; reflexivity]).
  rewrite C, !map_map in H. cbn [fst snd] in H.
  rewrite (averaged_rows r i _ (map (fun _ => None) wd) Hi Hs Ha') in H by (rewrite map_length; exact L).
  apply in_map_iff in H. destruct H as ([u v] & <- & H). apply in_combine_l in H. cbn [fst snd].
  destruct (mean_labels _ _ _) as [ls|]; [|contradiction]. cbn [option_map values_or_nil] in H. rewrite map_map in H. cbn [snd] in H.
  apply in_map_iff in H. destruct H as (z & <- & _). unfold num_mean.
  assert (AN : forall lo a b, available (bin (rs_freq r) lo (sel a b (zip_times (pd_times d) (map (fun _ => None) wd)))) = []).
  { intros lo a b. destruct (available _) as [|y q] eqn:E; [reflexivity|]. exfalso.
    assert (Y : In (Some y) (bin (rs_freq r) lo (sel a b (zip_times (pd_times d) (map (fun _ => None) wd))))) by (apply available_in; rewrite E; left; reflexivity).
    unfold bin in Y. apply in_map_iff in Y. destruct Y as ([t v'] & E2 & Y). cbn [snd] in E2. subst v'. apply filter_In in Y. destruct Y as [Y _].
    unfold sel in Y. apply filter_In in Y. destruct Y as [Y _]. apply in_combine_r in Y. apply in_map_iff in Y. destruct Y as (q' & Y & _). discriminate. }
  rewrite AN. reflexivity.
Qed.
Print Assumptions c94_no_speed.

(** Calm hours have no direction, but an averaged time step which is calm throughout has one: west. *)
Definition calm : pointds := PD "a" "A" 10 47 500 [0; 3600; 7200; 10800]%Z
  [("wind_speed", [Some 0; Some 0; Some 0; Some 0]); ("wind_dir", [Some 10; Some 80; Some 200; Some 120])].
Definition to_three_hours : rsettings := RS (Some 3600%Z) false 10800 0 10800 true.
Theorem c94_calm_refuted : exists d wd k, (forall s, assoc "wind_speed" (pd_vars d) = Some s -> forall v, In v s -> v = Some 0)
  /\ assoc "wind_dir" (pd_vars d) = Some wd /\ ~ In (Some 270) wd
  /\ nth_error (resampled_var to_three_hours d "wind_dir" wd) k = Some (Some 270).
Proof.
  exists calm, [Some 10; Some 80; Some 200; Some 120], 1%nat. split; [|split; [reflexivity|split]].
  - intros s E v H. injection E as <-. simpl in H. intuition congruence.
  - simpl. intros [H|[H|[H|[H|[]]]]]; injection H; lra.
  - assert (X : exists x, nth_error (resampled_var to_three_hours calm "wind_dir" [Some 10; Some 80; Some 200; Some 120]) 1 = Some x) by (eexists; reflexivity).
    destruct X as (x & X).
    destruct (c94_direction to_three_hours 3600 calm [Some 0; Some 0; Some 0; Some 0] [Some 10; Some 80; Some 200; Some 120] 1 x eq_refl eq_refl (or_intror eq_refl) eq_refl eq_refl eq_refl X)
      as (L & rows & RW & NL & SPEC).
    rewrite X. f_equal. assert (EL : L = 10800%Z).
    { assert (EX : option_map (map fst) (resampled ROther to_three_hours (pd_times calm) [Some 10; Some 80; Some 200; Some 120]) = Some [0; 10800]%Z) by reflexivity.
      rewrite RW in EX. cbn [option_map] in EX. injection EX as EX. rewrite EX in NL. injection NL as <-. reflexivity. }
    subst L. cbv zeta in SPEC. set (recs := pairs _ _ _ _ _ _ _) in SPEC.
    assert (ER : recs = [(0, 80); (0, 200); (0, 120)]) by reflexivity. clearbody recs. subst recs. destruct SPEC as [S1 S2].
    destruct x as [a|]; [|destruct S1 as [S1 _]; specialize (S1 eq_refl); discriminate].
    f_equal. apply (S2 a eq_refl); unfold east, north; cbn [map fst snd]; rewrite !sumR_cons, sumR_nil; ring.
Qed.
Print Assumptions c94_calm_refuted.

Definition northerly : pointds := PD "a" "A" 10 47 500 [0; 3600; 7200; 10800]%Z
  [("wind_speed", [Some 1; Some 2; None; Some 4]); ("wind_dir", [Some 180; Some 350; Some 200; Some 10])].
Example c94_example :
  assoc "wind_speed" (pd_vars northerly) = Some [Some 1; Some 2; None; Some 4]
  /\ List.length (resampled_var to_three_hours northerly "wind_dir" [Some 180; Some 350; Some 200; Some 10]) = 2%nat
  /\ pairs 10800 0 (0 - DAY) 10800 (pd_times northerly) [Some 1; Some 2; None; Some 4] [Some 180; Some 350; Some 200; Some 10] = [(2, 350); (4, 10)].
Proof. repeat split. Qed.
