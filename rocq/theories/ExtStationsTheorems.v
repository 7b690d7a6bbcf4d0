(** Theorems about the clear-sky irradiance at stations outside the model grid (C111). *)
From Verif Require Import Common Constants AtmosphereModel AtmosphereProofs RadiationModel ClearSkyTheorems ExtStationsModel.
Open Scope R_scope.

(** * Specification *)
(** Stations for which the irradiance is computed: in the extended grid, outside of the model grid, temperature and humidity known *)
Definition eligible (g : extgrid) (s : est) : Prop :=
  (0 <= e_row s + g_row_offset g < g_rows g)%Z /\ (0 <= e_col s + g_col_offset g < g_cols g)%Z /\ e_within s = false /\ e_temp s <> None /\ e_hum s <> None.
(** The pixel of the extended grid the station stands on, with pressure of its elevation and precipitable water of the station's weather *)
Definition surroundings (g : extgrid) (s : est) (p : cs_pixel) : Prop :=
  let r := (e_row s + g_row_offset g)%Z in let k := (e_col s + g_col_offset g)%Z in
  cp_normal p = g_normal g r k /\ cp_shadow p = g_shadow g r k /\ cp_elev p = g_dem g r k /\ cp_svf p = g_svf g r k /\
  cp_press p = atmospheric_pressure (g_dem g r k) /\
  exists t h, e_temp s = Some t /\ e_hum s = Some h /\ cp_pw p = 46.5 * (saturation_vapor_pressure None t * h / 100 / 100) / t * 10.
Definition over (p : cs_pixel) (sun : R * R * R) : R * R := (incidence sun (cp_normal p), cp_shadow p).

(** * Theorems *)
Lemma in_ext_spec g s : in_ext g s = true <-> (0 <= e_row s + g_row_offset g < g_rows g)%Z /\ (0 <= e_col s + g_col_offset g < g_cols g)%Z.
Proof. unfold in_ext, ext_row, ext_col. rewrite !andb_true_iff, !Z.leb_le, !Z.ltb_lt. lia. Qed.
Lemma selected_in g l s t h : In (s, t, h) (ext_selected g l) <-> In s l /\ eligible g s /\ e_temp s = Some t /\ e_hum s = Some h.
Proof.
  unfold ext_selected. rewrite in_flat_map. unfold eligible. split.
  - intros [u [I J]]. destruct (in_ext g u) eqn:X; [|inversion J]. destruct (e_within u) eqn:W; [inversion J|]. cbn in J.
    destruct (e_temp u) eqn:T; [|inversion J]. destruct (e_hum u) eqn:H; [|inversion J]. destruct J as [J|[]]. injection J as <- <- <-.
    apply in_ext_spec in X. rewrite T, H, W. repeat split; auto; try tauto; congruence.
  - intros [I [[A [B [W _]]] [T H]]]. exists s. split; auto. rewrite (proj2 (in_ext_spec g s) (conj A B)), W. cbn. rewrite T, H. left; auto.
Qed.
Lemma pixel_spec g s t h : e_temp s = Some t -> e_hum s = Some h -> surroundings g s (ext_pixel g (s, t, h)).
Proof.
  intros T H. unfold surroundings, ext_pixel, ext_row, ext_col. cbn [cp_normal cp_shadow cp_elev cp_svf cp_press cp_pw]. do 5 (split; auto).
  exists t, h. split; auto. split; auto. unfold precipitable_water, vapor_pressure. lra.
Qed.
(** Exactly the eligible stations get a value, in the order of the data set. *)
Theorem c111_stations : forall c da sun al soil g l,
  (forall s, In s (map fst (ext_irradiance c da sun al soil g l)) <-> In s l /\ eligible g s) /\
  exists keep, map fst (ext_irradiance c da sun al soil g l) = filter keep l.
Proof.
  intros c da sun al soil g l.
  assert (F : map fst (ext_irradiance c da sun al soil g l) = map (fun x => fst (fst x)) (ext_selected g l)).
  { unfold ext_irradiance. rewrite map_map. apply map_ext. intros x. destruct (clear_sky _ _ _ _ _ _). auto. }
  rewrite F. split.
  - intros s. rewrite in_map_iff. split.
    + intros [[[u t] h] [E I]]. cbn in E. subst u. apply selected_in in I. tauto.
    + intros [I E]. pose proof E as [_ [_ [_ [T H]]]]. destruct (e_temp s) as [t|] eqn:ET; [|congruence]. destruct (e_hum s) as [h|] eqn:EH; [|congruence].
      exists (s, t, h). split; auto. apply selected_in. auto.
  - exists (fun s => in_ext g s && negb (e_within s) && match e_temp s, e_hum s with Some _, Some _ => true | _, _ => false end).
    clear F. induction l as [|s l IH]; auto. unfold ext_selected in *. cbn [flat_map filter]. rewrite map_app, IH.
    destruct (in_ext g s), (e_within s); cbn; auto; destruct (e_temp s), (e_hum s); auto.
Qed.
Print Assumptions c111_stations.
(** The value of a station is the clear-sky irradiance of the pixel it stands on under its own weather, with the ground albedo
    of the region of interest; sunlit share and incidence for the reflection by slopes are those of the eligible stations. *)
Theorem c111_value : forall c da sun al soil g l s v, In (s, v) (ext_irradiance c da sun al soil g l) ->
  exists p means, surroundings g s p /\
    (exists others, map fst (ext_irradiance c da sun al soil g l) = map fst others /\ means = map (fun x => over (snd x) sun) others /\
       Forall (fun x => surroundings g (fst x) (snd x)) others) /\
    v = fst (clear_sky c da sun (mean_albedo al soil) means p) + snd (clear_sky c da sun (mean_albedo al soil) means p).
Proof.
  intros c da sun al soil g l s v I. pose proof I as I0. unfold ext_irradiance in I. apply in_map_iff in I. destruct I as [[[u t] h] [E I]].
  set (means := map (fun x => (incidence sun (cp_normal (ext_pixel g x)), cp_shadow (ext_pixel g x))) (ext_selected g l)) in *.
  destruct (clear_sky c da sun (mean_albedo al soil) means (ext_pixel g (u, t, h))) as [dir diff] eqn:CS. cbn in E. injection E as -> <-.
  apply selected_in in I. destruct I as [I [_ [T H]]].
  exists (ext_pixel g (s, t, h)), means. split; [apply pixel_spec; auto|]. split; [|rewrite CS; auto].
  exists (map (fun x => (fst (fst x), ext_pixel g x)) (ext_selected g l)). split; [|split].
  - unfold ext_irradiance. rewrite !map_map. apply map_ext. intros x. destruct (clear_sky _ _ _ _ _ _). auto.
  - rewrite map_map. auto.
  - apply Forall_forall. intros x J. apply in_map_iff in J. destruct J as [[[w t'] h'] [<- J]]. apply selected_in in J. cbn. apply pixel_spec; tauto.
Qed.
Print Assumptions c111_value.
(** Under an open sky it is the same as that of a model pixel with the same surroundings. *)
Theorem c111_same_as_pixel_partial : forall c da sun al soil g l s v, In (s, v) (ext_irradiance c da sun al soil g l) ->
  g_svf g (e_row s + g_row_offset g) (e_col s + g_col_offset g) = 1 ->
  exists p, surroundings g s p /\ forall roi, fst (fst (clear_sky_irradiance c da sun true (mean_albedo al soil) roi p)) = v.
Proof.
  intros c da sun al soil g l s v I SV. destruct (c111_value _ _ _ _ _ _ _ _ _ I) as [p [means [S [_ ->]]]]. exists p. split; auto. intros roi.
  pose proof S as [_ [_ [_ [V _]]]]. rewrite SV in V. destruct p as [n sh el sv pr pw]. cbn in V. subst sv.
  unfold clear_sky_irradiance. pose proof (c85_open_sky c da sun (mean_albedo al soil) roi means n sh el pr pw) as O.
  assert (D : fst (clear_sky c da sun (mean_albedo al soil) roi (CP n sh el 1 pr pw)) = fst (clear_sky c da sun (mean_albedo al soil) means (CP n sh el 1 pr pw))) by reflexivity.
  destruct (clear_sky c da sun (mean_albedo al soil) roi (CP n sh el 1 pr pw)) as [d f]. cbn [fst snd] in *. rewrite <- O, <- D. auto.
Qed.
Print Assumptions c111_same_as_pixel_partial.
(** The influence of the means on the irradiance *)
Lemma terrain_difference c da sun ga roi roi' p :
  0.9751 * (snd (clear_sky c da sun ga roi p) - snd (clear_sky c da sun ga roi' p)) =
  (1 - cp_svf p) * ga * fst (clear_sky c da sun ga roi p) * (sun_frac roi * mean_sun_aoi roi - sun_frac roi' * mean_sun_aoi roi').
Proof.
  unfold clear_sky. cbn [fst snd]. cbv zeta.
  set (T := clip 0 1 _). set (e := eccentricity da). set (ic := incidence _ _).
  set (sf := sun_frac roi). set (sf' := sun_frac roi'). set (ma := mean_sun_aoi roi). set (ma' := mean_sun_aoi roi').
  match goal with |- context [(?pot * T * sf * ma + ?d)] => set (D := d); set (P := pot) end.
  clearbody D P T sf sf' ma ma'. generalize 0.9751. intros k. ring.
Qed.
(** The direct beam of an overhead sun on level ground at sea level *)
Lemma overhead_direct c da ga roi p : cc_ozone c = 0 -> 2000 <= cc_visibility c -> cp_normal p = (0, 0, 1) -> cp_shadow p = 1 -> cp_elev p = 0 ->
  cp_press p = 101325 -> 0 <= cp_pw p -> 0 < fst (clear_sky c da (0, 0, 1) ga roi p).
Proof.
  intros OZ VI NO SH EL PR PW. destruct (c85_direct c da 0 0 1 ga roi p) as [T [E [B PT]]]. rewrite acos_1 in PT. cbv zeta in PT.
  assert (Z : 0 <= 0 < PI / 2) by (pose proof PI_RGT_0; lra). destruct (c50_range 0 Z) as [A1 A2]. rewrite cos_0 in A2.
  set (m := air_mass 0) in *. clearbody m. rewrite PR in PT. replace (m * 101325 / 101325) with m in PT by (field; lra).
  assert (R1 : 0 < trans_rayleigh m).
  { unfold trans_rayleigh. apply Rmult_lt_0_compat; [apply exp_pos|]. assert (Rpower m 1.01 <= 1); [|lra].
    unfold Rpower. apply Rle_trans with (exp 0); [|rewrite exp_0; lra].
    assert (ln m <= 0) by (rewrite <- ln_1; apply Rlt_le, ln_increasing; lra).
    destruct (Req_dec (1.01 * ln m) 0) as [Q|Q]; [rewrite Q; lra|]. apply Rlt_le, exp_increasing. nra. }
  assert (R2 : trans_ozone (cc_ozone c) m = 1) by (rewrite OZ; destruct (c85_ozone 0 m) as [_ [Q _]]; [lra|lra|exact Q]).
  assert (R3 : 0 < trans_gases m) by (unfold trans_gases; apply exp_pos).
  assert (R4 : 0 < trans_vapor (cp_pw p) m) by (destruct (c85_vapor (cp_pw p) m PW A1) as [Q _]; lra).
  assert (R5 : 0 < trans_aerosols (cc_visibility c) m) by (unfold trans_aerosols; apply rpower_pos).
  rewrite R2, EL in PT. rewrite Rmin_left in PT by lra.
  set (t1 := trans_rayleigh m) in *. set (t2 := trans_gases m) in *. set (t3 := trans_vapor (cp_pw p) m) in *. set (t4 := trans_aerosols (cc_visibility c) m) in *.
  clearbody t1 t2 t3 t4. set (q := t1 * 1 * t2 * t3 * t4 + 0.000022 * 0) in *.
  assert (Q : 0 < q) by (unfold q; assert (0 < t1 * 1 * t2 * t3 * t4) by (repeat apply Rmult_lt_0_compat; lra); lra).
  clearbody q. destruct PT as [P1 [_ P3]]. assert (TP : 0 < T) by (destruct (Rle_dec q 1) as [L|L]; [rewrite P1; lra|rewrite P3; lra]).
  rewrite E, NO, SH. pose proof (c85_eccentricity da) as EC. assert (IC : incidence (0, 0, 1) (0, 0, 1) = 1) by (unfold incidence; rmm; lra).
  rewrite IC. set (e := eccentricity da) in *. clearbody e. rewrite !Rmult_1_r. apply Rmult_lt_0_compat; lra.
Qed.
(** The irradiance of a station depends on the other stations: if a station in the shadow of a mountain begins to report, the
    irradiance at a sunlit station decreases, and with it the denominator of the cloud factor. *)
Theorem c111_other_stations_refuted : exists c da sun al soil g l a b v v',
  In a l /\ ~ In b l /\ In (a, v) (ext_irradiance c da sun al soil g l) /\ In (a, v') (ext_irradiance c da sun al soil g (l ++ [b])) /\ v' < v.
Proof.
  set (c := CC 0 25000 0.9 0.0685). set (a := ES (-1) 0 false (Some 280) (Some 50)). set (b := ES (-1) 1 false (Some 280) (Some 50)).
  set (g := EG 10 10 5 5 (fun _ _ => 0) (fun _ _ => 1/2) (fun _ _ => (0, 0, 1)) (fun _ j => if (j =? 5)%Z then 1 else 0)).
  set (al := [Some 0.5]).
  assert (S1 : ext_selected g [a] = [(a, 280, 50)]) by reflexivity.
  assert (S2 : ext_selected g ([a] ++ [b]) = [(a, 280, 50); (b, 280, 50)]) by reflexivity.
  set (p := ext_pixel g (a, 280, 50)).
  assert (GA : mean_albedo al 0.15 = 0.5) by (unfold mean_albedo, al; cbn; lra).
  assert (IC : incidence (0, 0, 1) (0, 0, 1) = 1) by (unfold incidence; rmm; lra).
  set (r1 := [(1, 1)] : list (R * R)). set (r2 := [(1, 1); (1, 0)] : list (R * R)).
  set (f := fun r => fst (clear_sky c 0 (0, 0, 1) 0.5 r p) + snd (clear_sky c 0 (0, 0, 1) 0.5 r p)).
  assert (I1 : In (a, f r1) (ext_irradiance c 0 (0, 0, 1) al 0.15 g [a])).
  { unfold ext_irradiance. rewrite S1, GA. cbn [map]. left. change (cp_normal (ext_pixel g (a, 280, 50))) with (0, 0, 1).
    change (cp_shadow (ext_pixel g (a, 280, 50))) with 1. rewrite IC. fold p r1. unfold f. destruct (clear_sky _ _ _ _ _ _). auto. }
  assert (I2 : In (a, f r2) (ext_irradiance c 0 (0, 0, 1) al 0.15 g ([a] ++ [b]))).
  { unfold ext_irradiance. rewrite S2, GA. cbn [map]. left. change (cp_normal (ext_pixel g (a, 280, 50))) with (0, 0, 1). change (cp_normal (ext_pixel g (b, 280, 50))) with (0, 0, 1).
    change (cp_shadow (ext_pixel g (a, 280, 50))) with 1. change (cp_shadow (ext_pixel g (b, 280, 50))) with 0. rewrite IC. fold p r2. unfold f. destruct (clear_sky _ _ _ _ _ _). auto. }
  exists c, 0, (0, 0, 1), al, 0.15, g, [a], a, b, (f r1), (f r2).
  split; [left; auto|]. split; [intros [E|[]]; discriminate|]. split; auto. split; auto.
  assert (D : fst (clear_sky c 0 (0, 0, 1) 0.5 r2 p) = fst (clear_sky c 0 (0, 0, 1) 0.5 r1 p)) by reflexivity.
  pose proof (terrain_difference c 0 (0, 0, 1) 0.5 r1 r2 p) as TD.
  assert (DP : 0 < fst (clear_sky c 0 (0, 0, 1) 0.5 r1 p)).
  { apply overhead_direct; auto; cbn [cc_visibility c]; try lra.
    - unfold p, ext_pixel. cbn [cp_press g_dem g]. unfold atmospheric_pressure. rewrite Rmult_0_r. unfold Rdiv. rewrite Rmult_0_l, Rminus_0_r.
      unfold Rpower. rewrite ln_1, Rmult_0_r, exp_0. unfold STANDARD_ATMOSPHERE. lra.
    - unfold p, ext_pixel. cbn [cp_pw]. unfold precipitable_water, vapor_pressure.
      pose proof (sat_pos None 280).
      lra. }
  assert (M1 : sun_frac r1 * mean_sun_aoi r1 = 1).
  { unfold sun_frac, mean_sun_aoi, lit_aois, r1. cbn [map snd filter fst length]. destruct (Req_EM_T 1 1); [|lra]. cbn [map fst length]. rewrite !sumR_cons, sumR_nil. cbn. lra. }
  assert (M2 : sun_frac r2 * mean_sun_aoi r2 = 1/2).
  { unfold sun_frac, mean_sun_aoi, lit_aois, r2. cbn [map snd filter fst length]. destruct (Req_EM_T 1 1); [|lra]. destruct (Req_EM_T 0 1); [lra|]. cbn [map fst length]. rewrite !sumR_cons, !sumR_nil. cbn. lra. }
  rewrite M1, M2 in TD. change (cp_svf p) with (1/2) in TD. unfold f. rewrite D.
  set (d := fst (clear_sky c 0 (0, 0, 1) 0.5 r1 p)) in *. set (x := snd (clear_sky c 0 (0, 0, 1) 0.5 r1 p)) in *. set (y := snd (clear_sky c 0 (0, 0, 1) 0.5 r2 p)) in *.
  clearbody d x y. lra.
Qed.
Print Assumptions c111_other_stations_refuted.
Example c111_example : exists g s, eligible g s /\ (e_row s < 0)%Z /\ forall c da sun al soil,
  map fst (ext_irradiance c da sun al soil g [s; ES (-6) 0 false (Some 280) (Some 50); ES (-1) 0 false None (Some 50)]) = [s].
Proof.
  exists (EG 10 10 5 5 (fun _ _ => 0) (fun _ _ => 1/2) (fun _ _ => (0, 0, 1)) (fun _ _ => 1)), (ES (-1) 0 false (Some 280) (Some 50)).
  split; [|split; [cbn; lia|]].
  - unfold eligible. cbn. repeat split; try lia; discriminate.
  - intros. unfold ext_irradiance. cbn [ext_selected flat_map in_ext ext_row ext_col e_row e_col g_row_offset g_col_offset g_rows g_cols]. cbn [map].
    cbn -[clear_sky ext_pixel]. destruct (clear_sky _ _ _ _ _ _). auto.
Qed.
