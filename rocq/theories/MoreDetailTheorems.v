(** Further theorems that fix details of glacier and canopy. *)
From Verif Require Import Common Constants ForcingModel GlacierModel GlacierTheorems CanopyModel InterpModel AtmosphereModel WindDirectionTheorems EtModel EtTheorems.
Open Scope R_scope.

(** * C43 *)
(** A pixel counts as part of a glacier (for its area and for the lowering at its terminus) if it has the number of the glacier and
    has ice. *)
Theorem c43_glacier_area : forall id p, on_glacier id p = true <-> g_id p = id /\ 0 < g_ice0 p.
Proof.
  intros id p. unfold on_glacier, rgt0, old_thickness, ICE_DENSITY. rewrite andb_true_iff, Z.eqb_eq.
  destruct (Rlt_dec 0 (g_ice0 p / 917)); split; intros [A B]; try discriminate; split; auto; lra.
Qed.
Print Assumptions c43_glacier_area.
(** The mass balance of ice and firn of the whole glacier is distributed: every pixel gets a share, the shares add up to the change
    of ice and firn of the glacier, and the ice left in a pixel is what it had plus its share, minus the change of its firn (which
    stays where it is); a pixel which would have less than nothing has no ice. *)
Theorem c43_shares : forall res ids px id, NoDup ids -> In id ids ->
  let u := filter (update_pixel id) px in (2 <= length u)%nat -> NoDup (map g_elev u) ->
  exists shares ths, length shares = length u /\ length ths = length u
  /\ pick (update_pixel id) px (update_geometry res ids px) = map Some ths
  /\ sumR shares = sumR (map g_ice1 u) + sumR (map g_firn1 u) - sumR (map g_ice0 u) - sumR (map g_firn0 u)
  /\ forall k p s t, nth_error u k = Some p -> nth_error shares k = Some s -> nth_error ths k = Some t ->
       ICE_DENSITY * t = Rmax (g_ice0 p + s - (g_firn1 p - g_firn0 p)) 0.
Proof.
  intros res ids px id N I u U NE.
  destruct (c43_total (map g_elev u) (sumR (map total_mb u)) (INR (length (filter (on_glacier id) px)) * res ^ 2)
     (allowed_change (filter (on_glacier id) px)) ltac:(rewrite map_length; exact U) NE) as (l & A & B & C).
  rewrite map_length in B.
  pose proof (geometry_pick res ids px id N I U (map Some l) (eq_sym A) ltac:(rewrite map_length; exact B)) as P. fold u in P.
  exists l, (map (fun q => Rmax (old_thickness (fst q) + (snd q - firn_mb (fst q)) / ICE_DENSITY) 0) (combine u l)).
  split; [exact B|]. split; [rewrite map_length, combine_length; lia|]. split.
  - rewrite P. clear. revert l. induction u as [|p u IH]; intros [|m l]; [reflexivity..|]. cbn [map combine]. rewrite IH. reflexivity.
  - split.
    + rewrite C. clear. induction u as [|p u IH]; cbn [map]; rewrite ?sumR_nil, ?sumR_cons; [ring|]. rewrite IH. unfold total_mb, firn_mb. ring.
    + clearbody u. clear - B. revert l B. induction u as [|p u IH]; intros [|m l] B [|k] q s t H1 H2 H3; cbn in H1, H2; try discriminate.
      * injection H1 as ->. injection H2 as ->. cbn [combine map nth_error fst snd] in H3. injection H3 as <-.
        unfold old_thickness, firn_mb. assert (ID : 0 < ICE_DENSITY) by (unfold ICE_DENSITY; lra).
        rewrite <- RmaxRmult by lra. f_equal; [field; lra|ring].
      * apply (IH l ltac:(simpl in B; lia) k q s t H1 H2). exact H3.
Qed.
Print Assumptions c43_shares.
Example c43_shares_example : let p1 := GP 1 3000 91700 100 90000 150 100 in let p2 := GP 1 3100 45850 0 45000 50 50 in
  filter (update_pixel 1) [p1; p2] = [p1; p2] /\ NoDup (map g_elev [p1; p2]).
Proof.
  cbv zeta. split.
  - cbn [filter]. rewrite !(proj2 (c43_pixels 1 _)); [reflexivity|split; [reflexivity|cbn; lra]..].
  - repeat constructor; cbn; intros []; try tauto; lra.
Qed.

(** * C36 *)
(** Without leaves there is no cover; a negative leaf area index has none defined. *)
Theorem c36_bare : canopy_frac (Some 0) = Some 0 /\ canopy_frac None = None /\ forall l, l < 0 -> canopy_frac (Some l) = None.
Proof.
  unfold canopy_frac. split; [|split; [reflexivity|]].
  - destruct (Rlt_dec 0 0); [lra|]. destruct (Req_EM_T 0 0); [reflexivity|lra].
  - intros l H. destruct (Rlt_dec 0 l); [lra|]. destruct (Req_EM_T l 0); [lra|reflexivity].
Qed.
Print Assumptions c36_bare.

(** * C35 *)
(** Without leaves there is no storage: snowfall passes through, and of a remaining load 70 % are dropped (without reaching the
    ground) in the first time step with snowfall; without snowfall everything is missing. *)
Theorem c35_leafless : forall c dt coeff l t p rain, 0 <= l -> 
  (0 < p -> let r := canopy_snow c dt 0 coeff (Some l) (Some t) (Some p) (Some rain) in
     r_intercepted r = Some 0 /\ r_sublimation r = Some 0
     /\ exists l' m, r_load r = Some l' /\ r_melt r = Some m /\ l' + m = 0.3 * l /\ r_snowfall r = Some (p + m) /\ r_precip r = Some (p + m + rain))
  /\ canopy_snow c dt 0 coeff (Some l) (Some t) (Some 0) (Some rain) = CR None None None None None None.
Proof.
  intros c dt coeff l t p rain L. split.
  - intros P. cbv zeta. unfold canopy_snow, decay. rewrite Rmult_0_r. destruct (Req_EM_T 0 0); [|lra]. destruct (Rlt_dec 0 p); [|lra].
    cbn [lift1 lift2 r_intercepted r_sublimation r_load r_melt r_snowfall r_precip].
    replace (l + 0.7 * (0 - l) * (1 - 0)) with (0.3 * l) by lra.
    assert (E : exposure c (Some (0.3 * l)) 0 = 0) by (unfold exposure; destruct (Rlt_dec 0 (0.3 * l)); [destruct (Req_EM_T 0 0); lra|reflexivity]).
    rewrite E. replace (- 0 * (0.3 * l) * coeff * dt) with 0 by ring. rewrite (Rmin_left 0) by lra. rewrite (Rmax_left 0 0) by lra. rewrite (Rmax_right (0.3 * l - l)) by lra.
    split; [reflexivity|]. split; [reflexivity|]. set (m := Rmin _ _). exists (0.3 * l - 0 - m), m. repeat split; try (f_equal; lra); lra.
  - unfold canopy_snow, decay. rewrite Rmult_0_r. destruct (Req_EM_T 0 0); [|lra]. destruct (Rlt_dec 0 0); [lra|]. reflexivity.
Qed.
Print Assumptions c35_leafless.
Example c35_leafless_example : 0 <= 5 /\ 0 < 2. Proof. lra. Qed.

(** * C79 *)
(** The slope in the direction of the wind: positive where the slope faces the wind, that is where the (horizontal) direction of the
    slope and the wind vector point against each other, proportional to the slope angle, zero where the wind blows along the slope. *)
Theorem c79_wind_slope : forall t, w_u t <> 0 \/ w_v t <> 0 ->
  let aspect := w_aspect t * PI / 180 in
  wind_slope t * sqrt (w_u t * w_u t + w_v t * w_v t) = - (w_slope t * PI / 180) * (w_u t * sin aspect + w_v t * cos aspect).
Proof.
  intros t H aspect. destruct (polar_direction _ _ H) as (a & w & A & B & W & X & Y). unfold wind_slope. rewrite A.
  assert (SQ : sqrt (w_u t * w_u t + w_v t * w_v t) = w).
  { rewrite X, Y. match goal with |- sqrt ?e = _ => replace e with (w * w * (Rsqr (sin (a * PI / 180)) + Rsqr (cos (a * PI / 180)))) by (unfold Rsqr; ring) end.
    rewrite sin2_cos2, Rmult_1_r. apply sqrt_square; lra. }
  rewrite SQ. replace (deg2rad (a - w_aspect t)) with (a * PI / 180 - aspect) by (unfold deg2rad, aspect; field).
  rewrite cos_minus. unfold deg2rad. set (sa := sin aspect). set (ca := cos aspect). rewrite X, Y. field.
Qed.
Print Assumptions c79_wind_slope.
Example c79_wind_slope_example : w_u (WT 3 4 20 90 0) <> 0 \/ w_v (WT 3 4 20 90 0) <> 0.
Proof. left. simpl. lra. Qed.

(** * C34 *)
(** A catch ratio of exactly 0 gives an infinite factor, which is replaced by the largest double: (2^53 - 1) * 2^971. *)
Theorem c34_hellmann_unbounded_refuted : exists s, ps_precip s = Some 1 /\ 0 < ps_frac s < 1 /\
  correct_precip [Wmo WHellmann] 2 2 0.01 s (ps_precip s) (ps_precip s) = Some (Some ((2 ^ 53 - 1) * 2 ^ 971)).
Proof.
  exists (PS (Some 1) (Some (- (96.63 + 0.41 * 49 - 9.84 * 7) / 5.95)) (Some 7) 0.9).
  assert (U : Rmin (log_wind_profile 7 2 2 0.01) 7 = 7).
  { unfold log_wind_profile. assert (0 < ln (2 / 0.01)) by (rewrite <- ln_1; apply ln_increasing; lra).
    replace (7 * (ln (2 / 0.01) / ln (2 / 0.01))) with 7 by (field; lra). apply Rmin_left; lra. }
  split; [reflexivity|]. split; [cbn [ps_frac]; lra|].
  cbn [correct_precip corr_factor wmo_ratio ps_precip ps_frac ps_wind ps_temp]. unfold kind_snow, kind_mixed. cbn [gt0 ps_frac].
  destruct (Rlt_dec 0 1); [|lra]. destruct (Req_EM_T 0.9 1); [lra|]. destruct (Rlt_dec 0 0.9); [|lra]. destruct (Rlt_dec 0.9 1); [|lra].
  cbn [andb orb]. rewrite U. unfold numdiv. destruct (Req_EM_T _ 0) as [X|X]; [|exfalso; apply X; lra]. cbn [numscale]. do 2 f_equal.
  unfold FLOAT_MAX. rewrite Rmult_1_r. change 1024%nat with (53 + 971)%nat. rewrite pow_add. set (a := 2 ^ 53). set (b := 2 ^ 971). clearbody a b. ring.
Qed.
Print Assumptions c34_hellmann_unbounded_refuted.
(** Methods without a rule leave precipitation as it is. *)
Theorem c34_other_methods : forall ms hw ht z0 s original cur, Forall (fun m => m = OtherMethod) ms ->
  correct_precip ms hw ht z0 s original cur = Some cur.
Proof.
  intros ms hw ht z0 s o cur F. revert cur. induction F as [|m ms -> F IH]; intros cur; [reflexivity|].
  cbn [correct_precip corr_factor]. rewrite IH. destruct cur as [v|]; [|reflexivity]. cbn. do 2 f_equal. ring.
Qed.
Print Assumptions c34_other_methods.
Example c34_other_example : Forall (fun m => m = OtherMethod) [OtherMethod; OtherMethod]. Proof. repeat constructor. Qed.

(** * C37 *)
(** Soil parameters after table 19 of FAO-56: total evaporable water per metre of the evaporation layer, readily evaporable water, available
    water per metre of the root zone (mm), factor of the depletion fraction *)
Definition fao_table (x : texture) : R * R * R * R :=
  match x with
  | Sand => (97.5, 4.5, 75, 1.1) | LoamySand => (117.5, 6, 85, 1.075) | SandyLoam => (175, 8, 120, 1.05)
  | Loam => (190, 9, 130, 1.025) | SiltLoam => (215, 9.5, 140, 1) | Silt => (235, 9.5, 150, 0.975)
  | SiltClayLoam => (232.5, 9.5, 130, 0.95) | SiltyClay => (245, 10, 130, 0.925) | Clay => (250, 10, 140, 0.9)
  end.
Theorem c37_fao_table : forall x depth root frac, let '(tew, rew, taw, adj) := fao_table x in
  soil_params x depth root frac = SP (tew * depth) rew (taw * root) (frac * adj * (taw * root)).
Proof.
  intros x depth root frac. unfold soil_params.
  assert (E : let '(tew, rew, taw, adj) := fao_table x in 1000 * (field_capacity x - 0.5 * wilting_point x) = tew /\ evaporable x = rew
    /\ 1000 * (field_capacity x - wilting_point x) = taw /\ depletion_adjustment x = adj).
  { destruct x; cbn [fao_table field_capacity wilting_point evaporable depletion_adjustment]; repeat split; lra. }
  destruct (fao_table x) as [[[tew rew] taw] adj]. destruct E as (<- & <- & <- & <-). reflexivity.
Qed.
Print Assumptions c37_fao_table.

(** * C82 *)
(** With the sun below the horizon at noon the coefficient of sparse vegetation is the minimum. *)
Theorem c82_no_sun : forall kmin kmid vf h lat decl, 0 <= vf -> cos (lat - decl) < 0 -> sparse_adjustment kmin kmid vf h lat decl = kmin.
Proof.
  intros kmin kmid vf h lat decl V C. unfold sparse_adjustment. cbv zeta. rewrite cos_0.
  replace (sin lat * sin decl + cos lat * cos decl * 1) with (cos (lat - decl)) by (rewrite cos_minus; ring).
  assert (N : vf / cos (lat - decl) <= 0).
  { unfold Rdiv. pose proof (Rinv_lt_0_compat _ C). nra. }
  rewrite (Rmax_right _ 0) by auto. unfold powr. destruct (Req_EM_T 0 0); [|lra].
  rewrite (Rmin_right _ 0); [ring|]. apply Rmin_glb; lra.
Qed.
Print Assumptions c82_no_sun.
Example c82_no_sun_example : 0 <= 0.4 /\ cos (PI - 0) < 0. Proof. rewrite Rminus_0_r, cos_PI. lra. Qed.

(** What evaporates comes from the exposed part of the surface: while the layer is neither full nor exhausted, its depletion over the exposed
    fraction grows by the evaporation and falls by the rain which does not percolate. *)
Theorem c37_surface_layer : forall veg p clim kmin kc h et_ref rain s d,
  let f := exposed_fraction (vegetation_fraction veg clim kmin kc h) in
  let '(s', o) := et_step (DualKc veg) false p clim kmin kc h false et_ref rain s in
  f <> 0 -> e_de s = Some d ->
  exists ev d', o_evap o = Some ev /\ e_de s' = Some d' /\ d' <= s_tew p /\
    (0 < d' < s_tew p -> f * (d' - d) = ev - f * (nan_to_zero rain - e_dpe s')).
Proof.
  intros veg p clim kmin kc h et_ref rain s d f. unfold et_step. cbn [andb]. cbv zeta. fold f.
  set (ev := evaporation_coeff p clim kc f (e_de s) * nan_to_zero et_ref). set (dpe := surface_percolation (nan_to_zero rain) (e_dpe s)).
  destruct (root_zone _ _ _ _) as [dp dr']. intros NZ E. cbn [o_evap e_de e_dpe]. rewrite E. unfold surface_balance. destruct (Req_EM_T f 0); [contradiction|].
  exists ev. eexists. split; [reflexivity|]. split; [reflexivity|]. split; [apply Rmin_r|].
  unfold Rmin, Rmax. repeat match goal with |- context [Rle_dec ?a ?b] => destruct (Rle_dec a b) end; intros [L1 L2]; try lra. field. auto.
Qed.
Print Assumptions c37_surface_layer.
Example c37_surface_layer_example : exposed_fraction (vegetation_fraction (Some 0.4) 1.2 0.15 0.6 0.3) <> 0.
Proof. cbn [vegetation_fraction]. unfold exposed_fraction. rewrite Rmin_left; lra. Qed.
(** With equal total and readily available water there is no range of stress; exactly at the limit the coefficient is missing. *)
Theorem c37_no_stress_range : forall p d, s_raw p = s_taw p ->
  stress_coeff p (Some d) = if Req_EM_T d (s_taw p) then None else if Rlt_dec d (s_taw p) then Some 1 else Some 0.
Proof.
  intros p d E. unfold stress_coeff. rewrite E. destruct (Req_EM_T (s_taw p - s_taw p) 0); [|lra].
  destruct (Req_EM_T d (s_taw p)), (Rlt_dec d (s_taw p)), (Rlt_dec 0 (s_taw p - d)), (Rlt_dec (s_taw p - d) 0); auto; lra.
Qed.
Print Assumptions c37_no_stress_range.

(** The potential evaporation of a sealed surface depends on the ratios of building and measurement heights only. *)
Theorem c37_sealed_scale : forall k hmax hw ht ws rn g temp psych es ea press dt, k <> 0 -> hmax <> 0 ->
  sealed_potential (k * hmax) (k * hw) (k * ht) ws rn g temp psych es ea press dt = sealed_potential hmax hw ht ws rn g temp psych es ea press dt.
Proof.
  intros k hmax hw ht ws rn g temp psych es ea press dt K H. unfold sealed_potential. cbv zeta.
  replace ((k * hw - 2 / 3 * (k * hmax)) / (0.123 * (k * hmax))) with ((hw - 2 / 3 * hmax) / (0.123 * hmax)) by (field; lra).
  replace ((k * ht - 2 / 3 * (k * hmax)) / (0.1 * (0.123 * (k * hmax)))) with ((ht - 2 / 3 * hmax) / (0.1 * (0.123 * hmax))) by (field; lra).
  reflexivity.
Qed.
Print Assumptions c37_sealed_scale.
