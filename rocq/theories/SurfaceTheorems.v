(** Properties C22, C23, C77: surface.py. *)
From Verif Require Import Common Constants AtmosphereModel AtmosphereProofs AtmosphereTheorems
  SurfaceModel SurfaceSpec SurfaceProofs.

(** * C22 Multilayer energy balance *)
(** The complete outcome: without surface ice, or when the melt-free solution stays below freezing,
    nothing melts; otherwise everything melts if the surface reaches the melting point even then;
    otherwise the surface is at the melting point and the energy surplus there melts snow. *)
Theorem c22_outcome : forall m s dt t, 0 < dt ->
  let ma := moisture_availability m s (qs m t) in
  let lh := latent_heat m s t in
  let r := multilayer_energy_balance m s dt t in
  let free := linear_temp m s dt ma lh t 0 in
  let total := linear_temp m s dt ma lh t (sumR (s_ices s)) in
  (free <= T0 \/ top_ice s <= 0 -> r_temp r = free /\ r_melt r = 0) /\
  (T0 < free -> 0 < top_ice s -> T0 <= total -> r_temp r = total /\ r_melt r = sumR (s_ices s)) /\
  (T0 < free -> 0 < top_ice s -> total < T0 ->
     r_temp r = T0 /\
     r_melt r = Rmax (balance m s dt ma (latent_heat m s T0) T0 / Lf * dt) 0).
Proof.
  intros m s dt t D ma lh r free total. assert (D' : dt <> 0) by lra.
  unfold r, multilayer_energy_balance, finish. cbv zeta.
  change (moisture_availability m s (sat_spec_hum m t)) with ma. fold lh.
  rewrite !(solve_temp m s dt t ma lh) by auto. fold free total.
  pose proof (fluxes_spec m s dt ma (latent_heat m s T0) T0 D') as F.
  destruct (Rlt_dec T0 free) as [H1|H1]; [destruct (Rlt_dec 0 (top_ice s)) as [H2|H2];
    [destruct (Rlt_dec total T0) as [H3|H3]|]|]; cbn [r_temp r_melt];
    repeat split; intros; try lra.
  - cbn [d_temp no_change]. lra.
  - unfold balance. change (conducted s T0) with (surface_flux s T0). rewrite F. reflexivity.
Qed.
Print Assumptions c22_outcome.

(** While ice remains at the surface the temperature does not exceed 0 degC. *)
Theorem c22_no_warm_ice : forall m s dt t, 0 < dt -> 0 < top_ice s ->
  let r := multilayer_energy_balance m s dt t in
  r_temp r <= T0 \/ r_melt r = sumR (s_ices s).
Proof.
  intros m s dt t D I r. destruct (c22_outcome m s dt t D) as (A & B & C). fold r in A, B, C.
  destruct (Rle_lt_dec (linear_temp m s dt (moisture_availability m s (qs m t)) (latent_heat m s t) t 0) T0) as [F|F].
  - destruct (A (or_introl F)) as [-> _]. left; auto.
  - destruct (Rle_lt_dec T0 (linear_temp m s dt (moisture_availability m s (qs m t)) (latent_heat m s t) t (sumR (s_ices s)))) as [G|G].
    + right. apply B; auto.
    + left. destruct (C F I G) as [-> _]. lra.
Qed.
Print Assumptions c22_no_warm_ice.
Theorem c22_melt_nonneg : forall m s dt t, 0 < dt -> Forall (fun x => 0 <= x) (s_ices s) ->
  0 <= r_melt (multilayer_energy_balance m s dt t).
Proof.
  intros m s dt t D I. destruct (c22_outcome m s dt t D) as (A & B & C).
  destruct (Rle_lt_dec (linear_temp m s dt (moisture_availability m s (qs m t)) (latent_heat m s t) t 0) T0) as [F|F].
  - destruct (A (or_introl F)) as [_ ->]. lra.
  - destruct (Rle_lt_dec (top_ice s) 0) as [J|J]; [destruct (A (or_intror J)) as [_ ->]; lra|].
    destruct (Rle_lt_dec T0 (linear_temp m s dt (moisture_availability m s (qs m t)) (latent_heat m s t) t (sumR (s_ices s)))) as [G|G].
    + destruct (B F J G) as [_ ->]. apply sumR_nonneg; auto.
    + destruct (C F J G) as [_ ->]. apply Rmax_r.
Qed.
Print Assumptions c22_melt_nonneg.
(** Energy closure: the linearised balance, with melt, is zero at the new temperature; or the surface
    is at the melting point and the energy of the full (nonlinear) balance there is used for melt. *)
Theorem c22_energy_closes : forall m s dt t, physical m s dt t ->
  let ma := moisture_availability m s (qs m t) in
  let r := multilayer_energy_balance m s dt t in
  balance m s dt ma (latent_heat m s t) t - response m s ma (latent_heat m s t) t * (r_temp r - t)
    = Lf * r_melt r / dt \/
  (r_temp r = T0 /\ Lf * r_melt r / dt = Rmax (balance m s dt ma (latent_heat m s T0) T0) 0).
Proof.
  intros m s dt t P ma r. assert (D : 0 < dt) by apply P. assert (LP : 0 < Lf) by (unfold Lf; lra).
  destruct (c22_outcome m s dt t D) as (A & B & C).
  fold ma r in A, B, C. set (lh := latent_heat m s t) in *.
  assert (RP : 0 < response m s ma lh t).
  { apply (response_pos m s dt); auto. - left; apply availability_range; apply P. - left; apply latent_heat_pos; apply P. }
  assert (LIN : forall w, balance m s dt ma lh t - response m s ma lh t * (linear_temp m s dt ma lh t w - t) = Lf * w / dt).
  { intros w. unfold linear_temp. field. split; lra. }
  destruct (Rle_lt_dec (linear_temp m s dt ma lh t 0) T0) as [F|F].
  - destruct (A (or_introl F)) as [-> ->]. left. apply LIN.
  - destruct (Rle_lt_dec (top_ice s) 0) as [J|J]; [destruct (A (or_intror J)) as [-> ->]; left; apply LIN|].
    destruct (Rle_lt_dec T0 (linear_temp m s dt ma lh t (sumR (s_ices s)))) as [G|G].
    + destruct (B F J G) as [-> ->]. left. apply LIN.
    + destruct (C F J G) as [-> ->]. right. split; auto.
      set (b := balance m s dt ma (latent_heat m s T0) T0).
      destruct (Rle_lt_dec 0 b) as [Q|Q].
      * rewrite (Rmax_left b 0) by auto. rewrite Rmax_left. field; lra.
        apply Rmult_le_pos; [|lra]. apply Rmult_le_pos; [auto|]. left; apply Rinv_0_lt_compat; auto.
      * rewrite (Rmax_right b 0) by lra. rewrite Rmax_right. unfold Rdiv; ring.
        assert (b / Lf < 0). { unfold Rdiv. assert (0 < / Lf) by (apply Rinv_0_lt_compat; auto). nra. }
        nra.
Qed.
Print Assumptions c22_energy_closes.

(** Net radiation, ground heat flux and latent heat flux reported afterwards. *)
Theorem c22_reported_fluxes : forall m s dt t,
  let r := multilayer_energy_balance m s dt t in
  r_net r = (1 - s_alb s) * m_swin m + m_lwin m - 0.99 * STEFAN_BOLTZMANN * r_temp r ^ 4 /\
  r_heat r = conducted s (r_temp r) /\
  r_lat r = latent_heat m s (r_temp r) * r_moist r.
Proof.
  intros m s dt t. unfold multilayer_energy_balance, finish. cbv zeta.
  rsplit; cbn [r_net r_temp r_heat r_lat r_moist d_heat d_temp solve no_change];
    unfold net_radiation, lw_out, conducted, surface_flux; repeat split; unfold Rdiv; ring.
Qed.
Print Assumptions c22_reported_fluxes.
(** The sensible heat flux is changed in the wrong direction: it is reported for the temperature
    mirrored at the old one, T_a - (t - (t' - t)). *)
Theorem c22_reported_sensible : forall m s dt t,
  let r := multilayer_energy_balance m s dt t in
  let h := SPEC_HEAT_CAP_DRY_AIR * m_rhoa m * s_ch s * m_wind m in
  r_sens r = h * (m_temp m - (t - (r_temp r - t))) \/
  (r_temp r = T0 /\ r_sens r = h * (m_temp m - T0)).
Proof.
  intros m s dt t. unfold multilayer_energy_balance, finish. cbv zeta.
  rsplit; cbn [r_sens r_temp d_sens d_temp solve no_change]; unfold sens_flux, rhoa_ch_ua;
    try (left; ring); right; split; ring.
Qed.
Print Assumptions c22_reported_sensible.
(** The moisture flux is that of the temperature at which the step started (or of T0), not that of
    the final temperature. *)
Theorem c22_reported_moisture : forall m s dt t,
  let r := multilayer_energy_balance m s dt t in
  let ma := moisture_availability m s (qs m t) in
  r_moist r = ma * (m_rhoa m * s_ch s * m_wind m) * (m_q m - qs m t) \/
  (r_temp r = T0 /\ r_moist r = ma * (m_rhoa m * s_ch s * m_wind m) * (m_q m - qs m T0)).
Proof.
  intros m s dt t. unfold multilayer_energy_balance, finish. cbv zeta.
  rsplit; cbn [r_moist r_temp d_temp solve no_change]; try (left; reflexivity).
  right; split; [ring|reflexivity].
Qed.
Print Assumptions c22_reported_moisture.

(** When the surface already is at the melting point, melt never exceeds the ice of the snowpack. *)
Theorem c22_melt_bounded_partial : forall m s dt, physical m s dt T0 ->
  Forall (fun x => 0 <= x) (s_ices s) ->
  r_melt (multilayer_energy_balance m s dt T0) <= sumR (s_ices s).
Proof.
  intros m s dt P I. assert (D : 0 < dt) by apply P. pose proof (sumR_nonneg _ I) as S0.
  assert (LP : 0 < Lf) by (unfold Lf; lra).
  destruct (c22_outcome m s dt T0 D) as (A & B & C).
  set (ma := moisture_availability m s (qs m T0)) in *. set (lh := latent_heat m s T0) in *.
  assert (RP : 0 < response m s ma lh T0).
  { apply (response_pos m s dt); auto. - left; apply availability_range; apply P. - left; apply latent_heat_pos; apply P. }
  destruct (Rle_lt_dec (linear_temp m s dt ma lh T0 0) T0) as [F|F].
  - destruct (A (or_introl F)) as [_ ->]. auto.
  - destruct (Rle_lt_dec (top_ice s) 0) as [J|J]; [destruct (A (or_intror J)) as [_ ->]; auto|].
    destruct (Rle_lt_dec T0 (linear_temp m s dt ma lh T0 (sumR (s_ices s)))) as [G|G].
    + destruct (B F J G) as [_ ->]. lra.
    + destruct (C F J G) as [_ ->]. apply Rmax_lub; auto.
      unfold linear_temp in G.
      assert (N : (balance m s dt ma lh T0 - Lf * sumR (s_ices s) / dt) / response m s ma lh T0 < 0) by lra.
      assert (N' : balance m s dt ma lh T0 - Lf * sumR (s_ices s) / dt < 0).
      { apply Rmult_lt_reg_r with (/ response m s ma lh T0); [apply Rinv_0_lt_compat; auto|].
        rewrite Rmult_0_l. exact N. }
      apply Rmult_le_reg_l with (Lf / dt); [apply Rdiv_lt_0_compat; auto|].
      replace (Lf / dt * (balance m s dt ma lh T0 / Lf * dt)) with (balance m s dt ma lh T0) by (field; lra).
      replace (Lf / dt * sumR (s_ices s)) with (Lf * sumR (s_ices s) / dt) by (field; lra). lra.
Qed.
Print Assumptions c22_melt_bounded_partial.

(** In general it can: the melt of the nonlinear balance at T0 is not compared with the ice. *)
Definition calm (lw : R) : met := MET 270 270 0 0 100000 1 0 lw 0 0.
Definition thin_snow : surf := SRF 0.9 0.001 0.01 0 0.1 270 1 [1].
Definition lw_witness : R :=
  0.99 * STEFAN_BOLTZMANN * 273 ^ 4 + 12150000 * STEFAN_BOLTZMANN + Lf / 3600.
Theorem c22_melt_bounded_refuted : exists m s dt t, physical m s dt t /\
  Forall (fun x => 0 < x) (s_ices s) /\
  sumR (s_ices s) < r_melt (multilayer_energy_balance m s dt t).
Proof.
  exists (calm lw_witness), thin_snow, 3600, 273.
  assert (SV : saturation_vapor_pressure None 273 < 1000).
  { unfold saturation_vapor_pressure, magnus_water, magnus_ice, T0. rsplit.
    assert (E : 22.44 * (273 - 273.15) / (272.44 + (273 - 273.15)) <= 0).
    { apply Rmult_le_reg_r with (272.44 + (273 - 273.15)); [lra|]. unfold Rdiv.
      rewrite Rmult_assoc, Rinv_l by lra. lra. }
    assert (X : exp (22.44 * (273 - 273.15) / (272.44 + (273 - 273.15))) <= 1).
    { rewrite <- exp_0. destruct E as [E|E]; [left; apply exp_increasing; lra|right; rewrite E; auto]. }
    nra. }
  split; [|split].
  - constructor; cbn -[saturation_vapor_pressure]; lra.
  - repeat constructor. cbn. lra.
  - destruct (c22_outcome (calm lw_witness) thin_snow 3600 273 ltac:(lra)) as (_ & _ & C).
    set (ma := moisture_availability (calm lw_witness) thin_snow (qs (calm lw_witness) 273)) in *.
    set (lh := latent_heat (calm lw_witness) thin_snow 273) in *.
    assert (BAL : forall lh t, balance (calm lw_witness) thin_snow 3600 ma lh t
      = lw_witness - 0.99 * STEFAN_BOLTZMANN * t ^ 4).
    { intros l t. unfold balance, energy_in, conducted, calm, thin_snow.
      cbn [m_temp m_wb m_wind m_q m_press m_rhoa m_swin m_lwin m_rain m_snow s_alb s_ch s_k s_th s_ltemp].
      unfold Rdiv. ring. }
    assert (RES : response (calm lw_witness) thin_snow ma lh 273 = 4 * STEFAN_BOLTZMANN * 273 ^ 3).
    { unfold response. cbn [m_wind calm s_k s_th thin_snow]. unfold Rdiv. ring. }
    assert (ICE : sumR (s_ices thin_snow) = 1) by (cbn; rewrite sumR_cons, sumR_nil; lra).
    pose proof sb_pos as SB.
    assert (R0 : 0 < 4 * STEFAN_BOLTZMANN * 273 ^ 3) by lra.
    assert (SBS : STEFAN_BOLTZMANN <= 1 / 10000000) by (unfold STEFAN_BOLTZMANN; lra).
    destruct C as [_ C].
    + unfold linear_temp. rewrite BAL, RES.
      replace (lw_witness - 0.99 * STEFAN_BOLTZMANN * 273 ^ 4 - Lf * 0 / 3600)
        with (12150000 * STEFAN_BOLTZMANN + Lf / 3600) by (unfold lw_witness; field).
      assert (0.15 < (12150000 * STEFAN_BOLTZMANN + Lf / 3600) / (4 * STEFAN_BOLTZMANN * 273 ^ 3)).
      { apply Rmult_lt_reg_r with (4 * STEFAN_BOLTZMANN * 273 ^ 3); auto.
        replace ((12150000 * STEFAN_BOLTZMANN + Lf / 3600) / (4 * STEFAN_BOLTZMANN * 273 ^ 3)
                 * (4 * STEFAN_BOLTZMANN * 273 ^ 3))
          with (12150000 * STEFAN_BOLTZMANN + Lf / 3600) by (field; lra). unfold Lf. lra. }
      unfold T0. lra.
    + cbn. lra.
    + unfold linear_temp. rewrite BAL, RES, ICE.
      replace (lw_witness - 0.99 * STEFAN_BOLTZMANN * 273 ^ 4 - Lf * 1 / 3600)
        with (12150000 * STEFAN_BOLTZMANN) by (unfold lw_witness; field).
      replace (12150000 * STEFAN_BOLTZMANN / (4 * STEFAN_BOLTZMANN * 273 ^ 3))
        with (12150000 / (4 * 273 ^ 3)) by (field; lra).
      unfold T0. lra.
    + rewrite C, ICE, BAL. eapply Rlt_le_trans; [|apply Rmax_l].
      replace (lw_witness - 0.99 * STEFAN_BOLTZMANN * T0 ^ 4)
        with (Lf / 3600 + STEFAN_BOLTZMANN * (12150000 - 0.99 * (T0 ^ 4 - 273 ^ 4)))
        by (unfold lw_witness; field).
      assert (K : 0 < STEFAN_BOLTZMANN * (12150000 - 0.99 * (T0 ^ 4 - 273 ^ 4))).
      { apply Rmult_lt_0_compat; auto. unfold T0. lra. }
      replace ((Lf / 3600 + STEFAN_BOLTZMANN * (12150000 - 0.99 * (T0 ^ 4 - 273 ^ 4))) / Lf * 3600)
        with (1 + STEFAN_BOLTZMANN * (12150000 - 0.99 * (T0 ^ 4 - 273 ^ 4)) * (3600 / Lf)) by (unfold Lf; field).
      assert (0 < 3600 / Lf) by (unfold Lf; lra). nra.
Qed.
Print Assumptions c22_melt_bounded_refuted.

Example c22_example : physical (calm 250) thin_snow 3600 270.
Proof.
  assert (SV : saturation_vapor_pressure None 270 < 1000).
  { unfold saturation_vapor_pressure, magnus_water, magnus_ice, T0. rsplit.
    assert (E : 22.44 * (270 - 273.15) / (272.44 + (270 - 273.15)) <= 0).
    { apply Rmult_le_reg_r with (272.44 + (270 - 273.15)); [lra|]. unfold Rdiv.
      rewrite Rmult_assoc, Rinv_l by lra. lra. }
    assert (X : exp (22.44 * (270 - 273.15) / (272.44 + (270 - 273.15))) <= 1).
    { rewrite <- exp_0. destruct E as [E|E]; [left; apply exp_increasing; lra|right; rewrite E; auto]. }
    nra. }
  constructor; cbn -[saturation_vapor_pressure]; lra.
Qed.

(** * C23 Iteration of the snow surface temperature *)
(** The function iterated is the energy balance at the surface with a fixed ground heat flux; it is
    strictly decreasing, so there is at most one equilibrium temperature. *)
Theorem c23_balance_decreasing : forall m s dt ma lh hf t t',
  physical m s dt t' -> valid_temp None t -> 0 <= t -> 0 <= ma -> 0 <= lh -> t < t' ->
  remainder m s dt ma lh hf t' < remainder m s dt ma lh hf t /\
  remainder m s dt ma lh hf t = energy_in m s dt ma lh t - hf.
Proof.
  intros m s dt ma lh hf t t' P V T A L LT. assert (D : dt <> 0) by (destruct P; lra).
  rewrite !remainder_spec by auto. split; auto.
  pose proof (energy_in_decreasing m s dt ma lh t t' P V A L T LT). lra.
Qed.
Print Assumptions c23_balance_decreasing.

(** Secant method: never above 0 degC, the last step was within the tolerance. *)
Theorem c23_secant_stops : forall f fuel r, secant_temp f fuel = Some (Some r) ->
  r <= T0 /\
  exists x x', r = Rmin x T0 /\ f x' <> f x /\ Rabs ((x - x') / (f x - f x') * f x) <= 1/100.
Proof.
  intros f fuel r. unfold secant_temp. destruct (secant f fuel (T0 - 10) T0) as [[x|]|] eqn:E; try discriminate.
  intro H; injection H as <-. split; [apply Rmin_r|].
  destruct (secant_exit _ _ _ _ _ E) as (x' & N & B). exists x, x'. auto.
Qed.
Print Assumptions c23_secant_stops.
(** Distance to the equilibrium temperature when the slope of the balance lies between a and b. *)
Theorem c23_secant_error : forall f fuel r root a b, 0 < a ->
  (forall x y, a * Rabs (x - y) <= Rabs (f x - f y) <= b * Rabs (x - y)) -> f root = 0 ->
  secant_temp f fuel = Some (Some r) -> Rabs (r - Rmin root T0) <= 1/100 * (b / a).
Proof.
  intros f fuel r root a b A SL RT H. destruct (c23_secant_stops _ _ _ H) as (_ & x & x' & -> & N & D).
  assert (NX : x' <> x) by (intro; subst; auto).
  assert (AX : 0 < Rabs (x - x')) by (apply Rabs_pos_lt; lra).
  assert (AF : 0 < Rabs (f x - f x')) by (apply Rabs_pos_lt; lra).
  assert (FX : Rabs (f x) <= 1/100 * b).
  { unfold Rdiv in D. rewrite !Rabs_mult, Rabs_inv in D.
    assert (D2 : Rabs (x - x') * Rabs (f x) <= 1/100 * Rabs (f x - f x')).
    { apply Rmult_le_reg_r with (/ Rabs (f x - f x')); [apply Rinv_0_lt_compat; auto|].
      replace (1 / 100 * Rabs (f x - f x') * / Rabs (f x - f x')) with (1/100) by (field; lra). lra. }
    pose proof (SL x x') as [_ U]. apply Rmult_le_reg_l with (Rabs (x - x')); auto. nra. }
  assert (XR : Rabs (x - root) <= 1/100 * (b / a)).
  { pose proof (SL x root) as [Lo _]. rewrite RT, Rminus_0_r in Lo.
    apply Rmult_le_reg_l with a; auto. replace (a * (1/100 * (b / a))) with (1/100 * b) by (field; lra). lra. }
  eapply Rle_trans; [|exact XR]. unfold Rmin. repeat destruct (Rle_dec _ _); unfold Rabs;
    repeat destruct (Rcase_abs _); lra.
Qed.
Print Assumptions c23_secant_error.
(** For a linear balance the secant loop ends after at most two evaluations, exactly at the
    equilibrium (or at T0 if that is within the tolerance). *)
Theorem c23_secant_linear : forall a root n, 0 < a ->
  secant_temp (fun x => a * (root - x)) (S (S n)) =
    Some (Some (if Rlt_dec (1/100) (Rabs (T0 - root)) then Rmin root T0 else T0)).
Proof.
  intros a root n A. unfold secant_temp. cbn [secant].
  destruct (Req_EM_T _ _) as [E|_]; [exfalso; nra|].
  replace ((T0 - (T0 - 10)) / (a * (root - T0) - a * (root - (T0 - 10))) * (a * (root - T0))) with (T0 - root)
    by (field; lra).
  unfold secant_tol. destruct (Rlt_dec _ _) as [L|L].
  - destruct (Req_EM_T _ _) as [E|NE].
    + exfalso. assert (root = T0) by nra. subst. rewrite Rminus_diag_eq, Rabs_R0 in L by auto. lra.
    + replace (root - (T0 - (T0 - root))) with 0 by ring. rewrite !Rmult_0_r, Rabs_R0.
      destruct (Rlt_dec (1 / 100) 0) as [Q|_]; [lra|]. repeat f_equal. ring.
  - rewrite Rmin_left by lra. reflexivity.
Qed.
Print Assumptions c23_secant_linear.
Example c23_example : secant_temp (fun x => 2 * (260 - x)) 5 = Some (Some 260).
Proof.
  rewrite c23_secant_linear by lra. destruct (Rlt_dec _ _) as [_|L].
  - rewrite Rmin_left; [reflexivity|unfold T0; lra].
  - exfalso. apply L. unfold T0. rewrite Rabs_right; lra.
Qed.

(** Legacy method: the grid T0, T0 - 0.25, ... down to 3 K below the coldest pixel. *)
Lemma ceil_bounds x : x <= IZR (1 - up (- x)) < x + 1.
Proof. destruct (archimed (- x)). rewrite minus_IZR. lra. Qed.
Theorem c23_legacy_grid : forall lowest g, lowest <= T0 ->
  In g (legacy_grid lowest) <->
  exists k, g = T0 - 0.25 * INR k /\ lowest - 3 - 1/1000000 < g.
Proof.
  intros lowest g H. unfold legacy_grid. rewrite in_map_iff.
  set (n := legacy_count lowest).
  set (q := (T0 - (lowest - 3 - 1 / 1000000)) / 0.25).
  assert (Q : q * 0.25 = T0 - (lowest - 3 - 1 / 1000000)) by (unfold q; lra).
  pose proof (ceil_bounds q) as CB.
  assert (NZ : (0 <= 1 - up (- q))%Z) by (apply le_IZR; lra).
  assert (NI : INR n = IZR (1 - up (- q))).
  { unfold n, legacy_count. fold q. rewrite INR_IZR_INZ, Z2Nat.id by auto. reflexivity. }
  split.
  - intros (k & <- & I). apply in_seq in I. exists k. split; auto.
    assert (k + 1 <= n)%nat as KN by lia. apply le_INR in KN. rewrite plus_INR in KN. cbn in KN. lra.
  - intros (k & -> & I). exists k. split; auto. apply in_seq. split; [lia|].
    apply INR_lt. cbn. lra.
Qed.
Print Assumptions c23_legacy_grid.
Lemma legacy_grid_nth lowest i : (i < length (legacy_grid lowest))%nat ->
  nth i (legacy_grid lowest) 0 = T0 - 0.25 * INR i.
Proof.
  unfold legacy_grid. rewrite map_length, seq_length. intros H.
  rewrite (nth_indep _ 0 (T0 - 0.25 * INR 0)) by (rewrite map_length, seq_length; auto).
  rewrite (map_nth (fun k => T0 - 0.25 * INR k)). rewrite seq_nth by auto. reflexivity.
Qed.
(** Every warmer grid temperature has an energy deficit; the result has none or is the coldest. *)
Theorem c23_legacy_result : forall f t lowest, lowest <= T0 ->
  let r := legacy f t lowest in
  In r (legacy_grid lowest) /\ r <= T0 /\
  (forall g, In g (legacy_grid lowest) -> r < g -> f g < 0) /\
  (0 <= f r \/ (f r < 0 /\ r < lowest - 3 + 0.25)).
Proof.
  intros f t lowest L r. pose proof (fun g => c23_legacy_grid lowest g L) as GR.
  assert (LE : forall g, In g (legacy_grid lowest) -> g <= T0).
  { intros g I. apply GR in I. destruct I as (k & -> & _). pose proof (pos_INR k). lra. }
  assert (T0I : In T0 (legacy_grid lowest)). { apply GR. exists 0%nat. cbn. lra. }
  unfold r, legacy. destruct (legacy_walk_spec f (legacy_grid lowest) t) as [(l1 & l2 & E & F & P)|(F & E)].
  - set (w := legacy_walk f t (legacy_grid lowest)) in *.
    assert (IW : In w (legacy_grid lowest)) by (rewrite E; apply in_or_app; right; left; auto).
    split; [auto|]. split; [auto|]. split; [|left; auto].
    intros g IG LT.
    (* g lies before w in the grid *)
    pose proof (legacy_grid_nth lowest) as NTH.
    assert (WI : w = T0 - 0.25 * INR (length l1)).
    { rewrite <- NTH. rewrite E, app_nth2, Nat.sub_diag by lia. reflexivity. rewrite E, app_length; cbn; lia. }
    apply (In_nth _ _ 0) in IG. destruct IG as (i & IL & <-). rewrite NTH in LT |- * by auto.
    assert (i < length l1)%nat as IL1. { apply INR_lt. lra. }
    rewrite Forall_forall in F. apply F. rewrite <- NTH by auto. rewrite E, app_nth1 by auto.
    apply nth_In; auto.
  - set (w := legacy_walk f t (legacy_grid lowest)) in *.
    destruct (exists_last (l := legacy_grid lowest)) as (l' & a & EL); [intro Z; rewrite Z in T0I; destruct T0I|].
    assert (WA : w = a). { rewrite E, EL. apply last_last. }
    rewrite Forall_forall in F. assert (IW : In w (legacy_grid lowest)).
    { rewrite WA, EL. apply in_or_app; right; left; auto. }
    split; [auto|]. split; [auto|]. split; [auto|]. right. split; [auto|].
    assert (WI : w = T0 - 0.25 * INR (length l')).
    { rewrite <- (legacy_grid_nth lowest). rewrite EL, app_nth2, Nat.sub_diag by lia. cbn; auto. rewrite EL, app_length; cbn; lia. }
    destruct (Rlt_le_dec w (lowest - 3 + 0.25)) as [|W]; auto. exfalso.
    assert (I : In (w - 0.25) (legacy_grid lowest)).
    { apply GR. exists (S (length l')). rewrite S_INR. lra. }
    apply (In_nth _ _ 0) in I. destruct I as (i & IL & EI). rewrite legacy_grid_nth in EI by auto.
    rewrite EL, app_length in IL. cbn in IL.
    assert (i <= length l')%nat as K by lia. apply le_INR in K. lra.
Qed.
Print Assumptions c23_legacy_result.
(** The equilibrium temperature is bracketed by the result and the next warmer grid point. *)
Theorem c23_legacy_bracket : forall f t lowest root, lowest <= T0 ->
  (forall x y, x < y -> f y < f x) -> f root = 0 -> lowest - 3 + 0.25 <= root <= T0 ->
  let r := legacy f t lowest in r <= root < r + 0.25.
Proof.
  intros f t lowest root L DEC RT RG r. destruct (c23_legacy_result f t lowest L) as (I & LE & W & E).
  fold r in I, LE, W, E.
  assert (POS : 0 <= f r).
  { destruct E as [|[N Q]]; auto. assert (r < root) as LT by lra. apply DEC in LT. lra. }
  assert (A : r <= root). { destruct (Rle_lt_dec r root); auto. apply DEC in r0. lra. }
  split; auto. destruct (Rlt_le_dec root (r + 0.25)) as [|B]; auto. exfalso.
  pose proof I as I0. apply (c23_legacy_grid lowest r L) in I. destruct I as (k & EK & GK).
  destruct k as [|k].
  - cbn in EK. lra.
  - rewrite S_INR in EK.
    assert (IG : In (r + 0.25) (legacy_grid lowest)).
    { apply (c23_legacy_grid lowest _ L). exists k. split; lra. }
    specialize (W _ IG ltac:(lra)). destruct B as [B|B]; [apply DEC in B; lra|rewrite B in W; lra].
Qed.
Print Assumptions c23_legacy_bracket.
Example c23_legacy_example : exists f : R -> R, (forall x y, x < y -> f y < f x) /\ f 260 = 0 /\
  258 - 3 + 0.25 <= 260 <= T0.
Proof. exists (fun x => 260 - x). unfold T0. split; [intros; lra|]. split; lra. Qed.

(** The reported sensible heat flux does not belong to the reported surface temperature. *)
Definition breeze : met :=
  let m0 := MET 280 280 1 0 100000 1 0 (0.99 * STEFAN_BOLTZMANN * 270 ^ 4) 0 0 in
  MET 280 280 1 (qs m0 270) 100000 1 0 (0.99 * STEFAN_BOLTZMANN * 270 ^ 4) 0 0.
Definition bare : surf := SRF 0.2 0.001 0.01 0 0.1 270 0 [0].
Theorem c22_sensible_consistent_refuted : exists m s dt t, physical m s dt t /\
  let r := multilayer_energy_balance m s dt t in
  r_sens r <> SPEC_HEAT_CAP_DRY_AIR * m_rhoa m * s_ch s * m_wind m * (m_temp m - r_temp r).
Proof.
  exists breeze, bare, 3600, 270.
  assert (P : physical breeze bare 3600 270).
  { destruct c22_example. constructor; cbn -[saturation_vapor_pressure] in *; try lra. }
  split; auto. cbv zeta. set (r := multilayer_energy_balance breeze bare 3600 270).
  destruct (c22_outcome breeze bare 3600 270 ltac:(lra)) as (A & _).
  fold r in A. set (ma := moisture_availability breeze bare (qs breeze 270)) in *.
  set (lh := latent_heat breeze bare 270) in *.
  destruct A as [A _]; [right; cbn; lra|].
  assert (RP : 0 < response breeze bare ma lh 270).
  { apply (response_pos breeze bare 3600); auto. - left; apply availability_range; apply P. - left; apply latent_heat_pos; apply P. }
  pose proof cp_pos as CP.
  assert (BAL : balance breeze bare 3600 ma lh 270 = SPEC_HEAT_CAP_DRY_AIR * 0.001 * 10).
  { unfold balance, energy_in, conducted.
    change (m_q breeze) with (qs breeze 270).
    cbn [m_temp m_wb m_wind m_press m_rhoa m_swin m_lwin m_rain m_snow s_alb s_ch s_k s_th s_ltemp breeze bare].
    unfold Rdiv. ring. }
  assert (UP : 270 < r_temp r).
  { rewrite A. unfold linear_temp. rewrite BAL.
    assert (0 < (SPEC_HEAT_CAP_DRY_AIR * 0.001 * 10 - Lf * 0 / 3600) / response breeze bare ma lh 270).
    { apply Rdiv_lt_0_compat; auto. unfold Rdiv. rewrite Rmult_0_r, Rmult_0_l. lra. }
    lra. }
  destruct (c22_reported_sensible breeze bare 3600 270) as [E|[E1 E]]; fold r in E.
  - rewrite E. cbn [m_temp m_rhoa m_wind s_ch breeze bare]. intro X. nra.
  - fold r in E1. exfalso. rewrite E1 in A.
    (* without surface ice the melt branch is never taken *)
    revert E. unfold r, multilayer_energy_balance. cbv zeta.
    change (top_ice bare) with 0.
    destruct (Rlt_dec 0 0) as [Z|_]; [lra|].
    fold lh. change (moisture_availability breeze bare (sat_spec_hum breeze 270)) with ma.
    assert (RT : r_temp r = T0) by auto.
    set (c1 := solve breeze bare 3600 270 (sat_spec_hum breeze 270) ma lh (net_radiation breeze bare 270)
      (sens_flux breeze bare 270) (lh * moist_flux breeze bare ma (sat_spec_hum breeze 270))
      (advective breeze 3600 270) (surface_flux bare 270) 0).
    assert (DT : d_temp c1 = T0 - 270).
    { pose proof (solve_temp breeze bare 3600 270 ma lh 0 ltac:(lra)) as ST. fold c1 in ST. lra. }
    assert (DS : d_sens c1 = SPEC_HEAT_CAP_DRY_AIR * rhoa_ch_ua breeze bare * d_temp c1) by reflexivity.
    destruct (Rlt_dec T0 _); cbn [finish r_sens]; rewrite DS, DT; unfold sens_flux, rhoa_ch_ua;
      cbn [m_temp m_rhoa m_wind s_ch breeze bare]; unfold T0; intro X; nra.
Qed.
Print Assumptions c22_sensible_consistent_refuted.

(** * C77 Surface properties *)
Theorem c77_albedo : forall frac a b, 0 <= frac <= 1 ->
  surface_albedo frac a b = frac * a + (1 - frac) * b /\
  Rmin a b <= surface_albedo frac a b <= Rmax a b.
Proof.
  intros frac a b H. assert (E : surface_albedo frac a b = frac * a + (1 - frac) * b).
  { unfold surface_albedo. rsplit; auto. replace frac with 0 by lra. ring. }
  split; auto. rewrite E. rmm; split; nra.
Qed.
Print Assumptions c77_albedo.
Theorem c77_roughness : forall a b frac, 0 < a -> 0 < b -> 0 <= frac <= 1 ->
  roughness a b 0 = b /\ roughness a b 1 = a /\
  ln (roughness a b frac) = frac * ln a + (1 - frac) * ln b /\
  Rmin a b <= roughness a b frac <= Rmax a b.
Proof.
  intros a b frac A B F.
  assert (L : ln (roughness a b frac) = frac * ln a + (1 - frac) * ln b).
  { unfold roughness, Rpower. rewrite <- exp_plus, ln_exp. reflexivity. }
  assert (RP : 0 < roughness a b frac) by (apply Rmult_lt_0_compat; apply Rpower_pos').
  assert (MONO : forall x y, 0 < x -> 0 < y -> ln x <= ln y -> x <= y).
  { intros x y X Y H. destruct (Rle_lt_dec x y); auto. apply ln_increasing in r; auto. lra. }
  assert (MONO' : forall x y, 0 < x -> x <= y -> ln x <= ln y).
  { intros x y X [H|H]; [left; apply ln_increasing; auto|subst; lra]. }
  split; [|split; [|split]]; auto.
  - unfold roughness, Rpower. rewrite Rmult_0_l, exp_0, Rminus_0_r, Rmult_1_l, Rmult_1_l. apply exp_ln; auto.
  - unfold roughness, Rpower. rewrite Rminus_diag_eq, Rmult_0_l, exp_0, Rmult_1_r, Rmult_1_l by auto. apply exp_ln; auto.
  - rmm; split; apply MONO; auto; try lra; rewrite L; (destruct (Rle_lt_dec a b) as [X|X]; [pose proof (MONO' _ _ A X)|pose proof (MONO' _ _ B (Rlt_le _ _ X))]; try lra; nra).
Qed.
Print Assumptions c77_roughness.

(** Turbulence is damped over a surface colder than the air and enhanced over a warmer one. *)
Lemma richardson_sign t ts u ht hw : 0 < t -> 0 < ht -> 0 < hw ->
  (ts <= t -> 0 <= richardson t ts u ht hw) /\ (t < ts -> richardson t ts u ht hw < 0) /\
  (ts < t -> 0 < richardson t ts u ht hw).
Proof.
  intros T HT HW. unfold richardson.
  set (v := if Req_EM_T u 0 then 0.5 else u).
  assert (V : v <> 0) by (unfold v; rsplit; lra).
  assert (V2 : 0 < v ^ 2) by (replace (v ^ 2) with (Rsqr v) by (unfold Rsqr; ring); apply Rsqr_pos_lt; auto).
  assert (D : 0 < / (ht * t * v ^ 2)).
  { apply Rinv_0_lt_compat. apply Rmult_lt_0_compat; auto. apply Rmult_lt_0_compat; auto. }
  assert (G : 0 < GRAVITATIONAL_ACCELERATION * hw ^ 2).
  { apply Rmult_lt_0_compat; [unfold GRAVITATIONAL_ACCELERATION; lra|apply pow_lt; auto]. }
  unfold Rdiv. repeat split; intros H.
  - apply Rmult_le_pos; [|lra]. apply Rmult_le_pos; lra.
  - assert (GRAVITATIONAL_ACCELERATION * hw ^ 2 * (t - ts) < 0) by nra. nra.
  - apply Rmult_lt_0_compat; auto. apply Rmult_lt_0_compat; lra.
Qed.
Theorem c77_stability : forall t ts u frac zs zg ht hw b,
  0 < t -> 0 < ht -> 0 < hw -> 0 < b ->
  (ts = t -> stability_factor t ts u frac zs zg ht hw b = 1) /\
  (ts < t -> 0 < stability_factor t ts u frac zs zg ht hw b < 1) /\
  (t < ts -> roughness zs zg frac < hw -> 1 < stability_factor t ts u frac zs zg ht hw b).
Proof.
  intros t ts u frac zs zg ht hw b T HT HW B.
  destruct (richardson_sign t ts u ht hw T HT HW) as (R0 & R1 & R2).
  unfold stability_factor. set (ri := richardson t ts u ht hw) in *. repeat split; intros.
  - assert (ri = 0). { unfold ri, richardson. rewrite H, Rminus_diag_eq by auto. unfold Rdiv. ring. }
    rewrite H0. destruct (Rle_dec 0 0); [|lra]. rewrite !Rmult_0_r, Rmult_0_l, Rplus_0_r. field.
  - specialize (R2 H). destruct (Rle_dec 0 ri); [|lra].
    apply Rdiv_lt_0_compat; [lra|]. assert (0 <= 3 * b * ri * sqrt (1 + b * ri)).
    { apply Rmult_le_pos; [nra|apply sqrt_pos]. } lra.
  - specialize (R2 H). destruct (Rle_dec 0 ri); [|lra].
    assert (0 < 3 * b * ri * sqrt (1 + b * ri)).
    { apply Rmult_lt_0_compat; [nra|apply sqrt_lt_R0; nra]. }
    apply Rmult_lt_reg_r with (1 + 3 * b * ri * sqrt (1 + b * ri)); [lra|].
    unfold Rdiv. rewrite Rmult_assoc, Rinv_l by lra. lra.
  - specialize (R1 H). destruct (Rle_dec 0 ri); [lra|].
    assert (ZP : 0 < roughness zs zg frac) by (apply Rmult_lt_0_compat; apply Rpower_pos').
    assert (C : 0 <= stability_c b hw (roughness zs zg frac)).
    { unfold stability_c.
      assert (LP : 0 < ln (hw / roughness zs zg frac)).
      { rewrite <- ln_1. apply ln_increasing; [lra|].
        apply Rmult_lt_reg_r with (roughness zs zg frac); auto. unfold Rdiv. rewrite Rmult_assoc, Rinv_l by lra. lra. }
      apply Rmult_le_pos; [|left; apply Rinv_0_lt_compat, pow_lt; auto].
      apply Rmult_le_pos; [|apply sqrt_pos]. pose proof (pow2_ge_0 b). pose proof (pow2_ge_0 VON_KARMAN). nra. }
    assert (D : 0 < 1 + stability_c b hw (roughness zs zg frac) * sqrt (- ri)).
    { pose proof (sqrt_pos (- ri)). nra. }
    assert (3 * b * ri / (1 + stability_c b hw (roughness zs zg frac) * sqrt (- ri)) < 0).
    { unfold Rdiv. pose proof (Rinv_0_lt_compat _ D) as DI.
      assert (BR : 3 * b * ri < 0) by nra. set (u0 := 3 * b * ri) in *.
      assert (0 < - u0 * / (1 + stability_c b hw (roughness zs zg frac) * sqrt (- ri))); [|lra].
      apply Rmult_lt_0_compat; lra. }
    lra.
Qed.
Print Assumptions c77_stability.
Example c77_stability_example : roughness 0.01 0.1 1 < 10.
Proof. destruct (c77_roughness 0.01 0.1 1 ltac:(lra) ltac:(lra) ltac:(lra)) as (_ & E & _). rewrite E; lra. Qed.

(** Exchange coefficients are positive when both measurement heights are above the roughness length;
    with the height adjustment the sensor is never lower than 1 m above the snow. *)
Theorem c77_exchange_coefficient : forall z0 ht hw depth stab correct,
  0 < z0 < hw -> z0 < ht -> z0 < 1 -> (forall h, 0 < stab h) ->
  let ht' := match depth with Some d => Rmax (ht - d) 1 | None => ht end in
  0 < exchange_coeff z0 ht hw depth stab correct /\
  exchange_coeff z0 ht hw depth stab correct =
    0.16 / (ln (hw / z0) * ln (10 * ht' / z0)) * (if correct then stab ht' else 1).
Proof.
  intros z0 ht hw depth stab correct Z HT Z1 S ht'.
  assert (HP : z0 < ht') by (unfold ht'; destruct depth; [eapply Rlt_le_trans; [exact Z1|apply Rmax_r]|auto]).
  assert (LP : forall h, z0 < h -> 0 < ln (h / z0)).
  { intros h H. rewrite <- ln_1. apply ln_increasing; [lra|].
    apply Rmult_lt_reg_r with z0; [lra|]. unfold Rdiv. rewrite Rmult_assoc, Rinv_l by lra. lra. }
  assert (L1 : 0 < ln (hw / z0)) by (apply LP; lra).
  assert (L2 : 0 < ln (10 * ht' / z0)) by (apply LP; lra).
  assert (E : exchange_coeff z0 ht hw depth stab correct =
    0.16 / (ln (hw / z0) * ln (10 * ht' / z0)) * (if correct then stab ht' else 1)).
  { unfold exchange_coeff. fold ht'. cbv zeta. replace (VON_KARMAN ^ 2) with 0.16 by (unfold VON_KARMAN; lra).
    replace (0.1 * z0) with (z0 / 10) by lra. replace (ht' / (z0 / 10)) with (10 * ht' / z0) by (field; lra). destruct correct; ring. }
  split; auto. rewrite E. apply Rmult_lt_0_compat.
  - apply Rdiv_lt_0_compat; [lra|]. apply Rmult_lt_0_compat; auto.
  - destruct correct; [apply S|lra].
Qed.
Print Assumptions c77_exchange_coefficient.

(** Surface layer: with thin snow its conductivity is that of snow and soil in series down to the
    middle of the soil layer; with thick snow that of the snow. *)
Theorem c77_layer_conductivity : forall ds dg ks kg, 0 <= ds -> 0 < dg -> 0 < ks -> 0 < kg ->
  (2 * ds <= dg ->
     dg / 2 / layer_cond ds dg ks kg = ds / ks + (dg / 2 - ds) / kg) /\
  (dg < 2 * ds -> layer_cond ds dg ks kg = ks) /\
  layer_cond 0 dg ks kg = kg /\ layer_cond (dg / 2) dg ks kg = ks /\
  Rmin ks kg <= layer_cond ds dg ks kg <= Rmax ks kg.
Proof.
  intros ds dg ks kg D G S K.
  assert (DEN : forall d, 0 <= d -> 2 * d <= dg -> 0 < 2 * d / ks + (dg - 2 * d) / kg).
  { intros d D0 D1. assert (I1 : 0 < / ks) by (apply Rinv_0_lt_compat; auto).
    assert (I2 : 0 < / kg) by (apply Rinv_0_lt_compat; auto). unfold Rdiv.
    destruct (Rle_lt_dec d 0); [replace d with 0 by lra; rewrite !Rmult_0_r, Rmult_0_l, Rplus_0_l, Rminus_0_r; nra|].
    assert (0 < 2 * d * / ks) by nra. assert (0 <= (dg - 2 * d) * / kg) by nra. lra. }
  unfold layer_cond. split; [|split; [|split; [|split]]].
  - intros H. destruct (Rle_dec ds (dg / 2)) as [_|N]; [|lra]. specialize (DEN ds D H).
    set (q := 2 * ds / ks + (dg - 2 * ds) / kg) in *.
    replace (dg / 2 / (dg / q)) with (q / 2) by (field; lra). unfold q. field. lra.
  - intros H. destruct (Rle_dec ds (dg / 2)); [lra|auto].
  - destruct (Rle_dec 0 (dg / 2)); [|lra]. field. lra.
  - destruct (Rle_dec (dg / 2) (dg / 2)); [|lra].
    replace (2 * (dg / 2) / ks + (dg - 2 * (dg / 2)) / kg) with (dg / ks) by (field; lra). field; lra.
  - destruct (Rle_dec ds (dg / 2)) as [H|H]; [|rmm; lra].
    specialize (DEN ds D ltac:(lra)). set (q := 2 * ds / ks + (dg - 2 * ds) / kg) in *.
    assert (Q : q * (ks * kg) = 2 * ds * kg + (dg - 2 * ds) * ks) by (unfold q; field; lra).
    assert (SK : 0 < ks * kg) by nra.
    assert (B : forall k, 0 < k -> ((k <= dg / q <-> k * q <= dg) /\ (dg / q <= k <-> dg <= k * q))).
    { intros k _. split; split; intro X.
      - apply Rmult_le_compat_r with (r := q) in X; [|lra]. unfold Rdiv in X. rewrite Rmult_assoc, Rinv_l in X by lra. lra.
      - apply Rmult_le_reg_r with q; auto. unfold Rdiv. rewrite Rmult_assoc, Rinv_l by lra. lra.
      - apply Rmult_le_compat_r with (r := q) in X; [|lra]. unfold Rdiv in X. rewrite Rmult_assoc, Rinv_l in X by lra. lra.
      - apply Rmult_le_reg_r with q; auto. unfold Rdiv. rewrite Rmult_assoc, Rinv_l by lra. lra. }
    rmm; split; apply B; auto; apply Rmult_le_reg_r with (ks * kg); auto.
    + replace (ks * q * (ks * kg)) with (ks * (q * (ks * kg))) by ring. rewrite Q.
      assert (0 <= ks * ((dg - 2 * ds) * (kg - ks))) by (repeat apply Rmult_le_pos; lra). lra.
    + replace (kg * q * (ks * kg)) with (kg * (q * (ks * kg))) by ring. rewrite Q.
      assert (0 <= kg * (2 * ds * (kg - ks))) by (repeat apply Rmult_le_pos; lra). lra.
    + replace (kg * q * (ks * kg)) with (kg * (q * (ks * kg))) by ring. rewrite Q.
      assert (0 <= kg * (2 * ds * (ks - kg))) by (repeat apply Rmult_le_pos; lra). lra.
    + replace (ks * q * (ks * kg)) with (ks * (q * (ks * kg))) by ring. rewrite Q.
      assert (0 <= ks * ((dg - 2 * ds) * (ks - kg))) by (repeat apply Rmult_le_pos; lra). lra.
Qed.
Print Assumptions c77_layer_conductivity.
Theorem c77_layer_temperature : forall ds dg ts tg, 0 <= ds -> 0 < dg ->
  layer_temp 0 dg ts tg = tg /\ layer_temp dg dg ts tg = ts /\ (dg < ds -> layer_temp ds dg ts tg = ts) /\
  (ds <= dg -> layer_temp ds dg ts tg = ds / dg * ts + (1 - ds / dg) * tg) /\
  Rmin ts tg <= layer_temp ds dg ts tg <= Rmax ts tg /\
  ds <= layer_thickness ds dg /\ dg <= layer_thickness ds dg /\
  (layer_thickness ds dg = ds \/ layer_thickness ds dg = dg).
Proof.
  intros ds dg ts tg D G.
  assert (LIN : ds <= dg -> layer_temp ds dg ts tg = ds / dg * ts + (1 - ds / dg) * tg).
  { intros H. unfold layer_temp. rsplit. field. lra. }
  split; [|split; [|split; [|split; [auto|split; [|split; [|split]]]]]].
  - unfold layer_temp. rsplit. field. lra.
  - unfold layer_temp. rsplit. field. lra.
  - intros H. unfold layer_temp. rsplit. auto.
  - destruct (Rle_lt_dec ds dg) as [H|H].
    + rewrite LIN by auto. assert (F : 0 <= ds / dg <= 1).
      { split; [apply Rmult_le_pos; [auto|left; apply Rinv_0_lt_compat; auto]|].
        apply Rmult_le_reg_r with dg; auto. unfold Rdiv. rewrite Rmult_assoc, Rinv_l by lra. lra. }
      set (w := ds / dg) in *. rmm; split; nra.
    + unfold layer_temp. rsplit. rmm; lra.
  - apply Rmax_l.
  - apply Rmax_r.
  - unfold layer_thickness. rmm; auto.
Qed.
Print Assumptions c77_layer_temperature.
(** Surface conductance for moisture: at least that of saturated soil, and growing with the square of
    unfrozen soil moisture above the critical moisture. *)
Theorem c77_conductance : forall g u vs vc, 0 < g -> 0 < vc -> 0 <= u -> 0 <= vs ->
  g <= conductance g u vs vc /\
  (vc <= u * vs -> conductance g u vs vc = g * (u * vs / vc) ^ 2) /\
  (u * vs <= vc -> conductance g u vs vc = g).
Proof.
  intros g u vs vc G V U S. unfold conductance.
  assert (W : 0 <= u * vs / vc) by (apply Rmult_le_pos; [apply Rmult_le_pos; auto|left; apply Rinv_0_lt_compat; auto]).
  assert (WM : u * vs / vc * vc = u * vs) by (field; lra).
  set (w := u * vs / vc) in *. split; [|split; intro H].
  - pose proof (Rmax_r (w ^ 2) 1). nra.
  - assert (1 <= w) by nra. rewrite Rmax_left; [auto|nra].
  - assert (w <= 1) by nra. rewrite Rmax_right; [lra|nra].
Qed.
Print Assumptions c77_conductance.
(** Moisture availability: unlimited over snow and for condensation, otherwise a fraction that grows
    with surface conductance; sublimation heat is used over ice or below freezing. *)
Theorem c77_moisture_availability : forall m s q, 0 < s_cond s -> 0 <= s_ch s -> 0 <= m_wind m ->
  0 < moisture_availability m s q <= 1 /\
  (0 < s_swe s \/ q < m_q m -> moisture_availability m s q = 1) /\
  (s_swe s <= 0 -> m_q m <= q ->
     moisture_availability m s q * (s_cond s + s_ch s * m_wind m) = s_cond s).
Proof.
  intros m s q C H W. assert (0 <= s_ch s * m_wind m) by (apply Rmult_le_pos; auto). split; [apply availability_range; auto|].
  unfold moisture_availability. split.
  - intros [X|X]; rsplit; auto.
  - intros X Y. rsplit. field. lra.
Qed.
Print Assumptions c77_moisture_availability.
Theorem c77_latent_heat : forall m s t,
  (0 < top_ice s \/ t < T0 -> latent_heat m s t = 2835000 - 2361 * (m_temp m - T0)) /\
  (top_ice s <= 0 -> T0 <= t -> latent_heat m s t = 2501000 - 2361 * (m_temp m - T0)).
Proof.
  intros m s t. unfold latent_heat, latent_heat_of_vaporization, Lv, Lf. split.
  - intros [H|H]; rsplit; try lra.
  - intros H1 H2. rsplit. lra.
Qed.
Print Assumptions c77_latent_heat.
