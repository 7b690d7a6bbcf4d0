(** Theorems about the canopy model (C35, C36). *)
From Coq Require Import Permutation.
From Verif Require Import Common Constants AtmosphereModel CanopyModel.
Open Scope R_scope.

(** * C35 *)
Definition valid_cfg (c : ccfg) : Prop :=
  0 <= c_ext c /\ 0 <= c_flow c /\ 0 < c_radius c /\ 0 < c_visc c /\ 0 < c_storage c /\ 0 <= c_exposure c /\ 0 <= c_ddf c.
(** Snow caught by the canopy: 70 % of the free capacity times 1 - exp(-snowfall / capacity) *)
Definition caught (capacity load snowfall : R) : R := 0.7 * (capacity - load) * (1 - exp (- snowfall / capacity)).
Lemma exp_le_1 x : x <= 0 -> 0 < exp x <= 1.
Proof. intros H. split; [apply exp_pos|]. rewrite <- exp_0. destruct H as [H| ->]; [left; apply exp_increasing; auto|lra]. Qed.
Lemma exp_lower x : 1 + x <= exp x.
Proof. destruct (Req_dec x 0) as [->|N]; [rewrite exp_0; lra|left; apply exp_ineq1; auto]. Qed.
Lemma decay_bounds p m : 0 < m -> 0 <= p -> 0 < exp (- p / m) <= 1 /\ m * (1 - exp (- p / m)) <= p.
Proof.
  intros M P. assert (Q : - p / m <= 0).
  { unfold Rdiv. rewrite Ropp_mult_distr_l_reverse. pose proof (Rmult_le_pos p (/ m) P (Rlt_le _ _ (Rinv_0_lt_compat _ M))). lra. }
  pose proof (exp_le_1 _ Q). split; auto. pose proof (exp_lower (- p / m)).
  assert (E : m * (- p / m) = - p) by (field; lra). nra.
Qed.
Lemma caught_bounds m l p : 0 < m -> 0 <= l <= m -> 0 <= p -> 0 <= caught m l p <= p /\ caught m l p <= m - l.
Proof.
  intros M L P. destruct (decay_bounds p m M P) as [[A B] C]. unfold caught. set (e := exp (- p / m)) in *. split; [split|]; nra.
Qed.

(** Full description of one step *)
Theorem c35_step : forall c dt lai coeff l t p rain, valid_cfg c -> 0 < lai -> 0 <= dt ->
  0 <= l -> 0 <= p ->
  exists l' sub melt ground,
    let capacity := c_storage c * lai in
    let n := l + caught capacity l p in
    let r := canopy_snow c dt lai coeff (Some l) (Some t) (Some p) (Some rain) in
    r = CR (Some l') (Some (Rmax (caught capacity l p) 0)) (Some sub) (Some melt) (Some ground) (Some (ground + rain)) /\
    (* sublimation *)
    0 <= n /\ (n = 0 -> sub = 0) /\ (0 <= coeff -> sub = 0) /\
    (0 < n -> sub = Rmax 0 (Rmin n (c_exposure c * Rpower (n / capacity) (-0.4) * n * (- coeff) * dt))) /\
    (* melt of the rest by the degree day method *)
    (t <= T0 -> melt = 0) /\
    (T0 <= t -> melt = Rmin (c_ddf c * (t - T0) * (dt / 86400)) (n - sub)) /\
    (* what is left and what reaches the ground *)
    l' = n - sub - melt /\ ground = p - Rmax (caught capacity l p) 0 + melt.
Proof.
  intros c dt lai coeff l t p rain V A D L P.
  assert (M : 0 < c_storage c * lai) by (apply Rmult_lt_0_compat; [apply V|auto]). set (m := c_storage c * lai) in *.
  destruct (decay_bounds p m M P) as [[E1 E2] E3].
  assert (NN : 0 <= l + caught m l p).
  { unfold caught. set (e := exp (- p / m)) in *. nra. }
  assert (NEW : decay p m = Some (exp (- p / m))) by (unfold decay; destruct (Req_EM_T m 0); [lra|auto]).
  set (n := l + caught m l p) in *.
  set (ex := exposure c (Some n) m). set (sub := Rmax (Rmin (- ex * n * coeff * dt) n) 0).
  set (melt := Rmin (c_ddf c * Rmax (t - T0) 0 * dt / (SECONDS_PER_HOUR * HOURS_PER_DAY)) (n - sub)).
  exists (n - sub - melt), sub, melt, (p - Rmax (caught m l p) 0 + melt). cbv zeta. fold n.
  assert (EX0 : 0 <= ex).
  { unfold ex, exposure. destruct (Rlt_dec 0 n); [|lra]. destruct (Req_EM_T m 0); [lra|]. apply Rmult_le_pos; [apply V|]. left. apply exp_pos. }
  assert (SB : 0 <= sub <= n) by (unfold sub; rmm; lra).
  split.
  { unfold canopy_snow. fold m. cbv zeta. rewrite NEW. cbn [lift1 lift2].
    change (l + 0.7 * (m - l) * (1 - exp (- p / m))) with n. fold ex.
    replace (n - l) with (caught m l p) by (unfold n; ring). reflexivity. }
  split; auto. split; [|split; [|split; [|split; [|split; [|split]]]]]; auto.
  - intros N0. lra.
  - intros C. unfold sub.
    assert (Q : - ex * n * coeff * dt <= 0).
    { assert (0 <= ex * n * coeff * dt) by (repeat apply Rmult_le_pos; auto).
      replace (- ex * n * coeff * dt) with (- (ex * n * coeff * dt)) by ring. lra. }
    rewrite (Rmin_left _ n), Rmax_right; lra.
  - intros N. unfold sub, ex, exposure. destruct (Rlt_dec 0 n); [|lra]. destruct (Req_EM_T m 0); [lra|].
    rewrite Rmax_comm, Rmin_comm. do 2 f_equal. ring.
  - intros T. unfold melt. rewrite (Rmax_right (t - T0) 0) by lra. unfold SECONDS_PER_HOUR, HOURS_PER_DAY.
    replace (c_ddf c * 0 * dt / (3600 * 24)) with 0 by field. apply Rmin_left. lra.
  - intros T. unfold melt. rewrite (Rmax_left (t - T0) 0) by lra. f_equal. unfold SECONDS_PER_HOUR, HOURS_PER_DAY. field.
Qed.
Print Assumptions c35_step.

(** Mass balance and bounds while the load is within the capacity *)
Theorem c35_balance : forall c dt lai coeff l t p rain, valid_cfg c -> 0 < lai -> 0 <= dt -> 0 <= p ->
  0 <= l <= c_storage c * lai ->
  exists l' inter sub melt ground,
    canopy_snow c dt lai coeff (Some l) (Some t) (Some p) (Some rain) =
      CR (Some l') (Some inter) (Some sub) (Some melt) (Some ground) (Some (ground + rain)) /\
    p + l = ground + sub + l' /\ inter = caught (c_storage c * lai) l p /\ ground = p - inter + melt /\
    0 <= l' <= c_storage c * lai /\ 0 <= ground /\ 0 <= sub /\ 0 <= melt /\ 0 <= inter <= p.
Proof.
  intros c dt lai coeff l t p rain V A D P L.
  assert (M : 0 < c_storage c * lai) by (apply Rmult_lt_0_compat; [apply V|auto]).
  destruct (c35_step c dt lai coeff l t p rain V A D (proj1 L) P) as [l' [sub [melt [ground H]]]]. cbv zeta in H.
  destruct (caught_bounds _ l p M L P) as [[B1 B2] B3]. set (m := c_storage c * lai) in *.
  rewrite (Rmax_left (caught m l p) 0) in H by lra. destruct H as [E [N [S0 [_ [S1 [M0 [M1 [-> ->]]]]]]]].
  assert (SB : 0 <= sub <= l + caught m l p).
  { destruct N as [N|N]; [rewrite S1 by auto; rmm; lra|rewrite S0 by lra; lra]. }
  assert (MB : 0 <= melt <= l + caught m l p - sub).
  { destruct (Rle_lt_dec t T0) as [T|T]; [rewrite M0 by auto; lra|]. rewrite M1 by lra.
    assert (0 <= c_ddf c * (t - T0) * (dt / 86400)) by (apply Rmult_le_pos; [apply Rmult_le_pos; [apply V|lra]|lra]). rmm; lra. }
  exists (l + caught m l p - sub - melt), (caught m l p), sub, melt, (p - caught m l p + melt).
  split; auto. repeat split; lra.
Qed.
Print Assumptions c35_balance.
(** A heavier load than the capacity (which follows the LAI): a part of it, 70 % of the excess times
    1 - exp(-snowfall / capacity), vanishes; otherwise the balance is as above. *)
Theorem c35_excess : forall c dt lai coeff l t p rain, valid_cfg c -> 0 < lai -> 0 <= dt -> 0 <= p ->
  c_storage c * lai < l ->
  exists l' sub melt ground,
    canopy_snow c dt lai coeff (Some l) (Some t) (Some p) (Some rain) =
      CR (Some l') (Some 0) (Some sub) (Some melt) (Some ground) (Some (ground + rain)) /\
    p + l = ground + sub + l' + 0.7 * (l - c_storage c * lai) * (1 - exp (- p / (c_storage c * lai))) /\
    0 <= l' <= l /\ p <= ground /\ 0 <= sub.
Proof.
  intros c dt lai coeff l t p rain V A D P L.
  assert (M : 0 < c_storage c * lai) by (apply Rmult_lt_0_compat; [apply V|auto]).
  destruct (c35_step c dt lai coeff l t p rain V A D ltac:(lra) P) as [l' [sub [melt [ground H]]]]. cbv zeta in H.
  destruct (decay_bounds p _ M P) as [[E1 E2] E3]. set (m := c_storage c * lai) in *.
  assert (C0 : caught m l p <= 0) by (unfold caught; set (e := exp (- p / m)) in *; nra).
  rewrite (Rmax_right (caught m l p) 0) in H by lra. destruct H as [E [N [S0 [_ [S1 [M0 [M1 [-> ->]]]]]]]].
  assert (SB : 0 <= sub <= l + caught m l p).
  { destruct N as [N|N]; [rewrite S1 by auto; rmm; lra|rewrite S0 by lra; lra]. }
  assert (MB : 0 <= melt <= l + caught m l p - sub).
  { destruct (Rle_lt_dec t T0) as [T|T]; [rewrite M0 by auto; lra|]. rewrite M1 by lra.
    assert (0 <= c_ddf c * (t - T0) * (dt / 86400)) by (apply Rmult_le_pos; [apply Rmult_le_pos; [apply V|lra]|lra]). rmm; lra. }
  exists (l + caught m l p - sub - melt), sub, melt, (p - 0 + melt). split; auto.
  split; [unfold caught; ring|]. split; [lra|]. split; lra.
Qed.
Print Assumptions c35_excess.

(** Runs: each step has a LAI, a loss coefficient, temperature, snowfall and rain. *)
Record cstep := ST { st_lai : R; st_coeff : R; st_temp : R; st_snow : R; st_rain : R }.
(** end load, total ground snowfall and total sublimation *)
Inductive canopy_run (c : ccfg) (dt : R) : num -> list cstep -> num -> R -> R -> Prop :=
  | run_nil l : canopy_run c dt l [] l 0 0
  | run_cons l s t l' g u G U inter melt :
      canopy_snow c dt (st_lai s) (st_coeff s) l (Some (st_temp s)) (Some (st_snow s)) (Some (st_rain s)) =
        CR l' (Some inter) (Some u) (Some melt) (Some g) (Some (g + st_rain s)) ->
      forall l'', canopy_run c dt l' t l'' G U ->
      canopy_run c dt l (s :: t) l'' (g + G) (u + U).
(** As long as the capacity never falls below the load (in particular if the LAI does not decrease), the total
    snowfall is what reached the ground, sublimated or is still in the canopy. *)
Theorem c35_run : forall c dt steps l0, valid_cfg c -> 0 <= dt -> 0 <= l0 ->
  Forall (fun s => 0 < st_lai s /\ 0 <= st_snow s) steps ->
  (match steps with [] => True | s :: _ => l0 <= c_storage c * st_lai s end) ->
  (forall pre a b post, steps = pre ++ a :: b :: post -> st_lai a <= st_lai b) ->
  exists l ground sub, canopy_run c dt (Some l0) steps (Some l) ground sub /\
    sumR (map st_snow steps) + l0 = ground + sub + l /\ 0 <= l /\ 0 <= ground /\ 0 <= sub /\
    (forall a pre, steps = pre ++ [a] -> l <= c_storage c * st_lai a).
Proof.
  intros c dt steps. induction steps as [|s t IH]; intros l0 V D L F C O.
  - exists l0, 0, 0. split; [constructor|]. cbn [map]. rewrite sumR_nil. split; [lra|]. split; auto. split; [lra|]. split; [lra|].
    intros a pre E. destruct pre; discriminate.
  - inversion F as [|x y F1 F2]; subst. destruct F1 as [FA FS].
    destruct (c35_balance c dt (st_lai s) (st_coeff s) l0 (st_temp s) (st_snow s) (st_rain s) V FA D FS (conj L C))
      as [l' [inter [sub [melt [g [E [B1 [_ [_ [B2 [B3 [B4 _]]]]]]]]]]]].
    destruct (IH l' V D (proj1 B2) F2) as [l [G [U [R1 [R2 [R3 [R4 [R5 R6]]]]]]]].
    + destruct t as [|s' t']; auto. specialize (O [] s s' t' eq_refl). assert (0 < c_storage c) by apply V. nra.
    + intros pre a b post Q. apply (O (s :: pre) a b post). rewrite Q. auto.
    + exists l, (g + G), (sub + U). split; [econstructor; eauto|]. cbn [map]. rewrite sumR_cons. split; [lra|]. split; [lra|].
      split; [lra|]. split; [lra|]. intros a pre Q. destruct t as [|s' t'].
      * inversion R1; subst. destruct pre as [|x pre]; [injection Q as ->; lra|destruct pre; discriminate].
      * destruct pre as [|x pre]; [discriminate|]. injection Q as -> Q. apply (R6 a pre). auto.
Qed.
Print Assumptions c35_run.
Definition demo_cc : ccfg := CC 0.71 0.8 0.9 0.0005 0.000013 4.4 0.01 5.
Lemma demo_cc_valid : valid_cfg demo_cc. Proof. unfold valid_cfg; cbn. lra. Qed.
Example c35_run_example : exists l ground sub,
  canopy_run demo_cc 3600 initial_load [ST 2 (-0.001) 270 10 0; ST 2 (-0.001) 275 3 1; ST 2.5 0 271 0 0] (Some l) ground sub /\
  13 = ground + sub + l.
Proof.
  destruct (c35_run demo_cc 3600 [ST 2 (-0.001) 270 10 0; ST 2 (-0.001) 275 3 1; ST 2.5 0 271 0 0] 0 demo_cc_valid) as [l [g [s [R [E _]]]]]; try lra.
  - repeat constructor; cbn; lra.
  - cbn. lra.
  - intros pre a b post E. destruct pre as [|x pre]; [injection E as <- <- _; cbn; lra|]. injection E as _ E.
    destruct pre as [|x' pre]; [injection E as <- <- _; cbn; lra|]. injection E as _ E. destruct pre as [|x'' pre]; [discriminate|].
    injection E as _ E. destruct pre; discriminate.
  - exists l, g, s. split; auto. cbn [map st_snow] in E. rewrite !sumR_cons, sumR_nil in E. lra.
Qed.
(** When the LAI decreases, snow in the canopy disappears: two days with 20 mm of snow each, LAI 5 and then 0.2. *)
Theorem c35_decreasing_lai_refuted : exists l ground sub,
  canopy_run demo_cc 86400 initial_load [ST 5 0 270 20 0; ST 0.2 0 270 20 0] (Some l) ground sub /\
  ground + sub + l < 20 + 20.
Proof.
  destruct (c35_balance demo_cc 86400 5 0 0 270 20 0 demo_cc_valid) as [l1 [i1 [s1 [m1 [g1 [E1 [B1 [I1 [G1 [L1 H1]]]]]]]]]]; try (cbn; lra).
  assert (S1 : s1 = 0).
  { destruct (c35_step demo_cc 86400 5 0 0 270 20 0 demo_cc_valid) as [l' [sub [melt [ground H]]]]; try lra. cbv zeta in H.
    destruct H as [E [_ [_ [Z _]]]]. rewrite E1 in E. injection E as _ _ -> _ _. apply Z. lra. }
  assert (M1 : m1 = 0).
  { destruct (c35_step demo_cc 86400 5 0 0 270 20 0 demo_cc_valid) as [l' [sub [melt [ground H]]]]; try lra. cbv zeta in H.
    destruct H as [E [_ [_ [_ [_ [Z _]]]]]]. rewrite E1 in E. injection E as _ _ _ -> _ _. apply Z. unfold T0. lra. }
  assert (LB : 4 < l1).
  { assert (EX : exp (- (20) / (4.4 * 5)) < 0.7).
    { apply (Rmult_lt_reg_r (exp (20 / (4.4 * 5)))); [apply exp_pos|]. rewrite <- exp_plus.
      replace (- (20) / (4.4 * 5) + 20 / (4.4 * 5)) with 0 by (field; lra). rewrite exp_0. pose proof (exp_lower (20 / (4.4 * 5))).
      assert (20 / (4.4 * 5) = 10 / 11) by lra. lra. }
    unfold caught in I1. cbn [c_storage demo_cc] in I1. lra. }
  destruct (c35_excess demo_cc 86400 0.2 0 l1 270 20 0 demo_cc_valid) as [l2 [s2 [m2 [g2 [E2 [B2 _]]]]]]; try (cbn; lra).
  exists l2, (g1 + (g2 + 0)), (s1 + (s2 + 0)). split.
  - econstructor; [exact E1|]. econstructor; [exact E2|]. constructor.
  - assert (exp (- (20) / (c_storage demo_cc * 0.2)) < 1).
    { rewrite <- exp_0. apply exp_increasing. cbn [c_storage demo_cc]. lra. }
    assert (0 < 0.7 * (l1 - c_storage demo_cc * 0.2) * (1 - exp (- (20) / (c_storage demo_cc * 0.2)))).
    { apply Rmult_lt_0_compat; [cbn [c_storage demo_cc]; lra|lra]. }
    lra.
Qed.
Print Assumptions c35_decreasing_lai_refuted.
(** A time step with missing snowfall or temperature makes the load missing, and with it the snowfall on the ground
    in all following time steps. *)
Theorem c35_recovers_refuted : forall c dt lai coeff load temp snowfall rain, snowfall = None \/ temp = None \/ load = None ->
  let r := canopy_snow c dt lai coeff load temp snowfall rain in r_load r = None /\ r_snowfall r = None /\ r_precip r = None.
Proof.
  intros c dt lai coeff load temp snowfall rain H. unfold canopy_snow. cbn [r_load r_snowfall r_precip].
  destruct H as [->|[->| ->]].
  - destruct load; cbn; destruct temp; auto.
  - destruct load, snowfall; cbn; auto. destruct (decay _ _); cbn; auto.
  - cbn; destruct temp, snowfall; cbn; auto.
Qed.
Print Assumptions c35_recovers_refuted.
(** Sublimation from ice particles: never a gain in unsaturated air, none in saturated air without sun, more in drier
    air and in sunshine. *)
Lemma omega_pos t nu : 0 < t <= 1000 -> 0 < nu -> 0 < omega t nu.
Proof.
  intros T N. unfold omega. apply Rmult_lt_0_compat.
  - apply Rdiv_lt_0_compat; [lra|]. unfold THERM_COND_AIR. apply Rmult_lt_0_compat; [lra|auto].
  - assert (1 < Ls * MOLAR_MASS_WATER / (UNIVERSAL_GAS_CONSTANT * t)); [|lra].
    assert (0 < UNIVERSAL_GAS_CONSTANT * t) by (unfold UNIVERSAL_GAS_CONSTANT; lra).
    apply (Rmult_lt_reg_r (UNIVERSAL_GAS_CONSTANT * t)); auto. unfold Rdiv. rewrite Rmult_assoc, Rinv_l by lra.
    unfold Ls, Lv, Lf, MOLAR_MASS_WATER, UNIVERSAL_GAS_CONSTANT. lra.
Qed.
Lemma nusselt_pos x : 0 < 1.79 + 0.606 * sqrt x.
Proof. pose proof (sqrt_pos x). lra. Qed.
Theorem c35_loss_rate : forall c albedo sw ws temp rh sat_vap, valid_cfg c -> 0 < temp <= 1000 -> 0 < sat_vap -> albedo <= 1 -> 0 <= sw ->
  (rh <= 100 -> mass_loss_rate c albedo sw ws temp rh sat_vap <= 0) /\
  mass_loss_rate c albedo 0 ws temp 100 sat_vap = 0 /\
  (forall rh', rh <= rh' -> mass_loss_rate c albedo sw ws temp rh sat_vap <= mass_loss_rate c albedo sw ws temp rh' sat_vap) /\
  (forall sw', sw <= sw' -> mass_loss_rate c albedo sw' ws temp rh sat_vap <= mass_loss_rate c albedo sw ws temp rh sat_vap) /\
  (* with the conductivity of air, the latent heat of sublimation and the vapour diffusivity as resistances in series:
     rate * (Ls omega + 1 / (diffusivity * saturation density * Sh)) = 2 pi r (rh/100 - 1) - absorbed radiation * omega *)
  exists nu om d, nu = 1.79 + 0.606 * sqrt (Rmin (Rmax (2 * c_radius c * ws / c_visc c) 0.7) 10) /\
    om * (0.025 * temp * nu) = Ls * 0.0180153 / (8.314462618 * temp) - 1 /\
    d = 2.06 / 100000 * Rpower (temp / 273) 1.75 * (0.622 * (sat_vap / (461.52 * temp))) * nu /\ 0 < d /\
    mass_loss_rate c albedo sw ws temp rh sat_vap * (Ls * om + / d) =
      2 * PI * c_radius c * (rh / 100 - 1) - PI * c_radius c ^ 2 * (1 - albedo) * sw * om.
Proof.
  intros c albedo sw ws temp rh sv V T SV AL SW. unfold mass_loss_rate.
  set (nu := 1.79 + 0.606 * sqrt (clip 0.7 10 (2 * c_radius c * ws / c_visc c))).
  assert (NU : 0 < nu) by apply nusselt_pos. pose proof (omega_pos temp nu T NU) as OM.
  set (dd := 2.06 / 100000 * Rpower (temp / 273) 1.75 * (0.622 * absolute_humidity temp sv) * nu).
  assert (DD : 0 < dd).
  { unfold dd. apply Rmult_lt_0_compat; auto. apply Rmult_lt_0_compat.
    - apply Rmult_lt_0_compat; [lra|apply exp_pos].
    - apply Rmult_lt_0_compat; [lra|]. unfold absolute_humidity, SPEC_GAS_CONSTANT_WATER_VAPOR. apply Rdiv_lt_0_compat; [auto|lra]. }
  set (om := omega temp nu) in *.
  assert (LS : 0 < Ls) by (unfold Ls, Lv, Lf; lra).
  assert (DEN : 0 < Ls * om + 1 / dd).
  { apply Rplus_lt_0_compat; [apply Rmult_lt_0_compat; auto|]. apply Rdiv_lt_0_compat; lra. }
  set (den := Ls * om + 1 / dd) in *. pose proof PI_RGT_0 as PI0. assert (RA : 0 < c_radius c) by apply V.
  assert (PR : 0 < 2 * PI * c_radius c) by nra.
  assert (AB : forall x y, 0 <= x -> x <= y -> PI * c_radius c ^ 2 * (1 - albedo) * x * om <= PI * c_radius c ^ 2 * (1 - albedo) * y * om).
  { intros x y X Y. apply Rmult_le_compat_r; [lra|]. apply Rmult_le_compat_l; auto. apply Rmult_le_pos; [|lra].
    apply Rmult_le_pos; [lra|]. apply pow_le; lra. }
  assert (DIV : forall x y, x <= y -> x / den <= y / den).
  { intros x y XY. apply Rmult_le_compat_r; auto. left. apply Rinv_0_lt_compat. auto. }
  split; [|split; [|split; [|split]]].
  - intros RH. assert (Z : 0 / den = 0) by (unfold Rdiv; ring). rewrite <- Z. apply DIV. pose proof (AB 0 sw ltac:(lra) SW). nra.
  - unfold Rdiv at 1. replace (100 / 100 - 1) with 0 by lra. ring_simplify. ring.
  - intros rh' RH. apply DIV. nra.
  - intros sw' S. apply DIV. pose proof (AB sw sw' SW S). lra.
  - exists nu, om, dd. split; [reflexivity|]. split.
    + unfold om, omega, THERM_COND_AIR, MOLAR_MASS_WATER, UNIVERSAL_GAS_CONSTANT. field. split; lra.
    + split; [reflexivity|]. split; auto.
      replace (Ls * om + / dd) with den by (unfold den, Rdiv; ring). unfold Rdiv at 1. rewrite Rmult_assoc, Rinv_l by lra. ring.
Qed.
Print Assumptions c35_loss_rate.
(** The coefficient used is the rate per particle mass, 0 if the rate is missing. *)
Theorem c35_loss_coeff : forall c, valid_cfg c ->
  loss_coeff c None = 0 /\ forall rate, loss_coeff c (Some rate) * (917 * (4 / 3 * PI * c_radius c ^ 3)) = rate.
Proof.
  intros c V. unfold loss_coeff. cbn [nan_to_zero]. split; [unfold Rdiv; ring|]. intros rate. unfold ICE_DENSITY.
  pose proof PI_RGT_0. assert (0 < c_radius c) by apply V. field. split; lra.
Qed.
Print Assumptions c35_loss_coeff.

(** * C36 *)
(** Fraction of the sky covered by the canopy *)
Theorem c36_fraction : forall lai, 0 < lai -> exists f, canopy_frac (Some lai) = Some f /\ 0 <= f <= 1 /\
  (0 <= 0.55 + 0.29 * ln lai <= 1 -> f = 0.55 + 0.29 * ln lai) /\
  (0.55 + 0.29 * ln lai <= 0 -> f = 0) /\ (1 <= 0.55 + 0.29 * ln lai -> f = 1).
Proof.
  intros lai L. unfold canopy_frac. destruct (Rlt_dec 0 lai); [|lra]. eexists. split; [reflexivity|]. unfold clip.
  split; [|split; [|split]]; intros; rmm; lra.
Qed.
Print Assumptions c36_fraction.
(** Inside the canopy: radiation and wind are damped exponentially with the LAI, humidity is increased by up to
    10 %, longwave radiation is a mixture of sky and canopy, temperatures are moved towards the daily mean. *)
Theorem c36_inside : forall c p buf lai f t sw lw rh ws, valid_cfg c -> m_forest p = true -> m_lai p = Some lai -> 0 < lai ->
  canopy_frac (Some lai) = Some f ->
  m_temp p = Some t -> m_sw p = Some sw -> m_lw p = Some lw -> m_rh p = Some rh -> m_ws p = Some ws ->
  0 <= sw -> 0 <= ws -> 0 <= rh <= 100 ->
  exists t' sw' lw' rh' ws',
    inside c p buf = MP true (Some lai) (Some t') (Some sw') (Some lw') (Some rh') (Some ws') buf /\
    sw' = sw * exp (- (c_ext c * lai)) /\ 0 <= sw' <= sw /\
    ws' = ws * exp (- (0.4 * c_flow c * lai)) /\ 0 <= ws' <= ws /\
    rh' = Rmin 100 (rh * (1 + f / 10)) /\ rh <= rh' <= 100 /\
    lw' = lw + f * (5.670374419 / 100000000 * t' ^ 4 - lw) /\
    (nanmean buf = None -> t' = t) /\
    (forall m, nanmean buf = Some m -> exists delta,
       delta = Rmax (-2) (Rmin 2 ((m - 273.15) / 3)) /\ t' = (1 - f) * t + f * (m - delta + c_tscale c * (t - m))).
Proof.
  intros c p buf lai f t sw lw rh ws V FO LA L FR T SW LW RH WS S0 W0 R0.
  destruct (c36_fraction lai L) as [f' [E [FB _]]]. rewrite FR in E. injection E as <-.
  unfold inside. rewrite FO, LA, FR, T, SW, LW, RH, WS. cbn [lift2].
  assert (X : forall k, 0 <= k -> 0 < exp (- (k * lai)) <= 1) by (intros k K; apply exp_le_1; nra).
  set (t' := match nanmean buf with Some m => t - f * (t - (c_tscale c * (t - m) + m - clip (-2) 2 ((m - T0) / 3))) | None => t end).
  exists t', (sw * exp (- (c_ext c * lai))), (lw + f * (5.670374419 / 100000000 * t' ^ 4 - lw)), (Rmin 100 (rh * (1 + f / 10))), (ws * exp (- (0.4 * c_flow c * lai))).
  split.
  { assert (TT : match nanmean buf with Some m => inside_temp c (Some f) m (Some t) | None => Some t end = Some t').
    { unfold t'. destruct (nanmean buf); auto. }
    rewrite TT. cbn [lift2]. f_equal; f_equal.
    - f_equal. f_equal. ring.
    - unfold STEFAN_BOLTZMANN. ring.
    - unfold clip. replace (rh * (1 + 0.1 * f)) with (rh * (1 + f / 10)) by lra.
      assert (0 <= rh * (1 + f / 10)) by (apply Rmult_le_pos; lra). rewrite (Rmax_left _ 0), Rmin_comm by auto. auto.
    - f_equal. f_equal. replace (-0.4) with (- (0.4)) by lra. ring. }
  pose proof (X (c_ext c) ltac:(apply V)) as X1. pose proof (X (0.4 * c_flow c) ltac:(assert (0 <= c_flow c) by apply V; lra)) as X2.
  split; auto. split; [set (e := exp (- (c_ext c * lai))) in *; nra|]. split; auto.
  split; [set (e := exp (- (0.4 * c_flow c * lai))) in *; nra|]. split; auto. split.
  { assert (rh <= rh * (1 + f / 10)) by nra. rmm; lra. }
  split; auto. split; [unfold t'; intros ->; auto|].
  intros m M. exists (clip (-2) 2 ((m - T0) / 3)). split.
  - unfold clip. change T0 with 273.15. rmm; lra.
  - unfold t'. rewrite M. ring.
Qed.
Print Assumptions c36_inside.
(** Outside forests nothing changes. *)
Theorem c36_outside : forall c p buf, m_forest p = false ->
  inside c p buf = MP false (m_lai p) (m_temp p) (m_sw p) (m_lw p) (m_rh p) (m_ws p) buf.
Proof. intros c p buf F. unfold inside. rewrite F. auto. Qed.
Print Assumptions c36_outside.
(** The above-canopy values are those from before, inside the region of interest. *)
Theorem c36_above : forall p old,
  above_canopy true p old = (m_temp p, m_rh p, m_ws p, m_sw p, m_lw p) /\ above_canopy false p old = old.
Proof. auto. Qed.
Print Assumptions c36_above.

(** Grid: each pixel is treated by itself if all forest pixels have a temperature within the last day. *)
Theorem c36_grid : forall c idx ps,
  (forall p, In p ps -> m_forest p = true -> nanmean (set_nth idx (m_temp p) (m_buf p)) <> None) ->
  meteorology c idx ps = Some (map (fun p => inside c p (set_nth idx (m_temp p) (m_buf p))) ps).
Proof.
  intros c idx ps H. unfold meteorology.
  set (fs := filter (fun pb => m_forest (fst pb)) (map (fun p => (p, set_nth idx (m_temp p) (m_buf p))) ps)).
  assert (E : filter (fun pb : mpix * list num => match nanmean (snd pb) with Some _ => true | None => false end) fs = fs).
  { assert (K : forall pb, In pb fs -> (match nanmean (snd pb) with Some _ => true | None => false end) = true).
    { intros [p b] I. unfold fs in I. apply filter_In in I. destruct I as [I F]. apply in_map_iff in I. destruct I as [q [Q I]].
      injection Q as <- <-. cbn [fst snd] in *. specialize (H q I F). destruct (nanmean _); [auto|congruence]. }
    clearbody fs. induction fs as [|x l IH]; auto. cbn [filter]. rewrite (K x (or_introl eq_refl)). f_equal. apply IH. intros pb I. apply K. right; auto. }
  rewrite E, Nat.eqb_refl. cbn [orb]. f_equal. rewrite map_map. auto.
Qed.
Print Assumptions c36_grid.
(** Otherwise the time step fails, unless there is only one forest pixel. *)
Theorem c36_missing_temperature_refuted : forall c idx p q rest, m_forest p = true -> m_forest q = true ->
  nanmean (set_nth idx (m_temp p) (m_buf p)) = None -> meteorology c idx (p :: q :: rest) = None.
Proof.
  intros c idx p q rest P Q N. unfold meteorology. cbn [map filter fst]. rewrite P, Q. cbn [filter snd]. rewrite N.
  set (fs := filter _ (map _ rest)).
  assert (L : (length (filter (fun pb : mpix * list num => match nanmean (snd pb) with Some _ => true | None => false end) fs) <= length fs)%nat).
  { clearbody fs. induction fs as [|x l IH]; cbn; auto. destruct (nanmean (snd x)); cbn; lia. }
  destruct (nanmean (set_nth idx (m_temp q) (m_buf q))); cbn [length];
    match goal with |- (if (?a =? ?b)%nat || _ then _ else _) = _ => destruct (Nat.eqb_spec a b); [cbn in *; lia|cbn; auto] end.
Qed.
Print Assumptions c36_missing_temperature_refuted.
Example c36_missing_temperature_example :
  nanmean (set_nth 0 (m_temp (MP true (Some 4) None (Some 100) (Some 250) (Some 50) (Some 2) (repeat None 8))) (repeat None 8)) = None.
Proof. reflexivity. Qed.

(** The temperature buffer holds exactly the temperatures of the last day. *)
Fixpoint buffer_run (size : nat) (hist : list num) (idx : nat) (buf : list num) : nat * list num :=
  match hist with
  | [] => (idx, buf)
  | t :: h => buffer_run size h (next_idx size idx) (set_nth idx t buf)
  end.
Definition last_n {A} (n : nat) (l : list A) : list A := skipn (length l - n) l.
Lemma set_nth_app {A} (a b : list A) x v : set_nth (length a) v (a ++ x :: b) = a ++ v :: b.
Proof. induction a as [|y a IH]; cbn; [auto|]. f_equal. auto. Qed.
Lemma buffer_inv size hist : (0 < size)%nat -> forall idx buf, length buf = size -> (idx < size)%nat ->
  let r := buffer_run size hist idx buf in
  (fst r < size)%nat /\ length (snd r) = size /\
  skipn (fst r) (snd r) ++ firstn (fst r) (snd r) = last_n size ((skipn idx buf ++ firstn idx buf) ++ hist).
Proof.
  intros S0. induction hist as [|t h IH]; intros idx buf LB LI; cbn [buffer_run].
  - cbn [fst snd]. rewrite app_nil_r. split; auto. split; auto. unfold last_n.
    rewrite app_length, skipn_length, firstn_length, LB. replace (size - idx + Nat.min idx size - size)%nat with 0%nat by lia. auto.
  - assert (SP : exists a x b, buf = a ++ x :: b /\ length a = idx).
    { exists (firstn idx buf). destruct (skipn idx buf) as [|x b] eqn:E.
      - exfalso. pose proof (skipn_length idx buf) as Q. rewrite E in Q. cbn in Q. lia.
      - exists x, b. rewrite <- E, firstn_skipn. split; auto. rewrite firstn_length. lia. }
    destruct SP as [a [x [b [EB LA]]]]. subst buf. rewrite <- LA. rewrite set_nth_app.
    assert (LB' : length (a ++ t :: b) = size) by (rewrite app_length in *; cbn in *; auto).
    assert (LI' : (next_idx size (length a) < size)%nat).
    { unfold next_idx. destruct (Nat.eqb_spec (S (length a)) size); lia. }
    destruct (IH _ _ LB' LI') as [A [B C]]. cbv zeta in *. split; auto. split; auto. rewrite C.
    assert (R1 : skipn (length a) (a ++ x :: b) ++ firstn (length a) (a ++ x :: b) = x :: b ++ a).
    { rewrite skipn_app, firstn_app, skipn_all, firstn_all, Nat.sub_diag. cbn. rewrite app_nil_r. auto. }
    rewrite R1.
    assert (R2 : skipn (next_idx size (length a)) (a ++ t :: b) ++ firstn (next_idx size (length a)) (a ++ t :: b) = b ++ a ++ [t]).
    { unfold next_idx. rewrite app_length in LB. cbn in LB. destruct (Nat.eqb_spec (S (length a)) size) as [E|E].
      - assert (b = []) by (destruct b; [auto|cbn in *; lia]). subst b. cbn. rewrite app_nil_r. auto.
      - replace (a ++ t :: b) with ((a ++ [t]) ++ b) by (rewrite <- app_assoc; auto).
        assert (LT : S (length a) = length (a ++ [t])) by (rewrite app_length; cbn; lia).
        rewrite LT, skipn_app, firstn_app, skipn_all, firstn_all, Nat.sub_diag. cbn. rewrite app_nil_r. auto. }
    rewrite R2. unfold last_n. rewrite !app_length. cbn [length]. rewrite !app_length. cbn [length].
    rewrite app_length in LB. cbn in LB.
    replace ((length b + (length a + 1) + length h - size)%nat) with (length h) by lia.
    replace ((S (length b + length a) + S (length h) - size)%nat) with (S (length h)) by lia.
    cbn [app skipn]. f_equal. rewrite <- !app_assoc. auto.
Qed.
Lemma last_n_app {A} n (a b : list A) : (n <= length b)%nat -> last_n n (a ++ b) = last_n n b.
Proof.
  intros L. unfold last_n. rewrite app_length, skipn_app.
  replace (length a + length b - n - length a)%nat with (length b - n)%nat by lia.
  rewrite skipn_all2 by lia. auto.
Qed.
Definition nan : num := None.
Lemma available_nan k n : available (skipn k (repeat nan n)) = [].
Proof. revert k. induction n as [|n IH]; intros [|k]; cbn; auto. apply (IH 0%nat). Qed.
Theorem c36_buffer : forall dt hist, (0 < dt)%Z ->
  let size := buffer_size dt in
  let r := buffer_run size hist 0 (repeat nan size) in
  Z.of_nat size = Z.max 1 (86400 / dt) /\ length (snd r) = size /\
  Permutation (snd r) (last_n size (repeat nan size ++ hist)) /\
  ((size <= length hist)%nat -> Permutation (snd r) (last_n size hist)) /\
  nanmean (snd r) = nanmean (last_n size hist).
Proof.
  intros dt hist D. cbv zeta. assert (S0 : Z.of_nat (buffer_size dt) = Z.max 1 (86400 / dt)) by (unfold buffer_size; lia).
  set (size := buffer_size dt) in *.
  destruct (buffer_inv size hist ltac:(lia) 0 (repeat nan size) (repeat_length _ _) ltac:(lia)) as [A [B C]]. cbv zeta in *.
  cbn [skipn firstn] in C. rewrite app_nil_r in C. set (r := buffer_run size hist 0 (repeat nan size)) in *.
  assert (P : Permutation (snd r) (last_n size (repeat nan size ++ hist))).
  { rewrite <- C. rewrite <- (firstn_skipn (fst r) (snd r)) at 1. apply Permutation_app_comm. }
  assert (PA : Permutation (available (snd r)) (available (last_n size hist))).
  { transitivity (available (last_n size (repeat nan size ++ hist))); [unfold available; apply Permutation_flat_map; auto|].
    destruct (Nat.le_gt_cases size (length hist)) as [L|L]; [replace (last_n size (repeat nan size ++ hist)) with (last_n size hist) by (symmetry; apply last_n_app; auto); auto|].
    replace (available (last_n size (repeat nan size ++ hist))) with (available (last_n size hist)); auto.
    unfold last_n. rewrite app_length, repeat_length. replace (length hist - size)%nat with 0%nat by lia. cbn [skipn].
    rewrite skipn_app, repeat_length. replace (size + length hist - size - size)%nat with 0%nat by lia. cbn [skipn].
    unfold available. rewrite flat_map_app. fold (available hist). fold (available (skipn (size + length hist - size) (repeat nan size))).
    rewrite available_nan. auto. }
  split; auto. split; auto. split; auto. split; [intros L; replace (last_n size hist) with (last_n size (repeat nan size ++ hist)) by (apply last_n_app; auto); auto|].
  unfold nanmean. pose proof (Permutation_length PA) as PL.
  assert (PS : sumR (available (snd r)) = sumR (available (last_n size hist))).
  { clear - PA. induction PA; rewrite ?sumR_cons; lra. }
  destruct (available (snd r)), (available (last_n size hist)); try discriminate; auto. f_equal. rewrite PS, PL. auto.
Qed.
Print Assumptions c36_buffer.
(** The mean is over the available values; it lies between them. *)
Theorem c36_mean : forall l, (nanmean l = None <-> forall x, ~ In (Some x) l) /\
  forall m, nanmean l = Some m -> exists vs, vs = available l /\ (forall x, In x vs <-> In (Some x) l) /\
    m * INR (length vs) = sumR vs /\ (0 < length vs)%nat.
Proof.
  intros l. assert (AV : forall x, In x (available l) <-> In (Some x) l).
  { intros x. unfold available. rewrite in_flat_map. split; [intros [[v|] [I J]]; [destruct J as [->|[]]; auto|inversion J]|intros I; exists (Some x); cbn; auto]. }
  unfold nanmean. split.
  - split.
    + intros E x I. apply AV in I. destruct (available l); [inversion I|discriminate].
    + intros H. destruct (available l) as [|v t] eqn:E; auto. exfalso. apply (H v). apply AV. left; auto.
  - intros m E. exists (available l). split; auto. split; auto. destruct (available l) as [|v t]; [discriminate|].
    assert (EM : m = sumR (v :: t) / INR (length (v :: t))) by congruence. split; [|cbn; lia]. rewrite EM.
    assert (N : INR (length (v :: t)) <> 0) by (apply not_0_INR; discriminate). field. auto.
Qed.
Print Assumptions c36_mean.
Example c36_buffer_example : buffer_size 10800 = 8%nat /\
  snd (buffer_run 3 [Some 1; Some 2; Some 3; None; Some 5] 0 (repeat None 3)) = [None; Some 5; Some 3].
Proof. split; reflexivity. Qed.
Example c36_inside_example : exists f, canopy_frac (Some 1) = Some f /\ f = 0.55.
Proof.
  destruct (c36_fraction 1 ltac:(lra)) as [f [E [_ [F _]]]]. exists f. split; auto. rewrite F; rewrite ln_1; lra.
Qed.
