(** C107: the air above and below the canopy. *)
From Verif Require Import Common Constants AtmosphereModel AtmosphereProofs AtmosphereTheorems MeteoFieldsModel MeteoFieldsTheorems CanopyModel CanopyTheorems
  CanopyFieldsModel.

(** ** Specification *)
(** The derived fields belong to air of temperature t and relative humidity h at pressure [press]: vapour pressure, saturation pressure, specific humidity
    and density are those of this air. *)
Definition belongs (d : mder) (t h : R) : Prop :=
  exists press sat vap q rho, md_press d = Some press /\ md_sat d = Some sat /\ md_vap d = Some vap /\ md_spec_hum d = Some q /\ md_density d = Some rho /\
  sat = saturation_vapor_pressure None t /\ 100 * vap = h * sat /\ q * (press - 0.378 * vap) = 0.622 * vap /\ rho * (287.058 * t) = press.

Section Claims.
Variables (c : ccfg) (fuel idx : nat) (old : num * num * num * num * num) (p : MeteoFieldsModel.mpix) (a : air) (t h : R).
Hypothesis EA : earthly p t h.

Lemma derived_belongs d : derive fuel p = Some d -> belongs d t h.
Proof.
  intros D. destruct (c98_fields fuel p d t h EA D) as (press & sat & vap & q & cap & lat & psy & dew & pw & rho & H).
  exists press, sat, vap, q, rho. tauto.
Qed.
(** The derived fields belong to the air above the canopy wherever this is kept, in forests too. *)
Theorem c107_above : forall canopy et r, canopy || et = true -> air_step c fuel canopy et idx old p a = Some r ->
  f_above r = (Some t, Some h, a_ws a, a_sw a, a_lw a) /\ belongs (f_derived r) t h.
Proof.
  intros canopy et r CE E. unfold air_step in E. cbv zeta in E. destruct (derive fuel p) as [d|] eqn:D; [|discriminate]. injection E as <-. cbn [f_above f_derived].
  rewrite CE. cbn. destruct EA as (T & H & _). rewrite T, H. split; [reflexivity|]. exact (derived_belongs d D).
Qed.
(** Without canopy model and outside forests, they also belong to the air at the ground, which is unchanged. *)
Theorem c107_open : forall canopy et r, canopy = false \/ a_forest a = false -> air_step c fuel canopy et idx old p a = Some r ->
  m_temp (f_ground r) = Some t /\ m_rh (f_ground r) = Some h /\ m_sw (f_ground r) = a_sw a /\ m_lw (f_ground r) = a_lw a /\ m_ws (f_ground r) = a_ws a /\
  belongs (f_derived r) t h.
Proof.
  intros canopy et r CE E. unfold air_step in E. destruct (derive fuel p) as [d|] eqn:D; [|discriminate]. destruct EA as (T & H & _).
  assert (X : f_ground r = MP (a_forest a) (a_lai a) (Some t) (a_sw a) (a_lw a) (Some h) (a_ws a) (if canopy then set_nth idx (Some t) (a_buf a) else a_buf a)).
  { injection E as <-. cbn [f_ground]. unfold canopy_pixel. destruct CE as [->|F].
    - cbv iota. rewrite T, H. reflexivity.
    - destruct canopy; cbv iota; rewrite ?T, ?H; [|reflexivity]. unfold inside. cbn. rewrite F. reflexivity. }
  rewrite X. injection E as <-. cbn. repeat (split; [reflexivity|]). exact (derived_belongs d D).
Qed.

Section Forest.
Variables (lai f sw lw ws : R).
Hypothesis (V : valid_cfg c) (FO : a_forest a = true) (LA : a_lai a = Some lai) (L : 0 < lai) (SW : a_sw a = Some sw) (LW : a_lw a = Some lw)
  (WS : a_ws a = Some ws) (S0 : 0 <= sw) (W0 : 0 <= ws).
Hypothesis FR : f = Rmax 0 (Rmin 1 (0.55 + 0.29 * ln lai)).
Lemma frac_eq : canopy_frac (Some lai) = Some f.
Proof.
  destruct (c36_fraction lai L) as (g & E & B & A1 & A2 & A3). rewrite E. f_equal. rewrite FR. unfold Rmax, Rmin.
  destruct (Rle_dec 1 (0.55 + 0.29 * ln lai)); [|]; match goal with |- context [Rle_dec 0 ?x] => destruct (Rle_dec 0 x) end; lra.
Qed.
Lemma ground_eq et r : air_step c fuel true et idx old p a = Some r -> exists t' h', m_temp (f_ground r) = Some t' /\ m_rh (f_ground r) = Some h' /\
  h' = Rmin 100 (h * (1 + f / 10)) /\ (nanmean (set_nth idx (Some t) (a_buf a)) = None -> t' = t) /\
  (forall m, nanmean (set_nth idx (Some t) (a_buf a)) = Some m -> t' = (1 - f) * t + f * (m - Rmax (-2) (Rmin 2 ((m - 273.15) / 3)) + c_tscale c * (t - m))).
Proof.
  intros E. unfold air_step in E. cbv zeta in E. destruct (derive fuel p) as [d|] eqn:D; [|discriminate]. injection E as <-. cbn [f_ground].
  destruct EA as (T & H & _ & HB & _).
  destruct (c36_inside c (canopy_pixel p a) (set_nth idx (m_temp (canopy_pixel p a)) (m_buf (canopy_pixel p a))) lai f t sw lw h ws V FO LA L frac_eq T SW LW H WS S0 W0 ltac:(lra))
    as (t' & sw' & lw' & rh' & ws' & I & _ & _ & _ & _ & R1 & _ & _ & N & M).
  cbn [canopy_pixel m_temp m_buf] in *. rewrite T in *. exists t', rh'. rewrite I. cbn. do 3 (split; [first [reflexivity | assumption]|]).
  split; [exact N|]. intros m Em. destruct (M m Em) as (dl & -> & ->). reflexivity.
Qed.
(** Below the canopy of a forest the derived fields are still those of the air above. They belong to the air below only if the temperature is the same and
    the humidity is the same. *)
Theorem c107_forest : forall et r, air_step c fuel true et idx old p a = Some r -> exists t' h', m_temp (f_ground r) = Some t' /\ m_rh (f_ground r) = Some h' /\
  h' = Rmin 100 (h * (1 + f / 10)) /\ belongs (f_derived r) t h /\ (0 < t' -> (belongs (f_derived r) t' h' <-> t' = t /\ h' = h)).
Proof.
  intros et r E. destruct (ground_eq et r E) as (t' & h' & T' & H' & HR & _ & _). exists t', h'. do 3 (split; [assumption|]).
  assert (B : belongs (f_derived r) t h).
  { unfold air_step in E. cbv zeta in E. destruct (derive fuel p) as [d|] eqn:D; [|discriminate]. injection E as <-. exact (derived_belongs d D). }
  split; [exact B|]. intros T0'. split; [|intros [-> ->]; exact B].
  intros B'. unfold air_step in E. cbv zeta in E. destruct (derive fuel p) as [d|] eqn:D; [|discriminate]. injection E as <-. cbn [f_derived] in *.
  destruct (c98_fields fuel p d t h EA D) as (press & sat & vap & q & cap & lat & psy & dew & pw & rho & A1 & A2 & A3 & A4 & _ & _ & _ & _ & _ & A5 & A6 & A7 & A8 & A9 & A10 & _ & _ & _ & _ & _ & _ & _ & _ & _ & _ & A11 & A12).
  destruct B' as (press' & sat' & vap' & q' & rho' & B1 & B2 & B3 & B4 & B5 & B6 & B7 & B8 & B9).
  rewrite B1 in A1; injection A1 as ->. rewrite B2 in A2; injection A2 as ->. rewrite B3 in A3; injection A3 as ->. rewrite B5 in A5; injection A5 as ->.
  assert (TT : t' = t) by (apply Rmult_eq_reg_l with (287.058 * rho); lra). split; [exact TT|].
  apply Rmult_eq_reg_r with sat; lra.
Qed.
(** In a forest too sparse to shade the air (f = 0) everything still belongs together. *)
Theorem c107_sparse : forall et r, 0.55 + 0.29 * ln lai <= 0 -> air_step c fuel true et idx old p a = Some r ->
  m_temp (f_ground r) = Some t /\ m_rh (f_ground r) = Some h /\ belongs (f_derived r) t h.
Proof.
  intros et r SP E. assert (F0 : f = 0) by (rewrite FR; unfold Rmax, Rmin; destruct (Rle_dec 1 (0.55 + 0.29 * ln lai)); [lra|]; destruct (Rle_dec 0 (0.55 + 0.29 * ln lai)); lra).
  destruct (ground_eq et r E) as (t' & h' & T' & H' & HR & N & M). destruct EA as (T & H & _ & HB & _).
  assert (t' = t). { destruct (nanmean (set_nth idx (Some t) (a_buf a))) as [m|]; [|auto]. rewrite (M m eq_refl), F0. lra. }
  assert (h' = h). { rewrite HR, F0. replace (h * (1 + 0 / 10)) with h by lra. apply Rmin_right. lra. }
  clear HR N M. subst t' h'. split; [assumption|]. split; [assumption|].
  unfold air_step in E. cbv zeta in E. destruct (derive fuel p) as [d|] eqn:D; [|discriminate]. injection E as <-. exact (derived_belongs d D).
Qed.
(** In all other forests they do not, unless the air is saturated: the humidity below the canopy is higher, the vapour pressure and specific humidity, with
    which the energy balance there is computed, are those from above. *)
Theorem c107_below_refuted : forall et r, 0 < 0.55 + 0.29 * ln lai -> h < 100 -> air_step c fuel true et idx old p a = Some r ->
  exists t' h', m_temp (f_ground r) = Some t' /\ m_rh (f_ground r) = Some h' /\ h < h' /\ (0 < t' -> ~ belongs (f_derived r) t' h').
Proof.
  intros et r SP HH E. destruct (c107_forest et r E) as (t' & h' & T' & H' & HR & _ & B). exists t', h'. do 2 (split; [assumption|]).
  assert (F0 : 0 < f) by (rewrite FR; unfold Rmax, Rmin; destruct (Rle_dec 1 (0.55 + 0.29 * ln lai)); [destruct (Rle_dec 0 1); lra|]; destruct (Rle_dec 0 (0.55 + 0.29 * ln lai)); lra).
  destruct EA as (_ & _ & _ & HB & _).
  assert (K : h < h') by (rewrite HR; apply Rmin_glb_lt; [lra|nra]). split; [exact K|]. intros P Q. apply (B P) in Q. lra.
Qed.
(** With air at the freezing point during the last day, temperature and density stay right below the canopy; the vapour pressure is too low there. *)
Theorem c107_vapour_refuted : forall et r, 0 < 0.55 + 0.29 * ln lai -> h < 100 -> t = 273.15 -> nanmean (set_nth idx (Some t) (a_buf a)) = Some 273.15 ->
  air_step c fuel true et idx old p a = Some r ->
  exists h' vap, m_temp (f_ground r) = Some t /\ m_rh (f_ground r) = Some h' /\ md_vap (f_derived r) = Some vap /\ 100 * vap < h' * saturation_vapor_pressure None t.
Proof.
  intros et r SP HH TF NM E. destruct (ground_eq et r E) as (t' & h' & T' & H' & HR & _ & M). specialize (M _ NM).
  assert (X : Rmax (-2) (Rmin 2 ((273.15 - 273.15) / 3)) = 0) by (replace ((273.15 - 273.15) / 3) with 0 by lra; rewrite Rmin_right, Rmax_right; lra).
  assert (TT : t' = t) by (rewrite M, X, TF; ring). clear M. subst t'.
  destruct (c107_below_refuted et r SP HH E) as (t'' & h'' & E1 & E2 & K & _). clear H' HR h'.
  assert (D : derive fuel p = Some (f_derived r)) by (unfold air_step in E; destruct (derive fuel p) as [d|]; [injection E as <-; reflexivity|discriminate]).
  destruct (c98_fields fuel p (f_derived r) t h EA D) as (press & sat & vap & q & cap & lat & psy & dew & pw & rho & _ & _ & A3 & _ & _ & _ & _ & _ & _ & _ & _ & A7 & A8 & A9 & _).
  exists h'', vap. split; [assumption|]. split; [assumption|]. split; [assumption|]. rewrite <- A7. nra.
Qed.
End Forest.
End Claims.
Print Assumptions c107_above.
Print Assumptions c107_open.
Print Assumptions c107_forest.
Print Assumptions c107_sparse.
Print Assumptions c107_below_refuted.
Print Assumptions c107_vapour_refuted.
(** A forest with an effective LAI of 4 at 1500 m, first time step of a run, 0 degrees and 60 %: the hypotheses are met and the step ends. *)
Lemma ln4_pos : 0 < 0.55 + 0.29 * ln 4.
Proof. assert (0 < ln 4) by (rewrite <- ln_1; apply ln_increasing; lra). lra. Qed.
Definition demo_pixel : MeteoFieldsModel.mpix := MPIX 1500 (Some 273.15) (Some 60) (Some 0) 1.
Definition demo_air : air := AIR true (Some 4) (Some 300) (Some 250) (Some 2) (repeat None 24).
Example c107_example : earthly demo_pixel 273.15 60 /\ valid_cfg demo_cc /\ a_forest demo_air = true /\ 0 < 0.55 + 0.29 * ln 4 /\
  nanmean (set_nth 0 (Some 273.15) (a_buf demo_air)) = Some 273.15.
Proof.
  split; [unfold earthly; cbn; repeat split; lra|]. split; [apply demo_cc_valid|]. split; [reflexivity|]. split; [apply ln4_pos|].
  unfold demo_air. cbn [a_buf repeat set_nth]. unfold nanmean. cbn [available flat_map app length]. f_equal. unfold sumR. cbn [fold_right INR]. lra.
Qed.
