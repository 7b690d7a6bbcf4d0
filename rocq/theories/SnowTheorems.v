(** Properties C14-C18: albedo, fresh snow density, compaction, bulk properties, liquid water
    capacity (modules/snow/snow.py). *)
From Verif Require Import Common Constants SnowModel SnowProofs.

(** * C14 Albedo *)
(** A history is a list of (time step, temperature, snowfall). *)
Definition albedo_run (c : albedo_cfg) (h : list (R * num * num)) (a : num) : num :=
  fold_left (fun a x => albedo_step c (fst (fst x)) (snd (fst x)) (snd x) a) h a.

Theorem c14_albedo_range : forall c h a,
  a_min c <= a_max c -> 0 < melting_ts c -> 0 < cold_ts c -> 0 < refresh_snowfall c ->
  Forall (fun x => 0 < fst (fst x) /\ match snd x with Some s => 0 <= s | None => True end) h ->
  a_min c <= a <= a_max c ->
  exists b, albedo_run c h (Some a) = Some b /\ a_min c <= b <= a_max c.
Proof.
  intros c h a H1 H2 H3 H4 Hh. revert a. unfold albedo_run.
  induction Hh as [|[[dt t] s] h [Hd Hs] _ IH]; intros a Ha; cbn [fold_left].
  - exists a; auto.
  - assert (Hok : albedo_cfg_ok c) by (repeat split; assumption).
    pose proof (albedo_step_in c dt t s (Some a) Hok Hd Hs Ha) as B.
    cbn [fst snd albedo_step] in *. apply IH. exact B.
Qed.
Print Assumptions c14_albedo_range.

(** A missing albedo (snow-free pixel) stays missing or becomes the maximum. *)
Theorem c14_albedo_range_missing : forall c dt t s,
  albedo_step c dt t s None = None \/ albedo_step c dt t s None = Some (a_max c).
Proof. intros. cbn. destruct (refresh c); [|auto]. rsplit; auto. Qed.
Print Assumptions c14_albedo_range_missing.

Theorem c14_albedo_no_snowfall_decays : forall c dt t s a,
  a_min c <= a_max c -> 0 < melting_ts c -> 0 < cold_ts c -> 0 < refresh_snowfall c -> 0 < dt ->
  s = None \/ s = Some 0 -> a_min c <= a <= a_max c ->
  exists ts b, albedo_step c dt t s (Some a) = Some b /\ b <= a /\
    b - a_min c = (a - a_min c) * exp (- dt / (3600 * ts)) /\
    ts = (match t with Some x => if Rle_dec T0 x then melting_ts c else cold_ts c | None => cold_ts c end).
Proof.
  intros c dt t s a H1 H2 H3 H4 Hd Hs Ha.
  assert (Hok : albedo_cfg_ok c) by (repeat split; assumption).
  destruct (albedo_no_snow c dt t s a Hok Hd Hs Ha) as [E L].
  exists (match t with Some x => if Rle_dec T0 x then melting_ts c else cold_ts c | None => cold_ts c end).
  exists (albedo_decay c dt t a). split; [exact E|]. split; [exact L|]. split; [|reflexivity].
  unfold albedo_decay, SECONDS_PER_HOUR. destruct t as [x|]; [destruct (Rle_dec T0 x)|];
    (match goal with |- ?m + (a - ?m) * exp ?u - ?m = (a - ?m) * exp ?v => replace v with u by (field; lra) end; lra).
Qed.
Print Assumptions c14_albedo_no_snowfall_decays.

Theorem c14_albedo_full_refresh : forall c dt t x a,
  a_min c <= a_max c -> 0 < melting_ts c -> 0 < cold_ts c -> 0 < refresh_snowfall c -> 0 < dt ->
  refresh_snowfall c / 3600 * dt <= x -> a_min c <= a <= a_max c ->
  albedo_step c dt t (Some x) (Some a) = Some (a_max c).
Proof.
  intros c dt t x a H1 H2 H3 H4 Hd Hx Ha.
  apply albedo_full_refresh; auto; [repeat split; assumption|].
  apply Rmult_le_reg_r with dt; [assumption|].
  unfold SECONDS_PER_HOUR. unfold Rdiv at 2. rewrite Rmult_assoc, Rinv_l by lra. lra.
Qed.
Print Assumptions c14_albedo_full_refresh.

(** Below the refresh rate the binary method changes nothing beyond the decay, and the continuous
    method closes a share of the gap to the maximum that is proportional to the snowfall. *)
Theorem c14_albedo_partial_refresh : forall c dt t x a,
  0 < dt -> 0 < refresh_snowfall c -> 0 <= x < refresh_snowfall c / 3600 * dt ->
  albedo_step c dt t (Some x) (Some a) =
  Some (match refresh c with
        | Binary => albedo_decay c dt t a
        | Continuous => albedo_decay c dt t a
            + (a_max c - albedo_decay c dt t a) * (x / (refresh_snowfall c / 3600 * dt))
        end).
Proof.
  intros c dt t x a Hd Hr Hx. cbn. f_equal. unfold albedo_refresh.
  assert (Hr' : 0 < refresh_snowfall c / 3600 * dt) by (apply Rmult_lt_0_compat; lra).
  destruct (refresh c).
  - destruct (Rle_dec _ _) as [G|G]; [|reflexivity].
    exfalso. assert (refresh_snowfall c / SECONDS_PER_HOUR * dt <= x / dt * dt) by (apply Rmult_le_compat_r; lra).
    unfold SECONDS_PER_HOUR in H. unfold Rdiv in H at 2. rewrite Rmult_assoc, Rinv_l in H by lra. lra.
  - f_equal. f_equal. unfold SECONDS_PER_HOUR.
    replace (x / dt / (refresh_snowfall c / 3600)) with (x / (refresh_snowfall c / 3600 * dt)) by (field; lra).
    apply Rmin_right. apply Rmult_le_reg_r with (refresh_snowfall c / 3600 * dt); [lra|].
    unfold Rdiv at 1. rewrite Rmult_assoc, Rinv_l by lra. lra.
Qed.
Print Assumptions c14_albedo_partial_refresh.

Theorem c14_albedo_decays_faster_when_melting : forall c dt tw tc a,
  a_min c <= a_max c -> 0 < melting_ts c -> melting_ts c <= cold_ts c -> 0 < refresh_snowfall c ->
  0 <= dt -> a_min c <= a -> T0 <= tw -> tc < T0 ->
  albedo_decay c dt (Some tw) a <= albedo_decay c dt (Some tc) a.
Proof. intros. apply albedo_decay_warm_faster; auto. repeat split; auto; lra. Qed.
Print Assumptions c14_albedo_decays_faster_when_melting.

Definition ex_cfg := mkAC 0.55 0.85 200 480 0.5 Continuous.
Example c14_example : exists b,
  albedo_run ex_cfg [(3600, Some 270, None); (3600, Some 275, Some 0.2); (3600, None, Some 3)] (Some 0.7) = Some b
  /\ 0.55 <= b <= 0.85.
Proof.
  apply (c14_albedo_range ex_cfg); cbn; try lra.
  repeat constructor; cbn; lra.
Qed.

(** * C15 Fresh snow density *)
Theorem c15_fresh_density :
  (forall t, 50 <= fresh_snow_density t) /\
  (forall s t, s <= t -> fresh_snow_density (Some s) <= fresh_snow_density (Some t)) /\
  (forall t, t <= 258.15 -> fresh_snow_density (Some t) = 50) /\
  (forall y, 0 <= y -> fresh_snow_density (Some (258.15 + y * y)) = 50 + 1.7 * (y * y * y)) /\
  fresh_snow_density None = 100.
Proof.
  split; [exact fresh_snow_density_min|]. split; [exact fresh_snow_density_mono|].
  split; [intros t H; apply fresh_snow_density_cold; unfold T0; lra|]. split; [|reflexivity].
  intros y H. replace (258.15 + y * y) with (T0 - 15 + y * y) by (unfold T0; lra).
  apply fresh_snow_density_warm, H.
Qed.
Print Assumptions c15_fresh_density.
(** At -6 degC (y = 3) the density is 50 + 1.7 * 27 = 95.9. *)
Example c15_example : fresh_snow_density (Some 267.15) = 95.9.
Proof.
  replace 267.15 with (258.15 + 3 * 3) by lra.
  destruct c15_fresh_density as (_ & _ & _ & H & _). rewrite H by lra. lra.
Qed.

(** * C16 Compaction *)
Definition positive_layer (l : layer) : Prop := 0 <= th l /\ 0 <= ice l /\ 0 <= lwc l /\ (0 < th l -> 0 < ice l).

Theorem c16_anderson : forall n dt air load ls,
  0 <= dt -> 0 <= load -> Forall positive_layer ls ->
  Forall2 (fun l l' => ice l' = ice l /\ lwc l' = lwc l /\ tmp l' = tmp l /\
                       0 <= th l' <= th l /\ (0 < th l -> 0 < th l'))
    ls (compaction_anderson n dt air load ls).
Proof.
  intros n dt air load ls Hd Hl H. pose proof (compaction_anderson_spec dt air Hd n load ls Hl H) as F.
  induction F as [|a b la lb (E1 & E2 & E3 & E4 & B & P) F IH]; constructor; inversion H; subst; auto 10.
Qed.
Print Assumptions c16_anderson.

(** The documented rate, layer by layer: the load on a layer is half its own mass plus everything
    above it (layers without thickness do not count). *)
Theorem c16_anderson_rate : forall dt air load l ls n,
  0 < th l ->
  compaction_anderson (S n) dt air load (l :: ls) =
    mkL ((ice l + lwc l) / dens_anderson dt air (load + (ice l + lwc l) / 2) l) (ice l) (lwc l) (tmp l) (hc l)
    :: compaction_anderson n dt air (load + (ice l + lwc l)) ls.
Proof.
  intros dt air load l ls n H. cbn [compaction_anderson]. destruct (Rlt_dec 0 (th l)); [|lra].
  cbv zeta. f_equal. f_equal. lra.
Qed.
Print Assumptions c16_anderson_rate.

Theorem c16_empirical : forall n dt ts mc mm ls,
  0 <= dt -> 0 < ts -> Forall positive_layer ls ->
  Forall2 (fun l l' => ice l' = ice l /\ lwc l' = lwc l /\ tmp l' = tmp l /\
                       0 <= th l' <= th l /\ (0 < th l -> 0 < th l'))
    ls (compaction_empirical n dt ts mc mm ls).
Proof.
  intros n dt ts mc mm ls Hd Ht H. pose proof (compaction_empirical_spec dt ts mc mm Hd Ht n ls H) as F.
  induction F as [|a b la lb (E1 & E2 & E3 & E4 & B & P) F IH]; constructor; inversion H; subst; auto 10.
Qed.
Print Assumptions c16_empirical.

(** Density after the empirical scheme: relaxes towards the maximum density of the layer (cold or
    melting), layers already denser are left alone. *)
Theorem c16_empirical_density : forall dt ts mc mm l,
  0 <= dt -> 0 < ts -> positive_layer l -> 0 < th l ->
  let maxd := if Rlt_dec (tmp l) T0 then mc else mm in
  let rho l := (ice l + lwc l) / th l in
  let l' := compact_empirical_layer dt ts mc mm l in
  (rho l < maxd -> rho l' - maxd = (rho l - maxd) * exp (- dt / ts) /\ rho l <= rho l' <= maxd) /\
  (maxd <= rho l -> l' = l).
Proof.
  intros dt ts mc mm l Hd Ht (H1 & H2 & H3 & H4) Hp. cbv zeta. specialize (H4 Hp).
  unfold compact_empirical_layer. destruct (Rlt_dec 0 (th l)); [|lra]. cbv zeta.
  set (maxd := if Rlt_dec (tmp l) T0 then mc else mm).
  assert (Hr : 0 < dens_layer l) by (apply Rdiv_lt_0_compat; lra).
  fold (dens_layer l).
  pose proof (exp_neg_bounds dt ts Hd Ht) as He.
  destruct (Rlt_dec (dens_layer l) maxd) as [G|G].
  - assert (E : (ice l + lwc l) / ((ice l + lwc l) / dens_empirical dt ts mc mm l) = maxd + (dens_layer l - maxd) * exp (- dt / ts)).
    { unfold dens_empirical. cbv zeta. fold maxd. destruct (Rlt_dec (dens_layer l) maxd); [|lra]. field.
      assert (dens_layer l <= maxd + (dens_layer l - maxd) * exp (- dt / ts)) by nra. lra. }
    cbn [th ice lwc]. rewrite E. split; [|lra]. intros _. split; [lra|]. nra.
  - split; [lra|reflexivity].
Qed.
Print Assumptions c16_empirical_density.

Example c16_example :
  Forall positive_layer [mkL 0.1 12 0 270 0; mkL 0.2 60 2 273.15 0; mkL 0 0 0 T0 0].
Proof. repeat constructor; cbn; lra. Qed.

(** * C17 Bulk properties *)
Theorem c17_depth_swe : forall ls,
  snow_depth ls = sumR (map th ls) /\
  snow_swe ls = sumR (map ice ls) + sumR (map lwc ls) /\
  update_heat_cap ls = map (fun l => mkL (th l) (ice l) (lwc l) (tmp l) (2100 * ice l + 4180 * lwc l)) ls.
Proof.
  intros ls. split; [reflexivity|]. split; [apply swe_split|].
  apply map_ext. intros l. unfold layer_heat_cap, SPEC_HEAT_CAP_ICE, SPEC_HEAT_CAP_WATER. f_equal. lra.
Qed.
Print Assumptions c17_depth_swe.

Theorem c17_cover_fraction :
  (forall s d, 0 <= d -> 0 <= area_fraction s d <= 1) /\
  (forall s d, 0 <= d -> (area_fraction s d = 0 <-> d = 0)) /\
  (forall s d1 d2, d1 <= d2 -> area_fraction s d1 <= area_fraction s d2) /\
  (forall s d, s <= 0 -> 0 < d -> area_fraction s d = 1) /\
  (forall s d, 0 < s -> area_fraction s d = 1 - 2 / (exp (2 * (d / s)) + 1)).
Proof.
  split; [intros s d H; apply area_fraction_spec, H|].
  split; [intros s d H; apply area_fraction_spec, H|].
  split; [exact area_fraction_mono|]. split.
  - intros s d H1 H2. unfold area_fraction. rsplit; try lra.
  - intros s d H1. unfold area_fraction. destruct (Rlt_dec 0 s); [|lra]. apply tanh_eq.
Qed.
Print Assumptions c17_cover_fraction.

Theorem c17_heat_cap_positive : forall l, 0 <= ice l -> 0 <= lwc l -> 0 < ice l + lwc l -> 0 < layer_heat_cap l.
Proof. intros l H1 H2 H3. unfold layer_heat_cap, SPEC_HEAT_CAP_ICE, SPEC_HEAT_CAP_WATER. nra. Qed.
Print Assumptions c17_heat_cap_positive.
Example c17_example : snow_depth [mkL 0.1 12 0 270 0; mkL 0.2 60 2 273.15 0] = 0.3 /\
  snow_swe [mkL 0.1 12 0 270 0; mkL 0.2 60 2 273.15 0] = 74.
Proof. unfold snow_depth, snow_swe. cbn. rewrite !sumR_cons, !sumR_nil. lra. Qed.

(** * C18 Liquid water capacity *)
Theorem c18_capacity :
  (forall mx l, 0 < th l -> max_lwc PoreVolumeFraction mx l = mx * 1000 * (th l - ice l / 917)) /\
  (forall mx l, th l = 0 -> max_lwc PoreVolumeFraction mx l = 0) /\
  (forall mx l, max_lwc MassFraction mx l = mx * ice l) /\
  (forall m mx l, 0 <= mx -> 0 <= th l -> 0 <= ice l -> ice l <= 917 * th l ->
     0 <= max_lwc m mx l <= mx * Rmax (1000 * th l) (ice l)).
Proof.
  split; [|split; [|split]].
  - intros mx l H. rewrite max_lwc_pore by assumption. unfold WATER_DENSITY, ICE_DENSITY. lra.
  - intros mx l H. apply max_lwc_no_layer; [lra|discriminate].
  - reflexivity.
  - intros m mx l H1 H2 H3 H4. destruct m.
    + destruct (Req_dec (th l) 0) as [Z|Z].
      * rewrite max_lwc_no_layer; [|lra|discriminate]. split; [lra|].
        apply Rmult_le_pos; [assumption|]. rmm; lra.
      * rewrite max_lwc_pore by lra. unfold WATER_DENSITY, ICE_DENSITY. split.
        -- apply Rmult_le_pos; lra.
        -- apply Rmult_le_compat_l; [assumption|]. rmm; lra.
    + cbn. split; [apply Rmult_le_pos; assumption|]. apply Rmult_le_compat_l; [assumption|]. rmm; lra.
Qed.
Print Assumptions c18_capacity.
(** A layer denser than ice (reachable with the Anderson scheme, which has no density limit) has a
    negative capacity. *)
Theorem c18_capacity_nonneg_refuted : exists mx l,
  0 < mx /\ 0 < th l /\ 0 <= ice l /\ max_lwc PoreVolumeFraction mx l < 0.
Proof.
  exists 0.05, (mkL 0.01 10 0 270 0). cbn [th ice]. repeat split; try lra.
  rewrite max_lwc_pore by (cbn; lra). cbn. unfold WATER_DENSITY, ICE_DENSITY. lra.
Qed.
Print Assumptions c18_capacity_nonneg_refuted.
Example c18_example : max_lwc PoreVolumeFraction 0.03 (mkL 0.2 45.85 0 270 0) = 4.5.
Proof. destruct c18_capacity as [H _]. rewrite H by (cbn; lra). cbn. lra. Qed.
