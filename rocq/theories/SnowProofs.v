(** Proofs about modules/snow/snow.py. *)
From Verif Require Import Common Constants SnowModel.

(** * Albedo *)
Definition albedo_cfg_ok (c : albedo_cfg) : Prop :=
  a_min c <= a_max c /\ 0 < melting_ts c /\ 0 < cold_ts c /\ 0 < refresh_snowfall c.

Lemma exp_decay_bounds ts dt : 0 < ts -> 0 <= dt -> 0 < exp (-1 / ts * dt) <= 1.
Proof.
  intros Ht Hd. split; [apply exp_pos|].
  rewrite <- exp_0. assert (-1 / ts * dt <= 0).
  { unfold Rdiv. assert (0 < / ts) by (apply Rinv_0_lt_compat; lra). nra. }
  destruct (Req_dec (-1 / ts * dt) 0) as [->|N]; [lra|]. left. apply exp_increasing. lra.
Qed.

Lemma albedo_decay_bounds c dt temp a : albedo_cfg_ok c -> 0 <= dt -> a_min c <= a ->
  a_min c <= albedo_decay c dt temp a <= a.
Proof.
  intros (H1 & H2 & H3 & H4) Hd Ha. unfold albedo_decay.
  cbv zeta. match goal with |- context [exp (-1 / ?t * dt)] => set (ts := t) end.
  assert (Hts : 0 < ts).
  { unfold ts, SECONDS_PER_HOUR. match goal with |- context [if ?b then _ else _] => destruct b end; nra. }
  pose proof (exp_decay_bounds ts dt Hts Hd). nra.
Qed.

Definition snowfall_ok (s : num) : Prop := match s with Some x => 0 <= x | None => True end.
Definition snow_rate (dt : R) (s : num) : R := match s with Some x => x / dt | None => 0 end.
Lemma snow_rate_nonneg dt s : 0 < dt -> snowfall_ok s -> 0 <= snow_rate dt s.
Proof.
  intros Hd H. destruct s as [x|]; cbn in *; [|lra].
  apply Rmult_le_pos; [assumption|]. apply Rlt_le, Rinv_0_lt_compat, Hd.
Qed.

Lemma albedo_refresh_bounds c dt s a : albedo_cfg_ok c -> 0 < dt -> snowfall_ok s ->
  a_min c <= a <= a_max c ->
  a <= albedo_refresh c dt s a <= a_max c.
Proof.
  intros (H1 & H2 & H3 & H4) Hd Hs Ha. unfold albedo_refresh.
  fold (snow_rate dt s). pose proof (snow_rate_nonneg dt s Hd Hs) as Hr.
  set (rr := refresh_snowfall c / SECONDS_PER_HOUR).
  assert (Hrr : 0 < rr) by (unfold rr, SECONDS_PER_HOUR; lra).
  cbv zeta. destruct (refresh c).
  - rsplit; lra.
  - assert (0 <= snow_rate dt s / rr).
    { apply Rmult_le_pos; [assumption|]. apply Rlt_le, Rinv_0_lt_compat, Hrr. }
    assert (0 <= Rmin 1 (snow_rate dt s / rr) <= 1) by (rmm; lra).
    nra.
Qed.

Definition albedo_in (c : albedo_cfg) (a : num) : Prop :=
  match a with Some x => a_min c <= x <= a_max c | None => True end.

Lemma albedo_step_in c dt temp s a : albedo_cfg_ok c -> 0 < dt -> snowfall_ok s ->
  albedo_in c a -> albedo_in c (albedo_step c dt temp s a).
Proof.
  intros Hc Hd Hs Ha. pose proof Hc as (H1 & _). destruct a as [x|]; cbn in *.
  - pose proof (albedo_decay_bounds c dt temp x Hc (Rlt_le _ _ Hd) ltac:(lra)).
    pose proof (albedo_refresh_bounds c dt s (albedo_decay c dt temp x) Hc Hd Hs ltac:(lra)). lra.
  - destruct (refresh c); [|exact I]. rsplit; cbn; lra.
Qed.

(** Without snowfall the albedo does not increase; in the limit of a full refresh it is [a_max]. *)
Lemma albedo_no_snow c dt temp s a : albedo_cfg_ok c -> 0 < dt -> s = None \/ s = Some 0 ->
  a_min c <= a <= a_max c ->
  albedo_step c dt temp s (Some a) = Some (albedo_decay c dt temp a) /\
  albedo_decay c dt temp a <= a.
Proof.
  intros Hc Hd Hs Ha. split; [|apply albedo_decay_bounds; auto; lra].
  cbn. f_equal. unfold albedo_refresh. fold (snow_rate dt s).
  assert (E : snow_rate dt s = 0) by (destruct Hs as [->| ->]; cbn; [reflexivity|unfold Rdiv; ring]).
  rewrite E. destruct Hc as (_ & _ & _ & H4).
  assert (0 < refresh_snowfall c / SECONDS_PER_HOUR) by (unfold SECONDS_PER_HOUR; lra).
  destruct (refresh c); cbv zeta.
  - rsplit; lra.
  - unfold Rdiv at 1. rewrite Rmult_0_l. rewrite Rmin_right by lra. lra.
Qed.

Lemma albedo_full_refresh c dt temp x a : albedo_cfg_ok c -> 0 < dt ->
  refresh_snowfall c / SECONDS_PER_HOUR <= x / dt ->
  a_min c <= a <= a_max c ->
  albedo_step c dt temp (Some x) (Some a) = Some (a_max c).
Proof.
  intros Hc Hd Hs Ha. cbn. f_equal. unfold albedo_refresh. destruct Hc as (_ & _ & _ & H4).
  assert (Hr : 0 < refresh_snowfall c / SECONDS_PER_HOUR) by (unfold SECONDS_PER_HOUR; lra).
  destruct (refresh c); cbv zeta.
  - rsplit; lra.
  - rewrite Rmin_left; [lra|].
    apply Rmult_le_reg_r with (refresh_snowfall c / SECONDS_PER_HOUR); [assumption|].
    unfold Rdiv at 2. rewrite Rmult_assoc, Rinv_l by lra. lra.
Qed.

(** Melting snow loses albedo faster than cold snow. *)
Lemma albedo_decay_warm_faster c dt tw tc a : albedo_cfg_ok c -> 0 <= dt -> a_min c <= a ->
  melting_ts c <= cold_ts c -> T0 <= tw -> tc < T0 ->
  albedo_decay c dt (Some tw) a <= albedo_decay c dt (Some tc) a.
Proof.
  intros (H1 & H2 & H3 & H4) Hd Ha Hts Hw Hc. unfold albedo_decay. rsplit. cbv zeta.
  apply Rplus_le_compat_l. apply Rmult_le_compat_l; [lra|].
  assert (-1 / (SECONDS_PER_HOUR * melting_ts c) * dt <= -1 / (SECONDS_PER_HOUR * cold_ts c) * dt).
  { unfold SECONDS_PER_HOUR. apply Rmult_le_compat_r; [assumption|].
    unfold Rdiv. assert (/ (3600 * cold_ts c) <= / (3600 * melting_ts c)); [|lra].
    apply Rinv_le_contravar; lra. }
  destruct (Req_dec (-1 / (SECONDS_PER_HOUR * melting_ts c) * dt) (-1 / (SECONDS_PER_HOUR * cold_ts c) * dt)) as [->|N]; [lra|].
  left. apply exp_increasing. lra.
Qed.

(** * Fresh snow density *)
Lemma fresh_snow_density_min t : 50 <= fresh_snow_density t.
Proof.
  destruct t as [t|]; cbn; [|lra]. pose proof (Rmax_r t (T0 - 15)).
  assert (0 <= (Rmax t (T0 - 15) - (T0 - 15)) * sqrt (Rmax t (T0 - 15) - (T0 - 15))).
  { apply Rmult_le_pos; [lra|apply sqrt_pos]. }
  lra.
Qed.
Lemma x_sqrt_mono a b : 0 <= a -> a <= b -> a * sqrt a <= b * sqrt b.
Proof.
  intros Ha Hb. apply Rmult_le_compat; auto; [apply sqrt_pos|]. apply sqrt_le_1; lra.
Qed.
Lemma fresh_snow_density_mono s t : s <= t -> fresh_snow_density (Some s) <= fresh_snow_density (Some t).
Proof.
  intros H. cbn. pose proof (Rmax_r s (T0 - 15)).
  assert (Rmax s (T0 - 15) <= Rmax t (T0 - 15)) by (rmm; lra).
  pose proof (x_sqrt_mono (Rmax s (T0 - 15) - (T0 - 15)) (Rmax t (T0 - 15) - (T0 - 15)) ltac:(lra) ltac:(lra)).
  lra.
Qed.
Lemma fresh_snow_density_cold t : t <= T0 - 15 -> fresh_snow_density (Some t) = 50.
Proof. intros H. cbn. rewrite Rmax_right by assumption. replace (T0 - 15 - (T0 - 15)) with 0 by lra. lra. Qed.
(** The parameterisation of the literature: 1.7 (T + 15)^1.5 above -15 degC. *)
Lemma fresh_snow_density_warm y : 0 <= y -> fresh_snow_density (Some (T0 - 15 + y * y)) = 50 + 1.7 * (y * y * y).
Proof.
  intros H. cbn. rewrite Rmax_left by nra. replace (T0 - 15 + y * y - (T0 - 15)) with (y * y) by lra.
  rewrite sqrt_square by assumption. lra.
Qed.
Lemma fresh_snow_density_below_ice t : t <= T0 + 45 -> fresh_snow_density (Some t) <= ICE_DENSITY.
Proof.
  intros H. apply Rle_trans with (fresh_snow_density (Some (T0 - 15 + 7.9 * 7.9))).
  - apply fresh_snow_density_mono. lra.
  - rewrite fresh_snow_density_warm by lra.
    unfold ICE_DENSITY. lra.
Qed.

(** * Compaction *)
(** [l'] is [l] compacted: contents and temperature unchanged, not thicker. *)
Definition compacted (l l' : layer) : Prop :=
  ice l' = ice l /\ lwc l' = lwc l /\ tmp l' = tmp l /\ hc l' = hc l /\
  0 <= th l' <= th l /\ (0 < th l -> 0 < th l').
Definition has_mass (l : layer) : Prop :=
  0 <= th l /\ 0 <= ice l /\ 0 <= lwc l /\ (0 < th l -> 0 < ice l).

Lemma compacted_refl l : 0 <= th l -> compacted l l.
Proof. unfold compacted. intuition lra. Qed.

Lemma compacted_by_density l rho : has_mass l -> 0 < th l -> dens_layer l <= rho ->
  compacted l (mkL ((ice l + lwc l) / rho) (ice l) (lwc l) (tmp l) (hc l)).
Proof.
  intros (Ht & Hi & Hw & Hp) Hth Hr. specialize (Hp Hth).
  assert (Hm : 0 < ice l + lwc l) by lra.
  assert (Hd : 0 < dens_layer l) by (apply Rdiv_lt_0_compat; lra).
  assert (0 < (ice l + lwc l) / rho) by (apply Rdiv_lt_0_compat; lra).
  unfold compacted; cbn. repeat split; auto; try lra.
  apply Rmult_le_reg_r with rho; [lra|]. unfold Rdiv. rewrite Rmult_assoc, Rinv_l by lra.
  apply Rle_trans with (th l * dens_layer l).
  - unfold dens_layer. right. field. lra.
  - apply Rmult_le_compat_l; lra.
Qed.

Lemma anderson_rate_nonneg air load l : has_mass l -> 0 < th l -> 0 <= load -> 0 <= anderson_rate air load l.
Proof.
  intros (Ht & Hi & Hw & Hp) Hth Hl. specialize (Hp Hth). unfold anderson_rate. destruct air as [ta|]; [|lra].
  assert (Hd : 0 < dens_layer l) by (apply Rdiv_lt_0_compat; lra).
  cbv zeta. apply Rmult_le_pos; [lra|]. apply Rplus_le_le_0_compat.
  - apply Rmult_le_pos; [lra|apply Rlt_le, exp_pos].
  - repeat apply Rmult_le_pos.
    + destruct (Rlt_dec 0 (lwc l)); lra.
    + apply Rlt_le, exp_pos.
    + destruct (Rlt_dec 150 (dens_layer l)); [apply Rlt_le, exp_pos|lra].
Qed.

Lemma compaction_anderson_spec dt air : 0 <= dt -> forall n load ls,
  0 <= load -> Forall has_mass ls ->
  Forall2 compacted ls (compaction_anderson n dt air load ls).
Proof.
  intros Hdt. induction n as [|n IH]; intros load ls Hl H.
  - cbn. induction H as [|l ls Hl' _ IH]; constructor; auto. apply compacted_refl, Hl'.
  - destruct ls as [|l ls]; [constructor|]. inversion H as [|? ? Hm Hms]; subst.
    cbn [compaction_anderson]. pose proof Hm as (Ht & Hi & Hw & Hp).
    destruct (Rlt_dec 0 (th l)) as [G|G].
    + constructor.
      * apply compacted_by_density; auto. unfold dens_anderson.
        pose proof (anderson_rate_nonneg air (load + (ice l + lwc l) / 2) l Hm G ltac:(lra)).
        assert (0 <= dt / SECONDS_PER_HOUR) by (unfold SECONDS_PER_HOUR; lra).
        cbv zeta. nra.
      * apply IH; [lra|assumption].
    + constructor; [apply compacted_refl; assumption|]. apply IH; assumption.
Qed.

Lemma exp_neg_bounds dt ts : 0 <= dt -> 0 < ts -> 0 < exp (- dt / ts) <= 1.
Proof.
  intros Hd Ht. pose proof (exp_decay_bounds ts dt Ht Hd).
  replace (- dt / ts) with (-1 / ts * dt) by (field; lra). assumption.
Qed.

Lemma dens_empirical_bounds dt ts mc mm l : 0 <= dt -> 0 < ts ->
  let maxd := if Rlt_dec (tmp l) T0 then mc else mm in
  dens_layer l <= dens_empirical dt ts mc mm l <= Rmax (dens_layer l) maxd.
Proof.
  intros Hd Ht. cbv zeta. unfold dens_empirical. cbv zeta.
  set (maxd := if Rlt_dec (tmp l) T0 then mc else mm).
  pose proof (exp_neg_bounds dt ts Hd Ht).
  destruct (Rlt_dec (dens_layer l) maxd) as [G|G]; [|rmm; lra].
  rewrite Rmax_right by lra. nra.
Qed.

Lemma compact_empirical_layer_spec dt ts mc mm l : 0 <= dt -> 0 < ts -> has_mass l ->
  compacted l (compact_empirical_layer dt ts mc mm l).
Proof.
  intros Hd Ht Hm. unfold compact_empirical_layer. destruct (Rlt_dec 0 (th l)) as [G|G];
    [|apply compacted_refl, Hm].
  cbv zeta. destruct (Rlt_dec _ _); [|apply compacted_refl, Hm].
  apply compacted_by_density; auto. apply dens_empirical_bounds; assumption.
Qed.

Lemma compaction_empirical_spec dt ts mc mm : 0 <= dt -> 0 < ts -> forall n ls,
  Forall has_mass ls -> Forall2 compacted ls (compaction_empirical n dt ts mc mm ls).
Proof.
  intros Hd Ht. induction n as [|n IH]; intros ls H.
  - cbn. induction H as [|l ls Hl' _ IH]; constructor; auto. apply compacted_refl, Hl'.
  - destruct ls as [|l ls]; [constructor|]. inversion H; subst.
    cbn [compaction_empirical]. constructor; [apply compact_empirical_layer_spec; assumption|auto].
Qed.

(** The empirical scheme keeps the ice density below a bound on the maximum densities. *)
Lemma compact_empirical_dense dt ts mc mm rho l : 0 <= dt -> 0 < ts -> has_mass l ->
  mc <= rho -> mm <= rho -> ice l <= rho * th l ->
  ice (compact_empirical_layer dt ts mc mm l) <= rho * th (compact_empirical_layer dt ts mc mm l).
Proof.
  intros Hd Ht (H1 & H2 & H3 & H4) Hc Hm Hr. unfold compact_empirical_layer.
  destruct (Rlt_dec 0 (th l)) as [G|G]; [|assumption]. specialize (H4 G).
  cbv zeta. set (maxd := if Rlt_dec (tmp l) T0 then mc else mm).
  destruct (Rlt_dec (dens_layer l) maxd) as [G2|G2]; [|assumption]. cbn.
  pose proof (dens_empirical_bounds dt ts mc mm l Hd Ht) as [B1 B2]. fold maxd in B2.
  assert (Hd0 : 0 < dens_layer l) by (apply Rdiv_lt_0_compat; lra).
  rewrite Rmax_right in B2 by lra.
  assert (Hmd : maxd <= rho) by (unfold maxd; destruct (Rlt_dec (tmp l) T0); lra).
  set (r := dens_empirical dt ts mc mm l) in *.
  apply Rle_trans with (ice l + lwc l); [lra|].
  apply Rmult_le_reg_r with (/ rho); [apply Rinv_0_lt_compat; lra|].
  replace (rho * ((ice l + lwc l) / r) * / rho) with ((ice l + lwc l) * / r) by (field; lra).
  apply Rmult_le_compat_l; [lra|]. apply Rinv_le_contravar; lra.
Qed.

(** * Bulk properties *)
Lemma tanh_bounds x : 0 <= x -> 0 <= tanh x < 1.
Proof.
  intros H. unfold tanh, sinh, cosh.
  pose proof (exp_pos x). pose proof (exp_pos (- x)).
  assert (exp (- x) <= exp x).
  { destruct (Req_dec x 0) as [->|N]; [rewrite Ropp_0; lra|]. left. apply exp_increasing. lra. }
  assert (Hc : 0 < (exp x + exp (- x)) / 2) by lra.
  split.
  - apply Rmult_le_pos; [lra|]. apply Rlt_le, Rinv_0_lt_compat, Hc.
  - apply Rmult_lt_reg_r with ((exp x + exp (- x)) / 2); [assumption|].
    unfold Rdiv at 1. rewrite Rmult_assoc, Rinv_l by lra. lra.
Qed.
Lemma tanh_eq x : tanh x = 1 - 2 / (exp (2 * x) + 1).
Proof.
  unfold tanh, sinh, cosh. pose proof (exp_pos x). pose proof (exp_pos (2 * x)).
  assert (E : exp (2 * x) = exp x * exp x) by (replace (2 * x) with (x + x) by lra; apply exp_plus).
  rewrite E, exp_Ropp. field. split; nra.
Qed.
Lemma tanh_incr x y : x < y -> tanh x < tanh y.
Proof.
  intros H. rewrite !tanh_eq.
  assert (exp (2 * x) < exp (2 * y)) by (apply exp_increasing; lra).
  pose proof (exp_pos (2 * x)).
  assert (/ (exp (2 * y) + 1) < / (exp (2 * x) + 1)).
  { apply Rinv_lt_contravar; [nra|lra]. }
  unfold Rdiv. lra.
Qed.
Lemma tanh_0 : tanh 0 = 0.
Proof. rewrite tanh_eq, Rmult_0_r, exp_0. lra. Qed.

Lemma area_fraction_spec scale d : 0 <= d ->
  0 <= area_fraction scale d <= 1 /\ (area_fraction scale d = 0 <-> d = 0).
Proof.
  intros Hd. unfold area_fraction. destruct (Rlt_dec 0 scale) as [Hs|Hs].
  - assert (Hq : 0 <= d / scale).
    { apply Rmult_le_pos; [assumption|]. apply Rlt_le, Rinv_0_lt_compat, Hs. }
    pose proof (tanh_bounds _ Hq). split; [lra|]. split.
    + intros E. destruct (Req_dec d 0) as [|N]; [assumption|exfalso].
      assert (0 < d / scale) by (apply Rdiv_lt_0_compat; lra).
      pose proof (tanh_incr 0 (d / scale) ltac:(assumption)). rewrite tanh_0 in *. lra.
    + intros ->. unfold Rdiv. rewrite Rmult_0_l. apply tanh_0.
  - rsplit; split; try lra; split; intros; lra.
Qed.
Lemma area_fraction_mono scale d1 d2 : d1 <= d2 -> area_fraction scale d1 <= area_fraction scale d2.
Proof.
  intros H. unfold area_fraction. destruct (Rlt_dec 0 scale) as [Hs|Hs]; [|rsplit; lra].
  destruct (Req_dec d1 d2) as [->|N]; [lra|]. left. apply tanh_incr.
  apply Rmult_lt_compat_r; [apply Rinv_0_lt_compat, Hs|lra].
Qed.
Lemma swe_split ls : snow_swe ls = sumR (map ice ls) + sumR (map lwc ls).
Proof. apply sumR_map_plus. Qed.

(** * Liquid water capacity *)
Lemma max_lwc_pore mx l : 0 < th l ->
  max_lwc PoreVolumeFraction mx l = mx * (WATER_DENSITY * (th l - ice l / ICE_DENSITY)).
Proof.
  intros H. unfold max_lwc. destruct (Rlt_dec 0 (th l)); [|lra].
  unfold ICE_DENSITY, WATER_DENSITY. field. lra.
Qed.
Lemma max_lwc_no_layer m mx l : th l <= 0 -> (m = MassFraction -> ice l = 0) -> max_lwc m mx l = 0.
Proof.
  intros H Hi. unfold max_lwc. destruct m.
  - destruct (Rlt_dec 0 (th l)); [lra|]. lra.
  - rewrite Hi by reflexivity. lra.
Qed.
