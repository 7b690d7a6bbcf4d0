(** C49 actual shortwave irradiance, C51 longwave irradiance. *)
From Verif Require Import Common Constants AtmosphereModel AtmosphereProofs AtmosphereTheorems InterpModel InterpProofs InterpTheorems RadiationModel.
Open Scope R_scope.

(** * C49: choice of the method *)
Definition some_cloud (l : list rst) := exists s, In s l /\ r_cloud s <> None.
Definition some_rad (ext : bool) (l : list rst) := exists s, In s l /\ r_sw s <> None /\
  (r_in_grid s = true \/ (ext = true /\ r_in_ext s = true /\ r_temp s <> None /\ r_hum s <> None)).
Definition some_hum (l : list rst) := exists s, In s l /\ r_temp s <> None /\ r_hum s <> None.

Lemma has_iff : forall x, has x = true <-> x <> None.
Proof. intros [x|]; cbn; split; congruence. Qed.
Lemma is_nil_filter : forall {A} (f : A -> bool) l, is_nil (filter f l) = false <-> exists s, In s l /\ f s = true.
Proof.
  intros A f l. destruct (filter f l) as [|a t] eqn:E; cbn; split; try discriminate; auto.
  - intros [s [I F]]. assert (X : In s (filter f l)) by (apply filter_In; auto). rewrite E in X. inversion X.
  - intros _. exists a. apply filter_In. rewrite E. left. auto.
Qed.
Lemma cloud_st : forall l, is_nil (cloud_stations l) = false <-> some_cloud l.
Proof.
  intros l. unfold cloud_stations. rewrite is_nil_filter. unfold some_cloud. split; intros [s [I F]]; exists s; (split; [auto|]).
  - apply has_iff. auto.
  - apply has_iff. auto.
Qed.
Lemma hum_st : forall l, is_nil (hum_stations l) = false <-> some_hum l.
Proof.
  intros l. unfold hum_stations. rewrite is_nil_filter. unfold some_hum. split; intros [s [I F]]; exists s; (split; [auto|]).
  - rewrite andb_true_iff, !has_iff in F. auto.
  - rewrite andb_true_iff, !has_iff. auto.
Qed.
Lemma rad_st : forall ext l, is_nil (rad_stations l) && (negb ext || is_nil (ext_rad_stations l)) = false <-> some_rad ext l.
Proof.
  intros ext l. rewrite andb_false_iff, orb_false_iff, negb_false_iff. unfold rad_stations, ext_rad_stations. rewrite !is_nil_filter. unfold some_rad.
  split.
  - intros [[s [I F]]|[E [s [I F]]]]; exists s.
    + rewrite andb_true_iff, has_iff in F. tauto.
    + rewrite !andb_true_iff, !has_iff in F. tauto.
  - intros [s [I [F [G|G]]]].
    + left. exists s. rewrite andb_true_iff, has_iff. auto.
    + destruct (r_in_grid s) eqn:Q.
      * left. exists s. rewrite andb_true_iff, has_iff. auto.
      * right. split; [tauto|]. exists s. rewrite !andb_true_iff, !has_iff, Q. cbn. tauto.
Qed.

(** The configured method is used whenever there are the measurements it needs; otherwise, if the fallback is allowed, the next
    one in the order prescribed, radiation, humidity, previous value. Radiation is replaced at night by the configured night method. *)
Theorem c49_method : forall (c : cloud_config) (l : list rst) (sun ext : bool),
  let fb : Prop := cl_fallback c = true in
  let use_hum : cloud_method -> Prop := fun m => (m = Humidity /\ (some_hum l \/ ~ fb)) \/ (m = Constant /\ ~ some_hum l /\ fb) in
  let use_rad : cloud_method -> Prop := fun m =>
    if sun then (m = ClearSkyFraction /\ (some_rad ext l \/ ~ fb)) \/ (~ some_rad ext l /\ fb /\ use_hum m)
    else match cl_night c with NightHumidity => use_hum m | NightConstant => m = Constant end in
  forall m, select_method c l sun ext = m <->
  match cl_method c with
  | Prescribed => (m = Prescribed /\ (some_cloud l \/ ~ fb)) \/ (~ some_cloud l /\ fb /\ use_rad m)
  | ClearSkyFraction => use_rad m
  | Humidity => use_hum m
  | Constant => m = Constant
  end.
Proof.
  intros c l sun ext fb use_hum use_rad m. unfold select_method, step_prescribed, step_clear_sky, step_humidity.
  assert (H1 := cloud_st l). assert (H2 := hum_st l). assert (H3 := rad_st ext l).
  subst use_rad use_hum fb. cbv beta zeta.
  destruct (is_nil (cloud_stations l)), (is_nil (hum_stations l)), (is_nil (rad_stations l) && (negb ext || is_nil (ext_rad_stations l))), (cl_fallback c), sun, (cl_method c), (cl_night c);
    cbn; intuition congruence.
Qed.
Print Assumptions c49_method.
(** With fallback allowed, the data the chosen method needs exist. *)
Theorem c49_method_has_data : forall c l sun ext, cl_fallback c = true ->
  match select_method c l sun ext with
  | Prescribed => some_cloud l | ClearSkyFraction => sun = true /\ some_rad ext l | Humidity => some_hum l | Constant => True end.
Proof.
  intros c l sun ext F. destruct (c49_method c l sun ext (select_method c l sun ext)) as [H _]. specialize (H eq_refl).
  destruct (select_method c l sun ext), (cl_method c), sun, (cl_night c); intuition congruence.
Qed.
Print Assumptions c49_method_has_data.

(** * C49: the irradiance *)
(** In every case: cloud factor and fraction between 0 and 1 and consistent with each other, irradiance between 0 and that of a clear
    sky. *)
Theorem c49_bounded : forall c l sun ext prev clear x y f n sw,
  (forall p, prev = Some p -> 0 <= p <= 1) -> (forall s, clear = Some s -> 0 <= s) ->
  shortwave c l sun ext prev clear x y = (f, n, sw) ->
  (forall v, f = Some v -> 0 <= v <= 1 /\ exists a, n = Some a /\ 0 <= a <= 1 /\ (0.352 <= v -> v = 1 - 0.233 * a - 0.415 * (a * a)) /\ (v <= 0.352 -> a = 1)) /\
  (f = None -> n = None) /\
  (sw = None <-> clear = None \/ f = None) /\
  (forall s v w, clear = Some s -> f = Some v -> sw = Some w -> w = s * v /\ 0 <= w <= s).
Proof.
  intros c l sun ext prev clear x y f n sw HP HC E. unfold shortwave in E.
  assert (B : forall v, cloud_factor c l sun ext prev x y = Some v -> 0 <= v <= 1).
  { intros v. unfold cloud_factor. destruct (select_method c l sun ext).
    1-3: destruct (idw _ x y 2 0) as [q|]; cbn; intros Q; inversion Q; unfold clip; rmm; lra.
    destruct prev as [p|]; intros Q; inversion Q; subst; [apply HP; auto|lra]. }
  destruct (cloud_factor c l sun ext prev x y) as [v|] eqn:F; inversion E; subst; clear E.
  - specialize (B v eq_refl). destruct (c27_factor_of_fraction v ltac:(lra)) as [a [A1 [A2 A3]]].
    repeat split; auto; try discriminate.
    + inversion H; subst; lra.
    + inversion H; subst; lra.
    + inversion H; subst v0. exists a. destruct (c27_ranges v) as [_ R]. specialize (R a A1). repeat split; try lra; auto.
      intros G. specialize (A2 G). destruct (c27_factor_values a ltac:(lra)) as [Q _]. lra.
    + destruct clear; [discriminate|auto].
    + intros [-> |Q]; [auto|discriminate].
    + destruct clear; congruence.
    + subst clear. inversion H1. inversion H0. subst. specialize (HC s eq_refl). nra.
    + subst clear. inversion H1. inversion H0. subst. specialize (HC s eq_refl). nra.
  - repeat split; auto; try discriminate.
    intros _. destruct clear; auto.
Qed.
Print Assumptions c49_bounded.
(** Along every history, starting without cloud factor. *)
Record rstep := RS { rs_stations : list rst; rs_sun : bool; rs_ext : bool; rs_clear : num }.
Definition rrun (c : cloud_config) (x y : R) (steps : list rstep) : num * num * num :=
  fold_left (fun st s => shortwave c (rs_stations s) (rs_sun s) (rs_ext s) (fst (fst st)) (rs_clear s) x y) steps (None, None, None).
Theorem c49_history : forall c x y steps f n sw, Forall (fun s => forall v, rs_clear s = Some v -> 0 <= v) steps ->
  rrun c x y steps = (f, n, sw) ->
  (forall v, f = Some v -> 0 <= v <= 1) /\ (forall a, n = Some a -> 0 <= a <= 1) /\
  (forall w, sw = Some w -> exists s v, w = s * v /\ f = Some v /\ 0 <= w <= s).
Proof.
  intros c x y steps. unfold rrun. induction steps as [|s t IH] using rev_ind; intros f n sw F E.
  - cbn in E. inversion E. subst. repeat split; discriminate.
  - rewrite fold_left_app in E. cbn in E. apply Forall_app in F. destruct F as [F1 F2]. inversion F2 as [|a b F3 _]. subst.
    match type of E with context [fst (fst ?q)] => destruct q as [[f0 n0] w0] end. cbn [fst] in E. specialize (IH _ _ _ F1 eq_refl). destruct IH as [I1 _].
    destruct (c49_bounded _ _ _ _ _ _ _ _ _ _ _ I1 F3 E) as [A [B [C D]]]. repeat split.
    + apply A. auto.
    + apply A. auto.
    + destruct f as [v|]; [|rewrite (B eq_refl) in H; discriminate]. destruct (A v eq_refl) as [_ [a' [Q [R _]]]]. assert (a' = a) by congruence. subst. lra.
    + destruct f as [v|]; [|rewrite (B eq_refl) in H; discriminate]. destruct (A v eq_refl) as [_ [a' [Q [R _]]]]. assert (a' = a) by congruence. subst. lra.
    + intros w ->. destruct f as [v|].
      * destruct (rs_clear s) as [q|] eqn:Q.
        -- exists q, v. destruct (D q v w eq_refl eq_refl eq_refl). auto.
        -- destruct C as [_ C]. specialize (C (or_introl eq_refl)). discriminate.
      * destruct C as [_ C]. specialize (C (or_intror eq_refl)). discriminate.
Qed.
Print Assumptions c49_history.

(** Without any data: the previous cloud factor, initially 0.75. *)
Theorem c49_previous : forall c l sun ext prev x y, select_method c l sun ext = Constant ->
  cloud_factor c l sun ext prev x y = Some (match prev with Some f => f | None => 0.75 end).
Proof. intros. unfold cloud_factor. rewrite H. destruct prev; auto. Qed.
Print Assumptions c49_previous.
(** Stations which count, with their cloud factors. *)
Definition cloud_obs (c : cloud_config) (l : list rst) (ext : bool) (m : cloud_method) (px py v : R) : Prop :=
  exists s, In s l /\ px = r_x s /\ py = r_y s /\
  match m with
  | Prescribed => exists p, r_cloud s = Some p /\ v = cloud_factor_from_cloud_fraction (p / 100)
  | ClearSkyFraction => exists w k, r_sw s = Some w /\ k <> 0 /\ v = w / k /\
      ((r_in_grid s = true /\ r_clear s = Some k) \/
       (ext = true /\ r_in_grid s = false /\ r_in_ext s = true /\ r_temp s <> None /\ r_hum s <> None /\ r_ext_clear s = Some k))
  | Humidity => exists t h, r_temp s = Some t /\ r_hum s = Some h /\
      v = cloud_factor_from_cloud_fraction (cloud_fraction_from_humidity t h (r_alt s) (cl_lapse c) (cl_dew_lapse c) (cl_level c * 100) (cl_sat c) (cl_efold c))
  | Constant => False end.
Lemma usable_points : forall f l px py v, usable (points f l) px py v <-> exists s, In s l /\ px = r_x s /\ py = r_y s /\ f s = Some v.
Proof.
  intros f l px py v. unfold usable, points. rewrite in_map_iff. split.
  - intros [s [E I]]. exists s. inversion E; subst. rewrite H2. auto.
  - intros [s [I [-> [-> E]]]]. exists s. rewrite E. auto.
Qed.
Lemma ratio_some : forall a b v, ratio a b = Some v <-> exists w k, a = Some w /\ b = Some k /\ k <> 0 /\ v = w / k.
Proof.
  intros [w|] [k|] v; unfold ratio, numdiv; cbn; try (split; [discriminate|intros [w' [k' [A [B _]]]]; discriminate]).
  destruct (Req_EM_T k 0) as [e|n].
  - split; [discriminate|]. intros [w' [k' [A [B [C _]]]]]. inversion B; subst. tauto.
  - split; [intros E; inversion E; subst; exists w, k; auto|]. intros [w' [k' [A [B [C D]]]]]. inversion A; inversion B; subst; auto.
Qed.
Lemma usable_app : forall a b px py v, usable (a ++ b) px py v <-> usable a px py v \/ usable b px py v.
Proof. intros. unfold usable. apply in_app_iff. Qed.
Lemma obs_usable : forall c l ext m px py v, usable (cloud_points c l ext m) px py v <-> cloud_obs c l ext m px py v.
Proof.
  intros c l ext m px py v. unfold cloud_points, cloud_obs. destruct m.
  - rewrite usable_points. unfold cloud_stations, cloud_value. split; intros [s H]; exists s; rewrite filter_In, has_iff in *.
    + destruct H as [[I F] [A [B C]]]. destruct (r_cloud s) as [p|]; [|discriminate]. inversion C. repeat split; auto. exists p. auto.
    + destruct H as [I [A [B [p [C D]]]]]. rewrite C. subst v. repeat split; auto. discriminate.
  - rewrite usable_app, usable_points. unfold rad_stations. split.
    + intros [[s [I [A [B C]]]]|U].
      * exists s. rewrite filter_In, andb_true_iff in I. apply ratio_some in C. destruct C as [w [k [C1 [C2 [C3 C4]]]]].
        repeat split; try tauto. exists w, k. intuition.
      * destruct ext; [|inversion U]. apply usable_points in U. destruct U as [s [I [A [B C]]]]. exists s. unfold ext_rad_stations in I.
        rewrite filter_In, !andb_true_iff, !has_iff, negb_true_iff in I. apply ratio_some in C. destruct C as [w [k [C1 [C2 [C3 C4]]]]].
        repeat split; try tauto. exists w, k. intuition.
    + intros [s [I [A [B [w [k [C1 [C2 [C3 [[D1 D2]|D]]]]]]]]]].
      * left. exists s. rewrite filter_In, andb_true_iff, has_iff. repeat split; auto; [congruence|]. apply ratio_some. exists w, k. auto.
      * right. destruct D as [-> D]. apply usable_points. exists s. unfold ext_rad_stations. rewrite filter_In, !andb_true_iff, !has_iff, negb_true_iff.
        repeat split; try tauto; [congruence|]. apply ratio_some. exists w, k. intuition.
  - rewrite usable_points. unfold hum_stations, hum_value. split; intros [s H]; exists s; rewrite filter_In, andb_true_iff, !has_iff in *.
    + destruct H as [[I F] [A [B C]]]. destruct (r_temp s) as [t|]; [|discriminate]. destruct (r_hum s) as [h|]; [|discriminate]. inversion C.
      repeat split; auto. exists t, h. auto.
    + destruct H as [I [A [B [t [h [C [D E]]]]]]]. rewrite C, D. subst v. repeat split; auto; discriminate.
  - split; [intros U; inversion U|intros [s [_ [_ [_ []]]]]].
Qed.
(** Measured data are interpolated: the cloud factor lies between those of the stations, ... *)
Theorem c49_between : forall c l sun ext prev x y v lo hi, select_method c l sun ext <> Constant ->
  cloud_factor c l sun ext prev x y = Some v ->
  (forall px py w, cloud_obs c l ext (select_method c l sun ext) px py w -> lo <= Rmin (Rmax w 0) 1 <= hi) -> lo <= v <= hi.
Proof.
  intros c l sun ext prev x y v lo hi N E H. unfold cloud_factor in E. set (m := select_method c l sun ext) in *.
  assert (K : option_map (clip 0 1) (idw (cloud_points c l ext m) x y 2 0) = Some v) by (destruct m; auto; congruence).
  clear E. destruct (idw (cloud_points c l ext m) x y 2 0) as [q|] eqn:Q; [|discriminate]. inversion K as [K'].
  assert (U : exists px py w, cloud_obs c l ext m px py w).
  { destruct (Classical_Prop.classic (exists px py w, cloud_obs c l ext m px py w)) as [Y|Y]; auto. exfalso.
    assert (Z : idw (cloud_points c l ext m) x y 2 0 = None); [|congruence]. apply c32_missing_iff. intros px py w V. apply Y.
    exists px, py, w. apply obs_usable. auto. }
  destruct U as [px [py [w U]]]. assert (L := H _ _ _ U).
  assert (B : forall a b, (forall px py w, cloud_obs c l ext m px py w -> a <= w <= b) -> a <= q <= b).
  { intros a b G. apply (c32_bounded _ _ _ _ _ _ a b Q). intros. apply (G px0 py0 w0). apply obs_usable. auto. }
  assert (L1 : lo <= 1 /\ 0 <= hi) by (revert L; rmm; lra). clear U L w px py. unfold clip in *.
  assert (B1 : forall b, (forall px py w, cloud_obs c l ext m px py w -> w <= b) -> q <= b).
  { intros b G. destruct (Classical_Prop.classic (q <= b)) as [Y|Y]; auto.
    assert (FB : exists a, forall px py w, cloud_obs c l ext m px py w -> a <= w).
    { exists (fold_right (fun p a => Rmin (snd p) a) 0 (finite_pts (cloud_points c l ext m))). intros px py w G'. apply obs_usable in G'. apply finite_in in G'.
      induction (finite_pts _) as [|p t IH]; [inversion G'|]. cbn. destruct G' as [-> |G']; cbn; [apply Rmin_l|]. eapply Rle_trans; [apply Rmin_r|auto]. }
    destruct FB as [a FB]. destruct (B a b) as [_ Z]; auto. intros. split; eauto. }
  assert (B2 : forall a, (forall px py w, cloud_obs c l ext m px py w -> a <= w) -> a <= q).
  { intros a G. assert (FB : exists b, forall px py w, cloud_obs c l ext m px py w -> w <= b).
    { exists (fold_right (fun p b => Rmax (snd p) b) 0 (finite_pts (cloud_points c l ext m))). intros px py w G'. apply obs_usable in G'. apply finite_in in G'.
      induction (finite_pts _) as [|p t IH]; [inversion G'|]. cbn. destruct G' as [-> |G']; cbn; [apply Rmax_l|]. eapply Rle_trans; [|apply Rmax_r]. auto. }
    destruct FB as [b FB]. destruct (B a b) as [Z _]; auto. intros. split; eauto. }
  split.
  - destruct (Rle_dec lo 0); [rmm; lra|]. assert (lo <= q); [|rmm; lra]. apply B2. intros px py w G. specialize (H _ _ _ G). revert H. rmm; lra.
  - destruct (Rle_dec 1 hi); [rmm; lra|]. assert (q <= hi); [|rmm; lra]. apply B1. intros px py w G. specialize (H _ _ _ G). revert H. rmm; lra.
Qed.
Print Assumptions c49_between.
(** ... is weighted by the inverse squared distance, ... *)
Theorem c49_interpolated : forall c l sun ext prev x y m, m = select_method c l sun ext -> m <> Constant ->
  (forall px py w, cloud_obs c l ext m px py w -> (px, py) <> (x, y)) -> (exists px py w, cloud_obs c l ext m px py w) ->
  exists q, cloud_factor c l sun ext prev x y = Some (Rmin (Rmax q 0) 1) /\
    q * sumR (map (fun p => / ((x - fst (fst p)) ^ 2 + (y - snd (fst p)) ^ 2)) (finite_pts (cloud_points c l ext m)))
    = sumR (map (fun p => snd p / ((x - fst (fst p)) ^ 2 + (y - snd (fst p)) ^ 2)) (finite_pts (cloud_points c l ext m))).
Proof.
  intros c l sun ext prev x y m -> N A [px [py [w U]]]. set (m := select_method c l sun ext) in *.
  assert (F : forall p, In p (finite_pts (cloud_points c l ext m)) -> 0 < (x - fst (fst p)) * (x - fst (fst p)) + (y - snd (fst p)) * (y - snd (fst p)) + 0 * 0).
  { intros [[a b] v] I. cbn. apply finite_in, obs_usable in I. specialize (A _ _ _ I). assert (x - a <> 0 \/ y - b <> 0).
    { destruct (Req_dec x a); [|left; lra]. right. intros Z. apply A. f_equal; lra. }
    pose proof (Rle_0_sqr (x - a)). pose proof (Rle_0_sqr (y - b)). unfold Rsqr in *.
    destruct H as [H|H]; pose proof (Rsqr_pos_lt _ H); unfold Rsqr in *; lra. }
  destruct (idw (cloud_points c l ext m) x y 2 0) as [q|] eqn:Q.
  - exists q. split.
    + unfold cloud_factor. fold m. unfold clip in *. destruct m; try congruence; rewrite Q; reflexivity.
    + apply c32_weighted_mean in Q.
      * assert (P : forall p, In p (finite_pts (cloud_points c l ext m)) ->
          Rpower (sqrt ((x - fst (fst p)) * (x - fst (fst p)) + (y - snd (fst p)) * (y - snd (fst p)) + 0 * 0)) 2 = (x - fst (fst p)) ^ 2 + (y - snd (fst p)) ^ 2).
        { intros p I. specialize (F p I). replace 2 with (INR 2) by (cbn; lra). rewrite Rpower_pow by (apply sqrt_lt_R0; auto).
          rewrite pow2_sqrt by lra. ring. }
        rewrite (map_ext_in _ (fun p => / ((x - fst (fst p)) ^ 2 + (y - snd (fst p)) ^ 2))) in Q by (intros p I; rewrite P; auto).
        rewrite (map_ext_in (fun p => snd p / _) (fun p => snd p / ((x - fst (fst p)) ^ 2 + (y - snd (fst p)) ^ 2))) in Q by (intros p I; rewrite P; auto).
        auto.
      * intros a b v I. apply finite_in in I. specialize (F _ I). cbn [fst snd] in F. intros Z. apply sqrt_lt_R0 in F. lra.
      * exists px, py, w. apply obs_usable. auto.
  - exfalso. apply (proj1 (c32_missing_iff _ _ _ _ _)) with (px := px) (py := py) (v := w) in Q. apply Q, obs_usable. auto.
Qed.
Print Assumptions c49_interpolated.
(** ... and reproduces the measured irradiance at a station which does not report more than the clear sky can give. *)
Theorem c49_at_station : forall c l ext prev s w k, In s l -> select_method c l true ext = ClearSkyFraction ->
  r_in_grid s = true -> r_sw s = Some w -> r_clear s = Some k -> 0 < k -> 0 <= w <= k ->
  (forall px py v, cloud_obs c l ext ClearSkyFraction px py v -> (px, py) = (r_x s, r_y s) -> v = w / k) ->
  snd (shortwave c l true ext prev (Some k) (r_x s) (r_y s)) = Some w.
Proof.
  intros c l ext prev s w k I M G W K P B U. unfold shortwave, cloud_factor. rewrite M.
  rewrite (c32_exact _ _ _ 2 (w / k)).
  - cbn [option_map snd]. assert (0 <= w / k <= 1).
    { split; [apply Rmult_le_pos; [lra|apply Rlt_le, Rinv_0_lt_compat; lra]|]. apply (Rmult_le_reg_r k); [lra|]. unfold Rdiv. rewrite Rmult_assoc, Rinv_l by lra. lra. }
    f_equal. unfold clip. replace (Rmin (Rmax (w / k) 0) 1) with (w / k) by (rmm; lra). field. lra.
  - apply obs_usable. exists s. repeat split; auto. exists w, k. repeat split; auto. lra.
  - intros v V. apply obs_usable in V. apply (U _ _ _ V). auto.
Qed.
Print Assumptions c49_at_station.
(** With fallback, the cloud factor is available if every radiation station has a positive clear-sky irradiance. *)
Theorem c49_available : forall c l sun ext prev x y, cl_fallback c = true ->
  (forall s, In s l -> r_sw s <> None -> if r_in_grid s then exists k, r_clear s = Some k /\ 0 < k else exists k, r_ext_clear s = Some k /\ 0 < k) ->
  cloud_factor c l sun ext prev x y <> None.
Proof.
  intros c l sun ext prev x y F H. pose proof (c49_method_has_data c l sun ext F) as D. unfold cloud_factor.
  set (m := select_method c l sun ext) in *.
  assert (Y : (exists px py v, cloud_obs c l ext m px py v) -> idw (cloud_points c l ext m) x y 2 0 <> None).
  { intros [px [py [v O]]] E. apply (proj1 (c32_missing_iff _ _ _ _ _)) with (px := px) (py := py) (v := v) in E. apply E, obs_usable. auto. }
  destruct m; [| | |destruct prev; discriminate].
  1-3: assert (X : forall o : num, o <> None -> option_map (clip 0 1) o <> None) by (intros [q|]; [discriminate|congruence]); apply X, Y; clear X.
  - destruct D as [s [I C]]. destruct (r_cloud s) as [p|] eqn:E; [|congruence]. do 3 eexists. exists s. repeat split; auto. exists p. split; auto.
  - destruct D as [_ [s [I [W C]]]]. specialize (H s I W). destruct (r_sw s) as [w|] eqn:E; [|congruence]. destruct (r_in_grid s) eqn:G.
    + destruct H as [k [K P]]. do 3 eexists. exists s. repeat split; auto. exists w, k. repeat split; auto. lra.
    + destruct H as [k [K P]]. do 3 eexists. exists s. repeat split; auto. exists w, k. repeat split; auto; [lra|]. right. destruct C as [C|C]; [congruence|]. tauto.
  - destruct D as [s [I [A B]]]. destruct (r_temp s) as [t|] eqn:E; [|congruence]. destruct (r_hum s) as [h|] eqn:E'; [|congruence].
    do 3 eexists. exists s. repeat split; auto. exists t, h. auto.
Qed.
Print Assumptions c49_available.
(** Stations in the grid but outside the region of interest count as radiation stations although they have no clear-sky irradiance:
    neither radiation nor the humidity data are used, and the irradiance is missing. *)
Theorem c49_available_refuted : exists c l clear x y,
  cl_fallback c = true /\ some_hum l /\ cloud_factor c l true false None x y = None /\ snd (shortwave c l true false None (Some clear) x y) = None.
Proof.
  exists (CCF ClearSkyFraction NightHumidity true 700 1 80 (-0.0065) (-0.005)), [RST 0 0 2000 (Some 280) (Some 70) None (Some 400) true None false None], 800, 100, 100.
  split; auto. split; [exists (RST 0 0 2000 (Some 280) (Some 70) None (Some 400) true None false None); cbn; repeat split; auto; discriminate|]. split; reflexivity.
Qed.
Print Assumptions c49_available_refuted.
Example c49_example : exists c l, cl_fallback c = true /\ select_method c l true false = ClearSkyFraction /\
  (forall prev, snd (shortwave c l true false prev (Some 800) 10 20) = Some 400) /\
  (forall prev x y, cloud_factor c l true false prev x y = Some (1 / 2)) /\
  select_method c l false false = Constant /\ cloud_factor c l false false (Some (1 / 2)) 10 20 = Some (1 / 2).
Proof.
  set (s := RST 10 20 2000 (Some 280) None None (Some 400) true (Some 800) false None).
  exists (CCF ClearSkyFraction NightHumidity true 700 1 80 (-0.0065) (-0.005)), [s]. split; auto. split; [reflexivity|].
  assert (H : forall prev x y, cloud_factor (CCF ClearSkyFraction NightHumidity true 700 1 80 (-0.0065) (-0.005)) [s] true false prev x y = Some (1 / 2)).
  { intros prev x y. destruct (cloud_factor _ [s] true false prev x y) as [v|] eqn:E.
    - f_equal. apply (c49_between _ _ _ _ _ _ _ _ (1/2) (1/2)) in E; [lra|discriminate|].
      intros px py w [q [[<- |[]] [_ [_ [a [k [A [K [-> [[_ C]|[Z _]]]]]]]]]]]; [|discriminate]. cbn in A, C. inversion A; inversion C; subst. rmm; lra.
    - exfalso. apply c49_available in E; auto. intros q [<- |[]] _. cbn. exists 800. split; auto. lra. }
  split; [|split; [exact H|split; reflexivity]].
  intros prev. unfold shortwave. rewrite H. cbn [snd]. f_equal. lra.
Qed.

(** * C51: longwave irradiance *)
Lemma exp_4 : forall x, 0 <= x -> 1 + x + 3 / 8 * (x * x) <= exp x.
Proof.
  intros x H. destruct (Req_dec x 0) as [-> |N]; [rewrite exp_0; lra|].
  assert (A : 1 + x / 4 <= exp (x / 4)) by (apply Rlt_le, exp_ineq1; lra).
  replace (exp x) with ((exp (x / 4) * exp (x / 4)) * (exp (x / 4) * exp (x / 4))).
  2: { rewrite <- !exp_plus. f_equal. field. }
  set (e := exp (x / 4)) in *. clearbody e. assert (B : (1 + x / 4) * (1 + x / 4) <= e * e) by nra.
  assert (C : ((1 + x / 4) * (1 + x / 4)) * ((1 + x / 4) * (1 + x / 4)) <= (e * e) * (e * e)) by nra.
  assert (0 <= x * x * x) by (apply Rmult_le_pos; nra). assert (0 <= x * x * x * x) by (apply Rmult_le_pos; nra). nra.
Qed.
(** The clear-sky emissivity is between 0 and 1 and increases with the precipitable water. *)
Theorem c51_emissivity : forall w, 0 <= w -> 0 < clear_sky_emissivity w < 1.
Proof.
  intros w H. unfold clear_sky_emissivity. set (cm := w / 10). assert (C : 0 <= cm) by (unfold cm; lra). clearbody cm.
  assert (S0 : 0 <= 1.2 + 3 * cm) by lra. pose proof (sqrt_sqrt _ S0) as SS. pose proof (sqrt_pos (1.2 + 3 * cm)) as SP. set (s := sqrt (1.2 + 3 * cm)) in *. clearbody s.
  pose proof (exp_4 s SP) as E. rewrite exp_Ropp. pose proof (exp_pos s) as P. split.
  - assert ((1 + cm) * / exp s < 1); [|lra]. apply (Rmult_lt_reg_r (exp s)); auto. rewrite Rmult_assoc, Rinv_l by lra. nra.
  - assert (0 < (1 + cm) * / exp s); [|lra]. apply Rmult_lt_0_compat; [lra|apply Rinv_0_lt_compat; auto].
Qed.
Print Assumptions c51_emissivity.
Theorem c51_emissivity_increasing : forall w w', 0 <= w -> w < w' -> clear_sky_emissivity w < clear_sky_emissivity w'.
Proof.
  intros w w' H L. unfold clear_sky_emissivity. set (c := w / 10). set (c' := w' / 10). assert (C : 0 <= c) by (unfold c; lra). assert (C' : c < c') by (unfold c, c'; lra). clearbody c c'.
  pose proof (sqrt_sqrt (1.2 + 3 * c) ltac:(lra)) as SS. pose proof (sqrt_pos (1.2 + 3 * c)) as SP.
  pose proof (sqrt_sqrt (1.2 + 3 * c') ltac:(lra)) as SS'. pose proof (sqrt_lt_1 (1.2 + 3 * c) (1.2 + 3 * c') ltac:(lra) ltac:(lra) ltac:(lra)) as SL.
  set (s := sqrt (1.2 + 3 * c)) in *. set (s' := sqrt (1.2 + 3 * c')) in *. clearbody s s'.
  pose proof (exp_4 (s' - s) ltac:(lra)) as E. rewrite !exp_Ropp. pose proof (exp_pos s) as P. pose proof (exp_pos s') as P'.
  assert (X : exp s' = exp s * exp (s' - s)) by (rewrite <- exp_plus; f_equal; lra).
  assert ((1 + c') * / exp s' < (1 + c) * / exp s); [|lra].
  apply (Rmult_lt_reg_r (exp s')); auto. rewrite (Rmult_assoc _ _ (exp s')), Rinv_l by lra. rewrite X.
  replace ((1 + c) * / exp s * (exp s * exp (s' - s))) with ((1 + c) * exp (s' - s)) by (field; lra).
  apply Rlt_le_trans with ((1 + c) * (1 + (s' - s) + 3 / 8 * ((s' - s) * (s' - s)))); [|apply Rmult_le_compat_l; lra].
  replace c with ((s * s - 1.2) / 3) by lra. replace c' with ((s' * s' - 1.2) / 3) by lra. set (d := s' - s). replace s' with (s + d) by (unfold d; lra).
  assert (0 < d) by (unfold d; lra). clearbody d. assert (1.2 <= s * s) by lra. clear - H0 H1 SP.
  assert (0 < (s * s / 3 - 2 / 3 * s + 0.6) * d) by (apply Rmult_lt_0_compat; [nra|auto]).
  assert (0 < (0.6 + s * s / 3) * (3 / 8) - 1 / 3) by lra. assert (0 < ((0.6 + s * s / 3) * (3 / 8) - 1 / 3) * (d * d)) by (apply Rmult_lt_0_compat; nra).
  nra.
Qed.
Print Assumptions c51_emissivity_increasing.
(** The clear-sky formula: a dry sky. *)
Theorem c51_emissivity_dry : clear_sky_emissivity 0 = 1 - exp (- sqrt 1.2).
Proof. unfold clear_sky_emissivity. replace (0 / 10) with 0 by lra. replace (1.2 + 3 * 0) with 1.2 by lra. ring. Qed.
Print Assumptions c51_emissivity_dry.

Lemma pow4_pos : forall x, 0 <= x ^ 4.
Proof. intros. replace (x ^ 4) with ((x * x) * (x * x)) by ring. apply Rle_0_sqr. Qed.
Lemma sigma_pos : 0 < STEFAN_BOLTZMANN.
Proof. unfold STEFAN_BOLTZMANN. lra. Qed.
(** The share of snow-free pixels. *)
Theorem c51_rock_fraction : forall swes, swes <> [] ->
  0 <= rock_fraction swes <= 1 /\ (rock_fraction swes = 0 <-> forall s, In s swes -> s <> 0) /\ (rock_fraction swes = 1 <-> forall s, In s swes -> s = 0).
Proof.
  intros swes N. unfold rock_fraction. set (f := fun s => if Req_EM_T s 0 then true else false).
  assert (P : 0 < INR (length swes)) by (destruct swes; [congruence|apply lt_0_INR; cbn; lia]).
  assert (L : forall l, (length (filter f l) <= length l)%nat) by (induction l as [|a t IH]; cbn; [lia|destruct (f a); cbn; lia]).
  assert (D : forall a b, 0 < b -> a / b = 0 <-> a = 0).
  { intros a b B. split; intros E; [|subst; lra]. apply (Rmult_eq_compat_r b) in E. unfold Rdiv in E. rewrite Rmult_assoc, Rinv_l in E by lra. lra. }
  assert (D1 : forall a b, 0 < b -> a / b = 1 <-> a = b).
  { intros a b B. split; intros E; [|subst; field; lra]. apply (Rmult_eq_compat_r b) in E. unfold Rdiv in E. rewrite Rmult_assoc, Rinv_l in E by lra. lra. }
  split; [split|split].
  - apply Rmult_le_pos; [apply pos_INR|apply Rlt_le, Rinv_0_lt_compat; auto].
  - apply (Rmult_le_reg_r (INR (length swes))); auto. unfold Rdiv. rewrite Rmult_assoc, Rinv_l by lra. rewrite Rmult_1_l, Rmult_1_r. apply le_INR, L.
  - rewrite D by auto. split.
    + intros E s I Z. assert (X : In s (filter f swes)) by (apply filter_In; split; auto; unfold f; destruct (Req_EM_T s 0); congruence).
      destruct (filter f swes); [inversion X|]. apply (INR_eq _ 0%nat) in E. discriminate.
    + intros H. assert (filter f swes = []); [|rewrite H0; auto]. clear - H. induction swes as [|a t IH]; auto. cbn. unfold f at 1. destruct (Req_EM_T a 0).
      * exfalso. apply (H a); cbn; auto.
      * apply IH. intros. apply H. right. auto.
  - rewrite D1 by auto. split.
    + intros E. apply INR_eq in E. clear - E L. induction swes as [|a t IH]; [intros s []|]. cbn in E. unfold f at 1 in E. destruct (Req_EM_T a 0) as [e|n].
      * cbn in E. intros s [<- |I]; auto.
      * pose proof (L t). lia.
    + intros H. f_equal. clear - H. induction swes as [|a t IH]; auto. cbn. unfold f at 1. destruct (Req_EM_T a 0); [|exfalso; apply n, H; cbn; auto].
      cbn. f_equal. apply IH. intros. apply H. right. auto.
Qed.
Print Assumptions c51_rock_fraction.
(** Sum of three parts: black body radiation of the air times emissivity of the clear and of the cloudy sky, in the proportion of the
    squared cloud fraction, through the visible sky; and black body radiation of the snow-free slopes, warmer than the air by 0.01 K
    per W m-2, and of the snow-covered ones, from the rest. *)
Theorem c51_longwave : forall pw t svf n sw ts rock, let B := fun x => STEFAN_BOLTZMANN * x ^ 4 in
  longwave pw t svf n sw ts rock =
    svf * ((1 - n ^ 2) * clear_sky_emissivity pw + n ^ 2 * 0.976) * B t + (1 - svf) * (rock * B (t + sw / 100) + (1 - rock) * B ts).
Proof. intros. unfold longwave, B. replace (0.01 * sw) with (sw / 100) by lra. ring. Qed.
Print Assumptions c51_longwave.
(** Positive, and at most the radiation of a black body with the highest of the temperatures of air, slopes and surface. *)
Theorem c51_range : forall pw t svf n sw ts rock tmax, 0 <= pw -> 0 < t -> 0 <= svf <= 1 -> 0 <= n <= 1 -> 0 <= sw -> 0 < ts -> 0 <= rock <= 1 ->
  t + 0.01 * sw <= tmax -> ts <= tmax -> 0 < longwave pw t svf n sw ts rock <= STEFAN_BOLTZMANN * tmax ^ 4.
Proof.
  intros pw t svf n sw ts rock tmax PW T V N W S0 K M1 M2. rewrite c51_longwave. cbv zeta. replace (0.01 * sw) with (sw / 100) in M1 by lra.
  pose proof (c51_emissivity pw PW) as E. set (e := clear_sky_emissivity pw) in *. clearbody e.
  pose proof sigma_pos as SG. set (g := STEFAN_BOLTZMANN) in *. clearbody g.
  assert (Q : forall a, 0 < a -> a <= tmax -> 0 < g * a ^ 4 <= g * tmax ^ 4).
  { intros a A L. split; [apply Rmult_lt_0_compat; [auto|apply pow_lt; auto]|]. apply Rmult_le_compat_l; [lra|]. apply pow_incr. lra. }
  pose proof (Q t T ltac:(lra)) as Q1. pose proof (Q (t + sw / 100) ltac:(lra) M1) as Q2. pose proof (Q ts S0 M2) as Q3.
  set (b1 := g * t ^ 4) in *. set (b2 := g * (t + sw / 100) ^ 4) in *. set (b3 := g * ts ^ 4) in *. set (bm := g * tmax ^ 4) in *. clearbody b1 b2 b3 bm.
  set (em := (1 - n ^ 2) * e + n ^ 2 * 0.976). assert (N2 : 0 <= n ^ 2 <= 1) by (split; nra).
  assert (EM : 0 < em <= 1) by (unfold em; nra). clearbody em. set (bs := rock * b2 + (1 - rock) * b3). assert (BS : 0 < bs <= bm) by (unfold bs; nra).
  clearbody bs. clear - V EM BS Q1. assert (X : 0 < em * b1 <= bm) by nra. replace (svf * em * b1) with (svf * (em * b1)) by ring. set (z := em * b1) in *. clearbody z. split; nra.
Qed.
Print Assumptions c51_range.
(** More clouds, more longwave radiation (as long as the clear sky emits less than clouds); a warmer surface, more from the slopes. *)
Theorem c51_clouds : forall pw t svf n n' sw ts rock, 0 < t -> 0 < svf -> 0 <= n -> n < n' -> clear_sky_emissivity pw < 0.976 ->
  longwave pw t svf n sw ts rock < longwave pw t svf n' sw ts rock.
Proof.
  intros pw t svf n n' sw ts rock T V N L E. rewrite !c51_longwave. cbv zeta. set (e := clear_sky_emissivity pw) in *. clearbody e.
  assert (B : 0 < STEFAN_BOLTZMANN * t ^ 4) by (apply Rmult_lt_0_compat; [apply sigma_pos|apply pow_lt; auto]).
  set (b := STEFAN_BOLTZMANN * t ^ 4) in *. clearbody b. apply Rplus_lt_compat_r. apply Rmult_lt_compat_r; auto. apply Rmult_lt_compat_l; auto.
  assert (n ^ 2 < n' ^ 2) by nra. nra.
Qed.
Print Assumptions c51_clouds.
Theorem c51_slopes : forall pw t svf n sw sw' ts ts' rock, 0 < t -> svf <= 1 -> 0 <= sw -> sw <= sw' -> 0 < ts -> ts <= ts' -> 0 <= rock <= 1 ->
  longwave pw t svf n sw ts rock <= longwave pw t svf n sw' ts' rock.
Proof.
  intros pw t svf n sw sw' ts ts' rock T V W L S0 LS K. rewrite !c51_longwave. cbv zeta. apply Rplus_le_compat_l. apply Rmult_le_compat_l; [lra|].
  pose proof sigma_pos. apply Rplus_le_compat; apply Rmult_le_compat_l; try lra; apply Rmult_le_compat_l; try lra; apply pow_incr; lra.
Qed.
Print Assumptions c51_slopes.
Example c51_example : clear_sky_emissivity 0 < 0.976 /\ 0 < longwave 0 270 1 1 0 270 0 /\ longwave 0 270 1 1 0 270 0 = 0.976 * (STEFAN_BOLTZMANN * 270 ^ 4).
Proof.
  split; [|split].
  - rewrite c51_emissivity_dry. assert (0.024 < exp (- sqrt 1.2)); [|lra]. rewrite exp_Ropp.
    assert (S2 : sqrt 1.2 < 2) by (replace 2 with (sqrt (2 * 2)) by (apply sqrt_square; lra); apply sqrt_lt_1; lra).
    assert (exp (sqrt 1.2) < 9).
    { apply Rlt_le_trans with (exp 2); [apply exp_increasing; auto|]. replace 2 with (1 + 1) by lra. rewrite exp_plus. pose proof exp_le_3. pose proof (exp_pos 1).
      apply Rle_trans with (3 * 3)%R; [apply Rmult_le_compat; lra|lra]. }
    pose proof (exp_pos (sqrt 1.2)). apply (Rmult_lt_reg_r (exp (sqrt 1.2))); auto. rewrite Rinv_l by lra. lra.
  - rewrite c51_longwave. cbv zeta. pose proof sigma_pos. nra.
  - rewrite c51_longwave. cbv zeta. ring.
Qed.
