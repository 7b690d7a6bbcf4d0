(** Theorems about the order of the stations in the interpolation of the meteorological fields (C110). *)
From Verif Require Import Common Constants AtmosphereModel ForcingModel InterpModel InterpProofs InterpTheorems
  StationFieldsModel StationFieldsTheorems.
From Coq Require Import Permutation.
Open Scope R_scope.

(** * Lemmas *)
Lemma idw_stations_order f l l' x y : one_place l -> Permutation l l' -> idw (stn_pts f l) x y 2 0 = idw (stn_pts f l') x y 2 0.
Proof.
  intros O P. apply c32_order; [apply Permutation_map; auto|]. unfold usable, stn_pts. intros px py v w H1 H2.
  apply in_map_iff in H1. apply in_map_iff in H2. destruct H1 as [a [E1 I1]], H2 as [b [E2 I2]].
  injection E1 as X1 Y1 V1. injection E2 as X2 Y2 V2. assert (a = b) by (apply O; auto; congruence). congruence.
Qed.
Lemma mean_order l l' : Permutation l l' -> mean l = mean l'.
Proof.
  intros P. unfold mean. rewrite (Permutation_length P). f_equal.
  pose proof (sumR_perm (fun a => a) _ _ P) as H. rewrite !map_id in H. auto.
Qed.
Lemma combine_maps {A B C} (f : A -> B) (h : A -> C) l : combine (map f l) (map h l) = map (fun a => (f a, h a)) l.
Proof. induction l; cbn; congruence. Qed.
Lemma linear_fit_order (data : stn -> R) l l' : Permutation l l' ->
  linear_fit (map s_z l) (map data l) = linear_fit (map s_z l') (map data l').
Proof.
  intros P. unfold linear_fit. rewrite !map_length, (Permutation_length P).
  rewrite (mean_order _ _ (Permutation_map s_z P)), (mean_order _ _ (Permutation_map data P)).
  rewrite (sumR_perm _ _ _ (Permutation_map s_z P)), !combine_maps.
  rewrite (sumR_perm _ _ _ (Permutation_map (fun a => (s_z a, data a)) P)). auto.
Qed.
Lemma minR_order l l' : Permutation l l' -> minR l = minR l'.
Proof.
  intros P. destruct l as [|a l]; [apply Permutation_nil in P; subst; auto|].
  assert (N : a :: l <> []) by discriminate. assert (N' : l' <> []) by (intros ->; apply Permutation_sym, Permutation_nil in P; discriminate).
  destruct (minR_spec _ N) as [I M]. destruct (minR_spec _ N') as [I' M'].
  apply Rle_antisym; [apply M; apply (Permutation_in _ (Permutation_sym P)); auto|apply M'; apply (Permutation_in _ P); auto].
Qed.
Lemma maxiR_order l l' : Permutation l l' -> maxiR l = maxiR l'.
Proof.
  intros P. destruct l as [|a l]; [apply Permutation_nil in P; subst; auto|].
  assert (N : a :: l <> []) by discriminate. assert (N' : l' <> []) by (intros ->; apply Permutation_sym, Permutation_nil in P; discriminate).
  destruct (maxiR_spec _ N) as [I M]. destruct (maxiR_spec _ N') as [I' M'].
  apply Rle_antisym; [apply M'; apply (Permutation_in _ P); auto|apply M; apply (Permutation_in _ (Permutation_sym P)); auto].
Qed.
Lemma core_order c data l l' x y z : i_max_segments c = 1%nat -> one_place l -> Permutation l l' ->
  interpolate_core c data l x y z = interpolate_core c data l' x y z.
Proof.
  intros M O P. unfold interpolate_core, with_trend. rewrite M. cbn [Nat.eqb].
  rewrite (linear_fit_order data _ _ P), (mean_order _ _ (Permutation_map data P)).
  rewrite (idw_stations_order data _ _ x y O P), (idw_stations_order s_z _ _ x y O P).
  destruct (i_trend c); auto.
  - destruct (linear_fit _ _) as [[a b]|]; auto. rewrite (idw_stations_order _ _ _ x y O P). auto.
  - rewrite (idw_stations_order _ _ _ x y O P). auto.
  - rewrite (idw_stations_order _ _ _ x y O P). auto.
Qed.
Lemma param_order p c l l' x y z tt : i_max_segments c = 1%nat -> one_place l -> Permutation l l' ->
  interpolate_param p c l x y z tt = interpolate_param p c l' x y z tt.
Proof.
  intros M O P. destruct l as [|a l]; [apply Permutation_nil in P; subst; auto|].
  destruct l' as [|a' l']; [apply Permutation_sym, Permutation_nil in P; discriminate|]. unfold interpolate_param.
  rewrite (core_order c _ _ _ x y z M O P).
  rewrite (minR_order _ _ (Permutation_map _ P)), (maxiR_order _ _ (Permutation_map _ P)). reflexivity.
Qed.
Lemma each_ext {A} (f h : A -> ierr + num) l : (forall a, f a = h a) -> each f l = each h l.
Proof. intros E. induction l as [|a l IH]; cbn; auto. rewrite E, IH. auto. Qed.
Lemma all_order p c l l' ts : i_max_segments c = 1%nat -> one_place l -> Permutation l l' ->
  interpolate_all p c l ts = interpolate_all p c l' ts.
Proof. intros M O P. apply each_ext. intros t. apply param_order; auto. Qed.
Lemma humidity_order c l l' ts temps : i_max_segments c = 1%nat -> one_place l -> Permutation l l' ->
  interpolate_humidity c l ts temps = interpolate_humidity c l' ts temps.
Proof. intros M O P. apply each_ext. intros t. apply param_order; auto. Qed.
Lemma component_place k l : one_place l -> one_place (component k l).
Proof.
  intros O s s' I I' X Y. unfold component in *. apply in_map_iff in I. apply in_map_iff in I'.
  destruct I as [a [<- I]], I' as [b [<- I']]. cbn in X, Y. rewrite (O a b I I' X Y). auto.
Qed.
Lemma liston_order sw cw c l l' ts : i_max_segments c = 1%nat -> one_place l -> Permutation l l' ->
  liston_correction sw cw c l ts = liston_correction sw cw c l' ts.
Proof.
  intros M O P. unfold liston_correction.
  rewrite (all_order IWindVec c (component fst l) (component fst l') ts M (component_place _ _ O) (Permutation_map _ P)).
  rewrite (all_order IWindVec c (component snd l) (component snd l') ts M (component_place _ _ O) (Permutation_map _ P)). auto.
Qed.
Lemma one_param_order f l l' : Permutation l l' -> Permutation (one_param f l) (one_param f l').
Proof. intros P. apply Permutation_flat_map; auto. Qed.
Lemma two_params_order f h l l' : Permutation l l' -> Permutation (two_params f h l) (two_params f h l').
Proof. intros P. apply Permutation_flat_map; auto. Qed.

(** * The order of the stations *)
(** With linear trends (no piecewise regression, whose fit is an external library), the order in which the stations
    are read changes neither any field nor whether the interpolation fails, if no two stand at the same place. *)
Theorem c110_order : forall c g l l' s, Permutation l l' -> apart_stations l ->
  (forall i, In i [d_temp c; d_precip c; d_hum c; d_wind c] -> i_max_segments i = 1%nat) ->
  interpolate_station_data c g l s = interpolate_station_data c g l' s.
Proof.
  intros c g l l' s P A M.
  assert (O1 : forall f, one_place (one_param f l)) by (intros f; eapply one_place_1; eauto; apply one_param_reporting).
  assert (O2 : forall f h, one_place (two_params f h l)) by (intros f h; eapply one_place_2; eauto; apply two_params_reporting).
  assert (Mt : i_max_segments (d_temp c) = 1%nat) by (apply M; cbn; auto).
  assert (Mp : i_max_segments (d_precip c) = 1%nat) by (apply M; cbn; auto).
  assert (Mh : i_max_segments (d_hum c) = 1%nat) by (apply M; cbn; auto).
  assert (Mw : i_max_segments (d_wind c) = 1%nat) by (apply M; cbn; auto).
  assert (T : thermal_fields c g l s = thermal_fields c g l' s).
  { unfold thermal_fields. rewrite (all_order ITemp _ _ _ (roi_targets g) Mt (O1 m_temp) (one_param_order m_temp _ _ P)).
    destruct (interpolate_all ITemp _ _ _) as [e|t]; auto. cbn [bind].
    rewrite (all_order IPrecip _ _ _ (roi_targets g) Mp (O1 m_precip) (one_param_order m_precip _ _ P)).
    destruct (interpolate_all IPrecip _ _ _) as [e|p]; auto. cbn [bind].
    rewrite (humidity_order _ _ _ (roi_targets g) (masked_get (roi g) (masked_set (roi g) (f_temp s) t)) Mh (O2 m_rel_hum m_temp) (two_params_order m_rel_hum m_temp _ _ P)). auto. }
  unfold interpolate_station_data. rewrite T. destruct (thermal_fields c g l' s) as [e|s1]; auto. cbn [bind]. unfold wind_fields.
  rewrite (all_order IWindSpeed _ _ _ (roi_targets g) Mw (O1 m_wind_speed) (one_param_order m_wind_speed _ _ P)).
  rewrite (all_order IWindSpeed _ _ _ (roi_targets g) Mw (O1 m_gust) (one_param_order m_gust _ _ P)).
  rewrite (liston_order (d_slope_weight c) (d_curv_weight c) _ _ _ (roi_targets g) Mw (O2 m_wind_speed m_wind_dir) (two_params_order m_wind_speed m_wind_dir _ _ P)).
  rewrite (liston_order (d_slope_weight c) (d_curv_weight c) _ _ _ (roi_targets g) Mw (O2 m_gust m_wind_dir) (two_params_order m_gust m_wind_dir _ _ P)).
  auto.
Qed.
Print Assumptions c110_order.
(** Two stations at the same place measure 280 K and 270 K. The pixel there takes the value of the one read first. *)
Definition twin (t : R) : mstn := MS (Some 0) (Some 0) (Some 1000) (Some t) None None None None None.
Definition twin_cfg : dcfg := DC fixed_cfg fixed_cfg fixed_cfg fixed_cfg Idw 0.5 0.5 false.
Lemma twin_first a b r : 0 <= a -> interpolate_station_data twin_cfg demo_grid [twin a; twin b] blank = inr r ->
  nth_error (f_temp r) 0 = Some (Some a).
Proof.
  intros A E. destruct (c110_values twin_cfg demo_grid [twin a; twin b] blank r) as [lt [lp [lh [RT [RP [RH V]]]]]]; [repeat constructor|auto|].
  destruct (V 0%nat (TG 0 0 1000 0 0 0) eq_refl) as [temp [pr [hu [N [I NI]]]]]. rewrite N. f_equal. clear E V N NI.
  rewrite (reporting_fun _ _ _ RT) in I. cbn -[idw] in I. unfold with_trend in I. cbn -[Rpower] in I. unfold idw in I. cbn -[Rpower sqrt] in I.
  destruct (Req_EM_T _ 0) as [_|F].
  - unfold retrend, detrend in I. cbn in I. injection I as <-. f_equal. rewrite Rmax_left; lra.
  - exfalso. apply F. replace ((0 - 0) * (0 - 0) + (0 - 0) * (0 - 0) + 0 * 0) with 0 by ring. apply sqrt_0.
Qed.
Theorem c110_order_refuted : exists c g l l' s r r', Permutation l l' /\
  (forall i, In i [d_temp c; d_precip c; d_hum c; d_wind c] -> i_max_segments i = 1%nat) /\
  interpolate_station_data c g l s = inr r /\ interpolate_station_data c g l' s = inr r' /\
  nth_error (f_temp r) 0 = Some (Some 280) /\ nth_error (f_temp r') 0 = Some (Some 270).
Proof.
  assert (M : forall i, In i [d_temp twin_cfg; d_precip twin_cfg; d_hum twin_cfg; d_wind twin_cfg] -> i_max_segments i = 1%nat)
    by (intros i [<-|[<-|[<-|[<-|[]]]]]; auto).
  destruct (c110_succeeds twin_cfg demo_grid [twin 280; twin 270] blank M) as [r E]; [discriminate| |].
  { intros m z [<-|[<-|[]]] H; cbn in H; injection H as <-; lra. }
  destruct (c110_succeeds twin_cfg demo_grid [twin 270; twin 280] blank M) as [r' E']; [discriminate| |].
  { intros m z [<-|[<-|[]]] H; cbn in H; injection H as <-; lra. }
  exists twin_cfg, demo_grid, [twin 280; twin 270], [twin 270; twin 280], blank, r, r'. split; [apply perm_swap|].
  split; auto. split; auto. split; auto. split; eapply twin_first; eauto; lra.
Qed.
Print Assumptions c110_order_refuted.

Example c110_order_example : Permutation [station_a; station_b] [station_b; station_a] /\ apart_stations [station_a; station_b] /\
  interpolate_station_data (DC fixed_cfg fixed_cfg fixed_cfg fixed_cfg Liston 0.5 0.5 true) demo_grid [station_a; station_b] blank =
  interpolate_station_data (DC fixed_cfg fixed_cfg fixed_cfg fixed_cfg Liston 0.5 0.5 true) demo_grid [station_b; station_a] blank.
Proof.
  assert (P : Permutation [station_a; station_b] [station_b; station_a]) by apply perm_swap.
  assert (A : apart_stations [station_a; station_b]).
  { intros s1 s2 x y z z' [<-|[<-|[]]] [<-|[<-|[]]] [P1 [P2 _]] [Q1 [Q2 _]]; cbn in P1, Q1; auto; exfalso;
      injection P1 as <-; injection Q1 as Q1; lra. }
  split; auto. split; auto. apply c110_order; auto. intros i [<-|[<-|[<-|[<-|[]]]]]; auto.
Qed.
