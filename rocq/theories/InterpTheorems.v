(** Theorems about inverse distance weighting (C32), interpolation with elevation trends (C33), wind
    (C79) and the choice of the piecewise regression (C80). *)
From Coq Require Import Permutation.
From Verif Require Import Common Constants AtmosphereModel AtmosphereProofs AtmosphereTheorems ForcingModel ForcingTheorems
  InterpModel InterpProofs.
Open Scope R_scope.

(** * C32 *)
(** A usable point: position and value known *)
Definition usable (pts : list pt) (px py v : R) : Prop := In (PT (Some px) (Some py) (Some v)) pts.
(** The result is missing exactly if there is no usable point. *)
Theorem c32_missing_iff : forall pts x y power smoothing,
  idw pts x y power smoothing = None <-> forall px py v, ~ usable pts px py v.
Proof.
  intros pts x y power s. unfold idw, usable. destruct (finite_pts pts) as [|[[px py] v] t] eqn:E.
  - split; auto. intros _ px py v I. apply finite_in in I. rewrite E in I. inversion I.
  - split; [discriminate|]. intros H. exfalso. apply (H px py v). apply finite_in. rewrite E. left; auto.
Qed.
Print Assumptions c32_missing_iff.
(** Points with a missing position or value do not matter. *)
Theorem c32_ignores_missing : forall pts pts' x y power smoothing, finite_pts pts = finite_pts pts' ->
  idw pts x y power smoothing = idw pts' x y power smoothing.
Proof. intros pts pts' x y power s E. unfold idw. rewrite E. auto. Qed.
Print Assumptions c32_ignores_missing.
Example c32_ignores_missing_example : forall a b v w,
  finite_pts [PT (Some a) (Some b) None; PT (Some a) (Some b) (Some v); PT None (Some b) (Some w)] = finite_pts [PT (Some a) (Some b) (Some v)].
Proof. reflexivity. Qed.
(** Away from all points: the mean weighted by the inverse distances to the given power. *)
Theorem c32_weighted_mean : forall pts x y power smoothing v,
  (forall px py w, usable pts px py w -> sqrt ((x - px) * (x - px) + (y - py) * (y - py) + smoothing * smoothing) <> 0) ->
  (exists px py w, usable pts px py w) ->
  idw pts x y power smoothing = Some v <->
  v * sumR (map (fun p => / Rpower (sqrt ((x - fst (fst p)) * (x - fst (fst p)) + (y - snd (fst p)) * (y - snd (fst p)) + smoothing * smoothing)) power) (finite_pts pts))
  = sumR (map (fun p => snd p / Rpower (sqrt ((x - fst (fst p)) * (x - fst (fst p)) + (y - snd (fst p)) * (y - snd (fst p)) + smoothing * smoothing)) power) (finite_pts pts)).
Proof.
  intros pts x y power s v H [px [py [w U]]].
  assert (N : finite_pts pts <> []) by (intros E; apply finite_in in U; rewrite E in U; inversion U).
  rewrite idw_cases by auto.
  assert (EW : sumR (map (wt x y power s) (finite_pts pts)) = sumR (map (fun p => / Rpower (sqrt ((x - fst (fst p)) * (x - fst (fst p)) + (y - snd (fst p)) * (y - snd (fst p)) + s * s)) power) (finite_pts pts))).
  { apply sumR_ext. intros [[a b] c] _. reflexivity. }
  assert (EV : sumR (map (fun p => snd p * wt x y power s p) (finite_pts pts)) = sumR (map (fun p => snd p / Rpower (sqrt ((x - fst (fst p)) * (x - fst (fst p)) + (y - snd (fst p)) * (y - snd (fst p)) + s * s)) power) (finite_pts pts))).
  { apply sumR_ext. intros [[a b] c] _. reflexivity. }
  rewrite EW, EV. split.
  - intros [[pre [[[a b] c] [post [E1 [_ [E2 _]]]]]]|[_ E]]; auto. exfalso. apply (H a b c); auto.
    apply finite_in. rewrite E1. apply in_or_app. right. left. auto.
  - intros E. right. split; auto. apply Forall_forall. intros [[a b] c] I. apply finite_in in I. apply (H a b c I).
Qed.
Print Assumptions c32_weighted_mean.
(** At a point (without smoothing) the value of the point; several points at the same place must agree. *)
Theorem c32_exact : forall pts x y power v, usable pts x y v -> (forall w, usable pts x y w -> w = v) ->
  idw pts x y power 0 = Some v.
Proof.
  intros pts x y power v U H.
  assert (N : finite_pts pts <> []) by (intros E; apply finite_in in U; rewrite E in U; inversion U).
  apply idw_cases; auto. apply finite_in in U.
  assert (Z : distance x y 0 (x, y, v) = 0) by (apply distance_zero; auto).
  assert (K : forall l, (forall p, In p l -> In p (finite_pts pts)) -> In (x, y, v) l ->
    exists pre p post, l = pre ++ p :: post /\ Forall (apart x y 0) pre /\ distance x y 0 p = 0 /\ v = snd p).
  { induction l as [|p l IH]; intros S I; [inversion I|].
    destruct (Req_EM_T (distance x y 0 p) 0) as [E|E].
    - exists [], p, l. split; auto. split; auto. split; auto. destruct p as [[a b] c]. apply distance_zero in E. cbn in E.
      destruct E as [_ [-> ->]]. symmetry. apply H. apply finite_in, S. left; auto.
    - destruct I as [->|I]; [congruence|]. destruct (IH ltac:(intros q Q; apply S; right; auto) I) as [pre [q [post [E1 [E2 E3]]]]].
      exists (p :: pre), q, post. subst l. split; auto. }
  left. apply K; auto.
Qed.
Print Assumptions c32_exact.
(** Between the smallest and the largest usable value, anywhere *)
Theorem c32_bounded : forall pts x y power smoothing v lo hi, idw pts x y power smoothing = Some v ->
  (forall px py w, usable pts px py w -> lo <= w <= hi) -> lo <= v <= hi.
Proof.
  intros pts x y power s v lo hi E H.
  assert (N : finite_pts pts <> []) by (unfold idw in E; destruct (finite_pts pts); discriminate).
  assert (B : forall p, In p (finite_pts pts) -> lo <= snd p <= hi) by (intros [[a b] c] I; apply finite_in in I; apply (H a b c I)).
  apply idw_cases in E; auto. destruct E as [[pre [p [post [E1 [_ [_ ->]]]]]]|[_ E]].
  - apply B. rewrite E1. apply in_or_app. right. left. auto.
  - pose proof (sum_wt_pos x y power s _ N) as SP. set (W := sumR (map (wt x y power s) (finite_pts pts))) in *.
    assert (L : lo * W <= v * W).
    { rewrite E. unfold W. rewrite <- sumR_map_scal. apply sum_bounds. intros p I. pose proof (wt_pos x y power s p). pose proof (B p I). nra. }
    assert (U : v * W <= hi * W).
    { rewrite E. unfold W. rewrite <- sumR_map_scal. apply sum_bounds. intros p I. pose proof (wt_pos x y power s p). pose proof (B p I). nra. }
    split; nra.
Qed.
Print Assumptions c32_bounded.
(** Applying an affine function to all values applies it to the result. *)
Definition map_value (g : R -> R) (p : pt) : pt := PT (p_x p) (p_y p) (option_map g (p_v p)).
Lemma finite_map g pts : finite_pts (map (map_value g) pts) = map (fun p => (fst p, g (snd p))) (finite_pts pts).
Proof.
  unfold finite_pts. induction pts as [|p pts IH]; auto. cbn [map flat_map]. rewrite IH, map_app.
  destruct p as [[a|] [b|] [c|]]; reflexivity.
Qed.
Theorem c32_affine : forall pts x y power smoothing v k d, idw pts x y power smoothing = Some v ->
  idw (map (map_value (fun w => k * w + d)) pts) x y power smoothing = Some (k * v + d).
Proof.
  intros pts x y power s v k d E.
  assert (N : finite_pts pts <> []) by (unfold idw in E; destruct (finite_pts pts); discriminate).
  assert (DD : forall p, distance x y s (fst p, k * snd p + d) = distance x y s p) by (intros [[a b] c]; auto).
  apply idw_cases in E; auto. apply idw_cases; [rewrite finite_map; destruct (finite_pts pts); [auto|discriminate]|].
  rewrite finite_map. destruct E as [[pre [p [post [E1 [E2 [E3 ->]]]]]]|[E1 E2]].
  - left. exists (map (fun p => (fst p, k * snd p + d)) pre), (fst p, k * snd p + d), (map (fun p => (fst p, k * snd p + d)) post).
    rewrite E1, map_app. split; auto. split; [|split; auto; rewrite DD; auto].
    rewrite Forall_forall in *. intros q Q. apply in_map_iff in Q. destruct Q as [r [<- R]]. unfold apart. rewrite DD. apply E2; auto.
  - right. split.
    + rewrite Forall_forall in *. intros q Q. apply in_map_iff in Q. destruct Q as [r [<- R]]. unfold apart. rewrite DD. apply E1; auto.
    + rewrite !map_map.
      rewrite (sumR_ext _ (fun p => wt x y power s (fst p, k * snd p + d)) (wt x y power s)) by (intros p _; unfold wt; rewrite DD; auto).
      cbn [snd].
      rewrite (sumR_ext _ (fun p => (k * snd p + d) * wt x y power s (fst p, k * snd p + d)) (fun p => k * (snd p * wt x y power s p) + d * wt x y power s p)).
      * rewrite sumR_map_plus, !sumR_map_scal, <- E2. ring.
      * intros p _. unfold wt. rewrite DD. ring.
Qed.
Print Assumptions c32_affine.
(** The order of the points does not matter if no two are at the same place. *)
Theorem c32_order : forall pts pts' x y power smoothing, Permutation pts pts' ->
  (forall px py v w, usable pts px py v -> usable pts px py w -> v = w) ->
  idw pts x y power smoothing = idw pts' x y power smoothing.
Proof.
  intros pts pts' x y power s P H.
  assert (PF : Permutation (finite_pts pts) (finite_pts pts')) by (unfold finite_pts; apply Permutation_flat_map; auto).
  destruct (idw pts' x y power s) as [v|] eqn:E.
  - assert (N' : finite_pts pts' <> []) by (unfold idw in E; destruct (finite_pts pts'); discriminate).
    assert (N : finite_pts pts <> []) by (intros Q; rewrite Q in PF; apply Permutation_nil in PF; auto).
    apply idw_cases in E; auto. apply idw_cases; auto. destruct E as [[pre [p [post [E1 [E2 [E3 ->]]]]]]|[E1 E2]].
    + left. destruct p as [[a b] c].
      assert (I : In (a, b, c) (finite_pts pts)) by (eapply Permutation_in; [symmetry; exact PF|]; rewrite E1; apply in_or_app; right; left; auto).
      apply distance_zero in E3 as Z. cbn in Z. destruct Z as [-> [-> ->]].
      assert (K : forall l, (forall p, In p l -> In p (finite_pts pts)) -> In (x, y, c) l ->
        exists pre p post, l = pre ++ p :: post /\ Forall (apart x y 0) pre /\ distance x y 0 p = 0 /\ snd (x, y, c) = snd p).
      { induction l as [|p l IH]; intros S J; [inversion J|].
        destruct (Req_EM_T (distance x y 0 p) 0) as [E|E].
        - exists [], p, l. split; auto. split; auto. split; auto. destruct p as [[a' b'] c']. apply distance_zero in E. cbn in E.
          destruct E as [_ [-> ->]]. cbn. apply (H x y); apply finite_in; auto. apply S. left; auto.
        - destruct J as [->|J]; [congruence|]. destruct (IH ltac:(intros q Q; apply S; right; auto) J) as [pre' [q [post' [F1 [F2 F3]]]]].
          exists (p :: pre'), q, post'. subst l. split; auto. }
      apply K; auto.
    + right. split.
      * rewrite Forall_forall in *. intros p Q. apply E1. eapply Permutation_in; eauto.
      * rewrite (sumR_perm _ _ _ PF), (sumR_perm (fun p => snd p * wt x y power s p) _ _ PF). auto.
  - apply c32_missing_iff. intros px py v U. apply (proj1 (c32_missing_iff pts' x y power s) E px py v). eapply Permutation_in; eauto.
Qed.
Print Assumptions c32_order.
Example c32_example : idw [PT (Some 0) (Some 0) (Some 10); PT (Some 2) (Some 0) (Some 20); PT (Some 5) (Some 5) None] 1 0 2 0 = Some 15.
Proof.
  apply c32_weighted_mean.
  - intros px py w [E|[E|[E|[]]]]; inversion E; subst; intros Z; apply sqrt_eq_0 in Z; lra.
  - exists 0, 0, 10. left. auto.
  - cbn [finite_pts flat_map p_x p_y p_v app map fst snd]. rewrite !sumR_cons, sumR_nil.
    replace (1 - 2) with (- (1)) by lra. replace ((1 - 0) * (1 - 0) + (0 - 0) * (0 - 0) + 0 * 0) with 1 by lra.
    replace (- (1) * - (1) + (0 - 0) * (0 - 0) + 0 * 0) with 1 by lra. rewrite sqrt_1.
    replace (Rpower 1 2) with 1; [lra|]. unfold Rpower. rewrite ln_1, Rmult_0_r, exp_0. auto.
Qed.

(** * C33 *)
Definition one_place (l : list stn) : Prop := forall s s', In s l -> In s' l -> s_x s = s_x s' -> s_y s = s_y s' -> s = s'.
Lemma stn_usable f l px py v : usable (stn_pts f l) px py v <-> exists s, In s l /\ s_x s = px /\ s_y s = py /\ f s = v.
Proof.
  unfold usable, stn_pts. rewrite in_map_iff. split.
  - intros [s [E I]]. injection E as <- <- <-. eauto.
  - intros [s [I [<- [<- <-]]]]. eauto.
Qed.
Lemma stn_exact f l s : one_place l -> In s l -> idw (stn_pts f l) (s_x s) (s_y s) 2 0 = Some (f s).
Proof.
  intros O I. apply c32_exact.
  - apply stn_usable. eauto.
  - intros w U. apply stn_usable in U. destruct U as [s' [I' [E1 [E2 <-]]]]. f_equal. apply O; auto.
Qed.
Lemma stn_const f l x y v : l <> [] -> (forall s, In s l -> f s = v) -> idw (stn_pts f l) x y 2 0 = Some v.
Proof.
  intros N H. destruct (idw (stn_pts f l) x y 2 0) as [w|] eqn:E.
  - f_equal. assert (v <= w <= v); [|lra]. eapply c32_bounded; [exact E|]. intros px py u U. apply stn_usable in U.
    destruct U as [s [I [_ [_ <-]]]]. rewrite H by auto. lra.
  - exfalso. destruct l as [|s l]; [auto|]. apply (proj1 (c32_missing_iff _ _ _ _ _) E (s_x s) (s_y s) (f s)). apply stn_usable.
    exists s. cbn; auto.
Qed.
(** The method as configured gives a linear trend with slope [rate] for these values. *)
Inductive linear_trend (c : icfg) (data : stn -> R) (l : list stn) : R -> Prop :=
  | by_fixed : i_trend c = Fixed -> i_max_segments c = 1%nat -> linear_trend c data l (i_lapse c)
  | by_fraction : i_trend c = Fractional -> i_max_segments c = 1%nat -> linear_trend c data l (i_lapse c * mean (map data l))
  | by_regression slope icpt : i_trend c = Regression -> i_max_segments c = 1%nat ->
      linear_fit (map s_z l) (map data l) = Some (slope, icpt) -> linear_trend c data l slope.
Lemma core_linear c data l rate x y z : linear_trend c data l rate ->
  interpolate_core c data l x y z = inr (with_trend (fun h => rate * h) data l x y z).
Proof.
  intros [T M|T M|slope icpt T M F]; unfold interpolate_core; rewrite T, M; cbn; auto. rewrite F. auto.
Qed.
(** A perfectly linear dependence on elevation is reproduced everywhere. *)
Theorem c33_reproduces_linear : forall c data l rate a x y z, l <> [] ->
  linear_trend c data l rate -> (forall s, In s l -> data s = a + rate * s_z s) ->
  interpolate_core c data l x y z = inr (Some (a + rate * z)).
Proof.
  intros c data l rate a x y z N T H. rewrite (core_linear _ _ _ _ _ _ _ T). unfold with_trend.
  rewrite (stn_const _ _ _ _ a N); [reflexivity|]. intros s I. unfold detrend. rewrite H by auto. ring.
Qed.
Print Assumptions c33_reproduces_linear.
(** Regression finds the slope of a linear dependence if there are two different elevations, ... *)
Theorem c33_regression_exact : forall data l a b,
  (forall s, In s l -> data s = a + b * s_z s) -> (exists s s', In s l /\ In s' l /\ s_z s <> s_z s') ->
  linear_fit (map s_z l) (map data l) = Some (b, a).
Proof.
  intros data l a b H D. apply fit_exact; auto. destruct D as [s [s' [I1 [I2 D]]]].
  destruct l as [|x [|y l]]; cbn in *; [contradiction| |lia]. destruct I1 as [<-|[]], I2 as [<-|[]]. congruence.
Qed.
Print Assumptions c33_regression_exact.
(** ... and in general the straight line with the least squared residuals. *)
Theorem c33_regression_optimal : forall data l s t, (2 <= length l)%nat ->
  linear_fit (map s_z l) (map data l) = Some (s, t) -> forall s' t',
  sumR (map (fun a => (data a - (s * s_z a + t)) * (data a - (s * s_z a + t))) l) <=
  sumR (map (fun a => (data a - (s' * s_z a + t')) * (data a - (s' * s_z a + t'))) l).
Proof. intros data l s t N E s' t'. apply fit_optimal; auto. Qed.
Print Assumptions c33_regression_optimal.
(** At a station the measured value comes out, with every trend and also with a piecewise one. *)
Theorem c33_station_value : forall c data l s, one_place l -> In s l ->
  (exists rate, linear_trend c data l rate) \/
  (i_trend c = Regression /\ (1 < i_max_segments c)%nat /\
   piecewise_linear_fit (i_fit c) (map s_z l) (i_max_segments c) (i_min_points c) (i_threshold c) <> None) ->
  interpolate_core c data l (s_x s) (s_y s) (s_z s) = inr (Some (data s)).
Proof.
  intros c data l s O I [[rate T]|[T [M P]]].
  - rewrite (core_linear _ _ _ _ _ _ _ T). unfold with_trend. rewrite stn_exact by auto. unfold detrend, retrend. do 2 f_equal. ring.
  - unfold interpolate_core. rewrite T. destruct (Nat.eqb_spec (i_max_segments c) 1); [lia|].
    apply Nat.ltb_lt in M. rewrite M. destruct (piecewise_linear_fit _ _ _ _ _) as [m|]; [|congruence].
    unfold with_trend. rewrite stn_exact by auto. unfold detrend, retrend. do 2 f_equal. ring.
Qed.
Print Assumptions c33_station_value.
(** Between the stations, the deviation from the trend is an inverse distance mean: it stays between the
    deviations of the stations. *)
Theorem c33_deviation_bounded : forall c data l rate x y z v lo hi, linear_trend c data l rate ->
  interpolate_core c data l x y z = inr (Some v) ->
  (forall s, In s l -> lo <= data s - rate * s_z s <= hi) -> lo <= v - rate * z <= hi.
Proof.
  intros c data l rate x y z v lo hi T E H. rewrite (core_linear _ _ _ _ _ _ _ T) in E. unfold with_trend in E.
  destruct (idw _ x y 2 0) as [w|] eqn:W; [|discriminate].
  assert (EV : v = w + rate * z) by (unfold retrend in E; congruence).
  assert (lo <= w <= hi); [|lra]. eapply c32_bounded; [exact W|]. intros px py u U. apply stn_usable in U.
  destruct U as [s [I [_ [_ <-]]]]. apply H; auto.
Qed.
Print Assumptions c33_deviation_bounded.
(** The method "fractional" scales with the data: doubled values give doubled results. *)
Lemma idw_scale f l x y k v : idw (stn_pts f l) x y 2 0 = Some v -> idw (stn_pts (fun s => k * f s) l) x y 2 0 = Some (k * v).
Proof.
  intros E. pose proof (c32_affine _ _ _ _ _ _ k 0 E) as H. rewrite Rplus_0_r in H. rewrite <- H. f_equal. unfold stn_pts.
  rewrite map_map. apply map_ext. intros s. unfold map_value. cbn. do 2 f_equal. ring.
Qed.
Theorem c33_fractional_scales : forall c data l x y z k v, l <> [] -> i_trend c = Fractional -> i_max_segments c = 1%nat ->
  interpolate_core c data l x y z = inr (Some v) ->
  interpolate_core c (fun s => k * data s) l x y z = inr (Some (k * v)).
Proof.
  intros c data l x y z k v N T M. rewrite (core_linear _ _ _ _ _ _ _ (by_fraction c data l T M)).
  rewrite (core_linear _ _ _ _ _ _ _ (by_fraction c (fun s => k * data s) l T M)). unfold with_trend.
  destruct (idw (stn_pts (fun s => detrend (fun h => i_lapse c * mean (map data l) * h) (data s) (s_z s)) l) x y 2 0) as [w|] eqn:W; [|discriminate].
  intros E. assert (EV : v = retrend (fun h => i_lapse c * mean (map data l) * h) w z) by congruence. clear E.
  assert (EM : mean (map (fun s => k * data s) l) = k * mean (map data l)).
  { unfold mean. rewrite !map_length, sumR_map_scal. unfold Rdiv. ring. }
  apply (idw_scale _ _ _ _ k) in W. rewrite EM.
  replace (stn_pts (fun s => detrend (fun h => i_lapse c * (k * mean (map data l)) * h) (k * data s) (s_z s)) l) with
    (stn_pts (fun s => k * detrend (fun h => i_lapse c * mean (map data l) * h) (data s) (s_z s)) l).
  - rewrite W. rewrite EV. unfold retrend. do 2 f_equal. ring.
  - unfold stn_pts. apply map_ext. intros s. unfold detrend. do 2 f_equal. ring.
Qed.
Print Assumptions c33_fractional_scales.
(** Adjustment factors: the interpolated value times (1+q)/(1-q), q being the lapse rate times the height above
    the interpolated station height; unchanged at that height, and at stations. *)
Theorem c33_adjustment : forall c data l x y z v zi, i_trend c = AdjustmentFactor ->
  idw (stn_pts data l) x y 2 0 = Some v -> idw (stn_pts s_z l) x y 2 0 = Some zi ->
  i_lapse c * (z - zi) <> 1 ->
  exists r, interpolate_core c data l x y z = inr (Some r) /\
    r * (1 - i_lapse c * (z - zi)) = v * (1 + i_lapse c * (z - zi)) /\ (z = zi -> r = v).
Proof.
  intros c data l x y z v zi T V Z Q. unfold interpolate_core. rewrite T, V, Z.
  destruct (Req_EM_T (1 - i_lapse c * (z - zi)) 0); [lra|]. eexists. split; [reflexivity|]. split; [field; auto|].
  intros ->. replace (i_lapse c * (zi - zi)) with 0 by ring. field.
Qed.
Print Assumptions c33_adjustment.
Theorem c33_adjustment_station : forall c data l s, i_trend c = AdjustmentFactor -> one_place l -> In s l ->
  interpolate_core c data l (s_x s) (s_y s) (s_z s) = inr (Some (data s)).
Proof.
  intros c data l s T O I. destruct (c33_adjustment c data l (s_x s) (s_y s) (s_z s) (data s) (s_z s)) as [r [E [_ R]]]; auto.
  - apply stn_exact; auto.
  - apply (stn_exact s_z); auto.
  - replace (i_lapse c * (s_z s - s_z s)) with 0 by ring. lra.
  - rewrite E, R; auto.
Qed.
Print Assumptions c33_adjustment_station.

(** Without stations *)
Theorem c33_no_stations : forall p c x y z t,
  interpolate_param p c [] x y z t = inr (match p with IPrecip => Some 0 | _ => None end).
Proof. reflexivity. Qed.
Print Assumptions c33_no_stations.
(** The physical limits hold always. *)
Theorem c33_allowed_range : forall p c l x y z t v, interpolate_param p c l x y z t = inr (Some v) ->
  match p with
  | ITemp | IPrecip => 0 <= v
  | IRelHum => 0 <= v <= 100
  | IWindSpeed => 0.1 <= v
  | IWindVec => True
  end.
Proof.
  intros p c l x y z t v E. destruct p; auto; unfold interpolate_param in E;
    (destruct l as [|s l]; [first [discriminate | injection E as <-; lra]|]);
    (destruct (interpolate_core _ _ _ _ _ _) as [e|w]; [discriminate|]); cbn [allowed_range] in E;
    match type of E with inr (match ?m with _ => _ end) = _ => destruct m as [u|]; [|discriminate] end;
    injection E as <-; unfold clip_opt; cbn [fst snd]; try apply Rmax_r.
  pose proof (Rmax_r u 0). split; rmm; lra.
Qed.
Print Assumptions c33_allowed_range.
Lemma fold_min l : forall x, (forall y, In y l -> fold_left Rmin l x <= y) /\ fold_left Rmin l x <= x /\ (fold_left Rmin l x = x \/ In (fold_left Rmin l x) l).
Proof.
  induction l as [|a l IH]; intros x; cbn; [split; [tauto|split; [lra|auto]]|].
  destruct (IH (Rmin x a)) as [A [B C]]. pose proof (Rmin_l x a). pose proof (Rmin_r x a). split; [|split].
  - intros y [<-|Y]; [lra|auto].
  - lra.
  - destruct C as [C|C]; auto. rewrite C. destruct (Rle_lt_dec x a); [rewrite Rmin_left by lra; auto|rewrite Rmin_right by lra; auto].
Qed.
Lemma fold_max l : forall x, (forall y, In y l -> y <= fold_left Rmax l x) /\ x <= fold_left Rmax l x /\ (fold_left Rmax l x = x \/ In (fold_left Rmax l x) l).
Proof.
  induction l as [|a l IH]; intros x; cbn; [split; [tauto|split; [lra|auto]]|].
  destruct (IH (Rmax x a)) as [A [B C]]. pose proof (Rmax_l x a). pose proof (Rmax_r x a). split; [|split].
  - intros y [<-|Y]; [lra|auto].
  - lra.
  - destruct C as [C|C]; auto. rewrite C. destruct (Rle_lt_dec a x); [rewrite Rmax_left by lra; auto|rewrite Rmax_right by lra; auto].
Qed.
Lemma minR_spec l : l <> [] -> In (minR l) l /\ forall y, In y l -> minR l <= y.
Proof.
  destruct l as [|x l]; [congruence|]. intros _. cbn [minR]. destruct (fold_min l x) as [A [B C]]. split; [destruct C as [->|]; cbn; auto|].
  intros y [<-|Y]; auto.
Qed.
Lemma maxiR_spec l : l <> [] -> In (maxiR l) l /\ forall y, In y l -> y <= maxiR l.
Proof.
  destruct l as [|x l]; [congruence|]. intros _. cbn [maxiR]. destruct (fold_max l x) as [A [B C]]. split; [destruct C as [->|]; cbn; auto|].
  intros y [<-|Y]; auto.
Qed.
(** What the limits do (all variables except humidity): without extrapolation the value is moved into the range
    of the measurements, then into the allowed range; nothing else happens to it. *)
Definition into (lo hi v w : R) : Prop := (v < lo -> w = lo) /\ (hi < v -> w = hi) /\ (lo <= v <= hi -> w = v).
Theorem c33_limits : forall p c l x y z t r, p <> IRelHum -> l <> [] ->
  interpolate_core c s_v l x y z = inr (Some r) ->
  exists u v, interpolate_param p c l x y z t = inr (Some v) /\
    (i_extrapolate c = true -> u = r) /\
    (i_extrapolate c = false -> exists smin smax, In smin l /\ In smax l /\
       (forall s, In s l -> s_v smin <= s_v s <= s_v smax) /\ into (s_v smin) (s_v smax) r u) /\
    (p = IWindVec -> v = u) /\ (p = IWindSpeed -> v = Rmax u 0.1) /\ (p = ITemp \/ p = IPrecip -> v = Rmax u 0).
Proof.
  intros p c l x y z t r P N E. destruct l as [|s0 l0] eqn:EL; [congruence|]. rewrite <- EL in *.
  assert (NE : map s_v l <> []) by (rewrite EL; discriminate).
  assert (EX : forall u, exists v, (match allowed_range p, Some u with Some r, Some w => Some (clip_opt r w) | _, w => w end) = Some v /\
     (p = IWindVec -> v = u) /\ (p = IWindSpeed -> v = Rmax u 0.1) /\ (p = ITemp \/ p = IPrecip -> v = Rmax u 0)).
  { intros u. destruct p; try congruence; cbn; eexists; (split; [reflexivity|]); (split; [|split]); try congruence; intros; try (destruct H; discriminate); auto. }
  assert (IP : interpolate_param p c l x y z t = inr (match allowed_range p, (if i_extrapolate c then Some r else Some (clip (minR (map s_v l)) (maxiR (map s_v l)) r)) with Some q, Some w => Some (clip_opt q w) | _, w => w end)).
  { unfold interpolate_param. rewrite EL. rewrite <- EL. destruct p; try congruence; rewrite E; destruct (i_extrapolate c); reflexivity. }
  destruct (minR_spec _ NE) as [M1 M2]. destruct (maxiR_spec _ NE) as [M3 M4].
  destruct (i_extrapolate c) eqn:X.
  - destruct (EX r) as [v [V1 V2]]. exists r, v. rewrite IP. split; [f_equal; exact V1|]. split; auto. split; [discriminate|auto].
  - destruct (EX (clip (minR (map s_v l)) (maxiR (map s_v l)) r)) as [v [V1 V2]]. exists (clip (minR (map s_v l)) (maxiR (map s_v l)) r), v.
    rewrite IP. split; [f_equal; exact V1|]. split; [discriminate|]. split; [|auto]. intros _.
    apply in_map_iff in M1, M3. destruct M1 as [smin [E1 I1]], M3 as [smax [E2 I2]].
    exists smin, smax. split; auto. split; auto. split.
    + intros s I. rewrite E1, E2. split; [apply M2|apply M4]; apply in_map; auto.
    + rewrite E1, E2. assert (L : minR (map s_v l) <= maxiR (map s_v l)) by (rewrite <- E1; apply M4, in_map; auto).
      unfold clip. repeat split; intros H; rmm; lra.
Qed.
Print Assumptions c33_limits.
(** Humidity (with extrapolation): at a station whose temperature is also the target temperature the measured
    humidity is returned. *)
Theorem c33_humidity_station : forall c l s, one_place l -> In s l ->
  (exists rate, linear_trend c (fun s => dew_point_temperature (s_temp s) (s_v s)) l rate) -> i_extrapolate c = true ->
  valid_temp (Some OverWater) (s_temp s) -> 0 < s_v s <= 100 ->
  interpolate_param IRelHum c l (s_x s) (s_y s) (s_z s) (Some (s_temp s)) = inr (Some (s_v s)).
Proof.
  intros c l s O I T X V RH. destruct l as [|s0 l0] eqn:EL; [inversion I|]. rewrite <- EL in *. unfold interpolate_param. rewrite EL. rewrite <- EL.
  rewrite (c33_station_value c (fun s => dew_point_temperature (s_temp s) (s_v s)) l s O I (or_introl T)). rewrite X. cbn [allowed_range].
  rewrite (c25_rel_hum_of_dew_point (s_temp s) (s_v s) V RH). do 2 f_equal. unfold clip_opt. cbn [fst snd]. rmm; lra.
Qed.
Print Assumptions c33_humidity_station.

Definition demo_stn : list stn := [SN 0 0 1000 280 280; SN 10 0 2000 274 274; SN 20 5 1500 277 277].
Definition demo_icfg (t : trend_method) : icfg := IC t (-6/1000) true 1 0 0 (fun _ => None).
Example c33_example : (forall s, In s demo_stn -> s_v s = 286 + -6/1000 * s_z s) /\ one_place demo_stn /\
  linear_trend (demo_icfg Fixed) s_v demo_stn (-6/1000) /\ linear_trend (demo_icfg Regression) s_v demo_stn (-6/1000).
Proof.
  assert (L : forall s, In s demo_stn -> s_v s = 286 + -6/1000 * s_z s) by (intros s [<-|[<-|[<-|[]]]]; cbn; lra).
  split; auto. split; [|split].
  - intros s s' [<-|[<-|[<-|[]]]] [<-|[<-|[<-|[]]]]; cbn; intros; auto; lra.
  - apply by_fixed; auto.
  - apply (by_regression _ _ _ _ 286); auto. apply c33_regression_exact; auto.
    exists (SN 0 0 1000 280 280), (SN 10 0 2000 274 274). cbn. split; auto. split; auto. lra.
Qed.
(** Stations at the same elevation have no elevation trend, but the regression returns one (half of the mean value
    per station height): 280 K at 1000 m become 420 K at 2000 m. *)
Theorem c33_same_elevation_refuted : exists c l x y z, i_trend c = Regression /\
  (forall s, In s l -> s_v s = 280) /\ interpolate_param ITemp c l x y z None = inr (Some 420).
Proof.
  exists (demo_icfg Regression), [SN 0 0 1000 280 280; SN 10 0 1000 280 280], 5, 5, 2000. split; auto. split.
  { intros s [<-|[<-|[]]]; auto. }
  assert (F : linear_fit (map s_z [SN 0 0 1000 280 280; SN 10 0 1000 280 280]) (map s_v [SN 0 0 1000 280 280; SN 10 0 1000 280 280]) = Some (0.14, 140)).
  { unfold linear_fit, mean. cbn [map s_z s_v length Nat.ltb Nat.leb combine fst snd]. rewrite !sumR_cons, !sumR_nil. cbv zeta.
    replace (INR 2) with 2 by (cbn; lra). destruct (Req_EM_T _ 0) as [_|N]; [|exfalso; apply N; lra].
    destruct (Req_EM_T _ 0) as [Z|_]; [exfalso; lra|]. f_equal. f_equal; lra. }
  assert (C : interpolate_core (demo_icfg Regression) s_v [SN 0 0 1000 280 280; SN 10 0 1000 280 280] 5 5 2000 = inr (Some (140 + 0.14 * 2000))).
  { apply c33_reproduces_linear; [discriminate| |].
    - apply (by_regression _ _ _ _ 140); auto.
    - intros s [<-|[<-|[]]]; cbn; lra. }
  unfold interpolate_param. rewrite C. cbn [i_extrapolate demo_icfg allowed_range]. do 2 f_equal. unfold clip_opt. cbn [fst snd].
  rewrite Rmax_left; lra.
Qed.
Print Assumptions c33_same_elevation_refuted.
(** A fixed lapse rate together with more than one allowed regression segment is refused. *)
Theorem c33_fixed_accepted_refuted : exists c, i_trend c = Fixed /\ (1 < i_max_segments c)%nat /\
  forall data l x y z, interpolate_core c data l x y z = inl IValueError.
Proof. exists (IC Fixed 0 true 2 3 0 (fun _ => None)). split; auto. Qed.
Print Assumptions c33_fixed_accepted_refuted.
(** Without extrapolation, humidities are limited to the range of the dew point temperatures in kelvin: a
    single station with 50 % gives 100 % everywhere. *)
Theorem c33_humidity_no_extrapolation_refuted : exists c l, i_extrapolate c = false /\
  (forall s, In s l -> s_v s = 50) /\
  forall x y z, interpolate_param IRelHum c l x y z (Some T0) = inr (Some 100).
Proof.
  exists (IC Fixed 0 false 1 0 0 (fun _ => None)), [SN 0 0 1000 50 T0]. split; auto. split.
  { intros s [<-|[]]; auto. }
  intros x y z. unfold interpolate_param.
  set (td := dew_point_temperature T0 50).
  assert (V : valid_temp (Some OverWater) T0) by (cbn; unfold T0; lra).
  assert (TD : 100 <= td).
  { destruct (Rlt_le_dec td 100) as [L|L]; auto. exfalso.
    destruct (dew_sat T0 50 V ltac:(lra)) as [VD DS]. fold td in DS, VD.
    pose proof (sat_incr (Some OverWater) td 100 VD L) as SI. rewrite DS in SI.
    unfold vapor_pressure, saturation_vapor_pressure, magnus_water, T0 in SI. cbv zeta in SI.
    replace (17.08 * (273.15 - 273.15) / (234.18 + (273.15 - 273.15))) with 0 in SI by lra. rewrite exp_0 in SI.
    assert (exp (17.08 * (100 - 273.15) / (234.18 + (100 - 273.15))) < exp (-1)).
    { apply exp_increasing. apply (Rmult_lt_reg_r (234.18 + (100 - 273.15))); [lra|]. unfold Rdiv. rewrite Rmult_assoc, Rinv_l by lra. lra. }
    assert (exp (-1) < 1/2).
    { replace (-1) with (- (1)) by lra. rewrite exp_Ropp. assert (2 < exp 1) by (pose proof (exp_ineq1 1 ltac:(lra)); lra).
      apply (Rmult_lt_reg_r (exp 1)); [lra|]. rewrite Rinv_l by lra. lra. }
    lra. }
  rewrite (c33_reproduces_linear _ _ _ 0 td); [|discriminate| |].
  - cbn [i_extrapolate allowed_range map minR maxiR fold_left s_temp s_v]. fold td. do 2 f_equal. unfold clip_opt, clip. cbn [fst snd].
    set (q := relative_humidity_from_dew_point _ _). rewrite (Rmin_right (Rmax q td) td) by apply Rmax_r.
    rewrite (Rmax_left td 0), Rmin_right; lra.
  - apply by_fixed; auto.
  - intros s [<-|[]]. cbn. fold td. lra.
Qed.
Print Assumptions c33_humidity_no_extrapolation_refuted.

(** * C80: choice of the piecewise regression *)
Theorem c80_selected : forall fit xs max_segments min_points threshold m, 0 <= threshold ->
  piecewise_linear_fit fit xs max_segments min_points threshold = Some m ->
  exists j, (1 <= j <= max_segments)%nat /\ fit j = Some m /\
    ((1 < j)%nat -> (j * min_points <= length xs)%nat /\
       forall a b, In (a, b) (combine (removelast (pw_breaks m)) (tl (pw_breaks m))) ->
         (min_points <= length (filter (fun x => (if Rle_dec a x then true else false) && (if Rle_dec x b then true else false)) xs))%nat) /\
    forall i c, (1 <= i < j)%nat -> fit i = Some c -> threshold <= pw_aic c - pw_aic m.
Proof.
  intros fit xs ms mp thr m T E. unfold piecewise_linear_fit in E.
  destruct (pw_loop_spec fit xs mp thr T ms 1 None m) as [j [J1 [J2 [J3 J4]]]]; auto; try discriminate; try (intros; lia).
  exists j. split; [lia|]. split; auto. split; auto. intros K. destruct (J3 K) as [A B]. split; auto. intros a b I.
  unfold sparse in B. destruct (Nat.le_gt_cases mp (length (filter (fun x => (if Rle_dec a x then true else false) && (if Rle_dec x b then true else false)) xs))) as [L|L]; auto.
  exfalso. assert (X : existsb (fun lh => (count_between xs (fst lh) (snd lh) <? mp)%nat) (combine (removelast (pw_breaks m)) (tl (pw_breaks m))) = true); [|congruence].
  apply existsb_exists. exists (a, b). split; auto. apply Nat.ltb_lt. exact L.
Qed.
Print Assumptions c80_selected.
(** A successful fit with one segment is never lost, and one segment suffices if a second does not improve enough. *)
Theorem c80_single_segment : forall fit xs max_segments min_points threshold b, (1 <= max_segments)%nat -> fit 1%nat = Some b ->
  piecewise_linear_fit fit xs max_segments min_points threshold <> None /\
  ((max_segments = 1%nat \/ (length xs < 2 * min_points)%nat \/
    exists m, fit 2%nat = Some m /\ pw_aic b - pw_aic m < threshold) ->
   piecewise_linear_fit fit xs max_segments min_points threshold = Some b).
Proof.
  intros fit xs ms mp thr b M F. unfold piecewise_linear_fit. destruct ms as [|n]; [lia|]. cbn [pw_loop Nat.ltb Nat.leb andb]. rewrite F.
  split; [destruct (pw_loop_some fit xs mp thr n 2 b) as [m ->]; discriminate|]. intros H. destruct n as [|n]; auto. cbn [pw_loop].
  destruct H as [H|[H|[m [F2 H]]]]; [lia| |].
  - apply Nat.ltb_lt in H. rewrite H. auto.
  - rewrite F2. destruct (_ && _); auto. destruct (_ && _); auto. destruct (Rle_dec thr (pw_aic b - pw_aic m)); [lra|auto].
Qed.
Print Assumptions c80_single_segment.
Example c80_example : piecewise_linear_fit (fun k => Some (PW [0; 1; 2] (fun x => x) (INR (10 - k)))) [0; 1; 2] 2 1 1 = Some (PW [0; 1; 2] (fun x => x) (INR 8)).
Proof.
  unfold piecewise_linear_fit. cbn [pw_loop Nat.ltb Nat.leb andb length Nat.mul Nat.add]. unfold sparse, count_between.
  cbn [combine removelast tl pw_breaks existsb filter fst snd]. rsplit; cbn [pw_aic] in *; cbn [andb length Nat.ltb Nat.leb orb]; auto.
  exfalso. match goal with H : ~ 1 <= _ |- _ => apply H end. cbn. lra.
Qed.

(** * C79: Liston wind *)
Lemma fmod_range x m : 0 < m -> 0 <= fmod x m < m.
Proof.
  intros M. unfold fmod. pose proof (base_Int_part (x / m)) as [A B].
  assert (E : x = m * (x / m)) by (field; lra). set (q := x / m) in *. split; nra.
Qed.
Lemma combine_map_r {A B C} (f : B -> C) (l : list A) (m : list B) : combine l (map f m) = map (fun p => (fst p, f (snd p))) (combine l m).
Proof. revert m. induction l as [|a l IH]; intros [|b m]; cbn; auto. rewrite IH. auto. Qed.
Lemma combine_diag {A B} (f : A -> B) l : combine l (map f l) = map (fun a => (a, f a)) l.
Proof. induction l as [|a l IH]; cbn; auto. rewrite IH. auto. Qed.
(** On terrain which is not uniform in the direction of the wind: each target's speed is its interpolated speed
    times 1 + slope weight * s + curvature weight * curvature with a scaled slope s between -1/2 and 1/2, largest for
    the most windward target; directions are between 0 and 360 degrees and turn by at most 1/4. *)
Theorem c79_liston : forall sw cw ts t1 t2, In t1 ts -> In t2 ts -> wind_slope t1 < wind_slope t2 ->
  exists scaled, liston sw cw ts = map (fun t => liston_one sw cw t (Some (scaled t))) ts /\
    (forall t, In t ts -> - 0.5 <= scaled t <= 0.5) /\
    (forall t t', In t ts -> In t' ts -> wind_slope t <= wind_slope t' -> scaled t <= scaled t') /\
    (forall t, In t ts -> (forall t', In t' ts -> wind_slope t' <= wind_slope t) -> scaled t = 0.5) /\
    (forall t, In t ts -> (forall t', In t' ts -> wind_slope t <= wind_slope t') -> scaled t = - 0.5).
Proof.
  intros sw cw ts t1 t2 I1 I2 L.
  assert (J : forall t, In t ts -> In (Some (wind_slope t)) (map (fun t => Some (wind_slope t)) ts)) by (intros t I; apply in_map_iff; eauto).
  destruct (c66_normalize (map (fun t => Some (wind_slope t)) ts) (- 0.5) 0.5 (wind_slope t1) (wind_slope t2) ltac:(lra) (J t1 I1) (J t2 I2) L)
    as [g [E [[k [b K]] [G1 [G2 G3]]]]].
  exists (fun t => g (wind_slope t)). split.
  - unfold liston. rewrite E, map_map. cbn [option_map]. rewrite combine_diag, map_map. reflexivity.
  - assert (K0 : 0 <= k).
    { pose proof (G1 (wind_slope t1) (J t1 I1)). pose proof (G1 (wind_slope t2) (J t2 I2)).
      destruct (Rle_lt_dec 0 k) as [|KN]; auto. exfalso.
      assert (X : nanmin (map (fun t => Some (wind_slope t)) ts) <> None).
      { intros N. pose proof (extrema_exist _ _ _ (J t1 I1) (J t2 I2) L) as [a [c [A _]]]. congruence. }
      destruct (extrema_exist _ _ _ (J t1 I1) (J t2 I2) L) as [a [c [A [C AC]]]]. apply nanmin_spec in A. apply nanmax_spec in C.
      pose proof (G2 a (proj1 A) (proj2 A)). pose proof (G3 c (proj1 C) (proj2 C)). rewrite K in *. nra. }
    split; [intros t I; apply G1, J; auto|]. split; [|split].
    + intros t t' I I' H. rewrite !K. nra.
    + intros t I H. apply G3; auto. intros v V. apply in_map_iff in V. destruct V as [t' [Q Q']]. injection Q as <-. auto.
    + intros t I H. apply G2; auto. intros v V. apply in_map_iff in V. destruct V as [t' [Q Q']]. injection Q as <-. auto.
Qed.
Print Assumptions c79_liston.
Theorem c79_one : forall sw cw t s ws wd, liston_one sw cw t (Some s) = (Some ws, Some wd) ->
  ws = sqrt (w_u t * w_u t + w_v t * w_v t) * (1 + sw * s + cw * w_curv t) /\ 0 <= wd < 360 /\
  exists turn (k : Z), wd = snd (wind_from_uv (w_u t) (w_v t)) + turn + 360 * IZR k /\
    (- 0.5 <= s <= 0.5 -> - (1/4) <= turn <= 1/4) /\
    turn = 0.5 * s * sin (2 * deg2rad (snd (wind_from_uv (w_u t) (w_v t)) - w_aspect t)).
Proof.
  intros sw cw t s ws wd E. unfold liston_one in E.
  destruct (wind_from_uv (w_u t) (w_v t)) as [ws0 wd0] eqn:W.
  assert (W0 : ws0 = sqrt (w_u t * w_u t + w_v t * w_v t)) by (unfold wind_from_uv in W; congruence).
  injection E as <- <-. split; [rewrite W0; auto|]. split; [apply fmod_range; lra|]. cbn [snd].
  exists (0.5 * s * sin (2 * deg2rad (wd0 - w_aspect t))).
  set (a := deg2rad (wd0 - w_aspect t)). replace (-2 * a) with (- (2 * a)) by ring. rewrite sin_neg.
  replace (- 0.5 * s * - sin (2 * a)) with (0.5 * s * sin (2 * a)) by lra.
  exists (- Int_part ((wd0 + 0.5 * s * sin (2 * a)) / 360))%Z. unfold fmod. rewrite opp_IZR. split; [ring|]. split; auto.
  intros B. pose proof (SIN_bound (2 * a)) as SB. set (q := sin (2 * a)) in *. split; nra.
Qed.
Print Assumptions c79_one.
(** The speed handed to the model is at least 0.1 m/s. *)
Theorem c79_speed_range : forall v w, liston_speed v = Some w -> 0.1 <= w /\ (forall x, v = Some x -> 0.1 <= x -> w = x).
Proof.
  intros [x|] w E; [|discriminate]. injection E as <-. split; [apply Rmax_r|]. intros y Q H. injection Q as <-. rewrite Rmax_left; lra.
Qed.
Print Assumptions c79_speed_range.
(** On flat (or any uniformly exposed) terrain all wind speeds and directions are missing. *)
Theorem c79_available_refuted : exists ts, ts <> [] /\ (forall t, In t ts -> w_slope t = 0) /\
  forall sw cw r, In r (liston sw cw ts) -> r = (None, None).
Proof.
  exists [WT 3 4 0 0 0; WT 1 2 0 90 0]. split; [discriminate|]. split; [intros t [<-|[<-|[]]]; auto|].
  intros sw cw r I. unfold liston in I. apply in_map_iff in I. destruct I as [[t s] [<- I]].
  pose proof (in_combine_r _ _ _ _ I) as J. apply c66_constant in J.
  - subst s. unfold liston_one. cbn [fst snd]. destruct (wind_from_uv _ _). auto.
  - assert (Z : forall t, w_slope t = 0 -> wind_slope t = 0) by (intros u U; unfold wind_slope; rewrite U; unfold deg2rad at 1; ring).
    intros a b [A|[A|[]]] [B|[B|[]]]; injection A as <-; injection B as <-; rewrite !Z by auto; auto.
Qed.
Print Assumptions c79_available_refuted.
