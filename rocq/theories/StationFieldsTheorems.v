(** Theorems about the meteorological fields of a time step, interpolated from stations (C110). *)
From Verif Require Import Common Constants AtmosphereModel AtmosphereProofs AtmosphereTheorems ForcingModel ForcingTheorems
  InterpModel InterpProofs InterpTheorems StationFieldsModel.
Open Scope R_scope.

(** * Specification *)
(** A station reports values for some variables at a date if its position and all of these variables are known. *)
Definition position (s : mstn) (x y z : R) : Prop := m_x s = Some x /\ m_y s = Some y /\ m_z s = Some z.
Definition reports (f : mstn -> num) (s : mstn) : Prop := (exists x y z, position s x y z) /\ f s <> None.
(** The reporting stations, in the order of the data set *)
Inductive reporting (f : mstn -> num) : list mstn -> list stn -> Prop :=
  | rep_none : reporting f [] []
  | rep_skip s l r : ~ reports f s -> reporting f l r -> reporting f (s :: l) r
  | rep_keep s l r x y z v : position s x y z -> f s = Some v -> reporting f l r -> reporting f (s :: l) (SN x y z v 0 :: r).
Inductive reporting2 (f h : mstn -> num) : list mstn -> list stn -> Prop :=
  | rep2_none : reporting2 f h [] []
  | rep2_skip s l r : ~ (reports f s /\ reports h s) -> reporting2 f h l r -> reporting2 f h (s :: l) r
  | rep2_keep s l r x y z v w : position s x y z -> f s = Some v -> h s = Some w -> reporting2 f h l r ->
      reporting2 f h (s :: l) (SN x y z v w :: r).
(** All six fields cover the grid. *)
Definition sized (g : grid) (s : mfields) : Prop :=
  Forall (fun f => length f = length g) [f_temp s; f_precip s; f_rel_hum s; f_wind_speed s; f_wind_dir s; f_gust s].
Definition same_at (k : nat) (s s' : mfields) : Prop :=
  forall f, In f [f_temp; f_precip; f_rel_hum; f_wind_speed; f_wind_dir; f_gust] -> nth_error (f s') k = nth_error (f s) k.

(** * Lemmas *)
Lemma one_param_reporting f l : reporting f l (one_param f l).
Proof.
  induction l as [|s l IH]; [constructor|]. cbn [one_param flat_map]. fold (one_param f l).
  destruct (f s) as [v|] eqn:F; [|apply rep_skip; auto; intros [_ N]; auto].
  destruct (m_x s) as [x|] eqn:X; [|apply rep_skip; auto; intros [[? [? [? [P _]]]] _]; congruence].
  destruct (m_y s) as [y|] eqn:Y; [|apply rep_skip; auto; intros [[? [? [? [_ [P _]]]]] _]; congruence].
  destruct (m_z s) as [z|] eqn:Z; [|apply rep_skip; auto; intros [[? [? [? [_ [_ P]]]]] _]; congruence].
  apply rep_keep; auto. repeat split; auto.
Qed.
Lemma two_params_reporting f h l : reporting2 f h l (two_params f h l).
Proof.
  induction l as [|s l IH]; [constructor|]. cbn [two_params flat_map]. fold (two_params f h l).
  destruct (f s) as [v|] eqn:F; [|apply rep2_skip; auto; intros [[_ N] _]; auto].
  destruct (h s) as [w|] eqn:H; [|apply rep2_skip; auto; intros [_ [_ N]]; auto].
  destruct (m_x s) as [x|] eqn:X; [|apply rep2_skip; auto; intros [[[? [? [? [P _]]]] _] _]; congruence].
  destruct (m_y s) as [y|] eqn:Y; [|apply rep2_skip; auto; intros [[[? [? [? [_ [P _]]]]] _] _]; congruence].
  destruct (m_z s) as [z|] eqn:Z; [|apply rep2_skip; auto; intros [[[? [? [? [_ [_ P]]]]] _] _]; congruence].
  apply rep2_keep; auto. repeat split; auto.
Qed.
Lemma reporting_fun f l r : reporting f l r -> r = one_param f l.
Proof.
  induction 1 as [|s l r N _ IH|s l r x y z v P V _ IH]; auto; cbn [one_param flat_map]; fold (one_param f l).
  - rewrite <- IH. destruct (f s) eqn:F; auto. destruct (m_x s) eqn:X; auto. destruct (m_y s) eqn:Y; auto. destruct (m_z s) eqn:Z; auto.
    exfalso. apply N. split; [|congruence]. repeat eexists; eauto.
  - destruct P as [-> [-> ->]]. rewrite V, IH. auto.
Qed.
Lemma reporting2_fun f h l r : reporting2 f h l r -> r = two_params f h l.
Proof.
  induction 1 as [|s l r N _ IH|s l r x y z v w P V W _ IH]; auto; cbn [two_params flat_map]; fold (two_params f h l).
  - rewrite <- IH. destruct (f s) eqn:F; auto. destruct (h s) eqn:H; auto. destruct (m_x s) eqn:X; auto. destruct (m_y s) eqn:Y; auto. destruct (m_z s) eqn:Z; auto.
    exfalso. apply N. split; (split; [|congruence]); repeat eexists; eauto.
  - destruct P as [-> [-> ->]]. rewrite V, W, IH. auto.
Qed.
Lemma reporting_in f l r : reporting f l r -> forall q, In q r <-> exists s, In s l /\ position s (s_x q) (s_y q) (s_z q) /\ f s = Some (s_v q) /\ s_temp q = 0.
Proof.
  induction 1 as [|s l r N _ IH|s l r x y z v P V _ IH]; intros q.
  - split; [intros []|intros [s [[] _]]].
  - rewrite IH. split.
    + intros [u [I U]]. exists u. cbn; auto.
    + intros [u [[<-|I] [U1 [U2 U3]]]].
      * exfalso. apply N. split; [do 3 eexists; exact U1|congruence].
      * exists u; auto.
  - cbn [In]. rewrite IH. split.
    + intros [<-|[u [I U]]]; [exists s; cbn; auto|exists u; split; auto].
    + intros [u [[<-|I] [U1 [U2 U3]]]]; [left|right; exists u; auto].
      destruct P as [P1 [P2 P3]], U1 as [Q1 [Q2 Q3]]. destruct q as [qx qy qz qv qt]. cbn in *. congruence.
Qed.
Lemma each_nth {A} (f : A -> ierr + num) l vs : each f l = inr vs ->
  length vs = length l /\ forall j a, nth_error l j = Some a -> exists v, nth_error vs j = Some v /\ f a = inr v.
Proof.
  revert vs. induction l as [|a l IH]; intros vs E; cbn in E.
  - injection E as <-. split; auto. intros [|j] b J; discriminate.
  - destruct (f a) as [e|v] eqn:F; [discriminate|]. destruct (each f l) as [e|ws] eqn:W; [discriminate|]. cbn in E. injection E as <-.
    destruct (IH ws eq_refl) as [L H]. split; [cbn; congruence|]. intros [|j] b J; cbn in *; [|apply H; auto].
    injection J as <-. eauto.
Qed.
(** The pixels of the region of interest, counted without the others *)
Lemma masked_set_nth g : forall k t, nth_error g k = Some (true, t) -> exists j, nth_error (roi_targets g) j = Some t /\
  (forall field vals, length field = length g -> length vals = length (roi_targets g) ->
    nth_error (masked_set (roi g) field vals) k = nth_error vals j) /\
  (forall field, length field = length g -> nth_error (masked_get (roi g) field) j = nth_error field k).
Proof.
  unfold roi, roi_targets. induction g as [|[b u] g IH]; intros [|k] t H; cbn in H; try discriminate.
  - injection H as -> ->. exists O. cbn. split; auto. split.
    + intros [|x f] [|v vs] L1 L2; try discriminate. auto.
    + intros [|x f] L; try discriminate. auto.
  - destruct (IH k t H) as [j [J1 [J2 J3]]]. destruct b; cbn.
    + exists (S j). cbn. split; auto. split.
      * intros [|x f] [|v vs] L1 L2; try discriminate. cbn. apply J2; cbn in *; lia.
      * intros [|x f] L; try discriminate. cbn. apply J3. cbn in L. lia.
    + exists j. split; auto. split.
      * intros [|x f] vs L1 L2; try discriminate. cbn. apply J2; cbn in *; auto.
      * intros [|x f] L; try discriminate. cbn. apply J3. cbn in L. lia.
Qed.
Lemma masked_set_out g : forall k t field vals, nth_error g k = Some (false, t) -> nth_error (masked_set (roi g) field vals) k = nth_error field k.
Proof.
  unfold roi. induction g as [|[b u] g IH]; intros [|k] t [|x f] vals H; cbn in *; try discriminate; auto.
  - destruct b; auto.
  - injection H as -> ->. auto.
  - destruct b; auto.
  - destruct b; [destruct vals|]; cbn; auto; eapply IH; eauto.
Qed.
Lemma masked_set_length m : forall field vals, length (masked_set m field vals) = length field.
Proof.
  induction m as [|b m IH]; intros [|x f] vals; cbn; auto; destruct b; cbn; auto. destruct vals; cbn; auto.
Qed.
Lemma masked_get_length g : forall field, length field = length g -> length (masked_get (roi g) field) = length (roi_targets g).
Proof.
  unfold roi, roi_targets. induction g as [|[b u] g IH]; intros [|x f] L; try discriminate; auto. cbn in L. destruct b; cbn; rewrite IH; lia.
Qed.
Lemma combine_nth_some {A B} (l : list A) (r : list B) j a b :
  nth_error l j = Some a -> nth_error r j = Some b -> nth_error (combine l r) j = Some (a, b).
Proof. revert l r. induction j; intros [|x l] [|y r] H1 H2; cbn in *; try discriminate; [congruence|auto]. Qed.

(** * The values of the region of interest *)
(** In the region of interest, temperature and precipitation are the interpolation of the stations reporting them, and
    humidity is that of the stations reporting humidity and temperature, using the temperature of the same time step
    at the same pixel. *)
Theorem c110_values : forall c g l s s', sized g s -> interpolate_station_data c g l s = inr s' ->
  exists lt lp lh, reporting m_temp l lt /\ reporting m_precip l lp /\ reporting2 m_rel_hum m_temp l lh /\
  forall k t, nth_error g k = Some (true, t) -> exists temp precip hum,
    nth_error (f_temp s') k = Some temp /\ interpolate_param ITemp (d_temp c) lt (t_x t) (t_y t) (t_z t) None = inr temp /\
    nth_error (f_precip s') k = Some precip /\ interpolate_param IPrecip (d_precip c) lp (t_x t) (t_y t) (t_z t) None = inr precip /\
    nth_error (f_rel_hum s') k = Some hum /\ interpolate_param IRelHum (d_hum c) lh (t_x t) (t_y t) (t_z t) temp = inr hum.
Proof.
  intros c g l s s' SZ E. exists (one_param m_temp l), (one_param m_precip l), (two_params m_rel_hum m_temp l).
  do 2 (split; [apply one_param_reporting|]). split; [apply two_params_reporting|]. intros k t K.
  assert (T : exists s1, thermal_fields c g l s = inr s1 /\ f_temp s' = f_temp s1 /\ f_precip s' = f_precip s1 /\ f_rel_hum s' = f_rel_hum s1).
  { unfold interpolate_station_data in E. destruct (thermal_fields c g l s) as [e|s1]; [discriminate|]. exists s1. split; auto. cbn in E.
    unfold wind_fields in E. destruct (d_method c); [destruct (interpolate_all _ _ (one_param m_wind_speed l) _)|destruct (liston_correction _ _ _ (two_params m_wind_speed _ l) _)|discriminate];
      cbn in E; try discriminate; (destruct (d_gusts c); [|injection E as <-; auto]).
    - destruct (interpolate_all _ _ _ _); [discriminate|]. injection E as <-. auto.
    - destruct (liston_correction _ _ _ _ _); [discriminate|]. injection E as <-. auto. }
  destruct T as [s1 [T [-> [-> ->]]]]. unfold thermal_fields in T.
  destruct (interpolate_all ITemp _ _ _) as [e|vt] eqn:ET; [discriminate|]. cbn [bind] in T.
  destruct (interpolate_all IPrecip _ _ _) as [e|vp] eqn:EP; [discriminate|]. cbn [bind] in T.
  destruct (interpolate_humidity _ _ _ _) as [e|vh] eqn:EH; [discriminate|]. injection T as <-.
  inversion_clear SZ as [|? ? L1 R1]. inversion_clear R1 as [|? ? L2 R2]. inversion_clear R2 as [|? ? L3 R3].
  destruct (masked_set_nth g k t K) as [j [J1 [J2 J3]]].
  apply each_nth in ET, EP, EH. destruct ET as [NT ET], EP as [NP EP], EH as [NH EH].
  destruct (ET j t J1) as [temp [V1 V2]]. destruct (EP j t J1) as [precip [W1 W2]]. cbn [f_temp f_precip f_rel_hum].
  assert (TV : nth_error (masked_set (roi g) (f_temp s) vt) k = Some temp) by (rewrite J2; auto).
  assert (LT : length (masked_set (roi g) (f_temp s) vt) = length g) by (rewrite masked_set_length; auto).
  destruct (EH j (t, temp)) as [hum [X1 X2]].
  { apply combine_nth_some; auto. rewrite J3; auto. }
  exists temp, precip, hum. repeat split; auto; rewrite J2; auto.
  rewrite NH, combine_length, masked_get_length by auto. lia.
Qed.
Print Assumptions c110_values.
(** Outside it nothing changes. *)
Theorem c110_outside : forall c g l s s' k t, interpolate_station_data c g l s = inr s' -> nth_error g k = Some (false, t) ->
  same_at k s s'.
Proof.
  intros c g l s s' k t E K f IF. unfold interpolate_station_data, thermal_fields in E.
  destruct (interpolate_all ITemp _ _ _) as [e|vt]; [discriminate|]. cbn [bind] in E.
  destruct (interpolate_all IPrecip _ _ _) as [e|vp]; [discriminate|]. cbn [bind] in E.
  destruct (interpolate_humidity _ _ _ _) as [e|vh]; [discriminate|]. cbn [bind] in E. unfold wind_fields in E.
  destruct (d_method c); [destruct (interpolate_all _ _ (one_param m_wind_speed l) _)|destruct (liston_correction _ _ _ (two_params m_wind_speed _ l) _)|discriminate];
    cbn [bind] in E; try discriminate; (destruct (d_gusts c);
      [first [destruct (interpolate_all _ _ (one_param m_gust l) _)|destruct (liston_correction _ _ _ (two_params m_gust _ l) _)]; [discriminate|]; cbn [bind] in E|]);
    injection E as <-; cbn in IF; repeat (destruct IF as [<-|IF]); cbn; try (apply (masked_set_out g k t); auto); auto; contradiction.
Qed.
Print Assumptions c110_outside.
(** Inverse distance wind: speed and gusts are interpolated from the stations reporting each; gusts only if the data
    contain them; the wind direction is not touched. *)
Theorem c110_wind_idw : forall c g l s s', sized g s -> d_method c = Idw -> interpolate_station_data c g l s = inr s' ->
  f_wind_dir s' = f_wind_dir s /\ (d_gusts c = false -> f_gust s' = f_gust s) /\
  exists lw lg, reporting m_wind_speed l lw /\ reporting m_gust l lg /\
  forall k t, nth_error g k = Some (true, t) ->
    (exists w, nth_error (f_wind_speed s') k = Some w /\ interpolate_param IWindSpeed (d_wind c) lw (t_x t) (t_y t) (t_z t) None = inr w) /\
    (d_gusts c = true -> exists w, nth_error (f_gust s') k = Some w /\ interpolate_param IWindSpeed (d_wind c) lg (t_x t) (t_y t) (t_z t) None = inr w).
Proof.
  intros c g l s s' SZ M E. unfold interpolate_station_data, thermal_fields in E.
  destruct (interpolate_all ITemp _ _ _) as [e|vt]; [discriminate|]. cbn [bind] in E.
  destruct (interpolate_all IPrecip _ _ _) as [e|vp]; [discriminate|]. cbn [bind] in E.
  destruct (interpolate_humidity _ _ _ _) as [e|vh]; [discriminate|]. cbn [bind] in E. unfold wind_fields in E. rewrite M in E.
  destruct (interpolate_all _ _ (one_param m_wind_speed l) _) as [e|vw] eqn:EW; [discriminate|]. cbn [bind f_gust f_wind_dir f_wind_speed] in E.
  inversion_clear SZ as [|? ? L1 R1]. inversion_clear R1 as [|? ? L2 R2]. inversion_clear R2 as [|? ? L3 R3].
  inversion_clear R3 as [|? ? L4 R4]. inversion_clear R4 as [|? ? L5 R5]. inversion_clear R5 as [|? ? L6 R6].
  apply each_nth in EW. destruct EW as [NW EW].
  assert (Q : f_wind_dir s' = f_wind_dir s /\ f_wind_speed s' = masked_set (roi g) (f_wind_speed s) vw /\ (d_gusts c = false -> f_gust s' = f_gust s) /\
     (d_gusts c = true -> exists vg, interpolate_all IWindSpeed (d_wind c) (one_param m_gust l) (roi_targets g) = inr vg /\ f_gust s' = masked_set (roi g) (f_gust s) vg)).
  { destruct (d_gusts c).
    - destruct (interpolate_all _ _ (one_param m_gust l) _) as [e|vg]; [discriminate|]. injection E as <-. cbn.
      split; auto. split; auto. split; [discriminate|]. intros _. exists vg. auto.
    - injection E as <-. cbn. split; auto. split; auto. split; auto. discriminate. }
  destruct Q as [Q1 [Q2 [Q3 Q4]]]. split; auto. split; auto. exists (one_param m_wind_speed l), (one_param m_gust l).
  do 2 (split; [apply one_param_reporting|]). intros k t K. destruct (masked_set_nth g k t K) as [j [J1 [J2 J3]]]. split.
  - destruct (EW j t J1) as [w [W1 W2]]. exists w. split; auto. rewrite Q2, J2; auto.
  - intros G. destruct (Q4 G) as [vg [EG Q5]]. apply each_nth in EG. destruct EG as [NG EG]. destruct (EG j t J1) as [w [W1 W2]].
    exists w. split; auto. rewrite Q5, J2; auto.
Qed.
Print Assumptions c110_wind_idw.
(** A method other than the two is an error. *)
Theorem c110_wind_method : forall c g l s, d_method c = OtherWind -> exists e, interpolate_station_data c g l s = inl e.
Proof.
  intros c g l s M. unfold interpolate_station_data. destruct (thermal_fields c g l s) as [e|s1]; [exists e; auto|].
  exists DNotImplemented. cbn. unfold wind_fields. rewrite M. auto.
Qed.
Print Assumptions c110_wind_method.

(** * Wind after Liston and Elder *)
(** The wind components measured by stations with speed [s_v] and direction [s_temp] *)
Definition east (l : list stn) : list stn := map (fun s => SN (s_x s) (s_y s) (s_z s) (- s_v s * sin (s_temp s * (PI / 180))) 0) l.
Definition north (l : list stn) : list stn := map (fun s => SN (s_x s) (s_y s) (s_z s) (- s_v s * cos (s_temp s * (PI / 180))) 0) l.
(** The interpolated components at a pixel *)
Definition wind_at (c : icfg) (l : list stn) (t : target) (u v : num) : Prop :=
  interpolate_param IWindVec c (east l) (t_x t) (t_y t) (t_z t) None = inr u /\
  interpolate_param IWindVec c (north l) (t_x t) (t_y t) (t_z t) None = inr v.
Definition direction (u v : R) : R := snd (wind_from_uv u v).
(** The slope (in radians) in the direction of the wind *)
Definition along (t : target) (u v : R) : R := t_slope t * (PI / 180) * cos ((direction u v - t_aspect t) * (PI / 180)).
(** The least and the greatest of these slopes in the region of interest *)
Definition extremes (c : icfg) (g : grid) (l : list stn) (lo hi : R) : Prop :=
  (exists t u v, In (true, t) g /\ wind_at c l t (Some u) (Some v) /\ along t u v = lo) /\
  (exists t u v, In (true, t) g /\ wind_at c l t (Some u) (Some v) /\ along t u v = hi) /\
  (forall t u v, In (true, t) g -> wind_at c l t (Some u) (Some v) -> lo <= along t u v <= hi).
(** The corrected wind [ws], [wd] of a pixel [t]: the interpolated wind, faster on slopes exposed to the wind and on
    convex terrain, and turned by the terrain. *)
Definition corrected (sw cw : R) (c : icfg) (g : grid) (l : list stn) (t : target) (ws wd : num) : Prop :=
  exists mu mv, wind_at c l t mu mv /\
  match mu, mv with
  | Some u, Some v => exists lo hi, extremes c g l lo hi /\
      (lo = hi -> ws = None /\ wd = None) /\
      (lo < hi -> let s := (along t u v - lo) / (hi - lo) - 1/2 in
         ws = Some (Rmax (sqrt (u * u + v * v) * (1 + sw * s + cw * t_curv t)) 0.1) /\
         exists d (k : Z), wd = Some d /\ 0 <= d < 360 /\
           d = direction u v + s / 2 * sin (2 * ((direction u v - t_aspect t) * (PI / 180))) + 360 * IZR k)
  | _, _ => ws = None /\ wd = None
  end.
Lemma roi_targets_in g t : In t (roi_targets g) <-> In (true, t) g.
Proof.
  unfold roi_targets. rewrite in_map_iff. split.
  - intros [[b u] [E I]]. apply filter_In in I. cbn in *. destruct I as [I B]. congruence.
  - intros I. exists (true, t). split; auto. apply filter_In. auto.
Qed.
Lemma normalize_nth (data : list (option R)) lo hi a b j : nanmin data = Some a -> nanmax data = Some b ->
  nth_error (normalize_array data lo hi) j =
  match nth_error data j with
  | Some (Some v) => Some (if Req_EM_T (b - a) 0 then None else Some (lo + (hi - lo) / (b - a) * (v - a)))
  | Some None => Some None
  | None => None
  end.
Proof.
  intros A B. unfold normalize_array. rewrite A, B.
  destruct (Req_EM_T (b - a) 0); revert j; clear A B; induction data as [|x data IH]; intros [|j]; cbn; auto; destruct x; auto.
Qed.
Lemma normalize_length data lo hi : length (normalize_array data lo hi) = length data.
Proof. unfold normalize_array. destruct (nanmin data), (nanmax data); try destruct (Req_EM_T _ _); apply map_length. Qed.
Lemma nth_some_lt {A} (l : list A) j : (j < length l)%nat -> exists a, nth_error l j = Some a.
Proof. intros H. destruct (nth_error l j) eqn:E; eauto. apply nth_error_None in E. lia. Qed.
Lemma nanmin_some l x : In (Some x) l -> exists a, nanmin l = Some a.
Proof.
  induction l as [|y l IH]; cbn; [intros []|]. intros [->|I]; [destruct (nanmin l); eauto|].
  destruct (IH I) as [a ->]. destruct y; eauto.
Qed.
Lemma nanmax_some l x : In (Some x) l -> exists a, nanmax l = Some a.
Proof.
  induction l as [|y l IH]; cbn; [intros []|]. intros [->|I]; [destruct (nanmax l); eauto|].
  destruct (IH I) as [a ->]. destruct y; eauto.
Qed.
Lemma liston_corrected sw cw c g l w : liston_correction sw cw c l (roi_targets g) = inr w ->
  length w = length (roi_targets g) /\
  forall j t, nth_error (roi_targets g) j = Some t -> exists x, nth_error w j = Some x /\ corrected sw cw c g l t (liston_speed (fst x)) (snd x).
Proof.
  intros E. unfold liston_correction in E.
  destruct (interpolate_all IWindVec c (component fst l) (roi_targets g)) as [e|us] eqn:EU; [discriminate|]. cbn [bind] in E.
  destruct (interpolate_all IWindVec c (component snd l) (roi_targets g)) as [e|vs] eqn:EV; [discriminate|]. cbn [bind] in E.
  assert (EW : w = liston_fields sw cw (map (fun x => wind_target (fst x) (snd x)) (combine (roi_targets g) (combine us vs)))) by congruence. clear E.
  apply each_nth in EU, EV. destruct EU as [NU EU], EV as [NV EV].
  set (ws := map (fun x => wind_target (fst x) (snd x)) (combine (roi_targets g) (combine us vs))) in *.
  set (sl := map (fun w => match w with Some t => Some (wind_slope t) | None => None end) ws) in *.
  assert (LW : length ws = length (roi_targets g)) by (subst ws; rewrite map_length, !combine_length; lia).
  assert (AT : forall j t, nth_error (roi_targets g) j = Some t -> exists u v, wind_at c l t u v /\ nth_error ws j = Some (wind_target t (u, v))).
  { intros j t J. destruct (EU j t J) as [u [U1 U2]]. destruct (EV j t J) as [v [V1 V2]]. exists u, v. split; [split; auto|].
    subst ws. rewrite nth_error_map. erewrite combine_nth_some; [|exact J|apply combine_nth_some; eauto]. auto. }
  assert (SL : forall x, In (Some x) sl <-> exists t u v, In (true, t) g /\ wind_at c l t (Some u) (Some v) /\ along t u v = x).
  { intros x. split.
    - intros I. unfold sl in I. apply in_map_iff in I. destruct I as [o [E1 I]]. apply In_nth_error in I. destruct I as [j I].
      destruct (nth_some_lt (roi_targets g) j) as [t J]; [rewrite <- LW; apply nth_error_Some; congruence|].
      destruct (AT j t J) as [u [v [W1 W2]]]. rewrite W2 in I. injection I as <-. unfold wind_target in E1.
      destruct u as [u|], v as [v|]; try discriminate. injection E1 as <-. exists t, u, v. split; [|split; auto].
      apply roi_targets_in. eapply nth_error_In; eauto.
    - intros [t [u [v [I [W <-]]]]]. apply roi_targets_in in I. apply In_nth_error in I. destruct I as [j J].
      destruct (AT j t J) as [u' [v' [W1 W2]]]. destruct W as [X1 X2], W1 as [Y1 Y2]. rewrite X1 in Y1. rewrite X2 in Y2.
      injection Y1 as <-. injection Y2 as <-. cbn in W2. apply nth_error_In in W2. unfold sl. apply in_map_iff. eexists. split; [|exact W2]. auto. }
  assert (LN : length (normalize_array sl (- 0.5) 0.5) = length ws) by (rewrite normalize_length; apply map_length).
  split.
  { rewrite EW. unfold liston_fields. fold sl. rewrite map_length, combine_length. lia. }
  intros j t J. destruct (AT j t J) as [mu [mv [W1 W2]]].
  assert (SJ : nth_error sl j = Some (match wind_target t (mu, mv) with Some t => Some (wind_slope t) | None => None end)).
  { unfold sl. rewrite nth_error_map, W2. auto. }
  destruct (nth_some_lt (normalize_array sl (- 0.5) 0.5) j) as [sc SC]; [rewrite LN, LW; apply nth_error_Some; congruence|].
  assert (X : nth_error w j = Some (match wind_target t (mu, mv) with Some t => liston_one sw cw t sc | None => (None, None) end)).
  { rewrite EW. unfold liston_fields. fold sl. rewrite nth_error_map. erewrite combine_nth_some; [|exact W2|exact SC]. auto. }
  eexists. split; [exact X|]. exists mu, mv. split; auto.
  destruct mu as [u|], mv as [v|]; cbn [wind_target fst snd]; auto.
  cbn [wind_target] in SJ. assert (IS : In (Some (along t u v)) sl).
  { apply SL. exists t, u, v. split; auto. apply roi_targets_in. eapply nth_error_In; eauto. }
  destruct (nanmin_some _ _ IS) as [a A]. destruct (nanmax_some _ _ IS) as [b B].
  pose proof (normalize_nth sl (- 0.5) 0.5 a b j A B) as NJ. rewrite SC, SJ in NJ. injection NJ as ->.
  apply nanmin_spec in A. apply nanmax_spec in B. destruct A as [A1 A2], B as [B1 B2].
  exists a, b. split; [|split].
  - split; [apply SL; auto|]. split; [apply SL; auto|]. intros t' u' v' I W. split; [apply A2|apply B2]; apply SL; exists t', u', v'; auto.
  - intros ->. destruct (Req_EM_T (b - b) 0); [|lra]. unfold liston_one. destruct (wind_from_uv _ _). auto.
  - intros L. cbv zeta. destruct (Req_EM_T (b - a) 0); [lra|].
    set (t1 := WT u v (t_slope t) (t_aspect t) (t_curv t)).
    assert (WS : wind_slope t1 = along t u v) by reflexivity. rewrite WS.
    set (s := - 0.5 + (0.5 - - 0.5) / (b - a) * (along t u v - a)).
    assert (ES : (along t u v - a) / (b - a) - 1/2 = s) by (unfold s; replace (0.5 - - 0.5) with 1 by lra; replace (- 0.5) with (- (1/2)) by lra; field; lra).
    rewrite ES. destruct (liston_one sw cw t1 (Some s)) as [[x|] [d|]] eqn:LO;
      [|unfold liston_one in LO; destruct (wind_from_uv _ _); discriminate..].
    destruct (c79_one _ _ _ _ _ _ LO) as [X1 [X2 [turn [k [X3 [_ X4]]]]]]. cbn [fst snd liston_speed]. split; [rewrite X1; auto|].
    exists d, k. split; auto. split; auto. rewrite X3, X4. unfold direction, deg2rad, t1. cbn [w_u w_v w_aspect]. lra.
Qed.
(** The method of Liston and Elder, from the stations reporting speed and direction; gusts, if the data contain them,
    from those reporting gusts and direction. *)
Theorem c110_wind_liston : forall c g l s s', sized g s -> d_method c = Liston -> interpolate_station_data c g l s = inr s' ->
  (d_gusts c = false -> f_gust s' = f_gust s) /\
  exists lw lg, reporting2 m_wind_speed m_wind_dir l lw /\ reporting2 m_gust m_wind_dir l lg /\
  forall k t, nth_error g k = Some (true, t) ->
    (exists ws wd, nth_error (f_wind_speed s') k = Some ws /\ nth_error (f_wind_dir s') k = Some wd /\
       corrected (d_slope_weight c) (d_curv_weight c) (d_wind c) g lw t ws wd) /\
    (d_gusts c = true -> exists ws wd, nth_error (f_gust s') k = Some ws /\
       corrected (d_slope_weight c) (d_curv_weight c) (d_wind c) g lg t ws wd).
Proof.
  intros c g l s s' SZ M E. unfold interpolate_station_data, thermal_fields in E.
  destruct (interpolate_all ITemp _ _ _) as [e|vt]; [discriminate|]. cbn [bind] in E.
  destruct (interpolate_all IPrecip _ _ _) as [e|vp]; [discriminate|]. cbn [bind] in E.
  destruct (interpolate_humidity _ _ _ _) as [e|vh]; [discriminate|]. cbn [bind] in E. unfold wind_fields in E. rewrite M in E.
  destruct (liston_correction _ _ _ (two_params m_wind_speed m_wind_dir l) _) as [e|vw] eqn:EW; [discriminate|]. cbn [bind f_gust f_wind_dir f_wind_speed] in E.
  inversion_clear SZ as [|? ? L1 R1]. inversion_clear R1 as [|? ? L2 R2]. inversion_clear R2 as [|? ? L3 R3].
  inversion_clear R3 as [|? ? L4 R4]. inversion_clear R4 as [|? ? L5 R5]. inversion_clear R5 as [|? ? L6 R6].
  apply liston_corrected in EW. destruct EW as [NW EW].
  assert (Q : f_wind_dir s' = masked_set (roi g) (f_wind_dir s) (map snd vw) /\
     f_wind_speed s' = masked_set (roi g) (f_wind_speed s) (map (fun x => liston_speed (fst x)) vw) /\ (d_gusts c = false -> f_gust s' = f_gust s) /\
     (d_gusts c = true -> exists vg, liston_correction (d_slope_weight c) (d_curv_weight c) (d_wind c) (two_params m_gust m_wind_dir l) (roi_targets g) = inr vg /\
        f_gust s' = masked_set (roi g) (f_gust s) (map (fun x => liston_speed (fst x)) vg))).
  { destruct (d_gusts c).
    - destruct (liston_correction _ _ _ (two_params m_gust _ l) _) as [e|vg]; [discriminate|]. injection E as <-. cbn.
      split; auto. split; auto. split; [discriminate|]. intros _. exists vg. auto.
    - injection E as <-. cbn. split; auto. split; auto. split; auto. discriminate. }
  destruct Q as [Q1 [Q2 [Q3 Q4]]]. split; auto. exists (two_params m_wind_speed m_wind_dir l), (two_params m_gust m_wind_dir l).
  do 2 (split; [apply two_params_reporting|]). intros k t K. destruct (masked_set_nth g k t K) as [j [J1 [J2 J3]]]. split.
  - destruct (EW j t J1) as [x [W1 W2]]. exists (liston_speed (fst x)), (snd x).
    rewrite Q1, Q2, !J2 by (try rewrite map_length; auto). rewrite !nth_error_map, W1. auto.
  - intros G. destruct (Q4 G) as [vg [EG Q5]]. apply liston_corrected in EG. destruct EG as [NG EG]. destruct (EG j t J1) as [x [W1 W2]].
    exists (liston_speed (fst x)), (snd x). split; auto. rewrite Q5, J2 by (try rewrite map_length; auto). rewrite nth_error_map, W1. auto.
Qed.
Print Assumptions c110_wind_liston.

(** * What the fields depend on *)
Definition same_reports (f : mstn -> num) (s s' : mstn) : Prop := m_x s = m_x s' /\ m_y s = m_y s' /\ m_z s = m_z s' /\ f s = f s'.
Lemma one_param_same f l l' : Forall2 (same_reports f) l l' -> one_param f l = one_param f l'.
Proof.
  induction 1 as [|s s' l l' [X [Y [Z F]]] _ IH]; auto. unfold one_param in *. cbn [flat_map]. rewrite X, Y, Z, F, IH. auto.
Qed.
Lemma two_params_same f h l l' : Forall2 (same_reports f) l l' -> Forall2 (same_reports h) l l' -> two_params f h l = two_params f h l'.
Proof.
  intros A. induction A as [|s s' l l' [X [Y [Z F]]] _ IH]; intros B; auto. inversion_clear B as [|? ? ? ? B1 B2].
  destruct B1 as [_ [_ [_ H]]]. unfold two_params in *. cbn [flat_map]. rewrite X, Y, Z, F, H, IH by auto. auto.
Qed.
(** Each field depends on the measurements of its own variable only (humidity also on temperature), whatever the
    stations report, or do not report, for the others. *)
Theorem c110_depends : forall c g l l' s r r', interpolate_station_data c g l s = inr r -> interpolate_station_data c g l' s = inr r' ->
  (Forall2 (same_reports m_temp) l l' -> f_temp r = f_temp r') /\
  (Forall2 (same_reports m_precip) l l' -> f_precip r = f_precip r') /\
  (Forall2 (same_reports m_temp) l l' -> Forall2 (same_reports m_rel_hum) l l' -> f_rel_hum r = f_rel_hum r') /\
  (d_method c = Idw -> Forall2 (same_reports m_wind_speed) l l' -> f_wind_speed r = f_wind_speed r') /\
  (Forall2 (same_reports m_wind_speed) l l' -> Forall2 (same_reports m_wind_dir) l l' -> f_wind_speed r = f_wind_speed r' /\ f_wind_dir r = f_wind_dir r').
Proof.
  assert (X : forall c g l s r, interpolate_station_data c g l s = inr r -> exists t p h,
    interpolate_all ITemp (d_temp c) (one_param m_temp l) (roi_targets g) = inr t /\ f_temp r = masked_set (roi g) (f_temp s) t /\
    interpolate_all IPrecip (d_precip c) (one_param m_precip l) (roi_targets g) = inr p /\ f_precip r = masked_set (roi g) (f_precip s) p /\
    interpolate_humidity (d_hum c) (two_params m_rel_hum m_temp l) (roi_targets g) (masked_get (roi g) (f_temp r)) = inr h /\ f_rel_hum r = masked_set (roi g) (f_rel_hum s) h /\
    match d_method c with
    | Idw => exists w, interpolate_all IWindSpeed (d_wind c) (one_param m_wind_speed l) (roi_targets g) = inr w /\
        f_wind_speed r = masked_set (roi g) (f_wind_speed s) w /\ f_wind_dir r = f_wind_dir s
    | Liston => exists w, liston_correction (d_slope_weight c) (d_curv_weight c) (d_wind c) (two_params m_wind_speed m_wind_dir l) (roi_targets g) = inr w /\
        f_wind_speed r = masked_set (roi g) (f_wind_speed s) (map (fun x => liston_speed (fst x)) w) /\ f_wind_dir r = masked_set (roi g) (f_wind_dir s) (map snd w)
    | OtherWind => False
    end).
  { clear. intros c g l s r E. unfold interpolate_station_data, thermal_fields in E.
    destruct (interpolate_all ITemp _ _ _) as [e|vt]; [discriminate|]. cbn [bind] in E.
    destruct (interpolate_all IPrecip _ _ _) as [e|vp]; [discriminate|]. cbn [bind] in E.
    destruct (interpolate_humidity _ _ _ _) as [e|vh] eqn:EH; [discriminate|]. cbn [bind] in E. unfold wind_fields in E.
    exists vt, vp, vh.
    destruct (d_method c); [destruct (interpolate_all _ _ (one_param m_wind_speed l) _) as [e|w]|destruct (liston_correction _ _ _ (two_params m_wind_speed _ l) _) as [e|w]|discriminate];
      cbn [bind] in E; try discriminate; (destruct (d_gusts c);
        [first [destruct (interpolate_all _ _ (one_param m_gust l) _)|destruct (liston_correction _ _ _ (two_params m_gust _ l) _)]; [discriminate|]; cbn [bind] in E|]);
      injection E as <-; cbn; (do 6 (split; auto)); exists w; auto. }
  intros c g l l' s r r' E E'. destruct (X _ _ _ _ _ E) as [t [p [h [T1 [T2 [P1 [P2 [H1 [H2 W]]]]]]]]].
  destruct (X _ _ _ _ _ E') as [t' [p' [h' [T1' [T2' [P1' [P2' [H1' [H2' W']]]]]]]]]. clear X E E'.
  assert (TT : Forall2 (same_reports m_temp) l l' -> f_temp r = f_temp r').
  { intros A. rewrite (one_param_same _ _ _ A) in T1. congruence. }
  split; auto. split; [|split; [|split]].
  - intros A. rewrite (one_param_same _ _ _ A) in P1. congruence.
  - intros A B. rewrite (two_params_same _ _ _ _ B A), (TT A) in H1. congruence.
  - intros M A. rewrite M in *. destruct W as [w [W1 [W2 _]]], W' as [w' [W1' [W2' _]]]. rewrite (one_param_same _ _ _ A) in W1. congruence.
  - intros A B. destruct (d_method c); [| |contradiction]; destruct W as [w [W1 [W2 W3]]], W' as [w' [W1' [W2' W3']]].
    + rewrite (one_param_same _ _ _ A) in W1. split; congruence.
    + rewrite (two_params_same _ _ _ _ A B) in W1. split; congruence.
Qed.
Print Assumptions c110_depends.

(** * The pixel of a station *)
Lemma reporting2_in f h l r : reporting2 f h l r ->
  forall q, In q r <-> exists s, In s l /\ position s (s_x q) (s_y q) (s_z q) /\ f s = Some (s_v q) /\ h s = Some (s_temp q).
Proof.
  induction 1 as [|s l r N _ IH|s l r x y z v w P V W _ IH]; intros q.
  - split; [intros []|intros [s [[] _]]].
  - rewrite IH. split.
    + intros [u [I U]]. exists u. cbn; auto.
    + intros [u [[<-|I] [U1 [U2 U3]]]].
      * exfalso. apply N. split; (split; [do 3 eexists; exact U1|congruence]).
      * exists u; auto.
  - cbn [In]. rewrite IH. split.
    + intros [<-|[u [I U]]]; [exists s; cbn; auto|exists u; split; auto].
    + intros [u [[<-|I] [U1 [U2 U3]]]]; [left|right; exists u; auto].
      destruct P as [P1 [P2 P3]], U1 as [Q1 [Q2 Q3]]. destruct q as [qx qy qz qv qt]. cbn in *. congruence.
Qed.
(** No two stations stand at the same place. *)
Definition apart_stations (l : list mstn) : Prop := forall s s' x y z z', In s l -> In s' l -> position s x y z -> position s' x y z' -> s = s'.
Lemma one_place_1 f l r : apart_stations l -> reporting f l r -> one_place r.
Proof.
  intros A R q q' I I' X Y. pose proof (proj1 (reporting_in _ _ _ R q) I) as [s [J [P [V T]]]].
  pose proof (proj1 (reporting_in _ _ _ R q') I') as [s' [J' [P' [V' T']]]]. rewrite <- X, <- Y in P'.
  assert (s = s') by (eapply A; eauto). subst s'. destruct P as [_ [_ P]], P' as [_ [_ P']]. destruct q, q'. cbn in *. congruence.
Qed.
Lemma one_place_2 f h l r : apart_stations l -> reporting2 f h l r -> one_place r.
Proof.
  intros A R q q' I I' X Y. pose proof (proj1 (reporting2_in _ _ _ _ R q) I) as [s [J [P [V T]]]].
  pose proof (proj1 (reporting2_in _ _ _ _ R q') I') as [s' [J' [P' [V' T']]]]. rewrite <- X, <- Y in P'.
  assert (s = s') by (eapply A; eauto). subst s'. destruct P as [_ [_ P]], P' as [_ [_ P']]. destruct q, q'. cbn in *. congruence.
Qed.
Lemma core_station c data l s v : i_max_segments c = 1%nat -> one_place l -> In s l ->
  interpolate_core c data l (s_x s) (s_y s) (s_z s) = inr v -> v = Some (data s).
Proof.
  intros M O I E. destruct (i_trend c) eqn:T.
  - destruct (linear_fit (map s_z l) (map data l)) as [[slope icpt]|] eqn:F.
    + rewrite c33_station_value in E; [congruence|auto|auto|]. left. exists slope. eapply by_regression; eauto.
    + unfold interpolate_core in E. rewrite T, M, F in E. cbn in E. discriminate.
  - rewrite c33_station_value in E; [congruence|auto|auto|]. left. eexists. apply by_fixed; auto.
  - rewrite c33_station_value in E; [congruence|auto|auto|]. left. eexists. apply by_fraction; auto.
  - rewrite c33_adjustment_station in E; auto. congruence.
Qed.
Lemma param_station p c l s v : p = ITemp \/ p = IPrecip -> i_max_segments c = 1%nat -> one_place l -> In s l -> 0 <= s_v s ->
  interpolate_param p c l (s_x s) (s_y s) (s_z s) None = inr v -> v = Some (s_v s).
Proof.
  intros P M O I V E. assert (N : l <> []) by (destruct l; [inversion I|discriminate]).
  assert (EC : interpolate_core c s_v l (s_x s) (s_y s) (s_z s) = inr (Some (s_v s))).
  { destruct (interpolate_core c s_v l (s_x s) (s_y s) (s_z s)) as [e|w] eqn:EC; [|rewrite (core_station _ _ _ _ _ M O I EC); auto].
    exfalso. unfold interpolate_param in E. destruct l; [auto|]. destruct P as [-> | ->]; rewrite EC in E; discriminate. }
  destruct (c33_limits p c l _ _ _ None (s_v s) ltac:(destruct P as [-> | ->]; discriminate) N EC) as [u [w [E1 [E2 [E3 [_ [_ E4]]]]]]].
  rewrite E in E1. injection E1 as ->. rewrite (E4 P). assert (u = s_v s); [|subst u; rewrite Rmax_left; auto].
  destruct (i_extrapolate c); [auto|]. destruct (E3 eq_refl) as [smin [smax [_ [_ [B X]]]]]. unfold into in X.
  destruct (B s I) as [B1 B2]. apply X. auto.
Qed.
(** At the pixel of a station the measurements come out (for humidity with extrapolation). *)
Theorem c110_station : forall c g l s s' k t m, sized g s -> interpolate_station_data c g l s = inr s' ->
  apart_stations l -> In m l -> nth_error g k = Some (true, t) -> position m (t_x t) (t_y t) (t_z t) ->
  (forall v, m_temp m = Some v -> 0 <= v -> i_max_segments (d_temp c) = 1%nat -> nth_error (f_temp s') k = Some (Some v)) /\
  (forall v, m_precip m = Some v -> 0 <= v -> i_max_segments (d_precip c) = 1%nat -> nth_error (f_precip s') k = Some (Some v)) /\
  (forall v rh, m_temp m = Some v -> m_rel_hum m = Some rh -> valid_temp (Some OverWater) v -> 0 <= v -> 0 < rh <= 100 ->
     i_max_segments (d_temp c) = 1%nat -> i_max_segments (d_hum c) = 1%nat -> i_extrapolate (d_hum c) = true ->
     nth_error (f_rel_hum s') k = Some (Some rh)).
Proof.
  intros c g l s s' k t m SZ E A I K P. destruct (c110_values _ _ _ _ _ SZ E) as [lt [lp [lh [RT [RP [RH H]]]]]].
  destruct (H k t K) as [temp [precip [hum [T1 [T2 [P1 [P2 [H1 H2]]]]]]]]. clear H.
  assert (TT : forall v, m_temp m = Some v -> 0 <= v -> i_max_segments (d_temp c) = 1%nat -> temp = Some v).
  { intros v V L M. set (q := SN (t_x t) (t_y t) (t_z t) v 0). assert (IQ : In q lt) by (apply (reporting_in _ _ _ RT); exists m; cbn; auto).
    change v with (s_v q). apply (param_station ITemp (d_temp c) lt q temp); auto. eapply one_place_1; eauto. }
  split; [|split].
  - intros v V L M. rewrite T1, (TT v V L M). auto.
  - intros v V L M. rewrite P1. f_equal. set (q := SN (t_x t) (t_y t) (t_z t) v 0).
    assert (IQ : In q lp) by (apply (reporting_in _ _ _ RP); exists m; cbn; auto).
    change v with (s_v q). apply (param_station IPrecip (d_precip c) lp q precip); auto. eapply one_place_1; eauto.
  - intros v rh V W VT L0 B M MH X. rewrite H1. f_equal. rewrite (TT v V L0 M) in H2.
    set (q := SN (t_x t) (t_y t) (t_z t) rh v). assert (IQ : In q lh) by (apply (reporting2_in _ _ _ _ RH); exists m; cbn; auto).
    assert (O : one_place lh) by (eapply one_place_2; eauto).
    set (dew := fun s => dew_point_temperature (s_temp s) (s_v s)).
    assert (EC : interpolate_core (d_hum c) dew lh (t_x t) (t_y t) (t_z t) = inr (Some (dew q))).
    { destruct (interpolate_core (d_hum c) dew lh (t_x t) (t_y t) (t_z t)) as [e|w] eqn:EC; [|rewrite (core_station _ _ _ q _ MH O IQ EC); auto].
      exfalso. unfold interpolate_param in H2. destruct lh; [inversion IQ|]. fold dew in H2. rewrite EC in H2. discriminate. }
    unfold interpolate_param in H2. destruct lh; [inversion IQ|]. fold dew in H2. rewrite EC, X in H2. cbn [allowed_range] in H2.
    unfold dew in H2. cbn [s_temp s_v q] in H2. rewrite (c25_rel_hum_of_dew_point v rh VT B) in H2. injection H2 as <-.
    unfold clip_opt. cbn [fst snd]. f_equal. rmm; lra.
Qed.
Print Assumptions c110_station.

(** * Availability *)
Definition plain (c : icfg) : Prop := i_max_segments c = 1%nat /\ i_trend c <> AdjustmentFactor.
Lemma core_known c data l x y z v : plain c -> l <> [] -> interpolate_core c data l x y z = inr v -> v <> None.
Proof.
  intros [M T] N E. assert (exists rate, linear_trend c data l rate) as [rate L].
  { destruct (i_trend c) eqn:IT.
    - destruct (linear_fit (map s_z l) (map data l)) as [[slope icpt]|] eqn:F; [exists slope; eapply by_regression; eauto|].
      unfold interpolate_core in E. rewrite IT, M, F in E. discriminate.
    - eexists. apply by_fixed; auto.
    - eexists. apply by_fraction; auto.
    - congruence. }
  rewrite (core_linear _ _ _ _ _ _ _ L) in E. unfold with_trend in E. destruct (idw _ x y 2 0) eqn:W; [congruence|].
  destruct l as [|q l]; [auto|]. exfalso. eapply (proj1 (c32_missing_iff _ _ _ _ _) W). apply stn_usable. exists q. split; [left; auto|eauto].
Qed.
(** Temperature is known in the region of interest exactly if some station reports it; humidity exactly if some station
    reports humidity and temperature; precipitation always (zero if no station reports it). *)
Theorem c110_available : forall c g l s s' k t, sized g s -> interpolate_station_data c g l s = inr s' -> nth_error g k = Some (true, t) ->
  plain (d_temp c) -> plain (d_precip c) -> plain (d_hum c) ->
  (nth_error (f_temp s') k = Some None <-> ~ exists m, In m l /\ reports m_temp m) /\
  (nth_error (f_rel_hum s') k = Some None <-> ~ exists m, In m l /\ reports m_temp m /\ reports m_rel_hum m) /\
  (exists p, nth_error (f_precip s') k = Some (Some p) /\ 0 <= p /\ (~ (exists m, In m l /\ reports m_precip m) -> p = 0)).
Proof.
  intros c g l s s' k t SZ E K PT PP PH. destruct (c110_values _ _ _ _ _ SZ E) as [lt [lp [lh [RT [RP [RH H]]]]]].
  destruct (H k t K) as [temp [precip [hum [T1 [T2 [P1 [P2 [H1 H2]]]]]]]]. clear H.
  assert (N1 : forall f r, reporting f l r -> (r = [] <-> ~ exists m, In m l /\ reports f m)).
  { intros f r R. split.
    - intros -> [m [I [[x [y [z P]]] V]]]. destruct (f m) as [v|] eqn:F; [|auto].
      apply (reporting_in _ _ _ R (SN x y z v 0)). exists m. cbn. auto.
    - intros N. destruct r as [|q r]; auto. exfalso. apply N. destruct (proj1 (reporting_in _ _ _ R q) (or_introl eq_refl)) as [m [I [P [V _]]]].
      exists m. split; auto. split; [do 3 eexists; exact P|congruence]. }
  assert (N2 : lh = [] <-> ~ exists m, In m l /\ reports m_temp m /\ reports m_rel_hum m).
  { split.
    - intros -> [m [I [[[x [y [z P]]] V] [_ W]]]]. destruct (m_temp m) as [v|] eqn:F; [|auto]. destruct (m_rel_hum m) as [w|] eqn:F2; [|auto].
      apply (reporting2_in _ _ _ _ RH (SN x y z w v)). exists m. cbn. auto.
    - intros N. destruct lh as [|q r]; auto. exfalso. apply N. destruct (proj1 (reporting2_in _ _ _ _ RH q) (or_introl eq_refl)) as [m [I [P [V W]]]].
      exists m. split; auto. split; (split; [do 3 eexists; exact P|congruence]). }
  assert (TK : temp = None <-> lt = []).
  { split; [|intros ->; cbn in T2; congruence]. intros ->. destruct lt as [|q lt]; auto. exfalso.
    unfold interpolate_param in T2. destruct (interpolate_core _ _ _ _ _ _) as [e|v] eqn:EC; [discriminate|].
    apply core_known in EC; [|auto|discriminate]. destruct v as [v|]; [|auto]. destruct (i_extrapolate _); discriminate. }
  split; [|split].
  - rewrite T1, <- (N1 _ _ RT), <- TK. split; [intros Q; injection Q as ->; auto|intros ->; auto].
  - rewrite H1, <- N2. split; [|intros L; rewrite L in H2; cbn in H2; injection H2 as <-; auto]. intros Q. injection Q as ->. destruct lh as [|q lh]; auto. exfalso.
    unfold interpolate_param in H2. destruct (interpolate_core _ _ _ _ _ _) as [e|v] eqn:EC; [discriminate|].
    apply core_known in EC; [|auto|discriminate]. destruct v as [v|]; [|auto]. destruct temp as [T|]; [destruct (i_extrapolate _); discriminate|].
    assert (L : lt = []) by (apply TK; auto). apply (N1 _ _ RT) in L. apply L.
    destruct (proj1 (reporting2_in _ _ _ _ RH q) (or_introl eq_refl)) as [m [I [P [V W]]]].
    exists m. split; auto. split; [do 3 eexists; exact P|congruence].
  - destruct precip as [p|].
    + exists p. split; auto. split; [eapply (c33_allowed_range IPrecip); eauto|]. intros N. apply (N1 _ _ RP) in N. subst lp. cbn in P2. congruence.
    + exfalso. destruct lp as [|q lp]; [discriminate|]. unfold interpolate_param in P2. destruct (interpolate_core _ _ _ _ _ _) as [e|v] eqn:EC; [discriminate|].
      apply core_known in EC; [|auto|discriminate]. destruct v as [v|]; [|auto]. destruct (i_extrapolate _); discriminate.
Qed.
Print Assumptions c110_available.

(** * Gusts *)
Definition below (a b : stn) : Prop := s_x a = s_x b /\ s_y a = s_y b /\ s_z a = s_z b /\ s_v a <= s_v b.
Lemma loop_mono (f h : stn -> R) x y : forall l l', Forall2 (fun a b => s_x a = s_x b /\ s_y a = s_y b /\ f a <= h b) l l' ->
  forall W A B, 0 <= W -> (0 < W \/ l <> []) -> A <= B ->
  idw_loop x y 2 0 (map (fun s => (s_x s, s_y s, f s)) l) W A <= idw_loop x y 2 0 (map (fun s => (s_x s, s_y s, h s)) l') W B.
Proof.
  induction 1 as [|a b l l' [X [Y V]] _ IH]; intros W A B W0 N AB; cbn [map idw_loop].
  - destruct N as [N|N]; [|congruence]. apply Rmult_le_compat_r; [|auto]. apply Rlt_le, Rinv_0_lt_compat; auto.
  - replace (distance x y 0 (s_x b, s_y b, h b)) with (distance x y 0 (s_x a, s_y a, f a)) by (unfold distance; rewrite X, Y; auto).
    destruct (Req_EM_T _ 0); [auto|]. cbn [snd]. set (d := Rpower _ 2).
    assert (D : 0 < / d) by (apply Rinv_0_lt_compat; unfold d, Rpower; apply exp_pos).
    apply IH; unfold Rdiv; [lra|left; lra|]. assert (f a * / d <= h b * / d) by (apply Rmult_le_compat_r; lra). lra.
Qed.
Lemma idw_mono (f h : stn -> R) x y l l' v w : Forall2 (fun a b => s_x a = s_x b /\ s_y a = s_y b /\ f a <= h b) l l' ->
  idw (stn_pts f l) x y 2 0 = Some v -> idw (stn_pts h l') x y 2 0 = Some w -> v <= w.
Proof.
  assert (FP : forall k (m : list stn), finite_pts (stn_pts k m) = map (fun s => (s_x s, s_y s, k s)) m).
  { intros k m. induction m as [|s m IH]; auto. unfold finite_pts, stn_pts in *. cbn. f_equal. apply IH. }
  intros F E1 E2. unfold idw in *. rewrite FP in E1, E2. pose proof (loop_mono f h x y l l' F 0 0 0) as L.
  destruct F as [|a b l l' P F]; [discriminate|]. cbn [map] in *.
  assert (E3 : Some (idw_loop x y 2 0 ((s_x a, s_y a, f a) :: map (fun s => (s_x s, s_y s, f s)) l) 0 0) = Some v) by exact E1.
  assert (E4 : Some (idw_loop x y 2 0 ((s_x b, s_y b, h b) :: map (fun s => (s_x s, s_y s, h s)) l') 0 0) = Some w) by exact E2.
  injection E3 as <-. injection E4 as <-. apply L; [lra|right; discriminate|lra].
Qed.
Lemma below_in l l' b : Forall2 below l l' -> In b l' -> exists a, In a l /\ s_v a <= s_v b.
Proof.
  induction 1 as [|a' b' l l' P _ IH]; intros I; [inversion I|]. destruct I as [->|I]; [exists a'; cbn; split; [auto|apply P]|].
  destruct (IH I) as [a [J L]]. exists a. cbn; auto.
Qed.
Lemma below_in' l l' a : Forall2 below l l' -> In a l -> exists b, In b l' /\ s_v a <= s_v b.
Proof.
  induction 1 as [|a' b' l l' P _ IH]; intros I; [inversion I|]. destruct I as [->|I]; [exists b'; cbn; split; [auto|apply P]|].
  destruct (IH I) as [b [J L]]. exists b. cbn; auto.
Qed.
(** If the same stations report speed and gusts, and no gust is below the speed, then with a fixed lapse rate no gust of
    the fields is below the speed. *)
Theorem c110_gusts_partial : forall c g l s s' k t, sized g s -> interpolate_station_data c g l s = inr s' -> nth_error g k = Some (true, t) ->
  d_method c = Idw -> d_gusts c = true -> i_trend (d_wind c) = Fixed -> i_max_segments (d_wind c) = 1%nat ->
  (forall m, In m l -> match m_wind_speed m, m_gust m with Some w, Some q => w <= q | None, None => True | _, _ => False end) ->
  exists w q, nth_error (f_wind_speed s') k = Some w /\ nth_error (f_gust s') k = Some q /\
    match w, q with Some w, Some q => w <= q | None, None => True | _, _ => False end.
Proof.
  intros c g l s s' k t SZ E K M G T S HG. destruct (c110_wind_idw _ _ _ _ _ SZ M E) as [_ [_ [lw [lg [RW [RG H]]]]]].
  destruct (H k t K) as [[w [W1 W2]] HQ]. destruct (HQ G) as [q [Q1 Q2]]. clear H HQ. exists w, q. split; auto. split; auto.
  apply reporting_fun in RW, RG.
  assert (B : Forall2 below lw lg).
  { rewrite RW, RG. clear - HG. induction l as [|m l IH]; [constructor|]. unfold one_param in *. cbn [flat_map].
    apply Forall2_app; [|apply IH; intros; apply HG; right; auto]. specialize (HG m (or_introl eq_refl)).
    destruct (m_wind_speed m), (m_gust m); try contradiction; [|constructor].
    destruct (m_x m), (m_y m), (m_z m); try constructor; [|constructor]. repeat split; auto. }
  clear RW RG. destruct B as [|a b lw lg AB B].
  { cbn in *. injection W2 as <-. injection Q2 as <-. auto. }
  assert (B' : Forall2 below (a :: lw) (b :: lg)) by (constructor; auto). clear AB B. remember (a :: lw) as la. remember (b :: lg) as lb.
  assert (NA : la <> []) by (subst; discriminate). assert (NB : lb <> []) by (subst; discriminate). clear Heqla Heqlb a b lw lg.
  assert (C : forall l, interpolate_core (d_wind c) s_v l (t_x t) (t_y t) (t_z t) = inr (with_trend (fun h => i_lapse (d_wind c) * h) s_v l (t_x t) (t_y t) (t_z t))).
  { intros l0. apply core_linear. apply by_fixed; auto. }
  assert (KN : forall l0, l0 <> [] -> exists r, with_trend (fun h => i_lapse (d_wind c) * h) s_v l0 (t_x t) (t_y t) (t_z t) = Some r).
  { intros l0 N0. destruct (with_trend _ _ l0 _ _ _) as [r|] eqn:W; [eauto|]. exfalso.
    eapply (core_known (d_wind c) s_v l0); [split; [auto|rewrite T; discriminate]|exact N0|rewrite C; reflexivity|exact W]. }
  destruct (KN la NA) as [ra RA]. destruct (KN lb NB) as [rb RB].
  assert (RR : ra <= rb).
  { unfold with_trend in RA, RB. destruct (idw (stn_pts _ la) _ _ 2 0) as [va|] eqn:VA; [|discriminate].
    destruct (idw (stn_pts _ lb) _ _ 2 0) as [vb|] eqn:VB; [|discriminate]. injection RA as <-. injection RB as <-. unfold retrend.
    apply Rplus_le_compat_r. eapply idw_mono; [|exact VA|exact VB]. clear - B'.
    induction B' as [|a b l l' [X [Y [Z V]]] _ IH]; constructor; auto. split; auto. split; auto. unfold detrend. rewrite Z. lra. }
  destruct (c33_limits IWindSpeed (d_wind c) la (t_x t) (t_y t) (t_z t) None ra) as [ua [wa [A1 [A2 [A3 [_ [A4 _]]]]]]]; [discriminate|auto|rewrite C; f_equal; exact RA|].
  destruct (c33_limits IWindSpeed (d_wind c) lb (t_x t) (t_y t) (t_z t) None rb) as [ub [wb [B1 [B2 [B3 [_ [B4 _]]]]]]]; [discriminate|auto|rewrite C; f_equal; exact RB|].
  rewrite A1 in W2. rewrite B1 in Q2. injection W2 as <-. injection Q2 as <-. rewrite A4, B4 by auto.
  assert (UU : ua <= ub); [|rmm; lra]. destruct (i_extrapolate (d_wind c)); [rewrite A2, B2; auto|].
  destruct (A3 eq_refl) as [m1 [x1 [I1 [J1 [K1 L1]]]]]. destruct (B3 eq_refl) as [m2 [x2 [I2 [J2 [K2 L2]]]]].
  destruct (below_in _ _ _ B' I2) as [a [IA LA]]. destruct (below_in' _ _ _ B' J1) as [b [IB LB]].
  pose proof (K1 a IA). pose proof (K2 b IB). pose proof (K1 m1 I1). pose proof (K2 m2 I2). unfold into in *.
  destruct L1 as [L1a [L1c L1b]], L2 as [L2a [L2c L2b]].
  destruct (Rlt_le_dec ra (s_v m1)) as [Q|Q]; [specialize (L1a Q)|destruct (Rlt_le_dec (s_v x1) ra) as [Q'|Q']; [specialize (L1c Q')|specialize (L1b (conj Q Q'))]];
  (destruct (Rlt_le_dec rb (s_v m2)) as [P|P]; [specialize (L2a P)|destruct (Rlt_le_dec (s_v x2) rb) as [P'|P']; [specialize (L2c P')|specialize (L2b (conj P P'))]]); lra.
Qed.
Print Assumptions c110_gusts_partial.

Definition some_cfg : icfg := IC Regression 0 false 1 0 0 (fun _ => None).
Definition fixed_cfg : icfg := IC Fixed 0 true 1 0 0 (fun _ => None).
Definition demo_grid : grid := [(true, TG 0 0 1000 0 0 0); (false, TG 0 100 1100 0 0 0); (true, TG 100 0 1500 10 90 0)].
Definition blank : mfields := let f := [None; Some 7; None] in MF f f f f f f.
(** Station A measures temperature and wind, station B temperature, precipitation, humidity, wind and gusts. *)
Definition station_a : mstn := MS (Some 0) (Some 0) (Some 1000) (Some 280) None None (Some 10) (Some 90) None.
Definition station_b : mstn := MS (Some 100) (Some 0) (Some 1500) (Some 280) (Some 2) (Some 50) (Some 2) (Some 180) (Some 3).
(** Gusts below the wind speed: station A measures a speed of 10 m/s and no gusts, station B a speed of 2 m/s and gusts
    of 3 m/s. At station A the fields have a speed of 10 m/s and gusts of 3 m/s. *)
Lemma single_station p c q x y z t v : p <> IRelHum -> i_trend c = Regression \/ (i_trend c = Fixed /\ i_lapse c = 0) -> i_max_segments c = 1%nat ->
  interpolate_param p c [q] x y z t = inr v ->
  v = Some (match p with IWindSpeed => Rmax (s_v q) 0.1 | IWindVec => s_v q | _ => Rmax (s_v q) 0 end).
Proof.
  intros P T M E.
  assert (EC : interpolate_core c s_v [q] x y z = inr (Some (s_v q))).
  { assert (L : linear_trend c s_v [q] 0).
    { destruct T as [T|[T L]]; [eapply by_regression; eauto; reflexivity|]. rewrite <- L. apply by_fixed; auto. }
    rewrite (core_linear _ _ _ _ _ _ _ L). unfold with_trend. rewrite (stn_const _ [q] x y (s_v q)); [|discriminate|].
    - unfold retrend. do 2 f_equal. ring.
    - intros s [<-|[]]. unfold detrend. ring. }
  destruct (c33_limits p c [q] x y z t (s_v q) P ltac:(discriminate) EC) as [u [w [E1 [E2 [E3 [E4 [E5 E6]]]]]]].
  rewrite E in E1. injection E1 as ->. f_equal.
  assert (U : u = s_v q).
  { destruct (i_extrapolate c); auto. destruct (E3 eq_refl) as [a [b [[<-|[]] [[<-|[]] [_ X]]]]]. unfold into in X. apply X. lra. }
  subst u. destruct p; auto. congruence.
Qed.
(** With linear trends, a known wind method and stations above sea level, the interpolation does not fail. *)
Lemma fit_some zs vs : (forall z, In z zs -> 0 < z) -> linear_fit zs vs <> None.
Proof.
  intros P. unfold linear_fit. destruct (Nat.ltb_spec (length zs) 2) as [L|L]; [discriminate|]. cbv zeta.
  destruct (Req_EM_T _ 0); [|discriminate]. destruct (Req_EM_T (mean zs) 0) as [M|M]; [|discriminate]. exfalso.
  unfold mean in M. assert (N : 0 < INR (length zs)) by (apply lt_0_INR; lia).
  assert (S : 0 < sumR zs).
  { clear - P L. destruct zs as [|z zs]; [cbn in L; lia|]. clear L. revert z P. induction zs as [|w zs IH]; intros z P.
    - rewrite sumR_cons, sumR_nil. pose proof (P z (or_introl eq_refl)). lra.
    - rewrite sumR_cons. pose proof (P z (or_introl eq_refl)). assert (0 < sumR (w :: zs)) by (apply IH; intros; apply P; right; auto). lra. }
  assert (0 < sumR zs / INR (length zs)) by (apply Rdiv_lt_0_compat; auto). lra.
Qed.
Lemma param_ok p c l x y z t : i_max_segments c = 1%nat -> (forall q, In q l -> 0 < s_z q) -> exists v, interpolate_param p c l x y z t = inr v.
Proof.
  intros M Z. destruct l as [|q l0] eqn:EL; [eexists; reflexivity|]. rewrite <- EL in *. unfold interpolate_param. rewrite EL. rewrite <- EL.
  set (data := match p with IRelHum => fun s => dew_point_temperature (s_temp s) (s_v s) | _ => s_v end).
  assert (exists v, interpolate_core c data l x y z = inr v) as [v V].
  { unfold interpolate_core. rewrite M. cbn [Nat.eqb]. destruct (i_trend c); eauto.
    destruct (linear_fit (map s_z l) (map data l)) as [[a b]|] eqn:F; [eauto|]. exfalso. eapply fit_some; [|exact F].
    intros h I. apply in_map_iff in I. destruct I as [s [<- I]]. auto. }
  rewrite V. eauto.
Qed.
Lemma each_ok {A} (f : A -> ierr + num) l : (forall a, exists v, f a = inr v) -> exists vs, each f l = inr vs.
Proof. intros H. induction l as [|a l [vs IH]]; cbn; [eauto|]. destruct (H a) as [v ->]. rewrite IH. cbn. eauto. Qed.
Theorem c110_succeeds : forall c g l s,
  (forall i, In i [d_temp c; d_precip c; d_hum c; d_wind c] -> i_max_segments i = 1%nat) -> d_method c <> OtherWind ->
  (forall m z, In m l -> m_z m = Some z -> 0 < z) -> exists s', interpolate_station_data c g l s = inr s'.
Proof.
  intros c g l s M W Z.
  assert (Z1 : forall f q, In q (one_param f l) -> 0 < s_z q).
  { intros f q I. apply (reporting_in _ _ _ (one_param_reporting f l)) in I. destruct I as [m [I [[_ [_ P]] _]]]. eauto. }
  assert (Z2 : forall f h q, In q (two_params f h l) -> 0 < s_z q).
  { intros f h q I. apply (reporting2_in _ _ _ _ (two_params_reporting f h l)) in I. destruct I as [m [I [[_ [_ P]] _]]]. eauto. }
  assert (A : forall p i r ts, In i [d_temp c; d_precip c; d_hum c; d_wind c] -> (forall q, In q r -> 0 < s_z q) -> exists vs, interpolate_all p i r ts = inr vs).
  { intros p i r ts I H. apply each_ok. intros t. apply param_ok; auto. }
  assert (LC : forall f h, exists w, liston_correction (d_slope_weight c) (d_curv_weight c) (d_wind c) (two_params f h l) (roi_targets g) = inr w).
  { intros f h. unfold liston_correction.
    assert (ZC : forall k q, In q (component k (two_params f h l)) -> 0 < s_z q).
    { intros k q I. unfold component in I. apply in_map_iff in I. destruct I as [s0 [<- I]]. cbn. eauto. }
    destruct (A IWindVec (d_wind c) (component fst (two_params f h l)) (roi_targets g)) as [us ->]; [cbn; auto|apply ZC|].
    destruct (A IWindVec (d_wind c) (component snd (two_params f h l)) (roi_targets g)) as [vs ->]; [cbn; auto|apply ZC|]. cbn. eauto. }
  unfold interpolate_station_data, thermal_fields.
  destruct (A ITemp (d_temp c) (one_param m_temp l) (roi_targets g)) as [vt ->]; [cbn; auto|apply Z1|]. cbn [bind].
  destruct (A IPrecip (d_precip c) (one_param m_precip l) (roi_targets g)) as [vp ->]; [cbn; auto|apply Z1|]. cbn [bind].
  assert (exists vh, interpolate_humidity (d_hum c) (two_params m_rel_hum m_temp l) (roi_targets g) (masked_get (roi g) (masked_set (roi g) (f_temp s) vt)) = inr vh) as [vh ->].
  { apply each_ok. intros t. apply param_ok; [apply M; cbn; auto|apply Z2]. }
  cbn [bind]. unfold wind_fields. destruct (d_method c); [| |congruence].
  - destruct (A IWindSpeed (d_wind c) (one_param m_wind_speed l) (roi_targets g)) as [vw ->]; [cbn; auto|apply Z1|]. cbn [bind].
    destruct (d_gusts c); [|eauto]. destruct (A IWindSpeed (d_wind c) (one_param m_gust l) (roi_targets g)) as [vg ->]; [cbn; auto|apply Z1|]. cbn [bind]. eauto.
  - destruct (LC m_wind_speed m_wind_dir) as [vw ->]. cbn [bind]. destruct (d_gusts c); [|eauto]. destruct (LC m_gust m_wind_dir) as [vg ->]. cbn [bind]. eauto.
Qed.
Print Assumptions c110_succeeds.
Theorem c110_gusts_refuted : exists c g l s s' k w q, sized g s /\ d_method c = Idw /\ d_gusts c = true /\
  (forall m w q, In m l -> m_wind_speed m = Some w -> m_gust m = Some q -> w <= q) /\
  interpolate_station_data c g l s = inr s' /\ nth_error (f_wind_speed s') k = Some (Some w) /\ nth_error (f_gust s') k = Some (Some q) /\ q < w.
Proof.
  set (c := DC some_cfg some_cfg some_cfg some_cfg Idw 0 0 true).
  destruct (c110_succeeds c demo_grid [station_a; station_b] blank) as [s' E].
  { intros i [<-|[<-|[<-|[<-|[]]]]]; auto. }
  { discriminate. }
  { intros m z [<-|[<-|[]]] H; cbn in H; injection H as <-; lra. }
  assert (SZ : sized demo_grid blank) by (repeat constructor).
  exists c, demo_grid, [station_a; station_b], blank, s', O, 10, 3. split; auto. split; auto. split; auto. split.
  { intros m w q [<-|[<-|[]]] H1 H2; cbn in *; [discriminate|]. injection H1 as <-. injection H2 as <-. lra. }
  split; auto. destruct (c110_wind_idw c _ _ _ _ SZ eq_refl E) as [_ [_ [lw [lg [RW [RG H]]]]]].
  apply reporting_fun in RW, RG. cbn in RW, RG. subst lw lg. destruct (H O _ eq_refl) as [[w [W1 W2]] HG]. destruct (HG eq_refl) as [q [Q1 Q2]]. clear H HG.
  cbn [t_x t_y t_z] in *. apply single_station in Q2; [|discriminate|left; auto|auto]. subst q. cbn [s_v] in Q1. rewrite Rmax_left in Q1 by lra.
  split; [|split; [auto|lra]]. rewrite W1. f_equal.
  set (la := [SN 0 0 1000 10 0; SN 100 0 1500 2 0]) in *. set (q := SN 0 0 1000 10 0).
  assert (O : one_place la) by (intros x y [<-|[<-|[]]] [<-|[<-|[]]]; cbn; intros; auto; lra).
  assert (I : In q la) by (left; auto).
  destruct (interpolate_core some_cfg s_v la 0 0 1000) as [e|v] eqn:EC.
  { exfalso. unfold interpolate_param, la in W2. fold la in W2. cbn [d_wind c] in W2. rewrite EC in W2. discriminate. }
  pose proof (core_station some_cfg s_v la q v eq_refl O I EC) as V. subst v. cbn [s_v q] in EC.
  destruct (c33_limits IWindSpeed some_cfg la 0 0 1000 None 10 ltac:(discriminate) ltac:(discriminate) EC) as [u [v [E1 [_ [E3 [_ [E5 _]]]]]]].
  cbn [d_wind c] in W2. rewrite W2 in E1. injection E1 as ->. f_equal. rewrite E5 by auto.
  destruct (E3 eq_refl) as [a [b [_ [_ [B X]]]]]. destruct (B q I) as [B1 B2]. cbn [s_v q] in *. unfold into in X.
  assert (u = 10) by (apply X; auto). subst u. apply Rmax_left. lra.
Qed.
Print Assumptions c110_gusts_refuted.
(** Humidity is missing everywhere if the stations measuring it do not measure temperature, although temperature is known everywhere. *)
Theorem c110_humidity_refuted : exists c g l s s', sized g s /\ interpolate_station_data c g l s = inr s' /\
  (exists m, In m l /\ reports m_rel_hum m) /\ (exists t, nth_error g 0 = Some (true, t)) /\
  forall k t, nth_error g k = Some (true, t) -> (exists v, nth_error (f_temp s') k = Some (Some v)) /\ nth_error (f_rel_hum s') k = Some None.
Proof.
  set (c := DC some_cfg some_cfg some_cfg some_cfg Idw 0 0 true).
  set (h := MS (Some 100) (Some 0) (Some 1500) None None (Some 50) None None None).
  destruct (c110_succeeds c demo_grid [station_a; h] blank) as [s' E].
  { intros i [<-|[<-|[<-|[<-|[]]]]]; auto. }
  { discriminate. }
  { intros m z [<-|[<-|[]]] H; cbn in H; injection H as <-; lra. }
  assert (SZ : sized demo_grid blank) by (repeat constructor).
  exists c, demo_grid, [station_a; h], blank, s'. split; auto. split; auto. split.
  { exists h. split; [right; left; auto|]. split; [|discriminate]. exists 100, 0, 1500. repeat split; auto. }
  split; [eexists; reflexivity|]. intros k t K.
  assert (PL : plain some_cfg) by (split; [auto|discriminate]).
  destruct (c110_available c _ _ _ _ k t SZ E K PL PL PL) as [A [B _]]. split.
  - destruct (c110_values _ _ _ _ _ SZ E) as [lt [lp [lh [_ [_ [_ H]]]]]]. destruct (H k t K) as [temp [pr [hu [T1 _]]]]. rewrite T1.
    destruct temp as [v|]; [eauto|]. exfalso. apply A in T1. apply T1. exists station_a. split; [left; auto|]. split; [|discriminate].
    exists 0, 0, 1000. repeat split; auto.
  - apply B. intros [m [[<-|[<-|[]]] [[_ R1] [_ R2]]]]; cbn in *; auto.
Qed.
Print Assumptions c110_humidity_refuted.

(** A grid of three pixels, the second outside the region of interest: the hypotheses hold, the pixel of station B gets
    its values, and the second pixel keeps its value. *)
Example c110_example : exists s', sized demo_grid blank /\
  interpolate_station_data (DC fixed_cfg fixed_cfg fixed_cfg fixed_cfg Liston 0.5 0.5 true) demo_grid [station_a; station_b] blank = inr s' /\
  nth_error (f_temp s') 2 = Some (Some 280) /\ nth_error (f_precip s') 2 = Some (Some 2) /\ nth_error (f_rel_hum s') 2 = Some (Some 50) /\
  nth_error (f_temp s') 1 = Some (Some 7).
Proof.
  set (c := DC fixed_cfg fixed_cfg fixed_cfg fixed_cfg Liston 0.5 0.5 true).
  destruct (c110_succeeds c demo_grid [station_a; station_b] blank) as [s' E].
  { intros i [<-|[<-|[<-|[<-|[]]]]]; auto. }
  { discriminate. }
  { intros m z [<-|[<-|[]]] H; cbn in H; injection H as <-; lra. }
  assert (SZ : sized demo_grid blank) by (repeat constructor). exists s'. split; auto. split; auto.
  destruct (c110_station c demo_grid [station_a; station_b] blank s' 2 (TG 100 0 1500 10 90 0) station_b) as [H1 [H2 H3]]; auto.
  - clear E SZ c s'. intros s1 s2 x y z z' [<-|[<-|[]]] [<-|[<-|[]]] [P1 [P2 _]] [Q1 [Q2 _]]; cbn in P1, Q1; auto; exfalso;
      injection P1 as <-; injection Q1 as Q1; lra.
  - right; left; auto.
  - repeat split; auto.
  - split; [apply H1; auto; lra|]. split; [apply H2; auto; lra|]. split.
    + apply (H3 280 50); auto; try lra. cbn; unfold T0; lra.
    + rewrite (c110_outside c _ _ _ _ 1%nat (TG 0 100 1100 0 0 0) E eq_refl f_temp); [reflexivity|left; auto].
Qed.
