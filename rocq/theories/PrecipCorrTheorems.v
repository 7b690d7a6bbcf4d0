(** Theorems about the correction of station precipitation (C34). *)
From Verif Require Import Common Constants AtmosphereModel ForcingModel InterpModel.
Open Scope R_scope.

(** The corrections act one after the other by factors which depend on the uncorrected precipitation. *)
Theorem c34_factors : forall ms hw ht z0 s original cur r, correct_precip ms hw ht z0 s original cur = Some r <->
  exists fs, Forall2 (fun m f => corr_factor m hw ht z0 s original = Some f) ms fs /\
    match cur with Some v => r = Some (fold_right Rmult 1 fs * v) | None => r = None end.
Proof.
  intros ms hw ht z0 s o. induction ms as [|m ms IH]; intros cur r; cbn [correct_precip].
  - split.
    + intros E. injection E as <-. exists []. split; [constructor|]. destruct cur; cbn; auto. f_equal. ring.
    + intros [fs [F E]]. inversion F; subst. destruct cur; rewrite E; cbn; auto. do 2 f_equal. ring.
  - destruct (corr_factor m hw ht z0 s o) as [f|] eqn:EF.
    + rewrite IH. split; intros [fs [F E]].
      * exists (f :: fs). split; [constructor; auto|]. destruct cur as [v|]; cbn in *; auto. rewrite E. f_equal. ring.
      * inversion F as [|? g ? gs G1 G2]; subst. exists gs. split; auto. assert (g = f) by congruence. subst g.
        destruct cur as [v|]; cbn in *; auto. rewrite E. f_equal. ring.
    + split; [discriminate|]. intros [fs [F _]]. inversion F; congruence.
Qed.
Print Assumptions c34_factors.
(** Missing stays missing and zero stays zero. *)
Theorem c34_zero_missing : forall ms hw ht z0 s original r,
  (correct_precip ms hw ht z0 s original (Some 0) = Some r -> r = Some 0) /\
  (correct_precip ms hw ht z0 s original None = Some r -> r = None).
Proof.
  intros ms hw ht z0 s o r. split; intros E; apply c34_factors in E; destruct E as [fs [_ E]]; auto. rewrite E. f_equal. ring.
Qed.
Print Assumptions c34_zero_missing.

(** Snow correction factor: the snow part is multiplied by it and the rain part unchanged. *)
Theorem c34_constant_scf : forall scf hw ht z0 s p,
  correct_precip [ConstantScf scf] hw ht z0 s (ps_precip s) (Some p) = Some (Some (scf * (ps_frac s * p) + (1 - ps_frac s) * p)).
Proof. intros. cbn. do 2 f_equal. ring. Qed.
Print Assumptions c34_constant_scf.
Theorem c34_constant_scf_cases : forall scf hw ht z0 s p r,
  correct_precip [ConstantScf scf] hw ht z0 s (ps_precip s) (Some p) = Some (Some r) ->
  (ps_frac s = 1 -> r = scf * p) /\ (ps_frac s = 0 -> r = p) /\
  (0 <= ps_frac s <= 1 -> 0 <= p -> Rmin 1 scf * p <= r <= Rmax 1 scf * p).
Proof.
  intros scf hw ht z0 s p r E. rewrite c34_constant_scf in E. injection E as <-. split; [intros ->; ring|]. split; [intros ->; ring|].
  intros F P. assert (A : Rmin 1 scf <= 1 - ps_frac s + ps_frac s * scf <= Rmax 1 scf).
  { split; rmm; nra. }
  replace (scf * (ps_frac s * p) + (1 - ps_frac s) * p) with ((1 - ps_frac s + ps_frac s * scf) * p) by ring. nra.
Qed.
Print Assumptions c34_constant_scf_cases.

(** Kochendorfer: the catch ratio exp(-a u (1 - atan(b T) + c)), with the wind speed limited to the gauge's maximum;
    without wind or temperature nothing changes. *)
Definition koch_coeff (g : kgauge) : R * R * R * R := (* Kochendorfer et al. (2017), table 3 *)
  match g with
  | KUsUn => (0.045, 1.21, 0.66, 8) | KAllSa => (0.03, 1.04, 0.57, 12) | KNorSa => (0.05, 0.66, 0.23, 12)
  | KUsSa => (0.03, 1.06, 0.63, 12) | KUsDa => (0.021, 0.74, 0.66, 8) | KUsBda => (0.01, 0.48, 0.51, 8)
  | KUsSdfir => (0.004, 0.00, 0.00, 8)
  end.
Lemma koch_factor g hw ht z0 s p : 0 < p -> ps_precip s = Some p ->
  corr_factor (Kochendorfer g) hw ht z0 s (ps_precip s) =
  Some (match ps_wind s, ps_temp s with
        | Some w, Some t => let '(a, b, c, mx) := koch_coeff g in exp (a * Rmin w mx * (1 + c - atan (b * t)))
        | _, _ => 1
        end).
Proof.
  intros P E. unfold corr_factor. rewrite E. cbn [gt0]. destruct (Rlt_dec 0 p); [|lra].
  destruct g; cbn [k_coeffs koch_coeff]; destruct (ps_wind s), (ps_temp s); auto;
    f_equal; unfold Rdiv; rewrite Rmult_1_l, <- exp_Ropp; f_equal; ring.
Qed.
Theorem c34_kochendorfer : forall g hw ht z0 s p a b c mx, 0 < p -> ps_precip s = Some p -> koch_coeff g = (a, b, c, mx) ->
  (forall w t, ps_wind s = Some w -> ps_temp s = Some t ->
     exists r, correct_precip [Kochendorfer g] hw ht z0 s (ps_precip s) (Some p) = Some (Some r) /\
       p = r * exp (- a * Rmin w mx * (1 - atan (b * t) + c))) /\
  (ps_wind s = None \/ ps_temp s = None ->
     correct_precip [Kochendorfer g] hw ht z0 s (ps_precip s) (Some p) = Some (Some p)).
Proof.
  intros g hw ht z0 s p a b c mx P E K. cbn [correct_precip]. rewrite (koch_factor g hw ht z0 s p P E), K. split.
  - intros w t W T. rewrite W, T. eexists. split; [reflexivity|].
    replace (- a * Rmin w mx * (1 - atan (b * t) + c)) with (- (a * Rmin w mx * (1 + c - atan (b * t)))) by ring.
    rewrite exp_Ropp. field. apply Rgt_not_eq, exp_pos.
  - intros [N|N]; rewrite N; [|destruct (ps_wind s)]; cbn; do 2 f_equal; ring.
Qed.
Print Assumptions c34_kochendorfer.
Lemma exp_ge_1 x : 0 <= x -> 1 <= exp x.
Proof. intros H. rewrite <- exp_0. destruct H as [H|<-]; [left; apply exp_increasing; auto|lra]. Qed.
Lemma atan_nonpos x : x <= 0 -> atan x <= 0.
Proof. intros H. rewrite <- atan_0. destruct H as [H| ->]; [left; apply atan_increasing; auto|lra]. Qed.
Lemma PI_upper : PI / 2 < 1.63.
Proof.
  pose proof (proj2 (PI_ineq 4)) as H. cbn [Nat.mul Nat.add] in H. unfold sum_f_R0, tg_alt, PI_tg in H. cbn [Nat.mul Nat.add pow] in H.
  cbn [INR] in H. lra.
Qed.
Lemma numscale_one_le f p : 1 <= f -> 0 < p -> p <= f * p.
Proof. intros. nra. Qed.
(** It never reduces precipitation at or below 0 degC, for the other gauges at any temperature; ... *)
Theorem c34_kochendorfer_no_loss : forall g hw ht z0 s p r, 0 < p -> ps_precip s = Some p ->
  (forall w, ps_wind s = Some w -> 0 <= w) ->
  (forall t, ps_temp s = Some t -> t <= 0) \/ g = KUsUn \/ g = KUsSa \/ g = KUsDa \/ g = KUsSdfir ->
  correct_precip [Kochendorfer g] hw ht z0 s (ps_precip s) (Some p) = Some (Some r) -> p <= r.
Proof.
  intros g hw ht z0 s p r P E W C. cbn [correct_precip]. rewrite (koch_factor g hw ht z0 s p P E). cbn [numscale]. intros Q. injection Q as <-.
  apply numscale_one_le; auto. destruct (ps_wind s) as [w|]; [|lra]. destruct (ps_temp s) as [t|]; [|lra].
  specialize (W w eq_refl). destruct C as [T|G].
  - specialize (T t eq_refl).
    assert (K : forall a b c mx, 0 <= a -> 0 <= b -> 0 <= c -> 0 <= mx -> 1 <= exp (a * Rmin w mx * (1 + c - atan (b * t)))).
    { intros a b c mx A B D M. apply exp_ge_1. apply Rmult_le_pos; [apply Rmult_le_pos; auto; rmm; lra|].
      pose proof (atan_nonpos (b * t) ltac:(nra)). lra. }
    destruct g; cbn; apply K; lra.
  - pose proof PI_upper as PU.
    assert (K : forall a b c mx, 0 <= a -> 0.63 <= c -> 0 <= mx -> 1 <= exp (a * Rmin w mx * (1 + c - atan (b * t)))).
    { intros a b c mx A D M. apply exp_ge_1. apply Rmult_le_pos; [apply Rmult_le_pos; auto; rmm; lra|].
      pose proof (atan_bound (b * t)). lra. }
    destruct G as [->|[->|[->| ->]]]; cbn; try (apply K; lra).
    apply exp_ge_1. replace (0.00 * t) with 0 by lra. rewrite atan_0. apply Rmult_le_pos; [|lra]. apply Rmult_le_pos; [lra|]. rmm; lra.
Qed.
Print Assumptions c34_kochendorfer_no_loss.
(** ... warmer precipitation is corrected less and more wind increases the correction below 0 degC, ... *)
Theorem c34_kochendorfer_monotone : forall g hw ht z0 s s' p r r' w w' t t', 0 < p -> ps_precip s = Some p -> ps_precip s' = Some p ->
  ps_wind s = Some w -> ps_temp s = Some t -> ps_wind s' = Some w' -> ps_temp s' = Some t' -> 0 <= w <= w' ->
  t' <= t -> t' <= 0 \/ w = w' ->
  correct_precip [Kochendorfer g] hw ht z0 s (ps_precip s) (Some p) = Some (Some r) ->
  correct_precip [Kochendorfer g] hw ht z0 s' (ps_precip s') (Some p) = Some (Some r') -> r <= r'.
Proof.
  intros g hw ht z0 s s' p r r' w w' t t' P E E' W T W' T' WW TT C. cbn [correct_precip].
  rewrite (koch_factor g hw ht z0 s p P E), (koch_factor g hw ht z0 s' p P E'), W, T, W', T'. cbn [numscale]. intros Q Q'.
  injection Q as <-. injection Q' as <-.
  assert (EI : forall x y, x <= y -> exp x <= exp y) by (intros x y [L| ->]; [left; apply exp_increasing; auto|lra]).
  assert (K : forall a b c mx, 0 <= a -> 0 <= b -> 0 <= c -> 0 <= mx ->
     exp (a * Rmin w mx * (1 + c - atan (b * t))) <= exp (a * Rmin w' mx * (1 + c - atan (b * t')))).
  { intros a b c mx A B D M. apply EI. rewrite !Rmult_assoc. apply Rmult_le_compat_l; auto.
    assert (AT : atan (b * t') <= atan (b * t)).
    { destruct (Rle_lt_or_eq_dec (b * t') (b * t) ltac:(nra)) as [L|L]; [left; apply atan_increasing; auto|rewrite L; lra]. }
    assert (MW : 0 <= Rmin w mx <= Rmin w' mx) by (rmm; lra).
    destruct C as [C|C].
    - pose proof (atan_nonpos (b * t') ltac:(nra)). set (x := atan (b * t)) in *. set (y := atan (b * t')) in *. nra.
    - subst w'. nra. }
  apply Rmult_le_compat_r; [lra|]. destruct g; cbn; apply K; lra.
Qed.
Print Assumptions c34_kochendorfer_monotone.
Lemma atan_66 : 1.23 < atan 6.6.
Proof.
  pose proof PI2_3_2. assert (A : atan (/ 6.6) < 0.27).
  { assert (Z : atan (tan 0.27) = 0.27) by (apply atan_tan; lra). rewrite <- Z. apply atan_increasing.
    assert (S : 0.26 < sin 0.27).
    { destruct (sin_bound 0.27 0) as [L _]; [lra|lra|]. unfold sin_approx, sin_term in L. cbn in L. lra. }
    assert (C : 0 < cos 0.27) by (apply cos_gt_0; lra). pose proof (COS_bound 0.27). unfold tan.
    apply (Rmult_lt_reg_r (cos 0.27)); auto. unfold Rdiv. rewrite (Rmult_assoc (sin _)), Rinv_l, Rmult_1_r by lra. nra. }
  rewrite atan_inv in A by lra. lra.
Qed.
(** ... but for the gauge nor_sa it reduces rain at 10 degC. *)
Theorem c34_kochendorfer_loss_refuted : exists s r, ps_precip s = Some 5 /\ ps_wind s = Some 4 /\ ps_temp s = Some 10 /\
  correct_precip [Kochendorfer KNorSa] 10 2 0.01 s (ps_precip s) (ps_precip s) = Some (Some r) /\ r < 5.
Proof.
  exists (PS (Some 5) (Some 10) (Some 4) 0), (exp (0.05 * 4 * (1 + 0.23 - atan 6.6)) * 5). split; auto. split; auto. split; auto. split.
  - cbn [correct_precip]. rewrite (koch_factor KNorSa 10 2 0.01 (PS (Some 5) (Some 10) (Some 4) 0) 5 ltac:(lra) eq_refl). cbn [ps_precip ps_wind ps_temp koch_coeff numscale].
    rewrite (Rmin_left 4 12) by lra. replace (0.66 * 10) with 6.6 by lra. auto.
  - pose proof atan_66. assert (exp (0.05 * 4 * (1 + 0.23 - atan 6.6)) < exp 0) by (apply exp_increasing; nra). rewrite exp_0 in *. lra.
Qed.
Print Assumptions c34_kochendorfer_loss_refuted.

(** WMO corrections work for the Hellmann gauge only. *)
Theorem c34_wmo_gauges_refuted : forall g hw ht z0 s p, g <> WHellmann -> correct_precip [Wmo g] hw ht z0 s p p = None.
Proof. intros [] hw ht z0 s p H; auto. congruence. Qed.
Print Assumptions c34_wmo_gauges_refuted.
(** Hellmann gauge, wind speed u at gauge height (at most 7 m/s): snow is increased, up to 5.2 times; rain and
    precipitation without wind data are unchanged. *)
Definition gauge_wind (w hw ht z0 : R) : R := Rmin (w * (ln (ht / z0) / ln (hw / z0))) 7.
Lemma hell_snow_range u : 0 <= u <= 7 -> 19.22 <= 100 + 1.13 * (u * u) - 19.45 * u <= 100.
Proof. intros H. split; nra. Qed.
Theorem c34_hellmann_snow : forall hw ht z0 s p w, 0 < p -> ps_precip s = Some p -> ps_frac s = 1 -> ps_wind s = Some w ->
  0 <= w -> 0 < z0 -> z0 <= ht -> z0 < hw ->
  exists r, correct_precip [Wmo WHellmann] hw ht z0 s (ps_precip s) (Some p) = Some (Some r) /\
    r * (100 + 1.13 * gauge_wind w hw ht z0 ^ 2 - 19.45 * gauge_wind w hw ht z0) = 100 * p /\ p <= r /\ r * 19.22 <= 100 * p.
Proof.
  intros hw ht z0 s p w P E F W W0 Z H1 H2.
  assert (L0 : 0 <= ln (ht / z0)).
  { rewrite <- ln_1. assert (1 <= ht / z0) as [Q|Q].
    - apply (Rmult_le_reg_r z0); auto. unfold Rdiv. rewrite Rmult_assoc, Rinv_l; lra.
    - left. apply ln_increasing; lra.
    - rewrite <- Q. lra. }
  assert (L1 : 0 < ln (hw / z0)).
  { rewrite <- ln_1. apply ln_increasing; [lra|]. apply (Rmult_lt_reg_r z0); auto. unfold Rdiv. rewrite Rmult_assoc, Rinv_l; lra. }
  assert (U : 0 <= gauge_wind w hw ht z0 <= 7).
  { unfold gauge_wind. assert (0 <= w * (ln (ht / z0) / ln (hw / z0))).
    { apply Rmult_le_pos; auto. apply Rmult_le_pos; auto. left. apply Rinv_0_lt_compat; auto. }
    split; rmm; lra. }
  cbn [correct_precip corr_factor wmo_ratio]. unfold kind_snow. rewrite E. cbn [gt0]. destruct (Rlt_dec 0 p); [|lra].
  rewrite F. destruct (Req_EM_T 1 1); [|lra]. cbn [andb orb]. rewrite W. unfold log_wind_profile. fold (gauge_wind w hw ht z0).
  set (u := gauge_wind w hw ht z0) in *. pose proof (hell_snow_range u U) as B. unfold numdiv.
  destruct (Req_EM_T ((100 + 1.13 * (u * u) - 19.45 * u) / 100) 0) as [X|X]; [lra|]. cbn [numscale]. eexists. split; [reflexivity|].
  replace (u ^ 2) with (u * u) by ring. set (d := 100 + 1.13 * (u * u) - 19.45 * u) in *.
  assert (Q : 1 / (d / 100) * p * d = 100 * p) by (field; lra). split; auto.
  set (q := 1 / (d / 100) * p) in *. split; nra.
Qed.
Print Assumptions c34_hellmann_snow.
Theorem c34_hellmann_unchanged : forall hw ht z0 s p, ps_precip s = Some p -> ps_frac s = 0 \/ p <= 0 \/ ps_wind s = None ->
  correct_precip [Wmo WHellmann] hw ht z0 s (ps_precip s) (Some p) = Some (Some p).
Proof.
  intros hw ht z0 s p E C. cbn [correct_precip corr_factor wmo_ratio].
  assert (K : (kind_snow s (ps_precip s) || kind_mixed s (ps_precip s)) = false \/ ps_wind s = None).
  { destruct C as [F|[P|W]]; auto; left; unfold kind_snow, kind_mixed; rewrite E; cbn [gt0].
    - rewrite F. destruct (Req_EM_T 0 1); [lra|]. destruct (Rlt_dec 0 0); [lra|]. rewrite !andb_false_r. auto.
    - destruct (Rlt_dec 0 p); [lra|]. auto. }
  assert (N : numdiv 1 (Some (100 / 100)) = Some 1) by (unfold numdiv; destruct (Req_EM_T _ 0); [lra|]; f_equal; lra).
  destruct K as [-> | ->].
  - cbn [numscale]. rewrite N. cbn. do 2 f_equal. ring.
  - destruct (_ || _); [|rewrite N]; cbn; do 2 f_equal; ring.
Qed.
Print Assumptions c34_hellmann_unchanged.
(** For mixed precipitation within 0.5 degC of freezing the catch ratio is that of the WMO and the result is
    positive and not reduced; ... *)
Theorem c34_hellmann_mixed : forall hw ht z0 s p w t, 0 < p -> ps_precip s = Some p -> 0 < ps_frac s < 1 -> ps_wind s = Some w ->
  ps_temp s = Some t -> 0 <= gauge_wind w hw ht z0 -> - 0.5 <= t <= 0.5 ->
  exists r, correct_precip [Wmo WHellmann] hw ht z0 s (ps_precip s) (Some p) = Some (Some r) /\
    r * (96.63 + 0.41 * gauge_wind w hw ht z0 ^ 2 - 9.84 * gauge_wind w hw ht z0 + 5.95 * t) = 100 * p /\ p <= r.
Proof.
  intros hw ht z0 s p w t P E F W T U TT.
  cbn [correct_precip corr_factor wmo_ratio]. unfold kind_snow, kind_mixed. rewrite E. cbn [gt0]. destruct (Rlt_dec 0 p); [|lra].
  destruct (Req_EM_T (ps_frac s) 1); [lra|]. destruct (Rlt_dec 0 (ps_frac s)); [|lra]. destruct (Rlt_dec (ps_frac s) 1); [|lra].
  cbn [andb orb]. rewrite W, T. unfold log_wind_profile. fold (gauge_wind w hw ht z0).
  assert (U7 : gauge_wind w hw ht z0 <= 7) by apply Rmin_r.
  set (u := gauge_wind w hw ht z0) in *. unfold numdiv. replace (u ^ 2) with (u * u) by ring.
  assert (B : 40 <= 96.63 + 0.41 * (u * u) - 9.84 * u + 5.95 * t <= 100) by (split; nra).
  set (d := 96.63 + 0.41 * (u * u) - 9.84 * u + 5.95 * t) in *.
  destruct (Req_EM_T (d / 100) 0) as [X|X]; [lra|]. cbn [numscale]. eexists. split; [reflexivity|].
  assert (Q : 1 / (d / 100) * p * d = 100 * p) by (field; lra). split; auto.
  set (q := 1 / (d / 100) * p) in *. nra.
Qed.
Print Assumptions c34_hellmann_mixed.
(** ... at -9 degC with 7 m/s (a wide phase transition range) precipitation becomes negative. *)
Theorem c34_hellmann_negative_refuted : exists s r, ps_precip s = Some 1 /\ 0 < ps_frac s < 1 /\
  correct_precip [Wmo WHellmann] 2 2 0.01 s (ps_precip s) (ps_precip s) = Some (Some r) /\ r < 0.
Proof.
  exists (PS (Some 1) (Some (-9)) (Some 7) 0.9). 
  assert (U : Rmin (log_wind_profile 7 2 2 0.01) 7 = 7).
  { unfold log_wind_profile. assert (0 < ln (2 / 0.01)) by (rewrite <- ln_1; apply ln_increasing; lra).
    replace (7 * (ln (2 / 0.01) / ln (2 / 0.01))) with 7 by (field; lra). apply Rmin_left; lra. }
  eexists. split; [reflexivity|]. split; [cbn; lra|].
  cbn [correct_precip corr_factor wmo_ratio ps_precip ps_frac ps_wind ps_temp]. unfold kind_snow, kind_mixed. cbn [gt0 ps_frac].
  destruct (Rlt_dec 0 1); [|lra]. destruct (Req_EM_T 0.9 1); [lra|]. destruct (Rlt_dec 0 0.9); [|lra]. destruct (Rlt_dec 0.9 1); [|lra].
  cbn [andb orb]. rewrite U. unfold numdiv. destruct (Req_EM_T _ 0) as [X|X]; [lra|]. cbn [numscale]. split; [reflexivity|].
  lra.
Qed.
Print Assumptions c34_hellmann_negative_refuted.

(** Values of other stations are used only where a station has none and some other station has one. *)
Lemma fill_avail vals : forall k, flat_map (fun iv : nat * num => match snd iv with Some v => [(fst iv, v)] | None => [] end) (combine (seq k (length vals)) vals) = [] <->
  forall v, In v vals -> v = None.
Proof.
  induction vals as [|v vals IH]; intros k; cbn; [split; auto; intros _ v []|]. destruct v as [v|]; cbn.
  - split; [discriminate|]. intros H. specialize (H (Some v) (or_introl eq_refl)). discriminate.
  - rewrite IH. split; [intros H w [<-|W]; auto|auto].
Qed.
Lemma fill_avail_le vals : forall k, let n := length (flat_map (fun iv : nat * num => match snd iv with Some v => [(fst iv, v)] | None => [] end) (combine (seq k (length vals)) vals)) in
  (n <= length vals)%nat /\ (n = length vals <-> forall v, In v vals -> v <> None).
Proof.
  induction vals as [|v vals IH]; intros k; cbn; [split; auto; split; auto; intros _ v []|].
  destruct (IH (S k)) as [A B]. destruct v as [v|]; cbn.
  - split; [lia|]. split.
    + intros E w [<-|W]; [discriminate|]. apply B; auto.
    + intros H. f_equal. apply B. auto.
  - split; [lia|]. split; [intros E; lia|]. intros H. exfalso. apply (H None); auto.
Qed.
Theorem c34_fill_missing : forall interp vals i, (i < length vals)%nat ->
  exists avail, (forall k v, In (k, v) avail <-> nth_error vals k = Some (Some v)) /\
  nth_error (fill_missing interp vals) i =
    match nth i vals None with
    | Some v => Some (Some v)
    | None => Some (match avail with [] => None | _ => interp avail i end)
    end.
Proof.
  intros interp vals i I.
  set (avail := flat_map (fun iv : nat * num => match snd iv with Some v => [(fst iv, v)] | None => [] end) (combine (seq 0 (length vals)) vals)).
  exists avail. split.
  - assert (G : forall l k0 k v, In (k, v) (flat_map (fun iv : nat * num => match snd iv with Some v => [(fst iv, v)] | None => [] end) (combine (seq k0 (length l)) l)) <->
      (k0 <= k)%nat /\ nth_error l (k - k0) = Some (Some v)).
    { clear. induction l as [|x l IH]; intros k0 k v; cbn [length seq combine flat_map].
      - cbn. split; [tauto|]. intros [_ H]. destruct (k - k0)%nat; discriminate.
      - rewrite in_app_iff, IH. cbn [fst snd]. split.
        + intros [H|[H1 H2]].
          * destruct x as [x|]; [|inversion H]. destruct H as [H|[]]. injection H as <- <-. rewrite Nat.sub_diag. auto.
          * split; [lia|]. replace (k - k0)%nat with (S (k - S k0)) by lia. auto.
        + intros [H1 H2]. destruct (Nat.eq_dec k k0) as [->|N].
          * rewrite Nat.sub_diag in H2. cbn in H2. injection H2 as ->. left. left. auto.
          * right. split; [lia|]. replace (k - k0)%nat with (S (k - S k0)) in H2 by lia. auto. }
    intros k v. unfold avail. rewrite G, Nat.sub_0_r. split; [tauto|]. intros H. split; [lia|auto].
  - assert (NE : nth_error vals i = Some (nth i vals None)) by (apply nth_error_nth'; auto).
    assert (FM : fill_missing interp vals = if (0 <? length avail)%nat && (length avail <? length vals)%nat
      then map (fun iv : nat * num => match snd iv with Some v => Some v | None => interp avail (fst iv) end) (combine (seq 0 (length vals)) vals)
      else vals) by reflexivity.
    rewrite FM. clear FM.
    destruct ((0 <? length avail)%nat && (length avail <? length vals)%nat) eqn:C.
    + apply andb_true_iff in C. destruct C as [C1 C2]. apply Nat.ltb_lt in C1.
      rewrite nth_error_map.
      assert (NC : nth_error (combine (seq 0 (length vals)) vals) i = Some (i, nth i vals None)).
      { clear - I NE. assert (G : forall (l : list num) k0 j, (j < length l)%nat -> nth_error (combine (seq k0 (length l)) l) j = Some ((k0 + j)%nat, nth j l None)).
        { induction l as [|x l IH]; intros k0 [|j] J; cbn in *; try lia; [f_equal; f_equal; lia|].
          rewrite IH by lia. do 2 f_equal. lia. }
        rewrite G; auto. }
      etransitivity; [exact (f_equal (option_map _) NC)|]. cbn [option_map fst snd]. destruct (nth i vals None); auto. destruct avail; [cbn in C1; lia|auto].
    + etransitivity; [exact NE|]. destruct (nth i vals None) eqn:V; auto. f_equal. destruct avail as [|a t] eqn:EA; auto. exfalso.
      rewrite <- EA in C. apply andb_false_iff in C. destruct C as [C|C].
      * apply Nat.ltb_ge in C. rewrite EA in C. cbn in C. lia.
      * apply Nat.ltb_ge in C. destruct (fill_avail_le vals 0) as [L1 L2]. fold avail in L1, L2.
        assert (LE : length avail = length vals) by (apply Nat.le_antisymm; [exact L1|exact C]).
        apply nth_error_In in NE. apply (proj1 L2 LE None NE). auto.
Qed.
Print Assumptions c34_fill_missing.
Example c34_example : exists r, correct_precip [ConstantScf 1.2; Kochendorfer KUsUn] 10 2 0.01 (PS (Some 2) (Some (-3)) (Some 4) 1) (Some 2) (Some 2) = Some (Some r) /\ 2.4 <= r.
Proof.
  assert (EQ : corr_factor (Kochendorfer KUsUn) 10 2 0.01 (PS (Some 2) (Some (-3)) (Some 4) 1) (Some 2) = Some (exp (0.045 * Rmin 4 8 * (1 + 0.66 - atan (1.21 * -3))))).
  { exact (koch_factor KUsUn 10 2 0.01 (PS (Some 2) (Some (-3)) (Some 4) 1) 2 ltac:(lra) eq_refl). }
  cbn [correct_precip]. rewrite EQ. cbn [corr_factor ps_frac numscale]. eexists. split; [reflexivity|].
  assert (1 <= exp (0.045 * Rmin 4 8 * (1 + 0.66 - atan (1.21 * -3)))); [|lra].
  apply exp_ge_1. pose proof (atan_nonpos (1.21 * -3) ltac:(lra)). rewrite (Rmin_left 4 8) by lra. lra.
Qed.
