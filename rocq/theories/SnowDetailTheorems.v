(** Details of compaction, sublimation, heat capacity and albedo of the multilayer model. *)
From Verif Require Import Common Constants SnowModel SnowProofs MultilayerModel MultilayerSpec MultilayerProofs RelayerProofs StepProofs HistoryProofs
  SnowTheorems MultilayerTheorems.
Open Scope R_scope.

(** * C16: densities after compaction *)
Definition mass (l : layer) : R := ice l + lwc l.
Definition density (l : layer) : R := mass l / th l.
(** Anderson (1976): relative density increase per hour under [load] kg m-2 at air temperature ta (K) *)
Definition anderson_increase (load ta rho : R) (wet : Prop) (x : R) : Prop :=
  exists c4 c6, (wet -> c4 = 0.02) /\ (~ wet -> c4 = 0.01) /\ (150 < rho -> c6 = exp (- 0.046 * (rho - 150))) /\ (rho <= 150 -> c6 = 1) /\
  x = 0.001 * load * exp (- 0.08 * (273.15 - ta) - 0.021 * rho) + c4 * exp (- 0.04 * (273.15 - ta)) * c6.
(** mass of the layers above (layers without thickness do not weigh on the others) plus half of the own mass *)
Definition overburden (above : list layer) (l : layer) : R := sumR (map (fun a => if Rlt_dec 0 (th a) then mass a else 0) above) + mass l / 2.
Lemma anderson_nth : forall n pre l post dt air load, (length pre < n)%nat -> 0 < th l ->
  nth_error (compaction_anderson n dt air load (pre ++ l :: post)) (length pre) =
  Some (mkL (mass l / dens_anderson dt air (load + overburden pre l) l) (ice l) (lwc l) (tmp l) (hc l)).
Proof.
  induction n as [|n IH]; intros pre l post dt air load L P; [lia|]. destruct pre as [|a pre]; cbn [app length] in *; unfold overburden.
  - cbn [map]. rewrite sumR_nil. cbn [compaction_anderson]. destruct (Rlt_dec 0 (th l)); [|lra]. cbn [nth_error]. unfold mass. rewrite Rplus_0_l. auto.
  - cbn [compaction_anderson map]. rewrite sumR_cons. destruct (Rlt_dec 0 (th a)); cbn [nth_error]; rewrite IH by (auto; lia); unfold overburden, mass; do 3 f_equal; f_equal; lra.
Qed.
Lemma anderson_length : forall n dt air load ls, length (compaction_anderson n dt air load ls) = length ls.
Proof. induction n as [|n IH]; intros dt air load [|l t]; auto. cbn [compaction_anderson]. destruct (Rlt_dec 0 (th l)); cbn [length]; rewrite IH; auto. Qed.
Theorem c16_overburden : forall n pre l post dt air, (length pre < n)%nat -> 0 < th l -> 0 < mass l -> 0 <= dt -> Forall (fun a => 0 <= mass a) pre ->
  exists l' x, nth_error (compaction_anderson n dt air 0 (pre ++ l :: post)) (length pre) = Some l' /\
    mass l' = mass l /\ density l' = density l * (1 + x * (dt / 3600)) /\
    match air with Some ta => anderson_increase (overburden pre l) ta (density l) (0 < lwc l) x | None => x = 0 end.
Proof.
  intros n pre l post dt air L P M DT F. rewrite anderson_nth by auto. rewrite Rplus_0_l.
  assert (OB : 0 <= overburden pre l).
  { unfold overburden. apply Rplus_le_le_0_compat; [|lra]. apply sumR_nonneg, Forall_map. eapply Forall_impl; [|exact F]. intros a A. cbv beta in *. destruct (Rlt_dec 0 (th a)); lra. }
  assert (D : 0 < density l) by (apply Rdiv_lt_0_compat; auto).
  set (x := anderson_rate air (overburden pre l) l / density l).
  assert (X : dens_anderson dt air (overburden pre l) l = density l * (1 + x * (dt / 3600))).
  { unfold dens_anderson, x, SECONDS_PER_HOUR. change (dens_layer l) with (density l). field. lra. }
  assert (XP : 0 <= anderson_rate air (overburden pre l) l).
  { unfold anderson_rate. destruct air as [ta|]; [|lra]. change (dens_layer l) with (density l). cbv zeta. apply Rmult_le_pos; [lra|]. apply Rplus_le_le_0_compat.
    - apply Rmult_le_pos; [lra|]. left. apply exp_pos.
    - apply Rmult_le_pos; [apply Rmult_le_pos|].
      + destruct (Rlt_dec 0 (lwc l)); lra.
      + left. apply exp_pos.
      + destruct (Rlt_dec 150 (density l)); [left; apply exp_pos|lra]. }
  assert (DP : 0 < dens_anderson dt air (overburden pre l) l).
  { unfold dens_anderson. change (dens_layer l) with (density l). apply Rplus_lt_le_0_compat; auto. apply Rmult_le_pos; auto. unfold SECONDS_PER_HOUR. lra. }
  eexists. exists x. split; [reflexivity|]. split; [reflexivity|]. split.
  - rewrite <- X. unfold density at 1, mass at 1. cbn [th ice lwc]. fold (mass l). field. split; lra.
  - unfold x, anderson_rate. destruct air as [ta|]; [|unfold Rdiv; lra]. change (dens_layer l) with (density l). cbv zeta. unfold anderson_increase.
    exists (if Rlt_dec 0 (lwc l) then 0.02 else 0.01), (if Rlt_dec 150 (density l) then exp (- 0.046 * (density l - 150)) else 1).
    split; [intros W; destruct (Rlt_dec 0 (lwc l)); [auto|lra]|]. split; [intros W; destruct (Rlt_dec 0 (lwc l)); [lra|auto]|].
    split; [intros W; destruct (Rlt_dec 150 (density l)); [auto|lra]|]. split; [intros W; destruct (Rlt_dec 150 (density l)); [lra|auto]|].
    replace T0 with 273.15 by (unfold T0; lra). unfold Rdiv. rewrite (Rmult_comm (density l)), Rmult_assoc, Rinv_r by lra. rewrite Rmult_1_r. auto.
Qed.
Print Assumptions c16_overburden.
(** the compaction of a pixel: active layers only; time scales are given in hours *)
Theorem c16_pixel : forall c air p, 0 <= dt c -> (ns p <= length (lays p))%nat -> Forall (fun l => 0 <= mass l) (lays p) ->
  let q := compaction c air p in ns q = ns p /\
  (forall k l, nth_error (lays p) k = Some l -> (ns p <= k)%nat \/ th l <= 0 -> nth_error (lays q) k = Some l) /\
  (forall k l, nth_error (lays p) k = Some l -> (k < ns p)%nat -> 0 < th l -> 0 < mass l ->
    exists l', nth_error (lays q) k = Some l' /\ ice l' = ice l /\ lwc l' = lwc l /\ tmp l' = tmp l /\ hc l' = hc l /\
    match comp c with
    | Anderson => exists x, anderson_increase (overburden (firstn k (lays p)) l) air (density l) (0 < lwc l) x /\ density l' = density l * (1 + x * (dt c / 3600))
    | Empirical hours cold melting => 0 < hours -> let limit := if Rlt_dec (tmp l) 273.15 then cold else melting in
        density l' = if Rlt_dec (density l) limit then limit - (limit - density l) * exp (- dt c / (hours * 3600)) else density l
    end).
Proof.
  intros c air p DT NS FM q. unfold q, compaction. cbn [ns lays]. split; auto. destruct (comp c) as [|hours cold melting].
  - split.
    + enough (G : forall ls n load k l, nth_error ls k = Some l -> (n <= k)%nat \/ th l <= 0 -> nth_error (compaction_anderson n (dt c) (Some air) load ls) k = Some l) by (intros; apply G; auto).
      clear. intros ls. induction ls as [|a t IH]; intros n load k l E H; [destruct k; discriminate|].
      destruct n as [|n]; [auto|]. cbn [compaction_anderson]. destruct k as [|k]; cbn [nth_error] in *.
      * injection E as ->. destruct (Rlt_dec 0 (th l)); cbn [nth_error]; auto. destruct H; [lia|lra].
      * destruct (Rlt_dec 0 (th a)); cbn [nth_error]; apply IH; auto; destruct H; auto; left; lia.
    + intros k l E K P M. pose proof (nth_error_split _ _ E) as (pre & post & EL & LP).
      assert (FP : Forall (fun l => 0 <= mass l) pre) by (rewrite EL in FM; apply Forall_app in FM; apply FM).
      destruct (c16_overburden (ns p) pre l post (dt c) (Some air) ltac:(lia) P M DT FP) as (l' & x & N & _ & D & A). 
      pose proof (anderson_nth (ns p) pre l post (dt c) (Some air) 0 ltac:(lia) P) as N2. rewrite N in N2. injection N2 as N2.
      exists l'. rewrite EL, <- LP, N. rewrite firstn_app, Nat.sub_diag, firstn_all. cbn [firstn]. rewrite app_nil_r. split; auto. split; [rewrite N2; auto|]. split; [rewrite N2; auto|]. split; [rewrite N2; auto|]. split; [rewrite N2; auto|]. exists x. auto.
  - split.
    + enough (G : forall ls n k l, nth_error ls k = Some l -> (n <= k)%nat \/ th l <= 0 -> nth_error (compaction_empirical n (dt c) (SECONDS_PER_HOUR * hours) cold melting ls) k = Some l) by (intros; apply G; auto).
      clear. intros ls. induction ls as [|a t IH]; intros n k l E H; [destruct k; discriminate|].
      destruct n as [|n]; [auto|]. cbn [compaction_empirical]. destruct k as [|k]; cbn [nth_error] in *.
      * injection E as ->. unfold compact_empirical_layer. destruct (Rlt_dec 0 (th l)); auto. destruct H; [lia|lra].
      * apply IH; auto. destruct H; auto; left; lia.
    + intros k l E K P M.
      assert (NE : forall ls n j, nth_error ls j = Some l -> (j < n)%nat -> nth_error (compaction_empirical n (dt c) (SECONDS_PER_HOUR * hours) cold melting ls) j = Some (compact_empirical_layer (dt c) (SECONDS_PER_HOUR * hours) cold melting l)).
      { induction ls as [|a t IH]; intros [|n] [|j] X Y; try lia; try discriminate; cbn [compaction_empirical nth_error] in *; [congruence|]. apply IH; auto. lia. }
      eexists. split; [apply NE; auto|]. unfold compact_empirical_layer. destruct (Rlt_dec 0 (th l)); [|lra]. cbv zeta.
      change (dens_layer l) with (density l). replace T0 with 273.15 by (unfold T0; lra). set (limit := if Rlt_dec (tmp l) 273.15 then cold else melting).
      destruct (Rlt_dec (density l) limit) as [Q|Q]; cbn [ice lwc tmp hc]; repeat split; auto.
      intros HP. assert (D : 0 < density l) by (apply Rdiv_lt_0_compat; auto).
      unfold dens_empirical. change (dens_layer l) with (density l). cbv zeta. replace T0 with 273.15 by (unfold T0; lra). fold limit. destruct (Rlt_dec (density l) limit); [|lra].
      replace (SECONDS_PER_HOUR * hours) with (hours * 3600) by (unfold SECONDS_PER_HOUR; lra). set (e := exp (- dt c / (hours * 3600))).
      assert (0 < e) by apply exp_pos. assert (e <= 1).
      { unfold e. rewrite <- exp_0. assert (EI : forall x y, x <= y -> exp x <= exp y) by (intros x y [Z| ->]; [left; apply exp_increasing; auto|lra]). apply EI.
        unfold Rdiv. rewrite <- (Rmult_0_l (/ (hours * 3600))). apply Rmult_le_compat_r; [left; apply Rinv_0_lt_compat; lra|lra]. }
      assert (0 < limit + (density l - limit) * e) by nra. unfold density at 1. unfold mass at 1. cbn [ice lwc th]. fold (mass l). field_simplify_eq; [ring|]. split; lra.
Qed.
Print Assumptions c16_pixel.
Example c16_pixel_example : let c := mkC 3600 [0.1; 0.2] PoreVolumeFraction 0.03 (Empirical 200 300 500) (mkAC 0.55 0.85 200 480 0.5 Binary) in
  let p := mkP 2 [mkL 0.1 10 0 260 0; mkL 0.2 40 1 270 0] in 0 <= dt c /\ (ns p <= length (lays p))%nat /\ Forall (fun l => 0 <= mass l) (lays p).
Proof. cbn. split; [lra|]. split; [lia|]. repeat constructor; unfold mass; cbn; lra. Qed.

(** * C02: which amount sublimates *)
Theorem c02_amount : forall dt mflux tsurf p,
  let surface_snow := match lays p with l :: _ => 0 < ice l | [] => False end in
  let frost := match tsurf with Some t => t < 273.15 | None => False end in
  (~ surface_snow -> ~ frost -> sublimation_amount dt mflux tsurf p = 0) /\
  (surface_snow \/ frost -> 0 <= total_ice p ->
     (mflux = None -> sublimation_amount dt mflux tsurf p = 0) /\
     (forall m, mflux = Some m -> - m * dt <= total_ice p -> sublimation_amount dt mflux tsurf p = - m * dt) /\
     (forall m, mflux = Some m -> total_ice p < - m * dt -> sublimation_amount dt mflux tsurf p = total_ice p)).
Proof.
  intros dt mflux tsurf p. unfold sublimation_amount. replace T0 with 273.15 by (unfold T0; lra). cbv zeta. set (ti := total_ice p).
  split.
  - intros A B. assert (E1 : (if Rlt_dec 0 match lays p with | [] => 0 | l :: _ => ice l end then true else false) = false).
    { destruct (lays p) as [|l t]; [destruct (Rlt_dec 0 0); [lra|auto]|]. destruct (Rlt_dec 0 (ice l)); [tauto|auto]. }
    rewrite E1. destruct tsurf as [t|]; [|auto]. destruct (Rlt_dec t 273.15); [tauto|auto].
  - intros A T. assert (E1 : (if Rlt_dec 0 match lays p with | [] => 0 | l :: _ => ice l end then true else false) || match tsurf with | Some t => if Rlt_dec t 273.15 then true else false | None => false end = true).
    { destruct A as [A|A].
      - destruct (lays p) as [|l t]; [tauto|]. destruct (Rlt_dec 0 (ice l)); [auto|tauto].
      - destruct tsurf as [t|]; [|tauto]. destruct (Rlt_dec t 273.15); [apply orb_true_r|tauto]. }
    rewrite E1. repeat split.
    + intros ->. rmm; lra.
    + intros m -> L. rmm; lra.
    + intros m -> L. rmm; lra.
Qed.
Print Assumptions c02_amount.
Example c02_amount_example : sublimation_amount 3600 (Some (- 0.001)) (Some 270) (mkP 1 [mkL 0.1 10 0 260 0]) = 3.6.
Proof. unfold sublimation_amount, total_ice. cbn [lays map ice]. rewrite sumR_cons, sumR_nil. destruct (Rlt_dec 0 10); [|lra]. cbn [orb]. rmm; lra. Qed.

(** * C05: heat capacities after the layers are rebuilt *)
Theorem c05_heat_capacity : forall mt d p k l', nth_error (lays (fst (update_layers mt d p))) k = Some l' -> (k < ns (fst (update_layers mt d p)))%nat ->
  hc l' = 2100 * ice l' + 4180 * lwc l'.
Proof.
  intros mt d p k l'. unfold update_layers. cbv zeta. destruct (Rlt_dec 0 d); cbn [fst lays ns]; [|lia].
  set (s := redistribute _ _ _ _). generalize (count_pos (drop_thin (new_thicknesses mt d))). generalize (drop_thin (new_thicknesses mt d)) (aice s) (alwc s) (aen s) (lays p). clear.
  intros ths ai aw ae ls n. revert ths ai aw ae ls n. induction k as [|k IH]; intros [|t ths] [|i ai] [|w aw] [|e ae] [|l ls] [|n] E K; cbn [build] in E; try discriminate; try lia.
  - cbn [nth_error] in E. injection E as <-. cbn [hc ice lwc]. unfold SPEC_HEAT_CAP_ICE, SPEC_HEAT_CAP_WATER. lra.
  - cbn [nth_error] in E. apply (IH _ _ _ _ _ n E). lia.
Qed.
Print Assumptions c05_heat_capacity.

(** * C14: the albedo in a run of the multilayer model *)
(** a missing albedo reappears only with binary refresh and enough snowfall *)
Theorem c14_missing_refreshed : forall c dt t s, albedo_step c dt t s None = Some (a_max c) <->
  refresh c = Binary /\ refresh_snowfall c / 3600 <= match s with Some x => x / dt | None => 0 end.
Proof.
  intros c dt t s. unfold albedo_step, SECONDS_PER_HOUR. destruct (refresh c).
  - destruct (Rle_dec _ _); split; auto; try discriminate; intros [_ A]; tauto.
  - split; [discriminate|]. intros [A _]. discriminate.
Qed.
Print Assumptions c14_missing_refreshed.
(** a pixel with snow has an albedo within the limits, a pixel without has none *)
Definition albedo_ok (a : albedo_cfg) (st : pixel * num) : Prop :=
  (ns (fst st) = 0%nat -> snd st = None) /\ (ns (fst st) <> 0%nat -> exists x, snd st = Some x /\ a_min a <= x <= a_max a).
Lemma add_snow_albedo : forall a air amount water d p alb, a_min a <= a_max a ->
  (ns p <> 0%nat -> exists x, alb = Some x /\ a_min a <= x <= a_max a) ->
  let r := add_snow (a_max a) air amount water d p alb in ns (fst r) <> 0%nat -> exists x, snd r = Some x /\ a_min a <= x <= a_max a.
Proof.
  intros a air amount water d p alb L H r. unfold r, add_snow. destruct (lays p) as [|l t]; auto. cbv zeta. cbn [fst snd ns].
  destruct (Nat.eqb (ns p) 0 && (if Rlt_dec 0 (nan_to_zero amount) then true else false))%bool; auto. intros _. exists (a_max a). split; auto. lra.
Qed.
Lemma before_albedo : forall c f p (alb : num), albedo_cfg_ok (acfg c) -> 0 < dt c -> snowfall_ok (f_snowfall f) ->
  (ns p <> 0%nat -> exists x, alb = Some x /\ a_min (acfg c) <= x <= a_max (acfg c)) ->
  let '(p6, alb6, m, s, nan) := before_routing c f (p, alb) in ns p6 <> 0%nat -> exists x, alb6 = Some x /\ a_min (acfg c) <= x <= a_max (acfg c).
Proof.
  intros c f p alb OK DT SF H. unfold before_routing. set (p1 := compaction c (f_air f) p). assert (L : a_min (acfg c) <= a_max (acfg c)) by apply OK.
  assert (H2 : let r := accumulation (a_max (acfg c)) (f_air f) (f_snowfall f) (f_wet_bulb f) p1 alb in ns (fst r) <> 0%nat -> exists x, snd r = Some x /\ a_min (acfg c) <= x <= a_max (acfg c)).
  { unfold accumulation. destruct (gt0 (f_snowfall f)); [apply add_snow_albedo; auto|exact H]. }
  destruct (accumulation (a_max (acfg c)) (f_air f) (f_snowfall f) (f_wet_bulb f) p1 alb) as [p2 alb2]. cbv zeta in H2. cbn [fst snd] in H2.
  set (alb3 := albedo_step (acfg c) (dt c) (f_albedo_temp f) (f_snowfall f) alb2).
  assert (H3 : ns p2 <> 0%nat -> exists x, alb3 = Some x /\ a_min (acfg c) <= x <= a_max (acfg c)).
  { intros N. destruct (H2 N) as (x & -> & B). pose proof (albedo_step_in (acfg c) (dt c) (f_albedo_temp f) (f_snowfall f) (Some x) OK DT SF B) as Q. fold alb3 in Q.
    unfold alb3 in *. cbn [albedo_step] in *. eexists. split; [reflexivity|]. exact Q. }
  set (p4 := mkP (ns (update_properties p2)) _). assert (N5 : ns (fst (melt p4 (f_melt f))) = ns p2) by reflexivity.
  destruct (melt p4 (f_melt f)) as [p5 m]. cbn [fst] in N5. rewrite <- N5 in H3. clearbody alb3. unfold sublimation. cbv zeta.
  set (s := sublimation_amount _ _ _ _). set (fr := - Rmin s 0).
  assert (H6 : let r := if Rlt_dec 0 fr then add_snow (a_max (acfg c)) (f_air f) (Some fr) 0 (fresh_snow_density (f_wet_bulb f)) p5 alb3 else (p5, alb3) in
     ns (fst r) <> 0%nat -> exists x, snd r = Some x /\ a_min (acfg c) <= x <= a_max (acfg c)).
  { destruct (Rlt_dec 0 fr); [apply add_snow_albedo; auto|exact H3]. }
  cbv zeta in H6. destruct (if Rlt_dec 0 fr then _ else _) as [q1 alb1]. cbn [fst snd] in H6.
  assert (N7 : ns (fst (sublimate q1 s)) = ns q1). { unfold sublimate. cbv zeta. destruct (Rlt_dec 0 (Rmax s 0)); auto. destruct (sublim_loop _ _ _) as [[u v] w]. auto. }
  destruct (sublimate q1 s) as [p6 nan]. cbn [fst] in N7. rewrite N7. exact H6.
Qed.
Theorem c14_multilayer_run : forall c fs p alb, cfg_ok c -> albedo_cfg_ok (acfg c) -> 0 < dt c ->
  good_pack p -> length (lays p) = length (mts c) -> albedo_ok (acfg c) (p, alb) ->
  Forall (fun f => 0 <= nan_to_zero (f_rain f) /\ snowfall_ok (f_snowfall f)) fs -> all_routable c fs (p, alb) ->
  let '(st, os) := snow_run c fs (p, alb) in Forall (fun o => o_nan o = false) os -> albedo_ok (acfg c) st.
Proof.
  intros c fs p alb Hc OK DT Hg Hl HA F R. revert p alb Hg Hl HA R. induction F as [|f fs [FR FS] F IH]; intros p alb Hg Hl HA R.
  - cbn. auto.
  - cbn [snow_run all_routable] in *. destruct R as [R1 R2]. pose proof (step_good c f p alb Hc Hg Hl FR R1) as SG.
    assert (ST : let '((p', alb'), o) := snow_step c f (p, alb) in o_nan o = false -> albedo_ok (acfg c) (p', alb')).
    { pose proof Hc as (Hmt & Hdt & Hmx & Hts). assert (Hne : lays p <> []). { intros E. rewrite E in Hl. destruct Hmt as [Hm _]. destruct (mts c); cbn in *; congruence. }
      pose proof (before_routing_good c f p alb Hc Hg Hne) as B. pose proof (before_albedo c f p alb OK DT FS (proj2 HA)) as BA.
      unfold routable, before in R1. unfold snow_step. clear SG R2. destruct (before_routing c f (p, alb)) as [[[[p6 alb6] m] s] nan1]. destruct nan1.
      { destruct (runoff _ _ _ p6) as [[p7 ro] rf]. destruct (update_layers _ _ _) as [p9 nan2]. cbn. discriminate. }
      destruct (B eq_refl) as (G6 & L6 & M6). pose proof (runoff_good (lwcm c) (lwcmax c) (f_rain f) p6 G6 Hmx FR R1) as Ro.
      destruct (runoff (lwcm c) (lwcmax c) (f_rain f) p6) as [[p7 ro] rf]. destruct Ro as (G7 & L7 & N7 & M7 & Rp & Nr & Cap).
      destruct (update_properties_good p7 G7) as (G8 & M8 & L8 & D8). set (p8 := update_properties p7) in *.
      assert (Z : ns p8 = 0%nat -> ns (fst (update_layers (mts c) (snow_depth (lays p8)) p8)) = 0%nat).
      { intros N8. assert (D0 : snow_depth (lays p8) = 0).
        { unfold snow_depth. destruct G8 as (_ & He & _). rewrite (empty_sum th p8); [|intros l (? & ? & ?); lra|exact He]. unfold active. rewrite N8. cbn [firstn map]. apply sumR_nil. }
        rewrite D0. unfold update_layers. cbv zeta. destruct (Rlt_dec 0 0); [lra|]. auto. }
      destruct (update_layers (mts c) (snow_depth (lays p8)) p8) as [p9 nan2]. cbn [fst] in Z. intros _. split; cbn [fst snd]; intros N9.
      - rewrite N9. auto.
      - destruct (Nat.eqb (ns p9) 0) eqn:E; [apply Nat.eqb_eq in E; congruence|]. apply BA. intros N6. apply N9, Z. change (ns p8) with (ns p7). congruence. }
    destruct (snow_step c f (p, alb)) as [[p1 alb1] o]. cbn [fst] in R2. specialize (IH p1 alb1). destruct (snow_run c fs (p1, alb1)) as [st os].
    intros N. inversion N as [|x y N1 N2]; subst. destruct (SG N1) as (G1 & L1 & _). apply IH; auto.
Qed.
Print Assumptions c14_multilayer_run.
(** the initial state meets the conditions *)
Example c14_initial : albedo_ok (mkAC 0.55 0.85 200 480 0.5 Binary) (init_pixel 3, None).
Proof. split; cbn; auto. intros H. congruence. Qed.
