(** Density bound and absence of NaN along runs of the multilayer model. *)
From Verif Require Import Common Constants SnowModel SnowProofs MultilayerModel MultilayerSpec
  MultilayerProofs RelayerProofs StepProofs HistoryProofs.

Lemma dense_shrink a b m : wf_layer a -> dense a -> 0 <= m <= ice a ->
  ice b = ice a - m -> 0 <= th b <= th a -> th b * ice a = th a * ice b -> dense b.
Proof.
  intros (W1 & W2 & W3 & W4) D Hm Hi Ht Hr. unfold dense, ICE_DENSITY in *.
  destruct (Req_dec (ice a) 0) as [Z|Z]; [nra|].
  assert (0 < ice a) by lra. assert (0 < th a) by nra.
  assert (ice b * th a <= 917 * th b * th a) by nra. nra.
Qed.

Lemma Forall3_dense (Q : layer -> R -> layer -> Prop) la lm lb :
  (forall a m b, Q a m b -> ice b = ice a - m /\ 0 <= th b <= th a /\ th b * ice a = th a * ice b) ->
  Forall3 Q la lm lb -> Forall2 (fun m l => 0 <= m <= ice l) lm la ->
  Forall wf_layer la -> Forall dense la -> Forall dense lb.
Proof.
  intros HQ F. induction F as [|a m b la lm lb Hq F IH]; intros Hb Hw Hc; [constructor|].
  inversion Hb; inversion Hw; inversion Hc; subst. destruct (HQ _ _ _ Hq) as (E & B & P).
  constructor; [|auto]. eapply dense_shrink; eauto.
Qed.

Lemma empty_dense l : empty_slot l -> dense l.
Proof. intros (E1 & E2 & E3). unfold dense. rewrite E1, E2. lra. Qed.
Lemma dense_all p : Forall empty_slot (inactive p) -> Forall dense (active p) -> Forall dense (lays p).
Proof.
  intros H1 H2. rewrite <- (firstn_skipn (ns p)). apply Forall_app. split; [exact H2|].
  eapply Forall_impl; [|exact H1]. exact empty_dense.
Qed.

Definition dense_cfg (c : config) : Prop :=
  WATER_DENSITY * lwcmax c <= ICE_DENSITY /\
  match comp c with Empirical ts mc mm => mc <= ICE_DENSITY /\ mm <= ICE_DENSITY | Anderson => False end.
Definition wet_bulb_ok (f : forcing) : Prop :=
  match f_wet_bulb f with Some t => t <= T0 + 45 | None => True end.

Lemma fresh_dense f : wet_bulb_ok f -> 50 <= fresh_snow_density (f_wet_bulb f) <= ICE_DENSITY.
Proof.
  intros H. split; [apply fresh_snow_density_min|]. unfold wet_bulb_ok in H.
  destruct (f_wet_bulb f) as [t|]; [apply fresh_snow_density_below_ice, H|cbn; unfold ICE_DENSITY; lra].
Qed.

Lemma add_snow_dense amax air amount density p alb : lays p <> [] ->
  Forall dense (lays p) -> 0 < amount -> 0 < density <= ICE_DENSITY ->
  Forall dense (lays (fst (add_snow amax air (Some amount) 0 density p alb))).
Proof.
  intros Hne H Ha Hd. unfold add_snow. destruct (lays p) as [|l r]; [congruence|]. cbn.
  inversion H as [|? ? D Ds]; subst. constructor; [|exact Ds]. unfold dense in *; cbn.
  assert (amount <= ICE_DENSITY * (amount / density)); [|lra].
  apply Rmult_le_reg_r with density; [lra|].
  replace (ICE_DENSITY * (amount / density) * density) with (ICE_DENSITY * amount) by (field; lra).
  nra.
Qed.

Lemma compaction_dense c air p : 0 <= dt c -> (forall ts mc mm, comp c = Empirical ts mc mm -> 0 < ts) ->
  dense_cfg c -> good_pack p -> Forall dense (lays p) -> Forall dense (lays (compaction c air p)).
Proof.
  intros Hdt Hts [Hm Hd] Hg H. pose proof (good_has_mass p Hg) as Hh. unfold compaction; cbn [lays].
  destruct (comp c) as [|ts mc mm]; [contradiction|].
  specialize (Hts ts mc mm eq_refl). destruct Hd as [D1 D2].
  revert H Hh. generalize (lays p), (ns p). induction l as [|l ls IH]; intros [|n] H Hh; cbn; auto.
  inversion H; inversion Hh; subst. constructor; [|auto].
  unfold dense. apply compact_empirical_dense; auto. unfold SECONDS_PER_HOUR; lra.
Qed.

Lemma melt_dense p pot : good_pack p -> Forall dense (lays p) -> Forall dense (lays (fst (melt p pot))).
Proof.
  intros (Hw & He & Hc) H. destruct (melt_spec p pot Hw) as (E & Le & F & I & A).
  apply dense_all; [rewrite I; exact He|].
  eapply Forall3_dense; [|exact F|apply melt_amounts_bounds, Hw|apply Forall_firstn, Hw|apply Forall_firstn, H].
  intros a m b (H1 & H2 & H3 & H4 & _). auto.
Qed.

Lemma sublimate_dense p s : good_pack p -> snd (sublimate p s) = false -> Forall dense (lays p) ->
  Forall dense (lays (fst (sublimate p s))).
Proof.
  intros (Hw & He & Hc) Hn H. destruct (sublimate_cond p s Hw Hn) as (E & Le & F & I). cbn zeta in *.
  apply dense_all; [rewrite I; exact He|].
  eapply Forall3_dense; [|exact F|apply sublimed_bounds|apply Forall_firstn, Hw|apply Forall_firstn, H].
  - intros a m b (H1 & H2 & H3 & H4 & _). auto.
  - apply Forall_firstn, Hw.
  - rmm; lra.
Qed.

Lemma before_routing_dense c f p alb : cfg_ok c -> dense_cfg c -> wet_bulb_ok f ->
  good_pack p -> lays p <> [] -> Forall dense (lays p) ->
  let '(p6, alb6, m, s, nan) := before_routing c f (p, alb) in
  nan = false -> Forall dense (lays p6).
Proof.
  intros (Hmt & Hdt & Hmx & Hts) Hdc Hwb Hg Hne Hd. unfold before_routing.
  pose proof (fresh_dense f Hwb) as Hfd.
  destruct (compaction_good c (f_air f) p Hdt Hts Hg) as (G1 & M1 & L1).
  pose proof (compaction_dense c (f_air f) p Hdt Hts Hdc Hg Hd) as D1.
  set (p1 := compaction c (f_air f) p) in *.
  assert (Hne1 : lays p1 <> []) by (destruct (lays p1), (lays p); cbn in *; congruence).
  destruct (accumulation_good (a_max (acfg c)) (f_air f) (f_snowfall f) (f_wet_bulb f) p1 alb G1 Hne1) as (G2 & M2 & L2).
  assert (D2 : Forall dense (lays (fst (accumulation (a_max (acfg c)) (f_air f) (f_snowfall f) (f_wet_bulb f) p1 alb)))).
  { unfold accumulation, gt0. destruct (f_snowfall f) as [x|]; [|exact D1].
    destruct (Rlt_dec 0 x); [|exact D1]. apply add_snow_dense; auto. lra. }
  destruct (accumulation (a_max (acfg c)) (f_air f) (f_snowfall f) (f_wet_bulb f) p1 alb) as [p2 alb2]. cbn [fst] in *.
  destruct (update_properties_good p2 G2) as (G3 & M3 & L3 & _).
  assert (D3 : Forall dense (lays (update_properties p2))) by (cbn; apply Forall_map; exact D2).
  set (p3 := update_properties p2) in *.
  destruct (set_temps_good p3 (f_temps f) G3) as (G4 & M4 & L4 & _).
  assert (D4 : Forall dense (set_temps (ns p3) (f_temps f) (lays p3))).
  { refine (Forall2_transfer dense dense _ _ _ _ (set_temps_rel (ns p3) (f_temps f) (lays p3)) D3).
    intros a b (E1 & E2 & _). unfold dense. rewrite E1, E2. auto. }
  set (p4 := mkP (ns p3) _) in *. cbn zeta in *.
  destruct (melt_good p4 (f_melt f) G4) as (G5 & M5 & L5).
  pose proof (melt_dense p4 (f_melt f) G4 D4) as D5.
  destruct (melt p4 (f_melt f)) as [p5 m]. cbn [fst] in *.
  assert (Hne5 : lays p5 <> []) by (destruct (lays p5), (lays p); cbn in *; try congruence; lia).
  unfold sublimation.
  set (s := sublimation_amount _ _ _ _).
  destruct (Rlt_dec 0 (- Rmin s 0)) as [H|H].
  - pose proof (add_snow_good (a_max (acfg c)) (f_air f) (- Rmin s 0) (fresh_snow_density (f_wet_bulb f)) p5
      (albedo_step (acfg c) (dt c) (f_albedo_temp f) (f_snowfall f) alb2) G5 Hne5 H ltac:(lra)) as (G & _).
    pose proof (add_snow_dense (a_max (acfg c)) (f_air f) (- Rmin s 0) (fresh_snow_density (f_wet_bulb f)) p5
      (albedo_step (acfg c) (dt c) (f_albedo_temp f) (f_snowfall f) alb2) Hne5 D5 H ltac:(lra)) as D.
    destruct (add_snow _ _ _ _ _ p5 _) as [q aq]. cbn [fst] in *.
    pose proof (sublimate_dense q s G) as B. destruct (sublimate q s) as [p6 nan]. cbn [fst snd] in B.
    intros N. apply B; assumption.
  - pose proof (sublimate_dense p5 s G5) as B. destruct (sublimate p5 s) as [p6 nan]. cbn [fst snd] in B.
    intros N. apply B; assumption.
Qed.

Lemma runoff_dense m mx rain p : good_pack p -> 0 <= mx -> WATER_DENSITY * mx <= ICE_DENSITY ->
  0 <= nan_to_zero rain -> m = PoreVolumeFraction -> Forall dense (lays p) ->
  Forall dense (lays (fst (fst (runoff m mx rain p)))).
Proof.
  intros Hg Hmx Hm2 Hr Hm Hd.
  pose proof (runoff_good m mx rain p Hg Hmx Hr (fun _ => Forall_firstn _ _ _ Hd)) as R.
  destruct (runoff m mx rain p) as [[p' ro] rf]. destruct R as (G & L & N & _ & _ & _ & Cap). cbn [fst].
  apply dense_all; [apply G|].
  refine (Forall2_transfer (fun l => dense l /\ wf_layer l) dense
    (fun a b => (th b = th a /\ ice b + lwc b <= ice a + max_lwc m mx a) /\ wf_layer b)
    (active p) (active p') _ _ _).
  - intros a b [[E B] (V1 & V2 & V3 & V4)] [D (W1 & W2 & W3 & W4)]. unfold dense in *. rewrite E. subst m.
    destruct (Req_dec (th a) 0) as [Z|Z].
    + rewrite max_lwc_no_layer in B; [|lra|discriminate]. lra.
    + rewrite max_lwc_pore in B by lra. unfold ICE_DENSITY, WATER_DENSITY in *.
      assert (mx * (1000 * (th a - ice a / 917)) <= 917 / 1000 * (1000 * (th a - ice a / 917))).
      { apply Rmult_le_compat_r; lra. }
      lra.
  - assert (Wb : Forall wf_layer (active p')) by (apply Forall_firstn, G).
    clear -Cap Wb. induction Cap; inversion Wb; subst; constructor; auto.
  - assert (Wa : Forall wf_layer (active p)) by (apply Forall_firstn, Hg).
    assert (Da : Forall dense (active p)) by (apply Forall_firstn, Hd).
    rewrite Forall_forall in *. auto.
Qed.

Lemma update_layers_dense mt p : min_thickness_ok mt -> length mt = length (lays p) -> good_pack p ->
  Forall no_residue (lays p) -> Forall dense (lays p) ->
  snd (update_layers mt (snow_depth (lays p)) p) = false ->
  Forall dense (lays (fst (update_layers mt (snow_depth (lays p)) p))).
Proof.
  intros Hmt Hl Hg Hnr Hd Hb.
  destruct (update_layers_good mt p Hmt Hl Hg Hnr Hb) as (G & L & A & M & D). cbn zeta in *.
  destruct (Rlt_dec (snow_depth (lays p)) thin_limit) as [T|T].
  - assert (W : Forall wf_layer (lays (fst (update_layers mt (snow_depth (lays p)) p)))) by apply G.
    assert (Z : forall ls, Forall wf_layer ls -> sumR (map (fun l => ice l + lwc l) ls) = 0 -> Forall dense ls).
    { induction ls as [|l ls IH]; intros Hw Hs; [constructor|]. inversion Hw as [|? ? (? & ? & ? & ?) Hws]; subst.
      cbn [map] in Hs. rewrite sumR_cons in Hs.
      assert (0 <= sumR (map (fun l => ice l + lwc l) ls)).
      { apply sumR_nonneg, Forall_map. eapply Forall_impl; [|exact Hws]. intros x (? & ? & ? & ?). lra. }
      constructor; [unfold dense, ICE_DENSITY; lra|apply IH; [assumption|lra]]. }
    apply Z; assumption.
  - assert (Hd' : thin_limit <= snow_depth (lays p)) by lra.
    destruct (relayer_spec mt p Hmt Hl Hg Hd' Hb) as (E1 & E2 & E3 & E4 & E5 & E6).
    rewrite relayer_eq in Hb by assumption. cbn [snd] in Hb.
    apply Forall_forall. intros l Hin. destruct (In_nth_error _ _ Hin) as (k & Hk).
    assert (Et : th l = nth k (drop_thin (new_thicknesses mt (snow_depth (lays p)))) 0).
    { rewrite <- E2. symmetry. apply nth_error_nth, map_nth_error, Hk. }
    pose proof (E4 SI) as Ei0. cbn [quantity accs] in Ei0.
    match type of Ei0 with _ = ?r => assert (Ei : ice l = nth k r 0) end.
    { rewrite <- Ei0. symmetry. apply nth_error_nth, map_nth_error, Hk. }
    unfold dense. rewrite Ei, Et.
    match goal with |- nth k (aice ?s) 0 <= _ => change (aice s) with (accs SI s) end.
    rewrite relayer_nth by assumption.
    pose proof (sumR_firstn_S (drop_thin (new_thicknesses mt (snow_depth (lays p)))) k) as Sk.
    eapply Rle_trans; [apply above_density with (rho := ICE_DENSITY)|].
    + unfold ICE_DENSITY; lra.
    + assert (Wa : Forall wf_layer (active p)) by (apply Forall_firstn, Hg).
      assert (Da : Forall dense (active p)) by (apply Forall_firstn, Hd).
      rewrite Forall_forall in *. intros x Hx. destruct (Wa x Hx) as (? & ? & _). specialize (Da x Hx).
      unfold dense in Da. cbn [quantity]. lra.
    + apply prefix_nonneg; assumption.
    + apply prefix_le; assumption.
    + right. rewrite Sk. lra.
Qed.

Lemma step_dense c f p alb : cfg_ok c -> lwcm c = PoreVolumeFraction -> dense_cfg c ->
  good_pack p -> length (lays p) = length (mts c) -> Forall dense (lays p) ->
  0 <= nan_to_zero (f_rain f) -> wet_bulb_ok f ->
  let '((p', alb'), o) := snow_step c f (p, alb) in
  o_nan o = false -> routable c f (p, alb) /\ Forall dense (lays p').
Proof.
  intros Hc Hpv Hdc Hg Hlen Hd Hr Hwb. pose proof Hc as (Hmt & Hdt & Hmx & Hts).
  assert (Hne : lays p <> []).
  { intros E. rewrite E in Hlen. destruct Hmt as [Hm _]. destruct (mts c); cbn in *; congruence. }
  pose proof (before_routing_good c f p alb Hc Hg Hne) as B.
  pose proof (before_routing_dense c f p alb Hc Hdc Hwb Hg Hne Hd) as BD.
  unfold routable, before, snow_step.
  destruct (before_routing c f (p, alb)) as [[[[p6 alb6] m] s] nan1].
  destruct nan1.
  { destruct (runoff _ _ _ p6) as [[p7 ro] rf]. destruct (update_layers _ _ _) as [p9 nan2]. cbn. discriminate. }
  destruct (B eq_refl) as (G6 & L6 & M6). specialize (BD eq_refl).
  assert (BA : Forall dense (active p6)) by (apply Forall_firstn, BD).
  pose proof (runoff_good (lwcm c) (lwcmax c) (f_rain f) p6 G6 Hmx Hr (fun _ => BA)) as Ro.
  pose proof (runoff_dense (lwcm c) (lwcmax c) (f_rain f) p6 G6 Hmx (proj1 Hdc) Hr Hpv BD) as D7.
  destruct (runoff (lwcm c) (lwcmax c) (f_rain f) p6) as [[p7 ro] rf]. cbn [fst] in D7.
  destruct Ro as (G7 & L7 & N7 & M7 & Rp & Nr & Cap).
  destruct (update_properties_good p7 G7) as (G8 & M8 & L8 & D8).
  assert (Nr8 : Forall no_residue (lays (update_properties p7))).
  { unfold update_properties, update_heat_cap; cbn [lays]. apply Forall_map. exact Nr. }
  assert (De8 : Forall dense (lays (update_properties p7))) by (cbn; apply Forall_map; exact D7).
  set (p8 := update_properties p7) in *.
  assert (L8' : length (mts c) = length (lays p8)) by congruence.
  pose proof (update_layers_dense (mts c) p8 Hmt L8' G8 Nr8 De8) as U.
  destruct (update_layers (mts c) (snow_depth (lays p8)) p8) as [p9 nan2]. cbn [fst snd] in U.
  cbn [o_nan orb]. intros N. split; [intros _; exact BA|apply U, N].
Qed.

(** Runs with the empirical compaction scheme never leave the density bound. *)
Lemma run_dense c : cfg_ok c -> lwcm c = PoreVolumeFraction -> dense_cfg c -> forall fs p alb,
  good_pack p -> length (lays p) = length (mts c) -> Forall dense (lays p) ->
  Forall (fun f => 0 <= nan_to_zero (f_rain f)) fs -> Forall wet_bulb_ok fs ->
  Forall (fun o => o_nan o = false) (snd (snow_run c fs (p, alb))) ->
  all_routable c fs (p, alb) /\ Forall dense (lays (fst (fst (snow_run c fs (p, alb))))).
Proof.
  intros Hc Hpv Hdc. induction fs as [|f fs IH]; intros p alb Hg Hl Hd Hr Hw; cbn [snow_run all_routable].
  - cbn. auto.
  - inversion Hr; inversion Hw; subst.
    pose proof (step_dense c f p alb Hc Hpv Hdc Hg Hl Hd ltac:(assumption) ltac:(assumption)) as SD.
    pose proof (step_good c f p alb Hc Hg Hl ltac:(assumption)) as SG.
    destruct (snow_step c f (p, alb)) as [[p1 alb1] o]. cbn [fst].
    specialize (IH p1 alb1).
    destruct (snow_run c fs (p1, alb1)) as [[p2 alb2] os]. cbn [fst snd] in *.
    intros N. inversion N; subst.
    destruct (SD ltac:(assumption)) as [R1 D1].
    destruct (SG R1 ltac:(assumption)) as (G1 & L1 & _).
    destruct (IH G1 L1 D1 ltac:(assumption) ltac:(assumption) ltac:(assumption)) as [R2 D2].
    auto.
Qed.
