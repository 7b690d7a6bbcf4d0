(** Properties C01-C07: the multilayer snow model (modules/snow/multilayermodel.py). *)
From Verif Require Import Common Constants SnowModel SnowProofs MultilayerModel MultilayerSpec
  MultilayerProofs RelayerProofs StepProofs HistoryProofs DenseProofs NanProofs.

(** * C01 Melt *)
Theorem c01_melt : forall p pot, wf_pixel p ->
  let p' := fst (melt p pot) in
  let m := snd (melt p pot) in
  ns p' = ns p /\ inactive p' = inactive p /\
  Forall2 (fun l l' =>
      ice l' + lwc l' = ice l + lwc l /\ 0 <= ice l' <= ice l /\
      0 <= th l' <= th l /\ th l' * ice l = th l * ice l' /\
      (0 < hc l -> tmp l' = Rmin (tmp l) T0) /\ hc l' = hc l)
    (active p) (active p') /\
  m = total_ice p - total_ice p' /\
  0 <= m <= sumR (map ice (active p)) /\
  m <= Rmax 0 (nan_to_zero pot) + sumR (map surplus (active p)).
Proof.
  intros p pot H. cbv zeta. destruct (melt_spec p pot H) as (E & Le & F & I & A).
  pose proof (melt_amounts_bounds p pot H) as B. pose proof (melt_totals p pot H) as [T1 T2]. cbn zeta in *.
  split; [exact E|]. split; [exact I|]. split; [|split; [lra|split]].
  - clear -F B. revert B. induction F as [|a m b la lm lb (H1 & H2 & H3 & H4 & H5 & H6 & H7) F IH];
      intros B; inversion B; subst; constructor; auto. repeat split; auto; lra.
  - rewrite A. apply sumR_nonneg2, B.
  - rewrite A. unfold melt_amounts. destruct H as [Hn Hw].
    assert (Ha : Forall wf_layer (active p)) by (apply Forall_firstn, Hw).
    destruct pot as [x|]; cbn [nan_to_zero]; [apply melted_total, Ha|].
    rewrite sumR_repeat0, Rmax_left by lra.
    assert (0 <= sumR (map surplus (active p))).
    { apply sumR_nonneg, Forall_map, Forall_forall. intros; apply surplus_nonneg. }
    lra.
Qed.
Print Assumptions c01_melt.

(** Which layer melts how much: the available melt energy is spent from the top. *)
Theorem c01_melt_top_down : forall p x, wf_pixel p ->
  Forall3 (fun l m l' => ice l' = ice l - m) (active p) (melted x (active p)) (active (fst (melt p (Some x)))).
Proof.
  intros p x H. destruct (melt_spec p (Some x) H) as (E & Le & F & I & A). cbn [melt_amounts] in F.
  clear -F. induction F as [|a m b la lm lb (H1 & _) F IH]; constructor; auto.
Qed.
Print Assumptions c01_melt_top_down.

(** Without over-warm layers the reported melt is exactly the potential melt limited by the ice. *)
Theorem c01_melt_amount : forall p x, wf_pixel p -> Forall (fun l => tmp l <= T0) (active p) ->
  snd (melt p (Some x)) = Rmin (Rmax x 0) (sumR (map ice (active p))).
Proof.
  intros p x H Hc. destruct (melt_spec p (Some x) H) as (E & Le & F & I & A). rewrite A.
  apply melted_closed; [apply Forall_firstn, H|exact Hc].
Qed.
Print Assumptions c01_melt_amount.

(** A deeper layer loses ice to melt energy from above only if the layer above it is gone. *)
Theorem c01_melt_order : forall p x k l l2 l' l2', wf_pixel p ->
  nth_error (active p) k = Some l -> nth_error (active p) (S k) = Some l2 ->
  nth_error (active (fst (melt p (Some x)))) k = Some l' ->
  nth_error (active (fst (melt p (Some x)))) (S k) = Some l2' ->
  tmp l2 <= T0 -> ice l2' < ice l2 -> ice l' = 0.
Proof.
  intros p x k l l2 l' l2' H H1 H2 H3 H4 Ht Hi.
  pose proof (c01_melt_top_down p x H) as F.
  assert (Hw : Forall wf_layer (active p)) by (apply Forall_firstn, H).
  assert (N : forall j la lm lb a b, Forall3 (fun l m l' => ice l' = ice l - m) la lm lb ->
     nth_error la j = Some a -> nth_error lb j = Some b -> exists m, nth_error lm j = Some m /\ ice b = ice a - m).
  { clear. intros j la lm lb a b F. revert j. induction F as [|a0 m0 b0 la lm lb E F IH]; intros [|j] Ha Hb; cbn in *;
      try discriminate; [|apply IH; assumption].
    injection Ha as <-; injection Hb as <-. exists m0; auto. }
  destruct (N _ _ _ _ _ _ F H1 H3) as (m1 & Hm1 & E1).
  destruct (N _ _ _ _ _ _ F H2 H4) as (m2 & Hm2 & E2).
  assert (m1 = ice l); [|lra].
  eapply melted_topdown; [exact Hw|exact Hm1|exact H1|exact Hm2|exact H2| |lra].
  apply cold_surplus; [|exact Ht].
  rewrite Forall_forall in Hw. apply (Hw l2). eapply nth_error_In; eauto.
Qed.
Print Assumptions c01_melt_order.

Definition ex_pack : pixel := mkP 2 [mkL 0.1 20 1 T0 50000; mkL 0.2 60 0 270 126000; mkL 0 0 0 T0 0].
Example ex_pack_wf : wf_pixel ex_pack.
Proof. split; [cbn; lia|]. repeat constructor; cbn; lra. Qed.
(** 25 kg m-2 potential melt: the top layer (20) melts completely, the second loses 5. *)
Example c01_example : snd (melt ex_pack (Some 25)) = 25 /\
  map ice (lays (fst (melt ex_pack (Some 25)))) = [0; 55; 0].
Proof.
  split.
  - rewrite c01_melt_amount; [|exact ex_pack_wf|repeat constructor; cbn; unfold T0; lra].
    cbn. rewrite !sumR_cons, sumR_nil. rmm; lra.
  - cbn. unfold T0. rsplit; cbn; repeat f_equal; lra.
Qed.

(** * C02 Sublimation *)
Theorem c02_sublimation : forall p s, wf_pixel p -> ice_free_on_top (active p) ->
  let p' := fst (sublimate p s) in
  snd (sublimate p s) = false /\ ns p' = ns p /\ inactive p' = inactive p /\
  total_ice p' = total_ice p - Rmin (Rmax s 0) (sumR (map ice (active p))) /\
  total_lwc p' = total_lwc p /\
  Forall3 (fun l m l' => ice l' = ice l - m /\ 0 <= ice l' /\ lwc l' = lwc l /\ tmp l' = tmp l /\
                         0 <= th l' <= th l /\ th l' * ice l = th l * ice l')
    (active p) (sublimed (Rmax s 0) (active p)) (active p').
Proof.
  intros p s H Hi. cbv zeta. destruct (sublimate_spec p s H Hi) as (E & Le & F & I & N).
  destruct (sublimate_totals p s H Hi) as [T1 T2]. cbn zeta in *.
  repeat (split; [assumption|]).
  assert (B : Forall2 (fun m l => 0 <= m <= ice l) (sublimed (Rmax s 0) (active p)) (active p)).
  { apply sublimed_bounds; [apply Forall_firstn, H|rmm; lra]. }
  clear -F B. revert B. induction F as [|a m b la lm lb (H1 & H2 & H3 & H4 & H5 & H6) F IH];
    intros B; inversion B; subst; constructor; auto. repeat split; auto; lra.
Qed.
Print Assumptions c02_sublimation.

(** Whenever no NaN is produced the same holds for every pack. *)
Theorem c02_sublimation_any_pack : forall p s, wf_pixel p -> snd (sublimate p s) = false ->
  let p' := fst (sublimate p s) in
  ns p' = ns p /\ inactive p' = inactive p /\
  Forall3 (fun l m l' => ice l' = ice l - m /\ lwc l' = lwc l /\ tmp l' = tmp l /\
                         0 <= th l' <= th l /\ th l' * ice l = th l * ice l')
    (active p) (sublimed (Rmax s 0) (active p)) (active p').
Proof.
  intros p s H Hn. cbv zeta. destruct (sublimate_cond p s H Hn) as (E & Le & F & I). cbn zeta in *.
  repeat (split; [assumption|]).
  clear -F. induction F as [|a m b la lm lb (H1 & H2 & H3 & H4 & H5 & H6) F IH]; constructor; auto 10.
Qed.
Print Assumptions c02_sublimation_any_pack.

(** The whole routine with deposition: reported sublimation (negative: deposition) is exactly the
    mass leaving the pack, never more than the ice there is, and equals minus the moisture flux
    times the time step limited by that ice whenever the surface holds ice or is below 0 degC. *)
Theorem c02_sublimation_mass : forall dt amax air mflux tsurf wet_bulb p alb,
  good_pack p -> lays p <> [] ->
  let '(p', alb', s, nan) := sublimation dt amax air mflux tsurf wet_bulb p alb in
  s <= total_ice p /\
  (forall m, mflux = Some m ->
     (match lays p with l :: _ => 0 < ice l | [] => False end) \/ (exists t, tsurf = Some t /\ t < T0) ->
     s = Rmin (- m * dt) (total_ice p)) /\
  (nan = false -> pack_mass p' = pack_mass p - s /\ wf_pixel p').
Proof.
  intros dt amax air mflux tsurf wet_bulb p alb Hg Hne.
  pose proof (sublimation_good dt amax air mflux tsurf wet_bulb p alb Hg Hne) as B.
  assert (Hti : 0 <= total_ice p).
  { unfold total_ice. apply sumR_nonneg, Forall_map. destruct Hg as ([_ Hw] & _).
    eapply Forall_impl; [|exact Hw]. intros l (_ & ? & _); assumption. }
  destruct (sublimation dt amax air mflux tsurf wet_bulb p alb) as [[[p' alb'] s] nan] eqn:E.
  assert (Es : s = sublimation_amount dt mflux tsurf p).
  { unfold sublimation in E. revert E.
    match goal with |- (let '(_, _) := ?x in _) = _ -> _ => destruct x as [p1 a1] end.
    destruct (sublimate p1 (sublimation_amount dt mflux tsurf p)) as [p2 n2]. congruence. }
  split; [|split].
  - rewrite Es. unfold sublimation_amount. match goal with |- context[if ?b then _ else _] => destruct b end; [apply Rmin_r|lra].
  - intros m Hm Hc. rewrite Es. unfold sublimation_amount. rewrite Hm.
    replace (-1 * m * dt) with (- m * dt) by lra.
    destruct Hc as [Hc|(t & -> & Ht)].
    + destruct (lays p) as [|l r]; [contradiction|]. destruct (Rlt_dec 0 (ice l)); [reflexivity|lra].
    + destruct (Rlt_dec t T0); [|lra]. rewrite orb_true_r. reflexivity.
  - intros N. destruct (B N) as (G & M & _). split; [exact M|apply G].
Qed.
Print Assumptions c02_sublimation_mass.

(** NaN does occur when an active layer without ice lies below one with ice (0/0). *)
Theorem c02_no_nan_refuted : exists p s, wf_pixel p /\ 0 < s <= total_ice p /\ snd (sublimate p s) = true.
Proof.
  exists (mkP 2 [mkL 0.1 20 0 T0 1; mkL 0 0 3 T0 1]), 5. split; [|split].
  - split; [cbn; lia|]. repeat constructor; cbn; lra.
  - unfold total_ice; cbn. rewrite !sumR_cons, sumR_nil. lra.
  - unfold sublimate. cbn. rewrite Rmax_left by lra. destruct (Rlt_dec 0 5); [|lra].
    destruct (Rlt_dec 20 5); [lra|]. destruct (Rlt_dec 0 0); [lra|]. cbn.
    destruct (Req_EM_T 0 0); [apply orb_true_r|lra].
Qed.
Print Assumptions c02_no_nan_refuted.

Example c02_example : ice_free_on_top (active ex_pack) /\
  total_ice (fst (sublimate ex_pack 30)) = total_ice ex_pack - 30.
Proof.
  assert (Hi : ice_free_on_top (active ex_pack)).
  { cbn. right. split; [lra|]. repeat constructor; cbn; lra. }
  split; [exact Hi|]. destruct (c02_sublimation ex_pack 30 ex_pack_wf Hi) as (_ & _ & _ & T & _).
  rewrite T. unfold total_ice; cbn. rewrite !sumR_cons, !sumR_nil. rmm; lra.
Qed.

(** * C03 Runoff *)
Theorem c03_runoff : forall m mx rain p, wf_pixel p -> 0 <= mx -> 0 <= nan_to_zero rain ->
  (m = PoreVolumeFraction -> Forall (fun l => ice l <= ICE_DENSITY * th l) (active p)) ->
  let '(p', ro, rf) := runoff m mx rain p in
  ns p' = ns p /\ inactive p' = inactive p /\
  pack_mass p + nan_to_zero rain = pack_mass p' + ro /\
  0 <= ro /\ rf = total_ice p' - total_ice p /\ 0 <= rf /\
  Forall2 (fun l l' => th l' = th l /\ ice l <= ice l' /\ 0 <= lwc l' <= max_lwc m mx l /\
                       tmp l <= tmp l' <= Rmax (tmp l) T0)
    (active p) (active p').
Proof.
  intros m mx rain p Hw Hmx Hr Hd. pose proof (runoff_spec m mx rain p Hw) as Sp.
  destruct (runoff m mx rain p) as [[p' ro] rf]. destruct Sp as (E & Le & I & F & Ro & Rf).
  assert (Hwa : Forall wf_layer (active p)) by (apply Forall_firstn, Hw).
  unfold caps_of in *.
  assert (Hcaps : Forall (fun c => 0 <= c) (map (max_lwc m mx) (active p))).
  { apply Forall_map, Forall_forall. intros l Hin. apply max_lwc_nonneg; auto.
    - rewrite Forall_forall in Hwa; auto.
    - intros e. specialize (Hd e). rewrite Forall_forall in Hd. apply Hd, Hin. }
  destruct (routing_wf _ _ _ _ (map_length _ _) Hwa Hcaps Hr F) as (W' & B1 & B2).
  split; [exact E|]. split; [exact I|]. split; [|split; [|split; [|split]]].
  - unfold pack_mass. rewrite !(pixel_split _ p'), !(pixel_split _ p), I.
    pose proof (routing_budget _ _ _ _ (map_length _ _) F). lra.
  - rewrite Ro. apply bottom_flux_nonneg, Hr.
  - unfold total_ice. rewrite (pixel_split ice p'), (pixel_split ice p), I. lra.
  - rewrite Rf. assert (sumR (map ice (active p)) <= sumR (map ice (active p'))); [|lra].
    clear -B2. induction B2 as [|a b la lb (H & _) _ IH]; cbn; [lra|]. rewrite !sumR_cons. lra.
  - clear -B1 B2 W'. revert B1 W'. induction B2 as [|a b la lb (H1 & H2 & H3) F IH]; intros B1 W'; [constructor|].
    cbn [map] in B1. inversion B1; inversion W' as [|? ? (? & ? & ? & ?) ?]; subst. constructor; auto 10.
Qed.
Print Assumptions c03_runoff.

(** Layer by layer: what flows into a layer, what leaves it, what freezes. *)
Theorem c03_runoff_routing : forall m mx rain p, wf_pixel p ->
  let '(p', ro, rf) := runoff m mx rain p in
  let caps := map (max_lwc m mx) (active p) in
  let q := nan_to_zero rain in
  Forall3 (fun lc q l' => after_runoff (snd lc) (fst lc) q l')
    (combine (active p) caps) (inflows caps q (active p)) (active p') /\
  ro = bottom_flux caps q (active p).
Proof.
  intros m mx rain p Hw. pose proof (runoff_spec m mx rain p Hw) as Sp.
  destruct (runoff m mx rain p) as [[p' ro] rf]. destruct Sp as (E & Le & I & F & Ro & Rf).
  split; assumption.
Qed.
Print Assumptions c03_runoff_routing.

(** Snow-free pixels pass the rain on. *)
Theorem c03_no_snow : forall m mx rain ls,
  runoff m mx rain (mkP 0 ls) = (mkP 0 ls, nan_to_zero rain, 0).
Proof. intros. unfold runoff; cbn. destruct ls; reflexivity. Qed.
Print Assumptions c03_no_snow.

Example c03_example : wf_pixel ex_pack /\ Forall (fun l => ice l <= ICE_DENSITY * th l) (active ex_pack).
Proof. split; [exact ex_pack_wf|]. repeat constructor; cbn; unfold ICE_DENSITY; lra. Qed.

(** * C04 Re-discretisation: geometry *)
Theorem c04_layering : forall mt p, min_thickness_ok mt -> length mt = length (lays p) ->
  good_pack p -> Forall no_residue (lays p) ->
  let d := snow_depth (lays p) in
  let p' := fst (update_layers mt d p) in
  snd (update_layers mt d p) = false ->
  (ns p' <= length mt)%nat /\ length (lays p') = length mt /\
  Forall (fun l => 0 < th l /\ 0 < ice l) (active p') /\
  Forall (fun l => th l = 0 /\ ice l = 0 /\ lwc l = 0) (inactive p') /\
  (thin_limit <= d ->
     (1 <= ns p')%nat /\ sumR (map th (lays p')) = d /\
     (forall k, (k < ns p' - 1)%nat -> nth k (map th (lays p')) 0 = nth k mt 0) /\
     (forall k, (k < ns p')%nat -> thin_limit <= nth k (map th (lays p')) 0)) /\
  (d < thin_limit -> ns p' = 0%nat).
Proof.
  intros mt p Hmt Hl Hg Hnr. cbv zeta. set (d := snow_depth (lays p)). intros Hb.
  destruct (update_layers_good mt p Hmt Hl Hg Hnr Hb) as (G & L & A & M & D). fold d in G, L, A, M, D.
  split; [|split; [|split; [|split; [|split]]]].
  - destruct G as ([N _] & _). lia.
  - lia.
  - exact A.
  - apply G.
  - intros Hd. destruct (relayer_spec mt p Hmt Hl Hg Hd Hb) as (E1 & E2 & _). fold d in E1, E2.
    destruct (new_ths_shape mt d Hmt Hd) as (Hn & Hle & Hs & Hsh & Hp & Hz & _). cbn zeta in *.
    rewrite E1, E2. split; [lia|]. split; [exact Hs|]. split; [|exact Hp].
    intros k Hk. rewrite Hsh. rewrite app_nth1.
    + transitivity (nth k (firstn (count_pos (drop_thin (new_thicknesses mt d)) - 1) mt ++ skipn (count_pos (drop_thin (new_thicknesses mt d)) - 1) mt) 0).
      * rewrite app_nth1; [reflexivity|]. rewrite firstn_length. lia.
      * rewrite firstn_skipn. reflexivity.
    + rewrite firstn_length. lia.
  - intros Hd. unfold update_layers. fold d. destruct (Rlt_dec 0 d); [|reflexivity]. cbn [fst ns].
    destruct (new_ths_thin mt d Hmt Hd) as [_ Ec]. exact Ec.
Qed.
Print Assumptions c04_layering.

(** The rule of the configuration: as many layers as fit, a new layer only when more than twice
    the minimum thickness of the current one is left, the last layer takes the remainder. *)
Theorem c04_number_of_layers : forall mt d, min_thickness_ok mt -> thin_limit <= d ->
  let ths := drop_thin (new_thicknesses mt d) in
  exists n, (n < length mt)%nat /\
    ths = firstn n mt ++ (d - prefix_sum n mt) :: repeat 0 (length mt - S n) /\
    (forall k, (k < n)%nat -> 2 * nth k mt 0 < d - prefix_sum k mt) /\
    ((S n < length mt)%nat -> d - prefix_sum n mt <= 2 * nth n mt 0).
Proof.
  intros mt d Hmt Hd. cbv zeta. destruct Hmt as [Hne Hm].
  destruct (new_thicknesses_shape mt d Hne) as (n & Hn & E & H1 & H2).
  assert (Ps : forall k, prefix_sum (S k) mt = prefix_sum k mt + nth k mt 0) by (intros; apply sumR_firstn_S).
  exists n. split; [exact Hn|].
  destruct (new_ths_shape mt d (conj Hne Hm) Hd) as (_ & _ & Hs & _). cbn zeta in Hs.
  pose proof (new_thicknesses_sum mt d Hne) as Hs0.
  assert (Hlast : thin_limit <= d - prefix_sum n mt).
  { destruct n as [|n].
    - unfold prefix_sum; cbn [firstn]. rewrite sumR_nil. lra.
    - specialize (H1 n ltac:(lia)). rewrite Forall_forall in Hm.
      assert (thin_limit <= nth n mt 0) by (apply Hm, nth_In; lia). lra. }
  split; [|split].
  - rewrite E. apply drop_thin_id. apply Forall_app. split; [|constructor].
    + apply Forall_firstn. eapply Forall_impl; [|exact Hm]. auto.
    + right. exact Hlast.
    + apply Forall_forall. intros x Hx. apply repeat_spec in Hx. auto.
  - intros k Hk. specialize (H1 k Hk). rewrite Ps in H1. lra.
  - intros Hk. specialize (H2 Hk). rewrite Ps in H2. lra.
Qed.
Print Assumptions c04_number_of_layers.

(** A remnant pack thinner than 1e-6 m of which one layer has melted completely is left with NaN
    contents (0/0). *)
Theorem c04_thin_remnant_nan_refuted : exists mt p,
  min_thickness_ok mt /\ length mt = length (lays p) /\ good_pack p /\ Forall no_residue (lays p) /\
  0 < snow_depth (lays p) < thin_limit /\ snd (update_layers mt (snow_depth (lays p)) p) = true.
Proof.
  exists [0.1; 0.2], (mkP 2 [mkL 0 0 0 T0 0; mkL (1 / 2000000) (1 / 10000) 0 T0 0]).
  assert (Ed : snow_depth (lays (mkP 2 [mkL 0 0 0 T0 0; mkL (1 / 2000000) (1 / 10000) 0 T0 0])) = 1 / 2000000).
  { unfold snow_depth; cbn. rewrite !sumR_cons, sumR_nil. lra. }
  split; [|split; [|split; [|split; [|split]]]].
  - split; [discriminate|]. repeat constructor; unfold thin_limit; lra.
  - reflexivity.
  - split; [split; [cbn; lia|]|split].
    + repeat constructor; cbn; lra.
    + constructor.
    + repeat constructor; cbn; lra.
  - repeat constructor; cbn in *; lra.
  - rewrite Ed. unfold thin_limit. lra.
  - rewrite Ed. unfold update_layers. destruct (Rlt_dec 0 (1 / 2000000)); [|lra]. cbn [lays ns].
    assert (Hd : 1 / 2000000 < thin_limit) by (unfold thin_limit; lra).
    assert (Hmt : min_thickness_ok [0.1; 0.2]) by (split; [discriminate|]; repeat constructor; unfold thin_limit; lra).
    destruct (new_ths_thin [0.1; 0.2] (1 / 2000000) Hmt Hd) as [Et Ec]. cbn zeta in Et, Ec. rewrite Ec, Et.
    cbn [snd]. unfold redistribute. cbn [firstn map fold_left].
    match goal with |- bad (?g (?f ?s ?a) ?b) = true => assert (Hb : bad (f s a) = true) end.
    { cbn [inner length repeat old_of ot rem th nth]. unfold weight.
      destruct (Req_EM_T 0 0); [|lra]. destruct (Rlt_dec 0 0); [lra|]. reflexivity. }
    apply inner_bad_mono, Hb.
Qed.
Print Assumptions c04_thin_remnant_nan_refuted.

(** * C05 Re-discretisation: contents *)
(** New layer [k] holds exactly what the old pack held between the depths of its top and bottom
    (contents uniform within an old layer). *)
Theorem c05_redistribution : forall mt p, min_thickness_ok mt -> length mt = length (lays p) ->
  good_pack p ->
  let d := snow_depth (lays p) in
  let p' := fst (update_layers mt d p) in
  thin_limit <= d -> snd (update_layers mt d p) = false ->
  (forall q, q = ice \/ q = lwc \/ q = energy ->
     sumR (map q (lays p')) = sumR (map q (active p)) /\
     forall k, nth k (map q (lays p')) 0 =
       above q (sumR (firstn (S k) (map th (lays p')))) (active p)
       - above q (sumR (firstn k (map th (lays p')))) (active p)) /\
  Forall wf_layer (lays p').
Proof.
  intros mt p Hmt Hl Hg. cbv zeta. set (d := snow_depth (lays p)). intros Hd Hb.
  destruct (relayer_spec mt p Hmt Hl Hg Hd Hb) as (E1 & E2 & E3 & E4 & E5 & E6).
  fold d in E1, E2, E3, E4, E5, E6.
  unfold d in Hb, E4 |- *. rewrite relayer_eq in Hb by assumption. cbn [snd] in Hb.
  split; [|apply E5].
  assert (K : forall c, sumR (map (quantity c) (lays (fst (update_layers mt d p)))) = sumR (map (quantity c) (active p)) /\
     forall k, nth k (map (quantity c) (lays (fst (update_layers mt d p)))) 0 =
       above (quantity c) (sumR (firstn (S k) (map th (lays (fst (update_layers mt d p)))))) (active p)
       - above (quantity c) (sumR (firstn k (map th (lays (fst (update_layers mt d p)))))) (active p)).
  { intros c. unfold d. rewrite E4. unfold d in E2. rewrite E2. split.
    - apply relayer_totals; assumption.
    - intros k. apply relayer_nth; assumption. }
  intros q [ -> | [ -> | -> ] ]; [apply (K SI)|apply (K SW)|apply (K SE)].
Qed.
Print Assumptions c05_redistribution.

(** No NaN if every old layer has a positive thickness (or the layers without thickness, left over
    from complete melt, are on top). *)
Theorem c05_no_nan : forall mt p, min_thickness_ok mt -> length mt = length (lays p) ->
  good_pack p -> thin_limit <= snow_depth (lays p) ->
  Forall (fun l => 0 < th l) (active p) \/ ice_free_on_top (active p) ->
  snd (update_layers mt (snow_depth (lays p)) p) = false.
Proof.
  intros mt p Hmt Hl Hg Hd H. apply relayer_nobad; auto.
  destruct H as [H|H]; [left; exact H|right].
  apply coherent_thin; [apply Forall_firstn, Hg|apply Hg|exact H].
Qed.
Print Assumptions c05_no_nan.

Example c05_example : good_pack ex_pack /\ Forall no_residue (lays ex_pack) /\
  Forall (fun l => 0 < th l) (active ex_pack) /\ thin_limit <= snow_depth (lays ex_pack) /\
  min_thickness_ok [0.05; 0.1; 0.2].
Proof.
  split; [|split; [|split; [|split]]].
  - split; [exact ex_pack_wf|]. split; repeat constructor; cbn; lra.
  - repeat constructor; cbn in *; lra.
  - repeat constructor; cbn; lra.
  - unfold snow_depth; cbn. rewrite !sumR_cons, sumR_nil. unfold thin_limit; lra.
  - split; [discriminate|]. repeat constructor; unfold thin_limit; lra.
Qed.

(** * C06 Adding snow *)
Theorem c06_add_snow : forall amax air amount water density l r n alb,
  let a := nan_to_zero amount in
  let '(p', alb') := add_snow amax air amount water density (mkP n (l :: r)) alb in
  exists l', lays p' = l' :: r /\
    ice l' = ice l + a /\ lwc l' = lwc l + water /\ th l' = th l + a / density /\ hc l' = hc l /\
    (n = 0%nat -> 0 < a -> ns p' = 1%nat /\ tmp l' = Rmin air T0 /\ alb' = Some amax) /\
    ((0 < n)%nat \/ a <= 0 -> ns p' = n /\ tmp l' = tmp l /\ alb' = alb).
Proof.
  intros amax air amount water density l r n alb. cbv zeta. unfold add_snow. cbn [lays ns].
  eexists. split; [reflexivity|]. cbn [ice lwc th hc tmp ns].
  repeat (split; [reflexivity|]). split.
  - intros -> Ha. destruct (Rlt_dec 0 (nan_to_zero amount)); [|lra]. cbn. auto.
  - intros [H|H].
    + destruct n; [lia|]. cbn. auto.
    + destruct (Rlt_dec 0 (nan_to_zero amount)); [lra|]. rewrite andb_false_r. auto.
Qed.
Print Assumptions c06_add_snow.

Theorem c06_accumulation : forall amax air sf wet_bulb p alb, lays p <> [] ->
  let p' := fst (accumulation amax air sf wet_bulb p alb) in
  total_ice p' = total_ice p + Rmax 0 (nan_to_zero sf) /\ total_lwc p' = total_lwc p /\
  snow_depth (lays p') = snow_depth (lays p) + Rmax 0 (nan_to_zero sf) / fresh_snow_density wet_bulb /\
  (nan_to_zero sf <= 0 -> p' = p).
Proof.
  intros amax air sf wb p alb Hne. cbv zeta. unfold accumulation, gt0.
  assert (Z : 0 / fresh_snow_density wb = 0) by (unfold Rdiv; lra).
  destruct sf as [x|]; cbn [nan_to_zero].
  - destruct (Rlt_dec 0 x).
    + destruct (add_snow_mass amax air (Some x) 0 (fresh_snow_density wb) p alb Hne) as (A & B & C).
      cbn [nan_to_zero] in *. rewrite Rmax_right by lra. repeat split; try assumption; lra.
    + cbn [fst]. rewrite Rmax_left by lra. rewrite Z. repeat split; lra.
  - cbn [fst]. rewrite Rmax_left by lra. rewrite Z. repeat split; lra.
Qed.
Print Assumptions c06_accumulation.
Example c06_example :
  total_ice (fst (accumulation 0.85 270 (Some 7) (Some 268) ex_pack (Some 0.7))) = 87.
Proof.
  destruct (c06_accumulation 0.85 270 (Some 7) (Some 268) ex_pack (Some 0.7)) as (T & _); [discriminate|].
  rewrite T. unfold total_ice; cbn. rewrite !sumR_cons, sumR_nil. rmm; lra.
Qed.

(** * C07 Water balance over any run *)
Theorem c07_balance : forall c fs p alb,
  cfg_ok c -> good_pack p -> length (lays p) = length (mts c) ->
  Forall (fun f => 0 <= nan_to_zero (f_rain f)) fs -> all_routable c fs (p, alb) ->
  let '((p', alb'), os) := snow_run c fs (p, alb) in
  Forall (fun o => o_nan o = false) os ->
  pack_mass p' - pack_mass p =
    sumR (map (fun f => Rmax 0 (nan_to_zero (f_snowfall f)) + nan_to_zero (f_rain f)) fs)
    - sumR (map o_runoff os) - sumR (map o_sublimation os) - sumR (map discarded os) /\
  wf_pixel p' /\ Forall (fun o => 0 <= o_runoff o /\ 0 <= discarded o) os.
Proof.
  intros c fs p alb Hc Hg Hl Hr Hrt. pose proof (run_good c Hc fs p alb Hg Hl Hr Hrt) as B.
  destruct (snow_run c fs (p, alb)) as [[p' alb'] os]. intros N. destruct (B N) as (G & L & M & F).
  split; [|split; [apply G|exact F]].
  unfold run_out, run_in, snow_in in M.
  assert (S3 : forall os, sumR (map (fun o => o_runoff o + o_sublimation o + discarded o) os) =
     sumR (map o_runoff os) + sumR (map o_sublimation os) + sumR (map discarded os)).
  { clear. induction os as [|o os IH]; cbn [map]; [rewrite !sumR_nil; lra|rewrite !sumR_cons, IH; lra]. }
  rewrite S3 in M. lra.
Qed.
Print Assumptions c07_balance.

(** Every state on the way is physical (apply to prefixes), and the whole run from the initial
    snow-free state with the empirical compaction scheme satisfies all side conditions by itself. *)
Theorem c07_balance_empirical : forall c fs,
  cfg_ok c -> lwcm c = PoreVolumeFraction -> dense_cfg c ->
  Forall (fun f => 0 <= nan_to_zero (f_rain f)) fs -> Forall wet_bulb_ok fs ->
  let '((p', alb'), os) := snow_run c fs (@pair pixel num (init_pixel (length (mts c))) None) in
  Forall (fun o => o_nan o = false) os ->
  pack_mass p' =
    sumR (map (fun f => Rmax 0 (nan_to_zero (f_snowfall f)) + nan_to_zero (f_rain f)) fs)
    - sumR (map o_runoff os) - sumR (map o_sublimation os) - sumR (map discarded os) /\
  wf_pixel p' /\ Forall dense (lays p').
Proof.
  intros c fs Hc Hpv Hdc Hr Hw.
  set (n := length (mts c)).
  assert (Hg : good_pack (init_pixel n)).
  { split; [split; [cbn; lia|]|split]; cbn.
    - apply Forall_forall. intros l Hl. apply repeat_spec in Hl as ->. unfold wf_layer; cbn. lra.
    - apply Forall_forall. intros l Hl. apply repeat_spec in Hl as ->. unfold empty_slot; cbn. lra.
    - constructor. }
  assert (Hl : length (lays (init_pixel n)) = n) by (cbn; apply repeat_length).
  assert (Hd : Forall dense (lays (init_pixel n))).
  { apply Forall_forall. intros l Hl'. apply repeat_spec in Hl' as ->. unfold dense; cbn. lra. }
  assert (Hm : pack_mass (init_pixel n) = 0).
  { apply sumR_all0, Forall_map, Forall_forall. intros l Hl'. apply repeat_spec in Hl' as ->. cbn. lra. }
  pose proof (run_dense c Hc Hpv Hdc fs _ None Hg Hl Hd Hr Hw) as D.
  pose proof (c07_balance c fs _ None Hc Hg Hl Hr) as B.
  destruct (snow_run c fs (@pair pixel num (init_pixel n) None)) as [[p' alb'] os]. cbn [fst snd] in D.
  intros N. destruct (D N) as [R1 D1]. destruct (B R1 N) as (M & W & _).
  split; [lra|]. split; assumption.
Qed.
Print Assumptions c07_balance_empirical.

(** With the mass fraction method no density condition is needed at all. *)
Theorem c07_balance_mass_fraction : forall c fs p alb,
  cfg_ok c -> lwcm c = MassFraction -> good_pack p -> length (lays p) = length (mts c) ->
  Forall (fun f => 0 <= nan_to_zero (f_rain f)) fs ->
  let '((p', alb'), os) := snow_run c fs (p, alb) in
  Forall (fun o => o_nan o = false) os ->
  pack_mass p' - pack_mass p =
    sumR (map (fun f => Rmax 0 (nan_to_zero (f_snowfall f)) + nan_to_zero (f_rain f)) fs)
    - sumR (map o_runoff os) - sumR (map o_sublimation os) - sumR (map discarded os) /\
  wf_pixel p'.
Proof.
  intros c fs p alb Hc Hm Hg Hl Hr. pose proof (c07_balance c fs p alb Hc Hg Hl Hr) as B.
  assert (R1 : all_routable c fs (p, alb)).
  { clear -Hm. generalize (p, alb) as st. induction fs as [|f fs IH]; intros st; cbn; [exact I|].
    split; [intros E; congruence|apply IH]. }
  destruct (snow_run c fs (p, alb)) as [[p' alb'] os]. intros N. destruct (B R1 N) as (M & W & _). auto.
Qed.
Print Assumptions c07_balance_mass_fraction.

(** What is discarded in one step is at most the mass of 1e-6 m of saturated ice, and only packs
    thinner than 1e-6 m are discarded. *)
Theorem c07_discarded : forall c f p alb,
  cfg_ok c -> good_pack p -> length (lays p) = length (mts c) ->
  0 <= nan_to_zero (f_rain f) -> routable c f (p, alb) ->
  let '((p', alb'), o) := snow_step c f (p, alb) in
  o_nan o = false ->
  (thin_limit <= o_depth o -> discarded o = 0) /\
  (lwcm c = PoreVolumeFraction -> 0 <= discarded o <= (917 + 1000 * lwcmax c) / 1000000) /\
  pack_mass p' = o_swe o - discarded o.
Proof.
  intros c f p alb Hc Hg Hl Hr Hrt. pose proof (step_good c f p alb Hc Hg Hl Hr Hrt) as S.
  destruct (snow_step c f (p, alb)) as [[p' alb'] o]. intros N.
  destruct (S N) as (_ & _ & _ & _ & _ & Dp & M & _ & Db). split; [|split; [|exact M]].
  - intros H. unfold discarded. destruct (Rlt_dec (o_depth o) thin_limit); [lra|reflexivity].
  - intros Hp. specialize (Db Hp). unfold thin_limit, ICE_DENSITY, WATER_DENSITY in Db. lra.
Qed.
Print Assumptions c07_discarded.

(** When a step yields no NaN: the pack of the previous step is a pack with full layers, heat
    conduction leaves no layer above 0 degC, melting happens only at a melting surface. *)
Theorem c07_no_nan : forall c f p alb,
  cfg_ok c -> good_pack p -> length (lays p) = length (mts c) ->
  Forall (fun l => 0 < th l /\ 0 < ice l) (active p) ->
  0 <= nan_to_zero (f_rain f) -> routable c f (p, alb) -> calm c f ->
  let '((p', alb'), o) := snow_step c f (p, alb) in
  o_depth o <= 0 \/ thin_limit <= o_depth o ->
  o_nan o = false /\ Forall (fun l => 0 < th l /\ 0 < ice l) (active p').
Proof.
  intros c f p alb Hc Hg Hl Hf Hr Hrt Hcalm.
  pose proof (step_no_nan c f p alb Hc Hg Hl Hf Hr Hrt Hcalm) as N.
  pose proof (step_good c f p alb Hc Hg Hl Hr Hrt) as S.
  destruct (snow_step c f (p, alb)) as [[p' alb'] o]. cbn [snd] in N. intros H.
  specialize (N H). destruct (S N) as (_ & _ & A & _). split; assumption.
Qed.
Print Assumptions c07_no_nan.

(** A configuration and forcings meeting the hypotheses: snowfall, then rain. *)
Definition ex_cfg : config :=
  mkC 3600 [0.1; 0.2; 0.4] PoreVolumeFraction 0.03 (Empirical 200 300 500) (mkAC 0.55 0.85 200 480 0.5 Binary).
Definition ex_f1 : forcing := mkF (Some 12) (Some 0) (Some 268) 269 (Some 269) (Some 0) [269; 270; 271] (Some 0) (Some 268).
Definition ex_f2 : forcing := mkF None (Some 4) None 276 (Some 276) (Some 1) [T0; T0; T0] None (Some T0).
Example c07_example : cfg_ok ex_cfg /\ dense_cfg ex_cfg /\ lwcm ex_cfg = PoreVolumeFraction /\
  Forall (fun f => 0 <= nan_to_zero (f_rain f)) [ex_f1; ex_f2] /\ Forall wet_bulb_ok [ex_f1; ex_f2] /\
  calm ex_cfg ex_f1 /\ calm ex_cfg ex_f2.
Proof.
  split; [|split; [|split; [|split; [|split; [|split]]]]].
  - split; [|split; [|split]]; cbn; try lra.
    + split; [discriminate|]. repeat constructor; unfold thin_limit; lra.
    + intros ts mc mm E. injection E as <- <- <-. lra.
  - split; cbn; unfold WATER_DENSITY, ICE_DENSITY; lra.
  - reflexivity.
  - repeat constructor; cbn; lra.
  - repeat constructor; cbn; unfold T0; lra.
  - split; [repeat constructor; unfold T0; lra|]. split; [cbn; lia|]. cbn. lra.
  - split; [repeat constructor; unfold T0; lra|]. split; [cbn; lia|]. cbn. lra.
Qed.
