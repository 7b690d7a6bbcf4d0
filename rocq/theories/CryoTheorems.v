(** Properties C08-C13, C74, C75: the cryolayer snow model (modules/snow/cryolayermodel.py and
    surface.py:cryo_layer_energy_balance). *)
From Verif Require Import Common Constants SnowModel SnowProofs CryoModel CryoSpec CryoProofs.

Definition ex_new : clayer := CL (2/10) 20 1 3 (Some 105) (Some (8/10)).
Definition ex_old : clayer := CL (5/10) 150 4 0 (Some 308) (Some (6/10)).
Definition ex_ice : clayer := CL 10 9000 0 0 (Some 900) (Some (4/10)).
Definition ex_pix : cpix := CP ex_new ex_old reset_layer ex_ice (Some (8/10)).
Lemma ex_pix_coherent : coherent_pix ex_pix.
Proof.
  unfold coherent_pix. rewrite forall_lays. cbn [l_new l_old l_firn l_ice ex_pix].
  repeat split; try (left; unfold absent; cbn; lra); right; unfold present, ex_new, ex_old, ex_ice; cbn; repeat split; try lra; f_equal; field.
Qed.

(** * C08 Melt *)
Theorem c08_melt_conserves_water : forall m p, 0 <= m -> Forall (fun l => 0 <= cice l) (lays p) ->
  let q := melt (Some m) p in
  Forall2 (fun l l' =>
    0 <= cice l' <= cice l /\ cice l' + clw l' = cice l + clw l /\
    cth l' * cice l = cth l * cice l' /\ (cice l = 0 -> l' = l) /\
    ccold l' = ccold l /\ cdens l' = cdens l /\ calb l' = calb l) (lays p) (lays q) /\
  top_down (lays p) (lays q) /\
  tot_ice q = tot_ice p - Rmin m (tot_ice p) /\
  tot_lw q = tot_lw p + Rmin m (tot_ice p) /\ palb q = palb p.
Proof.
  intros m p Hm H. cbv zeta. unfold melt.
  destruct (take_spec true m p Hm H) as (A & B & C & D & _). cbv zeta in *.
  split; [|split; [exact B|split; [exact C|split; [exact D|]]]].
  - destruct (take_take_l true m p) as [E _]. rewrite E in *. clear E B C D.
    revert m Hm A. induction H as [|l r Hl Hr IH]; intros m Hm A; cbn [take_l] in *; [constructor|].
    pose proof (take_layer_rest true m l Hl Hm) as (_ & _ & R4).
    destruct (take_layer true m l) as [l' c] eqn:E1. cbn [snd] in R4.
    destruct (take_l true c r) as [r' c'] eqn:E2. cbn [fst] in *.
    inversion A as [|? ? ? ? (P1 & P2 & P3 & P4 & P5 & P6) Q]; subst. constructor.
    + repeat split; auto; try lra. intro Z. unfold take_layer in E1.
      destruct (Rlt_dec 0 m); [destruct (Rlt_dec 0 (cice l)); [lra|]|]; congruence.
    + specialize (IH c R4). rewrite E2 in IH. exact (IH Q).
  - unfold take. destruct (take_layer true m (l_new p)) as [k1 c1]. destruct (take_layer true c1 (l_old p)) as [k2 c2].
    destruct (take_layer true c2 (l_firn p)) as [k3 c3]. destruct (take_layer true c3 (l_ice p)) as [k4 c4]. reflexivity.
Qed.
Print Assumptions c08_melt_conserves_water.
Example c08_example : 0 <= 30 /\ Forall (fun l => 0 <= cice l) (lays ex_pix) /\
  Rmin 30 (tot_ice ex_pix) = 30 /\ cice (l_new (melt (Some 30) ex_pix)) = 0 /\ cice (l_old (melt (Some 30) ex_pix)) = 140.
Proof.
  split; [lra|]. split; [rewrite forall_lays; cbn; lra|]. split; [rewrite tot_ice_eq; cbn; rmm; lra|].
  unfold melt, take, take_layer; cbn.
  repeat (destruct (Rlt_dec _ _); cbn; try lra). all: rmm; lra.
Qed.

(** A layer whose ice is used up has no thickness left. *)
Theorem c08_no_ice_no_thickness : forall m p, Forall (fun l => 0 <= cice l) (lays p) ->
  Forall2 (fun l l' => 0 < cice l -> cice l' = 0 -> cth l' = 0) (lays p) (lays (melt m p)).
Proof.
  intros m p H.
  assert (SELF : forall ls : list clayer, Forall2 (fun l l' => 0 < cice l -> cice l' = 0 -> cth l' = 0) ls ls)
    by (induction ls; constructor; auto; intros; lra).
  destruct m as [m|]; [|apply SELF]. destruct (Rle_lt_dec m 0).
  - cbn [melt]. rewrite take_neg by auto. apply SELF.
  - destruct (c08_melt_conserves_water m p ltac:(lra) H) as (A & _). revert A. clear. cbv zeta.
    generalize (lays (melt (Some m) p)) (lays p). intros ls ls0 A.
    induction A as [|x y lx ly (_ & _ & E & _) A IH]; constructor; auto. intros P Z. rewrite Z, Rmult_0_r in E.
    apply Rmult_integral in E. lra.
Qed.
Print Assumptions c08_no_ice_no_thickness.

(** No melt, or a missing melt value, changes nothing. *)
Theorem c08_no_melt : forall m p, match m with Some x => x <= 0 | None => True end -> melt m p = p.
Proof. intros [m|] p H; cbn [melt]; [rewrite take_neg by auto|]; reflexivity. Qed.
Print Assumptions c08_no_melt.
Example c08_no_melt_example : melt (Some 0) ex_pix = ex_pix.
Proof. apply c08_no_melt; lra. Qed.

(** * C09 Sublimation *)
Theorem c09_sublimation_amount : forall c mf wb p,
  snd (sublimation c mf wb p) =
    (if Rlt_dec 0 (tot_ice p) then
       match mf with Some f => Rmin (- f * cc_dt c) (tot_ice p) | None => Rmin 0 (tot_ice p) end
     else 0).
Proof.
  intros. unfold sublimation, sublimation_amount.
  destruct (take false _ p) as [q chg]. cbn [snd]. destruct (Rlt_dec _ _); auto.
  destruct mf; cbn; auto. f_equal. ring.
Qed.
Print Assumptions c09_sublimation_amount.

Theorem c09_sublimation_removes_from_top : forall c mf wb p,
  Forall (fun l => 0 <= cice l) (lays p) -> 0 <= snd (sublimation c mf wb p) ->
  let '(q, s) := sublimation c mf wb p in
  s <= tot_ice p /\ tot_ice q = tot_ice p - s /\ Forall2 (reduced false) (lays p) (lays q) /\
  Forall2 (fun l l' => cice l = 0 -> l' = l) (lays p) (lays q) /\
  top_down (lays p) (lays q) /\ tot_lw q = tot_lw p /\ palb q = palb p.
Proof.
  intros c mf wb p H S. unfold sublimation in *.
  assert (T : 0 <= tot_ice p) by (apply sumR_nonneg; rewrite Forall_map; auto).
  assert (L : sublimation_amount (cc_dt c) mf p <= tot_ice p).
  { unfold sublimation_amount. destruct (Rlt_dec _ _); [apply Rmin_r|lra]. }
  set (s := sublimation_amount (cc_dt c) mf p) in *.
  assert (S' : 0 <= s) by (destruct (take false s p); exact S). clear S.
  destruct (take_spec false s p S' H) as (A & B & C & D & E). cbv zeta in *.
  assert (Z : Forall2 (fun l l' => cice l = 0 -> l' = l) (lays p) (lays (fst (take false s p)))).
  { destruct (take_take_l false s p) as [E1 _]. rewrite E1. clear. generalize s. clear s.
    induction (lays p) as [|l r IH]; intro s; cbn [take_l]; [constructor|].
    destruct (take_layer false s l) as [l' c2] eqn:E1. specialize (IH c2). destruct (take_l false c2 r) as [r' c']. cbn [fst] in *.
    constructor; auto. intro Z. unfold take_layer in E1.
    destruct (Rlt_dec 0 s); [destruct (Rlt_dec 0 (cice l)); [lra|]|]; congruence. }
  assert (PA : palb (fst (take false s p)) = palb p).
  { unfold take. destruct (take_layer false s (l_new p)) as [k1 c1]. destruct (take_layer false c1 (l_old p)) as [k2 c2].
    destruct (take_layer false c2 (l_firn p)) as [k3 c3]. destruct (take_layer false c3 (l_ice p)) as [k4 c4]. reflexivity. }
  destruct (take false s p) as [q chg]. cbn [fst snd] in *. rewrite Rmin_left in * by lra.
  destruct (Rlt_dec chg 0); [lra|]. rewrite D. split; [lra|]. split; [lra|]. split; [auto|]. split; [auto|]. split; [auto|]. split; [lra|auto].
Qed.
Print Assumptions c09_sublimation_removes_from_top.

Theorem c09_deposition_is_new_snow : forall c mf wb p, snd (sublimation c mf wb p) < 0 ->
  let '(q, s) := sublimation c mf wb p in
  cice (l_new q) = cice (l_new p) - s /\ clw (l_new q) = clw (l_new p) /\
  cth (l_new q) = cth (l_new p) - s / fresh_snow_density wb /\ ccold (l_new q) = ccold (l_new p) /\
  l_old q = l_old p /\ l_firn q = l_firn p /\ l_ice q = l_ice p /\ tot_ice q = tot_ice p - s.
Proof.
  intros c mf wb p S. unfold sublimation in *. set (s := sublimation_amount (cc_dt c) mf p) in *.
  assert (S' : s < 0) by (destruct (take false s p); exact S).
  rewrite take_neg by lra. destruct (Rlt_dec s 0); [|lra].
  destruct (add_snow_tot c (- s) 0 (fresh_snow_density wb) None p) as [-> _].
  pose proof (fresh_pos wb). cbn [add_snow l_new l_old l_firn l_ice cice clw cth ccold].
  repeat split; auto; try lra.
Qed.
Print Assumptions c09_deposition_is_new_snow.
Definition ex_ccfg : ccfg :=
  CC 3600 (mkAC (55/100) (85/100) 200 480 (5/10) Binary) (4/10) (3/10) false 200 900 MassFraction (1/10) (2/100) (5/10).
Example c09_example :
  Forall (fun l => 0 <= cice l) (lays ex_pix) /\
  snd (sublimation ex_ccfg (Some (- 1/100)) None ex_pix) = 36 /\
  snd (sublimation ex_ccfg (Some (1/1000)) None ex_pix) = - (36/10) /\
  snd (sublimation ex_ccfg (Some (1/1000)) None ex_pix) < 0.
Proof.
  rewrite !c09_sublimation_amount, tot_ice_eq. cbn.
  split; [rewrite forall_lays; cbn; lra|]. destruct (Rlt_dec 0 _); [|lra]. repeat split; rmm; lra.
Qed.

(** * C10 Runoff *)
Theorem c10_runoff_routed : forall c rain p, 0 <= nan_to_zero rain ->
  routed [holding_capacity (cc_lwc c) (cc_mx c) (l_new p); holding_capacity (cc_lwc c) (cc_mx c) (l_old p); 0; 0]
    (nan_to_zero rain) (lays p) (lays (fst (runoff c rain p))) (snd (runoff c rain p)).
Proof.
  intros c rain p H. destruct (runoff_routed c rain p H) as [R _].
  replace (holding_capacity (cc_lwc c) (cc_mx c) (l_new p)) with (max_lwc (cc_lwc c) (cc_mx c) (to_layer (l_new p))).
  replace (holding_capacity (cc_lwc c) (cc_mx c) (l_old p)) with (max_lwc (cc_lwc c) (cc_mx c) (to_layer (l_old p))).
  exact R.
  all: unfold max_lwc, holding_capacity, to_layer; cbn [th ice]; destruct (cc_lwc c); auto.
  all: try (destruct (Rlt_dec _ _); [unfold WATER_DENSITY, ICE_DENSITY|]); ring.
Qed.
Print Assumptions c10_runoff_routed.
(** The specification determines the outcome. *)
Theorem c10_routed_determined : forall caps r ls ls1 ls2 r1 r2,
  routed caps r ls ls1 r1 -> routed caps r ls ls2 r2 -> ls1 = ls2 /\ r1 = r2.
Proof. intros caps r ls ls1 ls2 r1 r2 A B. exact (routed_unique _ _ _ _ _ A _ _ B). Qed.
Print Assumptions c10_routed_determined.

Theorem c10_runoff_balance : forall c rain p, 0 <= nan_to_zero rain ->
  let '(q, ro) := runoff c rain p in
  tot_lw p + nan_to_zero rain = tot_lw q + ro /\ 0 <= ro /\ map cice (lays q) = map cice (lays p) /\
  (0 < cice (l_new p) + clw (l_new p) -> clw (l_new q) <= holding_capacity (cc_lwc c) (cc_mx c) (l_new p)) /\
  (0 < cice (l_old p) + clw (l_old p) -> clw (l_old q) <= holding_capacity (cc_lwc c) (cc_mx c) (l_old p)) /\
  (0 < cice (l_firn p) + clw (l_firn p) -> clw (l_firn q) <= 0) /\
  (0 < cice (l_ice p) + clw (l_ice p) -> clw (l_ice q) <= 0).
Proof.
  intros c rain p H. pose proof (c10_runoff_routed c rain p H) as R.
  destruct (runoff c rain p) as [q ro]. cbn [fst snd] in R.
  pose proof (routed_sum _ _ _ _ _ R) as (A & _ & D). unfold tot_lw. split; auto. split; auto.
  assert (G : forall caps r ls ls' r', routed caps r ls ls' r' -> map cice ls' = map cice ls /\
     forall n cap l l', nth_error caps n = Some cap -> nth_error ls n = Some l -> nth_error ls' n = Some l' ->
       0 < cice l + clw l -> clw l' <= cap).
  { clear. induction 1 as [|cap caps r l l' r1 ls ls' r' H H0 H1 H2 H3 H4 H5 H6 H7 H8 H9 [IH1 IH2]|cap caps r l ls ls' r' H H0 [IH1 IH2]]; cbn [map].
    - split; auto. intros [|n]; discriminate.
    - rewrite H0, IH1. split; auto. intros [|n] k x y E1 E2 E3 P.
      + cbn in *. congruence.
      + cbn in *. eapply IH2; eauto.
    - rewrite IH1. split; auto. intros [|n] k x y E1 E2 E3 P; cbn in *.
      + injection E2 as <-. lra.
      + eapply IH2; eauto. }
  destruct (G _ _ _ _ _ R) as [G1 G2]. split; [exact G1|].
  repeat split; intro P.
  - exact (G2 0%nat _ _ _ eq_refl eq_refl eq_refl P).
  - exact (G2 1%nat _ _ _ eq_refl eq_refl eq_refl P).
  - exact (G2 2%nat _ _ _ eq_refl eq_refl eq_refl P).
  - exact (G2 3%nat _ _ _ eq_refl eq_refl eq_refl P).
Qed.
Print Assumptions c10_runoff_balance.
(** On bare ground the rain runs off, with or without missing values. *)
Theorem c10_bare_ground : forall c rain p, Forall (fun l => cice l + clw l <= 0) (lays p) ->
  runoff c rain p = (p, nan_to_zero rain).
Proof.
  intros c rain p H. rewrite forall_lays in H. destruct H as (A & B & C & D).
  assert (E : forall cap r l, cice l + clw l <= 0 -> route_layer cap r l = (l, r)).
  { intros cap r l H. unfold route_layer. destruct (Rlt_dec _ _); [lra|auto]. }
  unfold runoff. rewrite !E by auto. destruct p; reflexivity.
Qed.
Print Assumptions c10_bare_ground.
Example c10_example : 0 <= nan_to_zero (Some 5) /\
  snd (runoff ex_ccfg (Some 5) ex_pix) = 0 /\ snd (runoff ex_ccfg (Some 50) ex_pix) = 38 /\
  Forall (fun l => cice l + clw l <= 0) (lays cinit).
Proof.
  split; [cbn; lra|]. split; [|split].
  1,2: unfold runoff, route_layer, ex_ccfg, ex_pix, ex_new, ex_old, ex_ice, max_lwc, to_layer; cbn [l_new l_old l_firn l_ice cice clw cth cc_lwc cc_mx th ice nan_to_zero reset_layer];
    repeat (destruct (Rlt_dec _ _); try lra; cbn [snd]); rmm; lra.
  rewrite forall_lays. cbn. lra.
Qed.

(** * C11 Layer transitions *)
Theorem c11_transition_conserves : forall pos src dst, coherent src -> coherent dst ->
  exists s d, transition pos src dst = Some (s, d) /\ coherent s /\ coherent d /\
    cice s + cice d = cice src + cice dst /\ clw s + clw d = clw src + clw dst /\
    ccold s + ccold d = ccold src + ccold dst /\
    (pos = true -> s = reset_layer) /\ (pos = false -> s = src /\ d = dst) /\
    0 <= cth s + cth d <= cth src + cth dst /\
    (cth dst = 0 \/ cth src = 0 -> cth s + cth d = cth src + cth dst).
Proof. exact transition_ok. Qed.
Print Assumptions c11_transition_conserves.

(** The destination: copied when empty, otherwise density and albedo are mass-weighted means. *)
Theorem c11_transition_destination : forall src dst, coherent src -> coherent dst -> 0 < cth src ->
  exists d, transition true src dst = Some (reset_layer, d) /\
   (cth dst = 0 -> d = src) /\
   (0 < cth dst -> exists rs rd, cdens src = Some rs /\ cdens dst = Some rd /\
      cdens d = Some ((cmass src * rs + cmass dst * rd) / (cmass src + cmass dst)) /\
      (forall a b, calb src = Some a -> calb dst = Some b ->
         calb d = Some ((cmass src * a + cmass dst * b) / (cmass src + cmass dst)))).
Proof.
  intros src dst Hs Hd P. destruct (transition_ok true src dst Hs Hd) as (s & d & E & _ & _ & _ & _ & _ & R & _).
  rewrite (R eq_refl) in E. exists d. split; auto. unfold transition in E. destruct (Rlt_dec 0 (cth src)); [|lra].
  destruct Hs as [(?&_)|(A & B & C & D & F)]; [lra|].
  destruct Hd as [(A' & B' & C' & D')|(A' & B' & C' & D' & F')].
  - destruct (Rlt_dec 0 (cth dst)); [lra|]. destruct (Req_EM_T _ 0); [|lra]. split; [congruence|lra].
  - destruct (Rlt_dec 0 (cth dst)); [|lra]. split; [lra|]. intros _.
    exists ((cice src + clw src) / cth src), ((cice dst + clw dst) / cth dst). split; auto. split; auto.
    assert (M : cmass src + cmass dst <> 0) by (unfold cmass; lra).
    rewrite F, F' in E. cbn [wmean numscale numplus] in E. destruct (numdiv _ _) in E; [|discriminate].
    injection E as <-. cbn [cdens calb]. split.
    + f_equal. field. unfold cmass in *; lra.
    + intros a b -> ->. cbn. f_equal. field. auto.
Qed.
Print Assumptions c11_transition_destination.
Example c11_example : coherent ex_new /\ coherent ex_old /\ 0 < cth ex_new /\ 0 < cth ex_old.
Proof. pose proof ex_pix_coherent as H. unfold coherent_pix in H. rewrite forall_lays in H. cbn in *. repeat split; try tauto; lra. Qed.

(** Thickness is not conserved by a merge: the mean of the densities weighted by mass is not the
    density of the merged layer. *)
Theorem c11_thickness_conserved_refuted : exists src dst s d, coherent src /\ coherent dst /\
  transition true src dst = Some (s, d) /\ cth s + cth d < cth src + cth dst.
Proof.
  set (a := CL 1 100 0 0 (Some 100) (Some (8/10))). set (b := CL 1 300 0 0 (Some 300) (Some (6/10))).
  assert (A : coherent a) by (right; unfold present, a; cbn; repeat split; try lra; f_equal; field).
  assert (B : coherent b) by (right; unfold present, b; cbn; repeat split; try lra; f_equal; field).
  exists a, b. unfold transition. destruct (Rlt_dec 0 (cth a)) as [|N]; [|cbn in N; lra]. destruct (Rlt_dec 0 (cth b)) as [|N]; [|cbn in N; lra].
  assert (D : wmean (cmass a / (cmass a + cmass b)) (cmass b / (cmass a + cmass b)) (cdens a) (cdens b) = Some 250)
    by (unfold cmass, a, b; cbn; f_equal; field).
  rewrite D. cbn [numdiv]. destruct (Req_EM_T 250 0); [lra|].
  eexists _, _. split; auto. split; auto. split; [reflexivity|]. cbn. lra.
Qed.
Print Assumptions c11_thickness_conserved_refuted.

(** After the layer update of a time step: mass unchanged, new snow is lighter than the threshold for
    old snow, firn lighter than that for ice, and in the transition step no old snow is left. *)
Theorem c11_update_layers : forall c to_firn p,
  Forall (fun l => 0 <= clw l /\ 0 <= ccold l /\ (cice l = 0 -> clw l = 0) /\
            ((cth l = 0 /\ cice l = 0) \/ (0 < cth l /\ 0 < cice l))) (lays p) ->
  exists q, update_layers c to_firn (update_properties p) = Some q /\ coherent_pix q /\
    tot_ice q = tot_ice p /\ tot_lw q = tot_lw p /\ (to_firn = true -> absent (l_old q)) /\
    (forall d, cdens (l_new q) = Some d -> d < tr_old c) /\
    (forall d, cdens (l_firn q) = Some d -> d < tr_ice c).
Proof.
  intros c tf p H. assert (T : Forall tight (lays p)).
  { apply forall_impl with (2 := H). intros l (P & Q & R & S). split; [split; [|split]|]; auto. }
  destruct (update_layers_ok c tf p T) as (q & A & B & C & D & _ & E). exists q. tauto.
Qed.
Print Assumptions c11_update_layers.
Example c11_update_layers_example :
  Forall (fun l => 0 <= clw l /\ 0 <= ccold l /\ (cice l = 0 -> clw l = 0) /\
            ((cth l = 0 /\ cice l = 0) \/ (0 < cth l /\ 0 < cice l))) (lays ex_pix).
Proof. rewrite forall_lays. cbn. repeat split; lra. Qed.

(** Below both thresholds and outside the transition step, coherent layers are left as they are. *)
Theorem c11_update_layers_idle : forall c p, coherent_pix p ->
  (forall d, cdens (l_new p) = Some d -> d < tr_old c) -> (forall d, cdens (l_firn p) = Some d -> d < tr_ice c) ->
  exists q, update_layers c false (update_properties p) = Some q /\
    Forall2 (fun l l' => (absent l /\ l' = reset_layer) \/ (present l /\ l' = l)) (lays p) (lays q).
Proof.
  intros c p H Hn Hf. unfold coherent_pix in H. rewrite forall_lays in H. destruct H as (A & B & C & D).
  unfold update_layers, update_properties. cbn [l_new l_old l_firn l_ice palb].
  assert (G : forall l, coherent l -> exists l', refresh_layer (layer_density l) = Some l' /\
     ((absent l /\ l' = reset_layer) \/ (present l /\ l' = l))).
  { intros l [H|H].
    - exists reset_layer. destruct H as (P & Q & R & S). unfold refresh_layer, layer_density, cmass.
      destruct (Rlt_dec 0 (cth l)); [lra|]. destruct (Rle_dec _ 0); [|lra]. split; auto. left; repeat split; auto.
    - exists l. pose proof H as (P & Q & R & S & T). unfold refresh_layer, layer_density.
      destruct (Rlt_dec 0 (cth l)); [|lra]. unfold cmass; cbn [cice clw cdens cth ccold calb].
      destruct (Rle_dec _ 0); [lra|].
      assert (PD : 0 < (cice l + clw l) / cth l) by (apply Rdiv_lt_0_compat; lra).
      cbn [numdiv]. destruct (Req_EM_T _ 0); [lra|]. split; [|right; auto].
      f_equal. destruct l as [t i w cc d a]; cbn in *. rewrite T. f_equal. field. split; lra. }
  destruct (G _ A) as (n & -> & N). destruct (G _ B) as (o & -> & O). destruct (G _ C) as (f & -> & F). destruct (G _ D) as (i & -> & I).
  assert (NG : forall a x, (forall d, x = Some d -> d < a) -> numge x a = false).
  { intros a [x|] Hx; cbn; auto. specialize (Hx x eq_refl). destruct (Rle_dec a x); [lra|auto]. }
  assert (Nn : numge (cdens n) (tr_old c) = false) by (destruct N as [[_ ->]|[_ ->]]; [reflexivity|auto]).
  assert (Ff : numge (cdens f) (tr_ice c) = false) by (destruct F as [[_ ->]|[_ ->]]; [reflexivity|auto]).
  rewrite Nn. cbn [transition]. rewrite Ff. eexists; split; [reflexivity|]. unfold lays; cbn [l_new l_old l_firn l_ice].
  repeat (apply Forall2_cons; [assumption|]). apply Forall2_nil.
Qed.
Print Assumptions c11_update_layers_idle.

(** Old snow becomes firn exactly at the first step of the configured month, never at step one. *)
Theorem c11_firn_month : forall fm m prev,
  firn_month fm m prev = true <-> m = fm /\ exists q, prev = Some q /\ q <> fm.
Proof.
  intros fm m prev. unfold firn_month. rewrite andb_true_iff, Z.eqb_eq. destruct prev as [q|].
  - rewrite negb_true_iff, Z.eqb_neq. split; [intros [A B]; split; eauto|intros [A (x & E & N)]; split; auto; congruence].
  - split; [intros [_ H]; discriminate|intros [_ (x & E & _)]; discriminate].
Qed.
Print Assumptions c11_firn_month.
Example c11_firn_month_example : firn_month 10 10 (Some 9%Z) = true /\ firn_month 10 10 (Some 10%Z) = false /\ firn_month 10 10 None = false.
Proof. repeat split. Qed.

(** * C12 Energy balance melt and refreezing *)
Theorem c12_melt_energy : forall eb dt p, 0 <= dt -> coherent_pix p ->
  let '(q, m) := eb_melt eb dt p in
  coherent_pix q /\ 0 <= m <= tot_ice p /\
  Lf * (m + (tot_cold p - tot_cold q)) = Rmin (Rmax eb 0 * dt) (Lf * (tot_ice p + tot_cold p)) /\
  tot_ice q = tot_ice p /\ tot_lw q = tot_lw p /\ tot_th q = tot_th p.
Proof.
  intros eb dt p Hd H. pose proof (eb_melt_spec eb dt p Hd H) as G. destruct (eb_melt eb dt p). tauto.
Qed.
Print Assumptions c12_melt_energy.

(** Layer by layer, from the top down, cold content before ice. *)
Lemma eb_layer_down eb time l : 0 <= time -> coherent l ->
  let '(l', m, t') := eb_melt_layer eb time l in
  let E := Rmax eb 0 * time in let e := Rmin E (Lf * (cice l + ccold l)) in
  Lf * (m + (ccold l - ccold l')) = e /\ 0 <= m <= cice l /\ 0 <= ccold l' <= ccold l /\
  (m = 0 \/ ccold l' = 0) /\ same_but_cold l l' /\ Rmax eb 0 * Rmax t' 0 = E - e /\ (t' < 0 -> e = E).
Proof.
  intros Ht H. pose proof (eb_melt_layer_spec eb time l Ht H) as G. destruct (eb_melt_layer eb time l) as [[l' m] t'].
  destruct G as (P1 & P2 & P3 & P4 & P5 & P6 & P7 & P8 & P9 & P10 & P11 & P12 & P13). cbv zeta.
  assert (LF : 0 < Lf) by (unfold Lf; lra).
  assert (EE : Lf * (m + (ccold l - ccold l')) = Rmin (Rmax eb 0 * time) (Lf * (cice l + ccold l))).
  { rewrite P10. assert (U : Rmax eb 0 * (time - Rmax t' 0) <= Lf * (cice l + ccold l)).
    { rewrite <- P10. apply Rmult_le_compat_l; lra. }
    assert (N : 0 <= Rmax eb 0 * Rmax t' 0) by (apply Rmult_le_pos; apply Rmax_r).
    destruct P11 as [C|[C|[C1 C2]]].
    - rewrite (Rmax_right t' 0) in * by lra. rewrite Rmin_left; lra.
    - rewrite (Rmax_right eb 0) in * by lra. rewrite Rmin_left; lra.
    - rewrite C1, C2, Rminus_0_r in P10. rewrite Rmin_right; [exact (eq_sym P10)|]. rewrite P10. lra. }
  rewrite <- EE. repeat split; auto; try lra.
  - intro N. rewrite P10, (Rmax_right t' 0) by lra. ring.
Qed.
Theorem c12_melt_top_down : forall eb dt p, 0 <= dt -> coherent_pix p ->
  exists ms, energy_down (Rmax eb 0 * dt) (lays p) (lays (fst (eb_melt eb dt p))) ms /\
    snd (eb_melt eb dt p) = sumR ms.
Proof.
  intros eb dt p Hd H. unfold coherent_pix in H. rewrite forall_lays in H. destruct H as (A & B & C & D). unfold eb_melt.
  assert (G : forall t l, coherent l ->
    let '(l', m, t') := eb_melt_layer eb t l in
    let E := Rmax eb 0 * Rmax t 0 in let e := Rmin E (Lf * (cice l + ccold l)) in
    Lf * (m + (ccold l - ccold l')) = e /\ 0 <= m <= cice l /\ 0 <= ccold l' <= ccold l /\
    (m = 0 \/ ccold l' = 0) /\ same_but_cold l l' /\ Rmax eb 0 * Rmax t' 0 = E - e).
  { intros t l Hl. destruct (Rle_lt_dec t 0).
    - assert (Z : eb_melt_layer eb t l = (l, 0, t)).
      { unfold eb_melt_layer. destruct (Rlt_dec 0 (cth l)); auto. destruct (Rlt_dec 0 t); auto; lra. }
      rewrite Z. cbv zeta. rewrite (Rmax_right t 0), Rmult_0_r by lra.
      assert (NN : 0 <= cice l /\ 0 <= ccold l) by (destruct Hl as [(?&?&?&?)|(?&?&?&?&_)]; lra).
      assert (LF : 0 < Lf) by (unfold Lf; lra).
      assert (0 <= Lf * (cice l + ccold l)) by (apply Rmult_le_pos; lra).
      rewrite Rmin_left by lra. unfold same_but_cold. repeat split; auto; lra.
    - pose proof (eb_layer_down eb t l ltac:(lra) Hl) as Q. destruct (eb_melt_layer eb t l) as [[l' m] t']. cbv zeta in *.
      rewrite (Rmax_left t 0) by lra. tauto. }
  pose proof (G dt _ A) as G1. destruct (eb_melt_layer eb dt (l_new p)) as [[n m1] t1].
  pose proof (G t1 _ B) as G2. destruct (eb_melt_layer eb t1 (l_old p)) as [[o m2] t2].
  pose proof (G t2 _ C) as G3. destruct (eb_melt_layer eb t2 (l_firn p)) as [[f m3] t3].
  pose proof (G t3 _ D) as G4. destruct (eb_melt_layer eb t3 (l_ice p)) as [[i m4] t4]. clear G.
  cbv zeta in *. rewrite (Rmax_left dt 0) in G1 by lra.
  exists [m1; m2; m3; m4]. rewrite !sumR_cons, sumR_nil. cbn [fst snd]. unfold lays; cbn [energy_down l_new l_old l_firn l_ice]. cbv zeta.
  destruct G1 as (P1 & P2 & P3 & P4 & P5 & P6). destruct G2 as (Q1 & Q2 & Q3 & Q4 & Q5 & Q6).
  destruct G3 as (R1 & R2 & R3 & R4 & R5 & R6). destruct G4 as (S1 & S2 & S3 & S4 & S5 & S6).
  rewrite <- P6, <- Q6, <- R6. split; [|lra]. auto 30.
Qed.
Print Assumptions c12_melt_top_down.

Theorem c12_refreeze_top_down : forall c eb p, 0 <= cold_cap c -> coherent_pix p ->
  let '(q, r) := eb_refreeze c eb p in
  exists r1 r2, r = r1 + r2 /\ l_firn q = l_firn p /\ l_ice q = l_ice p /\ palb q = palb p /\
    cold_down (cold_cap c) (Rmax (- eb * cc_dt c / Lf * refr_factor c) 0)
      [l_new p; l_old p] [l_new q; l_old q] [r1; r2].
Proof.
  intros c eb p Hc H. unfold coherent_pix in H. rewrite forall_lays in H. destruct H as (A & B & C & D). unfold eb_refreeze.
  replace (Rmax (- eb * cc_dt c / Lf * refr_factor c) 0) with (avail_cc c eb) by (unfold avail_cc; f_equal; f_equal; unfold Rdiv; ring).
  set (av := avail_cc c eb) in *.
  assert (G : forall a l, coherent l ->
    let '(l', x, a') := refreeze_layer (cold_cap c) a l in
      (0 < cth l -> 0 < a ->
        x = Rmin (clw l) a /\ ccold l' = Rmin (ccold l + (a - x)) (cold_cap c * (cice l + clw l))) /\
      (cth l <= 0 \/ a <= 0 -> x = 0 /\ l' = l) /\
      cice l' = cice l + x /\ clw l' = clw l - x /\ cth l' = cth l /\ cdens l' = cdens l /\
      calb l' = calb l /\ a' = a - x - (ccold l' - ccold l)).
  { intros a l Hl. unfold refreeze_layer. destruct (Rlt_dec 0 (cth l)); [destruct (Rlt_dec 0 a)|].
    2,3: repeat split; intros; try lra.
    cbn [cice clw cth cdens calb ccold]. repeat split; try lra.
    replace (cice l + Rmin (clw l) a + (clw l - Rmin (clw l) a)) with (cice l + clw l) by ring.
    rmm; lra. }
  pose proof (G av _ A) as G1. destruct (refreeze_layer (cold_cap c) av (l_new p)) as [[n r1] a1].
  pose proof (G a1 _ B) as G2. destruct (refreeze_layer (cold_cap c) a1 (l_old p)) as [[o r2] a2]. clear G.
  exists r1, r2. cbn [l_firn l_ice l_new l_old palb]. do 4 (split; [reflexivity|]).
  cbn [cold_down]. destruct G1 as (P1 & P2 & P3 & P4 & P5 & P6 & P7 & P8). destruct G2 as (Q1 & Q2 & Q3 & Q4 & Q5 & Q6 & Q7 & Q8).
  rewrite <- P8. tauto.
Qed.
Print Assumptions c12_refreeze_top_down.

(** Which of the two happens, and that water and ice only change into each other. *)
Theorem c12_regimes : forall c temp eb p,
  (tot_ice p + tot_lw p <= 0 \/ temp = None -> cryo_energy_balance c temp eb p = (p, 0, 0)) /\
  (forall t, 0 < tot_ice p + tot_lw p -> temp = Some t -> 27315 / 100 <= t ->
     cryo_energy_balance c temp eb p = (fst (eb_melt eb (cc_dt c) p), snd (eb_melt eb (cc_dt c) p), 0)) /\
  (forall t, 0 < tot_ice p + tot_lw p -> temp = Some t -> t < 27315 / 100 ->
     cryo_energy_balance c temp eb p = (fst (eb_refreeze c eb p), 0, snd (eb_refreeze c eb p))).
Proof.
  intros c temp eb p. unfold cryo_energy_balance, T0. repeat split.
  - intros [H| ->]; destruct (Rlt_dec _ _); auto; lra.
  - intros t H -> Ht. destruct (Rlt_dec _ _); [|lra]. destruct (Rle_dec _ _); [|lra]. destruct (eb_melt _ _ _); reflexivity.
  - intros t H -> Ht. destruct (Rlt_dec _ _); [|lra]. destruct (Rle_dec _ _); [lra|]. destruct (eb_refreeze _ _ _); reflexivity.
Qed.
Print Assumptions c12_regimes.
Theorem c12_water_kept : forall c temp eb p, 0 <= cc_dt c -> 0 <= cold_cap c -> coherent_pix p ->
  let '(q, m, r) := cryo_energy_balance c temp eb p in
  coherent_pix q /\ tot_ice q = tot_ice p + r /\ tot_lw q = tot_lw p - r /\ 0 <= r /\ 0 <= m <= tot_ice p.
Proof. exact cryo_energy_balance_spec. Qed.
Print Assumptions c12_water_kept.
Example c12_example : 0 <= 3600 /\ coherent_pix ex_pix /\ 0 <= cold_cap ex_ccfg /\ 0 < tot_ice ex_pix + tot_lw ex_pix.
Proof. split; [lra|]. split; [apply ex_pix_coherent|]. rewrite tot_mass. unfold cmass. cbn. lra. Qed.

(** * C13 Temperature index *)
Theorem c13_zero_below_threshold : forall m thr dt t alb sw p, 0 <= dt ->
  (match m with TI d | ETI d _ => 0 <= d end) -> Forall (fun l => 0 <= cice l) (lays p) ->
  t <= thr -> temperature_index m thr dt (Some t) alb sw p = Some 0.
Proof.
  intros m thr dt t alb sw p Hd Hm HI Ht. unfold temperature_index.
  assert (T : 0 <= tot_ice p) by (apply sumR_nonneg; rewrite Forall_map; auto).
  destruct (Rlt_dec _ _); auto. unfold potential_melt.
  assert (DD : (t - thr) * (dt / SECONDS_PER_DAY') <= 0).
  { unfold SECONDS_PER_DAY', SECONDS_PER_HOUR, HOURS_PER_DAY.
    assert (K : 0 <= dt / (3600 * 24)) by lra. revert K. generalize (dt / (3600 * 24)). intros k K. nra. }
  destruct m as [d|d a].
  - rewrite (Rmax_right ((t - thr) * (dt / SECONDS_PER_DAY')) 0) by auto. rewrite Rmult_0_r. f_equal. rmm; lra.
  - destruct (Rle_dec _ 0); [|lra]. f_equal. rmm; lra.
Qed.
Print Assumptions c13_zero_below_threshold.

(** Above the threshold: the degree-day formulas, capped by the ice present. *)
Theorem c13_formula : forall m thr dt t a s p, 0 < dt -> thr < t -> 0 < tot_th p ->
  temperature_index m thr dt (Some t) (Some a) (Some s) p =
  Some (Rmin (Rmax (match m with
                    | TI d => d * (t - thr) * (dt / 86400)
                    | ETI d af => (d * (t - thr) + af * (1 - a) * s) * (dt / 86400)
                    end) 0) (tot_ice p)).
Proof.
  intros m thr dt t a s p Hd Ht HT. unfold temperature_index. destruct (Rlt_dec 0 (tot_th p)); [|lra].
  unfold potential_melt.
  assert (DD : 0 < (t - thr) * (dt / SECONDS_PER_DAY')).
  { unfold SECONDS_PER_DAY', SECONDS_PER_HOUR, HOURS_PER_DAY. apply Rmult_lt_0_compat; lra. }
  assert (E : SECONDS_PER_DAY' = 86400) by (unfold SECONDS_PER_DAY', SECONDS_PER_HOUR, HOURS_PER_DAY; lra).
  destruct m as [d|d af].
  - rewrite (Rmax_left ((t - thr) * (dt / SECONDS_PER_DAY')) 0) by lra. rewrite E. f_equal. f_equal. f_equal. ring.
  - destruct (Rle_dec _ 0); [lra|]. rewrite E. f_equal. f_equal. f_equal. ring.
Qed.
Print Assumptions c13_formula.

Theorem c13_monotone : forall m thr dt t1 t2 a1 a2 s1 s2 p x1 x2, 0 <= dt -> t1 <= t2 -> s1 <= s2 -> 0 <= s1 -> a2 <= a1 -> a1 <= 1 ->
  (match m with TI d => 0 <= d | ETI d af => 0 <= d /\ 0 <= af end) ->
  Forall (fun l => 0 <= cice l) (lays p) ->
  temperature_index m thr dt (Some t1) (Some a1) (Some s1) p = Some x1 ->
  temperature_index m thr dt (Some t2) (Some a2) (Some s2) p = Some x2 ->
  0 <= x1 <= x2 /\ x2 <= tot_ice p.
Proof.
  intros m thr dt t1 t2 a1 a2 s1 s2 p x1 x2 Hd Ht Hs Hs1 Ha Ha1 Hm HI E1 E2. unfold temperature_index in *.
  assert (T : 0 <= tot_ice p) by (apply sumR_nonneg; rewrite Forall_map; auto).
  destruct (Rlt_dec _ _); [|injection E1 as <-; injection E2 as <-; lra].
  assert (K : 0 <= dt / SECONDS_PER_DAY') by (unfold SECONDS_PER_DAY', SECONDS_PER_HOUR, HOURS_PER_DAY; lra).
  set (k := dt / SECONDS_PER_DAY') in *.
  assert (MON : exists y1 y2, potential_melt m thr dt (Some t1) (Some a1) (Some s1) = Some y1 /\
            potential_melt m thr dt (Some t2) (Some a2) (Some s2) = Some y2 /\ y1 <= y2).
  { unfold potential_melt. fold k.
    assert (DD : (t1 - thr) * k <= (t2 - thr) * k) by (apply Rmult_le_compat_r; lra).
    destruct m as [d|d af].
    - eexists _, _. split; [reflexivity|]. split; [reflexivity|]. apply Rmult_le_compat_l; auto. apply Rle_max_compat_r; auto.
    - destruct Hm as [Hm1 Hm2].
      assert (RR : 0 <= af * (1 - a1) * s1 * k <= af * (1 - a2) * s2 * k).
      { assert (0 <= af * (1 - a1)) by (apply Rmult_le_pos; lra).
        assert (af * (1 - a1) <= af * (1 - a2)) by (apply Rmult_le_compat_l; lra).
        split; [apply Rmult_le_pos; auto; apply Rmult_le_pos; auto|].
        apply Rmult_le_compat_r; auto. apply Rmult_le_compat; auto. }
      assert (D1 : d * ((t1 - thr) * k) <= d * ((t2 - thr) * k)) by (apply Rmult_le_compat_l; auto).
      destruct (Rle_dec ((t1 - thr) * k) 0), (Rle_dec ((t2 - thr) * k) 0); eexists _, _; (split; [reflexivity|]; split; [reflexivity|]); try lra.
      assert (0 <= d * ((t2 - thr) * k)) by (apply Rmult_le_pos; lra). lra. }
  destruct MON as (y1 & y2 & F1 & F2 & L). rewrite F1 in E1. rewrite F2 in E2. injection E1 as <-. injection E2 as <-.
  rmm; lra.
Qed.
Print Assumptions c13_monotone.

(** Without snow nothing melts; a missing temperature gives a missing melt, which melts nothing. *)
Theorem c13_no_snow : forall m thr dt t a s p, tot_th p <= 0 -> temperature_index m thr dt t a s p = Some 0.
Proof. intros. unfold temperature_index. destruct (Rlt_dec _ _); [lra|auto]. Qed.
Print Assumptions c13_no_snow.
Theorem c13_missing_temperature : forall m thr dt a s p,
  melt (temperature_index m thr dt None a s p) p = p.
Proof.
  intros. unfold temperature_index. destruct (Rlt_dec _ _); cbn [potential_melt]; [reflexivity|]. apply c08_no_melt. lra.
Qed.
Print Assumptions c13_missing_temperature.
(** The ice lost is exactly the melt computed. *)
Theorem c13_melt_taken : forall m thr dt t a s p x, Forall (fun l => 0 <= cice l) (lays p) ->
  temperature_index m thr dt t a s p = Some x ->
  0 <= x <= tot_ice p /\ tot_ice (melt (Some x) p) = tot_ice p - x /\ tot_lw (melt (Some x) p) = tot_lw p + x.
Proof.
  intros m thr dt t a s p x HI E.
  assert (T : 0 <= tot_ice p) by (apply sumR_nonneg; rewrite Forall_map; auto).
  assert (X : 0 <= x <= tot_ice p).
  { unfold temperature_index in E. destruct (Rlt_dec _ _); [|injection E as <-; lra].
    destruct (potential_melt _ _ _ _ _ _); [|discriminate]. injection E as <-. rmm; lra. }
  split; auto. destruct (c08_melt_conserves_water x p ltac:(lra) HI) as (_ & _ & A & B & _). cbv zeta in *.
  rewrite Rmin_left in * by lra. auto.
Qed.
Print Assumptions c13_melt_taken.
Example c13_example :
  temperature_index (ETI 6 (1/10)) 272 3600 (Some 276) (Some (8/10)) (Some 500) ex_pix = Some (34 / 24) /\ 0 < tot_th ex_pix.
Proof.
  assert (T : 0 < tot_th ex_pix) by (unfold tot_th, lays; cbn [map]; rewrite !sumR_cons, sumR_nil; cbn; lra).
  split; auto. rewrite c13_formula by (auto; lra). rewrite tot_ice_eq. cbn. f_equal. rmm; lra.
Qed.

(** * C74 Water balance of the cryolayer model over any run *)
Theorem c74_water_balance : forall c mm fs p, ccfg_ok c -> Forall forcing_ok fs -> run_light c mm fs p -> coherent_pix p ->
  exists q os, crun c mm fs p = Some (q, os) /\ length os = length fs /\ coherent_pix q /\
    tot_ice q + tot_lw q = tot_ice p + tot_lw p + sumR (map snow_in fs) + sumR (map rain_in fs)
      - sumR (map o_subl os) - sumR (map o_runoff os) /\ Forall (fun o => 0 <= o_runoff o) os.
Proof. intros c mm fs p H F. revert p. exact (crun_ok c mm fs H F). Qed.
Print Assumptions c74_water_balance.

(** With the mass fraction formula there is no condition on the densities. *)
Theorem c74_water_balance_mass_fraction : forall c mm fs p, ccfg_ok c -> cc_lwc c = MassFraction ->
  Forall forcing_ok fs -> coherent_pix p ->
  exists q os, crun c mm fs p = Some (q, os) /\ length os = length fs /\ coherent_pix q /\
    tot_ice q + tot_lw q = tot_ice p + tot_lw p + sumR (map snow_in fs) + sumR (map rain_in fs)
      - sumR (map o_subl os) - sumR (map o_runoff os) /\ Forall (fun o => 0 <= o_runoff o) os.
Proof.
  intros c mm fs p H M F C. apply c74_water_balance; auto. clear - M. revert p.
  induction fs as [|f fs IH]; intro p; cbn; auto. split; [left; auto|]. intros. apply IH.
Qed.
Print Assumptions c74_water_balance_mass_fraction.
Theorem c74_step_bounds : forall c mm f p, ccfg_ok c -> forcing_ok f -> step_light c f p -> coherent_pix p ->
  exists q o, cstep c mm f p = Some (q, o) /\
    (f_firn f = true -> absent (l_old q)) /\
    (forall d, cdens (l_new q) = Some d -> d < tr_old c) /\ (forall d, cdens (l_firn q) = Some d -> d < tr_ice c).
Proof.
  intros c mm f p A B C D. destruct (cstep_ok c mm f p A B C D) as (q & o & E & _ & _ & _ & F). exists q, o. auto.
Qed.
Print Assumptions c74_step_bounds.
Definition ex_forcing : cforcing := CF (Some 275) (Some 274) (Some 275) (Some 4) (Some 2) (Some 300) (Some (7/10)) 150 None false.
Example c74_example : ccfg_ok ex_ccfg /\ Forall forcing_ok [ex_forcing; ex_forcing] /\
  run_light ex_ccfg EB [ex_forcing; ex_forcing] ex_pix /\ coherent_pix ex_pix /\ coherent_pix cinit.
Proof.
  repeat split; cbn; try lra.
  - repeat constructor; unfold forcing_ok; cbn; lra.
  - left; reflexivity.
  - left; reflexivity.
  - apply ex_pix_coherent.
  - unfold coherent_pix. rewrite forall_lays. repeat split; left; repeat split.
Qed.
Example c74_example_pore_volume : exists c f, cc_lwc c = PoreVolumeFraction /\ ccfg_ok c /\ forcing_ok f /\ step_light c f cinit /\ 0 < snow_in f.
Proof.
  exists (CC 3600 (mkAC (55/100) (85/100) 200 480 (5/10) Binary) (4/10) (3/10) false 200 900 PoreVolumeFraction (3/100) (2/100) (5/10)),
    (CF (Some 275) None (Some 275) (Some 4) (Some 2) (Some 300) (Some (7/10)) 150 None false).
  split; [reflexivity|]. split; [unfold ccfg_ok; cbn; lra|]. split; [unfold forcing_ok; cbn; lra|].
  split; [|unfold snow_in; cbn; rmm; lra].
  right. split; [cbn; unfold ICE_DENSITY; lra|]. intros p1. unfold compaction, anderson_layer, firn_layer, ice_layer. cbn.
  destruct (Rlt_dec 0 0); [lra|]. intro H; injection H as <-. unfold lighter_than_ice; cbn. lra.
Qed.
