(** Time step and history of the multilayer model. *)
From Verif Require Import Common Constants SnowModel SnowProofs MultilayerModel MultilayerSpec
  MultilayerProofs RelayerProofs StepProofs.

(** * Sublimation: no NaN means the specification holds *)
Lemma sublim_loop_cond n : forall x lys,
  Forall wf_layer lys -> (n <= length lys)%nat -> 0 <= x ->
  let '(ls', rest, nan) := sublim_loop n x lys in
  nan = false ->
  Forall3 after_sublim (firstn n lys) (sublimed x (firstn n lys)) (firstn n ls') /\
  skipn n ls' = skipn n lys /\ length ls' = length lys.
Proof.
  induction n as [|n IH]; intros x lys Hwf Hlen Hx.
  - cbn. intros _. repeat split; constructor.
  - destruct lys as [|l lys]; [cbn in Hlen; lia|].
    inversion Hwf as [|? ? (Ht & Hi & Hw & Hh) Hls]; subst.
    cbn [length] in Hlen. assert (Hlen' : (n <= length lys)%nat) by lia.
    cbn [sublim_loop firstn sublimed skipn].
    destruct (Rlt_dec (ice l) x) as [Hb|Hb].
    + assert (Hm : Rmin x (ice l) = ice l) by (rewrite Rmin_right; lra). rewrite Hm.
      specialize (IH (x - ice l) lys Hls Hlen' ltac:(lra)).
      destruct (sublim_loop n (x - ice l) lys) as [[ls' rest] nan].
      intros N. destruct (IH N) as (F & S & Le).
      cbn [firstn skipn length]. repeat split; auto.
      constructor; [|exact F]. unfold after_sublim; cbn; repeat split; lra.
    + assert (Hm : Rmin x (ice l) = x) by (rewrite Rmin_left; lra). rewrite Hm.
      replace (x - x) with 0 by lra.
      specialize (IH 0 lys Hls Hlen' ltac:(lra)).
      destruct (sublim_loop n 0 lys) as [[ls' rest] nan].
      destruct (Req_EM_T (ice l) 0) as [Z|Z]; cbn [orb]; [discriminate|].
      intros N. destruct (IH N) as (F & S & Le).
      cbn [firstn skipn length]. repeat split; auto.
      constructor; [|exact F]. unfold after_sublim; cbn.
      assert (Hsc : 0 <= th l * (1 - x / ice l) <= th l).
      { destruct (Req_dec x 0) as [->|Hx0].
        - unfold Rdiv; rewrite Rmult_0_l; lra.
        - apply scale_bounds; lra. }
      repeat split; try lra. field; lra.
Qed.

Lemma sublimate_cond p s : wf_pixel p -> snd (sublimate p s) = false ->
  let p' := fst (sublimate p s) in
  ns p' = ns p /\ length (lays p') = length (lays p) /\
  Forall3 after_sublim (active p) (sublimed (Rmax s 0) (active p)) (active p') /\
  inactive p' = inactive p.
Proof.
  intros [Hn Hwf]. unfold sublimate.
  destruct (Rlt_dec 0 (Rmax s 0)) as [H|H].
  - pose proof (sublim_loop_cond (ns p) (Rmax s 0) (lays p) Hwf Hn ltac:(lra)) as L.
    destruct (sublim_loop (ns p) (Rmax s 0) (lays p)) as [[ls' rest] nan].
    cbn [fst snd]. intros N. destruct (L N) as (F & S & Le).
    unfold active, inactive; cbn. repeat split; auto.
  - cbn. intros _. assert (E : Rmax s 0 = 0) by (rmm; lra). rewrite E.
    assert (Hw : Forall wf_layer (active p)) by (apply Forall_firstn, Hwf).
    rewrite sublimed_zero by exact Hw. repeat split; auto.
    apply Forall3_sublim_refl, Hw.
Qed.

(** * Preservation of good packs by the stages of a time step *)
Lemma good_has_mass p : good_pack p -> Forall has_mass (lays p).
Proof.
  intros ([Hn Hwf] & He & Hc). apply Forall_forall. intros l Hin.
  assert (Hw : wf_layer l) by (rewrite Forall_forall in Hwf; auto).
  destruct Hw as (H1 & H2 & H3 & H4). unfold has_mass. repeat split; auto. intros Hp.
  rewrite <- (firstn_skipn (ns p) (lays p)) in Hin. apply in_app_iff in Hin as [Hin|Hin].
  - rewrite Forall_forall in Hc. apply (Hc l Hin). exact Hp.
  - rewrite Forall_forall in He. destruct (He l Hin) as (E & _). lra.
Qed.

Lemma compaction_rel c air p : 0 <= dt c ->
  (forall ts mc mm, comp c = Empirical ts mc mm -> 0 < ts) -> good_pack p ->
  Forall2 compacted (lays p) (lays (compaction c air p)) /\ ns (compaction c air p) = ns p.
Proof.
  intros Hdt Hts Hg. pose proof (good_has_mass p Hg) as Hm. unfold compaction; cbn.
  split; [|reflexivity]. destruct (comp c) as [|ts mc mm].
  - apply compaction_anderson_spec; auto. lra.
  - apply compaction_empirical_spec; auto. unfold SECONDS_PER_HOUR. specialize (Hts ts mc mm eq_refl). lra.
Qed.

Lemma Forall2_sum (f : layer -> R) l1 l2 (Q : layer -> layer -> Prop) :
  (forall a b, Q a b -> f b = f a) -> Forall2 Q l1 l2 -> sumR (map f l2) = sumR (map f l1).
Proof. intros H. induction 1; cbn; [reflexivity|]. rewrite !sumR_cons, IHForall2, (H _ _ H0). lra. Qed.

Lemma Forall2_firstn {A B} (Q : A -> B -> Prop) n l1 l2 :
  Forall2 Q l1 l2 -> Forall2 Q (firstn n l1) (firstn n l2).
Proof. intros H; revert n; induction H; intros [|n]; cbn; constructor; auto. Qed.
Lemma Forall2_skipn {A B} (Q : A -> B -> Prop) n l1 l2 :
  Forall2 Q l1 l2 -> Forall2 Q (skipn n l1) (skipn n l2).
Proof. intros H; revert n; induction H; intros [|n]; cbn; auto. Qed.
Lemma Forall2_transfer {A B} (P : A -> Prop) (P' : B -> Prop) (Q : A -> B -> Prop) l1 l2 :
  (forall a b, Q a b -> P a -> P' b) -> Forall2 Q l1 l2 -> Forall P l1 -> Forall P' l2.
Proof. intros H. induction 1; intros F; inversion F; subst; constructor; eauto. Qed.
Lemma Forall2_len {A B} (Q : A -> B -> Prop) l1 l2 : Forall2 Q l1 l2 -> length l2 = length l1.
Proof. induction 1; cbn; auto. Qed.

(** Generic transfer of good packs along layer-wise relations. *)
Lemma good_transfer p p' (Q : layer -> layer -> Prop) :
  ns p' = ns p -> Forall2 Q (lays p) (lays p') ->
  (forall a b, Q a b -> wf_layer a -> wf_layer b) ->
  (forall a b, Q a b -> empty_slot a -> wf_layer a -> empty_slot b) ->
  (forall a b, Q a b -> wf_layer a -> coherent a -> coherent b) ->
  good_pack p -> good_pack p'.
Proof.
  intros En HF H1 H2 H3 ([Hn Hwf] & He & Hc).
  split; [split|split].
  - rewrite En, (Forall2_len _ _ _ HF). exact Hn.
  - exact (Forall2_transfer _ _ _ _ _ H1 HF Hwf).
  - unfold inactive in *. rewrite En.
    refine (Forall2_transfer (fun l => empty_slot l /\ wf_layer l) _ _ _ _ _ (Forall2_skipn _ _ _ _ HF) _).
    + intros a b Hq [Ha Hb]. eauto.
    + rewrite Forall_forall in *. intros l Hin. split; [auto|]. apply Hwf.
      rewrite <- (firstn_skipn (ns p)). apply in_app_iff. auto.
  - unfold active in *. rewrite En.
    refine (Forall2_transfer (fun l => coherent l /\ wf_layer l) _ _ _ _ _ (Forall2_firstn _ _ _ _ HF) _).
    + intros a b Hq [Ha Hb]. eauto.
    + rewrite Forall_forall in *. intros l Hin. split; [auto|]. apply Hwf.
      rewrite <- (firstn_skipn (ns p)). apply in_app_iff. auto.
Qed.

Lemma compaction_good c air p : 0 <= dt c ->
  (forall ts mc mm, comp c = Empirical ts mc mm -> 0 < ts) -> good_pack p ->
  good_pack (compaction c air p) /\ pack_mass (compaction c air p) = pack_mass p /\
  length (lays (compaction c air p)) = length (lays p).
Proof.
  intros Hdt Hts Hg. destruct (compaction_rel c air p Hdt Hts Hg) as [HF En].
  split; [|split].
  - eapply good_transfer; eauto.
    + intros a b (E1 & E2 & E3 & E4 & B & P) (? & ? & ? & ?). unfold wf_layer. rewrite E1, E2, E4. lra.
    + intros a b (E1 & E2 & E3 & E4 & B & P) (? & ? & ?) _. unfold empty_slot. rewrite E1, E2. lra.
    + intros a b (E1 & E2 & E3 & E4 & B & P) (? & ? & ? & ?) C. unfold coherent in *. rewrite E1.
      split; intros Hx; [apply C; lra|apply P, C; exact Hx].
  - unfold pack_mass. eapply Forall2_sum; [|exact HF]. intros a b (E1 & E2 & _). cbv beta. rewrite E1, E2. reflexivity.
  - exact (Forall2_len _ _ _ HF).
Qed.

Lemma update_properties_good p : good_pack p ->
  good_pack (update_properties p) /\ pack_mass (update_properties p) = pack_mass p /\
  length (lays (update_properties p)) = length (lays p) /\
  snow_depth (lays (update_properties p)) = snow_depth (lays p).
Proof.
  intros Hg. unfold update_properties, update_heat_cap. cbn [lays].
  assert (HF : Forall2 (fun a b => th b = th a /\ ice b = ice a /\ lwc b = lwc a /\ (wf_layer a -> 0 <= hc b))
    (lays p) (map (fun l => mkL (th l) (ice l) (lwc l) (tmp l) (layer_heat_cap l)) (lays p))).
  { induction (lays p) as [|l ls IH]; constructor; auto. cbn. repeat split.
    intros (? & ? & ? & ?). unfold layer_heat_cap, SPEC_HEAT_CAP_ICE, SPEC_HEAT_CAP_WATER. lra. }
  split; [|split; [|split]].
  - eapply good_transfer with (p := p); [reflexivity|exact HF| | | |exact Hg]; cbv beta.
    + intros a b (E1 & E2 & E3 & E4) Hw. specialize (E4 Hw). destruct Hw as (? & ? & ? & ?).
      unfold wf_layer. rewrite E1, E2, E3. lra.
    + intros a b (E1 & E2 & E3 & E4) (? & ? & ?) _. unfold empty_slot. rewrite E1, E2, E3. lra.
    + intros a b (E1 & E2 & E3 & E4) _ C. unfold coherent in *. rewrite E1, E2. exact C.
  - unfold pack_mass. cbn [lays]. eapply Forall2_sum; [|exact HF]. intros a b (E1 & E2 & E3 & _). cbv beta. rewrite E2, E3. reflexivity.
  - apply map_length.
  - unfold snow_depth. eapply Forall2_sum; [|exact HF]. intros a b (E1 & _). exact E1.
Qed.

Lemma set_temps_rel : forall n ts ls,
  Forall2 (fun a b => th b = th a /\ ice b = ice a /\ lwc b = lwc a /\ hc b = hc a) ls (set_temps n ts ls).
Proof.
  induction n as [|n IH]; intros ts ls.
  - cbn. induction ls; constructor; auto.
  - destruct ts as [|t ts], ls as [|l ls]; cbn; try constructor; auto.
    + clear IH. induction ls; constructor; auto.
Qed.

Lemma set_temps_good p ts : good_pack p ->
  let p' := mkP (ns p) (set_temps (ns p) ts (lays p)) in
  good_pack p' /\ pack_mass p' = pack_mass p /\ length (lays p') = length (lays p) /\
  map ice (lays p') = map ice (lays p) /\ map th (lays p') = map th (lays p).
Proof.
  intros Hg. pose proof (set_temps_rel (ns p) ts (lays p)) as HF. cbn zeta.
  split; [|split; [|split; [|split]]].
  - eapply good_transfer with (p := p); [reflexivity|exact HF| | | |exact Hg]; cbv beta.
    + intros a b (E1 & E2 & E3 & E4) (? & ? & ? & ?). unfold wf_layer. rewrite E1, E2, E3, E4. lra.
    + intros a b (E1 & E2 & E3 & E4) (? & ? & ?) _. unfold empty_slot. rewrite E1, E2, E3. lra.
    + intros a b (E1 & E2 & E3 & E4) _ C. unfold coherent in *. rewrite E1, E2. exact C.
  - unfold pack_mass. cbn [lays]. eapply Forall2_sum; [|exact HF]. intros a b (E1 & E2 & E3 & _). cbv beta. rewrite E2, E3. reflexivity.
  - exact (Forall2_len _ _ _ HF).
  - cbn [lays]. induction HF as [|a b la lb (E1 & E2 & _) _ IH]; cbn; congruence.
  - cbn [lays]. induction HF as [|a b la lb (E1 & E2 & _) _ IH]; cbn; congruence.
Qed.

Lemma add_snow_good amax air amount density p alb :
  good_pack p -> lays p <> [] -> 0 < amount -> 0 < density ->
  let p' := fst (add_snow amax air (Some amount) 0 density p alb) in
  good_pack p' /\ pack_mass p' = pack_mass p + amount /\ length (lays p') = length (lays p).
Proof.
  intros ([Hn Hwf] & He & Hc) Hne Ha Hd. cbn zeta.
  destruct (lays p) as [|l r] eqn:E; [congruence|].
  assert (Hq : 0 < amount / density) by (apply Rdiv_lt_0_compat; assumption).
  unfold add_snow. rewrite E. cbn [nan_to_zero]. destruct (Rlt_dec 0 amount); [|lra].
  rewrite andb_true_r. cbn [fst].
  inversion Hwf as [|? ? (W1 & W2 & W3 & W4) Wr]; subst.
  set (l' := mkL _ _ _ _ _).
  assert (Hl' : wf_layer l' /\ coherent l').
  { subst l'; unfold wf_layer, coherent; cbn. repeat split; try lra. }
  split; [|split].
  - unfold good_pack, wf_pixel, active, inactive in *. rewrite E in *.
    destruct (Nat.eqb_spec (ns p) 0) as [Z|Z]; cbn [ns lays].
    + rewrite Z in *. cbn [firstn skipn] in *. inversion He; subst. repeat split; auto; cbn; try lia.
      * constructor; [apply Hl'|assumption].
      * constructor; [apply Hl'|constructor].
    + destruct (ns p) as [|m] eqn:Em; [congruence|]. cbn [firstn skipn] in *.
      inversion Hc; subst. repeat split; auto; cbn in *; try lia.
      * constructor; [apply Hl'|assumption].
      * constructor; [apply Hl'|assumption].
  - unfold pack_mass. rewrite E. cbn [lays map]. rewrite !sumR_cons. subst l'; cbn. lra.
  - rewrite ?E. reflexivity.
Qed.

Lemma coherent_shrink a b m : wf_layer a -> coherent a -> 0 <= m <= ice a ->
  ice b = ice a - m -> 0 <= th b <= th a -> th b * ice a = th a * ice b -> coherent b.
Proof.
  intros (W1 & W2 & W3 & W4) C Hm Hi Ht Hr. unfold coherent in *.
  destruct (Req_dec (ice a) 0) as [Z|Z].
  - assert (th a = 0) by (destruct (Req_dec (th a) 0); [assumption|]; assert (0 < ice a) by (apply C; lra); lra).
    lra.
  - assert (0 < ice a) by lra. assert (0 < th a) by (apply C; lra). split; intros Hx.
    + assert (0 < th a * ice b) by (rewrite <- Hr; apply Rmult_lt_0_compat; lra). nra.
    + assert (0 < th b * ice a) by (rewrite Hr; apply Rmult_lt_0_compat; lra). nra.
Qed.

Lemma Forall3_coherent (Q : layer -> R -> layer -> Prop) la lm lb :
  (forall a m b, Q a m b -> ice b = ice a - m /\ 0 <= th b <= th a /\ th b * ice a = th a * ice b) ->
  Forall3 Q la lm lb -> Forall2 (fun m l => 0 <= m <= ice l) lm la ->
  Forall wf_layer la -> Forall coherent la -> Forall coherent lb.
Proof.
  intros HQ F. induction F as [|a m b la lm lb Hq F IH]; intros Hb Hw Hc; [constructor|].
  inversion Hb; inversion Hw; inversion Hc; subst. destruct (HQ _ _ _ Hq) as (E & B & P).
  constructor; [|auto]. eapply coherent_shrink; eauto.
Qed.

Lemma melt_good p pot : good_pack p ->
  let p' := fst (melt p pot) in
  good_pack p' /\ pack_mass p' = pack_mass p /\ length (lays p') = length (lays p).
Proof.
  intros (Hw & He & Hc). destruct (melt_spec p pot Hw) as (E & Le & F & I & A).
  pose proof (melt_wf p pot Hw) as Hwf'. cbn zeta. split; [|split].
  - split; [exact Hwf'|]. split; [rewrite I; exact He|].
    eapply Forall3_coherent; [|exact F|apply melt_amounts_bounds, Hw|apply Forall_firstn, Hw|exact Hc].
    intros a m b (H1 & H2 & H3 & H4 & _). auto.
  - destruct (melt_totals p pot Hw) as [T1 T2]. cbn zeta in *. rewrite !pack_mass_split, T1, T2. lra.
  - exact Le.
Qed.

Lemma sublimate_good p s : good_pack p -> snd (sublimate p s) = false ->
  let p' := fst (sublimate p s) in
  good_pack p' /\ length (lays p') = length (lays p) /\
  pack_mass p' = pack_mass p - Rmin (Rmax s 0) (total_ice p).
Proof.
  intros (Hw & He & Hc) Hn. destruct (sublimate_cond p s Hw Hn) as (E & Le & F & I). cbn zeta in *.
  destruct Hw as [Hl Hwf].
  assert (Hwa : Forall wf_layer (active p)) by (apply Forall_firstn, Hwf).
  assert (Hs : 0 <= Rmax s 0) by (rmm; lra).
  pose proof (sublimed_bounds (active p) (Rmax s 0) Hwa Hs) as Hb.
  split; [|split].
  - split; [|split].
    + apply (wf_rebuild _ (ns p)); [exact E|rewrite Le; exact Hl| |rewrite I; apply Forall_skipn, Hwf].
      eapply Forall3_wf_sublim; eauto.
    + rewrite I. exact He.
    + eapply Forall3_coherent; [|exact F|exact Hb|exact Hwa|exact Hc].
      intros a m b (H1 & H2 & H3 & H4 & _). auto.
  - exact Le.
  - destruct (after_sublim_totals _ _ _ F) as [T1 T2].
    rewrite sublimed_total in T1 by assumption.
    assert (Et : total_ice p = sumR (map ice (active p))).
    { apply empty_sum; [intros l (_ & E1 & _); exact E1|exact He]. }
    rewrite !pack_mass_split. unfold total_lwc. rewrite Et.
    unfold total_ice. rewrite !(pixel_split _ (fst (sublimate p s))), !(pixel_split lwc p), I, T1, T2.
    rewrite (sumR_all0 (map ice (inactive p))).
    2:{ apply Forall_map. eapply Forall_impl; [|exact He]. intros l (_ & E1 & _); exact E1. }
    lra.
Qed.

Definition snow_in (s : num) : R := Rmax 0 (nan_to_zero s).

Lemma accumulation_good amax air sf wb p alb : good_pack p -> lays p <> [] ->
  let p' := fst (accumulation amax air sf wb p alb) in
  good_pack p' /\ pack_mass p' = pack_mass p + snow_in sf /\ length (lays p') = length (lays p).
Proof.
  intros Hg Hne. unfold accumulation, gt0, snow_in. destruct sf as [x|]; cbn [nan_to_zero].
  - destruct (Rlt_dec 0 x).
    + pose proof (fresh_snow_density_min wb). rewrite Rmax_right by lra.
      apply add_snow_good; auto; lra.
    + cbn. rewrite Rmax_left by lra. repeat split; try apply Hg; lra.
  - cbn. rewrite Rmax_left by lra. repeat split; try apply Hg; lra.
Qed.

Lemma sublimation_good dt amax air mf ts wb p alb : good_pack p -> lays p <> [] ->
  let '(p', alb', s, nan) := sublimation dt amax air mf ts wb p alb in
  nan = false ->
  good_pack p' /\ pack_mass p' = pack_mass p - s /\ length (lays p') = length (lays p).
Proof.
  intros Hg Hne. unfold sublimation.
  set (s := sublimation_amount dt mf ts p).
  assert (Hs : s <= total_ice p).
  { assert (0 <= total_ice p).
    { unfold total_ice. apply sumR_nonneg, Forall_map. destruct Hg as ([_ Hw] & _).
      eapply Forall_impl; [|exact Hw]. intros l (_ & ? & _); assumption. }
    unfold s, sublimation_amount. match goal with |- context[if ?b then _ else _] => destruct b end; [apply Rmin_r|lra]. }
  destruct (Rlt_dec 0 (- Rmin s 0)) as [H|H].
  - assert (Hn : s < 0) by (revert H; rmm; lra). rewrite (Rmin_left s 0) by lra.
    pose proof (fresh_snow_density_min wb).
    pose proof (add_snow_good amax air (- s) (fresh_snow_density wb) p alb Hg Hne ltac:(lra) ltac:(lra)) as (G & M & L).
    destruct (add_snow amax air (Some (- s)) 0 (fresh_snow_density wb) p alb) as [p1 a1]. cbn [fst] in *.
    unfold sublimate. rewrite Rmax_right by lra. destruct (Rlt_dec 0 0); [lra|]. intros _.
    repeat split; try apply G; try assumption; try lra.
  - assert (Hn : 0 <= s) by (revert H; rmm; lra).
    pose proof (sublimate_good p s Hg) as B.
    destruct (sublimate p s) as [p2 nan]. cbn [fst snd] in B. intros N. destruct (B N) as (G & L & M).
    repeat split; try apply G; try assumption. rewrite M. f_equal. rewrite Rmax_left by lra. rewrite Rmin_left; lra.
Qed.

Definition dense (l : layer) : Prop := ice l <= ICE_DENSITY * th l.
(** A zero-thickness layer holds nothing. *)
Definition no_residue (l : layer) : Prop := th l = 0 -> ice l = 0 /\ lwc l = 0.

Lemma routing_coherent m mx : forall act q act',
  0 <= mx -> Forall wf_layer act -> Forall coherent act -> (m = PoreVolumeFraction -> Forall dense act) ->
  0 <= q ->
  Forall3 (fun lc q l' => after_runoff (snd lc) (fst lc) q l')
    (combine act (map (max_lwc m mx) act)) (inflows (map (max_lwc m mx) act) q act) act' ->
  Forall coherent act' /\ Forall no_residue act' /\
  Forall2 (fun a b => th b = th a /\ ice b + lwc b <= ice a + max_lwc m mx a) act act'.
Proof.
  induction act as [|l act IH]; intros q act' Hmx Hwf Hc Hd Hq F; cbn in *.
  - inversion F; subst. repeat constructor.
  - inversion F as [|a b c' la lb lc Ha F']; subst; cbn in *.
    inversion Hwf as [|? ? W Ws]; inversion Hc as [|? ? C Cs]; subst.
    destruct (IH _ _ Hmx Ws Cs (fun e => Forall_inv_tail (Hd e)) (Rmax_l _ _) F') as (A & B & D).
    assert (Hcap : 0 <= max_lwc m mx l).
    { apply max_lwc_nonneg; auto. intros e. exact (Forall_inv (Hd e)). }
    pose proof (refrozen_bounds _ _ _ W Hcap Hq) as [B1 B2].
    destruct (after_runoff_props _ l q c' W Hcap Hq Ha) as ((W1 & W2 & W3 & W4) & P2 & P3 & P4).
    destruct Ha as (E1 & E2 & E3 & E4 & _).
    destruct W as (V1 & V2 & V3 & V4). unfold coherent in C.
    assert (Hz : th l = 0 -> ice c' = 0 /\ lwc c' = 0).
    { intros Z. assert (Zi : ice l = 0) by (destruct (Req_dec (ice l) 0); [assumption|]; assert (0 < th l) by (apply C; lra); lra).
      assert (Zc : max_lwc m mx l = 0) by (apply max_lwc_no_layer; [lra|intros; exact Zi]).
      rewrite Zc in *.
      assert (lwc l + q - outflow 0 q l <= 0) by (unfold outflow; rmm; lra). lra. }
    assert (Ho : lwc l + q - outflow (max_lwc m mx l) q l <= max_lwc m mx l) by (unfold outflow; rmm; lra).
    repeat split; try constructor; auto.
    + unfold coherent. rewrite E1. split; intros H.
      * assert (0 < ice l) by (apply C, H). lra.
      * destruct (Req_dec (th l) 0) as [Z|Z]; [destruct (Hz Z); lra|lra].
    + unfold no_residue. rewrite E1. exact Hz.
    + split; [exact E1|lra].
Qed.

Lemma runoff_good m mx rain p : good_pack p -> 0 <= mx -> 0 <= nan_to_zero rain ->
  (m = PoreVolumeFraction -> Forall dense (active p)) ->
  let '(p', ro, rf) := runoff m mx rain p in
  good_pack p' /\ length (lays p') = length (lays p) /\ ns p' = ns p /\
  pack_mass p' = pack_mass p + nan_to_zero rain - ro /\ 0 <= ro /\
  Forall no_residue (lays p') /\ 
  Forall2 (fun a b => th b = th a /\ ice b + lwc b <= ice a + max_lwc m mx a) (active p) (active p').
Proof.
  intros (Hw & He & Hc) Hmx Hr Hd. pose proof (runoff_spec m mx rain p Hw) as Sp.
  destruct (runoff m mx rain p) as [[p' ro] rf]. destruct Sp as (E & Le & I & F & Ro & Rf).
  destruct Hw as [Hn Hwf].
  assert (Hwa : Forall wf_layer (active p)) by (apply Forall_firstn, Hwf).
  unfold caps_of in *.
  destruct (routing_coherent m mx _ _ _ Hmx Hwa Hc Hd Hr F) as (C1 & C2 & C3).
  assert (Hcaps : Forall (fun c => 0 <= c) (map (max_lwc m mx) (active p))).
  { apply Forall_map, Forall_forall. intros l Hin. apply max_lwc_nonneg; auto.
    - rewrite Forall_forall in Hwa; auto.
    - intros e. specialize (Hd e). rewrite Forall_forall in Hd. apply Hd, Hin. }
  destruct (routing_wf _ _ _ _ (map_length _ _) Hwa Hcaps Hr F) as (W' & _ & _).
  split; [|split; [|split; [|split; [|split; [|split]]]]]; auto.
  - split; [|split].
    + apply (wf_rebuild _ (ns p)); [exact E|lia|exact W'|rewrite I; apply Forall_skipn, Hwf].
    + rewrite I; exact He.
    + exact C1.
  - unfold pack_mass. rewrite !(pixel_split _ p'), !(pixel_split _ p), I.
    pose proof (routing_budget _ _ _ _ (map_length _ _) F). rewrite Ro. lra.
  - rewrite Ro. apply bottom_flux_nonneg, Hr.
  - rewrite <- (firstn_skipn (ns p') (lays p')). apply Forall_app. split; [exact C2|].
    change (skipn (ns p') (lays p')) with (inactive p'). rewrite I.
    eapply Forall_impl; [|exact He]. intros l (? & ? & ?) _. auto.
Qed.

(** * _update_layers on any pack *)
Lemma redistribute_thin ths L : forall os s,
  nth 0 ths 0 = 0 -> (forall k, nth k ths 0 = 0) -> rem s = 0 ->
  (knew s + length os <= L)%nat -> aice s = repeat 0 L -> alwc s = repeat 0 L -> aen s = repeat 0 L ->
  bad (redistribute ths 0 s os) = false ->
  let s' := redistribute ths 0 s os in
  aice s' = repeat 0 L /\ alwc s' = repeat 0 L /\ aen s' = repeat 0 L.
Proof.
  assert (Add0 : forall l k x, x = 0 -> add_at k x l = l).
  { induction l as [|y l IH]; intros [|k] x ->; cbn; auto; [f_equal; lra|]. f_equal; auto. }
  induction os as [|o os IH]; intros s H0 Hz Hr Hk E1 E2 E3 Hb; cbn zeta.
  - cbn. auto.
  - unfold redistribute in *. cbn [fold_left] in *.
    assert (Hb1 : bad (inner (S (length ths)) ths 0 s o) = false).
    { destruct (bad (inner (S (length ths)) ths 0 s o)) eqn:Hbb; [|reflexivity].
      exfalso. pose proof (redistribute_bad_mono ths 0 os _ Hbb) as Q. unfold redistribute in Q. congruence. }
    revert Hb Hb1. cbn [inner]. rewrite Hr. unfold weight.
    destruct (Req_EM_T (ot o) 0) as [Z|Z].
    + destruct (Rlt_dec 0 0); [lra|]. cbn. discriminate.
    + assert (W : Rmin (0 / ot o) 1 = 0) by (unfold Rdiv; rewrite Rmult_0_l; rmm; lra).
      rewrite W. destruct (Req_EM_T 0 1); [lra|]. cbn [Nat.leb].
      intros Hb Hb1. rewrite !Add0 in * by lra.
      apply IH; auto. cbn [knew]. cbn [length] in Hk. lia.
Qed.

Lemma update_layers_good mt p : min_thickness_ok mt -> length mt = length (lays p) -> good_pack p ->
  Forall no_residue (lays p) ->
  let d := snow_depth (lays p) in
  let p' := fst (update_layers mt d p) in
  snd (update_layers mt d p) = false ->
  good_pack p' /\ length (lays p') = length (lays p) /\
  Forall (fun l => 0 < th l /\ 0 < ice l) (active p') /\
  pack_mass p' = (if Rlt_dec d thin_limit then 0 else pack_mass p) /\
  snow_depth (lays p') = (if Rlt_dec d thin_limit then 0 else d).
Proof.
  intros Hmt Hl Hg Hnr. cbn zeta. set (d := snow_depth (lays p)). intros Hb.
  destruct (Rlt_dec d thin_limit) as [Hd|Hd].
  - assert (Empty : forall q, (ns q = 0)%nat -> Forall empty_slot (lays q) -> Forall (fun l => 0 <= hc l) (lays q) ->
      length (lays q) = length (lays p) ->
      good_pack q /\ length (lays q) = length (lays p) /\ Forall (fun l => 0 < th l /\ 0 < ice l) (active q) /\
      pack_mass q = 0 /\ snow_depth (lays q) = 0).
    { intros q Hq He Hh Hlq. split; [|split; [exact Hlq|split; [|split]]].
      - split; [split; [lia|]|split].
        + rewrite Forall_forall in *. intros l Hin. destruct (He l Hin) as (? & ? & ?). unfold wf_layer.
          specialize (Hh l Hin). lra.
        + unfold inactive. rewrite Hq. exact He.
        + unfold active. rewrite Hq. constructor.
      - unfold active. rewrite Hq. constructor.
      - apply sumR_all0, Forall_map. eapply Forall_impl; [|exact He]. intros l (? & ? & ?). lra.
      - apply sumR_all0, Forall_map. eapply Forall_impl; [|exact He]. intros l (? & ? & ?). lra. }
    assert (Hh : Forall (fun l => 0 <= hc l) (lays p)).
    { destruct Hg as ([_ Hw] & _). eapply Forall_impl; [|exact Hw]. intros ? (_ & _ & _ & ?); assumption. }
    revert Hb. unfold update_layers. destruct (Rlt_dec 0 d) as [Hp|Hp].
    + destruct (new_ths_thin mt d Hmt Hd) as [Et Ec]. cbn zeta in Et, Ec. rewrite Ec, Et.
      set (L := length (lays p)) in *. cbn [fst snd]. 
      set (s0 := mkS _ _ _ _ _ _). intros Hb.
      assert (Hz : forall k, nth k (repeat 0 (length mt)) 0 = 0) by (intros; apply nth_repeat).
      destruct (redistribute_thin (repeat 0 (length mt)) L (map old_of (firstn (ns p) (lays p))) s0) as (A1 & A2 & A3); auto.
      { unfold s0; cbn [rem]. apply Hz. }
      { unfold s0; cbn [knew]. rewrite map_length, firstn_length. unfold L; lia. }
      cbn zeta in A1, A2, A3. rewrite A1, A2, A3, Hl. clear Hb A1 A2 A3 s0.
      assert (B : forall ls, Forall (fun l => 0 <= hc l) ls ->
         let b := build 0 (repeat 0 (length ls)) (repeat 0 (length ls)) (repeat 0 (length ls)) (repeat 0 (length ls)) ls in
         Forall empty_slot b /\ Forall (fun l => 0 <= hc l) b /\ length b = length ls).
      { induction ls as [|l ls IH]; intros F; cbn; [repeat constructor|]. inversion F; subst.
        destruct (IH H2) as (I1 & I2 & I3). repeat split; try constructor; auto.
        unfold empty_slot; cbn; auto. }
      destruct (B _ Hh) as (B1 & B2 & B3). cbn zeta in *. fold L in B1, B2, B3. apply Empty; auto.
    + cbn [fst snd]. intros _. apply Empty; auto; cbn [ns lays].
      * apply Forall_map, Forall_forall. intros; unfold empty_slot; cbn; auto.
      * apply Forall_map. exact Hh.
      * apply map_length.
  - assert (Hd' : thin_limit <= d) by lra.
    destruct (relayer_spec mt p Hmt Hl Hg Hd' Hb) as (E1 & E2 & E3 & E4 & E5 & E6).
    fold d in E1, E2, E3, E4, E5, E6. split; [exact E5|]. split; [exact E3|]. split; [exact E6|].
    unfold d in Hb, E4. rewrite relayer_eq in Hb by assumption. cbn [snd] in Hb.
    split.
    + rewrite !pack_mass_split. unfold total_ice, total_lwc.
      change ice with (quantity SI). change lwc with (quantity SW). rewrite !E4.
      rewrite !relayer_totals by assumption.
      rewrite (empty_sum (quantity SI) p), (empty_sum (quantity SW) p); try apply Hg; [reflexivity| |];
        intros l (? & ? & ?); assumption.
    + unfold snow_depth. rewrite E2. 
      destruct (new_ths_shape mt d Hmt Hd') as (_ & _ & Hs & _). exact Hs.
Qed.

(** * One time step *)
Definition cfg_ok (c : config) : Prop :=
  min_thickness_ok (mts c) /\ 0 <= dt c /\ 0 <= lwcmax c /\
  (forall ts mc mm, comp c = Empirical ts mc mm -> 0 < ts).

Lemma before_routing_good c f p alb : cfg_ok c -> good_pack p -> lays p <> [] ->
  let '(p6, alb6, m, s, nan) := before_routing c f (p, alb) in
  nan = false ->
  good_pack p6 /\ length (lays p6) = length (lays p) /\
  pack_mass p6 = pack_mass p + snow_in (f_snowfall f) - s.
Proof.
  intros (Hmt & Hdt & Hmx & Hts) Hg Hne. unfold before_routing.
  destruct (compaction_good c (f_air f) p Hdt Hts Hg) as (G1 & M1 & L1).
  set (p1 := compaction c (f_air f) p) in *.
  assert (Hne1 : lays p1 <> []) by (destruct (lays p1), (lays p); cbn in *; congruence).
  destruct (accumulation_good (a_max (acfg c)) (f_air f) (f_snowfall f) (f_wet_bulb f) p1 alb G1 Hne1) as (G2 & M2 & L2).
  destruct (accumulation (a_max (acfg c)) (f_air f) (f_snowfall f) (f_wet_bulb f) p1 alb) as [p2 alb2]. cbn [fst] in *.
  destruct (update_properties_good p2 G2) as (G3 & M3 & L3 & _).
  set (p3 := update_properties p2) in *.
  destruct (set_temps_good p3 (f_temps f) G3) as (G4 & M4 & L4 & _).
  set (p4 := mkP (ns p3) _) in *. cbn zeta in *.
  destruct (melt_good p4 (f_melt f) G4) as (G5 & M5 & L5).
  destruct (melt p4 (f_melt f)) as [p5 m]. cbn [fst] in *.
  assert (Hne5 : lays p5 <> []) by (destruct (lays p5), (lays p); cbn in *; try congruence; lia).
  pose proof (sublimation_good (dt c) (a_max (acfg c)) (f_air f) (f_mflux f) (f_tsurf f) (f_wet_bulb f) p5
    (albedo_step (acfg c) (dt c) (f_albedo_temp f) (f_snowfall f) alb2) G5 Hne5) as S6.
  destruct (sublimation _ _ _ _ _ _ p5 _) as [[[p6 alb6] s] nan1].
  intros N. destruct (S6 N) as (G6 & M6 & L6).
  split; [exact G6|]. split; [congruence|]. lra.
Qed.

Definition before (c : config) (f : forcing) (st : pixel * num) : pixel :=
  let '(p6, _, _, _, _) := before_routing c f st in p6.

(** The condition under which the pore volume is meaningful. *)
Definition routable (c : config) (f : forcing) (st : pixel * num) : Prop :=
  lwcm c = PoreVolumeFraction -> Forall dense (active (before c f st)).

(** Mass discarded by the re-discretisation of a pack thinner than [thin_limit]. *)
Definition discarded (o : output) : R := if Rlt_dec (o_depth o) thin_limit then o_swe o else 0.

Lemma Forall2_sum_le (f : layer -> R) (g : layer -> R) la lb (Q : layer -> layer -> Prop) :
  (forall a b, Q a b -> f b <= g a) -> Forall2 Q la lb -> sumR (map f lb) <= sumR (map g la).
Proof. intros H. induction 1; cbn; [lra|]. rewrite !sumR_cons. specialize (H _ _ H0). lra. Qed.

Lemma step_good c f p alb : cfg_ok c -> good_pack p -> length (lays p) = length (mts c) ->
  0 <= nan_to_zero (f_rain f) -> routable c f (p, alb) ->
  let '((p', alb'), o) := snow_step c f (p, alb) in
  o_nan o = false ->
  good_pack p' /\ length (lays p') = length (mts c) /\
  Forall (fun l => 0 < th l /\ 0 < ice l) (active p') /\
  pack_mass p' + o_runoff o + o_sublimation o + discarded o
    = pack_mass p + snow_in (f_snowfall f) + nan_to_zero (f_rain f) /\
  0 <= o_runoff o /\ 0 <= discarded o /\
  pack_mass p' = o_swe o - discarded o /\
  snow_depth (lays p') = (if Rlt_dec (o_depth o) thin_limit then 0 else o_depth o) /\
  (lwcm c = PoreVolumeFraction -> discarded o <= (ICE_DENSITY + WATER_DENSITY * lwcmax c) * thin_limit).
Proof.
  intros Hc Hg Hlen Hr Hrt. pose proof Hc as (Hmt & Hdt & Hmx & Hts).
  assert (Hne : lays p <> []).
  { intros E. rewrite E in Hlen. destruct Hmt as [Hm _]. destruct (mts c); cbn in *; congruence. }
  pose proof (before_routing_good c f p alb Hc Hg Hne) as B.
  unfold routable, before in Hrt. unfold snow_step.
  destruct (before_routing c f (p, alb)) as [[[[p6 alb6] m] s] nan1].
  destruct nan1.
  { destruct (runoff _ _ _ p6) as [[p7 ro] rf]. destruct (update_layers _ _ _) as [p9 nan2]. cbn. discriminate. }
  destruct (B eq_refl) as (G6 & L6 & M6).
  pose proof (runoff_good (lwcm c) (lwcmax c) (f_rain f) p6 G6 Hmx Hr Hrt) as Ro.
  destruct (runoff (lwcm c) (lwcmax c) (f_rain f) p6) as [[p7 ro] rf].
  destruct Ro as (G7 & L7 & N7 & M7 & Rp & Nr & Cap).
  destruct (update_properties_good p7 G7) as (G8 & M8 & L8 & D8).
  assert (Nr8 : Forall no_residue (lays (update_properties p7))).
  { unfold update_properties, update_heat_cap; cbn [lays]. apply Forall_map. exact Nr. }
  set (p8 := update_properties p7) in *.
  assert (L8' : length (mts c) = length (lays p8)) by congruence.
  pose proof (update_layers_good (mts c) p8 Hmt L8' G8 Nr8) as U. cbn zeta in U.
  destruct (update_layers (mts c) (snow_depth (lays p8)) p8) as [p9 nan2]. cbn [fst snd] in U.
  cbn [o_nan orb]. intros N. destruct (U N) as (G9 & L9 & A9 & M9 & D9).
  cbn [o_runoff o_sublimation o_swe o_depth].
  assert (Esw : snow_swe (lays p8) = pack_mass p8) by reflexivity.
  assert (P8 : 0 <= pack_mass p8).
  { rewrite <- Esw. apply sumR_nonneg, Forall_map. destruct G8 as ([_ W] & _).
    eapply Forall_impl; [|exact W]. intros l (? & ? & ? & ?). lra. }
  unfold discarded; cbn [o_depth o_swe]. rewrite Esw.
  split; [exact G9|]. split; [congruence|]. split; [exact A9|].
  destruct (Rlt_dec (snow_depth (lays p8)) thin_limit) as [T|T]; rewrite ?M9.
  - split; [lra|]. split; [assumption|]. split; [assumption|]. split; [lra|]. split; [assumption|].
    intros Hpv. specialize (Hrt Hpv). rewrite M8. rewrite D8 in T.
    destruct G7 as (_ & He7 & _). 
    unfold pack_mass. rewrite (empty_sum _ p7); [|intros l (? & ? & ?); lra|exact He7].
    assert (Ed : snow_depth (lays p7) = sumR (map th (active p6))).
    { unfold snow_depth. rewrite (empty_sum th p7); [|intros l (? & ? & ?); lra|exact He7].
      clear -Cap. induction Cap as [|a b la lb [E _] _ IH]; cbn; [reflexivity|]. rewrite !sumR_cons. lra. }
    apply Rle_trans with (sumR (map (fun l => ice l + max_lwc (lwcm c) (lwcmax c) l) (active p6))).
    { eapply Forall2_sum_le; [|exact Cap]. cbv beta. intros a b [_ H]. exact H. }
    apply Rle_trans with (sumR (map (fun l => (ICE_DENSITY + WATER_DENSITY * lwcmax c) * th l) (active p6))).
    { rewrite Hpv. assert (W6 : Forall wf_layer (active p6)) by (apply Forall_firstn, G6).
      clear -Hrt W6 Hmx. induction (active p6) as [|l ls IH]; cbn [map]; [lra|].
      inversion Hrt as [|? ? D Ds]; inversion W6 as [|? ? (W1 & W2 & W3 & W4) Ws]; subst. rewrite !sumR_cons.
      assert (max_lwc PoreVolumeFraction (lwcmax c) l <= WATER_DENSITY * lwcmax c * th l).
      { unfold dense, ICE_DENSITY in D. destruct (Req_dec (th l) 0) as [Z|Z].
        - rewrite max_lwc_no_layer; [rewrite Z; lra|lra|discriminate].
        - rewrite max_lwc_pore by lra. unfold ICE_DENSITY, WATER_DENSITY.
          assert (0 <= lwcmax c * (ice l / 917)) by (apply Rmult_le_pos; lra). nra. }
      unfold dense in D. specialize (IH Ds Ws). lra. }
    rewrite sumR_map_scal, <- Ed. apply Rmult_le_compat_l; [|lra].
    unfold ICE_DENSITY, WATER_DENSITY. lra.
  - split; [lra|]. split; [assumption|]. split; [lra|]. split; [lra|]. split; [assumption|].
    intros _. unfold ICE_DENSITY, WATER_DENSITY, thin_limit. nra.
Qed.

(** * Runs *)
Definition run_in (fs : list forcing) : R :=
  sumR (map (fun f => snow_in (f_snowfall f) + nan_to_zero (f_rain f)) fs).
Definition run_out (os : list output) : R :=
  sumR (map (fun o => o_runoff o + o_sublimation o + discarded o) os).

(** The condition on every state visited. *)
Fixpoint all_routable (c : config) (fs : list forcing) (st : pixel * num) : Prop :=
  match fs with
  | [] => True
  | f :: r => routable c f st /\ all_routable c r (fst (snow_step c f st))
  end.

Lemma run_good c : cfg_ok c -> forall fs p alb,
  good_pack p -> length (lays p) = length (mts c) ->
  Forall (fun f => 0 <= nan_to_zero (f_rain f)) fs -> all_routable c fs (p, alb) ->
  let '((p', alb'), os) := snow_run c fs (p, alb) in
  Forall (fun o => o_nan o = false) os ->
  good_pack p' /\ length (lays p') = length (mts c) /\
  pack_mass p' + run_out os = pack_mass p + run_in fs /\
  Forall (fun o => 0 <= o_runoff o /\ 0 <= discarded o) os.
Proof.
  intros Hc. induction fs as [|f fs IH]; intros p alb Hg Hl Hr Hrt.
  - cbn. intros _. unfold run_out, run_in; cbn. rewrite !sumR_nil. repeat split; try apply Hg; auto.
  - inversion Hr; subst. cbn [snow_run all_routable] in *. destruct Hrt as [R1 R2].
    pose proof (step_good c f p alb Hc Hg Hl ltac:(assumption) R1) as S1.
    destruct (snow_step c f (p, alb)) as [[p1 alb1] o]. cbn [fst] in R2.
    specialize (IH p1 alb1).
    destruct (snow_run c fs (p1, alb1)) as [[p2 alb2] os].
    intros N. inversion N; subst.
    destruct (S1 ltac:(assumption)) as (G1 & L1 & A1 & M1 & Ro & Di & _).
    destruct (IH G1 L1 ltac:(assumption) R2 ltac:(assumption)) as (G2 & L2 & M2 & F2).
    split; [exact G2|]. split; [exact L2|]. split; [|constructor; auto].
    unfold run_out, run_in in *. cbn [map]. rewrite !sumR_cons. lra.
Qed.
