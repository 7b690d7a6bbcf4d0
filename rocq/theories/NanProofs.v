(** Conditions under which a time step of the multilayer model produces no NaN. *)
From Verif Require Import Common Constants SnowModel SnowProofs MultilayerModel MultilayerSpec
  MultilayerProofs RelayerProofs StepProofs HistoryProofs.

Definition full (l : layer) : Prop := 0 < th l /\ 0 < ice l.

Lemma melted_zero : forall ls x, Forall wf_layer ls -> Forall (fun l => surplus l = 0) ls -> x <= 0 ->
  melted x ls = repeat 0 (length ls).
Proof.
  induction ls as [|l ls IH]; intros x Hw Hs Hx; cbn; [reflexivity|].
  inversion Hw as [|? ? (? & ? & ? & ?) ?]; inversion Hs as [|? ? E ?]; subst. rewrite E.
  assert (M : Rmin (Rmax (x + 0) 0) (ice l) = 0) by (rmm; lra). rewrite M. f_equal.
  apply IH; auto. lra.
Qed.

Lemma after_melt_zero_full : forall ls lb, Forall3 after_melt ls (repeat 0 (length ls)) lb ->
  Forall (fun l => 0 < ice l) ls -> Forall (fun l => 0 < ice l) lb.
Proof.
  induction ls as [|l ls IH]; intros lb F H; cbn in F; inversion F as [|a m b la lm lb' Ha F']; subst; constructor;
    inversion H; subst; auto.
  destruct Ha as (E & _). lra.
Qed.

Lemma melt_ice_free : forall ls x lb, Forall wf_layer ls -> Forall (fun l => surplus l = 0) ls ->
  Forall (fun l => 0 < ice l) ls -> Forall3 after_melt ls (melted x ls) lb -> ice_free_on_top lb.
Proof.
  induction ls as [|l ls IH]; intros x lb Hw Hs Hi F; cbn [melted] in F.
  - inversion F; subst. exact I.
  - inversion Hw as [|? ? Wl Ws]; inversion Hs as [|? ? E Es]; inversion Hi as [|? ? Il Is]; subst.
    inversion F as [|a m b la lm lb' Ha F']; subst. cbn [ice_free_on_top].
    destruct Ha as (Ei & _). rewrite E in *.
    destruct (Rle_lt_dec (ice l) x) as [C|C].
    + left. split; [rewrite Ei; rmm; lra|]. eapply IH; [exact Ws|exact Es|exact Is|exact F'].
    + right. split; [rewrite Ei; rmm; lra|].
      assert (Z : x + 0 - Rmin (Rmax (x + 0) 0) (ice l) <= 0) by (rmm; lra).
      rewrite (melted_zero ls _ Ws Es Z) in F'. eapply after_melt_zero_full; eauto.
Qed.

Lemma ice_free_top_pos l ls : ice_free_on_top (l :: ls) -> 0 < ice l -> Forall (fun l => 0 < ice l) (l :: ls).
Proof. intros [[H _]|[H1 H2]] H0; [lra|]. constructor; assumption. Qed.

Lemma sublim_ice_free : forall ls x lb, Forall wf_layer ls -> 0 <= x -> ice_free_on_top ls ->
  Forall3 after_sublim ls (sublimed x ls) lb -> ice_free_on_top lb.
Proof.
  induction ls as [|l ls IH]; intros x lb Hw Hx Hi F; cbn [sublimed] in F.
  - inversion F; subst. exact I.
  - inversion Hw as [|? ? (W1 & W2 & W3 & W4) Ws]; subst.
    inversion F as [|a m b la lm lb' Ha F']; subst. cbn [ice_free_on_top] in *.
    destruct Ha as (Ei & _).
    destruct Hi as [[Z Hi]|[Z Hi]].
    + left. split; [rewrite Ei, Z; rmm; lra|]. eapply IH; [exact Ws| |exact Hi|exact F']. rmm; lra.
    + destruct (Rle_lt_dec (ice l) x) as [C|C].
      * left. split; [rewrite Ei; rmm; lra|]. eapply IH; [exact Ws| | |exact F']; [rmm; lra|].
        clear -Hi. induction Hi; cbn; auto.
      * right. split; [rewrite Ei; rmm; lra|].
        assert (E0 : x - Rmin x (ice l) = 0) by (rmm; lra). rewrite E0 in F'.
        rewrite (sublimed_zero ls Ws) in F'. clear -F' Hi.
        revert lb' F'. induction Hi as [|l0 ls0 H0 _ IH]; intros lb' F'; cbn in F'; inversion F' as [|a' m' b' la' lm' lb'' Ha' F'']; subst; constructor; auto.
        destruct Ha' as (E & _). lra.
Qed.

Lemma coherent_thin ls : Forall wf_layer ls -> Forall coherent ls -> ice_free_on_top ls ->
  thin_on_top (map old_of ls).
Proof.
  induction ls as [|l ls IH]; intros Hw Hc Hi; cbn; auto.
  inversion Hw as [|? ? (W1 & W2 & W3 & W4) Ws]; inversion Hc as [|? ? C Cs]; subst. unfold coherent in C.
  destruct Hi as [[Z Hi]|[Z Hi]].
  - left. split; [|auto]. destruct (Req_dec (th l) 0); [assumption|].
    assert (0 < ice l) by (apply C; lra). lra.
  - right. split; [apply C, Z|]. apply Forall_map. rewrite Forall_forall in *. intros y Hy.
    cbn. apply Cs; auto.
Qed.

Lemma full_compacted la lb : Forall2 compacted la lb -> Forall full la -> Forall full lb.
Proof.
  apply Forall2_transfer. intros a b (E1 & E2 & E3 & E4 & B & P) [F1 F2]. unfold full. rewrite E1. split; auto.
Qed.

Lemma add_snow_full amax air amount density p alb : lays p <> [] -> good_pack p ->
  Forall full (active p) -> 0 < amount -> 0 < density ->
  Forall full (active (fst (add_snow amax air (Some amount) 0 density p alb))).
Proof.
  intros Hne ([Hn Hw] & He & _) Hf Ha Hd. unfold add_snow. unfold active, inactive in *.
  assert (Hq : 0 < amount / density) by (apply Rdiv_lt_0_compat; assumption).
  destruct (lays p) as [|l r]; [congruence|]. cbn [nan_to_zero].
  destruct (Rlt_dec 0 amount); [|lra]. rewrite andb_true_r. cbn [fst].
  inversion Hw as [|? ? (W1 & W2 & W3 & W4) Ws]; subst.
  destruct (ns p) as [|n]; cbn [Nat.eqb ns lays firstn] in *.
  - constructor; [|constructor]. unfold full; cbn. lra.
  - inversion Hf as [|? ? [F1 F2] Fs]; subst. constructor; [|exact Fs]. unfold full; cbn. lra.
Qed.

Lemma set_temps_cold : forall n ts ls, Forall (fun t => t <= T0) ts -> (n <= length ts)%nat ->
  Forall (fun l => tmp l <= T0) (firstn n (set_temps n ts ls)).
Proof.
  induction n as [|n IH]; intros [|t ts] [|l ls] H Hn; cbn in *; auto; [lia|].
  inversion H; subst. constructor; [assumption|]. apply IH; [assumption|lia].
Qed.

Lemma cold_surplus l : 0 <= hc l -> tmp l <= T0 -> surplus l = 0.
Proof. intros H1 H2. apply surplus_cold; [assumption|]. nra. Qed.

(** The physical side conditions of a time step. *)
Definition calm (c : config) (f : forcing) : Prop :=
  Forall (fun t => t <= T0) (f_temps f) /\ (length (mts c) <= length (f_temps f))%nat /\
  (0 < nan_to_zero (f_melt f) -> match f_tsurf f with Some t => T0 <= t | None => True end).

Lemma before_routing_no_nan c f p alb : cfg_ok c -> good_pack p -> length (lays p) = length (mts c) ->
  Forall full (active p) -> calm c f ->
  let '(p6, alb6, m, s, nan) := before_routing c f (p, alb) in
  nan = false /\ ice_free_on_top (active p6).
Proof.
  intros (Hmt & Hdt & Hmx & Hts) Hg Hlen Hf (Ht & Htl & Hcold). unfold before_routing.
  assert (Hne : lays p <> []).
  { intros E. rewrite E in Hlen. destruct Hmt as [Hm _]. destruct (mts c); cbn in *; congruence. }
  pose proof (fresh_snow_density_min (f_wet_bulb f)) as Hfd.
  destruct (compaction_good c (f_air f) p Hdt Hts Hg) as (G1 & M1 & L1).
  destruct (compaction_rel c (f_air f) p Hdt Hts Hg) as [R1 N1].
  set (p1 := compaction c (f_air f) p) in *.
  assert (F1 : Forall full (active p1)).
  { unfold active. rewrite N1. eapply full_compacted; [apply Forall2_firstn, R1|exact Hf]. }
  assert (Hne1 : lays p1 <> []) by (destruct (lays p1), (lays p); cbn in *; congruence).
  destruct (accumulation_good (a_max (acfg c)) (f_air f) (f_snowfall f) (f_wet_bulb f) p1 alb G1 Hne1) as (G2 & M2 & L2).
  assert (F2 : Forall full (active (fst (accumulation (a_max (acfg c)) (f_air f) (f_snowfall f) (f_wet_bulb f) p1 alb)))).
  { unfold accumulation, gt0. destruct (f_snowfall f) as [x|]; [|exact F1].
    destruct (Rlt_dec 0 x); [|exact F1]. apply add_snow_full; auto. lra. }
  destruct (accumulation (a_max (acfg c)) (f_air f) (f_snowfall f) (f_wet_bulb f) p1 alb) as [p2 alb2]. cbn [fst] in *.
  destruct (update_properties_good p2 G2) as (G3 & M3 & L3 & _).
  assert (F3 : Forall full (active (update_properties p2))).
  { unfold active, update_properties, update_heat_cap in *. cbn [ns lays]. rewrite firstn_map. apply Forall_map. exact F2. }
  set (p3 := update_properties p2) in *.
  destruct (set_temps_good p3 (f_temps f) G3) as (G4 & M4 & L4 & _).
  assert (N3 : (ns p3 <= length (f_temps f))%nat).
  { destruct G3 as ([N _] & _). lia. }
  assert (C4 : Forall (fun l => tmp l <= T0) (firstn (ns p3) (set_temps (ns p3) (f_temps f) (lays p3)))).
  { apply set_temps_cold; assumption. }
  assert (F4 : Forall full (firstn (ns p3) (set_temps (ns p3) (f_temps f) (lays p3)))).
  { refine (Forall2_transfer full full _ (firstn (ns p3) (lays p3)) _ _ (Forall2_firstn _ _ _ _ (set_temps_rel (ns p3) (f_temps f) (lays p3))) F3).
    intros a b (E1 & E2 & _). unfold full. rewrite E1, E2. auto. }
  set (p4 := mkP (ns p3) _) in *. cbn zeta in *.
  change (firstn (ns p3) (set_temps (ns p3) (f_temps f) (lays p3))) with (active p4) in C4, F4.
  destruct (melt_good p4 (f_melt f) G4) as (G5 & M5 & L5).
  destruct (melt_spec p4 (f_melt f) (proj1 G4)) as (E5 & _ & A5 & _ & _).
  destruct (melt p4 (f_melt f)) as [p5 m]. cbn [fst] in *.
  assert (W4 : Forall wf_layer (active p4)) by (apply Forall_firstn, G4).
  assert (S4 : Forall (fun l => surplus l = 0) (active p4)).
  { rewrite Forall_forall in *. intros l Hl. apply cold_surplus; [apply (W4 l Hl)|auto]. }
  assert (I4 : Forall (fun l => 0 < ice l) (active p4)).
  { eapply Forall_impl; [|exact F4]. intros l [_ ?]; assumption. }
  assert (L4n : length (active p4) = ns p4).
  { destruct G4 as ([N _] & _). unfold active. rewrite firstn_length. lia. }
  assert (I5 : ice_free_on_top (active p5) /\
    (nan_to_zero (f_melt f) <= 0 -> Forall (fun l => 0 < ice l) (active p5))).
  { unfold melt_amounts in A5. destruct (f_melt f) as [x|]; cbn [nan_to_zero].
    - split; [eapply melt_ice_free; [exact W4|exact S4|exact I4|exact A5]|]. intros Hx.
      rewrite (melted_zero (active p4) x W4 S4 Hx) in A5. eapply after_melt_zero_full; eauto.
    - rewrite <- L4n in A5. pose proof (after_melt_zero_full _ _ A5 I4) as Q. split; auto.
      clear -Q. induction Q; cbn; auto. }
  destruct I5 as [I5 I5'].
  assert (Hne5 : lays p5 <> []) by (destruct (lays p5), (lays p); cbn in *; try congruence; lia).
  unfold sublimation. set (s := sublimation_amount _ _ _ _).
  destruct (Rlt_dec 0 (- Rmin s 0)) as [H|H].
  - assert (Hn : s < 0) by (revert H; rmm; lra).
    assert (P5 : Forall (fun l => 0 < ice l) (active p5)).
    { revert Hn. unfold s, sublimation_amount.
      destruct (Rle_lt_dec (nan_to_zero (f_melt f)) 0) as [Z|Z]; [intros _; auto|].
      specialize (Hcold Z). unfold active in *. destruct (lays p5) as [|l r] eqn:El; [congruence|].
      destruct (Rlt_dec 0 (ice l)) as [Q|Q].
      - intros _. destruct (ns p5) as [|n]; cbn [firstn] in *; [constructor|].
        apply ice_free_top_pos; assumption.
      - cbn [orb]. destruct (f_tsurf f) as [t|]; [|lra]. destruct (Rlt_dec t T0); [lra|lra]. }
    assert (P5' : Forall full (active p5)).
    { destruct G5 as (_ & _ & C5). rewrite Forall_forall in *. intros l Hl. specialize (C5 l Hl).
      specialize (P5 l Hl). unfold full. split; [apply C5|]; assumption. }
    pose proof (add_snow_full (a_max (acfg c)) (f_air f) (- Rmin s 0) (fresh_snow_density (f_wet_bulb f)) p5
      (albedo_step (acfg c) (dt c) (f_albedo_temp f) (f_snowfall f) alb2) Hne5 G5 P5' H ltac:(lra)) as F6.
    destruct (add_snow _ _ _ _ _ p5 _) as [q aq]. cbn [fst] in *.
    unfold sublimate. rewrite Rmax_right by lra. destruct (Rlt_dec 0 0); [lra|].
    split; [reflexivity|]. clear -F6. induction F6 as [|l ls [H1 H2] F6 IH]; cbn; auto.
    right. split; [assumption|]. eapply Forall_impl; [|exact F6]. intros x [_ ?]; assumption.
  - destruct (sublimate_spec p5 s (proj1 G5) I5) as (_ & _ & A6 & _ & N6).
    destruct (sublimate p5 s) as [p6 nan]. cbn [fst snd] in *. split; [exact N6|].
    eapply sublim_ice_free; [| |exact I5|exact A6]; [apply Forall_firstn, G5|rmm; lra].
Qed.

Lemma step_no_nan c f p alb : cfg_ok c -> good_pack p -> length (lays p) = length (mts c) ->
  Forall full (active p) -> 0 <= nan_to_zero (f_rain f) -> routable c f (p, alb) -> calm c f ->
  let o := snd (snow_step c f (p, alb)) in
  (o_depth o <= 0 \/ thin_limit <= o_depth o) -> o_nan o = false.
Proof.
  intros Hc Hg Hlen Hf Hr Hrt Hcalm. pose proof Hc as (Hmt & Hdt & Hmx & Hts).
  assert (Hne : lays p <> []).
  { intros E. rewrite E in Hlen. destruct Hmt as [Hm _]. destruct (mts c); cbn in *; congruence. }
  pose proof (before_routing_good c f p alb Hc Hg Hne) as B.
  pose proof (before_routing_no_nan c f p alb Hc Hg Hlen Hf Hcalm) as BN.
  unfold routable, before in Hrt. unfold snow_step.
  destruct (before_routing c f (p, alb)) as [[[[p6 alb6] m] s] nan1].
  destruct BN as [N6 I6]. destruct (B N6) as (G6 & L6 & M6).
  pose proof (runoff_good (lwcm c) (lwcmax c) (f_rain f) p6 G6 Hmx Hr Hrt) as Ro.
  destruct (runoff (lwcm c) (lwcmax c) (f_rain f) p6) as [[p7 ro] rf].
  destruct Ro as (G7 & L7 & N7 & M7 & Rp & Nr & Cap).
  destruct (update_properties_good p7 G7) as (G8 & M8 & L8 & D8).
  set (p8 := update_properties p7) in *.
  assert (L8' : length (mts c) = length (lays p8)) by congruence.
  assert (T8 : thin_on_top (map old_of (active p8))).
  { pose proof (coherent_thin (active p6) (Forall_firstn _ _ _ (proj2 (proj1 G6))) (proj2 (proj2 G6)) I6) as T6.
    assert (F68 : Forall2 (fun a b => th b = th a) (active p6) (active p8)).
    { unfold p8, active, update_properties, update_heat_cap. cbn [ns lays]. rewrite firstn_map.
      change (firstn (ns p7) (lays p7)) with (active p7).
      change (firstn (ns p6) (lays p6)) with (active p6).
      clear -Cap. induction Cap as [|a b la lb [E _] _ IH]; cbn; constructor; auto. }
    clear -T6 F68. induction F68 as [|a b la lb E F IH]; cbn in *; auto.
    destruct T6 as [[Z T]|[Z T]]; [left; split; [lra|auto]|right; split; [lra|]].
    clear -T F. induction F as [|a b la lb E F IH]; cbn in *; constructor; inversion T; subst; auto. cbn in *. lra. }
  assert (U : snow_depth (lays p8) <= 0 \/ thin_limit <= snow_depth (lays p8) ->
     snd (update_layers (mts c) (snow_depth (lays p8)) p8) = false).
  { intros [Z|Z].
    - unfold update_layers. destruct (Rlt_dec 0 (snow_depth (lays p8))); [lra|reflexivity].
    - apply relayer_nobad; auto. }
  destruct (update_layers (mts c) (snow_depth (lays p8)) p8) as [p9 nan2]. cbn [fst snd] in *.
  cbn [o_depth o_nan]. intros H. rewrite N6, (U H). reflexivity.
Qed.
