(** C102: evapotranspiration of the whole grid. *)
From Verif Require Import Common Constants AtmosphereModel MeteoFieldsModel GridBalanceModel CryoGridModel CanopyModel EtModel EtSpec EtTheorems EtGridModel EtGridSpec EtGridProofs.
From Coq Require Import Permutation.
Open Scope R_scope.

(** * Pixels *)
Lemma val_same v x p : x_val (setv v x p) v = x.
Proof. unfold setv. cbn [x_val]. destruct (var_eq v v); congruence. Qed.
Lemma val_other v w x p : w <> v -> x_val (setv v x p) w = x_val p w.
Proof. intro N. unfold setv. cbn [x_val]. destruct (var_eq w v); congruence. Qed.
Ltac vs := repeat first [rewrite val_same | rewrite val_other by discriminate].
Lemma val_const v w x p : constant_var v = false -> constant_var w = true -> x_val (setv v x p) w = x_val p w.
Proof. intros A B. apply val_other. congruence. Qed.
Ltac vc H := repeat rewrite val_const by (exact H || reflexivity).
Lemma coeff_total cfg d c clim : exists kc h, coeff_of cfg d c clim = Some (kc, h).
Proof.
  unfold coeff_of, class_coefficient. cbv zeta. destruct (c_stages c) as [[[[a b] e] f]|l]; cbn [stage_arrays].
  - unfold crop_coefficient, plant_height, crop_index. cbn [length Nat.eqb andb]. eauto.
  - unfold crop_coefficient, plant_height, crop_index. rewrite !map_length, !Nat.eqb_refl. cbn [andb]. eauto.
Qed.
Lemma kc_eq cfg d c clim kc h : coeff_of cfg d c clim = Some (kc, h) -> class_kc cfg d c (Some clim) = (Some kc, Some h).
Proof. unfold coeff_of, class_kc, mid_coeff. cbv zeta. intros ->. reflexivity. Qed.
(** dual coefficients *)
Lemma dual_vals cfg c p clim kc h sp s : x_val p Clim = Some clim -> x_val p BasalCoeff = Some kc -> x_val p Height = Some h -> holds_soil p sp -> holds_state p s ->
  let q := dual_px cfg c p in
  let ex := exposed_fraction (vegetation_fraction (c_sparse c) clim (g_kmin cfg) kc h) in
  let et0 := nan_to_zero (x_val p EtRef) in
  let r := nan_to_zero (x_val p Rain) in
  let ev := evaporation_coeff sp clim kc ex (e_de s) * et0 in
  x_val q Evap = Some ev /\ x_val q Transp = Some (kc * et0) /\ x_val q Et = Some (ev + kc * et0) /\
  x_val q Dpe = Some (surface_percolation r (e_dpe s)) /\ x_val q De = surface_balance sp r ev ex (e_de s) (surface_percolation r (e_dpe s)) /\
  x_val q EvapCoeff = Some (evaporation_coeff sp clim kc ex (e_de s)) /\ x_val q CropCoeff = Some (kc + evaporation_coeff sp clim kc ex (e_de s)).
Proof.
  intros C K H (T1 & T2 & T3 & T4) (S1 & S2 & S3). cbv zeta.
  assert (MX : mx_px p = Some (max_kc clim kc)) by (unfold mx_px; rewrite C, K; reflexivity).
  assert (EX : ex_px cfg c p = Some (exposed_fraction (vegetation_fraction (c_sparse c) clim (g_kmin cfg) kc h))).
  { unfold ex_px, vegetation_fraction. rewrite MX, K, H. destruct (c_sparse c); reflexivity. }
  assert (RD : red_px p = Some (reduction_coeff sp (e_de s))).
  { unfold red_px, reduction_coeff. rewrite S1, T1, T2. destruct (e_de s) as [x|]; cbn; auto. destruct (Rlt_dec (s_rew sp) x); reflexivity. }
  set (ex := exposed_fraction _) in *. clearbody ex.
  unfold dual_px. cbv zeta. rewrite MX, EX, RD. unfold fixnan at 1 2. set (et0 := nan_to_zero (x_val p EtRef)).
  set (p1 := d1 _ _ _ p).
  assert (A1 : x_val p1 EvapCoeff = Some (evaporation_coeff sp clim kc ex (e_de s))) by (unfold p1, d1; vs; rewrite K; reflexivity).
  assert (B1 : forall v, v <> EvapCoeff -> x_val p1 v = x_val p v) by (intros v N; unfold p1, d1; rewrite val_other by auto; auto). clearbody p1.
  set (ec := evaporation_coeff sp clim kc ex (e_de s)) in *.
  set (p2 := d2 p1). assert (A2 : x_val p2 CropCoeff = Some (kc + ec)) by (unfold p2, d2; vs; rewrite A1, B1, K by discriminate; reflexivity).
  assert (B2 : forall v, v <> CropCoeff -> x_val p2 v = x_val p1 v) by (intros v N; unfold p2, d2; rewrite val_other by auto; auto). clearbody p2.
  set (p3 := d3 _ p2). assert (A3 : x_val p3 Evap = Some (ec * et0)) by (unfold p3, d3; vs; rewrite B2, A1 by discriminate; reflexivity).
  assert (B3 : forall v, v <> Evap -> x_val p3 v = x_val p2 v) by (intros v N; unfold p3, d3; rewrite val_other by auto; auto). clearbody p3.
  set (p4 := d4 _ p3). assert (A4 : x_val p4 Transp = Some (kc * et0)) by (unfold p4, d4; vs; rewrite B3, B2, B1, K by discriminate; reflexivity).
  assert (B4 : forall v, v <> Transp -> x_val p4 v = x_val p3 v) by (intros v N; unfold p4, d4; rewrite val_other by auto; auto). clearbody p4.
  set (p5 := d5 p4). assert (A5 : x_val p5 Et = Some (ec * et0 + kc * et0)) by (unfold p5, d5; vs; rewrite B4, A3, A4 by discriminate; reflexivity).
  assert (B5 : forall v, v <> Et -> x_val p5 v = x_val p4 v) by (intros v N; unfold p5, d5; rewrite val_other by auto; auto). clearbody p5.
  assert (R5 : x_val p5 Rain = x_val p Rain) by (rewrite B5, B4, B3, B2, B1 by discriminate; auto).
  set (p6 := d6 p5). assert (A6 : x_val p6 Dpe = Some (surface_percolation (nan_to_zero (x_val p Rain)) (e_dpe s))).
  { unfold p6, d6; vs. rewrite R5. rewrite B5, B4, B3, B2, B1, S2 by discriminate. reflexivity. }
  assert (B6 : forall v, v <> Dpe -> x_val p6 v = x_val p5 v) by (intros v N; unfold p6, d6; rewrite val_other by auto; auto). clearbody p6.
  rewrite R5. unfold d8, d7. vs. rewrite A6, !B6, A5, !B5, A4, !B4, A3, !B3, A2, !B2, A1, !B1, S1, T1 by discriminate.
  do 4 (split; [reflexivity|]). split; [|auto]. unfold surface_balance. destruct (e_de s) as [x|]; [|reflexivity]. cbn. destruct (Req_EM_T ex 0); reflexivity.
Qed.
Lemma dual_keep cfg c p v : match v with EvapCoeff | CropCoeff | Evap | Transp | Et | Dpe | De => False | _ => True end -> x_val (dual_px cfg c p) v = x_val p v.
Proof. intro N. unfold dual_px, d8, d7, d6, d5, d4, d3, d2, d1. cbv zeta. repeat (rewrite val_other by (intros ->; exact N)). reflexivity. Qed.
Lemma root_vals p sp s e : x_val p Taw = Some (s_taw sp) -> x_val p Dr = e_dr s -> x_val p Et = e ->
  (x_val (root_px p) Dp, x_val (root_px p) Dr) = root_zone sp (nan_to_zero (x_val p Rain)) e (e_dr s) /\
  forall v, v <> Dp -> v <> Dr -> x_val (root_px p) v = x_val p v.
Proof.
  intros A B C. split.
  - unfold root_px. cbv zeta. vs. rewrite A, B, C. unfold root_zone. destruct e, (e_dr s); reflexivity.
  - intros v N M. unfold root_px. cbv zeta. rewrite !val_other by auto. reflexivity.
Qed.
Lemma stress_vals p sp s : holds_soil p sp -> x_val p Dr = e_dr s -> x_val (stress_px p) Stress = stress_coeff sp (e_dr s).
Proof. intros (_ & _ & A & B) C. unfold stress_px. vs. rewrite A, B, C. unfold stress_coeff, ratio01. destruct (e_dr s); reflexivity. Qed.
Lemma class_const cfg d c s p v : constant_var v = true -> x_val (class_px cfg d c s p) v = x_val p v.
Proof.
  intro H. unfold class_px. destruct (c_sealed c).
  - destruct s; [unfold snow_px; vc H; auto|]. unfold sealed_px, rain_px, dry_px. cbv zeta. destruct (gt0 (x_val p Rain)); vc H; auto.
  - cbv zeta. set (q := coeff_px cfg d c p). assert (Q : x_val q v = x_val p v) by (unfold q, coeff_px; destruct (c_dual c); vc H; auto). clearbody q.
    set (w := if s && negb (c_water c) then snow_px (c_dual c) q else crop_px cfg c q).
    assert (W : x_val w v = x_val q v).
    { unfold w. destruct (s && negb (c_water c)); [unfold snow_px; destruct (c_dual c); vc H; auto|].
      unfold crop_px, dual_px, single_px, d8, d7, d6, d5, d4, d3, d2, d1; cbv zeta. destruct (c_dual c); vc H; auto. }
    clearbody w. rewrite <- Q, <- W. destruct (c_water c); auto. unfold root_px, adj_px, stress_px. cbv zeta. destruct (s && _), (c_dual c); vc H; auto.
Qed.
Lemma class_inter cfg d c s p : c_sealed c = false -> x_val (class_px cfg d c s p) Inter = x_val p Inter.
Proof.
  intro H. unfold class_px. rewrite H. cbv zeta. set (q := coeff_px cfg d c p). assert (Q : x_val q Inter = x_val p Inter) by (unfold q, coeff_px; destruct (c_dual c); vs; auto). clearbody q.
  set (w := if s && negb (c_water c) then snow_px (c_dual c) q else crop_px cfg c q).
  assert (W : x_val w Inter = x_val q Inter).
  { unfold w. destruct (s && negb (c_water c)); [unfold snow_px; destruct (c_dual c); vs; auto|].
    unfold crop_px, dual_px, single_px, d8, d7, d6, d5, d4, d3, d2, d1; cbv zeta. destruct (c_dual c); vs; auto. }
  clearbody w. rewrite <- Q, <- W. destruct (c_water c); auto. unfold root_px, adj_px, stress_px. cbv zeta. destruct (s && _), (c_dual c); vs; auto.
Qed.
(** Reference surface *)
Lemma ref_vals cfg d p : reference_values cfg d p (ref_px cfg d (reset_px p)).
Proof.
  unfold reference_values. set (q := reset_px p). assert (Q : forall v, constant_var v = true -> x_val q v = x_val p v) by (intros v H; unfold q, reset_px; vc H; auto).
  unfold ref_px. cbv zeta. set (q1 := r1 q).
  assert (A : x_val q1 RefNet = match x_val p RefAlbedo, x_val p RefEmis, x_val p Sw, x_val p Lw, x_val p Temp with
     | Some a, Some e, Some sw, Some lw, Some t => Some (ref_net_radiation a e sw lw t) | _, _, _, _, _ => None end).
  { unfold q1, r1. vs. rewrite !Q by reflexivity. destruct (x_val p RefAlbedo), (x_val p RefEmis), (x_val p Sw), (x_val p Lw), (x_val p Temp); reflexivity. }
  assert (B : forall v, v <> RefNet -> x_val q1 v = x_val q v) by (intros v N; unfold q1, r1; rewrite val_other by auto; auto). clearbody q1.
  set (q2 := r2 d q1). assert (C : x_val q2 SoilFlux = nmap (fun x => (if d_sun d then 0.1 else 0.5) * x) (x_val q1 RefNet)) by (unfold q2, r2; vs; auto).
  assert (D : forall v, v <> SoilFlux -> x_val q2 v = x_val q1 v) by (intros v N; unfold q2, r2; rewrite val_other by auto; auto). clearbody q2.
  vs. unfold et0_px. cbv zeta. rewrite C, !D, A by discriminate. rewrite !B, !Q by (discriminate || reflexivity).
  destruct (x_val p RefAlbedo), (x_val p RefEmis), (x_val p Sw), (x_val p Lw), (x_val p Temp); cbv zeta; (split; [reflexivity|split; [reflexivity|]]);
    try reflexivity; destruct (x_val p Psych), (x_val p Es), (x_val p Ea), (x_val p Wind); reflexivity.
Qed.
Lemma ref_keep cfg d p v : match v with RefNet | SoilFlux | EtRef | CropCoeff | BasalCoeff | EvapCoeff | Stress | Dp => False | _ => True end ->
  x_val (ref_px cfg d (reset_px p)) v = x_val p v.
Proof. intro N. unfold ref_px, r2, r1, reset_px. cbv zeta. repeat (rewrite val_other by (intros ->; exact N)). reflexivity. Qed.
Lemma class_ref cfg d c s p v : match v with RefNet | SoilFlux | EtRef => True | _ => False end -> x_val (class_px cfg d c s p) v = x_val p v.
Proof.
  intro H. unfold class_px. assert (O : forall w x q, match w with RefNet | SoilFlux | EtRef => False | _ => True end -> x_val (setv w x q) v = x_val q v).
  { intros w x q N. apply val_other. intros ->. destruct w; auto. }
  Ltac vo O := repeat rewrite O by exact I.
  destruct (c_sealed c).
  - destruct s; [unfold snow_px; vo O; auto|]. unfold sealed_px, rain_px, dry_px. cbv zeta. destruct (gt0 (x_val p Rain)); vo O; auto.
  - cbv zeta. set (q := coeff_px cfg d c p). assert (Q : x_val q v = x_val p v) by (unfold q, coeff_px; destruct (c_dual c); vo O; auto). clearbody q.
    set (w := if s && negb (c_water c) then snow_px (c_dual c) q else crop_px cfg c q).
    assert (W : x_val w v = x_val q v).
    { unfold w. destruct (s && negb (c_water c)); [unfold snow_px; destruct (c_dual c); vo O; auto|].
      unfold crop_px, dual_px, single_px, d8, d7, d6, d5, d4, d3, d2, d1; cbv zeta. destruct (c_dual c); vo O; auto. }
    clearbody w. rewrite <- Q, <- W. destruct (c_water c); auto. unfold root_px, adj_px, stress_px. cbv zeta. destruct (s && _), (c_dual c); vo O; auto.
Qed.
Lemma ref_reset cfg d p : x_val (ref_px cfg d (reset_px p)) Dp = Some 0 /\ x_val (ref_px cfg d (reset_px p)) Stress = None.
Proof. unfold ref_px, r2, r1, reset_px. cbv zeta. vs. auto. Qed.
Lemma adj_vals dual p : x_val (adj_px dual p) Et = (if dual then nadd (x_val p Evap) (nmul (x_val p Transp) (x_val p Stress)) else nmul (x_val p Et) (x_val p Stress)) /\
  x_val (adj_px dual p) Transp = (if dual then nmul (x_val p Transp) (x_val p Stress) else x_val p Transp) /\
  forall v, v <> Et -> v <> Transp -> x_val (adj_px dual p) v = x_val p v.
Proof. unfold adj_px. cbv zeta. destruct dual; vs; (split; [auto|split; [auto|]]); intros v N M; rewrite !val_other by auto; auto. Qed.
Lemma crop_vals cfg d c p clim sp s : c_sealed c = false -> x_val p Clim = Some clim -> holds_soil p sp -> holds_state p s ->
  crop_step cfg d c sp clim s p (class_px cfg d c (gt0 (x_val p Swe)) (ref_px cfg d (reset_px p))).
Proof.
  intros SE C (T1 & T2 & T3 & T4) (S1 & S2 & S3). destruct (coeff_total cfg d c clim) as (kc & h & K). exists kc, h. split; [exact K|].
  rewrite class_ref by exact I.
  set (q := ref_px cfg d (reset_px p)). destruct (ref_reset cfg d p) as (DP & ST). pose proof (ref_keep cfg d p) as QK. fold q in DP, ST, QK.
  unfold class_px. rewrite SE. cbv zeta.
  set (q1 := coeff_px cfg d c q).
  assert (KB : x_val q1 (if c_dual c then BasalCoeff else CropCoeff) = Some kc).
  { unfold q1, coeff_px. cbv zeta. rewrite QK, C by exact I. rewrite (kc_eq _ _ _ _ _ _ K). vs. reflexivity. }
  assert (HB : x_val q1 Height = Some h).
  { unfold q1, coeff_px. cbv zeta. rewrite QK, C by exact I. rewrite (kc_eq _ _ _ _ _ _ K). destruct (c_dual c); vs; reflexivity. }
  assert (Q1 : forall v, v <> Height -> v <> BasalCoeff -> v <> CropCoeff -> x_val q1 v = x_val q v).
  { intros v N1 N2 N3. unfold q1, coeff_px. cbv zeta. destruct (c_dual c); rewrite !val_other by auto; auto. }
  clearbody q1. set (er := x_val q EtRef). assert (ER : x_val q1 EtRef = er) by (rewrite Q1 by discriminate; auto).
  assert (HS : holds_soil q1 sp) by (repeat split; rewrite Q1, QK by (exact I || discriminate); auto).
  assert (HT : holds_state q1 s) by (repeat split; rewrite Q1, QK by (exact I || discriminate); auto).
  assert (RN : x_val q1 Rain = x_val p Rain) by (rewrite Q1, QK by (exact I || discriminate); auto).
  assert (CL : x_val q1 Clim = Some clim) by (rewrite Q1, QK by (exact I || discriminate); auto).
  assert (DP1 : x_val q1 Dp = Some 0) by (rewrite Q1 by discriminate; auto).
  assert (ST1 : x_val q1 Stress = None) by (rewrite Q1 by discriminate; auto).
  assert (EV1 : x_val q1 Evap = x_val p Evap) by (rewrite Q1, QK by (exact I || discriminate); auto).
  assert (TR1 : x_val q1 Transp = x_val p Transp) by (rewrite Q1, QK by (exact I || discriminate); auto).
  clear Q1 QK DP ST. clearbody er. clear q. destruct HT as (U1 & U2 & U3). pose proof HS as (V1 & V2 & V3 & V4).
  unfold et_step, crop_type. cbv zeta. destruct (gt0 (x_val p Swe) && negb (c_water c)) eqn:SN.
  - assert (W : c_water c = false) by (apply andb_true_iff in SN; destruct SN as (_ & N); apply negb_true_iff in N; auto). rewrite W.
    set (q2 := snow_px (c_dual c) q1).
    assert (ET : x_val q2 Et = Some 0) by (unfold q2, snow_px; destruct (c_dual c); vs; auto).
    assert (O : forall v, v <> Et -> v <> Transp -> v <> Evap -> x_val q2 v = x_val q1 v) by (intros v N1 N2 N3; unfold q2, snow_px; destruct (c_dual c); rewrite !val_other by auto; auto).
    assert (EV : x_val q2 Evap = if c_dual c then Some 0 else x_val p Evap) by (unfold q2, snow_px; destruct (c_dual c); vs; auto).
    assert (TR : x_val q2 Transp = if c_dual c then Some 0 else x_val p Transp) by (unfold q2, snow_px; destruct (c_dual c); vs; auto).
    clearbody q2.
    destruct (root_vals q2 sp s (Some 0)) as (RV & RK); auto; [rewrite O by discriminate; auto..|].
    rewrite (O Rain), RN in RV by discriminate. destruct (root_zone sp (nan_to_zero (x_val p Rain)) (Some 0) (e_dr s)) as [dp dr']. assert (RV1 : x_val (root_px q2) Dp = dp) by exact (f_equal fst RV). assert (RV2 : x_val (root_px q2) Dr = dr') by exact (f_equal snd RV).
    cbn [o_et o_dp o_ks o_evap o_transp]. split.
    { repeat split; cbn [e_de e_dpe e_dr]; auto; rewrite RK, O by discriminate; auto. }
    rewrite RV1, !RK, ET, EV, TR, !O by discriminate. rewrite ST1, HB. destruct (c_dual c); auto 10.
  - unfold crop_px. destruct (c_dual c) eqn:DU.
    + destruct (dual_vals cfg c q1 clim kc h sp s CL KB HB HS (conj U1 (conj U2 U3))) as (D1 & D2 & D3 & D4 & D5 & _ & _). pose proof (dual_keep cfg c q1) as DK.
      rewrite ER in D1, D2, D3, D5. rewrite RN in D4, D5.
      set (ex := exposed_fraction _) in *. clearbody ex. set (ev := evaporation_coeff sp clim kc ex (e_de s) * nan_to_zero er) in *. clearbody ev.
      set (q2 := dual_px cfg c q1) in *. clearbody q2.
      destruct (c_water c) eqn:W.
      * cbn [o_et o_dp o_ks o_evap o_transp]. split; [repeat split; auto; rewrite DK by exact I; auto|]. rewrite D1, D2, D3, !DK by exact I. rewrite DP1, ST1, HB. auto 10.
      * pose proof (stress_vals q2 sp s) as SV. specialize (SV ltac:(repeat split; rewrite DK by exact I; auto) ltac:(rewrite DK by exact I; auto)).
        assert (SK : forall v, v <> Stress -> x_val (stress_px q2) v = x_val q2 v) by (intros v N; unfold stress_px; rewrite val_other by auto; auto).
        set (q3 := stress_px q2) in *. clearbody q3. destruct (adj_vals true q3) as (AE & AT & AK). set (q4 := adj_px true q3) in *. clearbody q4.
        rewrite SV, !SK, D1, D2 in AE by discriminate. rewrite SV, SK, D2 in AT by discriminate. set (ks := stress_coeff sp (e_dr s)) in *. clearbody ks.
        destruct (root_vals q4 sp s (lift1 (Rplus ev) (numscale (kc * nan_to_zero er) ks))) as (RV & RK).
        { rewrite AK, SK, DK by (exact I || discriminate); auto. } { rewrite AK, SK, DK by (exact I || discriminate); auto. }
        { rewrite AE. destruct ks; reflexivity. }
        rewrite (AK Rain), SK, DK, RN in RV by (exact I || discriminate). destruct (root_zone sp _ _ _) as [dp dr']. assert (RV1 : x_val (root_px q4) Dp = dp) by exact (f_equal fst RV). assert (RV2 : x_val (root_px q4) Dr = dr') by exact (f_equal snd RV).
        cbn [o_et o_dp o_ks o_evap o_transp]. split.
        { repeat split; cbn [e_de e_dpe e_dr]; auto; rewrite RK, AK, SK by discriminate; auto. }
        rewrite RV1, !RK, AE, AT by discriminate. rewrite (AK Stress), SV, !AK, !SK, D1, (DK Height) by (exact I || discriminate). rewrite HB. destruct ks; cbn; auto 10.
    + set (q2 := single_px q1).
      assert (ET : x_val q2 Et = Some (kc * nan_to_zero er)) by (unfold q2, single_px; vs; rewrite KB, ER; reflexivity).
      assert (DK : forall v, v <> Et -> x_val q2 v = x_val q1 v) by (intros v N; unfold q2, single_px; rewrite val_other by auto; auto). clearbody q2.
      destruct (c_water c) eqn:W.
      * cbn [o_et o_dp o_ks o_evap o_transp]. split; [repeat split; rewrite DK by discriminate; auto|]. rewrite ET, !DK by discriminate. rewrite DP1, ST1, HB. auto 10.
      * pose proof (stress_vals q2 sp s) as SV. specialize (SV ltac:(repeat split; rewrite DK by discriminate; auto) ltac:(rewrite DK by discriminate; auto)).
        assert (SK : forall v, v <> Stress -> x_val (stress_px q2) v = x_val q2 v) by (intros v N; unfold stress_px; rewrite val_other by auto; auto).
        set (q3 := stress_px q2) in *. clearbody q3. destruct (adj_vals false q3) as (AE & AT & AK). set (q4 := adj_px false q3) in *. clearbody q4.
        rewrite SV, SK, ET in AE by discriminate. rewrite SK, DK, TR1 in AT by discriminate. set (ks := stress_coeff sp (e_dr s)) in *. clearbody ks.
        destruct (root_vals q4 sp s (numscale (kc * nan_to_zero er) ks)) as (RV & RK).
        { rewrite AK, SK, DK by discriminate; auto. } { rewrite AK, SK, DK by discriminate; auto. }
        { rewrite AE. destruct ks; reflexivity. }
        rewrite (AK Rain), SK, DK, RN in RV by discriminate. destruct (root_zone sp _ _ _) as [dp dr']. assert (RV1 : x_val (root_px q4) Dp = dp) by exact (f_equal fst RV). assert (RV2 : x_val (root_px q4) Dr = dr') by exact (f_equal snd RV).
        cbn [o_et o_dp o_ks o_evap o_transp]. split.
        { repeat split; cbn [e_de e_dpe e_dr]; auto; rewrite RK, AK, SK, DK by discriminate; auto. }
        rewrite RV1, !RK, AE, AT by discriminate. rewrite (AK Stress), SV, !AK, !SK, !DK by discriminate. rewrite HB, EV1. destruct ks; cbn; auto 10.
Qed.
Lemma sealed_vals cfg d c p i : c_sealed c = true -> x_val p Inter = Some i ->
  sealed_pixel_step cfg c i p (class_px cfg d c (gt0 (x_val p Swe)) (ref_px cfg d (reset_px p))).
Proof.
  intros SE IN. unfold sealed_pixel_step.
  assert (PO : potential_of cfg c (class_px cfg d c (gt0 (x_val p Swe)) (ref_px cfg d (reset_px p))) = potential_of cfg c (ref_px cfg d (reset_px p))).
  { unfold potential_of. rewrite (class_ref cfg d c _ _ RefNet I), (class_ref cfg d c _ _ SoilFlux I). rewrite !class_const by reflexivity. reflexivity. }
  rewrite PO. clear PO. set (q := ref_px cfg d (reset_px p)). destruct (ref_reset cfg d p) as (DP & _). pose proof (ref_keep cfg d p) as QK. fold q in DP, QK.
  assert (I1 : x_val q Inter = Some i) by (rewrite QK by exact I; auto). assert (R1 : x_val q Rain = x_val p Rain) by (apply QK; exact I). clear QK. clearbody q.
  unfold class_px, sealed_step. rewrite SE. destruct (gt0 (x_val p Swe)).
  - unfold snow_px. vs. auto.
  - unfold sealed_px. cbv zeta. rewrite R1. destruct (gt0 (x_val p Rain)).
    + unfold rain_px. cbv zeta. vs. rewrite I1, R1. cbn. rewrite DP || idtac. repeat split; auto. f_equal. lra.
    + unfold dry_px. cbv zeta. vs. rewrite I1, DP.
      assert (PP : pot_px cfg c q = Some (nan_to_zero (potential_of cfg c q))).
      { unfold pot_px, potential_of. cbv zeta. 
        destruct (x_val q Wind), (x_val q RefNet), (x_val q SoilFlux), (x_val q Temp), (x_val q Psych), (x_val q Es), (x_val q Ea), (x_val q Press);
          try reflexivity; cbn; f_equal; unfold Rdiv; rewrite !Rmult_0_l; reflexivity. }
      rewrite PP. cbn. repeat split; auto. f_equal. lra.
Qed.
Lemma coeffs_vals cfg d c p clim sp s : c_sealed c = false -> x_val p Clim = Some clim -> holds_soil p sp -> holds_state p s ->
  crop_coeffs cfg d c sp clim (e_de s) p (class_px cfg d c (gt0 (x_val p Swe)) (ref_px cfg d (reset_px p))).
Proof.
  intros SE C (T1 & T2 & T3 & T4) (S1 & S2 & S3). destruct (coeff_total cfg d c clim) as (kc & h & K). exists kc, h. split; [exact K|]. cbv zeta.
  set (q := ref_px cfg d (reset_px p)). pose proof (ref_keep cfg d p) as QK. fold q in QK.
  assert (N1 : x_val q CropCoeff = None /\ x_val q BasalCoeff = None /\ x_val q EvapCoeff = None) by (unfold q, ref_px, r2, r1, reset_px; cbv zeta; vs; auto).
  unfold class_px. rewrite SE. cbv zeta.
  set (q1 := coeff_px cfg d c q).
  assert (KB : x_val q1 (if c_dual c then BasalCoeff else CropCoeff) = Some kc).
  { unfold q1, coeff_px. cbv zeta. rewrite QK, C by exact I. rewrite (kc_eq _ _ _ _ _ _ K). vs. reflexivity. }
  assert (KO : x_val q1 (if c_dual c then CropCoeff else BasalCoeff) = None /\ x_val q1 EvapCoeff = None).
  { unfold q1, coeff_px. cbv zeta. destruct (c_dual c); vs; tauto. }
  assert (HB : x_val q1 Height = Some h).
  { unfold q1, coeff_px. cbv zeta. rewrite QK, C by exact I. rewrite (kc_eq _ _ _ _ _ _ K). destruct (c_dual c); vs; reflexivity. }
  assert (Q1 : forall v, v <> Height -> v <> BasalCoeff -> v <> CropCoeff -> x_val q1 v = x_val q v).
  { intros v M1 M2 M3. unfold q1, coeff_px. cbv zeta. destruct (c_dual c); rewrite !val_other by auto; auto. }
  clearbody q1.
  assert (HS : holds_soil q1 sp) by (repeat split; rewrite Q1, QK by (exact I || discriminate); auto).
  assert (HT : holds_state q1 s) by (repeat split; rewrite Q1, QK by (exact I || discriminate); auto).
  assert (CL : x_val q1 Clim = Some clim) by (rewrite Q1, QK by (exact I || discriminate); auto).
  clear Q1 QK N1. clear q.
  set (q2 := if gt0 (x_val p Swe) && negb (c_water c) then snow_px (c_dual c) q1 else crop_px cfg c q1).
  assert (FIN : forall v, v = CropCoeff \/ v = BasalCoeff \/ v = EvapCoeff ->
    x_val (if c_water c then q2 else root_px (if gt0 (x_val p Swe) && negb (c_water c) then q2 else adj_px (c_dual c) (stress_px q2))) v = x_val q2 v).
  { clearbody q2. intros v V. destruct (c_water c); auto. unfold root_px, adj_px, stress_px. cbv zeta. destruct V as [->|[->| ->]]; destruct (_ && _), (c_dual c); vs; auto. }
  rewrite !FIN by auto. unfold q2. clear FIN q2. destruct (gt0 (x_val p Swe) && negb (c_water c)).
  - unfold snow_px. destruct (c_dual c); vs; tauto.
  - unfold crop_px. destruct (c_dual c).
    + destruct (dual_vals cfg c q1 clim kc h sp s CL KB HB HS HT) as (_ & _ & _ & _ & _ & A & B). rewrite (dual_keep cfg c q1 BasalCoeff I). auto.
    + unfold single_px. vs. tauto.
Qed.
Lemma frame_site p q : frame p q -> same_site p q.
Proof. intros (A & B & C). repeat split; auto. Qed.
Lemma site_frame p q : same_site p q -> frame p q.
Proof. intros (A & B & C). repeat split; auto. Qed.
Lemma forall2_map {A} (P : A -> A -> Prop) f l : (forall x, In x l -> P x (f x)) -> Forall2 P l (map f l).
Proof. induction l; cbn; constructor; auto. Qed.
Lemma init_some cfg classes order g g1 lcp : Permutation order (occurring classes g) -> et_initialize cfg classes order g = Some (g1, lcp) ->
  g1 = map (init_px cfg classes (textures_in g)) g /\ lcp = map (fun k => (k, class_mask g k)) order.
Proof.
  intros P E.
  assert (K : forall p, In p g -> x_roi p = true -> (0 < x_tex p)%Z -> texture_of (x_tex p) <> None).
  { intros p I RO PO T. rewrite init_none in E; [discriminate|auto|]. exists p; auto. }
  rewrite init_u in E by auto. injection E as <- <-. auto.
Qed.

(** * Theorems *)
(** C102. The initialization raises if and only if a pixel of the region has a soil texture class beyond the nine known ones. *)
Theorem c102_initialize_raises : forall cfg classes order g, Permutation order (occurring classes g) ->
  (et_initialize cfg classes order g = None <-> exists p, In p g /\ x_roi p = true /\ (9 < x_tex p)%Z).
Proof.
  intros cfg classes order g P.
  assert (T : forall z, (0 < z)%Z -> (texture_of z = None <-> (9 < z)%Z)).
  { intros z H. split.
    - intro E. destruct (Z_lt_le_dec 9 z) as [|L]; auto. assert (C : (z = 1 \/ z = 2 \/ z = 3 \/ z = 4 \/ z = 5 \/ z = 6 \/ z = 7 \/ z = 8 \/ z = 9)%Z) by lia.
      intuition; subst; discriminate.
    - intro L. unfold texture_of. destruct z as [|p|p]; try lia. do 4 (destruct p as [p|p|]; try lia; try reflexivity). }
  split.
  - intro E. destruct (existsb (fun p => x_roi p && (9 <? x_tex p)%Z) g) eqn:EX.
    + apply existsb_exists in EX. destruct EX as (p & I & H). apply andb_true_iff in H. destruct H as (A & B). apply Z.ltb_lt in B. exists p; auto.
    + rewrite init_u in E; [discriminate|auto|]. intros p I RO PO N. apply T in N; auto.
      assert (X : existsb (fun p => x_roi p && (9 <? x_tex p)%Z) g = true) by (apply existsb_exists; exists p; split; auto; rewrite RO; apply Z.ltb_lt; auto). congruence.
  - intros (p & I & RO & N). apply init_none; auto. exists p. split; auto. split; auto. split; [lia|]. apply T; lia.
Qed.
Print Assumptions c102_initialize_raises.
(** C102. Otherwise every pixel gets the values of its class and texture. *)
Theorem c102_initialize : forall cfg classes order g g1 lcp, Permutation order (occurring classes g) ->
  et_initialize cfg classes order g = Some (g1, lcp) -> Forall2 (pixel_init cfg classes) g g1.
Proof.
  intros cfg classes order g g1 lcp P E. destruct (init_some _ _ _ _ _ _ P E) as (-> & _). apply forall2_map. intros p IN.
  assert (TX : x_roi p = true -> existsb (Z.eqb (x_tex p)) (textures_in g) = (0 <? x_tex p)%Z).
  { intro RO. apply eq_true_iff_eq. rewrite existsb_exists. unfold textures_in. split.
    - intros (z & I & EQ). apply Z.eqb_eq in EQ. subst z. apply filter_In in I. tauto.
    - intro L. exists (x_tex p). split; [|apply Z.eqb_refl]. apply filter_In. split; auto. apply nodup_In. apply in_map. apply take_in; auto. }
  set (ts := textures_in g) in *. clearbody ts.
  unfold init_px. cbv zeta. set (p1 := cls _ classes p).
  assert (F1 : frame p p1) by (apply cls_frame; intros; apply setv_frame).
  assert (A1 : x_val p1 Clim = match class_of classes p with Some c => Some (climate_correction (g_ws cfg) (g_rh cfg) (c_height c)) | None => x_val p Clim end).
  { unfold p1, cls, class_of. destruct (_ && _); auto. destruct (lookup _ _); vs; auto. }
  assert (B1 : forall v, v <> Clim -> x_val p1 v = x_val p v).
  { intros v N. unfold p1, cls. destruct (_ && _); auto. destruct (lookup _ _); auto. rewrite val_other; auto. }
  clearbody p1. set (p2 := cls _ classes (setv DeplFrac None p1)).
  assert (CO : forall q, frame p q -> class_of classes q = class_of classes p) by (intros q (A & B & _); unfold class_of; rewrite A, B; auto).
  assert (F2 : frame p p2) by (eapply frame_trans; [exact F1|]; eapply frame_trans; [|apply cls_frame; intros; apply setv_frame]; apply setv_frame).
  assert (A2 : x_val p2 DeplFrac = match class_of classes p with Some c => c_depl c | None => None end).
  { rewrite <- (CO _ F1). unfold p2, cls, class_of. change (x_roi (setv DeplFrac None p1)) with (x_roi p1). change (x_lc (setv DeplFrac None p1)) with (x_lc p1). destruct (_ && _); vs; auto. destruct (lookup _ _); vs; auto. }
  assert (B2 : forall v, v <> DeplFrac -> x_val p2 v = x_val p1 v).
  { intros v N. unfold p2, cls. destruct (_ && _); [|rewrite val_other; auto]. destruct (lookup _ _); rewrite !val_other; auto. }
  clearbody p2. set (p3 := texs cfg ts p2). assert (F3 : frame p p3) by (eapply frame_trans; [exact F2|]; apply texs_frame).
  assert (B3 : forall v, v <> DeplFrac -> v <> Dr -> v <> Taw -> v <> Rew -> v <> Tew -> x_val p3 v = x_val p2 v).
  { intros v N1 N2 N3 N4 N5. unfold p3, texs. destruct (existsb (Z.eqb (x_tex p2)) ts); auto. destruct (texture_of (x_tex p2)); auto. unfold tex_px. cbv zeta. repeat rewrite (val_other _ v) by auto. auto. }
  assert (T3 : x_roi p = true -> (x_tex p <= 0)%Z -> p3 = p2).
  { intros RO LE. unfold p3, texs. destruct F2 as (_ & _ & E2). rewrite <- E2. rewrite TX by auto. replace (0 <? x_tex p)%Z with false; auto. symmetry. apply Z.ltb_ge. auto. }
  assert (K3 : forall t, x_roi p = true -> texture_of (x_tex p) = Some t -> p3 = tex_px cfg t p2).
  { intros t RO T. unfold p3, texs. destruct F2 as (_ & _ & E2). rewrite <- E2. rewrite TX, T by auto. replace (0 <? x_tex p)%Z with true; auto. symmetry. apply Z.ltb_lt.
    destruct (x_tex p); try discriminate; lia. }
  clearbody p3. set (p4 := cls rooti_px classes p3).
  assert (F4 : frame p p4) by (eapply frame_trans; [exact F3|]; apply cls_frame; repeat split).
  assert (A4 : p4 = match class_of classes p with Some c => rooti_px c p3 | None => p3 end).
  { rewrite <- (CO _ F3). unfold p4, cls, class_of. destruct (_ && _); [destruct (lookup _ _)|]; auto. }
  assert (B4 : forall v, v <> Dr -> v <> Taw -> v <> Raw -> x_val p4 v = x_val p3 v).
  { intros v N1 N2 N3. rewrite A4. destruct (class_of classes p); auto. unfold rooti_px. cbv zeta. repeat rewrite (val_other _ v) by auto. auto. }
  clearbody p4. set (p5 := if x_roi p4 then _ else p4).
  assert (F5 : frame p p5) by (eapply frame_trans; [exact F4|]; unfold p5; destruct (x_roi p4); repeat split).
  assert (A5 : x_roi p = true -> x_val p5 De = Some 0 /\ x_val p5 Dpe = Some 0).
  { intro RO. unfold p5. destruct F4 as (<- & _). rewrite RO. vs. auto. }
  assert (N5 : x_roi p = false -> p5 = p4) by (intro RO; unfold p5; destruct F4 as (<- & _); rewrite RO; auto).
  assert (B5 : forall v, v <> De -> v <> Dpe -> x_val p5 v = x_val p4 v) by (intros v N1 N2; unfold p5; destruct (x_roi p4); auto; rewrite !val_other; auto).
  clearbody p5. set (p6 := cls (refi_px cfg) classes p5).
  assert (F6 : frame p p6) by (eapply frame_trans; [exact F5|]; apply cls_frame; intros c q; unfold refi_px; destruct (c_sealed c); repeat split).
  assert (A6 : p6 = match class_of classes p with Some c => refi_px cfg c p5 | None => p5 end).
  { rewrite <- (CO _ F5). unfold p6, cls, class_of. destruct (_ && _); [destruct (lookup _ _)|]; auto. }
  assert (B6 : forall v, v <> RefAlbedo -> v <> RefEmis -> v <> Inter -> x_val p6 v = x_val p5 v).
  { intros v M1 M2 M3. rewrite A6. destruct (class_of classes p) as [c|]; auto. unfold refi_px. destruct (c_sealed c); rewrite !val_other; auto. }
  clearbody p6. assert (ALL : forall v, match v with Clim | DeplFrac | Tew | Rew | Taw | Raw | Dr | De | Dpe | RefAlbedo | RefEmis | Inter => False | _ => True end -> x_val p6 v = x_val p v).
  { intros v H. rewrite B6, B5, B4, B3, B2, B1; auto; intros ->; exact H. }
  assert (NR : x_roi p = false -> class_of classes p = None) by (intro RO; unfold class_of; rewrite RO; auto).
  assert (CN : class_of classes p = None -> unchanged [Clim; Raw; RefAlbedo; RefEmis; Inter] p p6).
  { intros N v IV. rewrite N in *. rewrite A6. cbn in IV. 
    destruct IV as [<-|[<-|[<-|[<-|[<-|[]]]]]]; rewrite B5 by discriminate; rewrite A4, B3, B2 by discriminate; rewrite ?A1, ?B1 by discriminate; auto. }
  assert (UN : forall v, v <> Dr -> v <> Taw -> v <> Raw -> v <> RefAlbedo -> v <> RefEmis -> v <> Inter -> v <> De -> v <> Dpe -> x_val p6 v = x_val p3 v).
  { intros. rewrite B6, B5, B4; auto. }
  split; [apply frame_site; exact F6|]. split; [exact ALL|].
  split.
  { intros RO v IV. assert (D : x_val p6 De = x_val p De /\ x_val p6 Dpe = x_val p Dpe).
    { split; rewrite B6 by discriminate; rewrite (N5 RO), B4, B3, B2, B1 by discriminate; auto. }
    cbn in IV. destruct IV as [<-|[<-|[<-|[<-|[<-|[<-|[<-|[]]]]]]]]; try tauto; apply (CN (NR RO)); cbn; auto 10. }
  split; [intro RO; rewrite !B6 by discriminate; auto|].
  split.
  { intros RO LE v IV. cbn in IV. destruct IV as [<-|[<-|[]]]; rewrite UN by discriminate; rewrite T3, B2, B1 by (auto; discriminate); auto. }
  destruct (class_of classes p) as [c|] eqn:CC; [|apply CN; auto].
  assert (RO : x_roi p = true) by (destruct (x_roi p); auto; specialize (NR eq_refl); discriminate).
  split; [rewrite UN, B3, B2 by discriminate; auto|].
  split; [rewrite A6; unfold refi_px; destruct (c_sealed c); vs; auto|].
  split; [rewrite A6; unfold refi_px; destruct (c_sealed c); vs; auto|].
  split; [rewrite A6; unfold refi_px; destruct (c_sealed c); vs; auto; rewrite B5, B4, B3, B2, B1 by discriminate; auto|].
  split.
  - intros t root depl T RT DT. specialize (K3 t RO T).
    assert (E3 : x_val p3 Tew = Some (1000 * (field_capacity t - 0.5 * wilting_point t) * g_depth cfg) /\ x_val p3 Rew = Some (evaporable t) /\
      x_val p3 Taw = Some (1000 * (field_capacity t - wilting_point t)) /\ x_val p3 Dr = Some (1000 * (field_capacity t - field_capacity t)) /\
      x_val p3 DeplFrac = Some (depl * depletion_adjustment t)).
    { rewrite K3. unfold tex_px. cbv zeta. vs. rewrite A2, DT. auto. }
    destruct E3 as (E31 & E32 & E33 & E34 & E35).
    split.
    + split; [rewrite UN by discriminate; exact E31|]. split; [rewrite UN by discriminate; exact E32|].
      split; rewrite B6, B5 by discriminate; rewrite A4; unfold rooti_px; cbv zeta; vs; rewrite ?E35, RT, E33; cbn; f_equal; unfold soil_params; cbn; lra.
    + destruct (A5 RO) as (X & Y). split; [rewrite B6 by discriminate; exact X|]. split; [rewrite B6 by discriminate; exact Y|].
      rewrite B6, B5 by discriminate. rewrite A4. unfold rooti_px; cbv zeta; vs. rewrite RT, E34. cbn. f_equal. lra.
  - intros LE T0 D0. rewrite !B6, !B5 by discriminate. rewrite A4. unfold rooti_px. cbv zeta. vs. rewrite (T3 RO LE), (B2 Taw), (B2 Dr), !B1, T0, D0 by discriminate.
    destruct (x_val p2 DeplFrac), (c_root c); cbn; auto.
Qed.
Print Assumptions c102_initialize.
(** C102. After initialization a time step never raises, and every pixel follows the rules for one pixel. *)
Lemma step_some cfg classes order g0 g1 lcp d g : Permutation order (occurring classes g0) -> et_initialize cfg classes order g0 = Some (g1, lcp) ->
  Forall2 same_site g0 g -> et_grid_step cfg classes lcp d g = Some (map (step_px cfg classes d) g).
Proof. intros P E S0. destruct (init_some _ _ _ _ _ _ P E) as (_ & ->). apply step_u; auto. eapply f2_impl; [|exact S0]. apply site_frame. Qed.
Theorem c102_step : forall cfg classes order g0 g1 lcp d g, Permutation order (occurring classes g0) ->
  et_initialize cfg classes order g0 = Some (g1, lcp) -> Forall2 same_site g0 g ->
  exists g', et_grid_step cfg classes lcp d g = Some g' /\ Forall2 (pixel_step cfg classes d) g g'.
Proof.
  intros cfg classes order g0 g1 lcp d g P E S0. rewrite (step_some _ _ _ _ _ _ d g P E S0). eexists; split; [reflexivity|]. apply forall2_map. intros p _.
  unfold step_px, pixel_step. destruct (x_roi p) eqn:RO.
  - set (q := ref_px cfg d (reset_px p)). assert (FR : frame p q) by (apply sw_ref).
    assert (CO : class_of classes q = class_of classes p) by (destruct FR as (A & B & _); unfold class_of; rewrite A, B; auto).
    assert (CL : cls (fun c0 q0 => class_px cfg d c0 (gt0 (x_val p Swe)) q0) classes q = match class_of classes p with Some c => class_px cfg d c (gt0 (x_val p Swe)) q | None => q end).
    { rewrite <- CO. unfold cls, class_of. destruct (_ && _); [destruct (lookup _ _)|]; auto. }
    rewrite CL. clear CL. unfold q. clear q FR CO.
    destruct (class_of classes p) as [c|] eqn:CC.
    + split; [apply frame_site; eapply frame_trans; [apply sw_ref|apply sw_class]|].
      split; [intros v H; rewrite class_const by auto; apply ref_keep; destruct v; try discriminate; exact I|].
      split; [discriminate|].
      split.
      { intros _. pose proof (ref_vals cfg d p) as R. unfold reference_values in *. rewrite (class_ref cfg d c _ _ RefNet I), (class_ref cfg d c _ _ SoilFlux I), (class_ref cfg d c _ _ EtRef I). exact R. }
      destruct (c_sealed c) eqn:SE.
      * split.
        { intros v IV. unfold class_px. rewrite SE.
          assert (N : forall w x r, match w with De | Dr | Dpe | Height => False | _ => True end -> x_val (setv w x r) v = x_val r v).
          { intros w x r H. apply val_other. intros ->. cbn in IV. destruct IV as [<-|[<-|[<-|[<-|[]]]]]; auto. }
          assert (QK : x_val (ref_px cfg d (reset_px p)) v = x_val p v) by (apply ref_keep; cbn in IV; destruct IV as [<-|[<-|[<-|[<-|[]]]]]; exact I).
          unfold snow_px, sealed_px, rain_px, dry_px. cbv zeta. destruct (gt0 (x_val p Swe)); [|destruct (gt0 _)]; repeat rewrite N by exact I; exact QK. }
        split; [|intros i HI; apply sealed_vals; auto].
        destruct (ref_reset cfg d p) as (_ & ST). unfold class_px. rewrite SE. unfold snow_px, sealed_px, rain_px, dry_px. cbv zeta. destruct (gt0 (x_val p Swe)); [|destruct (gt0 _)]; vs; exact ST.
      * split; [intros v [<-|[]]; rewrite class_inter by auto; apply ref_keep; exact I|].
        intros sp clim s C HS HT. split; [apply crop_vals; auto|apply coeffs_vals; auto].
    + split; [apply frame_site; apply sw_ref|].
      split; [intros v H; apply ref_keep; destruct v; try discriminate; exact I|].
      split; [discriminate|]. split; [intros _; apply ref_vals|]. intros _.
      split; [intros v IV; apply ref_keep; cbn in IV; intuition; subst; exact I|].
      unfold ref_px, r2, r1, reset_px. cbv zeta. vs. auto 10.
  - assert (N : class_of classes p = None) by (unfold class_of; rewrite RO; auto). rewrite N.
    split; [repeat split|]. split; auto. split; auto. split; discriminate.
Qed.
Print Assumptions c102_step.
(** C102. The order in which the classes are traversed does not matter. *)
Theorem c102_order : forall cfg classes o1 o2 g g1 l1 r2, Permutation o1 (occurring classes g) -> Permutation o2 (occurring classes g) ->
  et_initialize cfg classes o1 g = Some (g1, l1) -> et_initialize cfg classes o2 g = r2 ->
  exists l2, r2 = Some (g1, l2) /\ forall d h, Forall2 same_site g h -> et_grid_step cfg classes l2 d h = et_grid_step cfg classes l1 d h.
Proof.
  intros cfg classes o1 o2 g g1 l1 r2 P1 P2 E1 <-.
  assert (K : forall p, In p g -> x_roi p = true -> (0 < x_tex p)%Z -> texture_of (x_tex p) <> None).
  { intros p I RO PO T. rewrite init_none in E1; [discriminate|auto|]. exists p; auto. }
  pose proof (init_u cfg classes o2 g P2 K) as E2. destruct (init_some _ _ _ _ _ _ P1 E1) as (-> & _). rewrite E2. eexists; split; [reflexivity|].
  intros d h S0. rewrite (step_some _ _ _ _ _ _ d h P2 E2 S0), (step_some _ _ _ _ _ _ d h P1 E1 S0). reflexivity.
Qed.
Print Assumptions c102_order.
(** C102. Water bodies with a single coefficient evaporate without soil parameters and regardless of snow. *)
Theorem c102_water : forall cfg classes order g0 g1 lcp d g g' i p p' c clim, Permutation order (occurring classes g0) ->
  et_initialize cfg classes order g0 = Some (g1, lcp) -> Forall2 same_site g0 g -> et_grid_step cfg classes lcp d g = Some g' ->
  nth_error g i = Some p -> nth_error g' i = Some p' -> class_of classes p = Some c -> c_sealed c = false -> c_water c = true -> c_dual c = false ->
  x_val p Clim = Some clim ->
  exists kc h, coeff_of cfg d c clim = Some (kc, h) /\ x_val p' Et = Some (kc * nan_to_zero (x_val p' EtRef)) /\ x_val p' Dp = Some 0 /\
    unchanged [De; Dr; Dpe; Evap; Transp; Inter] p p'.
Proof.
  intros cfg classes order g0 g1 lcp d g g' i p p' c clim P E S0 ST NP NP' CC SE WA DU CL.
  rewrite (step_some _ _ _ _ _ _ d g P E S0) in ST. injection ST as <-. rewrite nth_error_map, NP in NP'. injection NP' as <-.
  assert (RO : x_roi p = true) by (unfold class_of in CC; destruct (x_roi p); auto; discriminate).
  assert (PX : step_px cfg classes d p = class_px cfg d c (gt0 (x_val p Swe)) (ref_px cfg d (reset_px p))).
  { unfold step_px. rewrite RO. assert (F : frame p (ref_px cfg d (reset_px p))) by apply sw_ref. destruct F as (A & B & _). unfold cls. rewrite <- A, <- B.
    unfold class_of in CC. destruct (_ && _); [|discriminate]. rewrite CC. reflexivity. }
  rewrite PX. clear PX. destruct (coeff_total cfg d c clim) as (kc & h & K). exists kc, h. split; auto.
  rewrite (class_ref cfg d c _ _ EtRef I). pose proof (ref_keep cfg d p) as QK. destruct (ref_reset cfg d p) as (DP & _).
  set (q := ref_px cfg d (reset_px p)) in *. clearbody q. unfold class_px. rewrite SE, WA, DU. rewrite andb_false_r. unfold crop_px. rewrite DU.
  unfold single_px, coeff_px. rewrite QK, CL by exact I. rewrite (kc_eq _ _ _ _ _ _ K), DU. vs.
  split; [reflexivity|]. split; [exact DP|]. intros v IV. cbn in IV. destruct IV as [<-|[<-|[<-|[<-|[<-|[<-|[]]]]]]]; vs; apply QK; exact I.
Qed.
Print Assumptions c102_water.

(** * Histories *)
Lemma forall2_nth {A} (P : A -> A -> Prop) l m i x y : Forall2 P l m -> nth_error l i = Some x -> nth_error m i = Some y -> P x y.
Proof. intro F. revert i. induction F; intros [|i] A1 A2; try discriminate; cbn in *; [congruence|eauto]. Qed.
Lemma forall2_some {A} (P : A -> A -> Prop) l m i x : Forall2 P l m -> nth_error l i = Some x -> exists y, nth_error m i = Some y /\ P x y.
Proof. intro F. revert i. induction F; intros [|i] A1; try discriminate; cbn in *; [injection A1 as <-; eauto|eauto]. Qed.
Lemma site_trans p q r : same_site p q -> same_site q r -> same_site p r.
Proof. intros (A & B & C) (D & E & F). repeat split; congruence. Qed.
Lemma forall2_trans {A} (P Q R : A -> A -> Prop) (H : forall x y z, P x y -> Q y z -> R x z) l m n : Forall2 P l m -> Forall2 Q m n -> Forall2 R l n.
Proof. intro F. revert n. induction F; intros n G; inversion G; subst; constructor; eauto. Qed.
Lemma step_site cfg classes order g0 g1 lcp d g g' : Permutation order (occurring classes g0) -> et_initialize cfg classes order g0 = Some (g1, lcp) ->
  Forall2 same_site g0 g -> et_grid_step cfg classes lcp d g = Some g' -> Forall2 (pixel_step cfg classes d) g g' /\ Forall2 same_site g0 g'.
Proof.
  intros P E S0 ST. destruct (c102_step cfg classes order g0 g1 lcp d g P E S0) as (g2 & E2 & F2). rewrite ST in E2. injection E2 as <-. split; auto.
  eapply forall2_trans; [|exact S0|exact F2]. intros x y z A (B & _). eapply site_trans; eauto.
Qed.
(** Pixel i of the grids of a history *)
Definition at_pixel (i : nat) (e : etday * list xpix * list xpix) (P : etday -> xpix -> xpix -> Prop) : Prop :=
  let '(d, gi, go) := e in exists p p', nth_error gi i = Some p /\ nth_error go i = Some p' /\ P d p p'.
(** The weather that a pixel of an unsealed class sees *)
Definition seen (cfg : etcfg) (c : lcpar) (clim : R) (w : wx) (d : etday) (p p' : xpix) : Prop :=
  w_clim w = clim /\ coeff_of cfg d c clim = Some (w_kc w, w_h w) /\ w_snow w = gt0 (x_val p Swe) /\ w_ref w = x_val p' EtRef /\ w_rain w = x_val p Rain.
Lemma kept_pixel p q v : between p q -> kept_var v = true -> x_val q v = x_val p v.
Proof. intros (_ & H). auto. Qed.
Lemma class_site classes p q : same_site p q -> class_of classes q = class_of classes p.
Proof. intros (A & B & _). unfold class_of. rewrite A, B. auto. Qed.
Lemma crop_history cfg classes order g0 g1 lcp i c clim sp : Permutation order (occurring classes g0) -> et_initialize cfg classes order g0 = Some (g1, lcp) -> c_sealed c = false ->
  forall h g p s, history cfg classes lcp g h -> Forall2 same_site g0 g -> nth_error g i = Some p -> class_of classes p = Some c ->
  x_val p Clim = Some clim -> holds_soil p sp -> holds_state p s ->
  exists ws, Forall2 (fun e w => at_pixel i e (seen cfg c clim w)) h ws /\
    let '(s', os) := et_run (crop_type c) (c_water c) sp (g_kmin cfg) ws s in
    Forall2 (fun e o => at_pixel i e (fun _ _ p' => x_val p' Et = o_et o /\ x_val p' Dp = o_dp o /\ x_val p' Stress = o_ks o)) h os /\
    (forall d gi go r, h = r ++ [(d, gi, go)] -> at_pixel i (d, gi, go) (fun _ _ p' => holds_state p' s')).
Proof.
  intros P E SE. induction h as [|[[d gi] go] h IH]; intros g p s H S0 NP CC CL HS HT.
  - exists []. split; [constructor|]. cbn. split; [constructor|]. intros d gi go r X. destruct r; discriminate.
  - inversion H as [|g' d' gi' go' r' BT ST HR]; subst. clear H.
    destruct (forall2_some _ _ _ _ _ BT NP) as (q & NQ & BQ).
    assert (SG : Forall2 same_site g0 gi) by (eapply forall2_trans; [|exact S0|exact BT]; intros x y z A (B & _); eapply site_trans; eauto).
    destruct (step_site _ _ _ _ _ _ _ _ _ P E SG ST) as (F2 & SO).
    destruct (forall2_some _ _ _ _ _ F2 NQ) as (q' & NQ' & PQ). destruct PQ as (SI & CO & _ & _ & PX).
    rewrite (class_site _ _ _ (proj1 BQ)), CC, SE in PX. destruct PX as (_ & PX).
    assert (HS1 : holds_soil q sp) by (destruct HS as (X1 & X2 & X3 & X4); repeat split; rewrite (kept_pixel _ _ _ BQ) by reflexivity; auto).
    assert (HT1 : holds_state q s) by (destruct HT as (X1 & X2 & X3); repeat split; rewrite (kept_pixel _ _ _ BQ) by reflexivity; auto).
    assert (CL1 : x_val q Clim = Some clim) by (rewrite (kept_pixel _ _ _ BQ) by reflexivity; auto).
    destruct (PX sp clim s CL1 HS1 HT1) as ((kc & hh & K & R) & _).
    set (w := WX clim kc hh (gt0 (x_val q Swe)) (x_val q' EtRef) (x_val q Rain)).
    destruct (et_step (crop_type c) (c_water c) sp clim (g_kmin cfg) kc hh (gt0 (x_val q Swe)) (x_val q' EtRef) (x_val q Rain) s) as [s1 o1] eqn:ES.
    destruct R as (HT2 & R1 & R2 & R3 & _).
    destruct (IH go q' s1 HR SO NQ') as (ws & W1 & W2).
    { rewrite (class_site _ _ _ SI), (class_site _ _ _ (proj1 BQ)). auto. }
    { rewrite CO by reflexivity. auto. }
    { destruct HS1 as (X1 & X2 & X3 & X4). repeat split; rewrite CO by reflexivity; auto. }
    { auto. }
    exists (w :: ws). split.
    { constructor; auto. cbn. exists q, q'. split; auto. split; auto. repeat split; auto. }
    cbn [et_run w w_clim w_kc w_h w_snow w_ref w_rain]. rewrite ES. destruct (et_run (crop_type c) (c_water c) sp (g_kmin cfg) ws s1) as [s2 os] eqn:ER.
    destruct W2 as (W2 & W3). split.
    { constructor; auto. cbn. exists q, q'. auto. }
    intros d0 gi0 go0 r X. destruct r as [|e r]; cbn in X.
    + injection X as -> -> -> ->. inversion W1; subst. cbn in ER. injection ER as <- <-. cbn. exists q, q'. auto.
    + injection X as _ ->. apply (W3 d0 gi0 go0 r). reflexivity.
Qed.
(** C102. Over any run, with any weather and any other contents of the variables that are reset, a pixel of an unsealed class with a soil texture
    follows the balance of one pixel that starts at field capacity. *)
Theorem c102_run : forall cfg classes order g0 g1 lcp h i p c t root depl, Permutation order (occurring classes g0) ->
  et_initialize cfg classes order g0 = Some (g1, lcp) -> history cfg classes lcp g1 h ->
  nth_error g0 i = Some p -> class_of classes p = Some c -> c_sealed c = false ->
  texture_of (x_tex p) = Some t -> c_root c = Some root -> c_depl c = Some depl ->
  let sp := soil_params t (g_depth cfg) root depl in
  exists ws, Forall2 (fun e w => at_pixel i e (seen cfg c (climate_correction (g_ws cfg) (g_rh cfg) (c_height c)) w)) h ws /\
    let '(s', os) := et_run (crop_type c) (c_water c) sp (g_kmin cfg) ws et_init in
    Forall2 (fun e o => at_pixel i e (fun _ _ p' => x_val p' Et = o_et o /\ x_val p' Dp = o_dp o /\ x_val p' Stress = o_ks o)) h os /\
    (forall d gi go r, h = r ++ [(d, gi, go)] -> at_pixel i (d, gi, go) (fun _ _ p' => holds_state p' s')).
Proof.
  intros cfg classes order g0 g1 lcp h i p c t root depl P E H NP CC SE T RT DT sp.
  pose proof (c102_initialize cfg classes order g0 g1 lcp P E) as F1. destruct (forall2_some _ _ _ _ _ F1 NP) as (q & NQ & PI).
  destruct PI as (SI & _ & _ & _ & _ & PI). rewrite CC in PI. destruct PI as (A & _ & _ & _ & B & _). destruct (B t root depl T RT DT) as (HS & HT).
  eapply (crop_history cfg classes order g0 g1 lcp); eauto.
  - eapply f2_impl; [|exact F1]. intros x y (X & _). exact X.
  - rewrite (class_site _ _ _ SI). auto.
Qed.
Print Assumptions c102_run.
(** C102. So the depletions of such a pixel stay within their limits, and the stress coefficient within 0 and 1. *)
Theorem c102_limits : forall cfg classes order g0 g1 lcp h i p c t root depl d gi go r, Permutation order (occurring classes g0) ->
  et_initialize cfg classes order g0 = Some (g1, lcp) -> history cfg classes lcp g1 h -> h = r ++ [(d, gi, go)] ->
  nth_error g0 i = Some p -> class_of classes p = Some c -> c_sealed c = false ->
  texture_of (x_tex p) = Some t -> c_root c = Some root -> c_depl c = Some depl ->
  let sp := soil_params t (g_depth cfg) root depl in
  let clim := climate_correction (g_ws cfg) (g_rh cfg) (c_height c) in
  sane sp -> (forall day kc hh, coeff_of cfg day c clim = Some (kc, hh) -> exposed_ok (crop_type c) clim (g_kmin cfg) kc hh) ->
  exists p', nth_error go i = Some p' /\
    (exists de, x_val p' De = Some de /\ 0 <= de <= s_tew sp) /\ (exists dr, x_val p' Dr = Some dr /\ 0 <= dr <= s_taw sp) /\
    (forall k, x_val p' Stress = Some k -> 0 <= k <= 1).
Proof.
  intros cfg classes order g0 g1 lcp h i p c t root depl d gi go r P E H HE NP CC SE T RT DT sp clim SA EX.
  destruct (c102_run cfg classes order g0 g1 lcp h i p c t root depl P E H NP CC SE T RT DT) as (ws & W1 & W2). fold sp in W2. fold clim in W1.
  assert (XS : Forall (fun w => exposed_ok (crop_type c) (w_clim w) (g_kmin cfg) (w_kc w) (w_h w)) ws).
  { clear - W1 EX. induction W1 as [|[[dd a] b] w h ws A _ IH]; constructor; auto. destruct A as (q & q' & _ & _ & S1 & S2 & _). rewrite S1. eapply EX; eauto. }
  pose proof (c37_run (crop_type c) (c_water c) sp (g_kmin cfg) ws SA XS) as (IR & KS).
  destruct (et_run (crop_type c) (c_water c) sp (g_kmin cfg) ws et_init) as [s' os]. cbn [fst snd] in *. destruct W2 as (W2 & W3).
  destruct (W3 d gi go r HE) as (q & q' & N1 & N2 & (D1 & D2 & D3)). exists q'. split; auto. destruct IR as (_ & (de & X1 & X2) & (dr & Y1 & Y2)).
  split; [exists de; rewrite D1; auto|]. split; [exists dr; rewrite D3; auto|].
  intros k SK. subst h. apply Forall2_app_inv_l in W2. destruct W2 as (o1 & o2 & _ & F2 & ->). inversion F2 as [|? o ? ? A B]; subst. inversion B; subst.
  apply Forall_app in KS. destruct KS as (_ & KS). inversion KS as [|? ? K1 _]; subst. destruct A as (z & z' & M1 & M2 & _ & _ & ST). apply K1. congruence.
Qed.
Print Assumptions c102_limits.
(** C102. A sealed pixel: interception, evaporation and runoff over any run. *)
Theorem c102_sealed_run : forall cfg classes order g0 g1 lcp h i p c, Permutation order (occurring classes g0) ->
  et_initialize cfg classes order g0 = Some (g1, lcp) -> history cfg classes lcp g1 h ->
  nth_error g0 i = Some p -> class_of classes p = Some c -> c_sealed c = true ->
  exists l : list (bool * num * num * R * R),
    Forall2 (fun e x => let '(snow, rain, pot, ev, ro) := x in at_pixel i e (fun _ p p' => snow = gt0 (x_val p Swe) /\ rain = x_val p Rain /\ pot = potential_of cfg c p' /\
                          x_val p' Evap = Some ev /\ x_val p' Et = Some ev /\ x_val p' Transp = Some 0 /\ x_val p' Dp = Some ro)) h l /\
    let '(fin, evap, runoff) := sealed_run (c_maxint c) (map (fun x => let '(snow, rain, pot, _, _) := x in (snow, rain, pot)) l) 0 in
    evap = sumR (map (fun x => snd (fst x)) l) /\ runoff = sumR (map snd l) /\
    (forall d gi go r, h = r ++ [(d, gi, go)] -> at_pixel i (d, gi, go) (fun _ _ p' => x_val p' Inter = Some fin)).
Proof.
  intros cfg classes order g0 g1 lcp h i p c P E H NP CC SE.
  pose proof (c102_initialize cfg classes order g0 g1 lcp P E) as F1. destruct (forall2_some _ _ _ _ _ F1 NP) as (q & NQ & PI).
  destruct PI as (SI & _ & _ & _ & _ & PI). rewrite CC in PI. destruct PI as (_ & _ & _ & IN & _). rewrite SE in IN.
  assert (S0 : Forall2 same_site g0 g1) by (eapply f2_impl; [|exact F1]; intros x y (X & _); exact X).
  assert (CQ : class_of classes q = Some c) by (rewrite (class_site _ _ _ SI); auto).
  clear F1 NP CC SI p. revert IN. generalize 0 at 1 3. revert g1 q E H NQ S0 CQ.
  intros g1 q E. remember g1 as g eqn:EG. rewrite EG in E. clear EG. revert g q.
  induction h as [|[[d gi] go] h IH]; intros g q H NQ S0 CQ i0 IN.
  - exists []. split; [constructor|]. cbn [map sealed_run]. rewrite !sumR_nil. split; auto. split; auto. intros d gi go r X. destruct r; discriminate.
  - inversion H as [|g' d' gi' go' r' BT ST HR]; subst. clear H.
    destruct (forall2_some _ _ _ _ _ BT NQ) as (u & NU & BU).
    assert (SG : Forall2 same_site g0 gi) by (eapply forall2_trans; [|exact S0|exact BT]; intros x y z A (B & _); eapply site_trans; eauto).
    destruct (step_site _ _ _ _ _ _ _ _ _ P E SG ST) as (F2 & SO).
    destruct (forall2_some _ _ _ _ _ F2 NU) as (u' & NU' & PU). destruct PU as (SI & _ & _ & _ & PX).
    rewrite (class_site _ _ _ (proj1 BU)), CQ, SE in PX. destruct PX as (_ & _ & PX).
    assert (IU : x_val u Inter = Some i0) by (rewrite (kept_pixel _ _ _ BU) by reflexivity; auto). specialize (PX i0 IU). unfold sealed_pixel_step in PX.
    destruct (sealed_step (c_maxint c) (gt0 (x_val u Swe)) (x_val u Rain) (potential_of cfg c u') i0) as [[i1 e1] ro1] eqn:SS.
    destruct PX as (P1 & P2 & P3 & P4 & P5).
    destruct (IH go u' HR NU' SO) with (r := i1) as (l & L1 & L2); auto.
    { rewrite (class_site _ _ _ SI), (class_site _ _ _ (proj1 BU)). auto. }
    exists ((gt0 (x_val u Swe), x_val u Rain, potential_of cfg c u', e1, ro1) :: l). split.
    { constructor; auto. cbn. exists u, u'. split; [exact NU|]. split; [exact NU'|]. repeat split; auto. }
    cbn [map sealed_run]. rewrite SS. destruct (sealed_run (c_maxint c) _ i1) as [[fin es] qs] eqn:SR. destruct L2 as (E1 & E2 & E3).
    rewrite !sumR_cons. cbn [fst snd]. split; [rewrite E1; auto|]. split; [rewrite E2; auto|].
    intros d0 gi0 go0 r X. destruct r as [|e r]; cbn in X.
    + injection X as -> -> -> ->. inversion L1; subst. cbn in SR. injection SR as <-. cbn. exists u, u'. auto.
    + injection X as _ ->. apply (E3 d0 gi0 go0 r). reflexivity.
Qed.
Print Assumptions c102_sealed_run.
(** A grid with a meadow on loam (class 3), a road (class 7), a class without parameters and a pixel outside of the region *)
Definition ex_meadow : lcpar := LP false true false (Some 0.4) (Single4 (20, 30, 60, 40)%nat) 100 0.4 1.05 0.85 0.3 true (Some 0.5) (Some 0.8) 0.
Definition ex_road : lcpar := LP true false false None (Single4 (20, 30, 60, 40)%nat) 100 0 0 0 0.1 false None None 2.
Definition ex_classes : list (Z * lcpar) := [(7, ex_road); (3, ex_meadow)]%Z.
Definition ex_cfg : etcfg := EC 0.15 2 45 0.1 0.23 0.96 0.15 0.95 10 2 3600 0.8.
Definition ex_grid : list xpix := [XP true 3 4 (fun _ => None); XP true 7 0 (fun _ => None); XP true 9 4 (fun _ => None); XP false 3 12 (fun _ => None)]%Z.
Example c102_example : exists g1 lcp h, Permutation [3; 7]%Z (occurring ex_classes ex_grid) /\ et_initialize ex_cfg ex_classes [3; 7]%Z ex_grid = Some (g1, lcp) /\
  history ex_cfg ex_classes lcp g1 h /\ h <> [] /\ class_of ex_classes (nth 0 ex_grid (XP false 0 0 (fun _ => None))) = Some ex_meadow /\ texture_of 4 = Some Loam /\
  sane (soil_params Loam (g_depth ex_cfg) 0.8 0.5) /\
  (forall day kc hh, coeff_of ex_cfg day ex_meadow (climate_correction 2 45 0.3) = Some (kc, hh) -> exposed_ok (crop_type ex_meadow) (climate_correction 2 45 0.3) 0.15 kc hh).
Proof.
  assert (P : Permutation [3; 7]%Z (occurring ex_classes ex_grid)) by apply Permutation_refl.
  assert (N : et_initialize ex_cfg ex_classes [3; 7]%Z ex_grid <> None).
  { rewrite c102_initialize_raises by exact P. intros (p & I & RO & L). cbn in I. destruct I as [<-|[<-|[<-|[<-|[]]]]]; cbn in RO, L; try discriminate; lia. }
  destruct (et_initialize ex_cfg ex_classes [3; 7]%Z ex_grid) as [[g1 lcp]|] eqn:E; [|congruence].
  assert (S0 : Forall2 same_site ex_grid g1) by (eapply f2_impl; [|exact (c102_initialize _ _ _ _ _ _ P E)]; intros x y (X & _); exact X).
  destruct (c102_step ex_cfg ex_classes _ _ _ _ (ED 150 0.3 true) g1 P E S0) as (g2 & E2 & _).
  exists g1, lcp, [(ED 150 0.3 true, g1, g2)]. split; [exact P|]. split; [reflexivity|]. split.
  { eapply h_cons; [|exact E2|constructor]. clear. induction g1; constructor; auto. split; [repeat split|auto]. }
  split; [discriminate|]. split; [reflexivity|]. split; [reflexivity|]. split.
  { unfold sane, soil_params. cbn. lra. }
  intros day kc hh _. cbn. lra.
Qed.
(** C102. A pixel without a soil texture has no balance: its evapotranspiration and percolation are missing, not zero (except for water bodies). *)
Theorem c102_no_texture : forall cfg classes order g0 g1 lcp d g g' i p p' c, Permutation order (occurring classes g0) ->
  et_initialize cfg classes order g0 = Some (g1, lcp) -> Forall2 same_site g0 g -> et_grid_step cfg classes lcp d g = Some g' ->
  nth_error g i = Some p -> nth_error g' i = Some p' -> class_of classes p = Some c -> c_sealed c = false -> c_water c = false ->
  x_val p Taw = None -> x_val p Dr = None ->
  x_val p' Taw = None /\ x_val p' Dr = None /\ x_val p' Dp = None /\ x_val p' Et = (if gt0 (x_val p Swe) then Some 0 else None).
Proof.
  intros cfg classes order g0 g1 lcp d g g' i p p' c P E S0 ST NP NP' CC SE WA TW DR.
  rewrite (step_some _ _ _ _ _ _ d g P E S0) in ST. injection ST as <-. rewrite nth_error_map, NP in NP'. injection NP' as <-.
  assert (RO : x_roi p = true) by (unfold class_of in CC; destruct (x_roi p); auto; discriminate).
  assert (PX : step_px cfg classes d p = class_px cfg d c (gt0 (x_val p Swe)) (ref_px cfg d (reset_px p))).
  { unfold step_px. rewrite RO. assert (F : frame p (ref_px cfg d (reset_px p))) by apply sw_ref. destruct F as (A & B & _). unfold cls. rewrite <- A, <- B.
    unfold class_of in CC. destruct (_ && _); [|discriminate]. rewrite CC. reflexivity. }
  rewrite PX. clear PX. split; [rewrite class_const by reflexivity; rewrite ref_keep by exact I; exact TW|].
  pose proof (ref_keep cfg d p) as QK. set (q := ref_px cfg d (reset_px p)) in *. clearbody q.
  assert (TQ : x_val q Taw = None) by (rewrite QK by exact I; auto). assert (DQ : x_val q Dr = None) by (rewrite QK by exact I; auto). clear QK.
  unfold class_px. rewrite SE, WA. cbv zeta. rewrite andb_true_r.
  set (q1 := coeff_px cfg d c q). assert (D1 : x_val q1 Dr = None) by (unfold q1, coeff_px; cbv zeta; destruct (c_dual c); vs; auto).
  assert (T1 : x_val q1 Taw = None) by (unfold q1, coeff_px; cbv zeta; destruct (c_dual c); vs; auto). clearbody q1.
  assert (FIN : forall r e, x_val r Dr = None -> x_val r Et = e -> x_val (root_px r) Dr = None /\ x_val (root_px r) Dp = None /\ x_val (root_px r) Et = e).
  { intros r e A B. unfold root_px. cbv zeta. vs. rewrite A, B. destruct e; cbn; auto. }
  destruct (gt0 (x_val p Swe)).
  - apply FIN; unfold snow_px; destruct (c_dual c); vs; auto.
  - set (q2 := crop_px cfg c q1). assert (D2 : x_val q2 Dr = None) by (unfold q2, crop_px, single_px; destruct (c_dual c); [rewrite dual_keep by exact I; auto|vs; auto]).
    assert (T2 : x_val q2 Taw = None) by (unfold q2, crop_px, single_px; destruct (c_dual c); [rewrite dual_keep by exact I; auto|vs; auto]). clearbody q2.
    destruct (adj_vals (c_dual c) (stress_px q2)) as (AE & _ & AK).
    assert (SV : x_val (stress_px q2) Stress = None) by (unfold stress_px; vs; rewrite T2; reflexivity).
    apply FIN; [rewrite AK by discriminate; unfold stress_px; vs; auto|]. rewrite AE, SV. destruct (c_dual c).
    + destruct (x_val (stress_px q2) Transp), (x_val (stress_px q2) Evap); reflexivity.
    + destruct (x_val (stress_px q2) Et); reflexivity.
Qed.
Print Assumptions c102_no_texture.
