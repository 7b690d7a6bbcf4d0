(** Theorems about the energy balance of the cryo layers on the whole grid (C100). *)
From Verif Require Import Common Constants AtmosphereModel SurfaceModel MeteoFieldsModel GridBalanceModel GridBalanceProofs CryoGridModel CryoGridProofs.
From Verif Require CryoModel GridBalanceTheorems.
Open Scope R_scope.

(** * Specification: the energy balance of one pixel *)
Definition melting (p : cgp) : bool := has_snow p && match air p with Some t => if Rle_dec T0 t then true else false | None => false end.
Definition freezing (p : cgp) : bool := has_snow p && match air p with Some t => if Rlt_dec t T0 then true else false | None => false end.
(** The surface takes the air temperature, at melting pixels that of melting snow. *)
Definition prepared (c : gcfg) (p : cgp) : cgp :=
  let e := calc_latent (calc_moisture (calc_sat_hum (set_ts (air p) (c_e p)))) in
  let e := set_heat (if has_snow p then Some (g_flux c) else None) (set_melt (Some 0) e) in
  CG (if melting p then set_ts (Some T0) e else e) (c_lay p) (Some 0) (if melting p then g_dt c else 0) None (c_lmt p) (c_av p).
(** Melt from above, then refreezing and cold content in the two layers of snow *)
Definition molten (c : gcfg) (p : cgp) : cgp := fold_left (fun q k => melt_pix c k (melting p) q) [0; 1; 2; 3]%nat (prepared c p).
Definition available (c : gcfg) (p : cgp) : cgp :=
  let q := if freezing p then rem_eb (g_dt c) (Some T0) (molten c p) else molten c p in
  with_av (fun p => nmap (fun e => Rmax (-1 * e * g_dt c / Lf * g_refr c) 0) (c_eb p)) q.
Definition refrozen (c : gcfg) (p : cgp) : cgp := fold_left (fun q k => refr_pix c k (freezing p) q) [0; 1]%nat (available c p).
(** Fluxes at the final surface temperature *)
Definition final_fluxes (c : gcfg) (p : cgp) : cgp := with_e (calc_advective (g_dt c)) (with_e (calc_turbulent true) (with_e calc_radiation p)).
Definition secant_finished (c : gcfg) (fuel : nat) (p : cgp) : bool := negb (freezing p) || is_some (secant_result (g_dt c) fuel (refrozen c p)).
Definition secant_balance (c : gcfg) (fuel : nat) (p : cgp) : cgp :=
  final_fluxes c (if freezing p then oget (refrozen c p) (secant_result (g_dt c) fuel (refrozen c p)) else refrozen c p).
(** The legacy iteration runs over the temperatures [temps]. *)
Definition legacy_balance (c : gcfg) (temps : list R) (p : cgp) : cgp :=
  final_fluxes c (legacy_pixel (g_dt c) (freezing p) temps (freezing p) (with_eb (Some 0) (refrozen c p))).

(** * The array program is the balance of every pixel on its own *)
Lemma before_nf c it roi g : let l := take g roi in
  cryo_grid c it roi g =
  obind (match it with
         | Secant fuel => iterate_secant (g_dt c) fuel (update g roi (refrozen c)) (expand roi (map freezing l))
         | Legacy => iterate_legacy (g_dt c) roi (update g roi (refrozen c)) (expand roi (map freezing l)) end)
    (fun g => Done (update (update (update g roi (with_e calc_radiation)) roi (with_e (calc_turbulent true))) roi (with_e (calc_advective (g_dt c))))).
Proof.
  intro l. unfold cryo_grid. cbv zeta.
  assert (TU : forall A' : cgp -> cgp, take (update g roi A') roi = map A' l) by (intros; apply take_upd).
  assert (UU : forall A' G : cgp -> cgp, update (update g roi A') roi G = update g roi (fun p => G (A' p))) by (intros; apply upd_upd).
  assert (UM : forall A' b G, update (update g roi A') (expand roi (map b l)) G = update g roi (fun p => if b p then G (A' p) else A' p)) by (intros; apply upd_mask).
  rewrite !TU, !map_map, !map2_map.
  change (fun x : cgp => has_snow (with_e (set_ts (air x)) x)) with has_snow.
  change (fun x : cgp => has_snow (with_e (set_ts (air x)) x) && nle (Some T0) (air (with_e (set_ts (air x)) x))) with melting.
  change (fun x : cgp => has_snow (with_e (set_ts (air x)) x) && nlt (air (with_e (set_ts (air x)) x)) (Some T0)) with freezing.
  rewrite !UU, !UM, !UU, !UM.
  match goal with |- context [fold_left _ _ (Done (update g roi ?X))] => set (F := X) end.
  assert (EF : forall p, F p = prepared c p).
  { intro p. unfold F, prepared. change (has_snow (with_e (set_ts (air p)) p)) with (has_snow p).
    destruct p as [e lay rf ti eb lm av]. destruct (has_snow _), (melting _); reflexivity. }
  rewrite (upd_ext0 F (prepared c) g roi EF). clearbody F. clear EF F.
  unfold l. rewrite melts_nf. fold l. cbn [obind].
  assert (CN : map (fun _ : nat => Some T0) (where_from 0 (expand roi (map freezing l))) = map (fun _ : cgp => Some T0) (filter freezing l)).
  { apply map_const. rewrite where_len. apply count_mask. }
  rewrite CN. unfold l. pose proof (remainder_nf (g_dt c) (molten c) freezing (fun _ => Some T0) g roi) as RN. cbv zeta in RN.
  match type of RN with ?L = _ => match goal with |- obind ?X _ = _ => change X with L end end. rewrite RN. clear RN. cbn [obind].
  rewrite (store_nf (fun p => if freezing p then rem_pix (g_dt c) (Some T0) (molten c p) else molten c p) freezing
    (fun p => remainder_value (c_e (rem_pix (g_dt c) (Some T0) (molten c p)))) g roi). rewrite upd_upd.
  match goal with |- context [fold_left _ _ (update g roi ?X)] => set (F := X) end.
  assert (EF : forall p, F p = available c p).
  { intro p. unfold F, available, rem_eb. destruct (freezing p); reflexivity. }
  rewrite (upd_ext0 F (available c) g roi EF). clearbody F. clear EF F.
  rewrite refreezes_nf. reflexivity.
Qed.
(** With the secant method, the balance finishes exactly if the iteration of every freezing pixel of the region does, no assignment has arrays
    of different sizes, and every pixel has the result of its own balance; pixels outside of the region keep their values. *)
Theorem c100_secant : forall c fuel roi g, length g = length roi ->
  match cryo_grid c (Secant fuel) roi g with
  | Done g' => length g' = length g /\ (forall i p, nth_error g i = Some p -> nth i roi false = true -> secant_finished c fuel p = true)
               /\ forall i p, nth_error g i = Some p -> nth_error g' i = Some (if nth i roi false then secant_balance c fuel p else p)
  | Unfinished => exists i p, nth_error g i = Some p /\ nth i roi false = true /\ secant_finished c fuel p = false
  | ShapeError => False
  end.
Proof.
  intros c fuel roi g L. rewrite before_nf. rewrite iterate_secant_nf by auto.
  change (fun p : cgp => negb (freezing p) || is_some (secant_result (g_dt c) fuel (refrozen c p))) with (secant_finished c fuel).
  assert (IN : forall p, In p (take g roi) <-> exists i, nth_error g i = Some p /\ nth i roi false = true).
  { clear. intro p. revert roi. induction g as [|x g IH]; intros [|b r]; cbn [take].
    - split; [intros []|intros ([|i] & E & _); discriminate].
    - split; [intros []|intros ([|i] & E & _); discriminate].
    - split; [intros []|intros ([|i] & _ & E); discriminate].
    - assert (R : (exists i, nth_error (x :: g) i = Some p /\ nth i (b :: r) false = true) <-> (b = true /\ x = p) \/ exists i, nth_error g i = Some p /\ nth i r false = true).
      { split.
        - intros ([|i] & E1 & E2); [left; cbn in *; injection E1 as ->; auto|right; exists i; auto].
        - intros [[-> ->]|(i & E1 & E2)]; [exists 0%nat; auto|exists (S i); auto]. }
      rewrite R, <- IH. destruct b; cbn [In]; [split; intros [H|H]; auto; destruct H; auto|]. split; [auto|intros [[H _]|H]; [discriminate|auto]]. }
  destruct (forallb (secant_finished c fuel) (take g roi)) eqn:FB; cbn [obind].
  - rewrite !upd_upd. split; [apply update_length|]. split.
    + intros i p E R. rewrite forallb_forall in FB. apply FB. apply IN. eauto.
    + intros i p E. rewrite (GridBalanceTheorems.update_nth _ g roi i p E). reflexivity.
  - assert (NA : exists p, In p (take g roi) /\ secant_finished c fuel p = false).
    { clear - FB. induction (take g roi) as [|x l IH]; [discriminate|]. cbn in FB. destruct (secant_finished c fuel x) eqn:E; [|exists x; cbn; auto].
      destruct (IH FB) as (p & I & E'). exists p. cbn. auto. }
    destruct NA as (p & I & E). apply IN in I. destruct I as (i & E1 & E2). eauto.
Qed.
Print Assumptions c100_secant.
(** With the legacy method it always finishes; the temperatures tried are those of the coldest freezing pixel of the region. *)
Definition coldest (g : list cgp) (roi : list bool) : R :=
  match map (fun p => nan_to_zero (air p)) (filter freezing (take g roi)) with [] => 0 | t :: ts => fold_right Rmin t ts end.
Lemma air_layer c k m p : air (melt_pix c k m p) = air p.
Proof.
  unfold melt_pix. cbv zeta.
  assert (E1 : air (melt_eb c k m p) = air p) by (unfold melt_eb; destruct (melt_possible k m p); reflexivity).
  assert (E2 : air (melt_timed c k m p) = air p) by (rewrite <- E1; unfold melt_timed; destruct (melt_here c k m p); reflexivity).
  set (q := melt_timed c k m p) in *. clearbody q. rewrite <- E2. clear E1 E2.
  assert (T : forall q b, air (if b : bool then melt_total k q else q) = air q) by (intros q' []; reflexivity).
  assert (P : forall q b, air (if b : bool then melt_partly k q else q) = air q) by (intros q' []; reflexivity).
  destruct m; [change (air (if melt_here c k true p && rle (c_time q) (c_lmt q) then melt_partly k (if melt_here c k true p && rlt (c_lmt q) (c_time q) then melt_total k q else q)
    else if melt_here c k true p && rlt (c_lmt q) (c_time q) then melt_total k q else q) = air q)|]; rewrite P, T; reflexivity.
Qed.
Lemma air_refr c k m p : air (refr_pix c k m p) = air p.
Proof. unfold refr_pix. destruct (refr_here k m p); destruct p as [[F]]; reflexivity. Qed.
Lemma air_refrozen c p : air (refrozen c p) = air p.
Proof.
  unfold refrozen, molten. cbn [fold_left]. rewrite !air_refr. transitivity (air (molten c p)).
  - unfold available. destruct (freezing p); destruct (molten c p) as [[F]]; reflexivity.
  - unfold molten. cbn [fold_left]. rewrite !air_layer. unfold prepared. cbv zeta. destruct p as [[F]]. destruct (melting _); reflexivity.
Qed.
(** What remains after the balance: surface, layers and refreezing, not the local arrays *)
Definition outputs (p : cgp) : epix * list clayer * num := (c_e p, c_lay p, c_refr p).
Theorem c100_legacy : forall c roi g, exists g', cryo_grid c Legacy roi g = Done g' /\ length g' = length g
  /\ forall i p, nth_error g i = Some p -> exists q, nth_error g' i = Some q
     /\ (nth i roi false = false -> q = p) /\ (nth i roi false = true -> outputs q = outputs (legacy_balance c (legacy_grid (coldest g roi)) p)).
Proof.
  intros c roi g. rewrite before_nf, iterate_legacy_nf. cbn [obind]. eexists. split; [reflexivity|]. rewrite !upd_upd. split; [apply update_length|].
  intros i p E. rewrite (GridBalanceTheorems.update_nth _ g roi i p E). eexists. split; [reflexivity|]. split; [intros ->; auto|]. intro R. rewrite R.
  unfold legacy_balance, final_fluxes.
  destruct (freezing p) eqn:FR.
  - assert (IN : In p (filter freezing (take g roi))).
    { apply filter_In. split; auto. clear FR. revert roi i E R. induction g as [|x g IH]; intros [|b r] [|i] E R; cbn in *; try discriminate.
      - injection E as ->. subst b. left. auto.
      - destruct b; [right|]; eapply IH; eauto. }
    assert (LOW : lowest_temp (update g roi (refrozen c)) (expand roi (map freezing (take g roi))) = coldest g roi).
    { unfold lowest_temp, coldest. rewrite take_mask, map_map.
      rewrite (map_ext (fun x => nan_to_zero (f_temp (ef (c_e (refrozen c x))))) (fun p => nan_to_zero (air p))); auto.
      intro q. f_equal. apply air_refrozen. }
    rewrite LOW. destruct (filter freezing (take g roi)); [contradiction|]. reflexivity.
  - assert (LP : forall ts q, legacy_pixel (g_dt c) false ts false q = q) by (induction ts as [|t ts IH]; intro q; cbn; auto).
    destruct (filter freezing (take g roi)); rewrite !LP; destruct (refrozen c p); reflexivity.
Qed.
Print Assumptions c100_legacy.

(** * Pixels with complete values *)
Notation complete := GridBalanceTheorems.complete.
Definition surf_ok (m : met) (s : surf) (ma lh : R) (hf : num) (t : num) (melt : R) (e : epix) : Prop :=
  ef e = complete m s /\ e_ts e = t /\ e_ma e = Some ma /\ e_lh e = Some lh /\ e_heat e = hf /\ e_melt e = Some melt.
Lemma rem_ok m s ma lh hf t mel dt t' p : surf_ok m s ma lh (Some hf) t mel (c_e p) ->
  surf_ok m s ma lh (Some hf) (Some t') mel (c_e (rem_pix dt (Some t') p))
  /\ remainder_value (c_e (rem_pix dt (Some t') p)) = Some (remainder m s dt ma lh hf t')
  /\ e_qsat (c_e (rem_pix dt (Some t') p)) = Some (sat_spec_hum m t').
Proof.
  intros (A & B & C & D & E & F). destruct p as [[F0 ts qs ma0 lh0 se mo la he ad me so lo ne] lay rf ti eb lm av].
  cbn [c_e ef e_ts e_ma e_lh e_heat e_melt] in *. subst. repeat split.
Qed.
Lemma set_nth_same {A} k (d : A) : forall l, set_nth k (nth k l d) l = l.
Proof. induction k as [|k IH]; intros [|x l]; cbn; auto. f_equal. auto. Qed.
Lemma set_nth_twice {A} k (v w : A) : forall l, set_nth k w (set_nth k v l) = set_nth k w l.
Proof. induction k as [|k IH]; intros [|x l]; cbn; auto. f_equal. auto. Qed.
Lemma nth_set_nth {A} k (v d : A) : forall l, (k < length l)%nat -> nth k (set_nth k v l) d = v.
Proof. induction k as [|k IH]; intros [|x l] H; cbn in *; try lia; auto. apply IH. lia. Qed.
Lemma melt_ok c m s ma lh hf mel q k : surf_ok m s ma lh (Some hf) (Some T0) mel (c_e q) -> (k < length (c_lay q))%nat ->
  let '(l', a, t') := CryoModel.eb_melt_layer (remainder m s (g_dt c) ma lh hf T0) (c_time q) (layer k q) in
  let q' := melt_pix c k true q in
  surf_ok m s ma lh (Some hf) (Some T0) (mel + a) (c_e q') /\ c_lay q' = set_nth k l' (c_lay q) /\ c_time q' = t' /\ c_refr q' = c_refr q.
Proof.
  intros OK K. unfold CryoModel.eb_melt_layer. set (eb := remainder m s (g_dt c) ma lh hf T0). set (l := layer k q).
  assert (TS : e_ts (c_e q) = Some T0) by apply OK.
  destruct (rem_ok m s ma lh hf (Some T0) mel (g_dt c) T0 q OK) as (OK1 & RV & _). fold eb in RV.
  assert (NOTHING : forall q1, melt_timed c k true q = with_lmt (fun _ => 0) q1 -> melt_here c k true q = false ->
    (q1 = q \/ q1 = rem_eb (g_dt c) (Some T0) q) ->
    let q' := melt_pix c k true q in
    surf_ok m s ma lh (Some hf) (Some T0) (mel + 0) (c_e q') /\ c_lay q' = set_nth k l (c_lay q) /\ c_time q' = c_time q /\ c_refr q' = c_refr q).
  { intros q1 E H D. unfold melt_pix. cbv zeta. rewrite E, H. cbn [andb]. rewrite Rplus_0_r. unfold l, layer. rewrite set_nth_same.
    destruct D as [->| ->]; (split; [assumption|]); split; auto; split; auto; cbn [with_time with_lmt c_time c_lmt rem_eb with_eb rem_pix with_e]; ring. }
  assert (PO : melt_possible k true q = rlt 0 (CryoModel.cth l) && rlt 0 (c_time q)) by reflexivity.
  destruct (melt_possible k true q) eqn:MP.
  2:{ assert (EB : melt_eb c k true q = q) by (unfold melt_eb; rewrite MP; auto).
      assert (H : melt_here c k true q = false) by (unfold melt_here; rewrite MP; auto).
      assert (MT : melt_timed c k true q = with_lmt (fun _ => 0) q) by (unfold melt_timed; rewrite H, EB; auto).
      specialize (NOTHING q MT H (or_introl eq_refl)). unfold rlt in PO. destruct (Rlt_dec 0 (CryoModel.cth l)); [|exact NOTHING]. destruct (Rlt_dec 0 (c_time q)); [discriminate|exact NOTHING]. }
  unfold rlt in PO. destruct (Rlt_dec 0 (CryoModel.cth l)); [|discriminate]. destruct (Rlt_dec 0 (c_time q)); [|discriminate].
  assert (EB : melt_eb c k true q = rem_eb (g_dt c) (Some T0) q) by (unfold melt_eb; rewrite MP, TS; auto).
  assert (EBV : c_eb (melt_eb c k true q) = Some eb) by (rewrite EB; exact RV).
  assert (H : melt_here c k true q = if Rlt_dec 0 eb then true else false).
  { unfold melt_here. rewrite MP, EBV. cbn [andb]. apply GridBalanceTheorems.nlt_some. }
  destruct (Rlt_dec 0 eb).
  2:{ apply (NOTHING (rem_eb (g_dt c) (Some T0) q)); auto. unfold melt_timed. rewrite H, EB. auto. }
  clear NOTHING. rewrite EB in EBV. set (mt := Lf * (CryoModel.cice l + CryoModel.ccold l) / eb).
  set (q1 := rem_eb (g_dt c) (Some T0) q) in *. assert (OK2 : surf_ok m s ma lh (Some hf) (Some T0) mel (c_e q1)) by exact OK1.
  assert (MT : melt_timed c k true q = CG (c_e q1) (c_lay q) (c_refr q) (c_time q) (Some eb) mt (c_av q1)).
  { unfold melt_timed. rewrite H, EB. unfold with_lmt at 1 2. cbn [c_e c_lay c_refr c_time c_eb c_av]. rewrite EBV. reflexivity. }
  unfold melt_pix. rewrite H, MT. cbn [andb c_lmt c_time]. unfold rlt, rle. set (e1 := c_e q1) in *. clearbody e1.
  assert (ADD : forall v, surf_ok m s ma lh (Some hf) (Some T0) (mel + v) (set_melt (nadd (e_melt e1) (Some v)) e1)).
  { intro v. destruct OK2 as (A & B & C & D & E & F). destruct e1 as [F0 ts0 qs0 ma0 lh0 se0 mo0 la0 he0 ad0 me0 so0 lo0 ne0].
    cbn [ef e_ts e_ma e_lh e_heat GridBalanceModel.e_melt] in *. subst. repeat split. }
  destruct (Rlt_dec mt (c_time q)) as [LT|GE].
  - destruct (Rle_dec (c_time q) mt); [lra|]. unfold melt_total, add_melt, with_layer, with_time, with_e, layer.
    cbn [c_e c_lay c_time c_lmt c_refr]. fold (layer k q). fold l. split; [apply ADD|]. auto.
  - destruct (Rle_dec (c_time q) mt); [|lra]. unfold melt_partly, add_melt, with_layer, with_time, with_e, layer.
    cbn [c_e c_lay c_time c_lmt c_refr c_eb nan_to_zero]. rewrite !nth_set_nth by auto. fold (layer k q). fold l. rewrite set_nth_twice.
    cbn [CryoModel.set_cold CryoModel.ccold CryoModel.cth CryoModel.cice CryoModel.clw CryoModel.cdens CryoModel.calb].
    split; [|auto]. replace (- Rmin (CryoModel.ccold l - eb * c_time q / Lf) 0) with (-1 * Rmin (CryoModel.ccold l - eb * c_time q / Lf) 0) by ring. apply ADD.
Qed.
Lemma layer_with k h p : (k < length (c_lay p))%nat -> layer k (with_layer k h p) = h (layer k p).
Proof. intro K. unfold layer at 1. cbn [with_layer c_lay]. apply nth_set_nth. exact K. Qed.
Lemma move_ok k a q : (k < length (c_lay q))%nat -> let l := layer k q in let q' := refr_move k a q in
  c_e q' = c_e q /\ c_lay q' = set_nth k (CryoModel.CL (CryoModel.cth l) (CryoModel.cice l + a) (CryoModel.clw l - a) (CryoModel.ccold l) (CryoModel.cdens l) (CryoModel.calb l)) (c_lay q)
  /\ c_refr q' = nadd (c_refr q) (Some a) /\ c_av q' = nsub (c_av q) (Some a) /\ c_eb q' = c_eb q.
Proof.
  intros K l q'. unfold q', refr_move. set (h1 := fun l0 => CryoModel.set_lw (CryoModel.clw l0 - a) l0). cbv zeta. set (p1 := with_layer k h1 q).
  assert (E1 : layer k p1 = h1 l) by (apply layer_with; exact K). assert (L1 : c_lay p1 = set_nth k (h1 l) (c_lay q)) by reflexivity.
  assert (R1 : c_e p1 = c_e q /\ c_refr p1 = c_refr q /\ c_av p1 = c_av q /\ c_eb p1 = c_eb q) by (repeat split). clearbody p1. destruct R1 as (A1 & A2 & A3 & A4).
  cbn [with_layer with_av with_refr c_e c_lay c_refr c_av c_eb]. rewrite A1, A2, A3, A4, L1, set_nth_twice, E1. repeat split.
Qed.
Lemma cool_ok k b q : let l := layer k q in let q' := refr_cool k b q in
  c_e q' = c_e q /\ c_lay q' = set_nth k (CryoModel.set_cold (CryoModel.ccold l + b) l) (c_lay q) /\ c_refr q' = c_refr q /\ c_av q' = nsub (c_av q) (Some b) /\ c_eb q' = c_eb q.
Proof. repeat split. Qed.
Lemma refr_ok c k q a : c_av q = Some a -> c_refr q <> None -> (k < length (c_lay q))%nat ->
  let '(l', r, a') := CryoModel.refreeze_layer (g_cap c) a (layer k q) in
  let q' := refr_pix c k true q in
  c_e q' = c_e q /\ c_lay q' = set_nth k l' (c_lay q) /\ c_refr q' = nadd (c_refr q) (Some r) /\ c_av q' = Some a' /\ c_eb q' = c_eb q.
Proof.
  intros A RF K. unfold CryoModel.refreeze_layer. set (l := layer k q).
  assert (H : refr_here k true q = (if Rlt_dec 0 (CryoModel.cth l) then true else false) && (if Rlt_dec 0 a then true else false)).
  { unfold refr_here. rewrite A. cbn [andb]. fold l. rewrite GridBalanceTheorems.nlt_some. reflexivity. }
  assert (NO : refr_here k true q = false -> let q' := refr_pix c k true q in
    c_e q' = c_e q /\ c_lay q' = set_nth k l (c_lay q) /\ c_refr q' = nadd (c_refr q) (Some 0) /\ c_av q' = Some a /\ c_eb q' = c_eb q).
  { intro N. unfold refr_pix. rewrite N. unfold l, layer. rewrite set_nth_same. repeat split; auto.
    destruct (c_refr q) as [r|]; [cbn; rewrite Rplus_0_r; auto|contradiction]. }
  destruct (Rlt_dec 0 (CryoModel.cth l)); [|apply NO; auto]. destruct (Rlt_dec 0 a); [|apply NO; auto]. clear NO.
  unfold refr_pix. rewrite H. cbn [andb]. unfold refr_amount. rewrite A. cbn [nan_to_zero]. fold l. set (rr := Rmin (CryoModel.clw l) a). cbv zeta.
  destruct (move_ok k rr q K) as (M1 & M2 & M3 & M4 & M5). fold l in M2. set (q1 := refr_move k rr q) in *. clearbody q1. rewrite A in M4. unfold nsub, nmap2 in M4.
  assert (L1 : layer k q1 = CryoModel.CL (CryoModel.cth l) (CryoModel.cice l + rr) (CryoModel.clw l - rr) (CryoModel.ccold l) (CryoModel.cdens l) (CryoModel.calb l)).
  { unfold layer. rewrite M2. apply nth_set_nth. exact K. }
  unfold refr_buildup. rewrite L1, M4. cbn [nan_to_zero CryoModel.cice CryoModel.clw CryoModel.ccold]. set (b := Rmin (a - rr) _).
  destruct (cool_ok k b q1) as (N1 & N2 & N3 & N4 & N5). rewrite N1, N2, N3, N4, N5, M1, M2, M3, M4, M5, L1, set_nth_twice. repeat split.
Qed.
Lemma snow_complete m s p : ef (c_e p) = complete m s -> has_snow p = if Rlt_dec 0 (s_swe s) then true else false.
Proof. intro E. unfold has_snow. rewrite E. apply GridBalanceTheorems.nlt_some. Qed.
Lemma air_complete m s p : ef (c_e p) = complete m s -> air p = Some (m_temp m).
Proof. intro E. unfold air. rewrite E. reflexivity. Qed.
Definition ma0 (m : met) (s : surf) : R := moisture_availability m s (sat_spec_hum m (m_temp m)).
Definition lh0 (m : met) (s : surf) : R := latent_heat m s (m_temp m).
Lemma prepared_ok c m s p : ef (c_e p) = complete m s ->
  surf_ok m s (ma0 m s) (lh0 m s) (if has_snow p then Some (g_flux c) else None) (Some (if melting p then T0 else m_temp m)) 0 (c_e (prepared c p))
  /\ c_lay (prepared c p) = c_lay p /\ c_refr (prepared c p) = Some 0 /\ c_time (prepared c p) = (if melting p then g_dt c else 0) /\ c_eb (prepared c p) = None
  /\ e_qsat (c_e (prepared c p)) = Some (sat_spec_hum m (m_temp m)).
Proof.
  intro E. pose proof (air_complete m s p E) as A. unfold prepared. rewrite A. destruct p as [[F ts qs ma lh se mo la he ad me so lo ne] lay rf ti eb lm av].
  cbn [c_e ef] in E. subst F. cbv zeta. cbn [c_e].
  assert (EQ : calc_latent (calc_moisture (calc_sat_hum (set_ts (Some (m_temp m)) (EP (complete m s) ts qs ma lh se mo la he ad me so lo ne))))
    = EP (complete m s) (Some (m_temp m)) (Some (sat_spec_hum m (m_temp m))) (Some (ma0 m s)) (Some (lh0 m s)) se mo la he ad me so lo ne).
  { change (set_ts (Some (m_temp m)) (EP (complete m s) ts qs ma lh se mo la he ad me so lo ne)) with (EP (complete m s) (Some (m_temp m)) qs ma lh se mo la he ad me so lo ne).
    rewrite GridBalanceTheorems.sat_complete, GridBalanceTheorems.ma_complete, GridBalanceTheorems.lh_complete. reflexivity. }
  rewrite EQ.
  destruct (has_snow _), (melting _); repeat split.
Qed.
Lemma melt_off c k p : c_e (melt_pix c k false p) = c_e p /\ c_lay (melt_pix c k false p) = c_lay p /\ c_refr (melt_pix c k false p) = c_refr p /\ c_eb (melt_pix c k false p) = c_eb p.
Proof. repeat split. Qed.
Lemma set_nth_length {A} k (v : A) : forall l, length (set_nth k v l) = length l.
Proof. induction k as [|k IH]; intros [|x l]; cbn; auto. Qed.
Lemma melt_qsat c k m p : e_qsat (c_e (melt_pix c k m p)) = e_qsat (c_e (melt_eb c k m p)).
Proof.
  unfold melt_pix. cbv zeta. set (q := melt_timed c k m p). assert (E : c_e q = c_e (melt_eb c k m p)) by (unfold q, melt_timed; destruct (melt_here c k m p); reflexivity).
  rewrite <- E. clearbody q. destruct (melt_here c k m p && rlt (c_lmt q) (c_time q)), (melt_here c k m p && rle (c_time q) (c_lmt q)), m; reflexivity.
Qed.
Lemma refr_off c k p : refr_pix c k false p = p. Proof. reflexivity. Qed.
(** What is known after melt and refreezing: the surface at [t] *)
Definition stage (c : gcfg) (m : met) (s : surf) (hf t : num) (lays : list clayer) (melt refr : R) (q : cgp) : Prop :=
  surf_ok m s (ma0 m s) (lh0 m s) hf t melt (c_e q) /\ c_lay q = lays /\ c_refr q = Some refr.
Lemma refrozen_ok c m s p cp cc : ef (c_e p) = complete m s -> c_lay p = CryoModel.lays cp -> s_swe s = CryoModel.tot_ice cp + CryoModel.tot_lw cp ->
  CryoModel.cc_dt cc = g_dt c -> CryoModel.cold_cap cc = g_cap c -> CryoModel.refr_factor cc = g_refr c ->
  let '(cp', melt, refr) := CryoModel.cryo_energy_balance cc (Some (m_temp m)) (remainder m s (g_dt c) (ma0 m s) (lh0 m s) (g_flux c) T0) cp in
  stage c m s (if has_snow p then Some (g_flux c) else None) (Some (if has_snow p then T0 else m_temp m)) (CryoModel.lays cp') melt refr (refrozen c p).
Proof.
  intros E L SW DT CAP RF. unfold CryoModel.cryo_energy_balance. rewrite <- SW.
  pose proof (prepared_ok c m s p E) as (OK & PL & PR & PT & PE & PQ).
  pose proof (snow_complete m s p E) as HS. pose proof (air_complete m s p E) as AI.
  assert (ME : melting p = has_snow p && (if Rle_dec T0 (m_temp m) then true else false)) by (unfold melting; rewrite AI; reflexivity).
  assert (FR : freezing p = has_snow p && (if Rlt_dec (m_temp m) T0 then true else false)) by (unfold freezing; rewrite AI; reflexivity).
  unfold refrozen, available, molten. rewrite ME, FR in *. rewrite HS in *. clear HS ME FR.
  set (eb := remainder m s (g_dt c) (ma0 m s) (lh0 m s) (g_flux c) T0) in *. set (q0 := prepared c p) in *. clearbody q0.
  destruct (Rlt_dec 0 (s_swe s)) as [SN|NS]; cbn [andb] in *.
  - destruct (Rle_dec T0 (m_temp m)) as [W|C].
    + destruct (Rlt_dec (m_temp m) T0); [lra|]. cbn [fold_left]. rewrite !refr_off.
      unfold CryoModel.eb_melt. rewrite DT. rewrite L in PL.
      assert (LEN : length (c_lay q0) = 4%nat) by (rewrite PL; reflexivity).
      destruct (CryoModel.eb_melt_layer eb (g_dt c) (CryoModel.l_new cp)) as [[n' m1] t1] eqn:E1.
      pose proof (melt_ok c m s _ _ _ _ q0 0 OK ltac:(lia)) as M1. fold eb in M1. rewrite PT in M1. unfold layer in M1. rewrite PL in M1.
      cbn [CryoModel.lays nth] in M1. rewrite E1 in M1. cbv zeta in M1. destruct M1 as (OK1 & L1 & T1 & R1). set (q1 := melt_pix c 0 true q0) in *. clearbody q1.
      cbn [set_nth] in L1.
      destruct (CryoModel.eb_melt_layer eb t1 (CryoModel.l_old cp)) as [[o' m2] t2] eqn:E2.
      pose proof (melt_ok c m s _ _ _ _ q1 1 OK1 ltac:(rewrite L1; cbn; lia)) as M2. fold eb in M2. rewrite T1 in M2. unfold layer in M2. rewrite L1 in M2.
      cbn [CryoModel.lays nth] in M2. rewrite E2 in M2. cbv zeta in M2. destruct M2 as (OK2 & L2 & T2 & R2). set (q2 := melt_pix c 1 true q1) in *. clearbody q2.
      cbn [set_nth] in L2.
      destruct (CryoModel.eb_melt_layer eb t2 (CryoModel.l_firn cp)) as [[f' m3] t3] eqn:E3.
      pose proof (melt_ok c m s _ _ _ _ q2 2 OK2 ltac:(rewrite L2; cbn; lia)) as M3. fold eb in M3. rewrite T2 in M3. unfold layer in M3. rewrite L2 in M3.
      cbn [CryoModel.lays nth] in M3. rewrite E3 in M3. cbv zeta in M3. destruct M3 as (OK3 & L3 & T3 & R3). set (q3 := melt_pix c 2 true q2) in *. clearbody q3.
      cbn [set_nth] in L3.
      destruct (CryoModel.eb_melt_layer eb t3 (CryoModel.l_ice cp)) as [[i' m4] t4] eqn:E4.
      pose proof (melt_ok c m s _ _ _ _ q3 3 OK3 ltac:(rewrite L3; cbn; lia)) as M4. fold eb in M4. rewrite T3 in M4. unfold layer in M4. rewrite L3 in M4.
      cbn [CryoModel.lays nth] in M4. rewrite E4 in M4. cbv zeta in M4. destruct M4 as (OK4 & L4 & T4 & R4). set (q4 := melt_pix c 3 true q3) in *. clearbody q4.
      cbn [set_nth] in L4. cbn [CryoModel.lays CryoModel.l_new CryoModel.l_old CryoModel.l_firn CryoModel.l_ice].
      split; [|split; [exact L4|cbn; congruence]]. rewrite Rplus_0_l in OK4. exact OK4.
    + destruct (Rlt_dec (m_temp m) T0); [|lra]. cbn [fold_left].
      set (q1 := melt_pix c 3 false (melt_pix c 2 false (melt_pix c 1 false (melt_pix c 0 false q0)))).
      assert (OK1 : surf_ok m s (ma0 m s) (lh0 m s) (Some (g_flux c)) (Some (m_temp m)) 0 (c_e q1)) by exact OK.
      assert (L1 : c_lay q1 = CryoModel.lays cp) by (rewrite <- L, <- PL; reflexivity).
      assert (R1 : c_refr q1 = Some 0) by exact PR. clearbody q1.
      destruct (rem_ok m s _ _ (g_flux c) _ _ (g_dt c) T0 q1 OK1) as (OK2 & RV & _). fold eb in RV.
      set (q2 := with_av (fun p => nmap (fun e => Rmax (-1 * e * g_dt c / Lf * g_refr c) 0) (c_eb p)) (rem_eb (g_dt c) (Some T0) q1)).
      assert (A2 : c_av q2 = Some (CryoModel.avail_cc cc eb)).
      { unfold q2, CryoModel.avail_cc. rewrite DT, RF. change (c_av (with_av ?f ?x)) with (f x). cbv beta. change (c_eb (rem_eb (g_dt c) (Some T0) q1)) with (remainder_value (c_e (rem_pix (g_dt c) (Some T0) q1))).
        rewrite RV. reflexivity. }
      assert (E2 : surf_ok m s (ma0 m s) (lh0 m s) (Some (g_flux c)) (Some T0) 0 (c_e q2)) by exact OK2.
      assert (L2 : c_lay q2 = CryoModel.lays cp) by (rewrite <- L1; reflexivity).
      assert (R2 : c_refr q2 = Some 0) by (rewrite <- R1; reflexivity).
      change (with_av (fun p0 : cgp => nmap (fun e : R => Rmax (-1 * e * g_dt c / Lf * g_refr c) 0) (c_eb p0)) (rem_eb (g_dt c) (Some T0) q1)) with q2.
      clearbody q2. unfold CryoModel.eb_refreeze. rewrite CAP.
      destruct (CryoModel.refreeze_layer (g_cap c) (CryoModel.avail_cc cc eb) (CryoModel.l_new cp)) as [[n' r1] a1] eqn:F1.
      pose proof (refr_ok c 0 q2 _ A2 ltac:(rewrite R2; discriminate) ltac:(rewrite L2; cbn; lia)) as M1. unfold layer in M1. rewrite L2 in M1.
      cbn [CryoModel.lays nth] in M1. rewrite F1 in M1. cbv zeta in M1. destruct M1 as (G1 & H1 & I1 & J1 & _). set (q3 := refr_pix c 0 true q2) in *. clearbody q3.
      cbn [set_nth] in H1. rewrite R2 in I1. cbn [nadd nmap2] in I1.
      destruct (CryoModel.refreeze_layer (g_cap c) a1 (CryoModel.l_old cp)) as [[o' r2] a2] eqn:F2.
      pose proof (refr_ok c 1 q3 _ J1 ltac:(rewrite I1; discriminate) ltac:(rewrite H1; cbn; lia)) as M2. unfold layer in M2. rewrite H1 in M2.
      cbn [CryoModel.lays nth] in M2. rewrite F2 in M2. cbv zeta in M2. destruct M2 as (G2 & H2 & I2 & J2 & _). set (q4 := refr_pix c 1 true q3) in *. clearbody q4.
      cbn [set_nth] in H2. rewrite I1 in I2. cbn [CryoModel.lays CryoModel.l_new CryoModel.l_old CryoModel.l_firn CryoModel.l_ice].
      split; [rewrite G2, G1; exact E2|]. split; [exact H2|]. rewrite I2. unfold nadd, nmap2. f_equal. ring.
  - cbn [fold_left]. rewrite !refr_off. split; [exact OK|]. split; [rewrite <- L, <- PL; reflexivity|exact PR].
Qed.
Lemma with_lay_kept dt t p : c_lay (rem_pix dt t p) = c_lay p /\ c_refr (rem_pix dt t p) = c_refr p. Proof. split; reflexivity. Qed.
Lemma secant_ok dt m s ma lh hf mel fuel : let f := remainder m s dt ma lh hf in forall q,
  surf_ok m s ma lh (Some hf) (Some (q_x1 q)) mel (c_e (q_p q)) -> e_qsat (c_e (q_p q)) = Some (sat_spec_hum m (q_x1 q)) ->
  q_y0 q = Some (f (q_x0 q)) -> q_y1 q = Some (f (q_x1 q)) ->
  match secant f fuel (q_x0 q) (q_x1 q), cryo_secant dt fuel q with
  | Some (Some x), Some p' => surf_ok m s ma lh (Some hf) (Some x) mel (c_e p') /\ e_qsat (c_e p') = Some (sat_spec_hum m x)
                              /\ c_lay p' = c_lay (q_p q) /\ c_refr p' = c_refr (q_p q)
  | None, None => True
  | Some None, _ => True
  | _, _ => False
  end.
Proof.
  intro f. induction fuel as [|fuel IH]; intros q OK QS Y0 Y1; [exact I|].
  cbn [secant]. unfold cryo_secant. cbn [secant_pixel]. 
  assert (D : sq_d q = if Req_EM_T (f (q_x1 q)) (f (q_x0 q)) then None else Some ((q_x1 q - q_x0 q) / (f (q_x1 q) - f (q_x0 q)) * f (q_x1 q))).
  { unfold sq_d, secant_step. rewrite Y0, Y1. reflexivity. }
  rewrite D. destruct (Req_EM_T (f (q_x1 q)) (f (q_x0 q))) as [EQ|NE].
  - exact I.
  - cbv zeta. set (d := (q_x1 q - q_x0 q) / (f (q_x1 q) - f (q_x0 q)) * f (q_x1 q)) in *.
    unfold beyond. destruct (Rlt_dec secant_tol (Rabs d)) as [GT|LE]; [|split; auto].
    assert (MS : minus_step (q_x1 q) (sq_d q) = q_x1 q - d) by (rewrite D; reflexivity).
    pose proof (rem_ok m s ma lh hf _ _ dt (q_x1 q - d) (q_p q) OK) as (OK' & RV & QS').
    specialize (IH (sq_next (fun x => rem_pix dt (Some x)) (fun p => remainder_value (c_e p)) q)).
    unfold sq_next in IH. cbn [q_x0 q_x1 q_y0 q_y1 q_p] in IH. rewrite MS in IH. specialize (IH OK' QS' Y1 RV).
    unfold sq_next. rewrite MS. exact IH.
Qed.

Lemma legacy_ok dt m s ma lh hf mel : let f := remainder m s dt ma lh hf in forall grid t p,
  surf_ok m s ma lh (Some hf) (Some t) mel (c_e p) ->
  let p' := legacy_pixel dt true grid true p in
  surf_ok m s ma lh (Some hf) (Some (legacy_walk f t grid)) mel (c_e p')
  /\ (e_qsat (c_e p) = Some (sat_spec_hum m t) -> e_qsat (c_e p') = Some (sat_spec_hum m (legacy_walk f t grid)))
  /\ c_lay p' = c_lay p /\ c_refr p' = c_refr p.
Proof.
  intros f. assert (STOP : forall grid x p, c_eb p = Some x -> ~ x < 0 -> legacy_pixel dt true grid false p = p).
  { induction grid as [|t ts IH]; intros x p E N; [reflexivity|]. cbn [legacy_pixel]. cbv zeta. rewrite E, GridBalanceTheorems.nlt_some.
    destruct (Rlt_dec x 0); [contradiction|]. cbn [andb]. eauto. }
  induction grid as [|g gs IH]; intros t p OK; cbv zeta; [cbn; auto|].
  cbn [legacy_pixel legacy_walk]. cbv zeta. pose proof (rem_ok m s ma lh hf _ _ dt g p OK) as (OK' & RV & QS').
  set (p1 := rem_eb dt (Some g) p). assert (EB : c_eb p1 = Some (f g)) by exact RV. 
  assert (OK1 : surf_ok m s ma lh (Some hf) (Some g) mel (c_e p1)) by exact OK'.
  assert (Q1 : e_qsat (c_e p1) = Some (sat_spec_hum m g)) by exact QS'.
  assert (L1 : c_lay p1 = c_lay p /\ c_refr p1 = c_refr p) by (split; reflexivity). clearbody p1.
  rewrite EB, GridBalanceTheorems.nlt_some. destruct (Rlt_dec (f g) 0); cbn [andb].
  - specialize (IH g p1 OK1). cbv zeta in IH. destruct IH as (A & B & C & D). destruct L1 as (L1 & R1). rewrite C, D, L1, R1. auto.
  - rewrite (STOP gs (f g) p1) by auto. destruct L1 as (L1 & R1). rewrite L1, R1. auto.
Qed.
Lemma melts_qsat c m s ma lh hf : let Q q := e_qsat (c_e q) = Some (sat_spec_hum m T0) in
  forall ks q mel, surf_ok m s ma lh (Some hf) (Some T0) mel (c_e q) -> Forall (fun k => (k < length (c_lay q))%nat) ks ->
  (Q q \/ (0 < c_time q /\ exists k, In k ks /\ 0 < CryoModel.cth (layer k q))) -> Q (fold_left (fun q k => melt_pix c k true q) ks q).
Proof.
  intro Q. induction ks as [|k ks IH]; intros q mel OK K D.
  - destruct D as [D|(_ & k & [] & _)]. exact D.
  - cbn [fold_left]. pose proof (Forall_inv K) as K0. apply Forall_inv_tail in K.
    pose proof (melt_ok c m s ma lh hf mel q k OK K0) as M. 
    destruct (CryoModel.eb_melt_layer _ _ _) as [[l' a] t'] eqn:E. cbv zeta in M. destruct M as (OK' & L' & T' & _).
    assert (Q' : (Q q \/ (0 < c_time q /\ 0 < CryoModel.cth (layer k q))) -> Q (melt_pix c k true q)).
    { intro D'. unfold Q. rewrite melt_qsat. unfold melt_eb. destruct (melt_possible k true q) eqn:MP.
      - destruct OK as (A & B & C). rewrite B. destruct (rem_ok m s ma lh hf (Some T0) mel (g_dt c) T0 q) as (_ & _ & X); [split; auto|exact X].
      - destruct D' as [D'|[D1 D2]]; [exact D'|]. unfold melt_possible, rlt in MP. destruct (Rlt_dec 0 (CryoModel.cth (layer k q))); [|contradiction].
        destruct (Rlt_dec 0 (c_time q)); [discriminate|contradiction]. }
    eapply IH; [exact OK'| |].
    + rewrite L'. rewrite set_nth_length. exact K.
    + destruct D as [D|(D & j & [->|I] & TH)]; [left; auto|left; auto|].
      destruct (Rlt_dec 0 (CryoModel.cth (layer k q))) as [TK|NT]; [left; auto|]. right.
      unfold CryoModel.eb_melt_layer in E. destruct (Rlt_dec 0 (CryoModel.cth (layer k q))); [contradiction|]. injection E as <- <- <-.
      rewrite T'. split; [exact D|]. exists j. split; [exact I|]. unfold layer. rewrite L'. unfold layer at 1. rewrite set_nth_same. exact TH.
Qed.
Lemma melt_time_stop c k f p : c_e (refr_pix c k f p) = c_e p.
Proof. unfold refr_pix. destruct (refr_here k f p); reflexivity. Qed.
(** A pixel whose inputs are all known gets the melt, refreezing and layers of the balance of a single pixel. Without snow the surface has the
    air temperature; melting snow has the melting point; freezing snow has the temperature found by the iteration. All fluxes are those at the
    surface temperature, except that the moisture flux of freezing snow belongs to the temperature before it is limited to the melting point. *)
Definition fluxes_at (m : met) (s : surf) (dt ts qs : R) (q : cgp) : Prop :=
  let mf := moist_flux m s (ma0 m s) qs in
  e_ts (c_e q) = Some ts /\ e_net (c_e q) = Some (net_radiation m s ts) /\ e_sens (c_e q) = Some (sens_flux m s ts)
  /\ e_moist (c_e q) = Some mf /\ e_latf (c_e q) = Some (lh0 m s * mf) /\ e_adv (c_e q) = Some (advective m dt ts).
Theorem c100_complete : forall c m s p cp cc fuel temps, ef (c_e p) = complete m s -> c_lay p = CryoModel.lays cp ->
  s_swe s = CryoModel.tot_ice cp + CryoModel.tot_lw cp ->
  CryoModel.cc_dt cc = g_dt c -> CryoModel.cold_cap cc = g_cap c -> CryoModel.refr_factor cc = g_refr c ->
  let f := remainder m s (g_dt c) (ma0 m s) (lh0 m s) (g_flux c) in
  let '(cp', melt, refr) := CryoModel.cryo_energy_balance cc (Some (m_temp m)) (f T0) cp in
  let result q ts qs := c_lay q = CryoModel.lays cp' /\ e_melt (c_e q) = Some melt /\ c_refr q = Some refr /\ fluxes_at m s (g_dt c) ts qs q in
  (s_swe s <= 0 -> let t := m_temp m in
     result (secant_balance c fuel p) t (sat_spec_hum m t) /\ result (legacy_balance c temps p) t (sat_spec_hum m t))
  /\ (0 < s_swe s -> T0 <= m_temp m -> 0 < g_dt c -> Exists (fun l => 0 < CryoModel.cth l) (c_lay p) ->
     result (secant_balance c fuel p) T0 (sat_spec_hum m T0) /\ result (legacy_balance c temps p) T0 (sat_spec_hum m T0))
  /\ (0 < s_swe s -> m_temp m < T0 ->
     match secant f fuel (T0 - 10) T0 with
     | Some (Some x) => secant_finished c fuel p = true /\ result (secant_balance c fuel p) (Rmin x T0) (sat_spec_hum m x)
     | Some None => True
     | None => secant_finished c fuel p = false
     end
     /\ let t := legacy_walk f T0 temps in result (legacy_balance c temps p) t (sat_spec_hum m t)).
Proof.
  intros c m s p cp cc fuel temps E L SW DT CAP RF f. pose proof (refrozen_ok c m s p cp cc E L SW DT CAP RF) as RO. fold f in RO.
  destruct (CryoModel.cryo_energy_balance cc (Some (m_temp m)) (f T0) cp) as [[cp' melt] refr]. destruct RO as (OK & RL & RR). cbv zeta.
  set (result := fun q ts qs => c_lay q = CryoModel.lays cp' /\ e_melt (c_e q) = Some melt /\ c_refr q = Some refr /\ fluxes_at m s (g_dt c) ts qs q).
  pose proof (snow_complete m s p E) as HS. pose proof (air_complete m s p E) as AI. pose proof (prepared_ok c m s p E) as (POK & PL & PR & PT & PE & PQ).
  assert (FIN : forall q hf ts qs, surf_ok m s (ma0 m s) (lh0 m s) hf (Some ts) melt (c_e q) -> e_qsat (c_e q) = Some qs -> c_lay q = CryoModel.lays cp' -> c_refr q = Some refr ->
    result (final_fluxes c q) ts qs).
  { intros q hf ts qs (A1 & A2 & A3 & A4 & A5 & A6) B1 B2 B3. destruct q as [[F0 ts0 qs0 maa lhh se0 mo0 la0 he0 ad0 me0 so0 lo0 ne0] lay rf ti eb lm av].
    cbn [c_e ef e_ts e_ma e_lh e_heat GridBalanceModel.e_melt e_qsat c_lay c_refr] in *. subst. unfold result, fluxes_at. repeat split. }
  assert (LP : forall q, legacy_pixel (g_dt c) false temps false q = q) by (clear; induction temps as [|t ts IH]; intro q; cbn; auto).
  assert (CALM : forall ts qs, freezing p = false -> e_ts (c_e (refrozen c p)) = Some ts -> e_qsat (c_e (refrozen c p)) = Some qs ->
    result (secant_balance c fuel p) ts qs /\ result (legacy_balance c temps p) ts qs).
  { intros ts qs FR T Q. unfold secant_balance, legacy_balance. rewrite FR, LP.
    assert (OK' : surf_ok m s (ma0 m s) (lh0 m s) (if has_snow p then Some (g_flux c) else None) (Some ts) melt (c_e (refrozen c p))).
    { destruct OK as (A1 & A2 & A3). split; [|split]; auto. }
    split; eapply FIN; eauto. }
  assert (RQ : freezing p = false -> e_qsat (c_e (refrozen c p)) = e_qsat (c_e (molten c p))).
  { intro FR. unfold refrozen, available. rewrite FR. cbn [fold_left]. rewrite !refr_off. reflexivity. }
  split; [|split].
  - intro NS. assert (HF : has_snow p = false) by (rewrite HS; destruct (Rlt_dec 0 (s_swe s)); [lra|auto]).
    assert (FR : freezing p = false) by (unfold freezing; rewrite HF; auto). assert (ME : melting p = false) by (unfold melting; rewrite HF; auto).
    apply CALM; [auto| |].
    + destruct OK as (_ & T & _). rewrite HF in T. exact T.
    + rewrite RQ by auto. unfold molten. rewrite ME. cbn [fold_left]. exact PQ.
  - intros SN W D TH. assert (HT : has_snow p = true) by (rewrite HS; destruct (Rlt_dec 0 (s_swe s)); [auto|lra]).
    assert (FR : freezing p = false) by (unfold freezing; rewrite HT, AI; cbn [andb]; destruct (Rlt_dec (m_temp m) T0); [lra|auto]).
    assert (ME : melting p = true) by (unfold melting; rewrite HT, AI; cbn; destruct (Rle_dec T0 (m_temp m)); [auto|contradiction]).
    apply CALM; [auto| |].
    + destruct OK as (_ & T & _). rewrite HT in T. exact T.
    + rewrite RQ by auto. unfold molten. rewrite ME in *. rewrite HT in POK.
      assert (LEN : length (c_lay (prepared c p)) = 4%nat) by (rewrite PL, L; reflexivity).
      apply (melts_qsat c m s _ _ _ [0; 1; 2; 3]%nat (prepared c p) 0 POK); [rewrite LEN; repeat (apply Forall_cons; [lia|]); apply Forall_nil|]. right. rewrite PT. split; [exact D|].
      rewrite L in TH. unfold layer. rewrite PL, L. apply Exists_exists in TH. destruct TH as (l & I & TH). cbn [CryoModel.lays In] in I.
      destruct I as [<-|[<-|[<-|[<-|[]]]]]; [exists 0%nat|exists 1%nat|exists 2%nat|exists 3%nat]; (split; [cbn; tauto|exact TH]).
  - intros SN C. assert (HT : has_snow p = true) by (rewrite HS; destruct (Rlt_dec 0 (s_swe s)); [auto|lra]).
    assert (FR : freezing p = true) by (unfold freezing; rewrite HT, AI; cbn [andb]; destruct (Rlt_dec (m_temp m) T0); [auto|contradiction]).
    rewrite HT in OK. set (q0 := refrozen c p) in *. split.
    + unfold secant_finished, secant_balance, secant_result. fold q0. rewrite FR. cbn [negb orb].
      pose proof (rem_ok m s _ _ (g_flux c) _ _ (g_dt c) (T0 - 10) q0 OK) as (OK1 & RV1 & _).
      pose proof (rem_ok m s _ _ (g_flux c) _ _ (g_dt c) T0 (rem_pix (g_dt c) (Some (T0 - 10)) q0) OK1) as (OK2 & RV2 & QS2).
      remember (secant_start (g_dt c) q0) as ss eqn:ES.
      assert (SO : match secant f fuel (q_x0 ss) (q_x1 ss), cryo_secant (g_dt c) fuel ss with
        | Some (Some x), Some p' => surf_ok m s (ma0 m s) (lh0 m s) (Some (g_flux c)) (Some x) melt (c_e p') /\ e_qsat (c_e p') = Some (sat_spec_hum m x)
                              /\ c_lay p' = c_lay (q_p ss) /\ c_refr p' = c_refr (q_p ss)
        | None, None => True | Some None, _ => True | _, _ => False end).
      { apply secant_ok; rewrite ES; unfold secant_start; cbn [q_x0 q_x1 q_y0 q_y1 q_p]; [exact OK2|exact QS2|exact RV1|exact RV2]. }
      assert (X0 : q_x0 ss = T0 - 10) by (rewrite ES; reflexivity). assert (X1 : q_x1 ss = T0) by (rewrite ES; reflexivity).
      assert (PL1 : c_lay (q_p ss) = c_lay q0) by (rewrite ES; reflexivity). assert (PR1 : c_refr (q_p ss) = c_refr q0) by (rewrite ES; reflexivity).
      rewrite X0, X1, PL1, PR1 in SO. clear X0 X1 PL1 PR1 ES.
      destruct (secant f fuel (T0 - 10) T0) as [[x|]|]; [|exact I|].
      * destruct (cryo_secant (g_dt c) fuel ss) as [p'|]; [|contradiction]. destruct SO as (A & B & C1 & C2). split; [reflexivity|].
        cbn [option_map oget]. apply (FIN (clip_ts p') (Some (g_flux c))).
        -- destruct A as (A1 & A2 & A3). unfold clip_ts, with_e. cbn [c_e]. split; [exact A1|]. split; [cbn [set_ts e_ts]; rewrite A2; reflexivity|exact A3].
        -- exact B.
        -- transitivity (c_lay p'); [reflexivity|]. rewrite C1. exact RL.
        -- transitivity (c_refr p'); [reflexivity|]. rewrite C2. exact RR.
      * destruct (cryo_secant (g_dt c) fuel ss) as [p'|]; [contradiction|reflexivity].
    + unfold legacy_balance. fold q0. rewrite FR. 
      pose proof (legacy_ok (g_dt c) m s (ma0 m s) (lh0 m s) (g_flux c) melt temps T0 (with_eb (Some 0) q0) OK) as (A & B & C1 & C2). fold f in A, B.
      eapply FIN; [exact A| |rewrite C1; exact RL|rewrite C2; exact RR]. apply B.
      (* the saturation humidity is that at T0 already *)
      change (c_e (with_eb (Some 0) q0)) with (c_e q0). unfold q0, refrozen. cbn [fold_left]. rewrite !melt_time_stop. unfold available. rewrite FR.
      assert (AV : forall h x, c_e (with_av h x) = c_e x) by reflexivity. rewrite AV.
      assert (ME : melting p = false) by (unfold melting; rewrite HT, AI; cbn; destruct (Rle_dec T0 (m_temp m)); [lra|auto]).
      assert (OKM : surf_ok m s (ma0 m s) (lh0 m s) (Some (g_flux c)) (Some (m_temp m)) 0 (c_e (molten c p))).
      { unfold molten. rewrite ME in *. rewrite HT in POK. exact POK. }
      destruct (rem_ok m s _ _ (g_flux c) _ _ (g_dt c) T0 (molten c p) OKM) as (_ & _ & X). exact X.
Qed.
Print Assumptions c100_complete.

(** * Missing inputs *)
Definition needed (F : efor) : list num := [f_swin F; f_lwin F; f_alb F; f_wind F; f_q F; f_press F; f_rhoa F; f_ch F; f_rain F; f_snow F; f_wb F].
Lemma nmap2_l (f : R -> R -> R) b : nmap2 f None b = None. Proof. reflexivity. Qed.
Lemma nmap2_r (f : R -> R -> R) a : nmap2 f a None = None. Proof. destruct a; reflexivity. Qed.
Lemma needed_none dt (t : num) p : In None (needed (ef (c_e p))) -> remainder_value (c_e (rem_pix dt t p)) = None.
Proof.
  intro I. set (F := ef (c_e p)) in *.
  assert (E : remainder_value (c_e (rem_pix dt t p)) =
    let mf := nmul (nmul (e_ma (c_e p)) (n_rcu F)) (nsub (f_q F) (nmap2 specific_humidity (f_press F) (nmap (saturation_vapor_pressure None) t))) in
    nsub (nadd (nadd (nadd (nsub (nadd (nsub (f_swin F) (nmul (f_alb F) (f_swin F))) (f_lwin F)) (nmap lw_out t))
      (nmul (nmul (Some SPEC_HEAT_CAP_DRY_AIR) (n_rcu F)) (nsub (f_temp F) t))) (nmul (e_lh (c_e p)) mf))
      (ndiv (nadd (nmul (nmul (Some SPEC_HEAT_CAP_WATER) (nsub (f_temp F) t)) (f_rain F)) (nmul (nmul (Some SPEC_HEAT_CAP_ICE) (nsub (f_wb F) t)) (f_snow F))) (Some dt)))
      (e_heat (c_e p))).
  { unfold F. destruct p as [e lay rf ti eb lm av]. destruct e. reflexivity. }
  rewrite E. clear E. cbv zeta. clearbody F. unfold n_rcu, ndiv, nsub, nadd, nmul, needed in *. cbn [In] in I.
  repeat (destruct I as [I|I]); try contradiction; rewrite I; repeat (rewrite ?nmap2_l, ?nmap2_r); reflexivity.
Qed.
Lemma rem_keeps dt t p : ef (c_e (rem_pix dt t p)) = ef (c_e p) /\ e_melt (c_e (rem_pix dt t p)) = e_melt (c_e p) /\ e_ts (c_e (rem_pix dt t p)) = t
  /\ c_lay (rem_pix dt t p) = c_lay p /\ c_refr (rem_pix dt t p) = c_refr p.
Proof. repeat split. Qed.
Definition untouched (p q : cgp) : Prop := ef (c_e q) = ef (c_e p) /\ c_lay q = c_lay p /\ c_refr q = c_refr p /\ e_melt (c_e q) = e_melt (c_e p).
Lemma melt_missing c k b p : In None (needed (ef (c_e p))) -> untouched p (melt_pix c k b p).
Proof.
  intro N. assert (H : melt_here c k b p = false).
  { unfold melt_here. destruct (melt_possible k b p) eqn:MP; [|reflexivity]. cbn [andb]. unfold melt_eb. rewrite MP.
    assert (E : c_eb (rem_eb (g_dt c) (e_ts (c_e p)) p) = None) by (apply needed_none; exact N). rewrite E. reflexivity. }
  unfold melt_pix. rewrite H. cbn [andb]. unfold melt_timed. rewrite H. unfold melt_eb.
  destruct (melt_possible k b p), b; repeat split.
Qed.
Lemma melts_missing c b ks : forall p, In None (needed (ef (c_e p))) -> untouched p (fold_left (fun q k => melt_pix c k b q) ks p).
Proof.
  induction ks as [|k ks IH]; intros p N; [repeat split|]. cbn [fold_left]. destruct (melt_missing c k b p N) as (A & B & C & D).
  assert (N' : In None (needed (ef (c_e (melt_pix c k b p))))) by (rewrite A; exact N).
  destruct (IH _ N') as (A' & B' & C' & D'). unfold untouched. rewrite A', B', C', D'. auto.
Qed.
Lemma legacy_head lowest : lowest <= T0 -> exists ts, legacy_grid lowest = T0 :: ts.
Proof.
  intro LE. unfold legacy_grid. assert (C : exists n, legacy_count lowest = S n).
  { unfold legacy_count. set (x := - ((T0 - (lowest - 3 - 1 / 1000000)) / 0.25)). assert (X : x < -1) by (unfold x; lra).
    destruct (archimed x) as [_ U]. assert (U2 : IZR (up x) < 1) by lra. apply lt_IZR in U2. destruct (Z.to_nat (1 - up x)) as [|n] eqn:EN; [lia|eauto]. }
  destruct C as (n & ->). cbn [seq map INR]. rewrite Rmult_0_r, Rminus_0_r. eauto.
Qed.
Lemma fin_keeps c q : c_lay (final_fluxes c q) = c_lay q /\ c_refr (final_fluxes c q) = c_refr q /\ e_melt (c_e (final_fluxes c q)) = e_melt (c_e q)
  /\ e_ts (c_e (final_fluxes c q)) = e_ts (c_e q).
Proof. repeat split. Qed.
Lemma av_keeps h q : c_e (with_av h q) = c_e q /\ c_lay (with_av h q) = c_lay q /\ c_refr (with_av h q) = c_refr q. Proof. repeat split. Qed.
Lemma eb_keeps v q : c_e (with_eb v q) = c_e q /\ c_lay (with_eb v q) = c_lay q /\ c_refr (with_eb v q) = c_refr q. Proof. repeat split. Qed.
Lemma reb_keeps dt t p : ef (c_e (rem_eb dt t p)) = ef (c_e p) /\ c_lay (rem_eb dt t p) = c_lay p /\ c_refr (rem_eb dt t p) = c_refr p
  /\ e_melt (c_e (rem_eb dt t p)) = e_melt (c_e p) /\ e_ts (c_e (rem_eb dt t p)) = t.
Proof. repeat split. Qed.
Lemma clip_keeps p : c_lay (clip_ts p) = c_lay p /\ c_refr (clip_ts p) = c_refr p /\ e_melt (c_e (clip_ts p)) = e_melt (c_e p)
  /\ e_ts (c_e (clip_ts p)) = nmap (fun x => Rmin x T0) (e_ts (c_e p)).
Proof. repeat split. Qed.
Lemma reb_missing dt t p : In None (needed (ef (c_e p))) -> c_eb (rem_eb dt t p) = None.
Proof. intro N. unfold rem_eb. cbn [c_eb with_eb]. apply needed_none. exact N. Qed.
Lemma secant_missing dt fuel q : In None (needed (ef (c_e q))) ->
  secant_result dt (S fuel) q = Some (clip_ts (rem_pix dt (Some T0) (rem_pix dt (Some (T0 - 10)) q))).
Proof.
  intro N. unfold secant_result, cryo_secant. cbn [secant_pixel].
  assert (DN : sq_d (secant_start dt q) = None).
  { unfold sq_d, secant_start. cbn [q_x0 q_x1 q_y0 q_y1]. rewrite (needed_none dt (Some (T0 - 10)) q N). reflexivity. }
  rewrite DN. reflexivity.
Qed.
Lemma legacy_missing dt ts q : In None (needed (ef (c_e q))) -> legacy_pixel dt true (T0 :: ts) true q = rem_eb dt (Some T0) q.
Proof.
  intro N. cbn [legacy_pixel]. cbv zeta. pose proof (reb_missing dt (Some T0) q N) as E2. set (q2 := rem_eb dt (Some T0) q) in *. clearbody q2.
  rewrite E2. cbn [nlt andb]. induction ts as [|t ts IH]; [reflexivity|]. cbn [legacy_pixel]. cbv zeta. rewrite E2. cbn [nlt andb]. exact IH.
Qed.
Lemma refr_missing c k q : c_av q = None -> refr_pix c k true q = q.
Proof. intro AV. unfold refr_pix, refr_here. rewrite AV. unfold rlt. cbn. destruct (Rlt_dec 0 _); reflexivity. Qed.
(** Where an input of the energy balance is missing, snow neither melts nor refreezes, whatever the air temperature, and freezing snow takes the
    temperature of the melting point however cold the air is. *)
Theorem c100_missing : forall c fuel lowest p t, In None (needed (ef (c_e p))) -> has_snow p = true -> air p = Some t -> lowest <= T0 ->
  forall q, q = secant_balance c (S fuel) p \/ q = legacy_balance c (legacy_grid lowest) p ->
  secant_finished c (S fuel) p = true /\ c_lay q = c_lay p /\ c_refr q = Some 0 /\ e_melt (c_e q) = Some 0 /\ e_ts (c_e q) = Some T0.
Proof.
  intros c fuel lowest p t N HS AI LE. assert (P0 : ef (c_e (prepared c p)) = ef (c_e p) /\ c_lay (prepared c p) = c_lay p /\ c_refr (prepared c p) = Some 0 /\ e_melt (c_e (prepared c p)) = Some 0
    /\ (melting p = true -> e_ts (c_e (prepared c p)) = Some T0)).
  { unfold prepared. rewrite HS. destruct (melting p); repeat split; discriminate. }
  destruct P0 as (A & B & C & D & TS).
  assert (N1 : In None (needed (ef (c_e (prepared c p))))) by (rewrite A; exact N).
  destruct (melts_missing c (melting p) [0; 1; 2; 3]%nat (prepared c p) N1) as (A1 & B1 & C1 & D1). fold (molten c p) in A1, B1, C1, D1.
  rewrite A in A1. rewrite B in B1. rewrite C in C1. rewrite D in D1.
  assert (N2 : In None (needed (ef (c_e (molten c p))))) by (rewrite A1; exact N).
  assert (MF : melting p = negb (freezing p)).
  { unfold melting, freezing. rewrite HS, AI. cbn. destruct (Rle_dec T0 t), (Rlt_dec t T0); auto; lra. }
  assert (MTS : forall ks q, In None (needed (ef (c_e q))) -> e_ts (c_e q) = Some T0 -> e_ts (c_e (fold_left (fun q k => melt_pix c k true q) ks q)) = Some T0).
  { induction ks as [|k ks IH]; intros q N' T; [exact T|]. cbn [fold_left]. destruct (melt_missing c k true q N') as (A' & _). apply IH; [rewrite A'; exact N'|].
    assert (E : e_ts (c_e (melt_pix c k true q)) = e_ts (c_e (melt_eb c k true q))).
    { unfold melt_pix. cbv zeta. set (q1 := melt_timed c k true q). assert (E : c_e q1 = c_e (melt_eb c k true q)) by (unfold q1, melt_timed; destruct (melt_here c k true q); reflexivity).
      rewrite <- E. clearbody q1. destruct (melt_here c k true q && rlt (c_lmt q1) (c_time q1)), (melt_here c k true q && rle (c_time q1) (c_lmt q1)); reflexivity. }
    rewrite E. unfold melt_eb. destruct (melt_possible k true q); [|exact T]. rewrite <- T. apply rem_keeps. }
  destruct (freezing p) eqn:FR; cbn [negb] in MF.
  - assert (RZ : refrozen c p = available c p).
    { unfold refrozen, available. rewrite FR. pose proof (reb_missing (g_dt c) (Some T0) (molten c p) N2) as EB. set (q1 := rem_eb (g_dt c) (Some T0) (molten c p)) in *. clearbody q1.
      set (q2 := with_av _ q1). assert (AV : c_av q2 = None) by (unfold q2, with_av; cbn [c_av]; rewrite EB; reflexivity). clearbody q2.
      cbn [fold_left]. rewrite (refr_missing c 0 q2 AV), (refr_missing c 1 q2 AV). reflexivity. }
    assert (Q0 : ef (c_e (refrozen c p)) = ef (c_e p) /\ c_lay (refrozen c p) = c_lay p /\ c_refr (refrozen c p) = Some 0 /\ e_melt (c_e (refrozen c p)) = Some 0).
    { rewrite RZ. unfold available. rewrite FR. destruct (reb_keeps (g_dt c) (Some T0) (molten c p)) as (K1 & K2 & K3 & K4 & _).
      match goal with |- context [with_av ?h ?x] => destruct (av_keeps h x) as (V1 & V2 & V3) end. rewrite V1, V2, V3, K1, K2, K3, K4. auto. }
    destruct Q0 as (A2 & B2 & C2 & D2). set (q0 := refrozen c p) in *. assert (N3 : In None (needed (ef (c_e q0)))) by (rewrite A2; exact N).
    pose proof (secant_missing (g_dt c) fuel q0 N3) as SR.
    intros q Q. split; [unfold secant_finished; fold q0; rewrite FR, SR; reflexivity|]. destruct Q as [->| ->].
    + unfold secant_balance. fold q0. rewrite FR, SR. cbn [oget].
      match goal with |- context [final_fluxes c ?x] => destruct (fin_keeps c x) as (V1 & V2 & V3 & V4); rewrite V1, V2, V3, V4; clear V1 V2 V3 V4 end.
      match goal with |- context [clip_ts ?x] => destruct (clip_keeps x) as (V1 & V2 & V3 & V4); rewrite V1, V2, V3, V4; clear V1 V2 V3 V4 end.
      destruct (rem_keeps (g_dt c) (Some T0) (rem_pix (g_dt c) (Some (T0 - 10)) q0)) as (_ & K2 & K3 & K4 & K5).
      destruct (rem_keeps (g_dt c) (Some (T0 - 10)) q0) as (_ & J2 & _ & J4 & J5). rewrite K2, K3, K4, K5, J2, J4, J5.
      split; [exact B2|]. split; [exact C2|]. split; [exact D2|]. cbn [nmap]. f_equal. apply Rmin_left. lra.
    + destruct (legacy_head lowest LE) as (ts & ->). unfold legacy_balance. fold q0. rewrite FR. rewrite legacy_missing by (destruct (eb_keeps (Some 0) q0) as (J1 & _); rewrite J1; exact N3). set (q2 := rem_eb (g_dt c) (Some T0) (with_eb (Some 0) q0)).
      destruct (fin_keeps c q2) as (V1 & V2 & V3 & V4). rewrite V1, V2, V3, V4. unfold q2.
      destruct (reb_keeps (g_dt c) (Some T0) (with_eb (Some 0) q0)) as (_ & K2 & K3 & K4 & K5). rewrite K2, K3, K4, K5.
      destruct (eb_keeps (Some 0) q0) as (J1 & J2 & J3). rewrite J1, J2, J3. auto.
  - assert (RZ : refrozen c p = with_av (fun p => nmap (fun e => Rmax (-1 * e * g_dt c / Lf * g_refr c) 0) (c_eb p)) (molten c p)).
    { unfold refrozen, available. rewrite FR. cbn [fold_left]. rewrite !refr_off. reflexivity. }
    assert (LP : forall ts q, legacy_pixel (g_dt c) false ts false q = q) by (clear; induction ts as [|t ts IH]; intro q; cbn; auto).
    assert (TM : e_ts (c_e (molten c p)) = Some T0) by (unfold molten; rewrite MF; apply MTS; [exact N1|apply TS; exact MF]).
    intros q Q. split; [unfold secant_finished; rewrite FR; reflexivity|].
    assert (QE : q = final_fluxes c (refrozen c p) \/ q = final_fluxes c (with_eb (Some 0) (refrozen c p))).
    { unfold secant_balance, legacy_balance in Q. rewrite FR, LP in Q. exact Q. }
    clear Q. rewrite RZ in QE. match goal with H : context [with_av ?h ?x] |- _ => destruct (av_keeps h x) as (V1 & V2 & V3); set (qa := with_av h x) in * end. clearbody qa.
    destruct (fin_keeps c qa) as (K1 & K2 & K3 & K4). destruct (fin_keeps c (with_eb (Some 0) qa)) as (J1 & J2 & J3 & J4). destruct (eb_keeps (Some 0) qa) as (I1 & I2 & I3).
    destruct QE as [->| ->].
    + rewrite K1, K2, K3, K4, V1, V2, V3. auto.
    + rewrite J1, J2, J3, J4, I1, I2, I3, V1, V2, V3. auto.
Qed.
Print Assumptions c100_missing.
(** * Concrete pixels *)
Definition calm_met (t lw : R) : met := MET t (t - 1) 0 0.001 80000 1.1 0 lw 0 0.
Definition calm_surf (swe : R) : surf := SRF 0.8 0.002 0.01 0.3 0.1 270 swe [swe].
Definition snow_cp (ice : R) : CryoModel.cpix := CryoModel.CP (CryoModel.CL 0.2 ice 0 0 (Some 150) (Some 0.8)) CryoModel.reset_layer CryoModel.reset_layer CryoModel.reset_layer (Some 0.8).
Definition fresh (F : efor) (cp : CryoModel.cpix) : cgp := CG (EP F None None None None None None None None None None None None None) (CryoModel.lays cp) None 0 None 0 None.
Definition cold_pixel (t : R) : cgp := fresh (complete (calm_met t 0) (calm_surf 30)) (snow_cp 30).
(** The same without incoming longwave radiation *)
Definition no_lw (F : efor) : efor :=
  EF (f_temp F) (f_wb F) (f_wind F) (f_q F) (f_press F) (f_rhoa F) (f_swin F) None (f_rain F) (f_snow F) (f_alb F) (f_ch F) (f_cond F) (f_k F) (f_th F) (f_ltemp F) (f_swe F) (f_ices F).
Definition gap_pixel (t : R) : cgp := fresh (no_lw (complete (calm_met t 0) (calm_surf 30))) (snow_cp 30).
Definition some_cfg : gcfg := GC 3600 0 1 0.05.
Lemma gap_air t : air (gap_pixel t) = Some t /\ has_snow (gap_pixel t) = true.
Proof. split; [reflexivity|]. unfold has_snow. cbn [gap_pixel fresh c_e ef no_lw f_swe complete calm_surf s_swe]. cbn. destruct (Rlt_dec 0 30); [auto|lra]. Qed.
(** The surface of freezing snow is at most as warm as melting snow, but it is not tied to the air: with a gap in the radiation data it is at the
    melting point while the air has -30 degrees. *)
Theorem c100_missing_temperature_refuted : ~ (forall c fuel roi g g' i p q (ta ts : R), length g = length roi -> cryo_grid c (Secant fuel) roi g = Done g' ->
  nth_error g i = Some p -> nth i roi false = true -> has_snow p = true -> air p = Some ta -> ta < T0 - 20 ->
  nth_error g' i = Some q -> e_ts (c_e q) = Some ts -> ts < T0).
Proof.
  intro H. pose proof (gap_air (T0 - 30)) as (A & S0).
  assert (N : In None (needed (ef (c_e (gap_pixel (T0 - 30)))))) by (right; left; reflexivity).
  destruct (c100_missing some_cfg 0 0 (gap_pixel (T0 - 30)) (T0 - 30) N S0 A ltac:(unfold T0; lra) _ (or_introl eq_refl)) as (F & _ & _ & _ & TS).
  pose proof (c100_secant some_cfg 1 [true] [gap_pixel (T0 - 30)] eq_refl) as C.
  destruct (cryo_grid some_cfg (Secant 1) [true] [gap_pixel (T0 - 30)]) as [g'| |] eqn:E; [|destruct C as ([|[|i]] & p & E1 & _ & E2); try discriminate; injection E1 as <-; congruence|contradiction].
  destruct C as (_ & _ & C). specialize (C 0%nat _ eq_refl). cbn [nth] in C.
  assert (T0 < T0); [|lra].
  exact (H some_cfg 1%nat [true] [gap_pixel (T0 - 30)] g' 0%nat _ _ (T0 - 30) T0 eq_refl E eq_refl eq_refl S0 A ltac:(lra) C TS).
Qed.
Print Assumptions c100_missing_temperature_refuted.

Lemma cold_value t x : remainder (calm_met t 0) (calm_surf 30) 3600 (ma0 (calm_met t 0) (calm_surf 30)) (lh0 (calm_met t 0) (calm_surf 30)) 0 x = - lw_out x.
Proof.
  unfold remainder, net_radiation, sens_flux, moist_flux, rhoa_ch_ua, advective. cbn [calm_met calm_surf m_swin m_lwin s_alb m_rhoa s_ch m_wind m_rain m_snow m_temp m_wb m_q].
  generalize (lh0 (calm_met t 0) (calm_surf 30)) (ma0 (calm_met t 0) (calm_surf 30)) (sat_spec_hum (calm_met t 0) x) (lw_out x). intros.
  unfold Rdiv. ring.
Qed.
Lemma last_default {A} (l : list A) a b : l <> [] -> last l a = last l b.
Proof. induction l as [|x l IH]; intro N; [contradiction|]. destruct l as [|y l]; [reflexivity|]. cbn [last] in *. apply IH. discriminate. Qed.
Lemma walk_last f grid d : Forall (fun g => f g < 0) grid -> legacy_walk f d grid = last grid d.
Proof.
  revert d. induction grid as [|g gs IH]; intros d F; [reflexivity|]. inversion_clear F as [|? ? F1 F2]. cbn [legacy_walk]. destruct (Rlt_dec (f g) 0); [|contradiction].
  rewrite IH by auto. destruct gs as [|y gs]; [reflexivity|]. change (last (g :: y :: gs) d) with (last (y :: gs) d). apply last_default. discriminate.
Qed.
Lemma last_seq_map (h : nat -> R) n d : last (map h (seq 0 (S n))) d = h n.
Proof.
  rewrite seq_S. rewrite map_app. cbn [map]. rewrite last_last. reflexivity.
Qed.
Lemma count_at k lowest : lowest = T0 - IZR (Z.of_nat k) -> legacy_count lowest = S (4 * (k + 3)).
Proof.
  intros ->. unfold legacy_count. set (x := - ((T0 - (T0 - IZR (Z.of_nat k) - 3 - 1 / 1000000)) / 0.25)).
  assert (X : x = - (4 * IZR (Z.of_nat k) + 12) - 4 / 1000000) by (unfold x; generalize T0; intro; lra).
  assert (U : up x = (- (4 * Z.of_nat k + 12))%Z).
  { symmetry. apply tech_up; rewrite opp_IZR, plus_IZR, mult_IZR; rewrite X; lra. }
  rewrite U. lia.
Qed.
Lemma cold_legacy t k : t < T0 -> (k <= 100)%nat ->
  e_ts (c_e (legacy_balance some_cfg (legacy_grid (T0 - IZR (Z.of_nat k))) (cold_pixel t))) = Some (T0 - INR (k + 3)).
Proof.
  intros LT K. set (cc := CryoModel.CC 3600 (SnowModel.mkAC 0.5 0.8 200 480 0.5 SnowModel.Binary) 0.5 0.3 false 200 900 SnowModel.MassFraction 0.1 0.05 1).
  assert (SW : s_swe (calm_surf 30) = CryoModel.tot_ice (snow_cp 30) + CryoModel.tot_lw (snow_cp 30)).
  { unfold CryoModel.tot_ice, CryoModel.tot_lw, sumR. cbn. lra. }
  pose proof (c100_complete some_cfg (calm_met t 0) (calm_surf 30) (cold_pixel t) (snow_cp 30) cc 0 (legacy_grid (T0 - IZR (Z.of_nat k))) eq_refl eq_refl SW eq_refl eq_refl eq_refl) as C.
  cbv zeta in C. destruct (CryoModel.cryo_energy_balance _ _ _ _) as [[cp' melt] refr]. destruct C as (_ & _ & C).
  assert (S0 : 0 < s_swe (calm_surf 30)) by (cbn; lra). destruct (C S0 LT) as (_ & _ & _ & _ & TS & _). rewrite TS. f_equal.
  rewrite walk_last.
  - unfold legacy_grid. rewrite (count_at k _ eq_refl), last_seq_map. rewrite mult_INR. replace (INR 4) with 4 by (cbn; lra). lra.
  - apply Forall_forall. intros x I. cbn [g_dt g_flux some_cfg]. rewrite cold_value. unfold legacy_grid in I. rewrite (count_at k _ eq_refl) in I.
    apply in_map_iff in I. destruct I as (j & <- & J). apply in_seq in J. assert (JL : INR j <= 412) by (replace 412 with (INR 412) by (cbn; lra); apply le_INR; lia).
    assert (P : 0 < T0 - 0.25 * INR j) by (unfold T0; lra). pose proof (pow_lt _ 4 P). unfold lw_out, STEFAN_BOLTZMANN. lra.
Qed.
(** With the legacy iteration, the surface temperature of a pixel depends on the air temperature of other pixels: the coldest freezing pixel of the
    region sets the lowest temperature which is tried. *)
Theorem c100_legacy_independent_refuted : ~ (forall c roi g h g' h' i p (ts us : R) q r, length g = length h -> nth_error g i = Some p -> nth_error h i = Some p ->
  cryo_grid c Legacy roi g = Done g' -> cryo_grid c Legacy roi h = Done h' -> nth_error g' i = Some q -> nth_error h' i = Some r ->
  e_ts (c_e q) = Some ts -> e_ts (c_e r) = Some us -> ts = us).
Proof.
  intro H.
  assert (A : forall k, (1 <= k <= 100)%nat -> exists g' q, cryo_grid some_cfg Legacy [true; true] [cold_pixel (T0 - 1); cold_pixel (T0 - IZR (Z.of_nat k))] = Done g'
    /\ nth_error g' 0 = Some q /\ e_ts (c_e q) = Some (T0 - INR (k + 3))).
  { intros k K. destruct (c100_legacy some_cfg [true; true] [cold_pixel (T0 - 1); cold_pixel (T0 - IZR (Z.of_nat k))]) as (g' & E & _ & P).
    destruct (P 0%nat _ eq_refl) as (q & Q & _ & O). exists g', q. split; [exact E|]. split; [exact Q|]. specialize (O eq_refl).
    assert (KR : 1 <= IZR (Z.of_nat k)) by (apply IZR_le; lia).
    assert (FZ : forall t, t < T0 -> freezing (cold_pixel t) = true).
    { intros t L. unfold freezing, has_snow. cbn [cold_pixel fresh c_e ef complete f_swe calm_surf s_swe air f_temp calm_met m_temp]. 
      rewrite !GridBalanceTheorems.nlt_some. destruct (Rlt_dec 0 30); [|lra]. change (air (cold_pixel t)) with (Some t). cbn. destruct (Rlt_dec t T0); [auto|contradiction]. }
    assert (CO : coldest [cold_pixel (T0 - 1); cold_pixel (T0 - IZR (Z.of_nat k))] [true; true] = T0 - IZR (Z.of_nat k)).
    { unfold coldest. cbn [take filter]. rewrite !FZ by lra. cbn [map fold_right]. change (air (cold_pixel ?x)) with (Some x). cbn [nan_to_zero]. apply Rmin_left. lra. }
    rewrite CO in O. unfold outputs in O. injection O as O _ _. rewrite O. apply cold_legacy; [lra|lia]. }
  destruct (A 1%nat ltac:(lia)) as (g' & q & E1 & Q1 & T1). destruct (A 10%nat ltac:(lia)) as (h' & r & E2 & Q2 & T2).
  pose proof (H some_cfg [true; true] [cold_pixel (T0 - 1); cold_pixel (T0 - IZR (Z.of_nat 1))] [cold_pixel (T0 - 1); cold_pixel (T0 - IZR (Z.of_nat 10))] g' h' 0%nat (cold_pixel (T0 - 1)) _ _ q r eq_refl eq_refl eq_refl E1 E2 Q1 Q2 T1 T2) as X. cbn in X. lra.
Qed.
Print Assumptions c100_legacy_independent_refuted.
(** A grid with a cold pixel in the region, one with a gap in the radiation data and one outside of the region: the hypotheses of the theorems hold. *)
Example c100_example : let g := [gap_pixel (T0 - 5); cold_pixel (T0 - 1); cold_pixel (T0 - 8)] in let roi := [true; true; false] in
  length g = length roi /\ freezing (gap_pixel (T0 - 5)) = true /\ In None (needed (ef (c_e (gap_pixel (T0 - 5)))))
  /\ ef (c_e (cold_pixel (T0 - 1))) = complete (calm_met (T0 - 1) 0) (calm_surf 30) /\ c_lay (cold_pixel (T0 - 1)) = CryoModel.lays (snow_cp 30)
  /\ s_swe (calm_surf 30) = CryoModel.tot_ice (snow_cp 30) + CryoModel.tot_lw (snow_cp 30)
  /\ exists g', cryo_grid some_cfg Legacy roi g = Done g' /\ nth_error g' 2 = Some (cold_pixel (T0 - 8)).
Proof.
  intros g roi. split; [reflexivity|]. split.
  { pose proof (gap_air (T0 - 5)) as (A & B). unfold freezing. rewrite A, B. cbn. destruct (Rlt_dec (T0 - 5) T0); [auto|lra]. }
  split; [right; left; reflexivity|]. split; [reflexivity|]. split; [reflexivity|]. split; [unfold CryoModel.tot_ice, CryoModel.tot_lw, sumR; cbn; lra|].
  destruct (c100_legacy some_cfg roi g) as (g' & E & _ & P). exists g'. split; [exact E|]. destruct (P 2%nat (cold_pixel (T0 - 8)) eq_refl) as (q & Q & O & _).
  rewrite Q, (O eq_refl). reflexivity.
Qed.
