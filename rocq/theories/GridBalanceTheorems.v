(** Theorems about the energy balance of the whole grid (C99). *)
From Verif Require Import Common Constants AtmosphereModel SurfaceModel MeteoFieldsModel GridBalanceModel GridBalanceProofs.
From Verif Require MaskModel MaskTheorems.
Open Scope R_scope.

(** * Specification: the energy balance of one pixel *)
Definition balance_start (dt : R) (p : epix) : epix :=
  calc_advective dt (calc_turbulent true (calc_flux (calc_radiation (set_melt (Some 0) (calc_latent (calc_moisture (calc_sat_hum p))))))).
Definition balance_at_melting (dt : R) (p : epix) : epix :=
  let p := calc_advective dt (calc_turbulent true (calc_flux (calc_radiation (calc_sat_hum (calc_latent (set_ts (Some T0) p)))))) in
  set_melt (partial_melt dt p) p.
Definition warm (p : epix) (c : changes) : bool := nlt (Some T0) (nadd (e_ts p) (Some (d_temp c))) && nlt (Some 0) (f_top (ef p)).
Definition cold (p : epix) (c : changes) : bool := nlt (nadd (e_ts p) (Some (d_temp c))) (Some T0).
Definition all_melted (p : epix) : epix := set_melt (nsum (f_ices (ef p))) p.
Definition balance_melt (dt : R) (p : epix) : epix * changes :=
  let c := nsolve dt p in
  if warm p c then
    let q := all_melted p in
    if cold q (nsolve dt q) then (balance_at_melting dt q, no_change) else (q, nsolve dt q)
  else (p, c).
Definition balance_end (pc : epix * changes) : epix := calc_turbulent false (calc_latent (calc_radiation (add_changes (fst pc) (snd pc)))).
Definition balance_pixel (dt : R) (p : epix) : epix := balance_end (balance_melt dt (balance_start dt p)).

(** * Pixels are independent *)
Local Opaque calc_sat_hum calc_moisture calc_latent set_melt calc_radiation calc_flux calc_turbulent calc_advective nsolve add_changes set_ts partial_melt nlt nadd nsum.
(** The array program gives every pixel of the region the result of its own energy balance, whatever the other pixels and the masks are,
    and leaves the pixels outside of the region as they are. *)
Lemma grid_balance_update dt roi g : grid_balance dt roi g = update g roi (balance_pixel dt).
Proof.
  unfold grid_balance. cbv zeta.
  rewrite !(upd_upd _ _ g roi).
  change (fun p => calc_advective dt (calc_turbulent true (calc_flux (calc_radiation (set_melt (Some 0) (calc_latent (calc_moisture (calc_sat_hum p)))))))) with (balance_start dt).
  rewrite (take_upd (balance_start dt) g roi), !map_map. set (l := take g roi). set (S := balance_start dt).
  rewrite map2_map.
  set (W := fun x : epix => nlt (Some T0) (nadd (e_ts (S x)) (Some (d_temp (nsolve dt (S x))))) && nlt (Some 0) (f_top (ef (S x)))).
  set (W' := fun x => warm (S x) (nsolve dt (S x))). assert (EW : W = W') by (unfold W, W', warm; reflexivity). clearbody W. subst W.
  assert (FIN : forall P C, 
    update (update (update (put (update g roi P) roi (map2 add_changes (map P l) (map C l))) roi calc_radiation) roi calc_latent) roi (calc_turbulent false)
    = update g roi (fun p => balance_end (P p, C p))).
  { intros P C. rewrite map2_map. rewrite (put_upd P (fun x => add_changes (P x) (C x))). rewrite !upd_upd. reflexivity. }
  destruct (existsb (fun b => b) (map W' l)) eqn:EX.
  2: { rewrite take_upd. fold l. rewrite (FIN S (fun x => nsolve dt (S x))). apply upd_ext. intros p I.
       unfold balance_pixel, balance_melt. fold S. cbv zeta. pose proof (existsb_map_false W' l EX p I) as E. unfold W' in E. fold (S p). rewrite E. reflexivity. }
  change (fun p => set_melt (nsum (f_ices (ef p))) p) with all_melted. 
  assert (UM : update (update g roi S) (expand roi (map W' l)) all_melted = update g roi (fun p => if W' p then all_melted (S p) else S p)) by apply upd_mask.
  rewrite UM. clear UM.
  set (Q := fun p => if W' p then all_melted (S p) else S p).
  assert (TQ : take (update g roi Q) (expand roi (map W' l)) = map Q (filter W' l)) by apply take_mask.
  rewrite TQ, map_map, put_filter, take_upd. fold l.
  set (C := fun p => if W' p then nsolve dt (Q p) else nsolve dt (S p)).
  rewrite !map2_map.
  set (K := fun p => W' p && nlt (nadd (e_ts (Q p)) (Some (d_temp (C p)))) (Some T0)).
  destruct (existsb (fun b => b) (map K l)) eqn:EK.
  - rewrite take_filter, map_map, put_filter.
    set (pm := expand roi (map K l)).
    assert (STEP : forall P F, update (update g roi P) pm F = update g roi (fun p => if K p then F (P p) else P p)) by (intros P F; apply upd_mask).
    rewrite !STEP. rewrite take_upd. fold l. rewrite FIN. apply upd_ext. intros p I. unfold balance_pixel. fold S. f_equal.
    unfold balance_melt. cbv zeta. change (warm (S p) (nsolve dt (S p))) with (W' p). unfold K, C, Q. destruct (W' p); cbn [andb]; [|reflexivity].
    change (nlt (nadd (e_ts (all_melted (S p))) (Some (d_temp (nsolve dt (all_melted (S p)))))) (Some T0)) with (cold (all_melted (S p)) (nsolve dt (all_melted (S p)))).
    destruct (cold (all_melted (S p)) (nsolve dt (all_melted (S p)))); reflexivity.
  - rewrite take_upd. fold l. rewrite FIN. apply upd_ext. intros p I. unfold balance_pixel. fold S. f_equal.
    unfold balance_melt. cbv zeta. change (warm (S p) (nsolve dt (S p))) with (W' p). pose proof (existsb_map_false K l EK p I) as E.
    unfold K, C, Q in *. destruct (W' p); cbn [andb] in E; [|reflexivity].
    change (nlt (nadd (e_ts (all_melted (S p))) (Some (d_temp (nsolve dt (all_melted (S p)))))) (Some T0)) with (cold (all_melted (S p)) (nsolve dt (all_melted (S p)))) in E.
    rewrite E. reflexivity.
Qed.
Lemma update_nth {A} (F : A -> A) g : forall roi i p, nth_error g i = Some p ->
  nth_error (update g roi F) i = Some (if nth i roi false then F p else p).
Proof.
  induction g as [|x g IH]; intros [|b r] [|i] p E; rewrite upd_nil; cbn in *; try discriminate; auto.
  - injection E as <-. reflexivity.
Qed.
Theorem c99_pixels : forall dt roi g, length (grid_balance dt roi g) = length g /\ forall i p, nth_error g i = Some p ->
  nth_error (grid_balance dt roi g) i = Some (if nth i roi false then balance_pixel dt p else p).
Proof.
  intros dt roi g. rewrite grid_balance_update. split.
  - revert roi. induction g as [|x g IH]; intros [|b r]; rewrite upd_nil; cbn; auto.
  - intros i p E. apply update_nth. auto.
Qed.
Print Assumptions c99_pixels.
Local Transparent calc_sat_hum calc_moisture calc_latent set_melt calc_radiation calc_flux calc_turbulent calc_advective nsolve add_changes set_ts partial_melt nlt nadd nsum.

(** Masks of the region are expanded by global_mask (C57). *)
Lemma expand_nth : forall g m i, (i < length g)%nat -> nth i (expand g m) false = nth i g false && nth (length (filter (fun b => b) (firstn i g))) m false.
Proof.
  induction g as [|b g IH]; intros m i H; cbn in H; [lia|]. destruct b; cbn [expand].
  - destruct m as [|c m], i as [|i]; cbn; auto; rewrite IH by lia; auto. destruct (length (filter (fun b => b) (firstn i g))); reflexivity.
  - destruct i as [|i]; cbn; auto. apply IH. lia.
Qed.
Lemma expand_length : forall g m, length (expand g m) = length g.
Proof. induction g as [|[] g IH]; intros m; cbn; auto. destruct m; cbn; auto. Qed.
Theorem c99_masks : forall roi m, length m = length (filter (fun b => b) roi) ->
  MaskModel.global_mask (length roi) roi (MaskModel.Mask1 m) None None = inr (MaskModel.Grid1 (expand roi m)).
Proof.
  intros roi m L. destruct (MaskTheorems.c57_accepts_iff roi m None eq_refl) as [[_ A] _]. destruct (A L) as (r & E). rewrite E.
  destruct (MaskTheorems.c57_exact roi m None r eq_refl E) as (r' & -> & LR & N). do 2 f_equal.
  apply (nth_ext _ _ false false); [rewrite expand_length; auto|]. intros i Hi. rewrite N by lia. symmetry. apply expand_nth. lia.
Qed.
Print Assumptions c99_masks.
Example c99_masks_example : expand [true; false; true; true] [false; true; true] = [false; false; true; true]. Proof. reflexivity. Qed.

(** * Pixels with complete values *)
Definition complete (m : met) (s : surf) : efor :=
  EF (Some (m_temp m)) (Some (m_wb m)) (Some (m_wind m)) (Some (m_q m)) (Some (m_press m)) (Some (m_rhoa m)) (Some (m_swin m)) (Some (m_lwin m))
     (Some (m_rain m)) (Some (m_snow m)) (Some (s_alb s)) (Some (s_ch s)) (Some (s_cond s)) (Some (s_k s)) (Some (s_th s)) (Some (s_ltemp s))
     (Some (s_swe s)) (map Some (s_ices s)).
Ltac steps := cbn [ef e_ts e_qsat e_ma e_lh e_sens e_moist e_latf e_heat e_adv e_melt e_swout e_lwout e_net
  f_temp f_wb f_wind f_q f_press f_rhoa f_swin f_lwin f_rain f_snow f_alb f_ch f_cond f_k f_th f_ltemp f_swe f_ices complete nmap nmap2 nan_to_zero].
Ltac ops := unfold nadd, nsub, nmul, ndiv, n_rcu; steps.
Lemma nlt_some a b : nlt (Some a) (Some b) = if Rlt_dec a b then true else false. Proof. reflexivity. Qed.
Lemma top_complete m s (B : bool -> num) : B (nlt (Some 0) (f_top (complete m s))) = B (if Rlt_dec 0 (top_ice s) then true else false).
Proof.
  f_equal. unfold f_top, top_ice. cbn [f_ices complete]. destruct (s_ices s); cbn; [|reflexivity]. destruct (Rlt_dec 0 0); auto. lra.
Qed.
Lemma nsum_some l : nsum (map Some l) = Some (sumR l).
Proof. induction l as [|x l IH]; [reflexivity|]. unfold nsum in *. cbn [map fold_right]. rewrite IH. reflexivity. Qed.
Lemma ma_complete m s t q a b c d e f g h i j k :
  calc_moisture (EP (complete m s) t (Some q) a b c d e f g h i j k) = EP (complete m s) t (Some q) (Some (moisture_availability m s q)) b c d e f g h i j k.
Proof.
  unfold calc_moisture. ops. rewrite !nlt_some. unfold moisture_availability. f_equal.
  destruct (Rlt_dec 0 (s_swe s)); auto. destruct (Rlt_dec q (m_q m)); auto.
Qed.
Lemma lh_complete m s t q a b c d e f g h i j k :
  calc_latent (EP (complete m s) (Some t) q a b c d e f g h i j k) = EP (complete m s) (Some t) q a (Some (latent_heat m s t)) c d e f g h i j k.
Proof.
  unfold calc_latent. ops. unfold latent_heat. f_equal. rewrite nlt_some.
  rewrite (top_complete m s (fun b => if b || (if Rlt_dec t T0 then true else false) then Some (latent_heat_of_vaporization (m_temp m) + Lf) else Some (latent_heat_of_vaporization (m_temp m)))).
  destruct (Rlt_dec 0 (top_ice s)); auto. destruct (Rlt_dec t T0); auto.
Qed.
Lemma rest_complete m s dt t q ma lh c d e f g h i j k :
  calc_advective dt (calc_turbulent true (calc_flux (calc_radiation (EP (complete m s) (Some t) (Some q) (Some ma) (Some lh) c d e f g h i j k))))
  = EP (complete m s) (Some t) (Some q) (Some ma) (Some lh) (Some (sens_flux m s t)) (Some (moist_flux m s ma q)) (Some (lh * moist_flux m s ma q))
       (Some (surface_flux s t)) (Some (advective m dt t)) h (Some (s_alb s * m_swin m)) (Some (lw_out t)) (Some (net_radiation m s t)).
Proof. reflexivity. Qed.
Lemma sat_complete m s t q a b c d e f g h i j k :
  calc_sat_hum (EP (complete m s) (Some t) q a b c d e f g h i j k) = EP (complete m s) (Some t) (Some (sat_spec_hum m t)) a b c d e f g h i j k.
Proof. reflexivity. Qed.
Lemma solve_complete m s dt t q ma lh sens moist latf hf adv melt so lo net :
  nsolve dt (EP (complete m s) (Some t) (Some q) (Some ma) (Some lh) (Some sens) moist (Some latf) (Some hf) (Some adv) (Some melt) so lo (Some net))
  = solve m s dt t q ma lh net sens latf adv hf melt.
Proof. reflexivity. Qed.
(** With complete values, the result is that of the energy balance of C22. *)
Definition agrees (q : epix) (r : eb_result) : Prop :=
  e_ts q = Some (r_temp r) /\ e_melt q = Some (r_melt r) /\ e_moist q = Some (r_moist r) /\ e_heat q = Some (r_heat r)
  /\ e_sens q = Some (r_sens r) /\ e_latf q = Some (r_lat r) /\ e_net q = Some (r_net r).
Theorem c99_complete : forall m s dt t p, ef p = complete m s -> e_ts p = Some t ->
  agrees (balance_pixel dt p) (multilayer_energy_balance m s dt t).
Proof.
  intros m s dt t [F ts qs ma lh sens moist latf hf adv melt so lo net] EFp ET. cbn [ef e_ts] in EFp, ET. subst F ts.
  unfold balance_pixel, balance_start. rewrite sat_complete, ma_complete, lh_complete. unfold set_melt at 1. steps. rewrite rest_complete.
  unfold multilayer_energy_balance. cbv zeta.
  set (q := sat_spec_hum m t). set (a := moisture_availability m s q). set (l := latent_heat m s t). set (nt := net_radiation m s t).
  set (h := surface_flux s t). set (se := sens_flux m s t). set (mf := moist_flux m s a q). set (ad := advective m dt t).
  unfold balance_melt. cbv zeta. rewrite solve_complete. set (c1 := solve m s dt t q a l nt se (l * mf) ad h 0).
  unfold warm. steps. unfold nadd at 1. steps. rewrite nlt_some.
  assert (TOP : nlt (Some 0) (f_top (complete m s)) = if Rlt_dec 0 (top_ice s) then true else false).
  { unfold f_top, top_ice. cbn [f_ices complete]. destruct (s_ices s); cbn; [|reflexivity]. destruct (Rlt_dec 0 0); auto. lra. }
  rewrite TOP.
  assert (FIN : forall t' q' a' l0 se' mf0 lf0 h' ad' me so' lo' n0 c,
     agrees (balance_end (EP (complete m s) (Some t') (Some q') (Some a') l0 (Some se') mf0 lf0 (Some h') ad' (Some me) so' lo' n0, c))
            (finish m s t' q' a' h' se' me c)).
  { intros. unfold balance_end. cbn [fst snd]. unfold add_changes. ops. unfold calc_radiation. ops. rewrite lh_complete. repeat split. }
  destruct (Rlt_dec T0 (t + d_temp c1)); cbn [andb]; [|apply FIN].
  destruct (Rlt_dec 0 (top_ice s)); cbn [andb]; [|apply FIN].
  unfold all_melted, set_melt. steps. rewrite nsum_some. rewrite solve_complete. set (c2 := solve m s dt t q a l nt se (l * mf) ad h (sumR (s_ices s))).
  unfold cold. steps. unfold nadd at 1. steps. rewrite nlt_some. destruct (Rlt_dec (t + d_temp c2) T0); [|apply FIN].
  unfold balance_at_melting. cbv zeta. unfold set_ts. steps. rewrite lh_complete, sat_complete, rest_complete. unfold partial_melt. ops. apply FIN.
Qed.
Print Assumptions c99_complete.

(** * Missing values *)
(** Values entering the balance *)
Definition inputs (p : epix) : list num :=
  let f := ef p in [f_temp f; f_wb f; f_wind f; f_q f; f_press f; f_rhoa f; f_swin f; f_lwin f; f_rain f; f_snow f; f_alb f; f_ch f; f_k f; f_th f; f_ltemp f].
Lemma nmap2_none f (x y : num) : x = None \/ y = None -> nmap2 f x y = None.
Proof. intros [-> | ->]; [reflexivity|]. destruct x; reflexivity. Qed.
Lemma start_fields dt p : ef (balance_start dt p) = ef p /\ e_ts (balance_start dt p) = e_ts p /\ e_melt (balance_start dt p) = Some 0.
Proof. destruct p. repeat split. Qed.
Ltac missing := repeat (rewrite nmap2_none; [reflexivity|]); auto.
Lemma solve_missing dt p v : In None (inputs p) \/ e_ts p = None -> nsolve dt (set_melt v (balance_start dt p)) = no_change.
Proof.
  intro H. unfold nsolve.
  set (P := set_melt v (balance_start dt p)).
  assert (EP1 : ef P = ef p /\ e_ts P = e_ts p) by (destruct p; split; reflexivity). destruct EP1 as [E1 E2].
  assert (NE : e_net P = nsub (nadd (nsub (f_swin (ef p)) (nmul (f_alb (ef p)) (f_swin (ef p)))) (f_lwin (ef p))) (nmap lw_out (e_ts p))) by (destruct p; reflexivity).
  assert (SE : e_sens P = nmul (nmul (Some SPEC_HEAT_CAP_DRY_AIR) (n_rcu (ef p))) (nsub (f_temp (ef p)) (e_ts p))) by (destruct p; reflexivity).
  assert (QE : e_qsat P = nmap2 specific_humidity (f_press (ef p)) (nmap (saturation_vapor_pressure None) (e_ts p))) by (destruct p; reflexivity).
  assert (ME : e_latf P = nmul (e_lh P) (nmul (nmul (e_ma P) (n_rcu (ef p))) (nsub (f_q (ef p)) (e_qsat P)))) by (destruct p; reflexivity).
  assert (HE : e_heat P = ndiv (nmul (nmul (Some 2) (f_k (ef p))) (nsub (e_ts p) (f_ltemp (ef p)))) (f_th (ef p))) by (destruct p; reflexivity).
  assert (AE : e_adv P = ndiv (nadd (nmul (nmul (Some SPEC_HEAT_CAP_WATER) (nsub (f_temp (ef p)) (e_ts p))) (f_rain (ef p)))
                 (nmul (nmul (Some SPEC_HEAT_CAP_ICE) (nsub (f_wb (ef p)) (e_ts p))) (f_snow (ef p)))) (Some dt)) by (destruct p; reflexivity).
  rewrite E1, E2.
  assert (N : nsub (nsub (nadd (nadd (nadd (e_net P) (e_sens P)) (e_latf P)) (e_adv P)) (e_heat P)) (nmul (Some Lf) (ndiv (e_melt P) (Some dt))) = None).
  { assert (K : e_net P = None \/ e_sens P = None \/ e_latf P = None \/ e_adv P = None \/ e_heat P = None).
    { rewrite NE, SE, ME, HE, AE, QE. unfold inputs in H. cbn in H. unfold n_rcu, nadd, nsub, nmul, ndiv.
      repeat match goal with H : _ \/ _ |- _ => destruct H as [H|H] end; try contradiction; rewrite H; clear;
      repeat match goal with |- context [match ?x with Some _ => _ | None => _ end] => destruct x end; cbn [nmap nmap2];
      auto 10;
      repeat match goal with |- context [nmap2 _ ?x None] => rewrite (nmap2_none _ x None) by auto end; auto 10;
      try (left; missing; fail); try (right; left; missing; fail); try (right; right; left; missing; fail). }
    clear -K. unfold nsub, nadd. destruct (e_net P), (e_sens P), (e_latf P), (e_adv P), (e_heat P); try reflexivity. repeat destruct K as [K|K]; discriminate. }
  rewrite N. unfold ndiv at 2. rewrite (nmap2_none Rdiv None _) by auto. unfold nmul, ndiv. cbn [nmap2]. 
  rewrite !(nmap2_none _ _ None) by auto. reflexivity.
Qed.


(** If any value is missing, the surface temperature stays as it is, and nothing melts where the surface is not warmer than the melting point
    or has no ice (c99_missing_melt_refuted for the other case). *)
Theorem c99_missing : forall dt p, In None (inputs p) \/ e_ts p = None ->
  let q := balance_pixel dt p in
  e_ts q = e_ts p /\ ef q = ef p
  /\ (e_ts p = None \/ (exists t, e_ts p = Some t /\ t <= T0) \/ f_top (ef p) = None \/ (exists x, f_top (ef p) = Some x /\ x <= 0) -> e_melt q = Some 0)
  /\ (forall t x, e_ts p = Some t -> T0 < t -> f_top (ef p) = Some x -> 0 < x -> e_melt q = nsum (f_ices (ef p))).
Proof.
  intros dt p H. cbv zeta. unfold balance_pixel. destruct (start_fields dt p) as (A & B & C).
  assert (NS : forall v, nsolve dt (set_melt v (balance_start dt p)) = no_change) by (intro v; apply solve_missing; auto).
  set (P := balance_start dt p) in *. clearbody P.
  assert (N0 : nsolve dt P = no_change) by (rewrite <- (NS (e_melt P)); destruct P; reflexivity).
  assert (END : forall Z, e_ts (balance_end (Z, no_change)) = e_ts Z /\ ef (balance_end (Z, no_change)) = ef Z /\ e_melt (balance_end (Z, no_change)) = e_melt Z).
  { intros Z. unfold balance_end, fst, snd.
    assert (K1 : forall q, e_ts (calc_turbulent false q) = e_ts q /\ ef (calc_turbulent false q) = ef q /\ e_melt (calc_turbulent false q) = e_melt q) by (intros q; destruct q; repeat split).
    assert (K2 : forall q, e_ts (calc_latent q) = e_ts q /\ ef (calc_latent q) = ef q /\ e_melt (calc_latent q) = e_melt q) by (intros q; destruct q; repeat split).
    assert (K3 : forall q, e_ts (calc_radiation q) = e_ts q /\ ef (calc_radiation q) = ef q /\ e_melt (calc_radiation q) = e_melt q) by (intros q; destruct q; repeat split).
    assert (K4 : e_ts (add_changes Z no_change) = e_ts Z /\ ef (add_changes Z no_change) = ef Z /\ e_melt (add_changes Z no_change) = e_melt Z).
    { destruct Z as [F [t|]]; unfold no_change; cbn; repeat split. f_equal. ring. }
    destruct (K1 (calc_latent (calc_radiation (add_changes Z no_change)))) as (-> & -> & ->). destruct (K2 (calc_radiation (add_changes Z no_change))) as (-> & -> & ->).
    destruct (K3 (add_changes Z no_change)) as (-> & -> & ->). exact K4. }
  assert (BM : balance_melt dt P = if warm P no_change then (all_melted P, no_change) else (P, no_change)).
  { unfold balance_melt. cbv zeta. rewrite N0. destruct (warm P no_change) eqn:W; auto. unfold all_melted. rewrite NS.
    assert (CO : cold (set_melt (nsum (f_ices (ef P))) P) no_change = false); [|rewrite CO; reflexivity].
    unfold warm, cold in *. apply andb_true_iff in W. destruct W as [W _]. cbn [set_melt e_ts d_temp no_change] in *. destruct (e_ts P) as [t|]; [|reflexivity].
    unfold nadd in *. cbn [nmap2] in *. rewrite nlt_some in *. destruct (Rlt_dec T0 (t + 0)); [|discriminate]. destruct (Rlt_dec (t + 0) T0); auto. lra. }
  assert (WI : warm P no_change = true <-> exists t x, e_ts p = Some t /\ T0 < t /\ f_top (ef p) = Some x /\ 0 < x).
  { unfold warm. rewrite A, B, andb_true_iff. cbn [d_temp no_change]. split.
    - intros [W1 W2]. destruct (e_ts p) as [t|]; [|discriminate]. destruct (f_top (ef p)) as [x|]; [|discriminate].
      unfold nadd in W1. cbn [nmap2] in W1. rewrite nlt_some in *. destruct (Rlt_dec T0 (t + 0)); [|discriminate]. destruct (Rlt_dec 0 x); [|discriminate].
      exists t, x. repeat split; auto. lra.
    - intros (t & x & -> & L1 & -> & L2). unfold nadd. cbn [nmap2]. rewrite !nlt_some. destruct (Rlt_dec T0 (t + 0)); [|lra]. destruct (Rlt_dec 0 x); [auto|lra]. }
  rewrite BM. destruct (warm P no_change).
  - destruct (END (all_melted P)) as (E1 & E2 & E3). rewrite E1, E2, E3. unfold all_melted, set_melt. cbn [e_ts ef GridBalanceModel.e_melt].
    split; auto. split; auto. split; [|intros; congruence].
    destruct WI as [WI _]. destruct (WI eq_refl) as (t & x & T1 & T2 & T3 & T4).
    intros [K|[(t' & K & L)|[K|(x' & K & L)]]]; rewrite ?T1, ?T3 in K; try discriminate; injection K as <-; lra.
  - destruct (END P) as (E1 & E2 & E3). rewrite E1, E2, E3. split; auto. split; auto. split; auto.
    intros t x T1 T2 T3 T4. destruct WI as [_ WI]. discriminate WI. eauto 10.
Qed.
Print Assumptions c99_missing.

(** Snow on a surface which was above the melting point: as long as a value is missing, all of it melts in every time step, however cold it is. *)
Definition snow_on_warm_ground (lwin : num) : epix :=
  EP (EF (Some 260) (Some 259) (Some 3) (Some 0.001) (Some 80000) (Some 1.1) (Some 0) lwin (Some 0) (Some 5) (Some 0.8) (Some 0.002) (Some 0.01)
         (Some 0.3) (Some 0.1) (Some 274) (Some 30) [Some 20; Some 10; Some 0])
     (Some 274) None None None None None None None None None None None None.
Theorem c99_missing_melt_refuted : forall dt, e_melt (balance_pixel dt (snow_on_warm_ground None)) = Some 30
  /\ e_ts (balance_pixel dt (snow_on_warm_ground None)) = Some 274.
Proof.
  intro dt. destruct (c99_missing dt (snow_on_warm_ground None)) as (A & _ & _ & B); [left; cbn; auto 20|].
  split; [|exact A]. rewrite (B 274 20 eq_refl ltac:(unfold T0; lra) eq_refl ltac:(lra)). unfold nsum, nadd, snow_on_warm_ground. cbn [ef f_ices fold_right nmap2]. f_equal. lra.
Qed.
Print Assumptions c99_missing_melt_refuted.
(** A grid with a pixel in the region with complete values, one with a missing value and one outside *)
Example c99_example : let g := [snow_on_warm_ground (Some 250); snow_on_warm_ground None; snow_on_warm_ground (Some 250)] in
  nth_error (grid_balance 3600 [true; true; false] g) 2 = Some (snow_on_warm_ground (Some 250))
  /\ (exists q, nth_error (grid_balance 3600 [true; true; false] g) 1 = Some q /\ e_melt q = Some 30)
  /\ ef (snow_on_warm_ground (Some 250)) = complete (MET 260 259 3 0.001 80000 1.1 0 250 0 5) (SRF 0.8 0.002 0.01 0.3 0.1 274 30 [20; 10; 0]).
Proof.
  intro g. destruct (c99_pixels 3600 [true; true; false] g) as [_ P]. split; [apply (P 2%nat _ eq_refl)|]. split; [|reflexivity].
  exists (balance_pixel 3600 (snow_on_warm_ground None)). split; [apply (P 1%nat (snow_on_warm_ground None) eq_refl)|]. apply (proj1 (c99_missing_melt_refuted 3600)).
Qed.
