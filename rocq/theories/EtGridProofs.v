(** The array program of EtGridModel computes every pixel on its own. *)
From Verif Require Import Common Constants AtmosphereModel MeteoFieldsModel GridBalanceModel CryoGridModel CanopyModel EtModel EtGridModel.
From Coq Require Import Permutation.
Open Scope R_scope.

(** * Masked arrays *)
Lemma take_update {A} (F : A -> A) (g : list A) : forall m, take (update g m F) m = map F (take g m).
Proof. unfold update. induction g as [|p g IH]; intros [|b m]; auto. destruct b; cbn; f_equal; auto. Qed.
Lemma update_update {A} (F G : A -> A) (g : list A) : forall m, update (update g m F) m G = update g m (fun p => G (F p)).
Proof. intro m. unfold update at 1. rewrite take_update, map_map. unfold update. revert m. induction g as [|p g IH]; intros [|b m]; auto. destruct b; cbn; f_equal; auto. Qed.
Lemma update_id {A} (g : list A) : forall m, update g m (fun p => p) = g.
Proof. unfold update. induction g as [|p g IH]; intros [|b m]; auto. destruct b; cbn; f_equal; auto. Qed.
Lemma update_len {A} (F : A -> A) (g : list A) : forall m, length (update g m F) = length g.
Proof. unfold update. induction g as [|p g IH]; intros [|b m]; auto. destruct b; cbn; f_equal; auto. Qed.
Lemma take_count {A} (g : list A) : forall m, length m = length g -> length (take g m) = count m.
Proof. unfold count. induction g as [|p g IH]; intros [|b m] L; try discriminate; auto. cbn in L. destruct b; cbn; auto. Qed.
Lemma map2_same {A B C D} (f : B -> C -> D) (L : A -> B) (M : A -> C) (l : list A) : map2 f (map L l) (map M l) = map (fun p => f (L p) (M p)) l.
Proof. unfold map2. induction l; cbn; f_equal; auto. Qed.
Lemma map2_left {A C D} (f : A -> C -> D) (M : A -> C) (l : list A) : map2 f l (map M l) = map (fun p => f p (M p)) l.
Proof. unfold map2. induction l; cbn; f_equal; auto. Qed.
Lemma map2_right {A C D} (f : C -> A -> D) (M : A -> C) (l : list A) : map2 f (map M l) l = map (fun p => f (M p) p) l.
Proof. unfold map2. induction l; cbn; f_equal; auto. Qed.
Lemma put_put {A} (F : A -> A) (g : list A) (l : A -> A) : forall m, put (update g m F) m (map l (take g m)) = update g m l.
Proof. unfold update. induction g as [|p g IH]; intros [|b m]; auto. destruct b; cbn; f_equal; auto. Qed.
Lemma assign_u g m F v L : length m = length g -> assign (update g m F) m v (map L (take g m)) = Some (update g m (fun p => setv v (L p) (F p))).
Proof. intro E. unfold assign. rewrite map_length, take_count, Nat.eqb_refl, take_update, map2_same, put_put by auto. reflexivity. Qed.
Lemma col_u v g m F : col v (update g m F) m = map (fun p => x_val (F p) v) (take g m).
Proof. unfold col. rewrite take_update, map_map. reflexivity. Qed.
Lemma fill_u g m F v x : fill (update g m F) m v x = update g m (fun p => setv v x (F p)).
Proof. unfold fill. rewrite update_update. reflexivity. Qed.
(** Submasks *)
Definition sub {A} (g : list A) (m : list bool) (c : A -> bool) : list bool := expand m (map c (take g m)).
Lemma global_sub {A} (g : list A) m c : length m = length g -> global_mask (map c (take g m)) m = Some (sub g m c).
Proof. intro E. unfold global_mask. rewrite map_length, take_count, Nat.eqb_refl by auto. reflexivity. Qed.
Lemma sub_len {A} (g : list A) c : forall m, length m = length g -> length (sub g m c) = length g.
Proof. unfold sub. induction g as [|p g IH]; intros [|b m] L; try discriminate; auto. cbn in L. destruct b; cbn; f_equal; auto. Qed.
Lemma sub_take {A} (g : list A) c F : forall m, length m = length g -> take (update g m F) (sub g m c) = map F (filter c (take g m)).
Proof.
  unfold sub, update. induction g as [|p g IH]; intros [|b m] L; try discriminate; auto. cbn in L.
  destruct b; cbn; [destruct (c p); cbn; f_equal; auto|auto].
Qed.
Lemma sub_count {A} (g : list A) c : forall m, length m = length g -> count (sub g m c) = length (filter c (take g m)).
Proof. intros m L. rewrite <- (take_count g), <- (update_id g m) at 1 by (apply sub_len; auto). rewrite sub_take, map_length by auto. reflexivity. Qed.
Lemma sub_put {A} (g : list A) (c : A -> bool) F G : forall m, length m = length g ->
  put (update g m F) (sub g m c) (map G (filter c (take g m))) = update g m (fun p => if c p then G p else F p).
Proof.
  unfold sub, update. induction g as [|p g IH]; intros [|b m] L; try discriminate; auto. cbn in L.
  destruct b; cbn; [destruct (c p); cbn; f_equal; auto|f_equal; auto].
Qed.
Lemma assign_sub g m F v (c : xpix -> bool) L : length m = length g ->
  assign (update g m F) (sub g m c) v (map L (filter c (take g m))) = Some (update g m (fun p => if c p then setv v (L p) (F p) else F p)).
Proof. intro E. unfold assign. rewrite map_length, sub_count, Nat.eqb_refl, sub_take, map2_same, sub_put by auto. reflexivity. Qed.
Lemma col_sub v g m F c : length m = length g -> col v (update g m F) (sub g m c) = map (fun p => x_val (F p) v) (filter c (take g m)).
Proof. intro E. unfold col. rewrite sub_take, map_map by auto. reflexivity. Qed.
Lemma fill_sub g m F v x (c : xpix -> bool) : length m = length g -> fill (update g m F) (sub g m c) v x = update g m (fun p => if c p then setv v x (F p) else F p).
Proof. intro E. unfold fill. unfold update at 1. rewrite sub_take, map_map, sub_put by auto. reflexivity. Qed.
Lemma local_sub {A} (l : list A) (c : A -> bool) (L M : A -> num) :
  assign_local (map L l) (map c l) (map M (filter c l)) = Some (map (fun p => if c p then M p else L p) l).
Proof.
  unfold assign_local. rewrite map_length. replace (count (map c l)) with (length (filter c l)).
  - rewrite Nat.eqb_refl. f_equal. induction l as [|p l IH]; auto. cbn. destruct (c p); cbn; f_equal; auto.
  - unfold count. induction l as [|p l IH]; auto. cbn. destruct (c p); cbn; auto.
Qed.
Lemma map_const {A B} (b : B) (l : list A) : repeat b (length l) = map (fun _ => b) l.
Proof. induction l; cbn; f_equal; auto. Qed.
Lemma update_ext {A} (F G : A -> A) (g : list A) m : (forall p, F p = G p) -> update g m F = update g m G.
Proof. intro E. unfold update. f_equal. apply map_ext. auto. Qed.

Ltac nf := repeat first [rewrite col_u | rewrite map_map | rewrite map2_same].
Ltac nfs := repeat first [rewrite col_sub by auto | rewrite map_map | rewrite map2_same].

(** * Pixels *)
Definition single_px (p : xpix) : xpix := setv Et (nmul (x_val p CropCoeff) (fixnan (x_val p EtRef))) p.
Lemma single_u g m F : length m = length g -> single_coeff (update g m F) m = Some (update g m (fun p => single_px (F p))).
Proof. intro E. unfold single_coeff. cbv zeta. nf. rewrite assign_u by auto. reflexivity. Qed.
Definition stress_px (p : xpix) : xpix := setv Stress (ratio01 (nsub (x_val p Taw) (x_val p Dr)) (nsub (x_val p Taw) (x_val p Raw))) p.
Lemma stress_u g m F : length m = length g -> water_stress (update g m F) m = Some (update g m (fun p => stress_px (F p))).
Proof. intro E. unfold water_stress. nf. rewrite assign_u by auto. reflexivity. Qed.
Definition root_px (p : xpix) : xpix :=
  let r := fixnan (x_val p Rain) in
  let p1 := setv Dp (nmax0 (nsub (nsub r (x_val p Et)) (x_val p Dr))) p in
  let p2 := setv Dr (nmax0 (nadd (nadd (nsub (x_val p1 Dr) r) (x_val p1 Et)) (x_val p1 Dp))) p1 in
  setv Dr (nmap2 Rmin (x_val p2 Dr) (x_val p2 Taw)) p2.
Lemma root_u g m F : length m = length g -> root_balance (update g m F) m = Some (update g m (fun p => root_px (F p))).
Proof.
  intro E. unfold root_balance. cbv zeta. repeat (nf; rewrite assign_u by auto; cbn [bind]). reflexivity.
Qed.
Lemma assign_e g m F v L : length m = length g -> exists F', assign (update g m F) m v (map L (take g m)) = Some (update g m F') /\ forall p, F' p = setv v (L p) (F p).
Proof. intro E. exists (fun p => setv v (L p) (F p)). split; [apply assign_u; auto|auto]. Qed.
Definition mx_px (p : xpix) : num := nmap2 Rmax (nmap (fun x => 1.2 + x) (x_val p Clim)) (nmap (fun x => x + 0.05) (x_val p BasalCoeff)).
Definition ex_px (cfg : etcfg) (c : lcpar) (p : xpix) : num :=
  nmap (fun v => Rmin (1 - v) 1)
    match c_sparse c with
    | Some v => Some v
    | None => nmap2 Rpower (ndiv (nmap (fun x => Rmax (x - g_kmin cfg) 0.01) (x_val p BasalCoeff)) (nmap (fun x => x - g_kmin cfg) (mx_px p)))
                (nmap (fun h => 1 + 0.5 * h) (x_val p Height))
    end.
Definition red_px (p : xpix) : num :=
  if ngt (x_val p De) (x_val p Rew) then ndiv (nsub (x_val p Tew) (x_val p De)) (nsub (x_val p Tew) (x_val p Rew)) else Some 1.
Definition d1 (red mx ex : num) (p : xpix) := setv EvapCoeff (nmap2 Rmin (nmul red (nsub mx (x_val p BasalCoeff))) (nmul ex mx)) p.
Definition d2 (p : xpix) := setv CropCoeff (nadd (x_val p BasalCoeff) (x_val p EvapCoeff)) p.
Definition d3 (e0 : num) (p : xpix) := setv Evap (nmul (x_val p EvapCoeff) e0) p.
Definition d4 (e0 : num) (p : xpix) := setv Transp (nmul (x_val p BasalCoeff) e0) p.
Definition d5 (p : xpix) := setv Et (nadd (x_val p Evap) (x_val p Transp)) p.
Definition d6 (p : xpix) := setv Dpe (nmax0 (nsub (fixnan (x_val p Rain)) (x_val p Dpe))) p.
Definition d7 (r ex : num) (p : xpix) := setv De (nmax0 (nadd (nadd (nsub (x_val p De) r) (ndiv0 (x_val p Evap) ex)) (x_val p Dpe))) p.
Definition d8 (p : xpix) := setv De (nmap2 Rmin (x_val p De) (x_val p Tew)) p.
Definition dual_px (cfg : etcfg) (c : lcpar) (p : xpix) : xpix :=
  let e0 := fixnan (x_val p EtRef) in
  let p5 := d5 (d4 e0 (d3 e0 (d2 (d1 (red_px p) (mx_px p) (ex_px cfg c p) p)))) in
  d8 (d7 (fixnan (x_val p5 Rain)) (ex_px cfg c p) (d6 p5)).
Lemma dual_u cfg c g m F : length m = length g -> dual_coeff cfg c (update g m F) m = Some (update g m (fun p => dual_px cfg c (F p))).
Proof.
  intro E. unfold dual_coeff. cbv zeta.
  match goal with |- context [match c_sparse c with Some v => @?a v | None => ?b end] => set (vf := match c_sparse c with Some v => a v | None => b end) end.
  assert (X : map (nmap (fun v => Rmin (1 - v) 1)) vf = map (fun p => ex_px cfg c (F p)) (take g m)).
  { unfold vf, ex_px. destruct (c_sparse c); [rewrite take_update|]; nf; reflexivity. }
  clearbody vf. rewrite X. clear X vf.
  assert (Y : map2 (nmap2 Rmax) (map (nmap (fun x => 1.2 + x)) (col Clim (update g m F) m)) (map (nmap (fun x => x + 0.05)) (col BasalCoeff (update g m F) m))
              = map (fun p => mx_px (F p)) (take g m)) by (nf; reflexivity).
  rewrite Y. clear Y. rewrite (col_u De), (col_u Rew), map2_same, global_sub by auto. cbn [bind]. nfs. rewrite <- (take_count g m), map_const, local_sub by auto. cbn [bind].
  change (map (fun p => if ngt (x_val (F p) De) (x_val (F p) Rew) then _ else _) (take g m)) with (map (fun p => red_px (F p)) (take g m)).
  nf. edestruct (assign_e g m F) as (F1 & -> & E1); [auto|]. cbn [bind].
  nf. edestruct (assign_e g m F1) as (F2 & -> & E2); [auto|]. cbn [bind].
  nf. edestruct (assign_e g m F2) as (F3 & -> & E3); [auto|]. cbn [bind].
  nf. edestruct (assign_e g m F3) as (F4 & -> & E4); [auto|]. cbn [bind].
  nf. edestruct (assign_e g m F4) as (F5 & -> & E5); [auto|]. cbn [bind].
  nf. edestruct (assign_e g m F5) as (F6 & -> & E6); [auto|]. cbn [bind].
  nf. edestruct (assign_e g m F6) as (F7 & -> & E7); [auto|]. cbn [bind].
  nf. rewrite assign_u by auto. f_equal. apply update_ext. intro p.
  specialize (E1 p). specialize (E2 p). specialize (E3 p). specialize (E4 p). specialize (E5 p). specialize (E6 p). specialize (E7 p).
  change (d8 (F7 p) = dual_px cfg c (F p)). 
  change (F7 p = d7 (fixnan (x_val (F5 p) Rain)) (ex_px cfg c (F p)) (F6 p)) in E7.
  change (F6 p = d6 (F5 p)) in E6. change (F5 p = d5 (F4 p)) in E5. change (F4 p = d4 (fixnan (x_val (F p) EtRef)) (F3 p)) in E4.
  change (F3 p = d3 (fixnan (x_val (F p) EtRef)) (F2 p)) in E3. change (F2 p = d2 (F1 p)) in E2.
  change (F1 p = d1 (red_px (F p)) (mx_px (F p)) (ex_px cfg c (F p)) (F p)) in E1.
  unfold dual_px. cbv zeta. rewrite <- E1, <- E2, <- E3, <- E4, <- E5, <- E6, <- E7. reflexivity.
Qed.
Definition pot_px (cfg : etcfg) (c : lcpar) (p : xpix) : num :=
  let zom := 0.123 * c_height c in
  let d := 2 / 3 * c_height c in
  let ra := nmap (fun w => ln ((g_hwind cfg - d) / zom) * ln ((g_htemp cfg - d) / (0.1 * zom)) / (VON_KARMAN ^ 2 * w)) (x_val p Wind) in
  let D := nmap (fun t => 1000 * svp_slope (t - T0)) (x_val p Temp) in
  let gamma := x_val p Psych in
  let rhoa := nmul (nmap (fun p => p / GAS_CONSTANT_DRY_AIR) (x_val p Press)) (nmap (fun t => 1.01 * t) (x_val p Temp)) in
  let cp := ndiv (nmap (fun x => x * 0.622 * Lv) gamma) (x_val p Press) in
  let upper := nadd (nmul D (nsub (x_val p RefNet) (x_val p SoilFlux))) (ndiv (nmul (nmul rhoa cp) (nsub (x_val p Es) (x_val p Ea))) ra) in
  let lower := nadd D (nmul gamma (nmap (fun r => 1 + 0 / r) ra)) in
  nmap (fun x => x / Lv * g_dt cfg) (fixnan (nmax0 (ndiv upper lower))).
Definition rain_px (c : lcpar) (p : xpix) : xpix :=
  let p1 := setv Inter (nadd (x_val p Inter) (fixnan (x_val p Rain))) p in
  let ro := nmap (fun x => Rmax (x - c_maxint c) 0) (x_val p1 Inter) in
  let p2 := setv Inter (nsub (x_val p1 Inter) ro) p1 in
  setv Evap (Some 0) (setv Dp ro p2).
Definition dry_px (cfg : etcfg) (c : lcpar) (p : xpix) : xpix :=
  let p1 := setv Evap (nmap2 Rmin (pot_px cfg c p) (x_val p Inter)) p in
  setv Inter (nsub (x_val p1 Inter) (x_val p1 Evap)) p1.
Definition sealed_px (cfg : etcfg) (c : lcpar) (p : xpix) : xpix :=
  let p' := if gt0 (x_val p Rain) then rain_px c p else dry_px cfg c p in
  let p'' := setv Transp (Some 0) p' in
  setv Et (nadd (x_val p'' Evap) (x_val p'' Transp)) p''.
Lemma filter_map_eq {A B} (f h : A -> B) (c : A -> bool) (l : list A) : (forall p, c p = true -> f p = h p) -> map f (filter c l) = map h (filter c l).
Proof. intro H. induction l as [|p l IH]; auto. cbn. destruct (c p) eqn:E; cbn; auto. f_equal; auto. Qed.
Lemma sealed_u cfg c g m F : length m = length g -> sealed_evaporation cfg c (update g m F) m = Some (update g m (fun p => sealed_px cfg c (F p))).
Proof.
  intro E. unfold sealed_evaporation. cbv zeta. nf. rewrite !global_sub by auto. cbn [bind]. rewrite ?global_sub by auto. cbn [bind].
  set (w := fun p => gt0 (x_val (F p) Rain)).
  do 3 (nfs; rewrite assign_sub by auto; cbn [bind]). rewrite fill_sub by auto.
  match goal with |- context [update g m ?G] => set (F1 := G) end.
  assert (E1 : forall p, F1 p = if w p then rain_px c (F p) else F p) by (intro p; unfold F1, rain_px, w; destruct (gt0 (x_val (F p) Rain)); reflexivity). clearbody F1.
  nfs. rewrite assign_sub by auto. cbn [bind]. nfs. rewrite assign_sub by auto. cbn [bind].
  match goal with |- context [update g m ?G] => set (F2 := G) end.
  assert (E2 : forall p, F2 p = if w p then rain_px c (F p) else dry_px cfg c (F p)).
  { intro p. unfold F2. cbv beta. rewrite E1. unfold w. destruct (gt0 (x_val (F p) Rain)); reflexivity. }
  clearbody F2. rewrite fill_u. nf. rewrite assign_u by auto. f_equal. apply update_ext. intro p. rewrite E2. reflexivity.
Qed.
(** Reference evapotranspiration *)
Definition r1 (p : xpix) : xpix :=
  setv RefNet (nadd (nmul (nmap (fun a => 1 - a) (x_val p RefAlbedo)) (x_val p Sw))
                    (nsub (x_val p Lw) (nmul (nmap (fun e => STEFAN_BOLTZMANN * e) (x_val p RefEmis)) (nmap (fun t => t ^ 4) (x_val p Temp))))) p.
Definition r2 (d : etday) (p : xpix) : xpix := setv SoilFlux (nmap (fun x => (if d_sun d then 0.1 else 0.5) * x) (x_val p RefNet)) p.
Definition et0_px (cfg : etcfg) (p : xpix) : num :=
  let conv := 1 / 1000000 * SECONDS_PER_HOUR in
  let Rn := nmap (fun x => x * conv) (x_val p RefNet) in
  let G := nmap (fun x => x * conv) (x_val p SoilFlux) in
  let T := nmap (fun t => t - T0) (x_val p Temp) in
  let D := nmap svp_slope T in
  let gamma := nmap (fun x => x / 1000) (x_val p Psych) in
  let es := nmap (fun x => x / 1000) (x_val p Es) in
  let ea := nmap (fun x => x / 1000) (x_val p Ea) in
  let u2 := nmap (fun w => log_wind_profile w (g_hwind cfg) 2 0.03) (x_val p Wind) in
  let upper := nadd (nmul (nmap (fun s => 0.408 * s) D) (nsub Rn G))
    (nmul (nmul (ndiv (nmap (fun x => x * 37) gamma) (nmap (fun t => t + 273) T)) u2) (nsub es ea)) in
  let lower := nadd D (nmul gamma (nmap (fun u => 1 + 0.34 * u) u2)) in
  nmap (fun x => x * g_dt cfg / SECONDS_PER_HOUR) (nmax0 (ndiv upper lower)).
Definition ref_px (cfg : etcfg) (d : etday) (p : xpix) : xpix := let q := r2 d (r1 p) in setv EtRef (et0_px cfg q) q.
Lemma roi_ext g m F G : (forall p, x_roi (F p) = x_roi (G p)) -> roi_of (update g m F) = roi_of (update g m G).
Proof. intro H. unfold roi_of, update. revert m. induction g as [|p g IH]; intros [|b m]; auto. destruct b; cbn; f_equal; auto. Qed.
Lemma ref_u cfg d g m F : length m = length g -> roi_of (update g m F) = m ->
  reference_evapotranspiration cfg d (update g m F) = Some (update g m (fun p => ref_px cfg d (F p))).
Proof.
  intros E R. unfold reference_evapotranspiration, reference_net. cbv zeta. rewrite R. nf.
  edestruct (assign_e g m F) as (F1 & -> & E1); [auto|]. cbn [bind].
  assert (R1 : roi_of (update g m F1) = m) by (rewrite <- R at 2; apply roi_ext; intro p; rewrite E1; reflexivity). rewrite R1. nf.
  edestruct (assign_e g m F1) as (F2 & -> & E2); [auto|]. cbn [bind].
  nf. rewrite assign_u by auto. f_equal. apply update_ext. intro p. specialize (E1 p). specialize (E2 p).
  change (F1 p = r1 (F p)) in E1. change (F2 p = r2 d (F1 p)) in E2. unfold ref_px. cbv zeta. rewrite <- E1, <- E2. reflexivity.
Qed.
(** * One class *)
Lemma update_sub {A} (g : list A) (c : A -> bool) F G m : length m = length g ->
  update (update g m F) (sub g m c) G = update g m (fun p => if c p then G (F p) else F p).
Proof. intro E. unfold update at 1. rewrite sub_take, map_map, sub_put by auto. reflexivity. Qed.
Lemma sub_true {A} (g : list A) : forall m, length m = length g -> sub g m (fun _ => true) = m.
Proof. unfold sub. induction g as [|p g IH]; intros [|b m] L; try discriminate; auto. cbn in L. destruct b; cbn; f_equal; auto. Qed.
Lemma sub_false {A} (g : list A) : forall m, length m = length g -> sub g m (fun _ => false) = map (fun _ => false) m.
Proof. unfold sub. induction g as [|p g IH]; intros [|b m] L; try discriminate; auto. cbn in L. destruct b; cbn; f_equal; auto. Qed.
(** m lies within the region *)
Definition within (m roi : list bool) : Prop := Forall2 (fun a b => a = true -> b = true) m roi.
Lemma within_len m roi : within m roi -> length m = length roi.
Proof. induction 1; cbn; auto. Qed.
Lemma expand_within {A} (s : A -> bool) g : forall roi m, within m roi -> length roi = length g ->
  global_mask (map2 andb (take m roi) (map s (take g roi))) roi = Some (sub g m s).
Proof.
  intros roi m W L. unfold global_mask. unfold map2. rewrite map_length, combine_length, map_length, !take_count by (rewrite ?(within_len _ _ W); auto).
  rewrite Nat.min_id, Nat.eqb_refl. f_equal. unfold sub. revert g L. induction W as [|a b m roi AB W IH]; intros [|p g] L; try discriminate; auto.
  cbn in L. destruct a, b; cbn; try (specialize (AB eq_refl); discriminate); f_equal; auto.
Qed.
Lemma expand_self : forall roi m, within m roi -> global_mask (take m roi) roi = Some m.
Proof.
  intros roi m W. unfold global_mask. rewrite take_count, Nat.eqb_refl by (symmetry; apply within_len; auto). f_equal.
  induction W as [|a b m roi AB W IH]; auto. destruct a, b; cbn; try (specialize (AB eq_refl); discriminate); f_equal; auto.
Qed.
Definition snow_px (dual : bool) (p : xpix) : xpix := if dual then setv Et (Some 0) (setv Transp (Some 0) (setv Evap (Some 0) p)) else setv Et (Some 0) p.
Definition coeff_px (cfg : etcfg) (d : etday) (c : lcpar) (p : xpix) : xpix :=
  let k := class_kc cfg d c (x_val p Clim) in
  setv (if c_dual c then BasalCoeff else CropCoeff) (fst k) (setv Height (snd k) p).
Definition crop_px (cfg : etcfg) (c : lcpar) (p : xpix) : xpix := if c_dual c then dual_px cfg c p else single_px p.
Definition adj_px (dual : bool) (p : xpix) : xpix :=
  if dual then let q := setv Transp (nmul (x_val p Transp) (x_val p Stress)) p in setv Et (nadd (x_val q Evap) (x_val q Transp)) q
  else setv Et (nmul (x_val p Et) (x_val p Stress)) p.
Definition class_px (cfg : etcfg) (d : etday) (c : lcpar) (snow : bool) (p : xpix) : xpix :=
  if c_sealed c then (if snow then snow_px true p else sealed_px cfg c p)
  else
    let snow := snow && negb (c_water c) in
    let p := coeff_px cfg d c p in
    let p := if snow then snow_px (c_dual c) p else crop_px cfg c p in
    if c_water c then p else root_px (if snow then p else adj_px (c_dual c) (stress_px p)).
Lemma on_sub (f : list xpix -> list bool -> option (list xpix)) (fp : xpix -> xpix) :
  (forall g m F, length m = length g -> f (update g m F) m = Some (update g m (fun p => fp (F p)))) ->
  forall g m F c, length m = length g -> exists F', f (update g m F) (sub g m c) = Some (update g m F') /\ forall p, F' p = if c p then fp (F p) else F p.
Proof.
  intros H g m F c E. exists (fun p => if c p then fp (F p) else F p). split; auto. rewrite <- update_sub by auto.
  specialize (H (update g m F) (sub g m c) (fun p => p)). rewrite update_id in H. apply H. rewrite sub_len, update_len; auto.
Qed.
Lemma class_step_u cfg d c s g m : within m (roi_of g) ->
  class_step cfg d (map s (take g (roi_of g))) g m c = Some (update g m (fun p => class_px cfg d c (s p) p)).
Proof.
  intro W. assert (L : length m = length g) by (rewrite (within_len _ _ W); unfold roi_of; apply map_length).
  assert (LR : length (roi_of g) = length g) by (unfold roi_of; apply map_length).
  unfold class_step. cbv zeta. rewrite map_map. rewrite !expand_within by auto. cbn [bind]. rewrite ?expand_within by auto. cbn [bind].
  remember (roi_of g) as roi eqn:RR. set (F0 := fun p : xpix => p). assert (GI : update g m F0 = g) by apply update_id.
  destruct (c_sealed c) eqn:SE.
  - assert (FG : forall v c' x, fill g (sub g m c') v x = fill (update g m F0) (sub g m c') v x) by (intros; rewrite GI; auto). rewrite FG. rewrite !fill_sub by auto.
    match goal with |- sealed_evaporation _ _ (update g m ?G) _ = _ => set (F1 := G) end.
    assert (E1 : forall p, F1 p = if s p then snow_px true p else p) by (intro p; unfold F1, F0, snow_px; destruct (s p); reflexivity). clearbody F1.
    destruct (on_sub (sealed_evaporation cfg c) (sealed_px cfg c) (sealed_u cfg c) g m F1 (fun p => negb (s p)) L) as (F2 & -> & E2).
    f_equal. apply update_ext. intro p. rewrite E2, E1. unfold class_px. rewrite SE. destruct (s p); reflexivity.
  - assert (E0 : assign g m Height (map (fun x => snd (class_kc cfg d c x)) (col Clim g m)) = assign (update g m F0) m Height (map (fun p => snd (class_kc cfg d c (x_val p Clim))) (take g m))).
    { rewrite GI. unfold col. rewrite map_map. reflexivity. }
    rewrite E0. edestruct (assign_e g m F0) as (F1 & -> & E1); [auto|]. cbn [bind].
    assert (K : map (fun x => fst (class_kc cfg d c x)) (col Clim g m) = map (fun p => fst (class_kc cfg d c (x_val p Clim))) (take g m)) by (unfold col; rewrite map_map; reflexivity).
    rewrite K. clear K E0.
    set (sn := fun p => s p && negb (c_water c)).
    assert (MK : (if c_water c then bind (global_mask (take m roi) roi) (fun m0 => Some (m0, map (fun _ => false) m0)) else Some (sub g m (fun x => negb (s x)), sub g m s))
                 = Some (sub g m (fun p => negb (sn p)), sub g m sn)).
    { unfold sn. destruct (c_water c).
      - rewrite expand_self by auto. cbn [bind]. do 2 f_equal.
        + rewrite <- (sub_true g m) at 1 by auto. unfold sub. f_equal. apply map_ext. intro p. rewrite andb_false_r. auto.
        + rewrite <- (sub_false g m) by auto. unfold sub. f_equal. apply map_ext. intro p. rewrite andb_false_r. auto.
      - do 2 f_equal; unfold sub; f_equal; apply map_ext; intro p; rewrite andb_true_r; auto. }
    rewrite MK. cbn [bind fst snd]. clear MK.
    assert (P : exists F3, (if c_dual c
       then bind (assign (update g m F1) m BasalCoeff (map (fun p => fst (class_kc cfg d c (x_val p Clim))) (take g m))) (fun g0 => bind (dual_coeff cfg c g0 (sub g m (fun p => negb (sn p))))
              (fun g1 => Some (fill (fill (fill g1 (sub g m sn) Evap (Some 0)) (sub g m sn) Transp (Some 0)) (sub g m sn) Et (Some 0))))
       else bind (assign (update g m F1) m CropCoeff (map (fun p => fst (class_kc cfg d c (x_val p Clim))) (take g m))) (fun g0 => bind (single_coeff g0 (sub g m (fun p => negb (sn p))))
              (fun g1 => Some (fill g1 (sub g m sn) Et (Some 0))))) = Some (update g m F3)
       /\ forall p, F3 p = if sn p then snow_px (c_dual c) (coeff_px cfg d c p) else crop_px cfg c (coeff_px cfg d c p)).
    { unfold coeff_px, crop_px. destruct (c_dual c); (edestruct (assign_e g m F1) as (F2 & -> & E2); [auto|]); cbn [bind].
      - edestruct (on_sub (dual_coeff cfg c) (dual_px cfg c) (dual_u cfg c) g m F2) as (F3 & -> & E3); [auto|]. cbn [bind]. rewrite !fill_sub by auto.
        eexists; split; [reflexivity|]. intro p. cbv beta. rewrite !E3, !E2, !E1. unfold F0. destruct (sn p); reflexivity.
      - edestruct (on_sub single_coeff single_px single_u g m F2) as (F3 & -> & E3); [auto|]. cbn [bind]. rewrite !fill_sub by auto.
        eexists; split; [reflexivity|]. intro p. cbv beta. rewrite !E3, !E2, !E1. unfold F0. destruct (sn p); reflexivity. }
    destruct P as (F3 & -> & E3). cbn [bind].
    assert (CP : forall p, class_px cfg d c (s p) p = if c_water c then F3 p else root_px (if sn p then F3 p else adj_px (c_dual c) (stress_px (F3 p)))).
    { intro p. unfold class_px. rewrite SE. cbv zeta. fold (sn p). rewrite E3. destruct (sn p); reflexivity. }
    destruct (c_water c).
    { f_equal. apply update_ext. intro p. rewrite CP. auto. }
    edestruct (on_sub water_stress stress_px stress_u g m F3) as (F4 & -> & E4); [auto|]. cbn [bind].
    assert (P : exists F5, (if c_dual c
        then bind (assign (update g m F4) (sub g m (fun p => negb (sn p))) Transp (map2 nmul (col Transp (update g m F4) (sub g m (fun p => negb (sn p)))) (col Stress (update g m F4) (sub g m (fun p => negb (sn p))))))
               (fun g0 => assign g0 (sub g m (fun p => negb (sn p))) Et (map2 nadd (col Evap g0 (sub g m (fun p => negb (sn p)))) (col Transp g0 (sub g m (fun p => negb (sn p))))))
        else assign (update g m F4) (sub g m (fun p => negb (sn p))) Et (map2 nmul (col Et (update g m F4) (sub g m (fun p => negb (sn p)))) (col Stress (update g m F4) (sub g m (fun p => negb (sn p))))))
        = Some (update g m F5) /\ forall p, F5 p = if sn p then F4 p else adj_px (c_dual c) (F4 p)).
    { unfold adj_px. destruct (c_dual c).
      - nfs. rewrite assign_sub by auto. cbn [bind]. nfs. rewrite assign_sub by auto. eexists; split; [reflexivity|]. intro p. cbv beta. destruct (sn p); reflexivity.
      - nfs. rewrite assign_sub by auto. eexists; split; [reflexivity|]. intro p. cbv beta. destruct (sn p); reflexivity. }
    destruct P as (F5 & -> & E5). cbn [bind]. rewrite root_u by auto. f_equal. apply update_ext. intro p. rewrite CP, E5, E4. destruct (sn p); reflexivity.
Qed.
(** * Loops over the classes *)
Lemma update_map {A} (b : A -> bool) (F : A -> A) (g : list A) : update g (map b g) F = map (fun p => if b p then F p else p) g.
Proof. unfold update. induction g as [|p g IH]; auto. cbn. destruct (b p); cbn; f_equal; auto. Qed.
Lemma f2_impl {A B} (P Q : A -> B -> Prop) l m : (forall x y, P x y -> Q x y) -> Forall2 P l m -> Forall2 Q l m.
Proof. intros H. induction 1; constructor; auto. Qed.
Definition kb (k : Z) (p : xpix) : bool := (x_lc p =? k)%Z && x_roi p.
Lemma class_mask_kb g k : class_mask g k = map (kb k) g.
Proof. unfold class_mask, roi_of. rewrite map2_same. reflexivity. Qed.
Definition frame (p q : xpix) : Prop := x_roi p = x_roi q /\ x_lc p = x_lc q /\ x_tex p = x_tex q.
Lemma frame_mask g0 g k : Forall2 frame g0 g -> map (kb k) g0 = map (kb k) g.
Proof. induction 1 as [|p q g0 g (A & B & _) _ IH]; auto. cbn. unfold kb at 1 3. rewrite A, B. f_equal; auto. Qed.
Lemma frame_roi g0 g : Forall2 frame g0 g -> roi_of g0 = roi_of g.
Proof. unfold roi_of. induction 1 as [|p q g0 g (A & _) _ IH]; auto. cbn. f_equal; auto. Qed.
Lemma frame_occurring classes g0 g : Forall2 frame g0 g -> occurring classes g0 = occurring classes g.
Proof.
  intro H. unfold occurring. replace (map x_lc (take g0 (roi_of g0))) with (map x_lc (take g (roi_of g))); auto.
  unfold roi_of. induction H as [|p q g0 g (A & B & _) _ IH]; auto. cbn. rewrite A. destruct (x_roi q); cbn; rewrite ?B; [f_equal|]; auto.
Qed.
Definition cls (fp : lcpar -> xpix -> xpix) (classes : list (Z * lcpar)) (p : xpix) : xpix :=
  if x_roi p && (0 <? x_lc p)%Z then match lookup (x_lc p) classes with Some c => fp c p | None => p end else p.
Lemma within_kb k g : within (map (kb k) g) (roi_of g).
Proof. unfold within, roi_of. induction g as [|p g IH]; cbn; constructor; auto. unfold kb. intro H. apply andb_true_iff in H. tauto. Qed.
Lemma each_loop (same : xpix -> xpix -> Prop) (f : list xpix -> list bool -> lcpar -> option (list xpix)) fp classes g0
  (SF : forall p q, same p q -> frame p q) (PF : forall c p, frame p (fp c p)) (PS : forall c p q, same p q -> same p (fp c q))
  (Hf : forall g k c, Forall2 same g0 g -> f g (map (kb k) g0) c = Some (update g (map (kb k) g0) (fp c))) :
  forall order g, Forall2 same g0 g -> (forall k, In k order -> lookup k classes <> None) -> NoDup order ->
  each (map (fun k => (k, map (kb k) g0)) order) classes f g
  = Some (map (fun p => if x_roi p && existsb (Z.eqb (x_lc p)) order then match lookup (x_lc p) classes with Some c => fp c p | None => p end else p) g).
Proof.
  induction order as [|k order IH]; intros g SG KN ND.
  - cbn. f_equal. symmetry. rewrite <- (map_id g) at 2. apply map_ext. intro p. rewrite andb_false_r. auto.
  - cbn [map each]. destruct (lookup k classes) as [c|] eqn:LK; [|elim (KN k); cbn; auto]. rewrite Hf by auto. cbn [bind].
    assert (M : map (kb k) g0 = map (kb k) g) by (apply frame_mask; eapply f2_impl; eauto).
    rewrite M, update_map. inversion ND as [|? ? NI ND']; subst. rewrite IH.
    + rewrite map_map. f_equal. apply map_ext. intro p. cbn [existsb]. unfold kb.
      destruct (Z.eqb_spec (x_lc p) k) as [E|N]; cbn [andb orb].
      * subst k. rewrite LK. destruct (x_roi p) eqn:RO; cbn [andb]; rewrite ?RO; cbn [andb]; auto.
        destruct (PF c p) as (A & B & _). rewrite <- A, <- B, RO. cbn [andb].
        destruct (existsb (Z.eqb (x_lc p)) order) eqn:EX; auto. apply existsb_exists in EX. destruct EX as (z & I & E). apply Z.eqb_eq in E. subst z. contradiction.
      * auto.
    + clear - SG PS. induction SG as [|p q g0 g S0 _ IH]; cbn; constructor; auto. destruct (kb k q); auto.
    + intros z I. apply KN. right; auto.
    + auto.
Qed.
Lemma take_in {A} (b : A -> bool) (g : list A) p : In p g -> b p = true -> In p (take g (map b g)).
Proof. induction g as [|q g IH]; cbn; auto. intros [->|I] B; [rewrite B; left; auto|]. destruct (b q); [right|]; auto. Qed.
Lemma occurring_spec classes g k : In k (occurring classes g) -> (0 < k)%Z /\ lookup k classes <> None.
Proof. unfold occurring. rewrite filter_In. intros (_ & H). apply andb_true_iff in H. destruct H as (A & B). apply Z.ltb_lt in A. split; auto. intro E. rewrite E in B. discriminate. Qed.
Lemma occurring_nodup classes g : NoDup (occurring classes g).
Proof. unfold occurring. apply NoDup_filter. apply NoDup_nodup. Qed.
Lemma in_order classes g p order : Permutation order (occurring classes g) -> In p g -> x_roi p = true ->
  existsb (Z.eqb (x_lc p)) order = ((0 <? x_lc p)%Z && match lookup (x_lc p) classes with Some _ => true | None => false end).
Proof.
  intros P I RO. apply eq_true_iff_eq. rewrite existsb_exists. split.
  - intros (z & IZ & E). apply Z.eqb_eq in E. subst z. apply (Permutation_in _ P) in IZ. unfold occurring in IZ. apply filter_In in IZ. apply IZ.
  - intro H. exists (x_lc p). split; [|apply Z.eqb_refl]. apply (Permutation_in _ (Permutation_sym P)). unfold occurring. apply filter_In. split; auto.
    apply nodup_In. apply in_map. apply take_in; auto.
Qed.
Lemma each_cls (same : xpix -> xpix -> Prop) f fp classes g0 order
  (SF : forall p q, same p q -> frame p q) (PF : forall c p, frame p (fp c p)) (PS : forall c p q, same p q -> same p (fp c q))
  (Hf : forall g k c, Forall2 same g0 g -> f g (map (kb k) g0) c = Some (update g (map (kb k) g0) (fp c))) :
  Permutation order (occurring classes g0) -> forall g, Forall2 same g0 g ->
  each (map (fun k => (k, class_mask g0 k)) order) classes f g = Some (map (cls fp classes) g).
Proof.
  intros P g SG. erewrite map_ext by (intro k; rewrite class_mask_kb; reflexivity). rewrite (each_loop same f fp classes g0); auto.
  - f_equal. apply map_ext_in. intros p I. unfold cls. destruct (x_roi p) eqn:RO; auto. cbn [andb].
    assert (FR : Forall2 frame g0 g) by (eapply f2_impl; eauto).
    rewrite (in_order classes g p order); auto; [|rewrite <- (frame_occurring _ _ _ FR); auto].
    destruct (0 <? x_lc p)%Z; auto. cbn. destruct (lookup (x_lc p) classes); auto.
  - intros k I. apply (Permutation_in _ P) in I. apply occurring_spec in I. tauto.
  - apply (Permutation_NoDup (Permutation_sym P)). apply occurring_nodup.
Qed.
(** * A time step *)
Lemma setv_frame v x p : frame p (setv v x p). Proof. repeat split. Qed.
Lemma frame_refl p : frame p p. Proof. repeat split. Qed.
Lemma frame_trans p q r : frame p q -> frame q r -> frame p r.
Proof. intros (A & B & C) (D & E & F). repeat split; congruence. Qed.
Definition same_swe (p q : xpix) : Prop := frame p q /\ x_val q Swe = x_val p Swe.
Lemma sw_refl p : same_swe p p. Proof. split; auto. apply frame_refl. Qed.
Lemma sw_trans p q r : same_swe p q -> same_swe q r -> same_swe p r.
Proof. intros (A & B) (C & D). split; [eapply frame_trans; eauto|congruence]. Qed.
Lemma sw_set v x p : v <> Swe -> same_swe p (setv v x p).
Proof. intro N. split; [apply setv_frame|]. unfold setv. cbn [x_val]. destruct (var_eq Swe v); congruence. Qed.
Ltac sws := repeat first [apply sw_refl | eapply sw_trans; [|apply sw_set; discriminate]].
Lemma sw_class cfg d c s p : same_swe p (class_px cfg d c s p).
Proof.
  unfold class_px. destruct (c_sealed c).
  - destruct s; [unfold snow_px; sws|]. unfold sealed_px, rain_px, dry_px. cbv zeta. destruct (gt0 (x_val p Rain)); sws.
  - cbv zeta. set (q := coeff_px cfg d c p). assert (Q : same_swe p q) by (unfold q, coeff_px; destruct (c_dual c); sws). clearbody q.
    destruct (s && negb (c_water c)).
    + assert (Q2 : same_swe p (snow_px (c_dual c) q)) by (eapply sw_trans; [exact Q|]; unfold snow_px; destruct (c_dual c); sws).
      destruct (c_water c); [exact Q2|]. eapply sw_trans; [exact Q2|]. unfold root_px. sws.
    + assert (Q2 : same_swe p (crop_px cfg c q)) by (eapply sw_trans; [exact Q|]; unfold crop_px, dual_px, single_px, d1, d2, d3, d4, d5, d6, d7, d8; destruct (c_dual c); sws).
      destruct (c_water c); [exact Q2|]. eapply sw_trans; [exact Q2|]. unfold root_px, adj_px, stress_px. destruct (c_dual c); sws.
Qed.
Definition reset_px (p : xpix) : xpix := setv Dp (Some 0) (setv Stress None (setv EvapCoeff None (setv BasalCoeff None (setv CropCoeff None p)))).
Definition step_px (cfg : etcfg) (classes : list (Z * lcpar)) (d : etday) (p : xpix) : xpix :=
  if x_roi p then cls (fun c q => class_px cfg d c (gt0 (x_val p Swe)) q) classes (ref_px cfg d (reset_px p)) else p.
Lemma sw_ref cfg d p : same_swe p (ref_px cfg d (reset_px p)).
Proof. unfold ref_px, r2, r1, reset_px. sws. Qed.
Lemma roi_keep g F : (forall p, x_roi (F p) = x_roi p) -> roi_of (update g (roi_of g) F) = roi_of g.
Proof. intro H. rewrite <- (update_id g (roi_of g)) at 3. apply roi_ext. auto. Qed.
Lemma step_u cfg classes d g0 order g : Permutation order (occurring classes g0) -> Forall2 frame g0 g ->
  et_grid_step cfg classes (map (fun k => (k, class_mask g0 k)) order) d g = Some (map (step_px cfg classes d) g).
Proof.
  intros P FR. assert (L : length (roi_of g) = length g) by apply map_length. unfold et_grid_step. cbv zeta.
  assert (RS : fill (fill (fill (fill (fill g (roi_of g) CropCoeff None) (roi_of g) BasalCoeff None) (roi_of g) EvapCoeff None) (roi_of g) Stress None) (roi_of g) Dp (Some 0) = update g (roi_of g) reset_px).
  { rewrite <- (update_id g (roi_of g)) at 1. rewrite !fill_u. reflexivity. }
  rewrite RS, ref_u by (auto; apply roi_keep; reflexivity). cbn [bind]. unfold roi_of at 2. rewrite update_map.
  assert (SW : Forall2 same_swe g (map (fun p => if x_roi p then ref_px cfg d (reset_px p) else p) g)).
  { clear. induction g as [|p g IH]; cbn; constructor; auto. destruct (x_roi p); [apply sw_ref|apply sw_refl]. }
  rewrite (map_ext _ (fun k => (k, class_mask g k))) by (intro k; rewrite !class_mask_kb, (frame_mask _ _ _ FR); reflexivity).
  rewrite (each_cls same_swe _ (fun c q => class_px cfg d c (gt0 (x_val q Swe)) q) classes g order).
  - rewrite map_map. f_equal. apply map_ext. intro p. unfold step_px. destruct (x_roi p) eqn:RO.
    + destruct (sw_ref cfg d p) as (_ & E). unfold cls. rewrite E. reflexivity.
    + unfold cls. rewrite RO. reflexivity.
  - intros p q (A & _); auto.
  - intros c p. apply (sw_class cfg d c (gt0 (x_val p Swe)) p).
  - intros c p q A. eapply sw_trans; [exact A|]. apply sw_class.
  - intros g2 k c S2. assert (F2 : Forall2 frame g g2) by (eapply f2_impl; [|exact S2]; intros p q (A & _); auto).
    unfold col. rewrite map_map.
    assert (E : map (fun x => gt0 (x_val x Swe)) (take g (roi_of g)) = map (fun x => gt0 (x_val x Swe)) (take g2 (roi_of g2))).
    { rewrite <- (frame_roi _ _ F2). clear - S2. unfold roi_of. induction S2 as [|p q g g2 (_ & A) _ IH]; auto. cbn. destruct (x_roi p); cbn; rewrite ?A; [f_equal|]; auto. }
    rewrite E. rewrite (frame_mask _ _ k F2). apply class_step_u. apply within_kb.
  - rewrite <- (frame_occurring _ _ _ FR). auto.
  - auto.
Qed.
(** * initialize *)
Definition tex_px (cfg : etcfg) (t : texture) (p : xpix) : xpix :=
  let q := setv Dr (Some (1000 * (field_capacity t - field_capacity t))) (setv Taw (Some (1000 * (field_capacity t - wilting_point t)))
    (setv Rew (Some (evaporable t)) (setv Tew (Some (1000 * (field_capacity t - 0.5 * wilting_point t) * g_depth cfg)) p))) in
  setv DeplFrac (nmap (fun v => v * depletion_adjustment t) (x_val q DeplFrac)) q.
Definition texs (cfg : etcfg) (l : list Z) (p : xpix) : xpix :=
  if existsb (Z.eqb (x_tex p)) l then match texture_of (x_tex p) with Some t => tex_px cfg t p | None => p end else p.
Lemma texture_u cfg g t x : texture_of t = Some x ->
  init_texture cfg g t = Some (map (fun p => if (x_tex p =? t)%Z then tex_px cfg x p else p) g).
Proof.
  intro T. unfold init_texture. rewrite T. cbv zeta. set (m := map (fun p : xpix => (x_tex p =? t)%Z) g).
  assert (L : length m = length g) by apply map_length.
  assert (GI : forall v y, fill g m v y = update g m (setv v y)) by reflexivity. rewrite GI, !fill_u. nf. rewrite assign_u by auto. f_equal.
  unfold m. rewrite update_map. reflexivity.
Qed.
Lemma textures_u cfg : forall l g, NoDup l -> (forall t, In t l -> texture_of t <> None) -> init_textures cfg l g = Some (map (texs cfg l) g).
Proof.
  induction l as [|t l IH]; intros g ND K.
  - cbn. f_equal. symmetry. rewrite <- (map_id g) at 2. apply map_ext. intro p. reflexivity.
  - inversion ND as [|? ? NI ND']; subst. cbn [init_textures]. destruct (texture_of t) as [x|] eqn:T; [|elim (K t); cbn; auto].
    rewrite (texture_u cfg g t x T). cbn [bind]. rewrite IH; auto; [|intros z I; apply K; right; auto]. rewrite map_map. f_equal. apply map_ext. intro p.
    unfold texs. cbn [existsb]. destruct (Z.eqb_spec (x_tex p) t) as [E|N]; cbn [orb]; auto.
    subst t. rewrite T. change (x_tex (tex_px cfg x p)) with (x_tex p). destruct (existsb (Z.eqb (x_tex p)) l) eqn:EX; auto.
    apply existsb_exists in EX. destruct EX as (z & I & E). apply Z.eqb_eq in E. subst z. contradiction.
Qed.
Lemma textures_none cfg : forall l g, (exists t, In t l /\ texture_of t = None) -> init_textures cfg l g = None.
Proof.
  induction l as [|t l IH]; intros g (z & I & N); [destruct I|]. cbn [init_textures]. destruct (texture_of t) as [x|] eqn:T.
  - rewrite (texture_u cfg g t x T). cbn [bind]. apply IH. exists z. destruct I as [->|I]; [congruence|]. auto.
  - unfold init_texture. rewrite T. reflexivity.
Qed.
Lemma textures_frame g0 g : Forall2 frame g0 g -> textures_in g0 = textures_in g.
Proof.
  intro H. unfold textures_in. replace (map x_tex (take g0 (roi_of g0))) with (map x_tex (take g (roi_of g))); auto.
  unfold roi_of. induction H as [|p q g0 g (A & B & C) _ IH]; auto. cbn. rewrite A. destruct (x_roi q); cbn; rewrite ?C; [f_equal|]; auto.
Qed.
Definition rooti_px (c : lcpar) (p : xpix) : xpix :=
  let q := setv Dr (nmul (c_root c) (x_val p Dr)) (setv Taw (nmul (c_root c) (x_val p Taw)) p) in
  setv Raw (nmul (x_val q DeplFrac) (x_val q Taw)) q.
Definition refi_px (cfg : etcfg) (c : lcpar) (p : xpix) : xpix :=
  if c_sealed c then setv Inter (Some 0) (setv RefEmis (Some (g_sealed_emis cfg)) (setv RefAlbedo (Some (g_sealed_albedo cfg)) p))
  else setv RefEmis (Some (g_grass_emis cfg)) (setv RefAlbedo (Some (g_grass_albedo cfg)) p).
Definition init_px (cfg : etcfg) (classes : list (Z * lcpar)) (ts : list Z) (p : xpix) : xpix :=
  let p := cls (fun c => setv Clim (Some (climate_correction (g_ws cfg) (g_rh cfg) (c_height c)))) classes p in
  let p := cls (fun c => setv DeplFrac (c_depl c)) classes (setv DeplFrac None p) in
  let p := cls rooti_px classes (texs cfg ts p) in
  let p := if x_roi p then setv Dpe (Some 0) (setv De (Some 0) p) else p in
  cls (refi_px cfg) classes p.
Lemma cls_frame fp classes : (forall c p, frame p (fp c p)) -> forall p, frame p (cls fp classes p).
Proof. intros H p. unfold cls. destruct (_ && _); [|apply frame_refl]. destruct (lookup _ _); auto. apply frame_refl. Qed.
Lemma frame_map g0 g F : (forall p, frame p (F p)) -> Forall2 frame g0 g -> Forall2 frame g0 (map F g).
Proof. intros H. induction 1; cbn; constructor; auto. eapply frame_trans; eauto. Qed.
Lemma frame_all g : Forall2 frame g g.
Proof. induction g; constructor; auto. apply frame_refl. Qed.
Lemma texs_frame cfg l p : frame p (texs cfg l p).
Proof. unfold texs. destruct (existsb _ _); [|apply frame_refl]. destruct (texture_of _); [|apply frame_refl]. repeat split. Qed.
Lemma each_frame f fp classes g0 order : (forall c p, frame p (fp c p)) ->
  (forall g k c, length g = length g0 -> f g (map (kb k) g0) c = Some (update g (map (kb k) g0) (fp c))) ->
  Permutation order (occurring classes g0) -> forall g, Forall2 frame g0 g ->
  each (map (fun k => (k, class_mask g0 k)) order) classes f g = Some (map (cls fp classes) g).
Proof.
  intros PF Hf P. apply (each_cls frame); auto.
  - intros c p q A. eapply frame_trans; eauto.
  - intros g k c F. apply Hf. symmetry. clear - F. induction F; cbn; auto.
Qed.
Lemma init_u cfg classes order g : Permutation order (occurring classes g) -> (forall p, In p g -> x_roi p = true -> (0 < x_tex p)%Z -> texture_of (x_tex p) <> None) ->
  et_initialize cfg classes order g = Some (map (init_px cfg classes (textures_in g)) g, map (fun k => (k, class_mask g k)) order).
Proof.
  intros P K. unfold et_initialize. cbv zeta.
  rewrite (each_frame (init_climate cfg) (fun c => setv Clim (Some (climate_correction (g_ws cfg) (g_rh cfg) (c_height c)))) classes g order); auto using frame_all, setv_frame.
  cbn [bind]. set (g1 := map _ g).
  assert (E1 : Forall2 frame g g1) by (apply frame_map; [intro; apply cls_frame; intros; apply setv_frame|apply frame_all]).
  assert (E2 : fill g1 (map (fun _ => true) g1) DeplFrac None = map (setv DeplFrac None) g1) by (unfold fill; rewrite update_map; reflexivity).
  rewrite E2. clear E2. set (g2 := map (setv DeplFrac None) g1). assert (F2 : Forall2 frame g g2) by (apply frame_map; auto; intros; apply setv_frame).
  rewrite (each_frame init_depletion (fun c => setv DeplFrac (c_depl c)) classes g order); auto using setv_frame. cbn [bind]. set (g3 := map _ g2).
  assert (F3 : Forall2 frame g g3) by (apply frame_map; auto; intro; apply cls_frame; intros; apply setv_frame).
  rewrite <- (textures_frame _ _ F3). rewrite textures_u.
  2: { unfold textures_in. apply NoDup_filter. apply NoDup_nodup. }
  2: { intros t I. unfold textures_in in I. apply filter_In in I. destruct I as (I & PO). apply nodup_In in I. apply in_map_iff in I. destruct I as (p & <- & IP).
       apply Z.ltb_lt in PO. apply K; auto.
       - clear - IP. unfold roi_of in IP. induction g as [|q g IH]; cbn in *; auto. destruct (x_roi q); cbn in IP; intuition.
       - clear - IP. unfold roi_of in IP. induction g as [|q g IH]; cbn in *; [tauto|]. destruct (x_roi q) eqn:R; cbn in IP; auto. destruct IP as [<-|]; auto. }
  cbn [bind]. set (g4 := map _ g3). assert (F4 : Forall2 frame g g4) by (apply frame_map; auto; intro; apply texs_frame).
  rewrite (each_frame init_root rooti_px classes g order); auto.
  2: { intros c p. repeat split. }
  2: { intros h k c L. unfold init_root. assert (LM : length (map (kb k) g) = length h) by (rewrite map_length; auto). set (m := map (kb k) g) in *.
       rewrite <- (update_id h m) at 1 2. nf. rewrite assign_u by auto. cbn [bind]. nf. rewrite assign_u by auto. cbn [bind]. nf. rewrite assign_u by auto. reflexivity. }
  cbn [bind]. set (g5 := map _ g4). assert (F5 : Forall2 frame g g5) by (apply frame_map; auto; intro; apply cls_frame; repeat split).
  rewrite (frame_roi _ _ F5). assert (E6 : fill (fill g5 (roi_of g5) De (Some 0)) (roi_of g5) Dpe (Some 0) = map (fun p => if x_roi p then setv Dpe (Some 0) (setv De (Some 0) p) else p) g5).
  { rewrite <- (update_id g5 (roi_of g5)) at 1. rewrite !fill_u. unfold roi_of. rewrite update_map. reflexivity. }
  rewrite E6. clear E6.
  rewrite (each_frame (init_reference cfg) (refi_px cfg) classes g order); auto.
  - cbn [bind]. do 2 f_equal. unfold g5, g4, g3, g2, g1. rewrite !map_map. apply map_ext. intro p. reflexivity.
  - intros c p. unfold refi_px. destruct (c_sealed c); repeat split.
  - intros h k c L. unfold init_reference, refi_px. set (m := map (kb k) g). cbv zeta.
    assert (GI : forall v y, fill h m v y = update h m (setv v y)) by reflexivity. destruct (c_sealed c); rewrite GI, !fill_u; reflexivity.
  - apply frame_map; auto. intro p. destruct (x_roi p); [repeat split|apply frame_refl].
Qed.
Lemma init_none cfg classes order g : Permutation order (occurring classes g) -> (exists p, In p g /\ x_roi p = true /\ (0 < x_tex p)%Z /\ texture_of (x_tex p) = None) ->
  et_initialize cfg classes order g = None.
Proof.
  intros P (p & I & RO & PO & T). unfold et_initialize. cbv zeta.
  rewrite (each_frame (init_climate cfg) (fun c => setv Clim (Some (climate_correction (g_ws cfg) (g_rh cfg) (c_height c)))) classes g order); auto using frame_all, setv_frame.
  cbn [bind]. set (g1 := map _ g).
  assert (E1 : Forall2 frame g g1) by (apply frame_map; [intro; apply cls_frame; intros; apply setv_frame|apply frame_all]).
  assert (E2 : fill g1 (map (fun _ => true) g1) DeplFrac None = map (setv DeplFrac None) g1) by (unfold fill; rewrite update_map; reflexivity).
  rewrite E2. clear E2. set (g2 := map (setv DeplFrac None) g1). assert (F2 : Forall2 frame g g2) by (apply frame_map; auto; intros; apply setv_frame).
  rewrite (each_frame init_depletion (fun c => setv DeplFrac (c_depl c)) classes g order); auto using setv_frame. cbn [bind]. set (g3 := map _ g2).
  assert (F3 : Forall2 frame g g3) by (apply frame_map; auto; intro; apply cls_frame; intros; apply setv_frame).
  rewrite <- (textures_frame _ _ F3). rewrite textures_none; auto. exists (x_tex p). split; auto. unfold textures_in. apply filter_In. split; [|apply Z.ltb_lt; auto].
  apply nodup_In. apply in_map. apply take_in; auto.
Qed.
