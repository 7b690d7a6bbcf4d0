(** Theorems about the iteration for the wet-bulb temperature (C101). *)
From Verif Require Import Common Constants AtmosphereModel AtmosphereProofs AtmosphereTheorems MeteoFieldsModel MeteoFieldsTheorems
  GridBalanceModel CryoGridModel WetBulbModel WetBulbProofs.
Open Scope R_scope.

(** * Specification *)
(** The wet-bulb temperature solves the psychrometer equation e_s(w) - psy (t - w) = e. As the saturation pressure jumps by 0.07 Pa at 0 degC
    there may be no exact solution: w is where the two sides change their order. *)
Definition wet_bulb_point_of (t vap psy w : R) : Prop :=
  forall y, T0 - 272.44 < y ->
    (y < w -> saturation_vapor_pressure None y - psy * (t - y) < vap) /\ (w < y -> vap < saturation_vapor_pressure None y - psy * (t - y)).

Lemma secant_more f k n : forall x0 x1 r, secant f n x0 x1 = Some r -> secant f (n + k) x0 x1 = Some r.
Proof.
  induction n as [|n IH]; intros x0 x1 r H; [discriminate|]. cbn [secant Nat.add] in *. destruct (Req_EM_T _ _); auto. destruct (Rlt_dec _ _); auto.
Qed.
Lemma wet_bulb_more m fuel t vap psy r : (m <= fuel)%nat -> wet_bulb_temperature m t vap psy = Some r -> wet_bulb_temperature fuel t vap psy = Some r.
Proof. intros F H. unfold wet_bulb_temperature in *. replace fuel with (m + (fuel - m))%nat by lia. apply secant_more. exact H. Qed.
Lemma point_of t vap psy w cw : 13 <= psy -> dom w -> hf psy w + cw = psy * t + vap -> 0 <= cw <= 0.07 -> (w < T0 -> cw = 0) -> (T0 < w -> cw = 0.07) ->
  T0 - 199 <= w <= T0 + 50 -> wet_bulb_point_of t vap psy w.
Proof.
  intros P D E C C1 C2 W y Y.
  assert (IN : forall y, dom y -> (y < w -> saturation_vapor_pressure None y - psy * (t - y) < vap) /\ (w < y -> vap < saturation_vapor_pressure None y - psy * (t - y))).
  { clear y Y. intros y Y. pose proof (fd_gf psy t vap y) as F. unfold fd, psychro_diff in F. split; intro L.
    - destruct (g_left psy t vap w cw E C C1 C2 y L) as (e & G & Ge & _). pose proof (inc_P psy y w Y D ltac:(lra)) as [I _].
      assert (0 < psy * (w - y)) by (apply Rmult_lt_0_compat; lra). lra.
    - destruct (g_right psy t vap w cw E C C1 C2 y ltac:(lra)) as (e & G & Ge & _). pose proof (inc_P psy w y D Y ltac:(lra)) as [I _].
      assert (0 < psy * (y - w)) by (apply Rmult_lt_0_compat; lra). lra. }
  split; intro L.
  - destruct (Rle_lt_dec (T0 - 200) y) as [Q|Q]; [apply (proj1 (IN y ltac:(unfold dom; lra))); auto|].
    pose proof (proj1 (IN (T0 - 200) ltac:(unfold dom; lra)) ltac:(lra)) as K. pose proof (sat_incr None y (T0 - 200) Y Q) as I.
    assert (0 < psy * (T0 - 200 - y)) by (apply Rmult_lt_0_compat; lra). lra.
  - destruct (Rle_lt_dec y (T0 + 50.12)) as [Q|Q]; [apply (proj2 (IN y ltac:(unfold dom; lra))); auto|].
    pose proof (proj2 (IN (T0 + 50.12) ltac:(unfold dom; lra)) ltac:(lra)) as K. pose proof (sat_incr None (T0 + 50.12) y ltac:(unfold valid_temp; lra) Q) as I.
    assert (0 < psy * (y - (T0 + 50.12))) by (apply Rmult_lt_0_compat; lra). lra.
Qed.

(** * Termination *)
(** For every air temperature between -93 and 50 degC, every humidity up to saturation and every psychrometric constant of at least 13 Pa/K
    the iteration ends after at most 800 steps, without division by zero, and its result is within 0.56 K of the wet-bulb point, which is
    not above the air temperature and at most 50 K below. *)
Theorem c101_terminates : forall fuel t vap psy, (800 <= fuel)%nat ->
  180 <= t <= 323.15 -> 0 <= vap <= saturation_vapor_pressure None t -> 13 <= psy ->
  exists x w, wet_bulb_temperature fuel t vap psy = Some (Some x) /\ wet_bulb_point_of t vap psy w /\ t - 50 <= w <= t /\ Rabs (x - w) <= 0.556.
Proof.
  intros fuel t vap psy F T V P. destruct (wet_bulb_point t vap psy T V P) as (w & cw & W & E & C & C1 & C2).
  destruct (wet_bulb_terminates t vap psy w cw T P W E C C1 C2) as (x & S & B). exists x, w.
  split; [|split; [|auto]].
  - apply (wet_bulb_more 800); auto.
  - apply (point_of t vap psy w cw); auto; unfold dom, T0 in *; lra.
Qed.
Print Assumptions c101_terminates.
Example c101_terminates_example : exists x w, wet_bulb_temperature 800 278.15 500 60 = Some (Some x) /\ wet_bulb_point_of 278.15 500 60 w /\ 278.15 - 50 <= w <= 278.15 /\ Rabs (x - w) <= 0.556.
Proof.
  apply c101_terminates; [lia|lra| |lra]. split; [lra|]. rewrite c29_saturation_selection. destruct (Rle_dec 273.15 278.15); [|lra].
  pose proof (exp_ineq1_le (17.08 * (278.15 - 273.15) / (234.18 + (278.15 - 273.15)))). lra.
Qed.
(** The wet-bulb point is unique. *)
Theorem c101_point_unique : forall t vap psy w w', T0 - 272 < w -> T0 - 272 < w' -> wet_bulb_point_of t vap psy w -> wet_bulb_point_of t vap psy w' -> w = w'.
Proof.
  assert (K : forall t vap psy w w', T0 - 272 < w -> wet_bulb_point_of t vap psy w -> wet_bulb_point_of t vap psy w' -> ~ w < w').
  { intros t vap psy w w' A H H' L. destruct (H ((w + w') / 2) ltac:(lra)) as [_ H2]. destruct (H' ((w + w') / 2) ltac:(lra)) as [H1 _].
    specialize (H2 ltac:(lra)). specialize (H1 ltac:(lra)). lra. }
  intros t vap psy w w' A A' H H'. destruct (Rtotal_order w w') as [L|[L|L]]; auto; exfalso; [apply (K t vap psy w w')|apply (K t vap psy w' w)]; auto.
Qed.
Print Assumptions c101_point_unique.

(** * The loop on arrays *)
Definition padvance (q : wpix) : wpix := set_y1 (sub_x1 (set_y0 (set_x0 q)) (wd q)).
Definition pstep (q : wpix) : wpix := if beyond (wd q) then padvance q else q.
Fixpoint pfin (n : nat) (q : wpix) : option num :=
  match n with O => None | S n => if beyond (wd q) then pfin n (padvance q) else Some (w_x1 q) end.
Lemma upd_own {A} (b : A -> bool) (f : A -> A) (g : list A) : update g (map b g) f = map (fun q => if b q then f q else q) g.
Proof. unfold update. induction g as [|q g IH]; cbn [map take put]; auto. destruct (b q); cbn [map put]; f_equal; auto. Qed.
Lemma upd_mapped {A} (b : A -> bool) (F f : A -> A) (g : list A) : update (map F g) (map b g) f = map (fun q => if b q then f (F q) else F q) g.
Proof. unfold update. induction g as [|q g IH]; cbn [map take put]; auto. destruct (b q); cbn [map put]; f_equal; auto. Qed.
Lemma put_mapped {A B C} (b : A -> bool) (F : A -> C) (f : C -> B -> C) (T : A -> B) (g : list A) :
  put (map F g) (map b g) (map2 f (take (map F g) (map b g)) (take (map T g) (map b g))) = map (fun q => if b q then f (F q) (T q) else F q) g.
Proof. unfold map2. induction g as [|q g IH]; cbn [map take put]; auto. destruct (b q); cbn [map combine put fst snd]; f_equal; auto. Qed.
Lemma count_forall {A} (b : A -> bool) (g : list A) : (count (map b g) =? 0)%nat = forallb (fun q => negb (b q)) g.
Proof. unfold count. induction g as [|q g IH]; cbn; auto. destruct (b q); cbn; auto. Qed.
Lemma wloop_step n g : wloop (S n) g = if forallb (fun q => negb (beyond (wd q))) g then Some (map w_x1 g) else wloop n (map pstep g).
Proof.
  cbn [wloop]. rewrite map_map. rewrite count_forall. destruct (forallb _ g); auto. f_equal.
  rewrite upd_own, upd_mapped, put_mapped, upd_mapped. apply map_ext. intro q. unfold pstep, padvance. destruct (beyond (wd q)); auto.
Qed.
Lemma pstep_fin n q : n <> O -> pfin n (pstep q) = pfin (S n) q.
Proof. intro N. unfold pstep. cbn [pfin]. destruct (beyond (wd q)) eqn:B; auto. destruct n; [congruence|]. cbn [pfin]. rewrite B. auto. Qed.
Lemma pfin_done n q : beyond (wd q) = false -> pfin (S n) q = Some (w_x1 q).
Proof. intro B. cbn [pfin]. rewrite B. auto. Qed.
Lemma wloop_all n : forall g, g <> [] -> wloop n g = all_some (map (pfin n) g).
Proof.
  induction n as [|n IH]; intros g N.
  - destruct g; [congruence|reflexivity].
  - rewrite wloop_step. destruct (forallb _ g) eqn:B.
    + clear N IH. induction g as [|q g IH]; auto. cbn [forallb] in B. apply andb_prop in B. destruct B as [B1 B2]. cbn [map].
      rewrite pfin_done by (destruct (beyond (wd q)); [discriminate|auto]). cbn [all_some]. rewrite <- (IH B2). auto.
    + rewrite IH by (destruct g; [congruence|discriminate]). rewrite map_map. destruct n as [|n].
      * assert (X : exists q, In q g /\ beyond (wd q) = true).
        { clear N IH. induction g as [|q g IH]; [discriminate|]. cbn in B. destruct (beyond (wd q)) eqn:E; [exists q; cbn; auto|].
          destruct IH as (q' & I & E'); auto. exists q'. cbn; auto. }
        assert (Z : all_some (map (fun x => pfin 0 (pstep x)) g) = None) by (destruct g; [congruence|reflexivity]). rewrite Z.
        clear - X. destruct X as (q & I & E). induction g as [|q' g IH]; [destruct I|]. cbn [map all_some]. destruct I as [->|I].
        -- cbn [pfin]. rewrite E. reflexivity.
        -- rewrite <- (IH I). destruct (pfin 1 q'); auto.
      * f_equal. apply map_ext. intro q. apply pstep_fin. discriminate.
Qed.
(** One pixel *)
Lemma pfin_some t v p n : forall x0 x1,
  let f := fun wb => psychro_diff t wb v p in
  match secant f n x0 x1 with
  | None => pfin n (WP (Some t) (Some v) (Some p) (Some x0) (Some x1) (Some (f x0)) (Some (f x1))) = None
  | Some (Some x) => pfin n (WP (Some t) (Some v) (Some p) (Some x0) (Some x1) (Some (f x0)) (Some (f x1))) = Some (Some x)
  | Some None => exists x, pfin n (WP (Some t) (Some v) (Some p) (Some x0) (Some x1) (Some (f x0)) (Some (f x1))) = Some (Some x)
  end.
Proof.
  induction n as [|n IH]; intros x0 x1 f; [reflexivity|].
  cbn [secant pfin]. unfold wd. cbn [w_x0 w_x1 w_y0 w_y1]. destruct (Req_EM_T (f x1) (f x0)) as [E|E]; [cbn [beyond]; eauto|].
  cbn [beyond]. destruct (Rlt_dec secant_tol _) as [L|L]; [|reflexivity].
  unfold padvance, wd, set_x0, set_y0, sub_x1, set_y1. cbn [w_t w_v w_p w_x0 w_x1 w_y0 w_y1].
  destruct (Req_EM_T (f x1) (f x0)); [contradiction|]. cbn [wdiff]. unfold nsub. cbn [nmap2]. apply IH.
Qed.
Lemma pfin_field n t v p : n <> O ->
  match wet_bulb_field n t v p with
  | None => pfin n (wstart (t, v, p)) = None
  | Some r => exists x, pfin n (wstart (t, v, p)) = Some x /\ (t = None \/ v = None \/ r <> None -> x = r)
  end.
Proof.
  intro N. destruct n as [|n]; [congruence|]. unfold wet_bulb_field, wstart.
  destruct t as [t|], v as [v|]; try (cbn; eexists; split; [reflexivity|auto]).
  destruct p as [p|]; [|cbn; eexists; split; [reflexivity|auto]].
  pose proof (pfin_some t v p (S n) (t - 10) t) as K. cbv zeta in K. unfold wet_bulb_temperature. cbn [nmap wdiff].
  destruct (secant (fun wb => psychro_diff t wb v p) (S n) (t - 10) t) as [[x|]|].
  - eexists; split; [exact K|auto].
  - destruct K as [x K]. exists (Some x). split; [exact K|]. intros [H|[H|H]]; congruence.
  - exact K.
Qed.
(** Iterating on the whole field gives every pixel the result it would have on its own, and ends exactly if the iteration of every single pixel
    ends; pixels with missing temperature or vapour pressure are missing in the result. (Only pixels whose own iteration divides by zero are
    excepted: [wet_bulb_field] reports them as missing.) *)
Theorem c101_field : forall fuel field, field <> [] -> fuel <> O ->
  match wet_bulb_array fuel field with
  | Some xs => length xs = length field /\ forall i t v p, nth_error field i = Some (t, v, p) ->
      exists r, wet_bulb_field fuel t v p = Some r /\ (t = None \/ v = None \/ r <> None -> nth_error xs i = Some r)
  | None => exists i t v p, nth_error field i = Some (t, v, p) /\ wet_bulb_field fuel t v p = None
  end.
Proof.
  intros fuel field N F. unfold wet_bulb_array. rewrite wloop_all by (destruct field; [congruence|discriminate]). rewrite map_map. clear N.
  induction field as [|[[t v] p] field IH]; cbn [map all_some].
  - split; auto. intros [|i]; discriminate.
  - pose proof (pfin_field fuel t v p F) as K. destruct (wet_bulb_field fuel t v p) as [r|] eqn:W.
    + destruct K as (x & K1 & K2). rewrite K1. destruct (all_some (map (fun q => pfin fuel (wstart q)) field)) as [xs|].
      * destruct IH as [L IH]. split; [cbn; auto|]. intros [|i] t' v' p' E; [|apply (IH i); auto].
        cbn in E. injection E as <- <- <-. exists r. split; auto. intro Q. cbn. rewrite (K2 Q). auto.
      * destruct IH as (i & t' & v' & p' & E & IH). exists (S i), t', v', p'. auto.
    + rewrite K. exists 0%nat, t, v, p. auto.
Qed.
Print Assumptions c101_field.

(** * The derived fields always finish *)
(** Everything that can be measured on land: values are missing or within these ranges *)
Definition measurable (p : mpix) : Prop :=
  -500 <= mp_dem p <= 9000 /\ (forall t, mp_temp p = Some t -> 180 <= t <= 323.15) /\ (forall h, mp_rh p = Some h -> 0 <= h <= 100).
Lemma psy_min t press q : 180 <= t <= 323.15 -> 22000 < press -> 0 <= q -> 13 <= psychrometric_constant press (specific_heat_capacity_moist_air q) (latent_heat_of_vaporization t).
Proof.
  intros T P Q. unfold psychrometric_constant, specific_heat_capacity_moist_air, SPEC_HEAT_CAP_DRY_AIR, latent_heat_of_vaporization, Lv, T0.
  match goal with |- 13 <= ?a * press / (0.622 * ?l) => assert (A : 1004 <= a) by lra; assert (L : 0 < l <= 2722000) by lra;
    set (aa := a) in *; set (ll := l) in *; clearbody aa ll end.
  apply Rmult_le_reg_r with (0.622 * ll); [lra|]. replace (aa * press / (0.622 * ll) * (0.622 * ll)) with (aa * press) by (field; lra). nra.
Qed.
Theorem c101_derive : forall fuel p, (800 <= fuel)%nat -> measurable p -> exists d, derive fuel p = Some d
  /\ (md_wet_bulb d = None <-> mp_temp p = None \/ mp_rh p = None)
  /\ forall x t, md_wet_bulb d = Some x -> mp_temp p = Some t -> x <= t + 0.556 /\ t - 50.556 <= x.
Proof.
  intros fuel [z t h pr sf] F (Z & T & H). cbn [mp_dem mp_temp mp_rh] in *. destruct (press_range z Z) as (pp & PF & _ & PR).
  unfold derive. cbn [mp_dem mp_temp mp_rh]. rewrite PF.
  destruct t as [t|], h as [h|]; cbn [nmap nmap2 wet_bulb_field]; try (eexists; split; [reflexivity|]; cbn [md_wet_bulb]; split; [split; auto|discriminate]).
  specialize (T t eq_refl). specialize (H h eq_refl).
  pose proof (c29_vapor_pressure None t h H) as [V _]. pose proof (sat_max t T) as SM.
  assert (Q : 0 <= specific_humidity pp (vapor_pressure None t h)).
  { unfold specific_humidity. unfold Rdiv. apply Rmult_le_pos; [lra|]. left. apply Rinv_0_lt_compat. lra. }
  destruct (c101_terminates fuel t (vapor_pressure None t h) (psychrometric_constant pp (specific_heat_capacity_moist_air (specific_humidity pp (vapor_pressure None t h))) (latent_heat_of_vaporization t)))
    as (x & w & E & _ & W & B); auto; [apply psy_min; auto; lra|].
  rewrite E. eexists; split; [reflexivity|]. cbn [md_wet_bulb]. split; [split; [discriminate|intros [G|G]; discriminate]|].
  intros x' t' X' T'. injection X' as <-. injection T' as <-. apply abs_in in B. lra.
Qed.
Print Assumptions c101_derive.
Example c101_derive_example : measurable (MPIX 3000 (Some 263) (Some 0) None 1) /\ measurable (MPIX 100 None (Some 55) (Some 2) 1).
Proof. split; (split; [cbn; lra|split; cbn; intros x E; try discriminate; injection E as <-; lra]). Qed.
(** So the computation of the meteorological fields of a time step finishes for every state of the atmosphere and every pattern of missing values. *)
Theorem c101_process : forall c fuel ps, (800 <= fuel)%nat -> 0 <= temp_range (mc_phase c) -> (forall p, In p ps -> measurable p) ->
  exists out, process c fuel ps = Some out /\ length out = length ps.
Proof.
  intros c fuel ps F R M. destruct (c98_succeeds c fuel ps R) as [out E].
  - intros p I. destruct (c101_derive fuel p F (M p I)) as (d & E & _). rewrite E. discriminate.
  - exists out. split; auto. apply (c98_process c fuel ps out E).
Qed.
Print Assumptions c101_process.
(** The same for the array program. *)
Theorem c101_array_terminates : forall fuel field, (800 <= fuel)%nat ->
  (forall t v p, In (t, v, p) field -> match t, v, p with Some t, Some v, Some p => 180 <= t <= 323.15 /\ 0 <= v <= saturation_vapor_pressure None t /\ 13 <= p | _, _, _ => True end) ->
  exists xs, wet_bulb_array fuel field = Some xs /\ length xs = length field
  /\ forall i t v p, nth_error field i = Some (t, v, p) -> exists r, nth_error xs i = Some r
       /\ match t, v, p with
          | Some t, Some v, Some p => exists x w, r = Some x /\ wet_bulb_temperature fuel t v p = Some (Some x) /\ wet_bulb_point_of t v p w /\ Rabs (x - w) <= 0.556
          | Some t, Some _, None => r = Some t
          | _, _, _ => r = None
          end.
Proof.
  intros fuel field F M. destruct field as [|q0 field0].
  { exists []. destruct fuel; [lia|]. split; [reflexivity|]. split; auto. intros [|i]; discriminate. }
  set (field := q0 :: field0) in *. pose proof (c101_field fuel field ltac:(discriminate) ltac:(lia)) as K.
  assert (P : forall t v p, In (t, v, p) field -> exists r, wet_bulb_field fuel t v p = Some r /\ (t = None \/ v = None \/ r <> None)
     /\ match t, v, p with
          | Some t, Some v, Some p => exists x w, r = Some x /\ wet_bulb_temperature fuel t v p = Some (Some x) /\ wet_bulb_point_of t v p w /\ Rabs (x - w) <= 0.556
          | Some t, Some _, None => r = Some t
          | _, _, _ => r = None
          end).
  { intros t v p I. specialize (M t v p I). unfold wet_bulb_field.
    destruct t as [t|], v as [v|], p as [p|]; try (eexists; split; [reflexivity|]; split; [auto; right; right; discriminate|reflexivity]).
    destruct M as (M1 & M2 & M3). destruct (c101_terminates fuel t v p F M1 M2 M3) as (x & w & E & PO & _ & B).
    rewrite E. exists (Some x). split; auto. split; [right; right; discriminate|]. exists x, w. auto. }
  destruct (wet_bulb_array fuel field) as [xs|].
  - destruct K as [L K]. exists xs. split; auto. split; auto. intros i t v p E. destruct (K i t v p E) as (r & W & N).
    destruct (P t v p (nth_error_In _ _ E)) as (r' & W' & N' & Q). rewrite W in W'. injection W' as <-. exists r. split; auto.
  - exfalso. destruct K as (i & t & v & p & E & W). destruct (P t v p (nth_error_In _ _ E)) as (r' & W' & _). congruence.
Qed.
Print Assumptions c101_array_terminates.
Example c101_array_example : forall t v p, In (t, v, p) [(Some 268.15, Some 0, Some 55); (None, None, Some 60); (Some 250, None, Some 40); (Some 290, Some 0, None)] ->
  match t, v, p with Some t, Some v, Some p => 180 <= t <= 323.15 /\ 0 <= v <= saturation_vapor_pressure None t /\ 13 <= p | _, _, _ => True end.
Proof.
  intros t v p [E|[E|[E|[E|[]]]]]; injection E as <- <- <-; auto. pose proof (sat_pos None 268.15). lra.
Qed.

(** The psychrometer equation itself need not have a solution: at 5 degC, with the vapour pressure below, the left side jumps over it. *)
Theorem c101_no_exact_solution : exists t vap psy, 180 <= t <= 323.15 /\ 0 <= vap <= saturation_vapor_pressure None t /\ 13 <= psy
  /\ forall y, T0 - 272.44 < y -> saturation_vapor_pressure None y - psy * (t - y) <> vap.
Proof.
  exists 278.15, 310.75, 60. split; [lra|]. split; [|split; [lra|]].
  - split; [lra|]. rewrite c29_saturation_selection. destruct (Rle_dec 273.15 278.15); [|lra].
    pose proof (exp_ineq1_le (17.08 * (278.15 - 273.15) / (234.18 + (278.15 - 273.15)))). lra.
  - intros y Y E. rewrite c29_saturation_selection in E. unfold T0 in Y. destruct (Rle_dec 273.15 y) as [L|L].
    + assert (Z : 0 <= 17.08 * (y - 273.15) / (234.18 + (y - 273.15))).
      { unfold Rdiv. apply Rmult_le_pos; [lra|]. left. apply Rinv_0_lt_compat. lra. }
      pose proof (exp_ineq1_le (17.08 * (y - 273.15) / (234.18 + (y - 273.15)))). lra.
    + assert (Z : 22.44 * (y - 273.15) / (272.44 + (y - 273.15)) < 0).
      { apply Ropp_lt_cancel. rewrite Ropp_0. unfold Rdiv. rewrite Ropp_mult_distr_l. apply Rmult_lt_0_compat; [lra|]. apply Rinv_0_lt_compat. lra. }
      apply exp_increasing in Z. rewrite exp_0 in Z. lra.
Qed.
Print Assumptions c101_no_exact_solution.
