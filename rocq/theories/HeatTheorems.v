(** Properties C19-C21, C71: the tridiagonal solver and heat conduction
    (tridiag.py, heatconduction.py, multilayermodel.py:_heat_conduction, soil.py:soil_temperature). *)
From Verif Require Import Common HeatModel HeatSpec HeatProofs.

(** * C19 The tridiagonal solver *)
Theorem c19_exact_and_unique : forall n a b c d, (1 <= n)%nat -> dominant n a b c ->
  (forall k, (k < n)%nat -> row n a b c (solve_tridiag n a b c d) k = d k) /\
  (forall y, (forall k, (k < n)%nat -> row n a b c y k = d k) ->
     forall k, (k < n)%nat -> y k = solve_tridiag n a b c d k).
Proof.
  intros n a b c d Hn D. split.
  - intros; apply solve_exact; auto. apply dominant_pivots; auto.
  - intros; apply solve_unique; auto.
Qed.
Print Assumptions c19_exact_and_unique.

(** No pivot the algorithm divides by is zero. *)
Theorem c19_no_zero_pivot : forall n a b c d, (1 <= n)%nat -> dominant n a b c ->
  forall k, (k < n)%nat -> fst (fwd a c (n - 1) b d) k <> 0.
Proof. intros; apply dominant_pivots; auto. Qed.
Print Assumptions c19_no_zero_pivot.

(** Without dominance: exact whenever no pivot vanishes. *)
Theorem c19_exact_nonzero_pivots : forall n a b c d, (1 <= n)%nat ->
  (forall k, (k < n)%nat -> fst (fwd a c (n - 1) b d) k <> 0) ->
  forall k, (k < n)%nat -> row n a b c (solve_tridiag n a b c d) k = d k.
Proof. intros; apply solve_exact; auto. Qed.
Print Assumptions c19_exact_nonzero_pivots.

(** Three equations with off-diagonals -1 and diagonal 3: the hypotheses are met. *)
Example c19_example :
  dominant 3 (fun _ => -1) (fun _ => 3) (fun _ => -1) /\
  solve_tridiag 3 (fun _ => -1) (fun _ => 3) (fun _ => -1)
    (fun k => match k with 0%nat => 1 | 1%nat => 2 | _ => 7 end) 2%nat = 3.
Proof.
  split.
  - intros k Hk. rewrite Rabs_left by lra. rewrite (Rabs_right 3) by lra.
    destruct (Nat.eqb k 0), (Nat.eqb k (3 - 1)); lra.
  - cbv -[Rplus Rmult Rminus Rdiv Rinv IZR Ropp]. field.
Qed.

(** * C20 Heat conduction *)
Definition heat_inputs (n : nat) (dx lam hcap : nat -> R) (dt dx_b lam_b : R) : Prop :=
  (1 <= n)%nat /\ 0 < dt /\ 0 < dx_b /\ 0 < lam_b /\
  forall k, (k < n)%nat -> 0 < dx k /\ 0 < lam k /\ 0 < hcap k.

Lemma cond_is_conductance n dx lam dx_b lam_b :
  (forall k, (k < n)%nat -> 0 < dx k /\ 0 < lam k) -> 0 < dx_b -> 0 < lam_b ->
  conductances n dx lam dx_b lam_b (cond_between n dx lam dx_b lam_b).
Proof.
  intros H Hb Hl k Hk. unfold cond_between. destruct (H k Hk) as [A B].
  destruct (Nat.eqb_spec k (n - 1)).
  - field. repeat split; try lra. nra.
  - destruct (H (S k) ltac:(lia)) as [A' B']. field. repeat split; try lra. nra.
Qed.
Lemma conductance_unique n dx lam dx_b lam_b K :
  (forall k, (k < n)%nat -> 0 < dx k /\ 0 < lam k) -> 0 < dx_b -> 0 < lam_b ->
  conductances n dx lam dx_b lam_b K ->
  forall k, (k < n)%nat -> K k = cond_between n dx lam dx_b lam_b k.
Proof.
  intros H Hb Hl C k Hk. pose proof (C k Hk) as E.
  pose proof (cond_is_conductance n dx lam dx_b lam_b H Hb Hl k Hk) as E'.
  set (r := dx k / 2 / lam k + _) in *.
  assert (r <> 0) by (intro Z; rewrite Z in E; lra).
  apply Rmult_eq_reg_r with r; auto. lra.
Qed.

Lemma down_ext n K K' T T_b k : K k = K' k -> down n K T T_b k = down n K' T T_b k.
Proof. unfold down; intros ->; reflexivity. Qed.
Lemma heat_equation_ext n dt hcap K K' T T' T_b flux : (1 <= n)%nat ->
  (forall k, (k < n)%nat -> K k = K' k) ->
  heat_equation n dt hcap K T T' T_b flux -> heat_equation n dt hcap K' T T' T_b flux.
Proof.
  intros Hn E H k Hk. rewrite (H k Hk). rewrite (down_ext n K K' T' T_b k) by auto.
  destruct (Nat.eqb_spec k 0); auto. rewrite (down_ext n K K' T' T_b (k - 1)) by (apply E; lia). auto.
Qed.

Theorem c20_heat_equation : forall n dx lam hcap dt dx_b lam_b T T_b flux K,
  heat_inputs n dx lam hcap dt dx_b lam_b -> conductances n dx lam dx_b lam_b K ->
  heat_equation n dt hcap K T
    (fun k => T k + temp_change n dx dt T lam T_b dx_b lam_b flux hcap k) T_b flux.
Proof.
  intros n dx lam hcap dt dx_b lam_b T T_b flux K (Hn & Hdt & Hb & Hl & H) C.
  assert (H1 : forall k, (k < n)%nat -> 0 < dx k /\ 0 < lam k) by (intros k Hk; destruct (H k Hk) as (?&?&?); auto).
  assert (H2 : forall k, (k < n)%nat -> 0 < hcap k) by (intros k Hk; destruct (H k Hk) as (?&?&?); auto).
  apply heat_equation_ext with (K := cond_between n dx lam dx_b lam_b); auto.
  - intros k Hk. symmetry. apply (conductance_unique n dx lam dx_b lam_b K); auto.
  - intros k Hk. pose proof (heat_rows n dx dt T lam T_b dx_b lam_b flux hcap Hn Hdt H1 H2 Hb Hl k Hk) as E.
    rewrite <- E. ring.
Qed.
Print Assumptions c20_heat_equation.

(** The scheme is well posed for every time step: there is exactly one solution. *)
Theorem c20_unique : forall n dx lam hcap dt dx_b lam_b T T_b flux K T',
  heat_inputs n dx lam hcap dt dx_b lam_b -> conductances n dx lam dx_b lam_b K ->
  heat_equation n dt hcap K T T' T_b flux ->
  forall k, (k < n)%nat -> T' k = T k + temp_change n dx dt T lam T_b dx_b lam_b flux hcap k.
Proof.
  intros n dx lam hcap dt dx_b lam_b T T_b flux K T' (Hn & Hdt & Hb & Hl & H) C E k Hk.
  assert (H1 : forall k, (k < n)%nat -> 0 < dx k /\ 0 < lam k) by (intros j Hj; destruct (H j Hj) as (?&?&?); auto).
  assert (H2 : forall k, (k < n)%nat -> 0 < hcap k) by (intros j Hj; destruct (H j Hj) as (?&?&?); auto).
  apply heat_equation_ext with (K' := cond_between n dx lam dx_b lam_b) in E; auto.
  2: { intros j Hj. apply (conductance_unique n dx lam dx_b lam_b K); auto. }
  rewrite <- (heat_unique n dx dt T lam T_b dx_b lam_b flux hcap Hn Hdt H1 H2 Hb Hl (fun j => T' j - T j)); auto.
  - ring.
  - intros j Hj. rewrite (E j Hj). unfold down.
    destruct (Nat.eqb_spec j 0), (Nat.eqb_spec j (n - 1)), (Nat.eqb_spec (j - 1) (n - 1)); try lia; ring.
Qed.
Print Assumptions c20_unique.

(** Energy: the heat gained by all layers is what enters at the top minus what leaves at the bottom. *)
Theorem c20_energy : forall n dx lam hcap dt dx_b lam_b T T_b flux K,
  heat_inputs n dx lam hcap dt dx_b lam_b -> conductances n dx lam dx_b lam_b K ->
  let dT := temp_change n dx dt T lam T_b dx_b lam_b flux hcap in
  sumR (map (fun k => hcap k * dT k) (seq 0 n))
  = dt * flux - dt * (K (n - 1)%nat * (T (n - 1)%nat + dT (n - 1)%nat - T_b)).
Proof.
  intros n dx lam hcap dt dx_b lam_b T T_b flux K (Hn & Hdt & Hb & Hl & H) C dT.
  assert (H1 : forall k, (k < n)%nat -> 0 < dx k /\ 0 < lam k) by (intros j Hj; destruct (H j Hj) as (?&?&?); auto).
  assert (H2 : forall k, (k < n)%nat -> 0 < hcap k) by (intros j Hj; destruct (H j Hj) as (?&?&?); auto).
  rewrite (conductance_unique n dx lam dx_b lam_b K H1 Hb Hl C) by lia.
  unfold dT. rewrite heat_energy by auto. ring.
Qed.
Print Assumptions c20_energy.

(** Layers in equilibrium with the bottom medium stay as they are when no heat enters. *)
Theorem c20_equilibrium : forall n dx lam hcap dt dx_b lam_b T T_b,
  heat_inputs n dx lam hcap dt dx_b lam_b -> (forall k, (k < n)%nat -> T k = T_b) ->
  forall k, (k < n)%nat -> temp_change n dx dt T lam T_b dx_b lam_b 0 hcap k = 0.
Proof.
  intros n dx lam hcap dt dx_b lam_b T T_b I HT k Hk.
  destruct I as (Hn & Hdt & Hb & Hl & H).
  assert (H1 : forall k, (k < n)%nat -> 0 < dx k /\ 0 < lam k) by (intros j Hj; destruct (H j Hj) as (?&?&?); auto).
  assert (H2 : forall k, (k < n)%nat -> 0 < hcap k) by (intros j Hj; destruct (H j Hj) as (?&?&?); auto).
  pose proof (heat_upper n dx dt T lam T_b dx_b lam_b 0 hcap Hn Hdt H1 H2 Hb Hl T_b ltac:(lra) ltac:(lra)
    ltac:(intros j Hj; rewrite (HT j Hj); lra) k Hk).
  pose proof (heat_lower n dx dt T lam T_b dx_b lam_b 0 hcap Hn Hdt H1 H2 Hb Hl T_b ltac:(lra) ltac:(lra)
    ltac:(intros j Hj; rewrite (HT j Hj); lra) k Hk).
  rewrite (HT k Hk) in *. lra.
Qed.
Print Assumptions c20_equilibrium.

(** Maximum principle: without heating from above no layer becomes warmer than the warmest layer
    (or the bottom medium) was; without cooling from above none becomes colder than the coldest. *)
Theorem c20_maximum_principle : forall n dx lam hcap dt dx_b lam_b T T_b flux M,
  heat_inputs n dx lam hcap dt dx_b lam_b ->
  let T' := fun k => T k + temp_change n dx dt T lam T_b dx_b lam_b flux hcap k in
  (flux <= 0 -> T_b <= M -> (forall k, (k < n)%nat -> T k <= M) ->
     forall k, (k < n)%nat -> T' k <= M) /\
  (0 <= flux -> M <= T_b -> (forall k, (k < n)%nat -> M <= T k) ->
     forall k, (k < n)%nat -> M <= T' k).
Proof.
  intros n dx lam hcap dt dx_b lam_b T T_b flux M (Hn & Hdt & Hb & Hl & H) T'.
  assert (H1 : forall k, (k < n)%nat -> 0 < dx k /\ 0 < lam k) by (intros j Hj; destruct (H j Hj) as (?&?&?); auto).
  assert (H2 : forall k, (k < n)%nat -> 0 < hcap k) by (intros j Hj; destruct (H j Hj) as (?&?&?); auto).
  split; intros; unfold T'; [apply heat_upper|apply heat_lower]; auto.
Qed.
Print Assumptions c20_maximum_principle.

(** The soil column (soil.py:soil_temperature): the bottom medium is a copy of the lowest layer as it
    was before the step; heat is exchanged with it only if the lowest layer changes. *)
Theorem c20_soil_energy : forall n dx lam hcap dt T flux,
  heat_inputs n dx lam hcap dt (dx (n - 1)%nat) (lam (n - 1)%nat) ->
  let T' := soil_temperature n dx dt T lam flux hcap in
  sumR (map (fun k => hcap k * (T' k - T k)) (seq 0 n))
  = dt * flux - dt * (lam (n - 1)%nat / dx (n - 1)%nat * (T' (n - 1)%nat - T (n - 1)%nat)).
Proof.
  intros n dx lam hcap dt T flux I T'.
  pose proof I as I'. destruct I' as (Hn & _ & _ & _ & H).
  assert (H1 : forall k, (k < n)%nat -> 0 < dx k /\ 0 < lam k) by (intros j Hj; destruct (H j Hj) as (?&?&?); auto).
  destruct (H1 (n - 1)%nat ltac:(lia)) as [Ha Hb].
  pose proof (c20_energy n dx lam hcap dt _ _ T (T (n - 1)%nat) flux _ I (cond_is_conductance n dx lam _ _ H1 Ha Hb)) as E.
  cbv zeta in E. unfold T', soil_temperature.
  erewrite map_ext. rewrite E. 2: { intro k; cbv beta. match goal with |- ?a * (?b + ?c - ?b) = _ => replace (b + c - b) with c by ring end. reflexivity. }
  unfold cond_between. rewrite Nat.eqb_refl.
  set (q := temp_change _ _ _ _ _ _ _ _ _ _ _). field. lra.
Qed.
Print Assumptions c20_soil_energy.

(** Two snow layers over soil meet the hypotheses, and the step changes them. *)
Example c20_example :
  heat_inputs 2 (fun _ => 1/10) (fun _ => 1/4) (fun _ => 50000) 3600 (1/10) 1 /\
  conductances 2 (fun _ => 1/10) (fun _ => 1/4) (1/10) 1 (cond_between 2 (fun _ => 1/10) (fun _ => 1/4) (1/10) 1) /\
  temp_change 1 (fun _ => 1/10) 3600 (fun _ => 263) (fun _ => 1/4) 273 (1/10) 1 0 (fun _ => 50000) 0%nat = 360/161.
Proof.
  split; [|split].
  - repeat split; intros; try lra; lia.
  - apply cond_is_conductance; intros; lra.
  - unfold temp_change, cond_between. cbn [Nat.eqb Nat.sub]. field.
Qed.

(** * C21 The array version acts on every column like the single column version *)
Theorem c21_columns : forall n dx dt T lam T_b dx_b lam_b flux hcap k p,
  temp_change_array n dx dt T lam T_b dx_b lam_b flux hcap k p =
  temp_change n (fun j => dx j p) dt (fun j => T j p) (fun j => lam j p) (T_b p) (dx_b p) (lam_b p)
    (flux p) (fun j => hcap j p) k.
Proof. intros; apply temp_change_array_col. Qed.
Print Assumptions c21_columns.
Theorem c21_solver_columns : forall n a b c d k p,
  solve_tridiag_array n a b c d k p =
  solve_tridiag n (fun j => a j p) (fun j => b j p) (fun j => c j p) (fun j => d j p) k.
Proof. intros; apply solve_array_col. Qed.
Print Assumptions c21_solver_columns.
(** Two pixels with different temperatures get different results. *)
Example c21_example :
  let T := fun (k p : nat) => if Nat.eqb p 0 then 263 else 273 in
  let f := temp_change_array 1 (fun _ _ => 1/10) 3600 T (fun _ _ => 1/4) (fun _ => 273) (fun _ => 1/10)
             (fun _ => 1) (fun _ => 0) (fun _ _ => 50000) in
  f 0%nat 0%nat = 360/161 /\ f 0%nat 1%nat = 0.
Proof. cbv zeta. unfold temp_change_array. cbn [Nat.eqb Nat.sub]. split; field. Qed.

(** * C71 The heat leaving the snowpack at its base enters the soil *)
(** What holds: the soil receives, for snow-covered pixels, the flux between the lowest snow layer and
    the uppermost soil layer at the given temperatures, directed from warm to cold; without snow it
    receives the surface heat flux. *)
Theorem c71_soil_heat_flux : forall ns surf dx0 T0s lam0 sdx sT slam,
  0 < dx0 -> 0 < lam0 ->
  (forall k, (k < ns)%nat -> 0 < sdx k /\ 0 < slam k) ->
  let q := soil_heat_flux ns surf dx0 T0s lam0 sdx sT slam in
  (ns = 0%nat -> q = surf) /\
  ((0 < ns)%nat ->
     q * (sdx (ns - 1)%nat / 2 / slam (ns - 1)%nat + dx0 / 2 / lam0) = sT (ns - 1)%nat - T0s /\
     (0 < q <-> T0s < sT (ns - 1)%nat) /\ (q < 0 <-> sT (ns - 1)%nat < T0s)).
Proof.
  intros ns surf dx0 T0s lam0 sdx sT slam H0 H1 H q. unfold q, soil_heat_flux. split.
  - intros ->; reflexivity.
  - intro Hn. destruct (Nat.eqb_spec ns 0); [lia|]. destruct (H (ns - 1)%nat ltac:(lia)) as [A B].
    assert (P : 0 < sdx (ns - 1)%nat / slam (ns - 1)%nat + dx0 / lam0).
    { pose proof (Rdiv_lt_0_compat _ _ A B). pose proof (Rdiv_lt_0_compat _ _ H0 H1). lra. }
    split.
    + field. repeat split; try lra. nra.
    + set (r := _ + _) in *. pose proof (Rdiv_lt_0_compat 2 r ltac:(lra) P) as Q.
      split; split; intro; nra.
Qed.
Print Assumptions c71_soil_heat_flux.

(** What fails: the snow side uses the temperature stored in the last slot of the snow arrays as the
    temperature of the soil, so the heat lost by the pack at its base is unrelated to the heat the
    soil receives. Witness: one active layer of three at 263.15 K over soil at 268.15 K, no surface flux;
    the unused slots hold 273.15 K. The energy gained by the snow differs from the energy the soil loses,
    whether the soil flux is evaluated before or after the update. *)
Theorem c71_base_flux_consistent_refuted :
  exists ns nmax dx dt temp lam sdx slam hcap Tsoil,
    heat_inputs ns dx lam hcap dt sdx slam /\ (ns < nmax)%nat /\
    let temp' := snow_heat_conduction ns nmax dx dt temp lam sdx slam 0 hcap in
    let gained := sumR (map (fun k => hcap k * (temp' k - temp k)) (seq 0 ns)) in
    gained <> - dt * soil_heat_flux ns 0 sdx Tsoil slam dx temp lam /\
    gained <> - dt * soil_heat_flux ns 0 sdx Tsoil slam dx temp' lam.
Proof.
  exists 1%nat, 3%nat, (fun _ => 1/10), 3600,
    (fun k => if Nat.eqb k 0 then 26315/100 else 27315/100), (fun _ => 1/4), (1/10), 1,
    (fun _ => 50000), (26815/100).
  split; [|split]. repeat split; intros; try lra; lia. lia.
  cbv zeta. unfold snow_heat_conduction, temp_change, soil_heat_flux, cond_between.
  cbn [Nat.eqb Nat.sub Nat.ltb Nat.leb seq map]. rewrite !sumR_cons, !sumR_nil.
  split; intro H; field_simplify in H; lra.
Qed.
Print Assumptions c71_base_flux_consistent_refuted.

(** It does hold when the last slot happens to hold the soil temperature: the heat gained by the pack is
    then minus the flux into the soil at the new temperatures. *)
Theorem c71_base_flux_consistent_partial : forall ns nmax dx dt temp lam sdx slam flux hcap Tsoil,
  heat_inputs ns dx lam hcap dt sdx slam -> temp (nmax - 1)%nat = Tsoil ->
  let temp' := snow_heat_conduction ns nmax dx dt temp lam sdx slam flux hcap in
  sumR (map (fun k => hcap k * (temp' k - temp k)) (seq 0 ns))
  = dt * flux - dt * soil_heat_flux ns 0 sdx Tsoil slam dx temp' lam.
Proof.
  intros ns nmax dx dt temp lam sdx slam flux hcap Tsoil I E temp'.
  pose proof I as I'. destruct I' as (Hn & _ & Hb & Hl & H).
  assert (H1 : forall k, (k < ns)%nat -> 0 < dx k /\ 0 < lam k) by (intros j Hj; destruct (H j Hj) as (?&?&?); auto).
  destruct (H1 (ns - 1)%nat ltac:(lia)) as [Ha Hb'].
  pose proof (c20_energy ns dx lam hcap dt _ _ temp (temp (nmax - 1)%nat) flux _ I (cond_is_conductance ns dx lam _ _ H1 Hb Hl)) as C.
  cbv zeta in C. unfold temp', snow_heat_conduction, soil_heat_flux.
  destruct (Nat.eqb_spec ns 0); [lia|].
  destruct (Nat.ltb_spec (ns - 1) ns); [|lia].
  assert (M : map (fun k => hcap k * ((if Nat.ltb k ns then temp k + temp_change ns dx dt temp lam (temp (nmax - 1)%nat) sdx slam flux hcap k else temp k) - temp k)) (seq 0 ns)
    = map (fun k => hcap k * temp_change ns dx dt temp lam (temp (nmax - 1)%nat) sdx slam flux hcap k) (seq 0 ns)).
  { apply map_ext_in. intros k Hk. apply in_seq in Hk. destruct (Nat.ltb_spec k ns); [|lia]. ring. }
  rewrite M, C. unfold cond_between. rewrite Nat.eqb_refl. rewrite E. ring.
Qed.
Print Assumptions c71_base_flux_consistent_partial.
