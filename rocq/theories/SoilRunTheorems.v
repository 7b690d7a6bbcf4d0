(** Theorems about the soil from its initialisation over any run (C97). *)
From Verif Require Import Common Constants SoilModel SoilProofs SoilTheorems HeatTheorems SoilRunModel.
From Verif Require HeatModel SurfaceModel.
Open Scope R_scope.

(** * Specification *)
(** Fractions of sand and clay and a configuration that makes sense *)
Definition sensible (c : scfg) : Prop :=
  0 <= sc_sand c /\ 0 <= sc_clay c /\ 0 < sc_sand c + sc_clay c <= 1 /\ 0 <= sc_moist c <= 1 /\ 0 < sc_temp c
  /\ sc_thickness c <> [] /\ forall th, In th (sc_thickness c) -> 0 < th.
Definition good (l : list scell) : Prop := l <> [] /\ forall c, In c l -> valid_soil (sc_layer c).
(** What never changes *)
Definition fixed (c : scell) : R * R * R * R * R * R * R :=
  let s := sc_layer c in (thickness s, heat_cap_dry s, therm_cond_dry s, moisture s, moisture_sat s, sat_water_pressure s, clapp_hornberger s).
Definition temps (l : list scell) : list R := map (fun c => temp (sc_layer c)) l.
(** Temperatures are positive before every time step of the run *)
Fixpoint stays_positive (dt : R) (fs : list sforce) (l : list scell) : Prop :=
  Forall (fun t => 0 < t) (temps l) /\ match fs with [] => True | f :: fs' => stays_positive dt fs' (soil_step dt f l) end.
(** Heat stored in the column (heat capacities times temperature changes), supplied from above and lost through the lower end *)
Definition heat_gain (l l' : list scell) : R := sumR (map (fun k => col_hcap l k * (nth k (temps l') 0 - nth k (temps l) 0)) (seq 0 (List.length l))).
Definition heat_loss (dt : R) (l l' : list scell) : R :=
  let n := (List.length l - 1)%nat in dt * (col_cond l n / col_dx l n * (nth n (temps l') 0 - nth n (temps l) 0)).
Fixpoint total (q : sforce -> list scell -> list scell -> R) (dt : R) (fs : list sforce) (l : list scell) : R :=
  match fs with [] => 0 | f :: fs' => q f l (soil_step dt f l) + total q dt fs' (soil_step dt f l) end.

(** * Initialisation *)
Lemma Rpower_between a b x : 0 < a -> a <= b -> 0 <= x <= 1 -> a <= Rpower a x * Rpower b (1 - x) <= b.
Proof.
  intros A B X. assert (E : forall c, 0 < c -> c = Rpower c x * Rpower c (1 - x)).
  { intros c C. rewrite <- Rpower_plus. replace (x + (1 - x)) with 1 by ring. symmetry. apply Rpower_1; auto. }
  assert (M : forall y, 0 <= y -> Rpower a y <= Rpower b y) by (intros y Y; apply Rle_Rpower_l; lra).
  pose proof (Rpower_pos a x). pose proof (Rpower_pos b (1 - x)). pose proof (M x ltac:(lra)). pose proof (M (1 - x) ltac:(lra)).
  split.
  - rewrite (E a A) at 1. apply Rmult_le_compat_l; lra.
  - rewrite (E b ltac:(lra)) at 2. apply Rmult_le_compat_r; lra.
Qed.
(** Properties of the initial soil: heat capacity of the dry soil between those of sand and clay, conductivity between those of air
    and of the minerals, pore volume between 36 and 51 %, critical moisture below saturation. *)
Theorem c97_parameters : forall sand clay, 0 <= sand -> 0 <= clay -> 0 < sand + clay <= 1 ->
  (exists hc, init_heat_cap sand clay = Some hc /\ 2128000 <= hc <= 2385000)
  /\ 0.363 <= init_sat sand clay <= 0.505
  /\ 0 < init_crit sand clay < init_sat sand clay
  /\ 2.8 <= init_clapp sand clay <= 18.8 /\ 0 < init_pressure sand clay < 3.364
  /\ 1.16 <= init_minerals clay <= 1.57 /\ 0.025 <= init_cond_dry sand clay <= init_minerals clay.
Proof.
  intros sand clay S0 C0 [P1 P2].
  assert (SA : 0.363 <= init_sat sand clay <= 0.505) by (unfold init_sat; lra).
  assert (B : 2.8 <= init_clapp sand clay <= 18.8) by (unfold init_clapp; lra).
  assert (PR : 0 < init_pressure sand clay < 3.364).
  { unfold init_pressure. split; [apply Rpower_pos|].
    apply Rle_lt_trans with (Rpower 10 (/ 2)); [apply Rle_Rpower; lra|]. rewrite Rpower_sqrt by lra.
    apply Rsqr_incrst_0; [rewrite Rsqr_sqrt by lra; unfold Rsqr; lra|apply sqrt_pos|lra]. }
  split.
  { exists ((VOL_HEAT_CAP_SAND * sand + VOL_HEAT_CAP_CLAY * clay) / (sand + clay)). split.
    - unfold init_heat_cap. destruct (Req_EM_T (sand + clay) 0); [lra|reflexivity].
    - unfold VOL_HEAT_CAP_SAND, VOL_HEAT_CAP_CLAY. split.
      + apply (Rmult_le_reg_r (sand + clay)); [lra|]. unfold Rdiv. rewrite Rmult_assoc, Rinv_l by lra. lra.
      + apply (Rmult_le_reg_r (sand + clay)); [lra|]. unfold Rdiv. rewrite Rmult_assoc, Rinv_l by lra. lra. }
  split; [exact SA|]. split.
  { unfold init_crit. set (p := init_pressure sand clay / 3.364). assert (0 < p < 1).
    { unfold p. split; [apply Rdiv_lt_0_compat; lra|]. apply (Rmult_lt_reg_r 3.364); [lra|]. unfold Rdiv. rewrite Rmult_assoc, Rinv_l by lra. lra. }
    assert (Q : Rpower p (1 / init_clapp sand clay) < 1).
    { unfold Rpower. apply Rlt_le_trans with (exp 0); [apply exp_increasing|rewrite exp_0; lra]. assert (ln p < 0) by (rewrite <- ln_1; apply ln_increasing; lra).
      assert (0 < 1 / init_clapp sand clay) by (apply Rdiv_lt_0_compat; lra).
      pose proof (Rmult_lt_0_compat (1 / init_clapp sand clay) (- ln p) ltac:(lra) ltac:(lra)). lra. }
    pose proof (Rpower_pos p (1 / init_clapp sand clay)). split; [apply Rmult_lt_0_compat; lra|]. nra. }
  split; [exact B|]. split; [exact PR|].
  assert (M : 1.16 <= init_minerals clay <= 1.57) by (unfold init_minerals, THERM_COND_CLAY, THERM_COND_SAND; apply Rpower_between; lra).
  split; [exact M|]. unfold init_cond_dry, THERM_COND_AIR. apply Rpower_between; lra.
Qed.
Print Assumptions c97_parameters.
(** Initialisation succeeds for every sensible configuration: one layer for each thickness, all at the configured temperature, with the
    configured part of the pore volume filled with water, and all values physically valid. *)
Theorem c97_initial : forall c, sensible c -> exists l, soil_initial c = inr l /\ good l
  /\ map (fun x => thickness (sc_layer x)) l = sc_thickness c /\ initial_surface_temp l = Some (sc_temp c)
  /\ forall x, In x l -> temp (sc_layer x) = sc_temp c /\ moisture (sc_layer x) = sc_moist c * moisture_sat (sc_layer x)
       /\ moisture_sat (sc_layer x) = init_sat (sc_sand c) (sc_clay c) /\ sat_water_pressure (sc_layer x) = init_pressure (sc_sand c) (sc_clay c)
       /\ clapp_hornberger (sc_layer x) = init_clapp (sc_sand c) (sc_clay c) /\ therm_cond_dry (sc_layer x) = init_cond_dry (sc_sand c) (sc_clay c)
       /\ init_heat_cap (sc_sand c) (sc_clay c) = Some (heat_cap_dry (sc_layer x)).
Proof.
  intros c (A & B & C & D & E & F & G). destruct (c97_parameters _ _ A B C) as ((hc & H1 & H2) & H3 & _ & H4 & H5 & H6 & H7).
  unfold soil_initial. rewrite H1. destruct (sc_thickness c) as [|th ths] eqn:ET; [congruence|].
  eexists. split; [reflexivity|]. split; [split; [discriminate|]|].
  - intros x X. apply in_map_iff in X. destruct X as (t & <- & X). specialize (G t X). unfold valid_soil. cbn. repeat split; try lra; nra.
  - split; [|split; [reflexivity|]].
    + rewrite map_map. cbn. rewrite map_id. reflexivity.
    + intros x X. apply in_map_iff in X. destruct X as (t & <- & X). cbn. repeat split; auto.
Qed.
Print Assumptions c97_initial.
Example c97_default : sensible (SCFG [0.1; 0.2; 0.4; 0.8] 0.6 0.3 0.5 285).
Proof. unfold sensible. cbn. repeat split; try lra; [discriminate|]. intros th [<-|[<-|[<-|[<-|[]]]]]; lra. Qed.
(** Configurations are not checked: without sand and clay, or without layers, initialisation fails; with percentages the pore volume is
    negative. *)
Theorem c97_unchecked_refuted : forall ths m t, soil_initial (SCFG ths 0 0 m t) = inl ZeroDivisionError
  /\ soil_initial (SCFG [] 0.6 0.3 m t) = inl SIndexError
  /\ (exists l x, soil_initial (SCFG [0.1] 60 30 m t) = inr l /\ In x l /\ moisture_sat (sc_layer x) < 0).
Proof.
  intros ths m t. unfold soil_initial, init_heat_cap. cbn [sc_sand sc_clay sc_thickness sc_moist sc_temp].
  split; [destruct (Req_EM_T (0 + 0) 0); [reflexivity|lra]|]. destruct (Req_EM_T (0.6 + 0.3) 0); [lra|]. split; [reflexivity|].
  destruct (Req_EM_T (60 + 30) 0); [lra|]. eexists _, _. split; [reflexivity|]. split; [left; reflexivity|]. cbn. unfold init_sat. lra.
Qed.
Print Assumptions c97_unchecked_refuted.

(** * Steps *)
Lemma step_nth dt f l k d : (k < List.length l)%nat ->
  nth k (soil_step dt f l) d = set_temp (cell_properties (nth k l (SCELL (SoilLayer 0 0 0 0 0 0 0 0 0 0) None None)))
    (HeatModel.soil_temperature (List.length l) (col_dx l) dt (col_temp l) (col_cond l) (col_flux f l) (col_hcap l) k).
Proof.
  intros H. unfold soil_step. erewrite nth_indep by (rewrite map_length, seq_length; exact H).
  rewrite (map_nth (fun k => set_temp (cell_properties (nth k l (SCELL (SoilLayer 0 0 0 0 0 0 0 0 0 0) None None))) _)) with (d := 0%nat).
  rewrite seq_nth by exact H. reflexivity.
Qed.
Lemma step_length dt f l : List.length (soil_step dt f l) = List.length l.
Proof. unfold soil_step. rewrite map_length, seq_length. reflexivity. Qed.
Lemma cell_properties_layer c : sc_layer (cell_properties c) = sc_layer c.
Proof. unfold cell_properties. destruct (Rlt_dec 0 _); reflexivity. Qed.
Lemma fixed_set c t : fixed (set_temp (cell_properties c) t) = fixed c.
Proof. unfold fixed, set_temp. cbn. rewrite cell_properties_layer. reflexivity. Qed.
Lemma step_fixed dt f l : map fixed (soil_step dt f l) = map fixed l.
Proof.
  unfold soil_step. rewrite map_map. rewrite (map_ext _ (fun k => fixed (nth k l (SCELL (SoilLayer 0 0 0 0 0 0 0 0 0 0) None None)))) by (intros; apply fixed_set).
  generalize (SCELL (SoilLayer 0 0 0 0 0 0 0 0 0 0) None None). intros d. clear. induction l as [|a l IH]; [reflexivity|]. cbn [List.length seq map nth]. f_equal.
  rewrite <- seq_shift, map_map. exact IH.
Qed.
Lemma temps_nth l k : nth k (temps l) 0 = col_temp l k.
Proof. unfold temps, col_temp, layer_nth. rewrite <- (map_nth (fun c => temp (sc_layer c))). reflexivity. Qed.
Lemma good_from l l' : map fixed l' = map fixed l -> good l -> Forall (fun t => 0 < t) (temps l') -> good l'.
Proof.
  intros E [N G] P. split; [intros ->; destruct l; [congruence|discriminate]|].
  intros c C. assert (I : In (fixed c) (map fixed l)) by (rewrite <- E; apply in_map; exact C).
  apply in_map_iff in I. destruct I as (d & D & I). specialize (G d I). unfold fixed in D. injection D as D1 D2 D3 D4 D5 D6 D7.
  assert (0 < temp (sc_layer c)) by (rewrite Forall_forall in P; apply P, in_map_iff; exists c; auto).
  unfold valid_soil in *. rewrite <- D1, <- D2, <- D3, <- D4, <- D5, <- D6, <- D7. tauto.
Qed.
Lemma good_inputs dt l : 0 < dt -> good l ->
  heat_inputs (List.length l) (col_dx l) (col_cond l) (col_hcap l) dt (col_dx l (List.length l - 1)) (col_cond l (List.length l - 1)).
Proof.
  intros D [N G]. assert (L : (1 <= List.length l)%nat) by (destruct l; [congruence|simpl; lia]).
  assert (A : forall k, (k < List.length l)%nat -> 0 < col_dx l k /\ 0 < col_cond l k /\ 0 < col_hcap l k).
  { intros k K. pose proof (G _ (nth_In l (SCELL (SoilLayer 0 0 0 0 0 0 0 0 0 0) None None) K)) as V. fold (layer_nth l k) in V.
    pose proof (c54_thermal_properties _ V) as [H1 H2]. unfold col_dx, col_cond, col_hcap. destruct V as (V1 & _). lra. }
  destruct (A (List.length l - 1)%nat ltac:(lia)) as (A1 & A2 & _). repeat split; auto; apply A; auto.
Qed.
(** One time step: nothing but temperatures and fractions changes; the heat gained by the column is the heat supplied from above minus
    the heat lost through the lower end; and the supplied heat is that of the surface or of the lowest snow layer. *)
Theorem c97_step : forall dt f l, 0 < dt -> good l ->
  map fixed (soil_step dt f l) = map fixed l
  /\ heat_gain l (soil_step dt f l) = dt * col_flux f l - heat_loss dt l (soil_step dt f l)
  /\ (so_ns f = 0%nat -> col_flux f l = so_flux f)
  /\ (forall k c c', nth_error l k = Some c -> nth_error (soil_step dt f l) k = Some c' -> 0 < moisture (sc_layer c) ->
        exists a b, sc_frozen c' = Some a /\ sc_unfrozen c' = Some b /\ a + b = moisture (sc_layer c) / moisture_sat (sc_layer c) /\ 0 <= a < 1 /\ 0 < b <= 1).
Proof.
  intros dt f l D G. split; [apply step_fixed|]. split; [|split].
  - unfold heat_gain, heat_loss. pose proof (c20_soil_energy _ _ _ _ _ (col_temp l) (col_flux f l) (good_inputs dt l D G)) as E. cbv zeta in E.
    assert (T : forall k, (k < List.length l)%nat -> nth k (temps (soil_step dt f l)) 0
       = HeatModel.soil_temperature (List.length l) (col_dx l) dt (col_temp l) (col_cond l) (col_flux f l) (col_hcap l) k).
    { intros k K. rewrite temps_nth. unfold col_temp at 1, layer_nth. rewrite step_nth by exact K. reflexivity. }
    destruct G as [N _]. assert (L : (1 <= List.length l)%nat) by (destruct l; [congruence|simpl; lia]).
    rewrite (T (List.length l - 1)%nat) by lia. rewrite temps_nth. rewrite <- E. f_equal. apply map_ext_in. intros k K. apply in_seq in K.
    rewrite T by lia. rewrite temps_nth. reflexivity.
  - intros N. unfold col_flux, HeatModel.soil_heat_flux. rewrite N. reflexivity.
  - intros k c c' H H' W. assert (K : (k < List.length l)%nat) by (apply nth_error_Some; congruence).
    apply (nth_error_nth _ _ (SCELL (SoilLayer 0 0 0 0 0 0 0 0 0 0) None None)) in H, H'. rewrite step_nth in H' by exact K. rewrite H in H'.
    assert (V : valid_soil (sc_layer c)) by (apply G; rewrite <- H; apply nth_In, K).
    pose proof (c54_moisture_partition _ V W) as (Q1 & Q2 & Q3). subst c'. unfold set_temp, cell_properties. destruct (Rlt_dec 0 _); [|lra].
    cbn. eauto 10.
Qed.
Print Assumptions c97_step.
(** Over a whole run the same holds for the totals, for any snow and any fluxes as long as temperatures stay positive. *)
Theorem c97_run : forall dt fs l, 0 < dt -> good l -> stays_positive dt fs l ->
  good (soil_run dt fs l) /\ map fixed (soil_run dt fs l) = map fixed l
  /\ total (fun _ => heat_gain) dt fs l = total (fun f c _ => dt * col_flux f c) dt fs l - total (fun _ => heat_loss dt) dt fs l.
Proof.
  intros dt fs. induction fs as [|f fs IH]; intros l D G P; cbn [soil_run total].
  - split; [exact G|]. split; [reflexivity|lra].
  - destruct P as [P0 P]. destruct (c97_step dt f l D G) as (F & E & _).
    assert (P1 : Forall (fun t => 0 < t) (temps (soil_step dt f l))) by (destruct fs; apply P).
    pose proof (good_from l _ F G P1) as G'. destruct (IH _ D G' P) as (A & B & C). split; [exact A|]. split; [congruence|]. rewrite E, C. lra.
Qed.
Print Assumptions c97_run.
(** Temperatures do stay positive, and the soil never cools, while it gains heat from above. *)
Theorem c97_warming : forall dt fs l M, 0 < dt -> good l -> 0 < M -> Forall (fun t => M <= t) (temps l) ->
  (forall f, In f fs -> so_ns f = 0%nat /\ 0 <= so_flux f) ->
  stays_positive dt fs l /\ Forall (fun t => M <= t) (temps (soil_run dt fs l)).
Proof.
  intros dt fs. induction fs as [|f fs IH]; intros l M D G M0 T F.
  - cbn. split; [split; auto|exact T]. eapply Forall_impl; [|exact T]. cbn. intros; lra.
  - assert (T' : Forall (fun t => M <= t) (temps (soil_step dt f l))).
    { rewrite Forall_forall. intros t I. unfold temps in I. apply in_map_iff in I. destruct I as (c & <- & I).
      apply (In_nth _ _ (SCELL (SoilLayer 0 0 0 0 0 0 0 0 0 0) None None)) in I. destruct I as (k & K & I). rewrite step_length in K. rewrite step_nth in I by exact K.
      subst c. cbn [set_temp sc_layer temp].
      assert (TT : forall j, (j < List.length l)%nat -> M <= col_temp l j).
      { intros j J. rewrite <- temps_nth. rewrite Forall_forall in T. apply T, nth_In. unfold temps. rewrite map_length. exact J. }
      destruct (F f (or_introl eq_refl)) as [F1 F2].
      destruct (c20_maximum_principle _ _ _ _ _ _ _ (col_temp l) (col_temp l (List.length l - 1)%nat) (col_flux f l) M (good_inputs dt l D G)) as [_ X].
      apply X; auto; [|apply TT; lia]. unfold col_flux, HeatModel.soil_heat_flux. rewrite F1. cbn. exact F2. }
    assert (G' : good (soil_step dt f l)).
    { apply (good_from l); [apply step_fixed|exact G|]. eapply Forall_impl; [|exact T']. cbn. intros; lra. }
    destruct (IH _ M D G' M0 T' ltac:(intros; apply F; right; auto)) as [A B]. split; [|exact B]. cbn. split; [|exact A]. eapply Forall_impl; [|exact T]. cbn. intros; lra.
Qed.
Print Assumptions c97_warming.
(** A soil of uniform temperature which receives no heat stays as it is, for any number of time steps. *)
Theorem c97_equilibrium : forall dt fs l t0, 0 < dt -> good l -> (forall t, In t (temps l) -> t = t0) ->
  (forall f, In f fs -> (so_ns f = 0%nat /\ so_flux f = 0) \/ ((0 < so_ns f)%nat /\ so_temp f (so_ns f - 1)%nat = t0)) ->
  temps (soil_run dt fs l) = temps l.
Proof.
  intros dt fs. induction fs as [|f fs IH]; intros l t0 D G U F; [reflexivity|].
  assert (L : (1 <= List.length l)%nat) by (destruct G as [N _]; destruct l; [congruence|simpl; lia]).
  assert (TT : forall j, (j < List.length l)%nat -> col_temp l j = t0).
  { intros j J. rewrite <- temps_nth. apply U, nth_In. unfold temps. rewrite map_length. exact J. }
  assert (Q : col_flux f l = 0).
  { unfold col_flux, HeatModel.soil_heat_flux. destruct (F f (or_introl eq_refl)) as [[F1 F2]|[F1 F2]].
    - rewrite F1. exact F2.
    - destruct (Nat.eqb_spec (so_ns f) 0); [lia|]. rewrite F2, (TT 0%nat) by lia. ring. }
  assert (E : temps (soil_step dt f l) = temps l).
  { apply (nth_ext _ _ 0 0); [unfold temps; rewrite !map_length; apply step_length|].
    intros k K. unfold temps in K. rewrite map_length, step_length in K. rewrite !temps_nth. unfold col_temp at 1, layer_nth. rewrite step_nth by exact K.
    cbn [set_temp sc_layer temp]. unfold HeatModel.soil_temperature. rewrite Q.
    rewrite (c20_equilibrium _ _ _ _ _ _ _ (col_temp l) (col_temp l (List.length l - 1)%nat) (good_inputs dt l D G)); [ring| |exact K].
    intros j J. rewrite !TT by lia. reflexivity. }
  assert (G' : good (soil_step dt f l)).
  { apply (good_from l); [apply step_fixed|exact G|]. rewrite E. rewrite Forall_forall. intros t I. unfold temps in I. apply in_map_iff in I. destruct I as (c & <- & I).
    destruct G as [_ G]. destruct (G c I) as (_ & V & _). exact V. }
  cbn [soil_run]. rewrite (IH _ t0 D G'); [exact E|rewrite E; exact U|intros; apply F; right; auto].
Qed.
Print Assumptions c97_equilibrium.
(** The hypotheses are met: the default soil, warmed for two time steps *)
Example c97_run_example : exists l, soil_initial (SCFG [0.1; 0.2; 0.4; 0.8] 0.6 0.3 0.5 285) = inr l /\ good l
  /\ let f := SFO 0 (fun _ => 0) (fun _ => 0) (fun _ => 0) 20 in
     stays_positive 3600 [f; f] l /\ Forall (fun t => 285 <= t) (temps l).
Proof.
  destruct (c97_initial _ c97_default) as (l & E & G & _ & _ & T). exists l. split; [exact E|]. split; [exact G|]. cbv zeta.
  assert (T' : Forall (fun t => 285 <= t) (temps l)).
  { rewrite Forall_forall. intros t I. unfold temps in I. apply in_map_iff in I. destruct I as (c & <- & I). rewrite (proj1 (T c I)). cbn. lra. }
  split; [|exact T']. apply (c97_warming 3600 _ l 285); auto; try lra. intros f [<-|[<-|[]]]; cbn; split; auto; lra.
Qed.
(** The conductance of the surface is available if the soil has some moisture, and at least that of saturated soil... *)
Theorem c97_conductance : forall dt f l gsat crit c, 0 < dt -> good l -> nth_error l 0 = Some c -> 0 < moisture (sc_layer c) -> 0 < gsat ->
  exists g, surface_conductance gsat crit (soil_step dt f l) = Some g /\ gsat <= g.
Proof.
  intros dt f l gsat crit c D G H W S. destruct (c97_step dt f l D G) as (_ & _ & _ & X).
  destruct (nth_error (soil_step dt f l) 0) as [c'|] eqn:E.
  - destruct (X 0%nat c c' H E W) as (a & b & _ & B & _). unfold surface_conductance. destruct (soil_step dt f l) as [|c1 l']; [discriminate|]. cbn in E. injection E as ->.
    rewrite B. eexists. split; [reflexivity|]. unfold SurfaceModel.conductance. pose proof (Rmax_r ((b * moisture_sat (sc_layer c') / crit) ^ 2) 1). nra.
  - exfalso. apply nth_error_None in E. rewrite step_length in E. assert (0 < List.length l)%nat by (apply nth_error_Some; congruence). lia.
Qed.
Print Assumptions c97_conductance.
(** ... but never if the configured moisture content is zero: dry soil makes the energy balance of snow-free pixels missing. *)
Theorem c97_dry_refuted : exists c, sensible c /\ exists l, soil_initial c = inr l /\
  forall dt fs gsat crit, surface_conductance gsat crit (soil_run dt fs l) = None.
Proof.
  exists (SCFG [0.1] 0.6 0.3 0 285). split.
  - unfold sensible. cbn. repeat split; try lra; [discriminate|]. intros th [<-|[]]; lra.
  - eexists. split.
    + unfold soil_initial, init_heat_cap. cbn [sc_sand sc_clay sc_thickness sc_moist sc_temp]. destruct (Req_EM_T (0.6 + 0.3) 0); [lra|reflexivity].
    + intros dt fs gsat crit. cbn [map].
      match goal with |- surface_conductance _ _ (soil_run _ _ [?c]) = _ => assert (I : sc_unfrozen c = None /\ moisture (sc_layer c) = 0) by (cbn; split; [reflexivity|ring]);
        revert I; generalize c end.
      induction fs as [|f fs IH]; intros c [U M]; cbn [soil_run].
      * cbn. rewrite U. reflexivity.
      * unfold soil_step. cbn [List.length seq map nth]. apply IH. unfold cell_properties. rewrite M. destruct (Rlt_dec 0 0); [lra|]. cbn. auto.
Qed.
Print Assumptions c97_dry_refuted.
