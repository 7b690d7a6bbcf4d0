(** C106: which processes run, in which order and how often. *)
From Verif Require Import Common StepOrderModel.
From Coq Require Import Lia.

(** ** Specification *)
(** All processes of a time step in the documented order. *)
Definition all_processes : list event :=
  [NextDate; ResetState; Interpolate; CallMeteo; DeriveMeteo; Irradiance; Lai; AboveCanopy; CanopyMeteo; CanopySnow; Compaction; Accumulation;
   AlbedoAging; Produce; Groom; SnowProperties; SoilProperties; SurfaceProperties; EnergyBalance; TemperatureIndex; HeatConduction; Melt; Sublimation;
   Runoff; SnowProperties; UpdateLayers; SoilHeatFlux; SoilTemperature; Evaporate; UpdateGlaciers; PointOutput; GriddedOutput; UpdateLiveView].
Definition all_preparations : list event :=
  [PrepareTimeSteps; InitializeGrid; ResolveThreads; ManageState; Construct Snow; Construct LandCover; Construct Canopy; Construct Evapotranspiration;
   Construct Glaciers; AddVariable true; AddVariable false; Construct SnowManagement; CreateState; ReadDem; ReadSrf; ReadLandCover; ReadSoilTexture;
   ReadGlaciers; ReadMeteo; StoreMeteo; StoreCallback; StationCoordinates; CorrectStationPrecip; TerrainParameters; InitPointOutput; InitGriddedOutput;
   Initialize Snow; Initialize Soil; Initialize SurfaceTemperature; Initialize LandCover; Initialize Canopy; Initialize Evapotranspiration;
   Initialize SnowManagement; Initialize Glaciers; CreateLiveView].
(** Which configurations ask for a component. *)
Definition asked (c : options) (k : component) : bool :=
  match k with
  | Snow | Soil | SurfaceTemperature => true
  | LandCover => if o_canopy c then true else o_et c
  | Canopy => o_canopy c
  | Evapotranspiration => o_et c
  | Glaciers => o_glaciers c
  | SnowManagement => if o_addon c then o_snow_management c else false
  end.
(** Which configurations ask for a process. *)
Definition needed (c : options) (e : event) : bool :=
  match e with
  | ResetState => o_reset c
  | Interpolate => match o_format c with Callback => false | _ => true end
  | CallMeteo | StoreCallback => match o_format c with Callback => true | _ => false end
  | ReadMeteo => match o_format c with Csv | Netcdf => true | _ => false end
  | StoreMeteo => match o_format c with Memory => true | _ => false end
  | Lai | AboveCanopy | ReadLandCover => asked c LandCover
  | CanopyMeteo | CanopySnow => o_canopy c
  | Produce | Groom => asked c SnowManagement
  | SoilProperties | SoilHeatFlux | SoilTemperature => match o_model c with Multilayer => true | Cryolayers => false end
  | EnergyBalance => o_energy_balance c
  | TemperatureIndex => if o_energy_balance c then false else true
  | Evaporate | ReadSoilTexture => o_et c
  | UpdateGlaciers | ReadGlaciers => o_glaciers c
  | UpdateLiveView | CreateLiveView => o_liveview c
  | AddVariable true => o_liston c
  | AddVariable false | ReadSrf => o_srf c
  | Construct k | Initialize k => asked c k
  | _ => true
  end.
(** Which component a process of a time step belongs to, and which input it needs. *)
Definition part_of (e : event) : option component :=
  match e with
  | Lai | AboveCanopy => Some LandCover
  | CanopyMeteo | CanopySnow => Some Canopy
  | Compaction | Accumulation | AlbedoAging | SnowProperties | TemperatureIndex | HeatConduction | Melt | Sublimation | Runoff | UpdateLayers => Some Snow
  | SoilProperties | SoilHeatFlux | SoilTemperature => Some Soil
  | SurfaceProperties | EnergyBalance => Some SurfaceTemperature
  | Produce | Groom => Some SnowManagement
  | Evaporate => Some Evapotranspiration
  | UpdateGlaciers => Some Glaciers
  | _ => None
  end.
Definition input_of (e : event) : list event :=
  match e with
  | Initialize LandCover | Lai | AboveCanopy | CanopyMeteo | CanopySnow => [CreateState; ReadLandCover]
  | Initialize Evapotranspiration | Evaporate => [CreateState; ReadLandCover; ReadSoilTexture]
  | Initialize Glaciers | UpdateGlaciers => [CreateState; ReadGlaciers]
  | Interpolate | Irradiance | SurfaceProperties => [PrepareTimeSteps; InitializeGrid; CreateState; ReadDem; StationCoordinates; CorrectStationPrecip; TerrainParameters]
  | CallMeteo => [CreateState; StoreCallback; TerrainParameters]
  | TerrainParameters | StationCoordinates => [InitializeGrid; ReadDem]
  | PointOutput => [InitPointOutput]
  | GriddedOutput => [InitGriddedOutput]
  | UpdateLiveView => [CreateLiveView]
  | _ => []
  end.
Definition at_position (l : list event) (i : nat) (e : event) : Prop := nth_error l i = Some e.
(** Every occurrence of [b] comes after every occurrence of [a]. *)
Definition before (l : list event) (a b : event) : Prop := forall i j, at_position l i a -> at_position l j b -> (i < j)%nat.

(** ** Proofs *)
Lemma event_dec : forall a b : event, {a = b} + {a <> b}.
Proof. repeat decide equality. Defined.
Definition all_options : list options :=
  flat_map (fun m => flat_map (fun f => flat_map (fun a => flat_map (fun b => flat_map (fun d => flat_map (fun e => flat_map (fun g => flat_map (fun h =>
    flat_map (fun i => flat_map (fun j => flat_map (fun k => map (fun x => OP m a b d e g h f i j k x) [true; false])
    [true; false]) [true; false]) [true; false]) [true; false]) [true; false]) [true; false]) [true; false]) [true; false]) [true; false])
    [Csv; Netcdf; Memory; Callback]) [Multilayer; Cryolayers].
Lemma all_options_all c : In c all_options.
Proof.
  destruct c as [m a b d e g h f i j k x]. unfold all_options.
  assert (B : forall y : bool, In y [true; false]) by (intros []; cbn; auto).
  apply in_flat_map; exists m; split; [destruct m; cbn; auto|]. apply in_flat_map; exists f; split; [destruct f; cbn; auto|].
  do 9 (apply in_flat_map; eexists; split; [apply B|]). apply in_map, B.
Qed.
Lemma for_all_options (p : options -> bool) : forallb p all_options = true -> forall c, p c = true.
Proof. intros H c. rewrite forallb_forall in H. apply H, all_options_all. Qed.
Definition eqb_l (a b : list event) : bool := if list_eq_dec event_dec a b then true else false.
Lemma eqb_l_spec a b : eqb_l a b = true -> a = b.
Proof. unfold eqb_l. destruct (list_eq_dec event_dec a b); congruence. Qed.

(** Exactly the processes the configuration asks for run in a time step, in the documented order. *)
Theorem c106_step : forall c, time_step c = filter (needed c) all_processes.
Proof. intro c. apply eqb_l_spec. revert c. apply for_all_options. vm_compute. reflexivity. Qed.
Print Assumptions c106_step.
Example c106_step_ex :
  time_step (OP Multilayer true false false false false false Csv true false false false) =
  [NextDate; ResetState; Interpolate; DeriveMeteo; Irradiance; Compaction; Accumulation; AlbedoAging; SnowProperties; SoilProperties; SurfaceProperties;
   EnergyBalance; HeatConduction; Melt; Sublimation; Runoff; SnowProperties; UpdateLayers; SoilHeatFlux; SoilTemperature; PointOutput; GriddedOutput].
Proof. reflexivity. Qed.

(** The same for the preparations. *)
Theorem c106_preparation : forall c, initialize c = filter (needed c) all_preparations.
Proof. intro c. apply eqb_l_spec. revert c. apply for_all_options. vm_compute. reflexivity. Qed.
Print Assumptions c106_preparation.

Lemma count_steps c e n : count_occ event_dec (steps c n) e = (n * count_occ event_dec (time_step c) e)%nat.
Proof. induction n; cbn [steps]; [reflexivity|]. rewrite count_occ_app, IHn. lia. Qed.
(** The number of times a process has run after n time steps: every process the configuration asks for once per time step, the snow properties twice, the
    preparations once. *)
Definition listed (e : event) (l : list event) : bool := if in_dec event_dec e l then true else false.
Definition often (c : options) (n : nat) (e : event) : nat :=
  if needed c e then if listed e all_preparations then 1 else
  match e with SnowProperties => 2 * n | _ => if listed e all_processes then n else 0 end else 0.
Lemma count_filter_none (f : event -> bool) l e : f e = false -> count_occ event_dec (filter f l) e = 0%nat.
Proof. intros H. induction l as [|a l IH]; cbn; [reflexivity|]. destruct (f a) eqn:F; [|exact IH]. cbn. destruct (event_dec a e); [congruence|exact IH]. Qed.
Lemma count_filter_same (f : event -> bool) l e : f e = true -> count_occ event_dec (filter f l) e = count_occ event_dec l e.
Proof.
  intros H. induction l as [|a l IH]; cbn; [reflexivity|]. destruct (f a) eqn:F; cbn; destruct (event_dec a e); subst; try congruence; rewrite ?IH; reflexivity.
Qed.
Theorem c106_counts : forall c n e, count_occ event_dec (whole_run c n) e = often c n e.
Proof.
  intros c n e. unfold whole_run. rewrite count_occ_app, count_steps, c106_step, c106_preparation. unfold often.
  destruct (needed c e) eqn:N; [rewrite !count_filter_same by exact N | rewrite !count_filter_none by exact N; lia].
  clear N. destruct e; repeat match goal with k : component |- _ => destruct k | v : bool |- _ => destruct v end;
    repeat match goal with |- context [count_occ event_dec ?l ?e] => let v := eval vm_compute in (count_occ event_dec l e) in change (count_occ event_dec l e) with v end;
    repeat match goal with |- context [listed ?e ?l] => let v := eval vm_compute in (listed e l) in change (listed e l) with v end; cbv beta iota; lia.
Qed.
Print Assumptions c106_counts.
Example c106_counts_ex : let c := OP Multilayer true true true false false false Csv true false false false in
  (often c 10 SnowProperties = 20 /\ often c 10 (Initialize LandCover) = 1 /\ often c 10 Melt = 10 /\ often c 10 TemperatureIndex = 0 /\ often c 10 Lai = 10)%nat.
Proof. vm_compute. auto. Qed.

Lemma filter_before (f : event -> bool) (l : list event) a b : (forall i j, nth_error l i = Some a -> nth_error l j = Some b -> (i < j)%nat) ->
  before (filter f l) a b.
Proof.
  unfold before, at_position. induction l as [|x l IH]; intros H i j A B; [destruct i; discriminate|].
  assert (H' : forall i j, nth_error l i = Some a -> nth_error l j = Some b -> (i < j)%nat).
  { intros i' j' A' B'. specialize (H (S i') (S j') A' B'). lia. }
  cbn in A, B. destruct (f x); [|exact (IH H' i j A B)].
  destruct j as [|j].
  - cbn in B. injection B as ->. destruct i as [|i].
    + cbn in A. injection A as ->. specialize (H 0%nat 0%nat eq_refl eq_refl). lia.
    + cbn in A. apply nth_error_In, filter_In in A. destruct A as [A _]. apply In_nth_error in A. destruct A as [m A].
      specialize (H (S m) 0%nat A eq_refl). lia.
  - destruct i as [|i]; [lia|]. cbn in A, B. specialize (IH H' i j A B). lia.
Qed.
Fixpoint positions (l : list event) (e : event) (i : nat) : list nat :=
  match l with [] => [] | x :: r => if event_dec x e then i :: positions r e (S i) else positions r e (S i) end.
Lemma positions_spec l e : forall k i, nth_error l i = Some e -> In (k + i)%nat (positions l e k).
Proof.
  induction l as [|x l IH]; intros k i H; [destruct i; discriminate|]. cbn. destruct i as [|i].
  - cbn in H. injection H as ->. destruct (event_dec e e); [left; lia|congruence].
  - cbn in H. specialize (IH (S k) i H). replace (k + S i)%nat with (S k + i)%nat by lia. destruct (event_dec x e); [right|]; exact IH.
Qed.
Definition before_b (l : list event) (a b : event) : bool := forallb (fun i => forallb (fun j => Nat.ltb i j) (positions l b 0)) (positions l a 0).
Lemma before_b_spec l a b : before_b l a b = true -> forall i j, nth_error l i = Some a -> nth_error l j = Some b -> (i < j)%nat.
Proof.
  unfold before_b. intros H i j A B. rewrite forallb_forall in H. specialize (H i (positions_spec l a 0 i A)). rewrite forallb_forall in H.
  specialize (H j (positions_spec l b 0 j B)). apply Nat.ltb_lt in H. exact H.
Qed.
(** The order a user relies on, for every configuration: the meteorological fields are complete before they are used, the state of the air above the
    canopy is kept before the canopy changes it, new snow falls after the compaction of the old, albedo and properties see the new snow, melt and
    sublimation come after the energy balance, runoff after melt, and the outputs come last. *)
Theorem c106_order : forall c, Forall (fun ab => before (time_step c) (fst ab) (snd ab))
  [(NextDate, ResetState); (ResetState, Interpolate); (ResetState, CallMeteo); (Interpolate, DeriveMeteo); (CallMeteo, DeriveMeteo);
   (DeriveMeteo, Irradiance); (Irradiance, AboveCanopy); (Lai, CanopyMeteo); (AboveCanopy, CanopyMeteo); (CanopyMeteo, CanopySnow); (CanopyMeteo, Accumulation);
   (CanopySnow, Accumulation); (Compaction, Accumulation); (Accumulation, AlbedoAging); (Accumulation, Groom); (Produce, Groom); (Groom, SnowProperties);
   (Accumulation, SnowProperties); (AlbedoAging, EnergyBalance); (SoilProperties, SurfaceProperties); (SurfaceProperties, EnergyBalance);
   (EnergyBalance, HeatConduction); (TemperatureIndex, Melt); (HeatConduction, Melt); (EnergyBalance, Melt); (Melt, Sublimation); (EnergyBalance, Sublimation);
   (Melt, Runoff); (Sublimation, Runoff); (Runoff, UpdateLayers); (SnowProperties, UpdateLayers); (HeatConduction, SoilHeatFlux); (EnergyBalance, SoilHeatFlux);
   (SoilHeatFlux, SoilTemperature); (UpdateLayers, Evaporate); (AboveCanopy, Evaporate); (Runoff, Evaporate); (UpdateLayers, UpdateGlaciers);
   (SoilTemperature, PointOutput); (Evaporate, PointOutput); (UpdateGlaciers, PointOutput); (UpdateLayers, PointOutput); (PointOutput, GriddedOutput);
   (GriddedOutput, UpdateLiveView)].
Proof.
  intro c. rewrite c106_step. repeat (constructor; [apply filter_before, before_b_spec; vm_compute; reflexivity|]). constructor.
Qed.
Print Assumptions c106_order.
(** The snow properties are computed before the surface properties use them and again between runoff and the update of the layers. *)
Theorem c106_properties : forall c, exists l1 l2 l3, time_step c = l1 ++ [SnowProperties] ++ l2 ++ [SnowProperties; UpdateLayers] ++ l3 /\
  In Accumulation l1 /\ In SurfaceProperties l2 /\ In Runoff l2 /\ ~ In SnowProperties (l1 ++ l2 ++ l3).
Proof.
  intro c. rewrite c106_step.
  exists (filter (needed c) (firstn 15 all_processes)), (filter (needed c) (firstn 8 (skipn 16 all_processes))), (filter (needed c) (skipn 26 all_processes)).
  split.
  - transitivity (filter (needed c) (firstn 15 all_processes ++ [SnowProperties] ++ firstn 8 (skipn 16 all_processes) ++ [SnowProperties; UpdateLayers] ++ skipn 26 all_processes)).
    + f_equal.
    + rewrite !filter_app. reflexivity.
  - rewrite <- !filter_app, !filter_In. repeat split; try (cbn; tauto). intros [H _]. cbn in H. repeat (destruct H as [H|H]; [discriminate|]). exact H.
Qed.
Print Assumptions c106_properties.
(** Exactly one melt method runs in every time step. *)
Theorem c106_melt_method : forall c, (In EnergyBalance (time_step c) /\ ~ In TemperatureIndex (time_step c)) \/
  (~ In EnergyBalance (time_step c) /\ In TemperatureIndex (time_step c)).
Proof.
  intro c. rewrite c106_step, !filter_In. cbn [needed]. destruct (o_energy_balance c); [left|right]; split; try (intros [_ H]; discriminate); (split; [cbn; tauto|reflexivity]).
Qed.
Print Assumptions c106_melt_method.

Lemma in_steps c n i e : nth_error (steps c n) i = Some e -> In e (time_step c).
Proof.
  intros H. apply nth_error_In in H. induction n; cbn in H; [contradiction|]. apply in_app_or in H. destruct H; auto.
Qed.
Lemma prep_in c a : In a all_preparations -> needed c a = true -> exists j, (j < List.length (initialize c))%nat /\ at_position (initialize c) j a.
Proof.
  intros A N. assert (X : In a (initialize c)) by (rewrite c106_preparation; apply filter_In; auto). apply In_nth_error in X. destruct X as [j X].
  exists j. split; [|exact X]. apply nth_error_Some. congruence.
Qed.
(** Nothing is used before it is there: in every run of any length, a process of a time step comes after the construction (where there is one) and the initialisation
    of its component, in this order, and every process after the inputs it uses. *)
Theorem c106_ready : forall c n i e k, at_position (whole_run c n) i e -> part_of e = Some k ->
  exists j, (j < i)%nat /\ at_position (whole_run c n) j (Initialize k) /\
  (k = Soil \/ k = SurfaceTemperature \/ exists m, (m < j)%nat /\ at_position (whole_run c n) m (Construct k)).
Proof.
  intros c n i e k A P. unfold whole_run, at_position in A.
  destruct (Nat.lt_ge_cases i (List.length (initialize c))) as [L|L].
  { rewrite nth_error_app1 in A by exact L. apply nth_error_In in A. rewrite c106_preparation, filter_In in A. destruct A as [A _].
    exfalso. cbn in A. repeat (destruct A as [<-|A]; [cbn in P; discriminate|]). exact A. }
  rewrite nth_error_app2 in A by exact L. apply in_steps in A. rewrite c106_step, filter_In in A. destruct A as [_ N].
  assert (K : asked c k = true) by (destruct e; cbn in P; try discriminate; injection P as <-; cbn in *; auto).
  destruct (prep_in c (Initialize k)) as (j & J & JA); [destruct k; cbn; tauto|exact K|].
  exists j. split; [lia|]. split; [unfold at_position, whole_run; rewrite nth_error_app1 by exact J; exact JA|].
  destruct k; try (left; reflexivity); try (right; left; reflexivity); right; right;
  match goal with |- exists m, _ /\ at_position _ m (Construct ?k) =>
    destruct (prep_in c (Construct k)) as (m & M & MA); [cbn; tauto|exact K|];
    exists m; split; [|unfold at_position, whole_run; rewrite nth_error_app1 by exact M; exact MA];
    rewrite c106_preparation in JA, MA; revert MA JA; apply filter_before, before_b_spec; vm_compute; reflexivity end.
Qed.
Print Assumptions c106_ready.
Theorem c106_inputs : forall c n i e a, at_position (whole_run c n) i e -> In a (input_of e) ->
  exists j, (j < i)%nat /\ at_position (whole_run c n) j a.
Proof.
  intros c n i e a A I. unfold whole_run, at_position in A.
  destruct (Nat.lt_ge_cases i (List.length (initialize c))) as [L|L].
  - rewrite nth_error_app1 in A by exact L. assert (X := A). apply nth_error_In in X. rewrite c106_preparation, filter_In in X. destruct X as [X N].
    assert (Z : needed c a = true /\ In a all_preparations /\ before_b all_preparations a e = true).
    { cbn in X. repeat (destruct X as [<-|X]; [cbn in I; repeat (destruct I as [<-|I]; [split; [cbn in *; try reflexivity; try exact N;
        destruct (o_canopy c); first [reflexivity | assumption | discriminate]|split; [cbn; tauto|vm_compute; reflexivity]]|]); contradiction|]). destruct X. }
    destruct Z as (Na & Ia & B). destruct (prep_in c a Ia Na) as (j & J & JA). exists j. split.
    + rewrite c106_preparation in JA, A. revert JA A. apply filter_before, before_b_spec, B.
    + unfold at_position, whole_run. rewrite nth_error_app1 by exact J. exact JA.
  - rewrite nth_error_app2 in A by exact L. apply in_steps in A. rewrite c106_step, filter_In in A. destruct A as [X N].
    assert (Z : needed c a = true /\ In a all_preparations).
    { cbn in X. repeat (destruct X as [<-|X]; [cbn in I; repeat (destruct I as [<-|I]; [split; [cbn in *; try reflexivity; try exact N;
        destruct (o_canopy c); first [reflexivity | assumption | discriminate]|cbn; tauto]|]); contradiction|]). destruct X. }
    destruct Z as (Na & Ia). destruct (prep_in c a Ia Na) as (j & J & JA). exists j. split; [lia|].
    unfold at_position, whole_run. rewrite nth_error_app1 by exact J. exact JA.
Qed.
Print Assumptions c106_inputs.
(** A run with evapotranspiration but without canopy still reads and initialises the land cover, and its leaf area index is known in the first time step. *)
Example c106_example : let c := OP Cryolayers false false true false false true Netcdf true false true true in
  at_position (whole_run c 3) 33 Lai /\ at_position (whole_run c 3) 13 ReadLandCover /\ at_position (whole_run c 3) 25 (Initialize LandCover) /\
  part_of Lai = Some LandCover /\ In ReadLandCover (input_of Lai) /\ ~ In (Initialize Canopy) (whole_run c 3) /\ In Evaporate (time_step c).
Proof.
  cbn zeta. unfold at_position. do 5 (split; [vm_compute; tauto|]).
  split; [intro H; vm_compute in H; repeat (destruct H as [H|H]; [discriminate|]); exact H | vm_compute; tauto].
Qed.
