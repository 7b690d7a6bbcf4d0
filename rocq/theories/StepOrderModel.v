(** Model of the sequence of processes: initialisation (model.py initialize, _initialize_state_variables) and one time step (model.py run_single,
    _model_interface). What the processes do is modelled elsewhere; here they are events. Exceptions end the sequence (not modelled). *)
From Verif Require Import Common.

Inductive snow_model := Multilayer | Cryolayers.
Inductive meteo_format := Csv | Netcdf | Memory | Callback.
(** The configuration, as far as the sequence depends on it. [o_srf], [o_liston]: precipitation correction "srf", wind method "liston". [o_addon]: the
    package for snow management is installed. *)
Record options := OP {
  o_model : snow_model; o_energy_balance : bool; o_canopy : bool; o_et : bool; o_addon : bool; o_snow_management : bool; o_glaciers : bool;
  o_format : meteo_format; o_reset : bool; o_liveview : bool; o_srf : bool; o_liston : bool }.
(** model.py:66-78 *)
Definition require_soil (c : options) : bool := match o_model c with Multilayer => true | Cryolayers => false end.
Definition require_energy_balance (c : options) : bool := o_energy_balance c.
Definition require_temperature_index (c : options) : bool := negb (require_energy_balance c).
Definition require_canopy (c : options) : bool := o_canopy c.
Definition require_et (c : options) : bool := o_et c.
Definition require_land_cover (c : options) : bool := require_canopy c || require_et c.
Definition require_soil_texture (c : options) : bool := require_et c.
Definition require_interpolation (c : options) : bool := match o_format c with Csv | Netcdf | Memory => true | Callback => false end.
Definition require_snow_management (c : options) : bool := o_addon c && o_snow_management c.
Definition require_glaciers (c : options) : bool := o_glaciers c.

Inductive component := Snow | LandCover | Canopy | Evapotranspiration | Glaciers | SnowManagement | Soil | SurfaceTemperature.
Inductive event :=
(* initialisation *)
| PrepareTimeSteps | InitializeGrid | ResolveThreads | ManageState | Construct (k : component) | AddVariable (curvature : bool) | CreateState
| ReadDem | ReadSrf | ReadLandCover | ReadSoilTexture | ReadGlaciers | ReadMeteo | StoreMeteo | StoreCallback | StationCoordinates | CorrectStationPrecip
| TerrainParameters | InitPointOutput | InitGriddedOutput | Initialize (k : component) | CreateLiveView
(* time step *)
| NextDate | ResetState | Interpolate | CallMeteo | DeriveMeteo | Irradiance | Lai | AboveCanopy | CanopyMeteo | CanopySnow | Compaction | Accumulation
| AlbedoAging | Produce | Groom | SnowProperties | SoilProperties | SurfaceProperties | EnergyBalance | TemperatureIndex | HeatConduction | Melt
| Sublimation | Runoff | UpdateLayers | SoilHeatFlux | SoilTemperature | Evaporate | UpdateGlaciers | PointOutput | GriddedOutput | UpdateLiveView.
Definition when (b : bool) (l : list event) : list event := if b then l else [].

(** model.py:513-534 _initialize_state_variables *)
Definition initialize_state (c : options) : list event :=
  [Initialize Snow; Initialize Soil; Initialize SurfaceTemperature] ++
  when (require_land_cover c) [Initialize LandCover] ++
  when (require_canopy c) [Initialize Canopy] ++
  when (require_et c) [Initialize Evapotranspiration] ++
  when (require_snow_management c) [Initialize SnowManagement] ++
  when (require_glaciers c) [Initialize Glaciers].
(** model.py:558-679 _read_input_data *)
Definition read_inputs (c : options) : list event :=
  [ReadDem] ++ when (o_srf c) [ReadSrf] ++ when (require_land_cover c) [ReadLandCover] ++ when (require_soil_texture c) [ReadSoilTexture] ++
  when (require_glaciers c) [ReadGlaciers].
(** model.py:80-209 *)
Definition initialize (c : options) : list event :=
  [PrepareTimeSteps; InitializeGrid; ResolveThreads; ManageState; Construct Snow] ++
  when (require_land_cover c) [Construct LandCover] ++
  when (require_canopy c) [Construct Canopy] ++
  when (require_et c) [Construct Evapotranspiration] ++
  when (require_glaciers c) [Construct Glaciers] ++
  when (o_liston c) [AddVariable true] ++
  when (o_srf c) [AddVariable false] ++
  when (require_snow_management c) [Construct SnowManagement] ++
  [CreateState] ++ read_inputs c ++
  (match o_format c with Csv | Netcdf => [ReadMeteo] | Memory => [StoreMeteo] | Callback => [StoreCallback] end) ++
  [StationCoordinates; CorrectStationPrecip; TerrainParameters; InitPointOutput; InitGriddedOutput] ++
  initialize_state c ++
  when (o_liveview c) [CreateLiveView].
(** model.py:335-385 _model_interface *)
Definition interface (c : options) : list event :=
  [Irradiance] ++
  when (require_land_cover c) [Lai] ++
  when (require_et c || require_canopy c) [AboveCanopy] ++
  when (require_canopy c) [CanopyMeteo; CanopySnow] ++
  [Compaction; Accumulation; AlbedoAging] ++
  when (require_snow_management c) [Produce; Groom] ++
  [SnowProperties] ++
  when (require_soil c) [SoilProperties] ++
  [SurfaceProperties] ++
  (if require_energy_balance c then [EnergyBalance] else when (require_temperature_index c) [TemperatureIndex]) ++
  [HeatConduction; Melt; Sublimation; Runoff; SnowProperties; UpdateLayers] ++
  when (require_soil c) [SoilHeatFlux; SoilTemperature] ++
  when (require_et c) [Evaporate] ++
  when (require_glaciers c) [UpdateGlaciers].
(** model.py:238-285 run_single *)
Definition time_step (c : options) : list event :=
  [NextDate] ++
  when (o_reset c) [ResetState] ++
  when (require_interpolation c) [Interpolate] ++
  when (match o_format c with Callback => true | _ => false end) [CallMeteo] ++
  [DeriveMeteo] ++ interface c ++ [PointOutput; GriddedOutput] ++
  when (o_liveview c) [UpdateLiveView].
(** initialize(), then n time steps *)
Fixpoint steps (c : options) (n : nat) : list event := match n with O => [] | S n' => steps c n' ++ time_step c end.
Definition whole_run (c : options) (n : nat) : list event := initialize c ++ steps c n.
