(** Model of the path of water through one time step of the whole grid (model.py:335-387
    _model_interface and 849-877 of _process_meteo_data): precipitation phase and redistribution of
    snow, canopy interception, and one of the snow models, in the order of the code. The single
    processes are those of AtmosphereModel, CanopyModel, MultilayerModel and CryoModel. What they
    need besides water (temperatures, melt energy, leaf area, ...) is input: any values. *)
From Verif Require Import Common Constants AtmosphereModel CanopyModel.
From Verif Require MultilayerModel CryoModel.

(** Input of one pixel in one time step: elevation, phase temperature, precipitation and
    redistribution factor ([w_phase]); whether it is a forest pixel, effective leaf area index,
    sublimation loss coefficient and temperature inside the canopy; remaining input of the snow model. *)
Record win (F : Type) := WI {
  w_phase : ppix; w_forest : bool; w_lai : R; w_coeff : R; w_ctemp : num; w_rest : F }.
Arguments WI {F}. Arguments w_phase {F}. Arguments w_forest {F}. Arguments w_lai {F}.
Arguments w_coeff {F}. Arguments w_ctemp {F}. Arguments w_rest {F}.
(** State of one pixel: canopy_intercepted_load (NaN outside the forest) and the snow model's *)
Record wst (S : Type) := WS { w_load : num; w_snow : S }.
Arguments WS {S}. Arguments w_load {S}. Arguments w_snow {S}.
(** Output: precipitation above the canopy, canopy sublimation, the complete input of the snow model
    and its output *)
Record wout (F O : Type) := WO { wo_precip : num; wo_csub : num; wo_force : F; wo_out : O }.
Arguments WO {F O}. Arguments wo_precip {F O}. Arguments wo_csub {F O}. Arguments wo_force {F O}. Arguments wo_out {F O}.

Section Grid.
  Context {S F O : Type}.
  (** the snow model ([None]: NaN in a place where the model stops tracking) and how it is given
      snowfall and rainfall *)
  Variable snow : F -> S -> option (S * O).
  Variable with_water : num -> num -> F -> F.
  Variable pc : phase_cfg.
  Variable redistribute : bool.   (* "srf" in state.base *)
  Variable cc : ccfg.
  Variable dt : R.

  (** canopy.py:120-236 for forest pixels, nothing otherwise; result: load, sublimation, snowfall *)
  Definition through_canopy (i : win F) (load snowfall rainfall : num) : num * num * num :=
    if w_forest i then
      let r := canopy_snow cc dt (w_lai i) (w_coeff i) load (w_ctemp i) snowfall rainfall in
      (r_load r, r_sublimation r, r_snowfall r)
    else (load, None, snowfall).
  Definition pixel_step (i : win F) (st : wst S) (sr : num * num) : option (wst S * wout F O) :=
    let '(s, r, p) :=
      if redistribute then redistribute_snow (srf (w_phase i)) sr else (fst sr, snd sr, precip (w_phase i)) in
    let '(load, sub, s1) := through_canopy i (w_load st) s r in
    let f := with_water s1 r (w_rest i) in
    match snow f (w_snow st) with
    | None => None
    | Some (sn, o) => Some (WS load sn, WO p sub f o)
    end.
  (** one time step of all pixels; [None] if the precipitation phase raises *)
  Definition grid_step (ins : list (win F)) (sts : list (wst S)) : option (list (wst S) * list (wout F O)) :=
    match precip_fields pc (map w_phase ins) with
    | None => None
    | Some srs =>
        match all_some (map (fun '(i, st, sr) => pixel_step i st sr) (combine (combine ins sts) srs)) with
        | None => None
        | Some l => Some (split l)
        end
    end.
  Fixpoint grid_run (steps : list (list (win F))) (sts : list (wst S)) : option (list (wst S) * list (list (wout F O))) :=
    match steps with
    | [] => Some (sts, [])
    | ins :: steps' =>
        match grid_step ins sts with
        | None => None
        | Some (sts1, os) =>
            match grid_run steps' sts1 with
            | None => None
            | Some (sts2, oss) => Some (sts2, os :: oss)
            end
        end
    end.
End Grid.

(** The multilayer model as snow model: s.meteo.snowfall and s.meteo.rainfall are two of its inputs *)
Definition ml_water (s r : num) (f : MultilayerModel.forcing) : MultilayerModel.forcing :=
  MultilayerModel.mkF s r (MultilayerModel.f_wet_bulb f) (MultilayerModel.f_air f) (MultilayerModel.f_albedo_temp f)
    (MultilayerModel.f_melt f) (MultilayerModel.f_temps f) (MultilayerModel.f_mflux f) (MultilayerModel.f_tsurf f).
Definition ml_snow (c : MultilayerModel.config) (f : MultilayerModel.forcing) (st : MultilayerModel.pixel * num)
  : option ((MultilayerModel.pixel * num) * MultilayerModel.output) := Some (MultilayerModel.snow_step c f st).
(** The cryolayer model *)
Definition cl_water (s r : num) (f : CryoModel.cforcing) : CryoModel.cforcing :=
  CryoModel.CF (CryoModel.f_temp f) (CryoModel.f_wb f) (CryoModel.f_atemp f) s r (CryoModel.f_sw f) (CryoModel.f_surfalb f)
    (CryoModel.f_eb f) (CryoModel.f_mflux f) (CryoModel.f_firn f).
Definition cl_snow (c : CryoModel.ccfg) (mm : CryoModel.melt_method) (f : CryoModel.cforcing) (st : CryoModel.cpix)
  : option (CryoModel.cpix * CryoModel.coutput) := CryoModel.cstep c mm f st.
