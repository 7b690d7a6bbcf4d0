(** Model of the initialisation of the soil (modules/soil/init.py) and of the soil column of a pixel during a run
    (model.py:335-387: soil_properties, soil_heat_flux, soil_temperature in every time step). *)
From Verif Require Import Common Constants SoilModel.
From Verif Require HeatModel SurfaceModel.

(** config.soil (data/configschema.yml:884-910); all entries are plain numbers without limits *)
Record scfg := SCFG { sc_thickness : list R; sc_sand : R; sc_clay : R; sc_moist : R; sc_temp : R }.
(** constants.py:39-40, 44, 46 *)
Definition VOL_HEAT_CAP_SAND : R := 2128000.
Definition VOL_HEAT_CAP_CLAY : R := 2385000.
Definition THERM_COND_CLAY : R := 1.16.
Definition THERM_COND_SAND : R := 1.57.
(** init.py:44-48; Python raises ZeroDivisionError if both fractions are 0 *)
Definition init_heat_cap (sand clay : R) : option R :=
  if Req_EM_T (sand + clay) 0 then None
  else Some ((VOL_HEAT_CAP_SAND * sand + VOL_HEAT_CAP_CLAY * clay) / (sand + clay)).
(** 51 *)
Definition init_clapp (sand clay : R) : R := 3.1 + 15.7 * clay - 0.3 * sand.
(** 54 *)
Definition init_pressure (sand clay : R) : R := Rpower 10 (0.17 - 0.63 * clay - 1.58 * sand).
(** 58 *)
Definition init_sat (sand clay : R) : R := 0.505 - 0.037 * clay - 0.142 * sand.
(** 61-63 *)
Definition init_crit (sand clay : R) : R :=
  init_sat sand clay * Rpower (init_pressure sand clay / 3.364) (1 / init_clapp sand clay).
(** 66-71 *)
Definition init_minerals (clay : R) : R := Rpower THERM_COND_CLAY clay * Rpower THERM_COND_SAND (1 - clay).
(** 74-76 *)
Definition init_cond_dry (sand clay : R) : R :=
  Rpower THERM_COND_AIR (init_sat sand clay) * Rpower (init_minerals clay) (1 - init_sat sand clay).
(** A layer: its properties and the two state variables with the frozen and unfrozen fractions, which are missing
    (statevars.py:330-447, floats are created as NaN) until they are calculated. The fields [old_frozen] and
    [old_unfrozen] of [SoilModel] are not used here. *)
Record scell := SCELL { sc_layer : soil_layer; sc_frozen : num; sc_unfrozen : num }.
Inductive serr := ZeroDivisionError | SIndexError.
(** init.py:4-78 and model.py:513, which reads the temperature of the first layer *)
Definition soil_initial (c : scfg) : serr + list scell :=
  match init_heat_cap (sc_sand c) (sc_clay c) with
  | None => inl ZeroDivisionError
  | Some hc =>
      match sc_thickness c with
      | [] => inl SIndexError
      | ths =>
          let sat := init_sat (sc_sand c) (sc_clay c) in
          inr (map (fun th => SCELL (SoilLayer th (sc_temp c) hc (init_cond_dry (sc_sand c) (sc_clay c)) (sc_moist c * sat) sat
                                       (init_pressure (sc_sand c) (sc_clay c)) (init_clapp (sc_sand c) (sc_clay c)) 0 0) None None) ths)
      end
  end.
(** model.py:513 initial surface temperature *)
Definition initial_surface_temp (l : list scell) : option R := match l with [] => None | c :: _ => Some (temp (sc_layer c)) end.

(** Snow and surface seen by the soil in one time step *)
Record sforce := SFO { so_ns : nat; so_dx : nat -> R; so_temp : nat -> R; so_cond : nat -> R; so_flux : R }.
(** soil.py:7-28: the fractions are only written where there is moisture *)
Definition cell_properties (c : scell) : scell :=
  let s := sc_layer c in
  if Rlt_dec 0 (moisture s)
  then SCELL s (Some (frac_frozen (soil_properties s))) (Some (frac_unfrozen (soil_properties s)))
  else c.
Definition layer_nth (l : list scell) (k : nat) : soil_layer := sc_layer (nth k l (SCELL (SoilLayer 0 0 0 0 0 0 0 0 0 0) None None)).
(** The columns of thickness, temperature, thermal conductivity and heat capacity *)
Definition col_dx (l : list scell) (k : nat) : R := thickness (layer_nth l k).
Definition col_temp (l : list scell) (k : nat) : R := temp (layer_nth l k).
Definition col_cond (l : list scell) (k : nat) : R := therm_cond (soil_properties (layer_nth l k)).
Definition col_hcap (l : list scell) (k : nat) : R := heat_cap (soil_properties (layer_nth l k)).
(** soil.py:247-265 with the snow after the snow routines of the time step *)
Definition col_flux (f : sforce) (l : list scell) : R :=
  HeatModel.soil_heat_flux (so_ns f) (so_flux f) (col_dx l 0) (col_temp l 0) (col_cond l 0) (so_dx f) (so_temp f) (so_cond f).
(** soil.py:212-244 *)
Definition set_temp (c : scell) (t : R) : scell :=
  let s := sc_layer c in
  SCELL (SoilLayer (thickness s) t (heat_cap_dry s) (therm_cond_dry s) (moisture s) (moisture_sat s) (sat_water_pressure s) (clapp_hornberger s)
           (old_frozen s) (old_unfrozen s)) (sc_frozen c) (sc_unfrozen c).
Definition soil_step (dt : R) (f : sforce) (l : list scell) : list scell :=
  let n := List.length l in
  let new := HeatModel.soil_temperature n (col_dx l) dt (col_temp l) (col_cond l) (col_flux f l) (col_hcap l) in
  map (fun k => set_temp (cell_properties (nth k l (SCELL (SoilLayer 0 0 0 0 0 0 0 0 0 0) None None))) (new k)) (seq 0 n).
(** The soil columns after each time step *)
Fixpoint soil_run (dt : R) (fs : list sforce) (l : list scell) : list scell :=
  match fs with [] => l | f :: fs' => soil_run dt fs' (soil_step dt f l) end.
(** surface.py:48-60: conductance of the surface, missing if the unfrozen fraction is *)
Definition surface_conductance (gsat crit : R) (l : list scell) : num :=
  match l with
  | [] => None
  | c :: _ => match sc_unfrozen c with
              | None => None
              | Some u => Some (SurfaceModel.conductance gsat u (moisture_sat (sc_layer c)) crit)
              end
  end.
