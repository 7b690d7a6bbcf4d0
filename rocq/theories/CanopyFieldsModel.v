(** Model of the air of one pixel within a time step: derived fields, air above the canopy, air below the canopy. *)
From Verif Require Import Common Constants AtmosphereModel MeteoFieldsModel CanopyModel.

(** What else belongs to a pixel: forest or not, effective LAI, radiation, wind, temperatures of the last day. *)
Record air := AIR { a_forest : bool; a_lai : num; a_sw : num; a_lw : num; a_ws : num; a_buf : list num }.
(** The fields canopy.py works on; temperature and humidity are those of the interpolation. *)
Definition canopy_pixel (p : MeteoFieldsModel.mpix) (a : air) : CanopyModel.mpix :=
  MP (a_forest a) (a_lai a) (mp_temp p) (a_sw a) (a_lw a) (mp_rh p) (a_ws a) (a_buf a).
(** Fields afterwards: derived ones, those above the canopy, those at the ground *)
Record fields := FL { f_derived : mder; f_above : num * num * num * num * num; f_ground : CanopyModel.mpix }.
(** model.py:815-847 (derived fields), then 342-352: above_canopy_meteorology if evapotranspiration or canopy is enabled, then the canopy model, which changes
    temperature, humidity, radiation and wind of forest pixels. Nothing between there and the end of the time step computes the derived fields again
    (model.py:354-385). [idx]: position in the buffer. [None]: the wet-bulb iteration has not finished. A pixel of the region of interest. *)
Definition air_step (c : ccfg) (fuel : nat) (canopy et : bool) (idx : nat) (old : num * num * num * num * num) (p : MeteoFieldsModel.mpix) (a : air) : option fields :=
  match derive fuel p with
  | None => None
  | Some d =>
      let q := canopy_pixel p a in
      Some (FL d (if canopy || et then above_canopy true q old else old)
               (if canopy then inside c q (set_nth idx (m_temp q) (m_buf q)) else q))
  end.
