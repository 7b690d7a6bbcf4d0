(** Model of atmosphere.py:wet_bulb_temperature as the program on arrays that it is: all pixels of the region iterate together, and the loop
    ends when no pixel makes a step beyond the tolerance. [None] is NaN. The secant step of a pixel with equal residuals (division by zero) is
    represented as NaN; numpy may also give infinity. The arrays are one list of records. *)
From Verif Require Import Common Constants AtmosphereModel MeteoFieldsModel GridBalanceModel CryoGridModel.
Open Scope R_scope.

(** temp, vap_press, psych_const and the local arrays x0, x1, y0, y1 *)
Record wpix := WP { w_t : num; w_v : num; w_p : num; w_x0 : num; w_x1 : num; w_y0 : num; w_y1 : num }.
(** 265-290 _water_vapor_pressure_difference *)
Definition wdiff (t x v p : num) : num :=
  match t, x, v, p with Some t, Some x, Some v, Some p => Some (psychro_diff t x v p) | _, _, _, _ => None end.
(** 323-327: start values *)
Definition wstart (q : num * num * num) : wpix :=
  let '(t, v, p) := q in
  let x0 := nmap (fun t => t - 10) t in
  let x1 := match v with None => None | Some _ => t end in
  WP t v p x0 x1 (wdiff t x0 v p) (wdiff t x1 v p).
(** 330: the secant step *)
Definition wd (q : wpix) : num :=
  match w_x0 q, w_x1 q, w_y0 q, w_y1 q with
  | Some x0, Some x1, Some y0, Some y1 => if Req_EM_T y1 y0 then None else Some ((x1 - x0) / (y1 - y0) * y1)
  | _, _, _, _ => None
  end.
(** 336-344: the assignments to the pixels that iterate *)
Definition set_x0 (q : wpix) : wpix := WP (w_t q) (w_v q) (w_p q) (w_x1 q) (w_x1 q) (w_y0 q) (w_y1 q).
Definition set_y0 (q : wpix) : wpix := WP (w_t q) (w_v q) (w_p q) (w_x0 q) (w_x1 q) (w_y1 q) (w_y1 q).
Definition sub_x1 (q : wpix) (d : num) : wpix := WP (w_t q) (w_v q) (w_p q) (w_x0 q) (nsub (w_x1 q) d) (w_y0 q) (w_y1 q).
Definition set_y1 (q : wpix) : wpix :=
  WP (w_t q) (w_v q) (w_p q) (w_x0 q) (w_x1 q) (w_y0 q) (wdiff (w_t q) (w_x1 q) (w_v q) (w_p q)).
(** 329-346: the loop; [fuel] bounds the number of iterations, [None]: not finished *)
Fixpoint wloop (fuel : nat) (g : list wpix) : option (list num) :=
  match fuel with
  | O => None
  | S fuel' =>
      let d := map wd g in
      let iter_pos := map beyond d in
      if (count iter_pos =? 0)%nat then Some (map w_x1 g)
      else
        let g := update g iter_pos set_x0 in
        let g := update g iter_pos set_y0 in
        let g := put g iter_pos (map2 sub_x1 (take g iter_pos) (take d iter_pos)) in
        wloop fuel' (update g iter_pos set_y1)
  end.
(** 293-346 wet_bulb_temperature of a field: temperature, vapour pressure and psychrometric constant of every pixel *)
Definition wet_bulb_array (fuel : nat) (field : list (num * num * num)) : option (list num) := wloop fuel (map wstart field).
