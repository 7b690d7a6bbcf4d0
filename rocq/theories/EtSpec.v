(** Specification of the crop coefficient curve and of water balances, independent of the model's index arithmetic. *)
From Verif Require Import Common.
Open Scope R_scope.

(** The curve of a sequence of growth cycles, walking through the stages one after the other. [d] counts the days
    from the start of the next cycle. *)
Fixpoint curve (ini mid fin out : R) (l : list (nat * nat * nat * nat)) (d : Z) : R :=
  match l with
  | [] => out
  | (a, b, c, e) :: rest =>
      let a' := Z.of_nat a in let b' := Z.of_nat b in let c' := Z.of_nat c in let e' := Z.of_nat e in
      if (d <=? a')%Z then ini
      else if (d <=? a' + b')%Z then ini + IZR (d - a') / IZR b' * (mid - ini)
      else if (d <=? a' + b' + c')%Z then mid
      else if (d <=? a' + b' + c' + e')%Z then mid + IZR (d - a' - b' - c') / IZR e' * (fin - mid)
      else curve ini mid fin out rest (d - (a' + b' + c' + e'))
  end.
(** Coefficient on a day of the growing period (1: first day) *)
Definition curve_at (ini mid fin out : R) (l : list (nat * nat * nat * nat)) (d : Z) : R :=
  if (d <=? 0)%Z then out else curve ini mid fin out l d.
(** Same for the lower bound of the plant height: the coefficient of the previous stage, the maximum after the
    development stage *)
Fixpoint height_floor (hini hdev hmax : R) (l : list (nat * nat * nat * nat)) (d : Z) : R :=
  match l with
  | [] => 0
  | (a, b, c, e) :: rest =>
      let a' := Z.of_nat a in let b' := Z.of_nat b in let c' := Z.of_nat c in let e' := Z.of_nat e in
      if (d <=? a')%Z then hini
      else if (d <=? a' + b')%Z then hdev
      else if (d <=? a' + b' + c' + e')%Z then hmax
      else height_floor hini hdev hmax rest (d - (a' + b' + c' + e'))
  end.
Definition total_days (l : list (nat * nat * nat * nat)) : Z :=
  fold_right (fun '(a, b, c, e) acc => (Z.of_nat a + Z.of_nat b + Z.of_nat c + Z.of_nat e + acc)%Z) 0%Z l.
