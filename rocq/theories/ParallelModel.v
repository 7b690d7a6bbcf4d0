(** Model of the kernels which run in parallel over pixels (numba prange): the loop body of every pixel is a sequence of single reads and
    writes of array elements, and the bodies of different pixels interleave arbitrarily (numba gives every thread a range of pixels, which
    it works off one after the other: one of these interleavings). Memory operations are atomic (8-byte aligned floats). Values are [num]
    (None: NaN); a division by zero gives None. Arrays of integers (num_layers, roi_idxs) are only read and are functions. *)
From Verif Require Import Common Constants SnowModel MultilayerModel HeatModel InterpModel.
Open Scope R_scope.

Definition pix := (nat * nat)%type.
Inductive array := AThick | AIce | ALwc | ATemp | AHeatCap | AMelt | ASubl | ARunoff | ARefr | AMaxLwc | ARain | ADens | AAir | ACond
  | AFlux | ASoilThick | ASoilTemp | ASoilCond | ASoilFlux | AData.
(** an element: array, layer (0 for arrays without layers), pixel *)
Definition loc := (array * nat * pix)%type.
Definition mem := loc -> num.
Lemma array_dec (a b : array) : {a = b} + {a <> b}. Proof. decide equality. Defined.
Lemma loc_dec (a b : loc) : {a = b} + {a <> b}.
Proof. repeat decide equality; auto using array_dec. Defined.
Definition store (m : mem) (l : loc) (v : num) : mem := fun l' => if loc_dec l' l then v else m l'.

(** What one pixel still has to do. *)
Inductive prog := Done | Rd (l : loc) (k : num -> prog) | Wr (l : loc) (v : num) (p : prog).
(** one operation *)
Definition op (p : prog) (m : mem) : prog * mem :=
  match p with Done => (Done, m) | Rd l k => (k (m l), m) | Wr l v q => (q, store m l v) end.
(** everything at once *)
Fixpoint run (p : prog) (m : mem) : mem :=
  match p with Done => m | Rd l k => run (k (m l)) m | Wr l v q => run q (store m l v) end.
(** replace the i-th *)
Fixpoint set_nth {A} (i : nat) (x : A) (l : list A) : list A :=
  match l, i with [], _ => [] | _ :: t, O => x :: t | y :: t, S j => y :: set_nth j x t end.
(** a parallel loop: the scheduler names, again and again, a pixel whose next operation is carried out *)
Definition pstep (i : nat) (s : list prog * mem) : list prog * mem :=
  match nth_error (fst s) i with Some p => let '(q, m) := op p (snd s) in (set_nth i q (fst s), m) | None => s end.
Definition prun (sched : list nat) (s : list prog * mem) : list prog * mem := fold_left (fun s i => pstep i s) sched s.
Definition finished (ps : list prog) : Prop := Forall (fun p => p = Done) ps.

(** Float arithmetic *)
Definition lift2 (f : R -> R -> R) (a b : num) : num := match a, b with Some x, Some y => Some (f x y) | _, _ => None end.
Definition fadd := lift2 Rplus.
Definition fsub := lift2 Rminus.
Definition fmul := lift2 Rmult.
Definition fdiv (a b : num) : num := match a, b with Some x, Some y => if Req_EM_T y 0 then None else Some (x / y) | _, _ => None end.
Definition fmin := lift2 Rmin.
Definition fexp (a : num) : num := option_map exp a.
(** a > b *)
Definition fgt (a b : num) : bool := match a, b with Some x, Some y => if Rlt_dec y x then true else false | _, _ => false end.

(** util.py:295: np.array(np.where(roi)).T, the indices of the pixels of the region of interest, row by row *)
Definition roi_idxs (rows cols : nat) (roi : nat -> nat -> bool) : list pix :=
  filter (fun p => roi (fst p) (snd p)) (list_prod (seq 0 rows) (seq 0 cols)).

(** a[l] op= x *)
Definition update (l : loc) (f : num -> num) (q : prog) : prog := Rd l (fun v => Wr l (f v) q).

(** * multilayermodel.py:264-291 _melt *)
Fixpoint melt_body (n k : nat) (p : pix) (chg act : num) : prog :=
  match n with
  | O => Wr (AMelt, O, p) act Done
  | S n' =>
      Rd (AHeatCap, k, p) (fun h => Rd (ATemp, k, p) (fun t =>
      let cold := fmul h (fsub (Some T0) t) in
      let rest := fun chg =>
        if fgt chg (Some 0) then
          Rd (AIce, k, p) (fun i =>
          if fgt chg i then
            Rd (AIce, k, p) (fun i => let chg := fsub chg i in
            Wr (AThick, k, p) (Some 0) (
            Rd (ALwc, k, p) (fun w => Rd (AIce, k, p) (fun i => Wr (ALwc, k, p) (fadd w i) (
            Rd (AIce, k, p) (fun i => let act := fadd act i in
            Wr (AIce, k, p) (Some 0) (melt_body n' (S k) p chg act)))))))
          else
            Rd (AThick, k, p) (fun d => Rd (AIce, k, p) (fun i => Wr (AThick, k, p) (fmul d (fsub (Some 1) (fdiv chg i))) (
            update (AIce, k, p) (fun i => fsub i chg) (
            update (ALwc, k, p) (fun w => fadd w chg) (
            melt_body n' (S k) p (Some 0) (fadd act chg)))))))
        else melt_body n' (S k) p chg act in
      if fgt (Some 0) cold then Wr (ATemp, k, p) (Some T0) (rest (fsub chg (fdiv cold (Some Lf)))) else rest chg))
  end.
Definition melt_prog (nl : pix -> nat) (p : pix) : prog := Rd (AMelt, O, p) (fun chg => melt_body (nl p) 0 p chg (Some 0)).

(** * multilayermodel.py:333-348 _sublimation *)
Fixpoint sublim_body (n k : nat) (p : pix) (chg : num) : prog :=
  match n with
  | O => Done
  | S n' =>
      Rd (AIce, k, p) (fun i =>
      if fgt chg i then
        Rd (AIce, k, p) (fun i => Wr (AThick, k, p) (Some 0) (Wr (AIce, k, p) (Some 0) (sublim_body n' (S k) p (fsub chg i))))
      else
        Rd (AThick, k, p) (fun d => Rd (AIce, k, p) (fun i => Wr (AThick, k, p) (fmul d (fsub (Some 1) (fdiv chg i))) (
        update (AIce, k, p) (fun i => fsub i chg) (sublim_body n' (S k) p (Some 0))))))
  end.
(** max(sublimation[i, j], 0.0); a missing value stays missing *)
Definition sublim_prog (nl : pix -> nat) (p : pix) : prog :=
  Rd (ASubl, O, p) (fun s => let chg := option_map (fun x => Rmax x 0) s in
  if fgt chg (Some 0) then sublim_body (nl p) 0 p chg else Done).

(** * multilayermodel.py:410-439 _runoff *)
Fixpoint runoff_body (n k : nat) (p : pix) : prog :=
  match n with
  | O => Done
  | S n' =>
      Rd (ALwc, k, p) (fun w => Rd (ARunoff, O, p) (fun r => Wr (ALwc, k, p) (fadd w r) (
      Rd (ALwc, k, p) (fun w => Rd (AMaxLwc, k, p) (fun x =>
      let rest :=
        Rd (AHeatCap, k, p) (fun h => Rd (ATemp, k, p) (fun t =>
        let cold := fmul h (fsub (Some T0) t) in
        if fgt cold (Some 0) then
          Rd (ALwc, k, p) (fun w => let d := fmin w (fdiv cold (Some Lf)) in
          update (ALwc, k, p) (fun w => fsub w d) (
          update (AIce, k, p) (fun i => fadd i d) (
          update (ARefr, O, p) (fun f => fadd f d) (
          Rd (ATemp, k, p) (fun t => Rd (AHeatCap, k, p) (fun h =>
          Wr (ATemp, k, p) (fadd t (fdiv (fmul (Some Lf) d) h)) (runoff_body n' (S k) p)))))))
        else runoff_body n' (S k) p)) in
      if fgt w x then
        Rd (ALwc, k, p) (fun w => Rd (AMaxLwc, k, p) (fun x => Wr (ARunoff, O, p) (fsub w x) (
        Rd (AMaxLwc, k, p) (fun x => Wr (ALwc, k, p) x rest))))
      else Wr (ARunoff, O, p) (Some 0) rest)))))
  end.
Definition runoff_prog (nl : pix -> nat) (p : pix) : prog :=
  Wr (ARefr, O, p) (Some 0) (Rd (ARain, O, p) (fun r => Wr (ARunoff, O, p) r (Rd (ARunoff, O, p) (fun r =>
  match r with None => Wr (ARunoff, O, p) (Some 0) (runoff_body (nl p) 0 p) | Some _ => runoff_body (nl p) 0 p end)))).

(** * multilayermodel.py:497-514 _heat_conduction: the arguments are read, then every temperature is increased. [nslots] is the number
      of layer slots (temp[-1] is the last one); temp_change works on local arrays. [vals k] reads an array for the layers below n. *)
Fixpoint read_layers (n k : nat) (a : array) (p : pix) (acc : nat -> R) (q : (nat -> R) -> prog) : prog :=
  match n with O => q acc | S n' => Rd (a, k, p) (fun v => read_layers n' (S k) a p (upd acc k (nan_to_zero v)) q) end.
Fixpoint add_layers (n k : nat) (p : pix) (dT : nat -> R) (q : prog) : prog :=
  match n with O => q | S n' => update (ATemp, k, p) (fun t => fadd t (Some (dT k))) (add_layers n' (S k) p dT q) end.
Definition heat_prog (nslots : nat) (dt : R) (nl : pix -> nat) (p : pix) : prog :=
  let n := nl p in
  match n with
  | O => Done
  | S _ =>
      read_layers n 0 AThick p (fun _ => 0) (fun dx => read_layers n 0 ATemp p (fun _ => 0) (fun T => read_layers n 0 ACond p (fun _ => 0) (fun lam =>
      Rd (ATemp, (nslots - 1)%nat, p) (fun Tb => Rd (ASoilThick, O, p) (fun dxb => Rd (ASoilCond, O, p) (fun lamb => Rd (AFlux, O, p) (fun flux =>
      read_layers n 0 AHeatCap p (fun _ => 0) (fun hcap =>
      add_layers n 0 p (temp_change n dx dt T lam (nan_to_zero Tb) (nan_to_zero dxb) (nan_to_zero lamb) (nan_to_zero flux) hcap) Done))))))))
  end.

(** * snow.py:200-244 _compaction_anderson *)
Fixpoint anderson_body (n k : nat) (dth : R) (p : pix) (load : num) : prog :=
  match n with
  | O => Done
  | S n' =>
      Rd (AThick, k, p) (fun d =>
      if fgt d (Some 0) then
        Rd (AIce, k, p) (fun i => Rd (ALwc, k, p) (fun w => let m := fadd i w in let load := fadd load (fdiv m (Some 2)) in
        Rd (AIce, k, p) (fun i => Rd (ALwc, k, p) (fun w => Rd (AThick, k, p) (fun d => Wr (ADens, k, p) (fdiv (fadd i w) d) (
        Rd (ADens, k, p) (fun rho =>
        let c6 := if fgt rho (Some 150) then fexp (fmul (Some (- 0.046)) (fsub rho (Some 150))) else Some 1 in
        Rd (ALwc, k, p) (fun w => let c4 := if fgt w (Some 0) then Some 0.02 else Some 0.01 in
        Rd (AAir, O, p) (fun ta => Rd (ADens, k, p) (fun rho =>
        let compact := fmul (fmul (Some 0.001) load) (fexp (fsub (fmul (Some (- 0.08)) (fsub (Some T0) ta)) (fmul (Some 0.021) rho))) in
        Rd (AAir, O, p) (fun ta => let metamorph := fmul (fmul c4 (fexp (fmul (Some (- 0.04)) (fsub (Some T0) ta)))) c6 in
        Rd (ADens, k, p) (fun rho => let rate := nan_to_zero (fmul rho (fadd compact metamorph)) in
        update (ADens, k, p) (fun rho => fadd rho (Some (rate * dth))) (
        Rd (AIce, k, p) (fun i => Rd (ALwc, k, p) (fun w => Rd (ADens, k, p) (fun rho => Wr (AThick, k, p) (fdiv (fadd i w) rho) (
        anderson_body n' (S k) dth p (fadd load (fdiv m (Some 2))))))))))))))))))))
      else anderson_body n' (S k) dth p load)
  end.
Definition anderson_prog (dt : R) (nl : pix -> nat) (p : pix) : prog := anderson_body (nl p) 0 (dt / SECONDS_PER_HOUR) p (Some 0).

(** * snow.py:306-332 _compaction_empirical *)
Fixpoint empirical_body (n k : nat) (dt ts max_cold max_melt : R) (p : pix) : prog :=
  match n with
  | O => Done
  | S n' =>
      let next := empirical_body n' (S k) dt ts max_cold max_melt p in
      Rd (AThick, k, p) (fun d =>
      if fgt d (Some 0) then
        Rd (AIce, k, p) (fun i => Rd (ALwc, k, p) (fun w => Rd (AThick, k, p) (fun d => Wr (ADens, k, p) (fdiv (fadd i w) d) (
        Rd (ATemp, k, p) (fun t => let mx := if fgt (Some T0) t then max_cold else max_melt in
        Rd (ADens, k, p) (fun rho =>
        if fgt (Some mx) rho then
          update (ADens, k, p) (fun rho => fadd (Some mx) (fmul (fsub rho (Some mx)) (Some (exp (- dt / ts))))) (
          Rd (AIce, k, p) (fun i => Rd (ALwc, k, p) (fun w => Rd (ADens, k, p) (fun rho => Wr (AThick, k, p) (fdiv (fadd i w) rho) next))))
        else next))))))
      else next)
  end.
Definition empirical_prog (dt ts max_cold max_melt : R) (nl : pix -> nat) (p : pix) : prog := empirical_body (nl p) 0 dt ts max_cold max_melt p.

(** * soil.py:324-341 _soil_heat_flux *)
Definition soil_flux_prog (nl : pix -> nat) (p : pix) : prog :=
  match nl p with
  | O => Rd (AFlux, O, p) (fun f => Wr (ASoilFlux, O, p) f Done)
  | S k =>
      Rd (AThick, k, p) (fun d => Rd (ACond, k, p) (fun c => Rd (ASoilThick, O, p) (fun sd => Rd (ASoilCond, O, p) (fun sc =>
      let cond := fdiv (Some 2) (fadd (fdiv d c) (fdiv sd sc)) in
      Rd (ATemp, k, p) (fun t => Rd (ASoilTemp, O, p) (fun st => Wr (ASoilFlux, O, p) (fmul cond (fsub t st)) Done))))))
  end.

(** * interpolation.py:26-49 _idw; the points are local values (only read); target t is the "pixel" (t, 0) *)
Definition idw_prog (targets : nat -> R * R) (power smoothing : R) (pts : list (R * R * R)) (p : pix) : prog :=
  let '(x, y) := targets (fst p) in Wr (AData, O, p) (Some (idw_loop x y power smoothing pts 0 0)) Done.

(** * multilayermodel.py:580-656 _update_layers and soil.py:112-172 _soil_properties. Simplification: the elements of the own pixel
      (array, layer) are read first and written in the end, in any given order, and what happens in between is an arbitrary function [f] of the
      values read (the calculations themselves are in MultilayerModel and SoilModel); the copies (thickness_prev, ...), which belong to the pixel
      as well, and internal_energy are part of [f]. *)
Fixpoint read_all (ins : list (array * nat)) (p : pix) (acc : list num) (q : list num -> prog) : prog :=
  match ins with [] => q acc | (a, k) :: t => Rd (a, k, p) (fun v => read_all t p (acc ++ [v]) q) end.
Fixpoint write_all (outs : list (array * nat)) (p : pix) (vs : list num) : prog :=
  match outs, vs with (a, k) :: t, v :: vs' => Wr (a, k, p) v (write_all t p vs') | _, _ => Done end.
Definition pixel_prog (ins outs : list (array * nat)) (f : list num -> list num) (p : pix) : prog :=
  read_all ins p [] (fun vs => write_all outs p (f vs)).
