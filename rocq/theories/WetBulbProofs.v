(** Analysis behind the wet-bulb theorems (C101): slopes of the saturation vapour pressure, and the states a secant iteration passes through. *)
From Coq Require Import Ranalysis5.
From Verif Require Import Common Constants AtmosphereModel AtmosphereProofs.
Open Scope R_scope.

(** * Bounds of the exponential *)
Lemma exp_up x : x < 1 -> exp x <= / (1 - x).
Proof.
  intro H. pose proof (exp_ineq1_le (- x)) as Q. rewrite exp_Ropp in Q. pose proof (exp_pos x) as P.
  apply Rmult_le_reg_r with (1 - x); [lra|]. rewrite Rinv_l by lra.
  apply Rmult_le_compat_r with (r := exp x) in Q; [|lra]. rewrite Rinv_l in Q by lra. nra.
Qed.
Lemma exp_dbl_lo x r : 0 <= r -> r <= exp (x / 2) -> r * r <= exp x.
Proof. intros H K. replace (exp x) with (exp (x / 2) * exp (x / 2)) by (rewrite <- exp_plus; f_equal; lra). nra. Qed.
Lemma exp_dbl_up x r : exp (x / 2) <= r -> exp x <= r * r.
Proof. intros K. pose proof (exp_pos (x / 2)). replace (exp x) with (exp (x / 2) * exp (x / 2)) by (rewrite <- exp_plus; f_equal; lra). nra. Qed.
Lemma exp_le x y : x <= y -> exp x <= exp y.
Proof. intros [H|H]; [left; apply exp_increasing; auto|rewrite H; lra]. Qed.
Lemma exp_lo32 x r : 0 <= 1 + x / 32 -> r <= (1 + x / 32) ^ 32 -> r <= exp x.
Proof.
  intros H K. apply Rle_trans with (1 := K). pose proof (exp_ineq1_le (x / 32)) as Q.
  replace ((1 + x / 32) ^ 32) with (let a := (1 + x / 32) in let b := a * a in let c := b * b in let d := c * c in let e := d * d in e * e) by (cbv zeta; ring).
  cbv zeta. set (a := 1 + x / 32) in *.
  apply exp_dbl_lo; [nra|]. apply exp_dbl_lo; [nra|]. apply exp_dbl_lo; [nra|]. apply exp_dbl_lo; [nra|]. apply exp_dbl_lo; [nra|].
  replace (x / 2 / 2 / 2 / 2 / 2) with (x / 32) by lra. auto.
Qed.
Lemma exp_up32 x r : x < 32 -> (/ (1 - x / 32)) ^ 32 <= r -> exp x <= r.
Proof.
  intros H K. apply Rle_trans with (2 := K). pose proof (exp_up (x / 32) ltac:(lra)) as Q.
  set (a := / (1 - x / 32)) in *.
  replace (a ^ 32) with (let b := a * a in let c := b * b in let d := c * c in let e := d * d in e * e) by (cbv zeta; ring).
  cbv zeta.
  apply exp_dbl_up. apply exp_dbl_up. apply exp_dbl_up. apply exp_dbl_up. apply exp_dbl_up.
  replace (x / 2 / 2 / 2 / 2 / 2) with (x / 32) by lra. auto.
Qed.

(** * The Magnus formula and its slope, at z degrees Celsius *)
Definition mag (a b c z : R) : R := a * exp (b * z / (c + z)).
Definition dmag (a b c z : R) : R := a * exp (b * z / (c + z)) * (b * c / ((c + z) * (c + z))).
Lemma mag_lim a b c z : 0 < c + z -> derivable_pt_lim (mag a b c) z (dmag a b c z).
Proof.
  intro H. unfold mag, dmag.
  assert (Q : derivable_pt_lim (fun z => b * z / (c + z)) z ((b * (c + z) - 1 * (b * z)) / Rsqr (c + z))).
  { change (fun z => b * z / (c + z)) with (div_fct (fun z => b * z) (fun z => c + z)).
    apply (derivable_pt_lim_div (fun z => b * z) (fun z => c + z)).
    - assert (U : derivable_pt_lim (fun z => b * z) z (b * 1)) by (apply (derivable_pt_lim_scal id b); apply derivable_pt_lim_id).
      rewrite Rmult_1_r in U. exact U.
    - assert (U : derivable_pt_lim (fun z => c + z) z (0 + 1))
        by (apply (derivable_pt_lim_plus (fct_cte c) id); [apply derivable_pt_lim_const|apply derivable_pt_lim_id]).
      rewrite Rplus_0_l in U. exact U.
    - lra. }
  replace (a * exp (b * z / (c + z)) * (b * c / ((c + z) * (c + z)))) with (a * (exp (b * z / (c + z)) * ((b * (c + z) - 1 * (b * z)) / Rsqr (c + z)))).
  2:{ unfold Rsqr. field. lra. }
  apply (derivable_pt_lim_scal (fun z => exp (b * z / (c + z))) a).
  apply (derivable_pt_lim_comp (fun z => b * z / (c + z)) exp); auto. apply derivable_pt_lim_exp.
Qed.
Lemma mag_mvt a b c x y : 0 < c + x -> x < y -> exists z, mag a b c y - mag a b c x = dmag a b c z * (y - x) /\ x < z < y.
Proof. intros H L. apply (MVT_cor2 (mag a b c) (dmag a b c) x y L). intros z Z. apply mag_lim. lra. Qed.
Lemma dmag_pos a b c z : 0 < a -> 0 < b -> 0 < c -> 0 < c + z -> 0 < dmag a b c z.
Proof.
  intros A B C H. unfold dmag. apply Rmult_lt_0_compat; [apply Rmult_lt_0_compat; auto; apply exp_pos|].
  unfold Rdiv. apply Rmult_lt_0_compat; [nra|]. apply Rinv_0_lt_compat. nra.
Qed.
(** The ratio of two slopes *)
Lemma dmag_ratio a b c x y : 0 < c + x -> 0 < c + y ->
  dmag a b c y = dmag a b c x * (exp (b * c * (y - x) / ((c + x) * (c + y))) * (((c + x) / (c + y)) * ((c + x) / (c + y)))).
Proof.
  intros X Y. unfold dmag.
  replace (b * y / (c + y)) with (b * x / (c + x) + b * c * (y - x) / ((c + x) * (c + y))) by (field; lra).
  rewrite exp_plus. field. lra.
Qed.
Lemma dmag_mono a b c x y : 0 < a -> 0 < b -> 0 < c -> 0 < c + x -> x <= y -> 2 * (c + y) <= b * c -> dmag a b c x <= dmag a b c y.
Proof.
  intros A B C X [L|<-] Y; [|lra]. rewrite (dmag_ratio a b c x y) by lra. pose proof (dmag_pos a b c x A B C X) as P.
  set (r := (c + y) / (c + x)). set (q := b * c * (y - x) / ((c + x) * (c + y))).
  assert (Q : 2 * (r - 1) <= q).
  { unfold q, r. replace (2 * ((c + y) / (c + x) - 1)) with ((y - x) / (c + x) * 2) by (field; lra).
    replace (b * c * (y - x) / ((c + x) * (c + y))) with ((y - x) / (c + x) * (b * c / (c + y))) by (field; lra).
    apply Rmult_le_compat_l; [unfold Rdiv; apply Rmult_le_pos; [lra|left; apply Rinv_0_lt_compat; lra]|].
    apply Rmult_le_reg_r with (c + y); [lra|]. replace (b * c / (c + y) * (c + y)) with (b * c) by (field; lra). lra. }
  assert (R1 : 1 < r). { unfold r. apply Rmult_lt_reg_r with (c + x); auto. replace ((c + y) / (c + x) * (c + x)) with (c + y) by (field; lra). lra. }
  assert (E : r * r <= exp q).
  { apply Rle_trans with (exp (2 * (r - 1))); [|apply exp_le; auto]. apply exp_dbl_lo; [lra|].
    replace (2 * (r - 1) / 2) with (r - 1) by lra. pose proof (exp_ineq1_le (r - 1)). lra. }
  replace ((c + x) / (c + y)) with (/ r) by (unfold r; field; lra).
  assert (1 <= exp q * (/ r * / r)).
  { replace (exp q * (/ r * / r)) with (exp q * / (r * r)) by (field; lra). apply Rmult_le_reg_r with (r * r); [nra|].
    rewrite Rmult_assoc, Rinv_l by nra. lra. }
  nra.
Qed.

(** * Water and ice *)
Definition mw := mag 610.78 17.08 234.18. Definition mi := mag 610.71 22.44 272.44.
Definition dw := dmag 610.78 17.08 234.18. Definition di := dmag 610.71 22.44 272.44.
Lemma dw_mono x y : 0 <= x -> x <= y -> y <= 70 -> dw x <= dw y.
Proof. intros. apply dmag_mono; lra. Qed.
Lemma di_mono x y : -200 <= x -> x <= y -> y <= 0 -> di x <= di y.
Proof. intros. apply dmag_mono; lra. Qed.
Lemma di_pos x : -200 <= x -> 0 < di x.
Proof. intro. apply dmag_pos; lra. Qed.
Lemma dw_pos x : 0 <= x -> 0 < dw x.
Proof. intro. apply dmag_pos; lra. Qed.
Lemma dmag_lo a b c z l e : 0 < a -> e <= exp (b * z / (c + z)) -> 0 <= b * c / ((c + z) * (c + z)) -> l <= a * e * (b * c / ((c + z) * (c + z))) -> l <= dmag a b c z.
Proof. intros A E P L. unfold dmag. apply Rle_trans with (1 := L). apply Rmult_le_compat_r; auto. apply Rmult_le_compat_l; lra. Qed.
Lemma dmag_hi a b c z l e : 0 < a -> exp (b * z / (c + z)) <= e -> 0 <= b * c / ((c + z) * (c + z)) -> a * e * (b * c / ((c + z) * (c + z))) <= l -> dmag a b c z <= l.
Proof. intros A E P L. unfold dmag. apply Rle_trans with (2 := L). apply Rmult_le_compat_r; auto. apply Rmult_le_compat_l; lra. Qed.
Ltac low e := apply dmag_lo with e; [lra|apply exp_lo32; lra|lra|lra].
Ltac high e := apply dmag_hi with e; [lra|apply exp_up32; lra|lra|lra].
Lemma di0 : di 0 <= 50.31. Proof. unfold di. high 1. Qed.
Lemma dw0 : 44.54 <= dw 0. Proof. unfold dw. low 1. Qed.
Lemma dw50 : dw 50.12 <= 680. Proof. unfold dw. apply dmag_hi with 21.9; [lra|apply Rle_trans with (4.679 * 4.679); [apply exp_dbl_up; apply exp_up32; lra|lra]|lra|lra]. Qed.
Lemma di1 : 44.54 <= di (-1). Proof. unfold di. low 0.92. Qed.
Lemma dw1 : dw 1 <= 50.31. Proof. unfold dw. high 1.08. Qed.

(** Saturation pressure without its jump of 0.07 Pa at 0 degC, and monotone bounds of its slope *)
Definition sc (z : R) : R := if Rle_dec 0 z then mw z - 0.07 else mi z.
Definition jump (z : R) : R := if Rle_dec 0 z then 0.07 else 0.
Definition slo (z : R) : R := if Rle_dec 0 z then dw z else Rmin (di z) 44.54.
Definition shi (z : R) : R := if Rle_dec 0 z then Rmax (dw z) 50.31 else di z.
Lemma sat_split x : saturation_vapor_pressure None x = sc (x - T0) + jump (x - T0).
Proof.
  unfold saturation_vapor_pressure, sc, jump, magnus_water, magnus_ice. destruct (Rle_dec 0 (x - T0)); unfold mw, mi, mag; ring.
Qed.
Lemma slo_mono x y : -200 <= x -> x <= y -> y <= 60 -> slo x <= slo y.
Proof.
  intros X L Y. unfold slo. destruct (Rle_dec 0 x), (Rle_dec 0 y); try lra.
  - apply dw_mono; lra.
  - apply Rle_trans with 44.54; [apply Rmin_r|]. apply Rle_trans with (dw 0); [apply dw0|apply dw_mono; lra].
  - apply Rle_min_compat_r. apply di_mono; lra.
Qed.
Lemma shi_mono x y : -200 <= x -> x <= y -> y <= 60 -> shi x <= shi y.
Proof.
  intros X L Y. unfold shi. destruct (Rle_dec 0 x), (Rle_dec 0 y); try lra.
  - apply Rle_max_compat_r. apply dw_mono; lra.
  - apply Rle_trans with 50.31; [|apply Rmax_r]. apply Rle_trans with (di 0); [apply di_mono; lra|apply di0].
  - apply di_mono; lra.
Qed.
Lemma slo_pos x : -200 <= x -> 0 < slo x.
Proof. intro X. unfold slo. destruct (Rle_dec 0 x); [apply dw_pos; auto|]. apply Rmin_glb_lt; [apply di_pos; auto|lra]. Qed.
Lemma mw0 : mw 0 = 610.78. Proof. unfold mw, mag. replace (17.08 * 0 / (234.18 + 0)) with 0 by lra. rewrite exp_0. ring. Qed.
Lemma mi0 : mi 0 = 610.71. Proof. unfold mi, mag. replace (22.44 * 0 / (272.44 + 0)) with 0 by lra. rewrite exp_0. ring. Qed.
Lemma mi_slope a b l h : -200 <= a -> a <= b -> b <= 0 -> l <= di a -> di b <= h -> l * (b - a) <= mi b - mi a <= h * (b - a).
Proof.
  intros A [L|E] B Hl Hh; [|rewrite E; split; lra].
  destruct (mag_mvt 610.71 22.44 272.44 a b ltac:(lra) L) as (z & E & Z). fold mi in E. fold di in E. rewrite E.
  pose proof (di_mono a z A ltac:(lra) ltac:(lra)). pose proof (di_mono z b ltac:(lra) ltac:(lra) B). split; apply Rmult_le_compat_r; lra.
Qed.
Lemma mw_slope a b l h : 0 <= a -> a <= b -> b <= 60 -> l <= dw a -> dw b <= h -> l * (b - a) <= mw b - mw a <= h * (b - a).
Proof.
  intros A [L|E] B Hl Hh; [|rewrite E; split; lra].
  destruct (mag_mvt 610.78 17.08 234.18 a b ltac:(lra) L) as (z & E & Z). fold mw in E. fold dw in E. rewrite E.
  pose proof (dw_mono a z A ltac:(lra) ltac:(lra)). pose proof (dw_mono z b ltac:(lra) ltac:(lra) ltac:(lra)). split; apply Rmult_le_compat_r; lra.
Qed.
Lemma sc_slope a b l h : -200 <= a -> a <= b -> b <= 60 -> l <= slo a -> shi b <= h -> l * (b - a) <= sc b - sc a <= h * (b - a).
Proof.
  intros A L B Hl Hh. unfold slo, shi, sc in *. destruct (Rle_dec 0 a), (Rle_dec 0 b); try lra.
  - pose proof (Rmax_l (dw b) 50.31). pose proof (mw_slope a b l h ltac:(lra) L B ltac:(lra) ltac:(lra)). lra.
  - pose proof (Rmax_l (dw b) 50.31). pose proof (Rmax_r (dw b) 50.31). pose proof (Rmin_l (di a) 44.54). pose proof (Rmin_r (di a) 44.54).
    pose proof di0. pose proof dw0.
    pose proof (mi_slope a 0 l h A ltac:(lra) ltac:(lra) ltac:(lra) ltac:(lra)) as I.
    pose proof (mw_slope 0 b l h ltac:(lra) ltac:(lra) B ltac:(lra) ltac:(lra)) as W. rewrite mw0 in W. rewrite mi0 in I. lra.
  - pose proof (Rmin_l (di a) 44.54). apply mi_slope; lra.
Qed.
(** Within 10.12 K the slopes of saturation pressure plus 13 Pa/K differ by less than a factor of 1.95. *)
Lemma di_10 : 22.2 <= di (-10.2). Proof. unfold di. low 0.41. Qed.
Lemma di_75 : 27 <= di (-7.5). Proof. unfold di. low 0.52. Qed.
Lemma di_45 : 35 <= di (-4.5). Proof. unfold di. low 0.68. Qed.
Lemma di_u10 : di (-10.12) <= 23.2. Proof. unfold di. high 0.427. Qed.
Lemma di_u22 : di (-22) <= 9. Proof. unfold di. high 0.148. Qed.
Lemma di_u49 : di (-49) <= 12. Proof. unfold di. high 0.02. Qed.
Lemma dw_26 : dw 2.62 <= 54. Proof. unfold dw. high 1.211. Qed.
Lemma dw_56 : dw 5.62 <= 64.5. Proof. unfold dw. high 1.5. Qed.
Lemma dw_91 : dw 9.12 <= 80. Proof. unfold dw. high 1.92. Qed.
Lemma dw_101 : dw 10.12 <= 92. Proof. unfold dw. high 2.05. Qed.
Lemma di_u35 : di (-35) <= 3. Proof. unfold di. high 0.0432. Qed.
(** Slopes 10.12 K apart *)
Lemma dmag_window a b c u e q : 0 < a -> 0 < b -> 0 < c -> 0 < c + u -> 0 <= q ->
  exp (b * c * 10.12 / ((c + u) * (c + u + 10.12))) <= e -> (c + u) / (c + u + 10.12) <= q -> dmag a b c (u + 10.12) <= dmag a b c u * (e * (q * q)).
Proof.
  intros A B C U Q E K. rewrite (dmag_ratio a b c u (u + 10.12)) by lra. apply Rmult_le_compat_l; [left; apply dmag_pos; auto|].
  replace (u + 10.12 - u) with 10.12 by ring. replace (c + (u + 10.12)) with (c + u + 10.12) by ring.
  pose proof (exp_pos (b * c * 10.12 / ((c + u) * (c + u + 10.12)))).
  assert (0 <= (c + u) / (c + u + 10.12)) by (unfold Rdiv; apply Rmult_le_pos; [lra|left; apply Rinv_0_lt_compat; lra]).
  apply Rmult_le_compat; try nra.
Qed.
Lemma quot_le x y z : 0 < y -> x <= z * y -> x / y <= z.
Proof. intros Y H. apply Rmult_le_reg_r with y; auto. unfold Rdiv. rewrite Rmult_assoc, Rinv_l by lra. lra. Qed.
Lemma window u v : -200 <= u -> u <= v -> v <= 50.12 -> v <= u + 10.12 -> shi v <= 1.95 * slo u + 0.95 * 13.
Proof.
  intros U L V W. unfold shi, slo.
  destruct (Rle_dec 0 u) as [U0|U0]; destruct (Rle_dec 0 v) as [V0|V0]; try lra.
  - pose proof (dw_pos u U0) as P. pose proof (dw_mono 0 u ltac:(lra) U0 ltac:(lra)). pose proof dw0.
    apply Rmax_lub; [|lra]. apply Rle_trans with (dw (u + 10.12)); [apply dw_mono; lra|].
    assert (Q : dw (u + 10.12) <= dw u * (2.06 * (0.966 * 0.966))); [|nra].
    apply dmag_window; try lra.
    + apply Rle_trans with (exp 0.7077); [|apply exp_up32; lra]. apply exp_le. apply quot_le; nra.
    + apply quot_le; lra.
  - pose proof (Rmin_glb (di u) 44.54) as G. pose proof (dw_mono v (u + 10.12) ltac:(lra) ltac:(lra) ltac:(lra)) as M.
    pose proof di_10. pose proof di_75. pose proof di_45. pose proof di1.
    pose proof dw_26. pose proof dw_56. pose proof dw_91. pose proof dw_101.
    destruct (Rle_lt_dec u (-7.5)); [|destruct (Rle_lt_dec u (-4.5)); [|destruct (Rle_lt_dec u (-1))]].
    + pose proof (di_mono (-10.2) u ltac:(lra) ltac:(lra) ltac:(lra)). specialize (G 22.2 ltac:(lra) ltac:(lra)).
      pose proof (dw_mono (u + 10.12) 2.62 ltac:(lra) ltac:(lra) ltac:(lra)). apply Rmax_lub; lra.
    + pose proof (di_mono (-7.5) u ltac:(lra) ltac:(lra) ltac:(lra)). specialize (G 27 ltac:(lra) ltac:(lra)).
      pose proof (dw_mono (u + 10.12) 5.62 ltac:(lra) ltac:(lra) ltac:(lra)). apply Rmax_lub; lra.
    + pose proof (di_mono (-4.5) u ltac:(lra) ltac:(lra) ltac:(lra)). specialize (G 35 ltac:(lra) ltac:(lra)).
      pose proof (dw_mono (u + 10.12) 9.12 ltac:(lra) ltac:(lra) ltac:(lra)). apply Rmax_lub; lra.
    + pose proof (di_mono (-1) u ltac:(lra) ltac:(lra) ltac:(lra)). specialize (G 44.54 ltac:(lra) ltac:(lra)).
      pose proof (dw_mono (u + 10.12) 10.12 ltac:(lra) ltac:(lra) ltac:(lra)). apply Rmax_lub; lra.
  - pose proof (Rmin_glb (di u) 44.54) as G. pose proof (di_pos u U) as P. pose proof di_10.
    pose proof di_u10. pose proof di_u22. pose proof di_u35. pose proof di_u49. pose proof di0.
    destruct (Rle_lt_dec v (-49)).
    { pose proof (di_mono v (-49) ltac:(lra) ltac:(lra) ltac:(lra)). specialize (G 0 ltac:(lra) ltac:(lra)). lra. }
    destruct (Rle_lt_dec (-10.12) u).
    { pose proof (di_mono (-10.2) u ltac:(lra) ltac:(lra) ltac:(lra)). specialize (G 22.2 ltac:(lra) ltac:(lra)).
      pose proof (di_mono v 0 ltac:(lra) ltac:(lra) ltac:(lra)). lra. }
    pose proof (di_mono u (-10.12) ltac:(lra) ltac:(lra) ltac:(lra)).
    rewrite Rmin_left by lra. clear G. pose proof (di_mono v (u + 10.12) ltac:(lra) ltac:(lra) ltac:(lra)).
    destruct (Rle_lt_dec u (-35)); [|destruct (Rle_lt_dec u (-22))].
    + pose proof (di_mono u (-35) ltac:(lra) ltac:(lra) ltac:(lra)).
      assert (Q : di (u + 10.12) <= di u * (4 * (1 * 1))); [|nra].
      apply dmag_window; try lra; [|apply quot_le; lra].
      apply Rle_trans with (exp 1.31); [|apply exp_up32; lra]. apply exp_le. apply quot_le; nra.
    + pose proof (di_mono u (-22) ltac:(lra) ltac:(lra) ltac:(lra)).
      assert (Q : di (u + 10.12) <= di u * (3 * (1 * 1))); [|nra].
      apply dmag_window; try lra; [|apply quot_le; lra].
      apply Rle_trans with (exp 1.06); [|apply exp_up32; lra]. apply exp_le. apply quot_le; nra.
    + assert (Q : di (u + 10.12) <= di u * (2.63 * (0.963 * 0.963))); [|nra].
      apply dmag_window; try lra; [|apply quot_le; lra].
      apply Rle_trans with (exp 0.9482); [|apply exp_up32; lra]. apply exp_le. apply quot_le; nra.
Qed.

(** * Increments of the psychrometer function *)
Lemma cross X Y L1 L2 p q k : 0 <= L1 -> 0 <= L2 -> 0 <= k -> X <= p * L1 -> q * L2 <= Y -> p <= k * q -> X * L2 <= k * Y * L1.
Proof.
  intros A B K HX HY HP. apply Rle_trans with (p * L1 * L2); [apply Rmult_le_compat_r; auto|].
  apply Rle_trans with (k * q * L1 * L2); [apply Rmult_le_compat_r; auto; apply Rmult_le_compat_r; auto|].
  replace (k * q * L1 * L2) with (k * (q * L2) * L1) by ring. apply Rmult_le_compat_r; auto. apply Rmult_le_compat_l; auto.
Qed.
Section Iteration.
Variables psy t vap : R.
Hypothesis psy13 : 13 <= psy.
Definition hf (x : R) : R := sc (x - T0) + psy * x.
Definition dom (x : R) : Prop := T0 - 200 <= x <= T0 + 50.12.
Lemma inc_slopes a b l h : dom a -> dom b -> a <= b -> l <= slo (a - T0) -> shi (b - T0) <= h ->
  (psy + l) * (b - a) <= hf b - hf a <= (psy + h) * (b - a).
Proof.
  intros A B L Hl Hh. unfold dom in *. pose proof (sc_slope (a - T0) (b - T0) l h ltac:(lra) ltac:(lra) ltac:(lra) Hl Hh) as S.
  replace (b - T0 - (a - T0)) with (b - a) in S by ring. unfold hf. lra.
Qed.
Lemma shi680 x : dom x -> shi (x - T0) <= 680.
Proof.
  intro D. unfold dom in D. apply Rle_trans with (shi 50.12); [apply shi_mono; lra|]. unfold shi. destruct (Rle_dec 0 50.12); [|lra].
  pose proof dw50. apply Rmax_lub; lra.
Qed.
Lemma inc_P a b : dom a -> dom b -> a <= b -> psy * (b - a) <= hf b - hf a <= (psy + 680) * (b - a).
Proof.
  intros A B L. pose proof (slo_pos (a - T0) ltac:(unfold dom in A; lra)).
  pose proof (inc_slopes a b 0 680 A B L ltac:(lra) (shi680 b B)). lra.
Qed.
Lemma inc_Q c d a b : dom c -> dom b -> c <= d -> d <= a -> a <= b -> (hf d - hf c) * (b - a) <= 1.101 * (hf b - hf a) * (d - c).
Proof.
  intros C B L1 L2 L3. unfold dom in *.
  pose proof (inc_slopes c d (slo (c - T0)) (shi (d - T0)) ltac:(unfold dom; lra) ltac:(unfold dom; lra) L1 ltac:(lra) ltac:(lra)) as [_ I].
  pose proof (inc_slopes a b (slo (a - T0)) (shi (b - T0)) ltac:(unfold dom; lra) ltac:(unfold dom; lra) L3 ltac:(lra) ltac:(lra)) as [J _].
  apply cross with (psy + shi (d - T0)) (psy + slo (a - T0)); auto; try lra.
  pose proof (slo_mono (d - T0) (a - T0) ltac:(lra) ltac:(lra) ltac:(lra)) as M.
  assert (K : psy + shi (d - T0) <= 1.101 * (psy + slo (d - T0))); [|lra].
  unfold slo, shi. destruct (Rle_dec 0 (d - T0)) as [D|D].
  - pose proof dw0. pose proof (dw_mono 0 (d - T0) ltac:(lra) ltac:(lra) ltac:(lra)).
    destruct (Rle_lt_dec (dw (d - T0)) 50.31); [rewrite Rmax_right|rewrite Rmax_left]; lra.
  - pose proof di0. pose proof (di_mono (d - T0) 0 ltac:(lra) ltac:(lra) ltac:(lra)). pose proof (di_pos (d - T0) ltac:(lra)).
    destruct (Rle_lt_dec (di (d - T0)) 44.54); [rewrite Rmin_left|rewrite Rmin_right]; lra.
Qed.
Lemma inc_W u v a b c d : dom u -> dom v -> v <= u + 10.12 -> u <= a -> a <= b -> b <= v -> u <= c -> c <= d -> d <= v ->
  (hf b - hf a) * (d - c) <= 1.95 * (hf d - hf c) * (b - a).
Proof.
  intros U V W A L B C L' D. unfold dom in *.
  pose proof (inc_slopes a b (slo (a - T0)) (shi (b - T0)) ltac:(unfold dom; lra) ltac:(unfold dom; lra) L ltac:(lra) ltac:(lra)) as [_ I].
  pose proof (inc_slopes c d (slo (c - T0)) (shi (d - T0)) ltac:(unfold dom; lra) ltac:(unfold dom; lra) L' ltac:(lra) ltac:(lra)) as [J _].
  apply cross with (psy + shi (b - T0)) (psy + slo (c - T0)); auto; try lra.
  pose proof (slo_mono (u - T0) (c - T0) ltac:(lra) ltac:(lra) ltac:(lra)). pose proof (shi_mono (b - T0) (v - T0) ltac:(lra) ltac:(lra) ltac:(lra)).
  pose proof (window (u - T0) (v - T0) ltac:(lra) ltac:(lra) ltac:(lra) ltac:(lra)). lra.
Qed.
Lemma inc_N a b : T0 - 1 <= a -> a <= b -> b <= T0 + 1 -> (psy + 44.54) * (b - a) <= hf b - hf a <= (psy + 50.31) * (b - a).
Proof.
  intros A L B. apply inc_slopes; unfold dom; try lra.
  - apply Rle_trans with (slo (-1)); [|apply slo_mono; lra]. unfold slo. destruct (Rle_dec 0 (-1)); [lra|]. apply Rmin_glb; [apply di1|lra].
  - apply Rle_trans with (shi 1); [apply shi_mono; lra|]. unfold shi. destruct (Rle_dec 0 1); [|lra]. pose proof dw1. apply Rmax_lub; lra.
Qed.

(** The function of the iteration, with the sign changed, and the point w where it changes its sign. *)
Definition fd (x : R) : R := psychro_diff t x vap psy.
Definition gf (x : R) : R := hf x + jump (x - T0) - (psy * t + vap).
Lemma fd_gf x : fd x = - gf x.
Proof. unfold fd, gf, psychro_diff, hf. rewrite sat_split. ring. Qed.
Variables w cw : R.
Hypothesis wdom : dom w.
Hypothesis wroot : hf w + cw = psy * t + vap.
Hypothesis wc : 0 <= cw <= 0.07.
Hypothesis wlo : w < T0 -> cw = 0.
Hypothesis whi : T0 < w -> cw = 0.07.
Lemma jump_range x : 0 <= jump x <= 0.07. Proof. unfold jump. destruct (Rle_dec 0 x); lra. Qed.
Lemma jump_mono x y : x <= y -> jump x <= jump y. Proof. intro. unfold jump. destruct (Rle_dec 0 x), (Rle_dec 0 y); lra. Qed.
Lemma g_right x : w <= x -> exists e, gf x = hf x - hf w + e /\ 0 <= e <= 0.07 /\ (T0 < w \/ x < T0 -> e = 0).
Proof.
  intro L. exists (jump (x - T0) - cw). split; [unfold gf; lra|]. unfold jump. destruct (Rle_dec 0 (x - T0)) as [D|D].
  - split; [lra|]. intros [K|K]; [rewrite (whi K)|]; lra.
  - rewrite wlo by lra. split; lra.
Qed.
Lemma g_left x : x < w -> exists e, - gf x = hf w - hf x + e /\ 0 <= e <= 0.07 /\ (T0 < x \/ w < T0 -> e = 0).
Proof.
  intro L. exists (cw - jump (x - T0)). split; [unfold gf; lra|]. unfold jump. destruct (Rle_dec 0 (x - T0)) as [D|D].
  - rewrite whi by lra. split; lra.
  - split; [lra|]. intros [K|K]; [lra|]. rewrite (wlo K). lra.
Qed.
Lemma g_diff a b : a <= b -> hf b - hf a <= gf b - gf a <= hf b - hf a + 0.07.
Proof. intro L. unfold gf. pose proof (jump_mono (a - T0) (b - T0) ltac:(lra)). pose proof (jump_range (a - T0)). pose proof (jump_range (b - T0)). lra. Qed.

(** Size of a step: E distance from w, L distance of the two points *)
Lemma core k E D e L Dh Dg s : 0 <= E -> 0.01 <= L -> psy * E <= D -> 0 <= e <= 0.07 -> D * L <= k * Dh * E -> 0 <= k ->
  psy * L <= Dh -> Dh <= (psy + 680) * L -> Dh <= Dg <= Dh + 0.07 -> s * Dg = (D + e) * L -> 0.018 * E <= s <= k * E + 0.0054 /\ (e = 0 -> s <= k * E).
Proof.
  intros HE HL HD He HQ Hk H1 H2 H3 HS. assert (PL : 0 < psy * L) by (apply Rmult_lt_0_compat; lra). assert (G0 : 0 < Dg) by lra.
  assert (DE : 0 <= D) by (assert (0 <= psy * E) by (apply Rmult_le_pos; lra); lra).
  assert (U : D * L <= k * E * Dg) by (apply Rle_trans with (1 := HQ); replace (k * Dh * E) with (k * E * Dh) by ring; apply Rmult_le_compat_l; [apply Rmult_le_pos; auto|lra]).
  assert (N : e * L <= 0.0054 * Dg) by (apply Rle_trans with (0.07 * L); [apply Rmult_le_compat_r; lra|]; assert (13 * L <= psy * L) by (apply Rmult_le_compat_r; lra); lra).
  split; [split|].
  - apply Rmult_le_reg_r with Dg; auto. rewrite HS. assert (e * L >= 0) by (apply Rle_ge, Rmult_le_pos; lra).
    assert (Dg <= (psy + 687) * L) by lra. 
    apply Rle_trans with (0.018 * E * ((psy + 687) * L)); [apply Rmult_le_compat_l; [lra|auto]|].
    apply Rle_trans with (psy * E * L); [|apply Rle_trans with (D * L); [apply Rmult_le_compat_r; lra|lra]].
    replace (0.018 * E * ((psy + 687) * L)) with (0.018 * (psy + 687) * (E * L)) by ring. replace (psy * E * L) with (psy * (E * L)) by ring.
    apply Rmult_le_compat_r; [apply Rmult_le_pos; lra|lra].
  - apply Rmult_le_reg_r with Dg; auto. rewrite HS. lra.
  - intros ->. apply Rmult_le_reg_r with Dg; auto. rewrite HS. lra.
Qed.
Lemma core_near E D e L Dh Dg s : 0 <= E -> 0.01 <= L -> (psy + 44.54) * E <= D <= (psy + 50.31) * E -> 0 <= e <= 0.07 ->
  (psy + 44.54) * L <= Dh <= (psy + 50.31) * L -> Dh <= Dg <= Dh + 0.07 -> s * Dg = (D + e) * L -> 0.818 * E <= s <= 1.101 * E + 0.0013.
Proof.
  intros HE HL HD He H1 H3 HS. set (p := psy + 44.54) in *. assert (Hp : 57.54 <= p) by (unfold p; lra).
  replace (psy + 50.31) with (p + 5.77) in * by (unfold p; lra). clearbody p.
  assert (PL : 0 < p * L) by (apply Rmult_lt_0_compat; lra). assert (G0 : 0 < Dg) by lra.
  assert (DE : 0 <= p * E) by (apply Rmult_le_pos; lra).
  assert (EL : 0 <= E * L) by (apply Rmult_le_pos; lra). assert (e0 : 0 <= e * L) by (apply Rmult_le_pos; lra).
  split; apply Rmult_le_reg_r with Dg; auto; rewrite HS.
  - apply Rle_trans with (0.818 * E * ((p + 12.77) * L)); [apply Rmult_le_compat_l; lra|].
    apply Rle_trans with (p * E * L); [|assert (p * E * L <= D * L) by (apply Rmult_le_compat_r; lra); lra].
    replace (0.818 * E * ((p + 12.77) * L)) with (0.818 * (p + 12.77) * (E * L)) by ring. replace (p * E * L) with (p * (E * L)) by ring.
    apply Rmult_le_compat_r; lra.
  - apply Rle_trans with ((1.101 * E + 0.0013) * (p * L)); [|apply Rmult_le_compat_l; lra].
    assert (D * L <= (p + 5.77) * E * L) by (apply Rmult_le_compat_r; lra). assert (e * L <= 0.07 * L) by (apply Rmult_le_compat_r; lra).
    assert ((p + 5.77) * (E * L) <= 1.101 * p * (E * L)) by (apply Rmult_le_compat_r; lra). assert (57.54 * L <= p * L) by (apply Rmult_le_compat_r; lra). lra.
Qed.
(** The step of the code *)
Definition stp (y x : R) : R := (x - y) / (fd x - fd y) * fd x.
Lemma g_strict y x : dom y -> dom x -> x <> y -> fd x <> fd y.
Proof.
  intros Y X N. rewrite !fd_gf. intro E.
  assert (K : forall a b, dom a -> dom b -> a < b -> gf a < gf b).
  { intros a b A B L. pose proof (g_diff a b ltac:(lra)). pose proof (inc_P a b A B ltac:(lra)) as [P _]. assert (0 < psy * (b - a)) by (apply Rmult_lt_0_compat; lra). lra. }
  destruct (Rtotal_order x y) as [L|[L|L]]; [pose proof (K x y X Y L)|auto|pose proof (K y x Y X L)]; lra.
Qed.
Lemma stp_eq y x : dom y -> dom x -> x <> y -> stp y x * (gf x - gf y) = gf x * (x - y).
Proof. intros Y X N. pose proof (g_strict y x Y X N) as Q. unfold stp. rewrite !fd_gf in *. field. lra. Qed.
Lemma stp_swap y x : dom y -> dom x -> x <> y -> x - stp y x = y - stp x y.
Proof. intros Y X N. pose proof (g_strict y x Y X N) as Q. unfold stp. field. lra. Qed.
Lemma right_bound y x k : dom y -> dom x -> w <= x -> 0.01 < Rabs (x - y) -> 0 <= k ->
  (hf x - hf w) * Rabs (x - y) <= k * Rabs (hf x - hf y) * (x - w) ->
  0.018 * (x - w) <= stp y x <= k * (x - w) + 0.0054 /\ (T0 < w \/ x < T0 -> stp y x <= k * (x - w)).
Proof.
  intros Y X WX L K Q. assert (N : x <> y) by (intros ->; rewrite Rminus_diag_eq, Rabs_R0 in L by auto; lra).
  destruct (g_right x WX) as (e & GE & E & EZ). pose proof (stp_eq y x Y X N) as S. pose proof (inc_P w x wdom X WX) as [P _].
  assert (C : 0.018 * (x - w) <= stp y x <= k * (x - w) + 0.0054 /\ (e = 0 -> stp y x <= k * (x - w))).
  { destruct (Rtotal_order x y) as [LT|[EQ|GT]]; [|contradiction|].
    - rewrite (Rabs_left (x - y)) in * by lra. pose proof (inc_P x y X Y ltac:(lra)) as [P1 P2]. pose proof (g_diff x y ltac:(lra)) as D.
      assert (0 < psy * (y - x)) by (apply Rmult_lt_0_compat; lra). rewrite (Rabs_left (hf x - hf y)) in Q by lra.
      apply (core k (x - w) (hf x - hf w) e (y - x) (hf y - hf x) (gf y - gf x)); try lra.
      rewrite <- GE. replace (gf y - gf x) with (- (gf x - gf y)) by ring. replace (y - x) with (- (x - y)) by ring.
        rewrite !Ropp_mult_distr_r_reverse, S. auto.
    - rewrite (Rabs_right (x - y)) in * by lra. pose proof (inc_P y x Y X ltac:(lra)) as [P1 P2]. pose proof (g_diff y x ltac:(lra)) as D.
      assert (0 < psy * (x - y)) by (apply Rmult_lt_0_compat; lra). rewrite (Rabs_right (hf x - hf y)) in Q by lra.
      apply (core k (x - w) (hf x - hf w) e (x - y) (hf x - hf y) (gf x - gf y)); try lra. rewrite <- GE. auto. }
  destruct C as [C1 C2]. split; auto.
Qed.
Lemma left_bound y x k : dom y -> dom x -> x < w -> 0.01 < Rabs (x - y) -> 0 <= k ->
  (hf w - hf x) * Rabs (x - y) <= k * Rabs (hf x - hf y) * (w - x) ->
  0.018 * (w - x) <= - stp y x <= k * (w - x) + 0.0054 /\ (T0 < x \/ w < T0 -> - stp y x <= k * (w - x)).
Proof.
  intros Y X WX L K Q. assert (N : x <> y) by (intros ->; rewrite Rminus_diag_eq, Rabs_R0 in L by auto; lra).
  destruct (g_left x WX) as (e & GE & E & EZ). pose proof (stp_eq y x Y X N) as S. pose proof (inc_P x w X wdom ltac:(lra)) as [P _].
  assert (C : 0.018 * (w - x) <= - stp y x <= k * (w - x) + 0.0054 /\ (e = 0 -> - stp y x <= k * (w - x))).
  { destruct (Rtotal_order x y) as [LT|[EQ|GT]]; [|contradiction|].
    - rewrite (Rabs_left (x - y)) in * by lra. pose proof (inc_P x y X Y ltac:(lra)) as [P1 P2]. pose proof (g_diff x y ltac:(lra)) as D.
      assert (0 < psy * (y - x)) by (apply Rmult_lt_0_compat; lra). rewrite (Rabs_left (hf x - hf y)) in Q by lra.
      apply (core k (w - x) (hf w - hf x) e (y - x) (hf y - hf x) (gf y - gf x)); try lra.
      rewrite <- GE. replace (- stp y x * (gf y - gf x)) with (stp y x * (gf x - gf y)) by ring. rewrite S. ring.
    - rewrite (Rabs_right (x - y)) in * by lra. pose proof (inc_P y x Y X ltac:(lra)) as [P1 P2]. pose proof (g_diff y x ltac:(lra)) as D.
      assert (0 < psy * (x - y)) by (apply Rmult_lt_0_compat; lra). rewrite (Rabs_right (hf x - hf y)) in Q by lra.
      apply (core k (w - x) (hf w - hf x) e (x - y) (hf x - hf y) (gf x - gf y)); try lra. rewrite <- GE.
      replace (- stp y x * (gf x - gf y)) with (- (stp y x * (gf x - gf y))) by ring. rewrite S. ring. }
  destruct C as [C1 C2]. split; auto.
Qed.
Definition near (x : R) : Prop := T0 - 1 <= x <= T0 + 1.
Lemma near_dom x : near x -> dom x. Proof. unfold near, dom. lra. Qed.
Lemma near_bound y x : near y -> near x -> near w -> 0.01 < Rabs (x - y) ->
  (w <= x -> 0.818 * (x - w) <= stp y x <= 1.101 * (x - w) + 0.0013) /\ (x < w -> 0.818 * (w - x) <= - stp y x <= 1.101 * (w - x) + 0.0013).
Proof.
  intros Y X W L. assert (N : x <> y) by (intros ->; rewrite Rminus_diag_eq, Rabs_R0 in L by auto; lra).
  pose proof (stp_eq y x (near_dom y Y) (near_dom x X) N) as S. unfold near in *.
  assert (LD : exists l h g, 0.01 <= l /\ (psy + 44.54) * l <= h <= (psy + 50.31) * l /\ h <= g <= h + 0.07 /\ stp y x * g = gf x * l).
  { destruct (Rtotal_order x y) as [LT|[EQ|GT]]; [|contradiction|].
    - exists (y - x), (hf y - hf x), (gf y - gf x). rewrite (Rabs_left (x - y)) in L by lra. repeat split; try lra.
      + apply inc_N; lra. + apply inc_N; lra. + apply g_diff; lra. + apply g_diff; lra.
    - exists (x - y), (hf x - hf y), (gf x - gf y). rewrite (Rabs_right (x - y)) in L by lra. repeat split; try lra.
      + apply inc_N; lra. + apply inc_N; lra. + apply g_diff; lra. + apply g_diff; lra. }
  destruct LD as (l & h & g & L1 & L2 & L3 & L4). split; intro D.
  - destruct (g_right x D) as (e & GE & E & _). apply (core_near (x - w) (hf x - hf w) e l h g); auto; try lra.
    + apply inc_N; lra. + rewrite <- GE. auto.
  - destruct (g_left x D) as (e & GE & E & _). apply (core_near (w - x) (hf w - hf x) e l h g); auto; try lra.
    + apply inc_N; lra. + rewrite <- GE. replace (- stp y x * g) with (- (stp y x * g)) by ring. rewrite L4. ring.
Qed.

(** * The states of the iteration. a and b: how far the points get below and above w. *)
Variables a b : R.
Hypothesis a11 : 0.11 <= a.
Hypothesis b11 : 0.11 <= b.
Hypothesis ab : a + b <= 10.12.
Hypothesis wa : dom (w - a).
Hypothesis wb : dom (w + b).
Inductive st (y x : R) : Prop :=
| st0 : w <= y -> y < x -> dom x -> 0.101 * (x - w) + 0.0054 <= a -> a <= b -> st y x
| st1 : w <= x -> x < y -> dom y -> 0.101 * (x - w) + 0.0054 <= a -> (x - w <= b \/ a <= b) -> st y x
| st2 : x < w -> w <= y -> dom y -> w - x <= a -> (y - w <= b \/ a <= b) -> st y x
| st3 : y < x -> x < w -> w - y <= a -> w - x <= b -> st y x
| st4 : y < w -> w <= x -> w - y <= a -> x - w <= b -> st y x.
Lemma st_dom y x : st y x -> dom y /\ dom x.
Proof. unfold dom in *. intros []; unfold dom in *; lra. Qed.
(** Bounds of the step in every state: factor 1.101 if the other point is to the right of the interval to w, 1.95 within the window *)
Lemma st_right y x : st y x -> w <= x -> 0.01 < Rabs (x - y) ->
  exists k, 0 <= k <= 1.95 /\ (w <= y -> k = 1.101) /\ 0.018 * (x - w) <= stp y x <= k * (x - w) + 0.0054 /\ (T0 < w \/ x < T0 -> stp y x <= k * (x - w)).
Proof.
  intros H WX L. destruct (st_dom y x H) as [Y X].
  assert (B : forall k, 0 <= k <= 1.95 -> (w <= y -> k = 1.101) -> (hf x - hf w) * Rabs (x - y) <= k * Rabs (hf x - hf y) * (x - w) ->
    exists k, 0 <= k <= 1.95 /\ (w <= y -> k = 1.101) /\ 0.018 * (x - w) <= stp y x <= k * (x - w) + 0.0054 /\ (T0 < w \/ x < T0 -> stp y x <= k * (x - w))).
  { intros k K1 K2 K3. exists k. pose proof (right_bound y x k Y X WX L ltac:(lra) K3) as [R1 R2]. auto. }
  destruct H as [H1 H2 H3 H4 H5|H1 H2 H3 H4 H5|H1 H2 H3 H4 H5|H1 H2 H3 H4|H1 H2 H3 H4]; try lra.
  - apply (B 1.101); try lra. pose proof (inc_P y x Y X ltac:(lra)) as [P _]. assert (0 <= psy * (x - y)) by (apply Rmult_le_pos; lra).
    rewrite (Rabs_right (x - y)), (Rabs_right (hf x - hf y)) by lra. pose proof (inc_Q w y y x wdom X H1 ltac:(lra) ltac:(lra)) as Q.
    assert (0 <= (hf x - hf y) * (x - y)) by (apply Rmult_le_pos; lra). nra.
  - apply (B 1.101); try lra. pose proof (inc_P x y X Y ltac:(lra)) as [P _]. assert (0 <= psy * (y - x)) by (apply Rmult_le_pos; lra).
    rewrite (Rabs_left (x - y)), (Rabs_left1 (hf x - hf y)) by lra. pose proof (inc_Q w x x y wdom Y H1 ltac:(lra) ltac:(lra)) as Q. nra.
  - apply (B 1.95); try lra. pose proof (inc_P y x Y X ltac:(lra)) as [P _]. assert (0 <= psy * (x - y)) by (apply Rmult_le_pos; lra).
    rewrite (Rabs_right (x - y)), (Rabs_right (hf x - hf y)) by lra.
    apply (inc_W y x w x y x); auto; lra.
Qed.
Lemma st_left y x : st y x -> x < w -> 0.01 < Rabs (x - y) ->
  exists k, 0 <= k <= 1.95 /\ (w <= y -> k = 1.101) /\ 0.018 * (w - x) <= - stp y x <= k * (w - x) + 0.0054 /\ (T0 < x \/ w < T0 -> - stp y x <= k * (w - x)).
Proof.
  intros H WX L. destruct (st_dom y x H) as [Y X].
  assert (B : forall k, 0 <= k <= 1.95 -> (w <= y -> k = 1.101) -> (hf w - hf x) * Rabs (x - y) <= k * Rabs (hf x - hf y) * (w - x) ->
    exists k, 0 <= k <= 1.95 /\ (w <= y -> k = 1.101) /\ 0.018 * (w - x) <= - stp y x <= k * (w - x) + 0.0054 /\ (T0 < x \/ w < T0 -> - stp y x <= k * (w - x))).
  { intros k K1 K2 K3. exists k. pose proof (left_bound y x k Y X WX L ltac:(lra) K3) as [R1 R2]. auto. }
  destruct H as [H1 H2 H3 H4 H5|H1 H2 H3 H4 H5|H1 H2 H3 H4 H5|H1 H2 H3 H4|H1 H2 H3 H4]; try lra.
  - apply (B 1.101); try lra. pose proof (inc_P x y X Y ltac:(lra)) as [P _]. assert (0 <= psy * (y - x)) by (apply Rmult_le_pos; lra).
    rewrite (Rabs_left (x - y)), (Rabs_left1 (hf x - hf y)) by lra. pose proof (inc_Q x w w y X Y ltac:(lra) ltac:(lra) H2) as Q.
    pose proof (inc_P x w X wdom ltac:(lra)) as [P' _]. assert (0 <= psy * (w - x)) by (apply Rmult_le_pos; lra).
    assert (0 <= (hf w - hf x) * (w - x)) by (apply Rmult_le_pos; lra). nra.
  - apply (B 1.95); try lra. pose proof (inc_P y x Y X ltac:(lra)) as [P _]. assert (0 <= psy * (x - y)) by (apply Rmult_le_pos; lra).
    rewrite (Rabs_right (x - y)), (Rabs_right (hf x - hf y)) by lra.
    apply (inc_W y w x w y x); auto; lra.
Qed.
Lemma gap_ne x y : 0.01 < Rabs (x - y) -> x <> y.
Proof. intros L ->. rewrite Rminus_diag_eq, Rabs_R0 in L by auto. lra. Qed.
(** Bounds seen from the other point of the pair *)
Lemma other_left y x : dom y -> dom x -> y < w -> w <= x -> x <= y + 10.12 -> 0.01 < Rabs (x - y) -> 0 <= - stp x y <= 1.95 * (w - y) + 0.0054.
Proof.
  intros Y X YW WX W L. pose proof (left_bound x y 1.95 X Y YW) as B. rewrite (Rabs_minus_sym y x) in B. specialize (B L ltac:(lra)).
  pose proof (inc_P y x Y X ltac:(lra)) as [P _]. assert (0 <= psy * (x - y)) by (apply Rmult_le_pos; lra).
  rewrite (Rabs_right (x - y)), (Rabs_left1 (hf y - hf x)) in B by lra.
  destruct B as [B _]; [|lra]. replace (- (hf y - hf x)) with (hf x - hf y) by ring. apply (inc_W y x y w y x); auto; lra.
Qed.
Lemma other_right y x : dom y -> dom x -> x < w -> w <= y -> y <= x + 10.12 -> 0.01 < Rabs (x - y) -> 0 <= stp x y <= 1.95 * (y - w) + 0.0054.
Proof.
  intros Y X XW WY W L. pose proof (right_bound x y 1.95 X Y WY) as B. rewrite (Rabs_minus_sym y x) in B. specialize (B L ltac:(lra)).
  pose proof (inc_P x y X Y ltac:(lra)) as [P _]. assert (0 <= psy * (y - x)) by (apply Rmult_le_pos; lra).
  rewrite (Rabs_left (x - y)), (Rabs_right (hf y - hf x)) in B by lra.
  destruct B as [B _]; [|lra]. replace (- (x - y)) with (y - x) by ring. apply (inc_W x y w y x y); auto; lra.
Qed.
Lemma other_sign y x : dom y -> dom x -> x < w -> w <= y -> 0 <= stp x y.
Proof.
  intros Y X XW WY. assert (N : y <> x) by lra. pose proof (stp_eq x y X Y N) as S. destruct (g_right y WY) as (e & GE & E & _).
  pose proof (inc_P w y wdom Y WY) as [P _]. assert (0 <= psy * (y - w)) by (apply Rmult_le_pos; lra).
  pose proof (g_diff x y ltac:(lra)) as D. pose proof (inc_P x y X Y ltac:(lra)) as [P' _]. assert (0 < psy * (y - x)) by (apply Rmult_lt_0_compat; lra).
  assert (0 <= gf y * (y - x)) by (apply Rmult_le_pos; lra). apply Rmult_le_reg_r with (gf y - gf x); [lra|]. rewrite S. lra.
Qed.
Lemma st_step y x : st y x -> 0.01 < Rabs (x - y) -> 0.01 < Rabs (stp y x) -> st x (x - stp y x).
Proof.
  intros H L M. destruct (st_dom y x H) as [Y X]. pose proof (gap_ne x y L) as N. pose proof (stp_swap y x Y X N) as SW.
  destruct (Rle_lt_dec w x) as [WX|WX].
  - destruct (st_right y x H WX L) as (k & K1 & K2 & K3 & _).
    assert (M' : 0.01 < stp y x) by (rewrite Rabs_right in M; lra). clear M.
    destruct H as [H1 H2 H3 H4 H5|H1 H2 H3 H4 H5|H1 H2 H3 H4 H5|H1 H2 H3 H4|H1 H2 H3 H4]; try lra.
    + rewrite (K2 H1) in K3. destruct (Rle_lt_dec w (x - stp y x)); [apply st1|apply st2]; auto; lra.
    + rewrite (K2 ltac:(lra)) in K3. destruct (Rle_lt_dec w (x - stp y x)); [apply st1|apply st2]; auto; try lra; destruct H5; (left; lra) || (right; lra).
    + pose proof (other_left y x Y X H1 H2 ltac:(lra) L) as O.
      destruct (Rle_lt_dec w (x - stp y x)); [apply st1|apply st2]; auto; try lra; left; lra.
  - destruct (st_left y x H WX L) as (k & K1 & K2 & K3 & _).
    assert (M' : 0.01 < - stp y x) by (rewrite Rabs_left1 in M; lra). clear M.
    destruct H as [H1 H2 H3 H4 H5|H1 H2 H3 H4 H5|H1 H2 H3 H4 H5|H1 H2 H3 H4|H1 H2 H3 H4]; try lra.
    + rewrite (K2 H2) in K3. pose proof (other_sign y x Y X H1 H2) as OS.
      destruct (Rle_lt_dec w (x - stp y x)); [apply st4|apply st3]; auto; try lra; destruct H5 as [H5|H5]; try lra;
      pose proof (other_right y x Y X H1 H2 ltac:(lra) L) as O; lra.
    + destruct (Rle_lt_dec w (x - stp y x)); [apply st4|apply st3]; auto; try lra.
      assert (k * (w - x) <= 1.95 * (w - x)) by (apply Rmult_le_compat_r; lra). lra.
Qed.
Lemma st_contract y x : st y x -> 0.01 < Rabs (x - y) ->
  Rabs (x - stp y x - w) <= 0.982 * Rabs (x - w) + 0.0054 /\ Rabs (stp y x) <= 1.95 * Rabs (x - w) + 0.0054
  /\ (Rabs (x - w) < Rabs (w - T0) -> Rabs (x - stp y x - w) <= 0.982 * Rabs (x - w) /\ Rabs (stp y x) <= 1.95 * Rabs (x - w)).
Proof.
  intros H L. destruct (Rle_lt_dec w x) as [WX|WX].
  - destruct (st_right y x H WX L) as (k & K1 & K2 & K3 & K4). rewrite (Rabs_right (x - w)) by lra.
    assert (KE : k * (x - w) <= 1.95 * (x - w)) by (apply Rmult_le_compat_r; lra).
    split; [apply Rabs_le; lra|]. split; [apply Rabs_le; lra|]. intro F.
    assert (F' : T0 < w \/ x < T0). { destruct (Rle_lt_dec w T0); [right|left; auto]. rewrite Rabs_left1 in F by lra. lra. }
    specialize (K4 F'). split; apply Rabs_le; lra.
  - destruct (st_left y x H WX L) as (k & K1 & K2 & K3 & K4). rewrite (Rabs_left (x - w)) by lra.
    assert (KE : k * (w - x) <= 1.95 * (w - x)) by (apply Rmult_le_compat_r; lra).
    split; [apply Rabs_le; lra|]. split; [apply Rabs_le; lra|]. intro F.
    assert (F' : T0 < x \/ w < T0). { destruct (Rle_lt_dec T0 w); [left|right; auto]. rewrite (Rabs_right (w - T0)) in F by lra. lra. }
    specialize (K4 F'). split; apply Rabs_le; lra.
Qed.

(** * Termination *)
Definition fin (n : nat) (y x : R) : Prop := exists r, secant fd n y x = Some (Some r) /\ Rabs (r - w) <= 0.556.
Lemma sec_unfold n y x : st y x -> 0.01 < Rabs (x - y) ->
  secant fd (S n) y x = if Rlt_dec 0.01 (Rabs (stp y x)) then secant fd n x (x - stp y x) else Some (Some x).
Proof.
  intros H L. cbn [secant]. destruct (st_dom y x H) as [Y X]. pose proof (g_strict y x Y X (gap_ne x y L)) as Q.
  destruct (Req_EM_T (fd x) (fd y)); [contradiction|]. fold (stp y x). unfold secant_tol.
  destruct (Rlt_dec (1 / 100) (Rabs (stp y x))), (Rlt_dec 0.01 (Rabs (stp y x))); auto; lra.
Qed.
Lemma fin_step n y x : st y x -> 0.01 < Rabs (x - y) ->
  (0.01 < Rabs (stp y x) -> fin n x (x - stp y x)) -> fin (S n) y x.
Proof.
  intros H L K. unfold fin. rewrite sec_unfold by auto. destruct (Rlt_dec 0.01 (Rabs (stp y x))) as [M|M]; [apply K; auto|].
  exists x. split; auto. destruct (Rle_lt_dec w x) as [WX|WX].
  - destruct (st_right y x H WX L) as (k & _ & _ & B & _). rewrite Rabs_right in M by lra. rewrite Rabs_right; lra.
  - destruct (st_left y x H WX L) as (k & _ & _ & B & _). rewrite Rabs_left1 in M by lra. rewrite Rabs_left; lra.
Qed.
Lemma step_gap y x : 0.01 < Rabs (stp y x) -> 0.01 < Rabs (x - stp y x - x).
Proof. intro M. replace (x - stp y x - x) with (- stp y x) by ring. rewrite Rabs_Ropp. auto. Qed.
(** Far away: the distance from w decreases geometrically to 0.3 K. *)
Lemma fin_far n m : forall r y x, (forall y x, st y x -> 0.01 < Rabs (x - y) -> Rabs (x - w) <= 0.982 ^ m * r + 0.3 -> fin n y x) ->
  st y x -> 0.01 < Rabs (x - y) -> Rabs (x - w) <= r + 0.3 -> fin (m + n) y x.
Proof.
  induction m as [|m IH]; intros r y x B H L E.
  - cbn [Nat.add]. apply B; auto. cbn [pow]. lra.
  - cbn [Nat.add]. apply fin_step; auto. intro M. destruct (st_contract y x H L) as (C & _ & _).
    apply (IH (0.982 * r)); [|apply st_step; auto|apply step_gap; auto|lra].
    intros y' x' H' L' E'. apply B; auto. cbn [pow]. lra.
Qed.
(** Without the jump between the point and w: it decreases to zero. *)
Lemma fin_clear n : forall r y x, 0.982 ^ n * r <= 0.005 -> r < Rabs (w - T0) -> 0 <= r ->
  st y x -> 0.01 < Rabs (x - y) -> Rabs (x - w) <= r -> fin (S n) y x.
Proof.
  induction n as [|n IH]; intros r y x B T R0 H L E; apply fin_step; auto; intro M; destruct (st_contract y x H L) as (_ & _ & C);
  specialize (C ltac:(lra)); destruct C as [C1 C2].
  - exfalso. cbn [pow] in B. lra.
  - apply (IH (0.982 * r)); [cbn [pow] in B; lra|lra|lra|apply st_step; auto|apply step_gap; auto|lra].
Qed.
(** Near 0 degC four iterations are enough. *)
Lemma abs_in z r : Rabs z <= r -> - r <= z <= r.
Proof. intro H. pose proof (Rle_abs z). pose proof (Rle_abs (- z)). rewrite Rabs_Ropp in *. lra. Qed.
Lemma fin_near n : forall r y x, 0.182 ^ n * (r - 0.0016) <= 0.006 -> 0 <= r <= 0.5 ->
  Rabs (w - T0) <= 0.5 -> Rabs (y - w) <= 0.5 -> Rabs (x - w) <= r -> st y x -> 0.01 < Rabs (x - y) -> fin (S n) y x.
Proof.
  induction n as [|n IH]; intros r y x P R0 W Y X H L; apply fin_step; auto; intro M;
  pose proof (abs_in _ _ W); pose proof (abs_in _ _ Y); pose proof (abs_in _ _ X);
  destruct (near_bound y x ltac:(unfold near; lra) ltac:(unfold near; lra) ltac:(unfold near; lra) L) as [NR NL].
  - exfalso. cbn [pow] in P. destruct (Rle_lt_dec w x) as [D|D]; [specialize (NR D); rewrite Rabs_right in M by lra|specialize (NL D); rewrite Rabs_left1 in M by lra]; lra.
  - apply (IH (0.182 * r + 0.0013)); [assert (0 <= 0.182 ^ n) by (apply pow_le; lra); cbn [pow] in P; lra|lra|auto|lra| |apply st_step; auto|apply step_gap; auto].
    apply Rabs_le. destruct (Rle_lt_dec w x) as [D|D]; [specialize (NR D)|specialize (NL D)]; lra.
Qed.
Lemma pow_dbl n r r' : 0.982 ^ n <= r -> r * r <= r' -> 0.982 ^ (2 * n) <= r'.
Proof. intros H K. replace (2 * n)%nat with (n + n)%nat by lia. rewrite pow_add. assert (0 <= 0.982 ^ n) by (apply pow_le; lra). nra. Qed.
Lemma pow_256 : 0.982 ^ 256 <= 0.01.
Proof.
  apply (pow_dbl 128 0.099); [|lra]. apply (pow_dbl 64 0.314); [|lra]. apply (pow_dbl 32 0.56); [|lra]. apply (pow_dbl 16 0.7481); [|lra].
  apply (pow_dbl 8 0.8649); [|lra]. apply (pow_dbl 4 0.92995); [|lra]. apply (pow_dbl 2 0.96433); [|lra]. apply (pow_dbl 1 0.982); lra.
Qed.
Lemma pow_512 : 0.982 ^ 512 <= 0.0001.
Proof. apply (pow_dbl 256 0.01); [apply pow_256|lra]. Qed.
Lemma fin_all y x : st y x -> 0.01 < Rabs (x - y) -> Rabs (x - w) <= 50 -> fin 800 y x.
Proof.
  intros H L E. change 800%nat with (512 + 288)%nat. apply (fin_far 288 512 50); auto; [|lra]. clear y x H L E. intros y x H L E.
  assert (E' : Rabs (x - w) <= 0.305) by (pose proof pow_512; lra). clear E.
  change 288%nat with (S 287). apply fin_step; auto. intro M. destruct (st_contract y x H L) as (C & _ & _).
  assert (H' := st_step y x H L M). assert (L' := step_gap y x M). assert (E2 : Rabs (x - stp y x - w) <= 0.305) by lra.
  set (z := x - stp y x) in *. clearbody z. clear C M L H y.
  destruct (Rlt_le_dec 0.305 (Rabs (w - T0))) as [T|T].
  - assert (MN : forall k n y x, fin n y x -> fin (k + n) y x); [|change 287%nat with (30 + 257)%nat; apply MN].
    { clear. intros k n y x (r & F & G). exists r. split; auto. clear G.
      replace (k + n)%nat with (n + k)%nat by lia. revert y x F. induction n as [|n IH]; intros y x F; [discriminate|].
      cbn [secant Nat.add] in *. destruct (Req_EM_T _ _); auto. destruct (Rlt_dec _ _); auto. }
    apply (fin_clear 256 0.305); auto; try lra.
  - assert (MN : forall k n y x, fin n y x -> fin (k + n) y x); [|change 287%nat with (283 + 4)%nat; apply MN].
    { clear. intros k n y x (r & F & G). exists r. split; auto. clear G.
      replace (k + n)%nat with (n + k)%nat by lia. revert y x F. induction n as [|n IH]; intros y x F; [discriminate|].
      cbn [secant Nat.add] in *. destruct (Req_EM_T _ _); auto. destruct (Rlt_dec _ _); auto. }
    apply (fin_near 3 0.305); auto; try lra.
Qed.
End Iteration.

(** * The wet-bulb point: where the psychrometer function changes its sign *)
Lemma hf_cont psy x : 13 <= psy -> T0 - 199 <= x <= T0 + 50 -> continuity_pt (hf psy) x.
Proof.
  intros P X. unfold continuity_pt, continue_in, limit1_in, limit_in. cbn. intros eps E.
  assert (C : 0 < eps / (psy + 681)) by (apply Rdiv_lt_0_compat; lra).
  exists (Rmin 0.1 (eps / (psy + 681))). split; [apply Rmin_glb_lt; lra|]. intros z [_ Z]. unfold R_dist in *.
  assert (Z1 : Rabs (z - x) < 0.1) by (apply Rlt_le_trans with (1 := Z); apply Rmin_l).
  assert (Z2 : Rabs (z - x) < eps / (psy + 681)) by (apply Rlt_le_trans with (1 := Z); apply Rmin_r).
  assert (Z3 : (psy + 681) * Rabs (z - x) < eps).
  { apply Rmult_lt_compat_l with (r := psy + 681) in Z2; [|lra]. replace ((psy + 681) * (eps / (psy + 681))) with eps in Z2 by (field; lra). auto. }
  assert (ZB := abs_in (z - x) 0.1 ltac:(lra)). pose proof (Rabs_pos (z - x)).
  destruct (Rle_lt_dec x z) as [L|L].
  - pose proof (inc_P psy x z ltac:(unfold dom; lra) ltac:(unfold dom; lra) L) as [I1 I2]. assert (0 <= psy * (z - x)) by (apply Rmult_le_pos; lra).
    rewrite (Rabs_right (z - x)) in * by lra. rewrite Rabs_right by lra. lra.
  - pose proof (inc_P psy z x ltac:(unfold dom; lra) ltac:(unfold dom; lra) ltac:(lra)) as [I1 I2]. assert (0 <= psy * (x - z)) by (apply Rmult_le_pos; lra).
    rewrite (Rabs_left (z - x)) in * by lra. rewrite Rabs_left1 by lra. lra.
Qed.
Lemma hf_root psy K x y : 13 <= psy -> T0 - 199 <= x -> x <= y -> y <= T0 + 50 -> hf psy x <= K -> K <= hf psy y -> exists z, x <= z <= y /\ hf psy z = K.
Proof.
  intros P X L Y HX HY.
  destruct HX as [HX|HX]; [|exists x; split; [lra|auto]]. destruct HY as [HY|HY]; [|exists y; split; [lra|auto]].
  destruct L as [L|L]; [|subst; lra].
  destruct (IVT_interv (fun z => hf psy z - K) x y) as (z & Z & E); auto; try lra.
  - intros a A. apply (continuity_pt_minus (hf psy) (fun _ => K)); [apply hf_cont; lra|].
    apply continuity_pt_const. intros u v. reflexivity.
  - exists z. split; auto. lra.
Qed.
Lemma wet_bulb_point t vap psy : 180 <= t <= 323.15 -> 0 <= vap <= saturation_vapor_pressure None t -> 13 <= psy ->
  exists w cw, t - 50 <= w <= t /\ hf psy w + cw = psy * t + vap /\ 0 <= cw <= 0.07 /\ (w < T0 -> cw = 0) /\ (T0 < w -> cw = 0.07).
Proof.
  intros T V P. rewrite sat_split in V.
  assert (LO : hf psy (t - 50) + 0.07 <= psy * t + vap).
  { unfold hf. assert (M : sc (t - 50 - T0) <= 610.71); [|lra].
    assert (S : sc 0 = 610.71) by (unfold sc; destruct (Rle_dec 0 0); [rewrite mw0; lra|lra]).
    pose proof (slo_pos (t - 50 - T0) ltac:(unfold T0; lra)) as SP.
    pose proof (sc_slope (t - 50 - T0) 0 0 (shi 0) ltac:(unfold T0; lra) ltac:(unfold T0; lra) ltac:(lra) ltac:(lra) ltac:(lra)). lra. }
  assert (HI : psy * t + vap <= hf psy t + jump (t - T0)) by (unfold hf; lra).
  unfold jump in *. destruct (Rle_dec 0 (t - T0)) as [TW|TW].
  - destruct (Rle_lt_dec (psy * t + vap) (hf psy T0)) as [A|A]; [|destruct (Rle_lt_dec (psy * t + vap) (hf psy T0 + 0.07)) as [B|B]].
    + destruct (hf_root psy (psy * t + vap) (t - 50) T0 P) as (z & Z & E); unfold T0 in *; try lra.
      exists z, 0. repeat split; try lra. 
    + exists T0, (psy * t + vap - hf psy T0). unfold T0 in *. repeat split; lra.
    + destruct (hf_root psy (psy * t + vap - 0.07) T0 t P) as (z & Z & E); unfold T0 in *; try lra.
      exists z, 0.07. repeat split; try lra.
  - destruct (hf_root psy (psy * t + vap) (t - 50) t P) as (z & Z & E); unfold T0 in *; try lra.
    exists z, 0. repeat split; try lra. 
Qed.
(** * Termination *)
Lemma wet_bulb_terminates t vap psy w cw : 180 <= t <= 323.15 -> 13 <= psy ->
  t - 50 <= w <= t -> hf psy w + cw = psy * t + vap -> 0 <= cw <= 0.07 -> (w < T0 -> cw = 0) -> (T0 < w -> cw = 0.07) ->
  exists r, wet_bulb_temperature 800 t vap psy = Some (Some r) /\ Rabs (r - w) <= 0.556.
Proof.
  intros T P W E C C1 C2. unfold wet_bulb_temperature. change (fun wb => psychro_diff t wb vap psy) with (fd psy t vap).
  assert (WD : dom w) by (unfold dom, T0; lra).
  assert (G : 0.01 < Rabs (t - (t - 10))) by (replace (t - (t - 10)) with 10 by ring; rewrite Rabs_right; lra).
  assert (W50 : Rabs (t - w) <= 50) by (rewrite Rabs_right; lra).
  destruct (Rle_lt_dec w (t - 10)) as [A|B].
  - apply (fin_all psy t vap P w cw WD E C C1 C2 5.06 5.06); auto; try lra; try (unfold dom, T0; lra).
    apply st0; try lra. unfold dom, T0; lra.
  - pose proof (Rmax_l (w - (t - 10)) 0.11). pose proof (Rmax_r (w - (t - 10)) 0.11). pose proof (Rmax_l (t - w) 0.11). pose proof (Rmax_r (t - w) 0.11).
    assert (UA : Rmax (w - (t - 10)) 0.11 <= 10.11 /\ Rmax (t - w) 0.11 <= 10.11 /\ Rmax (w - (t - 10)) 0.11 + Rmax (t - w) 0.11 <= 10.12 /\ w + Rmax (t - w) 0.11 <= t + 0.11).
    { unfold Rmax. destruct (Rle_dec (w - (t - 10)) 0.11), (Rle_dec (t - w) 0.11); lra. }
    apply (fin_all psy t vap P w cw WD E C C1 C2 (Rmax (w - (t - 10)) 0.11) (Rmax (t - w) 0.11)); auto; try lra; try (unfold dom, T0; lra).
    apply st4; lra.
Qed.
