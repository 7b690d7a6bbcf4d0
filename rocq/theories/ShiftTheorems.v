(** Theorems about shifting, curvature (C53) and the sky view factor (C84) of terrain.py. *)
From Coq Require Import FinFun.
From Verif Require Import Common AtmosphereModel TerrainModel TerrainTheorems.
Open Scope R_scope.

(** * Specification *)
(** Compass directions 0 (north) to 7 (north-west): the step in rows (southwards) and columns (eastwards) *)
Definition compass : list (Z * Z) := [(-1, 0); (-1, 1); (0, 1); (1, 1); (1, 0); (1, -1); (0, -1); (-1, -1)]%Z.
Definition is_dir (dir dr dc : Z) : Prop := (0 <= dir)%Z /\ nth_error compass (Z.to_nat dir) = Some (dr, dc).
Lemma dir_cases dir dr dc : is_dir dir dr dc ->
  (dir = 0 /\ dr = -1 /\ dc = 0 \/ dir = 1 /\ dr = -1 /\ dc = 1 \/ dir = 2 /\ dr = 0 /\ dc = 1 \/ dir = 3 /\ dr = 1 /\ dc = 1 \/
  dir = 4 /\ dr = 1 /\ dc = 0 \/ dir = 5 /\ dr = 1 /\ dc = -1 \/ dir = 6 /\ dr = 0 /\ dc = -1 \/ dir = 7 /\ dr = -1 /\ dc = -1)%Z.
Proof.
  intros (P & E). destruct (Z.to_nat dir) as [|[|[|[|[|[|[|[|k]]]]]]]] eqn:K; cbn in E;
    [| | | | | | | |destruct k; discriminate]; assert (E' := E); injection E' as <- <-; lia.
Qed.
Lemma clamp_nearest n i : (1 <= n)%Z -> clampz (n - 1) i = nearest n i.
Proof. intro H. unfold clampz, nearest. destruct (Z.ltb_spec i 0), (Z.leb_spec n i); lia. Qed.

(** C53. In mode "edge" the array moves by n >= 1 pixels in the given direction and keeps its shape: every pixel takes the
    value n pixels back, that of the nearest border pixel if there is none. *)
Theorem c53_edge : forall m dir n dr dc, is_dir dir dr dc -> (1 <= n)%Z -> (1 <= a_rows m)%Z -> (1 <= a_cols m)%Z ->
  exists s, shift_arr m dir n false = Some s /\ a_rows s = a_rows m /\ a_cols s = a_cols m /\
    forall r c, in_arr m r c -> a_at s r c = neighbour m r c (- (n * dr)) (- (n * dc)).
Proof.
  intros m dir n dr dc D N R1 C1. apply dir_cases in D.
  assert (Z0 : (n =? 0)%Z = false) by (apply Z.eqb_neq; lia).
  repeat (destruct D as [D|D]; [|]); destruct D as (-> & -> & ->); (eexists; split; [reflexivity|]); unfold take, pad_edge, slice_len, slice_start;
    cbn [a_rows a_cols a_at]; rewrite ?Z0; (split; [lia|split; [lia|]]); intros r c (I1 & I2); unfold neighbour; rewrite !clamp_nearest by lia; f_equal; f_equal; lia.
Qed.
Print Assumptions c53_edge.
(** A shift by 0 pixels is not the identity: the result is empty. *)
Theorem c53_zero_refuted : exists m s, (1 <= a_rows m)%Z /\ (1 <= a_cols m)%Z /\ shift_arr m 2 0 false = Some s /\ a_cols s = 0%Z.
Proof. exists (ARR 2 3 (fun _ _ => Some 1)). eexists. cbn. repeat split; lia. Qed.
Print Assumptions c53_zero_refuted.
(** C53. In mode "retain" the array moves by n + 1 pixels; pixels for which there is no source keep their value. *)
Theorem c53_retain : forall m dir n dr dc, is_dir dir dr dc -> (0 <= n)%Z ->
  exists s, shift_arr m dir n true = Some s /\ a_rows s = a_rows m /\ a_cols s = a_cols m /\
    forall r c, in_arr m r c ->
      (in_arr m (r - (n + 1) * dr) (c - (n + 1) * dc) -> a_at s r c = a_at m (r - (n + 1) * dr) (c - (n + 1) * dc)) /\
      (~ in_arr m (r - (n + 1) * dr) (c - (n + 1) * dc) -> a_at s r c = a_at m r c).
Proof.
  intros m dir n dr dc D N. apply dir_cases in D.
  assert (Z0 : (n + 1 =? 0)%Z = false) by (apply Z.eqb_neq; lia).
  repeat (destruct D as [D|D]; [|]); destruct D as (-> & -> & ->); (eexists; split; [reflexivity|]); unfold shift_retain, assign, in_slice, slice_len, slice_start;
    cbn [a_rows a_cols a_at]; rewrite ?Z0; (split; [reflexivity|split; [reflexivity|]]); intros r c (I1 & I2); unfold in_arr;
    (split; intro H;
     [ match goal with |- (if ?b then _ else _) = _ => replace b with true end;
       [f_equal; lia | symmetry; rewrite !andb_true_iff, !Z.leb_le, !Z.ltb_lt; lia]
     | match goal with |- (if ?b then _ else _) = _ => destruct b eqn:B end; [exfalso; apply H; rewrite !andb_true_iff, !Z.leb_le, !Z.ltb_lt in B; lia | reflexivity] ]).
Qed.
Print Assumptions c53_retain.
(** ... which is one pixel more than asked for (terrain.py:384 "number of pixels to be shifted"). *)
Theorem c53_retain_count_refuted : exists m s r c, in_arr m r c /\ in_arr m (r + 1) c /\ shift_arr m 0 1 true = Some s /\ a_at s r c <> a_at m (r + 1)%Z c.
Proof.
  exists (ARR 3 1 (fun r _ => Some (IZR r))). eexists. exists 0%Z, 0%Z. split; [split; cbn; lia|]. split; [split; cbn; lia|]. split; [reflexivity|].
  unfold shift_retain, assign. cbn. intro H. injection H. lra.
Qed.
Print Assumptions c53_retain_count_refuted.

(** * Curvature *)
Lemma nb_neighbour m dir n dr dc r c : is_dir dir dr dc -> (1 <= n)%Z -> in_arr m r c -> nb m dir n r c = neighbour m r c (- (n * dr)) (- (n * dc)).
Proof.
  intros D N IN. destruct IN as (I1 & I2). destruct (c53_edge m dir n dr dc D N ltac:(lia) ltac:(lia)) as (s & S & _ & _ & A).
  unfold nb. unfold shift_arr in S. rewrite S. apply A. split; auto.
Qed.
Lemma ceilz_spec x : IZR (ceilz x) - 1 < x <= IZR (ceilz x).
Proof.
  unfold ceilz. pose proof (base_Int_part (- x)) as (A & B). rewrite opp_IZR. lra.
Qed.
Lemma ceilz_pos x : 0 < x -> (1 <= ceilz x)%Z.
Proof. intro H. pose proof (ceilz_spec x) as (A & B). assert (IZR 0 < IZR (ceilz x)) by (cbn; lra). apply lt_IZR in H0. lia. Qed.
Lemma ceilz_le x k : x <= IZR k -> (ceilz x <= k)%Z.
Proof. intro H. pose proof (ceilz_spec x) as (A & B). assert (K : IZR (ceilz x) < IZR (k + 1)) by (rewrite plus_IZR; lra). apply lt_IZR in K. lia. Qed.
(** How far z lies above the mean of two opposite points *)
Definition above (z z1 z2 : num) : num := match z, z1, z2 with Some a, Some b, Some c => Some (a - (b + c) / 2) | _, _, _ => None end.
(** C53. The curvature is a quarter of the sum over the four axes of the height above the mean of the two opposite points at
    L / resolution pixels (rounded up), over twice the distance, which is longer by the square root of two diagonally. *)
Theorem c53_curvature : forall dem res L r c, 0 < res -> 0 < L -> in_arr dem r c ->
  let n := ceilz (L / res) in
  let opposite dr dc := above (a_at dem r c) (neighbour dem r c (n * dr) (n * dc)) (neighbour dem r c (- (n * dr)) (- (n * dc))) in
  a_at (curvature dem res (Some L)) r c =
    match opposite 1%Z 0%Z, opposite 0%Z 1%Z, opposite 1%Z 1%Z, opposite 1%Z (-1)%Z with
    | Some ns, Some we, Some d1, Some d2 => Some ((we / (2 * L) + ns / (2 * L) + d2 / (2 * (sqrt 2 * L)) + d1 / (2 * (sqrt 2 * L))) / 4)
    | _, _, _, _ => None end.
Proof.
  intros dem res L r c RS LP IN n opp. assert (N : (1 <= n)%Z) by (apply ceilz_pos; apply Rdiv_lt_0_compat; auto).
  unfold curvature. cbn [a_at]. fold n.
  rewrite (nb_neighbour dem 6 n 0 (-1) r c), (nb_neighbour dem 2 n 0 1 r c), (nb_neighbour dem 4 n 1 0 r c), (nb_neighbour dem 0 n (-1) 0 r c),
    (nb_neighbour dem 5 n 1 (-1) r c), (nb_neighbour dem 1 n (-1) 1 r c), (nb_neighbour dem 7 n (-1) (-1) r c), (nb_neighbour dem 3 n 1 1 r c) by (first [assumption | split; [lia | reflexivity]]).
  unfold opp, above.
  replace (- (n * -1))%Z with (n * 1)%Z by lia. replace (- (n * 0))%Z with (n * 0)%Z by lia. replace (n * -1)%Z with (- (n * 1))%Z by lia.
  replace (- - (n * 1))%Z with (n * 1)%Z by lia.
  pose proof (sqrt_lt_R0 2 ltac:(lra)) as Q.
  destruct (a_at dem r c); [|reflexivity].
  destruct (neighbour dem r c (n * 0) (n * 1)), (neighbour dem r c (n * 0) (- (n * 1))), (neighbour dem r c (- (n * 1)) (n * 0)), (neighbour dem r c (n * 1) (n * 0)),
    (neighbour dem r c (- (n * 1)) (n * 1)), (neighbour dem r c (n * 1) (- (n * 1))), (neighbour dem r c (n * 1) (n * 1)), (neighbour dem r c (- (n * 1)) (- (n * 1)));
    try reflexivity. cbn. f_equal. field. split; lra.
Qed.
Print Assumptions c53_curvature.
(** Without a length scale it is the resolution: the adjacent pixels are used. *)
Theorem c53_default_length : forall dem res, 0 < res -> curvature dem res None = curvature dem res (Some res) /\ ceilz (res / res) = 1%Z.
Proof.
  intros dem res H. split; [reflexivity|]. replace (res / res) with 1 by (field; lra). pose proof (ceilz_le 1 1 ltac:(lra)). pose proof (ceilz_pos 1 ltac:(lra)). lia.
Qed.
Print Assumptions c53_default_length.
(** Planes have no curvature where the length scale does not reach beyond the grid, level terrain has none anywhere. *)
Theorem c53_plane : forall rows cols res z0 p q L r c, 0 < res -> 0 < L -> let d := plane rows cols res z0 p q in
  let n := ceilz (L / res) in
  ((n <= r < rows - n)%Z /\ (n <= c < cols - n)%Z) \/ (p = 0 /\ q = 0 /\ in_arr d r c) -> a_at (curvature d res (Some L)) r c = Some 0.
Proof.
  intros rows cols res z0 p q L r c RS LP d n H. assert (N : (1 <= n)%Z) by (apply ceilz_pos; apply Rdiv_lt_0_compat; auto).
  assert (IN : in_arr d r c) by (destruct H as [(A & B)|(_ & _ & A)]; [split; cbn; lia|auto]). rewrite c53_curvature by auto. cbv zeta. fold n.
  pose proof (sqrt_lt_R0 2 ltac:(lra)) as Q.
  assert (V : forall dr dc, (-1 <= dr <= 1)%Z -> (-1 <= dc <= 1)%Z -> above (a_at d r c) (neighbour d r c (n * dr) (n * dc)) (neighbour d r c (- (n * dr)) (- (n * dc))) = Some 0).
  { intros dr dc A B. unfold neighbour, above. cbn [a_at d plane a_rows a_cols]. destruct H as [(H1 & H2)|(-> & -> & _)].
    - rewrite !nearest_in by nia. f_equal. rewrite !plus_IZR, !opp_IZR. lra.
    - f_equal. lra. }
  rewrite !V by lia. f_equal. field. split; lra.
Qed.
Print Assumptions c53_plane.
Example c53_example : is_dir 5 1 (-1) /\ let m := plane 5 7 50 1000 0.1 0.2 in (1 <= a_rows m)%Z /\ (1 <= a_cols m)%Z /\ in_arr m 3 4 /\
  ceilz (60 / 50) = 2%Z /\ (2 <= 2 < 5 - 2)%Z /\ (2 <= 4 < 7 - 2)%Z.
Proof.
  split; [split; [lia|reflexivity]|]. cbn [a_rows a_cols plane]. repeat split; try (cbn; lia).
  pose proof (ceilz_le (60 / 50) 2 ltac:(lra)). assert (A := ceilz_spec (60 / 50)). assert (K : IZR 1 < IZR (ceilz (60 / 50))) by lra. apply lt_IZR in K. lia.
Qed.

(** * C84 Sky view factor *)
Lemma azimuths_in lo hi step a : (1 <= step)%Z -> In a (azimuths lo hi step) <-> (lo <= a < hi)%Z /\ exists k, (0 <= k)%Z /\ a = (lo + k * step)%Z.
Proof.
  intro ST. unfold azimuths. rewrite in_map_iff. split.
  - intros (k & <- & I). apply in_seq in I. destruct I as (_ & I). cbn in I.
    assert (B : (Z.of_nat k + 1 <= (hi - lo + step - 1) / step)%Z) by lia.
    assert (M : (step * ((hi - lo + step - 1) / step) <= hi - lo + step - 1)%Z) by (apply Z.mul_div_le; lia).
    split; [nia|]. exists (Z.of_nat k). lia.
  - intros (B & k & K & ->). exists (Z.to_nat k). split; [lia|]. apply in_seq. split; [lia|]. cbn.
    assert (D : (k + 1 <= (hi - lo + step - 1) / step)%Z) by (apply Z.div_le_lower_bound; lia). lia.
Qed.
Lemma elevations_in ms e : In e (elevations ms) <-> (1 <= e <= max_elev ms)%Z.
Proof.
  unfold elevations. rewrite <- in_rev, in_map_iff. split.
  - intros (k & <- & I). apply in_seq in I. lia.
  - intro H. exists (Z.to_nat (e - 1)). split; [lia|]. apply in_seq. lia.
Qed.
Lemma max_elev_range ms : ms < 90 -> (1 <= max_elev ms <= 90)%Z.
Proof. intro H. unfold max_elev. pose proof (ceilz_le ms 90 ltac:(lra)). lia. Qed.
(** fold_left over a decreasing list keeps the last, that is the smallest, element that satisfies the test *)
Lemma fold_last (f : Z -> bool) l d : (fold_left (fun cur e => if f e then e else cur) l d = d /\ forall e, In e l -> f e = false) \/
  exists l1 e l2, l = l1 ++ e :: l2 /\ f e = true /\ (forall x, In x l2 -> f x = false) /\ fold_left (fun cur e => if f e then e else cur) l d = e.
Proof.
  revert d. induction l as [|x l IH]; intro d; [left; split; [reflexivity|intros e []]|]. cbn [fold_left].
  destruct (IH (if f x then x else d)) as [(E & N)|(l1 & e & l2 & -> & F & N & E)].
  - destruct (f x) eqn:FX.
    + right. exists [], x, l. auto.
    + left. split; [auto|]. intros e [<- |I]; auto.
  - right. exists (x :: l1), e, l2. auto.
Qed.
Lemma elevations_sorted ms l1 e l2 : elevations ms = l1 ++ e :: l2 -> forall x, (1 <= x < e)%Z -> In x l2.
Proof.
  intros E x H.
  assert (G : forall n l1 e l2, rev (map (fun k => 1 + Z.of_nat k)%Z (seq 0 n)) = l1 ++ e :: l2 -> forall x, (1 <= x < e)%Z -> In x l2).
  { clear. induction n as [|n IH]; intros l1 e l2 E x H; [destruct l1; discriminate|].
    rewrite seq_S, map_app, rev_app_distr in E. cbn [map rev app] in E. destruct l1 as [|y l1]; cbn [app] in E.
    - assert (E1 : (1 + Z.of_nat (0 + n))%Z = e) by congruence. assert (E2 : rev (map (fun k => 1 + Z.of_nat k)%Z (seq 0 n)) = l2) by congruence. rewrite <- E2. rewrite <- in_rev, in_map_iff. exists (Z.to_nat (x - 1)). split; [lia|]. apply in_seq. lia.
    - injection E as _ E. eapply IH; eauto. }
  eapply G; eauto.
Qed.
(** C84. The horizon of a pixel in one direction is the lowest whole degree at which it is lit, or the steepest slope of
    the terrain, rounded up, if it is not lit at any. *)
Theorem c84_horizon : forall lit maxslope azim, maxslope < 90 ->
  let seen e := lit (sky_vector (IZR azim) (IZR e)) in
  (seen (svf_cur lit maxslope azim) = true \/ (svf_cur lit maxslope azim = max_elev maxslope /\ forall e, (1 <= e <= max_elev maxslope)%Z -> seen e = false)) /\
  (forall e, (1 <= e < svf_cur lit maxslope azim)%Z -> seen e = false) /\ (1 <= svf_cur lit maxslope azim <= max_elev maxslope)%Z.
Proof.
  intros lit ms az MS seen. pose proof (max_elev_range ms MS) as MR. unfold svf_cur. fold seen.
  change (fun cur e => if lit (sky_vector (IZR az) (IZR e)) then e else cur) with (fun cur e => if seen e then e else cur).
  destruct (fold_last seen (elevations ms) (max_elev ms)) as [(-> & N)|(l1 & e & l2 & L & F & N & ->)].
  - split; [right; split; [reflexivity|]; intros e E; apply N; apply elevations_in; auto|]. split; [|lia]. intros e E. apply N. apply elevations_in. lia.
  - split; [left; auto|]. split; [intros x X; apply N; eapply elevations_sorted; eauto|]. apply elevations_in. rewrite L. apply in_or_app. right. left. reflexivity.
Qed.
Print Assumptions c84_horizon.
Lemma sq_le a b : 0 <= a -> a <= b -> a ^ 2 <= b ^ 2. Proof. intros. nra. Qed.
Lemma cos2_range x : 0 <= cos x ^ 2 <= 1.
Proof. pose proof (COS_bound x). nra. Qed.
Lemma mean_range (f : Z -> R) l lo hi : l <> [] -> (forall a, In a l -> lo <= f a <= hi) -> lo <= sumR (map f l) / INR (length l) <= hi.
Proof.
  intros NE H. assert (P : 0 < INR (length l)) by (apply lt_0_INR; destruct l; [congruence|cbn; lia]).
  assert (S : lo * INR (length l) <= sumR (map f l) <= hi * INR (length l)).
  { clear NE P. induction l as [|x l IH]; [cbn [map length]; rewrite sumR_nil; cbn; lra|]. cbn [map length]. rewrite sumR_cons, S_INR.
    specialize (H x (or_introl eq_refl)) as HX. specialize (IH (fun a I => H a (or_intror I))). nra. }
  unfold Rdiv. split; (apply Rmult_le_reg_r with (INR (length l)); [auto|]; rewrite Rmult_assoc, Rinv_l by lra; lra).
Qed.
(** C84. The sky view factor is between 0 and 1. *)
Theorem c84_range : forall rows cols lit maxslope lo hi step v, maxslope < 90 -> (1 <= step)%Z ->
  sky_view_factor rows cols lit maxslope lo hi step = Some v -> 0 <= v <= 1 /\ cos (deg2rad (IZR (max_elev maxslope))) ^ 2 <= v.
Proof.
  intros rows cols lit ms lo hi step v MS ST E. unfold sky_view_factor in E. destruct (_ && _); [injection E as <-; pose proof (cos2_range (deg2rad (IZR (max_elev ms)))); lra|].
  destruct (azimuths lo hi step) as [|a l] eqn:A; [discriminate|]. assert (E' : v = sumR (map (fun a0 => cos (deg2rad (IZR (svf_cur lit ms a0))) ^ 2) (a :: l)) / INR (length (a :: l))) by congruence. clear E.
  assert (D : forall e, (1 <= e <= max_elev ms)%Z -> cos (deg2rad (IZR (max_elev ms))) ^ 2 <= cos (deg2rad (IZR e)) ^ 2).
  { intros e EE. pose proof (max_elev_range ms MS) as MR. pose proof PI_RGT_0 as P.
    assert (B1 : 1 <= IZR e) by (apply IZR_le; lia). assert (B2 : IZR e <= IZR (max_elev ms)) by (apply IZR_le; lia). assert (B3 : IZR (max_elev ms) <= 90) by (apply IZR_le; lia).
    assert (C : cos (deg2rad (IZR (max_elev ms))) <= cos (deg2rad (IZR e))) by (apply cos_decr_1; unfold deg2rad; nra).
    assert (C0 : 0 <= cos (deg2rad (IZR (max_elev ms)))) by (apply cos_ge_0; unfold deg2rad; nra). nra. }
  split.
  - subst v. apply mean_range; [discriminate|]. intros x _. apply cos2_range.
  - subst v. apply (mean_range (fun a0 => cos (deg2rad (IZR (svf_cur lit ms a0))) ^ 2) (a :: l) _ 1); [discriminate|]. intros x _.
    split; [apply D; apply c84_horizon; auto|apply cos2_range].
Qed.
Print Assumptions c84_range.
(** C84. It is the mean over the directions of the squared cosine of the horizon; every direction lo, lo + step, ... below hi
    counts once. A single pixel sees the whole sky. *)
Theorem c84_mean : forall rows cols lit maxslope lo hi step v, (1 <= step)%Z -> sky_view_factor rows cols lit maxslope lo hi step = Some v ->
  (rows = 1%Z /\ cols = 1%Z /\ v = 1) \/
  exists az, NoDup az /\ (forall a, In a az <-> (lo <= a < hi)%Z /\ exists k, (0 <= k)%Z /\ a = (lo + k * step)%Z) /\ az <> [] /\
    v * INR (length az) = sumR (map (fun a => cos (deg2rad (IZR (svf_cur lit maxslope a))) ^ 2) az).
Proof.
  intros rows cols lit ms lo hi step v ST E. unfold sky_view_factor in E. destruct ((rows =? 1)%Z && (cols =? 1)%Z) eqn:B.
  { left. apply andb_true_iff in B. rewrite !Z.eqb_eq in B. split; [tauto|]. split; [tauto|congruence]. }
  right. exists (azimuths lo hi step). split; [|split; [intro; apply azimuths_in; auto|]].
  - unfold azimuths. apply Injective_map_NoDup; [|apply seq_NoDup]. intros x y XY. nia.
  - destruct (azimuths lo hi step) as [|a l]; [discriminate|]. split; [discriminate|].
    assert (E' : v = sumR (map (fun a0 => cos (deg2rad (IZR (svf_cur lit ms a0))) ^ 2) (a :: l)) / INR (length (a :: l))) by congruence. rewrite E'. field.
    apply not_0_INR. discriminate.
Qed.
Print Assumptions c84_mean.
Theorem c84_available : forall rows cols lit maxslope lo hi step, (1 <= step)%Z -> (lo < hi)%Z -> exists v, sky_view_factor rows cols lit maxslope lo hi step = Some v.
Proof.
  intros rows cols lit ms lo hi step ST LH. unfold sky_view_factor. destruct (_ && _); [eauto|]. destruct (azimuths lo hi step) eqn:A; [|eauto].
  exfalso. assert (I : In lo (azimuths lo hi step)) by (apply azimuths_in; auto; split; [lia|exists 0%Z; lia]). rewrite A in I. destruct I.
Qed.
Print Assumptions c84_available.
(** C84. A pixel that is lit from wherever another one is lit has at least its sky view factor. *)
Theorem c84_monotone : forall rows cols lit lit' maxslope lo hi step v v', maxslope < 90 -> (1 <= step)%Z ->
  (forall s, lit s = true -> lit' s = true) -> sky_view_factor rows cols lit maxslope lo hi step = Some v -> sky_view_factor rows cols lit' maxslope lo hi step = Some v' -> v <= v'.
Proof.
  intros rows cols lit lit' ms lo hi step v v' MS ST IMP E E'. unfold sky_view_factor in *. destruct (_ && _); [assert (v = v') by congruence; lra|].
  destruct (azimuths lo hi step) as [|a l]; [discriminate|].
  assert (F : forall x, cos (deg2rad (IZR (svf_cur lit ms x))) ^ 2 <= cos (deg2rad (IZR (svf_cur lit' ms x))) ^ 2).
  { intro x. pose proof PI_RGT_0 as P. pose proof (max_elev_range ms MS) as MR.
    destruct (c84_horizon lit ms x MS) as (A1 & A2 & A3). destruct (c84_horizon lit' ms x MS) as (B1 & B2 & B3).
    assert (LE : (svf_cur lit' ms x <= svf_cur lit ms x)%Z).
    { destruct (Z.le_gt_cases (svf_cur lit' ms x) (svf_cur lit ms x)) as [|G]; [auto|exfalso]. destruct A1 as [A1|(A1 & _)]; [|lia].
      apply IMP in A1. rewrite B2 in A1; [discriminate|lia]. }
    set (e := svf_cur lit ms x) in *. set (e' := svf_cur lit' ms x) in *.
    assert (1 <= IZR e') by (apply IZR_le; lia). assert (IZR e' <= IZR e) by (apply IZR_le; lia). assert (IZR e <= 90) by (apply IZR_le; lia).
    assert (C : cos (deg2rad (IZR e)) <= cos (deg2rad (IZR e'))) by (apply cos_decr_1; unfold deg2rad; nra).
    apply sq_le; [apply cos_ge_0; unfold deg2rad; nra|exact C]. }
  assert (S : sumR (map (fun a => cos (deg2rad (IZR (svf_cur lit ms a))) ^ 2) (a :: l)) <= sumR (map (fun a => cos (deg2rad (IZR (svf_cur lit' ms a))) ^ 2) (a :: l))).
  { generalize (a :: l) as k. induction k as [|x k IH]; [cbn [map]; lra|]. cbn [map]. rewrite !sumR_cons. specialize (F x). lra. }
  assert (P : 0 < / INR (length (a :: l))) by (apply Rinv_0_lt_compat, lt_0_INR; cbn; lia).
  apply (f_equal nan_to_zero) in E. apply (f_equal nan_to_zero) in E'. unfold nan_to_zero, Rdiv in E, E'. rewrite <- E, <- E'. apply Rmult_le_compat_r; [left; exact P|exact S].
Qed.
Print Assumptions c84_monotone.
(** C84. The directions are unit vectors with the given elevation; azimuth 0 is north (second component -1), 90 is east. *)
Theorem c84_directions : forall azim elev, let '(x, y, z) := sky_vector azim elev in
  x ^ 2 + y ^ 2 + z ^ 2 = 1 /\ z = sin (elev * PI / 180) /\ x * cos (azim * PI / 180) = - y * sin (azim * PI / 180) /\
  x = sin (azim * PI / 180) * cos (elev * PI / 180) /\ (azim = 0 -> y = - cos (elev * PI / 180)) /\ (azim = 180 -> y = cos (elev * PI / 180)).
Proof.
  intros az el. unfold sky_vector, deg2rad. replace (az * (PI / 180)) with (az * PI / 180) by field. replace (el * (PI / 180)) with (el * PI / 180) by field.
  set (a := az * PI / 180). set (e := el * PI / 180). pose proof (sin2_cos2 a) as A. pose proof (sin2_cos2 e) as E. unfold Rsqr in *.
  split; [replace ((sin a * cos e) ^ 2 + (- cos a * cos e) ^ 2 + sin e ^ 2) with ((sin a * sin a + cos a * cos a) * (cos e * cos e) + sin e * sin e) by ring; rewrite A; lra|].
  split; [reflexivity|]. split; [ring|]. split; [reflexivity|]. split; intros ->; unfold a; [replace (0 * PI / 180) with 0 by field; rewrite cos_0|replace (180 * PI / 180) with PI by field; rewrite cos_PI]; ring.
Qed.
Print Assumptions c84_directions.
(** A pixel that is always lit does not quite reach 1 on a larger grid: elevations start at one degree. *)
Theorem c84_open_sky : forall rows cols lit maxslope lo hi step v, maxslope < 90 -> (1 <= step)%Z -> (rows <> 1 \/ cols <> 1)%Z -> (forall s, lit s = true) ->
  sky_view_factor rows cols lit maxslope lo hi step = Some v -> v = cos (PI / 180) ^ 2.
Proof.
  intros rows cols lit ms lo hi step v MS ST SZ ALL E. unfold sky_view_factor in E. destruct ((rows =? 1)%Z && (cols =? 1)%Z) eqn:B; [apply andb_true_iff in B; rewrite !Z.eqb_eq in B; lia|].
  destruct (azimuths lo hi step) as [|a l]; [discriminate|]. assert (E' : v = sumR (map (fun a0 => cos (deg2rad (IZR (svf_cur lit ms a0))) ^ 2) (a :: l)) / INR (length (a :: l))) by congruence. rewrite E'.
  apply Rle_antisym; apply (mean_range (fun a0 => cos (deg2rad (IZR (svf_cur lit ms a0))) ^ 2) (a :: l) (cos (PI / 180) ^ 2) (cos (PI / 180) ^ 2)); try discriminate;
    (intros x _; assert (svf_cur lit ms x = 1%Z) as ->; [|unfold deg2rad; rewrite Rmult_1_l; lra]; destruct (c84_horizon lit ms x MS) as (_ & H2 & H3);
     destruct (Z.eq_dec (svf_cur lit ms x) 1); [auto|exfalso]; specialize (H2 1%Z ltac:(lia)); rewrite ALL in H2; discriminate).
Qed.
Print Assumptions c84_open_sky.
(** A valley with a steepest slope of 20 degrees, lit above 10 degrees, four directions *)
Example c84_example : exists v, sky_view_factor 3 3 (fun s => if Rlt_dec (sin (PI / 18)) (snd s) then true else false) 20 0 360 90 = Some v /\ 20 < 90 /\ azimuths 0 360 90 = [0; 90; 180; 270]%Z.
Proof. destruct (c84_available 3 3 (fun s => if Rlt_dec (sin (PI / 18)) (snd s) then true else false) 20 0 360 90 ltac:(lia) ltac:(lia)) as (v & V). exists v. split; [exact V|]. split; [lra|reflexivity]. Qed.
