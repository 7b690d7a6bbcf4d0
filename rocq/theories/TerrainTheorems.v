(** Theorems about terrain.py: C52 slope, aspect and normal vectors, C53 shifting and curvature, C84 sky view factor, C47
    openness. *)
From Verif Require Import Common AtmosphereModel AtmosphereProofs TerrainModel.
Open Scope R_scope.

(** * Specification *)
Definition in_arr (d : arr) (r c : Z) : Prop := (0 <= r < a_rows d)%Z /\ (0 <= c < a_cols d)%Z.
(** The nearest pixel of the grid: rows and columns beyond the grid count as the border row and column. *)
Definition nearest (n i : Z) : Z := if (i <? 0)%Z then 0%Z else if (n <=? i)%Z then (n - 1)%Z else i.
Definition neighbour (d : arr) (r c dr dc : Z) : num := a_at d (nearest (a_rows d) (r + dr)) (nearest (a_cols d) (c + dc)).
(** Horn's weighted differences towards the east and towards the south, per 8 pixels *)
Definition horn_east (d : arr) (r c : Z) : num :=
  match neighbour d r c (-1) (-1), neighbour d r c (-1) 1, neighbour d r c 0 (-1), neighbour d r c 0 1, neighbour d r c 1 (-1), neighbour d r c 1 1 with
  | Some nw, Some ne, Some w, Some e, Some sw, Some se => Some ((ne + 2 * e + se) - (nw + 2 * w + sw))
  | _, _, _, _, _, _ => None end.
Definition horn_south (d : arr) (r c : Z) : num :=
  match neighbour d r c (-1) (-1), neighbour d r c (-1) 0, neighbour d r c (-1) 1, neighbour d r c 1 (-1), neighbour d r c 1 0, neighbour d r c 1 1 with
  | Some nw, Some n, Some ne, Some sw, Some s, Some se => Some ((sw + 2 * s + se) - (nw + 2 * n + ne))
  | _, _, _, _, _, _ => None end.

(** * C52 *)
Lemma mod_in n i : (0 <= i < n)%Z -> (i mod n = i)%Z. Proof. apply Z.mod_small. Qed.
Ltac window :=
  unfold neighbour, nearest, roll, copy_row, copy_col; cbn [a_rows a_cols a_at];
  repeat match goal with |- context [if ?b then _ else _] => destruct b eqn:? end;
  rewrite ?Z.eqb_eq, ?Z.eqb_neq, ?Z.ltb_lt, ?Z.ltb_ge, ?Z.leb_le, ?Z.leb_gt in *; try lia;
  subst; rewrite ?mod_in by lia; try (f_equal; lia); try reflexivity.
Section WINDOW.
  Variable d : arr. Variables r c : Z.
  Hypothesis SZ : (3 <= a_rows d)%Z /\ (3 <= a_cols d)%Z.
  Hypothesis IN : in_arr d r c.
  Ltac w := destruct IN as (I1 & I2); window.
  Lemma w_a : a_at (win_a d) r c = neighbour d r c (-1) (-1). Proof. unfold win_a. w. Qed.
  Lemma w_b : a_at (win_b d) r c = neighbour d r c (-1) 0. Proof. unfold win_b. w. Qed.
  Lemma w_c : a_at (win_c d) r c = neighbour d r c (-1) 1. Proof. unfold win_c. w. Qed.
  Lemma w_d : a_at (win_d d) r c = neighbour d r c 0 (-1). Proof. unfold win_d. w. Qed.
  Lemma w_f : a_at (win_f d) r c = neighbour d r c 0 1. Proof. unfold win_f. w. Qed.
  Lemma w_g : a_at (win_g d) r c = neighbour d r c 1 (-1). Proof. unfold win_g. w. Qed.
  Lemma w_h : a_at (win_h d) r c = neighbour d r c 1 0. Proof. unfold win_h. w. Qed.
  Lemma w_i : a_at (win_i d) r c = neighbour d r c 1 1. Proof. unfold win_i. w. Qed.
  Lemma dzdx_horn res : dzdx d res r c = option_map (fun g => g / (8 * res)) (horn_east d r c).
  Proof.
    unfold dzdx, horn_east. rewrite w_a, w_c, w_d, w_f, w_g, w_i.
    destruct (neighbour d r c (-1) (-1)), (neighbour d r c (-1) 1), (neighbour d r c 0 (-1)), (neighbour d r c 0 1), (neighbour d r c 1 (-1)), (neighbour d r c 1 1); try reflexivity.
    cbn. f_equal. unfold Rdiv. ring.
  Qed.
  Lemma dzdy_horn res : dzdy d res r c = option_map (fun g => g / (8 * res)) (horn_south d r c).
  Proof.
    unfold dzdy, horn_south. rewrite w_a, w_b, w_c, w_g, w_h, w_i.
    destruct (neighbour d r c (-1) (-1)), (neighbour d r c (-1) 0), (neighbour d r c (-1) 1), (neighbour d r c 1 (-1)), (neighbour d r c 1 0), (neighbour d r c 1 1); try reflexivity.
    cbn. f_equal. unfold Rdiv. ring.
  Qed.
End WINDOW.
Lemma big_enough d : (3 <= a_rows d)%Z /\ (3 <= a_cols d)%Z -> too_small d = false.
Proof. intros (A & B). unfold too_small. apply orb_false_iff. rewrite !Z.ltb_ge. lia. Qed.
Lemma d2r x : deg2rad (rad2deg x) = x.
Proof. unfold deg2rad, rad2deg. field. apply PI_neq0. Qed.
Lemma atan_nonneg x : 0 <= x -> 0 <= atan x.
Proof. intros [H|<-]; [rewrite <- atan_0; left; apply atan_increasing; auto|rewrite atan_0; lra]. Qed.

(** C52. The slope is the angle whose tangent is the length of Horn's gradient, in [0, 90). *)
Theorem c52_slope : forall d res r c ge gs, 0 < res -> (3 <= a_rows d)%Z -> (3 <= a_cols d)%Z -> in_arr d r c ->
  horn_east d r c = Some ge -> horn_south d r c = Some gs ->
  exists s, a_at (fst (slope_aspect d res)) r c = Some s /\ 0 <= s < 90 /\
    tan (s * PI / 180) = sqrt ((ge / (8 * res)) ^ 2 + (gs / (8 * res)) ^ 2) /\ (s = 0 <-> ge = 0 /\ gs = 0).
Proof.
  intros d res r c ge gs RS S1 S2 IN GE GS. unfold slope_aspect. rewrite big_enough by auto. cbn [fst a_at].
  rewrite dzdx_horn, dzdy_horn, GE, GS by auto. cbn [option_map]. set (x := ge / (8 * res)). set (y := gs / (8 * res)).
  set (q := sqrt (x ^ 2 + y ^ 2)). assert (Q : 0 <= q) by apply sqrt_pos. pose proof (atan_bound q) as AB. pose proof (atan_nonneg q Q) as AN.
  exists (rad2deg (atan q)). split; [reflexivity|]. pose proof PI_RGT_0 as P.
  assert (IPI : 0 < / PI) by (apply Rinv_0_lt_compat; auto). assert (PP : PI * / PI = 1) by (apply Rinv_r; lra).
  split; [unfold rad2deg, Rdiv; split; nra|]. split; [replace (rad2deg (atan q) * PI / 180) with (atan q) by (unfold rad2deg; field; lra); apply tan_atan|].
  split; intro H.
  - assert (A : atan q = 0) by (unfold rad2deg, Rdiv in H; nra). assert (q = 0) by (rewrite <- (tan_atan q), A; apply tan_0).
    assert (Z0 : x ^ 2 + y ^ 2 = 0) by (apply sqrt_eq_0; [nra|auto]). assert (X0 : x = 0) by nra. assert (Y0 : y = 0) by nra.
    assert (I : 0 < / (8 * res)) by (apply Rinv_0_lt_compat; lra). unfold x, y, Rdiv in X0, Y0. split; [apply Rmult_integral in X0|apply Rmult_integral in Y0]; lra.
  - destruct H as (-> & ->). unfold q, x, y, Rdiv. rewrite !Rmult_0_l. replace (0 ^ 2 + 0 ^ 2) with 0 by ring. rewrite sqrt_0, atan_0. unfold rad2deg. ring.
Qed.
Print Assumptions c52_slope.
(** ... and it is missing exactly if one of the eight neighbours is. *)
Theorem c52_missing : forall d res r c, (3 <= a_rows d)%Z -> (3 <= a_cols d)%Z -> in_arr d r c ->
  (a_at (fst (slope_aspect d res)) r c = None <-> exists dr dc, (-1 <= dr <= 1)%Z /\ (-1 <= dc <= 1)%Z /\ (dr <> 0 \/ dc <> 0)%Z /\ neighbour d r c dr dc = None) /\
  (a_at (snd (slope_aspect d res)) r c = None <-> a_at (fst (slope_aspect d res)) r c = None).
Proof.
  intros d res r c S1 S2 IN. unfold slope_aspect. rewrite big_enough by auto. cbn [fst snd a_at]. rewrite dzdx_horn, dzdy_horn by auto.
  unfold horn_east, horn_south.
  assert (K : forall dr dc, (-1 <= dr <= 1)%Z -> (-1 <= dc <= 1)%Z -> (dr <> 0 \/ dc <> 0)%Z ->
     In (neighbour d r c dr dc) [neighbour d r c (-1) (-1); neighbour d r c (-1) 0; neighbour d r c (-1) 1; neighbour d r c 0 (-1); neighbour d r c 0 1; neighbour d r c 1 (-1); neighbour d r c 1 0; neighbour d r c 1 1]).
  { intros dr dc A B C. assert (dr = -1 \/ dr = 0 \/ dr = 1)%Z as [-> |[-> | -> ]] by lia; assert (dc = -1 \/ dc = 0 \/ dc = 1)%Z as [-> |[-> | -> ]] by lia; cbn; tauto. }
  destruct (neighbour d r c (-1) (-1)) eqn:E1; [|split; [split; [intros _; exists (-1)%Z, (-1)%Z; repeat split; auto; lia|reflexivity]|tauto]].
  destruct (neighbour d r c (-1) 1) eqn:E2; [|split; [split; [intros _; exists (-1)%Z, 1%Z; repeat split; auto; lia|reflexivity]|tauto]].
  destruct (neighbour d r c 0 (-1)) eqn:E3; [|split; [split; [intros _; exists 0%Z, (-1)%Z; repeat split; auto; lia|reflexivity]|tauto]].
  destruct (neighbour d r c 0 1) eqn:E4; [|split; [split; [intros _; exists 0%Z, 1%Z; repeat split; auto; lia|reflexivity]|tauto]].
  destruct (neighbour d r c 1 (-1)) eqn:E5; [|split; [split; [intros _; exists 1%Z, (-1)%Z; repeat split; auto; lia|reflexivity]|tauto]].
  destruct (neighbour d r c 1 1) eqn:E6; [|split; [split; [intros _; exists 1%Z, 1%Z; repeat split; auto; lia|reflexivity]|tauto]].
  destruct (neighbour d r c (-1) 0) eqn:E7; [|split; [split; [intros _; exists (-1)%Z, 0%Z; repeat split; auto; lia|reflexivity]|tauto]].
  destruct (neighbour d r c 1 0) eqn:E8; [|split; [split; [intros _; exists 1%Z, 0%Z; repeat split; auto; lia|reflexivity]|tauto]].
  split; [|cbn; split; discriminate]. split; [cbn; discriminate|]. intros (dr & dc & A & B & C & N). specialize (K dr dc A B C). rewrite N in K. cbn in K.
  exfalso. repeat destruct K as [K|K]; try discriminate; auto.
Qed.
Print Assumptions c52_missing.

Lemma atan2_polar_form y x : y <> 0 \/ x <> 0 -> exists t, arctan2 y x = t /\ - PI < t <= PI /\ y = sqrt (x ^ 2 + y ^ 2) * sin t /\ x = sqrt (x ^ 2 + y ^ 2) * cos t.
Proof.
  intro H. set (q := sqrt (x ^ 2 + y ^ 2)). assert (Q : 0 < q) by (apply sqrt_lt_R0; nra).
  assert (QQ : q * q = x ^ 2 + y ^ 2) by (apply sqrt_sqrt; nra). set (iq := / q). assert (QI : q * iq = 1) by (apply Rinv_r; lra). assert (IQ : 0 < iq) by (apply Rinv_0_lt_compat; auto).
  assert (U : (x * iq) * (x * iq) + (y * iq) * (y * iq) = 1) by (replace ((x * iq) * (x * iq) + (y * iq) * (y * iq)) with ((q * q) * (iq * iq)) by (rewrite QQ; ring); nra).
  assert (B : -1 <= x * iq <= 1) by nra. pose proof (acos_bound (x * iq)) as AB. pose proof PI_RGT_0 as P.
  assert (CA : cos (acos (x * iq)) = x * iq) by (apply cos_acos; auto).
  assert (SA : sin (acos (x * iq)) = Rabs (y * iq)).
  { rewrite sin_acos by auto. replace (1 - (x * iq)²) with ((y * iq)²) by (unfold Rsqr; lra). apply sqrt_Rsqr_abs. }
  destruct (Rle_lt_dec 0 y) as [Y|Y].
  - exists (acos (x * iq)). rewrite CA, SA, Rabs_pos_eq by nra. replace (q * (y * iq)) with y by (replace (q * (y * iq)) with (y * (q * iq)) by ring; rewrite QI; ring).
    replace (q * (x * iq)) with x by (replace (q * (x * iq)) with (x * (q * iq)) by ring; rewrite QI; ring). split; [|repeat split; auto; lra].
    rewrite <- (arctan2_polar q (acos (x * iq))) at 1 by lra. rewrite CA, SA, Rabs_pos_eq by nra. f_equal; [transitivity (y * (q * iq)); [rewrite QI|]; ring|transitivity (x * (q * iq)); [rewrite QI|]; ring].
  - assert (NB : acos (x * iq) <> PI). { intro E. rewrite E, sin_PI in SA. assert (Z0 : y * iq = 0) by (destruct (Req_dec (y * iq) 0); auto; pose proof (Rabs_pos_lt (y * iq)); lra). nra. }
    exists (- acos (x * iq)). rewrite cos_neg, sin_neg, CA, SA, Rabs_left by nra. replace (q * - - (y * iq)) with y by (replace (q * - - (y * iq)) with (y * (q * iq)) by ring; rewrite QI; ring).
    replace (q * (x * iq)) with x by (replace (q * (x * iq)) with (x * (q * iq)) by ring; rewrite QI; ring). split; [|repeat split; auto; lra].
    rewrite <- (arctan2_polar q (- acos (x * iq))) at 1 by lra. rewrite cos_neg, sin_neg, CA, SA, Rabs_left by nra. f_equal; [transitivity (y * (q * iq)); [rewrite QI|]; ring|transitivity (x * (q * iq)); [rewrite QI|]; ring].
Qed.
Lemma cos_shift a : cos (a + 2 * PI) = cos a. Proof. rewrite <- (cos_period a 1). f_equal. cbn. ring. Qed.
Lemma sin_shift a : sin (a + 2 * PI) = sin a. Proof. rewrite <- (sin_period a 1). f_equal. cbn. ring. Qed.
Lemma sin_half t : sin (PI / 2 - t) = cos t. Proof. rewrite sin_minus, cos_PI2, sin_PI2. ring. Qed.
Lemma cos_half t : cos (PI / 2 - t) = sin t. Proof. rewrite cos_minus, cos_PI2, sin_PI2. ring. Qed.
(** C52. The aspect is in [0, 360) and is the compass direction in which the terrain falls: its sine and cosine, times the
    length of the gradient, are the descent towards the east and towards the north. Level terrain has aspect 270. *)
Theorem c52_aspect : forall d res r c ge gs, 0 < res -> (3 <= a_rows d)%Z -> (3 <= a_cols d)%Z -> in_arr d r c ->
  horn_east d r c = Some ge -> horn_south d r c = Some gs ->
  exists a, a_at (snd (slope_aspect d res)) r c = Some a /\ 0 <= a < 360 /\
    (let g := sqrt ((ge / (8 * res)) ^ 2 + (gs / (8 * res)) ^ 2) in
     g * sin (a * PI / 180) = - (ge / (8 * res)) /\ g * cos (a * PI / 180) = gs / (8 * res)) /\
    (ge = 0 -> gs = 0 -> a = 270).
Proof.
  intros d res r c ge gs RS S1 S2 IN GE GS. unfold slope_aspect. rewrite big_enough by auto. cbn [snd a_at].
  rewrite dzdx_horn, dzdy_horn, GE, GS by auto. cbn [option_map]. set (x := ge / (8 * res)). set (y := gs / (8 * res)).
  pose proof PI_RGT_0 as P. assert (IPI : 0 < / PI) by (apply Rinv_0_lt_compat; auto). assert (PP : PI * / PI = 1) by (apply Rinv_r; lra).
  exists (to_azimuth (rad2deg (aspect_angle y x))). split; [reflexivity|].
  destruct (Req_dec x 0) as [X0|X0]; [destruct (Req_dec y 0) as [Y0|Y0]|].
  - assert (E : to_azimuth (rad2deg (aspect_angle y x)) = 270).
    { unfold aspect_angle. rewrite X0, Y0. destruct (Req_EM_T 0 0); [|lra]. replace (rad2deg PI) with 180 by (unfold rad2deg; field; lra). unfold to_azimuth. rsplit. lra. }
    rewrite E. split; [lra|]. split; [|auto]. cbv zeta. rewrite X0, Y0. replace (0 ^ 2 + 0 ^ 2) with 0 by ring. rewrite sqrt_0. lra.
  - assert (NZ : y <> 0 \/ - x <> 0) by auto. destruct (atan2_polar_form y (- x) NZ) as (t & T & B & Y & X).
    assert (AA : aspect_angle y x = t) by (unfold aspect_angle; destruct (Req_EM_T x 0); [|lra]; destruct (Req_EM_T y 0); [lra|auto]).
    rewrite AA. clear AA T. replace ((- x) ^ 2) with (x ^ 2) in * by ring. cbv zeta. set (q := sqrt (x ^ 2 + y ^ 2)) in *.
    assert (TD : -180 < rad2deg t <= 180) by (unfold rad2deg, Rdiv; split; nra).
    assert (AZ : (to_azimuth (rad2deg t) * PI / 180 = PI / 2 - t /\ 0 <= to_azimuth (rad2deg t) < 360) \/ (to_azimuth (rad2deg t) * PI / 180 = PI / 2 - t + 2 * PI /\ 0 <= to_azimuth (rad2deg t) < 360)).
    { unfold to_azimuth. destruct (Rlt_dec (rad2deg t) 0); [left|destruct (Rlt_dec 90 (rad2deg t)); [right|left]]; (split; [unfold rad2deg; field; lra|lra]). }
    destruct AZ as [(A1 & A2)|(A1 & A2)]; (split; [exact A2|split; [|intros; exfalso; unfold y, Rdiv in Y0; subst gs; lra]]); rewrite A1, ?sin_shift, ?cos_shift, sin_half, cos_half; lra.
  - assert (NZ : y <> 0 \/ - x <> 0) by (right; lra). destruct (atan2_polar_form y (- x) NZ) as (t & T & B & Y & X).
    assert (AA : aspect_angle y x = t) by (unfold aspect_angle; destruct (Req_EM_T x 0); [lra|auto]).
    rewrite AA. clear AA T. replace ((- x) ^ 2) with (x ^ 2) in * by ring. cbv zeta. set (q := sqrt (x ^ 2 + y ^ 2)) in *.
    assert (TD : -180 < rad2deg t <= 180) by (unfold rad2deg, Rdiv; split; nra).
    assert (AZ : (to_azimuth (rad2deg t) * PI / 180 = PI / 2 - t /\ 0 <= to_azimuth (rad2deg t) < 360) \/ (to_azimuth (rad2deg t) * PI / 180 = PI / 2 - t + 2 * PI /\ 0 <= to_azimuth (rad2deg t) < 360)).
    { unfold to_azimuth. destruct (Rlt_dec (rad2deg t) 0); [left|destruct (Rlt_dec 90 (rad2deg t)); [right|left]]; (split; [unfold rad2deg; field; lra|lra]). }
    destruct AZ as [(A1 & A2)|(A1 & A2)]; (split; [exact A2|split; [|intros; exfalso; unfold x, Rdiv in X0; subst ge; lra]]); rewrite A1, ?sin_shift, ?cos_shift, sin_half, cos_half; lra.
Qed.
Print Assumptions c52_aspect.
(** A plane that rises by p towards the east and by q towards the south per unit length *)
Definition plane (rows cols : Z) (res z0 p q : R) : arr := ARR rows cols (fun r c => Some (z0 + p * res * IZR c + q * res * IZR r)).
Definition interior (d : arr) (r c : Z) : Prop := (0 < r < a_rows d - 1)%Z /\ (0 < c < a_cols d - 1)%Z.
Lemma nearest_in n i : (0 <= i < n)%Z -> nearest n i = i.
Proof. intro H. unfold nearest. destruct (Z.ltb_spec i 0), (Z.leb_spec n i); lia. Qed.
(** C52. Planes: the slope is that of the plane away from the borders. *)
Theorem c52_plane : forall rows cols res z0 p q r c, 0 < res -> (3 <= rows)%Z -> (3 <= cols)%Z ->
  let d := plane rows cols res z0 p q in interior d r c ->
  exists s, a_at (fst (slope_aspect d res)) r c = Some s /\ 0 <= s < 90 /\ tan (s * PI / 180) = sqrt (p ^ 2 + q ^ 2).
Proof.
  intros rows cols res z0 p q r c RS S1 S2 d (I1 & I2). cbn [a_rows a_cols d plane] in I1, I2.
  assert (N : forall dr dc, (-1 <= dr <= 1)%Z -> (-1 <= dc <= 1)%Z -> neighbour d r c dr dc = Some (z0 + p * res * IZR (c + dc) + q * res * IZR (r + dr))).
  { intros dr dc A B. unfold neighbour. cbn [a_rows a_cols a_at d plane]. rewrite !nearest_in by lia. reflexivity. }
  assert (GE : horn_east d r c = Some (8 * res * p)). { unfold horn_east. rewrite !N by lia. f_equal. rewrite !plus_IZR. ring. }
  assert (GS : horn_south d r c = Some (8 * res * q)). { unfold horn_south. rewrite !N by lia. f_equal. rewrite !plus_IZR. ring. }
  assert (IN : in_arr d r c) by (split; cbn; lia).
  destruct (c52_slope d res r c _ _ RS S1 S2 IN GE GS) as (s & A & B & C & _). exists s. split; [auto|]. split; [auto|]. rewrite C. f_equal.
  replace (8 * res * p / (8 * res)) with p by (field; lra). replace (8 * res * q / (8 * res)) with q by (field; lra). reflexivity.
Qed.
Print Assumptions c52_plane.
(** At the border it is not: on the border of a slope of 45 degrees only half the gradient is found. *)
Theorem c52_border_refuted : exists rows cols res p r c s, let d := plane rows cols res 0 p 0 in
  0 < res /\ (3 <= rows)%Z /\ (3 <= cols)%Z /\ in_arr d r c /\ a_at (fst (slope_aspect d res)) r c = Some s /\ tan (s * PI / 180) = p / 2 /\ p <> 0.
Proof.
  set (d := plane 3 3 1 0 1 0).
  assert (GE : horn_east d 1 0 = Some 4). { unfold horn_east, neighbour, nearest, d, plane. cbn. f_equal. ring. }
  assert (GS : horn_south d 1 0 = Some 0). { unfold horn_south, neighbour, nearest, d, plane. cbn. f_equal. ring. }
  destruct (c52_slope d 1 1 0 _ _ ltac:(lra) ltac:(cbn; lia) ltac:(cbn; lia) ltac:(split; cbn; lia) GE GS) as (s & A & B & C & _).
  exists 3%Z, 3%Z, 1, 1, 1%Z, 0%Z, s. cbv zeta. fold d. split; [lra|]. split; [lia|]. split; [lia|]. split; [split; cbn; lia|]. split; [exact A|]. split; [|lra].
  rewrite C. replace ((4 / (8 * 1)) ^ 2 + (0 / (8 * 1)) ^ 2) with ((1 / 2) * (1 / 2)) by field. rewrite sqrt_square by lra. reflexivity.
Qed.
Print Assumptions c52_border_refuted.
(** Grids with less than three rows or columns count as level. *)
Theorem c52_small : forall d res r c, (a_rows d < 3)%Z \/ (a_cols d < 3)%Z ->
  a_at (fst (slope_aspect d res)) r c = Some 0 /\ a_at (snd (slope_aspect d res)) r c = None /\
  a_at (fst (fst (normal_vector d res))) r c = Some 0 /\ a_at (snd (fst (normal_vector d res))) r c = Some 0 /\ a_at (snd (normal_vector d res)) r c = Some 1.
Proof.
  intros d res r c H. assert (T : too_small d = true) by (unfold too_small; apply orb_true_iff; rewrite !Z.ltb_lt; auto).
  unfold slope_aspect, normal_vector. rewrite T. repeat split; reflexivity.
Qed.
Print Assumptions c52_small.

(** The four pixels a normal vector is computed from: those between the row above and the pixel's row, and the pixel's
    column and the next; the first row takes those of the second, the last column those of the last but one. *)
Definition corner (d : arr) (r c : Z) (north east : bool) : num :=
  a_at d ((if (r =? 0)%Z then 1 else r) - (if north then 1 else 0))%Z ((if (c =? a_cols d - 1)%Z then c - 1 else c) + (if east then 1 else 0))%Z.
Lemma normal_components d res r c : 0 < res -> (3 <= a_rows d)%Z -> (3 <= a_cols d)%Z -> in_arr d r c ->
  match corner d r c false false, corner d r c false true, corner d r c true false, corner d r c true true with
  | Some sw, Some se, Some nw, Some ne =>
    let x := 0.5 * res * (sw - se + nw - ne) in let y := 0.5 * res * (sw + se - nw - ne) in let l := sqrt (x ^ 2 + y ^ 2 + (res ^ 2) ^ 2) in
    a_at (fst (fst (normal_vector d res))) r c = Some (x / l) /\ a_at (snd (fst (normal_vector d res))) r c = Some (y / l) /\ a_at (snd (normal_vector d res)) r c = Some (res ^ 2 / l)
  | _, _, _, _ => a_at (fst (fst (normal_vector d res))) r c = None /\ a_at (snd (fst (normal_vector d res))) r c = None /\ a_at (snd (normal_vector d res)) r c = None end.
Proof.
  intros RS S1 S2 (I1 & I2). unfold normal_vector. rewrite big_enough by auto. cbv zeta. unfold fill_edges, copy_row, copy_col, roll, corner.
  cbn [fst snd a_at a_rows a_cols].
  assert (G : forall r' c', (1 <= r' < a_rows d)%Z -> (0 <= c' < a_cols d - 1)%Z ->
     ((r' - 0) mod a_rows d = r' - 0 /\ (r' - 1) mod a_rows d = r' - 1 /\ (c' - 0) mod a_cols d = c' + 0 /\ (c' - -1) mod a_cols d = c' + 1)%Z).
  { intros r' c' A B. rewrite !Z.mod_small by lia. lia. }
  set (R' := if (r =? 0)%Z then 1%Z else r). set (C' := if (c =? a_cols d - 1)%Z then (c - 1)%Z else c).
  assert (RR : (1 <= R' < a_rows d)%Z) by (unfold R'; destruct (Z.eqb_spec r 0); lia).
  assert (CC : (0 <= C' < a_cols d - 1)%Z) by (unfold C'; destruct (Z.eqb_spec c (a_cols d - 1)); lia).
  destruct (G R' C' RR CC) as (M1 & M2 & M3 & M4).
  assert (E0 : forall f : Z -> Z -> num, (if (c =? a_cols d - 1)%Z then if (r =? 0)%Z then f 1%Z (a_cols d - 2)%Z else f r (a_cols d - 2)%Z else if (r =? 0)%Z then f 1%Z c else f r c) = f R' C').
  { intro f. unfold R', C'. destruct (Z.eqb_spec c (a_cols d - 1)), (Z.eqb_spec r 0); try reflexivity; subst; f_equal; lia. }
  rewrite !(E0 (fun r c => nscale (0.5 * res) (nsub (nadd (nsub (a_at d r c) (a_at d ((r - 0) mod a_rows d)%Z ((c - -1) mod a_cols d)%Z)) (a_at d ((r - 1) mod a_rows d)%Z ((c - 0) mod a_cols d)%Z)) (a_at d ((r - 1) mod a_rows d)%Z ((c - -1) mod a_cols d)%Z)))).
  rewrite !(E0 (fun r c => nscale (0.5 * res) (nsub (nsub (nadd (a_at d r c) (a_at d ((r - 0) mod a_rows d)%Z ((c - -1) mod a_cols d)%Z)) (a_at d ((r - 1) mod a_rows d)%Z ((c - 0) mod a_cols d)%Z)) (a_at d ((r - 1) mod a_rows d)%Z ((c - -1) mod a_cols d)%Z)))).
  rewrite !(E0 (fun _ _ => Some (res ^ 2))). cbv beta. rewrite M1, M2, M3, M4.
  assert (H0 : a_at d R' C' = a_at d (R' - 0)%Z (C' + 0)%Z) by (f_equal; lia). rewrite H0.
  destruct (a_at d (R' - 0)%Z (C' + 0)%Z), (a_at d (R' - 0)%Z (C' + 1)%Z), (a_at d (R' - 1)%Z (C' + 0)%Z), (a_at d (R' - 1)%Z (C' + 1)%Z); cbn [nsub nadd nscale option_map]; auto.
Qed.
(** C52. Normal vectors have length 1, point upwards and stand on the mean gradient of the four pixels towards the east and the
    north. *)
Theorem c52_normal : forall d res r c sw se nw ne, 0 < res -> (3 <= a_rows d)%Z -> (3 <= a_cols d)%Z -> in_arr d r c ->
  corner d r c false false = Some sw -> corner d r c false true = Some se -> corner d r c true false = Some nw -> corner d r c true true = Some ne ->
  exists x y z, a_at (fst (fst (normal_vector d res))) r c = Some x /\ a_at (snd (fst (normal_vector d res))) r c = Some y /\ a_at (snd (normal_vector d res)) r c = Some z /\
    x ^ 2 + y ^ 2 + z ^ 2 = 1 /\ 0 < z /\
    x / z = - (((se - sw) / res + (ne - nw) / res) / 2) /\ y / z = - (((nw - sw) / res + (ne - se) / res) / 2).
Proof.
  intros d res r c sw se nw ne RS S1 S2 IN A B C D. pose proof (normal_components d res r c RS S1 S2 IN) as N. rewrite A, B, C, D in N. cbv zeta in N.
  set (x := 0.5 * res * (sw - se + nw - ne)) in *. set (y := 0.5 * res * (sw + se - nw - ne)) in *. set (l := sqrt (x ^ 2 + y ^ 2 + (res ^ 2) ^ 2)) in *.
  assert (R2 : 0 < res ^ 2) by nra. assert (L2 : 0 < x ^ 2 + y ^ 2 + (res ^ 2) ^ 2) by nra.
  assert (L : 0 < l) by (apply sqrt_lt_R0; auto). assert (LL : l * l = x ^ 2 + y ^ 2 + (res ^ 2) ^ 2) by (apply sqrt_sqrt; lra).
  destruct N as (N1 & N2 & N3). exists (x / l), (y / l), (res ^ 2 / l). split; [auto|]. split; [auto|]. split; [auto|].
  split; [replace ((x / l) ^ 2 + (y / l) ^ 2 + (res ^ 2 / l) ^ 2) with ((x ^ 2 + y ^ 2 + (res ^ 2) ^ 2) / (l * l)) by (field; lra); rewrite LL; field; lra|].
  split; [apply Rdiv_lt_0_compat; auto|]. clearbody l. split; unfold x, y; replace 0.5 with (/ 2) by lra; field; split; lra.
Qed.
Print Assumptions c52_normal.
(** ... and are missing, as a whole, exactly if one of the four is. *)
Theorem c52_normal_missing : forall d res r c, 0 < res -> (3 <= a_rows d)%Z -> (3 <= a_cols d)%Z -> in_arr d r c ->
  (exists n e, corner d r c n e = None) <-> a_at (fst (fst (normal_vector d res))) r c = None /\ a_at (snd (fst (normal_vector d res))) r c = None /\ a_at (snd (normal_vector d res)) r c = None.
Proof.
  intros d res r c RS S1 S2 IN. pose proof (normal_components d res r c RS S1 S2 IN) as N. split.
  - intros (n & e & H). destruct n, e; rewrite H in N; repeat match type of N with context [match ?m with Some _ => _ | None => _ end] => destruct m end; exact N.
  - intros (H & _). destruct (corner d r c false false) eqn:E1; [|eauto]. destruct (corner d r c false true) eqn:E2; [|eauto].
    destruct (corner d r c true false) eqn:E3; [|eauto]. destruct (corner d r c true true) eqn:E4; [|eauto]. cbv zeta in N. destruct N as (N & _). congruence.
Qed.
Print Assumptions c52_normal_missing.
(** On a plane every pixel, also on the border, has the normal of the plane. *)
Theorem c52_normal_plane : forall rows cols res z0 p q r c, 0 < res -> (3 <= rows)%Z -> (3 <= cols)%Z ->
  let d := plane rows cols res z0 p q in in_arr d r c ->
  exists x y z, a_at (fst (fst (normal_vector d res))) r c = Some x /\ a_at (snd (fst (normal_vector d res))) r c = Some y /\ a_at (snd (normal_vector d res)) r c = Some z /\
    x ^ 2 + y ^ 2 + z ^ 2 = 1 /\ 0 < z /\ x / z = - p /\ y / z = q.
Proof.
  intros rows cols res z0 p q r c RS S1 S2 d IN.
  destruct (c52_normal d res r c _ _ _ _ RS S1 S2 IN eq_refl eq_refl eq_refl eq_refl) as (x & y & z & A & B & C & D & E & F & G).
  exists x, y, z. repeat (split; [assumption|]). rewrite F, G. rewrite !plus_IZR, !minus_IZR. split; field; lra.
Qed.
Print Assumptions c52_normal_plane.
Example c52_example : let d := plane 4 5 10 1000 0.5 (-0.25) in (3 <= a_rows d)%Z /\ (3 <= a_cols d)%Z /\ in_arr d 2 2 /\ interior d 2 2 /\
  (exists g, horn_east d 2 2 = Some g) /\ (exists g, horn_south d 0 0 = Some g) /\ exists sw, corner d 0 4 false false = Some sw.
Proof. cbn. repeat split; try lia; eexists; reflexivity. Qed.
