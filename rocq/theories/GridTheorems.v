(** Theorems C87-C90: grid coordinates, station positions, region of interest, input rasters, extended grid. *)
From Verif Require Import Common MaskModel MaskProofs ForcingModel GridModel.
Open Scope R_scope.

(** * Specification *)
(** A grid of square pixels of positive size, oriented from left to right and from top to bottom. *)
Definition proper_grid (m : rmeta) : Prop := 0 < m_res m /\ af_a (m_tr m) = m_res m /\ af_e (m_tr m) = - m_res m.
(** The point (x, y) lies in the pixel in row i, column j; a pixel includes its left and its upper edge. *)
Definition in_pixel (m : rmeta) (i j : nat) (x y : R) : Prop :=
  af_x (m_tr m) + INR j * m_res m <= x < af_x (m_tr m) + (INR j + 1) * m_res m
  /\ af_y (m_tr m) - (INR i + 1) * m_res m < y <= af_y (m_tr m) - INR i * m_res m.

Lemma req_iff : forall x y, req x y = true <-> x = y.
Proof. intros x y; unfold req; destruct (Req_EM_T x y); split; congruence. Qed.

Theorem c87_grid_accepted : forall dem res m, initialize_grid (Some dem) res = inr m <->
  (af_a (r_tr dem) = res /\ af_e (r_tr dem) = - res /\ 0 <= res
   /\ m = RM (r_rows dem) (r_cols dem) res (r_tr dem)).
Proof.
  intros dem res m; unfold initialize_grid, read_metadata.
  destruct (req (af_a (r_tr dem)) (- af_e (r_tr dem))) eqn:E1; simpl.
  - apply req_iff in E1.
    destruct (req (- af_e (r_tr dem)) (Rabs (af_a (r_tr dem)))) eqn:E2; simpl.
    + apply req_iff in E2. pose proof (Rabs_pos (af_a (r_tr dem))).
      destruct (req (af_a (r_tr dem)) res) eqn:E3.
      * apply req_iff in E3. split.
        -- intros H0; injection H0 as <-. rewrite E3. repeat split; lra.
        -- intros (_ & _ & _ & ->). rewrite E3. reflexivity.
      * split; [discriminate|]. intros (A & _). apply req_iff in A. congruence.
    + split; [discriminate|]. intros (A & B & C & _).
      enough (- af_e (r_tr dem) = Rabs (af_a (r_tr dem))) by (apply req_iff in H; congruence).
      rewrite Rabs_right by lra. lra.
  - split; [discriminate|]. intros (A & B & C & _).
    enough (af_a (r_tr dem) = - af_e (r_tr dem)) by (apply req_iff in H; congruence). lra.
Qed.
Print Assumptions c87_grid_accepted.

Lemma accepted_proper : forall dem res m, 0 < res -> initialize_grid (Some dem) res = inr m -> proper_grid m.
Proof.
  intros dem res m Hr H. apply c87_grid_accepted in H. destruct H as (A & B & _ & ->).
  unfold proper_grid; simpl. auto.
Qed.

(** Pixel coordinates are the centres of the pixels. *)
Theorem c87_pixel_centre : forall m i j, (i < m_rows m)%nat -> (j < m_cols m)%nat ->
  pixel_x m j = af_x (m_tr m) + (INR j + / 2) * m_res m
  /\ pixel_y m i = af_y (m_tr m) - (INR i + / 2) * m_res m.
Proof.
  intros m i j Hi Hj. unfold pixel_x, pixel_y, grid_x, grid_y, linspace. split.
  - destruct (m_cols m) as [|[|c]]; [lia| |].
    + assert (j = 0)%nat by lia. subst. simpl. lra.
    + assert (E : INR (S (S c)) = INR (S c) + 1) by (rewrite (S_INR (S c)); reflexivity).
      rewrite E. pose proof (pos_INR c). rewrite S_INR.
      replace (af_x (m_tr m) + (INR c + 1 + 1 - 1 + 0.5) * m_res m - (af_x (m_tr m) + (0 + 0.5) * m_res m))
        with ((INR c + 1) * m_res m) by lra.
      replace ((INR c + 1) * m_res m / (INR c + 1)) with (m_res m) by (field; lra). lra.
  - destruct (m_rows m) as [|[|c]]; [lia| |].
    + assert (i = 0)%nat by lia. subst. simpl. lra.
    + assert (E : INR (S (S c)) = INR (S c) + 1) by (rewrite (S_INR (S c)); reflexivity).
      rewrite E. pose proof (pos_INR c). rewrite S_INR.
      replace (af_y (m_tr m) - (INR c + 1 + 1 - 1 + 0.5) * m_res m - (af_y (m_tr m) - (0 + 0.5) * m_res m))
        with (- ((INR c + 1) * m_res m)) by lra.
      replace (- ((INR c + 1) * m_res m) / (INR c + 1)) with (- m_res m) by (field; lra). lra.
Qed.
Print Assumptions c87_pixel_centre.

Lemma int_part_iff : forall r z, Int_part r = z <-> IZR z <= r < IZR z + 1.
Proof.
  intros r z; split.
  - intros <-. pose proof (base_Int_part r). lra.
  - intros H. unfold Int_part. rewrite <- (tech_up r (z + 1)); [lia| |]; rewrite plus_IZR; lra.
Qed.

Lemma div_bounds : forall a b z, 0 < b -> (IZR z <= a / b < IZR z + 1 <-> IZR z * b <= a < (IZR z + 1) * b).
Proof.
  intros a b z Hb. assert (E : a = a / b * b) by (field; lra). set (q := a / b) in *. clearbody q. subst a. split; intros [H1 H2].
  - split; [apply Rmult_le_compat_r|apply Rmult_lt_compat_r]; lra.
  - split; [apply Rmult_le_reg_r with b|apply Rmult_lt_reg_r with b]; lra.
Qed.

Lemma rowcol_iff : forall m x y r c, proper_grid m ->
  (rowcol (m_tr m) x y = (r, c) <->
   (IZR c * m_res m <= x - af_x (m_tr m) < (IZR c + 1) * m_res m
    /\ IZR r * m_res m <= af_y (m_tr m) - y < (IZR r + 1) * m_res m)).
Proof.
  intros m x y r c (H0 & H1 & H2). unfold rowcol. rewrite H1, H2.
  replace ((y - af_y (m_tr m)) / - m_res m) with ((af_y (m_tr m) - y) / m_res m) by (field; lra).
  rewrite <- !div_bounds by exact H0. rewrite <- !int_part_iff. split.
  - intros H; injection H; auto.
  - intros [-> ->]; reflexivity.
Qed.

(** A station is assigned to the pixel in which it lies. *)
Theorem c87_station_pixel : forall m p i j, proper_grid m -> (i < m_rows m)%nat -> (j < m_cols m)%nat ->
  (within_extent m p = true /\ station_pixel m p = (i, j) <-> in_pixel m i j (fst p) (snd p)).
Proof.
  intros m [x y] i j Hm Hi Hj. unfold within_extent, station_pixel, in_pixel; cbn [fst snd].
  destruct (rowcol (m_tr m) x y) as [r c] eqn:E. apply (rowcol_iff m x y r c Hm) in E.
  rewrite !INR_IZR_INZ. split.
  - intros [H1 H2]. apply andb_prop in H1. destruct H1 as [H1 H4]. apply andb_prop in H1. destruct H1 as [H1 H3].
    apply andb_prop in H1. destruct H1 as [H0 H1].
    apply Z.leb_le in H0, H3. injection H2 as <- <-. rewrite !Z2Nat.id by assumption. lra.
  - intros H.
    assert (E1 : (r, c) = (Z.of_nat i, Z.of_nat j)).
    { transitivity (rowcol (m_tr m) x y); [symmetry|]; apply (rowcol_iff m x y); auto; lra. }
    injection E1 as -> ->. rewrite !Nat2Z.id. split; [|reflexivity].
    rewrite !andb_true_iff, !Z.leb_le, !Z.ltb_lt. lia.
Qed.
Print Assumptions c87_station_pixel.

(** Stations are within the extent of the grid exactly if they lie between its edges. *)
Theorem c87_extent : forall m p, proper_grid m ->
  (within_extent m p = true <->
   (x_min (grid_bounds m) <= fst p < x_max (grid_bounds m) /\ y_min (grid_bounds m) < snd p <= y_max (grid_bounds m))).
Proof.
  intros m [x y] Hm. unfold within_extent; cbn [fst snd].
  destruct (rowcol (m_tr m) x y) as [r c] eqn:E. apply (rowcol_iff m x y r c Hm) in E.
  destruct Hm as (H0 & H1 & H2). destruct E as [[Ec1 Ec2] [Er1 Er2]].
  unfold grid_bounds; cbn [x_min y_min x_max y_max]. rewrite !andb_true_iff, !Z.leb_le, !Z.ltb_lt, !INR_IZR_INZ. split.
  - intros [[[A B] C] D].
    apply IZR_le in A, C. assert (B' : (c + 1 <= Z.of_nat (m_cols m))%Z) by lia. assert (D' : (r + 1 <= Z.of_nat (m_rows m))%Z) by lia.
    apply IZR_le in B', D'. rewrite plus_IZR in B', D'.
    pose proof (Rmult_le_compat_r (m_res m) _ _ (Rlt_le _ _ H0) A).
    pose proof (Rmult_le_compat_r (m_res m) _ _ (Rlt_le _ _ H0) B').
    pose proof (Rmult_le_compat_r (m_res m) _ _ (Rlt_le _ _ H0) C).
    pose proof (Rmult_le_compat_r (m_res m) _ _ (Rlt_le _ _ H0) D'). lra.
  - intros [[A B] [C D]].
    assert (P : forall z w, IZR z * m_res m < (IZR w + 1) * m_res m -> (z <= w)%Z).
    { intros z w H. apply Rmult_lt_reg_r in H; [|exact H0]. change 1 with (IZR 1) in H. rewrite <- plus_IZR in H. apply lt_IZR in H. lia. }
    assert (Q : forall z n, IZR z * m_res m < IZR n * m_res m -> (z < n)%Z).
    { intros z n H. apply Rmult_lt_reg_r in H; [|exact H0]. apply lt_IZR in H. exact H. }
    repeat split; [apply P; simpl; lra|apply Q; lra|apply P; simpl; lra|apply Q; lra].
Qed.
Print Assumptions c87_extent.

(** The centre of a pixel lies in that pixel (so coordinates and indices are inverse to each other). *)
Theorem c87_roundtrip : forall m i j, proper_grid m -> (i < m_rows m)%nat -> (j < m_cols m)%nat ->
  within_extent m (pixel_x m j, pixel_y m i) = true /\ station_pixel m (pixel_x m j, pixel_y m i) = (i, j).
Proof.
  intros m i j Hm Hi Hj. apply c87_station_pixel; auto.
  destruct (c87_pixel_centre m i j Hi Hj) as [Ex Ey]. unfold in_pixel; simpl. rewrite Ex, Ey.
  destruct Hm as (H0 & _ & _). split; lra.
Qed.
Print Assumptions c87_roundtrip.

(** Selecting stations by the bounds of the grid (input_data.meteo.bounds = "grid") should select exactly the stations
    within the extent of the grid. That fails on the lower and on the upper edge... *)
Theorem c87_grid_stations_refuted : exists m low high,
  proper_grid m
  /\ in_bounds (grid_bounds m) (ST 0 (Some (fst low)) (Some (snd low))) = true /\ within_extent m low = false
  /\ in_bounds (grid_bounds m) (ST 1 (Some (fst high)) (Some (snd high))) = false /\ within_extent m high = true.
Proof.
  exists (RM 2 3 10 (AF 10 (-10) 100 200)), (105, 180), (105, 200).
  assert (Hm : proper_grid (RM 2 3 10 (AF 10 (-10) 100 200))) by (unfold proper_grid; simpl; repeat split; lra).
  split; [exact Hm|].
  assert (B : grid_bounds (RM 2 3 10 (AF 10 (-10) 100 200)) = BB 100 (200 - INR 2 * 10) (100 + INR 3 * 10) 200) by reflexivity.
  assert (I2 : INR 2 = 2) by (simpl; lra). assert (I3 : INR 3 = 3) by (simpl; lra).
  rewrite I2, I3 in B.
  split; [|split; [|split]].
  - rewrite B. unfold in_bounds, num_ge, num_lt; simpl. rsplit; reflexivity.
  - destruct (within_extent _ (105, 180)) eqn:E; [|reflexivity]. apply (proj1 (c87_extent _ _ Hm)) in E. rewrite B in E. simpl in E. lra.
  - rewrite B. unfold in_bounds, num_ge, num_lt; simpl. rsplit; reflexivity.
  - apply (proj2 (c87_extent _ _ Hm)). rewrite B. simpl. lra.
Qed.
Print Assumptions c87_grid_stations_refuted.

(** ... and nowhere else. *)
Theorem c87_grid_stations : forall m id x y, proper_grid m -> y <> y_min (grid_bounds m) -> y <> y_max (grid_bounds m) ->
  in_bounds (grid_bounds m) (ST id (Some x) (Some y)) = within_extent m (x, y).
Proof.
  intros m id x y Hm H1 H2. destruct (within_extent m (x, y)) eqn:E.
  - apply (proj1 (c87_extent _ _ Hm)) in E. cbn [fst snd] in E. unfold in_bounds, num_ge, num_lt; cbn [st_x st_y]. rsplit; reflexivity.
  - destruct (in_bounds (grid_bounds m) (ST id (Some x) (Some y))) eqn:F; [|reflexivity].
    rewrite <- E. symmetry. apply (proj2 (c87_extent _ _ Hm)). cbn [fst snd].
    unfold in_bounds, num_ge, num_lt in F; cbn [st_x st_y] in F. revert F. rsplit; cbn [andb]; intros F; try discriminate; lra.
Qed.
Print Assumptions c87_grid_stations.

Example c87_example : let m := RM 2 3 10 (AF 10 (-10) 100 200) in
  proper_grid m /\ in_pixel m 1 2 120 190 /\ within_extent m (120, 190) = true /\ station_pixel m (120, 190) = (1, 2)%nat.
Proof.
  set (m := RM 2 3 10 (AF 10 (-10) 100 200)). cbv zeta.
  assert (Hm : proper_grid m) by (unfold proper_grid; simpl; repeat split; lra).
  assert (P : in_pixel m 1 2 120 190) by (unfold in_pixel; simpl; lra).
  split; [exact Hm|]. split; [exact P|]. apply (c87_station_pixel m (120, 190) 1 2); simpl; auto.
Qed.

(** * Region of interest *)
Lemma flatten_map : forall A B (g : A -> B) rows cols (f : nat -> nat -> A),
  flatten rows cols (fun i j => g (f i j)) = map g (flatten rows cols f).
Proof.
  intros A B g rows cols f. unfold flatten. generalize (seq 0 rows). intros l.
  induction l as [|i l IH]; simpl; [reflexivity|]. rewrite map_app, map_map, IH. reflexivity.
Qed.
Lemma flatten_pairs : forall A rows cols (f : nat -> nat -> A),
  flatten rows cols f = map (fun ij => f (fst ij) (snd ij)) (flatten rows cols (fun i j => (i, j))).
Proof. intros A rows cols f. exact (flatten_map _ _ (fun ij => f (fst ij) (snd ij)) rows cols (fun i j => (i, j))). Qed.
Lemma flatten_length : forall A rows cols (f : nat -> nat -> A), List.length (flatten rows cols f) = (rows * cols)%nat.
Proof.
  intros A rows cols f. unfold flatten. rewrite <- (seq_length rows 0) at 2. generalize (seq 0 rows). intros l.
  induction l as [|i l IH]; simpl; [reflexivity|]. rewrite app_length, map_length, seq_length, IH. reflexivity.
Qed.
Lemma flatten_S : forall A rows cols (f : nat -> nat -> A),
  flatten (S rows) cols f = flatten rows cols f ++ map (f rows) (seq 0 cols).
Proof.
  intros A rows cols f. unfold flatten. rewrite seq_S, flat_map_app. simpl. rewrite app_nil_r. reflexivity.
Qed.
Lemma flatten_In : forall A rows cols (f : nat -> nat -> A) x,
  In x (flatten rows cols f) <-> exists i j, (i < rows)%nat /\ (j < cols)%nat /\ x = f i j.
Proof.
  intros A rows cols f x. unfold flatten. rewrite in_flat_map. split.
  - intros (i & Hi & H). apply in_map_iff in H. destruct H as (j & <- & Hj). apply in_seq in Hi, Hj.
    exists i, j. repeat split; lia.
  - intros (i & j & Hi & Hj & ->). exists i. split; [apply in_seq; lia|]. apply in_map_iff. exists j. split; [reflexivity|apply in_seq; lia].
Qed.
Lemma flatten_index : forall rows cols, flatten rows cols (fun i j => (i * cols + j)%nat) = seq 0 (rows * cols).
Proof.
  intros rows cols. induction rows as [|r IH]; [reflexivity|].
  rewrite flatten_S, IH. replace (S r * cols)%nat with (r * cols + cols)%nat by lia. rewrite seq_app. f_equal.
  simpl. clear. generalize (r * cols)%nat. intros n.
  assert (G : forall k a, map (fun j => (n + j)%nat) (seq a k) = seq (n + a) k).
  { induction k; intros a; simpl; [reflexivity|]. rewrite IHk. f_equal. f_equal. lia. }
  rewrite G. f_equal. lia.
Qed.
Lemma select_map : forall A B (g : A -> B) l m, select (map g l) m = map g (select l m).
Proof. intros A B g l. induction l as [|x l IH]; intros [|[] m]; simpl; auto; rewrite IH; reflexivity. Qed.
Lemma nonzero_select : forall m k n, List.length m = n -> nonzero_from k m = select (seq k n) m.
Proof.
  induction m as [|b m IH]; intros k n H; subst n; simpl; [reflexivity|]. rewrite (IH (S k) (List.length m) eq_refl). destruct b; reflexivity.
Qed.
Lemma select_flatten_In : forall A rows cols (f : nat -> nat -> A) (roi : nat -> nat -> bool) x,
  In x (select (flatten rows cols f) (flatten rows cols roi))
  <-> exists i j, (i < rows)%nat /\ (j < cols)%nat /\ roi i j = true /\ x = f i j.
Proof.
  intros A rows cols f roi x.
  assert (G : forall l (g : nat * nat -> A) (b : nat * nat -> bool), select (map g l) (map b l) = map g (filter b l)).
  { induction l as [|a l IH]; intros g b; simpl; [reflexivity|]. rewrite IH. destruct (b a); reflexivity. }
  rewrite (flatten_pairs _ rows cols f), (flatten_pairs _ rows cols roi).
  rewrite G, in_map_iff. split.
  - intros ([i j] & <- & H). apply filter_In in H. destruct H as [H1 H2]. apply flatten_In in H1.
    destruct H1 as (i' & j' & Hi & Hj & E). injection E as -> ->. exists i', j'. auto.
  - intros (i & j & Hi & Hj & Hr & ->). exists (i, j). split; [reflexivity|]. apply filter_In. split; [|exact Hr].
    apply flatten_In. exists i, j. auto.
Qed.

(** The lists of rows and columns, flat indices and coordinates of the region belong together: the k-th entries describe
    the same pixel; every pixel of the region occurs exactly once, in row-major order. *)
Theorem c88_lists : forall m roi,
  roi_idxs_flat m roi = map (fun ij => (fst ij * m_cols m + snd ij)%nat) (roi_idxs m roi)
  /\ roi_points m roi = map (fun ij => (pixel_x m (snd ij), pixel_y m (fst ij))) (roi_idxs m roi)
  /\ (forall i j, In (i, j) (roi_idxs m roi) <-> (i < m_rows m)%nat /\ (j < m_cols m)%nat /\ roi i j = true)
  /\ NoDup (roi_idxs m roi).
Proof.
  intros m roi. unfold roi_idxs_flat, roi_points, roi_idxs.
  assert (E1 : roi_idxs_flat m roi = map (fun ij => (fst ij * m_cols m + snd ij)%nat) (roi_idxs m roi)).
  { unfold roi_idxs_flat, roi_idxs, flatnonzero.
    rewrite (nonzero_select (roi_mask m roi) 0 (m_rows m * m_cols m)) by (apply flatten_length).
    rewrite <- flatten_index.
    rewrite (flatten_pairs _ (m_rows m) (m_cols m) (fun i j => (i * m_cols m + j)%nat)).
    apply select_map. }
  split; [exact E1|]. split.
  - unfold all_points.
    rewrite (flatten_pairs _ (m_rows m) (m_cols m) (fun i j => (pixel_x m j, pixel_y m i))).
    apply select_map.
  - split.
    + intros i j. unfold roi_mask. rewrite select_flatten_In. split.
      * intros (i' & j' & H1 & H2 & H3 & E). injection E as -> ->. auto.
      * intros (H1 & H2 & H3). exists i, j. auto.
    + apply (NoDup_map_inv (fun ij => (fst ij * m_cols m + snd ij)%nat)). fold (roi_idxs m roi). rewrite <- E1. apply NoDup_flatnonzero.
Qed.
Print Assumptions c88_lists.

(** Header of a raster file agrees with the grid. *)
Definition matches {A} (m : rmeta) (f : raster A) : Prop :=
  r_rows f = m_rows m /\ r_cols f = m_cols m /\ r_tr f = m_tr m.
(** [v] are the values of the file, with [fill] for nodata pixels. *)
Definition values_of {A} (f : raster A) (fill : A) (v : nat -> nat -> A) : Prop :=
  forall i j, (forall x, r_val f i j = Some x -> v i j = x) /\ (r_val f i j = None -> v i j = fill).

Lemma meta_eqb_iff : forall a b, meta_eqb a b = true <-> a = b.
Proof.
  intros [r1 c1 s1 [a1 e1 x1 y1]] [r2 c2 s2 [a2 e2 x2 y2]]. unfold meta_eqb, affine_eqb; simpl.
  rewrite !andb_true_iff, !Nat.eqb_eq, !req_iff. split.
  - intros (((-> & ->) & ->) & ((-> & ->) & ->) & ->). reflexivity.
  - intros H; injection H; intros; subst. repeat split.
Qed.
Lemma metadata_iff : forall A (f : raster A) m, read_metadata f = inr m <->
  0 <= m_res m /\ af_a (m_tr m) = m_res m /\ af_e (m_tr m) = - m_res m /\ matches m f.
Proof.
  intros A f m. unfold read_metadata, matches.
  destruct (req (af_a (r_tr f)) (- af_e (r_tr f))) eqn:E1; simpl.
  - apply req_iff in E1.
    destruct (req (- af_e (r_tr f)) (Rabs (af_a (r_tr f)))) eqn:E2; simpl.
    + apply req_iff in E2. pose proof (Rabs_pos (af_a (r_tr f))). split.
      * intros H0; injection H0 as <-. cbn. repeat split; lra.
      * intros (A1 & A2 & A3 & A4 & A5 & A6). destruct m as [mr mc ms mt]; cbn in *. subst. reflexivity.
    + split; [discriminate|]. intros (A1 & A2 & A3 & A4 & A5 & A6). rewrite <- A6 in *.
      enough (- af_e (r_tr f) = Rabs (af_a (r_tr f))) by (apply req_iff in H; congruence).
      rewrite Rabs_right by lra. lra.
  - split; [discriminate|]. intros (A1 & A2 & A3 & A4 & A5 & A6). rewrite <- A6 in *.
    enough (af_a (r_tr f) = - af_e (r_tr f)) by (apply req_iff in H; congruence). lra.
Qed.

(** * C90: input rasters *)
(** A raster read for the grid is accepted exactly if its header agrees with the grid; nodata pixels get the fill value. *)
Theorem c90_raster : forall A m (fill : A) f, proper_grid m ->
  (matches m f -> exists v, read_raster (Some m) (Some fill) f = inr v /\ values_of f fill v)
  /\ (~ matches m f -> read_raster (Some m) (Some fill) f = inl RasterFileError).
Proof.
  intros A m fill f (H0 & H1 & H2). unfold read_raster.
  assert (M : matches m f -> read_metadata f = inr m).
  { intros H. apply metadata_iff. repeat split; try apply H; try assumption. lra. }
  split.
  - intros H. rewrite (M H). assert (E : meta_eqb m m = true) by (apply meta_eqb_iff; reflexivity). rewrite E.
    eexists. split; [reflexivity|]. intros i j. split; [intros x ->|intros ->]; reflexivity.
  - intros H. destruct (read_metadata f) as [e|n] eqn:E.
    + revert E. unfold read_metadata. destruct (_ && _); [discriminate|]. intros G; injection G as <-. reflexivity.
    + destruct (meta_eqb n m) eqn:F; [|reflexivity]. exfalso. apply H. apply meta_eqb_iff in F. subst n.
      apply metadata_iff in E. apply E.
Qed.
Print Assumptions c90_raster.

Lemma required_spec : forall A need m fill (f : option (raster A)) v, proper_grid m ->
  required need m (Some fill) f = inr v ->
  (need = false -> v = None) /\
  (need = true -> exists g w, f = Some g /\ matches m g /\ v = Some w /\ values_of g fill w).
Proof.
  intros A need m fill f v Hm. unfold required. destruct need.
  - destruct f as [g|]; [|discriminate]. destruct (read_raster (Some m) (Some fill) g) as [e|w] eqn:E; [discriminate|].
    intros H; injection H as <-. split; [discriminate|]. intros _. exists g, w. split; [reflexivity|].
    destruct (c90_raster A m fill g Hm) as [P Q].
    assert (M : matches m g).
    { destruct (read_metadata g) as [e|n] eqn:F; unfold read_raster in E; rewrite F in E; [discriminate|].
      destruct (meta_eqb n m) eqn:G; [|discriminate]. apply meta_eqb_iff in G. subst n. apply metadata_iff in F. apply F. }
    split; [exact M|]. split; [reflexivity|]. destruct (P M) as (v & E' & Hv). rewrite E in E'. injection E' as <-. exact Hv.
  - intros H; injection H as <-. split; [reflexivity|discriminate].
Qed.
Lemma required_fails : forall A m fill (f : option (raster A)), proper_grid m ->
  (f = None -> required true m (Some fill) f = inl FileNotFound) /\
  (forall g, f = Some g -> ~ matches m g -> required true m (Some fill) f = inl RasterFileError).
Proof.
  intros A m fill f Hm. split.
  - intros ->. reflexivity.
  - intros g -> H. unfold required. rewrite (proj2 (c90_raster A m fill g Hm) H). reflexivity.
Qed.

(** Without an extended DEM: a successful start means that all rasters which are needed exist, agree with the grid and are
    taken over pixel by pixel; rasters which are not needed are not used. *)
Theorem c90_inputs : forall svf m res nd fs inp, proper_grid m -> fi_ext_dem fs = None ->
  read_input_data svf m res nd fs = inr inp ->
  (exists d, fi_dem fs = Some d /\ matches m d /\ values_of d None (in_dem inp))
  /\ match fi_svf fs with
     | Some s => matches m s /\ values_of s None (in_svf inp)
     | None => in_svf inp = svf (m_rows m) (m_cols m) (in_dem inp)
     end
  /\ (nd_srf nd = true -> exists f v, fi_srf fs = Some f /\ matches m f /\ in_srf inp = Some v /\ values_of f None v)
  /\ (nd_lc nd = true -> exists f v, fi_lc fs = Some f /\ matches m f /\ in_lc inp = Some v /\ values_of f 0%Z v)
  /\ (nd_soil nd = true -> exists f v, fi_soil fs = Some f /\ matches m f /\ in_soil inp = Some v /\ values_of f 0%Z v)
  /\ (nd_glaciers nd = true -> exists f v, fi_glaciers fs = Some f /\ matches m f /\ in_glaciers inp = Some v /\ values_of f (r_nodata f) v)
  /\ (nd_srf nd = false -> in_srf inp = None) /\ (nd_lc nd = false -> in_lc inp = None)
  /\ (nd_soil nd = false -> in_soil inp = None) /\ (nd_glaciers nd = false -> in_glaciers inp = None).
Proof.
  intros svf m res nd fs inp Hm Hx H. unfold read_input_data in H. rewrite Hx in H. cbn [read_extended] in H.
  destruct (read_dem_svf svf m None fs) as [|[dem sv]] eqn:E1; [discriminate|].
  destruct (read_roi m (fi_roi fs) dem) as [|roi] eqn:E2; [discriminate|].
  destruct (required (nd_srf nd) m (Some None) (fi_srf fs)) as [|srf] eqn:E3; [discriminate|].
  destruct (required (nd_lc nd) m (Some 0%Z) (fi_lc fs)) as [|lc] eqn:E4; [discriminate|].
  destruct (required (nd_soil nd) m (Some 0%Z) (fi_soil fs)) as [|soil] eqn:E5; [discriminate|].
  destruct (required (nd_glaciers nd) m None (fi_glaciers fs)) as [|gl] eqn:E6; [discriminate|].
  injection H as <-. cbn [in_dem in_svf in_srf in_lc in_soil in_glaciers].
  apply required_spec in E3; [|exact Hm]. apply required_spec in E4; [|exact Hm]. apply required_spec in E5; [|exact Hm].
  destruct E3 as [E3 E3']. destruct E4 as [E4 E4']. destruct E5 as [E5 E5'].
  assert (G : (nd_glaciers nd = true -> exists f v, fi_glaciers fs = Some f /\ matches m f /\ gl = Some v /\ values_of f (r_nodata f) v)
              /\ (nd_glaciers nd = false -> gl = None)).
  { destruct (nd_glaciers nd).
    - split; [intros _|discriminate]. destruct (fi_glaciers fs) as [g|]; [|discriminate E6].
      assert (R : read_raster (Some m) None g = read_raster (Some m) (Some (r_nodata g)) g) by reflexivity.
      assert (E6' : required true m (Some (r_nodata g)) (Some g) = inr gl) by (rewrite <- E6; unfold required; rewrite R; reflexivity).
      apply required_spec in E6'; [|exact Hm]. destruct E6' as [_ P]. destruct (P eq_refl) as (g' & w & Eg & M & -> & V).
      injection Eg as <-. exists g, w. auto.
    - split; [discriminate|intros _]. injection E6 as <-. reflexivity. }
  assert (D : (exists d, fi_dem fs = Some d /\ matches m d /\ values_of d None dem)
     /\ match fi_svf fs with Some s => matches m s /\ values_of s None sv | None => sv = svf (m_rows m) (m_cols m) dem end).
  { unfold read_dem_svf in E1. destruct (required true m (Some None) (fi_dem fs)) as [|[d|]] eqn:F; [discriminate| |discriminate].
    apply required_spec in F; [|exact Hm]. destruct F as [_ F]. destruct (F eq_refl) as (g & w & Eg & M & Ew & V). injection Ew as <-.
    destruct (fi_svf fs) as [s|].
    - assert (S1 : exists v, required true m (Some None) (Some s) = inr (Some v) /\ v = sv /\ d = dem).
      { unfold required. destruct (read_raster (Some m) (Some None) s) as [|v]; [discriminate|]. injection E1 as <- <-. eauto. }
      destruct S1 as (v & S1 & -> & ->). apply required_spec in S1; [|exact Hm]. destruct S1 as [_ S1].
      destruct (S1 eq_refl) as (s' & w & Es & Ms & Ew & Vs). injection Es as <-. injection Ew as <-. split; eauto.
    - injection E1 as <- <-. split; [eauto|reflexivity]. }
  destruct D as [D1 D2]. destruct G as [G1 G2]. split; [exact D1|]. split; [exact D2|].
  split; [exact E3'|]. split; [exact E4'|]. split; [exact E5'|]. split; [exact G1|]. auto.
Qed.
Print Assumptions c90_inputs.

(** Conversely, a missing or mismatching raster which is needed stops the model. *)
Definition unusable {A} (m : rmeta) (f : option (raster A)) : Prop :=
  match f with None => True | Some g => ~ matches m g end.
Theorem c90_stops : forall svf m res nd fs, proper_grid m -> fi_ext_dem fs = None ->
  unusable m (fi_dem fs) \/ (fi_svf fs <> None /\ unusable m (fi_svf fs)) \/ (fi_roi fs <> None /\ unusable m (fi_roi fs))
  \/ (nd_srf nd = true /\ unusable m (fi_srf fs)) \/ (nd_lc nd = true /\ unusable m (fi_lc fs))
  \/ (nd_soil nd = true /\ unusable m (fi_soil fs)) \/ (nd_glaciers nd = true /\ unusable m (fi_glaciers fs)) ->
  exists e, read_input_data svf m res nd fs = inl e.
Proof.
  intros svf m res nd fs Hm Hx H. destruct (read_input_data svf m res nd fs) as [e|inp] eqn:E; [eauto|]. exfalso.
  destruct (c90_inputs svf m res nd fs inp Hm Hx E) as ((d & Ed & Md & _) & Hs & H1 & H2 & H3 & H4 & _).
  destruct H as [H|[[N H]|[[N H]|[[N H]|[[N H]|[[N H]|[N H]]]]]]].
  - rewrite Ed in H. exact (H Md).
  - destruct (fi_svf fs); [exact (H (proj1 Hs))|exact (N eq_refl)].
  - destruct (fi_roi fs) as [r|] eqn:Er; [|exact (N eq_refl)].
    unfold read_input_data in E. rewrite Hx, Er in E. cbn [read_extended] in E.
    destruct (read_dem_svf svf m None fs) as [|[dem sv]]; [discriminate|].
    unfold read_roi in E. rewrite (proj2 (c90_raster Z m 0%Z r Hm) H) in E. discriminate.
  - destruct (H1 N) as (f & v & Ef & M & _). rewrite Ef in H. exact (H M).
  - destruct (H2 N) as (f & v & Ef & M & _). rewrite Ef in H. exact (H M).
  - destruct (H3 N) as (f & v & Ef & M & _). rewrite Ef in H. exact (H M).
  - destruct (H4 N) as (f & v & Ef & M & _). rewrite Ef in H. exact (H M).
Qed.
Print Assumptions c90_stops.

(** The region of interest consists of the pixels with an elevation which are marked in the file (all, without a file). *)
Theorem c88_region : forall svf m res nd fs inp, proper_grid m ->
  read_input_data svf m res nd fs = inr inp ->
  forall i j, in_roi inp i j = true <->
    in_dem inp i j <> None
    /\ match fi_roi fs with
       | Some f => matches m f /\ exists z, r_val f i j = Some z /\ z <> 0%Z
       | None => True
       end.
Proof.
  intros svf m res nd fs inp Hm H i j. unfold read_input_data in H.
  destruct (read_extended svf m res (fi_ext_dem fs) (fi_ext_svf fs)) as [|x]; [discriminate|].
  destruct (read_dem_svf svf m x fs) as [|[dem sv]]; [discriminate|].
  destruct (read_roi m (fi_roi fs) dem) as [|roi] eqn:E2; [discriminate|].
  destruct (required (nd_srf nd) m (Some None) (fi_srf fs)); [discriminate|].
  destruct (required (nd_lc nd) m (Some 0%Z) (fi_lc fs)); [discriminate|].
  destruct (required (nd_soil nd) m (Some 0%Z) (fi_soil fs)); [discriminate|].
  destruct (required (nd_glaciers nd) m None (fi_glaciers fs)); [discriminate|].
  injection H as <-. cbn [in_dem in_roi]. unfold read_roi in E2.
  destruct (fi_roi fs) as [f|].
  - destruct (read_raster (Some m) (Some 0%Z) f) as [e|v] eqn:F; [discriminate|]. injection E2 as <-.
    assert (S1 : required true m (Some 0%Z) (Some f) = inr (Some v)) by (unfold required; rewrite F; reflexivity).
    apply required_spec in S1; [|exact Hm]. destruct S1 as [_ S1]. destruct (S1 eq_refl) as (g & w & Eg & M & Ew & V).
    injection Eg as <-. injection Ew as <-. destruct (V i j) as [V1 V2].
    rewrite andb_true_iff, negb_true_iff, Z.eqb_neq. split.
    + intros [A B]. split; [destruct (dem i j); congruence|]. split; [exact M|].
      destruct (r_val f i j) as [z|]; [exists z; rewrite <- (V1 z eq_refl); auto|]. rewrite (V2 eq_refl) in A. congruence.
    + intros [A [_ (z & Ez & Hz)]]. rewrite (V1 z Ez). split; [exact Hz|]. destruct (dem i j); congruence.
  - injection E2 as <-. destruct (dem i j); split; intros; try discriminate; try (split; [discriminate|exact I]); auto.
    destruct H as [H _]. congruence.
Qed.
Print Assumptions c88_region.

(** Extension with stations: the region gains exactly the pixels of the stations within the grid; afterwards all those
    stations are marked as within the region. *)
Theorem c88_extended : forall m roi stations i j,
  extend_roi m roi stations i j = true <->
  roi i j = true \/ exists p, In p stations /\ within_extent m p = true /\ station_pixel m p = (i, j).
Proof.
  intros m roi stations i j. unfold extend_roi. rewrite orb_true_iff, existsb_exists. split.
  - intros [(p & Hp & E)|H]; [|auto]. apply filter_In in Hp. destruct Hp as [Hp Hf]. apply andb_prop in Hf. destruct Hf as [Hf _].
    right. exists p. split; [exact Hp|]. split; [exact Hf|]. destruct (station_pixel m p) as [r c].
    apply andb_prop in E. destruct E as [E1 E2]. apply Nat.eqb_eq in E1, E2. subst. reflexivity.
  - intros [H|(p & Hp & He & Es)]; [auto|]. destruct (roi i j) eqn:R; [auto|]. left. exists p. split.
    + apply filter_In. split; [exact Hp|]. unfold within_roi. rewrite He, Es, R. reflexivity.
    + rewrite Es, !Nat.eqb_refl. reflexivity.
Qed.
Print Assumptions c88_extended.

Theorem c88_stations : forall m roi stations p, In p stations ->
  extended_within_roi m roi p = within_extent m p
  /\ within_roi m (extend_roi m roi stations) p = within_extent m p.
Proof.
  intros m roi stations p Hp. unfold extended_within_roi, within_roi.
  destruct (within_extent m p) eqn:E; [|split; reflexivity].
  destruct (station_pixel m p) as [i j] eqn:S1. split; [destruct (roi i j); reflexivity|].
  apply (proj2 (c88_extended m roi stations i j)). right. exists p. auto.
Qed.
Print Assumptions c88_stations.

Theorem c88_station_marks : forall m roi p, within_roi m roi p = true <->
  within_extent m p = true /\ roi (fst (station_pixel m p)) (snd (station_pixel m p)) = true.
Proof.
  intros m roi p. unfold within_roi. destruct (within_extent m p); destruct (station_pixel m p) as [i j]; simpl; split; intros H; try discriminate; try tauto.
Qed.
Print Assumptions c88_station_marks.

(** Every pixel of the region should have an elevation. Stations can add pixels without one. *)
Theorem c88_elevation_refuted : exists svf m res nd fs inp p i j,
  proper_grid m /\ read_input_data svf m res nd fs = inr inp
  /\ (i < m_rows m)%nat /\ (j < m_cols m)%nat
  /\ extend_roi m (in_roi inp) [p] i j = true /\ in_dem inp i j = None.
Proof.
  set (t := AF 10 (-10) 100 200).
  set (d := RST 2 2 t (fun i j => match i, j with O, O => None | _, _ => Some (Some 1000) end) (None : num)).
  assert (Hm : proper_grid (RM 2 2 10 t)) by (unfold proper_grid; simpl; repeat split; lra).
  assert (R : exists v, read_raster (Some (RM 2 2 10 t)) (Some None) d = inr v /\ values_of d None v).
  { apply (proj1 (c90_raster num (RM 2 2 10 t) None d Hm)). repeat split. }
  destruct R as (v & R & V).
  exists (fun _ _ x => x), (RM 2 2 10 t), 10, (ND false false false false), (FI (Some d) None None None None None None None None).
  eexists. exists (105, 195), 0%nat, 0%nat.
  split; [exact Hm|]. split.
  - unfold read_input_data, read_extended, read_dem_svf, required; cbn [fi_dem fi_ext_dem fi_svf fi_roi nd_srf nd_lc nd_soil nd_glaciers].
    rewrite R. reflexivity.
  - split; [simpl; lia|]. split; [simpl; lia|]. cbn [in_roi in_dem].
    assert (N : v 0%nat 0%nat = None) by (apply (V 0%nat 0%nat); reflexivity). split; [|exact N].
    apply (proj2 (c88_extended _ _ _ _ _)). right. exists (105, 195). split; [left; reflexivity|].
    apply (proj2 (c87_station_pixel (RM 2 2 10 t) (105, 195) 0 0 Hm ltac:(simpl; lia) ltac:(simpl; lia))).
    unfold in_pixel; simpl. lra.
Qed.
Print Assumptions c88_elevation_refuted.

(** * C89: extended grid *)
(** The grid lies at row [r], column [c] of the extended raster and is contained in it. *)
Definition embedded {A} (m : rmeta) (f : raster A) (r c : nat) : Prop :=
  af_x (m_tr m) = af_x (r_tr f) + INR c * m_res m /\ af_y (m_tr m) = af_y (r_tr f) - INR r * m_res m
  /\ (r + m_rows m <= r_rows f)%nat /\ (c + m_cols m <= r_cols f)%nat.
Lemma is_integer_iff : forall x, is_integer x = true <-> x = IZR (Int_part x).
Proof. intros x. apply req_iff. Qed.
Lemma integer_div : forall a b, 0 < b -> (is_integer (a / b) = true <-> exists z, a = IZR z * b).
Proof.
  intros a b Hb. rewrite is_integer_iff. split.
  - intros E. exists (Int_part (a / b)). rewrite <- E. field. lra.
  - intros (z & ->). assert (E : IZR z * b / b = IZR z) by (field; lra). rewrite E.
    f_equal. symmetry. apply int_part_iff. lra.
Qed.

(** An extended DEM is used exactly if it has the resolution of the grid, is aligned with it and contains it (and an
    existing file of its sky view factor has its size); the position found is the one where the grid lies. *)
Theorem c89_accepts_iff : forall svf m f s g, proper_grid m ->
  (exists x, read_extended svf m (m_res m) (Some f) s = inr (Some x) /\ (eg_row x, eg_col x) = g) <->
  (af_a (r_tr f) = m_res m /\ af_e (r_tr f) = - m_res m /\ embedded m f (fst g) (snd g)
   /\ match s with Some s => r_rows s = r_rows f /\ r_cols s = r_cols f | None => True end).
Proof.
  intros svf m f s [r c] (H0 & H1 & H2). unfold read_extended, embedded. cbn [fst snd]. split.
  - intros (x & H & Eg). destruct (read_metadata f) as [e|em] eqn:E; [discriminate|].
    destruct (req (m_res em) (m_res m)) eqn:E1; [|discriminate]. apply req_iff in E1. simpl negb in H. cbv iota in H.
    apply metadata_iff in E. destruct E as (F0 & F1 & F2 & F3 & F4 & F5). rewrite E1 in *. rewrite F5.
    rewrite <- F5 in H. rewrite F5 in H. rewrite F1, F2, H1, H2 in H. rewrite F1, F2.
    cbv zeta in H.
    destruct (is_integer ((af_y (m_tr m) - af_y (m_tr em)) / - m_res m)) eqn:I1; [|discriminate].
    destruct (is_integer ((af_x (m_tr m) - af_x (m_tr em)) / m_res m)) eqn:I2; [|discriminate]. simpl negb in H. cbv iota in H.
    destruct (Rlt_dec (af_x (m_tr m)) (af_x (m_tr em))) as [|C1]; [discriminate|].
    destruct (Rlt_dec (af_y (m_tr em)) (af_y (m_tr m))) as [|C2]; [discriminate|].
    destruct (Rlt_dec (af_x (m_tr em) + INR (m_cols em) * m_res m) (af_x (m_tr m) + INR (m_cols m) * m_res m)) as [|C3]; [discriminate|].
    destruct (Rlt_dec (af_y (m_tr m) + INR (m_rows m) * - m_res m) (af_y (m_tr em) + INR (m_rows em) * - m_res m)) as [|C4]; [discriminate|].
    replace ((af_y (m_tr m) - af_y (m_tr em)) / - m_res m) with ((af_y (m_tr em) - af_y (m_tr m)) / m_res m) in * by (field; lra).
    assert (Q : forall a, 0 <= a -> is_integer (a / m_res m) = true ->
              a = INR (Z.to_nat (Int_part (a / m_res m))) * m_res m).
    { intros a Ha I. apply is_integer_iff in I.
      assert (0 <= Int_part (a / m_res m))%Z.
      { apply le_IZR. rewrite <- I. apply Rmult_le_pos; [lra|]. apply Rlt_le, Rinv_0_lt_compat. lra. }
      rewrite INR_IZR_INZ, Z2Nat.id by assumption. rewrite <- I. field. lra. }
    assert (Qy := Q (af_y (m_tr em) - af_y (m_tr m)) ltac:(lra) I1).
    assert (Qx := Q (af_x (m_tr m) - af_x (m_tr em)) ltac:(lra) I2).
    assert (P : r = Z.to_nat (Int_part ((af_y (m_tr em) - af_y (m_tr m)) / m_res m))
             /\ c = Z.to_nat (Int_part ((af_x (m_tr m) - af_x (m_tr em)) / m_res m))
             /\ match s with Some s => r_rows s = r_rows f /\ r_cols s = r_cols f | None => True end).
    { destruct s as [s|].
      - destruct ((r_rows s =? r_rows f)%nat && (r_cols s =? r_cols f)%nat) eqn:B; [|discriminate].
        apply andb_prop in B. rewrite !Nat.eqb_eq in B. injection H as <-. cbn in Eg. injection Eg as <- <-. auto.
      - injection H as <-. cbn in Eg. injection Eg as <- <-. auto. }
    destruct P as (Pr & Pc & Ps). rewrite <- Pr in Qy. rewrite <- Pc in Qx.
    assert (W : forall a b n, INR a * m_res m + INR b * m_res m <= INR n * m_res m -> (a + b <= n)%nat).
    { intros a b n L. apply INR_le. rewrite plus_INR. apply Rmult_le_reg_r with (m_res m); lra. }
    repeat split; try lra; try exact Ps.
    + rewrite F3. apply W. lra.
    + rewrite F4. apply W. lra.
  - intros (A1 & A2 & (X & Y & Br & Bc) & Hs).
    assert (E : read_metadata f = inr (RM (r_rows f) (r_cols f) (m_res m) (r_tr f))).
    { apply metadata_iff. cbn. repeat split; lra. }
    rewrite E. cbn [m_res m_tr m_rows m_cols].
    assert (E1 : req (m_res m) (m_res m) = true) by (apply req_iff; reflexivity). rewrite E1. simpl negb. cbv iota zeta.
    rewrite A1, A2, H1, H2.
    pose proof (pos_INR r). pose proof (pos_INR c).
    apply le_INR in Br, Bc. rewrite plus_INR in Br, Bc.
    pose proof (Rmult_le_compat_r (m_res m) _ _ (Rlt_le _ _ H0) Br) as Mr.
    pose proof (Rmult_le_compat_r (m_res m) _ _ (Rlt_le _ _ H0) Bc) as Mc.
    assert (N1 : 0 <= INR r * m_res m) by (apply Rmult_le_pos; lra). assert (N2 : 0 <= INR c * m_res m) by (apply Rmult_le_pos; lra).
    assert (Er : (af_y (m_tr m) - af_y (r_tr f)) / - m_res m = IZR (Z.of_nat r)) by (rewrite <- INR_IZR_INZ, Y; field; lra).
    assert (Ec : (af_x (m_tr m) - af_x (r_tr f)) / m_res m = IZR (Z.of_nat c)) by (rewrite <- INR_IZR_INZ, X; field; lra).
    rewrite Er, Ec.
    assert (IP : forall n, Int_part (IZR (Z.of_nat n)) = Z.of_nat n) by (intros n; apply int_part_iff; lra).
    assert (II : forall n, is_integer (IZR (Z.of_nat n)) = true) by (intros n; apply is_integer_iff; rewrite IP; reflexivity).
    rewrite !II, !IP, !Nat2Z.id. simpl negb. cbv iota.
    destruct (Rlt_dec (af_x (m_tr m)) (af_x (r_tr f))); [exfalso; lra|].
    destruct (Rlt_dec (af_y (r_tr f)) (af_y (m_tr m))); [exfalso; lra|].
    destruct (Rlt_dec (af_x (r_tr f) + INR (r_cols f) * m_res m) (af_x (m_tr m) + INR (m_cols m) * m_res m)); [exfalso; lra|].
    destruct (Rlt_dec (af_y (m_tr m) + INR (m_rows m) * - m_res m) (af_y (r_tr f) + INR (r_rows f) * - m_res m)); [exfalso; lra|].
    destruct s as [s|].
    + destruct Hs as [-> ->]. rewrite !Nat.eqb_refl. eexists. split; reflexivity.
    + eexists. split; reflexivity.
Qed.
Print Assumptions c89_accepts_iff.

(** The elevation of every pixel is that of the pixel of the extended DEM which covers the same square, and the pixel exists. *)
Theorem c89_same_place : forall svf m nd fs f inp, proper_grid m -> fi_ext_dem fs = Some f ->
  read_input_data svf m (m_res m) nd fs = inr inp ->
  forall i j, (i < m_rows m)%nat -> (j < m_cols m)%nat ->
  exists r c, (r < r_rows f)%nat /\ (c < r_cols f)%nat
    /\ af_x (r_tr f) + INR c * af_a (r_tr f) = af_x (m_tr m) + INR j * m_res m
    /\ af_y (r_tr f) + INR r * af_e (r_tr f) = af_y (m_tr m) - INR i * m_res m
    /\ in_dem inp i j = match r_val f r c with Some v => v | None => None end
    /\ match fi_ext_svf fs with
       | Some s => in_svf inp i j = match r_val s r c with Some v => v | None => None end
       | None => in_svf inp i j = svf (r_rows f) (r_cols f) (fun r c => match r_val f r c with Some v => v | None => None end) r c
       end.
Proof.
  intros svf m nd fs f inp Hm Hf H i j Hi Hj. unfold read_input_data in H. rewrite Hf in H.
  destruct (read_extended svf m (m_res m) (Some f) (fi_ext_svf fs)) as [|x] eqn:E; [discriminate|].
  destruct x as [x|].
  2:{ exfalso. unfold read_extended in E. destruct (read_metadata f); [discriminate|].
      cbv zeta in E. repeat match type of E with context [if ?b then _ else _] => destruct b; try discriminate end.
      destruct (fi_ext_svf fs); [destruct (_ && _)|]; discriminate. }
  assert (A := proj1 (c89_accepts_iff svf m f (fi_ext_svf fs) (eg_row x, eg_col x) Hm) (ex_intro _ x (conj E eq_refl))).
  destruct A as (A1 & A2 & (X & Y & Br & Bc) & Hs). cbn [fst snd] in *.
  cbn [read_dem_svf] in H.
  match type of H with match ?q with _ => _ end = _ => destruct q as [|roi]; [discriminate|] end.
  destruct (required (nd_srf nd) m (Some None) (fi_srf fs)); [discriminate|].
  destruct (required (nd_lc nd) m (Some 0%Z) (fi_lc fs)); [discriminate|].
  destruct (required (nd_soil nd) m (Some 0%Z) (fi_soil fs)); [discriminate|].
  destruct (required (nd_glaciers nd) m None (fi_glaciers fs)); [discriminate|].
  injection H as <-. cbn [in_dem in_svf].
  exists (eg_row x + i)%nat, (eg_col x + j)%nat. rewrite !plus_INR, A1, A2.
  split; [lia|]. split; [lia|]. split; [lra|]. split; [lra|].
  assert (D : eg_dem x = (fun i j => match r_val f i j with Some v => v | None => None end)
     /\ eg_svf x = match fi_ext_svf fs with
                   | Some s => fun i j => match r_val s i j with Some v => v | None => None end
                   | None => svf (r_rows f) (r_cols f) (fun i j => match r_val f i j with Some v => v | None => None end)
                   end).
  { unfold read_extended in E. destruct (read_metadata f) as [|em] eqn:Em; [discriminate|].
    cbv zeta in E. repeat match type of E with context [if ?b then _ else _] => destruct b; try discriminate end;
    destruct (fi_ext_svf fs) as [s|]; try (destruct (_ && _)); try discriminate; injection E as <-; cbn; auto. }
  destruct D as [-> ->]. split; [reflexivity|]. destruct (fi_ext_svf fs); reflexivity.
Qed.
Print Assumptions c89_same_place.

(** An existing file of the extended sky view factor should belong to the same area; only its size is checked. *)
Theorem c89_svf_position_refuted : exists calc m f s x,
  proper_grid m /\ r_tr s <> r_tr f /\ read_extended calc m (m_res m) (Some f) (Some s) = inr (Some x).
Proof.
  set (t := AF 10 (-10) 100 200).
  assert (Hm : proper_grid (RM 1 1 10 t)) by (unfold proper_grid; simpl; repeat split; lra).
  set (f := RST 2 2 (AF 10 (-10) 90 200) (fun _ _ => Some (Some 1000 : num)) (None : num)).
  set (s := RST 2 2 (AF 25 (-25) 5000 6000) (fun _ _ => Some (Some 1 : num)) (None : num)).
  destruct (proj2 (c89_accepts_iff (fun _ _ x => x) (RM 1 1 10 t) f (Some s) (0, 1)%nat Hm)) as (x & Ex & _).
  - unfold embedded; simpl. repeat split; try lra; lia.
  - exists (fun _ _ x => x), (RM 1 1 10 t), f, s, x. split; [exact Hm|]. split; [|exact Ex].
    simpl. intros E. injection E. intros. lra.
Qed.
Print Assumptions c89_svf_position_refuted.

(** A run with DEM, region of interest and land cover on a 2 x 2 grid: one pixel is without elevation, one is outside the
    region; the station in the latter is added. *)
Definition ex_tr : affine := AF 10 (-10) 100 200.
Definition ex_dem : raster num :=
  RST 2 2 ex_tr (fun i j => match i, j with O, O => None | _, _ => Some (Some 1000) end) None.
Definition ex_roi : raster Z := RST 2 2 ex_tr (fun i j => match i, j with S O, S O => Some 0%Z | _, _ => Some 1%Z end) (-9999)%Z.
Definition ex_lc : raster Z := RST 2 2 ex_tr (fun i j => match j with O => None | _ => Some 3%Z end) (-9999)%Z.
Definition ex_files : files := FI (Some ex_dem) None None None (Some ex_roi) None (Some ex_lc) None None.
Example c88_c90_example : exists inp,
  proper_grid (RM 2 2 10 ex_tr)
  /\ read_input_data (fun _ _ x => x) (RM 2 2 10 ex_tr) 10 (ND false true false false) ex_files = inr inp
  /\ map (fun ij => in_roi inp (fst ij) (snd ij)) [(0, 0); (0, 1); (1, 0); (1, 1)]%nat = [false; true; true; false]
  /\ (exists lc, in_lc inp = Some lc /\ lc 1%nat 0%nat = 0%Z /\ lc 1%nat 1%nat = 3%Z)
  /\ extend_roi (RM 2 2 10 ex_tr) (in_roi inp) [(115, 185)] 1 1 = true
  /\ ~ matches (RM 2 2 10 ex_tr) (RST 2 2 (AF 10 (-10) 90 200) (r_val ex_roi) 0%Z).
Proof.
  assert (Hm : proper_grid (RM 2 2 10 ex_tr)) by (unfold proper_grid; simpl; repeat split; lra).
  assert (R : exists v, read_raster (Some (RM 2 2 10 ex_tr)) (Some None) ex_dem = inr v /\ values_of ex_dem None v).
  { apply (proj1 (c90_raster num (RM 2 2 10 ex_tr) None ex_dem Hm)). repeat split. }
  destruct R as (d & Ed & Vd).
  destruct (proj1 (c90_raster Z (RM 2 2 10 ex_tr) 0%Z ex_roi Hm) ltac:(repeat split)) as (r & Er & Vr).
  destruct (proj1 (c90_raster Z (RM 2 2 10 ex_tr) 0%Z ex_lc Hm) ltac:(repeat split)) as (l & El & Vl).
  eexists. split; [exact Hm|]. split.
  - unfold read_input_data, read_extended, read_dem_svf, read_roi, required, ex_files.
    cbn [fi_dem fi_ext_dem fi_svf fi_roi fi_lc nd_srf nd_lc nd_soil nd_glaciers]. rewrite Ed, Er, El. reflexivity.
  - cbn [in_roi in_lc map fst snd].
    rewrite (proj2 (Vd 0%nat 0%nat) eq_refl), (proj1 (Vd 0%nat 1%nat) (Some 1000) eq_refl), (proj1 (Vd 1%nat 0%nat) (Some 1000) eq_refl),
      (proj1 (Vd 1%nat 1%nat) (Some 1000) eq_refl), (proj1 (Vr 0%nat 1%nat) 1%Z eq_refl), (proj1 (Vr 1%nat 0%nat) 1%Z eq_refl),
      (proj1 (Vr 1%nat 1%nat) 0%Z eq_refl), (proj1 (Vr 0%nat 0%nat) 1%Z eq_refl).
    split; [reflexivity|]. split; [exists l; split; [reflexivity|]; split; [apply (Vl 1%nat 0%nat)|apply (Vl 1%nat 1%nat)]; reflexivity|].
    split.
    + apply (proj2 (c88_extended _ _ _ _ _)). right. exists (115, 185). split; [left; reflexivity|].
      apply (proj2 (c87_station_pixel (RM 2 2 10 ex_tr) (115, 185) 1 1 Hm ltac:(simpl; lia) ltac:(simpl; lia))).
      unfold in_pixel; simpl. lra.
    + intros (_ & _ & E). simpl in E. unfold ex_tr in E. injection E. lra.
Qed.
(** A 1 x 1 grid in the second column of a 2 x 2 extended DEM *)
Example c89_example : let f := RST 2 2 (AF 10 (-10) 90 200) (fun i j => Some (Some (IZR (Z.of_nat (10 * i + j))))) (None : num) in
  proper_grid (RM 1 1 10 ex_tr) /\ embedded (RM 1 1 10 ex_tr) f 0 1
  /\ exists x, read_extended (fun _ _ d => d) (RM 1 1 10 ex_tr) 10 (Some f) None = inr (Some x) /\ (eg_row x, eg_col x) = (0, 1)%nat.
Proof.
  assert (Hm : proper_grid (RM 1 1 10 ex_tr)) by (unfold proper_grid; simpl; repeat split; lra).
  cbv zeta. split; [exact Hm|].
  assert (E : embedded (RM 1 1 10 ex_tr) (RST 2 2 (AF 10 (-10) 90 200) (fun i j => Some (Some (IZR (Z.of_nat (10 * i + j))))) (None : num)) 0 1).
  { unfold embedded; simpl. repeat split; try lra; lia. }
  split; [exact E|].
  apply (proj2 (c89_accepts_iff (fun _ _ d => d) (RM 1 1 10 ex_tr) _ None (0, 1)%nat Hm)). simpl. repeat split; try lra; apply E.
Qed.
