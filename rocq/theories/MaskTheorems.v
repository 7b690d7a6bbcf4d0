(** Properties C57 and C63. *)
From Verif Require Import MaskModel Common MaskProofs.
Open Scope nat_scope.

(** * C57 Global masks *)
(** Pixel [i] of the result is set exactly if the enclosing mask is set there and the local mask is set
    at the rank of [i], i.e. the number of enclosing pixels before [i]. *)
Definition global_of (g m r : list bool) : Prop :=
  length r = length g /\
  forall i, i < length g ->
    nth i r false = nth i g false && nth (length (filter (fun b => b) (firstn i g))) m false.
Theorem c57_exact : forall roi m outer r,
  let g := match outer with Some g => g | None => roi end in length g = length roi ->
  global_mask (length roi) roi (Mask1 m) outer None = inr r -> exists r', r = Grid1 r' /\ global_of g m r'.
Proof.
  intros roi m outer r g L H. unfold global_mask in H.
  assert (E : match outer with Some g => flatnonzero g | None => flatnonzero roi end = flatnonzero g)
    by (unfold g; destruct outer; auto).
  rewrite E in H. destruct (negb _); [discriminate|].
  destruct (set_all _ _ _) as [e|r'] eqn:S; [discriminate|]. injection H as <-. exists r'. split; [auto|].
  apply (scatter_mask _ g) in S; [|auto]. subst r'. split; [rewrite map_length, seq_length; auto|].
  intros i Hi. rewrite (nth_indep _ false (selects g m 0)) by (rewrite map_length, seq_length; lia).
  rewrite map_nth, seq_nth by lia. auto.
Qed.
Print Assumptions c57_exact.
(** Masks are accepted exactly if they have one entry per enclosing pixel. *)
Theorem c57_accepts_iff : forall roi m outer,
  let g := match outer with Some g => g | None => roi end in length g = length roi ->
  ((exists r, global_mask (length roi) roi (Mask1 m) outer None = inr r) <->
    length m = length (filter (fun b => b) g)) /\
  (length m <> length (filter (fun b => b) g) ->
    global_mask (length roi) roi (Mask1 m) outer None = inl ValueError).
Proof.
  intros roi m outer g L. unfold global_mask.
  assert (E : match outer with Some g => flatnonzero g | None => flatnonzero roi end = flatnonzero g)
    by (unfold g; destruct outer; auto).
  rewrite E, flatnonzero_length. fold (count g). destruct (length m =? count g) eqn:Q; cbn.
  - apply Nat.eqb_eq in Q. split; [|congruence]. split; [auto|]. intros _. rewrite <- L.
    destruct (set_all_ok g m) as (r & ->). eauto.
  - apply Nat.eqb_neq in Q. split; [|auto]. split; [intros (r & H); discriminate|congruence].
Qed.
Print Assumptions c57_accepts_iff.
(** Taking the result at the enclosing pixels returns the local mask. *)
Theorem c57_roundtrip : forall roi m outer r,
  let g := match outer with Some g => g | None => roi end in length g = length roi ->
  global_mask (length roi) roi (Mask1 m) outer None = inr (Grid1 r) -> select r g = m.
Proof.
  intros roi m outer r g L H. unfold global_mask in H.
  assert (E : match outer with Some g => flatnonzero g | None => flatnonzero roi end = flatnonzero g)
    by (unfold g; destruct outer; auto).
  rewrite E, flatnonzero_length in H. destruct (length m =? count g) eqn:Q; [|discriminate].
  apply Nat.eqb_eq in Q. cbn in H. destruct (set_all _ _ _) as [e|r'] eqn:S; [discriminate|].
  injection H as <-. apply (scatter_mask _ g) in S; auto. subst. rewrite <- L. apply selects_select; auto.
Qed.
Print Assumptions c57_roundtrip.
(** Nested masks: a mask within a mask within the ROI can be expanded in one or in two steps. *)
Theorem c57_compose : forall roi m1 m2 g1 g2 inner,
  global_mask (length roi) roi (Mask1 m1) None None = inr (Grid1 g1) ->
  global_mask (length roi) roi (Mask1 m2) (Some g1) None = inr (Grid1 g2) ->
  global_mask (length m1) m1 (Mask1 m2) (Some m1) None = inr (Grid1 inner) ->
  global_mask (length roi) roi (Mask1 inner) None None = inr (Grid1 g2).
Proof.
  intros roi m1 m2 g1 g2 inner H1 H2 H3.
  destruct (c57_exact roi m1 None _ eq_refl H1) as (g1' & E1 & L1 & X1). injection E1 as <-.
  destruct (c57_exact roi m2 (Some g1) _ L1 H2) as (g2' & E2 & L2 & X2). injection E2 as <-.
  destruct (c57_exact m1 m2 (Some m1) _ eq_refl H3) as (i' & E3 & L3 & X3). injection E3 as <-.
  pose proof (c57_roundtrip roi m1 None _ eq_refl H1) as R1. cbn in R1.
  destruct (proj1 (c57_accepts_iff roi m1 None eq_refl)) as [A1 _]. specialize (A1 (ex_intro _ _ H1)).
  destruct (proj2 (proj1 (c57_accepts_iff roi inner None eq_refl))) as (r & Hr); [rewrite L3; auto|].
  rewrite Hr. destruct (c57_exact roi inner None _ eq_refl Hr) as (r' & -> & L4 & X4). do 2 f_equal.
  apply (list_eq_nth false); [congruence|]. intros i Hi. rewrite L4 in Hi. cbn in X4, X2, X1.
  rewrite X4, X2 by (rewrite ?L1; auto). rewrite X1 by auto.
  destruct (nth i roi false) eqn:G; cbn; auto.
  set (k := length (filter (fun b => b) (firstn i roi))) in *.
  assert (K : k < length m1).
  { rewrite A1. apply (flatnonzero_rank roi i) in G.
    assert (B : count (firstn i roi) < length (flatnonzero roi)) by (apply nth_error_Some; congruence).
    rewrite flatnonzero_length in B. exact B. }
  rewrite X3 by auto. destruct (nth k m1 false); cbn; auto. f_equal.
  rewrite <- R1. unfold k.
  (* number of selected pixels of g1 before i = number of selected m1 entries before rank i *)
  assert (CNT : forall roi g1 i, length g1 = length roi ->
    (forall j, nth j g1 false = true -> nth j roi false = true) ->
    length (filter (fun b => b) (firstn (length (filter (fun b => b) (firstn i roi))) (select g1 roi)))
    = length (filter (fun b => b) (firstn i g1))).
  { clear. induction roi as [|b roi IH]; intros g1 i L S; destruct g1 as [|c g1]; try discriminate.
    - cbn. destruct i; auto.
    - destruct i as [|i]; [reflexivity|]. injection L as L. cbn [firstn filter select].
      assert (S' : forall j, nth j g1 false = true -> nth j roi false = true) by (intros j; apply (S (Datatypes.S j))).
      destruct b; cbn [length filter firstn].
      + specialize (IH g1 i L S'). destruct c; cbn [length]; rewrite IH; auto.
      + destruct c; [discriminate (S 0 eq_refl)|]. apply IH; auto. }
  apply CNT; [auto|]. intros j J. destruct (Nat.lt_ge_cases j (length roi)) as [B|B].
  - rewrite X1 in J by auto. apply andb_true_iff in J. apply J.
  - rewrite nth_overflow in J by lia. discriminate.
Qed.
Print Assumptions c57_compose.
(** Two-dimensional masks (one row per layer) are expanded row by row. *)
Theorem c57_layers : forall n roi w rows outer idxs r, Forall (fun m => length m = w) rows ->
  (global_mask n roi (Mask2 w rows) outer idxs = inr (Grid2 r) ->
   Forall2 (fun m g => global_mask n roi (Mask1 m) outer idxs = inr (Grid1 g)) rows r).
Proof.
  intros n roi w rows outer idxs r F H. unfold global_mask in *.
  set (gi := match idxs with Some i => i | None => match outer with Some g => flatnonzero g | None => flatnonzero roi end end) in *.
  destruct (w =? length gi) eqn:Q; cbn in H; [|discriminate].
  destruct (map_exn _ rows) as [e|r'] eqn:M; [discriminate|]. injection H as <-. apply map_exn_ok in M.
  revert F; induction M as [|m g rows r' Hm M IH]; intros F; constructor; inversion F; subst; auto.
  rewrite Q. cbn. rewrite Hm. auto.
Qed.
Print Assumptions c57_layers.
(** With explicit indexes: exactly the pixels whose index is listed at a selected position. *)
Theorem c57_indexes : forall n roi m outer idxs r,
  global_mask n roi (Mask1 m) outer (Some idxs) = inr (Grid1 r) ->
  length m = length idxs /\ length r = n /\
  forall i, nth i r false = true <-> exists k, nth_error idxs k = Some i /\ nth_error m k = Some true.
Proof.
  intros n roi m outer idxs r H. unfold global_mask in H. destruct (length m =? length idxs) eqn:Q; [|discriminate].
  cbn in H. destruct (set_all _ _ _) as [e|r'] eqn:S; [discriminate|]. injection H as <-.
  apply Nat.eqb_eq in Q. apply set_all_spec in S. rewrite repeat_length in S. destruct S as [L S].
  split; [auto|]. split; [auto|]. intros i. rewrite S, nth_repeat, <- In_select, <- existsb_eqb.
  destruct (existsb _ _); split; congruence.
Qed.
Print Assumptions c57_indexes.
Example c57_example :
  global_mask 6 [true; false; true; true; false; true] (Mask1 [false; true; false; true]) None None
  = inr (Grid1 [false; false; true; false; false; true]) /\
  global_mask 6 [true; false; true; true; false; true] (Mask1 [false; true]) None None = inl ValueError /\
  global_mask 6 [true; false; true; true; false; true] (Mask1 [true; false]) (Some [false; false; true; false; false; true]) None
  = inr (Grid1 [false; false; true; false; false; false]).
Proof. repeat split; reflexivity. Qed.

(** * C63 ROI-pixel output *)
Definition fill_of {A} (nan : A) (v : dvar A) : A :=
  match enc_fill v, attr_fill v with Some f, _ => f | None, Some f => f | None, None => nan end.
Lemma inr_inj {A} (a b : A) : @inr exn A a = inr b -> a = b.
Proof. congruence. Qed.
Lemma convert_index {A} (nan : A) nrows ncols idxs v v' p pre post r c :
  position "pixel" (dims v) = Some p -> length (shape (data v)) = length (dims v) ->
  convert_var nan nrows ncols idxs v = inr v' -> length pre = p -> p + 1 + length post = length (dims v) ->
  vals (data v') (pre ++ [r; c] ++ post) =
    match last_pos (r * ncols + c) idxs with
    | Some k => vals (data v) (pre ++ [k] ++ post)
    | None => fill_of nan v
    end.
Proof.
  intros P LS H Lp Lq. unfold convert_var in H. rewrite P in H.
  destruct (negb (last _ 0 =? _)); [discriminate|]. destruct (negb (forallb _ idxs)); [discriminate|].
  apply inr_inj in H. subst v'. cbn [data vals transpose]. subst p.
  set (m := length post) in *.
  assert (ND : length (shape (moveaxis_last (data v) (length pre))) = length pre + m + 1).
  { cbn [moveaxis_last shape]. rewrite !app_length, firstn_length, skipn_length. cbn [length]. lia. }
  rewrite ND. replace (length pre + m + 1 - 1) with (length pre + m) by lia.
  replace (length pre + m - length pre) with m by lia.
  change (seq 0 (length pre) ++ [length pre + m; length pre + m + 1] ++ seq (length pre) m) with (order (length pre) m).
  unfold m. rewrite (transpose_index pre post r c).
  cbn [scatter vals]. rewrite !app_assoc, !app_length. cbn [length].
  replace (length pre + length post + 2 - 2) with (length (pre ++ post)) by (rewrite app_length; lia).
  rewrite skipn_app, skipn_all, Nat.sub_diag. cbn [skipn app].
  rewrite firstn_app, firstn_all, Nat.sub_diag. cbn [firstn]. rewrite app_nil_r.
  destruct (last_pos _ idxs) as [k|].
  - cbn [moveaxis_last vals]. f_equal. rewrite <- app_assoc, firstn_app, firstn_all, Nat.sub_diag.
    cbn [firstn]. rewrite app_nil_r, skipn_app, skipn_all, Nat.sub_diag. cbn [skipn app].
    rewrite removelast_last, (app_assoc pre post), last_last. auto.
  - unfold fill_of. destruct (enc_fill v), (attr_fill v); auto.
Qed.
(** For every leading and trailing index, the grid value at (row, column) is the value of the pixel
    stored for it, and no-data where no pixel is stored. *)
Theorem c63_values : forall A (nan : A) nrows ncols idxs v v' p pre post r c,
  position "pixel" (dims v) = Some p -> length (shape (data v)) = length (dims v) ->
  convert_var nan nrows ncols idxs v = inr v' -> length pre = p -> p + 1 + length post = length (dims v) ->
  NoDup idxs ->
  (forall k, nth_error idxs k = Some (r * ncols + c) ->
     vals (data v') (pre ++ [r; c] ++ post) = vals (data v) (pre ++ [k] ++ post)) /\
  (~ In (r * ncols + c) idxs -> vals (data v') (pre ++ [r; c] ++ post) = fill_of nan v).
Proof.
  intros A nan nrows ncols idxs v v' p pre post r c P LS H Lp Lq ND.
  rewrite (convert_index nan _ _ _ _ _ _ _ _ r c P LS H Lp Lq). split.
  - intros k K. rewrite (last_pos_unique _ _ _ ND K). auto.
  - intros N. apply last_pos_none in N. rewrite N. auto.
Qed.
Print Assumptions c63_values.
(** Shape and dimension names: (.., pixel, ..) becomes (.., y, x, ..). *)
Theorem c63_shape : forall A (nan : A) nrows ncols idxs v v' p,
  position "pixel" (dims v) = Some p -> length (shape (data v)) = length (dims v) ->
  convert_var nan nrows ncols idxs v = inr v' ->
  dims v' = firstn p (dims v) ++ ["y"; "x"]%string ++ skipn (S p) (dims v) /\
  shape (data v') = firstn p (shape (data v)) ++ [nrows; ncols] ++ skipn (S p) (shape (data v)) /\
  nth p (shape (data v)) 0 = length idxs.
Proof.
  intros A nan nrows ncols idxs v v' p P LS H. unfold convert_var in H. rewrite P in H.
  destruct (last _ 0 =? length idxs) eqn:E; cbn [negb] in H; [|discriminate].
  destruct (negb (forallb _ idxs)); [discriminate|].
  apply inr_inj in H. subst v'. cbn [dims data transpose shape]. split; [auto|].
  assert (PL : p < length (shape (data v))).
  { rewrite LS. destruct (position_nth _ _ _ P) as [N _]. apply nth_error_Some. congruence. }
  pose proof (firstn_length p (shape (data v))) as L1. pose proof (skipn_length (S p) (shape (data v))) as L2.
  apply Nat.eqb_eq in E. cbn [moveaxis_last shape] in *.
  rewrite app_assoc, last_last in E. split; [|auto].
  cbn [scatter moveaxis_last shape]. rewrite (app_assoc (firstn p _) (skipn _ _) [nth p _ 0]), removelast_last.
  set (a := firstn p (shape (data v))) in *. set (b := skipn (S p) (shape (data v))) in *.
  replace (length ((a ++ b) ++ [nth p (shape (data v)) 0])) with (length b + p + 1)
    by (rewrite !app_length; cbn; lia).
  replace (length b + p + 1 - 1) with (length b + p) by lia. replace (length b + p - p) with (length b) by lia.
  rewrite !map_app. assert (LA : length a = p) by lia. f_equal; [|f_equal].
  - transitivity (map (fun d => nth d a 0) (seq 0 p)); [|rewrite <- LA; apply map_nth_seq].
    apply map_ext_in. intros d D. apply in_seq in D. rewrite <- app_assoc, app_nth1 by lia. auto.
  - cbn [map]. rewrite !app_nth2 by (rewrite app_length; lia). rewrite app_length.
    replace (length b + p - (length a + length b)) with 0 by lia.
    replace (length b + p + 1 - (length a + length b)) with 1 by lia. auto.
  - transitivity (map (fun d => nth d b 0) (seq 0 (length b))); [|apply map_nth_seq].
    assert (G : seq p (length b) = map (fun d => p + d) (seq 0 (length b))).
    { generalize (length b) as q. intros q. rewrite <- (Nat.add_0_r p) at 1. generalize 0 as z.
      induction q as [|q IH]; intros z; cbn; [auto|]. rewrite <- IH. do 2 f_equal. lia. }
    rewrite G, map_map. apply map_ext_in. intros d D. apply in_seq in D.
    rewrite <- app_assoc, app_nth2 by lia. rewrite app_nth1 by lia. f_equal. lia.
Qed.
Print Assumptions c63_shape.
(** Output written in ROI-pixel layout and converted back: original values within the ROI, no-data
    elsewhere; for two- and three-dimensional variables. *)
Theorem c63_roundtrip : forall A (nan fill : A) td layer nt nrows ncols roi grid v' lead r c,
  td <> "pixel"%string -> (forall d n, layer = Some (d, n) -> d <> "pixel"%string) ->
  length roi = nrows * ncols -> r < nrows -> c < ncols ->
  length lead = match layer with Some _ => 2 | None => 1 end ->
  convert_var nan nrows ncols (flatnonzero roi) (written fill td layer nt roi grid) = inr v' ->
  vals (data v') (lead ++ [r; c]) =
    if nth (r * ncols + c) roi false then grid lead (r * ncols + c) else fill.
Proof.
  intros A nan fill td layer nt nrows ncols roi grid v' lead r c NT NL LR R C LL H.
  set (v := written fill td layer nt roi grid) in *.
  assert (P : position "pixel" (dims v) = Some (length lead)).
  { unfold v, written. cbn [dims]. apply String.eqb_neq in NT. destruct layer as [[d n]|]; cbn [app position].
    - specialize (NL d n eq_refl). apply String.eqb_neq in NL. rewrite NT, NL, LL. auto.
    - rewrite NT, LL. auto. }
  assert (LS : length (shape (data v)) = length (dims v)) by (unfold v, written; cbn; destruct layer as [[d n]|]; auto).
  assert (LD : length lead + 1 + @length nat [] = length (dims v)) by (unfold v, written; cbn; destruct layer as [[d n]|]; cbn; lia).
  pose proof (c63_values A nan nrows ncols _ v v' _ lead [] r c P LS H eq_refl LD (NoDup_flatnonzero _)) as [V F].
  rewrite app_nil_r in V, F. cbn [app] in V. destruct (nth (r * ncols + c) roi false) eqn:E.
  - pose proof (flatnonzero_rank _ _ E) as K. rewrite (V _ K).
    unfold v, written. cbn [data vals]. rewrite removelast_last, last_last.
    f_equal. apply nth_error_nth. auto.
  - rewrite F; [unfold v, written, fill_of; auto|]. rewrite In_flatnonzero. congruence.
Qed.
Print Assumptions c63_roundtrip.
(** ... and this conversion never fails. *)
Theorem c63_roundtrip_succeeds : forall A (nan fill : A) td layer nt nrows ncols roi grid,
  td <> "pixel"%string -> (forall d n, layer = Some (d, n) -> d <> "pixel"%string) ->
  length roi = nrows * ncols ->
  exists v', convert_var nan nrows ncols (flatnonzero roi) (written fill td layer nt roi grid) = inr v'.
Proof.
  intros A nan fill td layer nt nrows ncols roi grid NT NL LR. unfold convert_var.
  apply String.eqb_neq in NT.
  assert (B : forallb (fun i => i <? nrows * ncols) (flatnonzero roi) = true).
  { apply forallb_forall. intros i I. apply flatnonzero_bound in I. apply Nat.ltb_lt. lia. }
  assert (P : position "pixel" (dims (written fill td layer nt roi grid)) = Some (match layer with Some _ => 2 | None => 1 end)).
  { unfold written. cbn [dims]. destruct layer as [[d n]|]; cbn [app position]; rewrite NT; auto.
    specialize (NL d n eq_refl). apply String.eqb_neq in NL. rewrite NL. auto. }
  rewrite P, B. unfold written. cbn [data moveaxis_last shape]. rewrite app_assoc, last_last.
  destruct layer as [[d n]|]; cbn [app nth]; rewrite Nat.eqb_refl; cbn [negb]; eauto.
Qed.
Print Assumptions c63_roundtrip_succeeds.
(** The coordinates of the converted dataset are those of the model grid. *)
Theorem c63_coordinates : forall xoff yoff res rows cols, 
  (forall j, j < cols -> conv_x (xllcorner xoff) res j = grid_x xoff res cols j) /\
  (forall i, i < rows -> conv_y (yllcorner yoff res rows) res rows i = grid_y yoff res rows i).
Proof.
  intros xoff yoff res rows cols. unfold conv_x, conv_y, xllcorner, yllcorner, grid_x, grid_y, linspace. split.
  - intros j J. destruct cols as [|[|n]]; [lia|replace j with 0 by lia; cbn; lra|].
    rewrite (S_INR (S n)). pose proof (pos_INR n). rewrite (S_INR n). field. lra.
  - intros i I. destruct rows as [|[|n]]; [lia|replace i with 0 by lia; cbn; lra|].
    rewrite (S_INR (S n)). pose proof (pos_INR n). rewrite (S_INR n). field. lra.
Qed.
Print Assumptions c63_coordinates.
(** Whole datasets: accepted only in ROI-pixel layout; the result has layout "grid" without geometry
    attributes, the grid coordinates, all other coordinates, and the converted variables in order. *)
Theorem c63_dataset : forall A C (nan : A) (ds ds' : dataset A C), convert nan ds = inr ds' ->
  exists g, d_layout ds = Some "roi_pixel"%string /\ d_geo ds = Some g /\
    d_layout ds' = Some "grid"%string /\ d_geo ds' = None /\
    d_xy ds' = Some (map (conv_x (g_xll g) (g_res g)) (seq 0 (g_ncols g)),
                     map (conv_y (g_yll g) (g_res g) (g_nrows g)) (seq 0 (g_nrows g))) /\
    (forall n x, In (n, x) (d_coords ds') <->
       In (n, x) (d_coords ds) /\ n <> "pixel"%string /\ n <> "x"%string /\ n <> "y"%string) /\
    Forall2 (fun v v' => fst v' = fst v /\
       convert_var nan (g_nrows g) (g_ncols g) (d_pixel ds) (snd v) = inr (snd v') /\
       (~ In "pixel"%string (dims (snd v)) -> snd v' = snd v)) (d_vars ds) (d_vars ds').
Proof.
  intros A C nan ds ds' H. unfold convert in H. destruct (d_layout ds) as [l|]; [|discriminate].
  destruct (String.eqb l "roi_pixel") eqn:E; [|discriminate]. apply String.eqb_eq in E. subst.
  destruct (d_geo ds) as [g|]; [|discriminate]. destruct (map_exn _ _) as [e|vars] eqn:M; [discriminate|].
  injection H as <-. exists g. do 5 (split; [reflexivity|]). split.
  - intros n x. cbn [d_coords]. rewrite filter_In. cbn [fst]. rewrite negb_true_iff, !orb_false_iff, !String.eqb_neq. tauto.
  - cbn [d_vars]. apply map_exn_ok in M. induction M as [|[n v] [n' v'] l l' Hv M IH]; constructor; auto.
    cbn [fst snd] in *. destruct (convert_var _ _ _ _ v) as [e|w] eqn:W; [discriminate|]. injection Hv as <- <-.
    split; [auto|]. split; [auto|]. intros NI. unfold convert_var in W.
    destruct (position "pixel" (dims v)) as [p|] eqn:P; [|congruence].
    exfalso. apply NI. destruct (position_nth _ _ _ P) as [N _]. eapply nth_error_In; eauto.
Qed.
Print Assumptions c63_dataset.
Theorem c63_rejects : forall A C (nan : A) (ds : dataset A C),
  d_layout ds <> Some "roi_pixel"%string -> convert nan ds = inl ValueError.
Proof.
  intros A C nan ds H. unfold convert. destruct (d_layout ds) as [l|]; auto.
  destruct (String.eqb l "roi_pixel") eqn:E; auto. apply String.eqb_eq in E. congruence.
Qed.
Print Assumptions c63_rejects.
Example c63_example : exists v',
  convert_var 0%Z 2 2 (flatnonzero [true; false; false; true])
    (written (-1)%Z "time" (Some ("soil_layer"%string, 2)) 1 [true; false; false; true]
       (fun lead i => Z.of_nat (10 * nth 1 lead 0 + i))) = inr v' /\
  map (vals (data v')) [[0; 0; 0; 0]; [0; 0; 0; 1]; [0; 1; 1; 0]; [0; 1; 1; 1]] = [0; -1; -1; 13]%Z.
Proof. eexists. split; reflexivity. Qed.
