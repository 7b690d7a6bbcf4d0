(** C95: configuration of point outputs — variables, points, values and CSV columns. *)
From Verif Require Import Common PointConfigModel NameProofs.
From Verif Require GridModel GridTheorems.
Open Scope string_scope.

(** * Variables *)
(** [t] is the part of [s] after its last dot, or all of it *)
Definition after_last_dot (s t : string) : Prop := ~ In "."%char (la t) /\ (s = t \/ exists p, s = p ++ "." ++ t).
Lemma split_dot_nonempty s : exists h t, split_dot s = h :: t.
Proof.
  induction s as [|c s IH]; simpl; [eauto|]. destruct (Ascii.eqb c "."); [eauto|].
  destruct IH as (h & t & ->). eauto.
Qed.
Lemma last_part_spec s : after_last_dot s (last_part s) /\ (forall h, split_dot s = [h] -> h = s /\ last_part s = s).
Proof.
  unfold last_part. induction s as [|c s [[N D] IH]].
  - simpl. split; [split; [auto|left; reflexivity]|]. intros h H. injection H as <-. auto.
  - cbn [split_dot]. destruct (Ascii.eqb c ".") eqn:E.
    + apply Ascii.eqb_eq in E. subst c. destruct (split_dot_nonempty s) as (h & t & Es).
      assert (L : List.last ("" :: split_dot s) "" = List.last (split_dot s) "") by (rewrite Es; reflexivity).
      rewrite L. split; [split; [exact N|]|].
      * right. destruct D as [D|[p D]].
        -- exists "". simpl. rewrite D at 1. reflexivity.
        -- exists (String "." p). simpl. rewrite D at 1. reflexivity.
      * intros x H. injection H as _ H. rewrite Es in H. discriminate.
    + destruct (split_dot_nonempty s) as (h & t & Es). rewrite Es in *. destruct t as [|h2 t].
      * destruct (IH h eq_refl) as [-> _]. simpl in N, D |- *. split; [split; [|left; reflexivity]|].
        -- intros [H|H]; [|auto]. subst c. discriminate E.
        -- intros x H. injection H as <-. auto.
      * change (List.last (String c h :: h2 :: t) "") with (List.last (h :: h2 :: t) "").
        split; [split; [exact N|]|intros x H; discriminate].
        right. destruct D as [D|[p D]].
        -- exfalso. apply N. clear - Es D. set (l := List.last (h :: h2 :: t) "") in *. clearbody l. subst l.
           revert h h2 t Es. induction s as [|a s IHs]; intros h h2 t Es; [discriminate|].
           simpl in Es. destruct (Ascii.eqb a ".") eqn:E; [apply Ascii.eqb_eq in E; left; auto|].
           right. destruct (split_dot_nonempty s) as (g & u & Eg). rewrite Eg in Es. injection Es as _ ->.
           eapply IHs. exact Eg.
        -- exists (String c p). simpl. rewrite D at 1. reflexivity.
Qed.
Lemma after_last_dot_unique s t u : after_last_dot s t -> after_last_dot s u -> t = u.
Proof.
  assert (X : forall t, after_last_dot s t -> exists y, rev (la s) = (rev (la t) ++ y)%list /\ match y with [] => True | c :: _ => ~ c <> "."%char end).
  { intros x [N [->|[p ->]]].
    - exists []. rewrite app_nil_r. auto.
    - exists (rev (la (p ++ "."))). rewrite <- append_assoc, la_app, rev_app_distr. split; [reflexivity|].
      rewrite la_app, rev_app_distr. simpl. tauto. }
  assert (F : forall t, after_last_dot s t -> Forall (fun c => c <> "."%char) (rev (la t))).
  { intros x [N _]. apply Forall_rev, Forall_forall. intros c H ->. auto. }
  intros Ht Hu. destruct (X t Ht) as (y & E1 & Y1). destruct (X u Hu) as (z & E2 & Y2).
  destruct (split_run (fun c => c <> "."%char) (rev (la t)) (rev (la u)) y z) as [H _]; auto; [congruence|].
  apply la_inj. rewrite <- (rev_involutive (la t)), <- (rev_involutive (la u)). congruence.
Qed.
(** A variable [v] of the output for an entry (variable name and optional output name) of the configuration *)
Definition entry_var (u : string * option string) (v : pvar) : Prop :=
  pv_var v = fst u /\ match snd u with Some n => pv_out v = n | None => after_last_dot (fst u) (pv_out v) end.
Lemma point_var_spec u v : entry_var u v <-> v = point_var (fst u) (snd u).
Proof.
  destruct u as [n o], v as [a b]. unfold entry_var, point_var; simpl. destruct o as [o|]; split.
  - intros [-> ->]. reflexivity.
  - intros H; injection H; auto.
  - intros [-> H]. f_equal. apply (after_last_dot_unique n); auto. apply last_part_spec.
  - intros H; injection H as -> ->. split; auto. apply last_part_spec.
Qed.
Lemma check_vars_none m vars : check_vars m vars = None <-> forall v, In v vars -> exists x, getitem m (pv_var v) = inr x.
Proof.
  induction vars as [|v vars IH]; simpl; [split; [tauto|reflexivity]|].
  destruct (getitem m (pv_var v)) as [e|x] eqn:E.
  - split; [intros H; destruct e; discriminate H|]. intros H. destruct (H v (or_introl eq_refl)) as [y H']. congruence.
  - rewrite IH. split; [intros H w [<-|Hw]; eauto|intros H w Hw; auto].
Qed.
Lemma nodup_length l : (List.length (nodup string_dec l) <? List.length l)%nat = false <-> NoDup l.
Proof.
  rewrite Nat.ltb_ge. induction l as [|x l IH]; simpl; [split; [constructor|lia]|].
  assert (L : forall l, (List.length (nodup string_dec l) <= List.length l)%nat).
  { clear. induction l as [|x l IH]; simpl; [lia|]. destruct (in_dec string_dec x l); simpl; lia. }
  destruct (in_dec string_dec x l) as [I|I].
  - pose proof (L l). split; [lia|]. intros N. inversion N. tauto.
  - simpl. split.
    + intros H. constructor; [exact I|]. apply IH. lia.
    + intros N. inversion_clear N. apply IH in H0. lia.
Qed.
(** A configuration of variables is accepted exactly if every entry is found in the state and the output names are
    distinct; the variables are the default variables followed by those of the configuration, in order, under the
    given name or the part of the variable name after the dot. *)
Theorem c95_variables : forall m add user vars,
  point_vars m add user = inr vars <->
  (exists uv, vars = ((if add then default_vars else []) ++ uv)%list /\ Forall2 entry_var user uv)
  /\ (forall v, In v vars -> exists x, getitem m (pv_var v) = inr x) /\ NoDup (map pv_out vars).
Proof.
  intros m add user vars. unfold point_vars.
  set (w := ((if add then default_vars else []) ++ map (fun u => point_var (fst u) (snd u)) user)%list).
  assert (W : (exists uv, vars = ((if add then default_vars else []) ++ uv)%list /\ Forall2 entry_var user uv) <-> vars = w).
  { unfold w. split.
    - intros (uv & -> & F). f_equal. induction F as [|u v user uv H F IH]; simpl; [reflexivity|]. apply point_var_spec in H. congruence.
    - intros ->. eexists; split; [reflexivity|]. induction user; simpl; constructor; auto. apply point_var_spec. reflexivity. }
  rewrite W. pose proof (check_vars_none m w) as C. pose proof (nodup_length (map pv_out w)) as N. rewrite (map_length pv_out) in N.
  destruct (check_vars m w) eqn:E1; [|destruct ((_ <? _)%nat) eqn:E2].
  - split; [discriminate|]. intros (-> & H & _). apply C in H. discriminate.
  - split; [discriminate|]. intros (-> & _ & H). apply N in H. discriminate.
  - split; [|intros (-> & _); reflexivity]. intros H. injection H as <-. rewrite <- C, <- N. auto.
Qed.
Print Assumptions c95_variables.
(** The default variables and their output names *)
Theorem c95_default_variables : map (fun v => (pv_var v, pv_out v)) default_vars =
  [("meteo.temp", "temp"); ("meteo.precip", "precip"); ("meteo.snowfall", "snowfall"); ("meteo.rainfall", "rainfall");
   ("meteo.rel_hum", "rel_hum"); ("meteo.wind_speed", "wind_speed"); ("meteo.sw_in", "sw_in"); ("meteo.sw_out", "sw_out");
   ("meteo.lw_in", "lw_in"); ("meteo.lw_out", "lw_out"); ("meteo.sw_in_clearsky", "sw_in_clearsky");
   ("meteo.dir_in_clearsky", "dir_in_clearsky"); ("meteo.diff_in_clearsky", "diff_in_clearsky");
   ("meteo.cloud_factor", "cloud_factor"); ("meteo.cloud_fraction", "cloud_fraction"); ("meteo.wet_bulb_temp", "wet_bulb_temp");
   ("meteo.dew_point_temp", "dew_point_temp"); ("meteo.atmos_press", "atmos_press"); ("meteo.sat_vap_press", "sat_vap_press");
   ("meteo.vap_press", "vap_press"); ("meteo.spec_hum", "spec_hum"); ("surface.temp", "surface_temp");
   ("surface.heat_flux", "surface_heat_flux"); ("surface.sens_heat_flux", "sens_heat_flux");
   ("surface.lat_heat_flux", "lat_heat_flux"); ("surface.advective_heat_flux", "advective_heat_flux");
   ("surface.albedo", "surface_albedo"); ("soil.temp", "soil_temp"); ("soil.heat_flux", "soil_heat_flux"); ("snow.swe", "swe");
   ("snow.depth", "snow_depth"); ("snow.temp", "snow_temp"); ("snow.thickness", "snow_thickness"); ("snow.density", "snow_density");
   ("snow.ice_content", "ice_content"); ("snow.liquid_water_content", "liquid_water_content"); ("snow.melt", "melt");
   ("snow.runoff", "runoff"); ("snow.sublimation", "sublimation"); ("snow.refreezing", "refreezing")]
  /\ NoDup (map pv_out default_vars).
Proof. split; [reflexivity|]. apply nodup_length. reflexivity. Qed.
Print Assumptions c95_default_variables.

(** The name of a variable within a category: exactly one dot *)
Definition category_dot_variable (s : string) : Prop :=
  exists c v, s = c ++ "." ++ v /\ ~ In "."%char (la c) /\ ~ In "."%char (la v).
Lemma split_no_dot v : ~ In "."%char (la v) -> split_dot v = [v].
Proof.
  induction v as [|a v IH]; simpl; intros H; [reflexivity|].
  destruct (Ascii.eqb a ".") eqn:E; [apply Ascii.eqb_eq in E; tauto|]. rewrite IH by tauto. reflexivity.
Qed.
Lemma split_two c v : ~ In "."%char (la c) -> ~ In "."%char (la v) -> split_dot (c ++ "." ++ v) = [c; v].
Proof.
  intros Hc Hv. induction c as [|a c IH]; simpl.
  - rewrite split_no_dot by exact Hv. reflexivity.
  - simpl in Hc. destruct (Ascii.eqb a ".") eqn:E; [apply Ascii.eqb_eq in E; tauto|]. simpl in IH. rewrite IH by tauto. reflexivity.
Qed.
Lemma parse_dot c v : ~ In "."%char (la c) -> ~ In "."%char (la v) -> parse (c ++ "." ++ v) = inr (c, Some v).
Proof. intros Hc Hv. unfold parse. rewrite split_two by assumption. reflexivity. Qed.
Lemma default_parse w : In w (map pv_var default_vars) -> exists c x, parse w = inr (c, Some x).
Proof.
  simpl. intros Hw. repeat (destruct Hw as [<-|Hw]; [eexists _, _; reflexivity|]). destruct Hw.
Qed.
(** If all entries are of the form category.variable, unknown entries are reported as configuration errors when the
    model is set up, and otherwise the values of all variables can be read at every time step. *)
Theorem c95_unknown_variables : forall m add user, (forall u, In u user -> category_dot_variable (fst u)) ->
  (forall e, point_vars m add user = inl e -> e = ConfigurationError)
  /\ (forall vars, point_vars m add user = inr vars -> forall v, In v vars -> forall g points, exists x, take_var m g points v = inr x).
Proof.
  intros m add user Hu. set (w := ((if add then default_vars else []) ++ map (fun u => point_var (fst u) (snd u)) user)%list).
  assert (A : forall v, In v w -> exists c x, parse (pv_var v) = inr (c, Some x)).
  { intros v H. apply in_app_iff in H. destruct H as [H|H].
    - destruct add; [|destruct H]. apply default_parse, in_map, H.
    - apply in_map_iff in H. destruct H as (u & <- & H). destruct (Hu u H) as (c & x & E & Hc & Hx). exists c, x.
      simpl. rewrite E. apply parse_dot; assumption. }
  split.
  - intros e. unfold point_vars. fold w.
    assert (C : forall l, (forall v, In v l -> exists c x, parse (pv_var v) = inr (c, Some x)) -> forall e, check_vars m l = Some e -> e = ConfigurationError).
    { clear. induction l as [|v l IH]; simpl; intros H e E; [discriminate|].
      destruct (H v (or_introl eq_refl)) as (c & x & P). unfold getitem in E. rewrite P in E.
      destruct (dget (m_attrs m) c) as [k|]; [|congruence]. destruct (dget k x) as [[d [a|]]|]; try congruence. apply IH in E; auto. }
    destruct (check_vars m w) eqn:E; [intros H; injection H as <-; apply (C w); auto|].
    destruct (_ <? _)%nat; congruence.
  - intros vars H v Hv g points. apply c95_variables in H. destruct H as ((uv & -> & F) & G & _).
    assert (Ew : ((if add then default_vars else []) ++ uv)%list = w).
    { unfold w. f_equal. clear - F. induction F as [|u v user uv H F IH]; simpl; [reflexivity|]. apply point_var_spec in H. congruence. }
    rewrite Ew in *. destruct (A v Hv) as (c & x & P). destruct (G v Hv) as (y & E).
    unfold take_var. unfold meta, getitem in *. rewrite P in *. destruct (dget (m_attrs m) c) as [k|]; [|discriminate].
    destruct (dget k x) as [[d [a|]]|]; try discriminate. simpl. eauto.
Qed.
Print Assumptions c95_unknown_variables.
(** A state with one variable meteo.temp, and the entry it satisfies *)
Definition small_state : manager :=
  MG 1 2 ["meteo"] [("meteo", [("temp", EN (VD TFloat 0 false "") (Some [CFloat (Some 270%R); CFloat (Some 271%R)]))])].
Example c95_variables_example : point_vars small_state false [("meteo.temp", None); ("meteo.temp", Some "t2")] = inr [PV "meteo.temp" "temp"; PV "meteo.temp" "t2"]
  /\ point_vars small_state false [("meteo.wind", None)] = inl ConfigurationError
  /\ point_vars small_state false [("meteo.temp", None); ("snow.swe", Some "temp")] = inl ConfigurationError.
Proof. repeat split. Qed.
(** Other wrong entries are not: the name of a category is accepted and fails at the first time step, and a name with
    more than one dot raises a different error. *)
Theorem c95_unknown_variables_refuted : exists m user vars v,
  point_vars m false user = inr vars /\ In v vars /\ (forall g points, take_var m g points v = inl KeyError)
  /\ point_vars m false [("meteo.temp.min", None)] = inl PValueError.
Proof. exists small_state, [("meteo", None)], [PV "meteo" "meteo"], (PV "meteo" "meteo"). repeat split. left; reflexivity. Qed.
Print Assumptions c95_unknown_variables_refuted.

(** * Points *)
Open Scope R_scope.
Open Scope string_scope.
(** Point [p] carries the given name and coordinates, lies in its pixel and has the altitude of that pixel. *)
Definition located (g : GridModel.rmeta) (dem : nat -> nat -> num) (name : string) (x y : R) (p : point) : Prop :=
  p_name p = name /\ p_x p = x /\ p_y p = y /\ (p_row p < GridModel.m_rows g)%nat /\ (p_col p < GridModel.m_cols g)%nat
  /\ GridTheorems.in_pixel g (p_row p) (p_col p) x y /\ p_alt p = dem (p_row p) (p_col p).
(** The name of the k-th point of the configuration (counted from 0) *)
Definition point_name (k : nat) (u : upoint) : string :=
  match u_name u with Some n => n | None => "point" ++ dec (k + 1) end.
(** Stations that are default output points: those in a pixel of the region of interest, or anywhere in the grid if the
    region is extended to the stations *)
Definition default_station (g : GridModel.rmeta) (extend : bool) (roi : nat -> nat -> bool) (s : station) : Prop :=
  exists i j, (i < GridModel.m_rows g)%nat /\ (j < GridModel.m_cols g)%nat /\ GridTheorems.in_pixel g i j (s_x s) (s_y s)
              /\ (extend = true \/ roi i j = true).
Lemma extent_pixel g x y : GridTheorems.proper_grid g -> GridModel.within_extent g (x, y) = true ->
  let '(i, j) := GridModel.station_pixel g (x, y) in
  (i < GridModel.m_rows g)%nat /\ (j < GridModel.m_cols g)%nat /\ GridTheorems.in_pixel g i j x y.
Proof.
  intros Hg E. destruct (GridModel.station_pixel g (x, y)) as [i j] eqn:Es.
  assert (B : (i < GridModel.m_rows g)%nat /\ (j < GridModel.m_cols g)%nat).
  { unfold GridModel.within_extent, GridModel.station_pixel in *. cbn [fst snd] in *.
    destruct (GridModel.rowcol (GridModel.m_tr g) x y) as [r c]. injection Es as <- <-.
    rewrite !andb_true_iff, !Z.leb_le, !Z.ltb_lt in E. lia. }
  destruct B as [Hi Hj]. split; [|split]; auto.
  apply (GridTheorems.c87_station_pixel g (x, y) i j Hg Hi Hj). auto.
Qed.
Lemma default_station_iff g (extend : bool) roi s : GridTheorems.proper_grid g ->
  ((if extend then GridModel.extended_within_roi else GridModel.within_roi) g roi (s_x s, s_y s) = true <-> default_station g extend roi s)
  /\ ((if extend then GridModel.extended_within_roi else GridModel.within_roi) g roi (s_x s, s_y s) = true ->
      GridModel.within_extent g (s_x s, s_y s) = true).
Proof.
  intros Hg. pose proof (extent_pixel g (s_x s) (s_y s) Hg) as P.
  assert (E : default_station g extend roi s -> GridModel.within_extent g (s_x s, s_y s) = true
              /\ let '(i, j) := GridModel.station_pixel g (s_x s, s_y s) in extend = true \/ roi i j = true).
  { intros (i & j & Hi & Hj & Hp & H). apply (GridTheorems.c87_station_pixel g (s_x s, s_y s) i j Hg Hi Hj) in Hp.
    destruct Hp as [H1 H2]. rewrite H2. auto. }
  destruct extend; unfold GridModel.extended_within_roi, GridModel.within_roi.
  - destruct (GridModel.within_extent g (s_x s, s_y s)) eqn:W.
    + specialize (P eq_refl). destruct (GridModel.station_pixel g (s_x s, s_y s)) as [i j]. split; [|auto].
      split; [intros _; exists i, j; tauto|intros _; destruct (roi i j); reflexivity].
    + simpl. split; [|discriminate]. split; [discriminate|]. intros H. apply E in H. destruct H; discriminate.
  - destruct (GridModel.within_extent g (s_x s, s_y s)) eqn:W.
    + specialize (P eq_refl). destruct (GridModel.station_pixel g (s_x s, s_y s)) as [i j]. split; [|auto].
      split; [intros H; exists i, j; tauto|intros H; apply E in H; destruct H as [_ [H|H]]; [discriminate|exact H]].
    + split; [|discriminate]. split; [discriminate|]. intros H. apply E in H. destruct H; discriminate.
Qed.
Lemma add_points_ok g dem : GridTheorems.proper_grid g -> forall user k pts0 pts, add_points g dem k user pts0 = inr pts ->
  exists up, pts = (pts0 ++ up)%list /\ List.length up = List.length user
  /\ (forall i u p, nth_error user i = Some u -> nth_error up i = Some p -> located g dem (point_name (k + i) u) (u_x u) (u_y u) p)
  /\ (NoDup (map p_name pts0) -> NoDup (map p_name pts)).
Proof.
  intros Hg. induction user as [|u user IH]; intros k pts0 pts H; cbn [add_points] in H.
  - injection H as <-. exists []. rewrite app_nil_r. split; [auto|split; [auto|split; [|auto]]]. intros [|i] u p E; discriminate.
  - fold (point_name k u) in H. destruct (existsb (String.eqb (point_name k u)) (map p_name pts0)) eqn:Ex; [discriminate|].
    destruct (GridModel.rowcol (GridModel.m_tr g) (u_x u) (u_y u)) as [row col] eqn:Er.
    destruct ((row <? 0)%Z || _ || _ || _)%bool eqn:Eb in H; [discriminate|].
    rewrite !orb_false_iff in Eb. destruct Eb as [[[B1 B2] B3] B4]. apply Z.ltb_ge in B1, B3. rewrite Z.geb_leb, Z.leb_gt in B2, B4.
    apply IH in H. destruct H as (up & -> & L & P & N). set (p0 := PT _ _ _ _ _ _) in *.
    exists (p0 :: up). rewrite <- app_assoc. split; [reflexivity|]. split; [simpl; lia|]. split.
    + intros [|i] w q E1 E2; simpl in E1, E2.
      * injection E1 as <-. injection E2 as <-. rewrite Nat.add_0_r. unfold located, p0; simpl.
        assert (E : GridModel.within_extent g (u_x u, u_y u) = true).
        { unfold GridModel.within_extent; cbn [fst snd]. rewrite Er. rewrite !andb_true_iff, !Z.leb_le, !Z.ltb_lt. lia. }
        pose proof (extent_pixel g (u_x u) (u_y u) Hg E) as Q. unfold GridModel.station_pixel in Q; cbn [fst snd] in Q. rewrite Er in Q. tauto.
      * replace (k + S i)%nat with (S k + i)%nat by lia. apply P; assumption.
    + intros N0. rewrite app_assoc. apply N. rewrite map_app. simpl. apply NoDup_Add with (a := point_name k u) (l := map p_name pts0).
      * pose proof (Add_app (point_name k u) (map p_name pts0) []) as A. rewrite app_nil_r in A. exact A.
      * split; [exact N0|]. intros I. assert (existsb (String.eqb (point_name k u)) (map p_name pts0) = true); [|congruence].
        apply existsb_exists. exists (point_name k u). split; [exact I|apply String.eqb_refl].
Qed.
(** Every accepted configuration of points consists of the stations of the region of interest (if requested) and the
    points of the configuration, in order. Each point keeps its name and coordinates and is assigned to the pixel in
    which it lies; names are unique. *)
Theorem c95_points : forall g extend roi dem (add : bool) stations user pts, GridTheorems.proper_grid g ->
  output_points g extend roi dem add stations user = inr pts ->
  exists (sel : list station) dp up, pts = (dp ++ up)%list
  /\ (if add then forall s, In s sel <-> In s stations /\ default_station g extend roi s else sel = [])
  /\ (exists f, sel = filter f stations)
  /\ Forall2 (fun s p => located g dem (s_name s) (s_x s) (s_y s) p) sel dp
  /\ List.length up = List.length user
  /\ (forall k u p, nth_error user k = Some u -> nth_error up k = Some p -> located g dem (point_name k u) (u_x u) (u_y u) p)
  /\ (NoDup (map s_name stations) -> NoDup (map p_name pts)).
Proof.
  intros g extend roi dem add stations user pts Hg H. unfold output_points in H.
  apply (add_points_ok g dem Hg) in H. destruct H as (up & -> & L & P & N).
  set (f := fun s => (if extend then GridModel.extended_within_roi else GridModel.within_roi) g roi (s_x s, s_y s)).
  exists (if add then filter f stations else []), (if add then default_points g extend roi dem stations else []), up.
  split; [reflexivity|]. split; [|split; [|split; [|split; [exact L|split; [exact P|]]]]].
  - destruct add; [|reflexivity]. intros s. rewrite filter_In. unfold f. rewrite (proj1 (default_station_iff g extend roi s Hg)). tauto.
  - destruct add; [exists f; reflexivity|]. exists (fun _ => false). induction stations; simpl; auto.
  - destruct add; [|constructor]. unfold default_points. fold f.
    assert (A : forall s, In s (filter f stations) -> GridModel.within_extent g (s_x s, s_y s) = true).
    { intros s Hs. apply filter_In in Hs. destruct Hs as [_ Hs]. apply (proj2 (default_station_iff g extend roi s Hg)) in Hs. exact Hs. }
    induction (filter f stations) as [|s l IH]; cbn [map]; constructor; [|apply IH; intros; apply A; right; auto].
    pose proof (extent_pixel g (s_x s) (s_y s) Hg (A s (or_introl eq_refl))) as Q.
    destruct (GridModel.station_pixel g (s_x s, s_y s)) as [i j]. unfold located; simpl. tauto.
  - intros Ns. apply N. destruct add; [|constructor]. unfold default_points. rewrite map_map.
    erewrite map_ext; [|intros s; destruct (GridModel.station_pixel g (s_x s, s_y s)); simpl; reflexivity].
    clear - Ns. induction stations as [|s l IH]; simpl in *; [constructor|]. inversion_clear Ns as [|? ? N1 N2].
    match goal with |- context [if ?b then _ else _] => destruct b end; simpl; auto. constructor; auto.
    intros I. apply N1. apply in_map_iff in I. destruct I as (x & <- & I). apply filter_In in I. apply in_map. tauto.
Qed.
Print Assumptions c95_points.
(** The configuration is accepted whenever all points lie in the grid and no name occurs twice; otherwise a
    configuration error is raised. *)
Theorem c95_points_accepted : forall g extend roi dem add stations user, GridTheorems.proper_grid g ->
  (forall u, In u user -> exists i j, (i < GridModel.m_rows g)%nat /\ (j < GridModel.m_cols g)%nat /\ GridTheorems.in_pixel g i j (u_x u) (u_y u)) ->
  NoDup (map s_name stations ++ map (fun ku => point_name (fst ku) (snd ku)) (combine (seq 0 (List.length user)) user)) ->
  exists pts, output_points g extend roi dem add stations user = inr pts.
Proof.
  intros g extend roi dem add stations user Hg Hu. unfold output_points.
  set (pts0 := if add then default_points g extend roi dem stations else []).
  assert (I0 : forall n, In n (map p_name pts0) -> In n (map s_name stations)).
  { intros n. unfold pts0. destruct add; [|intros []]. unfold default_points. rewrite map_map. intros I. apply in_map_iff in I.
    destruct I as (s & <- & I). apply filter_In in I. destruct (GridModel.station_pixel g (s_x s, s_y s)). simpl. apply in_map. tauto. }
  clearbody pts0. revert I0. generalize (map s_name stations). generalize 0%nat. clear stations. revert pts0.
  induction user as [|u user IH]; intros pts0 k names I0 N; cbn [add_points]; [eauto|]. fold (point_name k u).
  simpl in N. apply NoDup_remove in N. destruct N as [N1 N2].
  destruct (existsb (String.eqb (point_name k u)) (map p_name pts0)) eqn:Ex.
  { exfalso. apply existsb_exists in Ex. destruct Ex as (n & I & E). apply String.eqb_eq in E. subst n. apply N2, in_app_iff. auto. }
  destruct (Hu u (or_introl eq_refl)) as (i & j & Hi & Hj & Hp).
  apply (GridTheorems.c87_station_pixel g (u_x u, u_y u) i j Hg Hi Hj) in Hp. destruct Hp as [Hw _].
  unfold GridModel.within_extent in Hw; cbn [fst snd] in Hw.
  destruct (GridModel.rowcol (GridModel.m_tr g) (u_x u) (u_y u)) as [row col].
  rewrite !andb_true_iff, !Z.leb_le, !Z.ltb_lt in Hw.
  destruct ((row <? 0)%Z || _ || _ || _)%bool eqn:Eb.
  { exfalso. rewrite !orb_true_iff, !Z.ltb_lt, !Z.geb_leb, !Z.leb_le in Eb. lia. }
  apply (IH (fun w Hw' => Hu w (or_intror Hw')) _ (S k) (names ++ [point_name k u])%list).
  - intros n. rewrite map_app, !in_app_iff. simpl. intuition.
  - rewrite <- app_assoc. simpl. apply NoDup_Add with (a := point_name k u) (l := (names ++ map (fun ku => point_name (fst ku) (snd ku)) (combine (seq (S k) (List.length user)) user))%list); [apply Add_app|auto].
Qed.
Print Assumptions c95_points_accepted.
Theorem c95_points_rejected : forall g extend roi dem add stations user e, output_points g extend roi dem add stations user = inl e -> e = ConfigurationError.
Proof.
  intros g extend roi dem add stations user e. unfold output_points. generalize 0%nat.
  generalize (if add then default_points g extend roi dem stations else []). induction user as [|u user IH]; intros pts k; cbn [add_points]; [discriminate|].
  destruct (existsb _ _); [congruence|]. destruct (GridModel.rowcol _ _ _). destruct (_ || _)%bool; [congruence|]. apply IH.
Qed.
Print Assumptions c95_points_rejected.
Definition unit_grid : GridModel.rmeta := GridModel.RM 2 2 10 (GridModel.AF 10 (-10) 100 200).
Example c95_points_example : GridTheorems.proper_grid unit_grid /\ exists pts,
  output_points unit_grid false (fun i j => (i =? 0)%nat) (fun i j => Some (INR (i + j))) true
    [STN "a" 105 195; STN "b" 105 185] [UP None 115 185; UP (Some "c") 105 195] = inr pts.
Proof.
  assert (H : GridTheorems.proper_grid unit_grid) by (unfold GridTheorems.proper_grid; simpl; lra).
  split; [exact H|]. apply c95_points_accepted; [exact H| |].
  - intros u [<-|[<-|[]]].
    + exists 1%nat, 1%nat. unfold GridTheorems.in_pixel; simpl. split; [lia|split; [lia|lra]].
    + exists 0%nat, 0%nat. unfold GridTheorems.in_pixel; simpl. split; [lia|split; [lia|lra]].
  - apply (nodup_length ["a"; "b"; "point1"; "c"]). reflexivity.
Qed.

(** * Values *)
(** The series of a variable at a point holds, at every time step, the value of the state in the pixel of the point: the
    one value of a 2-dimensional variable, the values of all layers of a 3-dimensional variable. *)
Theorem c95_values : forall m g v points vals d a, take_var m g points v = inr vals ->
  meta m (pv_var v) = inr d -> getitem m (pv_var v) = inr (inr a) ->
  List.length a = (Nat.max (v_dim3 d) 1 * (GridModel.m_rows g * GridModel.m_cols g))%nat ->
  (forall p, In p points -> (p_row p < GridModel.m_rows g)%nat /\ (p_col p < GridModel.m_cols g)%nat) ->
  List.length vals = Nat.max (v_dim3 d) 1
  /\ forall l k p, (l < Nat.max (v_dim3 d) 1)%nat -> nth_error points k = Some p ->
     exists row c, nth_error vals l = Some row /\ List.length row = List.length points /\ nth_error row k = Some (Some c)
                   /\ nth_error a ((l * GridModel.m_rows g + p_row p) * GridModel.m_cols g + p_col p) = Some c.
Proof.
  intros m g v points vals d a H Hm Hg La Hp. unfold take_var in H. rewrite Hm, Hg in H. injection H as <-.
  unfold take_points. rewrite map_length, seq_length. split; [reflexivity|]. intros l k p Hl Hk.
  assert (Hip : In p points) by (apply nth_error_In with k; exact Hk). destruct (Hp p Hip) as [Hr Hc].
  set (R := GridModel.m_rows g) in *. set (C := GridModel.m_cols g) in *. set (D := Nat.max (v_dim3 d) 1) in *.
  assert (B : ((l * R + p_row p) * C + p_col p < List.length a)%nat).
  { rewrite La. assert (l * R + p_row p + 1 <= D * R)%nat by nia. nia. }
  destruct (nth_error a ((l * R + p_row p) * C + p_col p)) as [c|] eqn:E; [|apply nth_error_None in E; lia].
  eexists _, c. split; [|split; [|split; [|reflexivity]]].
  - rewrite nth_error_map. rewrite (nth_error_nth' (seq 0 D) 0%nat) by (rewrite seq_length; exact Hl). rewrite seq_nth by exact Hl. simpl. reflexivity.
  - rewrite map_length. reflexivity.
  - rewrite nth_error_map, Hk. simpl. f_equal. unfold pixel_index. fold C. rewrite <- E. f_equal. nia.
Qed.
Print Assumptions c95_values.
Example c95_values_example : take_var small_state (GridModel.RM 1 2 10 (GridModel.AF 10 (-10) 100 200)) [PT "p" 115 195 None 0 1] (PV "meteo.temp" "temp")
  = inr [[Some (CFloat (Some 271))]].
Proof. reflexivity. Qed.

(** * Layers *)
Open Scope nat_scope.
Open Scope string_scope.
Lemma layer_coord_inj c c' : layer_coord c = layer_coord c' -> c = c'.
Proof. apply append_inj_r. Qed.
Definition layers_step (d : dict nat) (v : string * nat) : dict nat :=
  match snd v with O => d | n => dset d (layer_coord (fst v)) n end.
Lemma layer_coords_fold all : (forall c c' n n', In (c, S n) all -> In (c', S n') all -> c <> c' ++ "_layer") ->
  forall vars d, (forall v, In v vars -> In v all) ->
  (forall x k, dget d x = Some k -> exists c' n', In (c', S n') all /\ x = layer_coord c') ->
  layer_coords vars d = inr (fold_left layers_step vars d).
Proof.
  intros Hall. induction vars as [|[c n] vars IH]; intros d Hv Hd; simpl; [reflexivity|].
  assert (Hv' : forall v, In v vars -> In v all) by (intros v H; apply Hv; right; exact H).
  destruct n as [|n]; [apply IH; assumption|].
  destruct (dget d c) as [k|] eqn:E.
  - exfalso. apply Hd in E. destruct E as (c' & n' & I & E). apply (Hall c c' n n'); auto. apply Hv. left; reflexivity.
  - unfold layers_step at 2; simpl. apply IH; auto. intros x k. rewrite dget_dset. destruct (layer_coord c =? x) eqn:Ex.
    + intros _. apply String.eqb_eq in Ex. exists c, n. split; [apply Hv; left; reflexivity|auto].
    + apply Hd.
Qed.
Lemma layers_fold_some vars : forall d x k, dget (fold_left layers_step vars d) x = Some k ->
  dget d x = Some k \/ exists c n, In (c, S n) vars /\ k = S n /\ x = layer_coord c.
Proof.
  induction vars as [|[c n] vars IH]; intros d x k H; [auto|]. simpl in H. apply IH in H. destruct H as [H|(c' & n' & I & E)].
  - unfold layers_step in H; simpl in H. destruct n as [|n]; [auto|]. rewrite dget_dset in H. destruct (layer_coord c =? x) eqn:Ex; [|auto].
    right. apply String.eqb_eq in Ex. exists c, n. split; [left; reflexivity|split; congruence].
  - right. exists c', n'. split; [right; exact I|exact E].
Qed.
Lemma layers_fold_in vars : forall d c, ((exists n, In (c, S n) vars) \/ dget d (layer_coord c) <> None) ->
  dget (fold_left layers_step vars d) (layer_coord c) <> None.
Proof.
  induction vars as [|[c' n'] vars IH]; intros d c H; simpl.
  - destruct H as [[n []]|H]; exact H.
  - apply IH. unfold layers_step; simpl. destruct H as [[n [H|H]]|H].
    + injection H as -> ->. right. rewrite dget_dset, String.eqb_refl. discriminate.
    + left; eauto.
    + right. destruct n' as [|n']; [exact H|]. rewrite dget_dset. destruct (layer_coord c' =? layer_coord c); [discriminate|exact H].
Qed.
(** The dataset has one layer coordinate per category with 3-dimensional variables, as long as these variables; if the
    numbers of layers within a category differ, it is rejected (the comparison in the code itself is never reached). *)
Theorem c95_layers : forall vars, (forall c c' n n', In (c, S n) vars -> In (c', S n') vars -> c <> c' ++ "_layer") ->
  ((forall c n n', In (c, S n) vars -> In (c, S n') vars -> n = n') ->
   exists d, create_layers vars = inr d /\ forall x k, dget d x = Some k <-> exists c n, In (c, S n) vars /\ k = S n /\ x = c ++ "_layer")
  /\ ((exists c n n', In (c, S n) vars /\ In (c, S n') vars /\ n <> n') -> create_layers vars = inl PValueError).
Proof.
  intros vars H. unfold create_layers. rewrite (layer_coords_fold vars H vars []); [|auto|discriminate].
  set (d := fold_left layers_step vars []). assert (S1 := layers_fold_some vars []). fold d in S1.
  assert (S2 : forall c n, In (c, S n) vars -> exists k, dget d (layer_coord c) = Some k).
  { intros c n I. pose proof (layers_fold_in vars [] c (or_introl (ex_intro _ n I))) as Q. fold d in Q.
    destruct (dget d (layer_coord c)); [eauto|congruence]. }
  split.
  - intros C. exists d.
    assert (A : forall c n, In (c, S n) vars -> dget d (layer_coord c) = Some (S n)).
    { intros c n I. destruct (S2 c n I) as [k E]. rewrite E. apply S1 in E. destruct E as [E|(c' & n' & I' & -> & E)]; [discriminate|].
      apply layer_coord_inj in E. subst c'. rewrite (C c n n' I I'). reflexivity. }
    split.
    + replace (sizes_agree vars d) with true; [reflexivity|]. symmetry. apply forallb_forall. intros [c [|n]] I; simpl; [reflexivity|].
      rewrite (A c n I). apply Nat.eqb_refl.
    + intros x k. split.
      * intros E. apply S1 in E. destruct E as [E|E]; [discriminate|exact E].
      * intros (c & n & I & -> & ->). apply A. exact I.
  - intros (c & n & n' & I & I' & D). replace (sizes_agree vars d) with false; [reflexivity|]. symmetry.
    destruct (sizes_agree vars d) eqn:E; [|reflexivity]. exfalso. unfold sizes_agree in E. rewrite forallb_forall in E.
    destruct (S2 c n I) as [k Ek]. pose proof (E _ I) as E1. pose proof (E _ I') as E2. simpl in E1, E2. rewrite Ek in E1, E2.
    apply Nat.eqb_eq in E1, E2. congruence.
Qed.
Print Assumptions c95_layers.
Example c95_layers_example : create_layers [("soil", 4); ("snow", 3); ("meteo", 0); ("soil", 4)] = inr [("soil_layer", 4); ("snow_layer", 3)]
  /\ create_layers [("soil", 4); ("soil", 3)] = inl PValueError
  /\ forall c c' n n', In (c, S n) [("soil", 4); ("snow", 3)] -> In (c', S n') [("soil", 4); ("snow", 3)] -> c <> c' ++ "_layer".
Proof.
  split; [reflexivity|split; [reflexivity|]]. intros c c' n n' [H|[H|[]]] [H'|[H'|[]]]; injection H as <- _; injection H' as <- _; discriminate.
Qed.

(** * CSV columns *)
(** What the column [name] should hold: a 2-dimensional variable under its own name, layer i of a 3-dimensional
    variable under its name followed by i, and nothing else. *)
Definition column (vars : list (pvar * nat)) (name : string) (s : source) : Prop :=
  (exists v, In (v, 0) vars /\ name = pv_out v /\ s = Whole (pv_out v))
  \/ (exists v n i, In (v, n) vars /\ i < n /\ name = pv_out v ++ dec i /\ s = Layer (pv_out v) i).
(** No column name arises in two ways. *)
Definition unambiguous (vars : list (pvar * nat)) : Prop :=
  NoDup (map (fun v => pv_out (fst v)) vars)
  /\ (forall v n w k i, In (v, n) vars -> In (w, k) vars -> i < n -> pv_out v ++ dec i <> pv_out w)
  /\ (forall v n w k i j, In (v, n) vars -> In (w, k) vars -> i < n -> j < k -> pv_out v ++ dec i = pv_out w ++ dec j -> pv_out v = pv_out w).
Lemma same_entry (vars : list (pvar * nat)) x y : NoDup (map (fun v => pv_out (fst v)) vars) -> In x vars -> In y vars ->
  pv_out (fst x) = pv_out (fst y) -> x = y.
Proof.
  induction vars as [|z vars IH]; simpl; [tauto|]. intros N [->|Hx] [->|Hy] E; inversion_clear N as [|? ? N1 N2]; auto.
  - exfalso. apply N1. rewrite E. apply in_map_iff. eauto.
  - exfalso. apply N1. rewrite <- E. apply in_map_iff. eauto.
Qed.
Lemma dataset_vars_get vars x s : dget (dataset_vars vars) x = Some s <-> exists v, In v vars /\ x = pv_out (fst v) /\ s = Whole x.
Proof.
  unfold dataset_vars.
  assert (G : forall d, dget (fold_left (fun d v => dset d (pv_out (fst v)) (Whole (pv_out (fst v)))) vars d) x = Some s
                <-> (exists v, In v vars /\ x = pv_out (fst v) /\ s = Whole x) \/ ((forall v, In v vars -> x <> pv_out (fst v)) /\ dget d x = Some s)).
  { induction vars as [|v vars IH]; intros d; simpl; [split; [intros H; right; split; [intros ? []|exact H]|intros [(v & [] & _)|[_ H]]; exact H]|].
    rewrite IH, dget_dset. destruct (pv_out (fst v) =? x) eqn:E.
    - apply String.eqb_eq in E. split.
      + intros [(w & I & H)|[H1 H2]]; left; [exists w; tauto|exists v; intuition congruence].
      + intros [(w & [->|I] & -> & ->)|[H _]].
        * destruct (in_dec string_dec (pv_out (fst w)) (map (fun v => pv_out (fst v)) vars)) as [I|I].
          -- left. apply in_map_iff in I. destruct I as (u & Eu & I). exists u. auto.
          -- right. split; [|reflexivity]. intros u Hu Hx. apply I. rewrite Hx. apply in_map_iff. eauto.
        * left. eauto.
        * exfalso. apply (H v); auto.
    - apply String.eqb_neq in E. split.
      + intros [(w & I & H)|[H1 H2]]; [left; exists w; tauto|right; split; [|exact H2]]. intros w [<-|I]; auto.
      + intros [(w & [->|I] & -> & ->)|[H1 H2]]; [tauto|left; eauto|right; split; auto]. }
  rewrite G. simpl. split; [intros [H|[_ H]]; [exact H|discriminate]|tauto].
Qed.
Lemma layers_get name n (d : dict source) x : dget (fold_left (fun d i => dset d (name ++ dec i) (Layer name i)) (seq 0 n) d) x
  = match find (fun i => (name ++ dec i) =? x) (seq 0 n) with Some i => Some (Layer name i) | None => dget d x end.
Proof.
  induction n as [|n IH]; [reflexivity|]. rewrite seq_S, fold_left_app. simpl. rewrite dget_dset, IH.
  assert (F : find (fun i => (name ++ dec i) =? x) (seq 0 n ++ [n]) =
              match find (fun i => (name ++ dec i) =? x) (seq 0 n) with Some i => Some i | None => if (name ++ dec n) =? x then Some n else None end).
  { generalize (seq 0 n). induction l as [|a l IHl]; cbn [find app]; [reflexivity|]. destruct ((name ++ dec a) =? x); [reflexivity|exact IHl]. }
  rewrite F. destruct (find _ (seq 0 n)) as [i|] eqn:E.
  - destruct ((name ++ dec n) =? x) eqn:Ex; [|reflexivity]. apply find_some in E. destruct E as [_ E].
    apply String.eqb_eq in E, Ex. subst x. apply append_inj_l, dec_inj in Ex. congruence.
  - destruct ((name ++ dec n) =? x); reflexivity.
Qed.
(** If no column name arises in two ways, the CSV files have exactly the expected columns. *)
Theorem c95_csv_columns : forall vars, unambiguous vars ->
  (forall name s, dget (csv_columns vars) name = Some s <-> column vars name s) /\ NoDup (map fst (csv_columns vars)).
Proof.
  intros vars (N & A1 & A2). unfold csv_columns. split.
  - assert (G : forall rest don d, vars = (don ++ rest)%list ->
      (forall x s, dget d x = Some s <->
         (exists v, In v vars /\ (snd v = 0 \/ In v rest) /\ x = pv_out (fst v) /\ s = Whole x)
         \/ (exists v n i, In (v, n) don /\ i < n /\ x = pv_out v ++ dec i /\ s = Layer (pv_out v) i)) ->
      forall x s, dget (fold_left split_layers rest d) x = Some s <-> column vars x s).
    { induction rest as [|[v n] rest IH]; intros don d Ev Hd x s; simpl.
      - rewrite Hd. unfold column. rewrite app_nil_r in Ev. subst don. split.
        + intros [([v k] & I & [H|[]] & -> & ->)|H]; [left; exists v; simpl in *; subst k; auto|right; exact H].
        + intros [(v & I & -> & ->)|H]; [left; exists (v, 0); simpl; auto|right; exact H].
      - assert (Iv : In (v, n) vars) by (rewrite Ev; apply in_app_iff; right; left; reflexivity).
        apply (IH (don ++ [(v, n)])%list); [rewrite <- app_assoc; exact Ev|]. clear x s IH. intros x s.
        assert (Nr : ~ In (v, n) rest).
        { intros I. rewrite Ev in N. rewrite map_app in N. simpl in N. apply NoDup_remove_2 in N. apply N, in_app_iff. right.
          apply (in_map (fun v => pv_out (fst v)) _ _ I). }
        unfold split_layers; simpl. destruct n as [|n].
        + rewrite Hd. split.
          * intros [(w & I & [H|[<-|H]] & E)|(w & k & i & I & H)]; [left; exists w; auto|left; exists (v, 0); auto|left; exists w; auto|].
            right. exists w, k, i. split; [apply in_app_iff; auto|exact H].
          * intros [(w & I & [H|H] & E)|(w & k & i & I & H)]; [left; exists w; auto|left; exists w; simpl; auto|].
            apply in_app_iff in I. destruct I as [I|[I|[]]]; [right; exists w, k, i; auto|]. injection I as -> <-. lia.
        + change (match n with 0 => [0] | S _ => 0 :: seq 1 n end) with (seq 0 (S n)) || idtac.
          rewrite dget_ddel. change (0 :: seq 1 n) with (seq 0 (S n)).
          change (fold_left (fun (d0 : dict source) (i : nat) => dset d0 (pv_out v ++ dec i) (Layer (pv_out v) i)) (seq 1 n) (dset d (pv_out v ++ dec 0) (Layer (pv_out v) 0)))
            with (fold_left (fun (d0 : dict source) (i : nat) => dset d0 (pv_out v ++ dec i) (Layer (pv_out v) i)) (seq 0 (S n)) d).
          rewrite layers_get. destruct (pv_out v =? x) eqn:Ex.
          * apply String.eqb_eq in Ex. subst x. split; [discriminate|]. intros [(w & I & H & E & _)|(w & k & i & I & Hi & E & _)]; exfalso.
            -- assert (w = (v, S n)) by (apply (same_entry vars); auto). subst w. destruct H as [H|H]; [discriminate|auto].
            -- apply in_app_iff in I. destruct I as [I|[I|[]]].
               ++ apply (A1 w k v (S n) i); auto. rewrite Ev. apply in_app_iff. auto.
               ++ injection I as <- <-. apply (A1 v (S n) v (S n) i); auto.
          * apply String.eqb_neq in Ex. destruct (find (fun i => (pv_out v ++ dec i) =? x) (seq 0 (S n))) as [i|] eqn:Ef.
            -- apply find_some in Ef. destruct Ef as [Ei Ef]. apply in_seq in Ei. apply String.eqb_eq in Ef. subst x. split.
               ++ intros H. injection H as <-. right. exists v, (S n), i. split; [apply in_app_iff; right; left; reflexivity|]. split; [lia|auto].
               ++ intros [(w & I & H & E & _)|(w & k & j & I & Hj & E & ->)].
                  ** exfalso. destruct w as [w k]. apply (A1 v (S n) w k i); auto. lia.
                  ** assert (I' : In (w, k) vars).
                     { apply in_app_iff in I. destruct I as [I|[I|[]]]; [rewrite Ev; apply in_app_iff; auto|congruence]. }
                     assert (Eo : pv_out v = pv_out w) by (apply (A2 v (S n) w k i j); auto; lia).
                     rewrite Eo in E |- *. apply append_inj_l, dec_inj in E. congruence.
            -- rewrite Hd. split.
               ++ intros [(w & I & [H|[H|H]] & E & Es)|(w & k & i & I & H)]; [left; exists w; auto|subst w; simpl in E; congruence|left; exists w; auto|].
                  right. exists w, k, i. split; [apply in_app_iff; auto|exact H].
               ++ intros [(w & I & [H|H] & E & Es)|(w & k & i & I & Hi & E & Es)]; [left; exists w; auto|left; exists w; simpl; auto|].
                  apply in_app_iff in I. destruct I as [I|[I|[]]]; [right; exists w, k, i; auto|]. injection I as <- <-.
                  exfalso. assert (Q : In i (seq 0 (S n))) by (apply in_seq; lia). apply (find_none _ _ Ef) in Q. apply String.eqb_neq in Q. auto. }
    apply (G vars []); [reflexivity|]. intros x s. rewrite dataset_vars_get. split.
    + intros (v & I & -> & ->). left. exists v. auto.
    + intros [(v & I & _ & -> & ->)|(v & n & i & [] & _)]. exists v. auto.
  - assert (K : forall l d, NoDup (map fst d) -> NoDup (map fst (fold_left split_layers l d))).
    { induction l as [|[v n] l IH]; intros d Hd; simpl; [exact Hd|]. apply IH. unfold split_layers; simpl. destruct n as [|n]; [exact Hd|].
      apply ddel_keys.
      assert (K1 : forall l0 d0, NoDup (map fst d0) -> NoDup (map fst (fold_left (fun d i => dset d (pv_out v ++ dec i) (Layer (pv_out v) i)) l0 d0)))
        by (induction l0; intros d0 H0; simpl; auto using dset_keys).
      apply (K1 (seq 0 (S n)) d Hd). }
    apply K. unfold dataset_vars. assert (K0 : forall d : dict source, NoDup (map fst d) -> NoDup (map fst (fold_left (fun d v => dset d (pv_out (fst v)) (Whole (pv_out (fst v)))) vars d))).
    { clear. induction vars; intros d Hd; simpl; auto using dset_keys. }
    apply K0. constructor.
Qed.
Print Assumptions c95_csv_columns.
(** This holds for all variables with distinct names that do not end in a digit, among them the default variables. *)
Theorem c95_csv_names : forall vars, NoDup (map (fun v => pv_out (fst v)) vars) ->
  (forall v n, In (v, n) vars -> no_digit_end (pv_out v)) -> unambiguous vars.
Proof.
  intros vars N D. split; [exact N|]. split.
  - intros v n w k i Iv Iw Hi. apply numbered_neq. eapply D; eauto.
  - intros v n w k i j Iv Iw Hi Hj E. apply numbered_inj in E; [tauto|eapply D; eauto|eapply D; eauto].
Qed.
Print Assumptions c95_csv_names.
Theorem c95_csv_default : forall dim3, unambiguous (map (fun v => (v, dim3 v)) default_vars).
Proof.
  intros dim3. apply c95_csv_names.
  - rewrite map_map. simpl fst. apply (proj2 c95_default_variables).
  - intros v n I. apply in_map_iff in I. destruct I as (w & E & I). injection E as -> _.
    assert (F : Forall (fun v => no_digit_end (pv_out v)) default_vars).
    { apply Forall_forall. intros u Hu. apply no_digit_endb_ok. revert u Hu. apply forallb_forall. reflexivity. }
    rewrite Forall_forall in F. apply F, I.
Qed.
Print Assumptions c95_csv_default.
(** Otherwise a variable can silently be replaced by a layer of another one, although the names were accepted. *)
Theorem c95_csv_columns_refuted : exists vars v, NoDup (map (fun v => pv_out (fst v)) vars) /\ In (v, 0) vars
  /\ forall name, dget (csv_columns vars) name <> Some (Whole (pv_out v)).
Proof.
  exists [(PV "soil.temp" "soil_temp", 2); (PV "surface.temp" "soil_temp0", 0)], (PV "surface.temp" "soil_temp0").
  split; [apply (nodup_length ["soil_temp"; "soil_temp0"]); reflexivity|]. split; [right; left; reflexivity|].
  intros name H. apply dget_in in H. revert H. vm_compute. intros [H|[H|[]]]; discriminate H.
Qed.
Print Assumptions c95_csv_columns_refuted.
(** Different points are written to different files. *)
Theorem c95_csv_files : forall p q, csv_file p = csv_file q -> p_name p = p_name q.
Proof. intros p q H. apply append_inj_l, append_inj_r in H. exact H. Qed.
Print Assumptions c95_csv_files.
