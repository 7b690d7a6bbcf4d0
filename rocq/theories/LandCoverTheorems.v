(** C103: the land cover classes of a grid, their leaf area index and the forest pixels. *)
From Verif Require Import Common GridBalanceModel CanopyModel CanopyTheorems EtModel EtSpec EtTheorems LandCoverModel LandCoverProofs.
From Coq Require Import Sorted.
Open Scope R_scope.

(** * Specification *)
(** The parameters of a class: the first entry with this number *)
Definition configured (classes : list (Z * lcclass)) (k : Z) (c : lcclass) : Prop :=
  exists before after, classes = before ++ (k, c) :: after /\ ~ In k (map fst before).
Definition occurs (g : list lpix) (k : Z) : Prop := exists p, In p g /\ p_roi p = true /\ p_class p = k.
(** The pixel lies in the region and has a positive class with parameters c *)
Definition belongs (classes : list (Z * lcclass)) (p : lpix) (c : lcclass) : Prop :=
  p_roi p = true /\ (0 < p_class p)%Z /\ configured classes (p_class p) c.
Definition lai_range (c : lcclass) (lo hi : R) : Prop := exists add, l_lai c = Some (LA (Some lo) (Some hi) add).
Definition lai_add (c : lcclass) : R := match l_lai c with Some (LA _ _ (Some a)) => a | _ => 0 end.

Lemma configured_of classes k c : configured classes k c <-> config_of k classes = Some c.
Proof.
  unfold configured, config_of. split.
  - intros (b & a & -> & N). induction b as [|[x y] r IH]; cbn in *.
    + rewrite Z.eqb_refl. reflexivity.
    + destruct (Z.eqb_spec x k); [subst; tauto|]. apply IH. tauto.
  - induction classes as [|[x y] r IH]; cbn; [discriminate|]. destruct (Z.eqb_spec x k).
    + intro E. injection E as <-. subst. exists [], r. cbn. auto.
    + intro E. destruct (IH E) as (b & a & -> & N). exists ((x, y) :: b), a. cbn. intuition.
Qed.
Lemma known_iff classes k : known classes k = true <-> exists c, configured classes k c.
Proof.
  unfold known. split.
  - destruct (config_of k classes) eqn:E; [|discriminate]. intros _. exists l. apply configured_of; assumption.
  - intros (c & H). apply configured_of in H. rewrite H. reflexivity.
Qed.
Lemma forest_iff classes k : forest classes k = true <-> exists c, configured classes k c /\ l_forest c = true.
Proof.
  unfold forest. split.
  - destruct (config_of k classes) eqn:E; [|discriminate]. intro F. exists l. split; [apply configured_of|]; assumption.
  - intros (c & H & F). apply configured_of in H. rewrite H. assumption.
Qed.
Lemma complete_iff classes k : complete classes k = true <-> exists c lo hi, configured classes k c /\ lai_range c lo hi.
Proof.
  unfold complete, lai_range. split.
  - destruct (config_of k classes) as [[f [[[lo|] [hi|] ad]|] sg pl]|] eqn:E; try discriminate. intros _.
    eexists _, lo, hi. split; [apply configured_of; exact E|]. exists ad. reflexivity.
  - intros (c & lo & hi & H & ad & L). apply configured_of in H. rewrite H. destruct c; cbn in L. subst. reflexivity.
Qed.

(** * Initialisation *)
(** There is a mask exactly for the positive classes of the region with parameters; it contains the pixels of the region with this class.
    Forests and classes with a complete leaf area index are found among them, each once and in increasing order. *)
Theorem c103_classes : forall classes g,
  let st := lc_initialize classes g in
  (forall k m, In (k, m) (s_pixels st) <->
     (0 < k)%Z /\ occurs g k /\ (exists c, configured classes k c) /\
     length m = length g /\ forall i p, nth_error g i = Some p -> (nth_error m i = Some true <-> p_roi p = true /\ p_class p = k)) /\
  StronglySorted Z.lt (map fst (s_pixels st)) /\
  (forall k, In k (s_forest st) <-> (0 < k)%Z /\ occurs g k /\ exists c, configured classes k c /\ l_forest c = true) /\
  StronglySorted Z.lt (s_forest st) /\
  (forall k, In k (s_lai st) <-> (0 < k)%Z /\ occurs g k /\ exists c lo hi, configured classes k c /\ lai_range c lo hi) /\
  StronglySorted Z.lt (s_lai st).
Proof.
  intros classes g st. unfold st. rewrite init_eq. cbn [s_pixels s_forest s_lai].
  split; [|split; [|split; [|split; [|split]]]].
  - intros k m. rewrite in_map_iff. split.
    + intros (x & E & I). injection E as <- <-. apply filter_In in I. destruct I as (I & K). apply region_in in I.
      destruct I as (P & I). split; [assumption|]. split; [exact I|]. split; [apply known_iff; assumption|].
      rewrite pixels_map. split; [apply map_length|]. intros i p N. erewrite map_nth_error by exact N.
      split; [intro E; injection E as E; apply andb_prop in E; destruct E as (E & ?); apply Z.eqb_eq in E; auto|].
      intros (-> & ->). rewrite Z.eqb_refl. reflexivity.
    + intros (P & O & K & L & H). exists k. split; [|apply filter_In; split; [apply region_in; auto|apply known_iff; assumption]].
      f_equal. rewrite pixels_map. apply known_iff in K. clear P O K. revert m L H.
      induction g as [|p g IH]; intros [|b m] L H; cbn in *; try discriminate; [reflexivity|].
      f_equal.
      * specialize (H 0%nat p eq_refl). cbn in H. destruct b.
        -- destruct H as (H & _). destruct (H eq_refl) as (-> & ->). rewrite Z.eqb_refl. reflexivity.
        -- destruct (Z.eqb_spec (p_class p) k); [|reflexivity]. destruct (p_roi p); [|reflexivity].
           destruct H as (_ & H). specialize (H (conj eq_refl e)). discriminate.
      * apply IH; [congruence|]. intros i q N. apply (H (S i) q N).
  - rewrite map_map. cbn. rewrite map_id. apply filter_sorted, region_sorted.
  - intro k. rewrite filter_In, region_in, forest_iff. tauto.
  - apply filter_sorted, region_sorted.
  - intro k. rewrite filter_In, region_in, complete_iff. tauto.
  - apply filter_sorted, region_sorted.
Qed.
Print Assumptions c103_classes.
(** A warning is logged exactly once for every class of the region without parameters, and for every class with a leaf area index without minimum
    or maximum; no other warnings. *)
Theorem c103_warnings : forall classes g,
  let w := s_warnings (lc_initialize classes g) in
  NoDup w /\
  (forall k, In (UnknownClass k) w <-> (0 < k)%Z /\ occurs g k /\ forall c, ~ configured classes k c) /\
  (forall k, In (IncompleteLai k) w <-> (0 < k)%Z /\ occurs g k /\ exists c a, configured classes k c /\ l_lai c = Some a /\ (a_min a = None \/ a_max a = None)).
Proof.
  intros classes g w. unfold w. rewrite init_eq. cbn [s_warnings].
  assert (A : forall k x, In x (warns classes k) -> x = UnknownClass k \/ x = IncompleteLai k).
  { intros k x. unfold warns. destruct (config_of k classes) as [[f [[[lo|] [hi|] ad]|] sg pl]|]; cbn; intuition. }
  split; [|split].
  - pose proof (sorted_nodup _ (region_sorted g)) as N. induction N as [|k r NI ND IH]; cbn; [constructor|].
    assert (D : forall x, In x (warns classes k) -> ~ In x (flat_map (warns classes) r)).
    { intros x I J. apply in_flat_map in J. destruct J as (k' & K & J). apply A in I. apply A in J.
      assert (k' = k) by (destruct I, J; congruence). subst. contradiction. }
    revert D. assert (NW : NoDup (warns classes k)).
    { unfold warns. destruct (config_of k classes) as [[f [[[lo|] [hi|] ad]|] sg pl]|]; repeat constructor; auto. }
    induction NW as [|x l X NX IX]; intro D; cbn; [assumption|]. constructor.
    + rewrite in_app_iff. intros [?|J]; [contradiction|]. exact (D x (or_introl eq_refl) J).
    + apply IX. intros y Y. apply D. right; assumption.
  - intro k. rewrite in_flat_map. split.
    + intros (x & I & W). assert (x = k) by (apply A in W; destruct W; congruence). subst. apply region_in in I. destruct I as (P & I).
      split; [assumption|]. split; [exact I|]. intros c C. apply configured_of in C. unfold warns in W. rewrite C in W.
      destruct c as [f [[[lo|] [hi|] ad]|] sg pl]; cbn in W; intuition discriminate.
    + intros (P & O & C). exists k. split; [apply region_in; auto|]. unfold warns. destruct (config_of k classes) eqn:E; [|left; reflexivity].
      apply configured_of in E. exfalso. eapply C, E.
  - intro k. rewrite in_flat_map. split.
    + intros (x & I & W). assert (x = k) by (apply A in W; destruct W; congruence). subst. apply region_in in I. destruct I as (P & I).
      split; [assumption|]. split; [exact I|]. unfold warns in W.
      destruct (config_of k classes) as [[f [[[lo|] [hi|] ad]|] sg pl]|] eqn:E; cbn in W; try (intuition discriminate);
        (eexists _, _; split; [apply configured_of; exact E|]; split; [reflexivity|]; cbn; auto).
    + intros (P & O & c & a & C & L & H). exists k. split; [apply region_in; auto|]. apply configured_of in C. unfold warns. rewrite C.
      destruct c as [f l sg pl]; cbn in L; subst. destruct a as [[lo|] [hi|] ad]; cbn in *; intuition discriminate.
Qed.
Print Assumptions c103_warnings.

(** * Forest pixels *)
(** The canopy model works on exactly the pixels of the region with a forest class; only they start with an empty canopy. *)
Theorem c103_forest : forall classes g load, length load = length g ->
  let st := lc_initialize classes g in
  exists m load', forest_pos st (length g) = Some m /\ canopy_initialize st load = Some load' /\ length m = length g /\ length load' = length g /\
  forall i p, nth_error g i = Some p ->
    (nth_error m i = Some true <-> exists c, belongs classes p c /\ l_forest c = true) /\
    ((exists c, belongs classes p c /\ l_forest c = true) -> nth_error load' i = Some (Some 0)) /\
    (~ (exists c, belongs classes p c /\ l_forest c = true) -> nth_error load' i = nth_error load i).
Proof.
  intros classes g load LL st. unfold st.
  set (b := fun p => existsb (fun k => (p_class p =? k)%Z && p_roi p) (filter (forest classes) (region_classes g))).
  assert (B : forall p, In p g -> (b p = true <-> exists c, belongs classes p c /\ l_forest c = true)).
  { intros p I. unfold b, belongs. rewrite existsb_exists. split.
    - intros (k & K & E). apply andb_prop in E. destruct E as (E & R). apply Z.eqb_eq in E. subst k.
      apply filter_In in K. destruct K as (K & F). apply region_in in K. destruct K as (P & _). apply forest_iff in F. destruct F as (c & C & F).
      exists c. auto.
    - intros (c & (R & P & C) & F). exists (p_class p). rewrite Z.eqb_refl, R. split; [|reflexivity]. apply filter_In. split.
      + apply region_in. split; [assumption|]. exists p; auto.
      + apply forest_iff. exists c; auto. }
  unfold canopy_initialize. rewrite LL. rewrite (forest_masks classes g). fold b. eexists _, _. split; [reflexivity|]. split; [reflexivity|].
  split; [apply map_length|].
  assert (U : forall (l : list num) (h : list lpix), length l = length h -> length (update l (map b h) (fun _ => initial_load)) = length h /\
    forall i p, nth_error h i = Some p -> nth_error (update l (map b h) (fun _ => initial_load)) i = if b p then Some (Some 0) else nth_error l i).
  { unfold update. induction l as [|x l IH]; intros [|p h] L; cbn in L; try discriminate; [split; [reflexivity|intros [|i] q; discriminate]|].
    injection L as L. destruct (IH h L) as (I1 & I2). cbn. destruct (b p) eqn:E; cbn; (split; [rewrite I1; reflexivity|]); intros [|i] q N; cbn in *;
      try (injection N as <-; rewrite E; reflexivity); exact (I2 i q N). }
  destruct (U load g LL) as (U1 & U2). split; [exact U1|]. intros i p N.
  assert (I : In p g) by (eapply nth_error_In; exact N). split; [|split].
  - erewrite map_nth_error by exact N. rewrite <- (B p I). split; [intro E; injection E; auto|intros ->; reflexivity].
  - intro F. rewrite (U2 i p N). apply (B p I) in F. rewrite F. reflexivity.
  - intro F. rewrite (U2 i p N). destruct (b p) eqn:E; [|reflexivity]. exfalso. apply F, (B p I), E.
Qed.
Print Assumptions c103_forest.

(** * Leaf area index *)
Definition same_land (p q : lpix) : Prop := p_roi q = p_roi p /\ p_class q = p_class p.
Definition new_lai (classes : list (Z * lcclass)) (doy : Z) (p p' : lpix) : Prop :=
  same_land p p' /\
  (forall c lo hi, belongs classes p c -> lai_range c lo hi -> exists st pd l,
     l_stages c = Some st /\ l_plant c = Some pd /\ leaf_area_index st doy pd lo hi (lai_add c) = Some (l, l + lai_add c) /\
     p_lai p' = Some l /\ p_eff p' = Some (l + lai_add c)) /\
  ((forall c lo hi, belongs classes p c -> ~ lai_range c lo hi) -> p_lai p' = p_lai p /\ p_eff p' = p_eff p).

Lemma lai_pair st doy pd lo hi add l e : leaf_area_index st doy pd lo hi add = Some (l, e) -> e = l + add.
Proof. unfold leaf_area_index. cbv zeta. destruct (match st with Single4 _ => _ | Cycles _ => _ end); [|discriminate]. intro E. injection E as <- <-. reflexivity. Qed.
Definition px_lai (classes : list (Z * lcclass)) (doy : Z) (ks : list Z) (p : lpix) : lpix :=
  if p_roi p && existsb (Z.eqb (p_class p)) ks then
    match class_lai classes doy (p_class p) with Some (l, e) => set_lai l e p | None => p end
  else p.
Lemma px_site classes doy ks p : p_roi (px_lai classes doy ks p) = p_roi p /\ p_class (px_lai classes doy ks p) = p_class p.
Proof. unfold px_lai. destruct (p_roi p && _); [|auto]. destruct (class_lai classes doy (p_class p)) as [[l e]|]; auto. Qed.
Lemma lai_none classes st doy ks : fold_left (lai_iter classes st doy) ks None = None.
Proof. induction ks; cbn; auto. Qed.
Lemma lai_fold classes g0 doy g : map (fun p => (p_roi p, p_class p)) g = map (fun p => (p_roi p, p_class p)) g0 ->
  forall ks done, (forall k, In k ks -> In k (filter (complete classes) (region_classes g0))) ->
  fold_left (lai_iter classes (lc_initialize classes g0) doy) ks (Some (map (px_lai classes doy done) g)) =
  if forallb (fun k => match class_lai classes doy k with Some _ => true | None => false end) ks
  then Some (map (px_lai classes doy (done ++ ks)) g) else None.
Proof.
  intros S. induction ks as [|k r IH]; intros done H.
  - cbn. rewrite app_nil_r. reflexivity.
  - cbn [fold_left forallb]. unfold lai_iter at 2. destruct (class_lai classes doy k) as [[l e]|] eqn:C; [|apply lai_none].
    rewrite init_pixels. pose proof (H k (or_introl eq_refl)) as I. apply filter_In in I. destruct I as (I & F).
    assert (X : existsb (Z.eqb k) (filter (known classes) (region_classes g0)) = true).
    { apply existsb_in, filter_In. split; [assumption|]. apply complete_known; assumption. }
    rewrite X, pixels_map. cbn [andb].
    assert (M : map (fun p => (p_class p =? k)%Z && p_roi p) g0 = map (fun p => (p_class p =? k)%Z && p_roi p) (map (px_lai classes doy done) g)).
    { transitivity (map (fun x : bool * Z => (snd x =? k)%Z && fst x) (map (fun p => (p_roi p, p_class p)) g0)); [rewrite map_map; reflexivity|].
      rewrite <- S, !map_map. apply map_ext. intro p. destruct (px_site classes doy done p) as (-> & ->). reflexivity. }
    rewrite M, upd_bool, map_map.
    assert (E : map (fun p => if (p_class (px_lai classes doy done p) =? k)%Z && p_roi (px_lai classes doy done p) then set_lai l e (px_lai classes doy done p) else px_lai classes doy done p) g
      = map (px_lai classes doy (done ++ [k])) g).
    { apply map_ext. intro p. destruct (px_site classes doy done p) as (R & K). rewrite R, K. unfold px_lai. rewrite existsb_app. cbn [existsb]. rewrite orb_false_r.
      destruct (p_roi p) eqn:PR; [|rewrite andb_false_r; reflexivity]. rewrite andb_true_r. cbn [andb].
      destruct (Z.eqb_spec (p_class p) k) as [->|NE].
      - rewrite orb_true_r, C. destruct (existsb (Z.eqb k) done); reflexivity.
      - rewrite orb_false_r. reflexivity. }
    rewrite E, IH by (intros; apply H; right; assumption). rewrite <- app_assoc. reflexivity.
Qed.
Lemma lai_eq classes g0 doy g : map (fun p => (p_roi p, p_class p)) g = map (fun p => (p_roi p, p_class p)) g0 ->
  lc_lai classes (lc_initialize classes g0) doy g =
  if forallb (fun k => match class_lai classes doy k with Some _ => true | None => false end) (filter (complete classes) (region_classes g0))
  then Some (map (px_lai classes doy (filter (complete classes) (region_classes g0))) g) else None.
Proof.
  intro S. unfold lc_lai. rewrite init_eq at 2. cbn [s_lai].
  assert (E : map (px_lai classes doy []) g = g).
  { rewrite <- (map_id g) at 2. apply map_ext. intro p. unfold px_lai. cbn. rewrite andb_false_r. reflexivity. }
  rewrite <- E at 1. apply (lai_fold classes g0 doy g S); auto.
Qed.

(** Every time step gives all pixels of a class with a leaf area index the value of that class on this day of the year, whatever it was before; no
    other pixel changes. An exception is raised exactly if a class in use has no growth stages or planting date, or stages for which the curve is not
    defined (see C42). *)
Theorem c103_lai : forall classes g0 doy g, Forall2 same_land g0 g ->
  match lc_lai classes (lc_initialize classes g0) doy g with
  | Some g' => Forall2 (new_lai classes doy) g g'
  | None => exists p c lo hi, In p g /\ belongs classes p c /\ lai_range c lo hi /\
      (l_stages c = None \/ l_plant c = None \/ exists st pd, l_stages c = Some st /\ l_plant c = Some pd /\ leaf_area_index st doy pd lo hi (lai_add c) = None)
  end.
Proof.
  intros classes g0 doy g S.
  assert (M : map (fun p => (p_roi p, p_class p)) g = map (fun p => (p_roi p, p_class p)) g0).
  { induction S as [|p q g0 g (A & B) S IH]; cbn; [reflexivity|]. rewrite IH, A, B. reflexivity. }
  assert (TR : forall k, occurs g0 k -> occurs g k).
  { intros k (p & I & R & K). clear M. induction S as [|p0 q g0 g (A & B) S IH]; [destruct I|]. destruct I as [->|I].
    - exists q. rewrite A, B. cbn. auto.
    - destruct (IH I) as (x & X & ?). exists x. cbn; auto. }
  assert (TR' : forall k, occurs g k -> occurs g0 k).
  { clear M TR. intros k (p & I & R & K). induction S as [|p0 q g0 g (A & B) S IH]; [destruct I|]. destruct I as [->|I].
    - exists p0. rewrite <- A, <- B. cbn. auto.
    - destruct (IH I) as (x & X & ?). exists x. cbn; auto. }
  rewrite lai_eq by exact M. set (ks := filter (complete classes) (region_classes g0)).
  assert (KS : forall k, In k ks <-> (0 < k)%Z /\ occurs g0 k /\ exists c lo hi, configured classes k c /\ lai_range c lo hi).
  { intro k. unfold ks. rewrite filter_In, region_in, complete_iff. tauto. }
  destruct (forallb _ ks) eqn:F.
  - rewrite forallb_forall in F.
    assert (G : forall p, In p g -> new_lai classes doy p (px_lai classes doy ks p)).
    { intros p I. split; [split; apply px_site|]. unfold px_lai. split.
      - intros c lo hi (R & P & C) L.
        assert (K : In (p_class p) ks).
        { apply KS. split; [assumption|]. split; [apply TR'; exists p; auto|]. exists c, lo, hi; auto. }
        rewrite R. assert (X : existsb (Z.eqb (p_class p)) ks = true) by (apply existsb_in; assumption). rewrite X. cbn [andb].
        apply F in K. unfold class_lai in *. apply configured_of in C. rewrite C in *. destruct L as (ad & L). unfold lai_add. rewrite L in *.
        destruct (l_stages c) as [st|]; [|discriminate]. destruct (l_plant c) as [pd|]; [|discriminate].
        destruct (leaf_area_index st doy pd lo hi match ad with Some a => a | None => 0 end) as [[l e]|] eqn:E; [|discriminate].
        pose proof (lai_pair _ _ _ _ _ _ _ _ E) as EE. subst e. exists st, pd, l. cbn. auto.
      - intro N. destruct (p_roi p) eqn:R; [|auto]. cbn [andb]. destruct (existsb (Z.eqb (p_class p)) ks) eqn:X; [|auto].
        exfalso. apply existsb_in, KS in X. destruct X as (P & _ & c & lo & hi & C & L). apply (N c lo hi); [repeat split; auto|assumption]. }
    clear - G. induction g as [|p g IH]; cbn; constructor; [apply G; left; reflexivity|]. apply IH. intros q I. apply G. right; assumption.
  - assert (E : exists k, In k ks /\ class_lai classes doy k = None).
    { clear - F. induction ks as [|k r IH]; [discriminate|]. cbn in F. destruct (class_lai classes doy k) eqn:C.
      - destruct (IH F) as (x & I & ?). exists x. cbn; auto.
      - exists k. cbn; auto. }
    destruct E as (k & K & N). apply KS in K. destruct K as (P & O & c & lo & hi & C & L). apply TR in O. destruct O as (p & I & R & Q).
    exists p, c, lo, hi. split; [assumption|]. split; [repeat split; auto; rewrite Q; auto|]. split; [assumption|].
    unfold class_lai in N. apply configured_of in C. rewrite C in N. destruct L as (ad & L). unfold lai_add. rewrite L in *.
    destruct (l_stages c) as [st|]; [|auto]. destruct (l_plant c) as [pd|]; [|auto]. right. right. exists st, pd. auto.
Qed.
Print Assumptions c103_lai.
(** With four growth stages per class the step never fails: between the configured minimum and maximum, minimum outside of the season, maximum in
    mid-season, and the effective index larger by the configured amount. *)
Theorem c103_seasons : forall classes g0 doy g, Forall2 same_land g0 g ->
  (forall k c lo hi, configured classes k c -> lai_range c lo hi -> lo <= hi /\ (exists s, l_stages c = Some (Single4 s)) /\ exists pd, l_plant c = Some pd) ->
  exists g', lc_lai classes (lc_initialize classes g0) doy g = Some g' /\
  Forall2 (fun p p' => same_land p p' /\ forall c lo hi, belongs classes p c -> lai_range c lo hi ->
    exists l a b m e pd, l_stages c = Some (Single4 (a, b, m, e)) /\ l_plant c = Some pd /\
      p_lai p' = Some l /\ p_eff p' = Some (l + lai_add c) /\ lo <= l <= hi /\
      ((doy < pd)%Z \/ (pd + Z.of_nat (a + b + m + e) <= doy)%Z -> l = lo) /\
      ((pd + Z.of_nat (a + b) <= doy < pd + Z.of_nat (a + b + m))%Z -> l = hi)) g g'.
Proof.
  intros classes g0 doy g S H. pose proof (c103_lai classes g0 doy g S) as T.
  destruct (lc_lai classes (lc_initialize classes g0) doy g) as [g'|] eqn:E.
  - exists g'. split; [reflexivity|]. clear E S. induction T as [|p p' g g' N T IH]; constructor; [|assumption].
    destruct N as (SL & N & _). split; [assumption|]. intros c lo hi B L.
    destruct (N c lo hi B L) as (st & pd & l & ST & PD & E & PL & PE). destruct B as (R & P & C).
    destruct (H _ c lo hi C L) as (LH & (s & SS) & _). rewrite ST in SS. injection SS as ->.
    destruct s as [[[a b] m] e]. exists l, a, b, m, e, pd. do 4 (split; [assumption|]).
    destruct (c42_single a b m e doy pd lo hi (lai_add c)) as (E1 & E2 & E3 & E4). rewrite E in E1. injection E1 as E1.
    rewrite <- E1 in *. split; [auto|]. split; [intro; apply E4; lia|intro; apply E3; lia].
  - exfalso. destruct T as (p & c & lo & hi & I & (R & P & C) & L & F). destruct (H _ c lo hi C L) as (LH & (s & SS) & (pd & PD)).
    rewrite SS, PD in F. destruct F as [F|[F|(st & pd' & F1 & F2 & F)]]; try discriminate. injection F1 as <-. injection F2 as <-.
    destruct s as [[[a b] m] e]. destruct (c42_single a b m e doy pd lo hi (lai_add c)) as (E1 & _). rewrite F in E1. discriminate.
Qed.
Print Assumptions c103_seasons.
(** The leaf area index has no memory: it is the same for any two earlier states. *)
Theorem c103_no_memory : forall classes g0 doy g h g' h', Forall2 same_land g0 g -> Forall2 same_land g0 h ->
  lc_lai classes (lc_initialize classes g0) doy g = Some g' -> lc_lai classes (lc_initialize classes g0) doy h = Some h' ->
  forall i p q, nth_error g' i = Some p -> nth_error h' i = Some q ->
  (exists c lo hi, belongs classes p c /\ lai_range c lo hi) -> p = q.
Proof.
  intros classes g0 doy g h g' h' G H EG EH. pose proof (c103_lai classes g0 doy g G) as TG. pose proof (c103_lai classes g0 doy h H) as TH.
  rewrite EG in TG. rewrite EH in TH. clear EG EH. revert h h' H TH g' TG. induction G as [|p0 p1 g0 g (A & B) G IH]; intros h h' H TH g' TG.
  - inversion TG; subst. intros [|i] p q N; discriminate.
  - inversion H as [|x q1 y h1 (C & D) H1]; subst. inversion TG as [|x1 p2 y1 g2 N1 T1]; subst. inversion TH as [|x2 q2 y2 h2 N2 T2]; subst.
    intros [|i] p q Np Nq (c & lo & hi & BL & L); cbn in Np, Nq.
    + injection Np as <-. injection Nq as <-. destruct N1 as ((S1 & S2) & N1 & _). destruct N2 as ((S3 & S4) & N2 & _).
      assert (B1 : belongs classes p1 c) by (destruct BL as (X & Y & Z); rewrite S1, S2 in *; repeat split; auto).
      assert (B2 : belongs classes q1 c).
      { destruct B1 as (X & Y & Z). rewrite A, B in *. unfold belongs. rewrite C, D. repeat split; auto. }
      destruct (N1 c lo hi B1 L) as (st & pd & l & X1 & X2 & X3 & X4 & X5). destruct (N2 c lo hi B2 L) as (st' & pd' & l' & Y1 & Y2 & Y3 & Y4 & Y5).
      assert (st' = st) by congruence. assert (pd' = pd) by congruence. subst. rewrite X3 in Y3. injection Y3 as <-.
      destruct p2, q2; cbn in *. congruence.
    + apply (IH h1 h2 H1 T2 g2 T1 i p q Np Nq). exists c, lo, hi. auto.
Qed.
Print Assumptions c103_no_memory.

(** * Forests without leaf area index *)
(** The canopy model needs the effective leaf area index of its pixels. A forest class may be configured without one; then all meteorological
    fields below its canopy are missing. *)
Theorem c103_forest_has_lai_refuted : exists classes g g' p c, let st := lc_initialize classes g in
  forest_pos st (length g) = Some [true] /\ s_warnings st = [] /\ belongs classes p c /\ l_forest c = true /\
  lc_lai classes st 180 (map reset_lai g) = Some g' /\ In p g' /\ p_eff p = None.
Proof.
  set (c := LC true None (Some (Single4 (20, 20, 60, 30)%nat)) (Some 100%Z)).
  exists [(3%Z, c)], [LX true 3 (Some 2) (Some 3)], [LX true 3 None None], (LX true 3 None None), c.
  cbn zeta. split; [reflexivity|]. split; [reflexivity|]. split; [|repeat split; cbn; auto].
  split; [reflexivity|]. split; [cbn; lia|]. exists [], []. cbn. auto.
Qed.
Print Assumptions c103_forest_has_lai_refuted.
Theorem c103_forest_without_lai : forall cfg p buf, m_forest p = true -> m_lai p = None ->
  let q := inside cfg p buf in m_sw q = None /\ m_lw q = None /\ m_rh q = None /\ m_ws q = None /\ (nanmean buf <> None -> m_temp q = None).
Proof.
  intros cfg p buf F L q. unfold q, inside. rewrite F, L. cbn. repeat split; auto. intro N. destruct (nanmean buf); [reflexivity|congruence].
Qed.
Print Assumptions c103_forest_without_lai.

(** Example: two forest pixels, one meadow, one of an unknown class, and a forest pixel outside the region *)
Definition ex_classes : list (Z * lcclass) :=
  [(1%Z, LC true (Some (LA (Some 1) (Some 5) (Some 2))) (Some (Single4 (10, 10, 5, 10)%nat)) (Some 100%Z));
   (2%Z, LC false (Some (LA (Some 1) None None)) None None)].
Definition ex_grid : list lpix := [LX true 1 None None; LX true 2 None None; LX false 1 None None; LX true 7 None None; LX true 1 None None; LX true 0 None None].
Example c103_example :
  let st := lc_initialize ex_classes ex_grid in
  s_pixels st = [(1%Z, [true; false; false; false; true; false]); (2%Z, [false; true; false; false; false; false])] /\
  s_forest st = [1%Z] /\ s_lai st = [1%Z] /\ s_warnings st = [IncompleteLai 2; UnknownClass 7] /\
  exists g', lc_lai ex_classes st 122 ex_grid = Some g' /\ map p_lai g' = [Some 5; None; None; None; Some 5; None] /\
  map p_eff g' = [Some 7; None; None; None; Some 7; None].
Proof.
  intro st. repeat (split; [reflexivity|]). subst st.
  destruct (c103_seasons ex_classes ex_grid 122 ex_grid) as (g' & E & F).
  { unfold ex_grid. repeat constructor. }
  { intros k c lo hi C (ad & L). apply configured_of in C. unfold config_of, ex_classes in C. cbn [find fst snd option_map] in C.
    destruct (1 =? k)%Z; [|destruct (2 =? k)%Z; [|discriminate]]; injection C as <-; cbn in L; [injection L as <- <- <-|discriminate].
    split; [lra|]. split; eexists; reflexivity. }
  exists g'. split; [exact E|].
  pose proof (c103_lai ex_classes ex_grid 122 ex_grid ltac:(unfold ex_grid; repeat constructor)) as T. rewrite E in T. clear E.
  unfold ex_grid in *. inversion F as [|? x0 ? r0 A0 F0]; subst. inversion F0 as [|? x1 ? r1 A1 F1]; subst. inversion F1 as [|? x2 ? r2 A2 F2]; subst.
  inversion F2 as [|? x3 ? r3 A3 F3]; subst. inversion F3 as [|? x4 ? r4 A4 F4]; subst. inversion F4 as [|? x5 ? r5 A5 F5]; subst. inversion F5; subst.
  inversion T as [|? ? ? ? B0 T0]; subst. inversion T0 as [|? ? ? ? B1 T1]; subst. inversion T1 as [|? ? ? ? B2 T2]; subst.
  inversion T2 as [|? ? ? ? B3 T3]; subst. inversion T3 as [|? ? ? ? B4 T4]; subst. inversion T4 as [|? ? ? ? B5 T5]; subst.
  assert (C1 : configured ex_classes 1 (LC true (Some (LA (Some 1) (Some 5) (Some 2))) (Some (Single4 (10, 10, 5, 10)%nat)) (Some 100%Z))) by (apply configured_of; reflexivity).
  assert (NB : forall p, p_roi p = false \/ p_class p = 2%Z \/ p_class p = 7%Z \/ p_class p = 0%Z -> forall c lo hi, belongs ex_classes p c -> ~ lai_range c lo hi).
  { intros p H c lo hi (R & P & C) (ad & L). apply configured_of in C. destruct H as [H|[H|[H|H]]]; [congruence| | |lia]; rewrite H in C; cbn in C; [injection C as <-; discriminate|discriminate]. }
  assert (V : forall x, (forall c lo hi, belongs ex_classes (LX true 1 None None) c -> lai_range c lo hi ->
    exists l a b m e pd, l_stages c = Some (Single4 (a, b, m, e)) /\ l_plant c = Some pd /\
      p_lai x = Some l /\ p_eff x = Some (l + lai_add c) /\ lo <= l <= hi /\
      ((122 < pd)%Z \/ (pd + Z.of_nat (a + b + m + e) <= 122)%Z -> l = lo) /\
      ((pd + Z.of_nat (a + b) <= 122 < pd + Z.of_nat (a + b + m))%Z -> l = hi)) -> p_lai x = Some 5 /\ p_eff x = Some 7).
  { intros x H. destruct (H _ 1 5 (conj eq_refl (conj eq_refl C1)) ltac:(eexists; reflexivity)) as (l & a & b & m & e & pd & S1 & S2 & L1 & L2 & _ & _ & H3).
    cbn in S1, S2. injection S1 as <- <- <- <-. injection S2 as <-. cbn in H3, L2. rewrite (H3 ltac:(lia)) in *. split; [assumption|]. rewrite L2. f_equal. lra. }
  destruct (V x0 (proj2 A0)) as (V1 & V2). destruct (V x4 (proj2 A4)) as (V3 & V4).
  destruct (proj2 (proj2 B1) (NB (LX true 2 None None) ltac:(cbn; auto))) as (W1 & W2). destruct (proj2 (proj2 B2) (NB (LX false 1 None None) ltac:(cbn; auto))) as (W3 & W4).
  destruct (proj2 (proj2 B3) (NB (LX true 7 None None) ltac:(cbn; auto))) as (W5 & W6). destruct (proj2 (proj2 B5) (NB (LX true 0 None None) ltac:(cbn; auto))) as (W7 & W8).
  cbn [map]. rewrite V1, V2, V3, V4, W1, W2, W3, W4, W5, W6, W7, W8. split; reflexivity.
Qed.
