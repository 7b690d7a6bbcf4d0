(** Theorems about station selection (C64), range filters (C65), normalisation (C66), land cover
    parameters (C67), configuration checks (C68) and resampling (C78). *)
From Verif Require Import TimeModel TimeProofs Constants Common OutputProofs CalendarProofs OutputTheorems ForcingModel.
Open Scope R_scope.

(** * C64: station selection *)
Definition within (b : option bbox) (s : station) : Prop :=
  match b with
  | None => True
  | Some b => exists x y, st_x s = Some x /\ st_y s = Some y /\ x_min b <= x < x_max b /\ y_min b <= y < y_max b
  end.
Definition listed (o : option (list nat)) (i : nat) : Prop := match o with Some l => In i l | None => False end.
Lemma in_bounds_spec b s : in_bounds b s = true <-> within (Some b) s.
Proof.
  unfold in_bounds, within, num_ge, num_lt. destruct (st_x s) as [x|], (st_y s) as [y|]; cbn.
  - rsplit; cbn; split; intros H; try discriminate; auto; try (exists x, y; repeat split; auto; lra);
      destruct H as [a [c [E1 [E2 H]]]]; injection E1 as <-; injection E2 as <-; lra.
  - rewrite ?andb_false_r. split; [|intros [a [c [E1 [E2 H]]]]; discriminate].
    destruct (Rle_dec (x_min b) x), (Rlt_dec x (x_max b)); discriminate.
  - split; [discriminate|]. intros [a [c [E1 _]]]. discriminate.
  - split; [discriminate|]. intros [a [c [E1 _]]]. discriminate.
Qed.
Lemma existsb_nat i l : existsb (Nat.eqb i) l = true <-> In i l.
Proof.
  rewrite existsb_exists. split; [intros [x [I E]]; apply Nat.eqb_eq in E; subst; auto|].
  intros I. exists i. split; auto. apply Nat.eqb_refl.
Qed.
Lemma dedup_spec l : forall seen,
  NoDup (map st_id (dedup seen l)) /\
  (forall s, In s (dedup seen l) -> In s l /\ ~ In (st_id s) seen) /\
  (forall s, In s l -> ~ In (st_id s) seen -> In (st_id s) (map st_id (dedup seen l))).
Proof.
  induction l as [|s l IH]; intros seen; cbn; [repeat split; [constructor|tauto|tauto|tauto]|].
  destruct (existsb (Nat.eqb (st_id s)) seen) eqn:E.
  - apply existsb_nat in E. destruct (IH seen) as [A [B C]]. split; auto. split.
    + intros x X. destruct (B x X). auto.
    + intros x [->|X] N; [tauto|]. apply C; auto.
  - assert (E2 : ~ In (st_id s) seen) by (rewrite <- existsb_nat; congruence).
    destruct (IH (st_id s :: seen)) as [A [B C]]. cbn. split; [|split].
    + constructor; auto. intros X. apply in_map_iff in X. destruct X as [y [Y1 Y2]]. destruct (B y Y2) as [_ N].
      apply N. left. auto.
    + intros x [<-|X]; auto. destruct (B x X) as [X1 X2]. split; auto. intros Z. apply X2. right; auto.
    + intros x [->|X] N; [left; auto|]. destruct (Nat.eq_dec (st_id x) (st_id s)) as [Q|Q]; [left; auto|].
      right. apply C; auto. intros [Z|Z]; [congruence|]. auto.
Qed.
Lemma add_included_spec all inc : forall meta,
  (add_included all meta inc = None <-> exists i, In i inc /\ forall s, In s all -> st_id s <> i) /\
  (forall m, add_included all meta inc = Some m ->
     exists extra, m = meta ++ extra /\
       extra = flat_map (fun i => filter (fun s => st_id s =? i)%nat all) inc).
Proof.
  induction inc as [|i inc IH]; intros meta; cbn.
  - split; [split; [discriminate|intros [i [[] _]]]|]. intros m E. injection E as <-. exists []. rewrite app_nil_r. auto.
  - destruct (filter (fun s => (st_id s =? i)%nat) all) as [|f0 fs] eqn:F.
    + split; [|discriminate]. split; auto. intros _. exists i. split; [left; auto|]. intros s S E.
      assert (In s (filter (fun s => (st_id s =? i)%nat) all)) by (apply filter_In; split; auto; apply Nat.eqb_eq; auto).
      rewrite F in H. inversion H.
    + destruct (IH (meta ++ f0 :: fs)) as [A B]. rewrite A. split.
      * split; [intros [j [J1 J2]]; exists j; auto|]. intros [j [[->|J1] J2]]; [|exists j; auto].
        exfalso. assert (In f0 (filter (fun s => (st_id s =? j)%nat) all)) by (rewrite F; left; auto).
        apply filter_In in H. destruct H as [H1 H2]. apply Nat.eqb_eq in H2. apply (J2 f0 H1 H2).
      * intros m E. destruct (B m E) as [extra [-> ->]]. exists ((f0 :: fs) ++ flat_map (fun i => filter (fun s => (st_id s =? i)%nat) all) inc).
        rewrite <- app_assoc. cbn. auto.
Qed.
(** The stations within the bounds and not excluded *)
Definition base_list (meta : list station) (b : option bbox) (ex : option (list nat)) : list station :=
  let m1 := match b with Some b => filter (in_bounds b) meta | None => meta end in
  match ex with Some ex => filter (fun s => negb (existsb (Nat.eqb (st_id s)) ex)) m1 | None => m1 end.
Lemma base_list_in meta b ex s : In s (base_list meta b ex) <-> In s meta /\ within b s /\ ~ listed ex (st_id s).
Proof.
  unfold base_list, listed. cbv zeta. destruct ex as [ex|], b as [b|]; cbn [within];
    rewrite ?filter_In, ?in_bounds_spec, ?negb_true_iff.
  - rewrite <- existsb_nat. destruct (existsb (Nat.eqb (st_id s)) ex); intuition (auto; try congruence).
  - rewrite <- existsb_nat. destruct (existsb (Nat.eqb (st_id s)) ex); intuition (auto; try congruence).
  - tauto.
  - tauto.
Qed.
Lemma rules_unfold meta b ex inc : apply_station_rules meta b ex inc =
  match (match inc with Some i => add_included meta (base_list meta b ex) i | None => Some (base_list meta b ex) end) with
  | Some m3 => Some (dedup [] m3) | None => None end.
Proof. reflexivity. Qed.
(** A station is used iff it is included explicitly, or lies within the bounds and is not excluded;
    selection fails exactly if a station to be included does not exist. *)
Theorem c64_selection : forall meta b ex inc, NoDup (map st_id meta) ->
  (apply_station_rules meta b ex inc = None <-> exists i, listed inc i /\ forall s, In s meta -> st_id s <> i) /\
  forall m, apply_station_rules meta b ex inc = Some m ->
    NoDup (map st_id m) /\
    forall s, In s m <-> In s meta /\ (listed inc (st_id s) \/ (within b s /\ ~ listed ex (st_id s))).
Proof.
  intros meta b ex inc ND. rewrite rules_unfold.
  assert (UN : forall s s', In s meta -> In s' meta -> st_id s = st_id s' -> s = s').
  { clear - ND. induction meta as [|x l IH]; cbn in *; [tauto|]. inversion ND; subst.
    intros s s' [->|A] [->|B] E; auto; try (exfalso; apply H1; rewrite E || rewrite <- E; apply in_map; auto).
  }
  assert (G : forall m3, (forall s, In s m3 <-> In s meta /\ (listed inc (st_id s) \/ (within b s /\ ~ listed ex (st_id s)))) ->
     NoDup (map st_id (dedup [] m3)) /\ forall s, In s (dedup [] m3) <-> In s meta /\ (listed inc (st_id s) \/ (within b s /\ ~ listed ex (st_id s)))).
  { intros m3 H. destruct (dedup_spec m3 []) as [A [B C]]. split; auto. intros s. rewrite <- H. split.
    - intros X. apply B. auto.
    - intros X. specialize (C s X ltac:(auto)). apply in_map_iff in C. destruct C as [y [Y1 Y2]].
      assert (y = s); [|subst; auto]. destruct (B y Y2) as [Y3 _]. apply UN; auto; [apply H in Y3|apply H in X]; tauto. }
  destruct inc as [inc|].
  - destruct (add_included_spec meta inc (base_list meta b ex)) as [A B].
    destruct (add_included meta (base_list meta b ex) inc) as [m3|] eqn:E.
    + split.
      * split; [discriminate|]. intros H. apply A in H. discriminate.
      * intros m Em. injection Em as <-. apply G. intros s. destruct (B m3 eq_refl) as [extra [-> ->]].
        rewrite in_app_iff, base_list_in, in_flat_map. cbn [listed]. split.
        -- intros [H|[i [I H]]]; [tauto|]. apply filter_In in H. destruct H as [H1 H2]. apply Nat.eqb_eq in H2. subst i. auto.
        -- intros [H1 [H2|H2]]; [|tauto]. right. exists (st_id s). split; auto. apply filter_In. split; auto. apply Nat.eqb_refl.
    + split; [|discriminate]. cbn [listed]. rewrite <- A. tauto.
  - split; [split; [discriminate|intros [i [[] _]]]|]. intros m E. injection E as <-. apply G.
    intros s. rewrite base_list_in. cbn [listed]. tauto.
Qed.
Print Assumptions c64_selection.
(** The stations selected by bounds and exclusion come first, in their original order; included
    stations follow in the order in which they are listed. *)
Theorem c64_order : forall meta b ex inc m, NoDup (map st_id meta) ->
  apply_station_rules meta b ex inc = Some m ->
  exists keep extra, m = filter keep meta ++ extra /\
    (forall s, keep s = true <-> within b s /\ ~ listed ex (st_id s)) /\
    (inc = None -> extra = []) /\
    forall l, inc = Some l -> NoDup l ->
      map st_id extra = filter (fun i => negb (existsb (Nat.eqb i) (map st_id (filter keep meta)))) l.
Proof.
  intros meta b ex inc m ND H0.
  set (keep := fun s => match b with Some b => in_bounds b s | None => true end &&
                        match ex with Some ex => negb (existsb (Nat.eqb (st_id s)) ex) | None => true end).
  assert (KE : filter keep meta = base_list meta b ex).
  { unfold base_list, keep. cbv zeta. clear. induction meta as [|x l IH]; [destruct b, ex; auto|].
    cbn [filter]. rewrite IH. destruct b as [b|], ex as [ex|]; cbn [filter andb]; rewrite ?andb_true_r; auto.
    destruct (in_bounds b x); cbn [filter andb]; auto. }
  exists keep. rewrite KE.
  assert (KS : forall s, keep s = true <-> within b s /\ ~ listed ex (st_id s)).
  { intros s. unfold keep. rewrite andb_true_iff.
    assert (P1 : match b with Some b => in_bounds b s | None => true end = true <-> within b s).
    { destruct b as [b|]; [apply in_bounds_spec|cbn; tauto]. }
    assert (P2 : match ex with Some ex => negb (existsb (Nat.eqb (st_id s)) ex) | None => true end = true <-> ~ listed ex (st_id s)).
    { destruct ex as [ex|]; cbn [listed]; [|tauto]. rewrite negb_true_iff, <- existsb_nat. apply iff_sym, not_true_iff_false. }
    rewrite P1, P2. tauto. }
  clearbody keep. clear KE. rewrite rules_unfold in H0. revert H0.
  assert (NB : NoDup (map st_id (base_list meta b ex))).
  { assert (F : forall f l, NoDup (map st_id l) -> NoDup (map st_id (filter f l))).
    { clear. induction l as [|x l IH]; cbn; auto. intros H. inversion H; subst. destruct (f x); cbn; auto. constructor; auto.
      intros X. apply H2. apply in_map_iff in X. destruct X as [y [Y1 Y2]]. apply filter_In in Y2. rewrite <- Y1. apply in_map. tauto. }
    unfold base_list. cbv zeta. destruct b, ex; auto. }
  assert (DA : forall l x seen, NoDup (map st_id l) -> (forall s, In s l -> ~ In (st_id s) seen) ->
     dedup seen (l ++ x) = l ++ dedup (rev (map st_id l) ++ seen) x).
  { clear. induction l as [|s l IH]; intros x seen N D; cbn; auto. inversion N; subst.
    replace (existsb (Nat.eqb (st_id s)) seen) with false.
    2:{ symmetry. apply not_true_iff_false. rewrite existsb_nat. apply D. left; auto. }
    f_equal. rewrite IH; auto.
    - rewrite <- app_assoc. auto.
    - intros y Y [Z|Z]; [|apply (D y); auto; right; auto]. apply H1. rewrite Z. apply in_map; auto. }
  destruct inc as [inc|].
  - destruct (add_included_spec meta inc (base_list meta b ex)) as [A B].
    destruct (add_included meta (base_list meta b ex) inc) as [m3|] eqn:E; [|discriminate].
    intros Em. injection Em as <-. destruct (B m3 eq_refl) as [extra [-> ->]].
    rewrite DA by (auto; intros s S []). rewrite app_nil_r.
    eexists. split; [reflexivity|]. split; [auto|]. split; [discriminate|].
    + intros l El NL. injection El as <-.
      assert (OK : forall i, In i inc -> exists s, filter (fun s => (st_id s =? i)%nat) meta = [s] /\ st_id s = i).
      { intros i I. destruct (filter (fun s => (st_id s =? i)%nat) meta) as [|s [|s' t]] eqn:F.
        - exfalso. assert (X : Some (base_list meta b ex ++ flat_map (fun i => filter (fun s => (st_id s =? i)%nat) meta) inc) = None).
          { apply A. exists i. split; auto. intros s S Z.
            assert (In s (filter (fun s => (st_id s =? i)%nat) meta)) by (apply filter_In; split; auto; apply Nat.eqb_eq; auto).
            rewrite F in H. inversion H. }
          discriminate.
        - exists s. split; auto. assert (In s [s]) by (left; auto). rewrite <- F in H. apply filter_In in H.
          apply Nat.eqb_eq. tauto.
        - exfalso. clear - ND F. assert (F1 : In s (s :: s' :: t)) by (left; auto). assert (F2 : In s' (s :: s' :: t)) by (right; left; auto).
          assert (NF : NoDup (map st_id (s :: s' :: t))).
          { rewrite <- F. clear - ND. induction meta as [|x l IH]; cbn in *; auto. inversion ND; subst. destruct (st_id x =? i)%nat; cbn; auto.
            constructor; auto. intros X. apply H1. apply in_map_iff in X. destruct X as [y [Y1 Y2]]. apply filter_In in Y2. rewrite <- Y1. apply in_map. tauto. }
          rewrite <- F in F1, F2. apply filter_In in F1, F2. destruct F1 as [_ F1], F2 as [_ F2]. apply Nat.eqb_eq in F1, F2.
          cbn in NF. inversion NF; subst. apply H1. left. congruence. }
      clear A B E KS. set (bs := map st_id (base_list meta b ex)) in *. clearbody bs.
      assert (K : forall seen, (forall j, In j inc -> (In j seen <-> In j bs)) ->
        map st_id (dedup seen (flat_map (fun i => filter (fun s => (st_id s =? i)%nat) meta) inc)) =
        filter (fun i => negb (existsb (Nat.eqb i) bs)) inc).
      { clear - OK NL. induction inc as [|i inc IH]; intros seen H; auto. cbn [flat_map filter]. inversion NL; subst.
        destruct (OK i ltac:(left; auto)) as [s [S1 S2]]. rewrite S1. cbn [app dedup]. rewrite S2.
        destruct (existsb (Nat.eqb i) seen) eqn:Q.
        - apply existsb_nat in Q. apply (H i ltac:(left; auto)) in Q. apply existsb_nat in Q. rewrite Q. cbn [negb].
          apply IH; auto; intros j J; [apply OK; right; auto|apply H; right; auto].
        - assert (Q2 : existsb (Nat.eqb i) bs = false).
          { apply not_true_iff_false. intros X. apply existsb_nat in X. apply (H i ltac:(left; auto)) in X. apply existsb_nat in X. congruence. }
          rewrite Q2. cbn [negb map]. rewrite S2. f_equal. apply IH; auto.
          + intros j J. apply OK. right; auto.
          + intros j J. rewrite <- (H j ltac:(right; auto)). cbn. split; auto. intros [->|X]; auto. tauto. }
      apply K. intros j J. rewrite <- in_rev. tauto.
  - intros Em. injection Em as <-. exists []. split.
    + pose proof (DA (base_list meta b ex) [] [] NB ltac:(intros s S [])) as D. rewrite app_nil_r in D. cbn in D.
      rewrite app_nil_r in D. rewrite D, app_nil_r. auto.
    + split; auto. split; auto. intros l E. discriminate.
Qed.
Print Assumptions c64_order.
Definition demo_stations : list station :=
  [ST 1 (Some 1) (Some 1); ST 2 (Some 5) (Some 1); ST 3 (Some 2) (Some 2); ST 4 None (Some 1)].
Example c64_example : apply_station_rules demo_stations (Some (BB 0 0 4 4)) (Some [3%nat]) (Some [2%nat; 1%nat])
  = Some [ST 1 (Some 1) (Some 1); ST 2 (Some 5) (Some 1)] /\
  NoDup (map st_id demo_stations).
Proof.
  split.
  - unfold apply_station_rules, demo_stations, in_bounds, num_ge, num_lt. cbn -[Rle_dec Rlt_dec].
    rsplit. cbn. auto.
  - repeat constructor; cbn; intuition discriminate.
Qed.

(** * C65: range filters *)
(** Value [v] is out of the range of filter [f] *)
Definition out_of_range (f : rfilter) (v : num) : Prop :=
  exists x, v = Some x /\ ((exists lo, rf_min f = Some lo /\ x < lo) \/ (exists hi, rf_max f = Some hi /\ hi < x)).
Definition filtered (f : rfilter) (v : num) : num :=
  if (match rf_min f with Some lo => num_lt v lo | None => false end) ||
     (match rf_max f with Some hi => num_gt v hi | None => false end) then None else v.
Lemma filtered_spec f v : (out_of_range f v -> filtered f v = None) /\ (~ out_of_range f v -> filtered f v = v).
Proof.
  unfold filtered, out_of_range, num_lt, num_gt. destruct v as [x|].
  2:{ destruct (rf_min f), (rf_max f); auto. }
  destruct (rf_min f) as [lo|], (rf_max f) as [hi|]; rsplit; cbn; split; auto; intros H; exfalso;
    try (apply H; exists x; split; auto; eauto);
    destruct H as [y [E H]]; injection E as <-; destruct H as [[z [Z1 Z2]]|[z [Z1 Z2]]]; inversion Z1; subst; lra.
Qed.
Lemma apply_filter_map d f : rf_range f = true -> apply_filter d f = Some (map (filtered f) d).
Proof.
  intros R. unfold apply_filter. rewrite R. f_equal. unfold filtered.
  destruct (rf_min f) as [lo|], (rf_max f) as [hi|]; rewrite ?map_map; try apply map_ext; auto.
  - intros v. unfold num_lt, num_gt. destruct v as [x|]; auto. rsplit; auto.
  - intros v. rewrite orb_false_r. auto.
  - symmetry. rewrite <- (map_id d) at 2. apply map_ext. auto.
Qed.
Lemma lookup_assign {A} k k' (v : A) d : lookup k (assign k' v d) = if (k' =? k)%nat then Some v else lookup k d.
Proof.
  induction d as [|[a b] d IH]; cbn; [destruct (k' =? k)%nat eqn:E; auto|].
  destruct (Nat.eqb_spec a k') as [->|N]; cbn.
  - destruct (k' =? k)%nat; auto.
  - rewrite IH. destruct (Nat.eqb_spec a k) as [->|]; auto. destruct (Nat.eqb_spec k' k); auto. congruence.
Qed.
Lemma apply_filters_lookup fs : forall ds ds', apply_filters ds fs = Some ds' -> forall var,
  match lookup var ds with
  | None => lookup var ds' = None
  | Some s => exists g, lookup var ds' = Some (map g s) /\ forall v,
      ((exists f, In f fs /\ rf_var f = var /\ out_of_range f v) -> g v = None) /\
      (~ (exists f, In f fs /\ rf_var f = var /\ out_of_range f v) -> g v = v)
  end.
Proof.
  induction fs as [|f fs IH]; intros ds ds' E var; cbn in E.
  - injection E as <-. destruct (lookup var ds) as [s|]; auto. exists (fun v => v). rewrite map_id. split; auto.
    intros v. split; auto. intros [f [[] _]].
  - destruct (lookup (rf_var f) ds) as [s0|] eqn:L.
    + destruct (rf_range f) eqn:R; [|unfold apply_filter in E; rewrite R in E; discriminate].
      rewrite apply_filter_map in E by auto. specialize (IH _ _ E var). rewrite lookup_assign in IH.
      destruct (Nat.eqb_spec (rf_var f) var) as [EV|N].
      * subst var. rewrite L. destruct IH as [g [G1 G2]]. exists (fun v => g (filtered f v)). rewrite map_map in G1. split; auto.
        intros v. destruct (filtered_spec f v) as [F1 F2]. split.
        -- intros [f' [[<-|I] [V O]]].
           ++ rewrite F1 by auto. destruct (G2 None) as [_ G4]. apply G4. intros [f' [_ [_ [x [X _]]]]]. discriminate.
           ++ destruct (Classical_Prop.classic (out_of_range f v)) as [H|H].
              ** rewrite F1 by auto. destruct (G2 None) as [_ G4]. apply G4. intros [f'' [_ [_ [x [X _]]]]]. discriminate.
              ** rewrite F2 by auto. apply G2. eauto.
        -- intros H. rewrite F2 by (intros O; apply H; exists f; cbn; auto). apply G2. intros [f' [I [V O]]].
           apply H. exists f'. cbn; auto.
      * destruct (lookup var ds) as [s|]; auto. destruct IH as [g [G1 G2]]. exists g. split; auto. intros v.
        destruct (G2 v) as [G3 G4]. split.
        -- intros [f' [[<-|I] [V O]]]; [congruence|]. apply G3. eauto.
        -- intros H. apply G4. intros [f' [I H']]. apply H. exists f'. cbn; auto.
    + specialize (IH _ _ E var). destruct (lookup var ds) as [s|] eqn:LV; auto.
      destruct IH as [g [G1 G2]]. exists g. split; auto. intros v. destruct (G2 v) as [G3 G4]. split.
      * intros [f' [[<-|I] [V O]]]; [congruence|]. apply G3. eauto.
      * intros H. apply G4. intros [f' [I H']]. apply H. exists f'. cbn; auto.
Qed.
(** Exactly the values out of the range of one of the filters of their variable become missing;
    all other values, and the set of variables, are unchanged. *)
Theorem c65_filters : forall ds fs ds', apply_filters ds fs = Some ds' -> forall var,
  (lookup var ds = None -> lookup var ds' = None) /\
  forall s, lookup var ds = Some s -> exists s', lookup var ds' = Some s' /\ length s' = length s /\
    forall i v, nth_error s i = Some v -> exists v', nth_error s' i = Some v' /\
      ((exists f, In f fs /\ rf_var f = var /\ out_of_range f v) -> v' = None) /\
      (~ (exists f, In f fs /\ rf_var f = var /\ out_of_range f v) -> v' = v).
Proof.
  intros ds fs ds' E var. pose proof (apply_filters_lookup fs ds ds' E var) as H. split.
  - intros L. rewrite L in H. auto.
  - intros s L. rewrite L in H. destruct H as [g [G1 G2]]. exists (map g s). split; auto. split; [apply map_length|].
    intros i v N. exists (g v). rewrite nth_error_map, N. split; auto.
Qed.
Print Assumptions c65_filters.
(** They fail only for an unknown kind of filter on an existing variable. *)
Theorem c65_fails_iff : forall ds fs,
  apply_filters ds fs = None <-> exists f, In f fs /\ rf_range f = false /\ lookup (rf_var f) ds <> None.
Proof.
  intros ds fs. revert ds. induction fs as [|f fs IH]; intros ds; cbn; [split; [discriminate|intros [f [[] _]]]|].
  assert (P : forall k k' (v : series), lookup k' ds <> None -> (lookup k (assign k' v ds) <> None <-> lookup k ds <> None)).
  { intros k k' v H. rewrite lookup_assign. destruct (Nat.eqb_spec k' k) as [<-|]; [split; auto; discriminate|tauto]. }
  destruct (lookup (rf_var f) ds) as [s0|] eqn:L.
  - destruct (rf_range f) eqn:R.
    + rewrite apply_filter_map by auto. rewrite IH. split.
      * intros [f' [I [N H]]]. exists f'. apply P in H; [|congruence]. auto.
      * intros [f' [[<-|I] [N H]]]; [congruence|]. exists f'. split; auto. split; auto. apply P; auto. congruence.
    + unfold apply_filter. rewrite R. split; auto. intros _. exists f. split; auto. split; auto. congruence.
  - rewrite IH. split.
    + intros [f' [I [N H]]]. eauto.
    + intros [f' [[<-|I] [N H]]]; [congruence|]. eauto.
Qed.
Print Assumptions c65_fails_iff.
Example c65_example : apply_filters [(1%nat, [Some 5; Some 20; None; Some (-3)]); (2%nat, [Some 99])]
    [RF 1 true (Some 0) (Some 10); RF 7 false None None]
  = Some [(1%nat, [Some 5; None; None; None]); (2%nat, [Some 99])].
Proof.
  unfold apply_filters. cbn -[apply_filter]. rewrite apply_filter_map by auto. unfold filtered, num_lt, num_gt.
  cbn -[Rle_dec Rlt_dec]. rsplit. auto.
Qed.

(** * C66: normalisation *)
Lemma nanmin_spec l m : nanmin l = Some m <-> In (Some m) l /\ forall x, In (Some x) l -> m <= x.
Proof.
  revert m. induction l as [|y l IH]; intros m; cbn; [split; [discriminate|intros [[] _]]|].
  assert (NN : nanmin l = None -> forall x, ~ In (Some x) l).
  { clear. induction l as [|y l IH]; cbn; [auto|]. destruct y as [a|]; [destruct (nanmin l); discriminate|].
    intros E x [X|X]; [discriminate|]. apply (IH E x X). }
  destruct y as [a|]; [destruct (nanmin l) as [b|]|].
  - destruct (proj1 (IH b) eq_refl) as [B1 B2]. split.
    + intros E. injection E as <-. split.
      * destruct (Rle_lt_dec a b); [rewrite Rmin_left by lra; auto|rewrite Rmin_right by lra; auto].
      * intros x [X|X]; [injection X as <-; apply Rmin_l|]. pose proof (B2 x X). pose proof (Rmin_r a b). lra.
    + intros [[X|X] H]; f_equal.
      * injection X as <-. apply Rmin_left. apply H. auto.
      * pose proof (B2 m X). pose proof (H b ltac:(auto)). pose proof (H a ltac:(auto)). rewrite Rmin_right; lra.
  - split.
    + intros E. injection E as <-. split; auto. intros x [X|X]; [injection X as <-; lra|]. exfalso. apply (NN eq_refl x X).
    + intros [[X|X] H]; [auto|exfalso; apply (NN eq_refl m X)].
  - rewrite IH. split; intros [X H]; split; auto; [intros x [E|I]; [discriminate|auto]|destruct X; [discriminate|auto]].
Qed.
Lemma nanmax_spec l m : nanmax l = Some m <-> In (Some m) l /\ forall x, In (Some x) l -> x <= m.
Proof.
  revert m. induction l as [|y l IH]; intros m; cbn; [split; [discriminate|intros [[] _]]|].
  assert (NN : nanmax l = None -> forall x, ~ In (Some x) l).
  { clear. induction l as [|y l IH]; cbn; [auto|]. destruct y as [a|]; [destruct (nanmax l); discriminate|].
    intros E x [X|X]; [discriminate|]. apply (IH E x X). }
  destruct y as [a|]; [destruct (nanmax l) as [b|]|].
  - destruct (proj1 (IH b) eq_refl) as [B1 B2]. split.
    + intros E. injection E as <-. split.
      * destruct (Rle_lt_dec a b); [rewrite Rmax_right by lra; auto|rewrite Rmax_left by lra; auto].
      * intros x [X|X]; [injection X as <-; apply Rmax_l|]. pose proof (B2 x X). pose proof (Rmax_r a b). lra.
    + intros [[X|X] H]; f_equal.
      * injection X as <-. apply Rmax_left. apply H. auto.
      * pose proof (B2 m X). pose proof (H b ltac:(auto)). pose proof (H a ltac:(auto)). rewrite Rmax_right; lra.
  - split.
    + intros E. injection E as <-. split; auto. intros x [X|X]; [injection X as <-; lra|]. exfalso. apply (NN eq_refl x X).
    + intros [[X|X] H]; [auto|exfalso; apply (NN eq_refl m X)].
  - rewrite IH. split; intros [X H]; split; auto; [intros x [E|I]; [discriminate|auto]|destruct X; [discriminate|auto]].
Qed.
Lemma extrema_exist l x y : In (Some x) l -> In (Some y) l -> x < y ->
  exists a b, nanmin l = Some a /\ nanmax l = Some b /\ a < b.
Proof.
  intros X Y L. destruct (nanmin l) as [a|] eqn:A, (nanmax l) as [b|] eqn:B.
  - exists a, b. apply nanmin_spec in A. apply nanmax_spec in B. repeat split; auto.
    pose proof (proj2 A x X). pose proof (proj2 B y Y). lra.
  - exfalso. clear - B X. induction l as [|z l IH]; cbn in *; auto. destruct z; [destruct (nanmax l); discriminate|].
    destruct X as [X|X]; [discriminate|auto].
  - exfalso. clear - A X. induction l as [|z l IH]; cbn in *; auto. destruct z; [destruct (nanmin l); discriminate|].
    destruct X as [X|X]; [discriminate|auto].
  - exfalso. clear - B X. induction l as [|z l IH]; cbn in *; auto. destruct z; [destruct (nanmax l); discriminate|].
    destruct X as [X|X]; [discriminate|auto].
Qed.
(** An array with two different values is mapped into the range, its minimum to the lower and its
    maximum to the upper bound, by one affine function; missing values stay missing. *)
Theorem c66_normalize : forall data lo hi x y, lo <= hi -> In (Some x) data -> In (Some y) data -> x < y ->
  exists g, normalize_array data lo hi = map (option_map g) data /\
    (exists k c, forall v, g v = k * v + c) /\
    (forall v, In (Some v) data -> lo <= g v <= hi) /\
    (forall m, In (Some m) data -> (forall v, In (Some v) data -> m <= v) -> g m = lo) /\
    (forall m, In (Some m) data -> (forall v, In (Some v) data -> v <= m) -> g m = hi).
Proof.
  intros data lo hi x y LH X Y L. destruct (extrema_exist data x y X Y L) as [a [b [A [B AB]]]].
  unfold normalize_array. rewrite A, B. destruct (Req_EM_T (b - a) 0); [lra|].
  pose proof (proj1 (nanmin_spec data a) A) as [A1 A2]. pose proof (proj1 (nanmax_spec data b) B) as [B1 B2].
  set (g := fun v => lo + (hi - lo) / (b - a) * (v - a)).
  assert (GA : g a = lo) by (unfold g; field; lra). assert (GB : g b = hi) by (unfold g; field; lra).
  assert (K : 0 <= (hi - lo) / (b - a)) by (apply Rmult_le_pos; [lra|left; apply Rinv_0_lt_compat; lra]).
  exists g. split; [apply map_ext; intros [v|]; auto|]. split; [|split; [|split]].
  - exists ((hi - lo) / (b - a)), (lo - (hi - lo) / (b - a) * a). intros v. unfold g. ring.
  - intros v V. pose proof (A2 v V). pose proof (B2 v V). rewrite <- GA at 1. rewrite <- GB. unfold g. split.
    + apply Rplus_le_compat_l, Rmult_le_compat_l; lra.
    + apply Rplus_le_compat_l, Rmult_le_compat_l; lra.
  - intros m M H. replace m with a; auto. pose proof (A2 m M). pose proof (H a A1). lra.
  - intros m M H. replace m with b; auto. pose proof (B2 m M). pose proof (H b B1). lra.
Qed.
Print Assumptions c66_normalize.
Example c66_example : normalize_array [Some 2; None; Some 6; Some 4] 0 1 = [Some 0; None; Some 1; Some (1/2)].
Proof.
  unfold normalize_array. cbn [nanmin nanmax]. rewrite !Rmin_left by (try rewrite Rmin_right; lra).
  rewrite (Rmax_left 6 4), (Rmax_right 2 6) by lra. destruct (Req_EM_T (6 - 2) 0); [lra|]. cbn.
  repeat (f_equal; try lra); try (f_equal; lra).
Qed.
(** A constant array has no normalisation: everything becomes NaN. *)
Theorem c66_constant : forall data lo hi, (forall x y, In (Some x) data -> In (Some y) data -> x = y) ->
  forall v, In v (normalize_array data lo hi) -> v = None.
Proof.
  intros data lo hi H v. unfold normalize_array.
  destruct (nanmin data) as [a|] eqn:A; [destruct (nanmax data) as [b|] eqn:B|].
  - apply nanmin_spec in A. apply nanmax_spec in B. assert (E : a = b) by (apply H; tauto). subst b.
    destruct (Req_EM_T (a - a) 0); [|lra]. intros I. apply in_map_iff in I. destruct I as [w [<- _]]. auto.
  - intros I. apply in_map_iff in I. destruct I as [w [<- _]]. auto.
  - intros I. apply in_map_iff in I. destruct I as [w [<- _]]. auto.
Qed.
Print Assumptions c66_constant.

(** * C67: land cover parameters *)
Lemma merge_class_lookup user : forall base p, NoDup (map fst user) ->
  lookup p (merge_class base user) = match lookup p user with Some v => Some v | None => lookup p base end.
Proof.
  unfold merge_class. induction user as [|[k v] user IH]; intros base p ND; cbn; auto. inversion ND; subst.
  rewrite IH by auto. rewrite lookup_assign. destruct (Nat.eqb_spec k p) as [<-|].
  - destruct (lookup k user) as [w|] eqn:L; auto. exfalso. apply H1. clear - L.
    induction user as [|[a b] t IH]; cbn in *; [discriminate|]. destruct (Nat.eqb_spec a k); auto.
  - auto.
Qed.
Lemma lookup_notin {A} k (d : list (nat * A)) : ~ In k (map fst d) -> lookup k d = None.
Proof. induction d as [|[a b] t IH]; cbn; auto. intros N. destruct (Nat.eqb_spec a k); [tauto|auto]. Qed.
Definition param (classes : list (nat * params)) (c p : nat) : option pval :=
  match lookup c classes with Some ps => lookup p ps | None => None end.
(** For every class and parameter: the user's value if there is one, else the default. Classes and
    parameters given by neither do not exist. *)
Theorem c67_merge : forall defaults user, NoDup (map fst user) -> (forall c ps, In (c, ps) user -> NoDup (map fst ps)) ->
  forall c, (lookup c (merge_land_cover defaults user) = None <-> lookup c defaults = None /\ lookup c user = None) /\
  forall p, param (merge_land_cover defaults user) c p =
    match param user c p with Some v => Some v | None => param defaults c p end.
Proof.
  intros defaults user. revert defaults. unfold merge_land_cover.
  induction user as [|[c0 ps0] user IH]; intros defaults ND NP c; cbn [fold_left fst snd].
  - cbn. split; [tauto|]. auto.
  - inversion ND; subst. assert (NP' : forall c ps, In (c, ps) user -> NoDup (map fst ps)) by (intros c' p' I; apply (NP c' p'); right; auto).
    assert (N0 : NoDup (map fst ps0)) by (apply (NP c0 ps0); left; auto).
    match goal with |- context [fold_left _ user ?d] => set (d0 := d) end.
    assert (D0 : lookup c d0 = if (c0 =? c)%nat then Some (match lookup c0 defaults with Some b => merge_class b ps0 | None => ps0 end) else lookup c defaults).
    { unfold d0. destruct (lookup c0 defaults); apply lookup_assign. }
    destruct (IH d0 H2 NP' c) as [A B]. clear IH. split.
    + rewrite A, D0. cbn [lookup]. destruct (Nat.eqb_spec c0 c) as [<-|]; [|tauto]. split; intros [? ?]; discriminate.
    + intros p. rewrite B. unfold param. rewrite D0. cbn [lookup]. destruct (Nat.eqb_spec c0 c) as [<-|]; auto.
      match goal with |- context [@lookup ?T c0 user] =>
        assert (LN : @lookup T c0 user = None) by (apply lookup_notin; auto); rewrite LN end.
      destruct (lookup c0 defaults) as [b|].
      * apply merge_class_lookup; auto.
      * destruct (lookup p ps0); auto.
Qed.
Print Assumptions c67_merge.
Example c67_example :
  param (merge_land_cover [(5%nat, [(1%nat, PNum 3); (2%nat, PNum 4)])] [(5%nat, [(2%nat, PNum 9)]); (8%nat, [(1%nat, PNum 7)])]) 5 1 = Some (PNum 3) /\
  param (merge_land_cover [(5%nat, [(1%nat, PNum 3); (2%nat, PNum 4)])] [(5%nat, [(2%nat, PNum 9)]); (8%nat, [(1%nat, PNum 7)])]) 5 2 = Some (PNum 9).
Proof. split; reflexivity. Qed.
(** leaf_area_index is itself a dictionary and is replaced as a whole: setting only its maximum drops
    the default minimum. *)
Theorem c67_nested_refuted : exists defaults user c p key d,
  param defaults c p = Some (PDict d) /\ lookup key d <> None /\
  (forall du, param user c p = Some (PDict du) -> lookup key du = None) /\
  exists d', param (merge_land_cover defaults user) c p = Some (PDict d') /\ lookup key d' = None.
Proof.
  exists [(5%nat, [(1%nat, PDict [(1%nat, 38 / 10); (2%nat, 51 / 10)])])], [(5%nat, [(1%nat, PDict [(2%nat, 6)])])], 5%nat, 1%nat, 1%nat,
    [(1%nat, 38 / 10); (2%nat, 51 / 10)].
  split; auto. split; [discriminate|]. split.
  - cbn. intros du E. injection E as <-. auto.
  - exists [(2%nat, 6)]. cbn. auto.
Qed.
Print Assumptions c67_nested_refuted.

(** * C68: configuration checks *)
(** The documented rules *)
Record acceptable (c : cfg) : Prop := {
  a_dates : (c_start c <= c_end c)%Z /\ (c_timestep c | c_end c - c_start c)%Z;
  a_crs : c_crs_geographic c = false;
  a_write : (DAY < c_timestep c)%Z -> exists w, c_write_freq c = Some w /\ (c_timestep c | w)%Z;
  a_melt : c_snow c = Multilayer -> c_melt c = EnergyBalance;
  a_ddf : c_melt c <> EnergyBalance -> c_ddf c <> None;
  a_af : c_melt c = EnhancedTemperatureIndex -> c_albedo_factor c <> None;
  a_glacier : c_glaciers c = true -> c_delta_h c = true -> c_snow c = Cryolayers;
  a_usaco : ac_method (c_albedo c) = Usaco -> ac_k_neg (c_albedo c) <> 0 /\ ac_k_pos (c_albedo c) <> 0 }.
Lemma dates_accepted_iff s e t : (0 < t)%Z -> dates_accepted s e t = true <-> (s <= e /\ (t | e - s))%Z.
Proof.
  intros T. unfold dates_accepted. destruct (Z.ltb_spec e s) as [H|H]; [split; [discriminate|lia]|].
  assert (L : In (s + (e - s) / t * t)%Z (date_range s e t)).
  { apply date_range_in; auto. exists ((e - s) / t)%Z. pose proof (Z.mul_div_le (e - s) t ltac:(lia)).
    split; [apply Z.div_pos; lia|]. split; auto. lia. }
  destruct (rev (date_range s e t)) as [|l r] eqn:E.
  - assert (date_range s e t = []) by (rewrite <- (rev_involutive (date_range s e t)), E; auto). rewrite H0 in L. inversion L.
  - assert (E2 : date_range s e t = rev r ++ [l]) by (rewrite <- (rev_involutive (date_range s e t)), E; auto).
    assert (IL : In l (date_range s e t)) by (rewrite E2; apply in_or_app; right; left; auto).
    apply date_range_in in IL; auto. destruct IL as [k [K [El Le]]].
    pose proof (date_range_sorted s e t T) as S. rewrite E2 in S, L. apply sorted_app in S. destruct S as [_ [_ S]].
    assert (MX : forall d, In d (rev r ++ [l]) -> (d <= l)%Z).
    { intros d D. apply in_app_or in D. destruct D as [D|[->|[]]]; [|lia]. specialize (S d l D (or_introl eq_refl)). lia. }
    rewrite Z.eqb_eq. split.
    + intros <-. split; auto. exists k. lia.
    + intros [_ [q Q]]. assert (DD : In e (date_range s e t)) by (apply date_range_in; auto; exists q; nia).
      rewrite E2 in DD. specialize (MX e DD). lia.
Qed.
Theorem c68_accepts_iff : forall c, (0 < c_timestep c)%Z ->
  (exists c', validate_config c = inr c') <-> acceptable c.
Proof.
  intros c T. unfold validate_config.
  destruct (Z.ltb_spec (c_end c) (c_start c)) as [H|H].
  { split; [intros [c' E]; discriminate|]. intros [[A _] _ _ _ _ _ _ _]. lia. }
  destruct (dates_accepted (c_start c) (c_end c) (c_timestep c)) eqn:DA; cbn [negb].
  2:{ split; [intros [c' E]; discriminate|]. intros [A _ _ _ _ _ _ _]. apply dates_accepted_iff in A; auto. congruence. }
  apply dates_accepted_iff in DA; auto.
  destruct (c_crs_geographic c) eqn:CG; [split; [intros [c' E]; discriminate|intros [_ A _ _ _ _ _ _]; congruence]|].
  assert (W : (DAY <? c_timestep c)%Z && match c_write_freq c with Some w => negb (w mod c_timestep c =? 0)%Z | None => true end = false
          <-> ((DAY < c_timestep c)%Z -> exists w, c_write_freq c = Some w /\ (c_timestep c | w)%Z)).
  { rewrite andb_false_iff, Z.ltb_ge. destruct (c_write_freq c) as [w|].
    - rewrite negb_false_iff, Z.eqb_eq, Z.mod_divide by lia. split.
      + intros [X|X] L; [lia|]. eauto.
      + intros X. destruct (Z.le_gt_cases (c_timestep c) DAY) as [Y|Y]; auto. destruct (X ltac:(lia)) as [w' [E D]]. injection E as <-. auto.
    - split; [intros [X|X]; [lia|discriminate]|]. intros X. left. destruct (Z.le_gt_cases (c_timestep c) DAY) as [Y|Y]; auto.
      destruct (X ltac:(lia)) as [w' [E D]]. discriminate. }
  destruct ((DAY <? c_timestep c)%Z && _) eqn:WF.
  { split; [intros [c' E]; discriminate|]. intros [_ _ A _ _ _ _ _]. apply W in A. discriminate. }
  assert (W' := proj1 W eq_refl). clear W.
  destruct (match c_snow c, c_melt c with Multilayer, EnergyBalance => false | Multilayer, _ => true | _, _ => false end) eqn:MM.
  { split; [intros [c' E]; discriminate|]. intros [_ _ _ A _ _ _ _]. destruct (c_snow c), (c_melt c); try discriminate; specialize (A eq_refl); discriminate. }
  destruct (match c_melt c with TemperatureIndex => _ | EnhancedTemperatureIndex => _ | EnergyBalance => None end) as [e|] eqn:ME.
  { split; [intros [c' E]; discriminate|]. intros [_ _ _ _ A B _ _].
    destruct (c_melt c), (c_ddf c); try discriminate; try (exfalso; apply A; [discriminate|auto]).
    destruct (c_albedo_factor c); [discriminate|]. exfalso. apply B; auto. }
  cbv zeta.
  set (c1 := if Rlt_dec (Rabs (c_threshold c)) 20 then set_threshold c (c_threshold c + T0) else c).
  assert (EA : c_albedo c1 = c_albedo c) by (unfold c1; destruct (Rlt_dec _ _); auto).
  assert (EG : c_glaciers c1 = c_glaciers c /\ c_delta_h c1 = c_delta_h c /\ c_snow c1 = c_snow c) by (unfold c1; destruct (Rlt_dec _ _); auto).
  destruct EG as [EG1 [EG2 EG3]]. rewrite EA.
  assert (CV : (exists a, convert_albedo (c_albedo c) = inr a) <-> (ac_method (c_albedo c) = Usaco -> ac_k_neg (c_albedo c) <> 0 /\ ac_k_pos (c_albedo c) <> 0)).
  { unfold convert_albedo. destruct (ac_method (c_albedo c)).
    - split; [discriminate|eauto].
    - destruct (Req_EM_T (ac_k_neg (c_albedo c)) 0) as [E|E]; [split; [intros [a A]; discriminate|intros X; destruct (X eq_refl); congruence]|].
      destruct (Req_EM_T (ac_k_pos (c_albedo c)) 0) as [E'|E']; [split; [intros [a A]; discriminate|intros X; destruct (X eq_refl); congruence]|].
      split; eauto.
    - split; [discriminate|eauto]. }
  assert (DD : c_melt c <> EnergyBalance -> c_ddf c <> None) by (destruct (c_melt c), (c_ddf c); try congruence; discriminate).
  assert (AF : c_melt c = EnhancedTemperatureIndex -> c_albedo_factor c <> None).
  { intros E. rewrite E in ME. destruct (c_ddf c), (c_albedo_factor c); discriminate. }
  assert (MT : c_snow c = Multilayer -> c_melt c = EnergyBalance) by (destruct (c_snow c), (c_melt c); auto; discriminate).
  destruct (convert_albedo (c_albedo c)) as [e|a] eqn:CA.
  { split; [intros [c' E]; discriminate|]. intros [_ _ _ _ _ _ _ A]. apply CV in A. destruct A as [a A]. discriminate. }
  cbn [c_glaciers c_delta_h c_snow set_albedo]. rewrite EG1, EG2, EG3.
  destruct (c_glaciers c && c_delta_h c && match c_snow c with Cryolayers => false | _ => true end) eqn:GM.
  - split; [intros [c' E]; discriminate|]. intros [_ _ _ _ _ _ A _].
    destruct (c_glaciers c), (c_delta_h c), (c_snow c); try discriminate. specialize (A eq_refl eq_refl). discriminate.
  - split; [|eauto]. intros _. split; auto.
    + intros G1 G2. rewrite G1, G2 in GM. destruct (c_snow c); auto. discriminate.
    + apply CV. eauto.
Qed.
Print Assumptions c68_accepts_iff.
Definition demo_cfg : cfg :=
  CFG 0 86400 10800 false None Cryolayers TemperatureIndex (Some 5) None 1
      (AC Usaco (12/100) (2/100) 2 480 72 false 3 false) true true.
Example c68_acceptable_example : acceptable demo_cfg.
Proof.
  split; cbn; try discriminate; try congruence; try reflexivity.
  - split; [lia|]. exists 8%Z. lia.
  - intros _. split; lra.
Qed.
(** What the accepted configuration looks like: only the threshold temperature and the albedo settings
    change, as documented. *)
Theorem c68_normalised : forall c c', validate_config c = inr c' ->
  c_threshold c' = (if Rlt_dec (Rabs (c_threshold c)) 20 then c_threshold c + T0 else c_threshold c) /\
  20 <= Rabs (c_threshold c') /\
  convert_albedo (c_albedo c) = inr (c_albedo c') /\ ac_method (c_albedo c') = SnowAge /\
  (ac_method (c_albedo c) = Usaco ->
     ac_cold_timescale (c_albedo c') * ac_k_neg (c_albedo c) = 24 /\
     ac_melting_timescale (c_albedo c') * ac_k_pos (c_albedo c) = 24 /\
     ac_refresh_snowfall (c_albedo c') = ac_significant_snowfall (c_albedo c) /\
     ac_temp_is_air (c_albedo c') = true /\ ac_binary (c_albedo c') = true) /\
  (ac_method (c_albedo c) = Fsm ->
     ac_cold_timescale (c_albedo c') = ac_cold_timescale (c_albedo c) /\
     ac_melting_timescale (c_albedo c') = ac_melting_timescale (c_albedo c) /\
     ac_refresh_snowfall (c_albedo c') = ac_refresh_snowfall (c_albedo c) /\
     ac_temp_is_air (c_albedo c') = false /\ ac_binary (c_albedo c') = false) /\
  (ac_method (c_albedo c) = SnowAge -> c_albedo c' = c_albedo c) /\
  c_start c' = c_start c /\ c_end c' = c_end c /\ c_timestep c' = c_timestep c /\ c_crs_geographic c' = c_crs_geographic c /\
  c_write_freq c' = c_write_freq c /\ c_snow c' = c_snow c /\ c_melt c' = c_melt c /\ c_ddf c' = c_ddf c /\
  c_albedo_factor c' = c_albedo_factor c /\ c_glaciers c' = c_glaciers c /\ c_delta_h c' = c_delta_h c.
Proof.
  intros c c'. unfold validate_config.
  destruct (c_end c <? c_start c)%Z; [discriminate|].
  destruct (negb _); [discriminate|]. destruct (c_crs_geographic c) eqn:CG; [discriminate|].
  destruct (_ && _); [discriminate|]. destruct (match c_snow c, c_melt c with Multilayer, EnergyBalance => false | Multilayer, _ => true | _, _ => false end); [discriminate|].
  destruct (match c_melt c with TemperatureIndex => _ | EnhancedTemperatureIndex => _ | EnergyBalance => None end); [discriminate|].
  cbv zeta.
  set (c1 := if Rlt_dec (Rabs (c_threshold c)) 20 then set_threshold c (c_threshold c + T0) else c).
  assert (T1 : c_threshold c1 = if Rlt_dec (Rabs (c_threshold c)) 20 then c_threshold c + T0 else c_threshold c) by (unfold c1; destruct (Rlt_dec _ _); auto).
  assert (E1 : c_albedo c1 = c_albedo c /\ c_start c1 = c_start c /\ c_end c1 = c_end c /\ c_timestep c1 = c_timestep c /\ c_crs_geographic c1 = c_crs_geographic c /\
    c_write_freq c1 = c_write_freq c /\ c_snow c1 = c_snow c /\ c_melt c1 = c_melt c /\ c_ddf c1 = c_ddf c /\
    c_albedo_factor c1 = c_albedo_factor c /\ c_glaciers c1 = c_glaciers c /\ c_delta_h c1 = c_delta_h c).
  { unfold c1; destruct (Rlt_dec _ _); auto 12. }
  destruct E1 as [EA E1]. rewrite EA. destruct (convert_albedo (c_albedo c)) as [e|a] eqn:CA; [discriminate|].
  destruct (_ && _); [discriminate|]. intros E. assert (E' : c' = set_albedo c1 a) by congruence. subst c'. clear E.
  rewrite <- CG. cbn. rewrite T1. split; auto. split.
  { unfold T0. destruct (Rlt_dec (Rabs (c_threshold c)) 20) as [L|L]; [|lra]. apply Rabs_def2 in L. rewrite Rabs_right; lra. }
  split; auto. unfold convert_albedo in CA. destruct (ac_method (c_albedo c)) eqn:AM.
  - assert (Q : a = c_albedo c) by congruence. subst a. split; auto. split; [discriminate|]. split; [discriminate|]. split; auto. 
  - destruct (Req_EM_T _ 0); [discriminate|]. destruct (Req_EM_T _ 0); [discriminate|].
    match type of CA with inr ?x = _ => assert (Q : a = x) by congruence end. subst a. cbn. split; auto.
    split; [|split; [discriminate|split; [discriminate|auto]]]. intros _. split; [field; auto|]. split; [field; auto|]. auto.
  - match type of CA with inr ?x = _ => assert (Q : a = x) by congruence end. subst a. cbn. split; auto. split; [discriminate|].
    split; [auto 6|]. split; [discriminate|auto].
Qed.
Print Assumptions c68_normalised.
(** Checking an accepted configuration again changes nothing. *)
Theorem c68_idempotent : forall c c', (0 < c_timestep c)%Z -> validate_config c = inr c' -> validate_config c' = inr c'.
Proof.
  intros c c' T V. pose proof (c68_normalised c c' V) as (N1 & N2 & N3 & N4 & _ & _ & _ & S1 & S2 & S3 & S4 & S5 & S6 & S7 & S8 & S9 & S10 & S11).
  assert (AC : acceptable c') .
  { assert (A : acceptable c) by (apply c68_accepts_iff; eauto). destruct A. split; rewrite ?S1, ?S2, ?S3, ?S4, ?S5, ?S6, ?S7, ?S8, ?S9, ?S10, ?S11; auto.
    rewrite N4. discriminate. }
  apply c68_accepts_iff in AC; [|rewrite S3; auto]. destruct AC as [c'' V2].
  pose proof (c68_normalised c' c'' V2) as (M1 & M2 & M3 & M4 & _ & _ & M5 & Q1 & Q2 & Q3 & Q4 & Q5 & Q6 & Q7 & Q8 & Q9 & Q10 & Q11).
  destruct (Rlt_dec (Rabs (c_threshold c')) 20); [lra|]. specialize (M5 N4).
  rewrite V2. f_equal. destruct c', c''; cbn in *. congruence.
Qed.
Print Assumptions c68_idempotent.
