(** Theorems about point output (C61) and gridded output (C62). *)
From Coq Require Import Sorting.Sorted.
From Verif Require Import TimeModel TimeProofs Common OutputModel OutputProofs CalendarProofs.
Open Scope Z_scope.

(** * C61: point output *)
(** [series v ds]: one row per date, holding that date's values *)
Definition series {V} (v : Z -> V) (ds : list Z) : list (Z * option V) := map (fun d => (d, Some (v d))) ds.
(** A run up to time [w]: one update per model date, in order *)
Definition run_until {V} fm dates wd (stale : option (list (Z * option V))) (v : Z -> V) (w : Z) :=
  point_run fm dates wd (PS None stale) (map (fun d => (d, v d)) (filter (fun d => d <=? w) dates)).

Lemma split_prefix {V} (v : Z -> V) fm dates wd w :
  fm <> Memory -> sorted dates -> sorted wd -> (forall d, In d dates -> exists w, In w wd /\ d <= w) -> In w wd ->
  exists gs1 gs2, dates = concat (gs1 ++ gs2) /\ filter (fun d => d <=? w) dates = concat gs1 /\
    grouped (next_write wd) (gs1 ++ gs2) /\
    (forall g, In g (gs1 ++ gs2) -> sorted g /\ g <> [] /\ (forall d, In d g -> current_chunk fm dates wd d = inr g)).
Proof.
  intros NM SD SW B W. destruct (chunks fm dates wd NM SW SD B) as [gs [C [G H]]].
  destruct (group_prefix (next_write wd) gs w G) as [g1 [g2 [E F]]]. exists g1, g2. subst gs.
  split; auto. split; auto. rewrite <- F, C. apply filter_ext_in. intros x X.
  destruct (next_write_spec wd x SW (B x X)) as [_ [A2 A3]].
  destruct (Z.leb_spec x w); symmetry; [apply Z.leb_le; auto|apply Z.leb_gt; lia].
Qed.
(** At every write date the file holds every row so far, exactly once, in order - provided the first
    write date is a model date. Whatever the file contained before is gone. *)
Theorem c61_progress : forall V (v : Z -> V) fm dates wd stale w0 t w,
  fm <> Memory -> sorted dates -> sorted wd -> wd = w0 :: t -> In w0 dates ->
  (forall d, In d dates -> exists w, In w wd /\ d <= w) -> In w wd ->
  run_until fm dates wd stale v w = inr (PS None (Some (series v (filter (fun d => d <=? w) dates)))).
Proof.
  intros V v fm dates wd stale w0 t w NM SD SW EW I0 B W. unfold run_until.
  destruct (split_prefix v fm dates wd w NM SD SW B W) as [g1 [g2 [C [F [G H]]]]]. rewrite F.
  assert (LE0 : w0 <= w).
  { rewrite EW in W, SW. destruct W as [->|W]; [lia|]. apply StronglySorted_inv in SW. destruct SW as [_ SW].
    rewrite Forall_forall in SW. specialize (SW w W). lia. }
  assert (I1 : In w0 (concat g1)) by (rewrite <- F; apply filter_In; split; auto; apply Z.leb_le; auto).
  destruct g1 as [|g gs]; [inversion I1|].
  destruct (H g (or_introl eq_refl)) as [SG [NE CH]]. destruct g as [|d q]; [congruence|].
  cbn [concat]. change (fun d0 => (d0, v d0)) with (fun d0 : Z => (d0, v d0)).
  change (map (fun d0 : Z => (d0, v d0)) ((d :: q) ++ concat gs)) with (rows v ((d :: q) ++ concat gs)).
  change (series v ((d :: q) ++ concat gs)) with (written v ((d :: q) ++ concat gs)).
  rewrite rows_app, point_run_app, (group_run v fm dates wd stale d q NM (sorted_NoDup _ SG)) by (apply CH; left; auto).
  (* the first group contains the first write date *)
  assert (D0 : d <= w0).
  { rewrite C in SD. cbn [concat app] in SD. apply StronglySorted_inv in SD. destruct SD as [_ SD].
    rewrite C in I0. cbn [concat app] in I0. destruct I0 as [->|I0]; [lia|]. rewrite Forall_forall in SD.
    specialize (SD w0 I0). lia. }
  assert (KD : forall x, In x dates -> x <= w0 -> next_write wd x = w0).
  { intros x X L. destruct (next_write_spec wd x SW (B x X)) as [A1 [A2 A3]].
    pose proof (A3 w0 ltac:(rewrite EW; left; auto) L) as A4. set (n := next_write wd x) in *. clearbody n.
    clear G H CH B F I1 LE0 W A3. rewrite EW in A1, SW. destruct A1 as [A1|A1]; [auto|].
    apply StronglySorted_inv in SW. destruct SW as [_ SW]. rewrite Forall_forall in SW. specialize (SW _ A1). lia. }
  assert (DI : In d dates) by (rewrite C; left; auto).
  assert (G0 : In w0 (d :: q)).
  { rewrite <- (group_filter (next_write wd) _ G (d :: q) d) by (left; auto). apply filter_In. split.
    - rewrite <- C. auto.
    - rewrite (KD w0 I0), (KD d DI) by lia. apply Z.eqb_refl. }
  assert (LQ : List.last q d = w0).
  { pose proof (sorted_last_max d q SG w0 G0). pose proof (last_in q d) as LI.
    rewrite <- (group_filter (next_write wd) _ G (d :: q) d) in LI by (left; auto). apply filter_In in LI.
    destruct LI as [L1 L2]. apply Z.eqb_eq in L2. rewrite (KD d DI D0) in L2. rewrite <- C in L1.
    destruct (next_write_spec wd _ SW (B _ L1)) as [_ [L3 _]]. lia. }
  unfold flush. rewrite LQ, EW, Z.eqb_refl, <- EW.
  rewrite (groups_append v fm dates wd NM gs).
  - rewrite written_app. auto.
  - intros g Hg. destruct (H g) as [A1 [A2 A3]]; [right; apply in_or_app; auto|]. split; auto. apply sorted_NoDup; auto.
  - intros w1 t1 E1 X. rewrite EW in E1. injection E1 as <- <-.
    apply sorted_NoDup in SD. rewrite C in SD. cbn [concat app] in SD.
    rewrite concat_app in SD. change (d :: q ++ concat gs ++ concat g2) with ((d :: q) ++ (concat gs ++ concat g2)) in SD.
    clear - SD G0 X. induction (d :: q) as [|y l IH]; [inversion G0|]. cbn in SD. inversion SD; subst.
    destruct G0 as [->|G0]; auto. apply H1. apply in_or_app. right. apply in_or_app. auto.
Qed.
Print Assumptions c61_progress.

(** The write dates the code computes for a write frequency of fixed length [freq] meet these
    conditions, so the final file holds all rows whatever the frequency. *)
Lemma date_range_sorted start stop step : 0 < step -> sorted (date_range start stop step).
Proof.
  intros S. unfold date_range. destruct (stop <? start); [constructor|].
  generalize (Z.to_nat ((stop - start) / step) + 1)%nat as n. intros n. generalize 0%nat as k.
  induction n; intros k; cbn; constructor; [apply IHn|]. apply Forall_forall. intros x X. apply in_map_iff in X.
  destruct X as [m [<- I]]. apply in_seq in I. nia.
Qed.
Lemma sorted_snoc l x : sorted l -> (forall y, In y l -> y < x) -> sorted (l ++ [x]).
Proof.
  induction 1; cbn; intros H1; [constructor; constructor|]. constructor.
  - apply IHStronglySorted. auto.
  - apply Forall_app. split; auto.
Qed.
Lemma existsb_In stop l : existsb (Z.eqb stop) l = true <-> In stop l.
Proof.
  rewrite existsb_exists. split; [intros [x [I E]]; apply Z.eqb_eq in E; subst; auto|].
  intros I. exists stop. split; auto. apply Z.eqb_refl.
Qed.
Lemma pwd_in fd start stop w : In w (point_write_dates fd start stop) <->
  (In w fd /\ start <= w <= stop) \/ w = stop.
Proof.
  unfold point_write_dates. cbv zeta.
  assert (A : forall w, In w (filter (fun d => (start <=? d) && (d <=? stop)) fd) <-> In w fd /\ start <= w <= stop).
  { intros x. rewrite filter_In, andb_true_iff, Z.leb_le, Z.leb_le. tauto. }
  destruct (existsb _ _) eqn:E.
  - rewrite A. apply existsb_In, A in E. split; auto. intros [H| ->]; auto.
  - rewrite in_app_iff, A. cbn. intuition.
Qed.
Lemma pwd_sorted fd start stop : sorted fd -> sorted (point_write_dates fd start stop).
Proof.
  intros S. unfold point_write_dates. cbv zeta.
  destruct (existsb _ _) eqn:E; [apply sorted_filter; auto|].
  apply sorted_snoc; [apply sorted_filter; auto|]. intros y Y. pose proof Y as Y2. apply filter_In in Y2. destruct Y2 as [_ Y2].
  apply andb_true_iff in Y2. destruct Y2 as [_ Y2]. apply Z.leb_le in Y2.
  destruct (Z.eq_dec y stop) as [->|]; [|lia]. apply existsb_In in Y. congruence.
Qed.
(** Every time step appears exactly once, in order, with its values. *)
Theorem c61_every_step_once : forall V (v : Z -> V) fm start stop step freq stale,
  fm <> Memory -> 0 < step -> 0 < freq -> start <= stop -> (step | stop - start) ->
  let dates := date_range start stop step in
  point_run fm dates (point_write_dates (date_range start stop freq) start stop) (PS None stale)
            (map (fun d => (d, v d)) dates) = inr (PS None (Some (series v dates))).
Proof.
  intros V v fm start stop step freq stale NM S F L [k K] dates.
  assert (ALL : filter (fun d => d <=? stop) dates = dates).
  { apply filter_all, Forall_forall. intros d D. apply date_range_in in D; auto. destruct D as [j J]. apply Z.leb_le. lia. }
  assert (HD : exists t, point_write_dates (date_range start stop freq) start stop = start :: t).
  { assert (SS : In start (date_range start stop freq)) by (apply date_range_in; auto; exists 0; lia).
    pose proof (proj2 (pwd_in (date_range start stop freq) start stop start) ltac:(left; split; auto; lia)) as I.
    pose proof (pwd_sorted _ start stop (date_range_sorted start stop freq F)) as SW.
    destruct (point_write_dates (date_range start stop freq) start stop) as [|w t] eqn:E; [inversion I|].
    exists t. f_equal. assert (W : In w (w :: t)) by (left; auto). rewrite <- E in W. apply pwd_in in W.
    destruct I as [|I]; auto. apply StronglySorted_inv in SW. destruct SW as [_ SW]. rewrite Forall_forall in SW.
    specialize (SW start I). lia. }
  destruct HD as [t HD].
  pose proof (c61_progress V v fm dates _ stale start t stop NM (date_range_sorted _ _ _ S)
    (pwd_sorted _ start stop (date_range_sorted start stop freq F)) HD) as P.
  unfold run_until in P. rewrite ALL in P. apply P.
  - apply date_range_in; auto. exists 0. lia.
  - intros d D. apply date_range_in in D; auto. destruct D as [j J]. exists stop. split; [|lia]. apply pwd_in. auto.
  - apply pwd_in. auto.
Qed.
Print Assumptions c61_every_step_once.
Example c61_example :
  point_run Netcdf (date_range 0 54000 10800) (point_write_dates (date_range 0 54000 36000) 0 54000) (PS None (Some [(7, Some 7%nat)]))
    [(0, 1%nat); (10800, 2%nat); (21600, 3%nat); (32400, 4%nat); (43200, 5%nat); (54000, 6%nat)] =
  inr (PS None (Some [(0, Some 1%nat); (10800, Some 2%nat); (21600, Some 3%nat); (32400, Some 4%nat); (43200, Some 5%nat); (54000, Some 6%nat)])).
Proof. vm_compute. reflexivity. Qed.

(** With the "memory" format the data set holds all rows after the run, and no file is touched. *)
Theorem c61_memory : forall V (v : Z -> V) dates wd stale, sorted dates -> dates <> [] ->
  point_run Memory dates wd (PS None stale) (map (fun d => (d, v d)) dates) =
    inr (PS (Some (series v dates)) stale).
Proof.
  intros V v dates wd stale SD NE.
  assert (G : forall q p, p ++ q = dates -> NoDup (p ++ q) ->
    point_run Memory dates wd (PS (Some (written v p ++ blank q)) stale) (rows v q) = inr (PS (Some (series v dates)) stale)).
  { induction q as [|d q IH]; intros p E ND.
    - cbn. rewrite app_nil_r in *. subst. auto.
    - change (rows v (d :: q)) with ((d, v d) :: rows v q). cbn [point_run]. unfold point_update.
      cbn [p_data p_file]. unfold put_row. rewrite put_here.
      + apply IH; rewrite <- app_assoc; auto.
      + apply NoDup_remove_2 in ND. intros X. apply ND. apply in_or_app. auto. }
  specialize (G dates [] eq_refl (sorted_NoDup _ SD)). cbn [written map app] in G. rewrite <- G. unfold rows.
  assert (E : forall r : list (Z * V), r <> [] -> point_run Memory dates wd (PS None stale) r =
            point_run Memory dates wd (PS (Some (blank dates)) stale) r).
  { intros [|[a b] r] N; [congruence|]. reflexivity. }
  apply E. destruct dates; [congruence|discriminate].
Qed.
Print Assumptions c61_memory.

(** When the first write date is not a model date, the first chunk is appended: a netCDF run fails
    unless a file is left over from before, and otherwise the old contents stay in the file. *)
Theorem c61_unaligned : forall V (v : Z -> V) fm dates wd stale w0 t w,
  fm <> Memory -> sorted dates -> sorted wd -> wd = w0 :: t -> ~ In w0 dates ->
  (forall d, In d dates -> exists w, In w wd /\ d <= w) -> In w wd ->
  (exists d, In d dates /\ d <= w) ->
  run_until fm dates wd stale v w =
    match fm, stale with
    | Netcdf, None => inl FileNotFound
    | _, None => inr (PS None (Some (series v (filter (fun d => d <=? w) dates))))
    | _, Some old => inr (PS None (Some (old ++ series v (filter (fun d => d <=? w) dates))))
    end.
Proof.
  intros V v fm dates wd stale w0 t w NM SD SW EW I0 B W [d0 [D1 D2]]. unfold run_until.
  destruct (split_prefix v fm dates wd w NM SD SW B W) as [g1 [g2 [C [F [G H]]]]]. rewrite F.
  assert (I1 : In d0 (concat g1)) by (rewrite <- F; apply filter_In; split; auto; apply Z.leb_le; auto).
  destruct g1 as [|g gs]; [inversion I1|].
  destruct (H g (or_introl eq_refl)) as [SG [NE CH]]. destruct g as [|d q]; [congruence|]. clear I1.
  assert (ND : forall w1 t1, wd = w1 :: t1 -> ~ In w1 (concat (((d :: q) :: gs) ++ g2))).
  { intros w1 t1 E. rewrite EW in E. injection E as <- <-. rewrite <- C. auto. }
  cbn [concat].
  change (map (fun d0 => (d0, v d0)) ((d :: q) ++ concat gs)) with (rows v ((d :: q) ++ concat gs)).
  change (series v ((d :: q) ++ concat gs)) with (written v ((d :: q) ++ concat gs)).
  rewrite rows_app, point_run_app, (group_run v fm dates wd stale d q NM (sorted_NoDup _ SG)) by (apply CH; left; auto).
  unfold flush. replace (match wd with w1 :: _ => List.last q d =? w1 | [] => false end) with false.
  2:{ rewrite EW. symmetry. apply Z.eqb_neq. intros E. apply (ND w0 t EW). cbn [concat app]. pose proof (last_in q d) as LI.
      rewrite E in LI. destruct LI as [LI|LI]; [left; auto|right; apply in_or_app; left; auto]. }
  assert (R : forall old, point_run fm dates wd (PS None (Some old)) (rows v (concat gs)) =
            inr (PS None (Some (old ++ written v (concat gs))))).
  { intros old. apply groups_append; auto.
    - intros g Hg. destruct (H g) as [A1 [A2 A3]]; [right; apply in_or_app; auto|]. split; auto. apply sorted_NoDup; auto.
    - intros w1 t1 E X. apply (ND w1 t1 E). rewrite concat_app. apply in_or_app. left. cbn [concat]. apply in_or_app. auto. }
  destruct fm; [| |congruence]; destruct stale as [old|]; rewrite ?R, ?written_app, ?app_assoc; auto.
Qed.
Print Assumptions c61_unaligned.
(** Such a run is possible: a 7-hour step and monthly write dates, starting 2020-01-02: the first month
    end (2020-01-31 00:00) is no model date and the netCDF run aborts. *)
Theorem c61_every_step_once_refuted : exists start stop step fd,
  0 < step /\ start <= stop /\ (step | stop - start) /\
  (forall w, In w fd <-> exists k, w = month_start (k + 1) - DAY + start mod DAY /\ start <= w <= stop) /\
  forall v : Z -> nat,
  point_run Netcdf (date_range start stop step) (point_write_dates fd start stop) (PS None None)
    (map (fun d => (d, v d)) (date_range start stop step)) = inl FileNotFound.
Proof.
  pose (start := DAY * (dby 2020 + 1)). pose (stop := start + 110 * 25200).
  pose (w0 := month_start (12 * 2020 + 1) - DAY).
  exists start, stop, 25200, [w0]. split; [lia|]. split; [unfold stop; lia|].
  split; [exists 110; unfold stop; lia|].
  assert (M0 : start mod DAY = 0) by (vm_compute; reflexivity).
  assert (S1 : month_start (12 * 2020) <= start) by (vm_compute; discriminate).
  assert (S2 : stop < month_start (12 * 2020 + 2) - DAY) by (vm_compute; reflexivity).
  assert (S3 : start <= w0 <= stop) by (split; vm_compute; discriminate).
  split.
  - intros w. rewrite M0. split.
    + intros [<-|[]]. exists (12 * 2020). rewrite Z.add_0_r. auto.
    + intros [k [E H]]. left. rewrite Z.add_0_r in E. rewrite E in H |- *. destruct (Z.lt_trichotomy k (12 * 2020)) as [X|[X|X]].
      * pose proof (month_start_mono (k + 1) (12 * 2020) ltac:(lia)). unfold DAY in *. lia.
      * subst. auto.
      * pose proof (month_start_mono (12 * 2020 + 2) (k + 1) ltac:(lia)). lia.
  - intros v. pose proof (c61_unaligned nat v Netcdf (date_range start stop 25200) (point_write_dates [w0] start stop) None w0 [stop] stop) as U.
    assert (SW : sorted [w0]) by (constructor; constructor).
    assert (PW : point_write_dates [w0] start stop = [w0; stop]) by (vm_compute; reflexivity).
    unfold run_until in U. rewrite filter_all in U.
    + apply U; auto; [discriminate|apply date_range_sorted; lia|apply pwd_sorted; auto| | | |].
      * rewrite date_range_in by lia. intros [k [K1 [K2 K3]]].
        assert (X : (w0 - start) mod 25200 = 0) by (rewrite K2; replace (start + k * 25200 - start) with (k * 25200) by lia; apply Z.mod_mul; lia).
        vm_compute in X. discriminate.
      * intros d D. apply date_range_in in D; [|lia]. destruct D as [j J]. exists stop. split; [|lia]. rewrite PW. right; left; auto.
      * rewrite PW. right; left; auto.
      * exists start. split; [|unfold stop; lia]. apply date_range_in; [lia|]. exists 0. unfold stop; lia.
    + apply Forall_forall. intros d D. apply date_range_in in D; [|lia]. destruct D as [j J]. apply Z.leb_le. lia.
Qed.
Print Assumptions c61_every_step_once_refuted.
