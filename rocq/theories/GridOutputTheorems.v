(** Theorems about gridded output (C62). *)
From Coq Require Import Sorting.Sorted.
From Verif Require Import TimeModel TimeProofs Common OutputModel OutputProofs CalendarProofs OutputTheorems.
Open Scope Z_scope.

(** * What is written *)
Open Scope R_scope.
(** The true aggregate of a list of values: NaN as soon as one is NaN *)
Fixpoint all_values (l : list num) : option (list R) :=
  match l with
  | [] => Some []
  | x :: t => match x, all_values t with Some a, Some b => Some (a :: b) | _, _ => None end
  end.
Definition true_aggregate (a : agg) (l : list num) : num :=
  match a with
  | NoAgg => List.last l None
  | Sum => option_map sumR (all_values l)
  | Mean => option_map (fun v => sumR v / INR (length v)) (all_values l)
  end.
Definition fresh : field := FD None 0.
Lemma all_values_app l x : all_values (l ++ [x]) =
  match all_values l, x with Some a, Some b => Some (a ++ [b]) | _, _ => None end.
Proof.
  induction l as [|y l IH]; cbn; [destruct x; auto|]. rewrite IH. destruct y, (all_values l), x; cbn; auto.
Qed.
Lemma all_values_length l v : all_values l = Some v -> length v = length l.
Proof.
  revert v. induction l as [|y l IH]; cbn; intros v E; [injection E as <-; auto|].
  destruct y; [|discriminate]. destruct (all_values l); [|discriminate]. injection E as <-. cbn. f_equal. auto.
Qed.
Definition accum (a : agg) (l : list num) : field :=
  match a, l with
  | NoAgg, _ | _, [] => fresh
  | _, _ => FD (Some (true_aggregate a l)) (length l)
  end.
Lemma accum_snoc a l x : accumulate a (accum a l) x = accum a (l ++ [x]).
Proof.
  destruct a; auto.
  - assert (A : accum Sum (l ++ [x]) = FD (Some (true_aggregate Sum (l ++ [x]))) (S (length l))).
    { unfold accum. destruct l; cbn [app]; rewrite ?app_comm_cons, app_length || cbn; f_equal; cbn; lia. }
    rewrite A. cbn [true_aggregate]. rewrite all_values_app.
    destruct l as [|y l]; cbn [accum accumulate f_data f_num fresh].
    + destruct x; cbn; unfold sumR; cbn; auto. do 3 f_equal. lra.
    + f_equal. f_equal. cbn [true_aggregate]. destruct (all_values (y :: l)), x; cbn -[sumR]; auto.
      rewrite sumR_app, sumR_cons, sumR_nil. f_equal. lra.
  - assert (A : accum Mean (l ++ [x]) = FD (Some (true_aggregate Mean (l ++ [x]))) (S (length l))).
    { unfold accum. destruct l; cbn [app]; rewrite ?app_comm_cons, app_length || cbn; f_equal; cbn; lia. }
    rewrite A. cbn [true_aggregate]. rewrite all_values_app.
    destruct l as [|y l]; cbn [accum accumulate f_data f_num fresh].
    + destruct x; cbn; unfold sumR; cbn; auto. do 3 f_equal. field.
    + f_equal. f_equal. cbn [true_aggregate]. destruct (all_values (y :: l)) as [v|] eqn:E, x as [r|]; cbn -[sumR INR]; auto.
      f_equal. rewrite sumR_app, sumR_cons, sumR_nil, app_length. cbn [length].
      rewrite (all_values_length _ _ E). rewrite plus_INR. change (INR 1) with 1.
      replace (INR (S (length l + 1))) with (INR (length (y :: l)) + 1) by (cbn [length]; rewrite !S_INR, plus_INR; cbn; lra).
      assert (0 < INR (length (y :: l))) by (apply lt_0_INR; cbn; lia). field. lra.
Qed.
Lemma first_index_in d wd : In d wd -> exists i, first_index d wd = Some i /\ nth_error wd i = Some d /\
  (forall j, (j < i)%nat -> nth_error wd j <> Some d).
Proof.
  induction wd as [|w wd IH]; [inversion 1|]. intros I. cbn. destruct (Z.eqb_spec w d) as [->|N].
  - exists O. repeat split; auto. lia.
  - destruct I as [|I]; [congruence|]. destruct (IH I) as [i [E [A B]]]. rewrite E. exists (S i). repeat split; auto.
    intros [|j] L; cbn; [congruence|]. apply B. lia.
Qed.
Lemma first_index_none d wd : ~ In d wd -> first_index d wd = None.
Proof.
  induction wd as [|w wd IH]; cbn; auto. intros N. destruct (Z.eqb_spec w d); [tauto|]. rewrite IH by tauto. auto.
Qed.
Lemma grid_run_app a wd roi f l1 l2 : grid_run a wd roi f (l1 ++ l2) =
  let (f1, w1) := grid_run a wd roi f l1 in let (f2, w2) := grid_run a wd roi f1 l2 in (f2, w1 ++ w2).
Proof.
  revert f. induction l1 as [|[d v] l1 IH]; intros f; cbn; [destruct (grid_run a wd roi f l2); auto|].
  destruct (grid_update a wd roi f d v) as [f1 o]. rewrite IH. destruct (grid_run a wd roi f1 l1) as [f2 w].
  destruct (grid_run a wd roi f2 l2). destruct o; auto.
Qed.
Lemma grid_segment a wd seg : forall l, (forall d v, In (d, v) seg -> ~ In d wd) ->
  grid_run a wd true (accum a l) seg = (accum a (l ++ map snd seg), []).
Proof.
  induction seg as [|[d v] seg IH]; intros l H; cbn; [rewrite app_nil_r; auto|].
  unfold grid_update. rewrite first_index_none by (apply (H d v); left; auto).
  assert (E : match a with NoAgg => accum a l | _ => accumulate a (accum a l) v end = accum a (l ++ [v])).
  { rewrite <- accum_snoc. destruct a; auto. }
  replace (match a with NoAgg => accum a l | _ => if true then accumulate a (accum a l) v else FD (Some None) (S (f_num (accum a l))) end)
    with (accum a (l ++ [v])) by (rewrite <- E; destruct a; auto).
  rewrite IH by (intros d' v' I; apply (H d' v'); right; auto). rewrite <- app_assoc. auto.
Qed.
Lemma fresh_after a wd roi rows d y : In d wd -> fst (grid_run a wd roi fresh (rows ++ [(d, y)])) = fresh.
Proof.
  intros I. rewrite grid_run_app. destruct (grid_run a wd roi fresh rows) as [f w]. cbn.
  unfold grid_update. destruct (first_index_in d wd I) as [i [E _]]. rewrite E. auto.
Qed.
(** Whatever happened before the previous write date, nothing is written until the next one, and the
    value written there (at that date's position) is the aggregate of exactly the values since. *)
Theorem c62_written : forall a wd before since w x,
  before = [] \/ (exists r d y, before = r ++ [(d, y)] /\ In d wd) ->
  (forall d y, In (d, y) since -> ~ In d wd) -> In w wd ->
  exists i, nth_error wd i = Some w /\ (forall j, (j < i)%nat -> nth_error wd j <> Some w) /\
    snd (grid_run a wd true fresh (before ++ since)) = snd (grid_run a wd true fresh before) /\
    grid_run a wd true fresh (before ++ since ++ [(w, x)]) =
      (fresh, snd (grid_run a wd true fresh before) ++ [(i, true_aggregate a (map snd since ++ [x]))]).
Proof.
  intros a wd before since w x B SN W.
  assert (F : fst (grid_run a wd true fresh before) = fresh).
  { destruct B as [->|[r [d [y [-> I]]]]]; auto. apply fresh_after; auto. }
  destruct (first_index_in w wd W) as [i [E [N M]]]. exists i. split; auto. split; auto.
  rewrite !grid_run_app. destruct (grid_run a wd true fresh before) as [f ws]. cbn [fst snd] in F |- *. subst f.
  replace fresh with (accum a []) by (destruct a; auto).
  rewrite (grid_run_app a wd true (accum a []) since), !grid_segment by auto. cbn [app snd].
  split; [apply app_nil_r|].
  cbn [grid_run]. unfold grid_update. rewrite E.
  replace (match a with NoAgg => accum a (map snd since) | _ => if true then accumulate a (accum a (map snd since)) x
             else FD (Some None) (S (f_num (accum a (map snd since)))) end)
    with (accum a (map snd since ++ [x])) by (rewrite <- accum_snoc; destruct a; auto).
  assert (V : match a with NoAgg => x | _ => match f_data (accum a (map snd since ++ [x])) with Some z => z | None => None end end
              = true_aggregate a (map snd since ++ [x])).
  { destruct a; cbn [true_aggregate]; [rewrite last_last; auto| |];
      destruct (map snd since) as [|z t]; cbn [app accum f_data]; auto. }
  f_equal; [destruct a; auto|]. f_equal. f_equal. f_equal. auto.
Qed.
Print Assumptions c62_written.
Example c62_written_example :
  grid_run Mean [7200; 14400]%Z true fresh
    [(3600%Z, Some 1); (7200%Z, Some 2); (10800%Z, Some 5); (14400%Z, Some 9)] =
  (fresh, [(O, true_aggregate Mean [Some 1; Some 2]); (1%nat, true_aggregate Mean [Some 5; Some 9])]).
Proof.
  destruct (c62_written Mean [7200; 14400]%Z [(3600%Z, Some 1); (7200%Z, Some 2)] [(10800%Z, Some 5)] 14400%Z (Some 9)) as [i [N [_ [_ E]]]].
  - right. exists [(3600%Z, Some 1)], 7200%Z, (Some 2). split; auto. left; auto.
  - intros d y [H|[]]. injection H as <- <-. intros [X|[X|[]]]; discriminate.
  - right; left; auto.
  - cbn [app] in E. etransitivity; [exact E|]. destruct (c62_written Mean [7200; 14400]%Z [] [(3600%Z, Some 1)] 7200%Z (Some 2)) as [j [M [_ [_ F]]]].
    + left; auto.
    + intros d y [H|[]]. injection H as <- <-. intros [X|[X|[]]]; discriminate.
    + left; auto.
    + cbn [app] in F. replace (snd (grid_run Mean [7200%Z; 14400%Z] true fresh [(3600%Z, Some 1); (7200%Z, Some 2)]))
        with ([] ++ [(j, true_aggregate Mean (map snd [(3600%Z, Some 1)] ++ [Some 2]))]) by (symmetry; apply (f_equal snd F)).
      cbn [snd app map].
      destruct j as [|[|[|j]]]; cbn in M; try discriminate.
      destruct i as [|[|[|i]]]; cbn in N; try discriminate. auto.
Qed.
(** Pixels outside the ROI are NaN in aggregated output. *)
Theorem c62_outside_roi : forall a wd rows i x, a <> NoAgg ->
  In (i, x) (snd (grid_run a wd false fresh rows)) -> x = None.
Proof.
  intros a wd rows i x NA.
  assert (G : forall f, f_data f = None \/ f_data f = Some None -> In (i, x) (snd (grid_run a wd false f rows)) -> x = None).
  { induction rows as [|[d v] rows IH]; cbn; intros f F; [tauto|].
    unfold grid_update. destruct (first_index d wd) as [j|].
    - destruct (grid_run a wd false (FD None 0) rows) as [f2 ws] eqn:E. cbn. intros [H|H].
      + injection H as <- <-. destruct a; cbn; auto; congruence.
      + apply (IH (FD None 0)); [auto|]. rewrite E. auto.
    - match goal with |- context [grid_run a wd false ?g rows] => destruct (grid_run a wd false g rows) as [f2 ws] eqn:E end.
      cbn. intros H. eapply IH; [|rewrite E; apply H]. destruct a; auto. }
  apply G. left; auto.
Qed.
Print Assumptions c62_outside_roi.

(** * When it is written *)
Open Scope Z_scope.
(** Fixed frequencies: refused exactly when the output interval is not a multiple of the time step;
    otherwise every write date is a model date, and for aggregated output each interval consists of
    exactly n = out/step model dates, the last being the write date. *)
Theorem c62_fixed_schedule : forall start stop step out aggregated, 0 < step -> 0 < out -> start <= stop ->
  (freq_write_dates start stop step out aggregated = None <-> ~ (step | out)) /\
  forall wd, freq_write_dates start stop step out aggregated = Some wd ->
    (forall i, nth_error wd i =
       let w := if aggregated then start + (Z.of_nat i + 1) * out - step else start + Z.of_nat i * out in
       if w <=? stop then Some w else None) /\
    (forall w, In w wd -> In w (date_range start stop step)) /\
    keep_write_dates start stop wd = wd.
Proof.
  intros start stop step out agg S O L. unfold freq_write_dates.
  assert (DV : (step | out) <-> (out <? step) = false /\ (out mod step =? 0) = true).
  { split.
    - intros D. split; [apply Z.ltb_ge; apply Z.divide_pos_le; auto; lia|]. apply Z.eqb_eq. apply Z.mod_divide; auto; lia.
    - intros [_ D]. apply Z.eqb_eq in D. apply Z.mod_divide; auto; lia. }
  split.
  - rewrite DV. destruct (out <? step), (out mod step =? 0); cbn; destruct agg; intuition discriminate.
  - intros wd E. destruct (out <? step) eqn:E1; [discriminate|]. destruct (out mod step =? 0) eqn:E2; cbn in E; [|discriminate].
    destruct (proj2 DV ltac:(auto)) as [n N].
    assert (N1 : 1 <= n) by nia.
    assert (NTH : forall i, nth_error wd i =
       let w := if agg then start + (Z.of_nat i + 1) * out - step else start + Z.of_nat i * out in
       if w <=? stop then Some w else None).
    { intros i. destruct agg; injection E as <-; cbv zeta.
      - destruct (Z.le_gt_cases (start + out - step) stop) as [Q|Q].
        + rewrite date_range_nth by auto. replace (start + out - step + Z.of_nat i * out) with (start + (Z.of_nat i + 1) * out - step) by lia. auto.
        + rewrite date_range_empty by auto. destruct (Z.leb_spec (start + (Z.of_nat i + 1) * out - step) stop); [nia|].
          destruct i; auto.
      - rewrite date_range_nth; auto. }
    assert (INW : forall w, In w wd -> In w (date_range start stop step)).
    { intros w I. apply In_nth_error in I. destruct I as [i I]. rewrite NTH in I. cbv zeta in I. apply date_range_in; auto.
      destruct agg.
      - destruct (Z.leb_spec (start + (Z.of_nat i + 1) * out - step) stop); [|discriminate]. injection I as <-.
        exists ((Z.of_nat i + 1) * n - 1). subst out. split; [nia|]. split; [ring|lia].
      - destruct (Z.leb_spec (start + Z.of_nat i * out) stop); [|discriminate]. injection I as <-.
        exists (Z.of_nat i * n). subst out. split; [nia|]. split; [ring|lia]. }
    split; auto. split; auto. apply filter_all, Forall_forall. intros w I. apply INW, date_range_in in I; auto.
    destruct I as [k K]. apply andb_true_iff. rewrite !Z.leb_le. nia.
Qed.
Print Assumptions c62_fixed_schedule.
Example c62_fixed_schedule_example : freq_write_dates 0 86400 10800 21600 true = Some [10800; 32400; 54000; 75600]
  /\ freq_write_dates 0 86400 10800 21601 true = None.
Proof. split; vm_compute; reflexivity. Qed.
(** Each aggregated interval named in a raster file name consists of exactly the model dates since the
    previous write date: [n] of them. *)
Theorem c62_interval : forall start stop step n wd i, 0 < step -> 0 < n -> start <= stop ->
  freq_write_dates start stop step (n * step) true = Some wd -> (i < length wd)%nat ->
  exists w prev, nth_error wd i = Some w /\ prev = match i with O => start - step | S j => nth j wd 0 end /\
    file_interval start step wd i = Some (prev + step, w) /\
    nth_error (time_bounds start wd) i = Some (match i with O => start | S _ => prev end, w) /\
    forall d, (In d (date_range start stop step) /\ prev < d <= w) <-> exists j, 1 <= j <= n /\ d = prev + j * step.
Proof.
  intros start stop step n wd i S N L E I.
  destruct (c62_fixed_schedule start stop step (n * step) true S ltac:(nia) L) as [_ H].
  destruct (H wd E) as [NTH [INW _]]. cbv zeta in NTH.
  assert (W : forall k, (k < length wd)%nat -> nth_error wd k = Some (start + (Z.of_nat k + 1) * (n * step) - step)
              /\ start + (Z.of_nat k + 1) * (n * step) - step <= stop).
  { intros k K. apply nth_error_Some in K. rewrite NTH in K |- *.
    destruct (Z.leb_spec (start + (Z.of_nat k + 1) * (n * step) - step) stop); [auto|congruence]. }
  destruct (W i I) as [WI WB].
  exists (start + (Z.of_nat i + 1) * (n * step) - step), (start + Z.of_nat i * (n * step) - step).
  assert (P : start + Z.of_nat i * (n * step) - step = match i with O => start - step | Datatypes.S j => nth j wd 0 end).
  { destruct i as [|j]; [lia|]. destruct (W j ltac:(lia)) as [Wj _]. erewrite nth_error_nth by apply Wj. lia. }
  split; auto. split; auto. split; [|split].
  - unfold file_interval. rewrite WI. destruct i as [|j]; [f_equal; f_equal; lia|].
    destruct (W j ltac:(lia)) as [Wj _]. rewrite Wj. cbn [option_map]. do 2 f_equal. lia.
  - assert (TB : forall l p k, nth_error (time_bounds p l) k =
       match nth_error l k with Some w => Some (match k with O => p | Datatypes.S j => nth j l 0 end, w) | None => None end).
    { clear. induction l as [|w l IH]; intros p [|k]; cbn; auto. }
    rewrite TB, WI. destruct i as [|j]; auto. rewrite P. auto.
  - intros d. rewrite date_range_in by auto. split.
    + intros [[k [K [-> B]]] R]. exists (k - Z.of_nat i * n + 1). split; nia.
    + intros [j [J ->]]. split; [|nia]. exists (Z.of_nat i * n + j - 1). split; [nia|]. split; [ring|nia].
Qed.
Print Assumptions c62_interval.

Lemma small_multiple n s x : 0 < s -> x = n * s -> - s < x < s -> x = 0.
Proof. intros S -> H. assert (n = 0) by nia. subst. lia. Qed.
(** ** Months and years *)
Lemma last_upto dates e d0 r : sorted dates -> rev (filter (fun d => d <=? e) dates) = d0 :: r ->
  In d0 dates /\ d0 <= e /\ (forall d, In d dates -> d <= e -> d <= d0).
Proof.
  intros S E. assert (F : filter (fun d => d <=? e) dates = filter (fun d => d <? e + 1) dates).
  { apply filter_ext. intros d. destruct (Z.leb_spec d e), (Z.ltb_spec d (e + 1)); auto; lia. }
  rewrite F in E. destruct (last_low dates (e + 1) d0 r S E) as [A [B C]]. repeat split; auto; [lia|].
  intros d I L. apply C; auto. lia.
Qed.
Lemma delete_last_in {A} (f : A -> Z) (l : list A) (stop : Z) : 
  (forall a b r, l = a ++ b :: r -> r <> [] -> f b <= stop) ->
  forall w, In w (match rev (map f l) with x :: r => if stop <? x then rev r else map f l | [] => map f l end) <->
            In w (map f l) /\ w <= stop.
Proof.
  intros H w. destruct l as [|x l _] using rev_ind; [cbn; tauto|].
  rewrite map_app, rev_app_distr. cbn [map rev app].
  assert (LO : forall y, In y (map f l) -> y <= stop).
  { intros y Y. apply in_map_iff in Y. destruct Y as [b [<- B]]. apply in_split in B. destruct B as [l1 [l2 ->]].
    apply (H l1 b (l2 ++ [x])); [rewrite <- app_assoc; auto|]. destruct l2; discriminate. }
  destruct (Z.ltb_spec stop (f x)).
  - rewrite rev_involutive, in_app_iff. cbn. split; [intros I; auto|]. intros [[I|[<-|[]]] B]; auto. lia.
  - rewrite in_app_iff. cbn. split; [|tauto]. intros [I|[<-|[]]]; auto.
Qed.
(** Months and years, aggregated: the write dates are exactly the model dates that are the last of
    their month or year (so half periods at the end are not written), if the time step divides a day,
    the run starts at a whole unit of the time step and reaches the end of its first period. *)
Theorem c62_month_aggregates : forall p base start stop step,
  0 < p -> 0 < base -> 0 < step -> (base | step) -> (step | DAY) -> (base | start) ->
  0 <= start <= stop -> (step | stop - start) ->
  period_start p (period_index p start + 1) <= stop + step ->
  exists wd, anchored_agg_dates p base start stop step = Some wd /\
    forall w, In w wd <-> In w (date_range start stop step) /\ period_index p (w + step) <> period_index p w.
Proof.
  intros p base start stop step P Bp Sp BS SD BST ST SS COV. unfold anchored_agg_dates.
  assert (SLE : step <= DAY) by (apply Z.divide_pos_le; auto; unfold DAY; lia).
  destruct (Z.ltb_spec DAY step); [lia|]. cbv zeta.
  set (i0 := period_index p start) in *. set (i1 := period_index p stop) in *.
  assert (I01 : i0 <= i1) by (apply period_index_mono; auto; lia).
  pose proof (period_bounds p start P ltac:(lia)) as PB0. fold i0 in PB0.
  pose proof (period_bounds p stop P ltac:(lia)) as PB1. fold i1 in PB1.
  set (B0 := period_start p (i0 + 1)) in *.
  rewrite (zrange_cons i0 i1 I01). cbn [map hd]. fold B0.
  assert (BD : forall k, (base | period_start p k)).
  { intros k. transitivity step; auto. transitivity DAY; auto. apply period_start_day. }
  assert (SDk : forall k, (step | period_start p k)) by (intros k; transitivity DAY; auto; apply period_start_day).
  assert (E0 : start <= B0 - base).
  { destruct BST as [a A]. destruct (BD (i0 + 1)) as [b B]. fold B0 in B. assert (a < b) by (apply Z.mul_lt_mono_pos_r with base; lia).
    rewrite A, B. replace (b * base - base) with ((b - 1) * base) by ring. apply Z.mul_le_mono_nonneg_r; lia. }
  assert (IN0 : In start (rev (filter (fun d => d <=? B0 - base) (date_range start stop step)))).
  { rewrite <- in_rev. apply filter_In. split; [apply date_range_in; auto; exists 0; lia|apply Z.leb_le; auto]. }
  destruct (rev (filter (fun d => d <=? B0 - base) (date_range start stop step))) as [|d0 r] eqn:ER; [inversion IN0|].
  destruct (last_upto _ _ _ _ (date_range_sorted start stop step Sp) ER) as [D1 [D2 D3]].
  apply date_range_in in D1; auto. destruct D1 as [k0 [K0 [KD KS]]]. destruct SS as [m M].
  assert (D4 : B0 <= d0 + step).
  { assert (X : B0 - base < d0 + step).
    { destruct (Z.lt_ge_cases (B0 - base) (d0 + step)); auto. exfalso.
      assert (I : In (d0 + step) (date_range start stop step)).
      { apply date_range_in; auto. exists (k0 + 1). split; [lia|]. split; [lia|]. assert (LT : d0 < stop) by lia.
        assert (ES : stop = start + m * step) by lia. rewrite KD, ES in LT |- *.
        assert (k0 < m) by (apply Z.mul_lt_mono_pos_r with step; lia). replace (start + k0 * step + step) with (start + (k0 + 1) * step) by ring.
        apply Z.add_le_mono_l. apply Z.mul_le_mono_nonneg_r; lia. }
      specialize (D3 _ I H0). lia. }
    destruct BST as [a A]. destruct (BD (i0 + 1)) as [b B]. fold B0 in B. destruct BS as [c C].
    assert (ED : d0 + step = (a + k0 * c + c) * base) by (rewrite KD, A, C; ring).
    rewrite ED, B in X |- *. replace (b * base - base) with ((b - 1) * base) in X by ring.
    apply Z.mul_lt_mono_pos_r in X; auto. apply Z.mul_le_mono_nonneg_r; lia. }
  destruct (Z.ltb_spec (24 * 3600) (B0 - base - d0)); [unfold DAY in *; lia|].
  eexists. split; [reflexivity|]. intros w.
  (* back to one list *)
  set (delta := B0 - d0).
  assert (DL : 0 < delta <= step) by (unfold delta; lia).
  assert (EM : map (fun e => e + (d0 - (B0 - base))) (B0 - base :: map (fun k => period_start p (k + 1) - base) (zrange (i0 + 1) i1))
             = map (fun k => period_start p (k + 1) - delta) (zrange i0 i1)).
  { rewrite (zrange_cons i0 i1 I01). cbn [map]. rewrite map_map. f_equal; [unfold delta, B0; lia|].
    apply map_ext. intros k. unfold delta. lia. }
  cbn [map] in EM. cbn [map]. rewrite EM, delete_last_in.
  2:{ intros a b rr EZ NE. assert (In b (zrange i0 i1)) by (rewrite EZ; apply in_or_app; right; left; auto).
      apply zrange_in in H1. assert (b < i1).
      { destruct (Z.eq_dec b i1) as [->|]; [|lia]. exfalso. rewrite (zrange_snoc i0 i1 I01) in EZ.
        destruct rr as [|z rr _] using rev_ind; [congruence|].
        rewrite app_comm_cons, app_assoc in EZ. apply app_inj_tail in EZ. destruct EZ as [EZ EZ2].
        assert (X : In i1 (zrange i0 (i1 - 1))) by (rewrite EZ; apply in_or_app; right; left; auto).
        apply zrange_in in X. lia. }
      pose proof (period_start_mono p (b + 1) i1 P ltac:(lia)). lia. }
  rewrite in_map_iff, date_range_in by auto. 
  assert (CR : 0 <= w -> (period_index p (w + step) <> period_index p w <-> exists k, period_start p k - step <= w < period_start p k)).
  { intros W0. apply crosses; auto. unfold DAY in *. lia. }
  destruct (SDk (i0 + 1)) as [b0 HB0]. fold B0 in HB0.
  split.
  - intros [[k [<- K]] WS]. apply zrange_in in K.
    pose proof (period_start_mono p (i0 + 1) (k + 1) P ltac:(lia)). fold B0 in H1.
    assert (GE : start <= period_start p (k + 1) - delta) by (unfold delta; nia).
    split.
    + destruct (SDk (k + 1)) as [b HB]. exists (k0 + (b - b0)). unfold delta. rewrite HB, HB0, KD in *. split; [nia|]. split; [ring|]. nia.
    + apply CR; [lia|]. exists (k + 1). lia.
  - intros [[j [J [WJ WS]]] X]. apply CR in X; [|nia]. destruct X as [k' K'].
    destruct (SDk k') as [b HB].
    assert (WE : w = period_start p k' - delta).
    { unfold delta in *. rewrite HB, HB0 in *. assert (Q : w - (b * step - (b0 * step - d0)) = (j - k0 - b + b0) * step) by (rewrite WJ, KD; ring).
      apply small_multiple in Q; lia. }
    split; auto. exists (k' - 1). replace (k' - 1 + 1) with k' by lia. split; auto. apply zrange_in. split.
    + destruct (Z.le_gt_cases i0 (k' - 1)); auto. pose proof (period_start_mono p k' i0 P ltac:(lia)). nia.
    + destruct (Z.le_gt_cases (k' - 1) i1); auto. pose proof (period_start_strict p (k' - 1) k' P ltac:(lia)).
      pose proof (period_start_mono p (i1 + 1) (k' - 1) P ltac:(lia)). unfold DAY in *. lia.
Qed.
Print Assumptions c62_month_aggregates.

(** Months and years, instantaneous: first (MS, YS) or last (ME, YE) model dates of the periods, if the
    run starts within the first time step of a day. *)
Theorem c62_month_instants : forall p start stop step at_end,
  0 < p -> 0 < step -> (step | DAY) -> step <= start <= stop -> start mod DAY < step ->
  forall w, In w (keep_write_dates start stop (anchored_inst_dates p start stop step at_end)) <->
    In w (date_range start stop step) /\
    (if at_end then period_index p (w + step) <> period_index p w else period_index p w <> period_index p (w - step)).
Proof.
  intros p start stop step at_end P Sp SD ST TOD w. unfold keep_write_dates, anchored_inst_dates.
  assert (SLE : step <= DAY) by (apply Z.divide_pos_le; auto; unfold DAY; lia).
  assert (SDk : forall k, (step | period_start p k)) by (intros k; transitivity DAY; auto; apply period_start_day).
  set (tod := start mod DAY) in *. assert (T0 : 0 <= tod) by (apply Z.mod_pos_bound; unfold DAY; lia).
  assert (DM : start = DAY * (start / DAY) + tod) by (apply Z.div_mod; unfold DAY; lia).
  set (i0 := period_index p start). set (i1 := period_index p stop).
  pose proof (period_bounds p start P ltac:(lia)) as PB0. fold i0 in PB0.
  pose proof (period_bounds p stop P ltac:(lia)) as PB1. fold i1 in PB1.
  destruct SD as [nd ND].
  rewrite filter_In, andb_true_iff, Z.leb_le, Z.leb_le.
  destruct at_end.
  - (* end of period: w = period_start (k+1) - step + tod *)
    set (dd := fun k => period_start p (k + 1) - DAY + tod).
    assert (EQ : In w (if true && (step <? DAY) then map (fun w0 => w0 + (DAY - step)) (filter (fun w0 => (start <=? w0) && (w0 <=? stop)) (map dd (zrange i0 i1)))
                  else filter (fun w0 => (start <=? w0) && (w0 <=? stop)) (map dd (zrange i0 i1)))
             <-> exists k, i0 <= k <= i1 /\ w = period_start p (k + 1) - step + tod /\ start <= dd k <= stop).
    { cbn [andb]. destruct (Z.ltb_spec step DAY).
      - rewrite in_map_iff. split.
        + intros [x [<- X]]. apply filter_In in X. destruct X as [X1 X2]. apply in_map_iff in X1. destruct X1 as [k [<- K]].
          rewrite andb_true_iff, !Z.leb_le in X2. apply zrange_in in K. exists k. unfold dd in *. repeat split; lia.
        + intros [k [K [-> B]]]. exists (dd k). split; [unfold dd; lia|]. apply filter_In. split.
          * apply in_map. apply zrange_in. auto.
          * rewrite andb_true_iff, !Z.leb_le. auto.
      - assert (step = DAY) by lia. rewrite filter_In, andb_true_iff, !Z.leb_le, in_map_iff. split.
        + intros [[k [<- K]] X]. apply zrange_in in K. exists k. unfold dd in *. repeat split; lia.
        + intros [k [K [-> B]]]. unfold dd in *. split; [|lia]. exists k. split; [lia|]. apply zrange_in. auto. }
    rewrite EQ, date_range_in by auto. clear EQ.
    split.
    + intros [[k [K [WE B]]] R]. destruct (SDk (k + 1)) as [b HB]. split.
      * exists (b - 1 - (start / DAY) * nd). rewrite WE, HB. split; [|split; [|lia]].
        -- assert ((b - 1 - start / DAY * nd) * step = w - start) by (rewrite WE, HB; rewrite DM at 2; rewrite ND; ring). nia.
        -- rewrite DM at 1. rewrite ND. ring.
      * apply crosses; auto; [lia|unfold DAY in *; lia|]. exists (k + 1). lia.
    + intros [[j [J [WJ WS]]] X]. assert (W0 : start <= w) by nia. apply crosses in X; auto; [|lia|unfold DAY in *; lia]. destruct X as [k' K'].
      destruct (SDk k') as [b HB].
      assert (WE : w = period_start p k' - step + tod).
      { assert (Q : w - (b * step - step + tod) = (j - b + 1 + (start / DAY) * nd) * step) by (rewrite WJ; rewrite DM at 1; rewrite ND; ring).
        rewrite HB in *. apply small_multiple in Q; lia. }
      split; [|lia]. exists (k' - 1). unfold dd. replace (k' - 1 + 1) with k' by lia. split; [|split; [auto|]].
      * split.
        -- destruct (Z.le_gt_cases i0 (k' - 1)); auto. pose proof (period_start_mono p k' i0 P ltac:(lia)). lia.
        -- destruct (Z.le_gt_cases (k' - 1) i1); auto. pose proof (period_start_strict p (k' - 1) k' P ltac:(lia)).
           pose proof (period_start_mono p (i1 + 1) (k' - 1) P ltac:(lia)). unfold DAY in *. lia.
      * split; [|lia]. destruct (period_start_day p k') as [c HC]. rewrite HC in *.
        assert (start / DAY < c) by (unfold DAY in *; nia). unfold DAY in *. nia.
  - set (dd := fun k => period_start p k + tod).
    assert (EQ : In w (if false && (step <? DAY) then map (fun w0 => w0 + (DAY - step)) (filter (fun w0 => (start <=? w0) && (w0 <=? stop)) (map dd (zrange i0 i1)))
                  else filter (fun w0 => (start <=? w0) && (w0 <=? stop)) (map dd (zrange i0 i1)))
             <-> exists k, i0 <= k <= i1 /\ w = period_start p k + tod /\ start <= w <= stop).
    { cbn [andb]. rewrite filter_In, andb_true_iff, !Z.leb_le, in_map_iff. split.
      + intros [[k [<- K]] X]. apply zrange_in in K. exists k. unfold dd in *. repeat split; lia.
      + intros [k [K [-> B]]]. unfold dd in *. split; [|lia]. exists k. split; [lia|]. apply zrange_in. auto. }
    rewrite EQ, date_range_in by auto. clear EQ.
    split.
    + intros [[k [K [WE B]]] R]. destruct (SDk k) as [b HB]. split.
      * exists (b - (start / DAY) * nd). split; [|split; [|lia]].
        -- assert ((b - start / DAY * nd) * step = w - start) by (rewrite WE, HB; rewrite DM at 2; rewrite ND; ring). nia.
        -- rewrite WE, HB. rewrite DM at 1. rewrite ND. ring.
      * assert (Q : period_index p (w - step + step) <> period_index p (w - step)).
        { apply crosses; auto; [lia|unfold DAY in *; lia|]. exists k. lia. }
        replace (w - step + step) with w in Q by lia. auto.
    + intros [[j [J [WJ WS]]] X]. assert (W0 : start <= w) by nia.
      assert (Q : exists k, period_start p k - step <= w - step < period_start p k).
      { apply crosses; auto; [lia|unfold DAY in *; lia|]. replace (w - step + step) with w by lia. auto. }
      destruct Q as [k' K']. destruct (SDk k') as [b HB].
      assert (WE : w = period_start p k' + tod).
      { assert (Q : w - (b * step + tod) = (j - b + (start / DAY) * nd) * step) by (rewrite WJ; rewrite DM at 1; rewrite ND; ring).
        rewrite HB in *. apply small_multiple in Q; lia. }
      split; [|lia]. exists k'. split; [|split; [auto|lia]]. split.
      * destruct (Z.le_gt_cases i0 k'); auto. pose proof (period_start_strict p k' i0 P ltac:(lia)). unfold DAY in *. lia.
      * destruct (Z.le_gt_cases k' i1); auto. pose proof (period_start_mono p (i1 + 1) k' P ltac:(lia)). lia.
Qed.
Print Assumptions c62_month_instants.

(** Jan 1 - Mar 1 2020, three-hourly, monthly: hypotheses met, dates Jan 31 21:00 and Feb 29 21:00 *)
Definition jan2020 : Z := DAY * dby 2020.
Lemma period_at p t k : (0 <? p) && (0 <=? t) && (period_start p k <=? t) && (t <? period_start p (k + 1)) = true -> period_index p t = k.
Proof.
  rewrite !andb_true_iff, !Z.leb_le, !Z.ltb_lt. intros [[[P T] A] B]. apply period_index_unique; auto.
Qed.
Ltac at_period t k := rewrite (period_at 1 t k) by (vm_compute; reflexivity).
Example c62_month_example :
  anchored_agg_dates 1 3600 jan2020 (jan2020 + 61 * DAY) 10800 =
    Some [jan2020 + 31 * DAY - 10800; jan2020 + 60 * DAY - 10800] /\
  period_start 1 (period_index 1 jan2020 + 1) <= jan2020 + 61 * DAY + 10800 /\
  anchored_inst_dates 1 jan2020 (jan2020 + 61 * DAY) 10800 true = [jan2020 + 31 * DAY - 10800; jan2020 + 60 * DAY - 10800] /\
  anchored_inst_dates 12 jan2020 (jan2020 + 400 * DAY) 10800 false = [jan2020; jan2020 + 366 * DAY].
Proof.
  unfold anchored_agg_dates, anchored_inst_dates.
  at_period jan2020 (12 * 2020). at_period (jan2020 + 61 * DAY) (12 * 2020 + 2).
  rewrite (period_at 12 jan2020 2020) by (vm_compute; reflexivity).
  rewrite (period_at 12 (jan2020 + 400 * DAY) 2021) by (vm_compute; reflexivity).
  split; [vm_compute; reflexivity|]. split; [vm_compute; discriminate|]. split; vm_compute; reflexivity.
Qed.

(** With a five-hour step the write dates after the first are not model dates: February is never
    written, and its values end up in whatever is written next. *)
Theorem c62_month_aggregates_refuted : exists base start stop step wd w,
  (base | step) /\ (base | start) /\ 0 <= start <= stop /\ (step | stop - start) /\ step < DAY /\
  anchored_agg_dates 1 base start stop step = Some wd /\ In w (keep_write_dates start stop wd) /\
  ~ In w (date_range start stop step).
Proof.
  exists 3600, jan2020, (jan2020 + 300 * 18000), 18000, [jan2020 + 30 * DAY + 20 * 3600; jan2020 + 59 * DAY + 20 * 3600], (jan2020 + 59 * DAY + 20 * 3600).
  split; [exists 5; lia|]. split; [exists (24 * dby 2020); unfold jan2020, DAY; lia|].
  split; [vm_compute; split; discriminate|]. split; [exists 300; lia|]. split; [reflexivity|].
  split; [unfold anchored_agg_dates; at_period jan2020 (12 * 2020); at_period (jan2020 + 300 * 18000) (12 * 2020 + 2); vm_compute; reflexivity|].
  split; [vm_compute; auto|].
  rewrite date_range_in by lia. intros [k [K [E _]]].
  assert (X : (59 * DAY + 20 * 3600) mod 18000 = 0) by (replace (59 * DAY + 20 * 3600) with (k * 18000) by lia; apply Z.mod_mul; lia).
  vm_compute in X. discriminate.
Qed.
Print Assumptions c62_month_aggregates_refuted.
(** A run ending within a day before the end of its only month writes the incomplete month. *)
Theorem c62_half_period_refuted : exists base start stop step wd w,
  (base | step) /\ (step | DAY) /\ (base | start) /\ 0 <= start <= stop /\ (step | stop - start) /\
  anchored_agg_dates 1 base start stop step = Some wd /\ In w (keep_write_dates start stop wd) /\
  period_index 1 (w + step) = period_index 1 w.
Proof.
  exists 3600, jan2020, (jan2020 + 30 * DAY + 3600), 3600, [jan2020 + 30 * DAY + 3600], (jan2020 + 30 * DAY + 3600).
  split; [exists 1; lia|]. split; [exists 24; reflexivity|]. split; [exists (24 * dby 2020); unfold jan2020, DAY; lia|].
  split; [vm_compute; split; discriminate|]. split; [exists (24 * 30 + 1); unfold DAY; lia|].
  split; [unfold anchored_agg_dates; at_period jan2020 (12 * 2020); at_period (jan2020 + 30 * DAY + 3600) (12 * 2020); vm_compute; reflexivity|].
  split; [vm_compute; auto|].
  at_period (jan2020 + 30 * DAY + 3600) (12 * 2020). at_period (jan2020 + 30 * DAY + 3600 + 3600) (12 * 2020). reflexivity.
Qed.
Print Assumptions c62_half_period_refuted.
(** Month-end output of a run starting at 03:00 is taken in the following month. *)
Theorem c62_month_instants_refuted : exists start stop step w,
  (step | DAY) /\ step <= start <= stop /\ (step | stop - start) /\
  In w (keep_write_dates start stop (anchored_inst_dates 1 start stop step true)) /\
  In w (date_range start stop step) /\ period_index 1 (w + step) = period_index 1 w.
Proof.
  exists (jan2020 + 10800), (jan2020 + 10800 + 960 * 3600), 3600, (jan2020 + 31 * DAY + 7200).
  split; [exists 24; reflexivity|]. split; [vm_compute; split; discriminate|]. split; [exists 960; lia|].
  split.
  { unfold keep_write_dates, anchored_inst_dates. at_period (jan2020 + 10800) (12 * 2020).
    at_period (jan2020 + 10800 + 960 * 3600) (12 * 2020 + 1). vm_compute. auto. }
  split; [apply date_range_in; [lia|]; exists (31 * 24 - 1); unfold DAY; lia|].
  at_period (jan2020 + 31 * DAY + 7200) (12 * 2020 + 1). at_period (jan2020 + 31 * DAY + 7200 + 3600) (12 * 2020 + 1). reflexivity.
Qed.
Print Assumptions c62_month_instants_refuted.
(** Dates given by the user that are not model dates are never written, but still bound the interval
    the next output claims to cover: the sum written at 02:00 contains the value of 00:00 although the
    interval is said to start at 00:30. *)
Theorem c62_interval_refuted : exists wd bound w (v : Z -> num),
  In (bound, w) (time_bounds 0 wd) /\
  (exists d, In d (date_range 0 7200 3600) /\ d < bound /\ v d <> Some 0%R) /\
  grid_run Sum wd true fresh (map (fun d => (d, v d)) (date_range 0 7200 3600)) =
    (fresh, [(1%nat, true_aggregate Sum (map v (date_range 0 7200 3600)))]).
Proof.
  exists [1800; 7200], 1800, 7200, (fun _ => Some 1%R).
  split; [right; left; auto|]. split.
  - exists 0. split; [left; auto|]. split; [lia|]. intros E. injection E. lra.
  - destruct (c62_written Sum [1800; 7200] [] [(0, Some 1%R); (3600, Some 1%R)] 7200 (Some 1%R)) as [i [N [_ [_ E]]]].
    + left; auto.
    + intros d y [H|[H|[]]]; injection H as <- <-; intros [X|[X|[]]]; discriminate.
    + right; left; auto.
    + destruct i as [|[|[|i]]]; cbn in N; try discriminate. etransitivity; [|etransitivity; [exact E|]]; reflexivity.
Qed.
Print Assumptions c62_interval_refuted.
