(** Theorems about the resampling of station data (C78). *)
From Coq Require Import Sorted.
From Verif Require Import TimeModel TimeProofs Constants Common OutputProofs CalendarProofs OutputTheorems ForcingModel.
Open Scope Z_scope.

(** * Specification *)
(** The recorded values after time a, up to and including time b *)
Definition between (a b : Z) (data : timed) : list num :=
  map snd (filter (fun r => (a <? fst r) && (fst r <=? b)) data).
(** [s] is the sum of the values [l]: a single missing value makes it missing. *)
Definition is_sum (l : list num) (s : num) : Prop :=
  (In None l /\ s = None) \/ exists v, l = map Some v /\ s = Some (fold_right Rplus 0%R v).

Lemma num_sum_is l : is_sum l (num_sum l).
Proof.
  induction l as [|x l IH]; cbn; [right; exists []; auto|].
  destruct x as [x|]; [|left; split; [left; auto|reflexivity]].
  destruct IH as [[I E]|[v [E1 E2]]].
  - left. split; [right; auto|]. rewrite E. reflexivity.
  - right. exists (x :: v). rewrite E1 in *. split; auto. rewrite E2. reflexivity.
Qed.
Lemma is_sum_unique l s t : is_sum l s -> is_sum l t -> s = t.
Proof.
  intros [[I E]|[v [E1 E2]]] [[J F]|[w [F1 F2]]]; subst; auto.
  - apply in_map_iff in I. destruct I as [y [Y _]]. discriminate.
  - apply in_map_iff in J. destruct J as [y [Y _]]. discriminate.
  - assert (v = w); [|congruence]. clear - F1. revert w F1. induction v; intros [|b w] H; cbn in *; try discriminate; auto.
    injection H as -> H. f_equal. auto.
Qed.
Lemma bin_between f lo data : bin f lo data = between lo (lo + f) data.
Proof. reflexivity. Qed.

(** * Bins *)
Lemma bin_start_spec f origin t : 0 < f ->
  (exists k, bin_start f origin t = origin + k * f) /\ bin_start f origin t < t <= bin_start f origin t + f.
Proof.
  intros F. unfold bin_start. split; [eauto|]. pose proof (Z.div_mod (t - origin - 1) f ltac:(lia)).
  pose proof (Z.mod_pos_bound (t - origin - 1) f F). nia.
Qed.
Lemma aligned_le f k a : 0 < f -> k * f < a * f + f -> k <= a.
Proof. intros. nia. Qed.
Lemma bin_starts_in n : forall lo f x, In x (bin_starts n lo f) <-> exists k, 0 <= k < Z.of_nat n /\ x = lo + k * f.
Proof.
  induction n as [|n IH]; intros lo f x; cbn [bin_starts].
  - split; [inversion 1|]. intros [k [K _]]. lia.
  - cbn [In]. rewrite IH. split.
    + intros [<-|[k [K ->]]]; [exists 0; lia|exists (k + 1); lia].
    + intros [k [K ->]]. destruct (Z.eq_dec k 0) as [->|N]; [left; lia|]. right. exists (k - 1). lia.
Qed.
Lemma bin_starts_sorted n : forall lo f, 0 < f -> sorted (bin_starts n lo f).
Proof.
  induction n as [|n IH]; intros lo f F; cbn; constructor; [apply IH; auto|]. rewrite Forall_forall. intros x X.
  apply bin_starts_in in X. destruct X as [k [K ->]]. nia.
Qed.
Lemma bin_labels_in f origin right first last L : 0 < f -> first <= last ->
  In L (bin_labels f origin right first last) <->
  (exists k, L = origin + k * f) /\
  (if right then first <= L /\ L < last + f else first - f <= L /\ L < last).
Proof.
  intros F FL. unfold bin_labels. rewrite in_map_iff.
  destruct (bin_start_spec f origin first F) as [[k1 E1] B1]. destruct (bin_start_spec f origin last F) as [[k2 E2] B2].
  rewrite E1, E2 in *.
  assert (K12 : k1 <= k2) by (apply (aligned_le f); auto; lia).
  replace (Z.of_nat (Z.to_nat ((origin + k2 * f - (origin + k1 * f)) / f + 1))) with (k2 - k1 + 1) by
    (replace (origin + k2 * f - (origin + k1 * f)) with ((k2 - k1) * f) by lia; rewrite Z.div_mul by lia; lia).
  assert (EN : forall x, In x (bin_starts (Z.to_nat ((origin + k2 * f - (origin + k1 * f)) / f + 1)) (origin + k1 * f) f) <->
    exists k, k1 <= k <= k2 /\ x = origin + k * f).
  { intros x. rewrite bin_starts_in.
    replace (Z.of_nat (Z.to_nat ((origin + k2 * f - (origin + k1 * f)) / f + 1))) with (k2 - k1 + 1) by
      (replace (origin + k2 * f - (origin + k1 * f)) with ((k2 - k1) * f) by lia; rewrite Z.div_mul by lia; lia).
    split; intros [k [K ->]]; [exists (k + k1)|exists (k - k1)]; split; lia. }
  destruct right.
  - split.
    + intros [x [<- X]]. apply EN in X. destruct X as [k [K ->]]. split; [exists (k + 1); lia|]. nia.
    + intros [[k ->] B]. exists (origin + (k - 1) * f). split; [lia|]. apply EN. exists (k - 1). split; auto.
      split; apply (aligned_le f); auto; nia.
  - split.
    + intros [x [<- X]]. apply EN in X. destruct X as [k [K ->]]. split; [eauto|]. nia.
    + intros [[k ->] B]. exists (origin + k * f). split; auto. apply EN. exists k. split; auto.
      split; [|apply (aligned_le f); auto; nia]. apply (aligned_le f); auto. nia.
Qed.
Lemma sorted_ext a : forall b, sorted a -> sorted b -> (forall x, In x a <-> In x b) -> a = b.
Proof.
  induction a as [|x a IH]; intros b SA SB H.
  - destruct b as [|y b]; auto. exfalso. apply (H y). left; auto.
  - destruct b as [|y b]; [exfalso; apply (H x); left; auto|].
    apply StronglySorted_inv in SA, SB. destruct SA as [SA FA], SB as [SB FB]. rewrite Forall_forall in FA, FB.
    assert (x = y).
    { destruct (proj1 (H x) ltac:(left; auto)) as [|X]; auto. destruct (proj2 (H y) ltac:(left; auto)) as [|Y]; auto.
      specialize (FA y Y). specialize (FB x X). lia. }
    subst y. f_equal. apply IH; auto. intros z. split; intros Z.
    + destruct (proj1 (H z) ltac:(right; auto)) as [->|]; auto. specialize (FA z Z). lia.
    + destruct (proj2 (H z) ltac:(right; auto)) as [->|]; auto. specialize (FB z Z). lia.
Qed.
Lemma sorted_shift g l : (forall a b, a < b -> g a < g b) -> sorted l -> sorted (map g l).
Proof.
  intros G S. induction S; cbn; constructor; auto. rewrite Forall_forall in *. intros y Y. apply in_map_iff in Y.
  destruct Y as [z [<- Z]]. auto.
Qed.
Lemma row_labels_sorted f origin right aggregate start stop first last ls : 0 < f ->
  row_labels f origin right aggregate start stop first last = Some ls -> sorted ls.
Proof.
  intros F. unfold row_labels. destruct aggregate.
  - assert (S : sorted (filter (fun L => (start <=? L) && (L <=? stop)) (bin_labels f origin right first last))).
    { apply sorted_filter, sorted_shift; [|apply bin_starts_sorted; auto]. intros a b H. destruct right; lia. }
    destruct (filter _ _) as [|L t]; [discriminate|]. intros E.
    destruct (L <? first); injection E as <-; auto. apply StronglySorted_inv in S. tauto.
  - intros E. injection E as <-. apply sorted_filter, date_range_sorted; auto.
Qed.
(** The rows of a sub-daily resampling *)
Lemma row_labels_right f start aggregate stop first last ls L : 0 < f -> first <= last ->
  row_labels f start true aggregate start stop first last = Some ls ->
  (In L ls <-> (exists k, L = start + k * f) /\ start <= L <= stop /\ first <= L /\ (if aggregate then L < last + f else L <= last)).
Proof.
  intros F FL. unfold row_labels. destruct aggregate.
  - destruct (filter _ _) as [|L0 t] eqn:E; [discriminate|]. intros E1.
    assert (L0F : (L0 <? first) = false).
    { apply Z.ltb_ge. assert (I : In L0 (L0 :: t)) by (left; auto). rewrite <- E in I. apply filter_In in I.
      destruct I as [I _]. apply bin_labels_in in I; auto. lia. }
    rewrite L0F in E1. injection E1 as <-. rewrite <- E, filter_In, bin_labels_in by auto.
    rewrite andb_true_iff, !Z.leb_le. tauto.
  - intros E1. injection E1 as <-. rewrite filter_In, date_range_in, andb_true_iff, !Z.leb_le by auto. split.
    + intros [[k [K [-> B]]] C]. split; [eauto|]. nia.
    + intros [[k ->] C]. split; [|lia]. exists k. split; [nia|]. lia.
Qed.
(** The rows of an aggregation to days *)
Lemma row_labels_left f origin start stop first last ls L : 0 < f -> first <= last ->
  row_labels f origin false true start stop first last = Some ls -> In L ls ->
  In L (bin_labels f origin false first last) /\ start <= L <= stop.
Proof.
  intros F FL. unfold row_labels. destruct (filter _ _) as [|L0 t] eqn:E; [discriminate|]. intros E1 I.
  assert (I2 : In L (L0 :: t)) by (destruct (L0 <? first); injection E1 as <-; auto; right; auto).
  rewrite <- E in I2. apply filter_In in I2. rewrite andb_true_iff, !Z.leb_le in I2. tauto.
Qed.

(** * Rows *)
Definition times (data : timed) : list Z := map fst data.
Lemma data_bounds data r0 l : data = r0 :: l -> sorted (times data) ->
  forall t, In t (times data) -> fst r0 <= t <= fst (List.last data r0).
Proof.
  intros -> S t T. cbn [times map] in S. pose proof S as S'. apply StronglySorted_inv in S'. destruct S' as [_ FA].
  rewrite Forall_forall in FA. split.
  - destruct T as [<-|T]; [lia|]. specialize (FA t T). lia.
  - destruct (@exists_last _ (r0 :: l) ltac:(discriminate)) as [q [z E]]. rewrite E in *. rewrite last_last.
    change (fst r0 :: map fst l) with (map fst (r0 :: l)) in S. rewrite E, map_app in S. apply sorted_app in S.
    unfold times in T. rewrite map_app in T. apply in_app_or in T. destruct T as [T|[<-|[]]]; [|lia].
    destruct S as [_ [_ S]]. specialize (S t (fst z) T (or_introl eq_refl)). lia.
Qed.
Lemma existsb_label L l : existsb (Z.eqb L) l = true <-> In L l.
Proof.
  rewrite existsb_exists. split; [intros [x [I E]]; apply Z.eqb_eq in E; subst; auto|]. intros I. exists L. split; auto. apply Z.eqb_refl.
Qed.
Lemma resample_rows k f start stop aggregate data rows : 0 < f -> sorted (times data) ->
  resample k f start stop aggregate data = Some rows ->
  f <= DAY /\
  (data = [] /\ rows = [] \/
   exists r0 l ls, data = r0 :: l /\ fst r0 <= fst (List.last data r0) /\
     row_labels f (if f <? DAY then start else fst r0) (f <? DAY) aggregate start stop (fst r0) (fst (List.last data r0)) = Some ls /\
     (forall L, In L ls -> In L (times data)) /\
     rows = map (fun L => (L, row_value k f (if f <? DAY then start else fst r0) (f <? DAY) aggregate (fst r0) (fst (List.last data r0)) data L)) ls).
Proof.
  intros F S. unfold resample. destruct (Z.ltb_spec DAY f) as [D|D]; [discriminate|]. intros E. split; auto.
  destruct data as [|r0 l] eqn:ED; [left; split; congruence|]. right. rewrite <- ED in *.
  cbv zeta in E. destruct (row_labels _ _ _ _ _ _ _ _) as [ls|] eqn:RL; [|discriminate].
  destruct (forallb _ ls) eqn:FB; [|discriminate]. exists r0, l, ls. split; auto. split.
  - apply (data_bounds data r0 l ED S). rewrite ED. left; auto.
  - split; auto. split; [|congruence]. intros L I. rewrite forallb_forall in FB. specialize (FB L I). apply existsb_exists in FB.
    destruct FB as [r [R1 R2]]. apply Z.eqb_eq in R2. subst L. apply in_map. auto.
Qed.

(** Sub-daily time steps: the rows are time steps of the model for which there is a record; the
    precipitation of each is the sum of the records of the time step it closes, and missing if one of them is. *)
Theorem c78_precipitation : forall f start stop aggregate data rows, 0 < f < DAY -> sorted (times data) ->
  resample RPrecip f start stop aggregate data = Some rows ->
  forall L v, In (L, v) rows ->
    (exists k, 0 <= k /\ L = start + k * f) /\ L <= stop /\ In L (times data) /\ is_sum (between (L - f) L data) v.
Proof.
  intros f start stop ag data rows F S E L v I. apply resample_rows in E; auto; [|lia].
  destruct E as [_ [[-> ->]|[r0 [l [ls [ED [FL [RL [IN ->]]]]]]]]]; [inversion I|].
  assert (FD : (f <? DAY) = true) by (apply Z.ltb_lt; lia). rewrite FD in *.
  apply in_map_iff in I. destruct I as [L' [E I]]. assert (L' = L) by congruence. subst L'.
  assert (V : row_value RPrecip f start true ag (fst r0) (fst (List.last data r0)) data L = v) by congruence. clear E.
  pose proof (row_labels_right f start ag stop _ _ ls L ltac:(lia) FL RL) as H. apply H in I as I2. destruct I2 as [[k K] [B1 [B2 B3]]].
  split; [exists k; split; [nia|auto]|]. split; [lia|]. split; auto. subst v. unfold row_value.
  assert (IB : existsb (Z.eqb L) (bin_labels f start true (fst r0) (fst (List.last data r0))) = true).
  { apply existsb_label, bin_labels_in; auto; [lia|]. split; eauto. split; auto. destruct ag; lia. }
  rewrite IB, bin_between. replace (L - f + f) with L by lia. apply num_sum_is.
Qed.
Print Assumptions c78_precipitation.

(** Each row occurs once and there are no gaps between the rows. *)
Theorem c78_rows_consecutive : forall k f start stop aggregate data rows, 0 < f < DAY -> sorted (times data) ->
  resample k f start stop aggregate data = Some rows ->
  sorted (times rows) /\
  forall a b c, In a (times rows) -> In c (times rows) -> a <= b <= c -> (f | b - a) -> In b (times rows).
Proof.
  intros k f start stop ag data rows F S E. apply resample_rows in E; auto; [|lia].
  destruct E as [_ [[-> ->]|[r0 [l [ls [ED [FL [RL [IN ->]]]]]]]]]; [split; [constructor|intros a b c []]|].
  assert (FD : (f <? DAY) = true) by (apply Z.ltb_lt; lia). rewrite FD in *.
  assert (ET : times (map (fun L => (L, row_value k f start true ag (fst r0) (fst (List.last data r0)) data L)) ls) = ls).
  { unfold times. rewrite map_map. cbn. apply map_id. }
  rewrite ET. split; [eapply row_labels_sorted; [|exact RL]; lia|].
  intros a b c A C B [q D]. pose proof (fun L => row_labels_right f start ag stop _ _ ls L ltac:(lia) FL RL) as H.
  apply H in A, C. apply H. destruct A as [[ka KA] A], C as [_ C]. split; [exists (ka + q); lia|].
  split; [lia|]. split; [lia|]. destruct ag; lia.
Qed.
Print Assumptions c78_rows_consecutive.

Lemma numplus_assoc x y z : numplus x (numplus y z) = numplus (numplus x y) z.
Proof. destruct x, y, z; cbn; auto. f_equal. lra. Qed.
Lemma numplus_comm x y : numplus x y = numplus y x.
Proof. destruct x, y; cbn; auto. f_equal. lra. Qed.
Lemma numplus_0 x : numplus (Some 0%R) x = x.
Proof. destruct x; cbn; auto. f_equal. lra. Qed.
Lemma num_sum_union (P Q : Z * num -> bool) data : (forall r, In r data -> P r = true -> Q r = true -> False) ->
  numplus (num_sum (map snd (filter P data))) (num_sum (map snd (filter Q data))) = num_sum (map snd (filter (fun r => P r || Q r) data)).
Proof.
  induction data as [|r data IH]; intros H; cbn; [f_equal; lra|].
  assert (H' : forall r, In r data -> P r = true -> Q r = true -> False) by (intros x X; apply H; right; auto).
  specialize (IH H'). specialize (H r (or_introl eq_refl)).
  destruct (P r), (Q r); cbn; try (exfalso; auto; fail); auto.
  - rewrite <- IH, numplus_assoc. auto.
  - rewrite <- IH, !numplus_assoc. f_equal. apply numplus_comm.
Qed.
Lemma num_sum_windows f data ls : (forall a b, In a ls -> In b ls -> a < b -> a + f <= b) -> sorted ls ->
  num_sum (map (fun L => num_sum (between (L - f) L data)) ls) =
  num_sum (map snd (filter (fun r => existsb (fun L => (L - f <? fst r) && (fst r <=? L)) ls) data)).
Proof.
  intros G S. induction S as [|L ls S IH FA]; cbn.
  - assert (E : filter (fun _ : Z * num => false) data = []) by (induction data; auto). rewrite E. auto.
  - rewrite IH by (intros a b A B; apply G; right; auto). unfold between. rewrite num_sum_union; auto.
    intros r R1. rewrite andb_true_iff, existsb_exists. intros [A B] [M [M1 M2]]. apply andb_true_iff in M2. destruct M2 as [M2 M3].
    apply Z.ltb_lt in A, M2. apply Z.leb_le in B, M3. rewrite Forall_forall in FA. specialize (FA M M1).
    specialize (G L M ltac:(left; auto) ltac:(right; auto) FA). lia.
Qed.
(** The total is conserved: the rows add up to the records from the beginning of the first row's to the end
    of the last row's time step. *)
Theorem c78_total_conserved : forall f start stop aggregate data rows a b va vb, 0 < f < DAY -> sorted (times data) ->
  resample RPrecip f start stop aggregate data = Some rows ->
  In (a, va) rows -> In (b, vb) rows -> (forall L, In L (times rows) -> a <= L <= b) ->
  exists total, is_sum (map snd rows) total /\ is_sum (between (a - f) b data) total.
Proof.
  intros f start stop ag data rows a b va vb F S E A B M. exists (num_sum (map snd rows)). split; [apply num_sum_is|].
  pose proof (c78_rows_consecutive _ _ _ _ _ _ _ F S E) as [SR CO].
  assert (EV : map snd rows = map (fun L => num_sum (between (L - f) L data)) (times rows)).
  { unfold times. rewrite map_map. apply map_ext_in. intros [L v] I. cbn.
    pose proof (c78_precipitation f start stop ag data rows F S E L v I) as [_ [_ [_ H]]].
    eapply is_sum_unique; [exact H|apply num_sum_is]. }
  assert (AL : forall x, In x (times rows) -> (f | x - start)).
  { intros x X. apply in_map_iff in X. destruct X as [[L v] [<- I]].
    destruct (c78_precipitation f start stop ag data rows F S E L v I) as [[k [K ->]] _]. exists k. cbn. lia. }
  rewrite EV, num_sum_windows; auto.
  - assert (EF : filter (fun r => existsb (fun L => (L - f <? fst r) && (fst r <=? L)) (times rows)) data
               = filter (fun r => (a - f <? fst r) && (fst r <=? b)) data).
    { apply filter_ext_in. intros r R. apply eq_true_iff_eq. rewrite existsb_exists, andb_true_iff, Z.ltb_lt, Z.leb_le. split.
      - intros [L [L1 L2]]. rewrite andb_true_iff, Z.ltb_lt, Z.leb_le in L2. specialize (M L L1). lia.
      - intros [R1 R2]. set (L := bin_start f a (fst r) + f). destruct (bin_start_spec f a (fst r) ltac:(lia)) as [[k K] BS].
        assert (IA : In a (times rows)) by (apply (in_map fst) in A; auto).
        assert (IB : In b (times rows)) by (apply (in_map fst) in B; auto).
        destruct (AL a IA) as [qa QA]. destruct (AL b IB) as [qb QB].
        exists L. split.
        + apply (CO a L b); auto.
          * unfold L. rewrite K in *. split.
            -- assert (-1 <= k) by (apply (aligned_le f); lia). nia.
            -- assert (k + 1 <= qb - qa) by (apply (aligned_le f); nia). nia.
          * exists (k + 1). unfold L. lia.
        + rewrite andb_true_iff, Z.ltb_lt, Z.leb_le. unfold L. lia. }
    unfold between. rewrite <- EF. apply num_sum_is.
  - intros x y X Y XY. destruct (AL x X) as [p P]. destruct (AL y Y) as [q Q]. assert (p + 1 <= q) by nia. nia.
Qed.
Print Assumptions c78_total_conserved.

(** Complete records give a complete forcing: with a record at every interval [i] of the data, the rows are
    exactly the time steps of the model. *)
Theorem c78_complete : forall k f start stop aggregate data i a, 0 < f < DAY -> 0 < i -> (i | f) -> (i | start - a) -> (f | stop - start) ->
  start - DAY <= a <= start -> start <= stop ->
  times data = date_range a stop i ->
  exists rows, resample k f start stop aggregate data = Some rows /\ times rows = date_range start stop f.
Proof.
  intros k f start stop ag data i a F I DI DA DS A SS T.
  assert (IT : forall t, In t (times data) <-> exists q, 0 <= q /\ t = a + q * i /\ t <= stop) by (intros t; rewrite T; apply date_range_in; auto).
  assert (ST : sorted (times data)) by (rewrite T; apply date_range_sorted; auto).
  destruct DI as [m M], DA as [n N], DS as [p P].
  assert (IN : forall q, 0 <= q <= p -> In (start + q * f) (times data)).
  { intros q Q. apply IT. exists (n + q * m). nia. }
  assert (P0 : 0 <= p) by nia.
  unfold resample. assert (D : (DAY <? f) = false) by (apply Z.ltb_ge; lia). rewrite D.
  destruct data as [|r0 l] eqn:ED; [exfalso; apply (IN 0); lia|]. rewrite <- ED in *.
  assert (FD : (f <? DAY) = true) by (apply Z.ltb_lt; lia). rewrite FD. cbv zeta.
  assert (DB := data_bounds data r0 l ED ST).
  assert (F0 : fst r0 = a).
  { assert (X : In (fst r0) (times data)) by (rewrite ED; left; auto). apply IT in X as X2. destruct X2 as [q [Q1 [Q2 Q3]]].
    assert (Y : In a (times data)) by (apply IT; exists 0; lia). apply DB in Y. nia. }
  assert (LL : fst (List.last data r0) = stop).
  { assert (X : In (fst (List.last data r0)) (times data)).
    { unfold times. apply in_map. destruct (@exists_last _ data ltac:(rewrite ED; discriminate)) as [q [z E]]. rewrite E, last_last.
      apply in_or_app. right. left. auto. }
    apply IT in X. destruct X as [q [Q1 [Q2 Q3]]]. assert (Y : In stop (times data)).
    { specialize (IN p ltac:(lia)). replace (start + p * f) with stop in IN by lia. auto. }
    apply DB in Y. lia. }
  rewrite F0, LL.
  destruct (row_labels f start true ag start stop a stop) as [ls|] eqn:RL.
  - assert (ER : ls = date_range start stop f).
    { apply sorted_ext; [eapply row_labels_sorted; [|exact RL]; lia|apply date_range_sorted; lia|].
      intros L. rewrite (row_labels_right f start ag stop a stop ls L ltac:(lia) ltac:(lia) RL).
      rewrite date_range_in by lia. split.
      - intros [[q ->] [B [C _]]]. exists q. nia.
      - intros [q [Q [-> B]]]. split; eauto. split; [nia|]. split; [nia|]. destruct ag; lia. }
    assert (FB : forallb (fun L => existsb (fun r => fst r =? L) data) ls = true).
    { apply forallb_forall. intros L I1. rewrite ER in I1. apply date_range_in in I1; [|lia]. destruct I1 as [q [Q1 [Q2 Q3]]].
      assert (X : In L (times data)) by (rewrite Q2; apply IN; nia). apply in_map_iff in X. destruct X as [r [R1 R2]].
      apply existsb_exists. exists r. split; auto. apply Z.eqb_eq. auto. }
    rewrite FB. eexists. split; [reflexivity|]. unfold times. rewrite map_map. cbn. rewrite map_id. auto.
  - exfalso. unfold row_labels in RL. destruct ag; [|discriminate].
    destruct (filter _ _) as [|L0 t] eqn:E; [|discriminate].
    assert (X : In start (filter (fun L => (start <=? L) && (L <=? stop)) (bin_labels f start true a stop))).
    { apply filter_In. split; [|rewrite andb_true_iff, !Z.leb_le; lia]. apply bin_labels_in; [lia|lia|]. split; [exists 0; lia|lia]. }
    rewrite E in X. inversion X.
Qed.
Print Assumptions c78_complete.

(** Days from sub-daily data: the row labelled L closes at L plus one day. *)
Theorem c78_daily_precipitation : forall start stop data rows, sorted (times data) ->
  resample RPrecip DAY start stop true data = Some rows ->
  forall L v, In (L, v) rows -> start <= L <= stop /\ In L (times data) /\ is_sum (between L (L + DAY) data) v.
Proof.
  intros start stop data rows S E L v I. apply resample_rows in E; auto; [|reflexivity].
  destruct E as [_ [[-> ->]|[r0 [l [ls [ED [FL [RL [IN ->]]]]]]]]]; [inversion I|].
  rewrite Z.ltb_irrefl in *. apply in_map_iff in I. destruct I as [L' [E I]]. assert (L' = L) by congruence. subst L'.
  assert (V : row_value RPrecip DAY (fst r0) false true (fst r0) (fst (List.last data r0)) data L = v) by congruence. clear E.
  destruct (row_labels_left DAY _ _ _ _ _ _ L ltac:(reflexivity) FL RL I) as [IB B]. split; auto. split; auto.
  subst v. unfold row_value. apply existsb_label in IB. rewrite IB, bin_between. apply num_sum_is.
Qed.
Print Assumptions c78_daily_precipitation.

(** Gusts: the largest available value of the time step. *)
Lemma num_max_spec l m : num_max l = Some m <-> In (Some m) l /\ forall x, In (Some x) l -> (x <= m)%R.
Proof.
  revert m. induction l as [|y l IH]; intros m; cbn; [split; [discriminate|intros [[] _]]|].
  assert (NN : num_max l = None -> forall x, ~ In (Some x) l).
  { clear. induction l as [|y l IH]; cbn; [auto|]. destruct y as [a|]; [cbn; destruct (num_max l); discriminate|].
    intros E x [X|X]; [discriminate|]. apply (IH E x X). }
  destruct y as [a|]; cbn; [destruct (num_max l) as [b|]|].
  - destruct (proj1 (IH b) eq_refl) as [B1 B2]. split.
    + intros E. injection E as <-. split.
      * destruct (Rle_lt_dec a b); [rewrite Rmax_right by lra; auto|rewrite Rmax_left by lra; auto].
      * intros x [X|X]; [injection X as <-; apply Rmax_l|]. pose proof (B2 x X). pose proof (Rmax_r a b). lra.
    + intros [[X|X] H]; f_equal.
      * injection X as <-. apply Rmax_left. apply H. auto.
      * pose proof (B2 m X). pose proof (H b ltac:(auto)). pose proof (H a ltac:(auto)). rewrite Rmax_right; lra.
  - split.
    + intros E. injection E as <-. split; auto. intros x [X|X]; [injection X as <-; lra|]. exfalso. apply (NN eq_refl x X).
    + intros [[X|X] H]; [auto|exfalso; apply (NN eq_refl m X)].
  - rewrite IH. split; intros [X H]; split; auto; [intros x [E|I]; [discriminate|auto]|destruct X; [discriminate|auto]].
Qed.
Theorem c78_gusts : forall f start stop aggregate data rows, 0 < f < DAY -> sorted (times data) ->
  resample RGust f start stop aggregate data = Some rows ->
  forall L v, In (L, v) rows -> forall m, v = Some m <->
    (In (Some m) (between (L - f) L data) /\ forall x, In (Some x) (between (L - f) L data) -> (x <= m)%R).
Proof.
  intros f start stop ag data rows F S E L v I m. apply resample_rows in E; auto; [|lia].
  destruct E as [_ [[-> ->]|[r0 [l [ls [ED [FL [RL [IN ->]]]]]]]]]; [inversion I|].
  assert (FD : (f <? DAY) = true) by (apply Z.ltb_lt; lia). rewrite FD in *.
  apply in_map_iff in I. destruct I as [L' [E I]]. assert (L' = L) by congruence. subst L'.
  assert (V : row_value RGust f start true ag (fst r0) (fst (List.last data r0)) data L = v) by congruence. clear E.
  pose proof (row_labels_right f start ag stop _ _ ls L ltac:(lia) FL RL) as H. apply H in I as I2. destruct I2 as [[k K] [B1 [B2 B3]]].
  subst v. unfold row_value.
  assert (IB : existsb (Z.eqb L) (bin_labels f start true (fst r0) (fst (List.last data r0))) = true).
  { apply existsb_label, bin_labels_in; auto; [lia|]. split; eauto. split; auto. destruct ag; lia. }
  rewrite IB, bin_between. replace (L - f + f) with L by lia. apply num_max_spec.
Qed.
Print Assumptions c78_gusts.
(** Other variables: the record at that time, or the mean of the available records of the time step. *)
Lemma available_in l x : In x (available l) <-> In (Some x) l.
Proof.
  induction l as [|[y|] l IH]; cbn; [tauto| |].
  - rewrite IH. split; intros [E|E]; auto; left; congruence.
  - rewrite IH. split; auto. intros [E|E]; [discriminate|auto].
Qed.
Lemma sorted_value L : forall data, sorted (times data) -> forall v, In (L, v) data -> value_at L data = v.
Proof.
  unfold value_at. induction data as [|[t w] data IH]; intros S v I; [inversion I|]. cbn. cbn in S.
  apply StronglySorted_inv in S. destruct S as [S FA]. rewrite Forall_forall in FA. destruct I as [E|I].
  - injection E as -> ->. rewrite Z.eqb_refl. auto.
  - assert (t < L) by (apply FA, in_map_iff; exists (L, v); auto). destruct (Z.eqb_spec t L); [lia|]. apply IH; auto.
Qed.
Theorem c78_instantaneous : forall f start stop data rows, 0 < f < DAY -> sorted (times data) ->
  resample ROther f start stop false data = Some rows -> forall r, In r rows -> In r data.
Proof.
  intros f start stop data rows F S E [L v] I. apply resample_rows in E; auto; [|lia].
  destruct E as [_ [[-> ->]|[r0 [l [ls [ED [FL [RL [IN ->]]]]]]]]]; [inversion I|].
  apply in_map_iff in I. destruct I as [L' [E I]]. assert (L' = L) by congruence. subst L'.
  specialize (IN L I). apply in_map_iff in IN. destruct IN as [[L2 w] [E2 I2]]. cbn in E2. subst L2.
  assert (V : value_at L data = v) by (unfold row_value in E; congruence).
  rewrite (sorted_value L data S w I2) in V. subst; auto.
Qed.
Print Assumptions c78_instantaneous.
Theorem c78_means : forall f start stop data rows, 0 < f < DAY -> sorted (times data) ->
  resample ROther f start stop true data = Some rows -> forall L v, In (L, v) rows ->
  (v = None <-> forall x, ~ In (Some x) (between (L - f) L data)) /\
  forall m, v = Some m -> exists xs, xs = available (between (L - f) L data) /\ (m * INR (length xs) = sumR xs)%R.
Proof.
  intros f start stop data rows F S E L v I. apply resample_rows in E; auto; [|lia].
  destruct E as [_ [[-> ->]|[r0 [l [ls [ED [FL [RL [IN ->]]]]]]]]]; [inversion I|].
  assert (FD : (f <? DAY) = true) by (apply Z.ltb_lt; lia). rewrite FD in *.
  apply in_map_iff in I. destruct I as [L' [E I]]. assert (L' = L) by congruence. subst L'.
  assert (V : num_mean (bin f (L - f) data) = v) by (unfold row_value in E; congruence).
  rewrite bin_between in V. replace (L - f + f) with L in V by lia. unfold num_mean in V.
  destruct (available (between (L - f) L data)) as [|x0 xs] eqn:EA.
  - subst v. split; [|discriminate]. split; auto. intros _ x X. apply available_in in X. rewrite EA in X. inversion X.
  - subst v. split.
    + split; [discriminate|]. intros H. exfalso. apply (H x0). apply available_in. rewrite EA. left; auto.
    + intros m M. injection M as <-. exists (x0 :: xs). split; auto.
      assert (NZ : INR (length (x0 :: xs)) <> 0%R) by (apply not_0_INR; discriminate).
      unfold Rdiv. rewrite Rmult_assoc, Rinv_l by exact NZ. apply Rmult_1_r.
Qed.
Print Assumptions c78_means.

Definition demo_data : timed :=
  map (fun k => (Z.of_nat k * 3600, if (k =? 7)%nat then None else Some (INR k))) (seq 0 13).
(** Hourly records 0:00 to 12:00 (7:00 missing), three-hourly time steps from 3:00 to 12:00 *)
Example c78_example : exists rows, resample RPrecip 10800 10800 43200 false demo_data = Some rows /\
  times rows = [10800; 21600; 32400; 43200] /\ sorted (times demo_data) /\ 0 < 10800 < DAY.
Proof.
  assert (T : times demo_data = date_range 0 43200 3600) by (vm_compute; reflexivity).
  destruct (c78_complete RPrecip 10800 10800 43200 false demo_data 3600 0) as [rows [E R]]; try (unfold DAY; lia).
  - exists 3. reflexivity.
  - exists 3. reflexivity.
  - exists 3. reflexivity.
  - exact T.
  - exists rows. split; [exact E|]. split; [rewrite R; vm_compute; reflexivity|]. split; [|unfold DAY; lia].
    rewrite T. apply date_range_sorted. lia.
Qed.
(** Daily data with the time step given as "24h" instead of "D" are resampled as well: each day gets the
    precipitation of the following day, and the last day none. *)
Theorem c78_daily_data_unchanged_refuted : exists data start stop rows,
  sorted (times data) /\ (forall r, In r data -> exists k, fst r = start + k * DAY) /\
  slice_and_resample RPrecip (Some DAY) false DAY start stop false data = Some rows /\
  (exists L x y, In (L, Some x) data /\ In (L, Some y) rows /\ x <> y) /\
  (exists L x, In (L, Some x) data /\ In (L, None) rows).
Proof.
  exists [(0, Some 5%R); (DAY, Some 0%R); (2 * DAY, Some 7%R)], 0, (2 * DAY), [(0, Some (0 + 0)%R); (DAY, Some (7 + 0)%R); (2 * DAY, None)].
  split; [repeat (constructor; try (cbn; unfold DAY; lia))|]. split.
  { intros r [<-|[<-|[<-|[]]]]; cbn; [exists 0|exists 1|exists 2]; reflexivity. }
  split; [reflexivity|]. split.
  - exists 0, 5%R, (0 + 0)%R. split; [left; auto|]. split; [left; auto|]. lra.
  - exists (2 * DAY), 7%R. cbn. auto.
Qed.
Print Assumptions c78_daily_data_unchanged_refuted.
(** A station whose records end during the day before the start is reported as an internal failure if the
    data are aggregated, instead of being ignored. *)
Theorem c78_ended_station_refuted : exists data start stop,
  sorted (times data) /\ (forall t, In t (times data) -> t < start) /\
  slice_and_resample ROther (Some 3600) false 10800 start stop true data = None /\
  slice_and_resample ROther (Some 3600) false 10800 start stop false data = Some [].
Proof.
  exists [(0, Some 1%R); (3600, Some 1%R); (7200, Some 1%R)], 36000, 57600.
  split; [repeat (constructor; try (cbn; lia))|]. split; [|split; reflexivity].
  intros t [<-|[<-|[<-|[]]]]; cbn; lia.
Qed.
Print Assumptions c78_ended_station_refuted.
