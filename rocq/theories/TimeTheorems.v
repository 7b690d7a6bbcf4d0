(** Properties C60 and C69. *)
From Coq Require Import String Ascii.
From Coq Require Import List ZArith Bool Lia.
From Verif Require Import TimeModel TimeProofs.
Import ListNotations.
Delimit Scope char_scope with char.
Open Scope Z_scope.

(** * The calendar *)
(** Every day number has exactly one valid Gregorian date, 0001-01-01 being day 0. *)
Theorem c60_calendar : forall n, 0 <= n ->
  valid (civil n) /\ ordinal (civil n) = n /\ (forall d, valid d -> ordinal d = n -> d = civil n).
Proof.
  intros n N. split; [apply civil_valid|]. split; [apply civil_ordinal; auto|].
  intros d V O. apply ordinal_inj; auto; [apply civil_valid|]. rewrite civil_ordinal; auto.
Qed.
Print Assumptions c60_calendar.
Lemma civil_is n d : 0 <= n -> valid d -> ordinal d = n -> civil n = d.
Proof. intros. symmetry. apply c60_calendar; auto. Qed.

(** * C60 Calendar flags *)
Definition same_day (t t' : Z) : Prop := t / DAY = t' / DAY.
Definition same_month (t t' : Z) : Prop :=
  year (date_of t) = year (date_of t') /\ month (date_of t) = month (date_of t').
Definition same_year (t t' : Z) : Prop := year (date_of t) = year (date_of t').

Lemma day_numbers t t' : 0 <= t <= t' -> t' - t <= 27 * DAY ->
  (day (date_of t) = day (date_of t') <-> same_day t t').
Proof.
  intros H B. unfold date_of, same_day. split.
  - intros E. assert (L : t / DAY <= t' / DAY) by (apply Z.div_le_mono; unfold DAY; lia).
    destruct (Z.eq_dec (t / DAY) (t' / DAY)) as [|N]; auto. exfalso.
    assert (P : 0 <= t / DAY) by (apply Z.div_pos; unfold DAY; lia).
    pose proof (same_day_number _ _ (civil_valid (t / DAY)) (civil_valid (t' / DAY))) as S.
    rewrite !civil_ordinal in S by lia. specialize (S ltac:(lia) E).
    assert (t' / DAY <= (t + 27 * DAY) / DAY) by (apply Z.div_le_mono; unfold DAY in *; lia).
    rewrite Z.div_add in H0 by (unfold DAY; lia). lia.
  - intros E. rewrite E. auto.
Qed.
Lemma month_numbers t t' : 0 <= t <= t' -> t' - t <= 334 * DAY ->
  (month (date_of t) = month (date_of t') <-> same_month t t').
Proof.
  intros H B. unfold same_month. split; [|tauto]. intros E. split; auto.
  destruct (Z.eq_dec (year (date_of t)) (year (date_of t'))) as [|N]; auto. exfalso. unfold date_of in *.
  assert (P : 0 <= t / DAY) by (apply Z.div_pos; unfold DAY; lia).
  assert (L : t / DAY <= t' / DAY) by (apply Z.div_le_mono; unfold DAY; lia).
  pose proof (same_month_number _ _ (civil_valid (t / DAY)) (civil_valid (t' / DAY))) as S.
  rewrite !civil_ordinal in S by lia. specialize (S ltac:(lia) E N).
  assert (t' / DAY <= (t + 334 * DAY) / DAY) by (apply Z.div_le_mono; unfold DAY in *; lia).
  rewrite Z.div_add in H0 by (unfold DAY; lia). lia.
Qed.
(** The "strict" flags: the previous (next) potential time step lies in another year, month, day. The
    comparison of month and day numbers is exact for time steps up to 334 and 27 days. *)
Theorem c60_strict_flags : forall dates step idx t p, nth_error dates idx = Some t ->
  timestep_props dates step idx = Some p -> 0 < step -> step <= t ->
  (strict_first_of_year p = true <-> ~ same_year (t - step) t) /\
  (strict_last_of_year p = true <-> ~ same_year t (t + step)) /\
  (step <= 334 * DAY ->
    (strict_first_of_month p = true <-> ~ same_month (t - step) t) /\
    (strict_last_of_month p = true <-> ~ same_month t (t + step))) /\
  (step <= 27 * DAY ->
    (strict_first_of_day p = true <-> ~ same_day (t - step) t) /\
    (strict_last_of_day p = true <-> ~ same_day t (t + step))).
Proof.
  intros dates step idx t p N H P T. unfold timestep_props in H. rewrite N in H. injection H as <-.
  cbn [strict_first_of_year strict_last_of_year strict_first_of_month strict_last_of_month strict_first_of_day strict_last_of_day].
  rewrite !negb_true_iff, !Z.eqb_neq. unfold same_year.
  split; [tauto|]. split; [split; intros A B; apply A; auto|]. split; intros B.
  - rewrite <- (month_numbers (t - step) t), <- (month_numbers t (t + step)) by lia.
    split; [tauto|]. split; intros A C; apply A; auto.
  - rewrite <- (day_numbers (t - step) t), <- (day_numbers t (t + step)) by lia.
    split; [tauto|]. split; intros A C; apply A; auto.
Qed.
Print Assumptions c60_strict_flags.
(** The other flags: first (last) processed time step of its year, month, day — no earlier (later)
    model date falls into the same one. *)
Definition first_in (same : Z -> Z -> Prop) (dates : list Z) (idx : nat) : Prop :=
  forall j t' t, (j < idx)%nat -> nth_error dates j = Some t' -> nth_error dates idx = Some t -> ~ same t' t.
Definition last_in (same : Z -> Z -> Prop) (dates : list Z) (idx : nat) : Prop :=
  forall j t' t, (idx < j)%nat -> nth_error dates j = Some t' -> nth_error dates idx = Some t -> ~ same t t'.
(** Calendar periods are intervals. *)
Definition convex (same : Z -> Z -> Prop) : Prop :=
  forall a b c, 0 <= a <= b -> b <= c -> same a c -> same a b /\ same b c.
Lemma convex_day : convex same_day.
Proof.
  intros a b c H1 H2 E. unfold same_day in *.
  assert (a / DAY <= b / DAY <= c / DAY) by (split; apply Z.div_le_mono; unfold DAY; lia). lia.
Qed.
Lemma ord_le a b : 0 <= a <= b -> ordinal (civil (a / DAY)) <= ordinal (civil (b / DAY)).
Proof.
  intros H. assert (0 <= a / DAY <= b / DAY) by (split; [apply Z.div_pos|apply Z.div_le_mono]; unfold DAY; lia).
  rewrite !civil_ordinal; lia.
Qed.
Lemma convex_year : convex same_year.
Proof.
  intros a b c H1 H2 E. unfold same_year, date_of in *.
  pose proof (year_mono _ _ (civil_valid (a / DAY)) (civil_valid (b / DAY)) (ord_le a b ltac:(lia))).
  pose proof (year_mono _ _ (civil_valid (b / DAY)) (civil_valid (c / DAY)) (ord_le b c ltac:(lia))). lia.
Qed.
Lemma convex_month : convex same_month.
Proof.
  intros a b c H1 H2 [E1 E2]. unfold same_month, date_of in *.
  pose proof (month_mono _ _ (civil_valid (a / DAY)) (civil_valid (b / DAY)) (ord_le a b ltac:(lia))).
  pose proof (month_mono _ _ (civil_valid (b / DAY)) (civil_valid (c / DAY)) (ord_le b c ltac:(lia))). lia.
Qed.
Lemma first_flag same start stop step idx t : convex same -> 0 < step -> step <= start ->
  nth_error (date_range start stop step) idx = Some t ->
  (~ same (t - step) t \/ idx = 0%nat <-> first_in same (date_range start stop step) idx).
Proof.
  intros C P S N. destruct (Z.le_gt_cases start stop) as [L|L]; [|rewrite date_range_empty in N by lia; destruct idx; discriminate].
  rewrite date_range_nth in N by auto. destruct (Z.leb_spec (start + Z.of_nat idx * step) stop) as [B|]; [|discriminate].
  injection N as <-. unfold first_in. split.
  - intros F j t' t Hj Nj Nt SM. destruct F as [F| ->]; [|lia]. rewrite date_range_nth in Nj, Nt by auto.
    destruct (Z.leb_spec (start + Z.of_nat j * step) stop); [|discriminate]. injection Nj as <-.
    destruct (Z.leb_spec (start + Z.of_nat idx * step) stop); [|discriminate]. injection Nt as <-.
    apply F. apply (C (start + Z.of_nat j * step) _ (start + Z.of_nat idx * step)); auto; nia.
  - intros F. destruct idx as [|k]; [auto|]. left.
    apply (F k); [lia| |].
    + rewrite date_range_nth by auto. destruct (Z.leb_spec (start + Z.of_nat k * step) stop); [|lia]. f_equal. lia.
    + rewrite date_range_nth by auto. destruct (Z.leb_spec (start + Z.of_nat (Datatypes.S k) * step) stop); [auto|lia].
Qed.
Lemma last_flag same start stop step idx t : convex same -> 0 < step -> step <= start ->
  nth_error (date_range start stop step) idx = Some t ->
  (~ same t (t + step) \/ S idx = length (date_range start stop step) <-> last_in same (date_range start stop step) idx).
Proof.
  intros C P S N. destruct (Z.le_gt_cases start stop) as [L|L]; [|rewrite date_range_empty in N by lia; destruct idx; discriminate].
  pose proof (date_range_length start stop step P L) as LEN.
  rewrite date_range_nth in N by auto. destruct (Z.leb_spec (start + Z.of_nat idx * step) stop) as [B|]; [|discriminate].
  injection N as <-. unfold last_in. split.
  - intros F j t' t Hj Nj Nt SM.
    assert (JL : (j < length (date_range start stop step))%nat) by (apply nth_error_Some; congruence).
    destruct F as [F|F]; [|lia]. rewrite date_range_nth in Nj, Nt by auto.
    destruct (Z.leb_spec (start + Z.of_nat j * step) stop); [|discriminate]. injection Nj as <-.
    destruct (Z.leb_spec (start + Z.of_nat idx * step) stop); [|discriminate]. injection Nt as <-.
    apply F. apply (C _ _ (start + Z.of_nat j * step)); auto; nia.
  - intros F. destruct (Nat.eq_dec (Datatypes.S idx) (length (date_range start stop step))) as [|NE]; [auto|]. left.
    assert (KL : (Datatypes.S idx < length (date_range start stop step))%nat).
    { assert (idx < length (date_range start stop step))%nat; [|lia]. apply nth_error_Some.
      rewrite date_range_nth by auto. destruct (Z.leb_spec (start + Z.of_nat idx * step) stop); [discriminate|lia]. }
    apply nth_error_Some in KL. rewrite date_range_nth in KL by auto.
    destruct (Z.leb_spec (start + Z.of_nat (Datatypes.S idx) * step) stop); [|congruence].
    apply (F (Datatypes.S idx)); [lia| |]; rewrite date_range_nth by auto.
    + destruct (Z.leb_spec (start + Z.of_nat (Datatypes.S idx) * step) stop); [|lia]. f_equal. lia.
    + destruct (Z.leb_spec (start + Z.of_nat idx * step) stop); [auto|lia].
Qed.
Theorem c60_processed_flags : forall start stop step idx p, 0 < step -> step <= start ->
  timestep_props (date_range start stop step) step idx = Some p ->
  let dates := date_range start stop step in
  (first_of_run p = true <-> idx = 0%nat) /\ (last_of_run p = true <-> S idx = length dates) /\
  (first_of_year p = true <-> first_in same_year dates idx) /\
  (last_of_year p = true <-> last_in same_year dates idx) /\
  (step <= 334 * DAY -> (first_of_month p = true <-> first_in same_month dates idx) /\
                        (last_of_month p = true <-> last_in same_month dates idx)) /\
  (step <= 27 * DAY -> (first_of_day p = true <-> first_in same_day dates idx) /\
                      (last_of_day p = true <-> last_in same_day dates idx)).
Proof.
  intros start stop step idx p P S H dates.
  destruct (nth_error dates idx) as [t|] eqn:N; [|unfold timestep_props, dates in *; rewrite N in H; discriminate].
  assert (T : step <= t).
  { destruct (Z.le_gt_cases start stop) as [L|L]; [|unfold dates in N; rewrite date_range_empty in N by lia; destruct idx; discriminate].
    unfold dates in N. rewrite date_range_nth in N by auto. destruct (_ <=? _); [|discriminate]. injection N as <-. nia. }
  destruct (c60_strict_flags _ _ _ _ _ N H P T) as (FY & LY & MM & DD).
  pose proof (first_flag same_year start stop step idx t convex_year P S N) as FL0. fold dates in FL0. rewrite <- FL0. clear FL0.
  pose proof (last_flag same_year start stop step idx t convex_year P S N) as FL1. fold dates in FL1. rewrite <- FL1. clear FL1.
  pose proof (first_flag same_month start stop step idx t convex_month P S N) as FL2. fold dates in FL2. rewrite <- FL2. clear FL2.
  pose proof (last_flag same_month start stop step idx t convex_month P S N) as FL3. fold dates in FL3. rewrite <- FL3. clear FL3.
  pose proof (first_flag same_day start stop step idx t convex_day P S N) as FL4. fold dates in FL4. rewrite <- FL4. clear FL4.
  pose proof (last_flag same_day start stop step idx t convex_day P S N) as FL5. fold dates in FL5. rewrite <- FL5. clear FL5.
  rewrite <- FY, <- LY.
  assert (R : first_of_run p = (idx =? 0)%nat /\ last_of_run p = (Datatypes.S idx =? length dates)%nat /\
    first_of_year p = strict_first_of_year p || first_of_run p /\ first_of_month p = strict_first_of_month p || first_of_run p /\
    first_of_day p = strict_first_of_day p || first_of_run p /\ last_of_year p = strict_last_of_year p || last_of_run p /\
    last_of_month p = strict_last_of_month p || last_of_run p /\ last_of_day p = strict_last_of_day p || last_of_run p).
  { unfold timestep_props, dates in *. rewrite N in H. injection H as <-.
    cbn [first_of_run last_of_run first_of_year strict_first_of_year first_of_month strict_first_of_month first_of_day strict_first_of_day
         last_of_year strict_last_of_year last_of_month strict_last_of_month last_of_day strict_last_of_day]. tauto. }
  destruct R as (R1 & R2 & E1 & E2 & E3 & E4 & E5 & E6).
  assert (Q1 : first_of_run p = true <-> idx = 0%nat) by (rewrite R1; apply Nat.eqb_eq).
  assert (Q2 : last_of_run p = true <-> Datatypes.S idx = length dates) by (rewrite R2; apply Nat.eqb_eq).
  rewrite E1, E2, E3, E4, E5, E6, !orb_true_iff, Q1, Q2.
  split; [reflexivity|]. split; [reflexivity|]. split; [reflexivity|]. split; [reflexivity|]. split; intros B.
  - destruct (MM B) as [M1 M2]. rewrite <- M1, <- M2. split; reflexivity.
  - destruct (DD B) as [M1 M2]. rewrite <- M1, <- M2. split; reflexivity.
Qed.
Print Assumptions c60_processed_flags.
(** With time steps of 28 days or more the day flag can be wrong: from 2021-02-01 to 2021-03-01. *)
Theorem c60_day_flag_refuted : exists start stop step p, 0 < step <= start /\
  timestep_props (date_range start stop step) step 1 = Some p /\
  first_of_day p = false /\ first_in same_day (date_range start stop step) 1.
Proof.
  pose (d0 := 737821). assert (C0 : civil d0 = YMD 2021 2 1).
  { apply civil_is; [unfold d0; lia| |reflexivity]. constructor; cbn; lia. }
  assert (C1 : civil (d0 + 28) = YMD 2021 3 1).
  { apply civil_is; [unfold d0; lia| |reflexivity]. constructor; cbn; lia. }
  exists (d0 * DAY), ((d0 + 28) * DAY), (28 * DAY).
  assert (E : date_range (d0 * DAY) ((d0 + 28) * DAY) (28 * DAY) = [d0 * DAY; (d0 + 28) * DAY]) by reflexivity.
  rewrite E. eexists. split; [unfold DAY, d0; lia|]. split; [reflexivity|].
  split.
  - cbn [first_of_day nth_error]. replace ((d0 + 28) * DAY - 28 * DAY) with (d0 * DAY) by lia.
    unfold date_of. rewrite !Z.div_mul by (unfold DAY; lia). rewrite C0, C1. reflexivity.
  - intros j t' t J Nj Nt. assert (j = 0%nat) by lia. subst. cbn in Nj, Nt. injection Nj as <-. injection Nt as <-.
    unfold same_day. vm_compute. discriminate.
Qed.
Print Assumptions c60_day_flag_refuted.
(** Three-hourly steps around new year 2021: 21:00 on Dec 31 is last, 00:00 on Jan 1 first of everything. *)
Example c60_example : exists p q start stop, 3 * 3600 <= start /\
  timestep_props (date_range start stop (3 * 3600)) (3 * 3600) 7 = Some p /\
  timestep_props (date_range start stop (3 * 3600)) (3 * 3600) 8 = Some q /\
  date_of start = YMD 2020 12 31 /\
  last_of_day p = true /\ last_of_year p = true /\ first_of_month p = false /\
  first_of_day q = true /\ first_of_month q = true /\ first_of_year q = true /\ last_of_day q = false.
Proof.
  pose (d0 := 737789). assert (C0 : civil d0 = YMD 2020 12 31).
  { apply civil_is; [unfold d0; lia| |reflexivity]. constructor; cbn; lia. }
  assert (C1 : civil (d0 + 1) = YMD 2021 1 1).
  { apply civil_is; [unfold d0; lia| |reflexivity]. constructor; cbn; lia. }
  exists (PR false false false false false false false false true true true true true true).
  exists (PR false true true true true true true false false false false false false false).
  exists (d0 * DAY), ((d0 + 2) * DAY). split; [unfold DAY, d0; lia|].
  assert (E7 : nth_error (date_range (d0 * DAY) ((d0 + 2) * DAY) (3 * 3600)) 7 = Some (d0 * DAY + 75600)) by reflexivity.
  assert (E8 : nth_error (date_range (d0 * DAY) ((d0 + 2) * DAY) (3 * 3600)) 8 = Some ((d0 + 1) * DAY)) by reflexivity.
  assert (EL : length (date_range (d0 * DAY) ((d0 + 2) * DAY) (3 * 3600)) = 17%nat) by reflexivity.
  unfold timestep_props. rewrite E7, E8, EL.
  assert (D : forall k, 0 <= k < DAY -> forall n, (n * DAY + k) / DAY = n).
  { intros k K n. rewrite Z.div_add_l by (unfold DAY; lia). rewrite Z.div_small by auto. lia. }
  assert (D1 : date_of (d0 * DAY + 75600 - 3 * 3600) = YMD 2020 12 31).
  { unfold date_of. replace (d0 * DAY + 75600 - 3 * 3600) with (d0 * DAY + 64800) by lia. rewrite D by (unfold DAY; lia). assumption. }
  assert (D2 : date_of (d0 * DAY + 75600 + 3 * 3600) = YMD 2021 1 1).
  { unfold date_of. replace (d0 * DAY + 75600 + 3 * 3600) with ((d0 + 1) * DAY + 0) by (unfold DAY; lia). rewrite D by (unfold DAY; lia). assumption. }
  assert (D3 : date_of (d0 * DAY + 75600) = YMD 2020 12 31) by (unfold date_of; rewrite D by (unfold DAY; lia); assumption).
  assert (D4 : date_of ((d0 + 1) * DAY - 3 * 3600) = YMD 2020 12 31).
  { unfold date_of. replace ((d0 + 1) * DAY - 3 * 3600) with (d0 * DAY + 75600) by (unfold DAY; lia). rewrite D by (unfold DAY; lia). assumption. }
  assert (D5 : date_of ((d0 + 1) * DAY + 3 * 3600) = YMD 2021 1 1) by (unfold date_of; rewrite D by (unfold DAY; lia); assumption).
  assert (D6 : date_of ((d0 + 1) * DAY) = YMD 2021 1 1) by (unfold date_of; rewrite Z.div_mul by (unfold DAY; lia); assumption).
  assert (D7 : date_of (d0 * DAY) = YMD 2020 12 31) by (unfold date_of; rewrite Z.div_mul by (unfold DAY; lia); exact C0).
  rewrite D1, D2, D3, D4, D5, D6, D7. clear. repeat split.
Qed.

(** * C69 Model dates and end date *)
(** The model dates are exactly start + k * step up to the end, in order. *)
Theorem c69_dates : forall start stop step t, 0 < step ->
  (In t (date_range start stop step) <-> exists k, 0 <= k /\ t = start + k * step /\ t <= stop) /\
  (forall i j a b, nth_error (date_range start stop step) i = Some a ->
     nth_error (date_range start stop step) j = Some b -> (i < j)%nat -> a < b) /\
  (start <= stop -> nth_error (date_range start stop step) 0 = Some start).
Proof.
  intros start stop step t P. destruct (Z.le_gt_cases start stop) as [L|L].
  - split; [|split].
    + split.
      * intros I. apply In_nth_error in I. destruct I as (k & N). rewrite date_range_nth in N by auto.
        destruct (Z.leb_spec (start + Z.of_nat k * step) stop); [|discriminate]. injection N as <-. exists (Z.of_nat k). lia.
      * intros (k & K & -> & B). apply (nth_error_In _ (Z.to_nat k)). rewrite date_range_nth by auto.
        rewrite Z2Nat.id by auto. destruct (Z.leb_spec (start + k * step) stop); [auto|lia].
    + intros i j a b A B IJ. rewrite date_range_nth in A, B by auto.
      destruct (_ <=? stop); [|discriminate]. destruct (_ <=? stop); [|discriminate].
      injection A as <-. injection B as <-. nia.
    + intros _. rewrite date_range_nth by auto. destruct (Z.leb_spec (start + Z.of_nat 0 * step) stop); [f_equal; lia|lia].
  - rewrite date_range_empty by auto. split; [|split].
    + split; [intros []|]. intros (k & K & -> & B). nia.
    + intros [|i] j a b A; discriminate.
    + lia.
Qed.
Print Assumptions c69_dates.
(** A configuration is accepted exactly if the end is a model date, which is then the last one. *)
Theorem c69_accepted : forall start stop step, 0 < step ->
  (dates_accepted start stop step = true <-> exists k, 0 <= k /\ stop = start + k * step) /\
  (dates_accepted start stop step = true -> last (date_range start stop step) 0 = stop).
Proof.
  intros start stop step P. unfold dates_accepted. destruct (Z.ltb_spec stop start) as [L|L].
  { split; [|discriminate]. split; [discriminate|]. intros (k & K & E). nia. }
  pose proof (date_range_length start stop step P L) as LEN.
  assert (Q0 : 0 <= (stop - start) / step) by (apply Z.div_pos; lia).
  set (q := (stop - start) / step) in *.
  assert (LAST : date_range start stop step = firstn (Z.to_nat q) (date_range start stop step) ++ [start + q * step]).
  { assert (N : nth_error (date_range start stop step) (Z.to_nat q) = Some (start + q * step)).
    { rewrite date_range_nth by auto. rewrite Z2Nat.id by auto. unfold q.
      pose proof (Z.mul_div_le (stop - start) step P). destruct (Z.leb_spec (start + (stop - start) / step * step) stop); [auto|lia]. }
    rewrite <- (firstn_skipn (Z.to_nat q) (date_range start stop step)) at 1. f_equal.
    assert (LS : length (skipn (Z.to_nat q) (date_range start stop step)) = 1%nat) by (rewrite skipn_length; lia).
    destruct (skipn (Z.to_nat q) (date_range start stop step)) as [|x [|y l]] eqn:E; try discriminate. f_equal.
    rewrite <- (firstn_skipn (Z.to_nat q) (date_range start stop step)) in N.
    rewrite E, nth_error_app2 in N by (rewrite firstn_length; lia).
    rewrite firstn_length in N. replace (Z.to_nat q - Nat.min (Z.to_nat q) (length (date_range start stop step)))%nat with 0%nat in N by lia.
    cbn in N. congruence. }
  rewrite LAST, rev_app_distr. cbn [rev app]. rewrite Z.eqb_eq. rewrite last_last. split; [|auto]. split.
  - intros E. exists q. lia.
  - intros (k & K & E). unfold q. rewrite E. replace (start + k * step - start) with (k * step) by lia.
    rewrite Z.div_mul by lia. auto.
Qed.
Print Assumptions c69_accepted.
(** End dates without a time part ([d] is midnight of that day). *)
Theorem c69_date_only : forall e d step n, 0 < step ->
  (e = EDate d \/ exists s, e = EString s d /\ matches date_pattern (strip (String.list_ascii_of_string s)) = true) ->
  d = n * DAY ->
  (step < DAY -> parse_end_date e step = d + DAY - step /\
     parse_end_date e step / DAY = n /\ (parse_end_date e step + step) / DAY = n + 1) /\
  (DAY <= step -> parse_end_date e step = d).
Proof.
  intros e d step n P E D. unfold parse_end_date.
  assert (G : (match e with EDate _ => true | EString s _ => matches date_pattern (strip (String.list_ascii_of_string s)) | ETime _ => false end) = true
    /\ match e with EDate t => t | EString _ p => p | ETime t => t end = d).
  { destruct E as [->|(s & -> & M)]; auto. }
  destruct G as [-> ->]. cbn [andb]. split; intros L.
  - apply Z.ltb_lt in L as L'. rewrite L'. subst d. unfold DAY in *. split; [lia|]. split.
    + replace (n * 86400 + (24 * 3600 - step)) with (n * 86400 + (86400 - step)) by lia.
      rewrite Z.div_add_l by lia. rewrite Z.div_small by lia. lia.
    + replace (n * 86400 + (24 * 3600 - step) + step) with ((n + 1) * 86400) by lia. apply Z.div_mul. lia.
  - destruct (Z.ltb_spec step DAY); [lia|auto].
Qed.
Print Assumptions c69_date_only.
(** End dates with a time part are used as they are. *)
Theorem c69_with_time : forall e step,
  (forall t, e = ETime t -> parse_end_date e step = t) /\
  (forall s t, e = EString s t -> matches date_pattern (strip (String.list_ascii_of_string s)) = false ->
     parse_end_date e step = t).
Proof.
  intros e step. split.
  - intros t ->. reflexivity.
  - intros s t -> M. unfold parse_end_date. rewrite M. auto.
Qed.
Print Assumptions c69_with_time.
(** Hence an accepted run with a date-only end ends with the last time step of that day. *)
Theorem c69_ends_with_last_step : forall start n step, 0 < step < DAY ->
  let stop := parse_end_date (EDate (n * DAY)) step in
  dates_accepted start stop step = true ->
  forall t, last (date_range start stop step) 0 = t ->
    t / DAY = n /\ (t + step) / DAY = n + 1 /\ In t (date_range start stop step).
Proof.
  intros start n step S stop A t T. destruct (c69_accepted start stop step ltac:(lia)) as [AC AL].
  specialize (AL A). assert (t = stop) by congruence. subst t.
  destruct (c69_date_only (EDate (n * DAY)) (n * DAY) step n ltac:(lia) (or_introl eq_refl) eq_refl) as [B _].
  destruct (B ltac:(lia)) as (B1 & B2 & B3). fold stop in B1, B2, B3. rewrite H. split; [auto|]. split; [auto|].
  apply (c69_dates start stop step stop ltac:(lia)). apply AC in A. destruct A as (k & K & E). exists k. lia.
Qed.
Print Assumptions c69_ends_with_last_step.
(** The pattern accepts exactly ten characters: digits with dashes at positions 4 and 7. *)
Theorem c69_pattern : forall l, matches date_pattern l = true <->
  exists a b c d e f g h, l = [a; b; c; d; "-"%char; e; f; "-"%char; g; h] /\
    forallb is_digit [a; b; c; d; e; f; g; h] = true.
Proof.
  intros l. split.
  - intros H. do 10 (destruct l as [|? l]; [cbn in H; rewrite ?andb_false_r in H; discriminate H|]).
    destruct l; [|cbn in H; rewrite ?andb_false_r in H; discriminate H].
    cbn [matches date_pattern] in H. rewrite !andb_true_iff in H. decompose [and] H. clear H.
    assert (DS : forall x, is_dash x = true -> x = "-"%char).
    { intros x X. unfold is_dash in X. apply Nat.eqb_eq in X.
      rewrite <- (Ascii.ascii_nat_embedding x), X. reflexivity. }
    match goal with H1 : is_dash ?x = true, H2 : is_dash ?y = true |- _ =>
      apply DS in H1; apply DS in H2; subst end.
    do 8 eexists. split; [reflexivity|]. cbn [forallb]. rewrite !andb_true_iff. repeat split; assumption.
  - intros (a & b & c & d & e & f & g & h & -> & H).
    cbn [forallb] in H. cbn [matches date_pattern]. rewrite !andb_true_iff in *. tauto.
Qed.
Print Assumptions c69_pattern.
Example c69_example :
  matches date_pattern (strip (String.list_ascii_of_string " 2020-09-30 ")) = true /\
  matches date_pattern (strip (String.list_ascii_of_string "2020-09-30 12:00")) = false /\
  parse_end_date (EDate (10 * DAY)) 10800 = 10 * DAY + 21 * 3600 /\
  dates_accepted (9 * DAY) (10 * DAY + 21 * 3600) 10800 = true /\
  dates_accepted (9 * DAY + 3600) (10 * DAY + 21 * 3600) 10800 = false.
Proof. repeat split; reflexivity. Qed.
