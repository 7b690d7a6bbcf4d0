(** Lemmas about the calendar and model dates. *)
From Coq Require Import List ZArith Bool Lia.
From Verif Require Import TimeModel.
Import ListNotations.
Open Scope Z_scope.

Record valid (d : ymd) : Prop := {
  v_y : 1 <= year d; v_m : 1 <= month d <= 12; v_d : 1 <= day d <= month_days (year d) (month d) }.
(** Days before a year, before a month of a year, and the ordinal of a date (0001-01-01 is 0). *)
Definition dby (y : Z) : Z := 365 * (y - 1) + (y - 1) / 4 - (y - 1) / 100 + (y - 1) / 400.
Definition dbm (y m : Z) : Z :=
  (if m <=? 1 then 0 else if m =? 2 then 31 else if m =? 3 then 59 else if m =? 4 then 90
   else if m =? 5 then 120 else if m =? 6 then 151 else if m =? 7 then 181 else if m =? 8 then 212
   else if m =? 9 then 243 else if m =? 10 then 273 else if m =? 11 then 304 else 334)
  + (if (2 <? m) && leap y then 1 else 0).
Definition ordinal (d : ymd) : Z := dby (year d) + dbm (year d) (month d) + (day d - 1).

Lemma month_cases m : 1 <= m <= 12 ->
  m = 1 \/ m = 2 \/ m = 3 \/ m = 4 \/ m = 5 \/ m = 6 \/ m = 7 \/ m = 8 \/ m = 9 \/ m = 10 \/ m = 11 \/ m = 12.
Proof. lia. Qed.
Lemma month_days_bound y m : 28 <= month_days y m <= 31.
Proof. unfold month_days. destruct (m =? 2), (leap y), ((m =? 4) || (m =? 6) || (m =? 9) || (m =? 11)); lia. Qed.
Lemma dbm_step y m : 1 <= m < 12 -> dbm y (m + 1) = dbm y m + month_days y m.
Proof.
  intros H. assert (C := month_cases m ltac:(lia)). unfold dbm, month_days.
  destruct (leap y); repeat (destruct C as [C|C]; [subst; reflexivity|]); try lia.
Qed.
Lemma dby_step y : dby (y + 1) = dby y + dbm y 12 + month_days y 12.
Proof.
  unfold dby, dbm, month_days. cbn -[Z.mul Z.div Z.add Z.sub leap].
  unfold leap. replace (y + 1 - 1) with y by lia.
  destruct (y mod 4 =? 0) eqn:E4, (y mod 100 =? 0) eqn:E100, (y mod 400 =? 0) eqn:E400; cbn [andb orb negb];
  rewrite ?Z.eqb_eq, ?Z.eqb_neq in *; Z.to_euclidean_division_equations; lia.
Qed.
Lemma next_ordinal d : valid d -> ordinal (next_day d) = ordinal d + 1.
Proof.
  intros [Y M D]. unfold ordinal, next_day. destruct (Z.ltb_spec (day d) (month_days (year d) (month d))).
  - cbn [year month day]. lia.
  - assert (day d = month_days (year d) (month d)) by lia. destruct (Z.ltb_spec (month d) 12); cbn [year month day].
    + rewrite dbm_step by lia. lia.
    + assert (E : month d = 12) by lia. rewrite dby_step. rewrite E in *.
      replace (dbm (year d + 1) 1) with 0 by reflexivity. lia.
Qed.
Lemma next_valid d : valid d -> valid (next_day d).
Proof.
  intros [Y M D]. unfold next_day. destruct (Z.ltb_spec (day d) (month_days (year d) (month d))).
  - constructor; cbn; lia.
  - destruct (Z.ltb_spec (month d) 12); constructor; cbn [year month day]; try lia.
    + pose proof (month_days_bound (year d) (month d + 1)). lia.
    + pose proof (month_days_bound (year d + 1) 1). lia.
Qed.
Lemma civil_nat_valid n : valid (civil_nat n).
Proof.
  induction n; [constructor; cbn; lia|]. apply next_valid; auto.
Qed.
Lemma civil_nat_ordinal n : ordinal (civil_nat n) = Z.of_nat n.
Proof.
  induction n as [|n IH]; [reflexivity|]. cbn [civil_nat]. rewrite next_ordinal by apply civil_nat_valid. lia.
Qed.
Lemma civil_valid n : valid (civil n). Proof. apply civil_nat_valid. Qed.
Lemma civil_ordinal n : 0 <= n -> ordinal (civil n) = n.
Proof. intros. unfold civil. rewrite civil_nat_ordinal. lia. Qed.

(** Bounds on years and months between ordinals *)
Lemma dbm_bound y m : 1 <= m <= 12 -> 0 <= dbm y m /\ dbm y m + month_days y m <= (if leap y then 366 else 365).
Proof.
  intros H. assert (C := month_cases m H). unfold dbm, month_days.
  destruct (leap y); repeat (destruct C as [C|C]; [subst; cbn; lia|]); subst; cbn; lia.
Qed.
Lemma dby_leap y : dby (y + 1) = dby y + (if leap y then 366 else 365).
Proof. rewrite dby_step. unfold dbm, month_days. cbn. destruct (leap y); lia. Qed.
Lemma dby_mono y y' : y <= y' -> dby y' >= dby y + 365 * (y' - y).
Proof.
  intros H. assert (G : forall n : nat, dby (y + Z.of_nat n) >= dby y + 365 * Z.of_nat n).
  { induction n as [|n IH]; [replace (y + Z.of_nat 0) with y by lia; lia|].
    replace (y + Z.of_nat (S n)) with ((y + Z.of_nat n) + 1) by lia. rewrite dby_leap. destruct (leap _); lia. }
  specialize (G (Z.to_nat (y' - y))). replace (y + Z.of_nat (Z.to_nat (y' - y))) with y' in G by lia. lia.
Qed.
Lemma dbm_mono y m m' : 1 <= m -> m < m' -> m' <= 12 -> dbm y m + month_days y m <= dbm y m'.
Proof.
  intros A B C. assert (G : forall n : nat, m + 1 + Z.of_nat n <= 12 -> dbm y m + month_days y m <= dbm y (m + 1 + Z.of_nat n)).
  { induction n as [|n IH]; intros L.
    - replace (m + 1 + Z.of_nat 0) with (m + 1) by lia. rewrite dbm_step by lia. lia.
    - replace (m + 1 + Z.of_nat (S n)) with ((m + 1 + Z.of_nat n) + 1) by lia. rewrite dbm_step by lia.
      pose proof (month_days_bound y (m + 1 + Z.of_nat n)). lia. }
  specialize (G (Z.to_nat (m' - m - 1))). replace (m + 1 + Z.of_nat (Z.to_nat (m' - m - 1))) with m' in G by lia. apply G; lia.
Qed.
(** Later ordinals have later (year, month). *)
Lemma year_mono d d' : valid d -> valid d' -> ordinal d <= ordinal d' -> year d <= year d'.
Proof.
  intros [Y M D] [Y' M' D'] O. destruct (Z.le_gt_cases (year d) (year d')) as [|G]; auto. exfalso.
  unfold ordinal in O. pose proof (dby_mono (year d' + 1) (year d) ltac:(lia)). rewrite dby_leap in H.
  pose proof (dbm_bound (year d') (month d') M'). pose proof (dbm_bound (year d) (month d) M). lia.
Qed.
Lemma month_mono d d' : valid d -> valid d' -> ordinal d <= ordinal d' ->
  year d < year d' \/ (year d = year d' /\ month d <= month d').
Proof.
  intros V V' O. pose proof (year_mono d d' V V' O). destruct V as [Y M D], V' as [Y' M' D'].
  destruct (Z.eq_dec (year d) (year d')) as [E|]; [right; split; auto|left; lia].
  destruct (Z.le_gt_cases (month d) (month d')) as [|G]; auto. exfalso.
  unfold ordinal in O. rewrite <- E in *. pose proof (dbm_mono (year d) (month d') (month d) ltac:(lia) G ltac:(lia)). lia.
Qed.
Lemma ordinal_inj d d' : valid d -> valid d' -> ordinal d = ordinal d' -> d = d'.
Proof.
  intros V V' O. pose proof (month_mono d d' V V' ltac:(lia)). pose proof (month_mono d' d V' V ltac:(lia)).
  assert (E1 : year d = year d') by lia. assert (E2 : month d = month d') by lia.
  unfold ordinal in O. rewrite E1, E2 in O. destruct d, d'; cbn in *. f_equal; lia.
Qed.
(** Same day of month but another day: at least 28 days apart; same month number but another month: at
    least 335 days apart. *)
Lemma same_day_number d d' : valid d -> valid d' -> ordinal d < ordinal d' -> day d = day d' ->
  ordinal d + 28 <= ordinal d'.
Proof.
  intros V V' O E. pose proof (month_mono d d' V V' ltac:(lia)) as MM. destruct V as [Y M D], V' as [Y' M' D'].
  unfold ordinal in *. destruct MM as [L|[EY L]].
  - pose proof (dby_mono (year d + 1) (year d') ltac:(lia)). rewrite dby_leap in H.
    pose proof (dbm_bound (year d) (month d) M). pose proof (dbm_bound (year d') (month d') M').
    pose proof (month_days_bound (year d) (month d)). lia.
  - rewrite <- EY in *. destruct (Z.eq_dec (month d) (month d')) as [EM|NM]; [rewrite <- EM in *; lia|].
    pose proof (dbm_mono (year d) (month d) (month d') ltac:(lia) ltac:(lia) ltac:(lia)).
    pose proof (month_days_bound (year d) (month d)). lia.
Qed.
Lemma same_month_number d d' : valid d -> valid d' -> ordinal d <= ordinal d' -> month d = month d' ->
  year d <> year d' -> ordinal d + 335 <= ordinal d'.
Proof.
  intros V V' O E N. pose proof (year_mono d d' V V' O). destruct V as [Y M D], V' as [Y' M' D'].
  unfold ordinal in *. rewrite <- E in *.
  pose proof (dby_mono (year d + 1) (year d') ltac:(lia)). rewrite dby_leap in H0.
  pose proof (month_days_bound (year d) (month d)).
  assert (dbm (year d) (month d) <= dbm (year d') (month d) + (if leap (year d) then 1 else 0)).
  { unfold dbm. destruct (leap (year d)), (leap (year d')), (2 <? month d); cbn; lia. }
  destruct (leap (year d)); lia.
Qed.

(** * Date ranges *)
Lemma date_range_nth start stop step k : 0 < step -> start <= stop ->
  nth_error (date_range start stop step) k =
    if start + Z.of_nat k * step <=? stop then Some (start + Z.of_nat k * step) else None.
Proof.
  intros S L. unfold date_range. destruct (Z.ltb_spec stop start); [lia|].
  rewrite nth_error_map. destruct (Z.leb_spec (start + Z.of_nat k * step) stop) as [H1|H1].
  - assert (Q : Z.of_nat k <= (stop - start) / step) by (apply Z.div_le_lower_bound; lia).
    rewrite (nth_error_nth' _ 0%nat) by (rewrite seq_length; lia). rewrite seq_nth by lia. auto.
  - assert (Q : (stop - start) / step < Z.of_nat k) by (apply Z.div_lt_upper_bound; lia).
    assert (Q0 : 0 <= (stop - start) / step) by (apply Z.div_pos; lia).
    rewrite (proj2 (nth_error_None _ _)); [auto|]. rewrite seq_length. lia.
Qed.
Lemma date_range_empty start stop step : stop < start -> date_range start stop step = [].
Proof. intros H. unfold date_range. apply Z.ltb_lt in H. rewrite H. auto. Qed.
Lemma date_range_length start stop step : 0 < step -> start <= stop ->
  Z.of_nat (length (date_range start stop step)) = (stop - start) / step + 1.
Proof.
  intros. unfold date_range. destruct (Z.ltb_spec stop start); [lia|].
  rewrite map_length, seq_length. assert (0 <= (stop - start) / step) by (apply Z.div_pos; lia). lia.
Qed.
