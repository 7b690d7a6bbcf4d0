(** Lemmas about months and years as periods of time. *)
From Verif Require Import TimeModel TimeProofs Common OutputModel.
Open Scope Z_scope.
Lemma month_start_next k : month_start (k + 1) = month_start k + DAY * month_days (k / 12) (k mod 12 + 1).
Proof.
  unfold month_start. pose proof (Z.div_mod k 12 ltac:(lia)). pose proof (Z.mod_pos_bound k 12 ltac:(lia)).
  destruct (Z.eq_dec (k mod 12) 11) as [E|E].
  - replace ((k + 1) / 12) with (k / 12 + 1) by (apply Z.div_unique with 0; lia).
    replace ((k + 1) mod 12) with 0 by (apply Z.mod_unique with (k / 12 + 1); lia).
    rewrite E. change (0 + 1) with 1. change (11 + 1) with 12. rewrite dby_step. change (dbm (k / 12 + 1) 1) with 0. lia.
  - replace ((k + 1) / 12) with (k / 12) by (apply Z.div_unique with (k mod 12 + 1); lia).
    replace ((k + 1) mod 12) with (k mod 12 + 1) by (apply Z.mod_unique with (k / 12); lia).
    rewrite dbm_step by lia. lia.
Qed.
Lemma month_start_mono a b : a <= b -> month_start a <= month_start b.
Proof.
  intros H. replace b with (a + Z.of_nat (Z.to_nat (b - a))) by lia. generalize (Z.to_nat (b - a)) as n.
  induction n; [rewrite Z.add_0_r; lia|]. rewrite Nat2Z.inj_succ.
  replace (a + Z.succ (Z.of_nat n)) with (a + Z.of_nat n + 1) by lia. rewrite month_start_next.
  pose proof (month_days_bound ((a + Z.of_nat n) / 12) ((a + Z.of_nat n) mod 12 + 1)). unfold DAY. lia.
Qed.
Lemma month_start_strict a b : a < b -> month_start a + 28 * DAY <= month_start b.
Proof.
  intros H. pose proof (month_start_mono (a + 1) b ltac:(lia)). rewrite month_start_next in H0.
  pose proof (month_days_bound (a / 12) (a mod 12 + 1)). unfold DAY in *. lia.
Qed.
Lemma month_start_day k : month_start k mod DAY = 0.
Proof. unfold month_start. rewrite Z.mul_comm. apply Z.mod_mul. unfold DAY. lia. Qed.
Lemma month_bounds t : 0 <= t -> month_start (month_index t) <= t < month_start (month_index t + 1).
Proof.
  intros T. rewrite month_start_next. unfold month_index, month_start, date_of.
  assert (Q : 0 <= t / DAY) by (apply Z.div_pos; unfold DAY; lia).
  pose proof (civil_ordinal (t / DAY) Q) as O. destruct (civil_valid (t / DAY)) as [Y M D].
  set (d := civil (t / DAY)) in *. unfold ordinal in O.
  replace ((12 * year d + month d - 1) / 12) with (year d) by (apply Z.div_unique with (month d - 1); lia).
  replace ((12 * year d + month d - 1) mod 12) with (month d - 1) by (apply Z.mod_unique with (year d); lia).
  replace (month d - 1 + 1) with (month d) by lia.
  pose proof (Z.div_mod t DAY ltac:(unfold DAY; lia)). pose proof (Z.mod_pos_bound t DAY ltac:(unfold DAY; lia)).
  unfold DAY in *. lia.
Qed.
Lemma month_index_unique t k : 0 <= t -> month_start k <= t < month_start (k + 1) -> month_index t = k.
Proof.
  intros T H. pose proof (month_bounds t T).
  destruct (Z.lt_trichotomy (month_index t) k) as [L|[E|G]]; auto.
  - pose proof (month_start_mono (month_index t + 1) k ltac:(lia)). lia.
  - pose proof (month_start_mono (k + 1) (month_index t) ltac:(lia)). lia.
Qed.
Lemma period_bounds p t : 0 < p -> 0 <= t -> period_start p (period_index p t) <= t < period_start p (period_index p t + 1).
Proof.
  intros P T. unfold period_start, period_index. pose proof (month_bounds t T) as [A B].
  pose proof (Z.div_mod (month_index t) p ltac:(lia)). pose proof (Z.mod_pos_bound (month_index t) p ltac:(lia)).
  pose proof (month_start_mono (p * (month_index t / p)) (month_index t) ltac:(lia)).
  pose proof (month_start_mono (month_index t + 1) (p * (month_index t / p + 1)) ltac:(lia)). lia.
Qed.
Lemma period_start_mono p a b : 0 < p -> a <= b -> period_start p a <= period_start p b.
Proof. intros. apply month_start_mono. nia. Qed.
Lemma period_start_strict p a b : 0 < p -> a < b -> period_start p a + 28 * DAY <= period_start p b.
Proof. intros. apply month_start_strict. nia. Qed.
Lemma period_index_unique p t k : 0 < p -> 0 <= t -> period_start p k <= t < period_start p (k + 1) -> period_index p t = k.
Proof.
  intros P T H. pose proof (period_bounds p t P T).
  destruct (Z.lt_trichotomy (period_index p t) k) as [L|[E|G]]; auto.
  - pose proof (period_start_mono p (period_index p t + 1) k P ltac:(lia)). lia.
  - pose proof (period_start_mono p (k + 1) (period_index p t) P ltac:(lia)). lia.
Qed.
Lemma period_start_day p k : (DAY | period_start p k).
Proof. apply Z.mod_divide; [unfold DAY; lia|]. apply month_start_day. Qed.
Lemma period_index_mono p a b : 0 < p -> 0 <= a -> a <= b -> period_index p a <= period_index p b.
Proof.
  intros P A H. pose proof (period_bounds p a P A). pose proof (period_bounds p b P ltac:(lia)).
  destruct (Z.le_gt_cases (period_index p a) (period_index p b)); auto.
  pose proof (period_start_mono p (period_index p b + 1) (period_index p a) P ltac:(lia)). lia.
Qed.
(** A step of at most 28 days crosses at most one period boundary *)
Lemma crosses p t s : 0 < p -> 0 <= t -> 0 < s <= 28 * DAY ->
  (period_index p (t + s) <> period_index p t <-> exists k, period_start p k - s <= t < period_start p k).
Proof.
  intros P T S. pose proof (period_bounds p t P T) as B. pose proof (period_bounds p (t + s) P ltac:(lia)) as B'. split.
  - intros N. exists (period_index p t + 1). split; [|lia].
    pose proof (period_index_mono p t (t + s) P T ltac:(lia)).
    pose proof (period_start_mono p (period_index p t + 1) (period_index p (t + s)) P ltac:(lia)). lia.
  - intros [k K] E. rewrite E in B'.
    destruct (Z.le_gt_cases k (period_index p t)).
    + pose proof (period_start_mono p k (period_index p t) P H). lia.
    + pose proof (period_start_mono p (period_index p t + 1) k P ltac:(lia)). lia.
Qed.
Lemma zrange_in a b k : In k (zrange a b) <-> a <= k <= b.
Proof.
  unfold zrange. rewrite in_map_iff. split.
  - intros [n [<- I]]. apply in_seq in I. lia.
  - intros H. exists (Z.to_nat (k - a)). split; [lia|]. apply in_seq. lia.
Qed.
Lemma zrange_cons a b : a <= b -> zrange a b = a :: zrange (a + 1) b.
Proof.
  intros H. unfold zrange. replace (Z.to_nat (b - a + 1)) with (S (Z.to_nat (b - (a + 1) + 1))) by lia.
  cbn [seq map]. f_equal; [lia|]. rewrite <- seq_shift, map_map. apply map_ext. intros; lia.
Qed.
Lemma zrange_snoc a b : a <= b -> zrange a b = zrange a (b - 1) ++ [b].
Proof.
  intros H. unfold zrange. replace (Z.to_nat (b - a + 1)) with (Z.to_nat (b - 1 - a + 1) + 1)%nat by lia.
  rewrite seq_app, map_app. cbn [seq map]. f_equal. f_equal. lia.
Qed.
Lemma date_range_in start stop step d : 0 < step ->
  In d (date_range start stop step) <-> exists k, 0 <= k /\ d = start + k * step /\ d <= stop.
Proof.
  intros S. destruct (Z.le_gt_cases start stop) as [L|L].
  - split.
    + intros I. apply In_nth_error in I. destruct I as [n N]. rewrite date_range_nth in N by auto.
      destruct (Z.leb_spec (start + Z.of_nat n * step) stop); [|discriminate]. injection N as <-.
      exists (Z.of_nat n). repeat split; lia.
    + intros [k [K [-> B]]]. apply nth_error_In with (Z.to_nat k). rewrite date_range_nth by auto.
      rewrite Z2Nat.id by lia. apply Z.leb_le in B. rewrite B. auto.
  - rewrite date_range_empty by auto. split; [inversion 1|]. intros [k [K [-> B]]]. nia.
Qed.
