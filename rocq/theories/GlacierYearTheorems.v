(** C44: when the glacier geometry is updated. *)
From Verif Require Import Common TimeModel TimeProofs TimeTheorems OutputModel CalendarProofs GlacierModel.
Open Scope Z_scope.

(** Specification: midnight at the beginning of the start month of year k; first and last time step of a mass balance
    year. *)
Definition year_begin (start_month k : Z) : Z := month_start (12 * k + start_month - 1).
Definition first_step_of (start_month step k t : Z) : Prop := t - step < year_begin start_month k <= t.
Definition last_step_before (start_month step k t : Z) : Prop := t < year_begin start_month k <= t + step.

Lemma month_of t : month (date_of t) = month_index t mod 12 + 1.
Proof.
  unfold month_index. destruct (civil_valid (t / DAY)) as [Y M D]. fold (date_of t) in *.
  replace ((12 * year (date_of t) + month (date_of t) - 1) mod 12) with (month (date_of t) - 1)
    by (apply Z.mod_unique with (year (date_of t)); lia). lia.
Qed.
Lemma same_month_index t t' : same_month t t' <-> month_index t = month_index t'.
Proof.
  unfold same_month, month_index. destruct (civil_valid (t / DAY)) as [Y M D]. destruct (civil_valid (t' / DAY)) as [Y' M' D'].
  fold (date_of t) in *. fold (date_of t') in *. split; intros; lia.
Qed.
Lemma crosses1 t s : 0 <= t -> 0 < s <= 28 * DAY ->
  (month_index (t + s) <> month_index t <-> exists k, t < month_start k <= t + s).
Proof.
  intros T S0. pose proof (crosses 1 t s ltac:(lia) T S0) as C. unfold period_index, period_start in C.
  rewrite !Z.div_1_r in C. etransitivity; [exact C|]. split; intros (k & K); exists k; [rewrite Z.mul_1_l in K|rewrite Z.mul_1_l]; lia.
Qed.
Lemma year_begin_mono sm a b : a < b -> year_begin sm a + 12 * 28 * DAY <= year_begin sm b.
Proof.
  intro H. unfold year_begin. set (x := 12 * a + sm - 1).
  assert (G : forall n, (0 <= n) -> month_start x + n * (28 * DAY) <= month_start (x + n)).
  { apply (natlike_ind (fun n => month_start x + n * (28 * DAY) <= month_start (x + n))).
    - replace (x + 0) with x by lia. lia.
    - intros m M IH. pose proof (month_start_strict (x + m) (x + Z.succ m) ltac:(lia)). lia. }
  pose proof (G 12 ltac:(lia)). pose proof (month_start_mono (x + 12) (12 * b + sm - 1) ltac:(lia)). lia.
Qed.
Section Run.
Variables (start stop step sm : Z).
Hypothesis STEP : 0 < step <= 28 * DAY.
Hypothesis START : step <= start.
Hypothesis MONTH : 1 <= sm <= 12.
Let dates := date_range start stop step.

Lemma date_ge i t : nth_error dates i = Some t -> t = start + Z.of_nat i * step /\ t <= stop.
Proof.
  unfold dates. destruct (Z.le_gt_cases start stop) as [L|L];
    [|rewrite date_range_empty by auto; destruct i; discriminate].
  rewrite date_range_nth by lia. destruct (Z.leb_spec (start + Z.of_nat i * step) stop); [|discriminate].
  intro E. injection E as <-. auto.
Qed.
Lemma starts_iff i t p : nth_error dates i = Some t -> timestep_props dates step i = Some p ->
  ((month (date_of t) =? sm) && strict_first_of_month p = true <-> exists k, first_step_of sm step k t).
Proof.
  intros N P. destruct (date_ge i t N) as (D & _). rewrite andb_true_iff, Z.eqb_eq.
  destruct (c60_strict_flags dates step i t p N P ltac:(lia) ltac:(nia)) as (_ & _ & C & _).
  destruct (C ltac:(unfold DAY in *; lia)) as (F & _). rewrite F, same_month_index, month_of.
  pose proof (crosses1 (t - step) step ltac:(nia) STEP) as X. replace (t - step + step) with t in X by lia.
  assert (T0 : 0 <= t) by nia. split.
  - intros (M & Q). assert (Q' : month_index t <> month_index (t - step)) by congruence. apply X in Q'. destruct Q' as (m & Q').
    assert (MI : month_index t = m).
    { apply month_index_unique; [auto|]. pose proof (month_start_strict m (m + 1) ltac:(lia)). lia. }
    exists (m / 12). unfold first_step_of, year_begin. rewrite MI in M.
    replace (12 * (m / 12) + sm - 1) with m by (pose proof (Z.div_mod m 12); lia). lia.
  - intros (k & K1 & K2). unfold year_begin in *. set (m := 12 * k + sm - 1) in *.
    assert (MI : month_index t = m).
    { apply month_index_unique; [auto|]. pose proof (month_start_strict m (m + 1) ltac:(lia)). lia. }
    split; [rewrite MI; unfold m; replace ((12 * k + sm - 1) mod 12) with (sm - 1) by (apply Z.mod_unique with k; lia); lia|].
    assert (month_index t <> month_index (t - step)); [|congruence]. apply X. exists m. lia.
Qed.
Lemma ends_iff i t p : nth_error dates i = Some t -> timestep_props dates step i = Some p ->
  ((month (date_of t) =? mb_end_month sm) && strict_last_of_month p = true <-> exists k, last_step_before sm step k t).
Proof.
  intros N P. destruct (date_ge i t N) as (D & _). rewrite andb_true_iff, Z.eqb_eq.
  destruct (c60_strict_flags dates step i t p N P ltac:(lia) ltac:(nia)) as (_ & _ & C & _).
  destruct (C ltac:(unfold DAY in *; lia)) as (_ & F). rewrite F, same_month_index, month_of.
  assert (T0 : 0 <= t) by nia. pose proof (crosses1 t step T0 STEP) as X.
  assert (E : forall m, (m - 1) mod 12 + 1 = mb_end_month sm <-> m = 12 * (m / 12) + sm - 1).
  { intro m. pose proof (Z.div_mod m 12 ltac:(lia)). pose proof (Z.mod_pos_bound m 12 ltac:(lia)).
    assert (Q : (m - 1) mod 12 = if m mod 12 =? 0 then 11 else m mod 12 - 1).
    { symmetry. destruct (Z.eqb_spec (m mod 12) 0); [apply Z.mod_unique with (m / 12 - 1)|apply Z.mod_unique with (m / 12)]; lia. }
    rewrite Q. unfold mb_end_month. destruct (Z.eqb_spec (m mod 12) 0), (Z.ltb_spec 1 sm); lia. }
  split.
  - intros (M & Q). assert (Q' : month_index (t + step) <> month_index t) by congruence. apply X in Q'. destruct Q' as (m & Q').
    assert (MI : month_index t = m - 1).
    { apply month_index_unique; [auto|]. replace (m - 1 + 1) with m by lia. pose proof (month_start_strict (m - 1) m ltac:(lia)). lia. }
    exists (m / 12). unfold last_step_before, year_begin. rewrite MI in M. apply E in M. rewrite <- M. lia.
  - intros (k & K1 & K2). unfold year_begin in *. set (m := 12 * k + sm - 1) in *.
    assert (MI : month_index t = m - 1).
    { apply month_index_unique; [auto|]. replace (m - 1 + 1) with m by lia. pose proof (month_start_strict (m - 1) m ltac:(lia)). lia. }
    split; [rewrite MI; apply E; unfold m; replace ((12 * k + sm - 1) / 12) with k by (apply Z.div_unique with (sm - 1); lia); lia|].
    assert (month_index (t + step) <> month_index t); [|congruence]. apply X. exists m. lia.
Qed.
(** The snapshot before time step i: the latest first step of a mass balance year *)
Definition latest (i : nat) (s : Z) : Prop := exists j, (j < i)%nat /\ nth_error dates j = Some s /\
  (exists k, first_step_of sm step k s) /\
  forall j' s' k, (j < j' < i)%nat -> nth_error dates j' = Some s' -> ~ first_step_of sm step k s'.
Definition inv (i : nat) (snap : option Z) : Prop := forall s, snap = Some s <-> latest i s.
Lemma run_spec m : forall i snap, inv i snap -> (i + m <= length dates)%nat ->
  forall q, (q < m)%nat -> exists t r, nth_error dates (i + q) = Some t /\
    nth_error (glacier_run sm dates step (seq i m) snap) q = Some r /\
    (forall s e, r = Some (s, e) <-> e = t /\ latest (i + q) s /\ exists k, last_step_before sm step k t).
Proof.
  induction m as [|m IH]; intros i snap I L q Q; [lia|].
  destruct (nth_error dates i) as [t|] eqn:N; [|apply nth_error_None in N; lia].
  assert (exists p, timestep_props dates step i = Some p) as (p & P)
    by (unfold timestep_props; rewrite N; eexists; reflexivity).
  cbn [seq glacier_run]. rewrite N, P.
  pose proof (starts_iff i t p N P) as ST. pose proof (ends_iff i t p N P) as EN.
  assert (EX : (exists k, first_step_of sm step k t) -> (exists k, last_step_before sm step k t) -> False).
  { intros (k & K1 & K2) (k' & E1 & E2). destruct (Z.lt_trichotomy k k') as [G|[G|G]].
    - pose proof (year_begin_mono sm k k' G). unfold DAY in *. lia.
    - subst. lia.
    - pose proof (year_begin_mono sm k' k G). unfold DAY in *. lia. }
  set (st := (month (date_of t) =? sm) && strict_first_of_month p) in *.
  set (en := (month (date_of t) =? mb_end_month sm) && strict_last_of_month p) in *.
  set (u := glacier_update sm (month (date_of t)) (strict_first_of_month p) (strict_last_of_month p) snap t).
  assert (U : u = if st then (Some t, None) else if en then match snap with Some a => (snap, Some (a, t)) | None => (snap, None) end else (snap, None))
    by reflexivity.
  destruct u as [snap' r] eqn:Eu.
  assert (I' : inv (S i) snap').
  { intro s. destruct st eqn:S0.
    - assert (snap' = Some t) as -> by congruence. destruct ST as (ST & _). specialize (ST eq_refl). split.
      + intro E. injection E as <-. exists i. split; [lia|]. split; [auto|]. split; [auto|]. intros; lia.
      + intros (j & J & Nj & _ & F). destruct (Nat.eq_dec j i) as [->|]; [congruence|]. destruct ST as (k & ST).
        exfalso. apply (F i t k); [lia|auto|auto].
    - assert (snap' = snap) as -> by (destruct en; [destruct snap|]; congruence).
      rewrite (I s). split; intros (j & J & Nj & K & F).
      + exists j. split; [lia|]. split; [auto|]. split; [auto|]. intros j' s' k H H' C.
        destruct (Nat.eq_dec j' i) as [->|]; [|apply (F j' s' k); auto; lia].
        assert (s' = t) by congruence. subst s'. assert (false = true) by (apply ST; eauto). discriminate.
      + destruct (Nat.eq_dec j i) as [->|].
        * assert (s = t) by congruence. subst s. assert (false = true) by (apply ST; auto). discriminate.
        * exists j. split; [lia|]. split; [auto|]. split; [auto|]. intros; apply (F j'); auto; lia. }
  destruct q as [|q].
  - exists t, r. rewrite Nat.add_0_r. split; [auto|]. split; [reflexivity|]. intros s e. destruct st eqn:S0.
    + assert (r = None) as -> by congruence. split; [discriminate|]. intros (-> & _ & C). exfalso. apply EX; [apply ST; auto|auto].
    + destruct en eqn:E0.
      * destruct snap as [a|].
        -- assert (r = Some (a, t)) as -> by congruence. split.
           ++ intro E. assert (a = s /\ t = e) as (-> & ->) by (split; congruence). split; [auto|]. split; [apply I; auto|apply EN; auto].
           ++ intros (-> & LA & _). apply I in LA. congruence.
        -- assert (r = None) as -> by congruence. split; [discriminate|]. intros (_ & LA & _). apply I in LA. discriminate.
      * assert (r = None) as -> by congruence. split; [discriminate|]. intros (-> & _ & C). apply EN in C. discriminate.
  - destruct (IH (S i) snap' I' ltac:(lia) q ltac:(lia)) as (t' & r' & A & B & C). exists t', r'.
    replace (i + S q)%nat with (S i + q)%nat by lia. split; [exact A|]. split; [exact B|exact C].
Qed.
End Run.
(** C44. During a run over the first n model dates the geometry is updated at time step i, with the mass balance between
    s and e, iff e is the date of time step i, s an earlier date of the run, s the first and e the last time step of one
    mass balance year. *)
Theorem c44_updates : forall start stop step start_month n i s e, 0 < step <= 28 * DAY -> step <= start -> 1 <= start_month <= 12 ->
  (n <= length (date_range start stop step))%nat ->
  let dates := date_range start stop step in
  nth_error (glacier_run start_month dates step (seq 0 n) None) i = Some (Some (s, e)) <->
  (i < n)%nat /\ nth_error dates i = Some e /\ In s dates /\
  exists k, first_step_of start_month step k s /\ last_step_before start_month step (k + 1) e.
Proof.
  intros start stop step sm n i s e STEP START MONTH L dates.
  pose proof (run_spec start stop step sm STEP START MONTH n 0%nat None) as RS. fold dates in RS.
  assert (I0 : inv start stop step sm 0 None) by (intro x; split; [discriminate|intros (j & J & _); lia]).
  specialize (RS I0 ltac:(fold dates; fold dates in L; lia)).
  assert (LB : forall a b, year_begin sm a < year_begin sm b -> a < b).
  { intros a b H. destruct (Z.lt_trichotomy a b) as [G|[->|G]]; [auto|lia|]. pose proof (year_begin_mono sm b a G). unfold DAY in *. lia. }
  assert (DT : forall j d, nth_error dates j = Some d -> d = start + Z.of_nat j * step /\ d <= stop)
    by (intros j d; apply date_ge; auto).
  assert (ND : forall j, start + Z.of_nat j * step <= stop -> nth_error dates j = Some (start + Z.of_nat j * step)).
  { intros j J. unfold dates. rewrite date_range_nth by nia. destruct (Z.leb_spec (start + Z.of_nat j * step) stop); [auto|lia]. }
  split.
  - intro E. assert (B : (i < n)%nat).
    { destruct (Nat.lt_ge_cases i n) as [|G]; [auto|]. exfalso.
      assert (LG : forall idxs snap, (length (glacier_run sm dates step idxs snap) <= length idxs)%nat).
      { induction idxs as [|a idxs IHx]; intro snap; [reflexivity|]. cbn [glacier_run]. destruct (nth_error dates a); [|cbn; lia].
        destruct (timestep_props dates step a); [|cbn; lia]. destruct (glacier_update _ _ _ _ _ _). cbn. specialize (IHx o). lia. }
      specialize (LG (seq 0 n) None). rewrite seq_length in LG.
      assert (nth_error (glacier_run sm dates step (seq 0 n) None) i = None) by (apply nth_error_None; lia). congruence. }
    destruct (RS i B) as (t & r & A & Q & C). rewrite Nat.add_0_l in A.
    assert (r = Some (s, e)) by congruence. apply C in H. destruct H as (-> & (j & J & Nj & (k & K) & F) & (k' & K')).
    rewrite Nat.add_0_l in J, F. fold dates in Nj, F. split; [auto|]. split; [auto|]. split; [eapply nth_error_In; eauto|].
    exists k. split; [auto|]. assert (k' = k + 1); [|subst; auto].
    destruct (DT j s Nj) as (Ds & _). destruct (DT i t A) as (De & Dstop). unfold first_step_of, last_step_before in *.
    assert (s < t) by nia. assert (k < k') by (apply LB; lia).
    destruct (Z.eq_dec k' (k + 1)) as [|NE]; [auto|]. exfalso.
    set (y := year_begin sm (k + 1)). assert (YS : year_begin sm k + 12 * 28 * DAY <= y) by (apply year_begin_mono; lia).
    assert (YE : y + 12 * 28 * DAY <= year_begin sm k') by (apply year_begin_mono; lia).
    set (c := (y - s + step - 1) / step).
    assert (CB : y <= s + c * step < y + step).
    { unfold c. pose proof (Z.div_mod (y - s + step - 1) step ltac:(lia)). pose proof (Z.mod_pos_bound (y - s + step - 1) step ltac:(lia)). nia. }
    assert (C0 : 0 < c) by (unfold DAY in *; nia).
    assert (CE : s + c * step < t) by (unfold DAY in *; lia).
    apply (F (j + Z.to_nat c)%nat (s + c * step) (k + 1)).
    + split; [lia|]. assert (Z.of_nat j + c < Z.of_nat i); [|lia].
      assert ((Z.of_nat j + c) * step < Z.of_nat i * step) by nia. nia.
    + replace (s + c * step) with (start + Z.of_nat (j + Z.to_nat c) * step) by (rewrite Nat2Z.inj_add, Z2Nat.id by lia; lia).
      apply ND. rewrite Nat2Z.inj_add, Z2Nat.id by lia. lia.
    + unfold first_step_of. fold y. lia.
  - intros (B & Ni & Is & k & K & K'). destruct (RS i B) as (t & r & A & Q & C). rewrite Nat.add_0_l in *.
    assert (t = e) by congruence. subst t. rewrite Q. f_equal. apply C. split; [auto|]. split; [|eauto].
    apply In_nth_error in Is. destruct Is as (j & Nj). exists j. destruct (DT j s Nj) as (Ds & _). destruct (DT i e Ni) as (De & _).
    unfold first_step_of, last_step_before in *. pose proof (year_begin_mono sm k (k + 1) ltac:(lia)).
    split. { assert (Z.of_nat j * step < Z.of_nat i * step) by (unfold DAY in *; lia). nia. }
    split; [auto|]. split; [exists k; unfold first_step_of; auto|].
    intros j' s' k2 J' N' (F1 & F2). destruct (DT j' s' N') as (Ds' & _).
    assert (s + step <= s') by nia. assert (s' < e) by nia. assert (k < k2) by (apply LB; lia).
    assert (year_begin sm (k + 1) <= year_begin sm k2); [|lia].
    destruct (Z.eq_dec k2 (k + 1)) as [->|]; [lia|]. pose proof (year_begin_mono sm (k + 1) k2 ltac:(lia)). unfold DAY in *. lia.
Qed.
Print Assumptions c44_updates.
(** Exactly one update for every mass balance year whose first and last time step are in the run, and none for other
    years. *)
Theorem c44_once : forall start stop step start_month k, 0 < step <= 28 * DAY -> step <= start -> 1 <= start_month <= 12 ->
  let dates := date_range start stop step in
  let run := glacier_run start_month dates step (seq 0 (length dates)) None in
  let hits i := exists s e, nth_error run i = Some (Some (s, e)) /\ first_step_of start_month step k s in
  ((exists s e, In s dates /\ In e dates /\ first_step_of start_month step k s /\ last_step_before start_month step (k + 1) e)
    <-> exists i, hits i) /\
  (forall i j, hits i -> hits j -> i = j).
Proof.
  intros start stop step sm k STEP START MONTH dates run hits.
  assert (LB : forall a b, year_begin sm a < year_begin sm b -> a < b).
  { intros a b H. destruct (Z.lt_trichotomy a b) as [G|[->|G]]; [auto|lia|]. pose proof (year_begin_mono sm b a G). unfold DAY in *. lia. }
  assert (U : forall i s e, nth_error run i = Some (Some (s, e)) -> first_step_of sm step k s ->
     In s dates /\ nth_error dates i = Some e /\ last_step_before sm step (k + 1) e).
  { intros i s e E F. apply (c44_updates start stop step sm (length dates) i s e STEP START MONTH (le_n _)) in E.
    destruct E as (_ & Ni & Is & k' & F' & E'). split; [exact Is|]. split; [exact Ni|].
    assert (k' = k); [|subst; auto]. unfold first_step_of in *.
    destruct (Z.lt_trichotomy k k') as [G|[G|G]]; [|auto|].
    - pose proof (year_begin_mono sm k k' G). unfold DAY in *. lia.
    - pose proof (year_begin_mono sm k' k G). unfold DAY in *. lia. }
  split; [split|].
  - intros (s & e & Is & Ie & F & E). apply In_nth_error in Ie. destruct Ie as (i & Ni). exists i, s, e. split; [|auto].
    apply (c44_updates start stop step sm (length dates) i s e STEP START MONTH (le_n _)). split; [apply nth_error_Some; fold dates; rewrite Ni; discriminate|].
    split; [exact Ni|]. split; [exact Is|]. exists k. auto.
  - intros (i & s & e & E & F). destruct (U i s e E F) as (Is & Ni & L). exists s, e. split; [auto|]. split; [eapply nth_error_In; eauto|auto].
  - intros i j (s & e & E & F) (s' & e' & E' & F'). destruct (U i s e E F) as (_ & Ni & L). destruct (U j s' e' E' F') as (_ & Nj & L').
    unfold last_step_before in *. destruct (date_ge start stop step STEP i e Ni) as (D & _).
    destruct (date_ge start stop step STEP j e' Nj) as (D' & _). destruct (Nat.lt_trichotomy i j) as [G|[G|G]]; [|auto|]; nia.
Qed.
Print Assumptions c44_once.
(** The default start month, October: a run with daily steps that covers the mass balance year 2020/21. *)
Example c44_example : year_begin 10 2020 = 737698 * DAY /\ year_begin 10 2021 = 738063 * DAY /\
  first_step_of 10 DAY 2020 (737698 * DAY) /\ last_step_before 10 DAY 2021 (738062 * DAY) /\
  In (737698 * DAY) (date_range (737600 * DAY) (738200 * DAY) DAY) /\ In (738062 * DAY) (date_range (737600 * DAY) (738200 * DAY) DAY).
Proof.
  assert (A : year_begin 10 2020 = 737698 * DAY) by reflexivity. assert (B : year_begin 10 2021 = 738063 * DAY) by reflexivity.
  unfold first_step_of, last_step_before. rewrite A, B. unfold DAY. repeat split; try lia.
  - apply date_range_in; [lia|]. exists 98. lia.
  - apply date_range_in; [lia|]. exists 462. lia.
Qed.
