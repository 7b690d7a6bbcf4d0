(** Properties C58, C59 and C70. *)
From Verif Require Import Common RunModel RunProofs.
Open Scope nat_scope.

(** * C58 Run protocol *)
(** If no time step fails, run() processes all dates once and in order with the configured threads. *)
Theorem c58_run : forall D W (step : nat -> D -> W -> W * bool) dates cfg threads w,
  let t := match cfg with Some t => t | None => threads end in
  all_ok step t dates w ->
  run step dates cfg (fresh threads w) =
    (MS (Some MRun) (match length dates with O => None | S k => Some k end)
        (match length dates with O => None | S k => nth_error dates k end) threads
        (fold_left (fun w d => fst (step t d w)) dates w), None).
Proof.
  intros D W step dates cfg threads w t OK. unfold run, fresh. cbn.
  destruct (repeat_ok step dates cfg (length dates) (MS (Some MRun) None None threads w)) as (m & d & E & M & Dt).
  - cbn. lia.
  - cbn. rewrite firstn_all. apply OK.
  - rewrite E, M, Dt. cbn. rewrite firstn_all. destruct (length dates); auto.
Qed.
Print Assumptions c58_run.
(** run() does the same as one run_single() per date, also when a step fails. *)
Theorem c58_run_equals_singles : forall D W (step : nat -> D -> W -> W * bool) dates cfg threads w,
  let (s1, e1) := run step dates cfg (fresh threads w) in
  let (s2, e2) := repeat_single step dates cfg (length dates) (fresh threads w) in
  e1 = e2 /\ s_idx s1 = s_idx s2 /\ s_date s1 = s_date s2 /\ s_threads s1 = s_threads s2 /\ s_world s1 = s_world s2.
Proof.
  intros D W step dates cfg threads w. unfold run, fresh. cbn.
  assert (G : forall n s1 s2, s_method s1 <> None ->
    s_idx s1 = s_idx s2 -> s_date s1 = s_date s2 -> s_threads s1 = s_threads s2 -> s_world s1 = s_world s2 ->
    let (r1, e1) := repeat_single step dates cfg n s1 in let (r2, e2) := repeat_single step dates cfg n s2 in
    e1 = e2 /\ s_idx r1 = s_idx r2 /\ s_date r1 = s_date r2 /\ s_threads r1 = s_threads r2 /\ s_world r1 = s_world r2).
  { induction n as [|n IH]; intros s1 s2 M I Dt T Wd; cbn; [tauto|].
    unfold run_single, finished. rewrite <- I, <- Dt, <- T, <- Wd.
    change (match s_idx s1 with Some i => S i =? length dates | None => false end) with (finished dates s1).
    destruct (finished dates s1); [cbn; tauto|].
    destruct (nth_error dates _) as [d|]; [|cbn; tauto].
    destruct (step _ d _) as [w' []]; [|cbn; tauto].
    apply IH; cbn; auto. destruct (s_method s1); congruence. }
  apply G; cbn; auto. discriminate.
Qed.
Print Assumptions c58_run_equals_singles.
(** After any call sequence in which run() or run_single() was called, run() raises and changes nothing. *)
Theorem c58_run_once : forall D W (step : nat -> D -> W -> W * bool) dates cfg threads w calls,
  let s := history step dates cfg (fresh threads w) calls in
  calls <> [] -> run step dates cfg s = (s, Some RuntimeErr).
Proof.
  intros D W step dates cfg threads w calls s NE.
  assert (K : forall s n, s_method s <> None -> s_method (fst (repeat_single step dates cfg n s)) = s_method s).
  { clear. intros s n; revert s. induction n as [|n IH]; intros s H; [auto|]. cbn. unfold run_single.
    destruct (finished dates s); [destruct (s_method s); [auto|congruence]|].
    destruct (nth_error dates _) as [d|]; [|destruct (s_method s); [auto|congruence]].
    destruct (step _ d _) as [w []]; [|destruct (s_method s); [auto|congruence]].
    rewrite IH; cbn; destruct (s_method s); congruence. }
  assert (S1 : forall s, s_method (fst (run_single step dates cfg s)) <> None).
  { intros s0. unfold run_single.
    destruct (finished dates s0); [destruct (s_method s0); discriminate|].
    destruct (nth_error dates _) as [d|]; [|destruct (s_method s0); discriminate].
    destruct (step _ d _) as [w0 []]; destruct (s_method s0); discriminate. }
  assert (R1 : forall s, s_method (fst (run step dates cfg s)) <> None).
  { intros s0. unfold run. destruct (s_method s0) eqn:E; [cbn; congruence|]. rewrite K; cbn; discriminate. }
  assert (M : s_method s <> None).
  { unfold s. destruct (exists_last NE) as (cs & c & ->). unfold history. rewrite fold_left_app. cbn.
    destruct c; [apply R1|apply S1]. }
  unfold run. destruct (s_method s); congruence.
Qed.
Print Assumptions c58_run_once.
(** run_single() after the last date raises; date counter, date and model state stay the same. *)
Theorem c58_single_after_last : forall D W (step : nat -> D -> W -> W * bool) dates cfg s i,
  s_idx s = Some i -> S i = length dates ->
  let (s', e) := run_single step dates cfg s in
  e = Some RuntimeErr /\ s_idx s' = s_idx s /\ s_date s' = s_date s /\ s_world s' = s_world s.
Proof.
  intros D W step dates cfg s i I L. unfold run_single, finished. rewrite I, L, Nat.eqb_refl. cbn. auto.
Qed.
Print Assumptions c58_single_after_last.
(** Whatever is called in whichever order, and whichever steps fail: the time steps attempted so far are
    the first dates, each once and in order. The world here records every attempted step. *)
Theorem c58_each_date_once : forall D W (step : nat -> D -> W -> W * bool) dates cfg threads w calls,
  let step' t d (w : list D * W) := let (v, ok) := step t d (snd w) in ((fst w ++ [d], v), ok) in
  let s := history step' dates cfg (fresh threads ([], w)) calls in
  dates <> [] ->
  exists k, fst (s_world s) = firstn k dates /\ k <= length dates /\
    s_idx s = match k with O => None | S j => Some j end.
Proof.
  intros D W step dates cfg threads w calls step' s NE.
  set (inv := fun s : mstate D (list D * W) => exists k, fst (s_world s) = firstn k dates /\ k <= length dates /\
    s_idx s = match k with O => None | S j => Some j end).
  assert (S1 : forall s, inv s -> inv (fst (run_single step' dates cfg s))).
  { intros s0 (k & E & L & I). unfold run_single, finished. rewrite I.
    destruct k as [|k].
    - destruct (nth_error dates 0) as [d|] eqn:N; [|apply nth_error_None in N; destruct dates; [congruence|cbn in N; lia]].
      unfold step' at 1. destruct (step _ d _) as [v ok]. destruct dates as [|d0 l]; [congruence|]. cbn in N. injection N as ->.
      destruct ok; exists 1; cbn; rewrite E; cbn; repeat split; lia.
    - destruct (S k =? length dates) eqn:Q; [exists (S k); auto|]. apply Nat.eqb_neq in Q.
      destruct (nth_error dates (S k)) as [d|] eqn:N; [|apply nth_error_None in N; lia].
      unfold step' at 1. destruct (step _ d _) as [v ok].
      assert (F : firstn (S k) dates ++ [d] = firstn (S (S k)) dates).
      { clear - N. revert dates N. generalize (S k) as n. induction n as [|n IH]; intros [|x l] N; cbn in *; try discriminate.
        - congruence.
        - f_equal. apply IH; auto. }
      destruct ok; exists (S (S k)); cbn [fst s_world s_idx]; rewrite E, F; repeat split; lia. }
  assert (RP : forall n s, inv s -> inv (fst (repeat_single step' dates cfg n s))).
  { induction n as [|n IH]; intros s0 I0; [auto|]. cbn. pose proof (S1 s0 I0) as I1.
    destruct (run_single step' dates cfg s0) as [s' [e|]]; auto. }
  assert (H : forall cs s, inv s -> inv (history step' dates cfg s cs)).
  { induction cs as [|c cs IH]; intros s0 I0; [auto|]. cbn. apply IH. destruct c; cbn.
    - unfold run. destruct (s_method s0); auto.
    - auto. }
  apply H. exists 0. cbn. repeat split. lia.
Qed.
Print Assumptions c58_each_date_once.
Definition demo_step (t : nat) (d : nat) (w : list (nat * nat)) : list (nat * nat) * bool :=
  (w ++ [(d, t)], negb (d =? 30)).
Example c58_example :
  s_world (fst (run demo_step [10; 20; 40] (Some 2) (fresh 8 []))) = [(10, 2); (20, 2); (40, 2)] /\
  s_threads (fst (run demo_step [10; 20; 40] (Some 2) (fresh 8 []))) = 8 /\
  snd (run demo_step [10; 30; 40] (Some 2) (fresh 8 [])) = Some StepErr.
Proof. repeat split; reflexivity. Qed.

(** * C59 Thread count *)
(** After successful calls the thread count is that before the call. *)
Theorem c59_restored : forall D W (step : nat -> D -> W -> W * bool) dates cfg s s',
  (run_single step dates cfg s = (s', None) -> s_threads s' = s_threads s) /\
  (run step dates cfg s = (s', None) -> s_threads s' = s_threads s).
Proof.
  intros D W step dates cfg s s'. split; [apply run_single_threads_ok|].
  unfold run. destruct (s_method s); [discriminate|]. intros H.
  apply repeat_threads_ok in H. auto.
Qed.
Print Assumptions c59_restored.
(** A call that raises leaves the configured thread count in force. *)
Theorem c59_always_restored_refuted :
  (exists (step : nat -> nat -> unit -> unit * bool) dates cfg s,
     snd (run_single step dates cfg s) = Some RuntimeErr /\
     s_threads (fst (run_single step dates cfg s)) <> s_threads s) /\
  (exists (step : nat -> nat -> unit -> unit * bool) dates cfg s,
     snd (run_single step dates cfg s) = Some StepErr /\
     s_threads (fst (run_single step dates cfg s)) <> s_threads s).
Proof.
  split.
  - exists (fun _ _ w => (w, true)), [0], (Some 2), (MS (Some MSingle) (Some 0) (Some 0) 8 tt).
    split; [reflexivity|cbn; lia].
  - exists (fun _ _ w => (w, false)), [0], (Some 2), (fresh 8 tt). split; [reflexivity|cbn; lia].
Qed.
Print Assumptions c59_always_restored_refuted.
(** Exactly: after a raising call it is the configured count (if any). *)
Theorem c59_after_error : forall D W (step : nat -> D -> W -> W * bool) dates cfg s s' e,
  run_single step dates cfg s = (s', Some e) ->
  s_threads s' = match cfg with Some t => t | None => s_threads s end.
Proof.
  intros D W step dates cfg s s' e. unfold run_single.
  destruct (finished dates s); [intro H; injection H as <- _; auto|].
  destruct (nth_error dates _) as [d|]; [|intro H; injection H as <- _; auto].
  destruct (step _ d _) as [w []]; [discriminate|]. intro H; injection H as <- _; auto.
Qed.
Print Assumptions c59_after_error.
(** The step itself runs with the configured number of threads. *)
Theorem c59_during_step : forall D dates cfg (s : mstate D (list nat)) s',
  run_single (fun t d w => (w ++ [t], true)) dates cfg s = (s', None) ->
  s_world s' = s_world s ++ [match cfg with Some t => t | None => s_threads s end].
Proof.
  intros D dates cfg s s'. unfold run_single. destruct (finished dates s); [discriminate|].
  destruct (nth_error dates _); [|discriminate]. intro H; injection H as <-. auto.
Qed.
Print Assumptions c59_during_step.
(** The resolved count is at least 1, at most the available one and at most the requested one. *)
Theorem c59_resolved : forall c env rows cols available,
  (resolve_threads c env rows cols available = None <-> c = TDefault \/ (c = TAuto /\ env = true)) /\
  (forall n, resolve_threads (TInt n) env rows cols available = Some (min n available)) /\
  (env = false -> exists t, resolve_threads TAuto env rows cols available = Some (min t available) /\
     (rows * cols < 100 -> t = 1) /\ (100 <= rows * cols < 100 * 100 -> t = 2) /\ (100 * 100 <= rows * cols -> t = 4)) /\
  (forall t, resolve_threads c env rows cols available = Some t -> t <= available /\
     (1 <= available -> (forall n, c = TInt n -> 1 <= n) -> 1 <= t)).
Proof.
  intros c env rows cols available. split; [|split; [|split]].
  - destruct c; cbn; [split; auto|destruct env|].
    + split; auto.
    + split; [discriminate|]. intros [H|[_ H]]; discriminate.
    + split; [discriminate|]. intros [H|[H _]]; discriminate.
  - reflexivity.
  - intros ->. unfold resolve_threads. cbv zeta. eexists. split; [reflexivity|].
    destruct (Nat.ltb_spec (rows * cols) 100), (Nat.ltb_spec (rows * cols) (100 * 100)); lia.
  - intros t H. unfold resolve_threads in H. cbv zeta in H. destruct c; try discriminate.
    + destruct env; [discriminate|].
      destruct (Nat.ltb_spec (rows * cols) 100), (Nat.ltb_spec (rows * cols) (100 * 100));
        match type of H with Some ?x = Some _ => assert (E : t = x) by congruence end; clear H; lia.
    + injection H as <-. split; [lia|]. intros A N. specialize (N n eq_refl). lia.
Qed.
Print Assumptions c59_resolved.
Example c59_example : resolve_threads TAuto false 50 60 8 = Some 2 /\ resolve_threads (TInt 16) true 5 5 8 = Some 8.
Proof. split; reflexivity. Qed.

(** * C70 Logging *)
(** One configuration: host handlers are kept; there is a default handler (exactly one) exactly if the
    host has none and default logging is enabled; the level is only touched without host handlers. *)
Theorem c70_configure : forall enable lvl l,
  let l' := configure_logger enable lvl l in
  let host := exists h, In (HHost h) (handlers l) in
  filter (fun h => negb (is_default h)) (handlers l') = filter (fun h => negb (is_default h)) (handlers l) /\
  (host -> ~ In HDefault (handlers l') /\ level l' = level l) /\
  (~ host -> enable = true -> length (filter is_default (handlers l')) = 1 /\ level l' = lvl) /\
  (~ host -> enable = false -> ~ In HDefault (handlers l') /\ level l' = NOTSET).
Proof.
  intros enable lvl l l' host.
  set (hs := filter (fun h => negb (is_default h)) (handlers l)).
  assert (ND : ~ In HDefault hs). { unfold hs. rewrite filter_In. intros [_ H]. discriminate. }
  assert (FF : filter (fun h => negb (is_default h)) hs = hs).
  { unfold hs. generalize (handlers l). clear. induction l as [|h l IH]; [auto|]. cbn.
    destruct (negb (is_default h)) eqn:E; auto. cbn. rewrite E, IH. auto. }
  assert (F0 : filter is_default hs = []).
  { unfold hs. generalize (handlers l). clear. induction l as [|h l IH]; [auto|]. cbn.
    destruct h; cbn; auto. }
  assert (HH : host <-> filter (fun h => negb (is_null h)) hs <> []).
  { unfold host. split.
    - intros (h & I) E. assert (J : In (HHost h) (filter (fun h => negb (is_null h)) hs)).
      { apply filter_In. split; auto. unfold hs. apply filter_In. auto. }
      rewrite E in J. destruct J.
    - intros NE. destruct (filter (fun h => negb (is_null h)) hs) as [|h t] eqn:E; [congruence|].
      assert (J : In h (filter (fun h => negb (is_null h)) hs)) by (rewrite E; left; auto).
      apply filter_In in J. destruct J as [J1 J2]. unfold hs in J1. apply filter_In in J1. destruct J1 as [J0 J1].
      destruct h; try discriminate. eauto. }
  unfold l', configure_logger. fold hs. destruct (filter (fun h => negb (is_null h)) hs) as [|h t] eqn:E; cbn [negb].
  - assert (NH : ~ host) by (intro X; apply HH in X; congruence). destruct enable; cbn [handlers level].
    + rewrite filter_app, FF. cbn. rewrite app_nil_r. split; [auto|]. split; [tauto|]. split; [|discriminate].
      intros _ _. rewrite filter_app, F0. auto.
    + split; [auto|]. split; [tauto|]. split; [discriminate|]. auto.
  - assert (NH : host) by (apply HH; discriminate). cbn. split; [auto|]. split; [auto|]. split; intros X; tauto.
Qed.
Print Assumptions c70_configure.
(** After any sequence of configurations by any models in any process states, interleaved with the host
    adding or removing its own handlers, there is at most one default handler. *)
Inductive log_op := LConfigure (enable : bool) (lvl : nat) | LEnsure (enable : bool) (lvl pid : nat) (configured : option nat)
| LHostAdd (id : nat) | LHostRemove (id : nat).
Definition is_host (i : nat) (h : handler) : bool := match h with HHost j => i =? j | _ => false end.
Definition do_log (l : logger) (o : log_op) : logger :=
  match o with
  | LConfigure e v => configure_logger e v l
  | LEnsure e v p c => snd (ensure_logger e v p (c, l))
  | LHostAdd i => LG (handlers l ++ [HHost i]) (level l)
  | LHostRemove i => LG (filter (fun h => negb (is_host i h)) (handlers l)) (level l)
  end.
Theorem c70_at_most_one : forall l ops, ~ In HDefault (handlers l) ->
  length (filter is_default (handlers (fold_left do_log ops l))) <= 1.
Proof.
  intros l ops ND.
  assert (C : forall e v l, length (filter is_default (handlers (configure_logger e v l))) <= 1).
  { clear. intros e v l. unfold configure_logger.
    assert (F0 : filter is_default (filter (fun h => negb (is_default h)) (handlers l)) = []).
    { generalize (handlers l). clear. induction l as [|h l IH]; [auto|]. cbn. destruct h; cbn; auto. }
    destruct (negb _); cbn [handlers]; [rewrite F0; cbn; lia|]. destruct e; cbn [handlers].
    - rewrite filter_app, F0. cbn. lia.
    - rewrite F0. cbn. lia. }
  assert (G : forall ops l, length (filter is_default (handlers l)) <= 1 ->
    length (filter is_default (handlers (fold_left do_log ops l))) <= 1).
  { induction ops0 as [|o ops0 IH]; intros l0 H; [auto|]. cbn. apply IH. destruct o; cbn [do_log].
    - apply C.
    - unfold ensure_logger. destruct configured as [p|]; [destruct (p =? pid)|]; cbn [snd]; auto.
    - cbn [handlers]. rewrite filter_app. cbn. rewrite app_nil_r. auto.
    - cbn [handlers]. eapply Nat.le_trans; [|apply H]. generalize (handlers l0). clear.
      induction l as [|h l IH]; [auto|]. cbn. destruct (negb (is_host id h)); destruct h; cbn; lia. }
  apply G. assert (E : filter is_default (handlers l) = []); [|rewrite E; cbn; lia].
  revert ND. generalize (handlers l). clear. induction l as [|h l IH]; [auto|]. intros N. cbn.
  destruct h; cbn; [exfalso; apply N; left; auto| |]; apply IH; intro; apply N; right; auto.
Qed.
Print Assumptions c70_at_most_one.
(** In a process in which the model is already configured, nothing changes; in another one, it is
    configured for that process. *)
Theorem c70_ensure : forall e v pid l,
  ensure_logger e v pid (Some pid, l) = (Some pid, l) /\
  (forall c, c <> Some pid -> ensure_logger e v pid (c, l) = (Some pid, configure_logger e v l)).
Proof.
  intros e v pid l. unfold ensure_logger. rewrite Nat.eqb_refl. split; [auto|]. intros c H.
  destruct c as [p|]; auto. destruct (p =? pid) eqn:E; auto. apply Nat.eqb_eq in E. congruence.
Qed.
Print Assumptions c70_ensure.
Theorem c70_idempotent : forall e v l,
  configure_logger e v (configure_logger e v l) = configure_logger e v l.
Proof.
  intros e v l. unfold configure_logger. set (hs := filter (fun h => negb (is_default h)) (handlers l)).
  assert (FF : filter (fun h => negb (is_default h)) hs = hs).
  { unfold hs. generalize (handlers l). clear. induction l as [|h l IH]; [auto|]. cbn.
    destruct (negb (is_default h)) eqn:E; auto. cbn. rewrite E, IH. auto. }
  destruct (filter (fun h => negb (is_null h)) hs) as [|h t] eqn:E; cbn [negb].
  - destruct e; cbn [handlers level]; [rewrite filter_app, FF; cbn [filter is_default negb app]; rewrite app_nil_r|rewrite FF]; rewrite E; auto.
  - cbn [handlers level]. rewrite FF, E. auto.
Qed.
Print Assumptions c70_idempotent.
Example c70_example :
  handlers (configure_logger true 20 (LG [HNull; HDefault; HDefault] 0)) = [HNull; HDefault] /\
  handlers (configure_logger true 20 (LG [HHost 7; HDefault] 30)) = [HHost 7] /\
  level (configure_logger true 20 (LG [HHost 7; HDefault] 30)) = 30.
Proof. repeat split; reflexivity. Qed.
