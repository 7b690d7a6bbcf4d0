(** Lemmas about the run protocol. *)
From Verif Require Import Common RunModel.
Open Scope nat_scope.

Section Run.
Context {D W : Type}.
Variable step : nat -> D -> W -> W * bool.
Variable dates : list D.
Variable cfg : option nat.
Notation run_single := (run_single step dates cfg).
Notation run := (run step dates cfg).

(** Index of the next date *)
Definition next (s : mstate D W) : nat := match s_idx s with None => 0 | Some i => S i end.
Definition eff (s : mstate D W) : nat := match cfg with Some t => t | None => s_threads s end.

Lemma run_single_ok s d : nth_error dates (next s) = Some d -> snd (step (eff s) d (s_world s)) = true ->
  run_single s = (MS (match s_method s with None => Some MSingle | m => m end) (Some (next s)) (Some d)
                     (s_threads s) (fst (step (eff s) d (s_world s))), None).
Proof.
  unfold next, eff, RunModel.run_single. intros N K.
  assert (L : match s_idx s with None => 0 | Some i => S i end < length dates) by (apply nth_error_Some; congruence).
  assert (E : finished dates s = false).
  { unfold finished. destruct (s_idx s); auto. apply Nat.eqb_neq. lia. }
  rewrite E, N. destruct (step _ d _) as [w b]. cbn in *. subst. destruct cfg; auto.
Qed.
Lemma repeat_app n m s : repeat_single step dates cfg (n + m) s =
  match repeat_single step dates cfg n s with
  | (s', None) => repeat_single step dates cfg m s'
  | r => r
  end.
Proof.
  revert s; induction n as [|n IH]; intros s; cbn; [auto|].
  destruct (run_single s) as [s' [e|]]; auto.
Qed.
(** A world in which no step fails *)
Definition steps (t : nat) (ds : list D) (w : W) : W := fold_left (fun w d => fst (step t d w)) ds w.
Definition all_ok (t : nat) (ds : list D) (w : W) : Prop :=
  forall k d, nth_error ds k = Some d -> snd (step t d (steps t (firstn k ds) w)) = true.

Lemma repeat_ok n : forall s, next s + n <= length dates ->
  all_ok (eff s) (firstn n (skipn (next s) dates)) (s_world s) ->
  exists m' d', repeat_single step dates cfg n s =
    (MS m' (match n with O => s_idx s | S k => Some (next s + k) end) d' (s_threads s)
        (steps (eff s) (firstn n (skipn (next s) dates)) (s_world s)), None) /\
    m' = match n with O => s_method s | S _ => match s_method s with None => Some MSingle | m => m end end /\
    d' = match n with O => s_date s | S k => nth_error dates (next s + k) end.
Proof.
  induction n as [|n IH]; intros s L OK.
  - destruct s. cbn. eauto.
  - destruct (nth_error dates (next s)) as [d|] eqn:N; [|apply nth_error_None in N; lia].
    assert (SK : skipn (next s) dates = d :: skipn (S (next s)) dates).
    { clear - N. revert N. generalize dates. induction (next s) as [|k IH]; intros [|x l] N; cbn in *; try discriminate.
      - congruence.
      - apply IH; auto. }
    rewrite SK in OK |- *. cbn [firstn] in OK |- *.
    pose proof (OK 0 d eq_refl) as OK0. cbn in OK0.
    cbn [repeat_single]. rewrite (run_single_ok s d N OK0).
    set (s1 := MS _ _ _ _ _).
    assert (N1 : next s1 = S (next s)) by reflexivity.
    assert (E1 : eff s1 = eff s) by (unfold eff; auto).
    destruct (IH s1) as (m' & d' & -> & -> & ->).
    + rewrite N1. lia.
    + rewrite N1, E1. intros k d2 K. apply (OK (S k) d2). auto.
    + rewrite N1, E1. eexists _, _. split; [f_equal; f_equal|].
      * destruct n; cbn; f_equal; lia.
      * split; [destruct n; cbn; destruct (s_method s); auto|].
        destruct n; cbn [s_date s1]; [rewrite Nat.add_0_r; auto|f_equal; lia].
Qed.
Lemma run_single_threads_ok s s' : run_single s = (s', None) -> s_threads s' = s_threads s.
Proof.
  unfold RunModel.run_single. destruct (finished dates s); [discriminate|].
  destruct (nth_error dates _) as [d|]; [|discriminate].
  destruct (step _ d _) as [w []]; [|discriminate].
  intro H; injection H as <-. cbn. destruct cfg; auto.
Qed.
Lemma repeat_threads_ok n s s' : repeat_single step dates cfg n s = (s', None) -> s_threads s' = s_threads s.
Proof.
  revert s; induction n as [|n IH]; cbn; intros s H; [congruence|].
  destruct (run_single s) as [s1 [e|]] eqn:E; [discriminate|].
  rewrite (IH _ H). eapply run_single_threads_ok; eauto.
Qed.
End Run.
