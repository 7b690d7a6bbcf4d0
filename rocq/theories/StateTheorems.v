(** Properties C55, C56: statevars.py. *)
From Coq Require Import Permutation Sorted.
From Verif Require Import Common StateModel StateProofs.
Open Scope string_scope.

(** * C55 Resetting *)
(** Whatever happens during a reset (also when it raises), retained variables keep their values. *)
Theorem c55_retained_unchanged : forall m c v e,
  var_at m c v = Some e -> v_retain (e_def e) = true -> var_at (fst (reset m)) c v = Some e.
Proof.
  intros m c v e H R. unfold reset.
  destruct (each_cat_get reset_var (m_cats m) (m_attrs m) c v e H) as (e' & L & I).
  destruct (each_cat _ _ _) as [a r]. cbn in *. change (var_at _ c v) with (look a c v). rewrite L. f_equal.
  clear - R I. induction I as [|e e' I IH]; auto. rewrite IH by auto. unfold reset_var. rewrite R. auto.
Qed.
Print Assumptions c55_retained_unchanged.
(** After a successful reset all other variables hold the no-data value of their type everywhere, with
    unchanged size and definition. *)
Definition no_data (d : dtype) : cell :=
  match d with TFloat => CFloat None | TInt => CInt 0 | TBool => CBool false | TOther => CBool false end.
Theorem c55_others_blank : forall m m' c v e, wf m -> reset m = (m', None) ->
  var_at m c v = Some e -> v_retain (e_def e) = false ->
  exists old new, e_arr e = Some old /\ var_at m' c v = Some (EN (e_def e) (Some new)) /\
    List.length new = List.length old /\ Forall (fun x => x = no_data (v_dtype (e_def e))) new.
Proof.
  intros m m' c v e W H L R. unfold reset in H. destruct (each_cat reset_var _ _) as [a r] eqn:E.
  injection H as <- ->. destruct (each_cat_ok _ _ _ _ (wf_nodup _ W) E) as [A _].
  assert (IC : In c (m_cats m)).
  { apply (wf_cats _ W). unfold var_at in L. destruct (dget (m_attrs m) c); [eauto|discriminate]. }
  destruct (A c IC) as [(k & K & F) LK]. unfold var_at in L. rewrite K in L.
  specialize (LK v). unfold look at 2 in LK. rewrite K, L in LK. cbn in LK.
  rewrite Forall_forall in F. pose proof (F (v, e) (dget_In _ _ _ L)) as OK. cbn in OK.
  unfold reset_var in *. rewrite R in *. destruct (e_arr e) as [old|]; [|discriminate].
  destruct (init_of_array (v_dtype (e_def e))) as [x|] eqn:IX; [|discriminate].
  exists old, (repeat x (List.length old)). split; [auto|]. split; [exact LK|]. split; [apply repeat_length|].
  apply Forall_forall. intros y Y. apply repeat_spec in Y. subst.
  destruct (v_dtype (e_def e)); cbn in *; congruence.
Qed.
Print Assumptions c55_others_blank.
(** A reset succeeds exactly if all variables to be blanked exist and are of float or int type. *)
Theorem c55_reset_succeeds_iff : forall m, wf m ->
  (snd (reset m) = None <->
   forall c v e, var_at m c v = Some e -> v_retain (e_def e) = false ->
     e_arr e <> None /\ (v_dtype (e_def e) = TFloat \/ v_dtype (e_def e) = TInt)).
Proof.
  intros m W. split.
  - intros H c v e L R. destruct (reset m) as [m' r] eqn:E. cbn in H. subst.
    unfold reset in E. destruct (each_cat reset_var _ _) as [a r] eqn:EC. injection E as <- ->.
    destruct (each_cat_ok _ _ _ _ (wf_nodup _ W) EC) as [A _].
    assert (IC : In c (m_cats m)).
    { apply (wf_cats _ W). unfold var_at in L. destruct (dget (m_attrs m) c); [eauto|discriminate]. }
    destruct (A c IC) as [(k & K & F) _]. unfold var_at in L. rewrite K in L.
    rewrite Forall_forall in F. pose proof (F (v, e) (dget_In _ _ _ L)) as OK. cbn in OK.
    unfold reset_var in OK. rewrite R in OK. destruct (e_arr e); [|discriminate].
    destruct (v_dtype (e_def e)); cbn in OK; try discriminate; split; auto; discriminate.
  - intros H. unfold reset. pose proof (each_cat_all reset_var (m_cats m) (m_attrs m) (wf_nodup _ W)) as A.
    destruct (each_cat reset_var _ _) as [a r]. cbn in *. apply A. intros c I.
    apply (wf_cats _ W) in I. destruct I as (k & K). exists k. split; auto.
    apply Forall_forall. intros [v e] IE. cbn.
    pose proof (In_dget _ _ _ (wf_vars _ W _ _ K) IE) as G.
    unfold reset_var. destruct (v_retain (e_def e)) eqn:R; auto.
    destruct (H c v e) as [A1 A2]; [unfold var_at; rewrite K; auto|auto|].
    destruct (e_arr e); [|congruence]. destruct A2 as [-> | ->]; auto.
Qed.
Print Assumptions c55_reset_succeeds_iff.
(** Boolean variables can be created but not reset: the reset raises. *)
Theorem c55_reset_never_fails_refuted : exists ops c v e,
  let m := run_ops (new_manager 2 3) ops in
  snd (initialize m) = None /\ var_at (fst (initialize m)) c v = Some e /\ e_arr e <> None /\
  snd (reset (fst (initialize m))) = Some KeyError.
Proof.
  exists [OpCategory "snow"; OpVariable "snow" "covered" (VD TBool 0 false "Snow covered")],
    "snow", "covered", (EN (VD TBool 0 false "Snow covered") (Some (repeat (CBool false) 6))).
  cbv zeta. split; [reflexivity|]. split; [reflexivity|]. split; [discriminate|reflexivity].
Qed.
Print Assumptions c55_reset_never_fails_refuted.
(** glaciers.glacier (glaciermodel.py:31) is read once at the start and needed in every later step,
    but is registered without [retain]: after a reset all glacier ids are 0. *)
Theorem c55_needed_values_kept_refuted : exists m ids, wf m /\
  var_at m "glaciers" "glacier" = Some (EN (VD TInt 0 false "Glacier ID") (Some ids)) /\
  Exists (fun x => x <> CInt 0) ids /\ snd (reset m) = None /\
  var_at (fst (reset m)) "glaciers" "glacier" =
    Some (EN (VD TInt 0 false "Glacier ID") (Some (repeat (CInt 0) (List.length ids)))).
Proof.
  exists (run_ops (new_manager 1 3) [OpCategory "glaciers"; OpVariable "glaciers" "glacier" (VD TInt 0 false "Glacier ID");
    OpInit; OpWrite "glaciers" "glacier" [CInt 0; CInt 7; CInt 7]]), [CInt 0; CInt 7; CInt 7].
  split.
  - unfold run_ops. cbn [fold_left]. repeat (apply wf_op; [intros ? X; inversion X; discriminate|]). apply wf_new.
  - split; [reflexivity|]. split; [right; left; discriminate|]. split; reflexivity.
Qed.
Print Assumptions c55_needed_values_kept_refuted.
(** Initialisation creates every variable with the shape of the grid (times its third dimension),
    filled with no-data, whenever its type is known. *)
Theorem c55_initialize : forall m m' c v e, wf m -> initialize m = (m', None) -> var_at m c v = Some e ->
  var_at m' c v = Some (EN (e_def e) (Some (repeat (no_data (v_dtype (e_def e)))
    (Nat.max 1 (v_dim3 (e_def e)) * (m_rows m * m_cols m))))).
Proof.
  intros m m' c v e W H L. unfold initialize in H. destruct (each_cat _ _ _) as [a r] eqn:E.
  injection H as <- ->. destruct (each_cat_ok _ _ _ _ (wf_nodup _ W) E) as [A _].
  assert (IC : In c (m_cats m)).
  { apply (wf_cats _ W). unfold var_at in L. destruct (dget (m_attrs m) c); [eauto|discriminate]. }
  destruct (A c IC) as [(k & K & F) LK]. unfold var_at in L. rewrite K in L.
  specialize (LK v). unfold look at 2 in LK. rewrite K, L in LK. cbn in LK.
  rewrite Forall_forall in F. pose proof (F (v, e) (dget_In _ _ _ L)) as OK. cbn in OK.
  unfold init_var in *. destruct (init_of_type (v_dtype (e_def e))) as [x|] eqn:IX; [|discriminate].
  change (var_at _ c v) with (look a c v). rewrite LK. cbn [fst].
  assert (X : x = no_data (v_dtype (e_def e))) by (destruct (v_dtype (e_def e)); cbn in *; congruence).
  rewrite <- X. do 4 f_equal. destruct (v_dim3 (e_def e)) as [|n]; cbn; [lia|auto].
Qed.
Print Assumptions c55_initialize.
Theorem c55_reachable_wf : forall r c ops, ~ In (OpCategory "categories") ops ->
  wf (run_ops (new_manager r c) ops).
Proof.
  intros r c ops H. unfold run_ops. assert (W : wf (new_manager r c)) by apply wf_new.
  revert W; generalize (new_manager r c) as m. induction ops as [|o ops IH]; intros m W; cbn; auto.
  apply IH; [intro; apply H; right; auto|]. apply wf_op; auto. intros c' -> ->. apply H. left; auto.
Qed.
Print Assumptions c55_reachable_wf.
Example c55_example : exists m, wf m /\ snd (reset m) = None /\
  var_at m "meteo" "temp" = Some (EN (VD TFloat 0 false "K") (Some [CFloat (Some 270%R)])) /\
  var_at m "snow" "swe" = Some (EN (VD TFloat 0 true "kg m-2") (Some [CFloat (Some 10%R)])) /\
  var_at (fst (reset m)) "meteo" "temp" = Some (EN (VD TFloat 0 false "K") (Some [CFloat None])) /\
  var_at (fst (reset m)) "snow" "swe" = Some (EN (VD TFloat 0 true "kg m-2") (Some [CFloat (Some 10%R)])).
Proof.
  exists (run_ops (new_manager 1 1) [OpCategory "snow"; OpCategory "meteo";
    OpVariable "meteo" "temp" (VD TFloat 0 false "K"); OpVariable "snow" "swe" (VD TFloat 0 true "kg m-2");
    OpInit; OpWrite "meteo" "temp" [CFloat (Some 270%R)]; OpWrite "snow" "swe" [CFloat (Some 10%R)]]).
  split; [|repeat split; reflexivity]. apply c55_reachable_wf.
  cbn. intros X. repeat destruct X as [X|X]; try discriminate X; destruct X.
Qed.

(** * C56 Addressing *)
Theorem c56_parse_variable : forall s c v,
  parse s = inr (c, Some v) <-> s = c ++ "." ++ v /\ no_dot c /\ no_dot v.
Proof.
  intros s c v. unfold parse. split.
  - pose proof (split_join s) as J. pose proof (split_no_dot s) as N.
    destruct (split_dot s) as [|a [|b [|d t]]]; try discriminate. intro H; injection H as -> ->.
    inversion N; subst. inversion H2; subst. cbn. auto.
  - intros (-> & A & B). rewrite (split_app _ _ A), (split_single _ B). auto.
Qed.
Print Assumptions c56_parse_variable.
Theorem c56_parse_category : forall s c, parse s = inr (c, None) <-> s = c /\ no_dot s.
Proof.
  intros s c. unfold parse. split.
  - pose proof (split_join s) as J. pose proof (split_no_dot s) as N.
    destruct (split_dot s) as [|a [|b [|d t]]]; try discriminate. intro H; injection H as ->.
    cbn in J. subst. inversion N; subst. auto.
  - intros (-> & A). rewrite (split_single _ A). auto.
Qed.
Print Assumptions c56_parse_category.
(** Everything else (two or more dots) is rejected. *)
Theorem c56_parse_rejects : forall s e, parse s = inl e <->
  (e = ValueError /\ exists a b c, s = a ++ "." ++ b ++ "." ++ c /\ no_dot a /\ no_dot b).
Proof.
  intros s e. unfold parse. pose proof (split_join s) as J. pose proof (split_no_dot s) as N. split.
  - pose proof (split_ne s) as NE.
    destruct (split_dot s) as [|a [|b [|d t]]]; try discriminate; [congruence|].
    intro H; injection H as <-. split; auto. inversion N; subst. inversion H2; subst.
    exists a, b, (join_dot (d :: t)). cbn. auto.
  - intros (-> & a & b & c & -> & A & B). rewrite (split_app _ _ A).
    rewrite (split_app _ _ B). pose proof (split_ne c). destruct (split_dot c); [congruence|]. auto.
Qed.
Print Assumptions c56_parse_rejects.
(** Accessing a parsed name gives the variable of that category. *)
Theorem c56_getitem : forall m c v a, no_dot c -> no_dot v ->
  (getitem m (c ++ "." ++ v) = inr (inr a) <-> exists d, var_at m c v = Some (EN d (Some a))) /\
  (forall d, meta m (c ++ "." ++ v) = inr d <-> exists o, var_at m c v = Some (EN d o)).
Proof.
  intros m c v a C V. assert (P : parse (c ++ "." ++ v) = inr (c, Some v)) by (apply c56_parse_variable; auto).
  unfold getitem, meta, var_at. rewrite P. split; [split|intros d; split];
    (destruct (dget (m_attrs m) c) as [k|]; [|try (intros H; discriminate H); intros (x & H); discriminate H]).
  - destruct (dget k v) as [[d [x|]]|]; try (intros H; discriminate H). intro H; injection H as ->. eauto.
  - intros (d & ->). auto.
  - destruct (dget k v) as [[d' o]|]; try (intros H; discriminate H). cbn. intro H; injection H as ->. eauto.
  - intros (o & ->). auto.
Qed.
Print Assumptions c56_getitem.
(** Adding a category: duplicates and invalid identifiers are rejected without any change; otherwise
    an empty category is added and all other categories are unaffected. *)
Theorem c56_add_category : forall m c m' r, wf m -> c <> "categories" -> add_category m c = (m', r) ->
  (r = Some CategoryError /\ m' = m /\ (In c (m_cats m) \/ is_identifier c = false)) \/
  (r = None /\ ~ In c (m_cats m) /\ is_identifier c = true /\ wf m' /\
   Permutation (m_cats m') (c :: m_cats m) /\ Sorted sle (m_cats m') /\
   dget (m_attrs m') c = Some [] /\ (forall c', c' <> c -> dget (m_attrs m') c' = dget (m_attrs m) c')).
Proof.
  intros m c m' r W NC H. pose proof (wf_op m (OpCategory c) ltac:(intros ? X; injection X as <-; auto) W) as W'.
  cbn in W'. rewrite H in W'. cbn in W'. unfold add_category in H.
  destruct (existsb (String.eqb c) (m_cats m)) eqn:E.
  { injection H as <- <-. left. apply existsb_In in E. auto. }
  destruct (is_identifier c) eqn:I; cbn in H; [|injection H as <- <-; left; auto].
  destruct (c =? "categories") eqn:Q; [apply String.eqb_eq in Q; congruence|].
  injection H as <- <-. right. split; [auto|]. split; [intro X; apply existsb_In in X; congruence|].
  split; [auto|]. split; [auto|]. cbn. split; [rewrite sort_perm; symmetry; apply Permutation_cons_append|].
  split; [apply sort_sorted|]. split; [apply dget_dset_same|]. intros c' N. apply dget_dset_other; auto.
Qed.
Print Assumptions c56_add_category.
(** One name breaks this: "categories" is a read-only property of the manager. The call raises an
    AttributeError, but the name stays registered and initialisation is impossible afterwards. *)
Theorem c56_rejected_unchanged_refuted : exists m c r, wf m /\ snd (add_category m c) = Some r /\
  fst (add_category m c) <> m /\ In c (m_cats (fst (add_category m c))) /\
  snd (initialize (fst (add_category m c))) = Some AttributeError.
Proof.
  exists (new_manager 1 1), "categories", AttributeError. split; [apply wf_new|].
  split; [reflexivity|]. split; [discriminate|]. split; [left; auto|reflexivity].
Qed.
Print Assumptions c56_rejected_unchanged_refuted.
(** Adding variables: the new definition is found under its name, all others are untouched. *)
Theorem c56_add_variable : forall k n d n',
  option_map e_def (dget (add_variable k n d) n') = if n =? n' then Some d else option_map e_def (dget k n').
Proof.
  intros k n d n'. unfold add_variable. rewrite dget_dset. destruct (n =? n'); auto.
Qed.
Print Assumptions c56_add_variable.
Example c56_example : parse "meteo.temp" = inr ("meteo", Some "temp") /\ parse "meteo" = inr ("meteo", None) /\
  parse "a.b.c" = inl ValueError /\ is_identifier "meteo" = true /\ is_identifier "2m_temp" = false.
Proof. repeat split; reflexivity. Qed.
