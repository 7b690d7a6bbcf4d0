(** Lemmas about the output managers. *)
From Coq Require Import Sorting.Sorted.
From Verif Require Import TimeModel TimeProofs Common OutputModel.
Open Scope Z_scope.

Definition sorted := StronglySorted Z.lt.
(** * Grouping a list by a nondecreasing key *)
Section Groups.
Variable key : Z -> Z.
Definition keyed (k : Z) (g : list Z) := Forall (fun x => key x = k) g.
Fixpoint grouped (gs : list (list Z)) : Prop :=
  match gs with
  | [] => True
  | g :: gs' => g <> [] /\ (exists k, keyed k g /\ Forall (fun x => k < key x) (concat gs')) /\ grouped gs'
  end.
Lemma group_exists l : StronglySorted (fun a b => key a <= key b) l -> exists gs, concat gs = l /\ grouped gs.
Proof.
  induction l as [|x l IH]; intros S; [exists []; cbn; auto|].
  apply StronglySorted_inv in S. destruct S as [S F]. destruct (IH S) as [gs [C G]].
  destruct gs as [|g gs].
  - exists [[x]]. cbn in *. subst l. split; auto. split; [discriminate|]. split; auto.
    exists (key x). split; constructor; auto.
  - cbn in G. destruct G as [N [[k [K L]] G]]. destruct (Z.eq_dec k (key x)) as [E|E].
    + exists ((x :: g) :: gs). cbn. cbn in C. rewrite C. split; auto. split; [discriminate|]. split; auto.
      exists k. split; auto. constructor; auto.
    + exists ([x] :: g :: gs). split; [cbn; cbn in C; rewrite C; auto|]. cbn. split; [discriminate|].
      split; [|split; [|split]; eauto]. exists (key x). split; [constructor; auto; constructor|].
      destruct g as [|y g]; [congruence|]. cbn in C. subst l. inversion F; subst. inversion K; subst.
      assert (key x < key y) by lia. constructor; auto. rewrite Forall_app. split.
      * eapply Forall_impl; [|apply H4]. cbn. lia.
      * eapply Forall_impl; [|apply L]. cbn. lia.
Qed.
Lemma filter_all {A} (f : A -> bool) l : Forall (fun x => f x = true) l -> filter f l = l.
Proof. induction 1; cbn; auto. rewrite H, IHForall. auto. Qed.
Lemma filter_none {A} (f : A -> bool) l : Forall (fun x => f x = false) l -> filter f l = [].
Proof. induction 1; cbn; auto. rewrite H, IHForall. auto. Qed.
Lemma group_filter gs : grouped gs -> forall g x, In g gs -> In x g -> filter (fun y => key y =? key x) (concat gs) = g.
Proof.
  induction gs as [|h gs IH]; cbn; [tauto|]. intros [N [[k [K L]] G]] g x [E|I] X.
  - subst h. unfold keyed in K. rewrite Forall_forall in K. rewrite filter_app, filter_all, filter_none, app_nil_r; auto.
    + eapply Forall_impl; [|apply L]. cbn. intros y Hy. rewrite (K x X). apply Z.eqb_neq. lia.
    + apply Forall_forall. intros y Y. rewrite (K y Y), (K x X). apply Z.eqb_refl.
  - rewrite filter_app, (IH G g x I X). rewrite filter_none; auto.
    unfold keyed in K. eapply Forall_impl; [|apply K]. cbn. intros y Hy.
    rewrite Forall_forall in L. specialize (L x). rewrite in_concat in L. apply Z.eqb_neq.
    specialize (L ltac:(eauto)). lia.
Qed.
Lemma group_prefix gs w : grouped gs -> exists gs1 gs2, gs = gs1 ++ gs2 /\
  filter (fun y => key y <=? w) (concat gs) = concat gs1.
Proof.
  induction gs as [|h gs IH]; cbn; [exists [], []; auto|]. intros [N [[k [K L]] G]].
  unfold keyed in K. destruct (Z.leb_spec k w) as [H|H].
  - destruct (IH G) as [g1 [g2 [E F]]]. exists (h :: g1), g2. cbn. rewrite filter_app, F, filter_all, E; auto.
    eapply Forall_impl; [|apply K]. cbn. intros y Hy. apply Z.leb_le. lia.
  - exists [], (h :: gs). split; auto. cbn. rewrite filter_app, !filter_none; auto.
    + eapply Forall_impl; [|apply L]. cbn. intros y Hy. apply Z.leb_gt. lia.
    + eapply Forall_impl; [|apply K]. cbn. intros y Hy. apply Z.leb_gt. lia.
Qed.
End Groups.

(** * Sorted lists of write dates *)
Lemma sorted_filter f l : sorted l -> sorted (filter f l).
Proof.
  induction 1; cbn; [constructor|]. destruct (f a); auto. constructor; auto.
  rewrite Forall_forall in *. intros x Hx. apply filter_In in Hx. apply H0. tauto.
Qed.
Lemma sorted_app l1 l2 : sorted (l1 ++ l2) -> sorted l1 /\ sorted l2 /\ (forall a b, In a l1 -> In b l2 -> a < b).
Proof.
  induction l1; cbn; intros H; [repeat split; auto; [constructor|tauto]|].
  apply StronglySorted_inv in H. destruct H as [S F]. destruct (IHl1 S) as [A [B C]].
  rewrite Forall_app, !Forall_forall in F. destruct F as [F1 F2].
  split; [constructor; auto; apply Forall_forall; auto|]. split; auto. intros x y [->|Hx] Hy; auto.
Qed.
Definition next_write (wd : list Z) (d : Z) : Z := hd 0 (filter (fun w => d <=? w) wd).
Lemma next_write_spec wd d : sorted wd -> (exists w, In w wd /\ d <= w) ->
  In (next_write wd d) wd /\ d <= next_write wd d /\ (forall w, In w wd -> d <= w -> next_write wd d <= w).
Proof.
  intros S [w [I L]]. unfold next_write.
  assert (W : In w (filter (fun w => d <=? w) wd)) by (apply filter_In; split; auto; apply Z.leb_le; lia).
  pose proof (sorted_filter (fun w => d <=? w) wd S) as SF.
  destruct (filter (fun w => d <=? w) wd) as [|n l] eqn:E; [inversion W|]. cbn.
  assert (In n (n :: l)) by (left; auto). rewrite <- E in H. apply filter_In in H. destruct H as [A B].
  apply Z.leb_le in B. repeat split; auto. intros w' I' L'.
  assert (In w' (n :: l)) by (rewrite <- E; apply filter_In; split; auto; apply Z.leb_le; lia).
  destruct H as [->|H]; [lia|]. apply StronglySorted_inv in SF. destruct SF as [_ F].
  rewrite Forall_forall in F. specialize (F w' H). lia.
Qed.
Lemma last_low wd d p r : sorted wd -> rev (filter (fun w => w <? d) wd) = p :: r ->
  In p wd /\ p < d /\ (forall w, In w wd -> w < d -> w <= p).
Proof.
  intros S E. assert (E2 : filter (fun w => w <? d) wd = rev r ++ [p]).
  { apply (f_equal (@rev Z)) in E. rewrite rev_involutive in E. cbn in E. auto. }
  pose proof (sorted_filter (fun w => w <? d) wd S) as SF. rewrite E2 in SF.
  assert (P : In p (filter (fun w => w <? d) wd)) by (rewrite E2; apply in_or_app; right; left; auto).
  apply filter_In in P. destruct P as [P1 P2]. apply Z.ltb_lt in P2. repeat split; auto.
  intros w I L. assert (W : In w (filter (fun w => w <? d) wd)) by (apply filter_In; split; auto; apply Z.ltb_lt; lia).
  rewrite E2 in W. apply in_app_or in W. destruct W as [W|[->|[]]]; [|lia].
  apply sorted_app in SF. destruct SF as [_ [_ F]]. specialize (F w p W (or_introl eq_refl)). lia.
Qed.
Lemma chunk_is fm dates wd d : fm <> Memory -> sorted wd -> (forall x, In x dates -> exists w, In w wd /\ x <= w) ->
  In d dates -> current_chunk fm dates wd d = inr (filter (fun x => next_write wd x =? next_write wd d) dates).
Proof.
  intros NM S B I. unfold current_chunk.
  destruct (next_write_spec wd d S (B d I)) as [N1 [N2 N3]].
  assert (N : exists t, filter (fun w => d <=? w) wd = next_write wd d :: t).
  { unfold next_write. destruct (B d I) as [w [W1 W2]].
    assert (W : In w (filter (fun w => d <=? w) wd)) by (apply filter_In; split; auto; apply Z.leb_le; lia).
    destruct (filter (fun w => d <=? w) wd) eqn:E; [inversion W|]. eauto. }
  destruct N as [t ->].
  assert (G : match rev (filter (fun w => w <? d) wd) with
              | [] => inr (filter (fun d0 => d0 <=? next_write wd d) dates)
              | prev :: _ => inr (filter (fun d0 => (prev <? d0) && (d0 <=? next_write wd d)) dates)
              end = @inr exn _ (filter (fun x => next_write wd x =? next_write wd d) dates)).
  { destruct (rev (filter (fun w => w <? d) wd)) as [|p r] eqn:P.
    - f_equal. apply filter_ext_in. intros x X. destruct (next_write_spec wd x S (B x X)) as [X1 [X2 X3]].
      assert (LO : forall w, In w wd -> d <= w).
      { intros w W. destruct (Z.le_gt_cases d w); auto. exfalso.
        assert (In w (rev (filter (fun w => w <? d) wd))) by (rewrite <- in_rev; apply filter_In; split; auto; apply Z.ltb_lt; lia).
        rewrite P in H0. inversion H0. }
      destruct (Z.leb_spec x (next_write wd d)).
      + pose proof (X3 _ N1 H). pose proof (N3 _ X1 (LO _ X1)). symmetry. apply Z.eqb_eq. lia.
      + symmetry. apply Z.eqb_neq. lia.
    - destruct (last_low wd d p r S P) as [P1 [P2 P3]].
      f_equal. apply filter_ext_in. intros x X. destruct (next_write_spec wd x S (B x X)) as [X1 [X2 X3]].
      destruct (Z.ltb_spec p x); cbn.
      + destruct (Z.leb_spec x (next_write wd d)).
        * pose proof (X3 _ N1 H0). assert (d <= next_write wd x).
          { destruct (Z.le_gt_cases d (next_write wd x)); auto. pose proof (P3 _ X1 ltac:(lia)). lia. }
          pose proof (N3 _ X1 H2). symmetry. apply Z.eqb_eq. lia.
        * symmetry. apply Z.eqb_neq. lia.
      + pose proof (X3 _ P1 H). symmetry. apply Z.eqb_neq. lia. }
  destruct fm; auto; congruence.
Qed.

Lemma last_cons {A} (q : list A) a d : List.last (a :: q) d = List.last q a.
Proof. destruct q as [|y q] using rev_ind; auto. change (a :: q ++ [y]) with ((a :: q) ++ [y]). rewrite !last_last. auto. Qed.
(** * Runs of the point output *)
Section Run.
Context {V : Type}.
Variable v : Z -> V.
Definition rows (l : list Z) : list (Z * V) := map (fun d => (d, v d)) l.
Definition written (l : list Z) : list (Z * option V) := map (fun d => (d, Some (v d))) l.
Definition blank (l : list Z) : list (Z * option V) := map (fun d => (d, None)) l.
Lemma rows_app a b : rows (a ++ b) = rows a ++ rows b. Proof. apply map_app. Qed.
Lemma written_app a b : written (a ++ b) = written a ++ written b. Proof. apply map_app. Qed.
Lemma put_here p d q : ~ In d p -> put (written p ++ blank (d :: q)) d (v d) = Some (written (p ++ [d]) ++ blank q).
Proof.
  induction p as [|x p IH]; intros N.
  - cbn. rewrite Z.eqb_refl. auto.
  - cbn in N. change (written (x :: p) ++ blank (d :: q)) with ((x, Some (v x)) :: (written p ++ blank (d :: q))).
    cbn [put]. destruct (Z.eqb_spec x d); [tauto|]. rewrite IH by tauto. auto.
Qed.
Lemma blank_last {A} (l : list A) x : exists y r, rev (x :: l) = y :: r.
Proof. cbn. destruct (rev l) as [|y r]; cbn; eauto. Qed.
Definition flush (fm : fmt) (wd : list Z) (last : Z) (g : list Z) (f : option (dataset (V:=V))) : exn + option (dataset (V:=V)) :=
  if match wd with w :: _ => last =? w | [] => false end then inr (Some (written g))
  else match fm, f with
       | Netcdf, None => inl FileNotFound
       | _, None => inr (Some (written g))
       | _, Some old => inr (Some (old ++ written g))
       end.
Lemma point_run_app fm dates wd (s : pstate V) a b :
  point_run fm dates wd s (a ++ b) = match point_run fm dates wd s a with inl e => inl e | inr s' => point_run fm dates wd s' b end.
Proof.
  revert s. induction a as [|[d x] a IH]; intros s; cbn; auto. destruct (point_update fm dates wd s d x); auto.
Qed.
Lemma group_rest fm dates wd f q : fm <> Memory -> forall p d, NoDup (p ++ d :: q) ->
  point_run fm dates wd (PS (Some (written p ++ blank (d :: q))) f) (rows (d :: q)) =
    match flush fm wd (List.last q d) (p ++ d :: q) f with inl e => inl e | inr f' => inr (PS None f') end.
Proof.
  intros NM. induction q as [|d' q IH]; intros p d ND.
  - cbn -[written blank]. unfold point_update. cbn [p_data p_file].
    assert (NI : ~ In d p) by (apply NoDup_remove_2 in ND; rewrite app_nil_r in ND; auto).
    unfold put_row. rewrite put_here by auto. cbn [blank map]. rewrite app_nil_r.
    assert (R : rev (written (p ++ [d])) = (d, Some (v d)) :: rev (written p)).
    { rewrite written_app, rev_app_distr. auto. }
    rewrite R. cbn [fst]. rewrite Z.eqb_refl. unfold flush.
    destruct fm; [| |congruence]; destruct (match wd with w :: _ => d =? w | [] => false end); auto; destruct f; auto.
  - assert (NI : ~ In d p) by (apply NoDup_remove_2 in ND; intros X; apply ND; apply in_or_app; auto).
    assert (ND2 : ~ In d (d' :: q)) by (apply NoDup_remove_2 in ND; intros X; apply ND; apply in_or_app; auto).
    change (rows (d :: d' :: q)) with ((d, v d) :: rows (d' :: q)). cbn [point_run].
    unfold point_update at 1. cbn [p_data p_file]. unfold put_row. rewrite put_here by auto.
    assert (R : exists y r o, rev (written (p ++ [d]) ++ blank (d' :: q)) = (y, o) :: r /\ In y (d' :: q)).
    { rewrite rev_app_distr. unfold blank. rewrite <- map_rev. destruct (blank_last q d') as [y [r E]].
      rewrite E. cbn [map app]. exists y. eexists. eexists. split; [reflexivity|].
      rewrite in_rev, E. left; auto. }
    destruct R as [y [r [o [R Y]]]]. rewrite R.
    assert (NE : (d =? y) = false) by (apply Z.eqb_neq; intros ->; auto). rewrite NE.
    replace (match fm with Memory => false | _ => false end) with false by (destruct fm; auto).
    rewrite IH.
    + rewrite <- app_assoc. cbn [app]. rewrite (last_cons q d' d). auto.
    + rewrite <- app_assoc. auto.
Qed.
Lemma group_run fm dates wd f d q : fm <> Memory -> NoDup (d :: q) ->
  current_chunk fm dates wd d = inr (d :: q) ->
  point_run fm dates wd (PS None f) (rows (d :: q)) =
    match flush fm wd (List.last q d) (d :: q) f with inl e => inl e | inr f' => inr (PS None f') end.
Proof.
  intros NM ND C. pose proof (group_rest fm dates wd f q NM [] d ND) as E. cbn [app] in E. rewrite <- E.
  cbn [written map rows point_run]. unfold point_update. cbn [p_data p_file]. rewrite C. auto.
Qed.
Lemma last_in {A} (q : list A) (d : A) : In (List.last q d) (d :: q).
Proof. induction q as [|x q IH] using rev_ind; [left; auto|]. rewrite last_last. right. apply in_or_app. right. left; auto. Qed.
(** All groups but those containing the first write date are appended. *)
Lemma groups_append fm dates wd : fm <> Memory -> forall gs old,
  (forall g, In g gs -> NoDup g /\ g <> [] /\ (forall d, In d g -> current_chunk fm dates wd d = inr g)) ->
  (forall w t, wd = w :: t -> ~ In w (concat gs)) ->
  point_run fm dates wd (PS None (Some old)) (rows (concat gs)) = inr (PS None (Some (old ++ written (concat gs)))).
Proof.
  intros NM. induction gs as [|g gs IH]; intros old H W; cbn [concat].
  - cbn. rewrite app_nil_r. auto.
  - destruct (H g (or_introl eq_refl)) as [ND [NE C]]. rewrite rows_app, point_run_app.
    destruct g as [|d q]; [congruence|]. rewrite (group_run _ _ _ _ d q NM ND) by (apply C; left; auto).
    unfold flush. replace (match wd with w :: _ => List.last q d =? w | [] => false end) with false.
    2:{ destruct wd as [|w t]; auto. symmetry. apply Z.eqb_neq. intros E. apply (W w t eq_refl). cbn [concat].
        apply in_or_app. left. rewrite <- E. apply last_in. }
    replace (match fm with Netcdf => inr (Some (old ++ written (d :: q))) | _ => inr (Some (old ++ written (d :: q))) end)
      with (@inr exn _ (Some (old ++ written (d :: q)))) by (destruct fm; auto).
    destruct fm; [| |congruence]; rewrite IH; rewrite ?written_app, ?app_assoc; auto;
      try (intros g' G'; apply H; right; auto);
      intros w t E I; apply (W w t E); cbn [concat]; apply in_or_app; right; auto.
Qed.
End Run.
Lemma sorted_NoDup l : sorted l -> NoDup l.
Proof.
  induction 1; constructor; auto. intros X. rewrite Forall_forall in H0. specialize (H0 _ X). lia.
Qed.
Lemma next_write_mono wd l : sorted wd -> sorted l -> (forall x, In x l -> exists w, In w wd /\ x <= w) ->
  StronglySorted (fun a b => next_write wd a <= next_write wd b) l.
Proof.
  intros S. induction 1; intros B; constructor; auto.
  - apply IHStronglySorted. intros; apply B; right; auto.
  - apply Forall_forall. intros x X. rewrite Forall_forall in H0. specialize (H0 x X).
    destruct (next_write_spec wd a S (B a (or_introl eq_refl))) as [_ [_ A3]].
    destruct (next_write_spec wd x S (B x (or_intror X))) as [X1 [X2 _]]. apply A3; auto. lia.
Qed.
Lemma concat_in {A} (g : list A) gs x : In g gs -> In x g -> In x (concat gs).
Proof. intros. apply in_concat. eauto. Qed.
(** The groups of the model dates *)
Lemma chunks fm dates wd : fm <> Memory -> sorted wd -> sorted dates ->
  (forall x, In x dates -> exists w, In w wd /\ x <= w) ->
  exists gs, concat gs = dates /\ grouped (next_write wd) gs /\
    (forall g, In g gs -> sorted g /\ g <> [] /\ (forall d, In d g -> current_chunk fm dates wd d = inr g)).
Proof.
  intros NM S SD B. destruct (group_exists (next_write wd) dates (next_write_mono _ _ S SD B)) as [gs [C G]].
  exists gs. split; auto. split; auto. intros g I. split; [|split].
  - rewrite <- C in SD. clear - SD I. induction gs as [|h gs IH]; cbn in *; [tauto|].
    apply sorted_app in SD. destruct SD as [A [B _]]. destruct I as [->|I]; auto.
  - clear - G I. induction gs as [|h gs IH]; cbn in *; [tauto|]. destruct G as [N [_ G]]. destruct I as [->|I]; auto.
  - intros d D. rewrite chunk_is; auto.
    + f_equal. rewrite <- C. apply group_filter; auto.
    + rewrite <- C. eapply concat_in; eauto.
Qed.
Lemma sorted_last_max d q : sorted (d :: q) -> forall x, In x (d :: q) -> x <= List.last q d.
Proof.
  intros S x I. destruct q as [|y q] using rev_ind; [destruct I as [->|[]]; cbn; lia|].
  rewrite last_last. change (d :: q ++ [y]) with ((d :: q) ++ [y]) in *.
  apply sorted_app in S. destruct S as [_ [_ S]]. apply in_app_or in I. destruct I as [I|[->|[]]]; [|lia].
  specialize (S x y I (or_introl eq_refl)). lia.
Qed.
