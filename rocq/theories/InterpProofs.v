(** Lemmas about inverse distance weighting, regression and the piecewise fit. *)
From Coq Require Import Permutation.
From Verif Require Import Common Constants AtmosphereModel ForcingModel InterpModel.
Open Scope R_scope.

Section Idw.
Variables (x y power smoothing : R).
Definition wt (p : R * R * R) : R := / Rpower (distance x y smoothing p) power.
Definition apart (p : R * R * R) : Prop := distance x y smoothing p <> 0.
Lemma wt_pos p : 0 < wt p.
Proof. apply Rinv_0_lt_compat, exp_pos. Qed.
Lemma idw_loop_spec pts : forall w total,
  (exists pre p post, pts = pre ++ p :: post /\ Forall apart pre /\ distance x y smoothing p = 0 /\
     idw_loop x y power smoothing pts w total = snd p) \/
  (Forall apart pts /\
   idw_loop x y power smoothing pts w total =
     (total + sumR (map (fun p => snd p * wt p) pts)) / (w + sumR (map wt pts))).
Proof.
  induction pts as [|p pts IH]; intros w total.
  - right. split; auto. cbn. rewrite !sumR_nil, !Rplus_0_r. auto.
  - cbn [idw_loop]. cbv zeta. destruct (Req_EM_T (distance x y smoothing p) 0) as [E|E].
    + left. exists [], p, pts. auto.
    + destruct (IH (w + 1 / Rpower (distance x y smoothing p) power) (total + snd p / Rpower (distance x y smoothing p) power))
        as [[pre [q [post [E1 [E2 [E3 E4]]]]]]|[E1 E2]].
      * left. exists (p :: pre), q, post. subst pts. split; auto.
      * right. split; auto. rewrite E2. cbn [map]. rewrite !sumR_cons. unfold wt, Rdiv. f_equal; [lra|]. f_equal. lra.
Qed.
Lemma sum_wt_pos pts : pts <> [] -> 0 < sumR (map wt pts).
Proof.
  destruct pts as [|p pts]; [congruence|]. intros _. cbn [map]. rewrite sumR_cons. pose proof (wt_pos p).
  assert (0 <= sumR (map wt pts)); [|lra]. apply sumR_nonneg, Forall_forall. intros a A. apply in_map_iff in A.
  destruct A as [q [<- _]]. left. apply wt_pos.
Qed.
Lemma idw_cases pts v : finite_pts pts <> [] ->
  idw pts x y power smoothing = Some v <->
  (exists pre p post, finite_pts pts = pre ++ p :: post /\ Forall apart pre /\ distance x y smoothing p = 0 /\ v = snd p) \/
  (Forall apart (finite_pts pts) /\ v * sumR (map wt (finite_pts pts)) = sumR (map (fun p => snd p * wt p) (finite_pts pts))).
Proof.
  intros N. unfold idw. destruct (finite_pts pts) as [|p0 t] eqn:E; [congruence|]. rewrite <- E in *. clear E.
  set (ps := finite_pts pts) in *. clearbody ps. pose proof (sum_wt_pos ps N) as SP.
  destruct (idw_loop_spec ps 0 0) as [[pre [q [post [E1 [E2 [E3 E4]]]]]]|[E1 E2]].
  - rewrite E4. split.
    + intros E. injection E as <-. left. exists pre, q, post. auto.
    + intros [[pre' [q' [post' [F1 [F2 [F3 ->]]]]]]|[F1 _]].
      * f_equal. f_equal. clear - E1 E2 E3 F1 F2 F3. subst ps. revert pre' F1 F2.
        induction pre as [|a pre IH]; intros [|b pre'] F1 F2; cbn in F1; injection F1 as EA EB; subst.
        -- auto.
        -- inversion F2; subst. congruence.
        -- inversion E2; subst. congruence.
        -- inversion E2; inversion F2; subst. eapply IH; eauto.
      * exfalso. rewrite E1 in F1. apply Forall_app in F1. destruct F1 as [_ F1]. inversion F1; subst. congruence.
  - rewrite E2, !Rplus_0_l. split.
    + intros E. injection E as <-. right. split; auto. field. lra.
    + intros [[pre' [q' [post' [F1 [F2 [F3 ->]]]]]]|[_ F]].
      * exfalso. rewrite F1 in E1. apply Forall_app in E1. destruct E1 as [_ E1]. inversion E1; subst. congruence.
      * f_equal. rewrite <- F. field. lra.
Qed.
Lemma distance_zero p : distance x y smoothing p = 0 <-> smoothing = 0 /\ fst (fst p) = x /\ snd (fst p) = y.
Proof.
  destruct p as [[px py] v]. cbn. split.
  - intros E. pose proof (Rle_0_sqr (x - px)) as Q1; pose proof (Rle_0_sqr (y - py)) as Q2; pose proof (Rle_0_sqr smoothing) as Q3; unfold Rsqr in *.
    apply sqrt_eq_0 in E; [|lra]. assert (smoothing * smoothing = 0) by nra.
    assert ((x - px) * (x - px) = 0) by nra. assert ((y - py) * (y - py) = 0) by nra.
    split; [destruct (Rmult_integral _ _ H); auto|]. split; [destruct (Rmult_integral _ _ H0); lra|destruct (Rmult_integral _ _ H1); lra].
  - intros [-> [-> ->]]. replace (_ + _ + _) with 0 by ring. apply sqrt_0.
Qed.
End Idw.
Lemma finite_in pts px py v : In (px, py, v) (finite_pts pts) <-> In (PT (Some px) (Some py) (Some v)) pts.
Proof.
  unfold finite_pts. rewrite in_flat_map. split.
  - intros [[[a|] [b|] [w|]] [I H]]; cbn in H; try contradiction. destruct H as [H|[]]. injection H as -> -> ->. auto.
  - intros I. exists (PT (Some px) (Some py) (Some v)). split; cbn; auto.
Qed.
Lemma sum_bounds {A} (l : list A) (f g : A -> R) : (forall a, In a l -> f a <= g a) -> sumR (map f l) <= sumR (map g l).
Proof.
  intros H. apply sumR_le. induction l as [|a l IH]; cbn; constructor; [apply H; left; auto|apply IH; intros; apply H; right; auto].
Qed.
Lemma sumR_ext {A} (l : list A) (f g : A -> R) : (forall a, In a l -> f a = g a) -> sumR (map f l) = sumR (map g l).
Proof. intros H. f_equal. apply map_ext_in. auto. Qed.
Lemma sumR_perm {A} (f : A -> R) l l' : Permutation l l' -> sumR (map f l) = sumR (map f l').
Proof. induction 1; cbn; rewrite ?sumR_cons in *; lra. Qed.

(** * Regression *)
Lemma sum_const {A} (l : list A) (k : R) : sumR (map (fun _ => k) l) = INR (length l) * k.
Proof. induction l as [|a l IH]; cbn [map length]; rewrite ?sumR_nil, ?sumR_cons, ?S_INR; [cbn; lra|lra]. Qed.
Lemma combine_sum {A} (x y : A -> R) (F : R * R -> R) l : map F (combine (map x l) (map y l)) = map (fun s => F (x s, y s)) l.
Proof. induction l as [|a l IH]; cbn; [auto|]. rewrite IH. auto. Qed.
Section Regression.
Context {A : Type} (x y : A -> R) (l : list A).
Let n := INR (length l).
Let mx := mean (map x l).
Let my := mean (map y l).
Let sxx := sumR (map (fun s => (x s - mx) * (x s - mx)) l).
Let sxy := sumR (map (fun s => (x s - mx) * (y s - my)) l).
Hypothesis N : (2 <= length l)%nat.
Lemma n_pos : 0 < n. Proof. unfold n. apply lt_0_INR. lia. Qed.
Lemma sum_mean f : sumR (map f l) = n * mean (map f l).
Proof. unfold mean. rewrite map_length. fold n. field. pose proof n_pos. lra. Qed.
Lemma fit_is : linear_fit (map x l) (map y l) =
  if Req_EM_T sxx 0 then (if Req_EM_T mx 0 then None else Some (my / (2 * mx), my / 2))
  else Some (sxy / sxx, my - sxy / sxx * mx).
Proof.
  unfold linear_fit. rewrite map_length. destruct (Nat.ltb_spec (length l) 2); [lia|]. cbv zeta.
  rewrite combine_sum, map_map. reflexivity.
Qed.
Lemma centred f : sumR (map (fun s => f s - mean (map f l)) l) = 0.
Proof.
  rewrite (sumR_ext _ _ (fun s => f s + - mean (map f l))) by (intros; ring). rewrite sumR_map_plus, sum_const, sum_mean. fold n. ring.
Qed.
(** Sum of squared residuals in terms of the centred sums *)
Lemma residuals s t : sumR (map (fun a => (y a - (s * x a + t)) * (y a - (s * x a + t))) l) =
  sumR (map (fun a => (y a - my) * (y a - my)) l) - 2 * s * sxy + s * s * sxx + n * ((my - s * mx - t) * (my - s * mx - t)).
Proof.
  set (d := my - s * mx - t).
  assert (E : forall a, (y a - (s * x a + t)) * (y a - (s * x a + t)) =
    ((y a - my) * (y a - my) + (- 2 * s) * ((x a - mx) * (y a - my))) + ((s * s) * ((x a - mx) * (x a - mx)) + d * d) +
    ((2 * d) * (y a - my) + (- 2 * d * s) * (x a - mx))) by (intros a; unfold d; ring).
  rewrite (sumR_ext _ _ _ (fun a _ => E a)). rewrite !sumR_map_plus, !sumR_map_scal, sum_const.
  rewrite (centred y : sumR (map (fun a => y a - my) l) = 0), (centred x : sumR (map (fun a => x a - mx) l) = 0).
  fold sxy sxx n. ring.
Qed.
Lemma sxx_zero : sxx = 0 <-> forall s, In s l -> x s = mx.
Proof.
  unfold sxx. generalize mx as m. clear. intros m. split.
  - intros H s I. assert (G : forall l, (0 <= sumR (map (fun s => (x s - m) * (x s - m)) l))).
    { intros l0. apply sumR_nonneg, Forall_forall. intros a Q. apply in_map_iff in Q. destruct Q as [q [<- _]]. apply Rle_0_sqr. }
    induction l as [|a t IH]; [inversion I|]. cbn [map] in H. rewrite sumR_cons in H. pose proof (G t). pose proof (Rle_0_sqr (x a - m)) as Q0. unfold Rsqr in Q0.
    assert (Q : (x a - m) * (x a - m) = 0) by lra. destruct I as [->|I]; [destruct (Rmult_integral _ _ Q); lra|]. apply IH; auto. lra.
  - intros H. rewrite (sumR_ext _ _ (fun _ => 0)); [rewrite sum_const; ring|]. intros a I. rewrite H by auto. ring.
Qed.
Lemma sxx_nonneg : 0 <= sxx.
Proof. apply sumR_nonneg, Forall_forall. intros a Q. apply in_map_iff in Q. destruct Q as [q [<- _]]. apply Rle_0_sqr. Qed.
Lemma fit_optimal s t : linear_fit (map x l) (map y l) = Some (s, t) ->
  forall s' t', sumR (map (fun a => (y a - (s * x a + t)) * (y a - (s * x a + t))) l) <=
                sumR (map (fun a => (y a - (s' * x a + t')) * (y a - (s' * x a + t'))) l).
Proof.
  rewrite fit_is. intros E s' t'. rewrite !residuals. pose proof n_pos as NP.
  assert (DD : 0 <= n * ((my - s' * mx - t') * (my - s' * mx - t'))) by (apply Rmult_le_pos; [lra|apply Rle_0_sqr]). pose proof sxx_nonneg as SN.
  destruct (Req_EM_T sxx 0) as [Z|Z].
  - assert (SXY : sxy = 0).
    { unfold sxy. rewrite (sumR_ext _ _ (fun _ => 0)); [rewrite sum_const; ring|]. intros a I.
      rewrite (proj1 sxx_zero Z a I). ring. }
    destruct (Req_EM_T mx 0) as [Q|Q]; [discriminate|]. injection E as <- <-. rewrite Z, SXY.
    replace (my - my / (2 * mx) * mx - my / 2) with 0 by (field; auto). lra.
  - injection E as <- <-. replace (my - sxy / sxx * mx - (my - sxy / sxx * mx)) with 0 by ring.
    assert (0 <= sxx * ((s' - sxy / sxx) * (s' - sxy / sxx))) by (apply Rmult_le_pos; [lra|apply Rle_0_sqr]).
    assert (E2 : sxx * ((s' - sxy / sxx) * (s' - sxy / sxx)) = s' * s' * sxx - 2 * s' * sxy + sxy * sxy / sxx) by (field; auto).
    assert (E3 : - (2 * (sxy / sxx) * sxy) + sxy / sxx * (sxy / sxx) * sxx = - (sxy * sxy / sxx)) by (field; auto). lra.
Qed.
Lemma fit_exact a b : (forall s, In s l -> y s = a + b * x s) -> (exists s s', In s l /\ In s' l /\ x s <> x s') ->
  linear_fit (map x l) (map y l) = Some (b, a).
Proof.
  intros H [s1 [s2 [I1 [I2 D]]]]. rewrite fit_is. destruct (Req_EM_T sxx 0) as [Z|Z].
  { exfalso. apply D. rewrite (proj1 sxx_zero Z s1 I1), (proj1 sxx_zero Z s2 I2). auto. }
  assert (MY : my = a + b * mx).
  { unfold my, mx, mean. rewrite !map_length. rewrite (sumR_ext _ _ _ H), sumR_map_plus, sum_const, sumR_map_scal. fold n.
    field. pose proof n_pos. lra. }
  assert (SXY : sxy = b * sxx).
  { unfold sxy, sxx. rewrite <- sumR_map_scal. apply sumR_ext. intros s I. rewrite (H s I), MY. ring. }
  rewrite SXY. replace (b * sxx / sxx) with b by (field; auto). f_equal. f_equal. rewrite MY. ring.
Qed.
End Regression.

(** * Piecewise fit *)
Lemma pw_loop_spec fit xs minp thr : 0 <= thr -> forall n k best m,
  (forall b, best = Some b -> exists j, (1 <= j < k)%nat /\ fit j = Some b /\
     (1 < j -> j * minp <= length xs /\ sparse xs minp (pw_breaks b) = false)%nat /\
     forall i c, (1 <= i < j)%nat -> fit i = Some c -> thr <= pw_aic c - pw_aic b) ->
  (forall b i c, best = Some b -> (1 <= i < k)%nat -> fit i = Some c -> c = b \/ thr <= pw_aic c - pw_aic b) ->
  (best = None -> forall i, (1 <= i < k)%nat -> fit i = None) ->
  (1 <= k)%nat ->
  pw_loop fit xs minp thr n k best = Some m ->
  exists j, (1 <= j < k + n)%nat /\ fit j = Some m /\
     (1 < j -> j * minp <= length xs /\ sparse xs minp (pw_breaks m) = false)%nat /\
     forall i c, (1 <= i < j)%nat -> fit i = Some c -> thr <= pw_aic c - pw_aic m.
Proof.
  intros T. induction n as [|n IH]; intros k best m HB HC HN K; cbn [pw_loop].
  - intros E. destruct (HB m E) as [j [J1 J2]]. exists j. split; [lia|auto].
  - assert (KEEP : best = Some m -> exists j, (1 <= j < k + S n)%nat /\ fit j = Some m /\
     (1 < j -> j * minp <= length xs /\ sparse xs minp (pw_breaks m) = false)%nat /\
     forall i c, (1 <= i < j)%nat -> fit i = Some c -> thr <= pw_aic c - pw_aic m).
    { intros B. destruct (HB m B) as [j [J1 J2]]. exists j. split; [lia|auto]. }
    assert (STEP : forall best', pw_loop fit xs minp thr n (S k) best' = Some m ->
      (forall b, best' = Some b -> exists j, (1 <= j < S k)%nat /\ fit j = Some b /\
        (1 < j -> j * minp <= length xs /\ sparse xs minp (pw_breaks b) = false)%nat /\
        forall i c, (1 <= i < j)%nat -> fit i = Some c -> thr <= pw_aic c - pw_aic b) ->
      (forall b i c, best' = Some b -> (1 <= i < S k)%nat -> fit i = Some c -> c = b \/ thr <= pw_aic c - pw_aic b) ->
      (best' = None -> forall i, (1 <= i < S k)%nat -> fit i = None) ->
      exists j, (1 <= j < k + S n)%nat /\ fit j = Some m /\
        (1 < j -> j * minp <= length xs /\ sparse xs minp (pw_breaks m) = false)%nat /\
        forall i c, (1 <= i < j)%nat -> fit i = Some c -> thr <= pw_aic c - pw_aic m).
    { intros best' E' A B C. destruct (IH (S k) best' m A B C ltac:(lia) E') as [j [J1 J2]]. exists j. split; [lia|auto]. }
    destruct ((1 <? k)%nat && (length xs <? k * minp)%nat) eqn:G1; [exact KEEP|].
    destruct (fit k) as [c|] eqn:FK.
    + destruct ((1 <? k)%nat && sparse xs minp (pw_breaks c)) eqn:G2; [exact KEEP|].
      assert (OK : (1 < k -> k * minp <= length xs /\ sparse xs minp (pw_breaks c) = false)%nat).
      { intros K1. apply Nat.ltb_lt in K1. rewrite K1 in G1, G2. cbn [andb] in G1, G2. split; auto. apply Nat.ltb_ge in G1. lia. }
      destruct best as [b|].
      * destruct (Rle_dec thr (pw_aic b - pw_aic c)) as [L|L]; [|exact KEEP].
        assert (LT : forall i d, (1 <= i < k)%nat -> fit i = Some d -> thr <= pw_aic d - pw_aic c).
        { intros i d I FI. destruct (HC b i d eq_refl I FI) as [->|Q]; lra. }
        intros E. apply (STEP (Some c) E); auto.
        -- intros b' B'. injection B' as <-. exists k. split; [lia|]. split; auto.
        -- intros b' i d B' I FI. injection B' as <-. destruct (Nat.eq_dec i k) as [->|NE]; [left; congruence|right].
           apply (LT i); auto. lia.
        -- discriminate.
      * intros E. apply (STEP (Some c) E); auto.
        -- intros b' B'. injection B' as <-. exists k. split; [lia|]. split; auto. split; auto.
           intros i d I FI. rewrite (HN eq_refl i ltac:(lia)) in FI. discriminate.
        -- intros b' i d B' I FI. injection B' as <-. destruct (Nat.eq_dec i k) as [->|NE]; [left; congruence|].
           rewrite (HN eq_refl i ltac:(lia)) in FI. discriminate.
        -- discriminate.
    + intros E. apply (STEP best E); auto.
      * intros b B. destruct (HB b B) as [j [J1 J2]]. exists j. split; [lia|auto].
      * intros b i d B I FI. destruct (Nat.eq_dec i k) as [->|NE]; [congruence|]. apply (HC b i d B); auto. lia.
      * intros B i I. destruct (Nat.eq_dec i k) as [->|NE]; auto. apply HN; auto. lia.
Qed.
Lemma pw_loop_some fit xs minp thr n : forall k b, exists m, pw_loop fit xs minp thr n k (Some b) = Some m.
Proof.
  induction n as [|n IH]; intros k b; cbn; eauto. destruct (_ && _); eauto. destruct (fit k); eauto.
  destruct (_ && _); eauto. destruct (Rle_dec _ _); eauto.
Qed.
