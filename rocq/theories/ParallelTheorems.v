(** C48: kernels running in parallel over pixels. *)
From Coq Require Import FinFun.
From Verif Require Import Common Constants SnowModel MultilayerModel HeatModel InterpModel ParallelModel.
Open Scope R_scope.

(** * Any program whose pixels keep to themselves *)
(** every element read or written satisfies X *)
Inductive acts (W X : loc -> Prop) : prog -> Prop :=
| acts_done : acts W X Done
| acts_rd : forall l k, X l -> (forall v, acts W X (k v)) -> acts W X (Rd l k)
| acts_wr : forall l v q, W l -> acts W X q -> acts W X (Wr l v q).
Definition local (p : pix) : prog -> Prop := acts (fun l => snd l = p) (fun l => snd l = p).

Lemma store_same : forall m l v, store m l v l = v.
Proof. intros. unfold store. destruct (loc_dec l l); congruence. Qed.
Lemma store_other : forall m l v l', l' <> l -> store m l v l' = m l'.
Proof. intros. unfold store. destruct (loc_dec l' l); congruence. Qed.
Lemma acts_mono : forall (W X W' X' : loc -> Prop) q, (forall l, W l -> W' l) -> (forall l, X l -> X' l) -> acts W X q -> acts W' X' q.
Proof. intros W X W' X' q HW HX A. induction A; constructor; auto. Qed.
(** elements which are not written keep their values *)
Lemma run_frame : forall W X q m l, acts W X q -> ~ W l -> run q m l = m l.
Proof.
  intros W X q m l A N. revert m. induction A as [|l0 k HX H IH|l0 v q HW A IH]; intros m; cbn [run]; auto.
  rewrite IH. apply store_other. intros ->. auto.
Qed.
(** the result on the own elements depends on the own elements only *)
Lemma run_agree : forall p q m m', local p q -> (forall l, snd l = p -> m l = m' l) -> forall l, snd l = p -> run q m l = run q m' l.
Proof.
  intros p q m m' A. revert m m'. induction A as [|l0 k HX H IH|l0 v q HW A IH]; intros m m' E l L; cbn [run]; auto.
  - rewrite (E l0 HX). apply IH; auto.
  - apply IH; auto. intros l1 L1. unfold store. destruct (loc_dec l1 l0); auto.
Qed.

Lemma nth_set_same : forall {A} i (x : A) l, (i < length l)%nat -> nth_error (set_nth i x l) i = Some x.
Proof. intros A i x l. revert i. induction l as [|y t IH]; intros [|i] H; cbn in *; auto; try lia. apply IH. lia. Qed.
Lemma nth_set_other : forall {A} i j (x : A) l, i <> j -> nth_error (set_nth i x l) j = nth_error l j.
Proof. intros A i j x l. revert i j. induction l as [|y t IH]; intros [|i] [|j] H; cbn; auto; lia. Qed.
Lemma len_set : forall {A} i (x : A) l, length (set_nth i x l) = length l.
Proof. intros A i x l. revert i. induction l as [|y t IH]; intros [|i]; cbn; auto. Qed.

Section prange.
Variables (pxs : list pix) (body : pix -> prog) (m0 : mem).
Hypothesis ND : NoDup pxs.
Hypothesis LOC : forall p, In p pxs -> local p (body p).
Definition inv (s : list prog * mem) : Prop :=
  length (fst s) = length pxs /\
  (forall i p q, nth_error pxs i = Some p -> nth_error (fst s) i = Some q ->
     local p q /\ forall l, snd l = p -> run q (snd s) l = run (body p) m0 l) /\
  (forall l, ~ In (snd l) pxs -> snd s l = m0 l).
Lemma inv_start : inv (map body pxs, m0).
Proof.
  split; [|split]; cbn [fst snd]; auto.
  - apply map_length.
  - intros i p q P Q. rewrite nth_error_map, P in Q. cbn in Q. injection Q as <-. split; auto. apply LOC. apply nth_error_In with i. auto.
Qed.
Lemma inv_step : forall i s, inv s -> inv (pstep i s).
Proof.
  intros i [ps m] (L & A & B). unfold pstep. cbn [fst snd] in *. destruct (nth_error ps i) as [q|] eqn:Q; [|repeat split; auto; eapply A; eauto].
  assert (I : (i < length ps)%nat) by (apply nth_error_Some; congruence).
  destruct (nth_error pxs i) as [p|] eqn:P; [|apply nth_error_None in P; lia].
  destruct (A i p q P Q) as (A1 & A2).
  assert (PI : In p pxs) by (apply nth_error_In with i; auto).
  assert (OTHER : forall j p', j <> i -> nth_error pxs j = Some p' -> p' <> p).
  { intros j p' N P' ->. apply N. rewrite NoDup_nth_error in ND. apply ND; [apply nth_error_Some; congruence|congruence]. }
  destruct q as [|l0 k|l0 v q']; unfold inv; cbn [op fst snd].
  - split; [rewrite len_set; auto|split; auto]. intros j p' q P' Q'. destruct (Nat.eq_dec i j) as [<- |N]; [rewrite nth_set_same in Q' by auto|rewrite nth_set_other in Q' by auto]; [|eauto].
    assert (p' = p) by congruence. assert (q = Done) by congruence. subst. split; auto.
  - inversion A1 as [|l k' HX H|]; subst. split; [rewrite len_set; auto|split; auto]. intros j p' q P' Q'.
    destruct (Nat.eq_dec i j) as [<- |N]; [rewrite nth_set_same in Q' by auto|rewrite nth_set_other in Q' by auto; eauto].
    assert (p' = snd l0) by congruence. assert (q = k (m l0)) by congruence. subst. split; auto. apply H.
  - inversion A1 as [| |l v' q0 HW H]; subst. split; [rewrite len_set; auto|split].
    + intros j p' q P' Q'. destruct (Nat.eq_dec i j) as [<- |N]; [rewrite nth_set_same in Q' by auto|rewrite nth_set_other in Q' by auto].
      * assert (p' = snd l0) by congruence. assert (q = q') by congruence. subst. split; auto.
      * destruct (A j p' q P' Q') as (C1 & C2). split; auto. intros l E. rewrite <- C2 by auto. apply (run_agree p'); auto.
        intros l1 E1. apply store_other. intros ->. apply (OTHER j p'); auto.
    + intros l NI. cbn [snd]. rewrite store_other; auto. intros ->. auto.
Qed.
Lemma inv_run : forall sched s, inv s -> inv (prun sched s).
Proof. induction sched as [|i t IH]; intros s H; auto. apply (IH (pstep i s)), inv_step. auto. Qed.
End prange.

(** Whatever the schedule, when all pixels are done each of them holds what its body computes from the initial state alone, and all other
    pixels are unchanged. *)
Theorem c48_any_schedule : forall pxs body m0 sched ps m, NoDup pxs -> (forall p, In p pxs -> local p (body p)) ->
  prun sched (map body pxs, m0) = (ps, m) -> finished ps ->
  forall l, (In (snd l) pxs -> m l = run (body (snd l)) m0 l) /\ (~ In (snd l) pxs -> m l = m0 l).
Proof.
  intros pxs body m0 sched ps m ND LOC E F l. pose proof (inv_run pxs body m0 ND sched _ (inv_start pxs body m0 LOC)) as (L & A & B). rewrite E in *. cbn [fst snd] in *.
  split; auto. intros I. apply In_nth_error in I. destruct I as [i P]. destruct (nth_error ps i) as [q|] eqn:Q.
  - destruct (A i _ q P Q) as (_ & A2). rewrite <- A2 by auto. assert (q = Done) by (unfold finished in F; rewrite Forall_forall in F; apply F, nth_error_In with i; auto). subst. auto.
  - apply nth_error_None in Q. assert ((i < length pxs)%nat) by (apply nth_error_Some; congruence). lia.
Qed.
Print Assumptions c48_any_schedule.
Lemma seq_frame : forall pxs body m l, (forall p, In p pxs -> local p (body p)) -> ~ In (snd l) pxs -> fold_left (fun m p => run (body p) m) pxs m l = m l.
Proof.
  induction pxs as [|p t IH]; intros body m l LOC NI; auto. cbn [fold_left]. rewrite IH; [|intros; apply LOC; right; auto|intros I; apply NI; right; auto].
  apply (run_frame (fun l => snd l = p) (fun l => snd l = p)); [apply LOC; left; auto|]. intros E. apply NI. left. auto.
Qed.
(** The parallel loop does what a sequential loop over the pixels does. *)
Theorem c48_sequential : forall pxs body m0 sched ps m, NoDup pxs -> (forall p, In p pxs -> local p (body p)) ->
  prun sched (map body pxs, m0) = (ps, m) -> finished ps -> forall l, m l = fold_left (fun m p => run (body p) m) pxs m0 l.
Proof.
  intros pxs body m0 sched ps m ND LOC E F l. destruct (c48_any_schedule pxs body m0 sched ps m ND LOC E F l) as [A B].
  destruct (in_dec (fun a b : pix => ltac:(repeat decide equality)) (snd l) pxs) as [I|I]; [|rewrite B, seq_frame; auto].
  rewrite (A I). clear A B E F. revert m0 ND LOC. induction pxs as [|p t IH]; intros m0 ND LOC; [inversion I|]. inversion ND as [|a b NI ND']; subst.
  cbn [fold_left]. destruct I as [-> |I].
  - rewrite seq_frame; auto. intros. apply LOC. right. auto.
  - rewrite <- IH; auto; [|intros; apply LOC; right; auto]. apply (run_agree (snd l)); [apply LOC; right; auto| |auto].
    intros l1 E1. symmetry. apply (run_frame (fun l => snd l = p) (fun l => snd l = p)); [apply LOC; left; auto|]. intros Q. apply NI. rewrite <- Q, E1. auto.
Qed.
Print Assumptions c48_sequential.
Lemma can_finish_one : forall i p ps m, nth_error ps i = Some p -> exists sched, prun sched (ps, m) = (set_nth i Done ps, run p m).
Proof.
  intros i p ps m. assert (SS : forall (x y : prog) l, set_nth i x (set_nth i y l) = set_nth i x l).
  { intros x y. generalize i. intros i0 l. revert i0. induction l as [|z t IH]; intros [|i0]; cbn; f_equal; auto. }
  revert ps m. induction p as [|l k IH|l v q IH]; intros ps m P.
  - exists [i]. cbn. unfold pstep. cbn [fst snd]. rewrite P. auto.
  - destruct (IH (m l) (set_nth i (k (m l)) ps) m) as [sch E].
    { apply nth_set_same. apply nth_error_Some. congruence. }
    exists (i :: sch). cbn. unfold pstep at 2. cbn [fst snd]. rewrite P. cbn [op]. unfold prun in E. rewrite E, SS. auto.
  - destruct (IH (set_nth i q ps) (store m l v)) as [sch E].
    { apply nth_set_same. apply nth_error_Some. congruence. }
    exists (i :: sch). cbn. unfold pstep at 2. cbn [fst snd]. rewrite P. cbn [op]. unfold prun in E. rewrite E, SS. auto.
Qed.
(** From every point of every schedule the loop can be completed (no pixel waits for another). *)
Theorem c48_completes : forall ps m, exists sched, finished (fst (prun sched (ps, m))).
Proof.
  intros ps m. assert (H : forall n, (n <= length ps)%nat -> exists sched, let s := prun sched (ps, m) in length (fst s) = length ps /\ forall i, (i < n)%nat -> nth_error (fst s) i = Some Done).
  { induction n as [|n IH]; intros L; [exists []; split; auto; intros; lia|]. destruct IH as (sch & L1 & A); [lia|]. destruct (prun sch (ps, m)) as [ps1 m1] eqn:E. cbn [fst] in *.
    destruct (nth_error ps1 n) as [p|] eqn:P; [|apply nth_error_None in P; lia]. destruct (can_finish_one n p ps1 m1 P) as [sch2 E2]. exists (sch ++ sch2).
    unfold prun in *. rewrite fold_left_app, E, E2. cbn [fst]. rewrite len_set. split; auto. intros i I. destruct (Nat.eq_dec n i) as [<- |N].
    - apply nth_set_same. lia.
    - rewrite nth_set_other by auto. apply A. lia. }
  destruct (H (length ps) ltac:(lia)) as (sch & L & A). exists sch. unfold finished. apply Forall_forall. intros q I. apply In_nth_error in I. destruct I as [i Q].
  assert (i < length ps)%nat by (rewrite <- L; apply nth_error_Some; congruence). rewrite A in Q by auto. congruence.
Qed.
Print Assumptions c48_completes.

(** * The region of interest: every pixel of it exactly once, row by row *)
Theorem c48_roi : forall rows cols roi, NoDup (roi_idxs rows cols roi) /\
  (forall i j, In (i, j) (roi_idxs rows cols roi) <-> (i < rows)%nat /\ (j < cols)%nat /\ roi i j = true).
Proof.
  intros rows cols roi. split.
  - unfold roi_idxs. apply NoDup_filter. assert (K : forall (l l' : list nat), NoDup l -> NoDup l' -> NoDup (list_prod l l')).
    { induction l as [|a t IH]; intros l' N N'; cbn; [constructor|]. inversion N; subst.
      assert (G : forall (x y : list pix), NoDup x -> NoDup y -> (forall z, In z x -> ~ In z y) -> NoDup (x ++ y)).
      { induction x as [|z x IHx]; intros y X Y D; auto. cbn. inversion X; subst. constructor; [|apply IHx; auto; intros; apply D; right; auto].
        intros I. apply in_app_or in I. destruct I; auto. apply (D z); auto. left. auto. }
      apply G; auto.
      - apply Injective_map_NoDup; auto. intros u v E. congruence.
      - intros z I J. apply in_map_iff in I. destruct I as [y [<- I]]. apply in_prod_iff in J. tauto. }
    apply K; apply seq_NoDup.
  - intros i j. unfold roi_idxs. rewrite filter_In, in_prod_iff, !in_seq. cbn [fst snd]. intuition lia.
Qed.
Print Assumptions c48_roi.

(** * The kernels *)
Ltac keeps := repeat first [apply acts_done | apply acts_rd; [cbn; auto; fail| intros ?] | apply acts_wr; [cbn; auto; fail|] | match goal with |- acts _ _ (if ?b then _ else _) => destruct b end | progress cbv zeta | progress unfold update].
Definition from (p : pix) (k : nat) (al : list array) (l : loc) : Prop := snd l = p /\ (In (fst (fst l)) al \/ (k <= snd (fst l))%nat).
Lemma from_S : forall p k al l, from p (S k) al l -> from p k al l.
Proof. intros p k al l [A [B|B]]; split; auto. right. lia. Qed.
Lemma acts_next : forall p k al X q, acts (from p (S k) al) X q -> acts (from p k al) X q.
Proof. intros p k al X q. apply acts_mono; auto. intros l. apply from_S. Qed.
Definition own (p : pix) (l : loc) : Prop := snd l = p.
Lemma from_here : forall a k p al, from p k al (a, k, p).
Proof. intros. split; cbn; auto. Qed.
Lemma from_in : forall a k p al, In a al -> from p k al (a, O, p).
Proof. intros. split; cbn; auto. Qed.
Ltac keeps2 IH := repeat first [apply acts_done | apply acts_rd; [reflexivity|intros ?] | apply acts_wr; [first [apply from_here|apply from_in; cbn; tauto]|] | apply acts_next, IH
  | match goal with |- acts _ _ (if ?b then _ else _) => destruct b | |- acts _ _ (match ?b with Some _ => _ | None => _ end) => destruct b end | progress cbv zeta beta | progress unfold update].
Lemma melt_acts : forall n k p chg act, acts (from p k [AMelt]) (own p) (melt_body n k p chg act).
Proof. induction n as [|n IH]; intros k p chg act; cbn [melt_body]; keeps2 IH. Qed.
Lemma sublim_acts : forall n k p chg, acts (from p k []) (own p) (sublim_body n k p chg).
Proof. induction n as [|n IH]; intros k p chg; cbn [sublim_body]; keeps2 IH. Qed.
Lemma runoff_acts : forall n k p, acts (from p k [ARunoff; ARefr]) (own p) (runoff_body n k p).
Proof. induction n as [|n IH]; intros k p; cbn [runoff_body]; keeps2 IH. Qed.
Lemma anderson_acts : forall n k d p load, acts (from p k []) (own p) (anderson_body n k d p load).
Proof. induction n as [|n IH]; intros k d p load; cbn [anderson_body]; keeps2 IH. Qed.
Lemma empirical_acts : forall n k dt ts mc mm p, acts (from p k []) (own p) (empirical_body n k dt ts mc mm p).
Proof. induction n as [|n IH]; intros k dt ts mc mm p; cbn [empirical_body]; keeps2 IH. Qed.
Lemma acts_local : forall p k al q, acts (from p k al) (own p) q -> local p q.
Proof. intros p k al q. apply acts_mono; auto. intros l [A _]. auto. Qed.
Lemma melt_local : forall nl p, local p (melt_prog nl p).
Proof. intros. unfold melt_prog. constructor; [reflexivity|]. intros v. eapply acts_local, melt_acts. Qed.
Lemma sublim_local : forall nl p, local p (sublim_prog nl p).
Proof. intros. unfold sublim_prog. constructor; [reflexivity|]. intros v. cbv zeta. destruct (fgt _ _); [eapply acts_local, sublim_acts|constructor]. Qed.
Lemma runoff_local : forall nl p, local p (runoff_prog nl p).
Proof.
  intros. unfold runoff_prog. constructor; [reflexivity|]. constructor; [reflexivity|]. intros v. constructor; [reflexivity|]. constructor; [reflexivity|]. intros [x|].
  - eapply acts_local, runoff_acts.
  - constructor; [reflexivity|]. eapply acts_local, runoff_acts.
Qed.
Lemma anderson_local : forall dt nl p, local p (anderson_prog dt nl p).
Proof. intros. eapply acts_local, anderson_acts. Qed.
Lemma empirical_local : forall dt ts mc mm nl p, local p (empirical_prog dt ts mc mm nl p).
Proof. intros. eapply acts_local, empirical_acts. Qed.
Lemma read_local : forall n k a p acc q, (forall f, local p (q f)) -> local p (read_layers n k a p acc q).
Proof. induction n as [|n IH]; intros k a p acc q H; cbn [read_layers]; auto. constructor; [reflexivity|]. intros v. apply IH. auto. Qed.
Lemma add_local : forall n k p f q, local p q -> local p (add_layers n k p f q).
Proof. induction n as [|n IH]; intros k p f q H; cbn [add_layers]; auto. unfold update. constructor; [reflexivity|]. intros v. constructor; [reflexivity|]. apply IH. auto. Qed.
Lemma heat_local : forall ns dt nl p, local p (heat_prog ns dt nl p).
Proof.
  intros. unfold heat_prog. destruct (nl p) as [|n]; [constructor|]. cbv zeta.
  repeat (apply read_local; intros). repeat (constructor; [reflexivity|intros ?]). apply read_local. intros. apply add_local. constructor.
Qed.
Lemma soil_local : forall nl p, local p (soil_flux_prog nl p).
Proof. intros. unfold soil_flux_prog. destruct (nl p); repeat (constructor; [reflexivity|intros ?]); repeat (constructor; try reflexivity). Qed.
Lemma idw_local : forall tg pw s pts p, local p (idw_prog tg pw s pts p).
Proof. intros. unfold idw_prog. destruct (tg (fst p)). constructor; [reflexivity|constructor]. Qed.
Lemma write_local : forall outs p vs, local p (write_all outs p vs).
Proof. induction outs as [|[a k] t IH]; intros p [|v vs]; cbn [write_all]; constructor; [reflexivity|apply IH]. Qed.
Lemma pixel_local : forall ins outs f p, local p (pixel_prog ins outs f p).
Proof.
  intros ins outs f p. unfold pixel_prog. generalize (@nil num). induction ins as [|[a k] t IH]; intros acc; cbn [read_all]; [apply write_local|]. constructor; [reflexivity|]. intros v. apply IH.
Qed.
(** all kernels keep to their own pixel: none of them depends on the schedule *)
Inductive kernel := KMelt | KSublimation | KRunoff | KAnderson (dt : R) | KEmpirical (dt ts mc mm : R) | KHeat (slots : nat) (dt : R) | KSoilFlux
  | KIdw (targets : nat -> R * R) (power smoothing : R) (pts : list (R * R * R))
  | KPixel (ins outs : list (array * nat)) (f : list num -> list num).
Definition kernel_body (nl : pix -> nat) (k : kernel) (p : pix) : prog :=
  match k with
  | KMelt => melt_prog nl p | KSublimation => sublim_prog nl p | KRunoff => runoff_prog nl p | KAnderson dt => anderson_prog dt nl p
  | KEmpirical dt ts mc mm => empirical_prog dt ts mc mm nl p | KHeat slots dt => heat_prog slots dt nl p | KSoilFlux => soil_flux_prog nl p
  | KIdw tg pw s pts => idw_prog tg pw s pts p | KPixel ins outs f => pixel_prog ins outs f p end.
Theorem c48_kernels : forall k rows cols roi nl m0 sched sched' ps ps' m m',
  let start := (map (kernel_body nl k) (roi_idxs rows cols roi), m0) in
  prun sched start = (ps, m) -> finished ps -> prun sched' start = (ps', m') -> finished ps' ->
  forall a z i j, m (a, z, (i, j)) = m' (a, z, (i, j)) /\
    (((i < rows)%nat /\ (j < cols)%nat /\ roi i j = true) \/ m (a, z, (i, j)) = m0 (a, z, (i, j))).
Proof.
  intros k rows cols roi nl m0 sched sched' ps ps' m m' start E F E' F' a z i j. destruct (c48_roi rows cols roi) as [ND IN].
  assert (LOC : forall p, In p (roi_idxs rows cols roi) -> local p (kernel_body nl k p)).
  { intros p _. destruct k; cbn [kernel_body]; [apply melt_local|apply sublim_local|apply runoff_local|apply anderson_local|apply empirical_local|apply heat_local|apply soil_local|apply idw_local|apply pixel_local]. }
  split.
  - rewrite (c48_sequential _ _ _ _ _ _ ND LOC E F), (c48_sequential _ _ _ _ _ _ ND LOC E' F'). auto.
  - destruct (c48_any_schedule _ _ _ _ _ _ ND LOC E F (a, z, (i, j))) as [_ B]. cbn [snd] in B.
    destruct (in_dec (fun a b : pix => ltac:(repeat decide equality)) (i, j) (roi_idxs rows cols roi)) as [I|I]; [left; apply IN; auto|right; auto].
Qed.
Print Assumptions c48_kernels.
