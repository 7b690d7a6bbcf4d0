(** C43 and C44: glacier geometry. *)
From Coq Require Import Permutation.
From Verif Require Import Common Constants TimeModel TimeProofs OutputModel CalendarProofs GlacierModel.
Open Scope R_scope.

(** * Lists *)
Lemma fold_min_le d l x : In x l -> fold_right Rmin d l <= x.
Proof. induction l as [|y l IH]; [intros []|]. intros [->|H]; cbn; [apply Rmin_l|]. eapply Rle_trans; [apply Rmin_r|auto]. Qed.
Lemma fold_max_ge d l x : In x l -> x <= fold_right Rmax d l.
Proof. induction l as [|y l IH]; [intros []|]. intros [->|H]; cbn; [apply Rmax_l|]. eapply Rle_trans; [|apply Rmax_r]. auto. Qed.
Lemma fold_min_in d l : fold_right Rmin d l = d \/ In (fold_right Rmin d l) l.
Proof.
  induction l as [|y l IH]; [left; reflexivity|]. cbn [fold_right]. set (m := fold_right Rmin d l) in *.
  destruct (Rle_lt_dec y m); [rewrite Rmin_left by lra; right; left; auto|rewrite Rmin_right by lra].
  destruct IH as [E|I]; [left; auto|right; right; auto].
Qed.
Lemma fold_max_in d l : fold_right Rmax d l = d \/ In (fold_right Rmax d l) l.
Proof.
  induction l as [|y l IH]; [left; reflexivity|]. cbn [fold_right]. set (m := fold_right Rmax d l) in *.
  destruct (Rle_lt_dec m y); [rewrite Rmax_left by lra; right; left; auto|rewrite Rmax_right by lra].
  destruct IH as [E|I]; [left; auto|right; right; auto].
Qed.
Lemma list_min_le l x : In x l -> list_min l <= x.
Proof. apply fold_min_le. Qed.
Lemma list_max_ge l x : In x l -> x <= list_max l.
Proof. apply fold_max_ge. Qed.
Lemma list_min_in l : l <> [] -> In (list_min l) l.
Proof. destruct l as [|a l]; [congruence|]. intros _. unfold list_min. destruct (fold_min_in (hd 0 (a :: l)) (a :: l)) as [E|I]; [rewrite E; left; reflexivity|auto]. Qed.
Lemma list_max_in l : l <> [] -> In (list_max l) l.
Proof. destruct l as [|a l]; [congruence|]. intros _. unfold list_max. destruct (fold_max_in (hd 0 (a :: l)) (a :: l)) as [E|I]; [rewrite E; left; reflexivity|auto]. Qed.
Lemma min_lt_max l : NoDup l -> (2 <= length l)%nat -> list_min l < list_max l.
Proof.
  intros N L. destruct l as [|a [|b l]]; cbn in L; try lia. inversion N as [|? ? A _]; subst.
  pose proof (list_min_le (a :: b :: l) a (or_introl eq_refl)). pose proof (list_min_le (a :: b :: l) b (or_intror (or_introl eq_refl))).
  pose proof (list_max_ge (a :: b :: l) a (or_introl eq_refl)). pose proof (list_max_ge (a :: b :: l) b (or_intror (or_introl eq_refl))).
  destruct (Rle_lt_dec (list_max (a :: b :: l)) (list_min (a :: b :: l))); [|auto].
  exfalso. apply A. left. lra.
Qed.
Lemma num_sum_some l : num_sum (map Some l) = Some (sumR l).
Proof. induction l as [|x l IH]; [reflexivity|]. cbn [map num_sum fold_right]. fold (num_sum (map Some l)). rewrite IH. reflexivity. Qed.

(** * The delta-h function *)
Lemma pow6_mono a b : -0.02 <= a -> a <= b -> a ^ 6 + 0.12 * a <= b ^ 6 + 0.12 * b.
Proof.
  intros A L. assert (E : b ^ 6 + 0.12 * b - (a ^ 6 + 0.12 * a) =
    (b - a) * (b ^ 5 + b ^ 4 * a + b ^ 3 * a ^ 2 + b ^ 2 * a ^ 3 + b * a ^ 4 + a ^ 5 + 0.12)) by ring.
  enough (0 <= b ^ 5 + b ^ 4 * a + b ^ 3 * a ^ 2 + b ^ 2 * a ^ 3 + b * a ^ 4 + a ^ 5 + 0.12) by nra.
  replace (b ^ 5 + b ^ 4 * a + b ^ 3 * a ^ 2 + b ^ 2 * a ^ 3 + b * a ^ 4 + a ^ 5 + 0.12)
    with ((a + b) * ((b ^ 2) ^ 2 + b ^ 2 * a ^ 2 + (a ^ 2) ^ 2) + 0.12) by ring.
  destruct (Rle_lt_dec 0 (a + b)) as [P|P].
  - assert (0 <= (b ^ 2) ^ 2 + b ^ 2 * a ^ 2 + (a ^ 2) ^ 2).
    { pose proof (pow2_ge_0 b). pose proof (pow2_ge_0 a). pose proof (pow2_ge_0 (b ^ 2)). pose proof (pow2_ge_0 (a ^ 2)). nra. }
    nra.
  - assert (b <= 0.02) by lra. assert (b ^ 2 <= 0.0004) by nra. assert (a ^ 2 <= 0.0004) by nra.
    pose proof (pow2_ge_0 b). pose proof (pow2_ge_0 a).
    assert (0 <= (b ^ 2) ^ 2 + b ^ 2 * a ^ 2 + (a ^ 2) ^ 2 <= 1).
    { set (x := b ^ 2) in *. set (y := a ^ 2) in *. assert (0 <= x * y <= 0.0001) by nra. assert (0 <= x ^ 2 <= 0.0001) by nra.
      assert (0 <= y ^ 2 <= 0.0001) by nra. lra. }
    nra.
Qed.
Lemma pow4_mono a b : -0.05 <= a -> a <= b -> a ^ 4 + 0.19 * a <= b ^ 4 + 0.19 * b.
Proof.
  intros A L. assert (E : b ^ 4 + 0.19 * b - (a ^ 4 + 0.19 * a) = (b - a) * ((a + b) * (a ^ 2 + b ^ 2) + 0.19)) by ring.
  enough (0 <= (a + b) * (a ^ 2 + b ^ 2) + 0.19) by nra.
  pose proof (pow2_ge_0 b). pose proof (pow2_ge_0 a). destruct (Rle_lt_dec 0 (a + b)); [nra|].
  assert (b <= 0.05) by lra. assert (b ^ 2 <= 0.0025) by nra. assert (a ^ 2 <= 0.0025) by nra. nra.
Qed.
Lemma clip_mono' lo hi x y : x <= y -> clip lo hi x <= clip lo hi y.
Proof. unfold clip. intro. rmm; lra. Qed.
(** C43. The function of Huss et al. (2010): 0 to -1, -1 at the terminus, stronger lowering further down. *)
Theorem c43_delta_h : forall h h' area, 0 <= h -> h <= h' ->
  -1 <= delta_h h area <= 0 /\ delta_h 1 area = -1 /\ delta_h h' area <= delta_h h area /\ -0.001 <= delta_h 0 area.
Proof.
  intros h h' area H L. unfold delta_h. split; [|split; [|split]].
  - unfold clip. rmm; lra.
  - unfold clip. destruct (Rle_dec 20000000 area); [|destruct (Rle_dec 5000000 area)].
    + rewrite Rmax_right by lra. rewrite Rmin_left; lra.
    + rewrite Rmax_right by lra. rewrite Rmin_left; lra.
    + rewrite Rmax_left by lra. rewrite Rmin_left by lra. lra.
  - apply clip_mono'. destruct (Rle_dec 20000000 area); [|destruct (Rle_dec 5000000 area)].
    + pose proof (pow6_mono (h - 0.02) (h' - 0.02) ltac:(lra) ltac:(lra)). lra.
    + pose proof (pow4_mono (h - 0.05) (h' - 0.05) ltac:(lra) ltac:(lra)). lra.
    + nra.
  - unfold clip. destruct (Rle_dec 20000000 area); [|destruct (Rle_dec 5000000 area)]; rmm; lra.
Qed.
Print Assumptions c43_delta_h.

(** * Distribution over the pixels of a glacier *)
Definition rel (elevs : list R) (e : R) : R := (e - list_min elevs) / (list_max elevs - list_min elevs).
Lemma rel_01 elevs e : list_min elevs < list_max elevs -> In e elevs -> 0 <= rel elevs e <= 1.
Proof.
  intros L I. pose proof (list_min_le _ _ I). pose proof (list_max_ge _ _ I). unfold rel.
  assert (0 < / (list_max elevs - list_min elevs)) by (apply Rinv_0_lt_compat; lra). split; [apply Rmult_le_pos; lra|].
  apply Rmult_le_reg_r with (list_max elevs - list_min elevs); [lra|]. unfold Rdiv. rewrite Rmult_assoc, Rinv_l by lra. lra.
Qed.
Lemma sum_rel_ge1 elevs : list_min elevs < list_max elevs -> 1 <= sumR (map (rel elevs) elevs).
Proof.
  intro L. assert (N : elevs <> []) by (intros ->; unfold list_min, list_max in L; cbn in L; lra).
  pose proof (list_max_in elevs N) as I. apply in_split in I. destruct I as (l1 & l2 & E).
  assert (A : forall l, (forall x, In x l -> In x elevs) -> 0 <= sumR (map (rel elevs) l)).
  { intros l H. apply sumR_nonneg. apply Forall_forall. intros y Y. apply in_map_iff in Y. destruct Y as (x & <- & X).
    apply rel_01; auto. }
  assert (T : rel elevs (list_max elevs) = 1) by (unfold rel; field; lra).
  replace (sumR (map (rel elevs) elevs)) with (sumR (map (rel elevs) (l1 ++ list_max elevs :: l2))) by (rewrite <- E; reflexivity).
  rewrite map_app, sumR_app. cbn [map]. rewrite sumR_cons, T.
  pose proof (A l1 ltac:(intros x X; rewrite E; apply in_or_app; auto)).
  pose proof (A l2 ltac:(intros x X; rewrite E; apply in_or_app; right; right; auto)). lra.
Qed.
Lemma scale_surplus_some elevs x : list_min elevs < list_max elevs ->
  scale_surplus elevs 0 x = map Some (map (fun e => x * rel elevs e) elevs).
Proof.
  intro L. unfold scale_surplus. rewrite map_map. apply map_ext. intro e. destruct (Req_EM_T _ 0); [lra|].
  f_equal. unfold rel. field. lra.
Qed.
Lemma surplus_some loss elevs : list_min elevs < list_max elevs -> loss <> 0 ->
  surplus loss elevs = map Some (map (fun e => loss / sumR (map (rel elevs) elevs) * rel elevs e) elevs).
Proof.
  intros L N. pose proof (sum_rel_ge1 elevs L) as G. unfold surplus. cbv zeta.
  rewrite !scale_surplus_some by auto. rewrite !num_sum_some. rewrite !(sumR_map_scal (rel elevs)).
  set (S0 := sumR (map (rel elevs) elevs)) in *.
  assert (LE : elevs <> []) by (intros ->; unfold list_min, list_max in L; cbn in L; lra).
  assert (LN : INR (length elevs) <> 0) by (apply not_0_INR; destruct elevs; cbn; congruence).
  rewrite scale_surplus_some by auto. f_equal. apply map_ext. intro e. f_equal. field. repeat split; lra.
Qed.
Lemma sum_surplus loss elevs : list_min elevs < list_max elevs ->
  sumR (map (fun e => loss / sumR (map (rel elevs) elevs) * rel elevs e) elevs) = loss.
Proof. intro L. pose proof (sum_rel_ge1 elevs L). rewrite (sumR_map_scal (rel elevs)). field. lra. Qed.
Definition below (lim m : R) : bool := if Rlt_dec m lim then true else false.
Lemma merge_some lim mc : forall add, length add = length (filter (fun m => negb (below lim m)) mc) ->
  exists l, merge lim mc (map Some add) = map Some l /\ length l = length mc /\
  sumR l = sumR (map (fun m => if Rlt_dec m lim then lim else m) mc) + sumR add.
Proof.
  induction mc as [|m mc IH]; intros add E.
  { destruct add; [|discriminate]. exists []. cbn [map]. rewrite !sumR_nil. repeat split; lra. }
  cbn [merge map filter] in *. unfold below in E at 1. destruct (Rlt_dec m lim).
  - cbn [negb] in E. destruct (IH add E) as (l & A & B & C). exists (lim :: l). rewrite A. cbn [map length]. rewrite B, !sumR_cons, C.
    repeat split; lra.
  - cbn [negb length] in E. destruct add as [|a add]; [discriminate|]. injection E as E.
    destruct (IH add E) as (l & A & B & C). exists (m + a :: l). cbn [map merge]. rewrite A. cbn [map length]. rewrite B, !sumR_cons, C.
    repeat split; lra.
Qed.
Lemma combine_filter lim : forall mc elevs, length mc = length elevs ->
  length (filter (fun p : R * R => if Rlt_dec (fst p) lim then false else true) (combine mc elevs))
  = length (filter (fun m => negb (below lim m)) mc).
Proof.
  induction mc as [|m mc IH]; intros [|e elevs] L; try discriminate; [reflexivity|]. injection L as L. cbn [combine filter fst].
  unfold below at 1. destruct (Rlt_dec m lim); cbn [negb length]; rewrite IH; auto.
Qed.
Lemma NoDup_rest {A} (f : R * R -> bool) (mc : list A) : forall (ms elevs : list R), NoDup elevs -> NoDup (map snd (filter f (combine ms elevs))).
Proof.
  induction ms as [|m ms IH]; intros elevs N; [constructor|]. destruct elevs as [|e elevs]; [constructor|].
  inversion N as [|? ? N1 N2]; subst. cbn [combine filter]. specialize (IH _ N2). destruct (f (m, e)); [|auto].
  cbn [map snd]. constructor; [|auto]. intro I. apply N1. apply in_map_iff in I. destruct I as ([a b] & E & J). cbn in E. subst.
  apply filter_In in J. destruct J as (J & _). apply in_combine_r in J. exact J.
Qed.
Definition deltas (elevs : list R) (area : R) : list R :=
  map (fun e => delta_h ((list_max elevs - e) / (list_max elevs - list_min elevs)) area) elevs.
Lemma deltas_sum elevs area : list_min elevs < list_max elevs -> sumR (deltas elevs area) <= -1.
Proof.
  intro L. assert (N : elevs <> []) by (intros ->; unfold list_min, list_max in L; cbn in L; lra).
  pose proof (list_min_in elevs N) as I. apply in_split in I. destruct I as (l1 & l2 & E).
  set (f := fun e => delta_h ((list_max elevs - e) / (list_max elevs - list_min elevs)) area).
  assert (A : forall l, sumR (map f l) <= 0).
  { induction l as [|x l IH]; [cbn [map]; rewrite sumR_nil; lra|]. cbn [map]. rewrite sumR_cons.
    assert (f x <= 0) by (unfold f, delta_h, clip; apply Rmin_r). lra. }
  assert (T : f (list_min elevs) = -1).
  { unfold f. replace ((list_max elevs - list_min elevs) / (list_max elevs - list_min elevs)) with 1 by (field; lra).
    apply (c43_delta_h 0 0); lra. }
  unfold deltas. fold f. replace (map f elevs) with (map f (l1 ++ list_min elevs :: l2)) by (rewrite <- E; reflexivity).
  rewrite map_app, sumR_app. cbn [map]. rewrite sumR_cons, T. pose proof (A l1). pose proof (A l2). lra.
Qed.
Lemma sum_limited lim mc : (0 < length (filter (fun m => if Rlt_dec m lim then true else false) mc))%nat ->
  sumR mc < sumR (map (fun m => if Rlt_dec m lim then lim else m) mc).
Proof.
  induction mc as [|m mc IH]; [cbn; lia|]. cbn [filter map]. rewrite !sumR_cons. destruct (Rlt_dec m lim); intro H.
  - assert (A : sumR mc <= sumR (map (fun m => if Rlt_dec m lim then lim else m) mc)).
    { clear. induction mc as [|m mc IH]; [cbn [map]; lra|]. cbn [map]. rewrite !sumR_cons. destruct (Rlt_dec m lim); lra. }
    lra.
  - specialize (IH H). lra.
Qed.
Lemma map_const_sum {A} (l : list A) c : sumR (map (fun _ => c) l) = INR (length l) * c.
Proof. induction l as [|x l IH]; [cbn [map length INR]; rewrite sumR_nil; lra|]. cbn [map]. rewrite sumR_cons, IH. cbn [length]. rewrite S_INR. lra. Qed.
(** C43. The distributed change adds up to the total mass balance, for every list of different elevations, every limit. *)
Theorem c43_total : forall elevs total area limit, (2 <= length elevs)%nat -> NoDup elevs ->
  exists l, ice_mass_change elevs total area limit = map Some l /\ length l = length elevs /\ sumR l = total.
Proof.
  intros elevs total area limit L N. pose proof (min_lt_max elevs N L) as M. unfold ice_mass_change. cbv zeta.
  destruct (Rlt_dec total 0) as [T|T].
  2:{ exists (map (fun _ => total / INR (length elevs)) elevs). rewrite map_map, map_length, map_const_sum.
      repeat split. field. apply not_0_INR. lia. }
  destruct (Req_EM_T (list_max elevs - list_min elevs) 0); [lra|].
  fold (deltas elevs area). pose proof (deltas_sum elevs area M) as DS. set (S0 := sumR (deltas elevs area)) in *.
  set (mc := map (fun d => total / S0 * d) (deltas elevs area)).
  assert (LM : length mc = length elevs) by (unfold mc, deltas; rewrite !map_length; reflexivity).
  assert (SM : sumR mc = total).
  { unfold mc. rewrite (sumR_map_scal (fun d => d)), map_id. fold S0. field. lra. }
  assert (P : exists l, map Some mc = map Some l /\ length l = length elevs /\ sumR l = total) by (exists mc; auto).
  destruct (Rlt_dec limit 0); [|exact P].
  set (rest := filter (fun p : R * R => if Rlt_dec (fst p) limit then false else true) (combine mc elevs)) in *.
  destruct (Nat.ltb_spec 0 (length (filter (fun m => if Rlt_dec m limit then true else false) mc))) as [C|C]; [|exact P].
  destruct (Nat.ltb_spec 1 (length rest)) as [D|D]; [|exact P]. cbn [andb].
  assert (MR : list_min (map snd rest) < list_max (map snd rest)).
  { apply min_lt_max; [apply (NoDup_rest (A:=R)); auto; exact mc|rewrite map_length; lia]. }
  pose proof (sum_limited limit mc C) as SL. set (diff := sumR mc - _) in *.
  rewrite surplus_some by (auto; unfold diff; lra).
  set (add := map (fun e => diff / sumR (map (rel (map snd rest)) (map snd rest)) * rel (map snd rest) e) (map snd rest)).
  destruct (merge_some limit mc add) as (l & A & B & C0).
  { unfold add. rewrite !map_length. apply combine_filter. auto. }
  exists l. split; [exact A|]. split; [lia|]. rewrite C0. unfold add. rewrite sum_surplus by auto. unfold diff. lra.
Qed.
Print Assumptions c43_total.
Lemma filter_none lim (f : R -> R) l : Forall (fun e => lim <= f e) l ->
  filter (fun m => if Rlt_dec m lim then true else false) (map f l) = [].
Proof. induction 1 as [|e l H HH IH]; [reflexivity|]. cbn [map filter]. destruct (Rlt_dec (f e) lim); [lra|exact IH]. Qed.
(** C43. Gains are spread evenly. *)
Theorem c43_gain : forall elevs total area limit, 0 <= total ->
  ice_mass_change elevs total area limit = map (fun _ => Some (total / INR (length elevs))) elevs.
Proof. intros. unfold ice_mass_change. destruct (Rlt_dec total 0); [lra|reflexivity]. Qed.
Print Assumptions c43_gain.
(** C43. Losses that need no limitation: every pixel loses mass or keeps it, the lower the more; the lowest one loses
    most. *)
Theorem c43_loss : forall elevs total area limit, (2 <= length elevs)%nat -> NoDup elevs -> total < 0 ->
  exists f, (forall e e', In e elevs -> In e' elevs -> e <= e' -> f e <= f e' <= 0) /\
  (forall e, In e elevs -> f (list_min elevs) <= f e) /\ f (list_min elevs) < 0 /\
  (Forall (fun e => limit <= f e) elevs \/ 0 <= limit -> ice_mass_change elevs total area limit = map (fun e => Some (f e)) elevs).
Proof.
  intros elevs total area limit L N T. pose proof (min_lt_max elevs N L) as M. pose proof (deltas_sum elevs area M) as DS.
  set (S0 := sumR (deltas elevs area)) in *.
  set (g := fun e => delta_h ((list_max elevs - e) / (list_max elevs - list_min elevs)) area).
  set (c := total / S0). assert (C : 0 < c).
  { unfold c. replace (total / S0) with ((- total) / (- S0)) by (field; lra). apply Rdiv_lt_0_compat; lra. }
  assert (G : forall e e', In e elevs -> In e' elevs -> e <= e' -> g e <= g e' <= 0).
  { intros e e' I I' Q. pose proof (list_max_ge _ _ I'). assert (K : 0 < / (list_max elevs - list_min elevs)) by (apply Rinv_0_lt_compat; lra).
    destruct (c43_delta_h ((list_max elevs - e') / (list_max elevs - list_min elevs)) ((list_max elevs - e) / (list_max elevs - list_min elevs)) area)
      as (A & _ & B & _).
    - unfold Rdiv. apply Rmult_le_pos; lra.
    - unfold Rdiv. apply Rmult_le_compat_r; lra.
    - unfold g. lra. }
  assert (NE : elevs <> []) by (intros ->; cbn in L; lia). pose proof (list_min_in elevs NE) as MI.
  exists (fun e => c * g e). split; [|split; [|split]].
  - intros e e' I I' Q. pose proof (G e e' I I' Q). split; nra.
  - intros e I. pose proof (G (list_min elevs) e MI I (list_min_le _ _ I)). nra.
  - assert (E : g (list_min elevs) = -1).
    { unfold g. replace ((list_max elevs - list_min elevs) / (list_max elevs - list_min elevs)) with 1 by (field; lra).
      apply (c43_delta_h 0 0); lra. }
    rewrite E. lra.
  - intro H. unfold ice_mass_change. cbv zeta. destruct (Rlt_dec total 0); [|lra].
    destruct (Req_EM_T (list_max elevs - list_min elevs) 0); [lra|]. fold (deltas elevs area). fold S0. fold c.
    assert (E : map (fun d => c * d) (deltas elevs area) = map (fun e => c * g e) elevs) by (unfold deltas; rewrite map_map; reflexivity).
    rewrite E. rewrite <- (map_map (fun e => c * g e) Some). destruct (Rlt_dec limit 0) as [Q|Q]; [|reflexivity].
    destruct H as [H|H]; [|lra].
    assert (Z : filter (fun m => if Rlt_dec m limit then true else false) (map (fun e => c * g e) elevs) = []).
    { apply filter_none. exact H. }
    rewrite Z. reflexivity.
Qed.
Print Assumptions c43_loss.
(** C43, refuted when the lowering is limited: the surplus goes to the highest pixels. Three pixels 0, 50 and 100 m above
    the terminus, a total of -125 and a limit of -50: the changes are -50, -25 and -50. *)
Theorem c43_terminus_refuted : exists elevs total area limit a b c, elevs = [a; b; c] /\ a < b < c /\
  ice_mass_change elevs total area limit = [Some (-50); Some (-25); Some (-50)].
Proof.
  exists [0; 50; 100], (-125), 1000000, (-50), 0, 50, 100. split; [reflexivity|]. split; [lra|].
  assert (LO : list_min [0; 50; 100] = 0) by (unfold list_min; cbn; rmm; lra).
  assert (HI : list_max [0; 50; 100] = 100) by (unfold list_max; cbn; rmm; lra).
  unfold ice_mass_change. cbv zeta. rewrite LO, HI. destruct (Rlt_dec (-125) 0); [|lra]. destruct (Req_EM_T (100 - 0) 0); [lra|].
  assert (D : map (fun e => delta_h ((100 - e) / (100 - 0)) 1000000) [0; 50; 100] = [-1; -0.25; 0]).
  { cbn [map]. unfold delta_h, clip. destruct (Rle_dec 20000000 1000000); [lra|]. destruct (Rle_dec 5000000 1000000); [lra|].
    repeat f_equal; rmm; lra. }
  rewrite D. rewrite !sumR_cons, sumR_nil.
  assert (MC : map (fun d => -125 / (-1 + (-0.25 + (0 + 0))) * d) [-1; -0.25; 0] = [-100; -25; 0]).
  { cbn [map]. repeat f_equal; field_simplify; lra. }
  rewrite MC. destruct (Rlt_dec (-50) 0); [|lra]. cbn [filter combine fst map snd].
  destruct (Rlt_dec (-100) (-50)); [|lra]. destruct (Rlt_dec (-25) (-50)); [lra|]. destruct (Rlt_dec 0 (-50)); [lra|].
  cbn [length Nat.ltb Nat.leb andb map snd].
  assert (LO2 : list_min [50; 100] = 50) by (unfold list_min; cbn; rmm; lra).
  assert (HI2 : list_max [50; 100] = 100) by (unfold list_max; cbn; rmm; lra).
  rewrite surplus_some by (rewrite ?LO2, ?HI2, ?sumR_cons, ?sumR_nil; lra).
  cbn [map]. unfold rel. rewrite LO2, HI2, !sumR_cons, !sumR_nil. cbn [merge].
  destruct (Rlt_dec (-100) (-50)); [|lra]. destruct (Rlt_dec (-25) (-50)); [lra|]. destruct (Rlt_dec 0 (-50)); [lra|].
  unfold add_num, numplus. repeat f_equal; field_simplify; lra.
Qed.
Print Assumptions c43_terminus_refuted.
(** C43, refuted for glaciers (parts) at one elevation: the result is missing. *)
Theorem c43_flat_refuted : exists elevs, (2 <= length elevs)%nat /\
  forall total area limit, total < 0 -> Forall (fun m => m = None) (ice_mass_change elevs total area limit).
Proof.
  exists [100; 100]. split; [cbn; lia|]. intros total area limit T. unfold ice_mass_change. cbv zeta.
  destruct (Rlt_dec total 0); [|lra].
  replace (list_max [100; 100] - list_min [100; 100]) with 0 by (unfold list_min, list_max; cbn; rmm; lra).
  destruct (Req_EM_T 0 0); [|lra]. repeat constructor.
Qed.
Print Assumptions c43_flat_refuted.

(** * The whole grid *)
(** Values of the selected pixels *)
Definition pick (sel : gpix -> bool) (px : list gpix) (cur : list num) : list num :=
  map snd (filter (fun q => sel (fst q)) (combine px cur)).
Lemma scatter_length sel px : forall vals cur, length cur = length px -> length (scatter sel px vals cur) = length px.
Proof.
  induction px as [|p px IH]; intros vals [|c cur] L; try discriminate; [reflexivity|]. injection L as L. cbn [scatter length].
  destruct (sel p); [destruct vals|]; cbn [length]; rewrite IH; auto.
Qed.
Lemma pick_scatter sel px : forall vals cur, length cur = length px -> length vals = length (filter sel px) ->
  pick sel px (scatter sel px vals cur) = vals.
Proof.
  unfold pick. induction px as [|p px IH]; intros vals [|c cur] L V; try discriminate; [destruct vals; [reflexivity|discriminate]|].
  injection L as L. cbn [scatter filter] in *. destruct (sel p) eqn:E.
  - destruct vals as [|v vals]; [discriminate|]. cbn [combine filter fst]. rewrite E. cbn [map snd]. rewrite IH; auto.
  - cbn [combine filter fst]. rewrite E. apply IH; auto.
Qed.
Lemma pick_scatter_other sel sel' px : (forall p, In p px -> sel p = true -> sel' p = false) ->
  forall vals cur, length cur = length px -> pick sel' px (scatter sel px vals cur) = pick sel' px cur.
Proof.
  unfold pick. induction px as [|p px IH]; intros D vals [|c cur] L; try discriminate; [reflexivity|]. injection L as L.
  assert (D' : forall q, In q px -> sel q = true -> sel' q = false) by (intros; apply D; [right|]; auto).
  cbn [scatter]. destruct (sel p) eqn:E.
  - pose proof (D p (or_introl eq_refl) E) as S0. destruct vals; cbn [combine filter fst]; rewrite S0; apply IH; auto.
  - cbn [combine filter fst]. destruct (sel' p); cbn [map snd]; rewrite IH; auto.
Qed.
Lemma filter_filter {A} (f g : A -> bool) l : filter g (filter f l) = filter (fun x => f x && g x) l.
Proof. induction l as [|x l IH]; [reflexivity|]. cbn. destruct (f x); cbn; [destruct (g x); rewrite IH; reflexivity|auto]. Qed.
Lemma update_glacier_length res px cur id : length cur = length px -> length (update_glacier res px cur id) = length px.
Proof. intro L. unfold update_glacier. cbv zeta. destruct (_ <? 2)%nat; [auto|apply scatter_length; auto]. Qed.
Lemma update_other res px cur id sel : length cur = length px ->
  (forall p, In p px -> update_pixel id p = true -> sel p = false) ->
  pick sel px (update_glacier res px cur id) = pick sel px cur.
Proof. intros L D. unfold update_glacier. cbv zeta. destruct (_ <? 2)%nat; [auto|apply pick_scatter_other; auto]. Qed.
Lemma fold_other res px sel ids : (forall id p, In id ids -> In p px -> update_pixel id p = true -> sel p = false) ->
  forall cur, length cur = length px ->
  pick sel px (fold_left (update_glacier res px) ids cur) = pick sel px cur /\ length (fold_left (update_glacier res px) ids cur) = length px.
Proof.
  induction ids as [|id ids IH]; intros D cur L; [auto|]. cbn [fold_left].
  destruct (IH ltac:(intros; eapply D; [right|..]; eauto) (update_glacier res px cur id) (update_glacier_length _ _ _ _ L)) as (A & B).
  rewrite A. split; [|exact B]. apply update_other; auto. intros; apply (D id); auto. left; auto.
Qed.
Lemma update_pixel_id id id' p : update_pixel id p = true -> id <> id' -> update_pixel id' p = false.
Proof.
  unfold update_pixel, on_glacier. rewrite !andb_true_iff. intros ((A & _) & _) N. apply Z.eqb_eq in A. subst id.
  destruct (Z.eqb_spec (g_id p) id'); [contradiction|reflexivity].
Qed.
Lemma geometry_pick res ids px id : NoDup ids -> In id ids ->
  let u := filter (update_pixel id) px in (2 <= length u)%nat ->
  forall mc, mc = ice_mass_change (map g_elev u) (sumR (map total_mb u)) (INR (length (filter (on_glacier id) px)) * res ^ 2)
       (allowed_change (filter (on_glacier id) px)) -> length mc = length u ->
  pick (update_pixel id) px (update_geometry res ids px) = map (fun q => new_thickness (fst q) (snd q)) (combine u mc).
Proof.
  intros N I u U mc M LM. unfold update_geometry. apply in_split in I. destruct I as (l1 & l2 & ->).
  rewrite fold_left_app. cbn [fold_left].
  assert (D : forall l, (forall x, In x l -> x <> id) -> forall i p, In i l -> In p px -> update_pixel i p = true -> update_pixel id p = false)
    by (intros l H i p J _ Q; eapply update_pixel_id; eauto).
  pose proof (NoDup_remove_2 _ _ _ N) as NI.
  assert (L1 : forall x, In x l1 -> x <> id) by (intros x X ->; apply NI; apply in_or_app; auto).
  assert (L2 : forall x, In x l2 -> x <> id) by (intros x X ->; apply NI; apply in_or_app; auto).
  destruct (fold_other res px (update_pixel id) l1 (D l1 L1) (map (fun p => Some (g_thick p)) px) (map_length _ _)) as (_ & B).
  set (c1 := fold_left (update_glacier res px) l1 _) in *.
  destruct (fold_other res px (update_pixel id) l2 (D l2 L2) (update_glacier res px c1 id) (update_glacier_length _ _ _ _ B)) as (E & _).
  rewrite E. unfold update_glacier. cbv zeta. rewrite filter_filter.
  change (fun x => on_glacier id x && thick_enough x) with (update_pixel id). fold u.
  destruct (Nat.ltb_spec (length u) 2); [lia|]. rewrite <- M. apply pick_scatter; [exact B|].
  rewrite map_length, combine_length, LM. fold u. lia.
Qed.
Lemma new_thickness_sum u : forall l, length l = length u ->
  exists ths, map (fun q => new_thickness (fst q) (snd q)) (combine u (map Some l)) = map Some ths /\
  length ths = length u /\ Forall (fun t => 0 <= t) ths /\
  sumR (map g_ice0 u) + sumR l - sumR (map firn_mb u) <= ICE_DENSITY * sumR ths /\
  (Forall (fun t => 0 < t) ths -> sumR (map g_ice0 u) + sumR l - sumR (map firn_mb u) = ICE_DENSITY * sumR ths).
Proof.
  induction u as [|p u IH]; intros [|m l] L; try discriminate.
  { exists []. cbn [map combine]. rewrite !sumR_nil. split; [auto|]. split; [auto|]. split; [auto|]. split; [lra|intros; lra]. }
  injection L as L. destruct (IH l L) as (ths & A & B & C & D & E).
  set (t := Rmax (old_thickness p + (m - firn_mb p) / ICE_DENSITY) 0).
  exists (t :: ths). cbn [map combine fst snd new_thickness]. rewrite A. fold t. split; [reflexivity|]. split; [cbn; lia|].
  assert (TD : g_ice0 p + m - firn_mb p <= ICE_DENSITY * t /\ (0 < t -> g_ice0 p + m - firn_mb p = ICE_DENSITY * t)).
  { unfold t, old_thickness. assert (ID : 0 < ICE_DENSITY) by (unfold ICE_DENSITY; lra).
    assert (Q : ICE_DENSITY * (g_ice0 p / ICE_DENSITY + (m - firn_mb p) / ICE_DENSITY) = g_ice0 p + m - firn_mb p) by (field; lra).
    set (x := g_ice0 p / ICE_DENSITY + (m - firn_mb p) / ICE_DENSITY) in *.
    split; [pose proof (Rmax_l x 0); nra|]. intro H. destruct (Rle_lt_dec x 0); [rewrite Rmax_right in H by lra; lra|].
    rewrite Rmax_left by lra. lra. }
  split; [constructor; [apply Rmax_r|auto]|]. rewrite !sumR_cons. split; [lra|].
  intro F. inversion F; subst. destruct TD as (_ & TD). specialize (TD ltac:(auto)). specialize (E ltac:(auto)). lra.
Qed.
Lemma sum_minus (u : list gpix) :
  sumR (map g_ice0 u) + sumR (map total_mb u) - sumR (map firn_mb u) = sumR (map g_ice1 u).
Proof. induction u as [|p u IH]; [cbn [map]; rewrite !sumR_nil; lra|]. cbn [map]. rewrite !sumR_cons. unfold total_mb in *. lra. Qed.
(** C43. Whole grid: for every glacier with at least two pixels of 10 m of ice at different elevations, all thicknesses
    of these pixels are available and non-negative afterwards, and the ice mass is the one before the redistribution,
    unless a pixel runs out of ice (the mass is larger then). *)
Theorem c43_conserves : forall res ids px id, NoDup ids -> In id ids ->
  let u := filter (update_pixel id) px in (2 <= length u)%nat -> NoDup (map g_elev u) ->
  exists ths, pick (update_pixel id) px (update_geometry res ids px) = map Some ths /\ length ths = length u /\
  Forall (fun t => 0 <= t) ths /\ sumR (map g_ice1 u) <= ICE_DENSITY * sumR ths /\
  (Forall (fun t => 0 < t) ths -> ICE_DENSITY * sumR ths = sumR (map g_ice1 u)).
Proof.
  intros res ids px id N I u U NE.
  destruct (c43_total (map g_elev u) (sumR (map total_mb u)) (INR (length (filter (on_glacier id) px)) * res ^ 2)
     (allowed_change (filter (on_glacier id) px)) ltac:(rewrite map_length; exact U) NE) as (l & A & B & C).
  rewrite map_length in B.
  pose proof (geometry_pick res ids px id N I U (map Some l) (eq_sym A) ltac:(rewrite map_length; exact B)) as P. fold u in P.
  destruct (new_thickness_sum u l B) as (ths & T & L & F & S1 & S2). exists ths. rewrite P. split; [exact T|]. split; [exact L|].
  split; [exact F|]. pose proof (sum_minus u). rewrite C in *. split; [lra|]. intro Q. specialize (S2 Q). lra.
Qed.
Print Assumptions c43_conserves.
(** C43. All other pixels keep their ice: those without glacier, with less than 10 m of ice, and glaciers with fewer
    than two thick pixels. *)
Theorem c43_frame : forall res ids px sel,
  (forall id p, In id ids -> In p px -> sel p = true -> update_pixel id p = true -> (length (filter (update_pixel id) px) < 2)%nat) ->
  pick sel px (update_geometry res ids px) = pick sel px (map (fun p => Some (g_thick p)) px) /\
  length (update_geometry res ids px) = length px.
Proof.
  intros res ids px sel H. unfold update_geometry.
  assert (G : forall cur, length cur = length px -> pick sel px (fold_left (update_glacier res px) ids cur) = pick sel px cur /\
              length (fold_left (update_glacier res px) ids cur) = length px).
  { induction ids as [|id ids IH]; intros cur L; [auto|]. cbn [fold_left].
    destruct (IH ltac:(intros; eapply H; eauto; right; auto) (update_glacier res px cur id) (update_glacier_length _ _ _ _ L)) as (A & B).
    rewrite A. split; [|exact B]. unfold update_glacier. cbv zeta. rewrite filter_filter.
    change (fun x => on_glacier id x && thick_enough x) with (update_pixel id).
    destruct (Nat.ltb_spec (length (filter (update_pixel id) px)) 2); [reflexivity|]. apply pick_scatter_other; auto.
    intros p P U. destruct (sel p) eqn:S0; [|reflexivity]. specialize (H id p (or_introl eq_refl) P S0 U). lia. }
  apply G. apply map_length.
Qed.
Print Assumptions c43_frame.
(** A pixel belongs to the update of a glacier iff it carries its number and had at least 10 m of ice. *)
Theorem c43_pixels : forall id p, update_pixel id p = true <-> g_id p = id /\ 9170 <= g_ice0 p.
Proof.
  intros. unfold update_pixel, on_glacier, thick_enough, rgt0, old_thickness, ICE_DENSITY. rewrite !andb_true_iff, Z.eqb_eq.
  destruct (Rlt_dec 0 (g_ice0 p / 917)), (Rle_dec 10 (g_ice0 p / 917)); split; intros H; try (intuition congruence || lra).
  all: try (destruct H as ((A & B) & C); congruence). all: split; [tauto|lra].
Qed.
Print Assumptions c43_pixels.
(** C43, refuted: ice that runs out creates mass. Two pixels of 10 and 100 m; the lower one loses more than it has. *)
Theorem c43_runs_out_refuted : exists res ids px id, NoDup ids /\ In id ids /\
  let u := filter (update_pixel id) px in (2 <= length u)%nat /\ NoDup (map g_elev u) /\
  exists ths, pick (update_pixel id) px (update_geometry res ids px) = map Some ths /\
  sumR (map g_ice1 u) < ICE_DENSITY * sumR ths.
Proof.
  set (p1 := GP 1 2000 9170 0 0 0 0). set (p2 := GP 1 3000 91700 0 80000 0 (80000 / ICE_DENSITY)).
  exists 10, [1%Z], [p1; p2], 1%Z. split; [repeat constructor; cbn; tauto|]. split; [left; auto|]. cbv zeta.
  assert (U1 : update_pixel 1 p1 = true) by (apply c43_pixels; cbn; split; [auto|lra]).
  assert (U2 : update_pixel 1 p2 = true) by (apply c43_pixels; cbn; split; [auto|lra]).
  assert (F : filter (update_pixel 1) [p1; p2] = [p1; p2]) by (cbn [filter]; rewrite U1, U2; reflexivity).
  split; [rewrite F; cbn; lia|]. split; [rewrite F; cbn; repeat constructor; cbn; intuition lra|].
  pose proof (geometry_pick 10 [1%Z] [p1; p2] 1%Z ltac:(repeat constructor; cbn; tauto) ltac:(left; auto)) as G. cbv zeta in G.
  rewrite F in G. specialize (G ltac:(cbn; lia) _ eq_refl).
  assert (O1 : on_glacier 1 p1 = true) by (unfold update_pixel in U1; rewrite andb_true_iff in U1; tauto).
  assert (O2 : on_glacier 1 p2 = true) by (unfold update_pixel in U2; rewrite andb_true_iff in U2; tauto).
  assert (M : ice_mass_change (map g_elev [p1; p2]) (sumR (map total_mb [p1; p2]))
     (INR (length (filter (on_glacier 1) [p1; p2])) * 10 ^ 2) (allowed_change (filter (on_glacier 1) [p1; p2])) = [Some (-20870); Some 0]).
  { cbn [filter]. rewrite O1, O2. cbn [map g_elev length]. rewrite !sumR_cons, sumR_nil.
    replace (total_mb p1) with (-9170) by (unfold total_mb, firn_mb; cbn; lra).
    replace (total_mb p2) with (-11700) by (unfold total_mb, firn_mb; cbn; lra).
    unfold ice_mass_change. cbv zeta.
    assert (LO : list_min [2000; 3000] = 2000) by (unfold list_min; cbn; rmm; lra).
    assert (HI : list_max [2000; 3000] = 3000) by (unfold list_max; cbn; rmm; lra).
    change (g_elev p1) with 2000. change (g_elev p2) with 3000. rewrite LO, HI.
    destruct (Rlt_dec (-9170 + (-11700 + 0)) 0); [|lra]. destruct (Req_EM_T (3000 - 2000) 0); [lra|].
    assert (AR : INR 2 * 10 ^ 2 = 200) by (cbn; lra). rewrite AR.
    assert (D : map (fun e => delta_h ((3000 - e) / (3000 - 2000)) 200) [2000; 3000] = [-1; 0]).
    { cbn [map]. unfold delta_h, clip. destruct (Rle_dec 20000000 200); [lra|]. destruct (Rle_dec 5000000 200); [lra|].
      repeat f_equal; rmm; lra. }
    rewrite D. rewrite !sumR_cons, sumR_nil.
    assert (MC : map (fun d => (-9170 + (-11700 + 0)) / (-1 + (0 + 0)) * d) [-1; 0] = [-20870; 0]).
    { cbn [map]. repeat f_equal; field_simplify; lra. }
    rewrite MC. set (lim := allowed_change [p1; p2]).
    assert (A0 : lim <= 0) by (apply Rmin_r).
    cbn [filter combine fst map snd].
    destruct (Rlt_dec 0 lim); [lra|].
    destruct (Rlt_dec lim 0); [|reflexivity]. destruct (Rlt_dec (-20870) lim); reflexivity. }
  rewrite M in G. specialize (G eq_refl). rewrite G, F. cbn [combine map fst snd new_thickness].
  eexists [_; _]. split; [reflexivity|]. cbn [map]. rewrite !sumR_cons, !sumR_nil. unfold old_thickness, firn_mb, ICE_DENSITY.
  cbn [g_ice0 g_ice1 g_firn0 g_firn1 p1 p2]. rmm; lra.
Qed.
Print Assumptions c43_runs_out_refuted.

(** * The limit *)
Lemma insert_perm x l : Permutation (x :: l) (insert x l).
Proof.
  induction l as [|y l IH]; [reflexivity|]. cbn. destruct (Rle_dec x y); [reflexivity|].
  rewrite perm_swap. constructor. exact IH.
Qed.
Lemma sort_perm l : Permutation l (sort l).
Proof. induction l as [|x l IH]; [reflexivity|]. cbn. rewrite <- insert_perm. constructor. exact IH. Qed.
Lemma filter_perm_length {A} (f : A -> bool) l l' : Permutation l l' -> length (filter f l) = length (filter f l').
Proof. induction 1; cbn; auto; repeat (destruct (f _); cbn; auto); congruence. Qed.
Lemma filter_map_length {A} (g : A -> R) f (l : list A) : length (filter (fun x => f (g x)) l) = length (filter f (map g l)).
Proof. induction l as [|x l IH]; [reflexivity|]. cbn. destruct (f (g x)); cbn; auto. Qed.
(** C43. The limit of the lowering is the strongest mass loss near the terminus: among pixels containing all those less
    than 50 m above the lowest one and at least a tenth of the glacier; never positive. *)
Theorem c43_limit : forall g, g <> [] -> exists near, let lim := allowed_change g in
  near = filter (fun p => if Rle_dec (g_elev p) (terminus_elev (map g_elev g)) then true else false) g /\
  lim <= 0 /\ (lim = 0 \/ exists p, In p near /\ total_mb p = lim) /\
  (forall p, In p near -> lim <= total_mb p) /\
  (forall p, In p g -> (forall q, In q g -> g_elev p <= g_elev q + 50) -> In p near) /\
  (length g <= 10 * length near)%nat.
Proof.
  intros g N. eexists. split; [reflexivity|].
  set (near := filter _ g). set (E := map g_elev g). assert (EN : E <> []) by (destruct g; [congruence|discriminate]).
  assert (NB : forall p, In p g -> g_elev p <= list_min E + 50 -> In p near).
  { intros p I Q. apply filter_In. split; [auto|]. destruct (Rle_dec (g_elev p) (terminus_elev (map g_elev g))) as [|X]; [auto|].
    exfalso. apply X. unfold terminus_elev. fold E. eapply Rle_trans; [exact Q|apply Rmax_r]. }
  assert (NN : near <> []).
  { pose proof (list_min_in E EN) as I. apply in_map_iff in I. destruct I as (p & Q & I). intro Z.
    assert (In p near) by (apply NB; [auto|rewrite Q; lra]). rewrite Z in H. destruct H. }
  assert (MN : map total_mb near <> []) by (intro Z; apply map_eq_nil in Z; contradiction).
  split; [apply Rmin_r|]. split; [|split; [|split]].
  - unfold allowed_change, terminus_mb. fold near. cbv zeta. fold E. set (m := list_min (map total_mb near)).
    destruct (Rle_lt_dec 0 m); [left; apply Rmin_right; auto|right]. rewrite Rmin_left by lra.
    pose proof (list_min_in _ MN) as I. apply in_map_iff in I. destruct I as (p & Q & I). exists p. auto.
  - intros p I. unfold allowed_change. eapply Rle_trans; [apply Rmin_l|]. unfold terminus_mb. apply list_min_le. apply in_map. exact I.
  - intros p I Q. apply NB; [auto|]. pose proof (list_min_in E EN) as J. apply in_map_iff in J. destruct J as (q & <- & J). auto.
  - set (top := terminus_elev (map g_elev g)) in *. set (f := fun e => if Rle_dec e top then true else false).
    assert (L : length near = length (filter f (sort E))).
    { transitivity (length (filter (fun x => f (g_elev x)) g)); [reflexivity|].
      rewrite (filter_map_length g_elev f g). apply filter_perm_length. apply sort_perm. }
    rewrite L. set (n := ((length E + 9) / 10)%nat).
    assert (A : (n <= length (filter f (sort E)))%nat).
    { rewrite <- (firstn_skipn n (sort E)), filter_app, app_length.
      assert (FF : filter f (firstn n (sort E)) = firstn n (sort E)).
      { assert (H : forall x, In x (firstn n (sort E)) -> f x = true).
        { intros x X. unfold f. destruct (Rle_dec x top) as [|Y]; [auto|]. exfalso. apply Y. unfold top, terminus_elev. fold E. fold n.
          eapply Rle_trans; [apply list_max_ge; exact X|apply Rmax_l]. }
        revert H. generalize (firstn n (sort E)). intro l. induction l as [|x l IH]; intro H; [reflexivity|].
        cbn. rewrite (H x (or_introl eq_refl)). f_equal. apply IH. intros; apply H; right; auto. }
      rewrite FF, firstn_length.
      assert (n <= length (sort E))%nat; [|lia]. rewrite <- (Permutation_length (sort_perm E)). unfold n.
      assert (1 <= length E)%nat by (destruct E; [congruence|cbn; lia]).
      apply Nat.div_le_upper_bound; lia. }
    assert (length g = length E) by (unfold E; rewrite map_length; auto).
    pose proof (Nat.div_mod (length E + 9) 10 ltac:(lia)). pose proof (Nat.mod_upper_bound (length E + 9) 10 ltac:(lia)).
    fold n in H0. lia.
Qed.
Print Assumptions c43_limit.
(** Two glaciers, one with two thick pixels and a gain. *)
Example c43_example : let p1 := GP 1 2000 91700 0 92000 0 (92000 / ICE_DENSITY) in
  let p2 := GP 1 2500 91700 0 91800 0 (91800 / ICE_DENSITY) in let p3 := GP 2 2500 900 0 800 0 (800 / ICE_DENSITY) in
  let px := [p1; p3; p2] in NoDup [1%Z; 2%Z] /\ length (filter (update_pixel 1) px) = 2%nat /\
  NoDup (map g_elev (filter (update_pixel 1) px)) /\
  pick (fun p => (g_id p =? 2)%Z) px (update_geometry 10 [1%Z; 2%Z] px) = [Some (800 / ICE_DENSITY)].
Proof.
  intros p1 p2 p3 px.
  assert (U1 : update_pixel 1 p1 = true) by (apply c43_pixels; cbn; split; [auto|lra]).
  assert (U2 : update_pixel 1 p2 = true) by (apply c43_pixels; cbn; split; [auto|lra]).
  assert (U3 : forall id, update_pixel id p3 = false).
  { intro id. destruct (update_pixel id p3) eqn:E; [|auto]. apply c43_pixels in E. cbn in E. lra. }
  assert (F : filter (update_pixel 1) px = [p1; p2]) by (unfold px; cbn [filter]; rewrite U1, U2, (U3 1%Z); reflexivity).
  split; [repeat constructor; cbn; lia|]. rewrite F. split; [reflexivity|]. split; [repeat constructor; cbn; intuition lra|].
  destruct (c43_frame 10 [1%Z; 2%Z] px (fun p => (g_id p =? 2)%Z)) as (A & _); [|etransitivity; [exact A|reflexivity]].
  intros id p I P S0 Q. destruct P as [<-|[<-|[<-|[]]]]; try discriminate. rewrite U3 in Q. discriminate.
Qed.
