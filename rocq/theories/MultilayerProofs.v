(** Proofs about the multilayer kernels melt, sublimation, runoff, add_snow. *)
From Verif Require Import Common Constants SnowModel MultilayerModel MultilayerSpec.

Lemma Lf_pos : 0 < Lf. Proof. unfold Lf; lra. Qed.

(** * Lists *)
Lemma Forall3_length {A B C} (P : A -> B -> C -> Prop) la lb lc :
  Forall3 P la lb lc -> length la = length lb /\ length lc = length la.
Proof. induction 1; cbn; lia. Qed.

Lemma Forall_firstn {A} (P : A -> Prop) n l : Forall P l -> Forall P (firstn n l).
Proof. intros H; revert n; induction H; intros [|n]; cbn; constructor; auto. Qed.
Lemma Forall_skipn {A} (P : A -> Prop) n l : Forall P l -> Forall P (skipn n l).
Proof. intros H; revert n; induction H; intros [|n]; cbn; auto. Qed.

(** * Melt *)
Lemma surplus_nonneg l : 0 <= surplus l.
Proof. unfold surplus. apply Rmax_l. Qed.

Lemma surplus_cold l : 0 <= hc l -> ~ hc l * (T0 - tmp l) < 0 -> surplus l = 0.
Proof.
  intros Hh H. unfold surplus. apply Rmax_left.
  apply Rmult_le_reg_r with Lf; [exact Lf_pos|].
  unfold Rdiv. rewrite Rmult_assoc, Rinv_l by (pose proof Lf_pos; lra). lra.
Qed.
Lemma surplus_warm l : hc l * (T0 - tmp l) < 0 -> surplus l = - (hc l * (T0 - tmp l) / Lf).
Proof.
  intros H. unfold surplus. rewrite Rmax_right.
  - unfold Rdiv; ring.
  - apply Rmult_le_reg_r with Lf; [exact Lf_pos|].
    unfold Rdiv. rewrite Rmult_assoc, Rinv_l by (pose proof Lf_pos; lra). lra.
Qed.

Lemma warm_tmp l : 0 <= hc l -> hc l * (T0 - tmp l) < 0 -> 0 < hc l /\ T0 < tmp l.
Proof.
  intros H H0.
  assert (0 < hc l).
  { destruct H as [H|H]; [exact H|]. rewrite <- H, Rmult_0_l in H0. lra. }
  split; [assumption|]. nra.
Qed.

Lemma melt_tmp l t :
  0 <= hc l ->
  t = (if (if Rlt_dec (hc l * (T0 - tmp l)) 0 then true else false) then T0 else tmp l) ->
  (0 < hc l -> t = Rmin (tmp l) T0) /\ (hc l = 0 -> t = tmp l).
Proof.
  intros Hh ->. destruct (Rlt_dec (hc l * (T0 - tmp l)) 0) as [H|H].
  - destruct (warm_tmp l Hh H). split; [intros _|lra]. rewrite Rmin_right; lra.
  - split; [|reflexivity]. intros Hp. rewrite Rmin_left; [reflexivity|]. nra.
Qed.

Lemma scale_bounds t x i : 0 <= t -> 0 < x -> x <= i -> 0 <= t * (1 - x / i) <= t.
Proof.
  intros Ht Hx Hi.
  assert (0 < x / i <= 1).
  { split; [apply Rdiv_lt_0_compat; lra|]. apply Rmult_le_reg_r with i; [lra|].
    unfold Rdiv. rewrite Rmult_assoc, Rinv_l by lra. lra. }
  nra.
Qed.

Lemma melt_loop_some n : forall x act lys,
  Forall wf_layer lys -> (n <= length lys)%nat ->
  let r := melt_loop n (Some x) act lys in
  let am := melted x (firstn n lys) in
  Forall3 after_melt (firstn n lys) am (firstn n (fst r)) /\
  skipn n (fst r) = skipn n lys /\
  snd r = act + sumR am /\ length (fst r) = length lys.
Proof.
  induction n as [|n IH]; intros x act lys Hwf Hlen.
  - cbn. repeat split; try constructor. sumr.
  - destruct lys as [|l lys]; [cbn in Hlen; lia|].
    inversion Hwf as [|? ? Hl Hls]; subst. destruct Hl as (Ht & Hi & Hw & Hh).
    cbn [length] in Hlen. assert (Hlen' : (n <= length lys)%nat) by lia.
    cbn [melt_loop firstn melted skipn].
    set (t1 := if (if Rlt_dec (hc l * (T0 - tmp l)) 0 then true else false) then T0 else tmp l).
    destruct (melt_tmp l t1 Hh eq_refl) as [Ht1 Ht2].
    assert (Hc : (if (if Rlt_dec (hc l * (T0 - tmp l)) 0 then true else false)
                  then option_map (fun x0 => x0 - hc l * (T0 - tmp l) / Lf) (Some x)
                  else Some x) = Some (x + surplus l)).
    { destruct (Rlt_dec (hc l * (T0 - tmp l)) 0) as [H|H]; cbn.
      - rewrite (surplus_warm l H). f_equal; lra.
      - rewrite (surplus_cold l Hh H). f_equal; lra. }
    cbv zeta. rewrite Hc. clear Hc.
    set (a := x + surplus l).
    destruct (Rlt_dec 0 a) as [Ha|Ha].
    + destruct (Rlt_dec (ice l) a) as [Hb|Hb].
      * assert (Hm : Rmin (Rmax a 0) (ice l) = ice l) by (rewrite Rmax_left, Rmin_right; lra).
        rewrite Hm. destruct (IH (a - ice l) (act + ice l) lys Hls Hlen') as (F & S & A & Le).
        cbn [fst snd firstn skipn length]. repeat split; auto.
        -- constructor; [|exact F]. unfold after_melt; cbn. repeat split; try lra; auto.
        -- rewrite A, sumR_cons. lra.
      * assert (Hm : Rmin (Rmax a 0) (ice l) = a) by (rewrite Rmax_left, Rmin_left; lra).
        rewrite Hm. replace (a - a) with 0 by lra.
        destruct (IH 0 (act + a) lys Hls Hlen') as (F & S & A & Le).
        cbn [fst snd firstn skipn length].
        assert (Hsc := scale_bounds (th l) a (ice l) Ht Ha ltac:(lra)).
        repeat split; auto.
        -- constructor; [|exact F]. unfold after_melt; cbn. repeat split; try lra; auto.
           field. lra.
        -- rewrite A, sumR_cons. lra.
    + assert (Hm : Rmin (Rmax a 0) (ice l) = 0) by (rewrite Rmax_right, Rmin_left; lra).
      rewrite Hm. replace (a - 0) with a by lra.
      destruct (IH a act lys Hls Hlen') as (F & S & A & Le).
      cbn [fst snd firstn skipn length]. repeat split; auto.
      * constructor; [|exact F]. unfold after_melt; cbn. repeat split; try lra; auto.
      * rewrite A, sumR_cons. lra.
Qed.

Lemma melt_loop_none n : forall act lys,
  Forall wf_layer lys -> (n <= length lys)%nat ->
  let r := melt_loop n None act lys in
  Forall3 after_melt (firstn n lys) (repeat 0 n) (firstn n (fst r)) /\
  skipn n (fst r) = skipn n lys /\
  snd r = act /\ length (fst r) = length lys.
Proof.
  induction n as [|n IH]; intros act lys Hwf Hlen.
  - cbn. repeat split; try constructor.
  - destruct lys as [|l lys]; [cbn in Hlen; lia|].
    inversion Hwf as [|? ? Hl Hls]; subst. destruct Hl as (Ht & Hi & Hw & Hh).
    cbn [length] in Hlen. assert (Hlen' : (n <= length lys)%nat) by lia.
    cbn [melt_loop firstn repeat skipn].
    set (t1 := if (if Rlt_dec (hc l * (T0 - tmp l)) 0 then true else false) then T0 else tmp l).
    destruct (melt_tmp l t1 Hh eq_refl) as [Ht1 Ht2].
    assert (Hc : (if (if Rlt_dec (hc l * (T0 - tmp l)) 0 then true else false)
                  then option_map (fun x0 => x0 - hc l * (T0 - tmp l) / Lf) (@None R)
                  else @None R) = None).
    { destruct (Rlt_dec (hc l * (T0 - tmp l)) 0) as [H|H]; reflexivity. }
    cbv zeta. rewrite Hc. destruct (IH act lys Hls Hlen') as (F & S & A & Le).
    cbn [fst snd firstn skipn length]. repeat split; auto.
    constructor; [|exact F]. unfold after_melt; cbn. repeat split; try lra; auto.
Qed.

Lemma after_melt_totals la am lb :
  Forall3 after_melt la am lb ->
  sumR (map ice lb) = sumR (map ice la) - sumR am /\
  sumR (map lwc lb) = sumR (map lwc la) + sumR am.
Proof.
  induction 1 as [|a m b la lm lb (Hi & Hw & _) _ [IH1 IH2]]; cbn; [sumr|].
  rewrite !sumR_cons, IH1, IH2, Hi, Hw. lra.
Qed.

Lemma melted_bounds : forall ls x, Forall wf_layer ls ->
  Forall2 (fun m l => 0 <= m <= ice l) (melted x ls) ls.
Proof.
  induction ls as [|l ls IH]; intros x H; cbn; [constructor|].
  inversion H as [|? ? (Ht & Hi & Hw & Hh) Hls]; subst. constructor; [|apply IH; exact Hls].
  rmm; lra.
Qed.

Lemma melted_total : forall ls x, Forall wf_layer ls ->
  sumR (melted x ls) <= Rmax 0 x + sumR (map surplus ls).
Proof.
  induction ls as [|l ls IH]; intros x H; cbn [melted map].
  - rewrite !sumR_nil. rmm; lra.
  - inversion H as [|? ? (Ht & Hi & Hw & Hh) Hls]; subst. rewrite !sumR_cons.
    set (a := x + surplus l). set (m := Rmin (Rmax a 0) (ice l)).
    specialize (IH (a - m) Hls). pose proof (surplus_nonneg l).
    assert (m + Rmax 0 (a - m) <= Rmax 0 x + surplus l); [|lra].
    subst m; subst a; rmm; lra.
Qed.

(** Without over-warm layers: everything that is available melts, capped by the ice. *)
Lemma melted_closed : forall ls x, Forall wf_layer ls -> Forall (fun l => tmp l <= T0) ls ->
  sumR (melted x ls) = Rmin (Rmax x 0) (sumR (map ice ls)).
Proof.
  induction ls as [|l ls IH]; intros x H Hc; cbn [melted map].
  - rewrite !sumR_nil. rmm; lra.
  - inversion H as [|? ? (Ht & Hi & Hw & Hh) Hls]; subst.
    inversion Hc as [|? ? Hcl Hcls]; subst. rewrite !sumR_cons.
    assert (Hs : surplus l = 0).
    { apply surplus_cold; [exact Hh|]. nra. }
    rewrite Hs, IH by assumption.
    assert (0 <= sumR (map ice ls)).
    { apply sumR_nonneg. apply Forall_map. eapply Forall_impl; [|exact Hls].
      intros ? (_ & ? & _); assumption. }
    replace (x + 0) with x by lra. rmm; lra.
Qed.

Lemma map_split {A B} (f : A -> B) n (l : list A) :
  map f l = map f (firstn n l) ++ map f (skipn n l).
Proof. rewrite <- map_app, firstn_skipn. reflexivity. Qed.

Definition melt_amounts (p : pixel) (pot : num) : list R :=
  match pot with Some x => melted x (active p) | None => repeat 0 (ns p) end.

Lemma melt_spec p pot : wf_pixel p ->
  let p' := fst (melt p pot) in
  ns p' = ns p /\ length (lays p') = length (lays p) /\
  Forall3 after_melt (active p) (melt_amounts p pot) (active p') /\
  inactive p' = inactive p /\
  snd (melt p pot) = sumR (melt_amounts p pot).
Proof.
  intros [Hn Hwf]. unfold melt, active, inactive, melt_amounts; cbn [fst snd ns lays].
  destruct pot as [x|].
  - destruct (melt_loop_some (ns p) x 0 (lays p) Hwf Hn) as (F & S & A & Le).
    repeat split; auto. rewrite A. unfold active. lra.
  - destruct (melt_loop_none (ns p) 0 (lays p) Hwf Hn) as (F & S & A & Le).
    repeat split; auto. rewrite A, sumR_repeat0. reflexivity.
Qed.

Lemma pixel_split (f : layer -> R) p :
  sumR (map f (lays p)) = sumR (map f (active p)) + sumR (map f (inactive p)).
Proof. unfold active, inactive. rewrite (map_split f (ns p)), sumR_app. reflexivity. Qed.

Lemma melt_totals p pot : wf_pixel p ->
  let p' := fst (melt p pot) in
  total_ice p' = total_ice p - snd (melt p pot) /\
  total_lwc p' = total_lwc p + snd (melt p pot).
Proof.
  intros H. destruct (melt_spec p pot H) as (E & Le & F & I & A).
  cbn zeta. unfold total_ice, total_lwc.
  rewrite !(pixel_split _ (fst (melt p pot))), !(pixel_split _ p), I, A.
  destruct (after_melt_totals _ _ _ F) as [-> ->]. lra.
Qed.

Lemma pack_mass_split p : pack_mass p = total_ice p + total_lwc p.
Proof. unfold pack_mass, total_ice, total_lwc. apply sumR_map_plus. Qed.

Lemma Forall3_wf_melt la am lb : Forall3 after_melt la am lb ->
  Forall2 (fun m l => 0 <= m <= ice l) am la -> Forall wf_layer la -> Forall wf_layer lb.
Proof.
  induction 1 as [|a m b la lm lb (Hi & Hw & Ht & _ & Hh & _) _ IH]; intros H2 Hwf; [constructor|].
  inversion H2; inversion Hwf as [|? ? (? & ? & ? & ?) ?]; subst.
  constructor; [|auto]. unfold wf_layer. lra.
Qed.

Lemma melt_amounts_bounds p pot : wf_pixel p ->
  Forall2 (fun m l => 0 <= m <= ice l) (melt_amounts p pot) (active p).
Proof.
  intros [Hn Hwf]. unfold melt_amounts, active. destruct pot as [x|].
  - apply melted_bounds. apply Forall_firstn, Hwf.
  - clear -Hn Hwf. revert Hn Hwf. generalize (ns p), (lays p).
    induction n as [|n IH]; intros l Hn Hwf; cbn; [constructor|].
    destruct l as [|a l]; cbn in *; [lia|].
    inversion Hwf as [|? ? (? & ? & ? & ?) ?]; subst. constructor; [lra|]. apply IH; [lia|assumption].
Qed.

Lemma wf_rebuild (p' : pixel) n :
  ns p' = n -> (n <= length (lays p'))%nat ->
  Forall wf_layer (active p') -> Forall wf_layer (inactive p') -> wf_pixel p'.
Proof.
  intros E L H1 H2. split; [lia|]. rewrite <- (firstn_skipn (ns p') (lays p')).
  apply Forall_app; split; assumption.
Qed.

Lemma melt_wf p pot : wf_pixel p -> wf_pixel (fst (melt p pot)).
Proof.
  intros H. destruct (melt_spec p pot H) as (E & Le & F & I & A). destruct H as [Hn Hwf].
  apply (wf_rebuild _ (ns p)); [exact E | rewrite Le; exact Hn | |].
  - eapply Forall3_wf_melt; [exact F | apply melt_amounts_bounds; split; assumption |].
    apply Forall_firstn, Hwf.
  - rewrite I. apply Forall_skipn, Hwf.
Qed.

Lemma sumR_nonneg2 am la : Forall2 (fun m l => 0 <= m <= ice l) am la -> 0 <= sumR am <= sumR (map ice la).
Proof. induction 1; cbn; [sumr|]. rewrite !sumR_cons; lra. Qed.

(** A layer receives melt from above only if the layer above has lost all its ice. *)
Lemma melted_topdown : forall ls x k m m' l l',
  Forall wf_layer ls ->
  nth_error (melted x ls) k = Some m -> nth_error ls k = Some l ->
  nth_error (melted x ls) (S k) = Some m' -> nth_error ls (S k) = Some l' ->
  surplus l' = 0 -> 0 < m' -> m = ice l.
Proof.
  induction ls as [|l0 ls IH]; intros x k m m' l l' Hwf Hm Hl Hm' Hl' Hs Hp; [destruct k; discriminate|].
  inversion Hwf as [|? ? (Ht & Hi & Hw & Hh) Hls]; subst.
  destruct k as [|k].
  - cbn in Hm, Hl, Hl'. injection Hm as <-. injection Hl as <-.
    destruct ls as [|l1 ls]; [discriminate|]. cbn in Hl', Hm'. injection Hl' as <-. injection Hm' as <-.
    inversion Hls as [|? ? (Ht1 & Hi1 & Hw1 & Hh1) Hls1]; subst. rewrite Hs in Hp.
    revert Hp. rmm; lra.
  - cbn in Hm, Hl. eapply (IH _ k m m'); eauto.
Qed.

(** * Sublimation *)
Lemma sublim_loop_spec n : forall x lys,
  Forall wf_layer lys -> (n <= length lys)%nat -> Forall (fun l => 0 < ice l) (firstn n lys) ->
  0 <= x ->
  let '(ls', rest, nan) := sublim_loop n x lys in
  Forall3 after_sublim (firstn n lys) (sublimed x (firstn n lys)) (firstn n ls') /\
  skipn n ls' = skipn n lys /\ length ls' = length lys /\ nan = false.
Proof.
  induction n as [|n IH]; intros x lys Hwf Hlen Hpos Hx.
  - cbn. repeat split; constructor.
  - destruct lys as [|l lys]; [cbn in Hlen; lia|].
    inversion Hwf as [|? ? (Ht & Hi & Hw & Hh) Hls]; subst.
    cbn [firstn] in Hpos. inversion Hpos as [|? ? Hpl Hpls]; subst.
    cbn [length] in Hlen. assert (Hlen' : (n <= length lys)%nat) by lia.
    cbn [sublim_loop firstn sublimed skipn].
    destruct (Rlt_dec (ice l) x) as [Hb|Hb].
    + assert (Hm : Rmin x (ice l) = ice l) by (rewrite Rmin_right; lra). rewrite Hm.
      specialize (IH (x - ice l) lys Hls Hlen' Hpls ltac:(lra)).
      destruct (sublim_loop n (x - ice l) lys) as [[ls' rest] nan].
      destruct IH as (F & S & Le & N).
      cbn [firstn skipn length]. repeat split; auto.
      constructor; [|exact F]. unfold after_sublim; cbn; repeat split; lra.
    + assert (Hm : Rmin x (ice l) = x) by (rewrite Rmin_left; lra). rewrite Hm.
      replace (x - x) with 0 by lra.
      specialize (IH 0 lys Hls Hlen' Hpls ltac:(lra)).
      destruct (sublim_loop n 0 lys) as [[ls' rest] nan].
      destruct IH as (F & S & Le & N).
      cbn [firstn skipn length]. repeat split; auto.
      * constructor; [|exact F]. unfold after_sublim; cbn.
        assert (Hsc : 0 <= th l * (1 - x / ice l) <= th l).
        { destruct (Req_dec x 0) as [->|Hx0].
          - unfold Rdiv; rewrite Rmult_0_l; lra.
          - apply scale_bounds; lra. }
        repeat split; try lra. field; lra.
      * destruct (Req_EM_T (ice l) 0); [lra|]. exact N.
Qed.

Lemma sublim_loop_prefix n : forall x lys,
  Forall wf_layer lys -> (n <= length lys)%nat -> ice_free_on_top (firstn n lys) ->
  0 < x ->
  let '(ls', rest, nan) := sublim_loop n x lys in
  Forall3 after_sublim (firstn n lys) (sublimed x (firstn n lys)) (firstn n ls') /\
  skipn n ls' = skipn n lys /\ length ls' = length lys /\ nan = false.
Proof.
  induction n as [|n IH]; intros x lys Hwf Hlen Hpos Hx.
  - cbn. repeat split; constructor.
  - destruct lys as [|l lys]; [cbn in Hlen; lia|].
    pose proof Hwf as Hwf0.
    inversion Hwf as [|? ? (Ht & Hi & Hw & Hh) Hls]; subst.
    cbn [firstn] in Hpos. cbn [length] in Hlen. assert (Hlen' : (n <= length lys)%nat) by lia.
    cbn [ice_free_on_top] in Hpos. destruct Hpos as [[H0 Hr]|[H0 Hr]].
    + cbn [sublim_loop firstn sublimed skipn].
      destruct (Rlt_dec (ice l) x) as [Hb|Hb]; [|lra].
      assert (Hm : Rmin x (ice l) = ice l) by (rewrite Rmin_right; lra). rewrite Hm.
      specialize (IH (x - ice l) lys Hls Hlen' Hr ltac:(lra)).
      destruct (sublim_loop n (x - ice l) lys) as [[ls' rest] nan].
      destruct IH as (F & S & Le & N).
      cbn [firstn skipn length]. repeat split; auto.
      constructor; [|exact F]. unfold after_sublim; cbn; repeat split; lra.
    + apply sublim_loop_spec; auto; try (cbn; lia); try lra.
      cbn [firstn]. constructor; assumption.
Qed.

Lemma sublimed_total : forall ls x, Forall wf_layer ls -> 0 <= x ->
  sumR (sublimed x ls) = Rmin x (sumR (map ice ls)).
Proof.
  induction ls as [|l ls IH]; intros x H Hx; cbn [sublimed map].
  - rewrite !sumR_nil. rmm; lra.
  - inversion H as [|? ? (Ht & Hi & Hw & Hh) Hls]; subst. rewrite !sumR_cons.
    assert (0 <= sumR (map ice ls)).
    { apply sumR_nonneg. apply Forall_map. eapply Forall_impl; [|exact Hls].
      intros ? (_ & ? & _); assumption. }
    rewrite IH; [|assumption|rmm; lra]. rmm; lra.
Qed.

Lemma sublimed_bounds : forall ls x, Forall wf_layer ls -> 0 <= x ->
  Forall2 (fun m l => 0 <= m <= ice l) (sublimed x ls) ls.
Proof.
  induction ls as [|l ls IH]; intros x H Hx; cbn; [constructor|].
  inversion H as [|? ? (Ht & Hi & Hw & Hh) Hls]; subst. constructor; [|apply IH; [exact Hls|]].
  - rmm; lra.
  - rmm; lra.
Qed.

Lemma sublimed_zero : forall ls, Forall wf_layer ls -> sublimed 0 ls = repeat 0 (length ls).
Proof.
  induction ls as [|l ls IH]; intros H; cbn; [reflexivity|].
  inversion H as [|? ? (Ht & Hi & Hw & Hh) Hls]; subst.
  rewrite Rmin_left by lra. f_equal. replace (0 - 0) with 0 by lra. apply IH, Hls.
Qed.

Lemma after_sublim_refl l : wf_layer l -> after_sublim l 0 l.
Proof. intros (Ht & Hi & Hw & Hh). unfold after_sublim. repeat split; lra. Qed.
Lemma Forall3_sublim_refl : forall ls, Forall wf_layer ls ->
  Forall3 after_sublim ls (repeat 0 (length ls)) ls.
Proof. induction 1; cbn; constructor; auto using after_sublim_refl. Qed.

Lemma sublimate_spec p s : wf_pixel p -> ice_free_on_top (active p) ->
  let p' := fst (sublimate p s) in
  ns p' = ns p /\ length (lays p') = length (lays p) /\
  Forall3 after_sublim (active p) (sublimed (Rmax s 0) (active p)) (active p') /\
  inactive p' = inactive p /\ snd (sublimate p s) = false.
Proof.
  intros [Hn Hwf] Hpos. unfold sublimate.
  destruct (Rlt_dec 0 (Rmax s 0)) as [H|H].
  - pose proof (sublim_loop_prefix (ns p) (Rmax s 0) (lays p) Hwf Hn Hpos H) as L.
    destruct (sublim_loop (ns p) (Rmax s 0) (lays p)) as [[ls' rest] nan].
    destruct L as (F & S & Le & N). unfold active, inactive; cbn. repeat split; auto.
  - cbn. assert (E : Rmax s 0 = 0) by (rmm; lra). rewrite E.
    assert (Hw : Forall wf_layer (active p)) by (apply Forall_firstn, Hwf).
    rewrite sublimed_zero by exact Hw. repeat split; auto.
    apply Forall3_sublim_refl, Hw.
Qed.

Lemma after_sublim_totals la am lb :
  Forall3 after_sublim la am lb ->
  sumR (map ice lb) = sumR (map ice la) - sumR am /\
  sumR (map lwc lb) = sumR (map lwc la).
Proof.
  induction 1 as [|a m b la lm lb (Hi & Hw & _) _ [IH1 IH2]]; cbn; [sumr|].
  rewrite !sumR_cons, IH1, IH2, Hi, Hw. lra.
Qed.

Lemma sublimate_totals p s : wf_pixel p -> ice_free_on_top (active p) ->
  let p' := fst (sublimate p s) in
  total_ice p' = total_ice p - Rmin (Rmax s 0) (sumR (map ice (active p))) /\
  total_lwc p' = total_lwc p.
Proof.
  intros H Hpos. destruct (sublimate_spec p s H Hpos) as (E & Le & F & I & A).
  destruct H as [Hn Hwf].
  cbn zeta. unfold total_ice, total_lwc.
  rewrite !(pixel_split _ (fst (sublimate p s))), !(pixel_split _ p), I.
  destruct (after_sublim_totals _ _ _ F) as [-> ->].
  rewrite sublimed_total; [lra| apply Forall_firstn, Hwf | rmm; lra].
Qed.

Lemma Forall3_wf_sublim la am lb : Forall3 after_sublim la am lb ->
  Forall2 (fun m l => 0 <= m <= ice l) am la -> Forall wf_layer la -> Forall wf_layer lb.
Proof.
  induction 1 as [|a m b la lm lb (Hi & Hw & Ht & _ & Hh & _) _ IH]; intros H2 Hwf; [constructor|].
  inversion H2; inversion Hwf as [|? ? (? & ? & ? & ?) ?]; subst.
  constructor; [|auto]. unfold wf_layer. lra.
Qed.

Lemma sublimate_wf p s : wf_pixel p -> ice_free_on_top (active p) -> wf_pixel (fst (sublimate p s)).
Proof.
  intros H Hpos. destruct (sublimate_spec p s H Hpos) as (E & Le & F & I & A). destruct H as [Hn Hwf].
  apply (wf_rebuild _ (ns p)); [exact E | rewrite Le; exact Hn | |].
  - eapply Forall3_wf_sublim; [exact F | | apply Forall_firstn, Hwf].
    apply sublimed_bounds; [apply Forall_firstn, Hwf | rmm; lra].
  - rewrite I. apply Forall_skipn, Hwf.
Qed.

(** * Runoff *)
Lemma runoff_loop_spec n : forall caps q rf lys,
  Forall wf_layer lys -> (n <= length lys)%nat -> length caps = length lys ->
  let '(ls', ro, rf') := runoff_loop n caps q rf lys in
  let act := firstn n lys in
  let ac := firstn n caps in
  Forall3 (fun lc q l' => after_runoff (snd lc) (fst lc) q l')
    (combine act ac) (inflows ac q act) (firstn n ls') /\
  skipn n ls' = skipn n lys /\ length ls' = length lys /\
  ro = bottom_flux ac q act /\
  rf' = rf + (sumR (map ice (firstn n ls')) - sumR (map ice act)).
Proof.
  induction n as [|n IH]; intros caps q rf lys Hwf Hlen Hc.
  - cbn. repeat split; try constructor. sumr.
  - destruct lys as [|l lys]; [cbn in Hlen; lia|].
    destruct caps as [|c caps]; [discriminate|].
    inversion Hwf as [|? ? (Ht & Hi & Hw & Hh) Hls]; subst.
    cbn [length] in Hlen, Hc. assert (Hlen' : (n <= length lys)%nat) by lia.
    injection Hc as Hc.
    cbn [runoff_loop firstn combine inflows bottom_flux skipn].
    set (w := lwc l + q).
    assert (Eo : (if Rlt_dec c w then w - c else 0) = outflow c q l).
    { unfold outflow. fold w. destruct (Rlt_dec c w); rmm; lra. }
    assert (Ew : (if Rlt_dec c w then c else w) = lwc l + q - outflow c q l).
    { unfold outflow. fold w. destruct (Rlt_dec c w); rmm; lra. }
    cbv zeta. rewrite Eo, Ew.
    assert (Ed : (if Rlt_dec 0 (hc l * (T0 - tmp l))
                  then Rmin (lwc l + q - outflow c q l) (hc l * (T0 - tmp l) / Lf) else 0)
                 = refrozen c q l) by reflexivity.
    rewrite Ed.
    specialize (IH caps (outflow c q l) (rf + refrozen c q l) lys Hls Hlen' Hc).
    destruct (runoff_loop n caps (outflow c q l) (rf + refrozen c q l) lys) as [[ls' ro'] rf'].
    destruct IH as (F & S & Le & Ro & Rf).
    cbn [firstn skipn length map]. repeat split; auto.
    + constructor; [|exact F]. unfold after_runoff; cbn. repeat split; try lra.
      destruct (Rlt_dec 0 (hc l * (T0 - tmp l))) as [Hcold|Hcold].
      * assert (hc l <> 0) by (intros E0; rewrite E0 in Hcold; lra). field. assumption.
      * unfold refrozen. destruct (Rlt_dec 0 (hc l * (T0 - tmp l))); [lra|]. lra.
      * intros H0. destruct (Rlt_dec 0 (hc l * (T0 - tmp l))) as [Hcold|Hcold]; [|reflexivity].
        rewrite H0 in Hcold. lra.
    + rewrite Rf, !sumR_cons. cbn. lra.
Qed.

Definition caps_of (m : lwc_method) (mx : R) (p : pixel) : list R := map (max_lwc m mx) (active p).

Lemma runoff_spec m mx rain p : wf_pixel p ->
  let '(p', ro, rf) := runoff m mx rain p in
  let caps := caps_of m mx p in
  let q := nan_to_zero rain in
  ns p' = ns p /\ length (lays p') = length (lays p) /\ inactive p' = inactive p /\
  Forall3 (fun lc q l' => after_runoff (snd lc) (fst lc) q l')
    (combine (active p) caps) (inflows caps q (active p)) (active p') /\
  ro = bottom_flux caps q (active p) /\
  rf = sumR (map ice (active p')) - sumR (map ice (active p)).
Proof.
  intros [Hn Hwf]. unfold runoff.
  pose proof (runoff_loop_spec (ns p) (map (max_lwc m mx) (lays p)) (nan_to_zero rain) 0 (lays p)
                Hwf Hn (map_length _ _)) as H.
  destruct (runoff_loop (ns p) (map (max_lwc m mx) (lays p)) (nan_to_zero rain) 0 (lays p))
    as [[ls' ro] rf].
  destruct H as (F & S & Le & Ro & Rf). unfold active, inactive, caps_of; cbn.
  rewrite firstn_map in F, Ro. repeat split; auto. lra.
Qed.

Lemma combine_map_r {A B} (f : A -> B) l : combine l (map f l) = map (fun x => (x, f x)) l.
Proof. induction l as [|x l IH]; cbn; [reflexivity|]. rewrite IH. reflexivity. Qed.

(** Mass budget of the routing. *)
Lemma routing_budget : forall act caps q act',
  length caps = length act ->
  Forall3 (fun lc q l' => after_runoff (snd lc) (fst lc) q l') (combine act caps) (inflows caps q act) act' ->
  sumR (map (fun l => ice l + lwc l) act) + q =
  sumR (map (fun l => ice l + lwc l) act') + bottom_flux caps q act.
Proof.
  induction act as [|l act IH]; intros [|c caps] q act' Hlen F; cbn in *; try discriminate.
  - inversion F; subst. cbn. lra.
  - inversion F as [|a b c' la lb lc (Eth & Ehc & Ei & Ew & _) F']; subst; cbn in *.
    injection Hlen as Hlen. specialize (IH caps _ _ Hlen F'). rewrite !sumR_cons, Ei, Ew. lra.
Qed.

Lemma inflows_nonneg : forall act caps q, 0 <= q -> Forall (fun x => 0 <= x) (inflows caps q act).
Proof.
  induction act as [|l act IH]; intros [|c caps] q Hq; cbn; constructor; auto.
  apply IH. apply Rmax_l.
Qed.
Lemma bottom_flux_nonneg : forall act caps q, 0 <= q -> 0 <= bottom_flux caps q act.
Proof.
  induction act as [|l act IH]; intros [|c caps] q Hq; cbn; auto.
  apply IH. apply Rmax_l.
Qed.

Lemma refrozen_bounds cap q l : wf_layer l -> 0 <= cap -> 0 <= q ->
  0 <= refrozen cap q l <= lwc l + q - outflow cap q l.
Proof.
  intros (Ht & Hi & Hw & Hh) Hc Hq. unfold refrozen, outflow.
  destruct (Rlt_dec 0 (hc l * (T0 - tmp l))) as [H|H]; [|rmm; lra].
  assert (0 < hc l * (T0 - tmp l) / Lf) by (apply Rdiv_lt_0_compat; [exact H|exact Lf_pos]).
  split; [|apply Rmin_l].
  apply Rmin_glb; [|lra]. rmm; lra.
Qed.

Lemma after_runoff_props cap l q l' : wf_layer l -> 0 <= cap -> 0 <= q -> after_runoff cap l q l' ->
  wf_layer l' /\ lwc l' <= cap /\ ice l <= ice l' /\ tmp l <= tmp l' <= Rmax (tmp l) T0.
Proof.
  intros Hl Hc Hq (Eth & Ehc & Ei & Ew & Ee & E0).
  pose proof (refrozen_bounds cap q l Hl Hc Hq) as [B1 B2].
  destruct Hl as (Ht & Hi & Hw & Hh).
  assert (B3 : outflow cap q l >= 0 /\ lwc l + q - outflow cap q l <= cap).
  { unfold outflow; rmm; lra. }
  pose proof Lf_pos as HLf. rewrite Ehc in Ee.
  unfold wf_layer. rewrite Eth, Ehc.
  split; [lra|]. split; [lra|]. split; [lra|].
  destruct (Req_dec (hc l) 0) as [H0|H0].
  - rewrite (E0 H0). split; [lra|apply Rmax_l].
  - assert (Hp : 0 < hc l) by lra. split.
    + assert (0 <= Lf * refrozen cap q l) by nra. nra.
    + unfold refrozen in Ee. destruct (Rlt_dec 0 (hc l * (T0 - tmp l))) as [H|H].
      * assert (HT : tmp l < T0) by nra. rewrite Rmax_right by lra.
        assert (Lf * Rmin (lwc l + q - outflow cap q l) (hc l * (T0 - tmp l) / Lf)
                <= hc l * (T0 - tmp l)).
        { apply Rle_trans with (Lf * (hc l * (T0 - tmp l) / Lf)).
          - apply Rmult_le_compat_l; [lra | apply Rmin_r].
          - right. field. lra. }
        nra.
      * assert (tmp l' = tmp l) by nra. pose proof (Rmax_l (tmp l) T0). lra.
Qed.

Lemma routing_wf : forall act caps q act',
  length caps = length act -> Forall wf_layer act -> Forall (fun c => 0 <= c) caps -> 0 <= q ->
  Forall3 (fun lc q l' => after_runoff (snd lc) (fst lc) q l') (combine act caps) (inflows caps q act) act' ->
  Forall wf_layer act' /\ Forall2 (fun l' c => lwc l' <= c) act' caps /\
  Forall2 (fun l l' => ice l <= ice l' /\ th l' = th l /\ tmp l <= tmp l' <= Rmax (tmp l) T0) act act'.
Proof.
  induction act as [|l act IH]; intros [|c caps] q act' Hlen Hwf Hc Hq F; cbn in *; try discriminate.
  - inversion F; subst. repeat constructor.
  - inversion F as [|a b c' la lb lc Ha F']; subst; cbn in *.
    inversion Hwf; inversion Hc; subst. injection Hlen as Hlen.
    destruct (IH caps _ _ Hlen ltac:(assumption) ltac:(assumption) (Rmax_l _ _) F') as (A & B & C).
    destruct (after_runoff_props c l q c' ltac:(assumption) ltac:(assumption) Hq Ha) as (P1 & P2 & P3 & P4).
    destruct Ha as (E1 & _).
    repeat split; constructor; auto.
Qed.

(** * Capacity *)
Lemma max_lwc_nonneg m mx l : wf_layer l -> 0 <= mx ->
  (m = PoreVolumeFraction -> ice l <= ICE_DENSITY * th l) -> 0 <= max_lwc m mx l.
Proof.
  intros (Ht & Hi & Hw & Hh) Hmx Hd. unfold max_lwc. destruct m.
  - specialize (Hd eq_refl). destruct (Rlt_dec 0 (th l)) as [H|H]; [|lra].
    assert (0 <= 1 - ice l / (ICE_DENSITY * th l)).
    { assert (0 < ICE_DENSITY * th l) by (unfold ICE_DENSITY; lra).
      apply Rmult_le_reg_r with (ICE_DENSITY * th l); [assumption|].
      rewrite Rmult_0_l, Rmult_minus_distr_r. unfold Rdiv.
      rewrite Rmult_assoc, Rinv_l by lra. lra. }
    unfold WATER_DENSITY. repeat apply Rmult_le_pos; lra.
  - apply Rmult_le_pos; assumption.
Qed.

(** * add_snow *)
Lemma add_snow_mass amax air amount water density p alb :
  lays p <> [] ->
  let p' := fst (add_snow amax air amount water density p alb) in
  total_ice p' = total_ice p + nan_to_zero amount /\
  total_lwc p' = total_lwc p + water /\
  snow_depth (lays p') = snow_depth (lays p) + nan_to_zero amount / density.
Proof.
  intros H. unfold add_snow, total_ice, total_lwc, snow_depth.
  destruct (lays p) as [|l r] eqn:E; [congruence|]. cbn. rewrite !sumR_cons. cbn. lra.
Qed.
