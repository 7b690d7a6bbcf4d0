(** C37-C42, C81: evapotranspiration, crop coefficients and leaf area index. *)
From Verif Require Import Common Constants AtmosphereModel CanopyModel EtModel EtSpec.
Open Scope R_scope.

(** * Crop coefficient curve *)
Definition arrays (l : list cycle) : list nat * list nat * list nat * list nat := stage_arrays (Cycles l).
Definition flat (l : list cycle) : list nat := flat_map (fun '(a, b, c, e) => [a; b; c; e]) l.
Lemma interleave_arrays l : let '(li, ld, lm, ll) := arrays l in interleave li ld lm ll = flat l.
Proof. induction l as [|[[[a b] c] e] l IH]; [reflexivity|]. cbn in *. rewrite IH. reflexivity. Qed.
Lemma cumsum_length o l : length (cumsum o l) = length l.
Proof. revert o; induction l as [|x l IH]; intro o; cbn; [reflexivity|]. rewrite IH. reflexivity. Qed.
Lemma cumsum_ge o l x : In x (cumsum o l) -> (o <= x)%nat.
Proof.
  revert o; induction l as [|y l IH]; intros o H; cbn in H; [destruct H|]. destruct H as [<-|H]; [lia|].
  specialize (IH _ H). lia.
Qed.
Lemma searchsorted_none l v : (forall x, In x l -> (v <= Z.of_nat x)%Z) -> searchsorted l v = 0%nat.
Proof.
  unfold searchsorted. induction l as [|x l IH]; intro H; cbn; [reflexivity|].
  pose proof (H x (or_introl eq_refl)). destruct (Z.ltb_spec (Z.of_nat x) v); [lia|]. apply IH. intros; apply H; right; auto.
Qed.
Lemma searchsorted_cons x l v : searchsorted (x :: l) v = ((if (Z.of_nat x <? v)%Z then 1 else 0) + searchsorted l v)%nat.
Proof. unfold searchsorted. cbn. destruct (Z.ltb (Z.of_nat x) v); reflexivity. Qed.
Lemma searchsorted_none_cum o l v : (v <= Z.of_nat o)%Z -> searchsorted (cumsum o l) v = 0%nat.
Proof. intro H. apply searchsorted_none. intros x I. apply cumsum_ge in I. lia. Qed.
Lemma searchsorted_le l v : (searchsorted l v <= length l)%nat.
Proof. unfold searchsorted. induction l as [|x l IH]; cbn; [lia|]. destruct (Z.ltb _ _); cbn; lia. Qed.

(** Value as a function of the number [k] of completed stages, for any offset *)
Definition kc_from (o : nat) (ls : list nat) (day : Z) (ini mid fin kmin : R) : R :=
  let k := searchsorted (cumsum o ls) day in
  let since := IZR (day - Z.of_nat (match k with 0%nat => o | S k' => nth k' (cumsum o ls) 0%nat end)) / INR (nth k ls 0%nat) in
  if (k =? length ls)%nat then kmin
  else match (k mod 4)%nat with
       | 0%nat => ini | 1%nat => ini + since * (mid - ini) | 2%nat => mid | _ => mid + since * (fin - mid)
       end.
Lemma flat_cons a b c e l : flat ((a, b, c, e) :: l) = a :: b :: c :: e :: flat l.
Proof. reflexivity. Qed.
Lemma flat_length l : (length (flat l) = 4 * length l)%nat.
Proof. induction l as [|[[[a b] c] e] l IH]; [reflexivity|]. rewrite flat_cons. cbn [length]. lia. Qed.
Lemma kc_from_curve l : forall o day ini mid fin kmin, (Z.of_nat o < day)%Z ->
  kc_from o (flat l) day ini mid fin kmin = curve ini mid fin kmin l (day - Z.of_nat o).
Proof.
  induction l as [|[[[a b] c] e] l IH]; intros o day ini mid fin kmin H; [reflexivity|].
  rewrite flat_cons. cbn [curve]. unfold kc_from. cbn [cumsum length]. rewrite !searchsorted_cons, !Nat2Z.inj_add.
  destruct (Z.leb_spec (day - Z.of_nat o) (Z.of_nat a)).
  { destruct (Z.ltb_spec (Z.of_nat o + Z.of_nat a) day); [lia|].
    destruct (Z.ltb_spec (Z.of_nat o + Z.of_nat a + Z.of_nat b) day); [lia|].
    destruct (Z.ltb_spec (Z.of_nat o + Z.of_nat a + Z.of_nat b + Z.of_nat c) day); [lia|].
    destruct (Z.ltb_spec (Z.of_nat o + Z.of_nat a + Z.of_nat b + Z.of_nat c + Z.of_nat e) day); [lia|].
    rewrite searchsorted_none_cum by lia. reflexivity. }
  destruct (Z.ltb_spec (Z.of_nat o + Z.of_nat a) day); [|lia].
  destruct (Z.leb_spec (day - Z.of_nat o) (Z.of_nat a + Z.of_nat b)).
  { destruct (Z.ltb_spec (Z.of_nat o + Z.of_nat a + Z.of_nat b) day); [lia|].
    destruct (Z.ltb_spec (Z.of_nat o + Z.of_nat a + Z.of_nat b + Z.of_nat c) day); [lia|].
    destruct (Z.ltb_spec (Z.of_nat o + Z.of_nat a + Z.of_nat b + Z.of_nat c + Z.of_nat e) day); [lia|].
    rewrite searchsorted_none_cum by lia. cbn [Nat.add Nat.eqb nth Nat.modulo]. cbn -[IZR INR Z.sub Z.of_nat].
    rewrite INR_IZR_INZ. replace (day - Z.of_nat (o + a))%Z with (day - Z.of_nat o - Z.of_nat a)%Z by lia. reflexivity. }
  destruct (Z.ltb_spec (Z.of_nat o + Z.of_nat a + Z.of_nat b) day); [|lia].
  destruct (Z.leb_spec (day - Z.of_nat o) (Z.of_nat a + Z.of_nat b + Z.of_nat c)).
  { destruct (Z.ltb_spec (Z.of_nat o + Z.of_nat a + Z.of_nat b + Z.of_nat c) day); [lia|].
    destruct (Z.ltb_spec (Z.of_nat o + Z.of_nat a + Z.of_nat b + Z.of_nat c + Z.of_nat e) day); [lia|].
    rewrite searchsorted_none_cum by lia. reflexivity. }
  destruct (Z.ltb_spec (Z.of_nat o + Z.of_nat a + Z.of_nat b + Z.of_nat c) day); [|lia].
  destruct (Z.leb_spec (day - Z.of_nat o) (Z.of_nat a + Z.of_nat b + Z.of_nat c + Z.of_nat e)).
  { destruct (Z.ltb_spec (Z.of_nat o + Z.of_nat a + Z.of_nat b + Z.of_nat c + Z.of_nat e) day); [lia|].
    rewrite searchsorted_none_cum by lia. change (1 + (1 + (1 + (0 + 0))))%nat with 3%nat. cbn -[IZR INR Z.sub Z.of_nat Nat.add].
    rewrite INR_IZR_INZ.
    replace (day - Z.of_nat (o + a + b + c))%Z with (day - Z.of_nat o - Z.of_nat a - Z.of_nat b - Z.of_nat c)%Z by lia.
    reflexivity. }
  destruct (Z.ltb_spec (Z.of_nat o + Z.of_nat a + Z.of_nat b + Z.of_nat c + Z.of_nat e) day); [|lia].
  specialize (IH (o + a + b + c + e)%nat day ini mid fin kmin ltac:(lia)).
  replace (day - Z.of_nat (o + a + b + c + e))%Z
    with (day - Z.of_nat o - (Z.of_nat a + Z.of_nat b + Z.of_nat c + Z.of_nat e))%Z in IH by lia.
  rewrite <- IH. unfold kc_from. set (k := searchsorted (cumsum (o + a + b + c + e) (flat l)) day).
  replace (1 + (1 + (1 + (1 + k))))%nat with (S (S (S (S k)))) by lia.
  cbn [nth Nat.eqb]. replace (S (S (S (S k))) mod 4)%nat with (k mod 4)%nat
    by (replace (S (S (S (S k)))) with (k + 1 * 4)%nat by lia; rewrite Nat.mod_add by lia; reflexivity).
  destruct k as [|k']; reflexivity.
Qed.
Lemma crop_index_arrays day l :
  let '(li, ld, lm, ll) := arrays l in crop_index day li ld lm ll = Some (searchsorted (0%nat :: cumsum 0 (flat l)) day, flat l).
Proof.
  pose proof (interleave_arrays l) as I. unfold arrays, stage_arrays in *. unfold crop_index.
  rewrite !map_length, !Nat.eqb_refl. cbn [andb]. rewrite I. reflexivity.
Qed.
Lemma kc_value_curve day l ini mid fin kmin :
  kc_value day (searchsorted (0%nat :: cumsum 0 (flat l)) day) (flat l) ini mid fin kmin = curve_at ini mid fin kmin l day.
Proof.
  unfold curve_at. rewrite searchsorted_cons. destruct (Z.leb_spec day 0).
  - rewrite searchsorted_none_cum by lia. destruct (Z.ltb_spec (Z.of_nat 0) day); [lia|]. reflexivity.
  - destruct (Z.ltb_spec (Z.of_nat 0) day); [|lia].
    pose proof (kc_from_curve l 0 day ini mid fin kmin ltac:(lia)) as K. rewrite Z.sub_0_r in K. rewrite <- K.
    unfold kc_value, kc_from. rewrite cumsum_length. set (k := searchsorted (cumsum 0 (flat l)) day).
    replace (1 + k - 1)%nat with k by lia. replace (1 + k - 2)%nat with (k - 1)%nat by lia.
    replace (1 + k =? 0)%nat with false by reflexivity. replace (1 + k =? S (length (flat l)))%nat with (k =? length (flat l))%nat by reflexivity.
    cbn [orb]. destruct (k =? length (flat l))%nat; [reflexivity|]. destruct k as [|k']; [reflexivity|].
    replace (S k' - 1)%nat with k' by lia. reflexivity.
Qed.

(** C41. For every list of growth cycles and every day the coefficient is the one of the curve of EtSpec, which walks
    through the stages; never an error. *)
Theorem c41_curve : forall (l : list cycle) day ini mid fin kmin,
  let '(li, ld, lm, ll) := stage_arrays (Cycles l) in
  crop_coefficient day li ld lm ll ini mid fin kmin = Some (curve_at ini mid fin kmin l day).
Proof.
  intros. pose proof (crop_index_arrays day l) as I. unfold arrays in I. cbn [stage_arrays] in *. unfold crop_coefficient.
  rewrite I. f_equal. apply kc_value_curve.
Qed.
Print Assumptions c41_curve.
Theorem c41_single : forall (c : cycle) day ini mid fin kmin,
  let '(li, ld, lm, ll) := stage_arrays (Single4 c) in
  crop_coefficient day li ld lm ll ini mid fin kmin = Some (curve_at ini mid fin kmin [c] day).
Proof. intros [[[a b] c] e] day ini mid fin kmin. exact (c41_curve [(a, b, c, e)] day ini mid fin kmin). Qed.
Print Assumptions c41_single.

(** Outside of the growing period: the minimum. *)
Lemma total_days_nonneg l : (0 <= total_days l)%Z.
Proof.
  induction l as [|[[[a b] c] e] l IH]; [cbn; lia|].
  change (0 <= Z.of_nat a + Z.of_nat b + Z.of_nat c + Z.of_nat e + total_days l)%Z. lia.
Qed.
Lemma curve_after ini mid fin out l : forall d, (total_days l < d)%Z -> curve ini mid fin out l d = out.
Proof.
  induction l as [|[[[a b] c] e] l IH]; intros d H; [reflexivity|].
  pose proof (total_days_nonneg l). change (Z.of_nat a + Z.of_nat b + Z.of_nat c + Z.of_nat e + total_days l < d)%Z in H. cbn [curve].
  destruct (Z.leb_spec d (Z.of_nat a)); [lia|]. destruct (Z.leb_spec d (Z.of_nat a + Z.of_nat b)); [lia|].
  destruct (Z.leb_spec d (Z.of_nat a + Z.of_nat b + Z.of_nat c)); [lia|].
  destruct (Z.leb_spec d (Z.of_nat a + Z.of_nat b + Z.of_nat c + Z.of_nat e)); [lia|]. apply IH. lia.
Qed.
Lemma frac_01 (d n : Z) : (0 < d)%Z -> (d <= n)%Z -> 0 < IZR d / IZR n <= 1.
Proof.
  intros A B. apply IZR_lt in A. apply IZR_le in B. split.
  - apply Rdiv_lt_0_compat; lra.
  - apply Rmult_le_reg_r with (IZR n); [lra|]. unfold Rdiv. rewrite Rmult_assoc, Rinv_l by lra. lra.
Qed.
Lemma mix_bounds lo hi x y f : lo <= x <= hi -> lo <= y <= hi -> 0 <= f <= 1 -> lo <= x + f * (y - x) <= hi.
Proof. intros. split; nra. Qed.
Lemma curve_bounds ini mid fin out lo hi l :
  lo <= ini <= hi -> lo <= mid <= hi -> lo <= fin <= hi -> lo <= out <= hi ->
  forall d, (0 < d)%Z -> lo <= curve ini mid fin out l d <= hi.
Proof.
  intros A B C D. induction l as [|[[[a b] c] e] l IH]; intros d P; [exact D|]. cbn [curve].
  destruct (Z.leb_spec d (Z.of_nat a)); [exact A|]. destruct (Z.leb_spec d (Z.of_nat a + Z.of_nat b)).
  { apply mix_bounds; auto. pose proof (frac_01 (d - Z.of_nat a) (Z.of_nat b) ltac:(lia) ltac:(lia)). lra. }
  destruct (Z.leb_spec d (Z.of_nat a + Z.of_nat b + Z.of_nat c)); [exact B|].
  destruct (Z.leb_spec d (Z.of_nat a + Z.of_nat b + Z.of_nat c + Z.of_nat e)); [|apply IH; lia].
  apply mix_bounds; auto.
  pose proof (frac_01 (d - Z.of_nat a - Z.of_nat b - Z.of_nat c) (Z.of_nat e) ltac:(lia) ltac:(lia)). lra.
Qed.
(** C41. Bounds, and the minimum before and after the growing period. *)
Theorem c41_bounds : forall (l : list cycle) day ini mid fin kmin lo hi,
  lo <= ini <= hi -> lo <= mid <= hi -> lo <= fin <= hi -> lo <= kmin <= hi ->
  let '(li, ld, lm, ll) := stage_arrays (Cycles l) in
  (exists k, crop_coefficient day li ld lm ll ini mid fin kmin = Some k /\ lo <= k <= hi) /\
  ((day <= 0)%Z \/ (total_days l < day)%Z -> crop_coefficient day li ld lm ll ini mid fin kmin = Some kmin).
Proof.
  intros l day ini mid fin kmin lo hi A B C D. pose proof (c41_curve l day ini mid fin kmin) as E.
  cbn [stage_arrays] in *. rewrite E. split.
  - eexists; split; [reflexivity|]. unfold curve_at. destruct (Z.leb_spec day 0); [exact D|]. apply curve_bounds; auto.
  - intros [P|P]; unfold curve_at.
    + destruct (Z.leb_spec day 0); [reflexivity|lia].
    + destruct (Z.leb_spec day 0); [reflexivity|]. rewrite curve_after by auto. reflexivity.
Qed.
Print Assumptions c41_bounds.
(** C41. Stage by stage for one cycle: constant, linear, constant, linear; the slopes meet at the stage limits. *)
Theorem c41_stages : forall (a b c e : nat) day ini mid fin kmin,
  let k := crop_coefficient day [a] [b] [c] [e] ini mid fin kmin in
  let A := Z.of_nat a in let B := Z.of_nat (a + b) in let C := Z.of_nat (a + b + c) in let E := Z.of_nat (a + b + c + e) in
  ((0 < day <= A)%Z -> k = Some ini) /\
  ((A < day <= B)%Z -> k = Some (ini + IZR (day - A) / INR b * (mid - ini)) /\ (0 < b)%nat) /\
  ((B < day <= C)%Z -> k = Some mid) /\
  ((C < day <= E)%Z -> k = Some (mid + IZR (day - C) / INR e * (fin - mid)) /\ (0 < e)%nat) /\
  (day = B -> (0 < b)%nat -> k = Some mid) /\ (day = E -> (0 < e)%nat -> k = Some fin).
Proof.
  intros a b c e day ini mid fin kmin. cbv zeta.
  pose proof (c41_single (a, b, c, e) day ini mid fin kmin) as H. cbn [stage_arrays] in H. rewrite H. clear H.
  unfold curve_at. cbn [curve]. rewrite !Nat2Z.inj_add, !INR_IZR_INZ.
  destruct (Z.leb_spec day 0); [repeat split; intros; lia|].
  destruct (Z.leb_spec day (Z.of_nat a)); [repeat split; intros; try lia; reflexivity|].
  destruct (Z.leb_spec day (Z.of_nat a + Z.of_nat b)).
  { split; [intros; lia|]. split; [intros; split; [reflexivity|lia]|]. split; [intros; lia|]. split; [intros; lia|].
    split; [|intros; lia]. intros -> P. replace (Z.of_nat a + Z.of_nat b - Z.of_nat a)%Z with (Z.of_nat b) by lia.
    assert (IZR (Z.of_nat b) <> 0) by (apply not_0_IZR; lia). f_equal. field. auto. }
  destruct (Z.leb_spec day (Z.of_nat a + Z.of_nat b + Z.of_nat c)); [repeat split; intros; try lia; reflexivity|].
  destruct (Z.leb_spec day (Z.of_nat a + Z.of_nat b + Z.of_nat c + Z.of_nat e)); [|repeat split; intros; lia].
  split; [intros; lia|]. split; [intros; lia|]. split; [intros; lia|].
  replace (day - Z.of_nat a - Z.of_nat b - Z.of_nat c)%Z with (day - (Z.of_nat a + Z.of_nat b + Z.of_nat c))%Z by lia.
  split; [intros; split; [reflexivity|lia]|]. split; [intros; lia|].
  intros -> P. replace (Z.of_nat a + Z.of_nat b + Z.of_nat c + Z.of_nat e - (Z.of_nat a + Z.of_nat b + Z.of_nat c))%Z with (Z.of_nat e) by lia.
  assert (IZR (Z.of_nat e) <> 0) by (apply not_0_IZR; lia). f_equal. field. auto.
Qed.
Print Assumptions c41_stages.
(** C41. Arrays of different sizes are refused. *)
Theorem c41_unequal : forall day li ld lm ll ini mid fin kmin,
  (crop_coefficient day li ld lm ll ini mid fin kmin = None <->
   ~ (length li = length ld /\ length ld = length lm /\ length lm = length ll)).
Proof.
  intros. unfold crop_coefficient, crop_index.
  destruct (Nat.eqb_spec (length li) (length ld)), (Nat.eqb_spec (length ld) (length lm)), (Nat.eqb_spec (length lm) (length ll));
    cbn [andb]; split; intro H; try reflexivity; try discriminate; try (exfalso; tauto); intros (A & B & C); contradiction.
Qed.
Print Assumptions c41_unequal.
(** C41. Plant height: at most the maximum height, non-negative, at least the floor of the stage; the maximum from the
    middle stage to the end of the cycle. *)
Definition hf_from (o : nat) (ls : list nat) (day : Z) (hini hdev hmax : R) : R :=
  let k := searchsorted (cumsum o ls) day in
  if (k =? length ls)%nat then 0 else match (k mod 4)%nat with 0%nat => hini | 1%nat => hdev | _ => hmax end.
Lemma hf_from_floor l : forall o day hini hdev hmax, (Z.of_nat o < day)%Z ->
  hf_from o (flat l) day hini hdev hmax = height_floor hini hdev hmax l (day - Z.of_nat o).
Proof.
  induction l as [|[[[a b] c] e] l IH]; intros o day hini hdev hmax H; [reflexivity|].
  rewrite flat_cons. cbn [height_floor]. unfold hf_from. cbn [cumsum length]. rewrite !searchsorted_cons, !Nat2Z.inj_add.
  destruct (Z.leb_spec (day - Z.of_nat o) (Z.of_nat a)).
  { destruct (Z.ltb_spec (Z.of_nat o + Z.of_nat a) day); [lia|].
    destruct (Z.ltb_spec (Z.of_nat o + Z.of_nat a + Z.of_nat b) day); [lia|].
    destruct (Z.ltb_spec (Z.of_nat o + Z.of_nat a + Z.of_nat b + Z.of_nat c) day); [lia|].
    destruct (Z.ltb_spec (Z.of_nat o + Z.of_nat a + Z.of_nat b + Z.of_nat c + Z.of_nat e) day); [lia|].
    rewrite searchsorted_none_cum by lia. reflexivity. }
  destruct (Z.ltb_spec (Z.of_nat o + Z.of_nat a) day); [|lia].
  destruct (Z.leb_spec (day - Z.of_nat o) (Z.of_nat a + Z.of_nat b)).
  { destruct (Z.ltb_spec (Z.of_nat o + Z.of_nat a + Z.of_nat b) day); [lia|].
    destruct (Z.ltb_spec (Z.of_nat o + Z.of_nat a + Z.of_nat b + Z.of_nat c) day); [lia|].
    destruct (Z.ltb_spec (Z.of_nat o + Z.of_nat a + Z.of_nat b + Z.of_nat c + Z.of_nat e) day); [lia|].
    rewrite searchsorted_none_cum by lia. reflexivity. }
  destruct (Z.ltb_spec (Z.of_nat o + Z.of_nat a + Z.of_nat b) day); [|lia].
  destruct (Z.leb_spec (day - Z.of_nat o) (Z.of_nat a + Z.of_nat b + Z.of_nat c + Z.of_nat e)).
  { destruct (Z.ltb_spec (Z.of_nat o + Z.of_nat a + Z.of_nat b + Z.of_nat c) day);
    (destruct (Z.ltb_spec (Z.of_nat o + Z.of_nat a + Z.of_nat b + Z.of_nat c + Z.of_nat e) day); [lia|]);
    rewrite searchsorted_none_cum by lia; reflexivity. }
  destruct (Z.ltb_spec (Z.of_nat o + Z.of_nat a + Z.of_nat b + Z.of_nat c) day); [|lia].
  destruct (Z.ltb_spec (Z.of_nat o + Z.of_nat a + Z.of_nat b + Z.of_nat c + Z.of_nat e) day); [|lia].
  specialize (IH (o + a + b + c + e)%nat day hini hdev hmax ltac:(lia)).
  replace (day - Z.of_nat (o + a + b + c + e))%Z
    with (day - Z.of_nat o - (Z.of_nat a + Z.of_nat b + Z.of_nat c + Z.of_nat e))%Z in IH by lia.
  rewrite <- IH. unfold hf_from. set (k := searchsorted (cumsum (o + a + b + c + e) (flat l)) day).
  replace (1 + (1 + (1 + (1 + k))))%nat with (S (S (S (S k)))) by lia.
  cbn [Nat.eqb]. replace (S (S (S (S k))) mod 4)%nat with (k mod 4)%nat
    by (replace (S (S (S (S k)))) with (k + 1 * 4)%nat by lia; rewrite Nat.mod_add by lia; reflexivity).
  reflexivity.
Qed.
Theorem c41_height : forall (l : list cycle) day ini mid fin kmin hmax,
  let '(li, ld, lm, ll) := stage_arrays (Cycles l) in
  plant_height day li ld lm ll ini mid fin kmin hmax =
  Some (Rmax (curve_at ini mid fin kmin l day / mid * hmax)
             (if (day <=? 0)%Z then 0 else height_floor (kmin / mid * hmax) (ini / mid * hmax) hmax l day)).
Proof.
  intros. pose proof (crop_index_arrays day l) as I. unfold arrays in I. cbn [stage_arrays] in *. unfold plant_height.
  rewrite I. cbv zeta. rewrite kc_value_curve. do 2 f_equal. rewrite searchsorted_cons. destruct (Z.leb_spec day 0).
  - rewrite searchsorted_none_cum by lia. destruct (Z.ltb_spec (Z.of_nat 0) day); [lia|]. reflexivity.
  - destruct (Z.ltb_spec (Z.of_nat 0) day); [|lia].
    pose proof (hf_from_floor l 0 day (kmin / mid * hmax) (ini / mid * hmax) hmax ltac:(lia)) as K.
    rewrite Z.sub_0_r in K. rewrite <- K. unfold hf_from. set (k := searchsorted (cumsum 0 (flat l)) day).
    replace (1 + k - 1)%nat with k by lia. reflexivity.
Qed.
Print Assumptions c41_height.
Lemma curve_mid_le ini mid fin out l d : 0 <= ini <= mid -> 0 <= fin <= mid -> 0 <= out <= mid ->
  0 <= curve_at ini mid fin out l d <= mid.
Proof. intros. unfold curve_at. destruct (Z.leb_spec d 0); [lra|]. apply curve_bounds; auto; lra. Qed.
Lemma height_floor_bounds hini hdev hmax l : 0 <= hini <= hmax -> 0 <= hdev <= hmax -> 0 <= hmax ->
  forall d, 0 <= height_floor hini hdev hmax l d <= hmax.
Proof.
  intros A B C. induction l as [|[[[a b] c] e] l IH]; intro d; cbn [height_floor]; [lra|].
  destruct (Z.leb d (Z.of_nat a)); [lra|]. destruct (Z.leb d (Z.of_nat a + Z.of_nat b)); [lra|].
  destruct (Z.leb d (Z.of_nat a + Z.of_nat b + Z.of_nat c + Z.of_nat e)); [lra|auto].
Qed.
Lemma div_mid mid x : 0 < mid -> 0 <= x <= mid -> 0 <= x / mid <= 1.
Proof.
  intros A B. split; [apply Rmult_le_pos; [lra|left; apply Rinv_0_lt_compat; lra]|].
  apply Rmult_le_reg_r with mid; [lra|]. unfold Rdiv. rewrite Rmult_assoc, Rinv_l by lra. lra.
Qed.
Theorem c41_height_range : forall (l : list cycle) day ini mid fin kmin hmax,
  0 < mid -> 0 <= ini <= mid -> 0 <= fin <= mid -> 0 <= kmin <= mid -> 0 <= hmax ->
  let '(li, ld, lm, ll) := stage_arrays (Cycles l) in
  exists h, plant_height day li ld lm ll ini mid fin kmin hmax = Some h /\ 0 <= h <= hmax.
Proof.
  intros l day ini mid fin kmin hmax M A B C H. pose proof (c41_height l day ini mid fin kmin hmax) as E.
  cbn [stage_arrays] in *. rewrite E. eexists; split; [reflexivity|].
  pose proof (curve_mid_le ini mid fin kmin l day A B C) as K.
  pose proof (div_mid mid _ M K). pose proof (div_mid mid _ M A). pose proof (div_mid mid _ M C).
  set (x := curve_at _ _ _ _ _ _ / mid) in *.
  assert (F : 0 <= (if (day <=? 0)%Z then 0 else height_floor (kmin / mid * hmax) (ini / mid * hmax) hmax l day) <= hmax).
  { destruct (Z.leb day 0); [lra|]. apply height_floor_bounds; nra. }
  split; [apply Rle_trans with (2 := Rmax_r _ _); tauto|apply Rmax_lub; [nra|tauto]].
Qed.
Print Assumptions c41_height_range.
(** In the middle and late stages of a cycle the plants have their maximum height. *)
Theorem c41_height_max : forall (a b c e : nat) day ini mid fin kmin hmax,
  0 < mid -> 0 <= ini <= mid -> 0 <= fin <= mid -> 0 <= kmin <= mid -> 0 <= hmax ->
  (Z.of_nat (a + b) < day <= Z.of_nat (a + b + c + e))%Z ->
  plant_height day [a] [b] [c] [e] ini mid fin kmin hmax = Some hmax.
Proof.
  intros a b c e day ini mid fin kmin hmax M A B C H D.
  pose proof (c41_height [(a, b, c, e)] day ini mid fin kmin hmax) as E. cbn [stage_arrays map fst snd] in E. rewrite E.
  pose proof (curve_mid_le ini mid fin kmin [(a, b, c, e)] day A B C) as K. pose proof (div_mid mid _ M K).
  set (x := curve_at _ _ _ _ _ _ / mid) in *. cbn [height_floor].
  destruct (Z.leb_spec day 0); [lia|]. destruct (Z.leb_spec day (Z.of_nat a)); [lia|].
  destruct (Z.leb_spec day (Z.of_nat a + Z.of_nat b)); [lia|].
  destruct (Z.leb_spec day (Z.of_nat a + Z.of_nat b + Z.of_nat c + Z.of_nat e)); [|lia].
  f_equal. apply Rmax_right. nra.
Qed.
Print Assumptions c41_height_max.
(** C41. The climate correction is added to middle and final coefficients of at least 0.45 only; heights are scaled
    only if configured. *)
Theorem c41_class : forall (l : list cycle) scale day ini mid fin kmin clim hmax,
  let adj x := if Rle_dec 0.45 x then x + clim else x in
  exists h, class_coefficient (Cycles l) scale day ini mid fin kmin clim hmax =
            Some (curve_at ini (adj mid) (adj fin) kmin l day, h) /\
  (let '(li, ld, lm, ll) := stage_arrays (Cycles l) in
   if scale then plant_height day li ld lm ll ini (adj mid) (adj fin) kmin hmax = Some h else h = hmax).
Proof.
  intros l scale day ini mid fin kmin clim hmax adj. unfold class_coefficient. cbv zeta. fold (adj mid). fold (adj fin).
  pose proof (c41_curve l day ini (adj mid) (adj fin) kmin) as K. pose proof (c41_height l day ini (adj mid) (adj fin) kmin hmax) as H.
  cbn [stage_arrays] in *. rewrite K, H. destruct scale; eexists; (split; [reflexivity|]); try exact H; reflexivity.
Qed.
Print Assumptions c41_class.
(** C41, refuted for seasons across the turn of the year: a crop planted on day 300 with stages of 30, 40, 40 and 20
    days is in its middle stage on 10 January, but has the coefficient of the time outside the growing period. *)
Theorem c41_new_year_refuted : exists (c : cycle) plant_date days_before_new_year day_of_year,
  (days_before_new_year + day_of_year <= total_days [c])%Z /\ (plant_date + days_before_new_year = 366)%Z /\
  forall ini mid fin kmin, curve_at ini mid fin kmin [c] (days_before_new_year + day_of_year) = mid /\
  let '(li, ld, lm, ll) := stage_arrays (Single4 c) in
  crop_coefficient (growing_period_day day_of_year plant_date) li ld lm ll ini mid fin kmin = Some kmin.
Proof.
  exists (30, 40, 40, 20)%nat, 300%Z, 66%Z, 10%Z. split; [vm_compute; discriminate|]. split; [reflexivity|].
  intros. split; reflexivity.
Qed.
Print Assumptions c41_new_year_refuted.
(** Two cycles, day 25 is half way through the second development stage; a stage of length 0 is skipped. *)
Example c41_example : forall ini mid fin kmin,
  crop_coefficient 25 [5%nat; 0%nat] [5%nat; 10%nat] [5%nat; 10%nat] [5%nat; 10%nat] ini mid fin kmin
  = Some (ini + 5 / 10 * (mid - ini)).
Proof.
  intros. pose proof (c41_curve [(5, 5, 5, 5); (0, 10, 10, 10)]%nat 25 ini mid fin kmin) as H. cbn [stage_arrays map fst snd] in H.
  rewrite H. reflexivity.
Qed.

(** * Leaf area index *)
(** C42. One set of stage lengths: the index rises linearly to the maximum during the initial and development stages,
    stays there and falls back, and is the minimum outside of the season; the effective index adds a constant. *)
Theorem c42_single : forall (a b c e : nat) day_of_year plant_date lo hi add,
  let d := (day_of_year - plant_date + 1)%Z in
  let lai := curve_at lo hi lo lo [(0, (a + b)%nat, c, e)%nat] d in
  leaf_area_index (Single4 (a, b, c, e)) day_of_year plant_date lo hi add = Some (lai, lai + add) /\
  (lo <= hi -> lo <= lai <= hi) /\
  ((Z.of_nat (a + b) < d <= Z.of_nat (a + b + c))%Z -> lai = hi) /\
  ((d <= 0)%Z \/ (Z.of_nat (a + b + c + e) < d)%Z -> lai = lo).
Proof.
  intros a b c e doy pd lo hi add d lai. split; [|split; [|split]].
  - unfold leaf_area_index, growing_period_day. cbv zeta. fold d.
    pose proof (c41_single (0, a + b, c, e)%nat d lo hi lo lo) as H. cbn [stage_arrays] in H. rewrite H. reflexivity.
  - intro L. unfold lai, curve_at. destruct (Z.leb_spec d 0); [lra|]. apply curve_bounds; auto; lra.
  - intro H. unfold lai, curve_at. cbn [curve]. destruct (Z.leb_spec d 0); [lia|].
    destruct (Z.leb_spec d (Z.of_nat 0)); [lia|]. destruct (Z.leb_spec d (Z.of_nat 0 + Z.of_nat (a + b))); [lia|].
    destruct (Z.leb_spec d (Z.of_nat 0 + Z.of_nat (a + b) + Z.of_nat c)); [reflexivity|lia].
  - intros [H|H]; unfold lai, curve_at; destruct (Z.leb_spec d 0); try reflexivity; try lia.
    apply curve_after. unfold total_days. cbn [fold_right]. lia.
Qed.
Print Assumptions c42_single.
(** C42, refuted for several cycles: a list of cycles, even of one, always raises. *)
Theorem c42_cycles_refuted : forall (c : cycle) (l : list cycle) day_of_year plant_date lo hi add,
  leaf_area_index (Cycles (c :: l)) day_of_year plant_date lo hi add = None.
Proof.
  intros. unfold leaf_area_index. cbv zeta. unfold stage_arrays.
  match goal with |- match ?k with Some _ => _ | None => _ end = None => assert (N : k = None) end.
  { apply c41_unequal. intros (A & B & _). rewrite app_length, !map_length in *. cbn in *. lia. }
  rewrite N. reflexivity.
Qed.
Print Assumptions c42_cycles_refuted.
Example c42_example : exists l e, leaf_area_index (Single4 (10, 10, 5, 10)%nat) 110 100 1 5 2 = Some (l, e) /\ l = 1 + 11 / 20 * 4 /\ e = l + 2.
Proof.
  destruct (c42_single 10 10 5 10 110 100 1 5 2) as (E & _). eexists _, _. split; [exact E|]. split; [|reflexivity].
  cbn -[IZR]. lra.
Qed.

(** * Surface and root zone depletion *)
Definition sane (p : soilpar) : Prop := 0 <= s_rew p < s_tew p /\ 0 <= s_taw p /\ s_raw p < s_taw p.
(** The tables give sane parameters for every texture, evaporation layers of 0.1 to 0.15 m (the range of FAO-56), every
    rooting depth and adjusted depletion fractions below 1. *)
Theorem c37_tables : forall x depth root frac,
  0.1 <= depth <= 0.15 -> 0 < root -> frac * depletion_adjustment x < 1 ->
  sane (soil_params x depth root frac) /\ 0 < s_rew (soil_params x depth root frac) /\ 0 < s_taw (soil_params x depth root frac) /\
  wilting_point x < field_capacity x /\ 0.9 <= depletion_adjustment x <= 1.1.
Proof.
  intros x depth root frac D H F. unfold sane, soil_params. cbn [s_tew s_rew s_taw s_raw].
  assert (P : 0 < field_capacity x - wilting_point x) by (destruct x; unfold field_capacity, wilting_point; lra).
  assert (T : 0 < 1000 * (field_capacity x - wilting_point x) * root) by (apply Rmult_lt_0_compat; [lra|auto]).
  set (taw := 1000 * (field_capacity x - wilting_point x) * root) in *.
  split; [split; [|split; [lra|nra]]|split; [|split; [lra|split; [lra|]]]].
  - split; destruct x; unfold field_capacity, wilting_point, evaporable; lra.
  - destruct x; unfold evaporable; lra.
  - destruct x; unfold depletion_adjustment; lra.
Qed.
Print Assumptions c37_tables.
Definition in_range (p : soilpar) (s : etst) : Prop :=
  0 <= e_dpe s /\ (exists d, e_de s = Some d /\ 0 <= d <= s_tew p) /\ (exists d, e_dr s = Some d /\ 0 <= d <= s_taw p).
(** Coefficients of the time step such that some soil is exposed *)
Definition exposed_ok (ty : kc_type) (clim kmin kc h : R) : Prop :=
  match ty with SingleKc => True | DualKc veg => vegetation_fraction veg clim kmin kc h < 1 end.
Lemma init_in_range p : sane p -> in_range p et_init.
Proof. intros (A & B & C). split; [cbn; lra|]. split; eexists; (split; [reflexivity|]); lra. Qed.
Lemma clip01 lo hi x : lo <= hi -> lo <= Rmin (Rmax x lo) hi <= hi.
Proof. intros. rmm; lra. Qed.
Lemma reduction_01 p de : sane p -> (forall d, de = Some d -> 0 <= d <= s_tew p) -> 0 <= reduction_coeff p de <= 1.
Proof.
  intros (A & _) H. unfold reduction_coeff. destruct de as [d|]; [|lra]. specialize (H d eq_refl).
  destruct (Rlt_dec (s_rew p) d); [|lra]. split.
  - apply Rmult_le_pos; [lra|]. left. apply Rinv_0_lt_compat. lra.
  - apply Rmult_le_reg_r with (s_tew p - s_rew p); [lra|]. unfold Rdiv. rewrite Rmult_assoc, Rinv_l by lra. lra.
Qed.
Lemma stress_01 p dr d : sane p -> dr = Some d -> exists k, stress_coeff p dr = Some k /\ 0 <= k <= 1.
Proof.
  intros (_ & B & C) ->. unfold stress_coeff. destruct (Req_EM_T (s_taw p - s_raw p) 0); [lra|].
  eexists; split; [reflexivity|]. apply clip01. lra.
Qed.
(** C37. One time step keeps the depletions within their limits, whatever the weather. *)
Theorem c37_step : forall ty water p clim kmin kc h snow et_ref rain s,
  sane p -> exposed_ok ty clim kmin kc h -> in_range p s ->
  in_range p (fst (et_step ty water p clim kmin kc h snow et_ref rain s)) /\
  (forall k, o_ks (snd (et_step ty water p clim kmin kc h snow et_ref rain s)) = Some k -> 0 <= k <= 1) /\
  (snow = false -> water = false -> o_ks (snd (et_step ty water p clim kmin kc h snow et_ref rain s)) <> None) /\
  0 <= reduction_coeff p (e_de s) <= 1.
Proof.
  intros ty water p clim kmin kc h snow et_ref rain s V X (D0 & (de & De & Bde) & (dr & Dr & Bdr)).
  assert (R1 : 0 <= reduction_coeff p (e_de s) <= 1) by (apply reduction_01; [auto|rewrite De; intros d E; injection E as <-; auto]).
  split; [|split; [|split; [|exact R1]]].
  - unfold et_step. cbv zeta. destruct V as (V1 & V2 & V3).
    destruct (snow && negb water).
    { rewrite Dr. cbn [root_zone fst]. split; [exact D0|]. split; [exists de; auto|].
      eexists; split; [reflexivity|]. apply clip01. lra. }
    destruct (stress_01 p (e_dr s) dr (conj V1 (conj V2 V3)) Dr) as (k & K & Bk).
    destruct ty as [|veg].
    + destruct water; [split; [|split]; eauto|]. rewrite K, Dr. cbn [numscale root_zone fst].
      split; [exact D0|]. split; [exists de; auto|]. eexists; split; [reflexivity|]. apply clip01. lra.
    + cbn [exposed_ok] in X. set (vf := vegetation_fraction veg clim kmin kc h) in *.
      assert (E1 : exposed_fraction vf <> 0) by (unfold exposed_fraction; rmm; lra).
      set (ev := evaporation_coeff p clim kc (exposed_fraction vf) (e_de s) * nan_to_zero et_ref).
      assert (SB : exists d', surface_balance p (nan_to_zero rain) ev (exposed_fraction vf) (e_de s)
                     (surface_percolation (nan_to_zero rain) (e_dpe s)) = Some d' /\ 0 <= d' <= s_tew p).
      { unfold surface_balance. rewrite De. destruct (Req_EM_T (exposed_fraction vf) 0); [contradiction|].
        eexists; split; [reflexivity|]. apply clip01. lra. }
      assert (PC : 0 <= surface_percolation (nan_to_zero rain) (e_dpe s)) by apply Rmax_r.
      destruct SB as (d' & SB & Bd'). destruct water.
      * cbn [fst]. split; [exact PC|]. split; [exists d'; auto|exists dr; auto].
      * rewrite K, Dr. cbn [numscale lift1 root_zone fst]. split; [exact PC|]. split; [exists d'; auto|].
        eexists; split; [reflexivity|]. apply clip01. lra.
  - intros k. unfold et_step. cbv zeta. destruct (stress_01 p (e_dr s) dr V Dr) as (k' & K & Bk).
    destruct (snow && negb water).
    { rewrite Dr. cbn. discriminate. }
    destruct ty as [|veg]; destruct water; cbn [snd o_ks]; try discriminate; rewrite K, Dr;
      cbn [numscale lift1 root_zone snd o_ks]; intro E; injection E as <-; exact Bk.
  - intros -> ->. unfold et_step. cbv zeta. cbn [negb andb]. destruct (stress_01 p (e_dr s) dr V Dr) as (k' & K & Bk).
    destruct ty as [|veg]; rewrite K, Dr; cbn [numscale lift1 root_zone snd o_ks]; discriminate.
Qed.
Print Assumptions c37_step.
(** A run of the module for one pixel; every time step has its own weather and coefficients. *)
Record wx := WX { w_clim : R; w_kc : R; w_h : R; w_snow : bool; w_ref : num; w_rain : num }.
Fixpoint et_run (ty : kc_type) (water : bool) (p : soilpar) (kmin : R) (l : list wx) (s : etst) : etst * list etout :=
  match l with
  | [] => (s, [])
  | w :: r => let '(s', o) := et_step ty water p (w_clim w) kmin (w_kc w) (w_h w) (w_snow w) (w_ref w) (w_rain w) s in
              let '(s'', os) := et_run ty water p kmin r s' in (s'', o :: os)
  end.
(** C37. For every weather history. *)
Theorem c37_run : forall ty water p kmin l,
  sane p -> Forall (fun w => exposed_ok ty (w_clim w) kmin (w_kc w) (w_h w)) l ->
  in_range p (fst (et_run ty water p kmin l et_init)) /\
  Forall (fun o => forall k, o_ks o = Some k -> 0 <= k <= 1) (snd (et_run ty water p kmin l et_init)).
Proof.
  intros ty water p kmin l V. generalize (init_in_range p V). generalize et_init.
  induction l as [|w l IH]; intros s I X; [cbn; auto|]. inversion X as [|? ? X1 X2]; subst.
  destruct (c37_step ty water p (w_clim w) kmin (w_kc w) (w_h w) (w_snow w) (w_ref w) (w_rain w) s V X1 I) as (A & B & _).
  cbn [et_run]. destruct (et_step ty water p (w_clim w) kmin (w_kc w) (w_h w) (w_snow w) (w_ref w) (w_rain w) s) as [s' o].
  cbn [fst snd] in *. specialize (IH s' A X2). destruct (et_run ty water p kmin l s') as [s'' os]. cbn [fst snd] in *.
  destruct IH. split; auto.
Qed.
Print Assumptions c37_run.
(** The calculated vegetation fraction is below 1 (some soil is always exposed) if the minimum coefficient is below
    the basal one and the maximum one positive. *)
Lemma rpower_lt1 b e : 0 < b < 1 -> 0 < e -> 0 < Rpower b e < 1.
Proof.
  intros B E. split; [apply exp_pos|]. unfold Rpower. rewrite <- exp_0. apply exp_increasing.
  assert (ln b < 0) by (rewrite <- ln_1; apply ln_increasing; lra). nra.
Qed.
Theorem c37_exposed : forall clim kmin kc h, 0 <= h -> 0 <= kmin -> 0.01 < 1.2 + clim - kmin \/ kmin <= kc ->
  0 < vegetation_fraction None clim kmin kc h < 1.
Proof.
  intros clim kmin kc h H K C. unfold vegetation_fraction, max_kc. apply rpower_lt1; [|lra].
  set (m := Rmax (1.2 + clim) (kc + 0.05)).
  assert (M1 : 1.2 + clim <= m) by apply Rmax_l. assert (M2 : kc + 0.05 <= m) by apply Rmax_r.
  assert (N : 0.01 <= Rmax (kc - kmin) 0.01) by apply Rmax_r.
  assert (L : Rmax (kc - kmin) 0.01 < m - kmin) by (apply Rmax_lub_lt; lra).
  split; [apply Rdiv_lt_0_compat; lra|].
  apply Rmult_lt_reg_r with (m - kmin); [lra|]. unfold Rdiv. rewrite Rmult_assoc, Rinv_l by lra. lra.
Qed.
Print Assumptions c37_exposed.
(** C37. The coefficient formulas: evaporation is unrestricted up to the readily evaporable water and stops when the
    layer is dry; transpiration is unrestricted up to the readily available water and stops at the wilting point. *)
Theorem c37_reduction : forall p d, sane p ->
  (d <= s_rew p -> reduction_coeff p (Some d) = 1) /\ reduction_coeff p (Some (s_tew p)) = 0 /\
  (s_rew p < d -> reduction_coeff p (Some d) * (s_tew p - s_rew p) = s_tew p - d).
Proof.
  intros p d (A & _). unfold reduction_coeff. split; [|split].
  - intro. destruct (Rlt_dec (s_rew p) d); [lra|reflexivity].
  - destruct (Rlt_dec (s_rew p) (s_tew p)); [|lra]. unfold Rdiv. replace (s_tew p - s_tew p) with 0 by lra. ring.
  - intro. destruct (Rlt_dec (s_rew p) d); [|lra]. field. lra.
Qed.
Print Assumptions c37_reduction.
Theorem c37_stress : forall p d, sane p ->
  (d <= s_raw p -> stress_coeff p (Some d) = Some 1) /\ (s_taw p <= d -> stress_coeff p (Some d) = Some 0) /\
  (s_raw p <= d <= s_taw p -> exists k, stress_coeff p (Some d) = Some k /\ k * (s_taw p - s_raw p) = s_taw p - d).
Proof.
  intros p d (_ & A & B). unfold stress_coeff, clip. destruct (Req_EM_T (s_taw p - s_raw p) 0); [lra|].
  assert (I : 0 < / (s_taw p - s_raw p)) by (apply Rinv_0_lt_compat; lra).
  assert (E : (s_taw p - s_raw p) * / (s_taw p - s_raw p) = 1) by (apply Rinv_r; lra). unfold Rdiv.
  set (i := / (s_taw p - s_raw p)) in *.
  split; [intro H; f_equal|split; [intro H; f_equal|intro H]].
  - assert (1 <= (s_taw p - d) * i) by nra. rewrite Rmax_left by lra. rewrite Rmin_right by lra. reflexivity.
  - assert ((s_taw p - d) * i <= 0) by nra. rewrite Rmax_right by lra. rewrite Rmin_left by lra. reflexivity.
  - assert (0 <= (s_taw p - d) * i) by nra. assert ((s_taw p - d) * i <= 1) by nra.
    rewrite Rmax_left by lra. rewrite Rmin_left by lra. eexists; split; [reflexivity|]. nra.
Qed.
Print Assumptions c37_stress.
(** C37, refuted without the condition on the depletion fraction: 0.95 on sand gives a readily available amount above
    the total one, and plants on a soil at field capacity do not transpire at all. *)
Theorem c37_depletion_fraction_refuted : exists x frac, 0 <= frac <= 1 /\
  forall depth root, 0 < root -> stress_coeff (soil_params x depth root frac) (e_dr et_init) = Some 0.
Proof.
  exists Sand, 0.95. split; [lra|]. intros depth root H. unfold stress_coeff, soil_params, et_init, clip.
  cbn [s_taw s_raw e_dr field_capacity wilting_point depletion_adjustment].
  set (taw := 1000 * ((0.07 + 0.17) / 2 - (0.02 + 0.07) / 2) * root). assert (T : 0 < taw) by (unfold taw; nra).
  destruct (Req_EM_T (taw - 0.95 * 1.10 * taw) 0) as [Z|Z]; [exfalso; nra|]. f_equal.
  assert ((taw - 0) / (taw - 0.95 * 1.10 * taw) <= 0).
  { unfold Rdiv. assert (/ (taw - 0.95 * 1.10 * taw) < 0) by (apply Rinv_lt_0_compat; nra). nra. }
  rewrite Rmax_right by lra. rewrite Rmin_left by lra. reflexivity.
Qed.
Print Assumptions c37_depletion_fraction_refuted.
(** C37, refuted for a fully covered sparse class (sparse_vegetation_fraction = 1): the surface depletion is missing
    after the first time step without snow. *)
Theorem c37_full_cover_refuted : exists veg, forall p clim kmin kc h et_ref rain s,
  e_de (fst (et_step (DualKc veg) false p clim kmin kc h false et_ref rain s)) = None.
Proof.
  exists (Some 1). intros. unfold et_step. cbv zeta. cbn [negb andb].
  assert (Z : exposed_fraction (vegetation_fraction (Some 1) clim kmin kc h) = 0)
    by (unfold exposed_fraction, vegetation_fraction; rewrite Rmin_left; lra).
  rewrite Z. unfold surface_balance.
  destruct (root_zone p (nan_to_zero rain) (lift1 (Rplus (evaporation_coeff p clim kc 0 (e_de s) * nan_to_zero et_ref))
       (numscale (kc * nan_to_zero et_ref) (stress_coeff p (e_dr s)))) (e_dr s)) as [dp dr'].
  cbn [fst e_de]. destruct (e_de s); [|reflexivity]. destruct (Req_EM_T 0 0); [reflexivity|lra].
Qed.
Print Assumptions c37_full_cover_refuted.

(** * C38: root zone balance *)
Lemma et_step_root ty p clim kmin kc h snow et_ref rain s :
  e_dr (fst (et_step ty false p clim kmin kc h snow et_ref rain s)) =
    snd (root_zone p (nan_to_zero rain) (o_et (snd (et_step ty false p clim kmin kc h snow et_ref rain s))) (e_dr s)) /\
  o_dp (snd (et_step ty false p clim kmin kc h snow et_ref rain s)) =
    fst (root_zone p (nan_to_zero rain) (o_et (snd (et_step ty false p clim kmin kc h snow et_ref rain s))) (e_dr s)).
Proof.
  unfold et_step. cbv zeta. rewrite andb_true_r. destruct snow.
  - destruct (root_zone p (nan_to_zero rain) (Some 0) (e_dr s)) as [dp dr'] eqn:E. cbn [fst snd e_dr o_et o_dp]. rewrite E. auto.
  - destruct ty as [|veg].
    + destruct (root_zone p (nan_to_zero rain) (numscale (kc * nan_to_zero et_ref) (stress_coeff p (e_dr s))) (e_dr s)) as [dp dr'] eqn:E.
      cbn [fst snd e_dr o_et o_dp]. rewrite E. auto.
    + match goal with |- context [root_zone p ?r ?e ?d] => destruct (root_zone p r e d) as [dp dr'] eqn:E end.
      cbn [fst snd e_dr o_et o_dp]. rewrite E. auto.
Qed.
(** C38. One time step of a pixel that is not a water body: the balance closes unless the depletion would exceed the
    total available water; percolation leaves the root zone at field capacity. *)
Theorem c38_step : forall ty p clim kmin kc h snow et_ref rain s d,
  sane p -> e_dr s = Some d -> 0 <= d <= s_taw p ->
  let r := nan_to_zero rain in
  exists e dp d', o_et (snd (et_step ty false p clim kmin kc h snow et_ref rain s)) = Some e /\
    o_dp (snd (et_step ty false p clim kmin kc h snow et_ref rain s)) = Some dp /\
    e_dr (fst (et_step ty false p clim kmin kc h snow et_ref rain s)) = Some d' /\
    0 <= dp /\ 0 <= d' <= s_taw p /\
    (d - r + e <= s_taw p -> r = e + dp - (d' - d)) /\
    (s_taw p < d - r + e -> d' = s_taw p /\ dp = 0 /\ r < e + dp - (d' - d)) /\
    (0 < dp -> d' = 0 /\ dp = r - e - d) /\ (snow = true -> e = 0).
Proof.
  intros ty p clim kmin kc h snow et_ref rain s d V E B r.
  destruct (et_step_root ty p clim kmin kc h snow et_ref rain s) as (R1 & R2).
  assert (X : exists e, o_et (snd (et_step ty false p clim kmin kc h snow et_ref rain s)) = Some e /\ (snow = true -> e = 0)).
  { unfold et_step. cbv zeta. rewrite andb_true_r. destruct snow.
    - destruct (root_zone p (nan_to_zero rain) (Some 0) (e_dr s)). cbn [snd o_et]. eexists; split; [reflexivity|auto].
    - destruct (stress_01 p (e_dr s) d V E) as (k & K & _). rewrite K. cbn [numscale lift1].
      destruct ty as [|veg];
        match goal with |- context [root_zone p ?r ?e ?d] => destruct (root_zone p r e d) as [dp dr'] end; cbn [snd o_et];
        eexists; (split; [reflexivity|discriminate]). }
  destruct X as (e & X & S0). rewrite X, E in R1, R2. cbn [root_zone fst snd] in R1, R2.
  exists e. eexists _, _. split; [exact X|]. split; [exact R2|]. split; [exact R1|]. fold r. destruct V as (_ & V & _).
  split; [apply Rmax_r|]. split; [apply clip01; lra|]. split; [intro; rmm; lra|]. split; [intro; repeat split; rmm; lra|].
  split; [intro; split; rmm; lra|exact S0].
Qed.
Print Assumptions c38_step.
Definition val (x : num) : R := nan_to_zero x.
(** C38. Over any history: rain never exceeds evapotranspiration plus percolation minus the depletion built up; with
    the single coefficient and potential evapotranspiration per step of at most the slope range of the stress
    coefficient, it is equal. *)
Theorem c38_run : forall ty p kmin l,
  sane p -> Forall (fun w => exposed_ok ty (w_clim w) kmin (w_kc w) (w_h w)) l ->
  exists d, e_dr (fst (et_run ty false p kmin l et_init)) = Some d /\ 0 <= d <= s_taw p /\
  let rain := sumR (map (fun w => nan_to_zero (w_rain w)) l) in
  let et := sumR (map (fun o => val (o_et o)) (snd (et_run ty false p kmin l et_init))) in
  let dp := sumR (map (fun o => val (o_dp o)) (snd (et_run ty false p kmin l et_init))) in
  rain <= et + dp - d /\
  (ty = SingleKc -> Forall (fun w => 0 <= nan_to_zero (w_rain w) /\ w_kc w * nan_to_zero (w_ref w) <= s_taw p - s_raw p) l ->
   rain = et + dp - d).
Proof.
  intros ty p kmin l V X.
  enough (G : forall s d0, in_range p s -> e_dr s = Some d0 ->
    exists d, e_dr (fst (et_run ty false p kmin l s)) = Some d /\ 0 <= d <= s_taw p /\
      sumR (map (fun w => nan_to_zero (w_rain w)) l) <=
        sumR (map (fun o => val (o_et o)) (snd (et_run ty false p kmin l s))) +
        sumR (map (fun o => val (o_dp o)) (snd (et_run ty false p kmin l s))) - (d - d0) /\
      (ty = SingleKc -> Forall (fun w => 0 <= nan_to_zero (w_rain w) /\ w_kc w * nan_to_zero (w_ref w) <= s_taw p - s_raw p) l ->
       sumR (map (fun w => nan_to_zero (w_rain w)) l) =
        sumR (map (fun o => val (o_et o)) (snd (et_run ty false p kmin l s))) +
        sumR (map (fun o => val (o_dp o)) (snd (et_run ty false p kmin l s))) - (d - d0))).
  { destruct (G et_init 0 (init_in_range p V) eq_refl) as (d & A & B & C & D). exists d. rewrite Rminus_0_r in *.
    split; [exact A|]. split; [exact B|]. cbv zeta. split; [lra|]. intros T F. specialize (D T F). lra. }
  induction l as [|w l IH]; intros s d0 I E0.
  { cbn [et_run fst snd map]. destruct I as (_ & _ & (d & Ed & Bd)). exists d. rewrite !sumR_nil.
    assert (d0 = d) by congruence. subst. split; [auto|]. split; [auto|]. split; [lra|intros; lra]. }
  inversion X as [|? ? X1 X2]; subst. destruct I as (I1 & I2 & (d & Ed & Bd)). assert (d0 = d) by congruence. subst d0.
  destruct (c37_step ty false p (w_clim w) kmin (w_kc w) (w_h w) (w_snow w) (w_ref w) (w_rain w) s V X1
              (conj I1 (conj I2 (ex_intro _ d (conj Ed Bd))))) as (A & _).
  destruct (c38_step ty p (w_clim w) kmin (w_kc w) (w_h w) (w_snow w) (w_ref w) (w_rain w) s d V Ed Bd)
    as (e & dp & d' & O1 & O2 & O3 & P1 & P2 & P3 & P4 & P5 & P6).
  assert (CAP : ty = SingleKc -> 0 <= nan_to_zero (w_rain w) -> w_kc w * nan_to_zero (w_ref w) <= s_taw p - s_raw p ->
                d - nan_to_zero (w_rain w) + e <= s_taw p).
  { intros -> HR HK. clear IH A O2 O3. revert O1. unfold et_step. cbv zeta. rewrite andb_true_r. destruct (w_snow w).
    - rewrite (P6 eq_refl). intros _. lra.
    - destruct V as (V1 & V2 & V3). unfold stress_coeff. rewrite Ed. destruct (Req_EM_T (s_taw p - s_raw p) 0); [lra|].
      cbn [numscale root_zone snd o_et]. intro Q. injection Q as Q. subst e.
      set (m := s_taw p - s_raw p) in *. assert (M : 0 < m) by (unfold m; lra).
      set (a := s_taw p - d). assert (Ha : 0 <= a) by (unfold a; lra).
      assert (K : w_kc w * nan_to_zero (w_ref w) * clip 0 1 (a / m) <= a); [|unfold a in *; lra].
      assert (F : 0 <= a / m) by (apply Rmult_le_pos; [auto|left; apply Rinv_0_lt_compat; auto]).
      assert (Q : a / m * m = a) by (field; lra).
      unfold clip. rewrite Rmax_left by lra. destruct (Rle_lt_dec (a / m) 1).
      + rewrite Rmin_left by lra. nra.
      + rewrite Rmin_right by lra. nra. }
  cbn [et_run]. destruct (et_step ty false p (w_clim w) kmin (w_kc w) (w_h w) (w_snow w) (w_ref w) (w_rain w) s) as [s' o].
  cbn [fst snd] in *. specialize (IH X2 s' d' A O3). destruct (et_run ty false p kmin l s') as [s'' os]. cbn [fst snd] in *.
  destruct IH as (df & Q1 & Q2 & Q3 & Q4). exists df. split; [exact Q1|]. split; [exact Q2|].
  cbn [map]. rewrite !sumR_cons, !O1, !O2. cbn [val nan_to_zero].
  change (val (Some e)) with e. change (val (Some dp)) with dp.
  split.
  - destruct (Rle_lt_dec (d - nan_to_zero (w_rain w) + e) (s_taw p)) as [L|L]; [pose proof (P3 L)|pose proof (P4 L)]; lra.
  - intros T F. inversion F as [|? ? F1 F2]; subst. destruct F1 as (F1 & F1'). specialize (Q4 eq_refl F2).
    pose proof (P3 (CAP eq_refl F1 F1')). lra.
Qed.
Print Assumptions c38_run.
(** A dry day, a wet day with percolation, a dry day. *)
Example c38_example :
  let p := SP 12 4 50 20 in
  let l := [WX 0 1 1 false (Some 5) None; WX 0 1 1 false (Some 0) (Some 8); WX 0 1 1 true (Some 3) (Some 1)] in
  sane p /\ Forall (fun w => exposed_ok SingleKc (w_clim w) 0.15 (w_kc w) (w_h w)) l /\
  Forall (fun w => 0 <= nan_to_zero (w_rain w) /\ w_kc w * nan_to_zero (w_ref w) <= s_taw p - s_raw p) l /\
  map o_dp (snd (et_run SingleKc false p 0.15 l et_init)) = [Some 0; Some 3; Some 1].
Proof.
  cbv zeta. split; [unfold sane; cbn [s_rew s_tew s_taw s_raw]; lra|]. split; [repeat constructor|].
  split; [repeat constructor; cbn [w_rain w_kc w_ref nan_to_zero s_taw s_raw]; lra|].
  cbn -[Rmin Rmax IZR Rplus Rminus Rmult Rdiv]. unfold stress_coeff. cbn [e_dr et_init s_taw s_raw].
  destruct (Req_EM_T (50 - 20) 0); [lra|]. unfold clip.
  replace (Rmin (Rmax ((50 - 0) / (50 - 20)) 0) 1) with 1 by (rmm; lra). cbn [numscale root_zone e_dr snd o_dp].
  replace (Rmax (0 - 1 * 5 * 1 - 0) 0) with 0 by (rmm; lra).
  replace (Rmin (Rmax (0 - 0 + 1 * 5 * 1 + 0) 0) (s_taw (SP 12 4 50 20))) with 5 by (cbn [s_taw]; rmm; lra).
  destruct (Req_EM_T (50 - 20) 0); [lra|].
  replace (Rmin (Rmax ((50 - 5) / (50 - 20)) 0) 1) with 1 by (rmm; lra). cbn [numscale root_zone e_dr snd o_dp].
  replace (Rmax (8 - 1 * 0 * 1 - 5) 0) with 3 by (rmm; lra).
  replace (Rmin (Rmax (5 - 8 + 1 * 0 * 1 + 3) 0) (s_taw (SP 12 4 50 20))) with 0 by (cbn [s_taw]; rmm; lra).
  replace (Rmax (1 - 0 - 0) 0) with 1 by (rmm; lra). reflexivity.
Qed.

(** * C39: re-wetting *)
(** What the code does: without evaporation, rain reduces the surface depletion only by the percolation of the previous
    time step. *)
Theorem c39_actual : forall veg water p clim kmin kc h rain et_ref s d,
  sane p -> exposed_ok (DualKc veg) clim kmin kc h -> e_de s = Some d -> 0 <= d <= s_tew p -> 0 <= e_dpe s -> 0 <= rain ->
  nan_to_zero et_ref = 0 ->
  e_de (fst (et_step (DualKc veg) water p clim kmin kc h false et_ref (Some rain) s)) = Some (Rmax (d - Rmin rain (e_dpe s)) 0) /\
  e_dpe (fst (et_step (DualKc veg) water p clim kmin kc h false et_ref (Some rain) s)) = Rmax (rain - e_dpe s) 0.
Proof.
  intros veg water p clim kmin kc h rain et_ref s d (V & _) X E B D R0 Z. unfold et_step. cbv zeta. cbn [andb]. rewrite Z.
  cbn [nan_to_zero]. cbn [exposed_ok] in X. set (vf := vegetation_fraction veg clim kmin kc h) in *.
  assert (E1 : exposed_fraction vf <> 0) by (unfold exposed_fraction; rmm; lra). rewrite !Rmult_0_r.
  assert (S1 : surface_balance p rain 0 (exposed_fraction vf) (e_de s) (surface_percolation rain (e_dpe s))
               = Some (Rmax (d - Rmin rain (e_dpe s)) 0)).
  { unfold surface_balance, surface_percolation. rewrite E. destruct (Req_EM_T (exposed_fraction vf) 0); [contradiction|].
    f_equal. replace (0 / exposed_fraction vf) with 0 by (unfold Rdiv; ring). rmm; lra. }
  rewrite S1. destruct water; [cbn [fst e_de e_dpe]; auto|].
  match goal with |- context [root_zone p ?r ?e ?x] => destruct (root_zone p r e x) as [dp dr'] end. cbn [fst e_de e_dpe]. auto.
Qed.
Print Assumptions c39_actual.
(** C39 holds when the layer is at field capacity, or when the previous percolation covers the rain (this is what is
    left of it: FAO-56 demands it for all rain). *)
Theorem c39_rewets_partial : forall veg water p clim kmin kc h rain et_ref s d,
  sane p -> exposed_ok (DualKc veg) clim kmin kc h -> e_de s = Some d -> 0 <= d <= s_tew p -> 0 <= e_dpe s -> 0 <= rain ->
  nan_to_zero et_ref = 0 -> d = 0 \/ rain <= e_dpe s ->
  e_de (fst (et_step (DualKc veg) water p clim kmin kc h false et_ref (Some rain) s)) = Some (d - Rmin rain d).
Proof.
  intros veg water p clim kmin kc h rain et_ref s d V X E B D R0 Z C.
  destruct (c39_actual veg water p clim kmin kc h rain et_ref s d V X E B D R0 Z) as (A & _).
  etransitivity; [exact A|]. f_equal. destruct C as [->|C]; rmm; lra.
Qed.
Print Assumptions c39_rewets_partial.
(** C39, refuted: after any dry history, any amount of rain leaves the depletion of the layer as it is. *)
Lemma dry_dpe veg water p kmin l : forall s, e_dpe s = 0 ->
  Forall (fun w => nan_to_zero (w_rain w) = 0) l -> e_dpe (fst (et_run (DualKc veg) water p kmin l s)) = 0.
Proof.
  induction l as [|w l IH]; intros s E F; [exact E|]. inversion F as [|? ? F1 F2]; subst. cbn [et_run].
  assert (P : e_dpe (fst (et_step (DualKc veg) water p (w_clim w) kmin (w_kc w) (w_h w) (w_snow w) (w_ref w) (w_rain w) s)) = 0).
  { unfold et_step. cbv zeta. rewrite F1. destruct (w_snow w && negb water).
    - destruct (root_zone p 0 (Some 0) (e_dr s)). exact E.
    - assert (surface_percolation 0 (e_dpe s) = 0) as Q by (unfold surface_percolation; rewrite E; rmm; lra). rewrite Q.
      destruct water; [reflexivity|].
      match goal with |- context [root_zone p ?r ?e ?x] => destruct (root_zone p r e x) as [dp dr'] end. reflexivity. }
  destruct (et_step (DualKc veg) water p (w_clim w) kmin (w_kc w) (w_h w) (w_snow w) (w_ref w) (w_rain w) s) as [s' o].
  cbn [fst] in P. specialize (IH s' P F2). destruct (et_run (DualKc veg) water p kmin l s') as [s'' os]. exact IH.
Qed.
Theorem c39_rewets_refuted : forall veg water p clim kmin kc h rain l d,
  sane p -> exposed_ok (DualKc veg) clim kmin kc h -> 0 <= rain ->
  Forall (fun w => exposed_ok (DualKc veg) (w_clim w) kmin (w_kc w) (w_h w) /\ nan_to_zero (w_rain w) = 0) l ->
  e_de (fst (et_run (DualKc veg) water p kmin l et_init)) = Some d ->
  e_de (fst (et_step (DualKc veg) water p clim kmin kc h false (Some 0) (Some rain)
                     (fst (et_run (DualKc veg) water p kmin l et_init)))) = Some d.
Proof.
  intros veg water p clim kmin kc h rain l d V X R0 F E.
  assert (F1 : Forall (fun w => exposed_ok (DualKc veg) (w_clim w) kmin (w_kc w) (w_h w)) l) by (eapply Forall_impl; [|exact F]; cbn; tauto).
  assert (F2 : Forall (fun w => nan_to_zero (w_rain w) = 0) l) by (eapply Forall_impl; [|exact F]; cbn; tauto).
  destruct (c37_run (DualKc veg) water p kmin l V F1) as ((I1 & (d2 & I2 & B) & _) & _).
  assert (d2 = d) by congruence. subst d2.
  pose proof (dry_dpe veg water p kmin l et_init eq_refl F2) as D.
  destruct (c39_actual veg water p clim kmin kc h rain (Some 0) _ d V X E B I1 R0 eq_refl) as (A & _).
  etransitivity; [exact A|]. rewrite D. f_equal. rmm; lra.
Qed.
Print Assumptions c39_rewets_refuted.
(** A dry day with bare soil evaporates 6 mm; 10 mm of rain on the next day change nothing. *)
Example c39_example :
  let p := SP 12 4 50 20 in let l := [WX 0 0.15 0 false (Some 5) None] in
  e_de (fst (et_run (DualKc (Some 0)) false p 0.15 l et_init)) = Some 5.25 /\
  e_de (fst (et_step (DualKc (Some 0)) false p 0 0.15 0.15 0 false (Some 0) (Some 10)
     (fst (et_run (DualKc (Some 0)) false p 0.15 l et_init)))) = Some 5.25.
Proof.
  cbv zeta. assert (E : e_de (fst (et_run (DualKc (Some 0)) false (SP 12 4 50 20) 0.15 [WX 0 0.15 0 false (Some 5) None] et_init)) = Some 5.25).
  { cbn [et_run]. unfold et_step. cbn [w_snow andb w_ref w_rain w_kc w_clim w_h]. cbv zeta.
    match goal with |- context [root_zone ?p ?r ?e ?x] => destruct (root_zone p r e x) as [dp dr'] end. cbn [fst e_de et_init e_dpe nan_to_zero].
    unfold surface_balance, exposed_fraction, vegetation_fraction, evaporation_coeff, reduction_coeff, max_kc, surface_percolation.
    cbn [s_rew s_tew]. replace (Rmin (1 - 0) 1) with 1 by (rmm; lra). destruct (Req_EM_T 1 0); [lra|].
    destruct (Rlt_dec 4 0); [lra|]. replace (Rmax (1.2 + 0) (0.15 + 0.05)) with 1.2 by (rmm; lra).
    replace (Rmin (1 * (1.2 - 0.15)) (1 * 1.2)) with 1.05 by (rmm; lra). f_equal. rmm; lra. }
  split; [exact E|]. apply c39_rewets_refuted; auto; try lra.
  - unfold sane. cbn [s_rew s_tew s_taw s_raw]. lra.
  - cbn. lra.
  - repeat constructor; cbn; lra.
Qed.

(** * C40: sealed surfaces *)
Theorem c40_step : forall mx snow rain pot inter, 0 <= inter <= mx -> 0 <= nan_to_zero rain -> 0 <= nan_to_zero pot ->
  let '(i', evap, runoff) := sealed_step mx snow rain pot inter in
  0 <= i' <= mx /\ 0 <= evap <= inter /\ 0 <= runoff /\
  (snow = false -> nan_to_zero rain = (i' - inter) + evap + runoff) /\
  (0 < runoff -> i' = mx) /\ (0 < nan_to_zero rain -> evap = 0) /\
  (snow = true -> i' = inter /\ evap = 0 /\ runoff = 0) /\
  (snow = false -> nan_to_zero rain = 0 -> runoff = 0 /\ evap = Rmin (nan_to_zero pot) inter).
Proof.
  intros mx snow rain pot inter B R0 P0. unfold sealed_step. destruct snow.
  { repeat split; intros; try lra; try discriminate. }
  assert (G : gt0 rain = true -> 0 < nan_to_zero rain).
  { unfold gt0, nan_to_zero. destruct rain; [|discriminate]. destruct (Rlt_dec 0 r); [auto|discriminate]. }
  assert (G' : gt0 rain = false -> nan_to_zero rain = 0).
  { unfold gt0, nan_to_zero in *. destruct rain; [|reflexivity]. destruct (Rlt_dec 0 r); [discriminate|lra]. }
  destruct (gt0 rain).
  - specialize (G eq_refl). cbv zeta. split; [rmm; lra|]. split; [lra|]. split; [rmm; lra|]. split; [intros; lra|].
    split; [intro; rmm; lra|]. split; [auto|]. split; [discriminate|]. intros; lra.
  - rewrite (G' eq_refl). cbv zeta. split; [rmm; lra|]. split; [rmm; lra|]. split; [lra|]. split; [intros; lra|].
    split; [intro; lra|]. split; [intros; lra|]. split; [discriminate|]. auto.
Qed.
Print Assumptions c40_step.
Fixpoint sealed_run (mx : R) (l : list (bool * num * num)) (i : R) : R * R * R :=
  match l with
  | [] => (i, 0, 0)
  | (snow, rain, pot) :: r => let '(i', e, q) := sealed_step mx snow rain pot i in
                              let '(i'', es, qs) := sealed_run mx r i' in (i'', e + es, q + qs)
  end.
(** C40. Every history: interception within limits; rain on snow-free steps equals storage, evaporation and runoff. *)
Theorem c40_run : forall mx l, 0 <= mx -> Forall (fun '(_, rain, pot) => 0 <= nan_to_zero rain /\ 0 <= nan_to_zero pot) l ->
  let '(i, evap, runoff) := sealed_run mx l 0 in
  0 <= i <= mx /\ 0 <= evap /\ 0 <= runoff /\
  sumR (map (fun '(snow, rain, _) => if (snow : bool) then 0 else nan_to_zero rain) l) = i + evap + runoff.
Proof.
  intros mx l M F.
  enough (G : forall i0, 0 <= i0 <= mx -> let '(i, evap, runoff) := sealed_run mx l i0 in
    0 <= i <= mx /\ 0 <= evap /\ 0 <= runoff /\
    sumR (map (fun '(snow, rain, _) => if (snow : bool) then 0 else nan_to_zero rain) l) = i - i0 + evap + runoff).
  { specialize (G 0 ltac:(lra)). destruct (sealed_run mx l 0) as [[i e] q]. destruct G as (A & B & C & D). repeat split; lra. }
  induction l as [|[[snow rain] pot] l IH]; intros i0 B; cbn [sealed_run map].
  { rewrite sumR_nil. repeat split; lra. }
  inversion F as [|? ? F1 F2]; subst. destruct F1 as (F1 & F1').
  pose proof (c40_step mx snow rain pot i0 B F1 F1') as S0. destruct (sealed_step mx snow rain pot i0) as [[i' e] q].
  destruct S0 as (A1 & A2 & A3 & A4 & _ & _ & A5 & _). specialize (IH F2 i' A1). destruct (sealed_run mx l i') as [[i'' es] qs].
  destruct IH as (B1 & B2 & B3 & B4). rewrite sumR_cons, B4. split; [lra|]. split; [lra|]. split; [lra|].
  destruct snow; [destruct (A5 eq_refl) as (-> & -> & ->); lra|]. rewrite (A4 eq_refl). lra.
Qed.
Print Assumptions c40_run.
(** The potential evaporation is non-negative and grows with the available energy. *)
Lemma svp_slope_pos t : t <> -237.3 -> 0 < svp_slope t.
Proof.
  intro H. unfold svp_slope. assert (0 < (t + 237.3) ^ 2).
  { rewrite <- Rsqr_pow2. apply Rsqr_pos_lt. lra. }
  pose proof (exp_pos (17.27 * t / (t + 237.3))). apply Rdiv_lt_0_compat; [nra|auto].
Qed.
Theorem c40_potential : forall hmax hw ht ws rn rn' g temp psych es ea press dt,
  0 < dt -> 0 < psych -> 40 < temp -> rn <= rn' ->
  0 <= sealed_potential hmax hw ht ws rn g temp psych es ea press dt <=
  sealed_potential hmax hw ht ws rn' g temp psych es ea press dt.
Proof.
  intros hmax hw ht ws rn rn' g temp psych es ea press dt D P T L. unfold sealed_potential. cbv zeta.
  set (ra := ln _ * ln _ / _). set (sl := 1000 * svp_slope (temp - T0)).
  assert (S1 : 0 < sl) by (unfold sl; pose proof (svp_slope_pos (temp - T0) ltac:(unfold T0; lra)); lra).
  replace (1 + 0 / ra) with 1 by (unfold Rdiv; ring).
  set (x := _ * (es - ea) / ra).
  assert (I : 0 < / (sl + psych * 1)) by (apply Rinv_0_lt_compat; lra).
  assert (Q : (sl * (rn - g) + x) / (sl + psych * 1) <= (sl * (rn' - g) + x) / (sl + psych * 1))
    by (unfold Rdiv; apply Rmult_le_compat_r; nra).
  assert (LV : 0 < / Lv) by (apply Rinv_0_lt_compat; unfold Lv; lra).
  set (y := (sl * (rn - g) + x) / (sl + psych * 1)) in *. set (y' := (sl * (rn' - g) + x) / (sl + psych * 1)) in *.
  unfold Rdiv. pose proof (Rmax_r y 0). assert (Rmax y 0 <= Rmax y' 0) by (apply Rmax_lub; [apply Rle_trans with y'; [auto|apply Rmax_l]|apply Rmax_r]).
  split; [apply Rmult_le_pos; [nra|lra]|apply Rmult_le_compat_r; [lra|nra]].
Qed.
Print Assumptions c40_potential.
Example c40_example : sealed_run 2 [(false, Some 1.5, None); (false, Some 1, Some 3); (false, None, Some 0.5); (true, Some 4, Some 1)] 0 = (1.5, 0.5, 0.5).
Proof.
  cbn [sealed_run]. unfold sealed_step. cbn [gt0 nan_to_zero]. rsplit.
  replace (Rmax (0 + 1.5 - 2) 0) with 0 by (rmm; lra). replace (Rmax (0 + 1.5 - 0 + 1 - 2) 0) with 0.5 by (rmm; lra).
  replace (Rmin 0.5 (0 + 1.5 - 0 + 1 - 0.5)) with 0.5 by (rmm; lra). f_equal; [f_equal|]; lra.
Qed.

(** * C81: reference evapotranspiration *)
Lemma wind_profile_nonneg ws h : 0 <= ws -> 0.03 < h -> 0 <= log_wind_profile ws h 2 0.03.
Proof.
  intros W H. unfold log_wind_profile.
  assert (0 < ln (2 / 0.03)) by (rewrite <- ln_1; apply ln_increasing; lra).
  assert (0 < ln (h / 0.03)) by (rewrite <- ln_1; apply ln_increasing; [lra|]; apply Rmult_lt_reg_r with 0.03; [lra|]; unfold Rdiv; rewrite Rmult_assoc, Rinv_l; lra).
  repeat (apply Rmult_le_pos; try lra); left; apply Rinv_0_lt_compat; auto.
Qed.
(** The value is non-negative, proportional to the time step, grows with net radiation, and vanishes without energy
    and vapour pressure deficit. *)
Theorem c81_reference : forall day rn rn' temp psych es ea ws hw dt,
  0 < dt -> 0 < psych -> 40 < temp -> 0 <= ws -> 0.03 < hw -> rn <= rn' ->
  let et r t := reference_et day r temp psych es ea ws hw t in
  0 <= et rn dt <= et rn' dt /\
  (forall dt', et rn (dt + dt') = et rn dt + et rn dt') /\
  (rn <= 0 -> es <= ea -> 0.15 < temp -> et rn dt = 0).
Proof.
  intros day rn rn' temp psych es ea ws hw dt D P T W H L et. unfold et, reference_et. cbv zeta.
  set (u2 := log_wind_profile ws hw 2 0.03). assert (U : 0 <= u2) by (apply wind_profile_nonneg; auto).
  set (sl := svp_slope (temp - T0)). assert (S1 : 0 < sl) by (apply svp_slope_pos; unfold T0; lra).
  set (c := if day then 0.1 else 0.5). assert (C : 0 < c < 1) by (unfold c; destruct day; lra).
  set (k := 1 / 1000000 * SECONDS_PER_HOUR). assert (K : 0 < k) by (unfold k, SECONDS_PER_HOUR; lra).
  set (gm := psych / 1000). assert (G : 0 < gm) by (unfold gm; lra).
  assert (N : 0 < sl + gm * (1 + 0.34 * u2)) by nra. assert (I := Rinv_0_lt_compat _ N).
  set (den := sl + gm * (1 + 0.34 * u2)) in *.
  assert (A : 0 < temp - T0 + 273 -> 0 <= gm * 37 / (temp - T0 + 273) * u2).
  { intro Q. apply Rmult_le_pos; [|auto]. apply Rmult_le_pos; [lra|]. left. apply Rinv_0_lt_compat. auto. }
  set (av := gm * 37 / (temp - T0 + 273) * u2) in *.
  set (x := (0.408 * sl * (rn * k - c * rn * k) + av * (es / 1000 - ea / 1000)) / den).
  set (x' := (0.408 * sl * (rn' * k - c * rn' * k) + av * (es / 1000 - ea / 1000)) / den).
  assert (X : x <= x').
  { unfold x, x', Rdiv. apply Rmult_le_compat_r; [lra|]. apply Rplus_le_compat_r. apply Rmult_le_compat_l; [nra|].
    replace (rn * k - c * rn * k) with (rn * ((1 - c) * k)) by ring. replace (rn' * k - c * rn' * k) with (rn' * ((1 - c) * k)) by ring.
    apply Rmult_le_compat_r; [nra|auto]. }
  assert (SH : 0 < / SECONDS_PER_HOUR) by (apply Rinv_0_lt_compat; unfold SECONDS_PER_HOUR; lra).
  pose proof (Rmax_r x 0). assert (Rmax x 0 <= Rmax x' 0) by (apply Rmax_lub; [apply Rle_trans with x'; [auto|apply Rmax_l]|apply Rmax_r]).
  split; [|split].
  - unfold Rdiv. split; [apply Rmult_le_pos; [nra|lra]|]. apply Rmult_le_compat_r; [lra|]. nra.
  - intro dt'. unfold Rdiv. ring.
  - intros R0 E0 T1. assert (x <= 0).
    { assert (0 <= av) by (apply A; unfold T0; lra). unfold x, Rdiv.
      assert (rn * k - c * rn * k <= 0) by (replace (rn * k - c * rn * k) with (rn * ((1 - c) * k)) by ring; assert (0 < (1 - c) * k) by nra; nra).
      assert (0.408 * sl * (rn * k - c * rn * k) <= 0) by nra.
      assert (av * (es * / 1000 - ea * / 1000) <= 0) by nra. nra. }
    rewrite Rmax_right by lra. unfold Rdiv. ring.
Qed.
Print Assumptions c81_reference.
(** Drier air evaporates more; in saturated air the latent heat (2.45 MJ/kg, 0.408 = 1/2.45 in the code) is at most the
    energy available. *)
Theorem c81_deficit : forall day rn temp psych es ea ea' ws hw dt,
  0 < dt -> 0 < psych -> 40 < temp -> 0 <= ws -> 0.03 < hw -> ea' <= ea ->
  reference_et day rn temp psych es ea ws hw dt <= reference_et day rn temp psych es ea' ws hw dt /\
  (0 <= rn -> es <= ea ->
   reference_et day rn temp psych es ea ws hw dt <= 0.408 * ((1 - (if day then 0.1 else 0.5)) * rn / 1000000 * dt)).
Proof.
  intros day rn temp psych es ea ea' ws hw dt D P T W H L. unfold reference_et. cbv zeta.
  set (u2 := log_wind_profile ws hw 2 0.03). assert (U : 0 <= u2) by (apply wind_profile_nonneg; auto).
  set (sl := svp_slope (temp - T0)). assert (S1 : 0 < sl) by (apply svp_slope_pos; unfold T0; lra).
  set (c := if day then 0.1 else 0.5). assert (C : 0 < c < 1) by (unfold c; destruct day; lra).
  set (k := 1 / 1000000 * SECONDS_PER_HOUR). assert (K : 0 < k) by (unfold k, SECONDS_PER_HOUR; lra).
  set (gm := psych / 1000). assert (G : 0 < gm) by (unfold gm; lra).
  assert (N : 0 < sl + gm * (1 + 0.34 * u2)) by nra. assert (I := Rinv_0_lt_compat _ N).
  set (den := sl + gm * (1 + 0.34 * u2)) in *.
  assert (A : 0 <= gm * 37 / (temp - T0 + 273) * u2).
  { apply Rmult_le_pos; [|auto]. apply Rmult_le_pos; [lra|]. left. apply Rinv_0_lt_compat. unfold T0. lra. }
  set (av := gm * 37 / (temp - T0 + 273) * u2) in *.
  set (q := rn * k - c * rn * k).
  assert (SH : 0 < / SECONDS_PER_HOUR) by (apply Rinv_0_lt_compat; unfold SECONDS_PER_HOUR; lra).
  split.
  - assert (X : (0.408 * sl * q + av * (es / 1000 - ea / 1000)) / den <= (0.408 * sl * q + av * (es / 1000 - ea' / 1000)) / den).
    { unfold Rdiv. apply Rmult_le_compat_r; [lra|]. apply Rplus_le_compat_l. apply Rmult_le_compat_l; [auto|lra]. }
    set (x := (0.408 * sl * q + av * (es / 1000 - ea / 1000)) / den) in *.
    set (x' := (0.408 * sl * q + av * (es / 1000 - ea' / 1000)) / den) in *.
    assert (Rmax x 0 <= Rmax x' 0) by (apply Rmax_lub; [apply Rle_trans with x'; [auto|apply Rmax_l]|apply Rmax_r]).
    unfold Rdiv. apply Rmult_le_compat_r; [lra|]. apply Rmult_le_compat_r; lra.
  - intros R0 E0. assert (Q0 : 0 <= q) by (unfold q; replace (rn * k - c * rn * k) with (rn * ((1 - c) * k)) by ring; apply Rmult_le_pos; [auto|nra]).
    set (x := (0.408 * sl * q + av * (es / 1000 - ea / 1000)) / den).
    assert (X : x <= 0.408 * q).
    { unfold x. apply Rmult_le_reg_r with den; [auto|]. unfold Rdiv. rewrite Rmult_assoc, Rinv_l by lra. unfold den.
      assert (av * (es * / 1000 - ea * / 1000) <= 0) by nra.
      assert (0 <= 0.408 * q * (gm * (1 + 0.34 * u2))) by (apply Rmult_le_pos; [lra|nra]). nra. }
    assert (M : Rmax x 0 <= 0.408 * q) by (apply Rmax_lub; lra).
    assert (E : 0.408 * ((1 - c) * rn / 1000000 * dt) = 0.408 * q * dt / SECONDS_PER_HOUR).
    { unfold q, k. field. unfold SECONDS_PER_HOUR. lra. }
    rewrite E. unfold Rdiv. apply Rmult_le_compat_r; [lra|]. apply Rmult_le_compat_r; lra.
Qed.
Print Assumptions c81_deficit.
(** Reference net radiation: both components grow with the incoming fluxes; a warmer surface emits more. *)
Theorem c81_net_radiation : forall al em sw lw t,
  ref_net_radiation al em sw lw t = sw - al * sw + lw - em * (STEFAN_BOLTZMANN * t ^ 4).
Proof. intros. unfold ref_net_radiation. ring. Qed.
Print Assumptions c81_net_radiation.
Example c81_example : 0 < reference_et true 500 293.15 66 2338 1200 2 10 3600.
Proof.
  unfold reference_et. cbv zeta. set (u2 := log_wind_profile 2 10 2 0.03). assert (U : 0 <= u2) by (apply wind_profile_nonneg; lra).
  set (sl := svp_slope _). assert (S1 : 0 < sl) by (apply svp_slope_pos; unfold T0; lra).
  assert (0 < sl + 66 / 1000 * (1 + 0.34 * u2)) by nra.
  assert (0 < 0.408 * sl * (500 * (1 / 1000000 * SECONDS_PER_HOUR) - 0.1 * 500 * (1 / 1000000 * SECONDS_PER_HOUR)) +
              66 / 1000 * 37 / (293.15 - T0 + 273) * u2 * (2338 / 1000 - 1200 / 1000)).
  { unfold T0, SECONDS_PER_HOUR. nra. }
  assert (0 < SECONDS_PER_HOUR) by (unfold SECONDS_PER_HOUR; lra).
  apply Rdiv_lt_0_compat; [|auto]. apply Rmult_lt_0_compat; [|lra]. eapply Rlt_le_trans; [|apply Rmax_l].
  apply Rdiv_lt_0_compat; auto.
Qed.

(** * C82: actual evapotranspiration *)
Lemma evap_coeff_bounds p clim kc ex de : sane p -> (forall d, de = Some d -> 0 <= d <= s_tew p) -> 0 <= ex <= 1 -> 0 <= kc ->
  0 <= evaporation_coeff p clim kc ex de /\ kc + evaporation_coeff p clim kc ex de <= max_kc clim kc /\
  evaporation_coeff p clim kc ex de <= ex * max_kc clim kc.
Proof.
  intros V H X K. pose proof (reduction_01 p de V H) as R1. unfold evaporation_coeff.
  assert (M : kc + 0.05 <= max_kc clim kc) by apply Rmax_r. set (m := max_kc clim kc) in *.
  split; [apply Rmin_glb; nra|]. split; [|apply Rmin_r].
  pose proof (Rmin_l (reduction_coeff p de * (m - kc)) (ex * m)). nra.
Qed.
(** C82. Snow-covered land does not evaporate; water bodies do, without stress; a missing reference value counts as 0;
    with the dual coefficient evapotranspiration is the sum of both parts and at most the maximum coefficient times
    the reference value; with the single one it is at most the coefficient times the reference value. *)
Theorem c82_actual : forall ty water p clim kmin kc h snow et_ref rain s,
  sane p -> in_range p s -> 0 <= kc -> 0 <= nan_to_zero et_ref ->
  (forall veg, ty = DualKc veg -> 0 <= vegetation_fraction veg clim kmin kc h <= 1) ->
  let o := snd (et_step ty water p clim kmin kc h snow et_ref rain s) in
  exists e, o_et o = Some e /\ 0 <= e /\
  (snow = true -> water = false -> e = 0) /\
  (nan_to_zero et_ref = 0 -> e = 0) /\
  match ty with
  | SingleKc => e <= kc * nan_to_zero et_ref /\ (water = true -> e = kc * nan_to_zero et_ref) /\
                (snow = false -> forall d, e_dr s = Some d -> d <= s_raw p -> e = kc * nan_to_zero et_ref) /\
                (snow = false -> water = false -> e_dr s = Some (s_taw p) -> e = 0)
  | DualKc _ => exists ev tr, o_evap o = Some ev /\ o_transp o = Some tr /\ e = ev + tr /\ 0 <= ev /\ 0 <= tr <= kc * nan_to_zero et_ref /\
                e <= max_kc clim kc * nan_to_zero et_ref /\
                (snow = false \/ water = true -> e_de s = Some (s_tew p) -> ev = 0) /\
                (water = true -> tr = kc * nan_to_zero et_ref) /\
                (snow = false -> water = false -> e_dr s = Some (s_taw p) -> tr = 0)
  end.
Proof.
  intros ty water p clim kmin kc h snow et_ref rain s V (I1 & (de & De & Bde) & (dr & Dr & Bdr)) K E0 X o.
  set (et0 := nan_to_zero et_ref) in *. assert (KE : 0 <= kc * et0) by nra.
  assert (KZ : et0 = 0 -> kc * et0 = 0) by (intros ->; ring).
  destruct (stress_01 p (e_dr s) dr V Dr) as (ks & Ks & Bks).
  assert (S1 : dr <= s_raw p -> ks = 1).
  { intro L. destruct (c37_stress p dr V) as (A & _). specialize (A L). congruence. }
  assert (S0 : dr = s_taw p -> ks = 0).
  { intros ->. destruct (c37_stress p (s_taw p) V) as (_ & A & _). specialize (A (Rle_refl _)). congruence. }
  unfold o, et_step. cbv zeta. fold et0. destruct ty as [|veg].
  - destruct (snow && negb water) eqn:SW.
    + rewrite Dr. cbn [root_zone snd o_et]. apply andb_true_iff in SW. destruct SW as (-> & SW). apply negb_true_iff in SW. subst water.
      exists 0. split; [reflexivity|]. split; [lra|]. split; [auto|]. split; [auto|]. split; [lra|]. split; [discriminate|].
      split; intros; discriminate.
    + destruct water.
      * cbn [snd o_et]. exists (kc * et0). split; [reflexivity|]. split; [auto|]. split; [discriminate|]. split; [auto|].
        split; [lra|]. split; [auto|]. split; [auto|]. intros; discriminate.
      * rewrite andb_true_r in SW. subst snow. rewrite Ks, Dr. cbn [numscale root_zone snd o_et].
        exists (kc * et0 * ks). split; [reflexivity|]. split; [nra|]. split; [discriminate|]. split; [intro Z; rewrite (KZ Z); ring|].
        split; [nra|]. split; [discriminate|]. split.
        -- intros _ d Q L. assert (d = dr) by congruence. subst. rewrite (S1 L). ring.
        -- intros _ _ Q. rewrite S0 by congruence. ring.
  - specialize (X veg eq_refl). set (vf := vegetation_fraction veg clim kmin kc h) in *.
    assert (EX : 0 <= exposed_fraction vf <= 1) by (unfold exposed_fraction; rmm; lra).
    destruct (evap_coeff_bounds p clim kc (exposed_fraction vf) (e_de s) V) as (B1 & B2 & _); auto.
    { rewrite De. intros d Q. injection Q as <-. auto. }
    set (ke := evaporation_coeff p clim kc (exposed_fraction vf) (e_de s)) in *.
    assert (KD : e_de s = Some (s_tew p) -> ke = 0).
    { intro Q. assert (de = s_tew p) by congruence. unfold ke, evaporation_coeff. rewrite Q.
      destruct (c37_reduction p de V) as (_ & A & _). rewrite A, Rmult_0_l. apply Rmin_left.
      apply Rmult_le_pos; [lra|]. unfold max_kc. eapply Rle_trans; [|apply Rmax_r]. lra. }
    assert (MX : kc * et0 + ke * et0 <= max_kc clim kc * et0) by nra.
    assert (EV : 0 <= ke * et0) by nra.
    destruct (snow && negb water) eqn:SW.
    + rewrite Dr. cbn [root_zone snd o_et o_evap o_transp]. apply andb_true_iff in SW. destruct SW as (-> & SW).
      apply negb_true_iff in SW. subst water.
      exists 0. split; [reflexivity|]. split; [lra|]. split; [auto|]. split; [auto|]. exists 0, 0. split; [reflexivity|].
      split; [reflexivity|]. split; [lra|]. split; [lra|]. split; [lra|]. split; [lra|]. split; [auto|].
      split; [discriminate|auto].
    + destruct water.
      * cbn [snd o_et o_evap o_transp]. exists (ke * et0 + kc * et0). split; [reflexivity|]. split; [lra|]. split; [discriminate|].
        split; [intro Z; rewrite Z; ring|]. eexists _, _. split; [reflexivity|]. split; [reflexivity|]. split; [reflexivity|].
        split; [auto|]. split; [lra|]. split; [lra|]. split; [intros _ Q; rewrite (KD Q); ring|]. split; [auto|]. intros; discriminate.
      * rewrite andb_true_r in SW. subst snow. rewrite Ks, Dr. cbn [numscale lift1 root_zone snd o_et o_evap o_transp].
        assert (TR : 0 <= kc * et0 * ks <= kc * et0) by nra.
        exists (ke * et0 + kc * et0 * ks). split; [reflexivity|]. split; [lra|]. split; [discriminate|].
        split; [intro Z; rewrite Z; ring|]. eexists _, _. split; [reflexivity|]. split; [reflexivity|]. split; [reflexivity|].
        split; [auto|]. split; [auto|]. split; [lra|]. split; [intros _ Q; rewrite (KD Q); ring|]. split; [discriminate|].
        intros _ _ Q. rewrite S0 by congruence. ring.
Qed.
Print Assumptions c82_actual.
(** C82. Water bodies are not part of the root zone balance. *)
Theorem c82_water : forall ty p clim kmin kc h snow snow' et_ref rain s,
  et_step ty true p clim kmin kc h snow et_ref rain s = et_step ty true p clim kmin kc h snow' et_ref rain s /\
  e_dr (fst (et_step ty true p clim kmin kc h snow et_ref rain s)) = e_dr s /\
  o_dp (snd (et_step ty true p clim kmin kc h snow et_ref rain s)) = Some 0.
Proof. intros. unfold et_step. cbn [negb]. rewrite !andb_false_r. destruct ty; cbn; auto. Qed.
Print Assumptions c82_water.
(** C82. Snow-covered land keeps the state of its evaporation layer. *)
Theorem c82_snow : forall ty p clim kmin kc h et_ref rain s,
  let s' := fst (et_step ty false p clim kmin kc h true et_ref rain s) in e_de s' = e_de s /\ e_dpe s' = e_dpe s.
Proof. intros. unfold s', et_step. cbn [negb andb]. destruct (root_zone p (nan_to_zero rain) (Some 0) (e_dr s)). cbn. auto. Qed.
Print Assumptions c82_snow.
(** Maximum coefficient: at least 1.2 plus the climate correction, and above the basal coefficient. *)
Theorem c82_max_kc : forall clim kc, max_kc clim kc = Rmax (1.2 + clim) (kc + 5 / 100) /\ kc < max_kc clim kc.
Proof. intros. unfold max_kc. split; [f_equal; lra|]. eapply Rlt_le_trans; [|apply Rmax_r]. lra. Qed.
Print Assumptions c82_max_kc.
(** C82. The climate correction vanishes for the standard climate (2 m/s, 45 %), grows with wind, falls with humidity,
    is at most 0.26 times the height factor and does not change outside of the ranges 1-6 m/s, 20-80 %. *)
Lemma clip_mono lo hi x y : x <= y -> clip lo hi x <= clip lo hi y.
Proof. unfold clip. intro. rmm; lra. Qed.
Theorem c82_climate : forall ws ws' rh rh' h, ws <= ws' -> rh <= rh' ->
  climate_correction 2 45 h = 0 /\ climate_correction ws rh' h <= climate_correction ws' rh h /\
  climate_correction (clip 1 6 ws) (clip 20 80 rh) (clip 0.1 10 h) = climate_correction ws rh h /\
  -0.18 * Rpower (10 / 3) 0.3 <= climate_correction ws rh h <= 0.26 * Rpower (10 / 3) 0.3.
Proof.
  intros ws ws' rh rh' h W H. unfold climate_correction.
  assert (CC : forall lo hi x, lo <= hi -> clip lo hi (clip lo hi x) = clip lo hi x) by (intros; unfold clip; rmm; lra).
  assert (P : 0 < Rpower (clip 0.1 10 h / 3) 0.3) by apply exp_pos.
  assert (HB : 0.1 <= clip 0.1 10 h <= 10) by (unfold clip; rmm; lra).
  assert (PB : Rpower (clip 0.1 10 h / 3) 0.3 <= Rpower (10 / 3) 0.3) by (apply Rle_Rpower_l; lra).
  pose proof (clip_mono 1 6 _ _ W). pose proof (clip_mono 20 80 _ _ H).
  assert (WB : 1 <= clip 1 6 ws <= 6) by (unfold clip; rmm; lra). assert (RB : 20 <= clip 20 80 rh <= 80) by (unfold clip; rmm; lra).
  split; [replace (clip 1 6 2) with 2 by (unfold clip; rmm; lra); replace (clip 20 80 45) with 45 by (unfold clip; rmm; lra); ring|].
  split; [apply Rmult_le_compat_r; lra|]. split; [rewrite !CC by lra; reflexivity|].
  set (y := 0.04 * (clip 1 6 ws - 2) - 0.004 * (clip 20 80 rh - 45)). assert (-0.18 <= y <= 0.26) by (unfold y; lra).
  set (b := Rpower (10 / 3) 0.3) in *. set (q := Rpower (clip 0.1 10 h / 3) 0.3) in *. split; nra.
Qed.
Print Assumptions c82_climate.
(** C82. Sparse vegetation: the adjusted coefficient lies between the minimum and the given one, is the minimum without
    vegetation and the given one for full cover under a sun in the zenith. *)
Lemma powr_nonneg x y : 0 <= powr x y.
Proof. unfold powr. destruct (Req_EM_T x 0); [lra|left; apply exp_pos]. Qed.
Theorem c82_sparse : forall kmin kmid vf h lat decl, kmin <= kmid -> 0 <= vf -> 0 <= h ->
  kmin <= sparse_adjustment kmin kmid vf h lat decl <= kmid /\ sparse_adjustment kmin kmid 0 h lat decl = kmin /\
  (1 / 2 <= vf -> 0 < cos (lat - decl) <= vf -> sparse_adjustment kmin kmid vf h lat decl = kmid).
Proof.
  intros kmin kmid vf h lat decl K V H. unfold sparse_adjustment. cbv zeta. rewrite cos_0.
  set (s := sin lat * sin decl + cos lat * cos decl * 1). pose proof (powr_nonneg (Rmax (vf / s) 0) (1 / (1 + h))) as P.
  split; [|split].
  - set (m := Rmin (Rmin 1 (2 * vf)) (powr (Rmax (vf / s) 0) (1 / (1 + h)))).
    assert (0 <= m <= 1); [|nra]. split; [apply Rmin_glb; [apply Rmin_glb; lra|auto]|].
    unfold m. eapply Rle_trans; [apply Rmin_l|apply Rmin_l].
  - assert (E : Rmin (Rmin 1 (2 * 0)) (powr (Rmax (0 / s) 0) (1 / (1 + h))) = 0); [|rewrite E; ring].
    rewrite Rmult_0_r, (Rmin_right 1 0) by lra. apply Rmin_left. apply powr_nonneg.
  - intros V2 C. assert (S1 : s = cos (lat - decl)) by (unfold s; rewrite cos_minus; ring). rewrite S1.
    assert (D : 1 <= vf / cos (lat - decl)).
    { apply Rmult_le_reg_r with (cos (lat - decl)); [lra|]. unfold Rdiv. rewrite Rmult_assoc, Rinv_l by lra. lra. }
    assert (E : Rmin (Rmin 1 (2 * vf)) (powr (Rmax (vf / cos (lat - decl)) 0) (1 / (1 + h))) = 1); [|rewrite E; ring].
    rewrite (Rmin_left 1) by lra. apply Rmin_left. rewrite Rmax_left by lra. unfold powr.
    destruct (Req_EM_T (vf / cos (lat - decl)) 0); [lra|].
    rewrite <- (Rpower_O (vf / cos (lat - decl))) at 1 by lra. apply Rle_Rpower; [lra|].
    left. apply Rdiv_lt_0_compat; lra.
Qed.
Print Assumptions c82_sparse.
Example c82_example : let p := SP 12 4 50 20 in sane p /\ in_range p (ES (Some 8) 0 (Some 35)) /\
  o_et (snd (et_step SingleKc false p 0 0.15 1 1 false (Some 4) None (ES (Some 8) 0 (Some 35)))) = Some 2.
Proof.
  cbv zeta. split; [unfold sane; cbn [s_rew s_tew s_taw s_raw]; lra|]. split.
  - split; [cbn; lra|]. cbn [e_de e_dr s_tew s_taw]. split; eexists; (split; [reflexivity|lra]).
  - unfold et_step. cbn [andb e_dr]. cbv zeta. unfold stress_coeff. cbn [s_taw s_raw]. destruct (Req_EM_T (50 - 20) 0); [lra|].
    unfold clip. replace (Rmin (Rmax ((50 - 35) / (50 - 20)) 0) 1) with (1 / 2) by (rmm; lra).
    cbn [numscale root_zone snd o_et nan_to_zero]. f_equal. lra.
Qed.
