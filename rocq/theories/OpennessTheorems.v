(** Theorems about topographic openness (terrain.py:288-371): C47. *)
From Verif Require Import Common AtmosphereModel TerrainModel TerrainTheorems ShiftTheorems.
Open Scope R_scope.

(** * Specification *)
(** The height of the terrain i + 1 pixels away opposite to a direction; terrain beyond the grid counts as level with the pixel. *)
Definition height_at (dem : arr) (dr dc : Z) (i : nat) (r c : Z) : num :=
  let r' := (r - (Z.of_nat i + 1) * dr)%Z in let c' := (c - (Z.of_nat i + 1) * dc)%Z in
  if ((0 <=? r') && (r' <? a_rows dem) && (0 <=? c') && (c' <? a_cols dem))%Z then a_at dem r' c' else a_at dem r c.
(** The zenith angle under which it is seen: 0 is straight up, PI / 2 level *)
Definition zenith (dem : arr) (res : R) (dr dc : Z) (i : nat) (r c : Z) : num :=
  match height_at dem dr dc i r c, a_at dem r c with
  | Some z', Some z => Some (PI / 2 - atan ((z' - z) / (res * (INR i + 1) * sqrt (IZR (dr * dr + dc * dc)))))
  | _, _ => None end.
(** m is the least of the angles of distances 1 .. n *)
Definition least (angle : nat -> num) (n : nat) (m : option R) : Prop :=
  match m with
  | Some x => (exists i, (i < n)%nat /\ angle i = Some x) /\ forall i a, (i < n)%nat -> angle i = Some a -> x <= a
  | None => forall i, (i < n)%nat -> angle i = None end.
Definition complete (n : nat) (s : ostate) : Prop := forall i, (i < n)%nat -> o_phase s i = Finished.

Lemma zenith_range dem res dr dc i r c a : zenith dem res dr dc i r c = Some a -> 0 < a < PI.
Proof.
  unfold zenith. destruct (height_at _ _ _ _ _ _), (a_at dem r c); try discriminate. intro E. assert (E' := E). clear E.
  apply (f_equal nan_to_zero) in E'. unfold nan_to_zero in E'. rewrite <- E'. match goal with |- context [atan ?x] => pose proof (atan_bound x) end. lra.
Qed.
Lemma open_angle_zenith dem res dir dr dc i r c : 0 < res -> is_dir dir dr dc -> in_arr dem r c -> open_angle dem res dir i r c = zenith dem res dr dc i r c.
Proof.
  intros RS D IN. destruct (c53_retain dem dir (Z.of_nat i) dr dc D ltac:(lia)) as (s & S & _ & _ & A). unfold shift_arr in S.
  assert (S' : shift_retain dem dir (Z.of_nat i) = s) by congruence. unfold open_angle. rewrite S'. destruct (A r c IN) as (A1 & A2).
  assert (H : a_at s r c = height_at dem dr dc i r c).
  { unfold height_at. destruct ((0 <=? r - (Z.of_nat i + 1) * dr)%Z && _ && _ && _) eqn:B.
    - apply A1. rewrite !andb_true_iff, !Z.leb_le, !Z.ltb_lt in B. unfold in_arr. lia.
    - apply A2. intros (B1 & B2). rewrite !andb_false_iff, !Z.leb_gt, !Z.ltb_ge in B. lia. }
  rewrite H. unfold zenith. destruct (height_at dem dr dc i r c) as [z'|]; [|reflexivity]. destruct (a_at dem r c) as [z|]; [|reflexivity]. cbn [nsub].
  assert (F : diag_factor dir = sqrt (IZR (dr * dr + dc * dc)) /\ 0 < diag_factor dir).
  { apply dir_cases in D. unfold diag_factor. pose proof (sqrt_lt_R0 2 ltac:(lra)).
    repeat (destruct D as [D|D]; [|]); destruct D as (-> & -> & ->); cbn; rewrite ?sqrt_1; split; lra. }
  destruct F as (<- & FP). f_equal. f_equal. unfold arctan2. pose proof (pos_INR i).
  assert (0 < res * (INR i + 1) * diag_factor dir) by (apply Rmult_lt_0_compat; [apply Rmult_lt_0_compat; lra|auto]).
  destruct (Rlt_dec 0 (res * (INR i + 1) * diag_factor dir)); [reflexivity|lra].
Qed.

Section RUN.
  Variable angle : nat -> Z -> Z -> num. Variable n : nat.
  Definition inv (s : ostate) : Prop := forall r c,
    (forall x, o_map s r c = Some x -> exists i, (i < n)%nat /\ angle i r c = Some x) /\
    (forall i idxs, (i < n)%nat -> o_phase s i = Found idxs -> (idxs r c = true -> angle i r c <> None) /\ (angle i r c <> None -> idxs r c = false -> o_map s r c <> None)) /\
    (forall i, (i < n)%nat -> o_phase s i = Finished -> angle i r c <> None -> o_map s r c <> None).
  Lemma smaller_some a o : smaller a o = true -> a <> None. Proof. destruct a; cbn; congruence. Qed.
  Lemma smaller_not a o : a <> None -> smaller a o = false -> o <> None. Proof. destruct a, o; cbn; congruence. Qed.
  Lemma inv_step s i : inv s -> inv (ostep angle n s i).
  Proof.
    intros I. unfold ostep. destruct (Nat.ltb_spec i n) as [L|L]; [|exact I]. destruct (o_phase s i) as [|idxs|] eqn:P; [| |exact I]; intros r c; destruct (I r c) as (I1 & I2 & I3); cbn [o_map o_phase].
    - split; [exact I1|]. split.
      + intros k id K. destruct (Nat.eqb_spec k i) as [->|NE]; [|apply I2; auto]. intro E. injection E as <-. split; [apply smaller_some|apply smaller_not].
      + intros k K. destruct (Nat.eqb_spec k i); [discriminate|apply I3; auto].
    - destruct (I2 i idxs L P) as (J1 & J2). assert (M : o_map s r c <> None -> (if idxs r c then angle i r c else o_map s r c) <> None) by (destruct (idxs r c); auto).
      split; [intros x; destruct (idxs r c); [intro E; exists i; auto|apply I1]|]. split.
      + intros k id K. destruct (Nat.eqb_spec k i) as [->|NE]; [discriminate|]. intro E. destruct (I2 k id K E) as (K1 & K2). split; [exact K1|]. intros A B. apply M. auto.
      + intros k K. destruct (Nat.eqb_spec k i) as [->|NE]; [|intros E A; apply M; eapply I3; eauto]. intros _ A. destruct (idxs r c) eqn:B; auto.
  Qed.
  Lemma inv_run sched : inv (orun angle n sched).
  Proof.
    unfold orun. assert (G : forall l s, inv s -> inv (fold_left (ostep angle n) l s)) by (induction l as [|x l IH]; intros s H; [exact H|]; cbn [fold_left]; apply IH, inv_step, H).
    apply G. intros r c. repeat split; cbn; discriminate.
  Qed.
  (** One iteration after the other *)
  Definition one_by_one (order : list nat) : list nat := flat_map (fun i => [i; i]) order.
  Lemma seq_step s i : (i < n)%nat -> o_phase s i = Waiting ->
    let s' := ostep angle n (ostep angle n s i) i in
    (forall r c, o_map s' r c = if smaller (angle i r c) (o_map s r c) then angle i r c else o_map s r c) /\ o_phase s' i = Finished /\ (forall k, k <> i -> o_phase s' k = o_phase s k).
  Proof.
    intros L P. unfold ostep. destruct (Nat.ltb_spec i n); [|lia]. rewrite P. cbn [o_phase o_map]. rewrite Nat.eqb_refl. cbn [o_phase o_map].
    split; [reflexivity|]. rewrite Nat.eqb_refl. split; [reflexivity|]. intros k K. destruct (Nat.eqb_spec k i); [contradiction|reflexivity].
  Qed.
  Lemma seq_run order : NoDup order -> (forall i, In i order -> (i < n)%nat) ->
    let s := orun angle n (one_by_one order) in
    (forall k, In k order -> o_phase s k = Finished) /\ (forall k, ~ In k order -> o_phase s k = Waiting) /\
    forall r c i a, In i order -> angle i r c = Some a -> exists m, o_map s r c = Some m /\ m <= a.
  Proof.
    induction order as [|x order IH] using rev_ind; intros ND IN; cbv zeta.
    - split; [intros k []|]. split; [reflexivity|]. intros r c i a [].
    - apply NoDup_remove in ND. rewrite app_nil_r in ND. destruct ND as (ND & NI).
      destruct (IH ND ltac:(intros; apply IN, in_or_app; auto)) as (A & B & C).
      unfold one_by_one. rewrite flat_map_app. unfold orun. rewrite fold_left_app. cbn [flat_map app fold_left]. fold (one_by_one order). fold (orun angle n (one_by_one order)).
      set (s := orun angle n (one_by_one order)) in *. assert (X : (x < n)%nat) by (apply IN, in_or_app; right; left; auto).
      destruct (seq_step s x X (B x NI)) as (S1 & S2 & S3). cbv zeta in *. split; [|split].
      + intros k K. apply in_app_iff in K. destruct (Nat.eq_dec k x) as [->|NE]; [exact S2|]. rewrite S3 by auto. apply A. destruct K as [K|[K|[]]]; [auto|congruence].
      + intros k K. rewrite in_app_iff in K. rewrite S3; [apply B; tauto|]. intros ->. apply K. right. left. reflexivity.
      + intros r c i a I E. rewrite S1. destruct (Nat.eq_dec i x) as [->|NE].
        * rewrite E. destruct (o_map s r c) as [y|] eqn:O; cbn [smaller]; [|exists a; split; [reflexivity|lra]]. destruct (Rlt_dec a y); [exists a|exists y]; (split; [reflexivity|lra]).
        * apply in_app_iff in I. destruct I as [I|[I|[]]]; [|congruence]. destruct (C r c i a I E) as (m & O & M). rewrite O.
          destruct (smaller (angle x r c) (Some m)) eqn:SM; [|exists m; auto]. destruct (angle x r c) as [y|] eqn:AX; [|discriminate].
          exists y. split; [reflexivity|]. unfold smaller in SM. destruct (Rlt_dec y m); [lra|discriminate].
  Qed.
End RUN.

Definition distances (res L : R) : nat := Z.to_nat (ceilz (L / res)).
(** C47. With one iteration after the other, in any order, the openness of a pixel is its least zenith angle over all
    distances up to L (rounded up to whole pixels). *)
Theorem c47_sequential : forall dem res L dir dr dc order r c, 0 < res -> is_dir dir dr dc -> in_arr dem r c ->
  NoDup order -> (forall i, In i order <-> (i < distances res L)%nat) ->
  complete (distances res L) (orun (open_angle dem res dir) (distances res L) (one_by_one order)) /\
  least (fun i => zenith dem res dr dc i r c) (distances res L) (openness_dir dem res L dir (one_by_one order) r c).
Proof.
  intros dem res L dir dr dc order r c RS D IN ND O. unfold openness_dir. fold (distances res L). set (n := distances res L) in *.
  destruct (seq_run (open_angle dem res dir) n order ND ltac:(intros; apply O; auto)) as (A & B & C). split; [intros i I; apply A, O, I|].
  pose proof (inv_run (open_angle dem res dir) n (one_by_one order) r c) as (J1 & _ & J3). set (s := orun (open_angle dem res dir) n (one_by_one order)) in *.
  unfold least. destruct (o_map s r c) as [x|] eqn:E.
  - split; [destruct (J1 x eq_refl) as (i & I & EQ); exists i; split; [auto|]; rewrite <- EQ; symmetry; apply (open_angle_zenith dem res dir); auto|].
    intros i a I ZA. rewrite <- (open_angle_zenith dem res dir) in ZA by auto. apply O in I. destruct (C r c i a I ZA) as (m & M & LE). congruence || (assert (m = x) by congruence; subst; auto).
  - intros i I. rewrite <- (open_angle_zenith dem res dir) by auto. destruct (open_angle dem res dir i r c) eqn:ZA; [|reflexivity]. exfalso. apply (J3 i I); [apply A, O, I|congruence|reflexivity].
Qed.
Print Assumptions c47_sequential.
(** C47, for every schedule, also with overlapping iterations: the result is the zenith angle of one of the distances, so never
    less than the least one, and it is missing only if all of them are. What is missing: that it is the least one. *)
Theorem c47_any_schedule_partial : forall dem res L dir dr dc schedule r c, 0 < res -> is_dir dir dr dc -> in_arr dem r c ->
  complete (distances res L) (orun (open_angle dem res dir) (distances res L) schedule) ->
  match openness_dir dem res L dir schedule r c with
  | Some x => (exists i, (i < distances res L)%nat /\ zenith dem res dr dc i r c = Some x) /\ 0 < x < PI
  | None => forall i, (i < distances res L)%nat -> zenith dem res dr dc i r c = None end.
Proof.
  intros dem res L dir dr dc sched r c RS D IN CO. unfold openness_dir. fold (distances res L). set (n := distances res L) in *.
  pose proof (inv_run (open_angle dem res dir) n sched r c) as (J1 & _ & J3). set (s := orun (open_angle dem res dir) n sched) in *.
  destruct (o_map s r c) as [x|] eqn:E.
  - destruct (J1 x eq_refl) as (i & I & EQ). rewrite (open_angle_zenith dem res dir dr dc) in EQ by auto. split; [exists i; auto|]. eapply zenith_range; eauto.
  - intros i I. rewrite <- (open_angle_zenith dem res dir) by auto. destruct (open_angle dem res dir i r c) eqn:ZA; [|reflexivity]. exfalso. apply (J3 i I); [apply CO, I|congruence|reflexivity].
Qed.
Print Assumptions c47_any_schedule_partial.
(** C47, refuted: the iterations race. Both distances find the pixel unset, then the lower horizon is written last: a pixel behind
    a wall of 10 m at 1 m distance appears to have a level horizon. *)
Definition wall : arr := ARR 3 1 (fun r _ => if (r =? 1)%Z then Some 10 else Some 0).
Theorem c47_schedule_refuted : exists dem res L dir dr dc schedule r c x, 0 < res /\ is_dir dir dr dc /\ in_arr dem r c /\
  complete (distances res L) (orun (open_angle dem res dir) (distances res L) schedule) /\
  openness_dir dem res L dir schedule r c = Some x /\ ~ least (fun i => zenith dem res dr dc i r c) (distances res L) (Some x).
Proof.
  assert (N : distances 1 2 = 2%nat).
  { unfold distances. replace (2 / 1) with (IZR 2) by field. pose proof (ceilz_le (IZR 2) 2 ltac:(lra)). pose proof (ceilz_spec (IZR 2)) as (_ & Q). apply le_IZR in Q. replace (ceilz (IZR 2)) with 2%Z by lia. reflexivity. }
  assert (D : is_dir 4 1 0) by (split; [lia|reflexivity]). assert (IN : in_arr wall 2 0) by (split; cbn; lia).
  assert (Z0 : zenith wall 1 1 0 0 2 0 = Some (PI / 2 - atan 10)). { unfold zenith, height_at. cbn. f_equal. f_equal. f_equal. rewrite sqrt_1. field. }
  assert (Z1 : zenith wall 1 1 0 1 2 0 = Some (PI / 2)). { unfold zenith, height_at. cbn. f_equal. rewrite sqrt_1. replace ((0 - 0) / (1 * (1 + 1) * 1)) with 0 by field. rewrite atan_0. ring. }
  pose proof (open_angle_zenith wall 1 4 1 0 0 2 0 ltac:(lra) D IN) as A0. pose proof (open_angle_zenith wall 1 4 1 0 1 2 0 ltac:(lra) D IN) as A1. rewrite Z0 in A0. rewrite Z1 in A1.
  exists wall, 1, 2, 4%Z, 1%Z, 0%Z, [0; 1; 0; 1]%nat, 2%Z, 0%Z, (PI / 2). unfold openness_dir. fold (distances 1 2). rewrite N. split; [lra|]. split; [auto|]. split; [auto|]. split; [|split].
  - intros i I. destruct i as [|[|i]]; [reflexivity|reflexivity|lia].
  - cbn [orun fold_left ostep Nat.ltb Nat.leb ostart o_phase o_map Nat.eqb]. unfold orun, ostep, ostart. cbn [fold_left Nat.ltb Nat.leb o_phase o_map Nat.eqb]. rewrite A1. reflexivity.
  - intros (_ & LE). specialize (LE 0%nat _ ltac:(lia) Z0). assert (0 < atan 10) by (rewrite <- atan_0; apply atan_increasing; lra). lra.
Qed.
Print Assumptions c47_schedule_refuted.
Lemma open_range dem res L dir dr dc sched r c x : 0 < res -> is_dir dir dr dc -> in_arr dem r c -> openness_dir dem res L dir sched r c = Some x -> 0 < x < PI.
Proof.
  intros RS D IN E. unfold openness_dir in E. fold (distances res L) in E. pose proof (inv_run (open_angle dem res dir) (distances res L) sched r c) as (J1 & _ & _).
  destruct (J1 x E) as (i & I & EQ). rewrite (open_angle_zenith dem res dir dr dc) in EQ by auto. eapply zenith_range; eauto.
Qed.
(** C47. The mean openness over the eight directions is between 0 and PI for every schedule; negative openness is the openness of
    the inverted terrain. *)
Theorem c47_mean : forall dem res L negative schedule r c x, 0 < res -> in_arr dem r c -> openness_mean dem res L negative schedule r c = Some x ->
  0 < x < PI /\ exists v : Z -> R, (forall dir, (0 <= dir < 8)%Z -> openness dem res L negative schedule dir r c = Some (v dir)) /\
    x = (v 0%Z + v 1%Z + v 2%Z + v 3%Z + v 4%Z + v 5%Z + v 6%Z + v 7%Z) / 8.
Proof.
  intros dem res L neg sched r c x RS IN E. unfold openness_mean in E. cbn [map dirs8 osum fold_right] in E.
  set (o := fun dir => openness dem res L neg sched dir r c) in *.
  change (nscale (/ 8) (nadd (o 0%Z) (nadd (o 1%Z) (nadd (o 2%Z) (nadd (o 3%Z) (nadd (o 4%Z) (nadd (o 5%Z) (nadd (o 6%Z) (nadd (o 7%Z) (Some 0))))))))) = Some x) in E.
  assert (RG : forall dir y, (0 <= dir < 8)%Z -> o dir = Some y -> 0 < y < PI).
  { intros dir y H EQ. unfold o, openness in EQ.
    assert (IN' : in_arr (if neg then amap Ropp dem else dem) r c) by (destruct neg; exact IN).
    assert (DD : exists dr dc, is_dir dir dr dc). { assert (dir = 0 \/ dir = 1 \/ dir = 2 \/ dir = 3 \/ dir = 4 \/ dir = 5 \/ dir = 6 \/ dir = 7)%Z as K by lia.
      repeat (destruct K as [K|K]; [subst; do 2 eexists; split; [lia|reflexivity]|]). subst; do 2 eexists; split; [lia|reflexivity]. }
    destruct DD as (dr & dc & DD). eapply open_range; eauto. }
  assert (EV : forall dir, (0 <= dir < 8)%Z -> exists y, o dir = Some y).
  { intros dir H. destruct (o dir) eqn:EO; [eauto|exfalso]. assert (dir = 0 \/ dir = 1 \/ dir = 2 \/ dir = 3 \/ dir = 4 \/ dir = 5 \/ dir = 6 \/ dir = 7)%Z as K by lia.
    repeat (destruct K as [K|K]; [subst dir|]); try subst dir; rewrite EO in E;
    destruct (o 0%Z), (o 1%Z), (o 2%Z), (o 3%Z), (o 4%Z), (o 5%Z), (o 6%Z), (o 7%Z); discriminate. }
  destruct (EV 0%Z ltac:(lia)) as (v0 & V0). destruct (EV 1%Z ltac:(lia)) as (v1 & V1). destruct (EV 2%Z ltac:(lia)) as (v2 & V2). destruct (EV 3%Z ltac:(lia)) as (v3 & V3).
  destruct (EV 4%Z ltac:(lia)) as (v4 & V4). destruct (EV 5%Z ltac:(lia)) as (v5 & V5). destruct (EV 6%Z ltac:(lia)) as (v6 & V6). destruct (EV 7%Z ltac:(lia)) as (v7 & V7).
  pose proof (RG 0%Z v0 ltac:(lia) V0). pose proof (RG 1%Z v1 ltac:(lia) V1). pose proof (RG 2%Z v2 ltac:(lia) V2). pose proof (RG 3%Z v3 ltac:(lia) V3).
  pose proof (RG 4%Z v4 ltac:(lia) V4). pose proof (RG 5%Z v5 ltac:(lia) V5). pose proof (RG 6%Z v6 ltac:(lia) V6). pose proof (RG 7%Z v7 ltac:(lia) V7).
  assert (X : x = (v0 + v1 + v2 + v3 + v4 + v5 + v6 + v7) / 8).
  { rewrite V0, V1, V2, V3, V4, V5, V6, V7 in E. cbn [nadd nscale option_map] in E. apply (f_equal nan_to_zero) in E. unfold nan_to_zero in E. rewrite <- E. field. }
  split; [rewrite X; lra|]. exists (fun dir => nan_to_zero (o dir)). split.
  - intros dir HD. destruct (EV dir HD) as (y & Y). fold (o dir). rewrite Y. reflexivity.
  - cbv beta. rewrite V0, V1, V2, V3, V4, V5, V6, V7. exact X.
Qed.
Print Assumptions c47_mean.
Theorem c47_negative : forall dem res L schedule dir, openness dem res L true schedule dir = openness (ARR (a_rows dem) (a_cols dem) (fun r c => option_map Ropp (a_at dem r c))) res L false schedule dir.
Proof. reflexivity. Qed.
Print Assumptions c47_negative.
Example c47_example : is_dir 4 1 0 /\ in_arr wall 2 0 /\ distances 1 (3 / 2) = 2%nat /\ NoDup [1; 0]%nat /\ (forall i, In i [1; 0]%nat <-> (i < 2)%nat) /\
  zenith wall 1 1 0 0 2 0 = Some (PI / 2 - atan (10 / (1 * (0 + 1) * sqrt 1))).
Proof.
  split; [split; [lia|reflexivity]|]. split; [split; cbn; lia|]. split.
  - unfold distances. replace (3 / 2 / 1) with (3 / 2) by field. pose proof (ceilz_le (3 / 2) 2 ltac:(lra)). pose proof (ceilz_spec (3 / 2)) as (_ & Q).
    assert (1 < ceilz (3 / 2))%Z by (apply lt_IZR; lra). replace (ceilz (3 / 2)) with 2%Z by lia. reflexivity.
  - split; [repeat constructor; cbn; lia|]. split; [intro i; cbn; lia|]. unfold zenith, height_at. cbn. do 4 f_equal. ring.
Qed.
