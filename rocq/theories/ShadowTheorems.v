(** C46: shadows. *)
From Verif Require Import Common ShadowModel.
Open Scope R_scope.

(** * Specification *)
(** Horizontal distance per step along a line, and tangent of the sun's elevation *)
Definition step_length (g : sgrid) : R := g_res g * (sqrt (g_sx g ^ 2 + g_sy g ^ 2) / Rmax (Rabs (g_sx g)) (Rabs (g_sy g))).
Definition tan_elevation (g : sgrid) : R := g_sz g / sqrt (g_sx g ^ 2 + g_sy g ^ 2).
Definition in_grid (g : sgrid) (p : Z * Z) : Prop := (0 <= fst p < g_rows g /\ 0 <= snd p < g_cols g)%Z.
(** Elevation of the line with origin o at step n *)
Definition elev_at (g : sgrid) (o : Z * Z) (n : nat) : num :=
  let p := line_pixel g (fst o) (snd o) n in g_dem g (fst p) (snd p).
(** The line with origin o is at pixel p after n steps and has not left the grid *)
Definition reaches (g : sgrid) (o : Z * Z) (n : nat) (p : Z * Z) : Prop :=
  line_pixel g (fst o) (snd o) n = p /\ forall m, (m <= n)%nat -> in_grid g (line_pixel g (fst o) (snd o) m).
(** Step n is hidden from the sun by an earlier step m of the line: terrain at m is higher than the sun ray through n. The
    view back ends at missing elevations. *)
Definition hidden (g : sgrid) (o : Z * Z) (n : nat) : Prop :=
  exists z m zm, elev_at g o n = Some z /\ (m < n)%nat /\ elev_at g o m = Some zm /\
  zm - z > INR (n - m) * step_length g * tan_elevation g /\
  forall p, (m < p < n)%nat -> elev_at g o p <> None.
Definition in_shadow (g : sgrid) (os : list (Z * Z)) (p : Z * Z) : Prop :=
  exists o n, In o os /\ reaches g o n p /\ hidden g o n.

(** * Rounding *)
Lemma round_bound x : Rabs (IZR (np_round x) - x) <= 1 / 2.
Proof.
  unfold np_round. destruct (base_Int_part x) as (A & B). set (f := Int_part x) in *. apply Rabs_le.
  destruct (Rlt_dec (x - IZR f) (1 / 2)); [lra|]. destruct (Rlt_dec (1 / 2) (x - IZR f)); [rewrite plus_IZR; lra|].
  destruct (Z.even f); [lra|rewrite plus_IZR; lra].
Qed.
Lemma round_unique x k : Rabs (IZR k - x) < 1 / 2 -> np_round x = k.
Proof.
  intro H. pose proof (round_bound x) as B. apply Rabs_def2 in H. assert (L : IZR (np_round x) - x <= 1 / 2) by (pose proof (Rle_abs (IZR (np_round x) - x)); lra).
  assert (G : - (1 / 2) <= IZR (np_round x) - x) by (pose proof (Rle_abs (- (IZR (np_round x) - x))); rewrite Rabs_Ropp in *; lra).
  assert (IZR (np_round x) < IZR (k + 1)) by (rewrite plus_IZR; lra). assert (IZR (k - 1) < IZR (np_round x)) by (rewrite minus_IZR; lra).
  apply lt_IZR in H0. apply lt_IZR in H1. lia.
Qed.
Lemma round_int k : np_round (IZR k) = k.
Proof. apply round_unique. replace (IZR k - IZR k) with 0 by ring. rewrite Rabs_R0. lra. Qed.
(** Rounding is to a nearest integer, even for ties. *)
Theorem c46_round : forall x, Rabs (IZR (np_round x) - x) <= 1 / 2 /\ (forall k, Rabs (IZR k - x) < 1 / 2 -> np_round x = k) /\
  (forall k, x = IZR k + 1 / 2 -> Z.even (np_round x) = true).
Proof.
  intro x. split; [apply round_bound|]. split; [apply round_unique|]. intros k ->. unfold np_round.
  assert (F : Int_part (IZR k + 1 / 2) = k).
  { destruct (base_Int_part (IZR k + 1 / 2)) as (A & B). set (f := Int_part _) in *.
    assert (IZR f < IZR (k + 1)) by (rewrite plus_IZR; lra). assert (IZR (k - 1) < IZR f) by (rewrite minus_IZR; lra).
    apply lt_IZR in H. apply lt_IZR in H0. lia. }
  rewrite F. destruct (Rlt_dec (IZR k + 1 / 2 - IZR k) (1 / 2)); [lra|]. destruct (Rlt_dec (1 / 2) (IZR k + 1 / 2 - IZR k)); [lra|].
  destruct (Z.even k) eqn:E; [exact E|]. rewrite Z.even_add, E. reflexivity.
Qed.
Print Assumptions c46_round.
Lemma inside_iff g p : inside g p = true <-> in_grid g p.
Proof.
  destruct p as [i j]. unfold inside, in_grid. cbn [fst snd]. rewrite negb_true_iff, !orb_false_iff, !Z.ltb_ge, !Z.leb_gt. lia.
Qed.
(** * Horizontal sun position *)
Lemma sun_max_pos g : g_sx g <> 0 \/ g_sy g <> 0 -> 0 < sun_max g.
Proof.
  intro H. unfold sun_max. destruct H as [H|H]; apply Rabs_pos_lt in H.
  - eapply Rlt_le_trans; [exact H|apply Rmax_l].
  - eapply Rlt_le_trans; [exact H|apply Rmax_r].
Qed.
Lemma unit_component g : g_sx g <> 0 \/ g_sy g <> 0 -> (inv_x g = 1 \/ inv_x g = -1) \/ (inv_y g = 1 \/ inv_y g = -1).
Proof.
  intro H. pose proof (sun_max_pos g H) as M. unfold inv_x, inv_y, sun_max in *.
  destruct (Rle_lt_dec (Rabs (g_sx g)) (Rabs (g_sy g))) as [L|L].
  - rewrite Rmax_right in * by lra. right. destruct (Rcase_abs (g_sy g)) as [N|N].
    + rewrite Rabs_left in * by lra. left. field. lra.
    + rewrite Rabs_right in * by lra. right. field. lra.
  - rewrite Rmax_left in * by lra. left. destruct (Rcase_abs (g_sx g)) as [N|N].
    + rewrite Rabs_left in * by lra. left. field. lra.
    + rewrite Rabs_right in * by lra. right. field. lra.
Qed.
(** C46. Every scan line leaves the grid after at most as many steps as the larger side of the grid. *)
Theorem c46_terminates : forall g o, g_sx g <> 0 \/ g_sy g <> 0 -> in_grid g o ->
  exists n, (Z.of_nat n <= Z.max (g_rows g) (g_cols g))%Z /\ ~ in_grid g (line_pixel g (fst o) (snd o) n).
Proof.
  intros g [i j] H I. unfold in_grid in *. cbn [fst snd] in *.
  assert (IR : forall k : Z, (0 <= k)%Z -> INR (Z.to_nat k) = IZR k) by (intros k K; rewrite INR_IZR_INZ, Z2Nat.id by lia; auto).
  destruct (unit_component g H) as [[E|E]|[E|E]].
  - exists (Z.to_nat (g_cols g - j)). rewrite Z2Nat.id by lia. split; [lia|]. unfold line_pixel. cbn [fst snd].
    rewrite E, IR by lia. rewrite Rmult_1_l, <- plus_IZR, round_int. lia.
  - exists (Z.to_nat (j + 1)). rewrite Z2Nat.id by lia. split; [lia|]. unfold line_pixel. cbn [fst snd].
    rewrite E, IR by lia. replace (IZR j + -1 * IZR (j + 1)) with (IZR (-1)) by (rewrite plus_IZR; lra). rewrite round_int. lia.
  - exists (Z.to_nat (g_rows g - i)). rewrite Z2Nat.id by lia. split; [lia|]. unfold line_pixel. cbn [fst snd].
    rewrite E, IR by lia. rewrite Rmult_1_l, <- plus_IZR, round_int. lia.
  - exists (Z.to_nat (i + 1)). rewrite Z2Nat.id by lia. split; [lia|]. unfold line_pixel. cbn [fst snd].
    rewrite E, IR by lia. replace (IZR i + -1 * IZR (i + 1)) with (IZR (-1)) by (rewrite plus_IZR; lra). rewrite round_int. lia.
Qed.
Print Assumptions c46_terminates.

(** * One line *)
Fixpoint line_at (g : sgrid) (o : Z * Z) (k : nat) : line :=
  match k with O => start_line o | S k' => fst (line_step g (line_at g o k')) end.
Definition write_at (g : sgrid) (o : Z * Z) (k : nat) : option (Z * Z) := snd (line_step g (line_at g o k)).
Lemma line_at_o g o k : l_i (line_at g o k) = fst o /\ l_j (line_at g o k) = snd o.
Proof.
  induction k as [|k [A B]]; [auto|]. cbn [line_at]. unfold line_step.
  destruct (l_done _); [auto|]. destruct (negb _); [auto|]. destruct (below _ _); auto.
Qed.
Lemma line_at_n g o k : l_done (line_at g o k) = false -> l_n (line_at g o k) = k.
Proof.
  induction k as [|k IH]; [auto|]. cbn [line_at]. unfold line_step. destruct (l_done (line_at g o k)) eqn:D; [cbn; congruence|].
  specialize (IH eq_refl). destruct (negb _); [discriminate|]. destruct (below _ _); cbn; auto.
Qed.
Lemma done_iff g o k : l_done (line_at g o k) = false <-> forall m, (m < k)%nat -> in_grid g (line_pixel g (fst o) (snd o) m).
Proof.
  induction k as [|k IH]; [split; [intros _ m M; lia|reflexivity]|]. cbn [line_at]. unfold line_step.
  destruct (l_done (line_at g o k)) eqn:D.
  - cbn [fst]. rewrite D. split; [discriminate|]. intro H. apply IH. intros m M. apply H. lia.
  - destruct (line_at_o g o k) as (Ei & Ej). pose proof (line_at_n g o k D) as En. rewrite Ei, Ej, En.
    destruct IH as (IH & _). specialize (IH eq_refl).
    destruct (inside g (line_pixel g (fst o) (snd o) k)) eqn:I; cbn [negb].
    + apply inside_iff in I. assert (E : forall x, l_done (fst (if below (z_proj g k (g_dem g (fst (line_pixel g (fst o) (snd o) k)) (snd (line_pixel g (fst o) (snd o) k)))) (l_max (line_at g o k))
        then (LN (fst o) (snd o) (S k) (l_max (line_at g o k)) false, Some (line_pixel g (fst o) (snd o) k)) else (LN (fst o) (snd o) (S k) (Some x) false, None))) = false)
        by (intro x; destruct (below _ _); reflexivity).
      rewrite E. split; [|reflexivity]. intros _ m M. destruct (Nat.eq_dec m k) as [->|]; [auto|apply IH; lia].
    + cbn. split; [discriminate|]. intro H. specialize (H k ltac:(lia)). apply inside_iff in H. congruence.
Qed.
Lemma done_stable g o k k' : (k <= k')%nat -> l_done (line_at g o k) = true -> l_done (line_at g o k') = true.
Proof.
  intros L D. induction L as [|k' L IH]; [auto|]. cbn [line_at]. unfold line_step. rewrite IH. cbn. auto.
Qed.
Lemma write_done g o k : l_done (line_at g o k) = true -> write_at g o k = None.
Proof. intro D. unfold write_at, line_step. rewrite D. reflexivity. Qed.
Definition lt_max (z : R) (m : option num) : Prop := match m with Some (Some b) => z < b | _ => False end.
Lemma below_iff z m : below (Some z) m = true <-> lt_max z m.
Proof. unfold below, lt_max. destruct m as [[b|]|]; [|split; [discriminate|tauto]|split; [discriminate|tauto]]. destruct (Rlt_dec z b); split; auto; try discriminate; contradiction. Qed.
Definition seen (g : sgrid) (o : Z * Z) (n : nat) (z : R) : Prop :=
  exists m zm, (m < n)%nat /\ z_proj g m (elev_at g o m) = Some zm /\ z < zm /\ forall p, (m < p < n)%nat -> elev_at g o p <> None.
Lemma zp_none g n e : z_proj g n e = None <-> e = None.
Proof. unfold z_proj. destruct e; split; congruence. Qed.
Lemma max_spec g o k : l_done (line_at g o k) = false -> forall z, lt_max z (l_max (line_at g o k)) <-> seen g o k z.
Proof.
  induction k as [|k IH]; intros D z.
  { cbn. split; [tauto|]. intros (m & zm & M & _). lia. }
  assert (D' : l_done (line_at g o k) = false).
  { destruct (l_done (line_at g o k)) eqn:E; [|auto]. pose proof (done_stable g o k (S k) ltac:(lia) E). congruence. }
  specialize (IH D'). cbn [line_at] in *. unfold line_step in *. rewrite D' in *.
  destruct (line_at_o g o k) as (Ei & Ej). pose proof (line_at_n g o k D') as En. rewrite Ei, Ej, En in *.
  destruct (negb (inside g (line_pixel g (fst o) (snd o) k))); [discriminate|].
  fold (elev_at g o k) in *. set (mx := l_max (line_at g o k)) in *.
  assert (S0 : seen g o (S k) z <-> (elev_at g o k <> None /\ seen g o k z) \/ (exists zk, z_proj g k (elev_at g o k) = Some zk /\ z < zk)).
  { split.
    - intros (m & zm & M & A & B & C). destruct (Nat.eq_dec m k) as [->|N]; [right; exists zm; auto|left].
      split; [apply C; lia|]. exists m, zm. split; [lia|]. split; [auto|]. split; [auto|]. intros; apply C; lia.
    - intros [(A & m & zm & M & B & C & F)|(zk & A & B)].
      + exists m, zm. split; [lia|]. split; [auto|]. split; [auto|]. intros p P. destruct (Nat.eq_dec p k) as [->|]; [auto|apply F; lia].
      + exists k, zk. split; [lia|]. split; [auto|]. split; [auto|]. intros; lia. }
  destruct (elev_at g o k) as [e|] eqn:EE.
  - destruct (z_proj g k (Some e)) as [zk|] eqn:Z; [|apply zp_none in Z; discriminate].
    destruct (below (Some zk) mx) eqn:B.
    + cbn [fst l_max]. rewrite S0, IH. apply below_iff in B. rewrite (IH zk) in B. split; [left; split; [discriminate|auto]|].
      intros [(_ & A)|(zk' & A & A')]; [auto|]. assert (zk' = zk) by congruence. subst zk'.
      destruct B as (m & zm & M & Q & L & F). exists m, zm. split; [auto|]. split; [auto|]. split; [lra|auto].
    + cbn [fst l_max lt_max]. rewrite S0. split.
      * intro L. right. exists zk. auto.
      * intros [(_ & A)|(zk' & A & A')]; [|congruence]. apply IH in A. unfold lt_max in A. destruct mx as [[b|]|]; try tauto.
        unfold below in B. destruct (Rlt_dec zk b); [discriminate|lra].
  - cbn [z_proj]. cbn [below fst l_max lt_max]. rewrite S0. split; [tauto|]. intros [(A & _)|(zk & A & _)]; [congruence|discriminate].
Qed.
Lemma write_iff g o k p : write_at g o k = Some p <->
  reaches g o k p /\ exists z, z_proj g k (elev_at g o k) = Some z /\ seen g o k z.
Proof.
  unfold reaches. destruct (l_done (line_at g o k)) eqn:D.
  - rewrite write_done by auto. split; [discriminate|]. intros ((_ & H) & _).
    assert (l_done (line_at g o k) = false) by (apply done_iff; intros m M; apply H; lia). congruence.
  - pose proof D as D2. rewrite done_iff in D2. pose proof (max_spec g o k D) as MS. unfold write_at, line_step. rewrite D.
    destruct (line_at_o g o k) as (Ei & Ej). pose proof (line_at_n g o k D) as En. rewrite Ei, Ej, En.
    fold (elev_at g o k). set (q := line_pixel g (fst o) (snd o) k) in *.
    destruct (inside g q) eqn:I; cbn [negb].
    + apply inside_iff in I. destruct (z_proj g k (elev_at g o k)) as [z|] eqn:Z.
      * destruct (below (Some z) (l_max (line_at g o k))) eqn:B; cbn [snd].
        -- split.
           ++ intro E. assert (q = p) by congruence. subst p. split.
              ** split; [reflexivity|]. intros m M. destruct (Nat.eq_dec m k) as [->|]; [exact I|apply D2; lia].
              ** exists z. split; [auto|]. apply MS. apply below_iff. exact B.
           ++ intros ((-> & _) & _). reflexivity.
        -- split; [discriminate|]. intros (_ & z' & A & A'). assert (z' = z) by congruence. subst z'.
           apply MS, below_iff in A'. congruence.
      * assert (B : below None (l_max (line_at g o k)) = false) by reflexivity. rewrite B. cbn [snd].
        split; [discriminate|]. intros (_ & z' & A & _). discriminate.
    + cbn. split; [discriminate|]. intros ((_ & H) & _). specialize (H k ltac:(lia)). apply inside_iff in H. fold q in H. congruence.
Qed.
(** Projections and sun rays *)
Lemma proj_value g n z : g_sx g <> 0 \/ g_sy g <> 0 ->
  z_proj g n (Some z) = Some (normal_z g * (INR n * (step_length g * tan_elevation g) + z)).
Proof.
  intro H. pose proof (sun_max_pos g H) as M. unfold z_proj. f_equal. unfold inv_x, inv_y, normal_x, normal_y, step_length, tan_elevation.
  fold (sun_max g). fold (normal_z g).
  assert (Q : 0 < g_sx g ^ 2 + g_sy g ^ 2) by (destruct H as [H|H]; [pose proof (Rsqr_pos_lt _ H)|pose proof (Rsqr_pos_lt _ H)]; unfold Rsqr in *; nra).
  assert (N : 0 < normal_z g) by (apply sqrt_lt_R0; exact Q).
  assert (NN : normal_z g * normal_z g = g_sx g ^ 2 + g_sy g ^ 2) by (apply sqrt_sqrt; lra).
  assert (E : forall s r q n, - s / sun_max g * n * r * (- s * q / normal_z g) = s ^ 2 * (n * r * q / (sun_max g * normal_z g)))
    by (intros; field; lra).
  rewrite !E. transitivity ((g_sx g ^ 2 + g_sy g ^ 2) * (INR n * g_res g * g_sz g / (sun_max g * normal_z g)) + z * normal_z g); [ring|].
  rewrite <- NN. field. lra.
Qed.
Lemma hidden_iff g o n : g_sx g <> 0 \/ g_sy g <> 0 ->
  (hidden g o n <-> exists z, z_proj g n (elev_at g o n) = Some z /\ seen g o n z).
Proof.
  intro H.
  assert (Q : 0 < g_sx g ^ 2 + g_sy g ^ 2) by (destruct H as [H|H]; [pose proof (Rsqr_pos_lt _ H)|pose proof (Rsqr_pos_lt _ H)]; unfold Rsqr in *; nra).
  assert (N : 0 < normal_z g) by (apply sqrt_lt_R0; exact Q).
  set (t := step_length g * tan_elevation g).
  assert (K : forall m z zm, (m < n)%nat -> zm - z > INR (n - m) * step_length g * tan_elevation g <->
     normal_z g * (INR n * t + z) < normal_z g * (INR m * t + zm)).
  { intros m z zm L. rewrite minus_INR by lia. unfold t. split; intro A; [apply Rmult_lt_compat_l; [auto|nra]|].
    apply Rmult_lt_reg_l in A; [nra|auto]. }
  unfold hidden, seen. split.
  - intros (z & m & zm & A & B & C & D & E). rewrite A, proj_value by auto. fold t. eexists. split; [reflexivity|].
    exists m. rewrite C, proj_value by auto. fold t. eexists. split; [auto|]. split; [reflexivity|]. split; [apply K; auto|auto].
  - intros (z & A & m & zm & B & C & D & E). destruct (elev_at g o n) as [e|] eqn:EE; [|discriminate].
    destruct (elev_at g o m) as [em|] eqn:EM; [|discriminate]. rewrite proj_value in A, C by auto. fold t in A, C.
    exists e, m, em. split; [auto|]. split; [auto|]. split; [auto|]. split; [|auto].
    apply K; [auto|]. assert (z = normal_z g * (INR n * t + e)) by congruence. assert (zm = normal_z g * (INR m * t + em)) by congruence. subst. exact D.
Qed.

(** * All lines in parallel *)
Lemma upd_nth {A} (l : list A) : forall k x i, nth_error (upd l k x) i =
  if (i =? k)%nat then match nth_error l i with Some _ => Some x | None => None end else nth_error l i.
Proof.
  induction l as [|y l IH]; intros k x i; [destruct i, k; cbn; try reflexivity; destruct (_ =? _)%nat; reflexivity|].
  destruct k, i; cbn [upd nth_error Nat.eqb]; auto.
Qed.
Definition state_inv (g : sgrid) (os : list (Z * Z)) (cnt : nat -> nat) (s : list line * (Z -> Z -> bool)) : Prop :=
  (forall i, nth_error (fst s) i = option_map (fun o => line_at g o (cnt i)) (nth_error os i)) /\
  (forall r c, snd s r c = false <-> exists i o n, nth_error os i = Some o /\ (n < cnt i)%nat /\ write_at g o n = Some (r, c)).
Definition count (sched : list nat) (i : nat) : nat := count_occ Nat.eq_dec sched i.
Lemma run_inv g os sched : state_inv g os (count sched) (shadows_run g os sched).
Proof.
  unfold shadows_run. rewrite <- (rev_involutive sched) at 2. induction (rev sched) as [|k rs IH] eqn:E in sched |- *.
  - assert (sched = []) as -> by (rewrite <- (rev_involutive sched), E; reflexivity). cbn [rev fold_left]. split; cbn [fst snd].
    + intro i. rewrite nth_error_map. unfold count. cbn [count_occ]. destruct (nth_error os i); reflexivity.
    + intros r c. split; [discriminate|]. intros (i & o & n & _ & N & _). cbn in N. lia.
  - assert (ES : sched = rev rs ++ [k]) by (rewrite <- (rev_involutive sched), E; reflexivity).
    cbn [rev]. rewrite fold_left_app. cbn [fold_left].
    specialize (IH (rev rs) (rev_involutive rs)). set (s := fold_left _ (rev rs) _) in *. destruct IH as (L & W).
    assert (CN : forall i, count sched i = (count (rev rs) i + if (i =? k)%nat then 1 else 0)%nat).
    { intro i. rewrite ES. unfold count. rewrite count_occ_app. cbn. destruct (Nat.eq_dec k i), (Nat.eqb_spec i k); try lia. }
    unfold sched_step. rewrite (L k). destruct (nth_error os k) as [o|] eqn:O; cbn [option_map].
    + destruct (line_step g (line_at g o (count (rev rs) k))) as [l' w] eqn:LS. cbn [fst snd].
      assert (WA : write_at g o (count (rev rs) k) = w) by (unfold write_at; rewrite LS; reflexivity).
      split; cbn [fst snd].
      * intro i. rewrite upd_nth, CN. destruct (Nat.eqb_spec i k) as [->|N].
        -- rewrite (L k), O. cbn [option_map]. rewrite Nat.add_1_r. cbn [line_at]. rewrite LS. reflexivity.
        -- rewrite (L i), Nat.add_0_r. reflexivity.
      * intros r c.
        assert (STEP : (exists i o0 n, nth_error os i = Some o0 /\ (n < count sched i)%nat /\ write_at g o0 n = Some (r, c)) <->
                       (exists i o0 n, nth_error os i = Some o0 /\ (n < count (rev rs) i)%nat /\ write_at g o0 n = Some (r, c)) \/ w = Some (r, c)).
        { split.
          - intros (i & o0 & n & A & B & C). rewrite CN in B. destruct (Nat.eqb_spec i k) as [->|N].
            + destruct (Nat.eq_dec n (count (rev rs) k)) as [->|]; [right; congruence|left]. exists k, o0, n. split; [auto|]. split; [lia|auto].
            + left. exists i, o0, n. split; [auto|]. split; [lia|auto].
          - intros [(i & o0 & n & A & B & C)| ->].
            + exists i, o0, n. split; [auto|]. split; [rewrite CN; lia|auto].
            + exists k, o, (count (rev rs) k). split; [auto|]. split; [rewrite CN, Nat.eqb_refl; lia|auto]. }
        rewrite STEP, <- W. destruct w as [p|].
        -- unfold darken. destruct (((r =? fst p) && (c =? snd p))%Z) eqn:EQ.
           ++ rewrite andb_true_iff, !Z.eqb_eq in EQ. destruct EQ as (-> & ->). split; [intros _; right; destruct p; reflexivity|auto].
           ++ split; [auto|]. intros [A|A]; [auto|]. exfalso. injection A as ->. cbn in EQ. rewrite !Z.eqb_refl in EQ. discriminate.
        -- split; [auto|]. intros [A|A]; [auto|discriminate].
    + split; cbn [fst snd].
      * intro i. rewrite (L i), CN. destruct (Nat.eqb_spec i k) as [->|]; [rewrite O; reflexivity|rewrite Nat.add_0_r; reflexivity].
      * intros r c. rewrite W. split; intros (i & o0 & n & A & B & C); exists i, o0, n; (split; [auto|]; split; [|auto]).
        -- rewrite CN. lia.
        -- rewrite CN in B. destruct (Nat.eqb_spec i k) as [->|]; [congruence|lia].
Qed.
(** C46. For every schedule at the end of which all lines have left the grid: a pixel is dark iff some line passes it at
    a point that is hidden by terrain nearer to the sun. The map does not depend on the schedule. *)
Theorem c46_shadows : forall g os schedule, g_sx g <> 0 \/ g_sy g <> 0 ->
  let s := shadows_run g os schedule in
  (forall l, In l (fst s) -> l_done l = true) -> forall r c, snd s r c = false <-> in_shadow g os (r, c).
Proof.
  intros g os sched H s F r c. destruct (run_inv g os sched) as (L & W). fold s in L, W. rewrite W. unfold in_shadow. split.
  - intros (i & o & n & A & B & C). apply write_iff in C. destruct C as (R1 & R2). exists o, n.
    split; [eapply nth_error_In; eauto|]. split; [auto|]. apply hidden_iff; auto.
  - intros (o & n & I & R1 & R2). apply In_nth_error in I. destruct I as (i & I). exists i, o, n. split; [auto|].
    assert (WA : write_at g o n = Some (r, c)) by (apply write_iff; split; [auto|apply hidden_iff; auto]).
    split; [|exact WA]. destruct (Nat.lt_ge_cases n (count sched i)) as [|G]; [auto|]. exfalso.
    specialize (L i). rewrite I in L. cbn [option_map] in L. apply nth_error_In in L. apply F in L.
    rewrite write_done in WA; [discriminate|]. eapply done_stable; eauto.
Qed.
Print Assumptions c46_shadows.
Theorem c46_schedule : forall g os schedule schedule', g_sx g <> 0 \/ g_sy g <> 0 ->
  (forall l, In l (fst (shadows_run g os schedule)) -> l_done l = true) ->
  (forall l, In l (fst (shadows_run g os schedule')) -> l_done l = true) ->
  forall r c, snd (shadows_run g os schedule) r c = snd (shadows_run g os schedule') r c.
Proof.
  intros g os s1 s2 H F1 F2 r c. pose proof (c46_shadows g os s1 H F1 r c) as A. pose proof (c46_shadows g os s2 H F2 r c) as B.
  cbv zeta in *. destruct (snd (shadows_run g os s1) r c), (snd (shadows_run g os s2) r c); auto.
  - assert (true = false) by (apply A, B; reflexivity). discriminate.
  - assert (true = false) by (apply B, A; reflexivity). discriminate.
Qed.
Print Assumptions c46_schedule.
(** C46. Every schedule that gives each line enough turns (one more than the larger side of the grid) completes. *)
Theorem c46_completes : forall g os schedule, g_sx g <> 0 \/ g_sy g <> 0 -> Forall (in_grid g) os ->
  (forall i, (i < length os)%nat -> (Z.max (g_rows g) (g_cols g) < Z.of_nat (count_occ Nat.eq_dec schedule i))%Z) ->
  forall l, In l (fst (shadows_run g os schedule)) -> l_done l = true.
Proof.
  intros g os sched H G C l I. destruct (run_inv g os sched) as (L & _). apply In_nth_error in I. destruct I as (i & I). rewrite L in I.
  destruct (nth_error os i) as [o|] eqn:O; [|discriminate]. cbn in I.
  assert (line_at g o (count sched i) = l) by congruence. subst l.
  assert (LT : (i < length os)%nat) by (apply nth_error_Some; congruence). specialize (C i LT). fold (count sched i) in C.
  assert (GO : in_grid g o) by (rewrite Forall_forall in G; apply G; eapply nth_error_In; eauto).
  destruct (c46_terminates g o H GO) as (n & N & Q). destruct (l_done (line_at g o (count sched i))) eqn:D; [auto|].
  exfalso. apply Q. apply (proj1 (done_iff g o (count sched i)) D). lia.
Qed.
Print Assumptions c46_completes.
(** The first pixel of a line is never darkened by that line. *)
Theorem c46_origin_lit : forall g o, ~ hidden g o 0.
Proof. intros g o (z & m & zm & _ & M & _). lia. Qed.
Print Assumptions c46_origin_lit.

(** * Origins and coverage *)
Lemma zseq_in n k : In k (zseq n) <-> (0 <= k < n)%Z.
Proof.
  unfold zseq. rewrite in_map_iff. split.
  - intros (m & <- & I). apply in_seq in I. lia.
  - intro H. exists (Z.to_nat k). split; [lia|]. apply in_seq. lia.
Qed.
(** C46. Scan lines begin in the first num_sweeps columns and rows in the direction of the sun; everywhere for -1. *)
Theorem c46_origins : forall g num_sweeps p, (1 <= num_sweeps \/ num_sweeps = -1)%Z ->
  In p (origins g num_sweeps) <-> in_grid g p /\
  (num_sweeps = (-1)%Z \/
   (g_sx g < 0 /\ (snd p < num_sweeps)%Z) \/ (0 <= g_sx g /\ (g_cols g - num_sweeps <= snd p)%Z) \/
   (g_sy g < 0 /\ (fst p < num_sweeps)%Z) \/ (0 <= g_sy g /\ (g_rows g - num_sweeps <= fst p)%Z)).
Proof.
  intros g k [i j] K. unfold origins. rewrite in_flat_map. unfold in_grid. cbn [fst snd].
  assert (O : is_origin g k i j = true <-> (g_sx g < 0 /\ (j < sweeps g k)%Z) \/ (0 <= g_sx g /\ (g_cols g - sweeps g k <= j)%Z) \/
   (g_sy g < 0 /\ (i < sweeps g k)%Z) \/ (0 <= g_sy g /\ (g_rows g - sweeps g k <= i)%Z)).
  { unfold is_origin, rlt0. cbv zeta.
    destruct (Rlt_dec (g_sx g) 0), (Rlt_dec (g_sy g) 0); cbn [andb]; rewrite orb_true_iff, ?Z.ltb_lt, ?Z.leb_le; split; intro Q.
    all: first [destruct Q as [(A & B)|[(A & B)|[(A & B)|(A & B)]]]; (exfalso; lra) || tauto
      | destruct Q as [Q|Q]; first [left; split; [lra|exact Q] | right; left; split; [lra|exact Q]
          | right; right; left; split; [lra|exact Q] | right; right; right; split; [lra|exact Q]]]. }
  assert (E : (exists x, In x (zseq (g_rows g)) /\ In (i, j) (map (pair x) (filter (is_origin g k x) (zseq (g_cols g))))) <->
              (0 <= i < g_rows g)%Z /\ (0 <= j < g_cols g)%Z /\ is_origin g k i j = true).
  { split.
    - intros (x & X & Y). apply in_map_iff in Y. destruct Y as (y & Y & Z0). injection Y as -> ->. apply filter_In in Z0. rewrite zseq_in in *. tauto.
    - intros (A & B & C). exists i. split; [apply zseq_in; auto|]. apply in_map_iff. exists j. split; [auto|]. apply filter_In. rewrite zseq_in. auto. }
  rewrite E, O. unfold sweeps. destruct (Z.eqb_spec k (-1)) as [->|N].
  - split; [tauto|]. intros (A & _). split; [tauto|]. split; [tauto|]. destruct (Rlt_le_dec (g_sx g) 0); [left; split; [auto|lia]|right; left; split; [auto|lia]].
  - split; [tauto|]. intros (A & [B|B]); [contradiction|tauto].
Qed.
Print Assumptions c46_origins.
(** No point of a line is exactly half-way between two pixels. *)
Definition no_ties (b : R) : Prop := forall (n : nat) (k : Z), b * INR n <> IZR k + 1 / 2.
Lemma round_strict b n : no_ties b -> Rabs (IZR (np_round (b * INR n)) - b * INR n) < 1 / 2.
Proof.
  intro T. pose proof (round_bound (b * INR n)) as B. set (x := b * INR n) in *. set (k := np_round x) in *.
  destruct B as [B|B]; [exact B|]. exfalso. destruct (Rcase_abs (IZR k - x)) as [N|N].
  - rewrite Rabs_left in B by auto. apply (T n k). fold x. lra.
  - rewrite Rabs_right in B by auto. apply (T n (k - 1)%Z). fold x. rewrite minus_IZR. lra.
Qed.
Lemma round_shift b n i : no_ties b -> np_round (IZR i + b * INR n) = (i + np_round (b * INR n))%Z.
Proof. intro T. apply round_unique. rewrite plus_IZR. pose proof (round_strict b n T). replace (IZR i + IZR (np_round (b * INR n)) - (IZR i + b * INR n)) with (IZR (np_round (b * INR n)) - b * INR n) by ring. auto. Qed.
Lemma round_grow b n : no_ties b -> 0 <= b <= 1 -> (np_round (b * INR n) <= np_round (b * INR (S n)) <= np_round (b * INR n) + 1)%Z.
Proof.
  intros T B. pose proof (round_strict b n T) as X. pose proof (round_strict b (S n) T) as Y. apply Rabs_def2 in X. apply Rabs_def2 in Y.
  rewrite S_INR in *. set (x := b * INR n) in *. replace (b * (INR n + 1)) with (x + b) in * by (unfold x; ring).
  assert (IZR (np_round x) < IZR (np_round (x + b) + 1)) by (rewrite plus_IZR; lra).
  assert (IZR (np_round (x + b)) < IZR (np_round x + 2)) by (rewrite plus_IZR; lra). apply lt_IZR in H. apply lt_IZR in H0. lia.
Qed.
Lemma round_shrink b n : no_ties b -> -1 <= b <= 0 -> (np_round (b * INR n) - 1 <= np_round (b * INR (S n)) <= np_round (b * INR n))%Z.
Proof.
  intros T B. pose proof (round_strict b n T) as X. pose proof (round_strict b (S n) T) as Y. apply Rabs_def2 in X. apply Rabs_def2 in Y.
  rewrite S_INR in *. set (x := b * INR n) in *. replace (b * (INR n + 1)) with (x + b) in * by (unfold x; ring).
  assert (IZR (np_round x) < IZR (np_round (x + b) + 2)) by (rewrite plus_IZR; lra).
  assert (IZR (np_round (x + b)) < IZR (np_round x + 1)) by (rewrite plus_IZR; lra). apply lt_IZR in H. apply lt_IZR in H0. lia.
Qed.
(** Going back towards the sun from coordinate r along one axis *)
Lemma go_back b r n0 size : no_ties b -> -1 <= b <= 1 -> (0 <= r < size)%Z ->
  exists n i, (n <= n0)%nat /\ (0 <= i < size)%Z /\ (i + np_round (b * INR n) = r)%Z /\
    (n = n0 \/ (0 < b /\ i = 0%Z) \/ (b <= 0 /\ i = (size - 1)%Z)) /\
    forall m, (m <= n)%nat -> (0 <= i + np_round (b * INR m) < size)%Z.
Proof.
  intros T B R0. set (f := fun n : nat => np_round (b * INR n)).
  assert (F0 : f 0%nat = 0%Z) by (unfold f; cbn [INR]; replace (b * 0) with (IZR 0) by (cbn; ring); apply round_int).
  destruct (Rlt_le_dec 0 b) as [P|P].
  - assert (G : forall n, (f n <= f (S n) <= f n + 1)%Z) by (intro; apply round_grow; [auto|lra]).
    assert (MO : forall m n, (m <= n)%nat -> (f m <= f n)%Z) by (intros m n L; induction L as [|n L IH]; [lia|specialize (G n); lia]).
    assert (MN : forall m, (0 <= f m)%Z) by (intro m; rewrite <- F0; apply MO; lia).
    assert (K : forall n, (n <= n0)%nat -> (exists m, (m <= n)%nat /\ f m = r) \/ (f n < r)%Z).
    { induction n as [|n IH]; intro L.
      - destruct (Z.eq_dec r 0) as [->|]; [left; exists 0%nat; auto|right; lia].
      - destruct (IH ltac:(lia)) as [(m & M & E)|L2]; [left; exists m; split; [lia|auto]|].
        specialize (G n). destruct (Z.eq_dec (f (S n)) r); [left; exists (S n); auto|right; lia]. }
    destruct (K n0 (le_n _)) as [(m & M & E)|L].
    + exists m, 0%Z. fold (f m). split; [auto|]. split; [lia|]. split; [lia|]. split; [right; left; auto|].
      intros k KM. fold (f k). specialize (MO k m KM). specialize (MN k). lia.
    + exists n0, (r - f n0)%Z. fold (f n0). specialize (MN n0) as N0. split; [lia|]. split; [lia|]. split; [lia|]. split; [auto|].
      intros k KM. fold (f k). specialize (MO k n0 KM). specialize (MN k). lia.
  - assert (G : forall n, (f n - 1 <= f (S n) <= f n)%Z) by (intro; apply round_shrink; [auto|lra]).
    assert (MO : forall m n, (m <= n)%nat -> (f n <= f m)%Z) by (intros m n L; induction L as [|n L IH]; [lia|specialize (G n); lia]).
    assert (MN : forall m, (f m <= 0)%Z) by (intro m; rewrite <- F0; apply MO; lia).
    assert (K : forall n, (n <= n0)%nat -> (exists m, (m <= n)%nat /\ f m = (r - (size - 1))%Z) \/ (r - (size - 1) < f n)%Z).
    { induction n as [|n IH]; intro L.
      - destruct (Z.eq_dec r (size - 1)) as [->|]; [left; exists 0%nat; split; [lia|lia]|right; lia].
      - destruct (IH ltac:(lia)) as [(m & M & E)|L2]; [left; exists m; split; [lia|auto]|].
        specialize (G n). destruct (Z.eq_dec (f (S n)) (r - (size - 1))); [left; exists (S n); auto|right; lia]. }
    destruct (K n0 (le_n _)) as [(m & M & E)|L].
    + exists m, (size - 1)%Z. fold (f m). split; [auto|]. split; [lia|]. split; [lia|]. split; [right; right; auto|].
      intros k KM. fold (f k). specialize (MO k m KM). specialize (MN k). lia.
    + exists n0, (r - f n0)%Z. fold (f n0). specialize (MN n0) as N0. split; [lia|]. split; [lia|]. split; [lia|]. split; [auto|].
      intros k KM. fold (f k). specialize (MO k n0 KM). specialize (MN k). lia.
Qed.
Lemma inv_sign g : g_sx g <> 0 \/ g_sy g <> 0 ->
  (-1 <= inv_x g <= 1 /\ (0 < inv_x g <-> g_sx g < 0)) /\ (-1 <= inv_y g <= 1 /\ (0 < inv_y g <-> g_sy g < 0)).
Proof.
  intro H. pose proof (sun_max_pos g H) as M. set (iM := / sun_max g). assert (IP : 0 < iM) by (apply Rinv_0_lt_compat; auto).
  assert (MI : sun_max g * iM = 1) by (apply Rinv_r; lra).
  unfold inv_x, inv_y, Rdiv. fold iM. pose proof (Rmax_l (Rabs (g_sx g)) (Rabs (g_sy g))) as A.
  pose proof (Rmax_r (Rabs (g_sx g)) (Rabs (g_sy g))) as B. fold (sun_max g) in A, B.
  pose proof (Rle_abs (g_sx g)). pose proof (Rle_abs (- g_sx g)). pose proof (Rle_abs (g_sy g)). pose proof (Rle_abs (- g_sy g)).
  rewrite !Rabs_Ropp in *. split; (split; [split; nra|split; intro; nra]).
Qed.
(** C46. Unless a line passes exactly between two pixels, every pixel of the grid is passed by a line, for any number of
    sweeps. *)
Theorem c46_coverage : forall g num_sweeps p, (1 <= num_sweeps \/ num_sweeps = -1)%Z -> g_sx g <> 0 \/ g_sy g <> 0 ->
  no_ties (inv_x g) -> no_ties (inv_y g) -> in_grid g p ->
  exists o n, In o (origins g num_sweeps) /\ reaches g o n p.
Proof.
  intros g k [r c] K H TX TY (IR & IC). cbn [fst snd] in *. destruct (inv_sign g H) as ((BX & SX) & (BY & SY)).
  assert (P : forall i j n, line_pixel g i j n = ((i + np_round (inv_y g * INR n))%Z, (j + np_round (inv_x g * INR n))%Z))
    by (intros; unfold line_pixel; rewrite !round_shift by auto; reflexivity).
  assert (U1 : forall n, np_round (1 * INR n) = Z.of_nat n) by (intro n; rewrite Rmult_1_l, INR_IZR_INZ; apply round_int).
  assert (U2 : forall n, np_round (-1 * INR n) = (- Z.of_nat n)%Z)
    by (intro n; replace (-1 * INR n) with (IZR (- Z.of_nat n)) by (rewrite opp_IZR, INR_IZR_INZ; ring); apply round_int).
  assert (FIN : forall i j n, (0 <= i < g_rows g)%Z -> (0 <= j < g_cols g)%Z -> (i + np_round (inv_y g * INR n) = r)%Z -> (j + np_round (inv_x g * INR n) = c)%Z ->
     (forall m, (m <= n)%nat -> (0 <= i + np_round (inv_y g * INR m) < g_rows g)%Z) -> (forall m, (m <= n)%nat -> (0 <= j + np_round (inv_x g * INR m) < g_cols g)%Z) ->
     ((0 < inv_x g /\ j = 0%Z) \/ (inv_x g <= 0 /\ j = (g_cols g - 1)%Z) \/ (0 < inv_y g /\ i = 0%Z) \/ (inv_y g <= 0 /\ i = (g_rows g - 1)%Z)) ->
     exists o n, In o (origins g k) /\ reaches g o n (r, c)).
  { intros i j n A B C D E F G. exists (i, j), n. split.
    - apply c46_origins; [auto|]. unfold in_grid. cbn [fst snd]. split; [auto|].
      destruct K as [K|K]; [right|left; auto]. destruct G as [(G & ->)|[(G & ->)|[(G & ->)|(G & ->)]]].
      + left. split; [apply SX; auto|lia].
      + right; left. split; [destruct (Rlt_le_dec (g_sx g) 0) as [L|L]; [apply SX in L; lra|lra]|lia].
      + right; right; left. split; [apply SY; auto|lia].
      + right; right; right. split; [destruct (Rlt_le_dec (g_sy g) 0) as [L|L]; [apply SY in L; lra|lra]|lia].
    - split; cbn [fst snd]; [rewrite P; congruence|]. intros m M. rewrite P. split; cbn [fst snd]; auto. }
  destruct (unit_component g H) as [[E|E]|[E|E]].
  - destruct (go_back (inv_y g) r (Z.to_nat c) (g_rows g) TY BY IR) as (n & i & N & I & Q & W & A).
    apply (FIN i (c - Z.of_nat n)%Z n); auto; try (rewrite E, ?U1; lia).
    + lia. + intros m M. rewrite E, U1. lia.
    + destruct W as [->|[W|W]]; [left; split; [lra|lia]|tauto|tauto].
  - destruct (go_back (inv_y g) r (Z.to_nat (g_cols g - 1 - c)) (g_rows g) TY BY IR) as (n & i & N & I & Q & W & A).
    apply (FIN i (c + Z.of_nat n)%Z n); auto; try (rewrite E, ?U2; lia).
    + lia. + intros m M. rewrite E, U2. lia.
    + destruct W as [->|[W|W]]; [right; left; split; [lra|lia]|tauto|tauto].
  - destruct (go_back (inv_x g) c (Z.to_nat r) (g_cols g) TX BX IC) as (n & i & N & I & Q & W & A).
    apply (FIN (r - Z.of_nat n)%Z i n); auto; try (rewrite E, ?U1; lia).
    + lia. + intros m M. rewrite E, U1. lia.
    + destruct W as [->|[W|W]]; [right; right; left; split; [lra|lia]|tauto|tauto].
  - destruct (go_back (inv_x g) c (Z.to_nat (g_rows g - 1 - r)) (g_cols g) TX BX IC) as (n & i & N & I & Q & W & A).
    apply (FIN (r + Z.of_nat n)%Z i n); auto; try (rewrite E, ?U2; lia).
    + lia. + intros m M. rewrite E, U2. lia.
    + destruct W as [->|[W|W]]; [right; right; right; split; [lra|lia]|tauto|tauto].
Qed.
Print Assumptions c46_coverage.
(** C46, refuted for lines that pass half-way between pixels: rounding to even skips pixel (1, 1) for a sun in the west-north-west,
    so that it is never in shadow, whatever the terrain. *)
Theorem c46_coverage_refuted : exists sx sy sz, sx ^ 2 + sy ^ 2 + sz ^ 2 = 1 /\ sx <> 0 /\ forall dem res,
  let g := SG 3 3 dem res sx sy sz in forall schedule,
  (forall l, In l (fst (shadows_run g (origins g 1) schedule)) -> l_done l = true) ->
  snd (shadows_run g (origins g 1) schedule) 1%Z 1%Z = true.
Proof.
  exists (-2 / 3), (-1 / 3), (2 / 3). split; [lra|]. split; [lra|]. intros dem res g sched F.
  destruct (snd (shadows_run g (origins g 1) sched) 1%Z 1%Z) eqn:E; [reflexivity|exfalso].
  apply c46_shadows in E; [|left; cbn; lra|exact F]. destruct E as ((i & j) & n & O & (RP & _) & _). cbn [fst snd] in RP.
  assert (M : sun_max g = 2 / 3). { unfold sun_max. cbn [g_sx g_sy g]. rewrite !Rabs_left by lra. rewrite Rmax_left; lra. }
  assert (X : inv_x g = 1) by (unfold inv_x; rewrite M; cbn [g_sx g]; field).
  assert (Y : inv_y g = 1 / 2) by (unfold inv_y; rewrite M; cbn [g_sy g]; field).
  unfold line_pixel in RP. rewrite X, Y in RP. injection RP as R1 R2.
  rewrite Rmult_1_l, INR_IZR_INZ, <- plus_IZR, round_int in R2.
  apply c46_origins in O; [|lia]. cbn [g_sx g_sy g fst snd] in O. destruct O as (((I1 & I2) & (J1 & J2)) & O). cbn [fst snd g g_rows g_cols] in *.
  destruct n as [|n].
  - cbn [INR] in R1. replace (IZR i + 1 / 2 * 0) with (IZR i) in R1 by ring. rewrite round_int in R1.
    destruct O as [O|[(_ & O)|[(O & _)|[(_ & O)|(O & _)]]]]; try lra; lia.
  - assert (n = 0%nat) by lia. subst n. assert (TI : IZR i + 1 / 2 * INR 1 = IZR i + 1 / 2) by (cbn [INR]; lra).
    destruct (c46_round (IZR i + 1 / 2 * INR 1)) as (_ & _ & EV). specialize (EV i TI). rewrite R1 in EV. discriminate.
Qed.
Print Assumptions c46_coverage_refuted.
(** C46. Pixels without elevation are never dark, and hide nothing: a line forgets the terrain in front of them. *)
Theorem c46_missing : forall g o n, elev_at g o n = None -> ~ hidden g o n /\
  (elev_at g o (S n) <> None -> ~ hidden g o (S n)).
Proof.
  intros g o n E. split.
  - intros (z & m & zm & A & _). congruence.
  - intros _ (z & m & zm & A & B & C & _ & F). destruct (Nat.eq_dec m n) as [->|]; [congruence|]. apply (F n); [lia|exact E].
Qed.
Print Assumptions c46_missing.
(** A ridge of 100 m in the west and the sun in the west, 26.6 degrees high: the valley behind it is dark. *)
Example c46_example : let dem := fun (r c : Z) => if (c =? 0)%Z then Some 100 else Some 0 in
  let g := SG 1 3 dem 50 (- 2 / sqrt 5) 0 (1 / sqrt 5) in
  (g_sx g <> 0 \/ g_sy g <> 0) /\ no_ties (inv_x g) /\ no_ties (inv_y g) /\ in_grid g (0, 2)%Z /\ in_shadow g (origins g 1) (0, 1)%Z /\
  ~ in_shadow g (origins g 1) (0, 0)%Z.
Proof.
  intros dem g. assert (Q : 0 < sqrt 5) by (apply sqrt_lt_R0; lra). assert (QQ : sqrt 5 * sqrt 5 = 5) by (apply sqrt_sqrt; lra).
  assert (IQ : 0 < / sqrt 5) by (apply Rinv_0_lt_compat; auto).
  assert (SX : g_sx g = - (2 * / sqrt 5)) by (cbn [g_sx g]; unfold Rdiv; ring).
  assert (M : sun_max g = 2 * / sqrt 5). { unfold sun_max. rewrite SX. cbn [g_sy g]. rewrite Rabs_R0, Rabs_left by lra. rewrite Rmax_left; lra. }
  assert (X : inv_x g = 1) by (unfold inv_x; rewrite M, SX; field; lra).
  assert (Y : inv_y g = 0) by (unfold inv_y; rewrite M; cbn [g_sy g]; field; lra).
  assert (T0 : no_ties 0). { intros n k E. assert (A : IZR (2 * k + 1) = IZR 0) by (rewrite plus_IZR, mult_IZR; lra). apply eq_IZR in A. lia. }
  assert (T1 : no_ties 1). { intros n k E. rewrite Rmult_1_l, INR_IZR_INZ in E. assert (A : IZR (2 * k + 1) = IZR (2 * Z.of_nat n)) by (rewrite plus_IZR, !mult_IZR; lra). apply eq_IZR in A. lia. }
  assert (P : forall i j n, line_pixel g i j n = (i, (j + Z.of_nat n)%Z)).
  { intros. unfold line_pixel. rewrite X, Y, Rmult_0_l, Rplus_0_r, Rmult_1_l, INR_IZR_INZ, <- plus_IZR, !round_int. reflexivity. }
  split; [left; rewrite SX; lra|]. rewrite X, Y. split; [exact T1|]. split; [exact T0|]. split; [split; cbn; lia|]. split.
  - exists (0, 0)%Z, 1%nat. split; [apply c46_origins; [lia|]; split; [split; cbn; lia|right; left; rewrite SX; cbn; split; [lra|lia]]|].
    split; [split; [apply P|intros m L; cbn [fst snd]; rewrite P; split; cbn; lia]|].
    exists 0, 0%nat, 100. unfold elev_at. cbn [fst snd]. rewrite !P. split; [reflexivity|]. split; [lia|]. split; [reflexivity|]. split; [|intros; lia].
    assert (N : sqrt (g_sx g ^ 2 + g_sy g ^ 2) = 2 * / sqrt 5).
    { rewrite SX. cbn [g_sy g]. replace ((- (2 * / sqrt 5)) ^ 2 + 0 ^ 2) with ((2 * / sqrt 5) * (2 * / sqrt 5)) by ring. apply sqrt_square. lra. }
    unfold step_length, tan_elevation. fold (sun_max g). rewrite N, M. cbn [g_res g_sz g INR Nat.sub].
    replace (1 * (50 * (2 * / sqrt 5 / (2 * / sqrt 5))) * (1 / sqrt 5 / (2 * / sqrt 5))) with 25 by (field; lra). lra.
  - intros ((i & j) & n & O & (RP & _) & HD). cbn [fst snd] in RP. rewrite P in RP. injection RP as -> RJ.
    apply c46_origins in O; [|lia]. destruct O as ((_ & IG) & _). cbn [fst snd] in IG. assert (n = 0%nat) by lia. subst. apply (c46_origin_lit _ _ HD).
Qed.

(** * C83 Resampling *)
Lemma repeat_each_length {A} f (l : list A) : length (repeat_each f l) = (f * length l)%nat.
Proof. induction l as [|x l IH]; [cbn; lia|]. cbn [repeat_each length]. rewrite app_length, repeat_length, IH. lia. Qed.
Lemma repeat_nth {A} (x : A) f r : (r < f)%nat -> nth_error (repeat x f) r = Some x.
Proof. revert r. induction f as [|f IH]; intros r R0; [lia|]. destruct r; [reflexivity|]. cbn. apply IH. lia. Qed.
Lemma repeat_each_nth {A} f (l : list A) : (0 < f)%nat -> forall r, nth_error (repeat_each f l) r = nth_error l (r / f).
Proof.
  intro F. induction l as [|x l IH]; intro r; [destruct r, (_ / f)%nat; reflexivity|]. cbn [repeat_each].
  destruct (Nat.lt_ge_cases r f) as [L|L].
  - rewrite nth_error_app1 by (rewrite repeat_length; auto). rewrite repeat_nth by auto. rewrite Nat.div_small by auto. reflexivity.
  - rewrite nth_error_app2 by (rewrite repeat_length; auto). rewrite repeat_length, IH.
    replace (r / f)%nat with (S ((r - f) / f)); [reflexivity|]. replace r with ((r - f) + 1 * f)%nat at 2 by lia. rewrite Nat.div_add by lia. lia.
Qed.
Lemma cut_nth {A} n (l : list A) r : (n <= length l)%nat -> nth_error (cut n l) r = if (r <? n)%nat then nth_error l r else None.
Proof.
  intro L. unfold cut. destruct (Nat.ltb_spec n (length l)) as [N|N].
  - revert n r L N. induction l as [|x l IH]; intros n r L N; [cbn in *; lia|]. destruct n, r; cbn; try reflexivity.
    cbn in *. rewrite IH by lia. reflexivity.
  - destruct (Nat.ltb_spec r n); [auto|]. apply nth_error_None. lia.
Qed.
Definition ceil_div (n f : nat) : nat := ((n + f - 1) / f)%nat.
Lemma ceil_ge n f : (0 < f)%nat -> (n <= f * ceil_div n f)%nat.
Proof. intro F. unfold ceil_div. pose proof (Nat.div_mod (n + f - 1) f ltac:(lia)). pose proof (Nat.mod_upper_bound (n + f - 1) f ltac:(lia)). lia. Qed.
Lemma ceil_in n f r : (0 < f)%nat -> (r < n)%nat -> (r / f < ceil_div n f)%nat.
Proof.
  intros F R0. unfold ceil_div. apply Nat.div_lt_upper_bound; [lia|].
  pose proof (Nat.div_mod (n + f - 1) f ltac:(lia)). pose proof (Nat.mod_upper_bound (n + f - 1) f ltac:(lia)). lia.
Qed.
Definition at2 {A} (m : list (list A)) (r c : nat) : option A := match nth_error m r with Some row => nth_error row c | None => None end.
Definition shape {A} (rows cols : nat) (m : list (list A)) : Prop := length m = rows /\ Forall (fun r => length r = cols) m.
(** C83. Every factor and every size of the grid: the coarse DEM holds every f-th elevation, and the upsampled shadow
    map has the size of the grid, every pixel with the value of the coarse pixel it lies in. *)
Theorem c83_upsample : forall (A : Type) (f rows cols : nat) (s : list (list A)), (1 <= f)%nat ->
  shape (ceil_div rows f) (ceil_div cols f) s ->
  shape rows cols (upsample f rows cols s) /\
  forall r c, (r < rows)%nat -> (c < cols)%nat -> at2 (upsample f rows cols s) r c = at2 s (r / f) (c / f).
Proof.
  intros A f rows cols s F (SR & SC). unfold upsample. destruct (Nat.ltb_spec 1 f) as [L|L].
  - assert (R1 : (rows <= length (map (repeat_each f) (repeat_each f s)))%nat) by (rewrite map_length, repeat_each_length, SR; apply ceil_ge; lia).
    assert (ROW : forall r, nth_error (map (cut cols) (cut rows (map (repeat_each f) (repeat_each f s)))) r =
       if (r <? rows)%nat then option_map (fun row => cut cols (repeat_each f row)) (nth_error s (r / f)) else None).
    { intro r. rewrite nth_error_map, cut_nth by auto. destruct (r <? rows)%nat; [|reflexivity].
      rewrite nth_error_map, repeat_each_nth by lia. destruct (nth_error s (r / f)); reflexivity. }
    assert (CL : forall row, In row s -> (cols <= length (repeat_each f row))%nat).
    { intros row I. rewrite repeat_each_length. rewrite Forall_forall in SC. rewrite (SC row I). apply ceil_ge. lia. }
    split; [split|].
    + rewrite map_length. unfold cut. destruct (Nat.ltb_spec rows (length (map (repeat_each f) (repeat_each f s)))); [apply firstn_length_le; auto|lia].
    + apply Forall_forall. intros row I. apply In_nth_error in I. destruct I as (r & I). rewrite ROW in I. destruct (r <? rows)%nat; [|discriminate].
      destruct (nth_error s (r / f)) as [x|] eqn:E; [|discriminate]. cbn in I. assert (row = cut cols (repeat_each f x)) as -> by congruence.
      apply nth_error_In in E. specialize (CL x E). unfold cut. destruct (Nat.ltb_spec cols (length (repeat_each f x))); [apply firstn_length_le; auto|lia].
    + intros r c HR HC. unfold at2. rewrite ROW. destruct (Nat.ltb_spec r rows); [|lia]. destruct (nth_error s (r / f)) as [x|] eqn:E; [|reflexivity].
      cbn [option_map]. apply nth_error_In in E. rewrite cut_nth by (apply CL; auto). destruct (Nat.ltb_spec c cols); [|lia]. apply repeat_each_nth. lia.
  - assert (f = 1%nat) by lia. subst f. unfold ceil_div in *. rewrite !Nat.div_1_r in *.
    replace (rows + 1 - 1)%nat with rows in * by lia. replace (cols + 1 - 1)%nat with cols in * by lia. split; [split; auto|]. intros. rewrite !Nat.div_1_r. reflexivity.
Qed.
Print Assumptions c83_upsample.
Lemma every_nth {A} (d : A) f l k : (0 < f)%nat -> nth_error (every d f l) k = if (k <? ceil_div (length l) f)%nat then nth_error l (k * f) else None.
Proof.
  intro F. unfold every. rewrite nth_error_map. fold (ceil_div (length l) f). destruct (Nat.ltb_spec k (ceil_div (length l) f)) as [L|L].
  - assert (B : (k * f < length l)%nat).
    { unfold ceil_div in L. pose proof (Nat.div_mod (length l + f - 1) f ltac:(lia)). pose proof (Nat.mod_upper_bound (length l + f - 1) f ltac:(lia)). nia. }
    rewrite (nth_error_nth' (seq 0 _) 0%nat) by (rewrite seq_length; auto). rewrite seq_nth by auto. cbn [option_map Nat.add].
    symmetry. apply nth_error_nth'. auto.
  - assert (nth_error (seq 0 (ceil_div (length l) f)) k = None) as -> by (apply nth_error_None; rewrite seq_length; auto). reflexivity.
Qed.
Lemma every_length {A} (d : A) f l : length (every d f l) = ceil_div (length l) f.
Proof. unfold every. rewrite map_length, seq_length. reflexivity. Qed.
Theorem c83_downsample : forall (A : Type) (d : A) f rows cols m, (1 <= f)%nat -> shape rows cols m ->
  shape (ceil_div rows f) (ceil_div cols f) (downsample d f m) /\
  forall a b, (a < ceil_div rows f)%nat -> (b < ceil_div cols f)%nat -> at2 (downsample d f m) a b = at2 m (a * f) (b * f).
Proof.
  intros A d f rows cols m F (SR & SC). unfold downsample. destruct (Nat.ltb_spec 1 f) as [L|L].
  - assert (IN : forall row, In row (every [] f m) -> length row = cols).
    { intros row I. apply In_nth_error in I. destruct I as (k & I). rewrite every_nth in I by lia. destruct (k <? _)%nat; [|discriminate].
      apply nth_error_In in I. rewrite Forall_forall in SC. apply SC. auto. }
    split; [split|].
    + rewrite map_length, every_length, SR. reflexivity.
    + apply Forall_forall. intros row I. apply in_map_iff in I. destruct I as (x & <- & I). rewrite every_length. f_equal. apply IN. auto.
    + intros a b HA HB. unfold at2. rewrite nth_error_map, every_nth by lia. rewrite SR. destruct (Nat.ltb_spec a (ceil_div rows f)); [|lia].
      destruct (nth_error m (a * f)) as [row|] eqn:E; [|reflexivity]. cbn [option_map]. rewrite every_nth by lia.
      apply nth_error_In in E. rewrite Forall_forall in SC. rewrite (SC row E). destruct (Nat.ltb_spec b (ceil_div cols f)); [reflexivity|lia].
  - assert (f = 1%nat) by lia. subst f. unfold ceil_div in *. rewrite !Nat.div_1_r in *.
    replace (rows + 1 - 1)%nat with rows in * by lia. replace (cols + 1 - 1)%nat with cols in * by lia. split; [split; auto|]. intros. rewrite !Nat.mul_1_r. reflexivity.
Qed.
Print Assumptions c83_downsample.
(** The coarse pixel of every pixel exists. *)
Theorem c83_total : forall (A : Type) f rows cols (s : list (list A)) r c, (1 <= f)%nat ->
  shape (ceil_div rows f) (ceil_div cols f) s -> (r < rows)%nat -> (c < cols)%nat -> exists v, at2 s (r / f) (c / f) = Some v.
Proof.
  intros A f rows cols s r c F (SR & SC) HR HC. unfold at2.
  destruct (nth_error s (r / f)) as [row|] eqn:E; [|apply nth_error_None in E; pose proof (ceil_in rows f r F HR); lia].
  destruct (nth_error row (c / f)) as [v|] eqn:E'; [eauto|]. apply nth_error_None in E'. apply nth_error_In in E.
  rewrite Forall_forall in SC. rewrite (SC row E) in E'. pose proof (ceil_in cols f c F HC). lia.
Qed.
Print Assumptions c83_total.
(** The model grid as a part of the extended grid *)
Lemma firstn_nth {A} n (l : list A) k : nth_error (firstn n l) k = if (k <? n)%nat then nth_error l k else None.
Proof. revert n k. induction l as [|x l IH]; intros [|n] [|k]; try reflexivity; [cbn [firstn nth_error]; match goal with |- context [if ?b then _ else _] => destruct b end; reflexivity|]. cbn [firstn nth_error]. rewrite IH. reflexivity. Qed.
Lemma skipn_nth {A} n (l : list A) k : nth_error (skipn n l) k = nth_error l (n + k).
Proof. revert n. induction l as [|x l IH]; intros [|n]; cbn; try reflexivity; [destruct k; reflexivity|apply IH]. Qed.
Theorem c83_crop : forall (A : Type) row0 rows col0 cols ext_rows ext_cols (m : list (list A)), shape ext_rows ext_cols m ->
  (row0 + rows <= ext_rows)%nat -> (col0 + cols <= ext_cols)%nat -> shape rows cols (crop row0 rows col0 cols m) /\
  forall r c, (r < rows)%nat -> (c < cols)%nat -> at2 (crop row0 rows col0 cols m) r c = at2 m (row0 + r) (col0 + c).
Proof.
  intros A row0 rows col0 cols er ec m (SR & SC) HR HC. unfold crop. split; [split|].
  - rewrite map_length, firstn_length_le; [auto|]. rewrite skipn_length. lia.
  - apply Forall_forall. intros row I. apply in_map_iff in I. destruct I as (x & <- & I).
    assert (IX : In x m).
    { apply In_nth_error in I. destruct I as (k & I). rewrite firstn_nth in I. destruct (k <? rows)%nat; [|discriminate]. rewrite skipn_nth in I. eapply nth_error_In; eauto. }
    rewrite Forall_forall in SC. rewrite firstn_length_le; [auto|]. rewrite skipn_length, (SC x IX). lia.
  - intros r c A1 A2. unfold at2. rewrite nth_error_map, firstn_nth, skipn_nth. destruct (Nat.ltb_spec r rows); [|lia].
    destruct (nth_error m (row0 + r)) as [row|]; [|reflexivity]. cbn [option_map]. rewrite firstn_nth, skipn_nth. destruct (Nat.ltb_spec c cols); [reflexivity|lia].
Qed.
Print Assumptions c83_crop.
(** A grid of 3 x 5 pixels at a third of the resolution *)
Example c83_example : ceil_div 3 3 = 1%nat /\ ceil_div 5 3 = 2%nat /\ shape 1 2 [[true; false]] /\
  upsample 3 3 5 [[true; false]] = [[true; true; true; false; false]; [true; true; true; false; false]; [true; true; true; false; false]] /\
  downsample 0%nat 3 [[1; 2; 3; 4; 5]; [6; 7; 8; 9; 10]; [0; 0; 0; 0; 0]]%nat = [[1; 4]]%nat.
Proof. repeat split. repeat constructor. Qed.
