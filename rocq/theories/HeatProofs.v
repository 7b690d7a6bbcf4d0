(** Proofs about the tridiagonal solver and the heat conduction step. *)
From Verif Require Import Common HeatModel HeatSpec.

Lemma upd_same {A} (f : nat -> A) k v : upd f k v k = v.
Proof. unfold upd; rewrite Nat.eqb_refl; reflexivity. Qed.
Lemma upd_other {A} (f : nat -> A) k v j : j <> k -> upd f k v j = f j.
Proof. unfold upd; intro H; apply Nat.eqb_neq in H; rewrite H; reflexivity. Qed.

(** The elimination loop as recurrences on the final arrays. *)
Definition eliminated (a b c d b' d' : arr) (m : nat) : Prop :=
  b' 0%nat = b 0%nat /\ d' 0%nat = d 0%nat /\
  (forall k, (k < m)%nat ->
     b' (S k) = b (S k) - a (S k) / b' k * c k /\ d' (S k) = d (S k) - a (S k) / b' k * d' k) /\
  (forall k, (m < k)%nat -> b' k = b k /\ d' k = d k).

Lemma fwd_spec a b c d m : eliminated a b c d (fst (fwd a c m b d)) (snd (fwd a c m b d)) m.
Proof.
  induction m as [|m IH]; cbn [fwd].
  - repeat split; auto; intros; lia.
  - destruct (fwd a c m b d) as [b1 d1]; cbn [fst snd] in *.
    destruct IH as (H0 & H1 & H2 & H3).
    replace (S m - 1)%nat with m by lia.
    destruct (H3 (S m) ltac:(lia)) as [E1 E2].
    repeat split.
    + rewrite upd_other by lia; auto.
    + rewrite upd_other by lia; auto.
    + destruct (Nat.eq_dec k m) as [->|].
      * rewrite upd_same, upd_other by lia. rewrite E1. reflexivity.
      * rewrite !upd_other by lia. apply H2; lia.
    + destruct (Nat.eq_dec k m) as [->|].
      * rewrite upd_same, !upd_other by lia. rewrite E2. reflexivity.
      * rewrite !upd_other by lia. apply H2; lia.
    + rewrite upd_other by lia. apply H3; lia.
    + rewrite upd_other by lia. apply H3; lia.
Qed.

Lemma bwd_spec c d m x :
  (forall k, (m <= k)%nat -> bwd c d m x k = x k) /\
  (forall k, (k < m)%nat -> bwd c d m x k = (d k - c k * bwd c d m x (S k)) / x k).
Proof.
  revert x; induction m as [|m IH]; intro x; cbn [bwd].
  - split; auto; intros; lia.
  - destruct (IH (upd x m ((d m - c m * x (S m)) / x m))) as [G1 G2]. split.
    + intros k Hk. rewrite G1 by lia. rewrite upd_other by lia; auto.
    + intros k Hk. destruct (Nat.eq_dec k m) as [->|].
      * rewrite !G1 by lia. rewrite upd_same, upd_other by lia. reflexivity.
      * rewrite G2 by lia. rewrite upd_other by lia. reflexivity.
Qed.


Lemma div_eq_iff x y z : y <> 0 -> x = z / y -> y * x = z.
Proof. intros H ->; field; auto. Qed.

Lemma solve_exact n a b c d : (1 <= n)%nat ->
  (forall k, (k < n)%nat -> fst (fwd a c (n - 1) b d) k <> 0) ->
  forall k, (k < n)%nat -> row n a b c (solve_tridiag n a b c d) k = d k.
Proof.
  intros Hn Hp k Hk. unfold solve_tridiag.
  pose proof (fwd_spec a b c d (n - 1)) as F.
  destruct (fwd a c (n - 1) b d) as [b1 d1]; cbn [fst snd] in *.
  set (m := (n - 1)%nat) in *.
  set (x0 := upd b1 m (d1 m / b1 m)).
  destruct (bwd_spec c d1 m x0) as [G1 G2].
  set (x := bwd c d1 m x0) in *.
  assert (L : b1 m * x m = d1 m).
  { apply div_eq_iff. apply Hp; lia. rewrite G1 by lia. unfold x0; rewrite upd_same; auto. }
  assert (M : forall j, (j < m)%nat -> b1 j * x j + c j * x (S j) = d1 j).
  { intros j Hj. assert (E : b1 j * x j = d1 j - c j * x (S j)).
    { apply div_eq_iff. apply Hp; lia. rewrite G2 by lia. unfold x0; rewrite upd_other by lia; auto. }
    lra. }
  destruct F as (F0 & F1 & F2 & _).
  unfold row; fold m.
  assert (R' : b1 k * x k + (if Nat.eqb k m then 0 else c k * x (S k)) = d1 k).
  { destruct (Nat.eqb_spec k m) as [->|]. lra. apply M; lia. }
  destruct k as [|k].
  - cbn [Nat.eqb] in *. rewrite F0, F1 in R'. lra.
  - replace (Nat.eqb (S k) 0) with false by reflexivity.
    replace (S k - 1)%nat with k by lia.
    destruct (F2 k ltac:(lia)) as [E1 E2].
    pose proof (M k ltac:(lia)) as MM. pose proof (Hp k ltac:(lia)) as NZ.
    assert (Q : a (S k) / b1 k * (b1 k * x k + c k * x (S k)) = a (S k) / b1 k * d1 k)
      by (rewrite MM; auto).
    assert (Q2 : a (S k) / b1 k * b1 k = a (S k)) by (field; auto).
    rewrite E1, E2 in R'.
    set (w := a (S k) / b1 k) in *.
    rewrite <- Q2. lra.
Qed.


Lemma pivots n a b c d : (1 <= n)%nat -> dominant n a b c ->
  forall k, (k < n)%nat ->
    (if Nat.eqb k (n - 1) then 0 else Rabs (c k)) < Rabs (fst (fwd a c (n - 1) b d) k).
Proof.
  intros Hn D. pose proof (fwd_spec a b c d (n - 1)) as (F0 & _ & F2 & _).
  set (b1 := fst (fwd a c (n - 1) b d)) in *. clearbody b1.
  induction k as [|k IH]; intros Hk.
  - specialize (D 0%nat Hk). rewrite Nat.eqb_refl in D. rewrite F0. lra.
  - specialize (IH ltac:(lia)). specialize (D (S k) Hk).
    replace (Nat.eqb (S k) 0) with false in D by reflexivity.
    destruct (Nat.eqb_spec k (n - 1)); [lia|].
    destruct (F2 k ltac:(lia)) as [E _]. rewrite E.
    assert (Hb : 0 < Rabs (b1 k)) by (pose proof (Rabs_pos (c k)); lra).
    assert (Hq : Rabs (a (S k) / b1 k * c k) <= Rabs (a (S k))).
    { unfold Rdiv. rewrite Rabs_mult, Rabs_mult, Rabs_inv.
      pose proof (Rabs_pos (a (S k))). pose proof (Rabs_pos (c k)).
      replace (Rabs (a (S k)) * / Rabs (b1 k) * Rabs (c k))
        with (Rabs (a (S k)) * (Rabs (c k) * / Rabs (b1 k))) by ring.
      assert (Rabs (c k) * / Rabs (b1 k) <= 1).
      { apply Rmult_le_reg_r with (Rabs (b1 k)); auto. rewrite Rmult_assoc, Rinv_l by lra. lra. }
      nra. }
    pose proof (Rabs_triang_inv (b (S k)) (a (S k) / b1 k * c k)).
    lra.
Qed.

Lemma dominant_pivots n a b c d : (1 <= n)%nat -> dominant n a b c ->
  forall k, (k < n)%nat -> fst (fwd a c (n - 1) b d) k <> 0.
Proof.
  intros Hn D k Hk E. pose proof (pivots n a b c d Hn D k Hk) as P. rewrite E, Rabs_R0 in P.
  destruct (Nat.eqb k (n - 1)). lra. pose proof (Rabs_pos (c k)); lra.
Qed.

(** A function on an initial segment attains its maximum. *)
Lemma argmax (f : arr) n : (1 <= n)%nat ->
  exists m, (m < n)%nat /\ forall k, (k < n)%nat -> f k <= f m.
Proof.
  induction n as [|n IH]; [lia|]. intros _.
  destruct (Nat.eq_dec n 0) as [->|].
  - exists 0%nat; split; [lia|]. intros k Hk; replace k with 0%nat by lia; lra.
  - destruct IH as (m & Hm & HM); [lia|].
    destruct (Rle_lt_dec (f m) (f n)).
    + exists n; split; [lia|]. intros k Hk. destruct (Nat.eq_dec k n) as [->|]; [lra|].
      specialize (HM k ltac:(lia)); lra.
    + exists m; split; [lia|]. intros k Hk. destruct (Nat.eq_dec k n) as [->|]; [lra|].
      apply HM; lia.
Qed.

Lemma row_minus n a b c x y k :
  row n a b c (fun j => x j - y j) k = row n a b c x k - row n a b c y k.
Proof. unfold row. destruct (Nat.eqb k 0), (Nat.eqb k (n - 1)); ring. Qed.

Lemma dominant_kernel n a b c x : (1 <= n)%nat -> dominant n a b c ->
  (forall k, (k < n)%nat -> row n a b c x k = 0) -> forall k, (k < n)%nat -> x k = 0.
Proof.
  intros Hn D H k Hk.
  destruct (argmax (fun j => Rabs (x j)) n Hn) as (m & Hm & HM). cbv beta in HM.
  assert (Z : Rabs (x m) = 0).
  { destruct (Req_dec (Rabs (x m)) 0) as [|NZ]; auto. exfalso.
    specialize (H m Hm). specialize (D m Hm). unfold row in H.
    pose proof (Rabs_pos (x m)). assert (0 < Rabs (x m)) by lra.
    assert (A : Rabs (b m) * Rabs (x m) <=
      ((if Nat.eqb m 0 then 0 else Rabs (a m)) + (if Nat.eqb m (n - 1) then 0 else Rabs (c m)))
      * Rabs (x m)).
    { rewrite <- Rabs_mult.
      replace (b m * x m) with (- (if Nat.eqb m 0 then 0 else a m * x (m - 1)%nat)
         - (if Nat.eqb m (n - 1) then 0 else c m * x (S m))) by lra.
      assert (T1 : Rabs (if Nat.eqb m 0 then 0 else a m * x (m - 1)%nat)
         <= (if Nat.eqb m 0 then 0 else Rabs (a m)) * Rabs (x m)).
      { destruct (Nat.eqb_spec m 0). rewrite Rabs_R0; lra. rewrite Rabs_mult.
        apply Rmult_le_compat_l. apply Rabs_pos. apply HM; lia. }
      assert (T2 : Rabs (if Nat.eqb m (n - 1) then 0 else c m * x (S m))
         <= (if Nat.eqb m (n - 1) then 0 else Rabs (c m)) * Rabs (x m)).
      { destruct (Nat.eqb_spec m (n - 1)). rewrite Rabs_R0; lra. rewrite Rabs_mult.
        apply Rmult_le_compat_l. apply Rabs_pos. apply HM; lia. }
      set (u := if Nat.eqb m 0 then 0 else a m * x (m - 1)%nat) in *.
      set (v := if Nat.eqb m (n - 1) then 0 else c m * x (S m)) in *.
      pose proof (Rabs_triang (- u) (- v)) as T. rewrite !Rabs_Ropp in T.
      replace (- u - v) with (- u + - v) by ring. lra. }
    nra. }
  specialize (HM k Hk). rewrite Z in HM. pose proof (Rabs_pos (x k)).
  destruct (Req_dec (x k) 0) as [|NZ]; auto. apply Rabs_no_R0 in NZ. lra.
Qed.

Lemma solve_unique n a b c d y : (1 <= n)%nat -> dominant n a b c ->
  (forall k, (k < n)%nat -> row n a b c y k = d k) ->
  forall k, (k < n)%nat -> y k = solve_tridiag n a b c d k.
Proof.
  intros Hn D Hy k Hk.
  assert (E : (fun j => y j - solve_tridiag n a b c d j) k = 0).
  { apply (dominant_kernel n a b c (fun j => y j - solve_tridiag n a b c d j)); auto. intros j Hj. rewrite row_minus.
    rewrite Hy, solve_exact; auto. lra. apply dominant_pivots; auto. }
  cbv beta in E. lra.
Qed.

(** ** Columns of the array version *)
Lemma fwd2_col a c m b d p k :
  fst (fwd2 a c m b d) k p = fst (fwd (fun j => a j p) (fun j => c j p) m (fun j => b j p) (fun j => d j p)) k /\
  snd (fwd2 a c m b d) k p = snd (fwd (fun j => a j p) (fun j => c j p) m (fun j => b j p) (fun j => d j p)) k.
Proof.
  revert k; induction m as [|m IH]; intro k; cbn [fwd fwd2]. split; reflexivity.
  destruct (fwd2 a c m b d) as [b2 d2].
  destruct (fwd (fun j => a j p) (fun j => c j p) m (fun j => b j p) (fun j => d j p)) as [b1 d1].
  cbn [fst snd] in *. unfold upd.
  destruct (IH k) as [E1 E2]. destruct (IH (S m)) as [E3 E4]. destruct (IH (S m - 1)%nat) as [E5 E6].
  destruct (Nat.eqb k (S m)); rewrite ?E1, ?E2, ?E3, ?E4, ?E5, ?E6; split; reflexivity.
Qed.
Lemma bwd2_col c d m x p k (c1 d1 x1 : arr) :
  (forall j, c j p = c1 j) -> (forall j, d j p = d1 j) -> (forall j, x j p = x1 j) ->
  bwd2 c d m x k p = bwd c1 d1 m x1 k.
Proof.
  intros Hc Hd. revert x x1; induction m as [|m IH]; intros x x1 Hx; cbn [bwd bwd2]. apply Hx.
  apply IH. intro j. unfold upd. destruct (Nat.eqb j m); [|apply Hx].
  rewrite Hc, Hd, !Hx. reflexivity.
Qed.
Lemma solve_array_col n a b c d p k :
  solve_tridiag_array n a b c d k p =
  solve_tridiag n (fun j => a j p) (fun j => b j p) (fun j => c j p) (fun j => d j p) k.
Proof.
  unfold solve_tridiag, solve_tridiag_array.
  pose proof (fwd2_col a c (n - 1) b d p) as F.
  destruct (fwd2 a c (n - 1) b d) as [b2 d2].
  destruct (fwd (fun j => a j p) (fun j => c j p) (n - 1) (fun j => b j p) (fun j => d j p)) as [b1 d1].
  cbn [fst snd] in F. apply bwd2_col; auto.
  - intro j; apply F.
  - intro j. unfold upd. destruct (Nat.eqb j (n - 1)). 2: apply F.
    destruct (F (n - 1)%nat) as [-> ->]. reflexivity.
Qed.

(** The solver only reads the first n entries. *)
Lemma temp_change_array_col n dx dt T lam T_b dx_b lam_b flux hcap p k :
  temp_change_array n dx dt T lam T_b dx_b lam_b flux hcap k p =
  temp_change n (fun j => dx j p) dt (fun j => T j p) (fun j => lam j p) (T_b p) (dx_b p) (lam_b p)
    (flux p) (fun j => hcap j p) k.
Proof.
  unfold temp_change_array, temp_change.
  destruct (Nat.eqb n 1). reflexivity.
  rewrite solve_array_col. reflexivity.
Qed.

(** ** Heat conduction *)
Lemma cond_pos n dx lam dx_b lam_b k :
  (forall j, (j < n)%nat -> 0 < dx j /\ 0 < lam j) -> 0 < dx_b -> 0 < lam_b -> (k < n)%nat ->
  0 < cond_between n dx lam dx_b lam_b k.
Proof.
  intros H Hb Hl Hk. unfold cond_between.
  assert (P : forall u v, 0 < u -> 0 < v -> 0 < u / v) by (intros; apply Rdiv_lt_0_compat; auto).
  destruct (Nat.eqb_spec k (n - 1)).
  - apply P; [lra|]. destruct (H k Hk). pose proof (P _ _ H0 H1). pose proof (P _ _ Hb Hl). lra.
  - apply P; [lra|]. destruct (H k Hk). destruct (H (S k) ltac:(lia)).
    pose proof (P _ _ H0 H1). pose proof (P _ _ H2 H3). lra.
Qed.


Lemma hc_dominant n dt K hcap : (2 <= n)%nat -> 0 < dt ->
  (forall k, (k < n)%nat -> 0 < K k) -> (forall k, (k < n)%nat -> 0 < hcap k) ->
  dominant n (hc_a n dt K) (hc_b n dt K hcap) (hc_c n dt K).
Proof.
  intros Hn Hdt HK Hh k Hk. unfold hc_a, hc_b, hc_c.
  pose proof (HK k Hk). pose proof (Hh k Hk). pose proof (Rmult_lt_0_compat _ _ H Hdt).
  destruct (Nat.eqb_spec k 0) as [->|].
  - destruct (Nat.eqb_spec 0 (n - 1)); [lia|].
    rewrite (Rabs_left (- K 0%nat * dt)), (Rabs_right (hcap 0%nat + K 0%nat * dt)) by lra. lra.
  - pose proof (HK (k - 1)%nat ltac:(lia)). pose proof (Rmult_lt_0_compat _ _ H2 Hdt).
    rewrite (Rabs_right (hcap k + (K (k - 1)%nat + K k) * dt)) by lra.
    rewrite (Rabs_left (- K (k - 1)%nat * dt)) by lra.
    destruct (Nat.eqb k (n - 1)). lra.
    rewrite (Rabs_left (- K k * dt)) by lra. lra.
Qed.

Lemma row_heat n dt T K T_b flux hcap x k : (2 <= n)%nat -> (k < n)%nat ->
  row n (hc_a n dt K) (hc_b n dt K hcap) (hc_c n dt K) x k - hc_d n dt T K T_b flux k =
  hcap k * x k
  - dt * ((if Nat.eqb k 0 then flux else down n K (fun j => T j + x j) T_b (k - 1)%nat)
          - down n K (fun j => T j + x j) T_b k).
Proof.
  intros Hn Hk. unfold row, hc_a, hc_b, hc_c, hc_d, down.
  destruct (Nat.eqb_spec k 0) as [->|].
  - destruct (Nat.eqb_spec 0 (n - 1)); [lia|]. ring.
  - destruct (Nat.eqb_spec (k - 1) (n - 1)); [lia|].
    replace (S (k - 1)) with k by lia.
    destruct (Nat.eqb_spec k (n - 1)) as [->|]; ring.
Qed.

Section Heat.
Variables (n : nat) (dx : arr) (dt : R) (T lam : arr) (T_b dx_b lam_b flux : R) (hcap : arr).
Hypothesis Hn : (1 <= n)%nat.
Hypothesis Hdt : 0 < dt.
Hypothesis Hdx : forall k, (k < n)%nat -> 0 < dx k /\ 0 < lam k.
Hypothesis Hh : forall k, (k < n)%nat -> 0 < hcap k.
Hypothesis Hb : 0 < dx_b.
Hypothesis Hlb : 0 < lam_b.
Let K := cond_between n dx lam dx_b lam_b.
Let x := temp_change n dx dt T lam T_b dx_b lam_b flux hcap.

Lemma heat_rows k : (k < n)%nat ->
  hcap k * x k =
  dt * ((if Nat.eqb k 0 then flux else down n K (fun j => T j + x j) T_b (k - 1)%nat)
        - down n K (fun j => T j + x j) T_b k).
Proof.
  intro Hk. unfold x, temp_change. fold K.
  assert (HK : forall j, (j < n)%nat -> 0 < K j) by (intros; apply cond_pos; auto).
  destruct (Nat.eqb_spec n 1) as [E|E].
  - replace k with 0%nat by lia. cbn [Nat.eqb]. unfold down.
    replace (Nat.eqb 0 (n - 1)) with true by (symmetry; apply Nat.eqb_eq; lia).
    pose proof (HK 0%nat ltac:(lia)). pose proof (Hh 0%nat ltac:(lia)).
    field. nra.
  - pose proof (row_heat n dt T K T_b flux hcap (solve_tridiag n (hc_a n dt K) (hc_b n dt K hcap)
      (hc_c n dt K) (hc_d n dt T K T_b flux)) k ltac:(lia) Hk) as R.
    rewrite solve_exact in R; auto. lra.
    apply dominant_pivots; auto. apply hc_dominant; auto; lia.
Qed.

Lemma heat_unique y :
  (forall k, (k < n)%nat -> hcap k * y k =
     dt * ((if Nat.eqb k 0 then flux else down n K (fun j => T j + y j) T_b (k - 1)%nat)
           - down n K (fun j => T j + y j) T_b k)) ->
  forall k, (k < n)%nat -> y k = x k.
Proof.
  intros Hy k Hk.
  assert (HK : forall j, (j < n)%nat -> 0 < K j) by (intros; apply cond_pos; auto).
  destruct (Nat.eqb_spec n 1) as [E|E].
  - pose proof (Hy k Hk) as A. pose proof (heat_rows k Hk) as B.
    replace k with 0%nat in * by lia. cbn [Nat.eqb] in *. unfold down in *.
    replace (Nat.eqb 0 (n - 1)) with true in * by (symmetry; apply Nat.eqb_eq; lia).
    pose proof (HK 0%nat ltac:(lia)). pose proof (Hh 0%nat ltac:(lia)).
    assert (0 < K 0%nat * dt) by nra.
    assert ((hcap 0%nat + K 0%nat * dt) * (y 0%nat - x 0%nat) = 0) by lra.
    apply Rmult_integral in H2; lra.
  - unfold x, temp_change. fold K. apply Nat.eqb_neq in E. rewrite E. apply Nat.eqb_neq in E.
    apply solve_unique; auto. apply hc_dominant; auto; lia.
    intros j Hj. pose proof (row_heat n dt T K T_b flux hcap y j ltac:(lia) Hj).
    rewrite (Hy j Hj) in H. lra.
Qed.

(** Sums over an initial segment. *)
Lemma heat_energy :
  sumR (map (fun k => hcap k * x k) (seq 0 n))
  = dt * (flux - K (n - 1)%nat * (T (n - 1)%nat + x (n - 1)%nat - T_b)).
Proof.
  assert (A : forall m, (1 <= m <= n)%nat ->
    sumR (map (fun k => hcap k * x k) (seq 0 m))
    = dt * (flux - down n K (fun j => T j + x j) T_b (m - 1)%nat)).
  { induction m as [|m IH]; [lia|]. intros Hm. rewrite seq_S, map_app, sumR_app. cbn [map plus].
    rewrite sumR_cons, sumR_nil, heat_rows by lia.
    destruct (Nat.eq_dec m 0) as [->|].
    - cbn [seq map]. rewrite sumR_nil. cbn [Nat.eqb]. replace (1 - 1)%nat with 0%nat by lia. lra.
    - rewrite IH by lia. replace (Nat.eqb m 0) with false by (symmetry; apply Nat.eqb_neq; lia).
      replace (S m - 1)%nat with m by lia. lra. }
  rewrite A by lia. unfold down. rewrite Nat.eqb_refl. reflexivity.
Qed.

(** Maximum principle. *)
Lemma heat_upper M : flux <= 0 -> T_b <= M -> (forall k, (k < n)%nat -> T k <= M) ->
  forall k, (k < n)%nat -> T k + x k <= M.
Proof.
  intros Hf HTb HT k Hk.
  assert (HK : forall j, (j < n)%nat -> 0 < K j) by (intros; apply cond_pos; auto).
  destruct (argmax (fun j => T j + x j) n Hn) as (m & Hm & HM). cbv beta in HM.
  enough (T m + x m <= M) by (specialize (HM k Hk); lra).
  destruct (Rle_lt_dec (T m + x m) M) as [|G]; auto. exfalso.
  pose proof (heat_rows m Hm) as E. pose proof (HT m Hm). pose proof (Hh m Hm). pose proof (HK m Hm).
  assert (0 < hcap m * x m) by (apply Rmult_lt_0_compat; lra).
  assert (D1 : 0 <= down n K (fun j => T j + x j) T_b m).
  { unfold down. apply Rmult_le_pos; [lra|]. destruct (Nat.eqb_spec m (n - 1)). lra.
    specialize (HM (S m) ltac:(lia)). lra. }
  assert (D2 : (if Nat.eqb m 0 then flux else down n K (fun j => T j + x j) T_b (m - 1)%nat) <= 0).
  { destruct (Nat.eqb_spec m 0); auto. unfold down.
    destruct (Nat.eqb_spec (m - 1) (n - 1)); [lia|]. replace (S (m - 1)) with m by lia.
    specialize (HM (m - 1)%nat ltac:(lia)). pose proof (HK (m - 1)%nat ltac:(lia)). nra. }
  nra.
Qed.
Lemma heat_lower M : 0 <= flux -> M <= T_b -> (forall k, (k < n)%nat -> M <= T k) ->
  forall k, (k < n)%nat -> M <= T k + x k.
Proof.
  intros Hf HTb HT k Hk.
  assert (HK : forall j, (j < n)%nat -> 0 < K j) by (intros; apply cond_pos; auto).
  destruct (argmax (fun j => - (T j + x j)) n Hn) as (m & Hm & HM). cbv beta in HM.
  enough (M <= T m + x m) by (specialize (HM k Hk); lra).
  destruct (Rle_lt_dec M (T m + x m)) as [|G]; auto. exfalso.
  pose proof (heat_rows m Hm) as E. pose proof (HT m Hm). pose proof (Hh m Hm). pose proof (HK m Hm).
  assert (0 < hcap m * - x m) by (apply Rmult_lt_0_compat; lra).
  assert (D1 : down n K (fun j => T j + x j) T_b m <= 0).
  { unfold down. destruct (Nat.eqb_spec m (n - 1)). nra.
    specialize (HM (S m) ltac:(lia)). nra. }
  assert (D2 : 0 <= (if Nat.eqb m 0 then flux else down n K (fun j => T j + x j) T_b (m - 1)%nat)).
  { destruct (Nat.eqb_spec m 0); auto. unfold down.
    destruct (Nat.eqb_spec (m - 1) (n - 1)); [lia|]. replace (S (m - 1)) with m by lia.
    specialize (HM (m - 1)%nat ltac:(lia)). pose proof (HK (m - 1)%nat ltac:(lia)). nra. }
  nra.
Qed.
End Heat.
