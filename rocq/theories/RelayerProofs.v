(** Proofs about _update_layers: thicknesses of the new layers and redistribution. *)
From Verif Require Import Common Constants SnowModel MultilayerModel MultilayerSpec MultilayerProofs.

Lemma thin_pos : 0 < thin_limit. Proof. unfold thin_limit; lra. Qed.

(** * New thicknesses *)
Lemma new_thicknesses_length : forall mt d, length (new_thicknesses mt d) = length mt.
Proof.
  induction mt as [|m mt IH]; intros d; cbn; [reflexivity|].
  destruct (Rle_dec (d - m) m); cbn; [rewrite repeat_length; reflexivity|].
  destruct mt as [|m' mt]; [reflexivity|]. cbn [length]. f_equal. apply IH.
Qed.

Lemma new_thicknesses_sum : forall mt d, mt <> [] -> sumR (new_thicknesses mt d) = d.
Proof.
  induction mt as [|m mt IH]; intros d H; [congruence|]. cbn.
  destruct (Rle_dec (d - m) m); cbn; [rewrite sumR_cons, sumR_repeat0; lra|].
  destruct mt as [|m' mt]; [sumr|].
  rewrite sumR_cons, IH by discriminate. lra.
Qed.

(** Shape: [n] full layers with the minimum thickness followed by a remainder and zeros. *)
Definition prefix_sum (n : nat) (mt : list R) : R := sumR (firstn n mt).

Lemma new_thicknesses_shape : forall mt d, mt <> [] ->
  exists n, (n < length mt)%nat /\
    new_thicknesses mt d = firstn n mt ++ (d - prefix_sum n mt) :: repeat 0 (length mt - S n) /\
    (forall k, (k < n)%nat -> nth k mt 0 < d - prefix_sum (S k) mt) /\
    ((S n < length mt)%nat -> d - prefix_sum (S n) mt <= nth n mt 0).
Proof.
  induction mt as [|m mt IH]; intros d H; [congruence|]. cbn [new_thicknesses].
  destruct (Rle_dec (d - m) m) as [Hle|Hle].
  - exists 0%nat. cbn. repeat split; try lia.
    + unfold prefix_sum; cbn. f_equal; [sumr|]. f_equal; lia.
    + intros _. unfold prefix_sum; cbn. sumr.
  - destruct mt as [|m' mt].
    + exists 0%nat. cbn. repeat split; try lia. unfold prefix_sum; cbn. f_equal. sumr.
    + destruct (IH (d - m) ltac:(discriminate)) as (n & Hn & E & Hk & Hl).
      exists (S n). rewrite E. split; [cbn in *; lia|]. split; [|split].
      * cbn [firstn app length]. f_equal. f_equal. f_equal.
        unfold prefix_sum. cbn [firstn]. rewrite sumR_cons. lra.
      * intros [|k] Hk'; [unfold prefix_sum; cbn; sumr|].
        specialize (Hk k ltac:(lia)). unfold prefix_sum in *. cbn [firstn nth] in *.
        rewrite sumR_cons. lra.
      * intros Hl'. specialize (Hl ltac:(cbn in *; lia)). unfold prefix_sum in *.
        cbn [firstn nth] in *. rewrite sumR_cons. lra.
Qed.

Lemma drop_thin_id ths : Forall (fun t => t = 0 \/ thin_limit <= t) ths -> drop_thin ths = ths.
Proof.
  pose proof thin_pos; unfold drop_thin; induction 1 as [|t ths H0 _ IH]; cbn [map length repeat]; [reflexivity|]. rewrite IH. f_equal.
  destruct (Rlt_dec t thin_limit); lra.
Qed.
Lemma drop_thin_all ths : Forall (fun t => t < thin_limit) ths -> drop_thin ths = repeat 0 (length ths).
Proof.
  pose proof thin_pos; unfold drop_thin; induction 1 as [|t ths H0 _ IH]; cbn [map length repeat]; [reflexivity|]. rewrite IH. f_equal.
  destruct (Rlt_dec t thin_limit); lra.
Qed.
Lemma count_pos_all ths : Forall (fun t => 0 < t) ths -> count_pos ths = length ths.
Proof.
  induction 1 as [|t ths H _ IH]; cbn; [reflexivity|]. destruct (Rlt_dec 0 t); [|lra].
  rewrite IH. reflexivity.
Qed.
Lemma count_pos_zeros n : count_pos (repeat 0 n) = 0%nat.
Proof. induction n; cbn; [reflexivity|]. destruct (Rlt_dec 0 0); [lra|assumption]. Qed.
Lemma count_pos_app a b : count_pos (a ++ b) = (count_pos a + count_pos b)%nat.
Proof. induction a as [|t a IH]; cbn; [reflexivity|]. destruct (Rlt_dec 0 t); rewrite IH; lia. Qed.

Definition min_thickness_ok (mt : list R) : Prop := mt <> [] /\ Forall (fun m => thin_limit <= m) mt.

Lemma Forall_nth_R (P : R -> Prop) l k : Forall P l -> (k < length l)%nat -> P (nth k l 0).
Proof. intros H Hk. rewrite Forall_forall in H. apply H, nth_In, Hk. Qed.

Lemma new_ths_shape mt d : min_thickness_ok mt -> thin_limit <= d ->
  let ths := drop_thin (new_thicknesses mt d) in
  let n := count_pos ths in
  (1 <= n <= length mt)%nat /\ length ths = length mt /\ sumR ths = d /\
  ths = firstn (n - 1) mt ++ (d - prefix_sum (n - 1) mt) :: repeat 0 (length mt - n) /\
  (forall k, (k < n)%nat -> thin_limit <= nth k ths 0) /\
  (forall k, (n <= k)%nat -> nth k ths 0 = 0) /\
  (forall k, (S k < n)%nat -> nth k mt 0 < d - prefix_sum (S k) mt) /\
  ((n < length mt)%nat -> d - prefix_sum n mt <= nth (n - 1) mt 0).
Proof.
  intros [Hne Hmt] Hd. pose proof thin_pos as Htp. cbv zeta.
  destruct (new_thicknesses_shape mt d Hne) as (n & Hn & E & Hk & Hl).
  assert (Hrest : thin_limit <= d - prefix_sum n mt).
  { destruct n as [|n].
    - unfold prefix_sum; cbn. rewrite sumR_nil. lra.
    - specialize (Hk n ltac:(lia)). pose proof (Forall_nth_R _ mt n Hmt ltac:(lia)). cbv beta in *. lra. }
  assert (Edt : drop_thin (new_thicknesses mt d) = new_thicknesses mt d).
  { apply drop_thin_id. rewrite E. apply Forall_app. split.
    - apply Forall_firstn. eapply Forall_impl; [|exact Hmt]. cbv beta. intros; lra.
    - constructor; [lra|]. apply Forall_forall. intros x Hx. apply repeat_spec in Hx. lra. }
  rewrite Edt.
  assert (Ec : count_pos (new_thicknesses mt d) = S n).
  { rewrite E, count_pos_app. cbn [count_pos].
    rewrite count_pos_zeros, count_pos_all.
    - rewrite firstn_length. destruct (Rlt_dec 0 (d - prefix_sum n mt)); [lia|lra].
    - apply Forall_firstn. eapply Forall_impl; [|exact Hmt]. cbv beta. intros; lra. }
  rewrite Ec. replace (S n - 1)%nat with n by lia.
  assert (Hfl : length (firstn n mt) = n) by (rewrite firstn_length; lia).
  repeat split; try lia.
  - apply new_thicknesses_length.
  - apply new_thicknesses_sum, Hne.
  - exact E.
  - intros k Hk'. rewrite E. destruct (Nat.eq_dec k n) as [->|Hne'].
    + rewrite app_nth2 by lia. rewrite Hfl, Nat.sub_diag. cbn. exact Hrest.
    + rewrite app_nth1 by lia.
      apply Forall_nth_R with (P := fun m => thin_limit <= m); [|lia].
      apply Forall_firstn. exact Hmt.
  - intros k Hk'. rewrite E. rewrite app_nth2 by lia. rewrite Hfl.
    replace (k - n)%nat with (S (k - n - 1)) by lia. cbn.
    destruct (Nat.lt_ge_cases (k - n - 1) (length mt - S n)) as [G|G].
    + apply nth_repeat.
    + apply nth_overflow. rewrite repeat_length. lia.
  - intros k Hk'. apply Hk. lia.
  - intros Hlt. specialize (Hl Hlt). exact Hl.
Qed.

Lemma new_ths_thin mt d : min_thickness_ok mt -> d < thin_limit ->
  let ths := drop_thin (new_thicknesses mt d) in
  ths = repeat 0 (length mt) /\ count_pos ths = 0%nat.
Proof.
  intros [Hne Hmt] Hd. pose proof thin_pos as Htp. cbv zeta.
  destruct mt as [|m mt]; [congruence|]. inversion Hmt; subst.
  assert (E : new_thicknesses (m :: mt) d = (m + (d - m)) :: repeat 0 (length mt)).
  { cbn. destruct (Rle_dec (d - m) m); [reflexivity|lra]. }
  rewrite E. rewrite drop_thin_all.
  - cbn [length]. rewrite repeat_length. split; [reflexivity|].
    apply (count_pos_zeros (S (length mt))).
  - constructor; [lra|]. apply Forall_forall. intros x Hx. apply repeat_spec in Hx. lra.
Qed.

(** * Redistribution *)
Inductive sel := SI | SW | SE.
Definition accs (c : sel) (s : rstate) : list R :=
  match c with SI => aice s | SW => alwc s | SE => aen s end.
Definition val (c : sel) (o : old) : R := match c with SI => oi o | SW => ow o | SE => oe o end.

Lemma add_at_length k x : forall l, length (add_at k x l) = length l.
Proof. revert k; intros k l; revert k; induction l as [|y l IH]; intros [|k]; cbn; auto. Qed.
Lemma add_at_prefix : forall l k x j, (k < length l)%nat ->
  sumR (firstn (S j) (add_at k x l)) = sumR (firstn (S j) l) + (if Nat.leb k j then x else 0).
Proof.
  induction l as [|y l IH]; intros [|k] x j Hk; cbn in Hk; try lia.
  - cbn [add_at Nat.leb]. rewrite !firstn_cons, !sumR_cons. lra.
  - destruct j as [|j]; cbn [add_at Nat.leb]; rewrite !firstn_cons, !sumR_cons.
    + cbn [firstn]. lra.
    + rewrite IH by lia. lra.
Qed.
Lemma add_at_nonneg : forall l k x, 0 <= x -> Forall (fun y => 0 <= y) l ->
  Forall (fun y => 0 <= y) (add_at k x l).
Proof.
  induction l as [|y l IH]; intros [|k] x Hx H; cbn; auto; inversion H; subst; constructor; auto; lra.
Qed.
Lemma add_at_zero_from : forall l k x j n, (k < n <= j)%nat ->
  nth j (add_at k x l) 0 = nth j l 0.
Proof.
  induction l as [|y l IH]; intros [|k] x [|j] n H; cbn; auto; try lia.
  apply (IH k x j (n-1)%nat). lia.
Qed.

(** Distance from the current position in the new layering to the bottom of new layer [k]. *)
Definition zpos (ths : list R) (s : rstate) (k : nat) : R :=
  if Nat.ltb k (knew s) then 0
  else rem s + sumR (firstn (k - knew s) (skipn (S (knew s)) ths)).

Section Inner.
  Variables (ths : list R) (nsn : nat).
  Hypothesis Hlen : (nsn <= length ths)%nat.
  Hypothesis Hpos : forall k, (k < nsn)%nat -> 0 < nth k ths 0.
  Hypothesis Hzero : forall k, (nsn <= k)%nat -> nth k ths 0 = 0.

  Definition ok (s : rstate) : Prop :=
    (knew s < nsn)%nat /\ 0 <= rem s /\ (forall c, length (accs c s) = length ths).

  Lemma nth_skipn_cons : forall (l : list R) k, (k < length l)%nat ->
    skipn k l = nth k l 0 :: skipn (S k) l.
  Proof.
    induction l as [|y l IH]; intros [|k] H; cbn in H; try lia; cbn; [reflexivity|].
    apply IH; lia.
  Qed.
  Lemma nth_skipn_R : forall k (l : list R) j, nth j (skipn k l) 0 = nth (k + j) l 0.
  Proof.
    induction k as [|k IH]; intros [|y l] j; cbn; auto; destruct j; reflexivity.
  Qed.
  Lemma tail_sum_zero k : (nsn <= k)%nat -> sumR (skipn k ths) = 0.
  Proof.
    intros H. apply sumR_all0. apply Forall_forall. intros x Hx.
    destruct (In_nth _ _ 0 Hx) as (j & Hj & E). rewrite <- E.
    rewrite nth_skipn_R. apply Hzero. lia.
  Qed.

  Lemma zpos_ge s k : (knew s <= k)%nat -> rem s <= zpos ths s k.
  Proof.
    intros H. unfold zpos. destruct (Nat.ltb_spec k (knew s)); [lia|].
    assert (0 <= sumR (firstn (k - knew s) (skipn (S (knew s)) ths))); [|lra].
    apply sumR_nonneg, Forall_firstn, Forall_skipn.
    apply Forall_forall. intros x Hx. destruct (In_nth _ _ 0 Hx) as (j & Hj & E). rewrite <- E.
    destruct (Nat.lt_ge_cases j nsn); [apply Rlt_le, Hpos; assumption | rewrite Hzero by assumption; lra].
  Qed.
  Lemma zpos_lt s k : (k < knew s)%nat -> zpos ths s k = 0.
  Proof. intros H. unfold zpos. destruct (Nat.ltb_spec k (knew s)); [reflexivity|lia]. Qed.

  Lemma share_pos z t : 0 < t -> share z t = Rmin 1 (z / t).
  Proof. intros H. unfold share. destruct (Req_EM_T t 0); [lra|reflexivity]. Qed.
  Lemma share_full z t : 0 < t -> t <= z -> share z t = 1.
  Proof.
    intros H Hz. rewrite share_pos by assumption. apply Rmin_left.
    apply Rmult_le_reg_r with t; [assumption|]. unfold Rdiv.
    rewrite Rmult_assoc, Rinv_l by lra. lra.
  Qed.
  Lemma share_part z t : 0 < t -> 0 <= z <= t -> share z t = z / t.
  Proof.
    intros H Hz. rewrite share_pos by assumption. apply Rmin_right.
    apply Rmult_le_reg_r with t; [assumption|]. unfold Rdiv.
    rewrite Rmult_assoc, Rinv_l by lra. lra.
  Qed.

  Definition psum (c : sel) (s : rstate) (k : nat) : R := sumR (firstn (S k) (accs c s)).

  Definition good (fuel : nat) (s : rstate) (o : old) : Prop :=
    let s' := inner fuel ths nsn s o in
    ok s' /\ bad s' = bad s /\
    (forall c k, psum c s' k = psum c s k + val c o * share (zpos ths s k) (ot o)) /\
    (forall k, zpos ths s' k = Rmax 0 (zpos ths s k - ot o)) /\
    rem s' + sumR (skipn (S (knew s')) ths) = rem s + sumR (skipn (S (knew s)) ths) - ot o.

  Lemma inner_w1 fuel s o :
    ok s -> 0 <= ot o -> (ot o = 0 -> 0 < rem s) -> ot o <= rem s ->
    weight (rem s) (ot o) = Some 1 -> good (S fuel) s o.
  Proof.
    intros (Hk & Hr & Hl) Ht H0 Hc Hw. unfold good. cbn [inner]. rewrite Hw.
    assert (Hoob : Nat.leb (length (aice s)) (knew s) = false).
    { apply Nat.leb_gt. specialize (Hl SI). cbn in Hl. lia. }
    rewrite Hoob. destruct (Req_EM_T 1 1) as [_|N]; [|congruence].
    cbn zeta. rewrite orb_false_r.
    assert (Hz : forall k, zpos ths (mkS (knew s) (rem s - ot o)
               (add_at (knew s) (1 * oi o) (aice s)) (add_at (knew s) (1 * ow o) (alwc s))
               (add_at (knew s) (1 * oe o) (aen s)) (bad s)) k
             = if Nat.ltb k (knew s) then 0 else zpos ths s k - ot o).
    { intros k. unfold zpos. cbn [knew rem]. destruct (Nat.ltb k (knew s)); lra. }
    split; [|split; [reflexivity|split; [|split]]].
    - split; [exact Hk|]. split; [cbn; lra|].
      intros [| |]; cbn; rewrite add_at_length; [apply (Hl SI)|apply (Hl SW)|apply (Hl SE)].
    - intros c k.
      assert (E : psum c (mkS (knew s) (rem s - ot o)
               (add_at (knew s) (1 * oi o) (aice s)) (add_at (knew s) (1 * ow o) (alwc s))
               (add_at (knew s) (1 * oe o) (aen s)) (bad s)) k
              = psum c s k + (if Nat.leb (knew s) k then 1 * val c o else 0)).
      { unfold psum. destruct c; cbn [accs aice alwc aen val]; apply add_at_prefix;
          [specialize (Hl SI)|specialize (Hl SW)|specialize (Hl SE)]; cbn in Hl; lia. }
      rewrite E. destruct (Nat.leb_spec (knew s) k) as [G|G].
      + pose proof (zpos_ge s k G) as Hge.
        assert (Es : share (zpos ths s k) (ot o) = 1).
        { destruct (Req_dec (ot o) 0) as [Z|Z].
          - unfold share. rewrite Z. destruct (Req_EM_T 0 0); [|lra].
            specialize (H0 Z). destruct (Rlt_dec 0 (zpos ths s k)); lra.
          - apply share_full; lra. }
        rewrite Es. lra.
      + rewrite zpos_lt by assumption.
        assert (Es : share 0 (ot o) = 0).
        { unfold share. destruct (Req_EM_T (ot o) 0) as [Z|Z].
          - destruct (Rlt_dec 0 0); lra.
          - unfold Rdiv. rewrite Rmult_0_l. apply Rmin_right. lra. }
        rewrite Es. lra.
    - intros k. rewrite Hz. destruct (Nat.ltb_spec k (knew s)) as [G|G].
      + rewrite zpos_lt by assumption. rewrite Rmax_left; lra.
      + pose proof (zpos_ge s k G). rewrite Rmax_right; lra.
    - cbn [knew rem]. lra.
  Qed.

  Lemma inner_good : forall fuel s o,
    ok s -> (nsn - knew s <= fuel)%nat -> 0 <= ot o -> (ot o = 0 -> 0 < rem s) ->
    ot o <= rem s + sumR (skipn (S (knew s)) ths) -> good fuel s o.
  Proof.
    induction fuel as [|fuel IH]; intros s o Hok Hfuel Ht H0 Hc.
    - destruct Hok as (Hk & _). lia.
    - destruct (Req_dec (ot o) 0) as [Z|Z].
      { apply inner_w1; auto.
        - destruct Hok as (_ & ? & _). lra.
        - unfold weight. rewrite Z. destruct (Req_EM_T 0 0); [|lra].
          destruct (Rlt_dec 0 (rem s)); [reflexivity|]. specialize (H0 Z). lra. }
      assert (Hp : 0 < ot o) by lra.
      destruct (Rle_lt_dec (ot o) (rem s)) as [G|G].
      { apply inner_w1; auto.
        unfold weight. destruct (Req_EM_T (ot o) 0); [lra|].
        f_equal. apply Rmin_right.
        apply Rmult_le_reg_r with (ot o); [assumption|]. unfold Rdiv.
        rewrite Rmult_assoc, Rinv_l by lra. lra. }
      pose proof Hok as (Hk & Hr & Hl).
      assert (Hw : weight (rem s) (ot o) = Some (rem s / ot o)).
      { unfold weight. destruct (Req_EM_T (ot o) 0); [lra|]. f_equal. apply Rmin_left.
        apply Rmult_le_reg_r with (ot o); [assumption|]. unfold Rdiv.
        rewrite Rmult_assoc, Rinv_l by lra. lra. }
      assert (Hw1 : rem s / ot o < 1).
      { apply Rmult_lt_reg_r with (ot o); [assumption|]. unfold Rdiv.
        rewrite Rmult_assoc, Rinv_l by lra. lra. }
      assert (Hsn : (S (knew s) < nsn)%nat).
      { destruct (Nat.lt_ge_cases (S (knew s)) nsn) as [?|C]; [assumption|].
        rewrite (tail_sum_zero _ C) in Hc. lra. }
      unfold good. cbn [inner]. rewrite Hw.
      assert (Hoob : Nat.leb (length (aice s)) (knew s) = false).
      { apply Nat.leb_gt. specialize (Hl SI). cbn in Hl. lia. }
      rewrite Hoob. destruct (Req_EM_T (rem s / ot o) 1) as [C|_]; [lra|].
      assert (Hlb : Nat.leb nsn (S (knew s)) = false) by (apply Nat.leb_gt; lia).
      rewrite Hlb. cbn zeta. rewrite orb_false_r.
      set (w := rem s / ot o) in *.
      set (s1 := mkS (S (knew s)) (nth (S (knew s)) ths 0)
               (add_at (knew s) (w * oi o) (aice s)) (add_at (knew s) (w * ow o) (alwc s))
               (add_at (knew s) (w * oe o) (aen s)) (bad s)).
      set (o1 := mkO (ot o * (1 - w)) (oi o * (1 - w)) (ow o * (1 - w)) (oe o * (1 - w))).
      assert (Eot : ot o1 = ot o - rem s) by (unfold o1, w; cbn; field; lra).
      assert (Hok1 : ok s1).
      { split; [exact Hsn|]. split; [cbn; apply Rlt_le, Hpos; exact Hsn|].
        intros [| |]; cbn; rewrite add_at_length; [apply (Hl SI)|apply (Hl SW)|apply (Hl SE)]. }
      assert (Hsk : skipn (S (knew s)) ths = nth (S (knew s)) ths 0 :: skipn (S (S (knew s))) ths).
      { apply nth_skipn_cons. lia. }
      assert (G1 : good fuel s1 o1).
      { apply IH; auto.
        - cbn [knew s1]. lia.
        - rewrite Eot. lra.
        - rewrite Eot. lra.
        - rewrite Eot. cbn [knew rem s1]. rewrite Hsk, sumR_cons in Hc. lra. }
      destruct G1 as (Ok' & Bad' & Ps & Zs & Cs).
      assert (Hps1 : forall c k, psum c s1 k = psum c s k + (if Nat.leb (knew s) k then w * val c o else 0)).
      { intros c k. unfold psum, s1. destruct c; cbn [accs aice alwc aen val]; apply add_at_prefix;
          [specialize (Hl SI)|specialize (Hl SW)|specialize (Hl SE)]; cbn in Hl; lia. }
      assert (Hz1 : forall k, (knew s < k)%nat -> zpos ths s k = rem s + zpos ths s1 k).
      { intros k Hkk. unfold zpos. cbn [knew rem s1].
        destruct (Nat.ltb_spec k (knew s)); [lia|]. destruct (Nat.ltb_spec k (S (knew s))); [lia|].
        replace (k - knew s)%nat with (S (k - S (knew s))) by lia.
        rewrite Hsk. cbn [firstn]. rewrite sumR_cons. lra. }
      split; [exact Ok'|]. split; [exact Bad'|]. split; [|split].
      + intros c k. rewrite Ps, Hps1.
        assert (Ev : val c o1 = val c o * (1 - w)) by (destruct c; reflexivity).
        rewrite Ev.
        destruct (lt_eq_lt_dec k (knew s)) as [[Lt|Eq]|Gt].
        * rewrite !zpos_lt by (cbn; lia). destruct (Nat.leb_spec (knew s) k); [lia|].
          rewrite (share_part 0 (ot o1)) by lra. rewrite (share_part 0 (ot o)) by lra.
          unfold Rdiv. lra.
        * subst k. rewrite (zpos_lt s1) by (cbn; lia). rewrite Nat.leb_refl.
          rewrite (share_part 0 (ot o1)) by lra.
          assert (Ez : zpos ths s (knew s) = rem s).
          { unfold zpos. rewrite Nat.ltb_irrefl, Nat.sub_diag. cbn. sumr. }
          rewrite Ez, (share_part (rem s) (ot o)) by lra. fold w. unfold Rdiv. lra.
        * destruct (Nat.leb_spec (knew s) k); [|lia].
          rewrite (Hz1 k Gt).
          pose proof (zpos_ge s1 k ltac:(cbn; lia)) as Hge. 
          assert (0 <= rem s1) by apply Hok1.
          destruct (Rle_lt_dec (ot o1) (zpos ths s1 k)) as [Q|Q].
          -- rewrite (share_full (zpos ths s1 k)) by lra. rewrite (share_full (rem s + _)) by lra. lra.
          -- rewrite (share_part (zpos ths s1 k)) by lra. rewrite (share_part (rem s + _)) by lra.
             rewrite Eot. unfold w. field. lra.
      + intros k. rewrite Zs, Eot.
        destruct (lt_eq_lt_dec k (knew s)) as [[Lt|Eq]|Gt].
        * rewrite !zpos_lt by (cbn; lia). rewrite !Rmax_left; lra.
        * subst k. rewrite (zpos_lt s1) by (cbn; lia).
          assert (Ez : zpos ths s (knew s) = rem s).
          { unfold zpos. rewrite Nat.ltb_irrefl, Nat.sub_diag. cbn. sumr. }
          rewrite Ez. rewrite !Rmax_left; lra.
        * rewrite (Hz1 k Gt). f_equal. lra.
      + rewrite Cs, Eot. cbn [knew rem s1]. rewrite Hsk, sumR_cons. lra.
  Qed.

  (** Mass above depth [z], for a list of old layers. *)
  Fixpoint above_o (c : sel) (z : R) (os : list old) : R :=
    match os with
    | [] => 0
    | o :: r => val c o * share z (ot o) + above_o c (Rmax 0 (z - ot o)) r
    end.

  (** Old layers without thickness may only occur on top. *)
  Fixpoint thin_on_top (os : list old) : Prop :=
    match os with
    | [] => True
    | o :: r => (ot o = 0 /\ thin_on_top r) \/ (0 < ot o /\ Forall (fun o => 0 < ot o) r)
    end.

  Lemma thin_nonneg os : thin_on_top os -> Forall (fun o => 0 <= ot o) os.
  Proof.
    induction os as [|o os IH]; intros H; [constructor|]. destruct H as [[H1 H2]|[H1 H2]].
    - constructor; [lra|auto].
    - constructor; [lra|]. eapply Forall_impl; [|exact H2]. cbv beta; intros; lra.
  Qed.

  Lemma redistribute_good : forall os s,
    ok s ->
    (Forall (fun o => 0 < ot o) os \/ (thin_on_top os /\ 0 < rem s)) ->
    sumR (map ot os) <= rem s + sumR (skipn (S (knew s)) ths) ->
    let s' := redistribute ths nsn s os in
    ok s' /\ bad s' = bad s /\
    (forall c k, psum c s' k = psum c s k + above_o c (zpos ths s k) os) /\
    rem s' + sumR (skipn (S (knew s')) ths) = rem s + sumR (skipn (S (knew s)) ths) - sumR (map ot os).
  Proof.
    induction os as [|o os IH]; intros s Hok Hp Hc.
    - cbn. repeat split; try apply Hok; try lra; intros; try lra. sumr.
    - cbn [map] in Hc. rewrite sumR_cons in Hc.
      unfold redistribute. cbn [fold_left].
      assert (Hnn : Forall (fun o => 0 <= ot o) (o :: os)).
      { destruct Hp as [Hp|[Hp _]]; [|apply thin_nonneg, Hp].
        eapply Forall_impl; [|exact Hp]. cbv beta; intros; lra. }
      inversion Hnn as [|? ? Ho Hos]; subst.
      assert (Hsum : 0 <= sumR (map ot os)).
      { apply sumR_nonneg, Forall_map. exact Hos. }
      assert (G : good (S (length ths)) s o).
      { apply inner_good; auto.
        - lia.
        - intros Z. destruct Hp as [Hp|[_ Hp]]; [inversion Hp; subst; lra|exact Hp].
        - lra. }
      destruct G as (Ok1 & Bad1 & Ps1 & Zs1 & Cs1).
      set (s1 := inner (S (length ths)) ths nsn s o) in *.
      assert (Hr1 : ot o = 0 -> rem s1 = rem s).
      { (* thin layer: nothing changes except the contents *)
        intros Z. specialize (Zs1 (knew s)). 
        pose proof Hok as (Hk & Hr & Hl).
        unfold s1. cbn [inner]. unfold weight. rewrite Z.
        destruct (Req_EM_T 0 0); [|lra].
        destruct Hp as [Hp|[_ Hp]]; [inversion Hp; subst; lra|].
        destruct (Rlt_dec 0 (rem s)); [|lra].
        destruct (Req_EM_T 1 1); [|lra]. cbn. lra. }
      destruct (IH s1 Ok1) as (Ok' & Bad' & Ps & Cs).
      + destruct Hp as [Hp|[Hp Hr]].
        * left. inversion Hp; assumption.
        * destruct Hp as [[Z Hp]|[P Hp]]; [right|left; exact Hp].
          split; [exact Hp|]. rewrite Hr1; assumption.
      + lra.
      + unfold redistribute in *. split; [exact Ok'|]. split; [congruence|]. split.
        * intros c k. rewrite Ps, Ps1, Zs1. cbn [above_o]. lra.
        * rewrite Cs, Cs1. cbn [map]. rewrite sumR_cons. lra.
  Qed.
End Inner.

(** * The same without assumptions on thin layers: no NaN means conservation *)
Lemma inner_bad_mono ths nsn : forall fuel s o, bad s = true -> bad (inner fuel ths nsn s o) = true.
Proof.
  induction fuel as [|fuel IH]; intros s o H; cbn [inner]; [reflexivity|].
  destruct (weight (rem s) (ot o)) as [w|]; [|reflexivity].
  destruct (Req_EM_T w 1); cbn; [rewrite H; reflexivity|].
  destruct (Nat.leb nsn (S (knew s))) eqn:E; cbn [Nat.leb] in E.
  - cbn [bad]. rewrite H; reflexivity.
  - apply IH. cbn. rewrite H; reflexivity.
Qed.
Lemma redistribute_bad_mono ths nsn : forall os s, bad s = true ->
  bad (redistribute ths nsn s os) = true.
Proof.
  induction os as [|o os IH]; intros s H; [exact H|]. unfold redistribute in *. cbn [fold_left].
  apply IH, inner_bad_mono, H.
Qed.

Lemma redistribute_cond ths nsn :
  (nsn <= length ths)%nat ->
  (forall k, (k < nsn)%nat -> 0 < nth k ths 0) ->
  (forall k, (nsn <= k)%nat -> nth k ths 0 = 0) ->
  forall os s,
  ok ths nsn s -> Forall (fun o => 0 <= ot o) os ->
  sumR (map ot os) <= rem s + sumR (skipn (S (knew s)) ths) ->
  let s' := redistribute ths nsn s os in
  bad s' = false ->
  ok ths nsn s' /\
  (forall c k, psum c s' k = psum c s k + above_o c (zpos ths s k) os) /\
  (forall c, sumR (accs c s') = sumR (accs c s) + sumR (map (val c) os)) /\
  rem s' + sumR (skipn (S (knew s')) ths) = rem s + sumR (skipn (S (knew s)) ths) - sumR (map ot os).
Proof.
  intros Hlen Hpos Hzero.
  induction os as [|o os IH]; intros s Hok Hnn Hc.
  - cbn. intros _. repeat split; try apply Hok; try lra; intros; try lra; sumr.
  - cbn [map] in Hc. rewrite sumR_cons in Hc.
    inversion Hnn as [|? ? Ho Hos]; subst.
    unfold redistribute. cbn [fold_left]. cbv zeta. intros Hbad.
    assert (Hsum : 0 <= sumR (map ot os)) by (apply sumR_nonneg, Forall_map, Hos).
    assert (Hthin : ot o = 0 -> 0 < rem s).
    { intros Z. destruct Hok as (Hk & Hr & Hl).
      destruct (Rlt_dec 0 (rem s)) as [P|P]; [exact P|exfalso].
      assert (Hb : bad (inner (S (length ths)) ths nsn s o) = true).
      { cbn [inner]. unfold weight. rewrite Z. destruct (Req_EM_T 0 0); [|lra].
        destruct (Rlt_dec 0 (rem s)); [lra|]. reflexivity. }
      pose proof (redistribute_bad_mono ths nsn os _ Hb) as Hb'. unfold redistribute in Hb'.
      congruence. }
    assert (G : good ths nsn (S (length ths)) s o) by (apply inner_good; auto; [lia|lra]).
    destruct G as (Ok1 & Bad1 & Ps1 & Zs1 & Cs1).
    destruct (IH _ Ok1 Hos ltac:(lra) Hbad) as (Ok' & Ps & Ts & Cs).
    split; [exact Ok'|]. split; [|split].
    2: { intros c. unfold redistribute in Ts. rewrite Ts. cbn [map]. rewrite sumR_cons.
      specialize (Ps1 c (length ths - 1)%nat). unfold psum in Ps1.
      destruct Hok as (Hk & Hr & Hl). destruct Ok1 as (_ & _ & Hl1).
      replace (S (length ths - 1)) with (length ths) in Ps1 by lia.
      rewrite !firstn_all2 in Ps1 by (first [rewrite Hl1 | rewrite Hl]; lia).
      assert (Ez : zpos ths s (length ths - 1) = rem s + sumR (skipn (S (knew s)) ths)).
      { unfold zpos. destruct (Nat.ltb_spec (length ths - 1) (knew s)); [lia|].
        rewrite firstn_all2; [reflexivity|]. rewrite skipn_length. lia. }
      pose proof (zpos_ge ths nsn Hlen Hpos Hzero s (length ths - 1)%nat ltac:(lia)) as Hge.
      assert (Es : share (zpos ths s (length ths - 1)) (ot o) = 1).
      { destruct (Req_dec (ot o) 0) as [Z|Z].
        - unfold share. rewrite Z. destruct (Req_EM_T 0 0); [|lra]. specialize (Hthin Z).
          destruct (Rlt_dec 0 (zpos ths s (length ths - 1))); [reflexivity|lra].
        - apply share_full; lra. }
      rewrite Es in Ps1. lra. }
    + intros c k. unfold redistribute in Ps. rewrite Ps, Ps1, Zs1. cbn [above_o]. lra.
    + unfold redistribute in Cs. rewrite Cs, Cs1. cbn [map]. rewrite sumR_cons. lra.
Qed.

(** * Above *)
Lemma above_o_map c z : forall ls, above_o c z (map old_of ls) =
  above (match c with SI => ice | SW => lwc | SE => energy end) z ls.
Proof.
  intros ls; revert z; induction ls as [|l ls IH]; intros z; cbn; [reflexivity|].
  rewrite IH. destruct c; reflexivity.
Qed.

Lemma share_0 t : share 0 t = 0.
Proof.
  unfold share. destruct (Req_EM_T t 0); [destruct (Rlt_dec 0 0); lra|].
  unfold Rdiv. rewrite Rmult_0_l. apply Rmin_right; lra.
Qed.
Lemma above_0 q : forall ls, Forall (fun l => 0 <= th l) ls -> above q 0 ls = 0.
Proof.
  induction 1 as [|l ls H _ IH]; cbn; [reflexivity|].
  rewrite share_0. rewrite Rmax_left by lra. rewrite IH. lra.
Qed.
Lemma above_all q : forall ls z, Forall (fun l => 0 <= th l) ls ->
  0 < z -> sumR (map th ls) <= z ->
  (forall a b, ls = a ++ b -> sumR (map th a) < z \/ sumR (map q b) = 0) -> above q z ls = sumR (map q ls).
Proof.
  induction ls as [|l ls IH]; intros z Hn Hz Hs Hab; cbn [above map]; [reflexivity|].
  inversion Hn as [|? ? Hl Hls]; subst. cbn [map] in Hs. rewrite sumR_cons in Hs |- *.
  assert (Hsh : share z (th l) = 1).
  { assert (0 <= sumR (map th ls)) by (apply sumR_nonneg, Forall_map, Hls).
    unfold share. destruct (Req_EM_T (th l) 0); [destruct (Rlt_dec 0 z); lra|].
    apply Rmin_left. apply Rmult_le_reg_r with (th l); [lra|]. unfold Rdiv.
    rewrite Rmult_assoc, Rinv_l by lra. lra. }
  rewrite Hsh.
  assert (0 <= sumR (map th ls)) by (apply sumR_nonneg, Forall_map, Hls).
  rewrite Rmax_right by lra.
  destruct (Rlt_dec 0 (z - th l)) as [P|P].
  - rewrite IH; [lra|assumption|assumption|lra|]. intros a b E.
    destruct (Hab (l :: a) b) as [H1|H1]; [cbn; rewrite E; reflexivity| |right; exact H1].
    left. cbn [map] in H1. rewrite sumR_cons in H1. lra.
  - destruct (Hab [l] ls eq_refl) as [H1|H1].
    + cbn in H1. rewrite sumR_cons, sumR_nil in H1. lra.
    + replace (z - th l) with 0 by lra. rewrite above_0 by assumption. lra.
Qed.

Lemma share_mono t z z' : 0 <= t -> z <= z' -> share z t <= share z' t.
Proof.
  intros Ht Hz. unfold share. destruct (Req_EM_T t 0).
  - destruct (Rlt_dec 0 z), (Rlt_dec 0 z'); lra.
  - assert (z / t <= z' / t).
    { apply Rmult_le_compat_r; [apply Rlt_le, Rinv_0_lt_compat; lra|assumption]. }
    rmm; lra.
Qed.
Lemma above_mono q : forall ls z z', Forall (fun l => 0 <= th l /\ 0 <= q l) ls -> z <= z' ->
  above q z ls <= above q z' ls.
Proof.
  induction ls as [|l ls IH]; intros z z' H Hz; cbn; [lra|].
  inversion H as [|? ? [Ht Hq] Hls]; subst.
  pose proof (share_mono (th l) z z' Ht Hz).
  assert (above q (Rmax 0 (z - th l)) ls <= above q (Rmax 0 (z' - th l)) ls).
  { apply IH; [assumption|]. rmm; lra. }
  nra.
Qed.
(** Where the old pack is thick, more depth means strictly more of a positive quantity. *)
Lemma above_strict q : forall ls z z',
  Forall (fun l => 0 <= th l /\ 0 <= q l /\ (0 < th l -> 0 < q l)) ls ->
  0 <= z -> z < z' -> z < sumR (map th ls) ->
  above q z ls < above q z' ls.
Proof.
  induction ls as [|l ls IH]; intros z z' H H0 Hz Hs; cbn [above map] in *; [rewrite sumR_nil in Hs; lra|].
  inversion H as [|? ? (Ht & Hq & Hp) Hls]; subst. rewrite sumR_cons in Hs.
  pose proof (share_mono (th l) z z' Ht (Rlt_le _ _ Hz)) as Hsh.
  assert (Hls' : Forall (fun l => 0 <= th l /\ 0 <= q l) ls).
  { eapply Forall_impl; [|exact Hls]. cbv beta. intros; tauto. }
  destruct (Rlt_dec z (th l)) as [G|G].
  - assert (Ha : above q (Rmax 0 (z - th l)) ls <= above q (Rmax 0 (z' - th l)) ls).
    { apply above_mono; [assumption|]. rmm; lra. }
    assert (Hst : share z (th l) < share z' (th l)).
    { unfold share. destruct (Req_EM_T (th l) 0); [lra|].
      assert (z / th l < z' / th l).
      { apply Rmult_lt_compat_r; [apply Rinv_0_lt_compat; lra|assumption]. }
      assert (z / th l < 1).
      { apply Rmult_lt_reg_r with (th l); [lra|]. unfold Rdiv. rewrite Rmult_assoc, Rinv_l by lra. lra. }
      rmm; lra. }
    specialize (Hp ltac:(lra)). nra.
  - assert (Ha : above q (Rmax 0 (z - th l)) ls < above q (Rmax 0 (z' - th l)) ls).
    { rewrite !Rmax_right by lra. apply IH; auto; lra. }
    nra.
Qed.
(** A density bound carries over. *)
Lemma above_density q rho : forall ls z z', 0 <= rho ->
  Forall (fun l => 0 <= th l /\ 0 <= q l <= rho * th l) ls -> 0 <= z -> z <= z' ->
  above q z' ls - above q z ls <= rho * (z' - z).
Proof.
  induction ls as [|l ls IH]; intros z z' Hr H H0 Hz; cbn [above]; [nra|].
  inversion H as [|? ? (Ht & Hq & Hq2) Hls]; subst.
  destruct (Req_dec (th l) 0) as [Z|Z].
  - assert (q l = 0) by (rewrite Z in Hq2; lra).
    specialize (IH z z' Hr Hls H0 Hz). rewrite Z.
    rewrite !Rmax_right by lra. replace (z - 0) with z by lra. replace (z' - 0) with z' by lra. nra.
  - assert (Hp : 0 < th l) by lra.
    destruct (Rle_lt_dec (th l) z) as [A|A].
    + rewrite !(share_full) by lra. rewrite !Rmax_right by lra.
      specialize (IH (z - th l) (z' - th l) Hr Hls ltac:(lra) ltac:(lra)). lra.
    + destruct (Rle_lt_dec (th l) z') as [B|B].
      * rewrite (share_full z') by lra. rewrite (share_part z) by lra.
        rewrite (Rmax_left 0 (z - th l)), (Rmax_right 0 (z' - th l)) by lra.
        specialize (IH 0 (z' - th l) Hr Hls ltac:(lra) ltac:(lra)).
        assert (q l * 1 - q l * (z / th l) <= rho * (th l - z)); [|lra].
        replace (q l * 1 - q l * (z / th l)) with (q l * ((th l - z) / th l)) by (field; lra).
        replace (rho * (th l - z)) with (rho * th l * ((th l - z) / th l)) by (field; lra).
        apply Rmult_le_compat_r; [|assumption].
        apply Rmult_le_pos; [lra|]. apply Rlt_le, Rinv_0_lt_compat; lra.
      * rewrite !(share_part) by lra. rewrite !Rmax_left by lra.
        replace (q l * (z' / th l) + above q 0 ls - (q l * (z / th l) + above q 0 ls))
          with (q l * ((z' - z) / th l)) by (field; lra).
        replace (rho * (z' - z)) with (rho * th l * ((z' - z) / th l)) by (field; lra).
        apply Rmult_le_compat_r; [|assumption].
        apply Rmult_le_pos; [lra|]. apply Rlt_le, Rinv_0_lt_compat; lra.
Qed.
