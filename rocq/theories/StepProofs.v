(** _update_layers as a whole, and the time step / history of the multilayer model. *)
From Verif Require Import Common Constants SnowModel MultilayerModel MultilayerSpec MultilayerProofs RelayerProofs.

(** * build *)
Lemma build_maps : forall ths n ai aw ae ls,
  length ai = length ths -> length aw = length ths -> length ae = length ths -> length ls = length ths ->
  let b := build n ths ai aw ae ls in
  map th b = ths /\ map ice b = ai /\ map lwc b = aw /\ length b = length ths.
Proof.
  induction ths as [|t ths IH]; intros n [|i ai] [|w aw] [|e ae] [|l ls] H1 H2 H3 H4;
    try discriminate; cbn zeta.
  - cbn. auto.
  - cbn in H1, H2, H3, H4. injection H1 as H1. injection H2 as H2. injection H3 as H3. injection H4 as H4.
    destruct n as [|n]; cbn.
    + destruct (IH O ai aw ae ls H1 H2 H3 H4) as (E1 & E2 & E3 & E4). cbn zeta in *.
      rewrite E1, E2, E3, E4. auto.
    + destruct (IH n ai aw ae ls H1 H2 H3 H4) as (E1 & E2 & E3 & E4). cbn zeta in *.
      rewrite E1, E2, E3, E4. auto.
Qed.

Lemma build_energy : forall ths n ai aw ae ls,
  length ai = length ths -> length aw = length ths -> length ae = length ths -> length ls = length ths ->
  (forall k, (k < n)%nat -> (k < length ths)%nat -> 0 < nth k ai 0 /\ 0 <= nth k aw 0) ->
  (forall k, (n <= k)%nat -> nth k ae 0 = 0) ->
  map energy (build n ths ai aw ae ls) = ae.
Proof.
  induction ths as [|t ths IH]; intros n [|i ai] [|w aw] [|e ae] [|l ls] H1 H2 H3 H4 Hp Hz;
    try discriminate; [reflexivity|].
  cbn in H1, H2, H3, H4. injection H1 as H1. injection H2 as H2. injection H3 as H3. injection H4 as H4.
  destruct n as [|n]; cbn [build map].
  - f_equal.
    + unfold energy; cbn [hc tmp]. specialize (Hz O ltac:(lia)). cbn in Hz. rewrite Hz. lra.
    + apply IH; auto; intros k Hk; [lia|]. apply (Hz (S k)). lia.
  - f_equal.
    + unfold energy; cbn [hc tmp]. destruct (Hp O ltac:(lia) ltac:(cbn; lia)) as [P1 P2].
      cbn in P1, P2. unfold SPEC_HEAT_CAP_ICE, SPEC_HEAT_CAP_WATER. field. nra.
    + apply IH; auto.
      * intros k Hk Hk'. apply (Hp (S k)); cbn; lia.
      * intros k Hk. apply (Hz (S k)). lia.
Qed.

Lemma build_hc : forall ths n ai aw ae ls l,
  length ai = length ths -> length aw = length ths -> length ae = length ths -> length ls = length ths ->
  Forall (fun l => 0 <= hc l) ls -> Forall (fun x => 0 <= x) ai -> Forall (fun x => 0 <= x) aw ->
  In l (build n ths ai aw ae ls) -> 0 <= hc l.
Proof.
  induction ths as [|t ths IH]; intros n [|i ai] [|w aw] [|e ae] [|l0 ls] l H1 H2 H3 H4 F1 F2 F3 Hin;
    try discriminate; [contradiction|].
  cbn in H1, H2, H3, H4. injection H1 as H1. injection H2 as H2. injection H3 as H3. injection H4 as H4.
  inversion F1; inversion F2; inversion F3; subst.
  destruct n as [|n]; cbn [build In] in Hin; destruct Hin as [<-|Hin]; cbn [hc]; auto.
  - eapply (IH O ai aw ae ls); eauto.
  - unfold SPEC_HEAT_CAP_ICE, SPEC_HEAT_CAP_WATER. nra.
  - eapply (IH n ai aw ae ls); eauto.
Qed.

(** * Prefix sums *)
Lemma sumR_firstn_S : forall l k, sumR (firstn (S k) l) = sumR (firstn k l) + nth k l 0.
Proof.
  induction l as [|x l IH]; intros [|k]; try (cbn; sumr).
  rewrite !firstn_cons, !sumR_cons, IH. cbn [nth]. lra.
Qed.

Definition coherent (l : layer) : Prop := 0 < th l <-> 0 < ice l.
(** Pack with empty inactive slots in which exactly the layers with thickness hold ice. *)
Definition good_pack (p : pixel) : Prop :=
  wf_pixel p /\ Forall empty_slot (inactive p) /\ Forall coherent (active p).

Definition quantity (c : sel) : layer -> R := match c with SI => ice | SW => lwc | SE => energy end.

Lemma map_val_old c ls : map (val c) (map old_of ls) = map (quantity c) ls.
Proof. rewrite map_map. apply map_ext. intros l; destruct c; reflexivity. Qed.
Lemma map_ot_old ls : map ot (map old_of ls) = map th ls.
Proof. rewrite map_map. apply map_ext. reflexivity. Qed.

Lemma empty_sum (f : layer -> R) p :
  (forall l, empty_slot l -> f l = 0) -> Forall empty_slot (inactive p) ->
  sumR (map f (lays p)) = sumR (map f (active p)).
Proof.
  intros Hf H. rewrite (pixel_split f p).
  rewrite (sumR_all0 (map f (inactive p))); [lra|].
  apply Forall_map. eapply Forall_impl; [|exact H]. exact Hf.
Qed.

Section Relayer.
  Variables (mt : list R) (p : pixel).
  Hypothesis Hmt : min_thickness_ok mt.
  Hypothesis Hl : length mt = length (lays p).
  Hypothesis Hg : good_pack p.
  Let d := snow_depth (lays p).
  Hypothesis Hd : thin_limit <= d.
  Let ths := drop_thin (new_thicknesses mt d).
  Let n := count_pos ths.
  Let L := length (lays p).
  Let s0 := mkS 0 (nth 0 ths 0) (repeat 0 L) (repeat 0 L) (repeat 0 L) false.
  Let s' := redistribute ths n s0 (map old_of (active p)).

  Lemma relayer_eq : update_layers mt d p = (mkP n (build n ths (aice s') (alwc s') (aen s') (lays p)), bad s').
  Proof.
    unfold update_layers. fold d. pose proof thin_pos.
    destruct (Rlt_dec 0 d); [reflexivity|lra].
  Qed.

  Lemma relayer_ok0 : ok ths n s0 /\ sumR (map ot (map old_of (active p))) = nth 0 ths 0 + sumR (skipn 1 ths).
  Proof.
    destruct (new_ths_shape mt d Hmt Hd) as (Hn & Hle & Hs & _ & Hp & _).
    fold ths in Hn, Hle, Hs, Hp. fold n in Hn, Hp. split.
    - split; [cbn; lia|]. split.
      + cbn. pose proof thin_pos. specialize (Hp O ltac:(lia)). lra.
      + intros [| |]; cbn; rewrite repeat_length; unfold L; lia.
    - rewrite map_ot_old.
      assert (E : d = sumR (map th (active p))).
      { unfold d, snow_depth. apply empty_sum; [intros l (E & _); exact E|apply Hg]. }
      rewrite <- E, <- Hs. destruct ths as [|t r]; cbn in *; [destruct mt; [destruct Hmt; congruence|discriminate]|].
      apply sumR_cons.
  Qed.

  Lemma zpos0 k : zpos ths s0 k = sumR (firstn (S k) ths).
  Proof.
    unfold zpos, s0; cbn [knew rem]. destruct (Nat.ltb_spec k 0); [lia|].
    rewrite Nat.sub_0_r. destruct ths as [|t r]; cbn [firstn skipn nth].
    - rewrite firstn_nil. sumr.
    - rewrite sumR_cons. reflexivity.
  Qed.

  Lemma active_th_nonneg : Forall (fun l => 0 <= th l) (active p).
  Proof.
    destruct Hg as ([_ Hwf] & _ & _). apply Forall_firstn.
    eapply Forall_impl; [|exact Hwf]. intros l (? & _); assumption.
  Qed.

  Lemma relayer_prefix : bad s' = false -> forall c k,
    sumR (firstn k (accs c s')) = above (quantity c) (sumR (firstn k ths)) (active p).
  Proof.
    intros Hb c k.
    destruct (new_ths_shape mt d Hmt Hd) as (Hn & Hle & Hs & _ & Hp & Hz & _).
    fold ths in Hn, Hle, Hs, Hp, Hz. fold n in Hn, Hp, Hz.
    destruct relayer_ok0 as [Ok0 Et].
    destruct (redistribute_cond ths n ltac:(lia)
                ltac:(intros j Hj; specialize (Hp j Hj); pose proof thin_pos; lra) Hz
                (map old_of (active p)) s0 Ok0) as (_ & Ps & _).
    - apply Forall_map. apply active_th_nonneg.
    - rewrite Et. cbn. lra.
    - exact Hb.
    - destruct k as [|k].
      + cbn [firstn]. rewrite sumR_nil. symmetry. apply above_0, active_th_nonneg.
      + specialize (Ps c k). unfold psum in Ps. fold s' in Ps. rewrite Ps, above_o_map, zpos0.
        assert (E0 : sumR (firstn (S k) (accs c s0)) = 0).
        { destruct c; cbn [accs s0 aice alwc aen];
          apply sumR_all0, Forall_firstn, Forall_forall; intros x Hx; apply repeat_spec in Hx; auto. }
        rewrite E0. unfold quantity. lra.
  Qed.

  Lemma relayer_lengths : bad s' = false -> forall c, length (accs c s') = length ths.
  Proof.
    intros Hb c.
    destruct (new_ths_shape mt d Hmt Hd) as (Hn & Hle & Hs & _ & Hp & Hz & _).
    fold ths in Hn, Hle, Hs, Hp, Hz. fold n in Hn, Hp, Hz.
    destruct relayer_ok0 as [Ok0 Et].
    destruct (redistribute_cond ths n ltac:(lia)
                ltac:(intros j Hj; specialize (Hp j Hj); pose proof thin_pos; lra) Hz
                (map old_of (active p)) s0 Ok0) as ((_ & _ & Hll) & _).
    - apply Forall_map. apply active_th_nonneg.
    - rewrite Et. cbn. lra.
    - exact Hb.
    - apply Hll.
  Qed.

  Lemma relayer_totals : bad s' = false -> forall c, sumR (accs c s') = sumR (map (quantity c) (active p)).
  Proof.
    intros Hb c.
    destruct (new_ths_shape mt d Hmt Hd) as (Hn & Hle & Hs & _ & Hp & Hz & _).
    fold ths in Hn, Hle, Hs, Hp, Hz. fold n in Hn, Hp, Hz.
    destruct relayer_ok0 as [Ok0 Et].
    destruct (redistribute_cond ths n ltac:(lia)
                ltac:(intros j Hj; specialize (Hp j Hj); pose proof thin_pos; lra) Hz
                (map old_of (active p)) s0 Ok0) as (_ & _ & Ts & _).
    - apply Forall_map. apply active_th_nonneg.
    - rewrite Et. cbn. lra.
    - exact Hb.
    - specialize (Ts c). fold s' in Ts. rewrite Ts, map_val_old.
      assert (E0 : sumR (accs c s0) = 0) by (destruct c; cbn; apply sumR_repeat0).
      lra.
  Qed.

  Lemma relayer_nth : bad s' = false -> forall c k,
    nth k (accs c s') 0 = above (quantity c) (sumR (firstn (S k) ths)) (active p)
                        - above (quantity c) (sumR (firstn k ths)) (active p).
  Proof.
    intros Hb c k. pose proof (sumR_firstn_S (accs c s') k) as E.
    rewrite !relayer_prefix in E by assumption. lra.
  Qed.

  Lemma ths_nonneg : Forall (fun t => 0 <= t) ths.
  Proof.
    destruct (new_ths_shape mt d Hmt Hd) as (Hn & Hle & Hs & _ & Hp & Hz & _).
    fold ths in Hn, Hle, Hs, Hp, Hz. fold n in Hn, Hp, Hz.
    apply Forall_forall. intros x Hx. destruct (In_nth _ _ 0 Hx) as (j & Hj & <-).
    pose proof thin_pos.
    destruct (Nat.lt_ge_cases j n); [specialize (Hp j H0); lra|rewrite Hz by assumption; lra].
  Qed.
  Lemma prefix_nonneg k : 0 <= sumR (firstn k ths).
  Proof. apply sumR_nonneg, Forall_firstn, ths_nonneg. Qed.
  Lemma prefix_le k : sumR (firstn k ths) <= sumR (firstn (S k) ths).
  Proof.
    rewrite sumR_firstn_S.
    destruct (Nat.lt_ge_cases k (length ths)) as [H|H].
    - pose proof (Forall_nth_R _ ths k ths_nonneg H). cbv beta in *. lra.
    - rewrite nth_overflow by assumption. lra.
  Qed.

  Lemma relayer_acc_nonneg : bad s' = false -> forall c, c <> SE -> Forall (fun x => 0 <= x) (accs c s').
  Proof.
    intros Hb c Hc. apply Forall_forall. intros x Hx. destruct (In_nth _ _ 0 Hx) as (j & Hj & <-).
    rewrite relayer_nth by assumption.
    assert (above (quantity c) (sumR (firstn j ths)) (active p)
            <= above (quantity c) (sumR (firstn (S j) ths)) (active p)); [|lra].
    apply above_mono; [|apply prefix_le].
    destruct Hg as ([_ Hwf] & _ & _). apply Forall_firstn.
    eapply Forall_impl; [|exact Hwf]. intros l (? & ? & ? & ?).
    destruct c; cbn; [split; lra|split; lra|congruence].
  Qed.

  Lemma relayer_ice_pos : bad s' = false -> forall k, (k < n)%nat -> 0 < nth k (aice s') 0.
  Proof.
    intros Hb k Hk.
    destruct (new_ths_shape mt d Hmt Hd) as (Hn & Hle & Hs & _ & Hp & Hz & _).
    fold ths in Hn, Hle, Hs, Hp, Hz. fold n in Hn, Hp, Hz.
    change (aice s') with (accs SI s'). rewrite relayer_nth by assumption.
    pose proof (sumR_firstn_S ths k) as E. specialize (Hp k Hk). pose proof thin_pos.
    assert (above (quantity SI) (sumR (firstn k ths)) (active p)
            < above (quantity SI) (sumR (firstn (S k) ths)) (active p)); [|lra].
    apply above_strict.
    - destruct Hg as ([_ Hwf] & _ & Hc).
      assert (Hwa : Forall wf_layer (active p)) by (apply Forall_firstn, Hwf).
      rewrite Forall_forall in Hwa, Hc |- *. intros l Hin.
      destruct (Hwa l Hin) as (? & ? & _). specialize (Hc l Hin). unfold coherent in Hc. cbn. tauto.
    - apply prefix_nonneg.
    - lra.
    - assert (E2 : sumR (map th (active p)) = d).
      { unfold d, snow_depth. symmetry. apply empty_sum; [intros l (E' & _); exact E'|apply Hg]. }
      rewrite E2, <- Hs, (sumR_firstn_skipn (S k) ths).
      assert (0 <= sumR (skipn (S k) ths)) by (apply sumR_nonneg, Forall_skipn, ths_nonneg). lra.
  Qed.

  Lemma relayer_beyond : bad s' = false -> forall c k, (n <= k)%nat -> nth k (accs c s') 0 = 0.
  Proof.
    intros Hb c k Hk.
    destruct (new_ths_shape mt d Hmt Hd) as (_ & _ & _ & _ & _ & Hz & _).
    fold ths in Hz. fold n in Hz.
    rewrite relayer_nth by assumption. rewrite sumR_firstn_S, Hz by assumption.
    rewrite Rplus_0_r. lra.
  Qed.

  Lemma relayer_spec :
    let p' := fst (update_layers mt d p) in
    snd (update_layers mt d p) = false ->
    ns p' = n /\ map th (lays p') = ths /\ length (lays p') = length (lays p) /\
    (forall c, map (quantity c) (lays p') = accs c s') /\
    good_pack p' /\ Forall (fun l => 0 < th l /\ 0 < ice l) (active p').
  Proof.
    rewrite relayer_eq. cbn [fst snd ns lays]. intros Hb.
    destruct (new_ths_shape mt d Hmt Hd) as (Hn & Hle & Hs & _ & Hp & Hz & _).
    fold ths in Hn, Hle, Hs, Hp, Hz. fold n in Hn, Hp, Hz.
    pose proof (relayer_lengths Hb SI) as L1. pose proof (relayer_lengths Hb SW) as L2.
    pose proof (relayer_lengths Hb SE) as L3. cbn [accs] in L1, L2, L3.
    assert (L4 : length (lays p) = length ths) by lia.
    destruct (build_maps ths n (aice s') (alwc s') (aen s') (lays p) L1 L2 L3 L4) as (B1 & B2 & B3 & B4).
    cbn zeta in B1, B2, B3, B4.
    pose proof (relayer_acc_nonneg Hb SI ltac:(discriminate)) as N1.
    pose proof (relayer_acc_nonneg Hb SW ltac:(discriminate)) as N2. cbn [accs] in N1, N2.
    assert (BE : map energy (build n ths (aice s') (alwc s') (aen s') (lays p)) = aen s').
    { apply build_energy; auto.
      - intros k Hk Hk2. split; [apply relayer_ice_pos; assumption|].
        apply Forall_nth_R with (P := fun x => 0 <= x); [assumption|lia].
      - intros k Hk. apply (relayer_beyond Hb SE k Hk). }
    set (b := build n ths (aice s') (alwc s') (aen s') (lays p)) in *.
    assert (Hnth : forall k l, nth_error b k = Some l ->
              th l = nth k ths 0 /\ ice l = nth k (aice s') 0 /\ lwc l = nth k (alwc s') 0).
    { intros k l Hk. rewrite <- B1, <- B2, <- B3.
      repeat split; symmetry; apply nth_error_nth, map_nth_error; assumption. }
    assert (Hwf : Forall wf_layer b).
    { apply Forall_forall. intros l Hin. destruct (In_nth_error _ _ Hin) as (k & Hk).
      destruct (Hnth k l Hk) as (E1 & E2 & E3).
      assert (Hkl : (k < length b)%nat) by (apply nth_error_Some; congruence).
      unfold wf_layer. rewrite E1, E2, E3. split; [|split; [|split]].
      - apply Forall_nth_R with (P := fun x => 0 <= x); [apply ths_nonneg|lia].
      - apply Forall_nth_R with (P := fun x => 0 <= x); [assumption|lia].
      - apply Forall_nth_R with (P := fun x => 0 <= x); [assumption|lia].
      - apply (build_hc ths n (aice s') (alwc s') (aen s') (lays p)); auto.
        destruct Hg as ([_ Hw] & _). eapply Forall_impl; [|exact Hw]. intros ? (_ & _ & _ & ?); assumption. }
    assert (Hact : Forall (fun l => 0 < th l /\ 0 < ice l) (firstn n b)).
    { apply Forall_forall. intros l Hin. destruct (In_nth_error _ _ Hin) as (k & Hk).
      assert (Hkn : (k < n)%nat).
      { assert ((k < length (firstn n b))%nat) by (apply nth_error_Some; congruence).
        rewrite firstn_length in H. lia. }
      assert (Hk2 : nth_error b k = Some l).
      { rewrite <- (firstn_skipn n b). rewrite nth_error_app1; [exact Hk|].
        apply nth_error_Some; congruence. }
      destruct (Hnth k l Hk2) as (E1 & E2 & E3). pose proof thin_pos. specialize (Hp k Hkn).
      rewrite E1, E2. split; [lra|]. apply relayer_ice_pos; assumption. }
    split; [reflexivity|]. split; [exact B1|]. split; [lia|]. split; [|split].
    - intros [| |]; cbn [quantity accs]; assumption.
    - split; [split; [cbn; lia|exact Hwf]|]. split.
      + unfold inactive; cbn [ns lays].
        apply Forall_forall. intros l Hin. destruct (In_nth_error _ _ Hin) as (k & Hk).
        assert (Hk2 : nth_error b (n + k) = Some l).
        { rewrite <- (firstn_skipn n b). rewrite nth_error_app2; rewrite firstn_length.
          - replace (n + k - Nat.min n (length b))%nat with k by lia. exact Hk.
          - lia. }
        destruct (Hnth _ l Hk2) as (E1 & E2 & E3). unfold empty_slot.
        rewrite E1, E2, E3. split; [apply Hz; lia|]. split.
        * apply (relayer_beyond Hb SI); lia.
        * apply (relayer_beyond Hb SW); lia.
      + unfold active; cbn [ns lays]. eapply Forall_impl; [|exact Hact].
        intros l [? ?]. unfold coherent. tauto.
    - exact Hact.
  Qed.

  Lemma relayer_nobad : Forall (fun l => 0 < th l) (active p) \/ thin_on_top (map old_of (active p)) ->
    snd (update_layers mt d p) = false.
  Proof.
    intros Hthin. rewrite relayer_eq. cbn [snd].
    destruct (new_ths_shape mt d Hmt Hd) as (Hn & Hle & Hs & _ & Hp & Hz & _).
    fold ths in Hn, Hle, Hs, Hp, Hz. fold n in Hn, Hp, Hz.
    destruct relayer_ok0 as [Ok0 Et].
    destruct (redistribute_good ths n ltac:(lia)
                ltac:(intros j Hj; specialize (Hp j Hj); pose proof thin_pos; lra) Hz
                (map old_of (active p)) s0 Ok0) as (_ & B & _).
    - destruct Hthin as [H|H]; [left; apply Forall_map; exact H|right; split; [exact H|]].
      cbn. pose proof thin_pos. specialize (Hp O ltac:(lia)). lra.
    - rewrite Et. cbn. lra.
    - exact B.
  Qed.
End Relayer.
