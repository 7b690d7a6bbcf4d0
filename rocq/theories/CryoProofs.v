(** Proofs about the cryolayer model. *)
From Verif Require Import Common Constants SnowModel SnowProofs CryoModel CryoSpec.

(** ** Removing ice *)
Lemma take_layer_reduced w chg l : 0 <= cice l -> reduced w l (fst (take_layer w chg l)).
Proof.
  intro H. unfold take_layer, reduced. destruct (Rlt_dec 0 chg); [destruct (Rlt_dec 0 (cice l))|].
  - cbn [fst cice cth clw ccold cdens calb]. pose proof (Rmin_r chg (cice l)). pose proof (Rmin_l chg (cice l)).
    assert (0 < Rmin chg (cice l)) by (apply Rmin_glb_lt; lra).
    split; [lra|]. split; [field; lra|]. split; [destruct w; lra|]. auto.
  - cbn [fst]. split; [lra|]. split; [lra|]. split; [destruct w; lra|]. auto.
  - cbn [fst]. split; [lra|]. split; [lra|]. split; [destruct w; lra|]. auto.
Qed.
Lemma take_layer_rest w chg l : 0 <= cice l -> 0 <= chg ->
  snd (take_layer w chg l) = chg - (cice l - cice (fst (take_layer w chg l))) /\
  cice l - cice (fst (take_layer w chg l)) = Rmin chg (cice l) /\
  0 <= snd (take_layer w chg l).
Proof.
  intros H C. unfold take_layer. destruct (Rlt_dec 0 chg); [destruct (Rlt_dec 0 (cice l))|]; cbn [fst snd cice]; rmm; lra.
Qed.
Lemma take_layer_neg w chg l : chg <= 0 -> take_layer w chg l = (l, chg).
Proof. intro. unfold take_layer. destruct (Rlt_dec 0 chg); [lra|auto]. Qed.

Fixpoint take_l (w : bool) (chg : R) (ls : list clayer) : list clayer * R :=
  match ls with
  | [] => ([], chg)
  | l :: r => let '(l', c) := take_layer w chg l in let '(r', c') := take_l w c r in (l' :: r', c')
  end.
Lemma take_take_l w chg p :
  lays (fst (take w chg p)) = fst (take_l w chg (lays p)) /\ snd (take w chg p) = snd (take_l w chg (lays p)).
Proof.
  unfold take, lays, take_l.
  destruct (take_layer w chg (l_new p)) as [n c1]. destruct (take_layer w c1 (l_old p)) as [o c2].
  destruct (take_layer w c2 (l_firn p)) as [f c3]. destruct (take_layer w c3 (l_ice p)) as [i c4]. split; reflexivity.
Qed.
Lemma take_l_neg w ls : forall chg, chg <= 0 -> take_l w chg ls = (ls, chg).
Proof. induction ls as [|l r IH]; intros chg H; cbn; auto. rewrite take_layer_neg, IH; auto. Qed.
Lemma take_l_spec w ls : forall chg, 0 <= chg -> Forall (fun l => 0 <= cice l) ls ->
  let r := take_l w chg ls in
  Forall2 (reduced w) ls (fst r) /\ top_down ls (fst r) /\
  sumR (map cice (fst r)) = sumR (map cice ls) - Rmin chg (sumR (map cice ls)) /\
  snd r = chg - Rmin chg (sumR (map cice ls)).
Proof.
  induction ls as [|l r IH]; intros chg C F; cbn [take_l]; cbv zeta.
  - cbn [fst snd map]. rewrite !sumR_nil. repeat split; auto; rmm; lra.
  - inversion F as [|? ? Hl Hr]; subst.
    pose proof (take_layer_reduced w chg l Hl) as R1. pose proof (take_layer_rest w chg l Hl C) as (R2 & R3 & R4).
    destruct (take_layer w chg l) as [l' c] eqn:E. cbn [fst snd] in *.
    destruct (IH c R4 Hr) as (A & B & D & G).
    destruct (take_l w c r) as [r' c'] eqn:E'. cbn [fst snd] in *.
    assert (S : 0 <= sumR (map cice r)) by (apply sumR_nonneg; rewrite Forall_map; exact Hr).
    cbn [map]. rewrite !sumR_cons. repeat split; auto.
    + destruct (Rle_lt_dec (cice l') 0); auto. right.
      assert (c = 0) by (revert R3 R2; rmm; lra). subst c.
      rewrite take_l_neg in E' by lra. injection E' as <- _. auto.
    + rewrite D. revert R3 R2. rmm; lra.
    + rewrite G. revert R3 R2. rmm; lra.
Qed.
(** ** Routing *)
Lemma route_layer_routed cap r l ls ls' caps r' : 0 <= r ->
  routed caps (snd (route_layer cap r l)) ls ls' r' ->
  routed (cap :: caps) r (l :: ls) (fst (route_layer cap r l) :: ls') r'.
Proof.
  intros Hr. unfold route_layer. destruct (Rlt_dec 0 (cice l + clw l)); cbn [fst snd]; intro H.
  - apply routed_layer with (r1 := Rmax (clw l + r - cap) 0); cbn; auto; rmm; first [lra | left; lra | right; lra].
  - apply routed_skip; auto; lra.
Qed.
Lemma route_layer_nonneg cap r l : 0 <= r -> 0 <= snd (route_layer cap r l).
Proof. intro. unfold route_layer. destruct (Rlt_dec _ _); cbn [snd]; rmm; lra. Qed.
Lemma routed_sum caps r ls ls' r' : routed caps r ls ls' r' ->
  sumR (map clw ls) + r = sumR (map clw ls') + r' /\ sumR (map cice ls') = sumR (map cice ls) /\
  (0 <= r -> 0 <= r').
Proof.
  induction 1; cbn [map]; rewrite ?sumR_nil, ?sumR_cons.
  - lra.
  - destruct IHrouted as (A & B & D). repeat split; try lra.
  - destruct IHrouted as (A & B & D). repeat split; try lra.
Qed.
(** The routed outcome is unique. *)
Lemma routed_unique caps r ls ls1 r1 : routed caps r ls ls1 r1 ->
  forall ls2 r2, routed caps r ls ls2 r2 -> ls1 = ls2 /\ r1 = r2.
Proof.
  assert (EXT : forall a b, cice a = cice b -> cth a = cth b -> ccold a = ccold b -> cdens a = cdens b -> calb a = calb b -> clw a = clw b -> a = b)
    by (intros [] []; cbn; intros; subst; auto).
  induction 1; intros lx rx HH; inversion HH; subst; auto; try lra.
  - match goal with A : routed caps ?a ls _ _, B : routed caps ?b ls _ _ |- _ =>
      assert (EQ : a = b /\ clw l' = clw l'0)
        by (repeat match goal with D : _ \/ _ |- _ => destruct D end; lra) end.
    destruct EQ as [<- EQ].
    match goal with B : routed caps r1 ls ?x _ |- _ => lazymatch x with ls' => fail | _ => destruct (IHrouted _ _ B) as [-> ->] end end.
    split; auto. f_equal. apply EXT; congruence.
  - match goal with B : routed caps r ls ?x _ |- _ => lazymatch x with ls' => fail | _ => destruct (IHrouted _ _ B) as [-> ->] end end. auto.
Qed.

(** ** Invariants within a step *)
Definition loose (l : clayer) : Prop :=
  0 <= clw l /\ 0 <= ccold l /\ ((cth l = 0 /\ cice l = 0) \/ (0 < cth l /\ 0 < cice l)).
Definition tight (l : clayer) : Prop := loose l /\ (cice l = 0 -> clw l = 0).
Lemma coherent_tight l : coherent l -> tight l.
Proof.
  unfold tight, loose. intros [(A & B & C & D)|(A & B & C & D & E)].
  - repeat split; try lra.
  - repeat split; try lra.
Qed.
Lemma coherent_loose l : coherent l -> loose l. Proof. intro H. apply coherent_tight in H. apply H. Qed.
Lemma forall_lays (P : clayer -> Prop) p :
  Forall P (lays p) <-> P (l_new p) /\ P (l_old p) /\ P (l_firn p) /\ P (l_ice p).
Proof.
  unfold lays. split.
  - intro H. inversion H; subst. inversion H3; subst. inversion H5; subst. inversion H7; subst. auto.
  - intros (A & B & C & D). repeat constructor; auto.
Qed.
Lemma tot_mass p : tot_ice p + tot_lw p = cmass (l_new p) + cmass (l_old p) + cmass (l_firn p) + cmass (l_ice p).
Proof. unfold tot_ice, tot_lw, lays, cmass. cbn [map]. rewrite !sumR_cons, !sumR_nil. lra. Qed.
Lemma tot_ice_eq p : tot_ice p = cice (l_new p) + cice (l_old p) + cice (l_firn p) + cice (l_ice p).
Proof. unfold tot_ice, lays. cbn [map]. rewrite !sumR_cons, !sumR_nil. lra. Qed.

Lemma anderson_coherent dt air load l : 0 <= dt -> 0 <= load -> coherent l ->
  coherent (fst (anderson_layer dt air load l)) /\ 0 <= snd (anderson_layer dt air load l) /\
  cice (fst (anderson_layer dt air load l)) = cice l /\ clw (fst (anderson_layer dt air load l)) = clw l /\
  calb (fst (anderson_layer dt air load l)) = calb l /\ ccold (fst (anderson_layer dt air load l)) = ccold l /\
  0 <= cth (fst (anderson_layer dt air load l)) <= cth l.
Proof.
  intros Hd Hl H. unfold anderson_layer. destruct H as [(A & B & C & D)|(A & B & C & D & E)].
  - destruct (Rlt_dec 0 (cth l)); [lra|]. cbn [fst snd]. repeat split; auto; try lra. left; repeat split; auto.
  - destruct (Rlt_dec 0 (cth l)); [|lra]. cbn [fst snd cice clw calb ccold cth].
    assert (M : 0 < cmass l) by (unfold cmass; lra).
    assert (R0 : 0 < dens_layer (to_layer l)).
    { unfold dens_layer, to_layer; cbn. apply Rdiv_lt_0_compat; auto; lra. }
    assert (R1 : dens_layer (to_layer l) <= dens_anderson dt air (load + cmass l / 2) (to_layer l)).
    { unfold dens_anderson. enough (0 <= anderson_rate air (load + cmass l / 2) (to_layer l) * (dt / SECONDS_PER_HOUR)) by lra.
      apply Rmult_le_pos; [|unfold SECONDS_PER_HOUR; lra].
      unfold anderson_rate. destruct air as [ta|]; [|lra]. apply Rmult_le_pos; [lra|].
      apply Rplus_le_le_0_compat.
      - apply Rmult_le_pos; [apply Rmult_le_pos; lra|left; apply exp_pos].
      - apply Rmult_le_pos; [apply Rmult_le_pos; [destruct (Rlt_dec _ _); lra|left; apply exp_pos]|].
        destruct (Rlt_dec _ _); [left; apply exp_pos|lra]. }
    set (rho := dens_anderson dt air (load + cmass l / 2) (to_layer l)) in *.
    assert (RP : 0 < rho) by lra.
    assert (T : 0 < cmass l / rho) by (apply Rdiv_lt_0_compat; auto).
    repeat split; auto; try lra.
    + right. unfold present; cbn. repeat split; auto; try lra. f_equal. unfold cmass in *. field. split; lra.
    + apply Rmult_le_reg_r with rho; auto. unfold Rdiv. rewrite Rmult_assoc, Rinv_l by lra.
      rewrite Rmult_1_r. unfold dens_layer, to_layer in R1; cbn in R1.
      apply Rmult_le_compat_l with (r := cth l) in R1; [|lra].
      replace (cth l * ((cice l + clw l) / cth l)) with (cmass l) in R1 by (unfold cmass; field; lra). lra.
Qed.

Lemma firn_coherent c l : 500 <= tr_ice c -> 0 <= cc_dt c -> coherent l ->
  exists l', firn_layer c l = Some l' /\ coherent l' /\ cice l' = cice l /\ clw l' = clw l /\ calb l' = calb l /\ ccold l' = ccold l /\ 0 <= cth l' <= cth l.
Proof.
  intros Ht Hd H. unfold firn_layer. destruct H as [(A & B & C & D)|(A & B & C & D & E)].
  - destruct (Rlt_dec 0 (cth l)); [lra|]. exists l. repeat split; auto; try lra. left; repeat split; auto.
  - destruct (Rlt_dec 0 (cth l)); [|lra]. rewrite E. cbn [numplus numdiv].
    assert (M : 0 < cmass l) by (unfold cmass; lra).
    set (d0 := (cice l + clw l) / cth l). assert (D0 : 0 < d0) by (apply Rdiv_lt_0_compat; lra).
    assert (F : 0 <= firn_rate c * (cc_dt c / SECONDS_PER_HOUR)).
    { apply Rmult_le_pos; [|unfold SECONDS_PER_HOUR; lra]. unfold firn_rate, HOURS_PER_DAY, DAYS_PER_YEAR.
      apply Rmult_le_pos; [lra|]. left. apply Rinv_0_lt_compat. lra. }
    set (d := d0 + firn_rate c * (cc_dt c / SECONDS_PER_HOUR)). assert (DP : d0 <= d) by (unfold d; lra).
    destruct (Req_EM_T d 0); [lra|]. eexists; split; [reflexivity|]. cbn.
    assert (T : 0 < cmass l / d) by (apply Rdiv_lt_0_compat; lra).
    repeat split; auto; try lra.
    + right. unfold present; cbn. repeat split; auto; try lra. f_equal. unfold cmass in *. field. split; lra.
    + apply Rmult_le_reg_r with d; [lra|]. unfold Rdiv. rewrite Rmult_assoc, Rinv_l by lra.
      apply Rmult_le_compat_l with (r := cth l) in DP; [|lra].
      replace (cth l * d0) with (cmass l) in DP by (unfold cmass, d0; field; lra). lra.
Qed.
Lemma ice_coherent c l : 0 < tr_ice c -> coherent l ->
  exists l', ice_layer c l = Some l' /\ coherent l' /\ cice l' = cice l /\ clw l' = clw l /\ calb l' = calb l /\ ccold l' = ccold l /\ (0 < cth l -> cdens l' = Some (tr_ice c)).
Proof.
  intros Ht H. unfold ice_layer. destruct H as [(A & B & C & D)|(A & B & C & D & E)].
  - destruct (Rlt_dec 0 (cth l)); [lra|]. exists l. repeat split; auto; try lra. left; repeat split; auto.
  - destruct (Rlt_dec 0 (cth l)); [|lra]. cbn [numdiv]. destruct (Req_EM_T (tr_ice c) 0); [lra|].
    eexists; split; [reflexivity|]. cbn. assert (M : 0 < cmass l) by (unfold cmass; lra).
    assert (T : 0 < cmass l / tr_ice c) by (apply Rdiv_lt_0_compat; lra).
    repeat split; auto. right. unfold present; cbn. repeat split; auto. f_equal. unfold cmass in *. field. split; lra.
Qed.

Definition same_water (p q : cpix) : Prop :=
  Forall2 (fun l l' => cice l' = cice l /\ clw l' = clw l /\ ccold l' = ccold l) (lays p) (lays q).
Lemma same_water_tot p q : same_water p q -> tot_ice q = tot_ice p /\ tot_lw q = tot_lw p /\ tot_cold q = tot_cold p.
Proof.
  unfold same_water, tot_ice, tot_lw, tot_cold. intro F. induction F as [|a b la lb (A & B & C) F IH]; cbn [map]; auto.
  rewrite !sumR_cons, A, B, C. destruct IH as (-> & -> & ->). auto.
Qed.
Lemma compaction_ok c air p : 500 <= tr_ice c -> 0 <= cc_dt c -> coherent_pix p ->
  exists q, compaction c air p = Some q /\ coherent_pix q /\ same_water p q /\
    Forall2 (fun l l' => calb l' = calb l) (lays p) (lays q) /\ palb q = palb p.
Proof.
  intros Ht Hd H. unfold coherent_pix in *. rewrite forall_lays in H. destruct H as (A & B & C & D).
  unfold compaction.
  destruct (anderson_coherent (cc_dt c) air 0 (l_new p) Hd ltac:(lra) A) as (N1 & N2 & N3 & N4 & N5 & N6 & _).
  destruct (anderson_layer (cc_dt c) air 0 (l_new p)) as [n load]. cbn [fst snd] in *.
  destruct (anderson_coherent (cc_dt c) air load (l_old p) Hd N2 B) as (O1 & _ & O3 & O4 & O5 & O6 & _).
  destruct (anderson_layer (cc_dt c) air load (l_old p)) as [o load2]. cbn [fst snd] in *.
  destruct (firn_coherent c (l_firn p) Ht Hd C) as (f & -> & F1 & F2 & F3 & F4 & F5 & _).
  destruct (ice_coherent c (l_ice p) ltac:(lra) D) as (i & -> & I1 & I2 & I3 & I4 & I5 & _).
  eexists; split; [reflexivity|]. rewrite forall_lays. cbn. unfold same_water, lays; cbn. repeat split; auto; repeat constructor; auto.
Qed.

Lemma add_snow_loose c a d p : 0 < a -> 0 < d -> Forall loose (lays p) ->
  Forall loose (lays (add_snow c a 0 d None p)).
Proof.
  intros Ha Hd. rewrite !forall_lays. intros (A & B & C & D). cbn [add_snow l_new l_old l_firn l_ice]. repeat split; auto; try apply B; try apply C; try apply D.
  - cbn. destruct A as (A & _). lra.
  - cbn. apply A.
  - right. cbn. assert (0 < a / d) by (apply Rdiv_lt_0_compat; auto). destruct A as (_ & _ & [A|A]); lra.
Qed.
Lemma add_snow_coherent c a d p : 0 < a -> 0 < d -> coherent_pix p -> coherent_pix (add_snow c a 0 d None p).
Proof.
  intros Ha Hd. unfold coherent_pix. rewrite !forall_lays. intros (A & B & C & D). cbn [add_snow l_new l_old l_firn l_ice].
  repeat split; auto. right. assert (0 < a / d) by (apply Rdiv_lt_0_compat; auto).
  assert (0 <= cth (l_new p) /\ 0 <= cice (l_new p) /\ 0 <= clw (l_new p) /\ 0 <= ccold (l_new p)) as (X & Y & Z & W).
  { destruct A as [(A1 & A2 & A3 & A4)|(A1 & A2 & A3 & A4 & _)]; lra. }
  unfold present; cbn. repeat split; try lra. destruct (Req_EM_T _ 0); [lra|reflexivity].
Qed.
Lemma add_snow_mass c a w d alb p :
  let q := add_snow c a w d alb p in
  cice (l_new q) = cice (l_new p) + a /\ clw (l_new q) = clw (l_new p) + w /\
  cth (l_new q) = cth (l_new p) + a / d /\ l_old q = l_old p /\ l_firn q = l_firn p /\ l_ice q = l_ice p.
Proof. cbn. auto 10. Qed.
Lemma add_snow_tot c a w d alb p : tot_ice (add_snow c a w d alb p) = tot_ice p + a /\ tot_lw (add_snow c a w d alb p) = tot_lw p + w.
Proof. unfold tot_ice, tot_lw, lays. cbn [map]. rewrite !sumR_cons, !sumR_nil. cbn. lra. Qed.

Definition pos_part (x : num) : R := match x with Some v => Rmax v 0 | None => 0 end.
Lemma fresh_pos t : 0 < fresh_snow_density t.
Proof. pose proof (fresh_snow_density_min t). lra. Qed.
Lemma accumulation_ok c s wb p : coherent_pix p ->
  let q := accumulation c s wb p in coherent_pix q /\ tot_ice q = tot_ice p + pos_part s /\ tot_lw q = tot_lw p.
Proof.
  intro H. unfold accumulation. destruct s as [s|]; cbn [pos_part]; [|split; auto; lra].
  destruct (Rlt_dec 0 s).
  - cbv zeta. destruct (add_snow_tot c s 0 (fresh_snow_density wb) None p) as [-> ->].
    split; [apply add_snow_coherent; auto; apply fresh_pos|]. rmm; lra.
  - cbv zeta. split; auto. rmm; lra.
Qed.

Lemma set_alb_coherent a l : coherent l -> coherent (set_alb a l).
Proof. intros [H|H]; [left|right]; exact H. Qed.
Lemma albedo_aging_ok c t s p : coherent_pix p -> coherent_pix (albedo_aging c t s p) /\ same_water p (albedo_aging c t s p).
Proof.
  unfold coherent_pix, same_water. rewrite !forall_lays. intros (A & B & C & D). unfold albedo_aging, lays.
  destruct (single_albedo c); cbn [l_new l_old l_firn l_ice].
  - split.
    + repeat split; repeat match goal with |- context [if ?x then _ else _] => destruct x | |- context [match ?x with _ => _ end] => destruct x end; auto; apply set_alb_coherent; auto.
    + repeat constructor; repeat match goal with |- context [if ?x then _ else _] => destruct x | |- context [match ?x with _ => _ end] => destruct x end; auto.
  - split.
    + repeat split; repeat match goal with |- context [match ?x with _ => _ end] => destruct x end; auto; apply set_alb_coherent; auto.
    + repeat constructor; repeat match goal with |- context [match ?x with _ => _ end] => destruct x end; auto.
Qed.
Lemma layer_density_same l : cice (layer_density l) = cice l /\ clw (layer_density l) = clw l /\ ccold (layer_density l) = ccold l /\ cth (layer_density l) = cth l /\ calb (layer_density l) = calb l.
Proof. unfold layer_density. destruct (Rlt_dec _ _); cbn; auto 10. Qed.
Lemma layer_density_coherent l : coherent l -> coherent (layer_density l).
Proof.
  unfold layer_density. intros [H|H]; destruct (Rlt_dec 0 (cth l)); try (left; exact H); try (right; exact H).
  - right. destruct H as (A & B & C & D & E). unfold present; cbn; auto 10.
Qed.
Lemma update_properties_ok p : coherent_pix p -> coherent_pix (update_properties p).
Proof. unfold coherent_pix. rewrite !forall_lays. intros (A & B & C & D). cbn. repeat split; apply layer_density_coherent; auto. Qed.
Lemma update_properties_water p : same_water p (update_properties p).
Proof. unfold same_water, lays; cbn. repeat constructor; apply layer_density_same. Qed.

(** ** Energy balance *)
Lemma eb_melt_layer_spec eb time l : 0 <= time -> coherent l ->
  let '(l', m, t') := eb_melt_layer eb time l in
  coherent l' /\ cice l' = cice l /\ clw l' = clw l /\ cth l' = cth l /\ cdens l' = cdens l /\ calb l' = calb l /\
  0 <= m <= cice l /\ 0 <= ccold l' <= ccold l /\ t' <= time /\
  Lf * (m + (ccold l - ccold l')) = Rmax eb 0 * (time - Rmax t' 0) /\
  (t' <= 0 \/ eb <= 0 \/ (m = cice l /\ ccold l' = 0)) /\ (0 < m -> ccold l' = 0) /\
  (0 <= t' \/ 0 < eb).
Proof.
  intros Ht H. unfold eb_melt_layer.
  assert (L : 0 < Lf) by (unfold Lf; lra).
  assert (NN : 0 <= cice l /\ 0 <= ccold l) by (destruct H as [(A & B & C & D)|(A & B & C & D & _)]; lra).
  assert (NOP : forall t, t <= 0 \/ eb <= 0 \/ (0 = cice l /\ ccold l = 0) -> t = time ->
    coherent l /\ cice l = cice l /\ clw l = clw l /\ cth l = cth l /\ cdens l = cdens l /\ calb l = calb l /\
    0 <= 0 <= cice l /\ 0 <= ccold l <= ccold l /\ t <= time /\
    Lf * (0 + (ccold l - ccold l)) = Rmax eb 0 * (time - Rmax t 0) /\
    (t <= 0 \/ eb <= 0 \/ (0 = cice l /\ ccold l = 0)) /\ (0 < 0 -> ccold l = 0) /\ (0 <= t \/ 0 < eb)).
  { intros t Hor ->. repeat split; auto; try lra. rewrite (Rmax_left time 0) by lra. lra. }
  destruct (Rlt_dec 0 (cth l)); [destruct (Rlt_dec 0 time); [destruct (Rlt_dec 0 eb)|]|].
  2: apply NOP; auto; lra.
  2: apply NOP; auto; lra.
  2: { apply NOP; auto. right; right. destruct H as [(A & B & C & D)|(A & _)]; lra. }
  destruct NN as [NI NC].
  assert (MT : Lf * (cice l + ccold l) / eb * eb = Lf * (cice l + ccold l)) by (field; lra).
  set (mt := Lf * (cice l + ccold l) / eb) in *.
  assert (MT0 : 0 <= mt). { apply Rmult_le_pos; [apply Rmult_le_pos; lra|left; apply Rinv_0_lt_compat; lra]. }
  assert (COH : forall x, 0 <= x -> coherent (set_cold x l)).
  { intros x Hx. destruct H as [(A & _)|(A & B & C & D & E)]; [lra|]. right. unfold present, set_cold; cbn. auto. }
  rewrite (Rmax_left eb 0) by lra.
  destruct (Rlt_dec mt time).
  - cbn [cice clw cth cdens calb ccold set_cold].
    repeat split; auto; try lra. apply COH; lra.
    rewrite (Rmax_left (time - mt) 0) by lra. nra.
  - assert (Q : eb * time / Lf * Lf = eb * time) by (field; lra).
    set (y := eb * time / Lf) in *.
    assert (Y : 0 <= y). { apply Rmult_le_pos; [apply Rmult_le_pos; lra|left; apply Rinv_0_lt_compat; lra]. }
    assert (YM : y <= cice l + ccold l). { apply Rmult_le_reg_r with Lf; auto. nra. }
    cbn [cice clw cth cdens calb ccold set_cold].
    rewrite (Rmax_right (time - mt) 0) by lra.
    repeat split; auto; try (rmm; lra).
    apply COH. rmm; lra. 
Qed.

Lemma eb_melt_spec eb dt p : 0 <= dt -> coherent_pix p ->
  let '(q, m) := eb_melt eb dt p in
  coherent_pix q /\ tot_ice q = tot_ice p /\ tot_lw q = tot_lw p /\ tot_th q = tot_th p /\
  0 <= m <= tot_ice p /\ 0 <= tot_cold q <= tot_cold p /\
  Lf * (m + (tot_cold p - tot_cold q)) = Rmin (Rmax eb 0 * dt) (Lf * (tot_ice p + tot_cold p)).
Proof.
  intros Hd H. unfold coherent_pix in *. rewrite forall_lays in H. destruct H as (A & B & C & D). unfold eb_melt.
  assert (ZERO : forall l t eb', t <= 0 -> eb_melt_layer eb' t l = (l, 0, t)).
  { intros l t eb' Ht. unfold eb_melt_layer. destruct (Rlt_dec 0 (cth l)); auto. destruct (Rlt_dec 0 t); auto; lra. }
  assert (L : 0 < Lf) by (unfold Lf; lra).
  (* generic: chain with possibly non-positive time *)
  assert (G : forall t l, coherent l ->
    let '(l', m, t') := eb_melt_layer eb t l in
    coherent l' /\ cice l' = cice l /\ clw l' = clw l /\ cth l' = cth l /\ 0 <= m <= cice l /\ 0 <= ccold l' <= ccold l /\
    Lf * (m + (ccold l - ccold l')) = Rmax eb 0 * (Rmax t 0 - Rmax t' 0) /\
    (t' <= 0 \/ eb <= 0 \/ (m = cice l /\ ccold l' = 0)) /\ Rmax t' 0 <= Rmax t 0).
  { intros t l Hl. destruct (Rle_lt_dec t 0).
    - rewrite ZERO by auto.
      assert (0 <= cice l /\ 0 <= ccold l) by (destruct Hl as [(?&?&?&?)|(?&?&?&?&_)]; lra).
      repeat split; auto; try lra.
    - pose proof (eb_melt_layer_spec eb t l ltac:(lra) Hl) as S. destruct (eb_melt_layer eb t l) as [[l' m] t'].
      destruct S as (S1 & S2 & S3 & S4 & _ & _ & S5 & S6 & S7 & S8 & S9 & _). rewrite (Rmax_left t 0) by lra.
      repeat split; auto; try lra. rmm; lra. }
  pose proof (G dt (l_new p) A) as G1. destruct (eb_melt_layer eb dt (l_new p)) as [[n m1] t1].
  pose proof (G t1 (l_old p) B) as G2. destruct (eb_melt_layer eb t1 (l_old p)) as [[o m2] t2].
  pose proof (G t2 (l_firn p) C) as G3. destruct (eb_melt_layer eb t2 (l_firn p)) as [[f m3] t3].
  pose proof (G t3 (l_ice p) D) as G4. destruct (eb_melt_layer eb t3 (l_ice p)) as [[i m4] t4].
  destruct G1 as (P1 & P2 & P3 & P4 & P5 & P6 & P7 & P8 & P9).
  destruct G2 as (Q1 & Q2 & Q3 & Q4 & Q5 & Q6 & Q7 & Q8 & Q9).
  destruct G3 as (R1 & R2 & R3 & R4 & R5 & R6 & R7 & R8 & R9).
  destruct G4 as (S1 & S2 & S3 & S4 & S5 & S6 & S7 & S8 & S9).
  rewrite forall_lays. unfold tot_ice, tot_lw, tot_th, tot_cold, lays. cbn [map l_new l_old l_firn l_ice].
  rewrite !sumR_cons, !sumR_nil. rewrite (Rmax_left dt 0) in P7 by lra.
  repeat split; auto; try lra.
  set (E := Lf * (m1 + m2 + m3 + m4 + (ccold (l_new p) + (ccold (l_old p) + (ccold (l_firn p) + (ccold (l_ice p) + 0))) - (ccold n + (ccold o + (ccold f + (ccold i + 0))))))).
  assert (EE : E = Rmax eb 0 * (dt - Rmax t4 0)) by (unfold E; lra).
  assert (EL : E <= Lf * (cice (l_new p) + (cice (l_old p) + (cice (l_firn p) + (cice (l_ice p) + 0))) + (ccold (l_new p) + (ccold (l_old p) + (ccold (l_firn p) + (ccold (l_ice p) + 0)))))).
  { unfold E. apply Rmult_le_compat_l; lra. }
  assert (X0 : 0 <= Rmax t4 0) by apply Rmax_r. assert (X1 : 0 <= Rmax eb 0) by apply Rmax_r.
  assert (NNN : 0 <= Lf * (cice (l_new p) + (cice (l_old p) + (cice (l_firn p) + (cice (l_ice p) + 0))) + (ccold (l_new p) + (ccold (l_old p) + (ccold (l_firn p) + (ccold (l_ice p) + 0)))))) by (apply Rmult_le_pos; lra).
  fold E.
  destruct (Rle_lt_dec t4 0) as [T4|T4].
  { rewrite (Rmax_right t4 0) in EE by lra. rewrite Rmin_left; lra. }
  destruct (Rle_lt_dec eb 0) as [EB|EB].
  { rewrite (Rmax_right eb 0) in * by lra. rewrite Rmin_left; lra. }
  assert (T3 : 0 < t3). { destruct (Rle_lt_dec t3 0); auto. rewrite (Rmax_right t3 0), (Rmax_left t4 0) in S9; lra. }
  assert (T2 : 0 < t2). { destruct (Rle_lt_dec t2 0); auto. rewrite (Rmax_right t2 0), (Rmax_left t3 0) in R9; lra. }
  assert (T1 : 0 < t1). { destruct (Rle_lt_dec t1 0); auto. rewrite (Rmax_right t1 0), (Rmax_left t2 0) in Q9; lra. }
  assert (FULL : E = Lf * (cice (l_new p) + (cice (l_old p) + (cice (l_firn p) + (cice (l_ice p) + 0))) + (ccold (l_new p) + (ccold (l_old p) + (ccold (l_firn p) + (ccold (l_ice p) + 0)))))).
  { unfold E. f_equal.
    lra. }
  rewrite Rmin_right; [auto|]. rewrite <- FULL, EE. apply Rmult_le_compat_l; lra.
Qed.

Lemma refreeze_layer_spec cap avail l : 0 <= cap -> coherent l -> 0 <= avail ->
  let '(l', r, a') := refreeze_layer cap avail l in
  coherent l' /\ cth l' = cth l /\ cdens l' = cdens l /\ calb l' = calb l /\
  cice l' = cice l + r /\ clw l' = clw l - r /\ 0 <= r <= clw l /\ r <= avail /\
  (0 < cth l -> 0 < avail -> r = Rmin (clw l) avail /\ ccold l' <= cap * cmass l) /\
  0 <= a' /\ a' + r + (ccold l' - ccold l) = avail /\ (ccold l <= cap * cmass l -> ccold l <= ccold l').
Proof.
  intros Hc H Ha. unfold refreeze_layer.
  assert (NN : 0 <= clw l /\ 0 <= ccold l /\ 0 <= cmass l) by (unfold cmass; destruct H as [(?&?&?&?)|(?&?&?&?&_)]; lra).
  destruct NN as (N1 & N2 & N3).
  destruct (Rlt_dec 0 (cth l)); [destruct (Rlt_dec 0 avail)|].
  2,3: (repeat split; auto; try lra).
  destruct H as [(?&_)|(A & B & C & D & E)]; [lra|].
  cbn [cth cdens calb cice clw ccold].
  assert (R : 0 <= Rmin (clw l) avail) by (apply Rmin_glb; lra).
  pose proof (Rmin_l (clw l) avail). pose proof (Rmin_r (clw l) avail).
  set (rf := Rmin (clw l) avail) in *.
  replace (cice l + rf + (clw l - rf)) with (cmass l) by (unfold cmass; ring).
  assert (CM : 0 <= cap * cmass l) by (apply Rmult_le_pos; lra).
  pose proof (Rmin_l (avail - rf) (cap * cmass l - ccold l)). pose proof (Rmin_r (avail - rf) (cap * cmass l - ccold l)).
  assert (NC : 0 <= ccold l + Rmin (avail - rf) (cap * cmass l - ccold l)) by (rmm; lra).
  repeat split; auto; try lra.
  - right. unfold present; cbn. repeat split; auto; try lra. rewrite E. do 2 f_equal. ring.
  - intro. rmm; lra.
Qed.
Lemma eb_refreeze_spec c eb p : 0 <= cold_cap c -> coherent_pix p ->
  let '(q, r) := eb_refreeze c eb p in
  coherent_pix q /\ tot_ice q = tot_ice p + r /\ tot_lw q = tot_lw p - r /\ tot_th q = tot_th p /\
  0 <= r <= clw (l_new p) + clw (l_old p) /\ l_firn q = l_firn p /\ l_ice q = l_ice p /\
  r + (tot_cold q - tot_cold p) <= avail_cc c eb.
Proof.
  intros Hc H. unfold coherent_pix in *. rewrite forall_lays in H. destruct H as (A & B & C & D). unfold eb_refreeze.
  assert (AV : 0 <= avail_cc c eb) by (unfold avail_cc; apply Rmax_r).
  pose proof (refreeze_layer_spec (cold_cap c) (avail_cc c eb) (l_new p) Hc A AV) as G1.
  destruct (refreeze_layer (cold_cap c) (avail_cc c eb) (l_new p)) as [[n r1] a1].
  destruct G1 as (P1 & P2 & _ & _ & P3 & P4 & P5 & P6 & _ & P7 & P8 & _).
  pose proof (refreeze_layer_spec (cold_cap c) a1 (l_old p) Hc B P7) as G2.
  destruct (refreeze_layer (cold_cap c) a1 (l_old p)) as [[o r2] a2].
  destruct G2 as (Q1 & Q2 & _ & _ & Q3 & Q4 & Q5 & Q6 & _ & Q7 & Q8 & _).
  rewrite forall_lays. unfold tot_ice, tot_lw, tot_th, tot_cold, lays. cbn [map l_new l_old l_firn l_ice].
  rewrite !sumR_cons, !sumR_nil. repeat split; auto; lra.
Qed.

(** ** Melt, sublimation, runoff *)
(** A layer without ice is left exactly as it is. *)
Lemma take_layer_loose w chg l : loose l -> loose (fst (take_layer w chg l)).
Proof.
  intros (A & B & C). unfold take_layer.
  destruct (Rlt_dec 0 chg); [destruct (Rlt_dec 0 (cice l))|]; cbn [fst]; try (split; [|split]; auto).
  - cbn. destruct w; auto. pose proof (Rmin_glb chg (cice l) 0). lra.
  - cbn. pose proof (Rmin_r chg (cice l)) as M. destruct (Req_EM_T (Rmin chg (cice l)) (cice l)) as [->|N].
    + left. split; [|lra]. unfold Rdiv. rewrite Rinv_r by lra. ring.
    + right. assert (0 < cice l - Rmin chg (cice l)) by lra. split; auto.
      destruct C as [C|C]; [lra|]. apply Rmult_lt_0_compat; [lra|].
      assert (Rmin chg (cice l) / cice l < 1); [|lra].
      apply Rmult_lt_reg_r with (cice l); auto. unfold Rdiv. rewrite Rmult_assoc, Rinv_l by lra. lra.
Qed.
Lemma take_l_loose w ls : forall chg, Forall loose ls -> Forall loose (fst (take_l w chg ls)).
Proof.
  induction ls as [|l r IH]; intros chg H; cbn [take_l]; auto. inversion H; subst.
  pose proof (take_layer_loose w chg l ltac:(auto)) as A. destruct (take_layer w chg l) as [l' c].
  pose proof (IH c ltac:(auto)) as B. destruct (take_l w c r) as [r' c']. cbn in *. constructor; auto.
Qed.
Lemma take_loose w chg p : Forall loose (lays p) -> Forall loose (lays (fst (take w chg p))).
Proof. intro H. destruct (take_take_l w chg p) as [-> _]. apply take_l_loose; auto. Qed.
Lemma loose_ice l : loose l -> 0 <= cice l. Proof. intros (_ & _ & [?|?]); lra. Qed.
Lemma forall_impl {A} (P Q : A -> Prop) l : (forall x, P x -> Q x) -> Forall P l -> Forall Q l.
Proof. intros H F; induction F; constructor; auto. Qed.
Lemma reduced_sum_lw w ls ls' : Forall2 (reduced w) ls ls' ->
  sumR (map clw ls') = sumR (map clw ls) + (if w then sumR (map cice ls) - sumR (map cice ls') else 0).
Proof.
  induction 1 as [|a b la lb (_ & _ & E & _) F IH]; cbn [map]; rewrite ?sumR_nil, ?sumR_cons; [destruct w; lra|].
  rewrite IH, E. destruct w; lra.
Qed.
Lemma take_spec w chg p : 0 <= chg -> Forall (fun l => 0 <= cice l) (lays p) ->
  let q := fst (take w chg p) in
  Forall2 (reduced w) (lays p) (lays q) /\ top_down (lays p) (lays q) /\
  tot_ice q = tot_ice p - Rmin chg (tot_ice p) /\ tot_lw q = tot_lw p + (if w then Rmin chg (tot_ice p) else 0) /\
  snd (take w chg p) = chg - Rmin chg (tot_ice p).
Proof.
  intros C H. cbv zeta. destruct (take_take_l w chg p) as [E1 E2].
  destruct (take_l_spec w (lays p) chg C H) as (A & B & D & F).
  unfold tot_ice, tot_lw. rewrite E2, E1. split; auto. split; auto. split; [exact D|]. split; [|exact F].
  rewrite (reduced_sum_lw w _ _ A), D. unfold tot_ice. destruct w; lra.
Qed.
Lemma take_neg w chg p : chg <= 0 -> take w chg p = (p, chg).
Proof. intro H. unfold take. rewrite !take_layer_neg by auto. destruct p; reflexivity. Qed.

Lemma melt_ok m p : Forall loose (lays p) ->
  let q := melt m p in Forall loose (lays q) /\ tot_ice q + tot_lw q = tot_ice p + tot_lw p.
Proof.
  intro H. destruct m as [m|]; cbn [melt]; cbv zeta; [|auto].
  split; [apply take_loose; auto|].
  destruct (Rle_lt_dec m 0).
  - rewrite take_neg by auto. reflexivity.
  - destruct (take_spec true m p ltac:(lra)) as (_ & _ & -> & -> & _); [|lra].
    apply forall_impl with (2 := H). apply loose_ice.
Qed.
Lemma sublimation_ok c mf wb p : Forall loose (lays p) ->
  let '(q, s) := sublimation c mf wb p in
  Forall loose (lays q) /\ tot_ice q = tot_ice p - s /\ tot_lw q = tot_lw p /\ s <= tot_ice p.
Proof.
  intro H. unfold sublimation.
  assert (HI : Forall (fun l => 0 <= cice l) (lays p)) by (apply forall_impl with (2 := H); apply loose_ice).
  assert (T : 0 <= tot_ice p) by (apply sumR_nonneg; rewrite Forall_map; auto).
  assert (L : sublimation_amount (cc_dt c) mf p <= tot_ice p).
  { unfold sublimation_amount. destruct (Rlt_dec _ _); [apply Rmin_r|lra]. }
  set (s := sublimation_amount (cc_dt c) mf p) in *.
  destruct (Rle_lt_dec 0 s) as [S|S].
  - destruct (take_spec false s p S HI) as (_ & _ & A & B & C). pose proof (take_loose false s p H) as D.
    destruct (take false s p) as [q chg]. cbn [fst snd] in *. rewrite (Rmin_left s) in * by lra.
    destruct (Rlt_dec chg 0); [lra|]. repeat split; auto; lra.
  - rewrite take_neg by lra. destruct (Rlt_dec s 0); [|lra].
    destruct (add_snow_tot c (- s) 0 (fresh_snow_density wb) None p) as [-> ->].
    repeat split; try lra. apply add_snow_loose; auto; [lra|apply fresh_pos].
Qed.

Lemma routed_loose caps r ls ls' r' : routed caps r ls ls' r' -> Forall (fun x => 0 <= x) caps -> 0 <= r ->
  Forall loose ls -> Forall loose ls'.
Proof.
  induction 1 as [|cap caps r l l' r1 ls ls' r' H H0 H1 H2 H3 H4 H5 H6 H7 H8 H9 IH|cap caps r l ls ls' r' H H0 IH]; intros HC HR HL; auto.
  - inversion HC; subst. inversion HL as [|? ? (A & B & C) ?]; subst. constructor; auto.
    repeat split.
    + destruct H8; lra.
    + rewrite H2; auto.
    + rewrite H0, H1. auto.
  - inversion HC; subst. inversion HL; subst. constructor; auto.
Qed.
(** Layers without ice keep no water. *)
Lemma routed_dry caps r ls ls' r' : routed caps r ls ls' r' -> Forall loose ls ->
  Forall2 (fun cap l => cice l = 0 -> cap = 0) caps ls -> Forall (fun x => 0 <= x) caps -> 0 <= r ->
  Forall tight ls'.
Proof.
  intros H. induction H as [|cap caps r l l' r1 ls ls' r' H H0 H1 H2 H3 H4 H5 H6 H7 H8 H9 IH|cap caps r l ls ls' r' H H0 IH]; intros HL HZ HC HR; auto.
  - inversion HC; subst. inversion HL as [|? ? (A & B & C) ?]; subst. inversion HZ as [|? ? ? ? Z ?]; subst. constructor; auto.
    split; [repeat split|].
    + destruct H8; lra.
    + rewrite H2; auto.
    + rewrite H0, H1. auto.
    + rewrite H0. intro E. specialize (Z E). destruct H8; lra.
  - inversion HC; subst. inversion HL as [|? ? LL ?]; subst. inversion HZ as [|? ? ? ? Z ?]; subst. constructor; auto.
    split; auto. intro E. destruct LL as (A & _). lra.
Qed.
Definition capacities (c : ccfg) (p : cpix) : list R :=
  [max_lwc (cc_lwc c) (cc_mx c) (to_layer (l_new p)); max_lwc (cc_lwc c) (cc_mx c) (to_layer (l_old p)); 0; 0].
Lemma runoff_routed c rain p : 0 <= nan_to_zero rain ->
  routed (capacities c p) (nan_to_zero rain) (lays p) (lays (fst (runoff c rain p))) (snd (runoff c rain p)) /\
  palb (fst (runoff c rain p)) = palb p.
Proof.
  intro H. unfold runoff, capacities.
  set (ca := max_lwc (cc_lwc c) (cc_mx c) (to_layer (l_new p))). set (cb := max_lwc (cc_lwc c) (cc_mx c) (to_layer (l_old p))).
  assert (E : forall cap r l, route_layer cap r l = (fst (route_layer cap r l), snd (route_layer cap r l))) by (intros; apply surjective_pairing).
  rewrite (E ca), (E cb), (E 0 _ (l_firn p)), (E 0 _ (l_ice p)). cbn [fst snd palb]. split; auto.
  unfold lays; cbn [l_new l_old l_firn l_ice].
  pose proof (route_layer_nonneg ca _ (l_new p) H) as N1.
  pose proof (route_layer_nonneg cb _ (l_old p) N1) as N2.
  pose proof (route_layer_nonneg 0 _ (l_firn p) N2) as N3.
  repeat (apply route_layer_routed; auto). constructor.
Qed.
Definition not_denser_than_ice (c : ccfg) (p : cpix) : Prop :=
  cc_lwc c = MassFraction \/
  (cice (l_new p) <= ICE_DENSITY * cth (l_new p) /\ cice (l_old p) <= ICE_DENSITY * cth (l_old p)).
Lemma cap_facts c l : 0 <= cc_mx c -> loose l ->
  (cc_lwc c = MassFraction \/ cice l <= ICE_DENSITY * cth l) ->
  0 <= max_lwc (cc_lwc c) (cc_mx c) (to_layer l) /\ (cice l = 0 -> max_lwc (cc_lwc c) (cc_mx c) (to_layer l) = 0).
Proof.
  intros Hm (A & B & C) D. unfold max_lwc, to_layer; cbn [th ice].
  destruct (cc_lwc c).
  - destruct D as [D|D]; [discriminate|]. destruct (Rlt_dec 0 (cth l)) as [P|P].
    + assert (X : WATER_DENSITY * cth l * (1 - cice l / (ICE_DENSITY * cth l)) * cc_mx c = WATER_DENSITY * (cth l - cice l / ICE_DENSITY) * cc_mx c)
        by (unfold ICE_DENSITY; field; lra).
      rewrite X. unfold WATER_DENSITY, ICE_DENSITY in *. split.
      * apply Rmult_le_pos; auto. lra.
      * lra.
    + split; [|intros _]; rewrite Rmult_0_r; lra.
  - split; [|intros ->; ring]. apply Rmult_le_pos; auto. destruct C; lra.
Qed.
Lemma runoff_ok c rain p : 0 <= nan_to_zero rain -> 0 <= cc_mx c -> Forall loose (lays p) -> not_denser_than_ice c p ->
  let '(q, ro) := runoff c rain p in
  Forall tight (lays q) /\ tot_ice q = tot_ice p /\ tot_lw p + nan_to_zero rain = tot_lw q + ro /\ 0 <= ro.
Proof.
  intros Hr Hm HL ND. destruct (runoff_routed c rain p Hr) as [R _]. destruct (runoff c rain p) as [q ro]. cbn [fst snd] in *.
  pose proof (routed_sum _ _ _ _ _ R) as (A & B & D).
  pose proof HL as HL'. rewrite forall_lays in HL'. destruct HL' as (L1 & L2 & L3 & L4).
  destruct (cap_facts c (l_new p) Hm L1) as [C1 C2]; [destruct ND; tauto|].
  destruct (cap_facts c (l_old p) Hm L2) as [C3 C4]; [destruct ND; tauto|].
  repeat split; auto.
  apply (routed_dry _ _ _ _ _ R HL); auto.
  - unfold capacities, lays. repeat (apply Forall2_cons; [auto|]). apply Forall2_nil.
  - unfold capacities. repeat (apply Forall_cons; [auto; lra|]). apply Forall_nil.
Qed.

(** ** Rebuilding the layers *)
Lemma refresh_ok l : tight l -> exists l', refresh_layer (layer_density l) = Some l' /\ coherent l' /\ cmass l' = cmass l /\
  cice l' = cice l /\ clw l' = clw l /\ (0 < cmass l -> cth l' = cth l /\ calb l' = calb l /\ ccold l' = ccold l) /\ (cmass l <= 0 -> l' = reset_layer).
Proof.
  intros [(A & B & C) D]. destruct (layer_density_same l) as (S1 & S2 & S3 & S4 & S5).
  unfold refresh_layer. unfold cmass. rewrite S1, S2.
  destruct (Rle_dec (cice l + clw l) 0) as [Z|Z].
  - exists reset_layer. assert (cice l = 0 /\ clw l = 0) as [-> ->] by (destruct C as [C|C]; lra).
    cbn. repeat split; auto; try lra. left; repeat split; auto.
  - assert (P : 0 < cth l /\ 0 < cice l). { destruct C as [[C1 C2]|C]; auto. specialize (D C2). lra. }
    unfold layer_density. destruct (Rlt_dec 0 (cth l)); [|lra]. cbn [cdens numdiv cice clw ccold calb].
    assert (Q : 0 < (cice l + clw l) / cth l) by (apply Rdiv_lt_0_compat; lra).
    destruct (Req_EM_T _ 0); [lra|]. eexists; split; [reflexivity|]. cbn.
    assert (E : (cice l + clw l) / ((cice l + clw l) / cth l) = cth l) by (field; lra). rewrite E.
    repeat split; auto; try lra. right. unfold present; cbn. repeat split; auto; lra.
Qed.
Lemma transition_ok pos src dst : coherent src -> coherent dst ->
  exists s d, transition pos src dst = Some (s, d) /\ coherent s /\ coherent d /\
    cice s + cice d = cice src + cice dst /\ clw s + clw d = clw src + clw dst /\ ccold s + ccold d = ccold src + ccold dst /\
    (pos = true -> s = reset_layer) /\ (pos = false -> s = src /\ d = dst) /\
    0 <= cth s + cth d <= cth src + cth dst /\ (cth dst = 0 \/ cth src = 0 -> cth s + cth d = cth src + cth dst).
Proof.
  intros Hs Hd. unfold transition. destruct pos.
  2:{ exists src, dst. repeat split; auto; try discriminate; try lra. destruct Hs as [(?&_)|(?&_)], Hd as [(?&_)|(?&_)]; lra. }
  assert (CR : coherent reset_layer) by (left; repeat split; auto).
  destruct Hs as [(A & B & C & D)|(A & B & C & D & E)].
  - destruct (Rlt_dec 0 (cth src)); [lra|]. exists reset_layer, dst. cbn. repeat split; auto; try discriminate; try lra.
    destruct Hd as [(?&_)|(?&_)]; lra.
  - destruct (Rlt_dec 0 (cth src)); [|lra].
    destruct Hd as [(A' & B' & C' & D')|(A' & B' & C' & D' & E')].
    + destruct (Rlt_dec 0 (cth dst)); [lra|]. destruct (Req_EM_T (cth dst) 0); [|lra].
      exists reset_layer, src. cbn. repeat split; auto; try discriminate; try lra. right; repeat split; auto.
    + destruct (Rlt_dec 0 (cth dst)); [|lra]. rewrite E, E'. cbn [wmean numscale numplus numdiv].
      assert (M1 : 0 < cmass src) by (unfold cmass; lra). assert (M2 : 0 < cmass dst) by (unfold cmass; lra).
      fold (cmass src) (cmass dst).
      set (m1 := cmass src) in *. set (m2 := cmass dst) in *. set (a := cth src) in *. set (b := cth dst) in *.
      assert (DQ : m1 / (m1 + m2) * (m1 / a) + m2 / (m1 + m2) * (m2 / b) = (m1 * m1 * b + m2 * m2 * a) / ((m1 + m2) * (a * b))) by (field; lra).
      assert (N0 : 0 < m1 * m1 * b + m2 * m2 * a).
      { assert (0 < m1 * m1) by nra. assert (0 < m2 * m2) by nra. nra. }
      assert (AB : 0 < (m1 + m2) * (a * b)) by (apply Rmult_lt_0_compat; [lra|apply Rmult_lt_0_compat; lra]).
      assert (DP : 0 < (m1 * m1 * b + m2 * m2 * a) / ((m1 + m2) * (a * b))) by (apply Rdiv_lt_0_compat; auto).
      rewrite DQ. destruct (Req_EM_T _ 0); [lra|].
      exists reset_layer. eexists. split; [reflexivity|]. cbn [cice clw ccold cth reset_layer].
      replace (cice dst + cice src + (clw dst + clw src)) with (m1 + m2) by (unfold m1, m2, cmass; ring).
      assert (TE : (m1 + m2) / ((m1 * m1 * b + m2 * m2 * a) / ((m1 + m2) * (a * b))) = (m1 + m2) * (m1 + m2) * (a * b) / (m1 * m1 * b + m2 * m2 * a)) by (field; repeat split; lra).
      rewrite TE.
      assert (TP : 0 < (m1 + m2) * (m1 + m2) * (a * b) / (m1 * m1 * b + m2 * m2 * a)).
      { apply Rdiv_lt_0_compat; auto. apply Rmult_lt_0_compat; [nra|]. apply Rmult_lt_0_compat; lra. }
      assert (TL : (m1 + m2) * (m1 + m2) * (a * b) / (m1 * m1 * b + m2 * m2 * a) <= a + b).
      { apply Rmult_le_reg_r with (m1 * m1 * b + m2 * m2 * a); auto. unfold Rdiv. rewrite Rmult_assoc, Rinv_l, Rmult_1_r by lra.
        assert (0 <= Rsqr (m1 * b - m2 * a)) by apply Rle_0_sqr. unfold Rsqr in *. nra. }
      repeat split; auto; try discriminate; try lra.
      right. unfold present; cbn [cth cice clw ccold cdens]. repeat split; try lra.
      f_equal. replace (cice dst + cice src + (clw dst + clw src)) with (m1 + m2) by (unfold m1, m2, cmass; ring).
      field. repeat split; lra.
Qed.

Lemma update_layers_ok c tf p : Forall tight (lays p) ->
  exists q, update_layers c tf (update_properties p) = Some q /\ coherent_pix q /\
    tot_ice q = tot_ice p /\ tot_lw q = tot_lw p /\ palb q = palb (update_properties p) /\
    (tf = true -> absent (l_old q)) /\
    (forall d, cdens (l_new q) = Some d -> d < tr_old c) /\ (forall d, cdens (l_firn q) = Some d -> d < tr_ice c).
Proof.
  rewrite forall_lays. intros (A & B & C & D). unfold update_layers, update_properties. cbn [l_new l_old l_firn l_ice palb].
  destruct (refresh_ok _ A) as (n & -> & N1 & _ & N2 & N3 & _).
  destruct (refresh_ok _ B) as (o & -> & O1 & _ & O2 & O3 & _).
  destruct (refresh_ok _ C) as (f & -> & F1 & _ & F2 & F3 & _).
  destruct (refresh_ok _ D) as (i & -> & I1 & _ & I2 & I3 & _).
  assert (NG : forall x a, numge x a = false -> forall d, x = Some d -> d < a).
  { intros x a H d ->. cbn in H. destruct (Rle_dec a d); [discriminate|lra]. }
  destruct (transition_ok (numge (cdens n) (tr_old c)) n o N1 O1) as (n1 & o1 & E1 & P1 & P2 & P3 & P4 & P5 & P6 & P7 & _).
  rewrite E1.
  destruct (transition_ok tf o1 f P2 F1) as (o2 & f2 & E2 & Q1 & Q2 & Q3 & Q4 & Q5 & Q6 & Q7 & _). rewrite E2.
  destruct (transition_ok (numge (cdens f2) (tr_ice c)) f2 i Q2 I1) as (f3 & i3 & E3 & R1 & R2 & R3 & R4 & R5 & R6 & R7 & _).
  rewrite E3. eexists; split; [reflexivity|]. unfold coherent_pix, tot_ice, tot_lw. rewrite forall_lays. unfold lays.
  cbn [l_new l_old l_firn l_ice palb map]. rewrite !sumR_cons, !sumR_nil. repeat split; auto; try lra.
  - rewrite Q6 by auto. reflexivity.
  - rewrite Q6 by auto. reflexivity.
  - rewrite Q6 by auto. reflexivity.
  - rewrite Q6 by auto. reflexivity.
  - intros d Hd. destruct (numge (cdens n) (tr_old c)) eqn:G.
    + rewrite P6 in Hd by auto. discriminate.
    + destruct (P7 eq_refl) as [-> _]. exact (NG _ _ G d Hd).
  - intros d Hd. destruct (numge (cdens f2) (tr_ice c)) eqn:G.
    + rewrite R6 in Hd by auto. discriminate.
    + destruct (R7 eq_refl) as [-> _]. exact (NG _ _ G d Hd).
Qed.

(** ** Layers lighter than ice *)
Definition lighti (l : clayer) : Prop := cice l <= ICE_DENSITY * cth l.
Lemma take_layer_lighti w chg l : lighti l -> lighti (fst (take_layer w chg l)).
Proof.
  intro H. unfold lighti, take_layer in *. destruct (Rlt_dec 0 chg); [destruct (Rlt_dec 0 (cice l))|]; cbn [fst cice cth]; auto.
  pose proof (Rmin_r chg (cice l)). set (x := Rmin chg (cice l)) in *.
  assert (E : cice l - x = cice l * (1 - x / cice l)) by (field; lra). rewrite E, <- Rmult_assoc.
  apply Rmult_le_compat_r; auto.
  assert (x / cice l <= 1); [|lra].
  apply Rmult_le_reg_r with (cice l); auto. unfold Rdiv. rewrite Rmult_assoc, Rinv_l by lra. lra.
Qed.
Definition lightp (p : cpix) : Prop := lighti (l_new p) /\ lighti (l_old p).
Lemma take_lightp w chg p : lightp p -> lightp (fst (take w chg p)).
Proof.
  intros [A B]. unfold take.
  pose proof (take_layer_lighti w chg _ A) as A'. destruct (take_layer w chg (l_new p)) as [n c1].
  pose proof (take_layer_lighti w c1 _ B) as B'. destruct (take_layer w c1 (l_old p)) as [o c2].
  destruct (take_layer w c2 (l_firn p)) as [f c3]. destruct (take_layer w c3 (l_ice p)) as [i c4]. split; assumption.
Qed.
Lemma snow_light a d : 0 < a -> 0 < d -> d <= ICE_DENSITY -> a <= ICE_DENSITY * (a / d).
Proof.
  intros. apply Rmult_le_reg_r with d; auto. unfold Rdiv. rewrite 2!Rmult_assoc, Rinv_l by lra. nra.
Qed.
Lemma add_snow_lightp c a d p : 0 < a -> 0 < d -> d <= ICE_DENSITY -> lightp p -> lightp (add_snow c a 0 d None p).
Proof.
  intros Ha Hd Hd' [A B]. split; auto. unfold lighti in *. cbn [add_snow l_new cice cth].
  pose proof (snow_light a d Ha Hd Hd'). rewrite Rmult_plus_distr_l. lra.
Qed.
Lemma sublimation_lightp c mf wb p : fresh_snow_density wb <= ICE_DENSITY -> lightp p -> lightp (fst (sublimation c mf wb p)).
Proof.
  intros Hd H. unfold sublimation. pose proof (take_lightp false (sublimation_amount (cc_dt c) mf p) p H) as L.
  destruct (take false (sublimation_amount (cc_dt c) mf p) p) as [q chg]. cbn [fst] in *.
  destruct (Rlt_dec chg 0); auto. apply add_snow_lightp; auto; [lra|apply fresh_pos].
Qed.
Definition lightm (p : cpix) : Prop := lighter_than_ice (l_new p) /\ lighter_than_ice (l_old p).
Lemma lightm_lightp p : coherent_pix p -> lightm p -> lightp p.
Proof.
  unfold coherent_pix. rewrite forall_lays. intros (A & B & _) [C D]. unfold lightp, lighti, lighter_than_ice in *.
  destruct A as [(?&?&?&?)|(?&?&?&?)], B as [(?&?&?&?)|(?&?&?&?)]; split; lra.
Qed.
Lemma accumulation_lightm c s wb p : fresh_snow_density wb <= ICE_DENSITY -> lightm p -> lightm (accumulation c s wb p).
Proof.
  intros Hd [A B]. unfold accumulation. destruct s as [s|]; [|split; auto]. destruct (Rlt_dec 0 s); [|split; auto].
  split; auto. unfold lighter_than_ice in *. cbn [add_snow l_new cice cth clw].
  pose proof (snow_light s _ ltac:(lra) (fresh_pos wb) Hd). rewrite Rmult_plus_distr_l. lra.
Qed.
Lemma lightm_same p q : cth (l_new q) = cth (l_new p) -> cth (l_old q) = cth (l_old p) ->
  cmass (l_new q) = cmass (l_new p) -> cmass (l_old q) = cmass (l_old p) -> lightm p -> lightm q.
Proof. unfold lightm, lighter_than_ice, cmass. intros -> -> -> ->. auto. Qed.
Lemma albedo_aging_lightm c t s p : lightm p -> lightm (albedo_aging c t s p).
Proof.
  unfold lightm, lighter_than_ice, albedo_aging. intros [A B].
  destruct (single_albedo c); cbn [l_new l_old]; repeat match goal with |- context [match ?x with _ => _ end] => destruct x end; cbn; auto.
Qed.
Lemma update_properties_lightm p : lightm p -> lightm (update_properties p).
Proof.
  apply lightm_same; unfold update_properties, cmass; cbn [l_new l_old].
  1,2: apply layer_density_same.
  1,2: f_equal; apply layer_density_same.
Qed.
Lemma eb_lightm c t eb p : lightm p -> lightm (fst (fst (cryo_energy_balance c t eb p))).
Proof.
  intro H. unfold cryo_energy_balance. destruct (Rlt_dec _ _); [|exact H]. destruct t as [t|]; [|exact H].
  destruct (Rle_dec T0 t).
  - assert (E : forall e t l, let l' := fst (fst (eb_melt_layer e t l)) in cth l' = cth l /\ cmass l' = cmass l).
    { intros e t1 l. cbv zeta. unfold eb_melt_layer, cmass. repeat destruct (Rlt_dec _ _); split; cbn; lra. }
    unfold eb_melt. pose proof (E eb (cc_dt c) (l_new p)) as E1. destruct (eb_melt_layer eb (cc_dt c) (l_new p)) as [[n m1] t1].
    pose proof (E eb t1 (l_old p)) as E2. destruct (eb_melt_layer eb t1 (l_old p)) as [[o m2] t2].
    destruct (eb_melt_layer eb t2 (l_firn p)) as [[f m3] t3]. destruct (eb_melt_layer eb t3 (l_ice p)) as [[i m4] t4].
    cbn [fst] in *. revert H. apply lightm_same; cbn; tauto.
  - assert (E : forall e t l, let l' := fst (fst (refreeze_layer e t l)) in cth l' = cth l /\ cmass l' = cmass l).
    { intros e t1 l. cbv zeta. unfold refreeze_layer, cmass. repeat destruct (Rlt_dec _ _); split; cbn; lra. }
    unfold eb_refreeze. pose proof (E (cold_cap c) (avail_cc c eb) (l_new p)) as E1. destruct (refreeze_layer (cold_cap c) (avail_cc c eb) (l_new p)) as [[nn m1] t1].
    pose proof (E (cold_cap c) t1 (l_old p)) as E2. destruct (refreeze_layer (cold_cap c) t1 (l_old p)) as [[o m2] t2].
    cbn [fst] in *. revert H. apply lightm_same; cbn; tauto.
Qed.

Lemma cryo_energy_balance_spec c t eb p : 0 <= cc_dt c -> 0 <= cold_cap c -> coherent_pix p ->
  let '(q, m, r) := cryo_energy_balance c t eb p in
  coherent_pix q /\ tot_ice q = tot_ice p + r /\ tot_lw q = tot_lw p - r /\ 0 <= r /\ 0 <= m <= tot_ice p.
Proof.
  intros Hd Hc H. unfold cryo_energy_balance.
  assert (T : 0 <= tot_ice p).
  { apply sumR_nonneg. rewrite Forall_map. apply forall_impl with (2 := H). intros l Hl. apply loose_ice, coherent_loose, Hl. }
  destruct (Rlt_dec _ _); [|repeat split; auto; lra]. destruct t as [t|]; [|repeat split; auto; lra].
  destruct (Rle_dec T0 t).
  - pose proof (eb_melt_spec eb (cc_dt c) p Hd H) as G. destruct (eb_melt eb (cc_dt c) p) as [q m].
    destruct G as (A & B & C & _ & D & _). repeat split; auto; lra.
  - pose proof (eb_refreeze_spec c eb p Hc H) as G. destruct (eb_refreeze c eb p) as [q m].
    destruct G as (A & B & C & _ & D & _). repeat split; auto; lra.
Qed.

(** ** One step, any run *)
Lemma cstep_ok c mm f p : ccfg_ok c -> forcing_ok f -> step_light c f p -> coherent_pix p ->
  exists q o, cstep c mm f p = Some (q, o) /\ coherent_pix q /\
    tot_ice q + tot_lw q = tot_ice p + tot_lw p + snow_in f + rain_in f - o_subl o - o_runoff o /\
    0 <= o_runoff o /\ (f_firn f = true -> absent (l_old q)) /\
    (forall d, cdens (l_new q) = Some d -> d < tr_old c) /\ (forall d, cdens (l_firn q) = Some d -> d < tr_ice c).
Proof.
  intros (Hd & Ht & Hm & Hc) Hf Hl H. unfold cstep.
  destruct (compaction_ok c (f_temp f) p Ht ltac:(lra) H) as (p1 & E1 & C1 & W1 & _). rewrite E1.
  apply same_water_tot in W1. destruct W1 as (I1 & L1 & _).
  assert (LL : cc_lwc c = MassFraction \/ (fresh_snow_density (f_wb f) <= ICE_DENSITY /\ lightm p1)).
  { destruct Hl as [|[Hl1 Hl2]]; auto. right. split; auto. apply Hl2; auto. }
  destruct (accumulation_ok c (f_snow f) (f_wb f) p1 C1) as (C2 & I2 & L2).
  assert (M2 : cc_lwc c = MassFraction \/ (fresh_snow_density (f_wb f) <= ICE_DENSITY /\ lightm (accumulation c (f_snow f) (f_wb f) p1)))
    by (destruct LL as [|[? ?]]; auto; right; split; auto; apply accumulation_lightm; auto).
  set (p2 := accumulation c (f_snow f) (f_wb f) p1) in *.
  destruct (albedo_aging_ok c (f_atemp f) (f_snow f) p2 C2) as (C3 & W3). apply same_water_tot in W3. destruct W3 as (I3 & L3 & _).
  assert (M3 : cc_lwc c = MassFraction \/ (fresh_snow_density (f_wb f) <= ICE_DENSITY /\ lightm (albedo_aging c (f_atemp f) (f_snow f) p2)))
    by (destruct M2 as [|[? ?]]; auto; right; split; auto; apply albedo_aging_lightm; auto).
  set (p3 := albedo_aging c (f_atemp f) (f_snow f) p2) in *.
  pose proof (update_properties_ok p3 C3) as C4. pose proof (update_properties_water p3) as W4.
  apply same_water_tot in W4. destruct W4 as (I4 & L4 & _).
  assert (M4 : cc_lwc c = MassFraction \/ (fresh_snow_density (f_wb f) <= ICE_DENSITY /\ lightm (update_properties p3)))
    by (destruct M3 as [|[? ?]]; auto; right; split; auto; apply update_properties_lightm; auto).
  set (p4 := update_properties p3) in *.
  assert (S5 : exists p5 m rf, match mm with
        | EB => let '(q, m, r) := cryo_energy_balance c (f_temp f) (f_eb f) p4 in (q, Some m, r)
        | TIM ti thr => (p4, temperature_index ti thr (cc_dt c) (f_temp f) (f_surfalb f) (f_sw f) p4, 0)
        end = (p5, m, rf) /\ coherent_pix p5 /\ tot_ice p5 + tot_lw p5 = tot_ice p4 + tot_lw p4 /\
        (cc_lwc c = MassFraction \/ (fresh_snow_density (f_wb f) <= ICE_DENSITY /\ lightm p5))).
  { destruct mm as [|ti thr].
    - pose proof (cryo_energy_balance_spec c (f_temp f) (f_eb f) p4 ltac:(lra) Hc C4) as G.
      pose proof (eb_lightm c (f_temp f) (f_eb f) p4) as LM.
      destruct (cryo_energy_balance c (f_temp f) (f_eb f) p4) as [[q m] r]. cbn [fst] in LM.
      destruct G as (A & B & C & D & E). exists q, (Some m), r. repeat split; auto; [lra|].
      destruct M4 as [|[? ?]]; auto.
    - eexists _, _, _. split; [reflexivity|]. auto. }
  destruct S5 as (p5 & m & rf & -> & C5 & B5 & M5).
  assert (LO : Forall loose (lays p5)) by (apply forall_impl with (2 := C5); apply coherent_loose).
  destruct (melt_ok m p5 LO) as (LO6 & B6).
  assert (M6 : cc_lwc c = MassFraction \/ (fresh_snow_density (f_wb f) <= ICE_DENSITY /\ lightp (melt m p5))).
  { destruct M5 as [|[? M5]]; auto. right; split; auto. apply lightm_lightp in M5; auto.
    destruct m; [apply take_lightp|]; auto. }
  set (p6 := melt m p5) in *.
  pose proof (sublimation_ok c (f_mflux f) (f_wb f) p6 LO6) as G7.
  assert (M7 : not_denser_than_ice c (fst (sublimation c (f_mflux f) (f_wb f) p6))).
  { destruct M6 as [|[? M6]]; [left; auto|]. right. apply sublimation_lightp; auto. }
  destruct (sublimation c (f_mflux f) (f_wb f) p6) as [p7 sb]. cbn [fst] in M7. destruct G7 as (LO7 & I7 & L7 & _).
  pose proof (runoff_ok c (f_rain f) p7 Hf Hm LO7 M7) as G8.
  destruct (runoff c (f_rain f) p7) as [p8 ro]. destruct G8 as (T8 & I8 & L8 & N8).
  destruct (update_layers_ok c (f_firn f) p8 T8) as (p9 & E9 & C9 & I9 & L9 & _ & X1 & X2 & X3). rewrite E9.
  exists p9. eexists. split; [reflexivity|]. cbn [o_subl o_runoff]. split; auto. split; [|auto].
  unfold snow_in, rain_in. unfold pos_part in I2. lra.
Qed.
Lemma crun_ok c mm fs : ccfg_ok c -> Forall forcing_ok fs -> forall p, run_light c mm fs p -> coherent_pix p ->
  exists q os, crun c mm fs p = Some (q, os) /\ length os = length fs /\ coherent_pix q /\
    tot_ice q + tot_lw q = tot_ice p + tot_lw p + sumR (map snow_in fs) + sumR (map rain_in fs)
      - sumR (map o_subl os) - sumR (map o_runoff os) /\ Forall (fun o => 0 <= o_runoff o) os.
Proof.
  intros Hc F. induction F as [|f fs Hf F IH]; intros p Hl H; cbn [crun].
  - exists p, []. cbn [map]. rewrite !sumR_nil. repeat split; auto; lra.
  - destruct Hl as [Hl Hl'].
    destruct (cstep_ok c mm f p Hc Hf Hl H) as (q & o & E & C & B & N & _). rewrite E.
    destruct (IH q (Hl' _ _ E) C) as (q' & os & E' & LEN & C' & B' & N'). rewrite E'.
    exists q', (o :: os). cbn [map length]. rewrite !sumR_cons. repeat split; auto. lra.
Qed.
