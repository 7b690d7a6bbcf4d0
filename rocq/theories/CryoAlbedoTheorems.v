(** Properties C75 and C76: albedo, accumulation and compaction of the cryolayer model. *)
From Verif Require Import Common Constants SnowModel SnowProofs CryoModel CryoSpec CryoProofs CryoTheorems.

(** * C75 Albedo *)
(** After an update the albedo of the pixel is that of its topmost layer, missing without layers. *)
Theorem c75_pixel_albedo_is_topmost : forall p,
  (forall l, topmost p l -> palb (update_properties p) = calb l) /\
  (Forall (fun l => cth l <= 0) (lays p) -> palb (update_properties p) = None) /\
  map calb (lays (update_properties p)) = map calb (lays p).
Proof.
  intro p. unfold update_properties. cbn [palb]. split; [|split].
  - intros l (ab & be & E & P & F). unfold lays in E.
    destruct ab as [|a0 [|a1 [|a2 [|a3 ab]]]]; cbn in E.
    5:{ injection E as _ _ _ _ E. destruct ab; discriminate. }
    all: injection E; intros; subst; repeat (inversion F as [|? ? ? F']; subst; clear F; rename F' into F).
    all: repeat (destruct (Rlt_dec _ _); try lra); auto.
  - rewrite forall_lays. intros (A & B & C & D). repeat (destruct (Rlt_dec _ _); try lra); auto.
  - unfold lays; cbn [map l_new l_old l_firn l_ice]. f_equal; [apply layer_density_same|]. f_equal; [apply layer_density_same|].
    f_equal; [apply layer_density_same|]. f_equal; apply layer_density_same.
Qed.
Print Assumptions c75_pixel_albedo_is_topmost.
Example c75_topmost_example : topmost ex_pix ex_new.
Proof. exists [], [ex_old; reset_layer; ex_ice]. repeat split; cbn; [lra|constructor]. Qed.

(** Aging acts on the topmost layer: snow ages from its own albedo, firn and ice take their constant,
    everything below is left alone (unless one albedo is used for both snow layers). *)
Theorem c75_aging_topmost : forall c t s p,
  let q := albedo_aging c t s p in
  let aged l := albedo_step (cc_alb c) (cc_dt c) t s (calb l) in
  (0 < cth (l_new p) ->
     calb (l_new q) = aged (l_new p) /\
     calb (l_old q) = (if single_albedo c then if Rlt_dec 0 (cth (l_old p)) then aged (l_new p) else calb (l_old p) else calb (l_old p)) /\
     l_firn q = l_firn p /\ l_ice q = l_ice p) /\
  (cth (l_new p) <= 0 -> 0 < cth (l_old p) ->
     l_new q = l_new p /\ calb (l_old q) = aged (l_old p) /\ l_firn q = l_firn p /\ l_ice q = l_ice p) /\
  (cth (l_new p) <= 0 -> cth (l_old p) <= 0 -> 0 < cth (l_firn p) ->
     l_new q = l_new p /\ l_old q = l_old p /\ calb (l_firn q) = Some (alb_firn c) /\ l_ice q = l_ice p) /\
  (cth (l_new p) <= 0 -> cth (l_old p) <= 0 -> cth (l_firn p) <= 0 -> 0 < cth (l_ice p) ->
     l_new q = l_new p /\ l_old q = l_old p /\ l_firn q = l_firn p /\ calb (l_ice q) = Some (alb_ice c)) /\
  Forall2 (fun l l' => cth l' = cth l /\ cice l' = cice l /\ clw l' = clw l /\ ccold l' = ccold l /\ cdens l' = cdens l) (lays p) (lays q).
Proof.
  intros c t s p. cbv zeta. unfold albedo_aging, surface_type, lays.
  assert (SA : forall a l, cth (set_alb a l) = cth l /\ cice (set_alb a l) = cice l /\ clw (set_alb a l) = clw l /\ ccold (set_alb a l) = ccold l /\ cdens (set_alb a l) = cdens l) by (intros; cbn; auto).
  destruct (single_albedo c), (Rlt_dec 0 (cth (l_new p))), (Rlt_dec 0 (cth (l_old p))), (Rlt_dec 0 (cth (l_firn p))), (Rlt_dec 0 (cth (l_ice p)));
    cbn [l_new l_old l_firn l_ice calb set_alb orb];
    (split; [intros; try lra; auto|]; split; [intros; try lra; auto|]; split; [intros; try lra; auto|]; split; [intros; try lra; auto|]);
    repeat (apply Forall2_cons; [auto|]); apply Forall2_nil.
Qed.
Print Assumptions c75_aging_topmost.

(** ** Range over any run *)
Definition snow_alb (c : ccfg) (l : clayer) : Prop := alb_in (a_min (cc_alb c)) (a_max (cc_alb c)) l.
Definition alb_cfg_ok (c : ccfg) (lo hi : R) : Prop :=
  a_min (cc_alb c) <= a_max (cc_alb c) /\ 0 < melting_ts (cc_alb c) /\ 0 < cold_ts (cc_alb c) /\ 0 < refresh_snowfall (cc_alb c) /\
  lo <= a_min (cc_alb c) /\ a_max (cc_alb c) <= hi /\ lo <= alb_firn c <= hi /\ lo <= alb_ice c <= hi.
Definition alb_inv (c : ccfg) (lo hi : R) (p : cpix) : Prop :=
  snow_alb c (l_new p) /\ snow_alb c (l_old p) /\ alb_in lo hi (l_firn p) /\ alb_in lo hi (l_ice p).

Lemma alb_in_same lo hi l l' : (0 < cth l' -> 0 < cth l) -> calb l' = calb l -> alb_in lo hi l -> alb_in lo hi l'.
Proof. unfold alb_in. intros A -> H P. auto. Qed.
Lemma alb_in_weaken lo hi lo' hi' l : lo' <= lo -> hi <= hi' -> alb_in lo hi l -> alb_in lo' hi' l.
Proof. intros A B H P. destruct (H P) as (a & E & F). exists a. split; auto. lra. Qed.
Lemma alb_inv_same c lo hi p q :
  Forall2 (fun l l' => (0 < cth l' -> 0 < cth l) /\ calb l' = calb l) (lays p) (lays q) -> alb_inv c lo hi p -> alb_inv c lo hi q.
Proof.
  intros F (A & B & C & D). unfold lays in F.
  inversion F as [|? ? ? ? [X1 Y1] F1]; subst. inversion F1 as [|? ? ? ? [X2 Y2] F2]; subst.
  inversion F2 as [|? ? ? ? [X3 Y3] F3]; subst. inversion F3 as [|? ? ? ? [X4 Y4] F4]; subst.
  split; [|split; [|split]]; eapply alb_in_same; eauto.
Qed.
Lemma alb_step c lo hi dt t s a l : alb_cfg_ok c lo hi -> 0 < dt -> match s with Some x => 0 <= x | None => True end ->
  snow_alb c l -> 0 < cth l -> a = albedo_step (cc_alb c) dt t s (calb l) ->
  exists b, a = Some b /\ a_min (cc_alb c) <= b <= a_max (cc_alb c).
Proof.
  intros (H1 & H2 & H3 & H4 & _) Hd Hs Hl P ->. destruct (Hl P) as (x & -> & B).
  pose proof (albedo_step_in (cc_alb c) dt t s (Some x) ltac:(repeat split; assumption) Hd Hs B) as G.
  cbn [albedo_step albedo_in] in *. eexists; split; [reflexivity|exact G].
Qed.
Lemma coherent_pos l l' : coherent l -> coherent l' -> cice l' = cice l -> 0 < cth l' -> 0 < cth l.
Proof. intros [(A & B & _)|(A & B & _)] [(C & D & _)|(C & D & _)]; lra. Qed.
Lemma same_alb_self ls : Forall2 (fun l l' => (0 < cth l' -> 0 < cth l) /\ calb l' = calb l) ls ls.
Proof. induction ls; constructor; auto. Qed.
Lemma compaction_alb c air p q lo hi : 500 <= tr_ice c -> 0 <= cc_dt c -> coherent_pix p -> compaction c air p = Some q ->
  alb_inv c lo hi p -> alb_inv c lo hi q.
Proof.
  intros Ht Hd H E. destruct (compaction_ok c air p Ht Hd H) as (q' & E' & C & W & F & _). rewrite E in E'. injection E' as <-.
  apply alb_inv_same. unfold coherent_pix in *. rewrite forall_lays in *. unfold lays, same_water in *.
  inversion F as [|? ? ? ? Y1 F1]; subst. inversion F1 as [|? ? ? ? Y2 F2]; subst.
  inversion F2 as [|? ? ? ? Y3 F3]; subst. inversion F3 as [|? ? ? ? Y4 F4]; subst.
  inversion W as [|? ? ? ? (Z1 & _) W1]; subst. inversion W1 as [|? ? ? ? (Z2 & _) W2]; subst.
  inversion W2 as [|? ? ? ? (Z3 & _) W3]; subst. inversion W3 as [|? ? ? ? (Z4 & _) W4]; subst.
  destruct H as (? & ? & ? & ?), C as (? & ? & ? & ?).
  repeat (apply Forall2_cons; [split; [eapply coherent_pos; eauto|auto]|]). apply Forall2_nil.
Qed.
Lemma add_snow_alb c a d p lo hi : a_min (cc_alb c) <= a_max (cc_alb c) -> 0 < a -> Forall loose (lays p) -> alb_inv c lo hi p -> alb_inv c lo hi (add_snow c a 0 d None p).
Proof.
  intros HM Ha L (A & B & C & D). rewrite forall_lays in L. destruct L as (L & _).
  split; [|split; [|split]]; auto. unfold snow_alb, alb_in. cbn [add_snow l_new calb cth]. intros _.
  destruct (Req_EM_T (cice (l_new p)) 0) as [Z|Z].
  - destruct (Rlt_dec 0 a); [|lra].
    assert (M : exists b, Some (a_max (cc_alb c)) = Some b /\ a_min (cc_alb c) <= b <= a_max (cc_alb c)) by (eexists; split; [reflexivity|lra]).
    destruct (single_albedo c); auto. destruct (Rlt_dec 0 (cth (l_old p))); auto.
  - apply A. destruct L as (_ & _ & [?|?]); lra.
Qed.
Lemma take_layer_alb w chg l : loose l -> (0 < cth (fst (take_layer w chg l)) -> 0 < cth l) /\ calb (fst (take_layer w chg l)) = calb l.
Proof.
  intros (A & B & C). unfold take_layer. destruct (Rlt_dec 0 chg); [destruct (Rlt_dec 0 (cice l))|]; cbn [fst calb cth]; auto.
  split; auto. intro P. destruct C as [C|C]; lra.
Qed.
Lemma take_alb w chg p : Forall loose (lays p) -> Forall2 (fun l l' => (0 < cth l' -> 0 < cth l) /\ calb l' = calb l) (lays p) (lays (fst (take w chg p))).
Proof.
  intro H. destruct (take_take_l w chg p) as [-> _]. revert chg. induction H as [|l r Hl Hr IH]; intro chg; cbn [take_l]; [constructor|].
  pose proof (take_layer_alb w chg l Hl) as G. destruct (take_layer w chg l) as [l' c]. specialize (IH c). destruct (take_l w c r) as [r' c']. constructor; auto.
Qed.
Lemma sublimation_alb c mf wb p lo hi : a_min (cc_alb c) <= a_max (cc_alb c) -> Forall loose (lays p) ->
  alb_inv c lo hi p -> alb_inv c lo hi (fst (sublimation c mf wb p)).
Proof.
  intros HM L A. unfold sublimation. set (s := sublimation_amount (cc_dt c) mf p).
  pose proof (take_alb false s p L) as T. pose proof (take_loose false s p L) as TL.
  destruct (take false s p) as [q chg]. cbn [fst] in *. apply (alb_inv_same c lo hi) in T; auto.
  destruct (Rlt_dec chg 0); auto. apply add_snow_alb; auto. lra.
Qed.
Lemma eb_alb c t eb p : Forall2 (fun l l' => (0 < cth l' -> 0 < cth l) /\ calb l' = calb l) (lays p) (lays (fst (fst (cryo_energy_balance c t eb p)))).
Proof.
  unfold cryo_energy_balance. destruct (Rlt_dec _ _); [|apply same_alb_self]. destruct t as [t|]; [|apply same_alb_self].
  destruct (Rle_dec T0 t).
  - assert (E : forall e t l, (0 < cth (fst (fst (eb_melt_layer e t l))) -> 0 < cth l) /\ calb (fst (fst (eb_melt_layer e t l))) = calb l).
    { intros e u l. unfold eb_melt_layer. repeat destruct (Rlt_dec _ _); cbn; auto. }
    unfold eb_melt. pose proof (E eb (cc_dt c) (l_new p)) as E1. destruct (eb_melt_layer eb (cc_dt c) (l_new p)) as [[n m1] t1].
    pose proof (E eb t1 (l_old p)) as E2. destruct (eb_melt_layer eb t1 (l_old p)) as [[o m2] t2].
    pose proof (E eb t2 (l_firn p)) as E3. destruct (eb_melt_layer eb t2 (l_firn p)) as [[f m3] t3].
    pose proof (E eb t3 (l_ice p)) as E4. destruct (eb_melt_layer eb t3 (l_ice p)) as [[i m4] t4].
    cbn [fst] in *. repeat (apply Forall2_cons; [assumption|]). apply Forall2_nil.
  - assert (E : forall e t l, (0 < cth (fst (fst (refreeze_layer e t l))) -> 0 < cth l) /\ calb (fst (fst (refreeze_layer e t l))) = calb l).
    { intros e u l. unfold refreeze_layer. repeat destruct (Rlt_dec _ _); cbn; auto. }
    unfold eb_refreeze. pose proof (E (cold_cap c) (avail_cc c eb) (l_new p)) as E1. destruct (refreeze_layer (cold_cap c) (avail_cc c eb) (l_new p)) as [[nn m1] t1].
    pose proof (E (cold_cap c) t1 (l_old p)) as E2. destruct (refreeze_layer (cold_cap c) t1 (l_old p)) as [[o m2] t2].
    cbn [fst] in *. repeat (apply Forall2_cons; [auto|]). apply Forall2_nil.
Qed.
Lemma runoff_alb c rain p : 0 <= nan_to_zero rain ->
  Forall2 (fun l l' => (0 < cth l' -> 0 < cth l) /\ calb l' = calb l) (lays p) (lays (fst (runoff c rain p))).
Proof.
  intro H. destruct (runoff_routed c rain p H) as [R _]. induction R as [|cap caps r l l' r1 ls ls' r' H0 H1 H2 H3 H4 H5 H6 H7 H8 H9 H10 IH|cap caps r l ls ls' r' H0 H1 IH]; constructor; auto.
  split; [rewrite H2|]; auto.
Qed.
Lemma refresh_alb l l' lo hi : tight l -> refresh_layer (layer_density l) = Some l' -> alb_in lo hi l -> alb_in lo hi l'.
Proof.
  intros T E. destruct (refresh_ok l T) as (x & E' & _ & _ & _ & _ & A & B). rewrite E in E'. injection E' as <-.
  destruct (Rle_lt_dec (cmass l) 0) as [Z|Z].
  - rewrite (B Z). intros _ P. cbn in P. lra.
  - destruct (A Z) as (P & Q & _). apply alb_in_same; auto. rewrite P; auto.
Qed.
Lemma transition_alb pos src dst s d lo hi lo' hi' : coherent src -> coherent dst -> lo' <= lo -> hi <= hi' ->
  transition pos src dst = Some (s, d) -> alb_in lo hi src -> alb_in lo' hi' dst -> alb_in lo hi s /\ alb_in lo' hi' d.
Proof.
  intros Cs Cd L U E As Ad. assert (RA : alb_in lo hi reset_layer) by (intro P; cbn in P; lra).
  unfold transition in E. destruct pos; [|injection E as <- <-; auto].
  destruct (Rlt_dec 0 (cth src)) as [P|]; [|injection E as <- <-; auto].
  destruct (Rlt_dec 0 (cth dst)) as [Q|].
  - destruct (numdiv _ _); [|discriminate]. injection E as <- <-. split; auto. intros _. cbn [calb].
    destruct (As P) as (a & -> & B1). destruct (Ad Q) as (b & -> & B2). cbn [wmean numscale numplus]. eexists; split; [reflexivity|].
    destruct Cs as [(?&_)|(_ & M1 & M2 & _)]; [lra|]. destruct Cd as [(?&_)|(_ & M3 & M4 & _)]; [lra|].
    assert (K1 : 0 < cmass src) by (unfold cmass; lra). assert (K2 : 0 < cmass dst) by (unfold cmass; lra).
    set (w1 := cmass src / (cmass src + cmass dst)). set (w2 := cmass dst / (cmass src + cmass dst)).
    assert (W1 : 0 <= w1) by (left; apply Rdiv_lt_0_compat; lra). assert (W2 : 0 <= w2) by (left; apply Rdiv_lt_0_compat; lra).
    assert (W : w1 + w2 = 1) by (unfold w1, w2; field; lra). nra.
  - destruct (Req_EM_T _ _); injection E as <- <-; split; auto. eapply alb_in_weaken; eauto.
Qed.
Lemma update_layers_alb c tf p q lo hi : alb_cfg_ok c lo hi -> Forall tight (lays p) ->
  update_layers c tf (update_properties p) = Some q -> alb_inv c lo hi p -> alb_inv c lo hi q.
Proof.
  intros (_ & _ & _ & _ & LO & HI & _) T E (A & B & C & D). rewrite forall_lays in T. destruct T as (T1 & T2 & T3 & T4).
  unfold update_layers, update_properties in E. cbn [l_new l_old l_firn l_ice palb] in E.
  destruct (refresh_ok _ T1) as (n & E1 & N1 & _). rewrite E1 in E.
  destruct (refresh_ok _ T2) as (o & E2 & O1 & _). rewrite E2 in E.
  destruct (refresh_ok _ T3) as (f & E3 & F1 & _). rewrite E3 in E.
  destruct (refresh_ok _ T4) as (i & E4 & I1 & _). rewrite E4 in E.
  pose proof (refresh_alb _ _ _ _ T1 E1 A) as A'. pose proof (refresh_alb _ _ _ _ T2 E2 B) as B'.
  pose proof (refresh_alb _ _ _ _ T3 E3 C) as C'. pose proof (refresh_alb _ _ _ _ T4 E4 D) as D'.
  destruct (transition_ok (numge (cdens n) (tr_old c)) n o N1 O1) as (n1 & o1 & X1 & P1 & P2 & _). rewrite X1 in E.
  destruct (transition_alb _ _ _ _ _ _ _ _ _ N1 O1 (Rle_refl _) (Rle_refl _) X1 A' B') as [A2 B2].
  destruct (transition_ok tf o1 f P2 F1) as (o2 & f2 & X2 & Q1 & Q2 & _). rewrite X2 in E.
  destruct (transition_alb _ _ _ _ _ _ _ _ _ P2 F1 LO HI X2 B2 C') as [B3 C3].
  destruct (transition_ok (numge (cdens f2) (tr_ice c)) f2 i Q2 I1) as (f3 & i3 & X3 & R1 & R2 & _). rewrite X3 in E.
  destruct (transition_alb _ _ _ _ _ _ _ _ _ Q2 I1 (Rle_refl _) (Rle_refl _) X3 C3 D') as [C4 D4].
  injection E as <-. repeat split; assumption.
Qed.
Lemma aging_alb c lo hi t s p : alb_cfg_ok c lo hi -> 0 < cc_dt c -> match s with Some x => 0 <= x | None => True end ->
  alb_inv c lo hi p -> alb_inv c lo hi (albedo_aging c t s p).
Proof.
  intros K Hd Hs (A & B & C & D). destruct (c75_aging_topmost c t s p) as (G1 & G2 & G3 & G4 & G5). cbv zeta in *.
  set (q := albedo_aging c t s p) in *.
  unfold lays in G5. inversion G5 as [|? ? ? ? (T1 & _) F1]; subst. inversion F1 as [|? ? ? ? (T2 & _) F2]; subst.
  inversion F2 as [|? ? ? ? (T3 & _) F3]; subst. inversion F3 as [|? ? ? ? (T4 & _) F4]; subst. clear G5 F1 F2 F3 F4.
  pose proof K as (_ & _ & _ & _ & _ & _ & K1 & K2).
  destruct (Rle_lt_dec (cth (l_new p)) 0) as [N|N].
  - destruct (Rle_lt_dec (cth (l_old p)) 0) as [O|O].
    + assert (NN : snow_alb c (l_new q)) by (intro P; lra). assert (OO : snow_alb c (l_old q)) by (intro P; lra).
      destruct (Rle_lt_dec (cth (l_firn p)) 0) as [F|F].
      * assert (FF : alb_in lo hi (l_firn q)) by (intro P; lra).
        destruct (Rle_lt_dec (cth (l_ice p)) 0) as [I|I].
        -- repeat split; auto. intro P; lra.
        -- destruct (G4 N O F I) as (_ & _ & _ & E). repeat split; auto. intros _. eauto.
      * destruct (G3 N O F) as (_ & _ & E & E'). repeat split; auto; [intros _; eauto|rewrite E'; auto].
    + destruct (G2 N O) as (E1 & E2 & E3 & E4). repeat split; [rewrite E1; auto| |rewrite E3; auto|rewrite E4; auto].
      intros _. eapply (alb_step c lo hi); [exact K|exact Hd|exact Hs|exact B|exact O|exact E2].
  - destruct (G1 N) as (E1 & E2 & E3 & E4). repeat split; [| |rewrite E3; auto|rewrite E4; auto].
    + intros _. eapply (alb_step c lo hi); [exact K|exact Hd|exact Hs|exact A|exact N|exact E1].
    + intro P. rewrite T2 in P. rewrite E2. destruct (single_albedo c); [|apply B; auto].
      destruct (Rlt_dec 0 (cth (l_old p))); [|lra]. eapply (alb_step c lo hi); [exact K|exact Hd|exact Hs|exact A|exact N|reflexivity].
Qed.
Lemma cstep_alb c mm f p q o lo hi : ccfg_ok c -> alb_cfg_ok c lo hi -> forcing_ok f ->
  match f_snow f with Some x => 0 <= x | None => True end -> step_light c f p -> coherent_pix p ->
  alb_inv c lo hi p -> cstep c mm f p = Some (q, o) -> alb_inv c lo hi q.
Proof.
  intros (Hd & Ht & Hm & Hc) K Hf Hs Hl H A E. unfold cstep in E. pose proof K as (HMM & _).
  destruct (compaction_ok c (f_temp f) p Ht ltac:(lra) H) as (p1 & E1 & C1 & W1 & _). rewrite E1 in E.
  pose proof (compaction_alb c _ _ _ lo hi Ht ltac:(lra) H E1 A) as A1.
  assert (LL : cc_lwc c = MassFraction \/ (fresh_snow_density (f_wb f) <= ICE_DENSITY /\ lightm p1)).
  { destruct Hl as [|[Hl1 Hl2]]; auto. right. split; auto. apply Hl2; auto. }
  destruct (accumulation_ok c (f_snow f) (f_wb f) p1 C1) as (C2 & _ & _).
  assert (A2 : alb_inv c lo hi (accumulation c (f_snow f) (f_wb f) p1)).
  { unfold accumulation. destruct (f_snow f) as [x|]; auto. destruct (Rlt_dec 0 x); auto. apply add_snow_alb; auto.
    apply forall_impl with (2 := C1). apply coherent_loose. }
  assert (M2 : cc_lwc c = MassFraction \/ (fresh_snow_density (f_wb f) <= ICE_DENSITY /\ lightm (accumulation c (f_snow f) (f_wb f) p1)))
    by (destruct LL as [|[? ?]]; auto; right; split; auto; apply accumulation_lightm; auto).
  set (p2 := accumulation c (f_snow f) (f_wb f) p1) in *.
  destruct (albedo_aging_ok c (f_atemp f) (f_snow f) p2 C2) as (C3 & _).
  pose proof (aging_alb c lo hi (f_atemp f) (f_snow f) p2 K Hd Hs A2) as A3.
  assert (M3 : cc_lwc c = MassFraction \/ (fresh_snow_density (f_wb f) <= ICE_DENSITY /\ lightm (albedo_aging c (f_atemp f) (f_snow f) p2)))
    by (destruct M2 as [|[? ?]]; auto; right; split; auto; apply albedo_aging_lightm; auto).
  set (p3 := albedo_aging c (f_atemp f) (f_snow f) p2) in *.
  pose proof (update_properties_ok p3 C3) as C4.
  assert (UP : forall r, Forall2 (fun l l' => (0 < cth l' -> 0 < cth l) /\ calb l' = calb l) (lays r) (lays (update_properties r))).
  { intro r. unfold lays, update_properties; cbn [l_new l_old l_firn l_ice].
    assert (LD : forall l, (0 < cth (layer_density l) -> 0 < cth l) /\ calb (layer_density l) = calb l).
    { intro l. destruct (layer_density_same l) as (_ & _ & _ & -> & ->). auto. }
    repeat (apply Forall2_cons; [apply LD|]). apply Forall2_nil. }
  pose proof (alb_inv_same c lo hi _ _ (UP p3) A3) as A4.
  assert (M4 : cc_lwc c = MassFraction \/ (fresh_snow_density (f_wb f) <= ICE_DENSITY /\ lightm (update_properties p3)))
    by (destruct M3 as [|[? ?]]; auto; right; split; auto; apply update_properties_lightm; auto).
  set (p4 := update_properties p3) in *.
  assert (S5 : exists p5 m rf, match mm with
        | EB => let '(q, m, r) := cryo_energy_balance c (f_temp f) (f_eb f) p4 in (q, Some m, r)
        | TIM ti thr => (p4, temperature_index ti thr (cc_dt c) (f_temp f) (f_surfalb f) (f_sw f) p4, 0)
        end = (p5, m, rf) /\ coherent_pix p5 /\ alb_inv c lo hi p5 /\
        (cc_lwc c = MassFraction \/ (fresh_snow_density (f_wb f) <= ICE_DENSITY /\ lightm p5))).
  { destruct mm as [|ti thr].
    - pose proof (cryo_energy_balance_spec c (f_temp f) (f_eb f) p4 ltac:(lra) Hc C4) as G.
      pose proof (eb_lightm c (f_temp f) (f_eb f) p4) as LM. pose proof (eb_alb c (f_temp f) (f_eb f) p4) as EA.
      destruct (cryo_energy_balance c (f_temp f) (f_eb f) p4) as [[q5 m] r]. cbn [fst] in LM, EA.
      destruct G as (G1 & _). exists q5, (Some m), r. split; auto. split; auto. split; [eapply alb_inv_same; eauto|].
      destruct M4 as [|[? ?]]; auto.
    - eexists _, _, _. split; [reflexivity|]. auto. }
  destruct S5 as (p5 & m & rf & X5 & C5 & A5 & M5). rewrite X5 in E. clear X5.
  assert (LO : Forall loose (lays p5)) by (apply forall_impl with (2 := C5); apply coherent_loose).
  destruct (melt_ok m p5 LO) as (LO6 & _).
  assert (A6 : alb_inv c lo hi (melt m p5)).
  { destruct m as [m|]; auto. cbn [melt]. eapply alb_inv_same; [apply take_alb|]; auto. }
  assert (M6 : cc_lwc c = MassFraction \/ (fresh_snow_density (f_wb f) <= ICE_DENSITY /\ lightp (melt m p5))).
  { destruct M5 as [|[? M5]]; auto. right; split; auto. apply lightm_lightp in M5; auto.
    destruct m; [apply take_lightp|]; auto. }
  set (p6 := melt m p5) in *.
  pose proof (sublimation_ok c (f_mflux f) (f_wb f) p6 LO6) as G7.
  pose proof (sublimation_alb c (f_mflux f) (f_wb f) p6 lo hi HMM LO6 A6) as A7.
  assert (M7 : not_denser_than_ice c (fst (sublimation c (f_mflux f) (f_wb f) p6))).
  { destruct M6 as [|[? M6]]; [left; auto|]. right. apply sublimation_lightp; auto. }
  destruct (sublimation c (f_mflux f) (f_wb f) p6) as [p7 sb]. cbn [fst] in M7, A7. destruct G7 as (LO7 & _).
  pose proof (runoff_ok c (f_rain f) p7 Hf Hm LO7 M7) as G8. pose proof (runoff_alb c (f_rain f) p7 Hf) as A8.
  destruct (runoff c (f_rain f) p7) as [p8 ro]. cbn [fst] in A8. destruct G8 as (T8 & _).
  apply (alb_inv_same c lo hi) in A8; auto.
  destruct (update_layers c (f_firn f) (update_properties p8)) as [p9|] eqn:E9; [|discriminate]. injection E as <- _.
  eapply update_layers_alb; eauto.
Qed.

(** In every run the albedo of the snow layers stays between the configured minimum and maximum, that
    of all layers between any bounds around those and the firn and ice values. *)
Theorem c75_albedo_range : forall c mm fs p q os lo hi,
  ccfg_ok c -> alb_cfg_ok c lo hi -> Forall forcing_ok fs ->
  Forall (fun f => match f_snow f with Some x => 0 <= x | None => True end) fs ->
  run_light c mm fs p -> coherent_pix p -> alb_inv c lo hi p ->
  crun c mm fs p = Some (q, os) -> alb_inv c lo hi q.
Proof.
  intros c mm fs p q os lo hi Hc K F. revert p q os.
  induction F as [|f fs Hf F IH]; intros p q os Fs RL C A E; cbn [crun] in E.
  - injection E as <- _. auto.
  - destruct RL as [Hl Hl']. inversion Fs; subst.
    destruct (cstep_ok c mm f p Hc Hf Hl C) as (p1 & o & E1 & C1 & _). rewrite E1 in E.
    destruct (crun c mm fs p1) as [[p2 os']|] eqn:E2; [|discriminate]. injection E as <- _.
    eapply (IH p1); eauto. eapply cstep_alb; eauto.
Qed.
Print Assumptions c75_albedo_range.
Example c75_range_example : alb_cfg_ok ex_ccfg (3/10) (85/100) /\ alb_inv ex_ccfg (3/10) (85/100) ex_pix /\ alb_inv ex_ccfg (3/10) (85/100) cinit.
Proof.
  split; [unfold alb_cfg_ok; cbn; lra|].
  split; repeat split; intro P; cbn in *; try lra; eexists; (split; [reflexivity|lra]).
Qed.

(** * C76 Accumulation and compaction *)
Theorem c76_accumulation : forall c s wb p,
  (match s with Some x => x <= 0 | None => True end -> accumulation c s wb p = p) /\
  (forall x, s = Some x -> 0 < x ->
    let q := accumulation c s wb p in
    cice (l_new q) = cice (l_new p) + x /\ clw (l_new q) = clw (l_new p) /\
    cth (l_new q) = cth (l_new p) + x / fresh_snow_density wb /\ ccold (l_new q) = ccold (l_new p) /\
    (0 <= cth (l_new p) -> cdens (l_new q) = Some ((cice (l_new q) + clw (l_new q)) / cth (l_new q))) /\
    l_old q = l_old p /\ l_firn q = l_firn p /\ l_ice q = l_ice p /\
    (cice (l_new p) <> 0 -> calb (l_new q) = calb (l_new p) /\ palb q = palb p) /\
    (cice (l_new p) = 0 -> palb q = calb (l_new q) /\
       calb (l_new q) = (if single_albedo c then if Rlt_dec 0 (cth (l_old p)) then calb (l_old p) else Some (a_max (cc_alb c))
                         else Some (a_max (cc_alb c))))).
Proof.
  intros c s wb p. split.
  - destruct s as [x|]; cbn [accumulation]; auto. intro. destruct (Rlt_dec 0 x); [lra|auto].
  - intros x -> P. cbn [accumulation]. destruct (Rlt_dec 0 x) as [L|]; [|lra]. cbv zeta.
    pose proof (fresh_pos wb) as FP. assert (0 < x / fresh_snow_density wb) by (apply Rdiv_lt_0_compat; auto).
    cbn [add_snow l_new l_old l_firn l_ice cice clw cth ccold cdens calb palb].
    split; [auto|]. split; [lra|]. split; [auto|]. split; [auto|].
    split; [intro; cbn [numdiv]; destruct (Req_EM_T _ 0); [lra|auto]|].
    split; [auto|]. split; [auto|]. split; [auto|].
    destruct (Rlt_dec 0 x); [|lra].
    split; intro Z; destruct (Req_EM_T (cice (l_new p)) 0); try lra; auto.
Qed.
Print Assumptions c76_accumulation.
Example c76_accumulation_example : accumulation ex_ccfg (Some 10) None ex_pix <> ex_pix.
Proof.
  intro E. apply (f_equal (fun p => cice (l_new p))) in E. unfold accumulation in E. destruct (Rlt_dec 0 10); [|lra]. cbn in E. lra.
Qed.

(** Compaction keeps the water of every layer; snow layers get denser or stay, firn gains density at
    a constant rate, ice has its prescribed density, and densities remain mass over thickness. *)
Theorem c76_compaction : forall c air p, 500 <= tr_ice c -> 0 <= cc_dt c -> coherent_pix p ->
  exists q, compaction c air p = Some q /\ coherent_pix q /\
    Forall2 (fun l l' => cice l' = cice l /\ clw l' = clw l /\ ccold l' = ccold l /\ calb l' = calb l) (lays p) (lays q) /\
    cth (l_new q) <= cth (l_new p) /\ cth (l_old q) <= cth (l_old p) /\ cth (l_firn q) <= cth (l_firn p) /\
    (forall d, 0 < cth (l_firn p) -> cdens (l_firn p) = Some d ->
       cdens (l_firn q) = Some (d + (tr_ice c - 500) / (10 * 365.25 * 24 * 3600) * cc_dt c)) /\
    (0 < cth (l_ice p) -> cdens (l_ice q) = Some (tr_ice c)).
Proof.
  intros c air p Ht Hd H. destruct (compaction_ok c air p Ht Hd H) as (q & E & C & W & F & _).
  exists q. split; auto. split; auto.
  unfold coherent_pix in *. rewrite forall_lays in *. destruct H as (A & B & D & G).
  unfold compaction in E.
  destruct (anderson_coherent (cc_dt c) air 0 (l_new p) Hd ltac:(lra) A) as (N1 & N2 & N3 & N4 & N5 & N6 & N7).
  destruct (anderson_layer (cc_dt c) air 0 (l_new p)) as [n load]. cbn [fst snd] in *.
  destruct (anderson_coherent (cc_dt c) air load (l_old p) Hd N2 B) as (O1 & O2 & O3 & O4 & O5 & O6 & O7).
  destruct (anderson_layer (cc_dt c) air load (l_old p)) as [o load']. cbn [fst snd] in *.
  unfold firn_layer, ice_layer in E.
  assert (RATE : firn_rate c * (cc_dt c / SECONDS_PER_HOUR) = (tr_ice c - 500) / (10 * 365.25 * 24 * 3600) * cc_dt c)
    by (unfold firn_rate, SECONDS_PER_HOUR, HOURS_PER_DAY, DAYS_PER_YEAR; field; lra).
  split.
  { unfold same_water, lays in *.
    inversion F as [|? ? ? ? Y1 F1]; subst. inversion F1 as [|? ? ? ? Y2 F2]; subst.
    inversion F2 as [|? ? ? ? Y3 F3]; subst. inversion F3 as [|? ? ? ? Y4 F4]; subst.
    inversion W as [|? ? ? ? Z1 W1]; subst. inversion W1 as [|? ? ? ? Z2 W2]; subst.
    inversion W2 as [|? ? ? ? Z3 W3]; subst. inversion W3 as [|? ? ? ? Z4 W4]; subst.
    repeat (apply Forall2_cons; [tauto|]). apply Forall2_nil. }
  destruct (Rlt_dec 0 (cth (l_firn p))) as [PF|PF].
  - destruct D as [(?&_)|(D1 & D2 & D3 & D4 & D5)]; [lra|]. rewrite D5 in E. cbn [numplus numdiv] in E. rewrite RATE in E.
    assert (DP : 0 < (cice (l_firn p) + clw (l_firn p)) / cth (l_firn p)) by (apply Rdiv_lt_0_compat; lra).
    assert (RP : 0 <= (tr_ice c - 500) / (10 * 365.25 * 24 * 3600) * cc_dt c) by (apply Rmult_le_pos; lra).
    set (inc := (tr_ice c - 500) / (10 * 365.25 * 24 * 3600) * cc_dt c) in *.
    destruct (Req_EM_T _ 0) in E; [lra|].
    assert (TH : cmass (l_firn p) / ((cice (l_firn p) + clw (l_firn p)) / cth (l_firn p) + inc) <= cth (l_firn p)).
    { apply Rmult_le_reg_r with ((cice (l_firn p) + clw (l_firn p)) / cth (l_firn p) + inc); [lra|].
      unfold Rdiv at 1. rewrite Rmult_assoc, Rinv_l, Rmult_1_r by lra. unfold cmass.
      rewrite Rmult_plus_distr_l. replace (cth (l_firn p) * ((cice (l_firn p) + clw (l_firn p)) / cth (l_firn p))) with (cice (l_firn p) + clw (l_firn p)) by (field; lra).
      assert (0 <= cth (l_firn p) * inc) by (apply Rmult_le_pos; lra). lra. }
    destruct (Rlt_dec 0 (cth (l_ice p))) as [PI|PI].
    + cbn [numdiv] in E. destruct (Req_EM_T (tr_ice c) 0) in E; [lra|]. injection E as <-. cbn [l_new l_old l_firn l_ice cth cdens].
      repeat split; try lra; auto. intros d _ Ed. rewrite D5 in Ed. injection Ed as <-. reflexivity.
    + injection E as <-. cbn [l_new l_old l_firn l_ice cth cdens].
      repeat split; try lra; auto. intros d _ Ed. rewrite D5 in Ed. injection Ed as <-. reflexivity.
  - destruct (Rlt_dec 0 (cth (l_ice p))) as [PI|PI].
    + cbn [numdiv] in E. destruct (Req_EM_T (tr_ice c) 0) in E; [lra|]. injection E as <-. cbn [l_new l_old l_firn l_ice cth cdens].
      repeat split; try lra; auto; intros; lra.
    + injection E as <-. cbn [l_new l_old l_firn l_ice cth cdens]. repeat split; try lra; auto; intros; lra.
Qed.
Print Assumptions c76_compaction.
Example c76_compaction_example : 500 <= tr_ice ex_ccfg /\ 0 <= cc_dt ex_ccfg /\ coherent_pix ex_pix /\ 0 < cth (l_ice ex_pix).
Proof. repeat split; try (cbn; lra). apply ex_pix_coherent. Qed.
