(** C86: the water of every pixel and of the whole grid is accounted for from precipitation through
    the canopy to the snowpack, over any run. *)
From Verif Require Import Common Constants AtmosphereModel AtmosphereTheorems CanopyModel CanopyTheorems WaterModel.
From Verif Require MultilayerModel MultilayerSpec MultilayerProofs StepProofs HistoryProofs MultilayerTheorems SnowModel.
From Verif Require CryoModel CryoSpec CryoProofs CryoTheorems.
Local Open Scope R_scope.

(** * Vocabulary *)
(** the entries of pixel [i] in a table with one list of pixels per time step *)
Definition column {A} (i : nat) (t : list (list A)) : list A :=
  flat_map (fun r => match nth_error r i with Some x => [x] | None => [] end) t.
(** leaf area never decreases from [l0] on *)
Fixpoint growing (l0 : R) (ls : list R) : Prop := match ls with [] => True | l :: t => l0 <= l /\ growing l t end.
(** inputs of a pixel: no negative precipitation or redistribution factor; forest pixels have all
    values and leaves, and do not lose leaves *)
Definition inputs_ok {F} (x : win F) : Prop :=
  0 <= nan_to_zero (precip (w_phase x)) /\ 0 <= srf (w_phase x) /\
  (w_forest x = true -> 0 < w_lai x /\ precip (w_phase x) <> None /\ w_ctemp x <> None).
(** the pixel is forest, or not, throughout; the load fits into the canopy *)
Definition canopy_ok {F S} (cc : ccfg) (st : wst S) (xs : list (win F)) : Prop :=
  (Forall (fun x => w_forest x = false) xs) \/
  (Forall (fun x => w_forest x = true) xs /\
   exists l, w_load st = Some l /\ 0 <= l /\
     match xs with [] => True | x :: t => l <= c_storage cc * w_lai x /\ growing (w_lai x) (map w_lai t) end).
Definition load {S} (st : wst S) : R := nan_to_zero (w_load st).
Definition total {A} (f : A -> R) (l : list A) : R := sumR (map f l).

Lemma column_cons : forall {A} i (r : list A) t, column i (r :: t) = match nth_error r i with Some x => x :: column i t | None => column i t end.
Proof. intros A i r t. unfold column. cbn [flat_map]. destruct (nth_error r i); auto. Qed.
Lemma total_cons : forall {A} (f : A -> R) x l, total f (x :: l) = f x + total f l.
Proof. intros A f x l. unfold total. cbn [map]. apply sumR_cons. Qed.
Lemma total_nil : forall {A} (f : A -> R), total f [] = 0.
Proof. intros A f. unfold total. cbn [map]. apply sumR_nil. Qed.
Lemma nth_error_combine : forall {A B} (l : list A) (m : list B) i, nth_error (combine l m) i =
  match nth_error l i, nth_error m i with Some a, Some b => Some (a, b) | _, _ => None end.
Proof.
  intros A B l. induction l as [|a l IH]; intros [|b m] [|i]; cbn; auto. destruct (nth_error l i); auto.
Qed.
Lemma nth_error_split : forall {A B} (l : list (A * B)) i, nth_error (fst (split l)) i = option_map fst (nth_error l i) /\ nth_error (snd (split l)) i = option_map snd (nth_error l i).
Proof.
  intros A B l. induction l as [|[a b] l IH]; intros [|i]; cbn; auto; destruct (split l) as [u v]; cbn in *; auto.
Qed.
Lemma all_some_nth : forall {A} (l : list (option A)) r i, all_some l = Some r -> nth_error l i = option_map Some (nth_error r i).
Proof.
  intros A l r i H. apply all_some_forall2 in H. revert i. induction H as [|o x l r E H IH]; intros [|i]; cbn; auto. subst. auto.
Qed.

Section Generic.
  Context {S F O : Type}.
  Variables (snow : F -> S -> option (S * O)) (ww : num -> num -> F -> F) (pc : phase_cfg) (rd : bool) (cc : ccfg) (dt : R).
  Let step := pixel_step snow ww rd cc dt.
  Let grun := grid_run snow ww pc rd cc dt.
  (** one pixel on its own, given its snowfall and rainfall above the canopy *)
  Fixpoint prun (xs : list (win F * (num * num))) (st : wst S) : option (wst S * list (wout F O)) :=
    match xs with
    | [] => Some (st, [])
    | (x, sr) :: t =>
        match step x st sr with
        | None => None
        | Some (st1, o) => match prun t st1 with None => None | Some (st2, os) => Some (st2, o :: os) end
        end
    end.
  (** snowfall and rainfall are a partition of the precipitation *)
  Definition parts (x : win F * (num * num)) : Prop :=
    exists f, 0 <= f <= 1 /\ match precip (w_phase (fst x)) with
                             | Some v => snd x = (Some (f * v), Some ((1 - f) * v))
                             | None => snd x = (None, None)
                             end.
  Lemma grid_pixel : forall steps sts sts' outs i st, grun steps sts = Some (sts', outs) -> nth_error sts i = Some st ->
    Forall (fun ins => (i < length ins)%nat) steps ->
    exists xs st', map fst xs = column i steps /\ Forall parts xs /\ prun xs st = Some (st', column i outs) /\ nth_error sts' i = Some st'.
  Proof.
    induction steps as [|ins steps IH]; intros sts sts' outs i st E N L.
    - cbn in E. injection E as <- <-. exists [], st. repeat split; auto.
    - unfold grun in E. cbn [grid_run] in E. unfold grid_step in E. destruct (precip_fields pc (map w_phase ins)) as [srs|] eqn:PF; [|discriminate].
      destruct (all_some _) as [l|] eqn:AS in E; [|discriminate]. destruct (split l) as [sts1 os] eqn:SP.
      destruct (grid_run snow ww pc rd cc dt steps sts1) as [[sts2 oss]|] eqn:GR; [|discriminate]. injection E as <- <-.
      inversion L as [|a b L1 L2]; subst. destruct (nth_error ins i) as [x|] eqn:NX; [|apply nth_error_None in NX; lia].
      destruct (c31_partition pc _ _ PF) as [LEN PT]. rewrite map_length in LEN.
      destruct (nth_error srs i) as [[s r]|] eqn:NS; [|apply nth_error_None in NS; lia].
      assert (NP : nth_error (map w_phase ins) i = Some (w_phase x)) by (rewrite nth_error_map, NX; auto).
      destruct (PT i _ s r NP NS) as (f & FB & _ & _ & PM).
      pose proof (all_some_nth _ _ i AS) as NL. rewrite nth_error_map, !nth_error_combine, NX, N, NS in NL. cbn [option_map] in NL.
      destruct (nth_error l i) as [[st1 o]|] eqn:NO; [|discriminate]. cbn [option_map] in NL. injection NL as NL.
      destruct (nth_error_split l i) as [Q1 Q2]. rewrite SP, NO in Q1, Q2. cbn [fst snd option_map] in Q1, Q2.
      destruct (IH sts1 sts2 oss i st1 GR Q1 L2) as (xs & st' & M & P & PR & NN).
      exists ((x, (s, r)) :: xs), st'. rewrite !column_cons, NX, Q2. cbn [map fst]. rewrite M. repeat split; auto.
      + constructor; auto. exists f. split; auto. cbn [fst snd]. destruct (precip (w_phase x)); destruct PM as [-> ->]; auto.
      + cbn [prun]. unfold step. rewrite NL. rewrite PR. auto.
  Qed.
  (** The snow model sees exactly a run of its own on the inputs it was given. *)
  Fixpoint srun (fs : list F) (s : S) : option (S * list O) :=
    match fs with
    | [] => Some (s, [])
    | f :: t => match snow f s with None => None | Some (s1, o) => match srun t s1 with None => None | Some (s2, os) => Some (s2, o :: os) end end
    end.
  Lemma prun_snow : forall xs st st' os, prun xs st = Some (st', os) ->
    srun (map wo_force os) (w_snow st) = Some (w_snow st', map wo_out os).
  Proof.
    induction xs as [|[x sr] xs IH]; intros st st' os E.
    - cbn in E. injection E as <- <-. auto.
    - cbn [prun] in E. unfold step, pixel_step in E. destruct (if rd then _ else _) as [[s r] p]. destruct (through_canopy _ _ _ _ _ _) as [[ld sub] s1].
      destruct (snow (ww s1 r (w_rest x)) (w_snow st)) as [[sn o]|] eqn:SN; [|discriminate].
      destruct (prun xs _) as [[st2 os2]|] eqn:PR; [|discriminate]. injection E as <- <-. cbn [map wo_force wo_out srun]. rewrite SN.
      specialize (IH _ _ _ PR). cbn [w_snow] in IH. rewrite IH. auto.
  Qed.
  (** Water reaching the snow model: projections of its input *)
  Variables (snowfall_of rain_of : F -> num).
  Hypothesis water_given : forall s r f, snowfall_of (ww s r f) = s /\ rain_of (ww s r f) = r.
  Hypothesis cc_ok : valid_cfg cc.
  Hypothesis dt_ok : 0 <= dt.
  Lemma step_water : forall x st sr st' o, step x st sr = Some (st', o) -> parts (x, sr) -> inputs_ok x ->
    (w_forest x = true -> exists l, w_load st = Some l /\ 0 <= l <= c_storage cc * w_lai x) ->
    load st + nan_to_zero (wo_precip o) =
      load st' + nan_to_zero (wo_csub o) + (nan_to_zero (snowfall_of (wo_force o)) + nan_to_zero (rain_of (wo_force o))) /\
    (0 <= nan_to_zero (wo_csub o) /\ 0 <= nan_to_zero (snowfall_of (wo_force o)) /\ 0 <= nan_to_zero (rain_of (wo_force o))) /\
    (rd = false -> wo_precip o = precip (w_phase x)) /\
    (w_forest x = true -> exists l, w_load st' = Some l /\ 0 <= l <= c_storage cc * w_lai x) /\
    (w_forest x = false -> w_load st' = w_load st).
  Proof.
    intros x st sr st' o E (f & FB & PM) (P0 & S0 & IF) CO. cbn [fst snd] in PM. unfold step, pixel_step in E.
    (* above the canopy *)
    assert (AB : exists s r p, (if rd then redistribute_snow (srf (w_phase x)) sr else (fst sr, snd sr, precip (w_phase x))) = (s, r, p) /\
      nan_to_zero p = nan_to_zero s + nan_to_zero r /\ 0 <= nan_to_zero s /\ 0 <= nan_to_zero r /\ (rd = false -> p = precip (w_phase x)) /\
      (precip (w_phase x) <> None -> exists a b, s = Some a /\ r = Some b)).
    { destruct (precip (w_phase x)) as [v|] eqn:PV; subst sr; cbn [nan_to_zero] in P0.
      - assert (A1 : 0 <= f * v) by nra. assert (A2 : 0 <= (1 - f) * v) by nra.
        destruct rd; cbn; do 3 eexists; (split; [reflexivity|]); cbn; repeat split; try discriminate; try nra; eauto.
      - destruct rd; cbn; do 3 eexists; (split; [reflexivity|]); cbn; repeat split; try discriminate; try lra; tauto. }
    destruct AB as (s & r & p & EA & SUM & SP & RP & PP & PN). rewrite EA in E. unfold through_canopy in E. destruct (w_forest x) eqn:WF.
    - destruct (IF eq_refl) as (LP & PV & CT). destruct (PN PV) as (a & b & -> & ->). cbn [nan_to_zero] in SUM, SP, RP.
      destruct (CO eq_refl) as (l & WL & LB). destruct (w_ctemp x) as [t|] eqn:TT; [|tauto]. rewrite WL in E.
      destruct (c35_balance cc dt (w_lai x) (w_coeff x) l t a b cc_ok LP dt_ok SP LB) as (l' & inter & sub & melt & ground & EC & BAL & _ & _ & LB' & GP & SBP & _ & _).
      rewrite EC in E. cbn [r_load r_sublimation r_snowfall] in E. destruct (snow _ _) as [[sn oo]|]; [|discriminate]. injection E as <- <-.
      cbn [wo_precip wo_csub wo_force w_load]. destruct (water_given (Some ground) (Some b) (w_rest x)) as [W1 W2]. rewrite W1, W2.
      unfold load. rewrite WL. cbn [w_load nan_to_zero]. repeat split; auto; try lra; try discriminate. intros _. exists l'. auto.
    - destruct (snow _ _) as [[sn oo]|]; [|discriminate]. injection E as <- <-. cbn [wo_precip wo_csub wo_force w_load].
      destruct (water_given s r (w_rest x)) as [W1 W2]. rewrite W1, W2. unfold load. cbn [w_load nan_to_zero].
      repeat split; auto; try lra; try discriminate.
  Qed.
  Lemma prun_canopy : forall xs st st' os, prun xs st = Some (st', os) ->
    Forall parts xs -> Forall (fun x => inputs_ok (fst x)) xs -> canopy_ok cc st (map fst xs) ->
    load st + total (fun o => nan_to_zero (wo_precip o)) os =
      load st' + total (fun o => nan_to_zero (wo_csub o)) os + total (fun o => nan_to_zero (snowfall_of (wo_force o)) + nan_to_zero (rain_of (wo_force o))) os /\
    Forall (fun o => 0 <= nan_to_zero (wo_csub o) /\ 0 <= nan_to_zero (snowfall_of (wo_force o)) /\ 0 <= nan_to_zero (rain_of (wo_force o))) os /\
    (rd = false -> map wo_precip os = map (fun x => precip (w_phase (fst x))) xs).
  Proof.
    induction xs as [|[x sr] xs IH]; intros st st' os E P I C.
    - cbn in E. injection E as <- <-. rewrite !total_nil. repeat split; auto. lra.
    - cbn [prun] in E. destruct (step x st sr) as [[st1 o]|] eqn:ST; [|discriminate]. destruct (prun xs st1) as [[st2 os2]|] eqn:PR; [|discriminate].
      injection E as <- <-. inversion P as [|a1 b1 P1 P2]; subst. inversion I as [|a2 b2 I1 I2]; subst. cbn [fst] in I1.
      assert (CO : w_forest x = true -> exists l, w_load st = Some l /\ 0 <= l <= c_storage cc * w_lai x).
      { intros WF. destruct C as [C|(C & l & WL & L0 & L1 & _)]; [inversion C; cbn in *; congruence|]. exists l. auto. }
      destruct (step_water x st sr st1 o ST P1 I1 CO) as (B & N & Q & KF & KN).
      assert (C2 : canopy_ok cc st1 (map fst xs)).
      { destruct C as [C|(C & l & WL & L0 & L1 & G)].
        - left. inversion C; auto.
        - right. inversion C as [|a b C1 C3]; subst. split; auto. cbn [fst] in C1. destruct (KF C1) as (l1 & W1 & LB). exists l1. split; auto. split; [apply LB|].
          destruct xs as [|[x2 sr2] xs]; cbn [map fst] in *; auto. destruct G as [G1 G2]. split; auto.
          apply Rle_trans with (c_storage cc * w_lai x); [apply LB|]. apply Rmult_le_compat_l; auto. left. apply cc_ok. }
      destruct (IH st1 st2 os2 PR P2 I2 C2) as (B2 & N2 & Q2). rewrite !total_cons. split; [lra|]. split; [constructor; auto|].
      intros RD. cbn [map fst]. rewrite (Q RD), (Q2 RD). auto.
  Qed.
End Generic.

(** * C86, multilayer snow model *)
Definition ml_grid (c : MultilayerModel.config) (pc : phase_cfg) (rd : bool) (cc : ccfg) := grid_run (ml_snow c) ml_water pc rd cc (MultilayerModel.dt c).
Lemma ml_srun : forall c fs st, srun (ml_snow c) fs st = Some (MultilayerModel.snow_run c fs st).
Proof.
  intros c fs. induction fs as [|f fs IH]; intros st; cbn [srun MultilayerModel.snow_run]; auto. unfold ml_snow at 1. destruct (MultilayerModel.snow_step c f st) as [st1 o]. rewrite IH. destruct (MultilayerModel.snow_run c fs st1). auto.
Qed.
(** Every pixel of every run: what has fallen has run off, sublimated from the canopy or the snow, been
    discarded with a vanishing remnant of snow, or is still there. *)
Theorem c86_pixel : forall c pc rd cc steps sts sts' outs i load0 p alb,
  let os := column i outs in
  ml_grid c pc rd cc steps sts = Some (sts', outs) -> nth_error sts i = Some (WS load0 (p, alb)) ->
  Forall (fun ins => (i < length ins)%nat) steps ->
  HistoryProofs.cfg_ok c -> valid_cfg cc -> 0 <= MultilayerModel.dt c ->
  StepProofs.good_pack p -> length (MultilayerModel.lays p) = length (MultilayerModel.mts c) ->
  Forall inputs_ok (column i steps) -> canopy_ok cc (WS load0 (p, alb)) (column i steps) ->
  HistoryProofs.all_routable c (map wo_force os) (p, alb) -> Forall (fun o => MultilayerModel.o_nan (wo_out o) = false) os ->
  exists load1 p' alb', nth_error sts' i = Some (WS load1 (p', alb')) /\
    nan_to_zero load0 + MultilayerModel.pack_mass p + total (fun o => nan_to_zero (wo_precip o)) os =
    nan_to_zero load1 + MultilayerModel.pack_mass p' + total (fun o => nan_to_zero (wo_csub o)) os +
      total (fun o => MultilayerModel.o_runoff (wo_out o)) os + total (fun o => MultilayerModel.o_sublimation (wo_out o)) os +
      total (fun o => HistoryProofs.discarded (wo_out o)) os /\
    Forall (fun o => 0 <= nan_to_zero (wo_csub o) /\ 0 <= MultilayerModel.o_runoff (wo_out o) /\ 0 <= HistoryProofs.discarded (wo_out o)) os /\
    (rd = false -> map wo_precip os = map (fun x => precip (w_phase x)) (column i steps)).
Proof.
  intros c pc rd cc steps sts sts' outs i load0 p alb os E N L HC VC DT GP LN IO CO RT NN.
  destruct (grid_pixel (ml_snow c) ml_water pc rd cc (MultilayerModel.dt c) steps sts sts' outs i _ E N L) as (xs & [load1 [p' alb']] & M & PT & PR & N').
  exists load1, p', alb'. split; auto. fold os in PR.
  assert (I2 : Forall (fun x => inputs_ok (fst x)) xs) by (rewrite <- M in IO; rewrite Forall_map in IO; auto). rewrite <- M in CO.
  destruct (prun_canopy (ml_snow c) ml_water pc rd cc (MultilayerModel.dt c) MultilayerModel.f_snowfall MultilayerModel.f_rain (fun s r f => conj eq_refl eq_refl) VC DT xs _ _ _ PR PT I2 CO) as (B & NG & PP).
  pose proof (prun_snow (ml_snow c) ml_water rd cc (MultilayerModel.dt c) xs _ _ _ PR) as SR. rewrite ml_srun in SR. cbn [w_snow] in SR.
  pose proof (MultilayerTheorems.c07_balance c (map wo_force os) p alb HC GP LN) as BAL. injection SR as SR. rewrite SR in BAL.
  destruct BAL as (M7 & _ & F7).
  - apply Forall_map. eapply Forall_impl; [|exact NG]. cbn. tauto.
  - exact RT.
  - apply Forall_map. exact NN.
  - unfold load in B. cbn [w_load] in B.
    assert (T1 : sumR (map (fun f => Rmax 0 (nan_to_zero (MultilayerModel.f_snowfall f)) + nan_to_zero (MultilayerModel.f_rain f)) (map wo_force os)) =
      total (fun o => nan_to_zero (MultilayerModel.f_snowfall (wo_force o)) + nan_to_zero (MultilayerModel.f_rain (wo_force o))) os).
    { unfold total. rewrite map_map. f_equal. clear - NG. induction NG as [|o l H NG IH]; cbn [map]; auto. rewrite IH. f_equal. rewrite Rmax_right; tauto. }
    rewrite T1, !map_map in M7. fold (total (fun o : wout MultilayerModel.forcing MultilayerModel.output => MultilayerModel.o_runoff (wo_out o)) os) in M7.
    fold (total (fun o : wout MultilayerModel.forcing MultilayerModel.output => MultilayerModel.o_sublimation (wo_out o)) os) in M7. fold (total (fun o : wout MultilayerModel.forcing MultilayerModel.output => HistoryProofs.discarded (wo_out o)) os) in M7.
    split; [lra|]. split.
    + rewrite Forall_map in F7. rewrite Forall_forall in *. intros o IN. specialize (NG o IN). specialize (F7 o IN). tauto.
    + intros RD. rewrite (PP RD), <- M, map_map. auto.
Qed.
Print Assumptions c86_pixel.
(** With the mass fraction formula for liquid water there is no condition on the snowpack. *)
Theorem c86_pixel_mass_fraction : forall c pc rd cc steps sts sts' outs i load0 p alb,
  let os := column i outs in
  ml_grid c pc rd cc steps sts = Some (sts', outs) -> nth_error sts i = Some (WS load0 (p, alb)) ->
  Forall (fun ins => (i < length ins)%nat) steps ->
  HistoryProofs.cfg_ok c -> SnowModel.MassFraction = MultilayerModel.lwcm c -> valid_cfg cc -> 0 <= MultilayerModel.dt c ->
  StepProofs.good_pack p -> length (MultilayerModel.lays p) = length (MultilayerModel.mts c) ->
  Forall inputs_ok (column i steps) -> canopy_ok cc (WS load0 (p, alb)) (column i steps) ->
  Forall (fun o => MultilayerModel.o_nan (wo_out o) = false) os ->
  exists load1 p' alb', nth_error sts' i = Some (WS load1 (p', alb')) /\
    nan_to_zero load0 + MultilayerModel.pack_mass p + total (fun o => nan_to_zero (wo_precip o)) os =
    nan_to_zero load1 + MultilayerModel.pack_mass p' + total (fun o => nan_to_zero (wo_csub o)) os +
      total (fun o => MultilayerModel.o_runoff (wo_out o)) os + total (fun o => MultilayerModel.o_sublimation (wo_out o)) os +
      total (fun o => HistoryProofs.discarded (wo_out o)) os.
Proof.
  intros c pc rd cc steps sts sts' outs i load0 p alb os E N L HC MF VC DT GP LN IO CO NN.
  assert (R1 : forall fs st, HistoryProofs.all_routable c fs st).
  { induction fs as [|f fs IH]; intros st; cbn; [exact I|]. split; [intros Q; congruence|apply IH]. }
  destruct (c86_pixel c pc rd cc steps sts sts' outs i load0 p alb E N L HC VC DT GP LN IO CO (R1 _ _) NN) as (l1 & p' & alb' & A & B & _).
  exists l1, p', alb'. auto.
Qed.
Print Assumptions c86_pixel_mass_fraction.
(** A run fails only for a negative temperature range of the precipitation phase. *)
Theorem c86_runs : forall c pc rd cc steps sts, 0 <= temp_range pc -> exists sts' outs, ml_grid c pc rd cc steps sts = Some (sts', outs).
Proof.
  intros c pc rd cc steps. induction steps as [|ins steps IH]; intros sts H; [do 2 eexists; reflexivity|].
  unfold ml_grid. cbn [grid_run]. unfold grid_step. destruct (c31_total pc (map w_phase ins) H) as [srs ->].
  assert (A : exists l, all_some (map (fun '(x, st, sr) => pixel_step (ml_snow c) ml_water rd cc (MultilayerModel.dt c) x st sr) (combine (combine ins sts) srs)) = Some l).
  { generalize (combine (combine ins sts) srs). intros l. induction l as [|[[x st] sr] l [r IHl]]; [exists []; auto|]. cbn [map all_some].
    unfold pixel_step at 1. destruct (if rd then _ else _) as [[s r0] p]. destruct (through_canopy _ _ _ _ _ _) as [[ld sub] s1]. unfold ml_snow at 1.
    destruct (MultilayerModel.snow_step _ _ _) as [sn o]. rewrite IHl. eauto. }
  destruct A as [l ->]. destruct (split l) as [sts1 os]. destruct (IH sts1 H) as (sts2 & oss & E). unfold ml_grid in E. rewrite E. eauto.
Qed.
Print Assumptions c86_runs.

(** * The whole grid *)
Lemma table_columns : forall {A} (f : A -> R) n (t : list (list A)), Forall (fun r => length r = n) t ->
  sumR (map (fun i => total f (column i t)) (seq 0 n)) = total (total f) t.
Proof.
  intros A f n t H. induction H as [|r t E H IH].
  - rewrite total_nil. unfold column. cbn [flat_map]. clear. generalize 0%nat. induction n as [|n IHn]; intros k; cbn [seq map]; [apply sumR_nil|]. rewrite sumR_cons, IHn, total_nil. lra.
  - rewrite total_cons, <- IH. clear IH H. subst n.
    assert (G : forall k, sumR (map (fun i => total f (column (i - k) (r :: t))) (seq k (length r))) = total f r + sumR (map (fun i => total f (column (i - k) t)) (seq k (length r)))).
    { assert (E : forall l k m, (forall i, (i < length l)%nat -> nth_error r (i + m) = nth_error l i) -> sumR (map (fun i => total f (column (i - k + m) (r :: t))) (seq k (length l))) = total f l + sumR (map (fun i => total f (column (i - k + m) t)) (seq k (length l)))).
      { induction l as [|x l IHl]; intros k m Q; cbn [length seq map]; [rewrite !sumR_nil, total_nil; lra|]. rewrite !sumR_cons, total_cons.
        rewrite Nat.sub_diag. cbn [Nat.add]. rewrite column_cons. pose proof (Q 0%nat ltac:(cbn; lia)) as Q0. cbn in Q0. rewrite Q0, total_cons.
        assert (S1 : forall g : nat -> R, map (fun i => g (i - k + m)%nat) (seq (S k) (length l)) = map (fun i => g (i - S k + S m)%nat) (seq (S k) (length l))).
        { intros g. apply map_ext_in. intros i I. apply in_seq in I. f_equal. lia. }
        rewrite (S1 (fun i => total f (column i (r :: t)))), (S1 (fun i => total f (column i t))). rewrite IHl; [lra|].
        intros i I. pose proof (Q (S i) ltac:(cbn; lia)) as QS. cbn [nth_error] in QS. rewrite <- QS. f_equal. lia. }
      intros k. specialize (E r k 0%nat). replace (map (fun i => total f (column (i - k) (r :: t))) (seq k (length r))) with (map (fun i => total f (column (i - k + 0) (r :: t))) (seq k (length r))) by (apply map_ext; intros; f_equal; f_equal; lia).
      replace (map (fun i => total f (column (i - k) t)) (seq k (length r))) with (map (fun i => total f (column (i - k + 0) t)) (seq k (length r))) by (apply map_ext; intros; f_equal; f_equal; lia).
      apply E. intros i _. f_equal. lia. }
    specialize (G 0%nat). replace (map (fun i => total f (column i (r :: t))) (seq 0 (length r))) with (map (fun i => total f (column (i - 0) (r :: t))) (seq 0 (length r))) by (apply map_ext; intros; f_equal; f_equal; lia).
    rewrite G. f_equal. f_equal. apply map_ext. intros. f_equal; f_equal; lia.
Qed.
Lemma nth_total : forall {A} (f : A -> R) (l : list A), total f l = sumR (map (fun i => match nth_error l i with Some x => f x | None => 0 end) (seq 0 (length l))).
Proof.
  intros A f l. pose proof (table_columns f (length l) [l] ltac:(repeat constructor)) as E. rewrite total_cons, total_nil in E.
  replace (total f l) with (total f l + 0) by lra. rewrite <- E. f_equal. apply map_ext. intros i. unfold column. cbn [flat_map]. destruct (nth_error l i); cbn [app]; [rewrite total_cons, total_nil; lra|apply total_nil].
Qed.
Lemma forall2_len : forall {A B} (P : A -> B -> Prop) l m, Forall2 P l m -> length l = length m.
Proof. intros A B P l m H. induction H; cbn; auto. Qed.
Lemma grid_lengths : forall {S F O} (snow : F -> S -> option (S * O)) ww pc rd cc dt steps sts sts' outs n, grid_run snow ww pc rd cc dt steps sts = Some (sts', outs) ->
  length sts = n -> Forall (fun ins => length ins = n) steps -> length sts' = n /\ Forall (fun os => length os = n) outs.
Proof.
  intros S F O snow ww pc rd cc dt steps. induction steps as [|ins steps IH]; intros sts sts' outs n E L H.
  - cbn in E. injection E as <- <-. auto.
  - cbn [grid_run] in E. unfold grid_step in E. destruct (precip_fields pc (map w_phase ins)) as [srs|] eqn:PF; [|discriminate].
    destruct (all_some _) as [l|] eqn:AS in E; [|discriminate]. destruct (split l) as [sts1 os] eqn:SP. destruct (grid_run snow ww pc rd cc dt steps sts1) as [[sts2 oss]|] eqn:G; [|discriminate].
    injection E as <- <-. inversion H as [|a b H1 H2]; subst. destruct (c31_partition pc _ _ PF) as [LS _]. rewrite map_length in LS.
    apply all_some_forall2 in AS. apply forall2_len in AS. rewrite map_length, !combine_length in AS.
    assert (L1 : length l = length sts) by lia. pose proof (split_length_l l) as Q1. pose proof (split_length_r l) as Q2. rewrite SP in Q1, Q2. cbn [fst snd] in Q1, Q2.
    destruct (IH sts1 sts2 oss (length sts) G ltac:(lia) H2) as [Q3 Q4]. split; auto. constructor; auto. lia.
Qed.
(** Balance of the region: sums over all pixels and time steps. *)
Theorem c86_region : forall c pc rd cc steps sts sts' outs n,
  ml_grid c pc rd cc steps sts = Some (sts', outs) -> length sts = n -> Forall (fun ins => length ins = n) steps ->
  HistoryProofs.cfg_ok c -> valid_cfg cc -> 0 <= MultilayerModel.dt c ->
  (forall i load0 p alb, nth_error sts i = Some (WS load0 (p, alb)) ->
     StepProofs.good_pack p /\ length (MultilayerModel.lays p) = length (MultilayerModel.mts c) /\
     Forall inputs_ok (column i steps) /\ canopy_ok cc (WS load0 (p, alb)) (column i steps) /\
     HistoryProofs.all_routable c (map wo_force (column i outs)) (p, alb)) ->
  Forall (Forall (fun o => MultilayerModel.o_nan (wo_out o) = false)) outs ->
  let stored st := nan_to_zero (w_load st) + MultilayerModel.pack_mass (fst (w_snow st)) in
  let lost o := nan_to_zero (wo_csub o) + MultilayerModel.o_runoff (wo_out o) + MultilayerModel.o_sublimation (wo_out o) + HistoryProofs.discarded (wo_out o) in
  total stored sts + total (total (fun o => nan_to_zero (wo_precip o))) outs = total stored sts' + total (total lost) outs.
Proof.
  intros c pc rd cc steps sts sts' outs n E LN LS HC VC DT PX NN stored lost.
  destruct (grid_lengths _ _ _ _ _ _ _ _ _ _ n E LN LS) as [L' LO].
  rewrite <- !(table_columns _ n outs LO), !nth_total, LN, L'.
  assert (G : forall l, (forall i, In i l -> (i < n)%nat) ->
     sumR (map (fun i => match nth_error sts i with Some x => stored x | None => 0 end) l) + sumR (map (fun i => total (fun o => nan_to_zero (wo_precip o)) (column i outs)) l) =
     sumR (map (fun i => match nth_error sts' i with Some x => stored x | None => 0 end) l) + sumR (map (fun i => total lost (column i outs)) l)).
  { induction l as [|i l IH]; intros I; cbn [map]; [rewrite !sumR_nil; lra|]. rewrite !sumR_cons.
    destruct (nth_error sts i) as [[load0 [p alb]]|] eqn:N; [|apply nth_error_None in N; pose proof (I i (or_introl eq_refl)); lia].
    destruct (PX i load0 p alb N) as (GP & LL & IO & CO & RT).
    assert (LI : Forall (fun ins : list (win MultilayerModel.forcing) => (i < length ins)%nat) steps).
    { eapply Forall_impl; [|exact LS]. intros a A. cbn in A. rewrite A. apply I. left. auto. }
    assert (NI : Forall (fun o => MultilayerModel.o_nan (wo_out o) = false) (column i outs)).
    { clear - NN. unfold column. induction NN as [|r t H NN IH]; cbn [flat_map]; auto. apply Forall_app. split; auto. destruct (nth_error r i) eqn:Q; auto. constructor; auto. rewrite Forall_forall in H. apply H. eapply nth_error_In; eauto. }
    destruct (c86_pixel c pc rd cc steps sts sts' outs i load0 p alb E N LI HC VC DT GP LL IO CO RT NI) as (l1 & p' & alb' & N' & B & _ & _).
    rewrite N'. unfold stored at 1 3. cbn [w_load w_snow fst].
    assert (SP : total lost (column i outs) = total (fun o => nan_to_zero (wo_csub o)) (column i outs) + total (fun o => MultilayerModel.o_runoff (wo_out o)) (column i outs) +
      total (fun o => MultilayerModel.o_sublimation (wo_out o)) (column i outs) + total (fun o => HistoryProofs.discarded (wo_out o)) (column i outs)).
    { generalize (column i outs). intros os. induction os as [|o os IHo]; [rewrite !total_nil; lra|]. rewrite !total_cons, IHo. unfold lost. lra. }
    rewrite SP. specialize (IH (fun j J => I j (or_intror J))). lra. }
  apply G. intros i I. apply in_seq in I. lia.
Qed.
Print Assumptions c86_region.

(** * C86, cryolayer model *)
Definition cl_grid (c : CryoModel.ccfg) (mm : CryoModel.melt_method) (pc : phase_cfg) (rd : bool) (cc : ccfg) := grid_run (cl_snow c mm) cl_water pc rd cc (CryoModel.cc_dt c).
Lemma cl_srun : forall c mm fs p, srun (cl_snow c mm) fs p = CryoModel.crun c mm fs p.
Proof.
  intros c mm fs. induction fs as [|f fs IH]; intros p; cbn [srun CryoModel.crun]; auto. unfold cl_snow at 1. destruct (CryoModel.cstep c mm f p) as [[p1 o]|]; auto. rewrite IH. auto.
Qed.
Theorem c86_pixel_cryolayers : forall c mm pc rd cc steps sts sts' outs i load0 p,
  let os := column i outs in
  cl_grid c mm pc rd cc steps sts = Some (sts', outs) -> nth_error sts i = Some (WS load0 p) ->
  Forall (fun ins => (i < length ins)%nat) steps ->
  CryoSpec.ccfg_ok c -> valid_cfg cc -> CryoSpec.coherent_pix p ->
  Forall inputs_ok (column i steps) -> canopy_ok cc (WS load0 p) (column i steps) ->
  CryoSpec.run_light c mm (map wo_force os) p ->
  exists load1 p', nth_error sts' i = Some (WS load1 p') /\ CryoSpec.coherent_pix p' /\
    nan_to_zero load0 + (CryoModel.tot_ice p + CryoModel.tot_lw p) + total (fun o => nan_to_zero (wo_precip o)) os =
    nan_to_zero load1 + (CryoModel.tot_ice p' + CryoModel.tot_lw p') + total (fun o => nan_to_zero (wo_csub o)) os +
      total (fun o => CryoModel.o_runoff (wo_out o)) os + total (fun o => CryoModel.o_subl (wo_out o)) os /\
    Forall (fun o => 0 <= nan_to_zero (wo_csub o) /\ 0 <= CryoModel.o_runoff (wo_out o)) os /\
    (rd = false -> map wo_precip os = map (fun x => precip (w_phase x)) (column i steps)).
Proof.
  intros c mm pc rd cc steps sts sts' outs i load0 p os E N L HC VC GP IO CO RL.
  destruct (grid_pixel (cl_snow c mm) cl_water pc rd cc (CryoModel.cc_dt c) steps sts sts' outs i _ E N L) as (xs & [load1 p'] & M & PT & PR & N').
  exists load1, p'. split; auto. fold os in PR. assert (DT : 0 <= CryoModel.cc_dt c) by (destruct HC; lra).
  assert (I2 : Forall (fun x => inputs_ok (fst x)) xs) by (rewrite <- M in IO; rewrite Forall_map in IO; auto). rewrite <- M in CO.
  destruct (prun_canopy (cl_snow c mm) cl_water pc rd cc (CryoModel.cc_dt c) CryoModel.f_snow CryoModel.f_rain (fun s r f => conj eq_refl eq_refl) VC DT xs _ _ _ PR PT I2 CO) as (B & NG & PP).
  pose proof (prun_snow (cl_snow c mm) cl_water rd cc (CryoModel.cc_dt c) xs _ _ _ PR) as SR. rewrite cl_srun in SR. cbn [w_snow] in SR.
  assert (FO : Forall CryoSpec.forcing_ok (map wo_force os)) by (apply Forall_map; eapply Forall_impl; [|exact NG]; unfold CryoSpec.forcing_ok; cbn; tauto).
  destruct (CryoTheorems.c74_water_balance c mm (map wo_force os) p HC FO RL GP) as (q & o2 & E2 & _ & CQ & BAL & RP). rewrite SR in E2. injection E2 as <- <-.
  split; auto. unfold load in B. cbn [w_load] in B. rewrite !map_map in BAL.
  assert (T1 : sumR (map (fun o => CryoSpec.snow_in (wo_force o)) os) + sumR (map (fun o => CryoSpec.rain_in (wo_force o)) os) =
    total (fun o => nan_to_zero (CryoModel.f_snow (wo_force o)) + nan_to_zero (CryoModel.f_rain (wo_force o))) os).
  { unfold total. clear - NG. induction NG as [|o l H NG IH]; cbn [map]; [rewrite !sumR_nil; lra|]. rewrite !sumR_cons, <- IH. unfold CryoSpec.snow_in at 1, CryoSpec.rain_in at 1.
    destruct H as (_ & H & _). destruct (CryoModel.f_snow (wo_force o)); cbn [nan_to_zero] in *; [rewrite Rmax_left by auto|]; lra. }
  fold (total (fun o : wout CryoModel.cforcing CryoModel.coutput => CryoModel.o_runoff (wo_out o)) os) in BAL. fold (total (fun o : wout CryoModel.cforcing CryoModel.coutput => CryoModel.o_subl (wo_out o)) os) in BAL.
  split; [lra|]. split.
  - rewrite Forall_map in RP. rewrite Forall_forall in *. intros o IN. specialize (NG o IN). specialize (RP o IN). tauto.
  - intros RD. rewrite (PP RD), <- M, map_map. auto.
Qed.
Print Assumptions c86_pixel_cryolayers.
(** Two pixels (forest, open), two time steps with snow and rain, meeting the conditions. *)
Definition ex_open : win MultilayerModel.forcing := WI (PPix 1500 (Some 275) (Some 4) 1) false 0 0 None MultilayerTheorems.ex_f2.
Definition ex_wood (lai : R) : win MultilayerModel.forcing := WI (PPix 1800 (Some 268) (Some 12) 1) true lai (- 0.001) (Some 268) MultilayerTheorems.ex_f1.
Definition ex_steps := [[ex_wood 4; ex_open]; [ex_wood 5; ex_open]].
Definition ex_states : list (wst (MultilayerModel.pixel * num)) := [WS (Some 3) (MultilayerModel.init_pixel 3, None); WS None (MultilayerModel.init_pixel 3, None)].
Example c86_example : Forall (fun ins => length ins = 2%nat) ex_steps /\ valid_cfg demo_cc /\ HistoryProofs.cfg_ok MultilayerTheorems.ex_cfg /\
  Forall inputs_ok (column 0 ex_steps) /\ Forall inputs_ok (column 1 ex_steps) /\
  canopy_ok demo_cc (WS (Some 3) (MultilayerModel.init_pixel 3, @None R)) (column 0 ex_steps) /\
  canopy_ok demo_cc (WS None (MultilayerModel.init_pixel 3, @None R)) (column 1 ex_steps) /\
  exists sts' outs, ml_grid MultilayerTheorems.ex_cfg (PhaseCfg 273.65 1 true) false demo_cc ex_steps ex_states = Some (sts', outs) /\ length (column 0 outs) = 2%nat.
Proof.
  split; [repeat constructor|]. split; [apply demo_cc_valid|]. split; [apply MultilayerTheorems.c07_example|].
  assert (W : forall l, 0 < l -> inputs_ok (ex_wood l)) by (intros l L; unfold inputs_ok; cbn; repeat split; try lra; intros; try discriminate; auto).
  assert (O : inputs_ok ex_open) by (unfold inputs_ok; cbn; repeat split; try lra; discriminate).
  split; [apply Forall_cons; [apply W; lra|apply Forall_cons; [apply W; lra|apply Forall_nil]]|]. split; [apply Forall_cons; [apply O|apply Forall_cons; [apply O|apply Forall_nil]]|]. split.
  - right. split; [repeat constructor|]. exists 3. cbn. repeat split; lra.
  - split; [left; repeat constructor|]. destruct (c86_runs MultilayerTheorems.ex_cfg (PhaseCfg 273.65 1 true) false demo_cc ex_steps ex_states ltac:(cbn; lra)) as (sts' & outs & E).
    exists sts', outs. split; auto. destruct (grid_lengths _ _ _ _ _ _ _ _ _ _ 2 E eq_refl ltac:(repeat constructor)) as [_ L].
    assert (LO : length outs = 2%nat). { unfold ml_grid in E. unfold ex_steps in E. cbn [grid_run] in E. destruct (grid_step _ _ _ _ _ _ _ _) as [[a b]|]; [|discriminate].
      destruct (grid_step _ _ _ _ _ _ _ _) as [[a2 b2]|]; [|discriminate]. injection E as <- <-. auto. }
    destruct outs as [|r1 [|r2 [|]]]; try discriminate. inversion L as [|x y L1 L2]; subst. inversion L2 as [|x y L3 L4]; subst.
    destruct r1; [discriminate|]. destruct r2; [discriminate|]. auto.
Qed.
