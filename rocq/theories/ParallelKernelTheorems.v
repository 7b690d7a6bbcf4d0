(** C48, second part: one kernel on one pixel does what the function of the snow model does. *)
From Verif Require Import Common Constants SnowModel MultilayerModel HeatModel InterpModel ParallelModel ParallelTheorems.
Open Scope R_scope.

(** layer k of pixel p is l *)
Definition at_layer (m : mem) (p : pix) (k : nat) (l : layer) : Prop :=
  m (AThick, k, p) = Some (th l) /\ m (AIce, k, p) = Some (ice l) /\ m (ALwc, k, p) = Some (lwc l) /\
  m (ATemp, k, p) = Some (tmp l) /\ m (AHeatCap, k, p) = Some (hc l).
(** the layers of pixel p are lys *)
Definition shows (m : mem) (p : pix) (lys : list layer) : Prop := forall k l, nth_error lys k = Some l -> at_layer m p k l.

Fixpoint rep (m : mem) (p : pix) (k : nat) (lys : list layer) : Prop :=
  match lys with [] => True | l :: t => at_layer m p k l /\ rep m p (S k) t end.
Lemma rep_nth : forall m p lys k, rep m p k lys <-> forall i l, nth_error lys i = Some l -> at_layer m p (k + i) l.
Proof.
  intros m p. induction lys as [|a t IH]; intros k; cbn [rep]; split; auto.
  - intros _ [|i] l H; discriminate.
  - intros [A B] [|i] l H; cbn in H.
    + injection H as <-. rewrite Nat.add_0_r. auto.
    + rewrite IH in B. specialize (B i l H). rewrite <- plus_n_Sm. auto.
  - intros H. split.
    + specialize (H O a eq_refl). rewrite Nat.add_0_r in H. auto.
    + apply IH. intros i l E. specialize (H (S i) l E). rewrite <- plus_n_Sm in H. auto.
Qed.
Lemma rep_shows : forall m p lys, rep m p 0 lys <-> shows m p lys.
Proof. intros. unfold shows. rewrite rep_nth. reflexivity. Qed.
Definition layered (a : array) : bool := match a with AThick | AIce | ALwc | ATemp | AHeatCap => true | _ => false end.
Lemma at_store : forall m p k l a j v, j <> k \/ layered a = false -> at_layer m p k l -> at_layer (store m (a, j, p) v) p k l.
Proof.
  intros m p k l a j v D (A & B & C & E & F). repeat split; rewrite store_other; auto; intros X; injection X; intros; subst; destruct D as [D|D]; auto; discriminate.
Qed.
Lemma rep_store : forall m p lys k a j v, (j < k)%nat \/ layered a = false -> rep m p k lys -> rep (store m (a, j, p) v) p k lys.
Proof.
  intros m p. induction lys as [|l t IH]; intros k a j v D H; cbn [rep] in *; auto. destruct H as [A B]. split.
  - apply at_store; auto. destruct D; auto. left. lia.
  - apply IH; auto. destruct D; auto.
Qed.
Lemma head_kept : forall W X m p k l al q, acts (from p (S k) al) X q -> W = from p (S k) al -> (forall a, In a al -> layered a = false) -> at_layer m p k l -> at_layer (run q m) p k l.
Proof.
  intros W X m p k l al q A -> N (B & C & D & E & F).
  assert (K : forall a, layered a = true -> run q m (a, k, p) = m (a, k, p)).
  { intros a L. apply (run_frame (from p (S k) al) X); auto. intros [_ [I|I]]; cbn in I; [rewrite N in L by auto; discriminate|lia]. }
  repeat split; rewrite K; auto.
Qed.
Ltac reads := repeat first [rewrite store_same | rewrite store_other by congruence | match goal with H : ?m ?l = Some _ |- context [?m ?l] => rewrite H end].
Ltac go := repeat first [progress cbn [run op lift2 fadd fsub fmul fmin fgt fexp option_map] | progress unfold update, fadd, fsub, fmul, fmin | progress cbv zeta beta | progress reads].
Ltac kept := repeat (apply rep_store; [first [left; lia|right; reflexivity]|]); auto.
Ltac here := repeat split; cbn [th ice lwc tmp hc]; reads; auto.
Lemma Lf_nz : Lf <> 0. Proof. unfold Lf. lra. Qed.
Lemma fdiv_nz : forall x y, y <> 0 -> fdiv (Some x) (Some y) = Some (x / y).
Proof. intros. unfold fdiv. destruct (Req_EM_T y 0); congruence. Qed.

(** * _melt *)
Lemma melt_run : forall n lys k p chg act m, (n <= length lys)%nat -> rep m p k lys ->
  rep (run (melt_body n k p chg (Some act)) m) p k (fst (melt_loop n chg act lys)) /\
  run (melt_body n k p chg (Some act)) m (AMelt, O, p) = Some (snd (melt_loop n chg act lys)).
Proof.
  induction n as [|n IH]; intros lys k p chg act m L R.
  - cbn [melt_body run]. replace (melt_loop 0 chg act lys) with (lys, act) by (destruct lys; auto). cbn [fst snd]. split; [kept|apply store_same].
  - destruct lys as [|l t]; [cbn in L; lia|]. cbn [length] in L. cbn [rep] in R. destruct R as ((A & B & C & D & E) & R).
    assert (K : forall m2 chg' act' l', at_layer m2 p k l' -> rep m2 p (S k) t ->
      rep (run (melt_body n (S k) p chg' (Some act')) m2) p k (l' :: fst (melt_loop n chg' act' t)) /\
      run (melt_body n (S k) p chg' (Some act')) m2 (AMelt, O, p) = Some (snd (melt_loop n chg' act' t))).
    { intros m2 chg' act' l' A2 R2. destruct (IH t (S k) p chg' act' m2 ltac:(lia) R2) as [I1 I2]. split; auto. cbn [rep]. split; auto.
      eapply head_kept; [apply melt_acts|reflexivity| |auto]. intros a [<- |[]]. auto. }
    cbn [melt_body melt_loop]. go. rewrite fdiv_nz by apply Lf_nz.
    assert (P : forall m2 chg1 t1, at_layer m2 p k (mkL (th l) (ice l) (lwc l) t1 (hc l)) -> rep m2 p (S k) t ->
      let q := if fgt chg1 (Some 0) then
          Rd (AIce, k, p) (fun i => if fgt chg1 i then
            Rd (AIce, k, p) (fun i0 => Wr (AThick, k, p) (Some 0) (Rd (ALwc, k, p) (fun w => Rd (AIce, k, p) (fun i1 => Wr (ALwc, k, p) (lift2 Rplus w i1) (
            Rd (AIce, k, p) (fun i2 => Wr (AIce, k, p) (Some 0) (melt_body n (S k) p (lift2 Rminus chg1 i0) (lift2 Rplus (Some act) i2))))))))
          else Rd (AThick, k, p) (fun d => Rd (AIce, k, p) (fun i0 => Wr (AThick, k, p) (lift2 Rmult d (lift2 Rminus (Some 1) (fdiv chg1 i0))) (
            Rd (AIce, k, p) (fun v => Wr (AIce, k, p) (lift2 Rminus v chg1) (Rd (ALwc, k, p) (fun v0 => Wr (ALwc, k, p) (lift2 Rplus v0 chg1) (melt_body n (S k) p (Some 0) (lift2 Rplus (Some act) chg1)))))))))
        else melt_body n (S k) p chg1 (Some act) in
      let r := match chg1 with
      | Some x => if Rlt_dec 0 x then if Rlt_dec (ice l) x
            then (mkL 0 0 (lwc l + ice l) t1 (hc l) :: fst (melt_loop n (Some (x - ice l)) (act + ice l) t), snd (melt_loop n (Some (x - ice l)) (act + ice l) t))
            else (mkL (th l * (1 - x / ice l)) (ice l - x) (lwc l + x) t1 (hc l) :: fst (melt_loop n (Some 0) (act + x) t), snd (melt_loop n (Some 0) (act + x) t))
          else (mkL (th l) (ice l) (lwc l) t1 (hc l) :: fst (melt_loop n (Some x) act t), snd (melt_loop n (Some x) act t))
      | None => (mkL (th l) (ice l) (lwc l) t1 (hc l) :: fst (melt_loop n None act t), snd (melt_loop n None act t)) end in
      rep (run q m2) p k (fst r) /\ run q m2 (AMelt, O, p) = Some (snd r)).
    { clear A B C D E R m chg. intros m2 chg1 t1 (A & B & C & D & E) R2. cbn [th ice lwc tmp hc] in *. destruct chg1 as [x|]; cbn [fgt].
      - cbv zeta. destruct (Rlt_dec 0 x) as [X|X]; [|cbn [fst snd]; apply K; [here|kept]].
        cbn [run]. rewrite B. cbn [fgt]. destruct (Rlt_dec (ice l) x) as [Y|Y]; go; cbn [fst snd].
        + apply K; [here|kept].
        + rewrite fdiv_nz by lra. go. apply K; [here|kept].
      - cbv zeta. apply K; [here|kept]. }
    destruct (Rlt_dec (hc l * (T0 - tmp l)) 0) as [X|X]; cbn [fgt].
    + assert (EQ : option_map (fun x => x - hc l * (T0 - tmp l) / Lf) chg = lift2 Rminus chg (Some (hc l * (T0 - tmp l) / Lf))) by (destruct chg; auto).
      rewrite EQ. cbn [run]. apply P; [here|kept].
    + apply P; [here|kept].
Qed.
(** * _sublimation *)
Lemma sublim_run : forall n lys k p chg m, (n <= length lys)%nat -> rep m p k lys -> snd (sublim_loop n chg lys) = false ->
  rep (run (sublim_body n k p (Some chg)) m) p k (fst (fst (sublim_loop n chg lys))).
Proof.
  induction n as [|n IH]; intros lys k p chg m L R.
  - intros _. destruct lys; auto.
  - destruct lys as [|l t]; [cbn in L; lia|]. cbn [length] in L. cbn [rep] in R. destruct R as ((A & B & C & D & E) & R).
    assert (K : forall m2 chg' l', at_layer m2 p k l' -> rep m2 p (S k) t -> snd (sublim_loop n chg' t) = false ->
      rep (run (sublim_body n (S k) p (Some chg')) m2) p k (l' :: fst (fst (sublim_loop n chg' t)))).
    { intros m2 chg' l' A2 R2 N. specialize (IH t (S k) p chg' m2 ltac:(lia) R2 N). cbn [rep]. split; auto.
      eapply head_kept; [apply sublim_acts|reflexivity| |auto]. intros a []. }
    cbn [sublim_body sublim_loop]. intros N. go. destruct (Rlt_dec (ice l) chg) as [X|X].
    + specialize (fun m2 l' A R => K m2 (chg - ice l) l' A R). destruct (sublim_loop n (chg - ice l) t) as [[ls' rest] nan]. cbn [fst snd] in *. go. apply K; auto; [here|kept].
    + specialize (fun m2 l' A R => K m2 0 l' A R). destruct (sublim_loop n 0 t) as [[ls' rest] nan]. cbn [fst snd] in *. go.
      destruct (Req_EM_T (ice l) 0) as [Z|Z]; [discriminate|]. rewrite fdiv_nz by auto. go. apply K; auto; [here|kept].
Qed.
(** * _runoff *)
Fixpoint caps (m : mem) (p : pix) (k : nat) (mx : list R) : Prop :=
  match mx with [] => True | x :: t => m (AMaxLwc, k, p) = Some x /\ caps m p (S k) t end.
Lemma caps_store : forall m p mx k a j v, a <> AMaxLwc -> caps m p k mx -> caps (store m (a, j, p) v) p k mx.
Proof. intros m p. induction mx as [|x t IH]; intros k a j v D H; cbn [caps] in *; auto. destruct H as [A B]. split; auto. rewrite store_other; auto. congruence. Qed.
Ltac ckept := repeat (apply caps_store; [discriminate|]); auto.
Lemma runoff_run : forall n lys mx k p ro rf m, (n <= length lys)%nat -> (n <= length mx)%nat -> rep m p k lys -> caps m p k mx ->
  m (ARunoff, O, p) = Some ro -> m (ARefr, O, p) = Some rf ->
  let '(ls', ro', rf') := runoff_loop n mx ro rf lys in
  let m' := run (runoff_body n k p) m in rep m' p k ls' /\ m' (ARunoff, O, p) = Some ro' /\ m' (ARefr, O, p) = Some rf'.
Proof.
  induction n as [|n IH]; intros lys mx k p ro rf m L LM R CP RO RF.
  - destruct lys; cbn; auto.
  - destruct lys as [|l t]; [cbn in L; lia|]. destruct mx as [|x mx]; [cbn in LM; lia|]. cbn [length] in L, LM. cbn [rep] in R. destruct R as ((A & B & C & D & E) & R). cbn [caps] in CP. destruct CP as [CX CP].
    assert (K : forall m2 l' ro1 rf1, at_layer m2 p k l' -> rep m2 p (S k) t -> caps m2 p (S k) mx -> m2 (ARunoff, O, p) = Some ro1 -> m2 (ARefr, O, p) = Some rf1 ->
      let '(ls', ro', rf') := runoff_loop n mx ro1 rf1 t in
      let m' := run (runoff_body n (S k) p) m2 in rep m' p k (l' :: ls') /\ m' (ARunoff, O, p) = Some ro' /\ m' (ARefr, O, p) = Some rf').
    { intros m2 l' ro1 rf1 A2 R2 C2 O2 F2. specialize (IH t mx (S k) p ro1 rf1 m2 ltac:(lia) ltac:(lia) R2 C2 O2 F2). destruct (runoff_loop n mx ro1 rf1 t) as [[ls' ro'] rf']. cbv zeta in *. cbn [rep].
      destruct IH as (I1 & I2 & I3). repeat split; auto; try (eapply head_kept; [apply runoff_acts|reflexivity| |apply A2]; intros a [<- |[<- |[]]]; auto). }
    cbn [runoff_body runoff_loop]. go. destruct (Rlt_dec x (lwc l + ro)) as [X|X]; go; destruct (Rlt_dec 0 (hc l * (T0 - tmp l))) as [Y|Y]; go.
    + rewrite fdiv_nz by apply Lf_nz. go. assert (HN : hc l <> 0) by (intros Z; rewrite Z in Y; lra). rewrite fdiv_nz by auto. go.
      set (d := Rmin x (hc l * (T0 - tmp l) / Lf)). match goal with |- context [run (runoff_body n (S k) p) ?mm] => refine (_ (K mm (mkL (th l) (ice l + d) (x - d) (tmp l + Lf * d / hc l) (hc l)) (lwc l + ro - x) (rf + d) _ _ _ _ _)) end; [|here|kept|ckept|reads; auto|reads; auto].
      destruct (runoff_loop n mx (lwc l + ro - x) (rf + d) t) as [[ls' ro'] rf']. intros H. exact H.
    + match goal with |- context [run (runoff_body n (S k) p) ?mm] => refine (_ (K mm (mkL (th l) (ice l + 0) (x - 0) (tmp l) (hc l)) (lwc l + ro - x) (rf + 0) _ _ _ _ _)) end; [|here; f_equal; lra|kept|ckept|reads; auto|reads; f_equal; lra].
      destruct (runoff_loop n mx (lwc l + ro - x) (rf + 0) t) as [[ls' ro'] rf']. intros H. exact H.
    + rewrite fdiv_nz by apply Lf_nz. go. assert (HN : hc l <> 0) by (intros Z; rewrite Z in Y; lra). rewrite fdiv_nz by auto. go.
      set (d := Rmin (lwc l + ro) (hc l * (T0 - tmp l) / Lf)). match goal with |- context [run (runoff_body n (S k) p) ?mm] => refine (_ (K mm (mkL (th l) (ice l + d) (lwc l + ro - d) (tmp l + Lf * d / hc l) (hc l)) 0 (rf + d) _ _ _ _ _)) end; [|here|kept|ckept|reads; auto|reads; auto].
      destruct (runoff_loop n mx 0 (rf + d) t) as [[ls' ro'] rf']. intros H. exact H.
    + match goal with |- context [run (runoff_body n (S k) p) ?mm] => refine (_ (K mm (mkL (th l) (ice l + 0) (lwc l + ro - 0) (tmp l) (hc l)) 0 (rf + 0) _ _ _ _ _)) end; [|here; f_equal; lra|kept|ckept|reads; auto|reads; f_equal; lra].
      destruct (runoff_loop n mx 0 (rf + 0) t) as [[ls' ro'] rf']. intros H. exact H.
Qed.

(** * _compaction_anderson *)
Lemma anderson_rate_nonneg : forall ta load l, 0 <= load -> 0 <= dens_layer l -> 0 <= anderson_rate ta load l.
Proof.
  intros [ta|] load l L D; unfold anderson_rate; [|lra]. cbv zeta. apply Rmult_le_pos; auto. apply Rplus_le_le_0_compat.
  - apply Rmult_le_pos; [lra|]. left. apply exp_pos.
  - apply Rmult_le_pos; [apply Rmult_le_pos|].
    + destruct (Rlt_dec 0 (lwc l)); lra.
    + left. apply exp_pos.
    + destruct (Rlt_dec 150 (dens_layer l)); [left; apply exp_pos|lra].
Qed.
Lemma anderson_run : forall n lys k p dt ta load m, (n <= length lys)%nat -> rep m p k lys -> m (AAir, O, p) = ta -> 0 <= dt -> 0 <= load ->
  Forall (fun l => 0 < ice l + lwc l \/ th l <= 0) lys ->
  rep (run (anderson_body n k (dt / SECONDS_PER_HOUR) p (Some load)) m) p k (compaction_anderson n dt ta load lys).
Proof.
  induction n as [|n IH]; intros lys k p dt ta load m L R AIR DT LD F.
  - destruct lys; auto.
  - destruct lys as [|l t]; [cbn in L; lia|]. cbn [length] in L. cbn [rep] in R. destruct R as ((A & B & C & D & E) & R). inversion F as [|x y FL FT]; subst x y.
    assert (K : forall m2 load' l', at_layer m2 p k l' -> rep m2 p (S k) t -> m2 (AAir, O, p) = ta -> 0 <= load' ->
      rep (run (anderson_body n (S k) (dt / SECONDS_PER_HOUR) p (Some load')) m2) p k (l' :: compaction_anderson n dt ta load' t)).
    { intros m2 load' l' A2 R2 N N'. specialize (IH t (S k) p dt ta load' m2 ltac:(lia) R2 N DT N' FT). cbn [rep]. split; auto.
      eapply head_kept; [apply anderson_acts|reflexivity| |auto]. intros a []. }
    cbn [anderson_body compaction_anderson]. cbn [run]. rewrite A. cbn [fgt]. destruct (Rlt_dec 0 (th l)) as [X|X]; [|apply K; auto; here].
    assert (M : 0 < ice l + lwc l) by (destruct FL; lra). go. rewrite !fdiv_nz by lra. go.
    set (load1 := load + (ice l + lwc l) / 2). assert (L1 : 0 <= load1) by (unfold load1; lra).
    assert (DP : 0 < dens_layer l) by (unfold dens_layer; apply Rdiv_lt_0_compat; auto). fold (dens_layer l).
    assert (HP : 0 <= dt / SECONDS_PER_HOUR) by (apply Rmult_le_pos; auto; left; apply Rinv_0_lt_compat; unfold SECONDS_PER_HOUR; lra).
    rewrite ?AIR. match goal with |- context [nan_to_zero ?e] => replace (nan_to_zero e) with (anderson_rate ta load1 l) end.
    2:{ destruct ta as [x|]; unfold anderson_rate; [|reflexivity]. cbv zeta. destruct (Rlt_dec 0 (lwc l)), (Rlt_dec 150 (dens_layer l)); reflexivity. }
    fold (dens_anderson dt ta load1 l).
    assert (RP : 0 < dens_anderson dt ta load1 l).
    { unfold dens_anderson. apply Rplus_lt_le_0_compat; auto. apply Rmult_le_pos; auto. apply anderson_rate_nonneg; lra. }
    rewrite fdiv_nz by lra. apply K; [here|kept|reads; auto|]. unfold load1 in *; lra.
Qed.
(** * _compaction_empirical *)
Lemma empirical_run : forall n lys k p dt ts mc mm m, (n <= length lys)%nat -> rep m p k lys -> 0 <= dt -> 0 < ts ->
  Forall (fun l => 0 < ice l + lwc l \/ th l <= 0) lys ->
  rep (run (empirical_body n k dt ts mc mm p) m) p k (compaction_empirical n dt ts mc mm lys).
Proof.
  induction n as [|n IH]; intros lys k p dt ts mc mm m L R DT TS F.
  - destruct lys; auto.
  - destruct lys as [|l t]; [cbn in L; lia|]. cbn [length] in L. cbn [rep] in R. destruct R as ((A & B & C & D & E) & R). inversion F as [|x y FL FT]; subst x y.
    assert (K : forall m2 l', at_layer m2 p k l' -> rep m2 p (S k) t -> rep (run (empirical_body n (S k) dt ts mc mm p) m2) p k (l' :: compaction_empirical n dt ts mc mm t)).
    { intros m2 l' A2 R2. specialize (IH t (S k) p dt ts mc mm m2 ltac:(lia) R2 DT TS FT). cbn [rep]. split; auto.
      eapply head_kept; [apply empirical_acts|reflexivity| |auto]. intros a []. }
    cbn [empirical_body compaction_empirical]. cbv zeta. cbn [run]. rewrite A. cbn [fgt]. unfold compact_empirical_layer. cbv zeta. destruct (Rlt_dec 0 (th l)) as [X|X]; [|apply K; auto; here].
    assert (M : 0 < ice l + lwc l) by (destruct FL; lra). go. rewrite !fdiv_nz by lra. go. fold (dens_layer l).
    assert (DP : 0 < dens_layer l) by (unfold dens_layer; apply Rdiv_lt_0_compat; auto).
    set (mx := if Rlt_dec (tmp l) T0 then mc else mm). replace (if if Rlt_dec (tmp l) T0 then true else false then mc else mm) with mx by (unfold mx; destruct (Rlt_dec (tmp l) T0); auto).
    destruct (Rlt_dec (dens_layer l) mx) as [Y|Y]; go.
    + assert (EQ : mx + (dens_layer l - mx) * exp (- dt / ts) = dens_empirical dt ts mc mm l).
      { unfold dens_empirical. cbv zeta. fold mx. destruct (Rlt_dec (dens_layer l) mx); lra. }
      rewrite EQ.
      assert (RP : 0 < dens_empirical dt ts mc mm l).
      { rewrite <- EQ. assert (0 < exp (- dt / ts)) by apply exp_pos. assert (exp (- dt / ts) <= 1).
        { rewrite <- exp_0. assert (EI : forall x y, x <= y -> exp x <= exp y) by (intros x y [Q| ->]; [left; apply exp_increasing; auto|lra]). apply EI. unfold Rdiv. rewrite <- (Rmult_0_l (/ ts)). apply Rmult_le_compat_r; [left; apply Rinv_0_lt_compat; lra|lra]. }
        nra. }
      rewrite fdiv_nz by lra. apply K; [here|kept].
    + apply K; [here|kept].
Qed.

(** * _heat_conduction *)
Lemma fwd_ext : forall n a a' c c' m b b' d d', (m < n)%nat -> (forall j, (j < n)%nat -> a j = a' j /\ c j = c' j /\ b j = b' j /\ d j = d' j) ->
  forall j, (j < n)%nat -> fst (fwd a c m b d) j = fst (fwd a' c' m b' d') j /\ snd (fwd a c m b d) j = snd (fwd a' c' m b' d') j.
Proof.
  intros n a a' c c' m b b' d d' M H. induction m as [|m IH]; intros j J; cbn [fwd fst snd].
  - destruct (H j J) as (_ & _ & B & D). auto.
  - specialize (IH ltac:(lia)). destruct (fwd a c m b d) as [b1 d1]. destruct (fwd a' c' m b' d') as [b2 d2]. cbn [fst snd] in *. unfold upd.
    destruct (Nat.eqb j (S m)) eqn:E; [|auto]. destruct (IH (S m) ltac:(lia)) as [-> ->]. destruct (IH (S m - 1)%nat ltac:(lia)) as [-> ->].
    destruct (H (S m) ltac:(lia)) as (-> & _). destruct (H (S m - 1)%nat ltac:(lia)) as (_ & -> & _). auto.
Qed.
Lemma bwd_ext : forall n c c' d d' m x x', (m < n)%nat -> (forall j, (j < n)%nat -> c j = c' j /\ d j = d' j) -> (forall j, (j < n)%nat -> x j = x' j) ->
  forall j, (j < n)%nat -> bwd c d m x j = bwd c' d' m x' j.
Proof.
  intros n c c' d d' m. induction m as [|m IH]; intros x x' M H X j J; cbn [bwd]; auto. apply IH; auto; [lia|]. intros i I. unfold upd.
  destruct (Nat.eqb i m) eqn:E; auto. destruct (H m ltac:(lia)) as [-> ->]. rewrite (X m), (X (S m)) by lia. auto.
Qed.
Lemma temp_change_ext : forall n dx dx' dt T T' lam lam' T_b dx_b lam_b flux h h' k, (k < n)%nat ->
  (forall j, (j < n)%nat -> dx j = dx' j /\ T j = T' j /\ lam j = lam' j /\ h j = h' j) ->
  temp_change n dx dt T lam T_b dx_b lam_b flux h k = temp_change n dx' dt T' lam' T_b dx_b lam_b flux h' k.
Proof.
  intros n dx dx' dt T T' lam lam' T_b dx_b lam_b flux h h' k Kn H.
  assert (CB : forall j, (j < n)%nat -> cond_between n dx lam dx_b lam_b j = cond_between n dx' lam' dx_b lam_b j).
  { intros j J. unfold cond_between. destruct (H j J) as (-> & _ & -> & _). destruct (Nat.eqb j (n - 1)) eqn:E; auto. apply Nat.eqb_neq in E. destruct (H (S j) ltac:(lia)) as (-> & _ & -> & _). auto. }
  unfold temp_change. cbv zeta. destruct (Nat.eqb n 1) eqn:E1.
  - rewrite (CB O) by lia. destruct (H O ltac:(lia)) as (_ & -> & _ & ->). auto.
  - apply Nat.eqb_neq in E1. set (K1 := cond_between n dx lam dx_b lam_b) in *. set (K2 := cond_between n dx' lam' dx_b lam_b) in *.
    assert (CO : forall j, (j < n)%nat -> hc_a n dt K1 j = hc_a n dt K2 j /\ hc_c n dt K1 j = hc_c n dt K2 j /\ hc_b n dt K1 h j = hc_b n dt K2 h' j /\ hc_d n dt T K1 T_b flux j = hc_d n dt T' K2 T_b flux j).
    { intros j J. destruct (H O ltac:(lia)) as (_ & H1 & _ & H2). destruct (H 1%nat ltac:(lia)) as (_ & H3 & _). destruct (H j J) as (_ & H4 & _ & H5). destruct (H (j - 1)%nat ltac:(lia)) as (_ & H6 & _).
      unfold hc_a, hc_b, hc_c, hc_d. rewrite H1, H2, H3, H4, H5, H6, (CB O), (CB j), (CB (j - 1)%nat) by lia. repeat split; auto.
      destruct (Nat.eqb j 0); auto. destruct (Nat.eqb j (n - 1)) eqn:E; auto. apply Nat.eqb_neq in E. destruct (H (S j) ltac:(lia)) as (_ & -> & _). auto. }
    unfold solve_tridiag. pose proof (fwd_ext n _ _ _ _ (n - 1) _ _ _ _ ltac:(lia) CO) as F.
    destruct (fwd (hc_a n dt K1) (hc_c n dt K1) (n - 1) (hc_b n dt K1 h) (hc_d n dt T K1 T_b flux)) as [b1 d1].
    destruct (fwd (hc_a n dt K2) (hc_c n dt K2) (n - 1) (hc_b n dt K2 h') (hc_d n dt T' K2 T_b flux)) as [b2 d2]. cbn [fst snd] in F.
    apply (bwd_ext n); auto; [lia| |].
    + intros j J. split; [apply CO; auto|apply F; auto].
    + intros j J. unfold upd. destruct (F (n - 1)%nat ltac:(lia)) as [-> ->]. destruct (Nat.eqb j (n - 1)); auto. apply F. auto.
Qed.
Lemma read_run : forall n k a p acc q m, exists f, run (read_layers n k a p acc q) m = run (q f) m /\
  (forall j, (k <= j < k + n)%nat -> f j = nan_to_zero (m (a, j, p))) /\ (forall j, (j < k)%nat -> f j = acc j).
Proof.
  induction n as [|n IH]; intros k a p acc q m; cbn [read_layers run].
  - exists acc. repeat split; auto. intros j J. lia.
  - destruct (IH (S k) a p (upd acc k (nan_to_zero (m (a, k, p)))) q m) as (f & A & B & C). exists f. repeat split; auto.
    + intros j J. destruct (Nat.eq_dec j k) as [-> |N]; [|apply B; lia]. rewrite C by lia. unfold upd. rewrite Nat.eqb_refl. auto.
    + intros j J. rewrite C by lia. unfold upd. destruct (Nat.eqb j k) eqn:E; auto. apply Nat.eqb_eq in E. lia.
Qed.
Lemma add_run : forall n k p f m, (forall j, (k <= j < k + n)%nat -> run (add_layers n k p f Done) m (ATemp, j, p) = fadd (m (ATemp, j, p)) (Some (f j))) /\
  (forall l, (forall j, (k <= j < k + n)%nat -> l <> (ATemp, j, p)) -> run (add_layers n k p f Done) m l = m l).
Proof.
  induction n as [|n IH]; intros k p f m; cbn [add_layers].
  - split; auto. intros j J. lia.
  - unfold update. cbn [run]. destruct (IH (S k) p f (store m (ATemp, k, p) (fadd (m (ATemp, k, p)) (Some (f k))))) as [A B]. split.
    + intros j J. destruct (Nat.eq_dec j k) as [-> |N].
      * rewrite B, store_same; auto. intros j J' X. injection X as X. lia.
      * rewrite A, store_other; auto; [congruence|lia].
    + intros l L. rewrite B, store_other; auto.
      * apply L. lia.
      * intros j J. apply L. lia.
Qed.
Lemma heat_run : forall slots dt nl p m dx T lam hcap Tb sdx slam flux, (1 <= nl p)%nat ->
  (forall k, (k < nl p)%nat -> m (AThick, k, p) = Some (dx k) /\ m (ATemp, k, p) = Some (T k) /\ m (ACond, k, p) = Some (lam k) /\ m (AHeatCap, k, p) = Some (hcap k)) ->
  m (ATemp, (slots - 1)%nat, p) = Some Tb -> m (ASoilThick, O, p) = Some sdx -> m (ASoilCond, O, p) = Some slam -> m (AFlux, O, p) = Some flux ->
  (forall k, (k < nl p)%nat -> run (heat_prog slots dt nl p) m (ATemp, k, p) = Some (T k + temp_change (nl p) dx dt T lam Tb sdx slam flux hcap k)) /\
  (forall l, (forall k, (k < nl p)%nat -> l <> (ATemp, k, p)) -> run (heat_prog slots dt nl p) m l = m l).
Proof.
  intros slots dt nl p m dx T lam hcap Tb sdx slam flux N H HT HS HL HF. unfold heat_prog. cbv zeta. destruct (nl p) as [|n] eqn:En; [lia|]. rewrite <- En in *. clear n En.
  match goal with |- context [read_layers (nl p) 0 AThick p ?z ?q] => destruct (read_run (nl p) 0 AThick p z q m) as (f1 & R1 & V1 & _) end. rewrite R1. clear R1.
  match goal with |- context [read_layers (nl p) 0 ATemp p ?z ?q] => destruct (read_run (nl p) 0 ATemp p z q m) as (f2 & R2 & V2 & _) end. rewrite R2. clear R2.
  match goal with |- context [read_layers (nl p) 0 ACond p ?z ?q] => destruct (read_run (nl p) 0 ACond p z q m) as (f3 & R3 & V3 & _) end. rewrite R3. clear R3.
  cbn [run]. rewrite HT, HS, HL, HF. cbn [nan_to_zero].
  match goal with |- context [read_layers (nl p) 0 AHeatCap p ?z ?q] => destruct (read_run (nl p) 0 AHeatCap p z q m) as (f4 & R4 & V4 & _) end. rewrite R4. clear R4.
  match goal with |- context [add_layers (nl p) 0 p ?f Done] => destruct (add_run (nl p) 0 p f m) as [A B] end. split.
  - intros k Kn. rewrite A by lia. destruct (H k Kn) as (_ & H2 & _). rewrite H2. cbn [fadd lift2]. unfold fadd, lift2. f_equal. f_equal. apply temp_change_ext; auto.
    intros j J. destruct (H j J) as (G1 & G2 & G3 & G4). rewrite V1, V2, V3, V4 by lia. rewrite G1, G2, G3, G4. auto.
  - intros l L. apply B. intros j J. apply L. lia.
Qed.
(** * _soil_heat_flux *)
Lemma soil_run : forall nl p m dx T lam sdx sT slam flux,
  (forall k, (k < nl p)%nat -> m (AThick, k, p) = Some (dx k) /\ m (ATemp, k, p) = Some (T k) /\ m (ACond, k, p) = Some (lam k) /\ 0 < dx k /\ 0 < lam k) ->
  m (ASoilThick, O, p) = Some sdx -> m (ASoilTemp, O, p) = Some sT -> m (ASoilCond, O, p) = Some slam -> 0 < sdx -> 0 < slam -> m (AFlux, O, p) = Some flux ->
  run (soil_flux_prog nl p) m (ASoilFlux, O, p) = Some (soil_heat_flux (nl p) flux sdx sT slam dx T lam).
Proof.
  intros nl p m dx T lam sdx sT slam flux H HS HT HL PS PL HF. unfold soil_flux_prog, soil_heat_flux. destruct (nl p) as [|k]; cbn [Nat.eqb run].
  - rewrite store_same. auto.
  - destruct (H k ltac:(lia)) as (A & B & C & D & E). rewrite A, B, C, HS, HL, HT. replace (S k - 1)%nat with k by lia.
    rewrite !fdiv_nz by lra. unfold fadd, lift2. assert (0 < dx k / lam k) by (apply Rdiv_lt_0_compat; auto). assert (0 < sdx / slam) by (apply Rdiv_lt_0_compat; auto). rewrite fdiv_nz by lra. apply store_same.
Qed.

(** * The kernels under any schedule *)
Definition inside (rows cols : nat) (roi : nat -> nat -> bool) (i j : nat) : Prop := (i < rows)%nat /\ (j < cols)%nat /\ roi i j = true.
(** [outcome kernel ... m]: some complete schedule of the parallel loop over the region of interest leads from m0 to m *)
Definition outcome (rows cols : nat) (roi : nat -> nat -> bool) (nl : pix -> nat) (k : kernel) (m0 m : mem) : Prop :=
  exists sched ps, prun sched (map (kernel_body nl k) (roi_idxs rows cols roi), m0) = (ps, m) /\ finished ps.
Lemma outcome_run : forall rows cols roi nl k m0 m, outcome rows cols roi nl k m0 m ->
  forall i j, inside rows cols roi i j -> forall a z, m (a, z, (i, j)) = run (kernel_body nl k (i, j)) m0 (a, z, (i, j)).
Proof.
  intros rows cols roi nl k m0 m (sched & ps & E & F) i j I a z. destruct (c48_roi rows cols roi) as [ND IN].
  assert (LOC : forall p, In p (roi_idxs rows cols roi) -> local p (kernel_body nl k p)).
  { intros p _. destruct k; cbn [kernel_body]; [apply melt_local|apply sublim_local|apply runoff_local|apply anderson_local|apply empirical_local|apply heat_local|apply soil_local|apply idw_local|apply pixel_local]. }
  destruct (c48_any_schedule _ _ _ _ _ _ ND LOC E F (a, z, (i, j))) as [A _]. apply A. cbn [snd]. apply IN. auto.
Qed.
(** outcomes exist *)
Theorem c48_outcome : forall rows cols roi nl k m0, exists m, outcome rows cols roi nl k m0 m.
Proof.
  intros. destruct (c48_completes (map (kernel_body nl k) (roi_idxs rows cols roi)) m0) as [sched F]. destruct (prun sched (map (kernel_body nl k) (roi_idxs rows cols roi), m0)) as [ps m] eqn:E.
  exists m, sched, ps. auto.
Qed.
Print Assumptions c48_outcome.
Lemma shows_eq : forall m m' p lys, (forall a z, m (a, z, p) = m' (a, z, p)) -> shows m' p lys -> shows m p lys.
Proof. intros m m' p lys E H k l N. destruct (H k l N) as (A & B & C & D & F). repeat split; rewrite E; auto. Qed.
Section outcomes.
Variables (rows cols : nat) (roi : nat -> nat -> bool) (m0 m : mem) (px : nat -> nat -> pixel).
Let nl (p : pix) : nat := ns (px (fst p) (snd p)).
(** the arrays hold the snow cover px *)
Definition holds_snow : Prop := forall i j, inside rows cols roi i j -> (ns (px i j) <= length (lays (px i j)))%nat /\ shows m0 (i, j) (lays (px i j)).
Hypothesis HS : holds_snow.
Theorem c48_melt : outcome rows cols roi nl KMelt m0 m -> forall i j, inside rows cols roi i j ->
  let r := melt (px i j) (m0 (AMelt, O, (i, j))) in shows m (i, j) (lays (fst r)) /\ m (AMelt, O, (i, j)) = Some (snd r).
Proof.
  intros O i j I r. destruct (HS i j I) as [L SH]. pose proof (outcome_run _ _ _ _ _ _ _ O i j I) as E. cbn [kernel_body] in E. unfold melt_prog in E. cbn [run] in E.
  apply rep_shows in SH. destruct (melt_run (nl (i, j)) (lays (px i j)) 0 (i, j) (m0 (AMelt, 0%nat, (i, j))) 0 m0 L SH) as [A B].
  unfold r, melt. cbn [fst snd lays]. split.
  - refine (shows_eq m (run _ m0) _ _ E _). apply rep_shows. exact A.
  - rewrite E. exact B.
Qed.
Theorem c48_sublimation : outcome rows cols roi nl KSublimation m0 m -> forall i j s, inside rows cols roi i j ->
  m0 (ASubl, O, (i, j)) = Some s -> snd (sublimate (px i j) s) = false -> shows m (i, j) (lays (fst (sublimate (px i j) s))).
Proof.
  intros O i j s I HM N. destruct (HS i j I) as [L SH]. pose proof (outcome_run _ _ _ _ _ _ _ O i j I) as E. cbn [kernel_body] in E. unfold sublim_prog in E. cbn [run] in E.
  refine (shows_eq m (run _ m0) _ _ E _). clear E. unfold pix in *. rewrite HM. cbv zeta. cbn [option_map fgt]. unfold sublimate in *. cbv zeta in *. destruct (Rlt_dec 0 (Rmax s 0)) as [X|X]; [|exact SH].
  apply rep_shows in SH. pose proof (sublim_run (nl (i, j)) (lays (px i j)) 0 (i, j) (Rmax s 0) m0 L SH) as R. unfold nl in *. cbn [fst snd] in *.
  destruct (sublim_loop (ns (px i j)) (Rmax s 0) (lays (px i j))) as [[ls' rest] nan]. cbn [fst snd lays] in *. apply rep_shows. auto.
Qed.
Theorem c48_runoff : forall method mx, outcome rows cols roi nl KRunoff m0 m -> forall i j, inside rows cols roi i j ->
  (forall k l, nth_error (lays (px i j)) k = Some l -> m0 (AMaxLwc, k, (i, j)) = Some (max_lwc method mx l)) ->
  let '(p', ro, rf) := runoff method mx (m0 (ARain, O, (i, j))) (px i j) in
  shows m (i, j) (lays p') /\ m (ARunoff, O, (i, j)) = Some ro /\ m (ARefr, O, (i, j)) = Some rf.
Proof.
  intros method mx O i j I HM. destruct (HS i j I) as [L SH]. pose proof (outcome_run _ _ _ _ _ _ _ O i j I) as E. cbn [kernel_body] in E.
  set (p := (i, j)) in *. apply rep_shows in SH.
  assert (C : caps m0 p 0 (map (max_lwc method mx) (lays (px i j)))).
  { assert (G : forall lys k, (forall z l, nth_error lys z = Some l -> m0 (AMaxLwc, (k + z)%nat, p) = Some (max_lwc method mx l)) -> caps m0 p k (map (max_lwc method mx) lys)).
    { induction lys as [|l t IH]; intros k H; cbn [map caps]; auto. split; [specialize (H 0%nat l eq_refl); rewrite Nat.add_0_r in H; auto|]. apply IH. intros z l' Z. specialize (H (S z) l' Z). rewrite <- plus_n_Sm in H. auto. }
    apply G. auto. }
  assert (R : exists m1, (forall a z, run (runoff_prog nl p) m0 (a, z, p) = run (runoff_body (nl p) 0 p) m1 (a, z, p)) /\ rep m1 p 0 (lays (px i j)) /\ caps m1 p 0 (map (max_lwc method mx) (lays (px i j))) /\
     m1 (ARunoff, 0%nat, p) = Some (nan_to_zero (m0 (ARain, 0%nat, p))) /\ m1 (ARefr, 0%nat, p) = Some 0).
  { unfold runoff_prog. cbn [run]. unfold pix in *. rewrite store_same, (store_other m0 (ARefr, 0%nat, p)) by congruence. destruct (m0 (ARain, 0%nat, p)) as [x|]; cbn [run].
    - eexists. split; [intros; reflexivity|]. split; [kept|]. split; [ckept|]. split; [apply store_same|]. rewrite store_other by congruence. apply store_same.
    - eexists. split; [intros; reflexivity|]. split; [kept|]. split; [ckept|]. split; [apply store_same|]. rewrite !store_other by congruence. apply store_same. }
  destruct R as (m1 & R1 & R2 & R3 & R4 & R5). unfold runoff.
  pose proof (runoff_run (nl p) (lays (px i j)) (map (max_lwc method mx) (lays (px i j))) 0 p (nan_to_zero (m0 (ARain, 0%nat, p))) 0 m1 L ltac:(rewrite map_length; exact L) R2 R3 R4 R5) as Q.
  unfold nl in *. unfold pix in *. replace (ns (px (fst p) (snd p))) with (ns (px i j)) in Q by reflexivity. destruct (runoff_loop (ns (px i j)) (map (max_lwc method mx) (lays (px i j))) (nan_to_zero (m0 (ARain, 0%nat, p))) 0 (lays (px i j))) as [[ls' ro'] rf'].
  cbv zeta in Q. destruct Q as (Q1 & Q2 & Q3). cbn [lays]. split; [|split].
  - refine (shows_eq m (run _ m1) _ _ (fun a z => eq_trans (E a z) (R1 a z)) _). apply rep_shows. exact Q1.
  - rewrite E, R1. exact Q2.
  - rewrite E, R1. exact Q3.
Qed.
Definition has_mass (l : layer) : Prop := 0 < ice l + lwc l \/ th l <= 0.
Theorem c48_anderson : forall dt, 0 <= dt -> outcome rows cols roi nl (KAnderson dt) m0 m -> forall i j, inside rows cols roi i j -> Forall has_mass (lays (px i j)) ->
  shows m (i, j) (compaction_anderson (ns (px i j)) dt (m0 (AAir, O, (i, j))) 0 (lays (px i j))).
Proof.
  intros dt DT O i j I F. destruct (HS i j I) as [L SH]. pose proof (outcome_run _ _ _ _ _ _ _ O i j I) as E. cbn [kernel_body] in E. refine (shows_eq m (run _ m0) _ _ E _). apply rep_shows. apply rep_shows in SH.
  apply (anderson_run (nl (i, j))); auto. lra.
Qed.
Theorem c48_empirical : forall dt ts mc mm, 0 <= dt -> 0 < ts -> outcome rows cols roi nl (KEmpirical dt ts mc mm) m0 m -> forall i j, inside rows cols roi i j -> Forall has_mass (lays (px i j)) ->
  shows m (i, j) (compaction_empirical (ns (px i j)) dt ts mc mm (lays (px i j))).
Proof.
  intros dt ts mc mm DT TS O i j I F. destruct (HS i j I) as [L SH]. pose proof (outcome_run _ _ _ _ _ _ _ O i j I) as E. cbn [kernel_body] in E. refine (shows_eq m (run _ m0) _ _ E _). apply rep_shows. apply rep_shows in SH.
  apply (empirical_run (nl (i, j))); auto.
Qed.
(** temperatures after heat conduction; [lam] are the thermal conductivities *)
Theorem c48_heat : forall slots dt lam Tb sdx slam flux, outcome rows cols roi nl (KHeat slots dt) m0 m -> forall i j, inside rows cols roi i j -> (1 <= ns (px i j))%nat ->
  (forall k, (k < ns (px i j))%nat -> m0 (ACond, k, (i, j)) = Some (lam k)) -> m0 (ATemp, (slots - 1)%nat, (i, j)) = Some Tb ->
  m0 (ASoilThick, O, (i, j)) = Some sdx -> m0 (ASoilCond, O, (i, j)) = Some slam -> m0 (AFlux, O, (i, j)) = Some flux ->
  let col f := fun k => f (nth k (lays (px i j)) (mkL 0 0 0 0 0)) in
  forall k, (k < ns (px i j))%nat -> m (ATemp, k, (i, j)) = Some (col tmp k + temp_change (ns (px i j)) (col th) dt (col tmp) lam Tb sdx slam flux (col hc) k).
Proof.
  intros slots dt lam Tb sdx slam flux O i j I N HC H1 H2 H3 H4 col k Kn. destruct (HS i j I) as [L SH]. rewrite (outcome_run _ _ _ _ _ _ _ O i j I). cbn [kernel_body].
  refine (proj1 (heat_run slots dt nl (i, j) m0 (col th) (col tmp) lam (col hc) Tb sdx slam flux _ _ H1 H2 H3 H4) k Kn); auto.
  unfold nl. cbn [fst snd]. intros z Z. destruct (nth_error (lays (px i j)) z) as [l|] eqn:El; [|apply nth_error_None in El; lia].
  destruct (SH z l El) as (A & B & C & D & F). unfold col. rewrite (nth_error_nth _ _ _ El). auto.
Qed.
Theorem c48_soil_flux : forall lam sdx sT slam flux, outcome rows cols roi nl KSoilFlux m0 m -> forall i j, inside rows cols roi i j ->
  (forall k, (k < ns (px i j))%nat -> m0 (ACond, k, (i, j)) = Some (lam k) /\ 0 < lam k /\ 0 < th (nth k (lays (px i j)) (mkL 0 0 0 0 0))) ->
  m0 (ASoilThick, O, (i, j)) = Some sdx -> m0 (ASoilTemp, O, (i, j)) = Some sT -> m0 (ASoilCond, O, (i, j)) = Some slam -> 0 < sdx -> 0 < slam -> m0 (AFlux, O, (i, j)) = Some flux ->
  let col f := fun k => f (nth k (lays (px i j)) (mkL 0 0 0 0 0)) in
  m (ASoilFlux, O, (i, j)) = Some (soil_heat_flux (ns (px i j)) flux sdx sT slam (col th) (col tmp) lam).
Proof.
  intros lam sdx sT slam flux O i j I HC H1 H2 H3 P1 P2 H4 col. destruct (HS i j I) as [L SH]. rewrite (outcome_run _ _ _ _ _ _ _ O i j I). cbn [kernel_body].
  apply (soil_run nl (i, j) m0 (col th) (col tmp) lam); auto.
  unfold nl. cbn [fst snd]. intros z Z. destruct (nth_error (lays (px i j)) z) as [l|] eqn:El; [|apply nth_error_None in El; lia].
  destruct (SH z l El) as (A & B & C & D & F). destruct (HC z Z) as (G1 & G2 & G3). unfold col. rewrite (nth_error_nth _ _ _ El) in *. auto.
Qed.
End outcomes.
Print Assumptions c48_melt. Print Assumptions c48_sublimation. Print Assumptions c48_runoff. Print Assumptions c48_anderson. Print Assumptions c48_empirical. Print Assumptions c48_heat. Print Assumptions c48_soil_flux.
(** the targets of an interpolation, which are computed in parallel, too *)
Theorem c48_interpolation : forall n targets power smoothing pts m0 m, outcome n 1 (fun _ _ => true) (fun _ => O) (KIdw targets power smoothing pts) m0 m ->
  forall t, (t < n)%nat -> m (AData, O, (t, O)) = Some (idw_loop (fst (targets t)) (snd (targets t)) power smoothing pts 0 0).
Proof.
  intros n targets power smoothing pts m0 m O t T. rewrite (outcome_run _ _ _ _ _ _ _ O t 0%nat) by (repeat split; auto; lia).
  cbn [kernel_body]. unfold idw_prog. cbn [fst]. destruct (targets t) as [x y]. cbn [run fst snd]. apply store_same.
Qed.
Print Assumptions c48_interpolation.

(** the kernels whose calculation is a function of the values of their own pixel *)
Theorem c48_pixel_function : forall rows cols roi nl ins outs f m0 m, NoDup outs -> (forall vs, length (f vs) = length outs) ->
  outcome rows cols roi nl (KPixel ins outs f) m0 m -> forall i j, inside rows cols roi i j ->
  let res := f (map (fun '(a, k) => m0 (a, k, (i, j))) ins) in
  (forall n a k, nth_error outs n = Some (a, k) -> m (a, k, (i, j)) = nth n res None) /\
  (forall a k, ~ In (a, k) outs -> m (a, k, (i, j)) = m0 (a, k, (i, j))).
Proof.
  intros rows cols roi nl ins outs f m0 m ND LF O i j I res.
  assert (RA : forall l acc q, run (read_all l (i, j) acc q) m0 = run (q (acc ++ map (fun '(a, k) => m0 (a, k, (i, j))) l)) m0).
  { induction l as [|[a k] t IH]; intros acc q; cbn [read_all run map]; [rewrite app_nil_r; auto|]. rewrite IH, <- app_assoc. auto. }
  assert (E : forall a k, m (a, k, (i, j)) = run (write_all outs (i, j) res) m0 (a, k, (i, j))).
  { intros a k. rewrite (outcome_run _ _ _ _ _ _ _ O i j I). cbn [kernel_body]. unfold pixel_prog. rewrite RA. auto. }
  assert (WA : forall outs vs m1, NoDup outs -> length vs = length outs ->
    (forall n a k, nth_error outs n = Some (a, k) -> run (write_all outs (i, j) vs) m1 (a, k, (i, j)) = nth n vs None) /\
    (forall a k, ~ In (a, k) outs -> run (write_all outs (i, j) vs) m1 (a, k, (i, j)) = m1 (a, k, (i, j)))).
  { clear. induction outs as [|[a0 k0] t IH]; intros [|v vs] m1 ND L; try discriminate; cbn [write_all run].
    - split; auto. intros [|n] a k H; discriminate.
    - injection L as L. inversion ND as [|x y NI ND']; subst. destruct (IH vs (store m1 (a0, k0, (i, j)) v) ND' L) as [A B]. split.
      + intros [|n] a k H; cbn [nth_error nth] in *; [|auto]. injection H as <- <-. rewrite B by auto. apply store_same.
      + intros a k N. rewrite B by (intros Q; apply N; right; auto). apply store_other. intros Q. apply N. left. congruence. }
  destruct (WA outs res m0 ND (LF _)) as [A B]. split.
  - intros n a k H. rewrite E. auto.
  - intros a k N. rewrite E. auto.
Qed.
Print Assumptions c48_pixel_function.

(** two pixels with snow: the hypotheses are met, and a schedule which alternates between them is complete *)
Definition ex_layer : layer := mkL 1 100 2 270 210000.
Definition ex_mem : mem := fun '(a, k, _) => match k with O => match a with AThick => Some 1 | AIce => Some 100 | ALwc => Some 2 | ATemp => Some 270 | AHeatCap => Some 210000 | AMelt => Some 10 | _ => None end | _ => None end.
Example c48_hypotheses : holds_snow 1 2 (fun _ _ => true) ex_mem (fun _ _ => mkP 1 [ex_layer]) /\ inside 1 2 (fun _ _ => true) 0 1 /\
  exists m, outcome 1 2 (fun _ _ => true) (fun _ => 1%nat) KMelt ex_mem m.
Proof.
  split; [|split; [repeat split; auto|apply c48_outcome]]. intros i j I. split; auto. intros [|k] l E; [|destruct k; discriminate]. injection E as <-. repeat split.
Qed.
