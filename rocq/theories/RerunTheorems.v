(** C105: the inputs of runs that follow each other in the same directory. *)
From Verif Require Import Common GridModel GridTheorems RerunModel.
Open Scope R_scope.

(** * Specification *)
(** Two values agree up to half a unit of the third decimal; missing values agree with missing values only. *)
Definition close (a b : num) : Prop :=
  match a, b with Some x, Some y => Rabs (y - x) <= 1 / 2000 | None, None => True | _, _ => False end.
(** A number with at most three decimals *)
Definition three_decimals (b : num) : Prop := match b with Some y => exists z, y = IZR z / 1000 | None => True end.
(** The file from which the sky view factor of the grid is taken *)
Definition svf_file (fs : files) : option (raster num) := match fi_ext_dem fs with Some _ => fi_ext_svf fs | None => fi_svf fs end.
(** All inputs except the sky view factor *)
Definition same_other_inputs (a b : inputs) : Prop :=
  in_dem a = in_dem b /\ in_roi a = in_roi b /\ in_srf a = in_srf b /\ in_lc a = in_lc b /\ in_soil a = in_soil b /\ in_glaciers a = in_glaciers b.

(** * Rounding *)
Lemma round3_close x : Rabs (round3 x - x) <= 1 / 2000.
Proof.
  unfold round3. destruct (base_Int_part (1000 * x + 1 / 2)) as (A & B). apply Rabs_le. split; lra.
Qed.
Lemma floor_spec x z : IZR z <= x < IZR z + 1 -> z = Int_part x.
Proof. intro H. unfold Int_part. rewrite <- (tech_up x (z + 1)); [lia| |]; rewrite plus_IZR; lra. Qed.
Lemma Int_part_IZR_half z : Int_part (IZR z + 1 / 2) = z.
Proof. symmetry. apply floor_spec. lra. Qed.
Lemma round3_idem x : round3 (round3 x) = round3 x.
Proof.
  unfold round3. set (z := Int_part (1000 * x + 1 / 2)). replace (1000 * (IZR z / 1000) + 1 / 2) with (IZR z + 1 / 2) by lra.
  rewrite Int_part_IZR_half. reflexivity.
Qed.
Lemma close_round a : close a (option_map round3 a).
Proof. destruct a as [x|]; cbn; [apply round3_close|exact I]. Qed.
Lemma close_refl a : close a a.
Proof. destruct a as [x|]; cbn; [|exact I]. rewrite Rminus_diag_eq, Rabs_R0 by reflexivity. lra. Qed.
Lemma round_three a : three_decimals (option_map round3 a).
Proof. destruct a as [x|]; cbn; [|exact I]. unfold round3. eauto. Qed.

(** * Reading again *)
Lemma read_written A (f : raster A) m v : read_metadata f = inr m ->
  read_raster (Some m) (Some None) (svf_raster (m_rows m) (m_cols m) (m_tr m) v) = inr (fun i j => option_map round3 (v i j)).
Proof.
  intro H. apply metadata_iff in H. unfold read_raster.
  assert (E : read_metadata (svf_raster (m_rows m) (m_cols m) (m_tr m) v) = inr m) by (apply metadata_iff; repeat split; apply H).
  unfold num in *. rewrite E. assert (Q : meta_eqb m m = true) by (apply meta_eqb_iff; reflexivity). rewrite Q. reflexivity.
Qed.
Lemma grid_metadata d res m : initialize_grid (Some d) res = inr m -> read_metadata d = inr m.
Proof. unfold initialize_grid. destruct (read_metadata d); [discriminate|]. destruct (req _ _); congruence. Qed.
Lemma extended_shape c c2 m res f : forall x, read_extended c m res (Some f) None = inr x ->
  exists g, x = Some g /\ eg_svf g = c (r_rows f) (r_cols f) (eg_dem g) /\
  forall v tr, read_extended c2 m res (Some f) (Some (svf_raster (r_rows f) (r_cols f) tr v)) =
    inr (Some (EG (eg_row g) (eg_col g) (eg_dem g) (fun i j => option_map round3 (v i j)))).
Proof.
  intros x. unfold read_extended. destruct (read_metadata f); [discriminate|]. destruct (negb (req _ _)); [discriminate|]. cbv zeta.
  destruct (negb (is_integer _ && is_integer _)); [discriminate|].
  repeat (match goal with |- context [Rlt_dec ?a ?b] => destruct (Rlt_dec a b); [discriminate|] end).
  intro E. injection E as <-. eexists. split; [reflexivity|]. split; [reflexivity|]. intros v tr. cbn [eg_row eg_col eg_dem r_rows r_cols svf_raster r_val].
  rewrite !Nat.eqb_refl. reflexivity.
Qed.
Lemma extended_calc c c2 m res f s : read_extended c m res (Some f) (Some s) = read_extended c2 m res (Some f) (Some s).
Proof. reflexivity. Qed.
Lemma extended_error c c2 m res e s x : read_extended c m res e s = inl x -> read_extended c2 m res e s = inl x.
Proof.
  destruct e as [f|]; [|discriminate]. unfold read_extended. destruct (read_metadata f); [auto|]. destruct (negb (req _ _)); [auto|]. cbv zeta.
  destruct (negb (is_integer _ && is_integer _)); [auto|].
  repeat (match goal with |- context [Rlt_dec ?a ?b] => destruct (Rlt_dec a b); [auto; fail|] end).
  destruct s as [s|]; [auto|discriminate].
Qed.
Lemma extended_inr c m res e s x : read_extended c m res e s = inr x -> match e, x with None, None => True | Some _, Some _ => True | _, _ => False end.
Proof.
  destruct e as [f|]; [|cbn; intro E; injection E as <-; exact I]. unfold read_extended. destruct (read_metadata f); [discriminate|]. destruct (negb (req _ _)); [discriminate|]. cbv zeta.
  destruct (negb (is_integer _ && is_integer _)); [discriminate|].
  repeat (match goal with |- context [Rlt_dec ?a ?b] => destruct (Rlt_dec a b); [discriminate|] end).
  destruct s as [s|]; [destruct (_ && _)|]; intro E; [|discriminate|]; injection E as <-; exact I.
Qed.

(** The rest of the inputs, given elevation and sky view factor *)
Definition rest (m : rmeta) (nd : needs) (fs : files) (dem svf : nat -> nat -> num) : gerr + inputs :=
  match read_roi m (fi_roi fs) dem with
  | inl e => inl e
  | inr roi =>
  match required (nd_srf nd) m (Some None) (fi_srf fs) with
  | inl e => inl e
  | inr srf =>
  match required (nd_lc nd) m (Some 0%Z) (fi_lc fs) with
  | inl e => inl e
  | inr lc =>
  match required (nd_soil nd) m (Some 0%Z) (fi_soil fs) with
  | inl e => inl e
  | inr soil =>
  match required (nd_glaciers nd) m None (fi_glaciers fs) with
  | inl e => inl e
  | inr gl => inr (IN dem svf roi srf lc soil gl)
  end end end end end.
Lemma read_rest c m res nd fs x dem svf : read_extended c m res (fi_ext_dem fs) (fi_ext_svf fs) = inr x -> read_dem_svf c m x fs = inr (dem, svf) ->
  read_input_data c m res nd fs = rest m nd fs dem svf.
Proof. intros E D. unfold read_input_data. rewrite E, D. reflexivity. Qed.
Lemma rest_svf m nd fs dem s1 s2 :
  match rest m nd fs dem s1 with
  | inl e => rest m nd fs dem s2 = inl e
  | inr a => exists b, rest m nd fs dem s2 = inr b /\ same_other_inputs a b /\ in_dem a = dem /\ in_svf a = s1 /\ in_svf b = s2
  end.
Proof.
  unfold rest. destruct (read_roi _ _ _); [reflexivity|]. do 4 (destruct (required _ _ _ _); [reflexivity|]).
  eexists. split; [reflexivity|]. repeat split.
Qed.
(** Reading succeeds or fails in the same way, the other inputs are the same, the sky view factor is [s1] and then [s2]. *)
Definition reread (r1 r2 : gerr + inputs) (P : (nat -> nat -> num) -> (nat -> nat -> num) -> Prop) : Prop :=
  match r1 with
  | inl e => r2 = inl e
  | inr a => exists b, r2 = inr b /\ same_other_inputs a b /\ P (in_svf a) (in_svf b)
  end.
Lemma rest_reread m nd fs dem s1 s2 (P : (nat -> nat -> num) -> (nat -> nat -> num) -> Prop) : P s1 s2 -> reread (rest m nd fs dem s1) (rest m nd fs dem s2) P.
Proof.
  intro H. unfold reread. pose proof (rest_svf m nd fs dem s1 s2) as R. destruct (rest m nd fs dem s1); [exact R|].
  destruct R as (b & E & O & _ & -> & Eb). exists b. rewrite Eb. auto.
Qed.
Lemma reread_same r (P : (nat -> nat -> num) -> (nat -> nat -> num) -> Prop) : (forall s, P s s) -> reread r r P.
Proof. intro H. unfold reread. destruct r as [e|a]; [reflexivity|]. exists a. repeat split. apply H. Qed.
(** [b] is what was computed ([a]), rounded; or the same if the file was there before *)
Definition rerun_svf (fs : files) (a b : nat -> nat -> num) : Prop :=
  (svf_file fs <> None -> b = a) /\ (svf_file fs = None -> b = fun i j => option_map round3 (a i j)).

Lemma reload c c2 res nd fs : forall fs1 r1, load c res nd fs = (fs1, r1) ->
  exists r2, load c2 res nd fs1 = (fs1, r2) /\ reread r1 r2 (rerun_svf fs).
Proof.
  intros fs1 r1. unfold load. destruct (initialize_grid (fi_dem fs) res) as [e|m] eqn:G.
  { intro E. injection E as <- <-. rewrite G. exists (inl e). split; reflexivity. }
  assert (GD : exists d, fi_dem fs = Some d /\ read_metadata d = inr m).
  { destruct (fi_dem fs) as [d|]; [|discriminate]. eauto using grid_metadata. }
  destruct GD as (d & Ed & Md).
  unfold files_after. destruct (read_extended c m res (fi_ext_dem fs) (fi_ext_svf fs)) as [e|x] eqn:X.
  { intro E. injection E as <- <-. rewrite G. unfold files_after. rewrite (extended_error _ c2 _ _ _ _ _ X).
    eexists. split; [reflexivity|]. unfold read_input_data. rewrite X, (extended_error _ c2 _ _ _ _ _ X). reflexivity. }
  pose proof (extended_inr _ _ _ _ _ _ X) as XI.
  destruct (fi_ext_dem fs) as [f|] eqn:EF; destruct x as [g|]; try contradiction.
  - (* extended grid *)
    unfold files_after_extended, files_after_svf. rewrite EF. destruct (fi_ext_svf fs) as [s|] eqn:ES.
    + intro E. injection E as <- <-. rewrite G, EF, ES. rewrite <- (extended_calc c c2), X.
      eexists. split; [reflexivity|].
      assert (Q : read_input_data c2 m res nd fs = read_input_data c m res nd fs).
      { unfold read_input_data. rewrite EF, ES. rewrite <- (extended_calc c c2), X. reflexivity. }
      rewrite Q. apply reread_same. intro v. split; [reflexivity|]. unfold svf_file. rewrite EF, ES. discriminate.
    + intro E. injection E as <- <-. cbn [fi_dem with_ext_svf fi_ext_dem fi_ext_svf]. rewrite G, EF.
      destruct (extended_shape c c2 m res f _ X) as (g' & EG' & ESv & ER). injection EG' as <-. rewrite ER. cbn [fi_ext_svf with_ext_svf].
      eexists. split; [reflexivity|].
      assert (X' : read_extended c m res (fi_ext_dem fs) (fi_ext_svf fs) = inr (Some g)) by (rewrite EF, ES; exact X).
      rewrite (read_rest c m res nd fs (Some g) _ _ X' eq_refl).
      set (fs2 := with_ext_svf fs _).
      assert (X2 : read_extended c2 m res (fi_ext_dem fs2) (fi_ext_svf fs2) =
                   inr (Some (EG (eg_row g) (eg_col g) (eg_dem g) (fun i j => option_map round3 (eg_svf g i j)))))
        by (subst fs2; cbn [fi_ext_dem fi_ext_svf with_ext_svf]; rewrite EF; apply ER).
      rewrite (read_rest c2 m res nd fs2 _ _ _ X2 eq_refl).
      cbn [eg_row eg_col eg_dem eg_svf].
      match goal with |- reread (rest _ _ _ ?a ?b) (rest _ _ _ ?a ?c) _ => change (reread (rest m nd fs a b) (rest m nd fs a c) (rerun_svf fs)) end.
      apply rest_reread. split; [unfold svf_file; rewrite EF, ES; congruence|]. intros _. reflexivity.
  - (* model grid *)
    assert (FE : files_after_extended None fs = fs) by reflexivity. rewrite FE. unfold files_after_svf.
    destruct (fi_svf fs) as [s|] eqn:ES.
    + intro E. injection E as <- <-. rewrite G, EF. cbn [read_extended]. rewrite FE, ES. eexists. split; [reflexivity|].
      assert (Q : read_input_data c2 m res nd fs = read_input_data c m res nd fs).
      { unfold read_input_data. rewrite EF. cbn [read_extended]. unfold read_dem_svf. rewrite ES. reflexivity. }
      rewrite Q. apply reread_same. intro v. split; [reflexivity|]. unfold svf_file. rewrite EF, ES. discriminate.
    + destruct (read_dem_svf c m None fs) as [e|[dem svf]] eqn:R.
      * intro E. injection E as <- <-. rewrite G, EF. cbn [read_extended]. rewrite FE, ES.
        assert (R2 : read_dem_svf c2 m None fs = inl e).
        { revert R. unfold read_dem_svf. destruct (required _ _ _ _) as [?|[?|]]; [auto| |auto]. rewrite ES. discriminate. }
        rewrite R2. eexists. split; [reflexivity|]. unfold read_input_data. rewrite EF. cbn [read_extended]. rewrite R, R2. reflexivity.
      * intro E. injection E as <- <-. cbn [fi_dem with_svf]. rewrite G. cbn [fi_ext_dem fi_ext_svf with_svf]. rewrite EF. cbn [read_extended].
        unfold files_after_extended. cbn [fi_svf with_svf]. eexists. split; [reflexivity|].
        rewrite (read_rest c m res nd fs None dem svf) by (rewrite ?EF; first [exact R | reflexivity]).
        rewrite (read_rest c2 m res nd _ None dem (fun i j => option_map round3 (svf i j))).
        -- change (reread (rest m nd fs dem svf) (rest m nd fs dem (fun i j => option_map round3 (svf i j))) (rerun_svf fs)).
           apply rest_reread. split; [unfold svf_file; rewrite EF, ES; congruence|]. intros _. reflexivity.
        -- cbn [fi_ext_dem fi_ext_svf with_svf]. rewrite EF. reflexivity.
        -- revert R. unfold read_dem_svf. cbn [fi_dem fi_svf with_svf]. destruct (required _ _ _ _) as [?|[?|]]; try discriminate. rewrite ES.
           intro R. injection R as <- <-. rewrite (read_written _ d m) by exact Md. reflexivity.
Qed.

(** A second run in the same directory stops with the same error as the first or reads the same inputs, except that the sky view factor is the one of
    the first run rounded to three decimals, if the first run had to compute it. Settings of the computation have no influence any more. *)
Theorem c105_second_run : forall calc calc2 res nd fs,
  let first := load calc res nd fs in
  let second := load calc2 res nd (fst first) in
  fst second = fst first /\
  match snd first with
  | inl e => snd second = inl e
  | inr a => exists b, snd second = inr b /\ same_other_inputs a b /\
             (forall i j, close (in_svf a i j) (in_svf b i j)) /\
             (svf_file fs <> None -> in_svf b = in_svf a) /\
             (svf_file fs = None -> forall i j, three_decimals (in_svf b i j))
  end.
Proof.
  intros calc calc2 res nd fs. cbv zeta. destruct (load calc res nd fs) as [fs1 r1] eqn:L. cbn [fst snd].
  destruct (reload calc calc2 res nd fs fs1 r1 L) as (r2 & -> & R). cbn [fst snd]. split; [reflexivity|].
  unfold reread in R. destruct r1 as [e|a]; [exact R|]. destruct R as (b & E & O & P1 & P2). exists b. split; [exact E|]. split; [exact O|].
  destruct (svf_file fs) eqn:Q.
  - rewrite P1 by discriminate. split; [intros; apply close_refl|]. split; [reflexivity|discriminate].
  - rewrite P2 by reflexivity. split; [intros; apply close_round|]. split; [congruence|]. intros _ i j. apply round_three.
Qed.
Print Assumptions c105_second_run.
(** From the second run on, all runs read exactly the same, whatever the settings of the sky view factor are. *)
Theorem c105_all_runs : forall res nd fs calc calcs, exists later,
  runs res nd (calc :: calcs) fs = (fst (load calc res nd fs), snd (load calc res nd fs) :: repeat later (length calcs)).
Proof.
  intros res nd fs calc calcs. destruct (load calc res nd fs) as [fs1 r1] eqn:L. cbn [fst snd].
  destruct (reload calc calc res nd fs fs1 r1 L) as (later & L2 & R2). exists later. cbn [runs]. rewrite L.
  assert (K : forall l, runs res nd l fs1 = (fs1, repeat later (length l))).
  { induction l as [|c l IH]; [reflexivity|]. cbn [runs]. assert (Ec : load c res nd fs1 = (fs1, later)); [|rewrite Ec, IH; reflexivity].
    destruct (reload calc c res nd fs fs1 r1 L) as (r3 & L3 & R3). rewrite L3. f_equal.
    unfold reread in R2, R3. destruct r1 as [e|a]; [congruence|]. destruct R2 as (b & -> & (A1 & A2 & A3 & A4 & A5 & A6) & P1 & P2).
    destruct R3 as (b' & -> & (B1 & B2 & B3 & B4 & B5 & B6) & Q1 & Q2). f_equal.
    assert (S : in_svf b' = in_svf b) by (destruct (svf_file fs); [rewrite P1, Q1 by discriminate|rewrite P2, Q2 by reflexivity]; reflexivity).
    destruct b, b'; cbn in *; congruence. }
  rewrite K. reflexivity.
Qed.
Print Assumptions c105_all_runs.
(** Reading inputs changes no file except a missing sky view factor, and creates only the one belonging to the grid it was computed for. *)
Theorem c105_files : forall calc res nd fs,
  let fs' := fst (load calc res nd fs) in
  fi_dem fs' = fi_dem fs /\ fi_ext_dem fs' = fi_ext_dem fs /\ fi_roi fs' = fi_roi fs /\ fi_srf fs' = fi_srf fs /\ fi_lc fs' = fi_lc fs /\
  fi_soil fs' = fi_soil fs /\ fi_glaciers fs' = fi_glaciers fs /\
  (fi_svf fs <> None \/ fi_ext_dem fs <> None -> fi_svf fs' = fi_svf fs) /\ (fi_ext_svf fs <> None \/ fi_ext_dem fs = None -> fi_ext_svf fs' = fi_ext_svf fs) /\
  (forall inp, snd (load calc res nd fs) = inr inp -> svf_file fs' <> None /\
     (fi_ext_dem fs = None -> fi_svf fs = None -> forall d, fi_dem fs = Some d -> exists f, fi_svf fs' = Some f /\
        r_rows f = r_rows d /\ r_cols f = r_cols d /\ r_tr f = r_tr d /\
        forall i j, exists b, r_val f i j = Some b /\ close (in_svf inp i j) b /\ three_decimals b)).
Proof.
  intros calc res nd fs. cbv zeta. unfold load. destruct (initialize_grid (fi_dem fs) res) as [e|m] eqn:G.
  { cbn [fst snd]. repeat split. all: discriminate. }
  cbn [fst snd]. unfold files_after. destruct (read_extended calc m res (fi_ext_dem fs) (fi_ext_svf fs)) as [e|x] eqn:X.
  { do 9 (split; [reflexivity|]). intros inp H. unfold read_input_data in H. rewrite X in H. discriminate. }
  pose proof (extended_inr _ _ _ _ _ _ X) as XI. destruct (fi_ext_dem fs) as [f|] eqn:EF; destruct x as [g|]; try contradiction.
  - unfold files_after_extended, files_after_svf. rewrite EF. destruct (fi_ext_svf fs) as [s|] eqn:ES.
    + rewrite EF, ES. do 9 (split; [reflexivity|]). intros inp H. unfold svf_file. rewrite EF, ES. split; [discriminate|discriminate].
    + cbn [with_ext_svf fi_dem fi_ext_dem fi_roi fi_srf fi_lc fi_soil fi_glaciers fi_svf fi_ext_svf]. rewrite EF.
      do 8 (split; [reflexivity|]). split; [intros [H|H]; congruence|]. intros inp H. unfold svf_file. cbn [with_ext_svf fi_ext_dem fi_ext_svf]. rewrite ?EF. split; discriminate.
  - assert (FE : files_after_extended None fs = fs) by reflexivity. rewrite FE. unfold files_after_svf. destruct (fi_svf fs) as [s|] eqn:ES.
    + rewrite ES, EF. do 9 (split; [reflexivity|]). intros inp H. unfold svf_file. rewrite EF, ES. split; [discriminate|]. intros _ H'. discriminate.
    + destruct (read_dem_svf calc m None fs) as [e|[dem svf]] eqn:R.
      * rewrite ES, EF. do 9 (split; [reflexivity|]). intros inp H. unfold read_input_data in H. rewrite EF in H. cbn [read_extended] in H. rewrite R in H. discriminate.
      * cbn [with_svf fi_dem fi_ext_dem fi_roi fi_srf fi_lc fi_soil fi_glaciers fi_svf fi_ext_svf]. rewrite EF.
        do 7 (split; [reflexivity|]). split; [intros [H|H]; congruence|]. split; [reflexivity|].
        intros inp H. unfold svf_file. cbn [with_svf fi_ext_dem fi_svf]. rewrite ?EF. split; [discriminate|]. intros _ _ d Ed.
        rewrite Ed in G. apply grid_metadata in G. apply metadata_iff in G. destruct G as (_ & _ & _ & G1 & G2 & G3).
        eexists. split; [reflexivity|]. cbn [r_rows r_cols r_tr r_val svf_raster]. do 3 (split; [congruence|]). intros i j. eexists. split; [reflexivity|].
        split; [|apply round_three].
        rewrite (read_rest calc m res nd fs None dem svf) in H by (rewrite ?EF; first [exact R | reflexivity]).
        pose proof (rest_svf m nd fs dem svf svf) as Q. rewrite H in Q. destruct Q as (_ & _ & _ & _ & -> & _). apply close_round.
Qed.
Print Assumptions c105_files.

(** * What does not hold *)
Definition small_dem (h : R) : raster num := RST 1 1 (AF 50 (-50) 0 0) (fun _ _ => Some (Some h)) None.
Definition only_dem (h : R) : files := FI (Some (small_dem h)) None None None None None None None None.
Definition no_needs : needs := ND false false false false.
Definition replace_dem (fs : files) (d : raster num) : files :=
  FI (Some d) (fi_ext_dem fs) (fi_svf fs) (fi_ext_svf fs) (fi_roi fs) (fi_srf fs) (fi_lc fs) (fi_soil fs) (fi_glaciers fs).
Lemma small_grid h : initialize_grid (Some (small_dem h)) 50 = inr (RM 1 1 50 (AF 50 (-50) 0 0)).
Proof. apply c87_grid_accepted. cbn. repeat split; lra. Qed.
Lemma small_load calc h : exists inp, load calc 50 no_needs (only_dem h) =
  (with_svf (only_dem h) (svf_raster 1 1 (AF 50 (-50) 0 0) (calc 1%nat 1%nat (fun _ _ => Some h))), inr inp) /\
  in_svf inp = calc 1%nat 1%nat (fun _ _ => Some h).
Proof.
  unfold load. change (fi_dem (only_dem h)) with (Some (small_dem h)). rewrite small_grid. set (m := RM 1 1 50 (AF 50 (-50) 0 0)).
  assert (R : read_raster (Some m) (Some None) (small_dem h) = inr (fun _ _ => Some h)).
  { unfold read_raster, num in *. rewrite (grid_metadata _ 50 m (small_grid h) : @read_metadata (option R) (small_dem h) = inr m). assert (Q : meta_eqb m m = true) by (apply meta_eqb_iff; reflexivity). rewrite Q. reflexivity. }
  assert (D : read_dem_svf calc m None (only_dem h) = inr (fun _ _ => Some h, calc 1%nat 1%nat (fun _ _ => Some h))).
  { unfold read_dem_svf, required. change (fi_dem (only_dem h)) with (Some (small_dem h)). unfold num in *. rewrite R. reflexivity. }
  eexists. split.
  - f_equal; [unfold files_after; cbn [only_dem fi_ext_dem fi_ext_svf read_extended]; unfold files_after_svf, files_after_extended; cbn [fi_svf];
      change (FI (Some (small_dem h)) None None None None None None None None) with (only_dem h); rewrite D; reflexivity|].
    unfold read_input_data. cbn [only_dem fi_ext_dem fi_ext_svf read_extended].
    change (FI (Some (small_dem h)) None None None None None None None None) with (only_dem h). rewrite D. reflexivity.
  - reflexivity.
Qed.
(** The first and the second run read different sky view factors whenever the computed one has more than three decimals. *)
Theorem c105_repeatable_refuted : forall calc h x, calc 1%nat 1%nat (fun _ _ => Some h) 0%nat 0%nat = Some x -> ~ three_decimals (Some x) ->
  exists fs a b, snd (load calc 50 no_needs fs) = inr a /\ snd (load calc 50 no_needs (fst (load calc 50 no_needs fs))) = inr b /\
  in_svf a 0%nat 0%nat <> in_svf b 0%nat 0%nat.
Proof.
  intros calc h x C N. destruct (small_load calc h) as (a & L & Sa). exists (only_dem h), a.
  pose proof (c105_second_run calc calc 50 no_needs (only_dem h)) as T. cbv zeta in T. rewrite L in T |- *. cbn [fst snd] in T |- *.
  destruct T as (_ & b & Eb & _ & _ & _ & T3). exists b. split; [reflexivity|]. split; [exact Eb|].
  rewrite Sa, C. intro E. apply N. rewrite E. apply T3. reflexivity.
Qed.
Print Assumptions c105_repeatable_refuted.
(** The sky view factor does not follow the terrain: if the DEM file is replaced by another one of the same grid, the stored factor of the old terrain is
    used without a warning. *)
Theorem c105_new_terrain_refuted : forall calc h1 h2 x, calc 1%nat 1%nat (fun _ _ => Some h1) 0%nat 0%nat = Some x ->
  exists fs a b, snd (load calc 50 no_needs fs) = inr a /\
  snd (load calc 50 no_needs (replace_dem (fst (load calc 50 no_needs fs)) (small_dem h2))) = inr b /\
  in_dem b 0%nat 0%nat = Some h2 /\ close (Some x) (in_svf b 0%nat 0%nat).
Proof.
  intros calc h1 h2 x C. destruct (small_load calc h1) as (a & L & Sa). exists (only_dem h1), a. rewrite L. cbn [fst snd].
  set (fs2 := replace_dem _ _). set (m := RM 1 1 50 (AF 50 (-50) 0 0)).
  assert (R : read_raster (Some m) (Some None) (small_dem h2) = inr (fun _ _ => Some h2)).
  { unfold read_raster, num in *. rewrite (grid_metadata _ 50 m (small_grid h2) : @read_metadata (option R) (small_dem h2) = inr m). assert (Q : meta_eqb m m = true) by (apply meta_eqb_iff; reflexivity). rewrite Q. reflexivity. }
  assert (D : read_dem_svf calc m None fs2 = inr (fun _ _ => Some h2, fun i j => option_map round3 (calc 1%nat 1%nat (fun _ _ => Some h1) i j))).
  { unfold read_dem_svf, required. change (fi_dem fs2) with (Some (small_dem h2)). unfold num in *. rewrite R.
    change (fi_svf fs2) with (Some (svf_raster (m_rows m) (m_cols m) (m_tr m) (calc 1%nat 1%nat (fun _ _ => Some h1)))).
    pose proof (read_written _ (small_dem h2) m (calc 1%nat 1%nat (fun _ _ => Some h1)) (grid_metadata _ 50 m (small_grid h2))) as W.
    unfold num in *. rewrite W. reflexivity. }
  eexists. split; [reflexivity|]. split.
  - unfold load. change (fi_dem fs2) with (Some (small_dem h2)). rewrite small_grid. fold m. cbn [snd].
    rewrite (read_rest calc m 50 no_needs fs2 None _ _ eq_refl D). reflexivity.
  - cbn [in_dem in_svf]. split; [reflexivity|]. rewrite C. apply close_round.
Qed.
Print Assumptions c105_new_terrain_refuted.
Example c105_example :
  let calc := fun (_ _ : nat) (d : nat -> nat -> num) i j => option_map (fun h => 1 / (2 + h)) (d i j) in
  exists a b, snd (load calc 50 no_needs (only_dem 1)) = inr a /\ snd (load calc 50 no_needs (fst (load calc 50 no_needs (only_dem 1)))) = inr b /\
  in_svf a 0%nat 0%nat = Some (1 / (2 + 1)) /\ in_svf b 0%nat 0%nat = Some (333 / 1000).
Proof.
  cbv zeta. set (calc := fun (_ _ : nat) (d : nat -> nat -> num) i j => option_map (fun h => 1 / (2 + h)) (d i j)).
  destruct (small_load calc 1) as (a & L & Sa). destruct (reload calc calc 50 no_needs (only_dem 1) _ _ L) as (r2 & L2 & R).
  unfold reread in R. destruct R as (b & -> & _ & _ & P). exists a, b. rewrite L. cbn [fst snd]. rewrite L2. cbn [snd].
  split; [reflexivity|]. split; [reflexivity|]. rewrite P by reflexivity. rewrite Sa. split; [reflexivity|]. cbn. f_equal. unfold round3.
  rewrite <- (floor_spec (1000 * (1 / (2 + 1)) + 1 / 2) 333) by lra. reflexivity.
Qed.
