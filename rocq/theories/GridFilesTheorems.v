(** C96: fields, time variables, dimensions and files of gridded outputs. *)
From Verif Require Import Common TimeModel TimeProofs NameProofs GridFilesModel PointConfigTheorems.
From Verif Require OutputModel.
Open Scope string_scope.

(** * Fields *)
Definition in_run (start stop : Z) (d : Z) : Prop := (start <= d <= stop)%Z.
(** Field [f] realises entry [c] of the configuration: same variable and aggregation, the given name or the part of the
    variable name after the dot, and those of the dates that lie within the run, in the same order. *)
Definition realises (start stop : Z) (c : fieldcfg) (f : ofield) : Prop :=
  of_var f = fc_var c /\ of_agg f = fc_agg c
  /\ match fc_name c with Some n => of_name f = n | None => after_last_dot (fc_var c) (of_name f) end
  /\ (exists p, of_dates f = filter p (fc_dates c) /\ forall d, p d = true <-> in_run start stop d).
Definition has_date (start stop : Z) (c : fieldcfg) : bool := existsb (fun d => (start <=? d)%Z && (d <=? stop)%Z) (fc_dates c).
Lemma has_date_iff start stop c : has_date start stop c = true <-> exists d, In d (fc_dates c) /\ in_run start stop d.
Proof.
  unfold has_date, in_run. rewrite existsb_exists. split; intros (d & I & H); exists d; split; auto.
  - apply andb_prop in H. rewrite !Z.leb_le in H. exact H.
  - rewrite andb_true_iff, !Z.leb_le. exact H.
Qed.
Lemma keep_nil start stop c : OutputModel.keep_write_dates start stop (fc_dates c) = [] <-> has_date start stop c = false.
Proof.
  unfold OutputModel.keep_write_dates, has_date. induction (fc_dates c) as [|d l IH]; simpl; [tauto|].
  destruct ((start <=? d)%Z && (d <=? stop)%Z); simpl; [split; discriminate|exact IH].
Qed.
Definition field_name (c : fieldcfg) : string := match fc_name c with Some n => n | None => last_part (fc_var c) end.
Definition make_field (start stop : Z) (c : fieldcfg) : ofield :=
  OF (fc_var c) (field_name c) (fc_agg c) (OutputModel.keep_write_dates start stop (fc_dates c)).
Lemma realises_iff start stop c f : realises start stop c f <-> f = make_field start stop c.
Proof.
  unfold realises, make_field, field_name. destruct f as [v n a w]; simpl. split.
  - intros (-> & -> & Hn & p & -> & Hp). f_equal.
    + destruct (fc_name c); [auto|]. apply (after_last_dot_unique (fc_var c)); [exact Hn|apply last_part_spec].
    + unfold OutputModel.keep_write_dates. apply filter_ext. intros d. destruct (p d) eqn:E.
      * apply Hp in E. symmetry. rewrite andb_true_iff, !Z.leb_le. exact E.
      * destruct ((start <=? d)%Z && (d <=? stop)%Z) eqn:E2; [|reflexivity]. rewrite andb_true_iff, !Z.leb_le in E2. apply Hp in E2. congruence.
  - intros H. injection H as -> -> -> ->. split; [reflexivity|]. split; [reflexivity|]. split.
    + destruct (fc_name c); [reflexivity|apply last_part_spec].
    + eexists. split; [reflexivity|]. intros d. simpl. rewrite andb_true_iff, !Z.leb_le. reflexivity.
Qed.
Lemma create_fields_spec start stop : forall cfg fields out, create_fields start stop cfg fields = inr out <->
  out = (fields ++ map (make_field start stop) (filter (has_date start stop) cfg))%list
  /\ (forall k, List.length fields <= k -> k < List.length out -> ~ In (nth k (map of_name out) "") (firstn k (map of_name out)))%nat.
Proof.
  induction cfg as [|c cfg IH]; intros fields out; cbn [create_fields filter].
  - simpl. rewrite app_nil_r. split; [intros H; injection H as <-; split; [reflexivity|lia]|intros [-> _]; reflexivity].
  - destruct (OutputModel.keep_write_dates start stop (fc_dates c)) as [|d wd] eqn:E.
    + apply keep_nil in E. rewrite E. apply IH.
    + destruct (has_date start stop c) eqn:H0; [|apply keep_nil in H0; congruence]. rewrite <- E. clear H0.
      fold (field_name c). fold (make_field start stop c). cbn [map].
      destruct (existsb (String.eqb (field_name c)) (map of_name fields)) eqn:Ex.
      * split; [discriminate|]. intros [-> H]. exfalso.
        apply (H (List.length fields)); [lia|rewrite app_length; simpl; lia|].
        apply existsb_exists in Ex. destruct Ex as (n & I & En). apply String.eqb_eq in En. subst n.
        rewrite map_app. rewrite app_nth2 by (rewrite map_length; lia). rewrite map_length, Nat.sub_diag. simpl.
        rewrite firstn_app, map_length, Nat.sub_diag. simpl. rewrite app_nil_r. rewrite firstn_all2 by (rewrite map_length; lia). exact I.
      * rewrite IH. rewrite <- app_assoc. simpl. split.
        -- intros [-> H]. split; [reflexivity|]. intros k Hk Hk2.
           destruct (Nat.eq_dec k (List.length fields)) as [->|Hne]; [|apply H; [rewrite app_length; simpl; lia|exact Hk2]].
           rewrite map_app. rewrite app_nth2 by (rewrite map_length; lia). rewrite map_length, Nat.sub_diag. simpl.
           rewrite firstn_app, map_length, Nat.sub_diag. simpl. rewrite app_nil_r. rewrite firstn_all2 by (rewrite map_length; lia).
           intros I. assert (existsb (String.eqb (field_name c)) (map of_name fields) = true); [|congruence].
           apply existsb_exists. exists (field_name c). split; [exact I|apply String.eqb_refl].
        -- intros [-> H]. split; [reflexivity|]. intros k Hk Hk2. rewrite app_length in Hk; simpl in Hk. apply H; [lia|exact Hk2].
Qed.
Lemma nodup_prefix (l : list string) : (forall k, k < List.length l -> ~ In (nth k l "") (firstn k l))%nat <-> NoDup l.
Proof.
  split.
  - induction l as [|x l IH] using rev_ind; intros H; [constructor|].
    apply NoDup_Add with (a := x) (l := l); [pose proof (Add_app x l []) as A; rewrite app_nil_r in A; exact A|]. split.
    + apply IH. intros k Hk. specialize (H k). rewrite app_length in H. simpl in H. rewrite app_nth1, firstn_app in H by lia.
      replace (k - List.length l)%nat with 0%nat in H by lia. simpl in H. rewrite app_nil_r in H. apply H. lia.
    + specialize (H (List.length l)). rewrite app_length, app_nth2, Nat.sub_diag, firstn_app, Nat.sub_diag in H by lia. simpl in H.
      rewrite app_nil_r, firstn_all in H. apply H. lia.
  - intros N k Hk I. rewrite <- (firstn_skipn k l) in N.
    assert (Es : exists r, skipn k l = nth k l "" :: r).
    { clear - Hk. revert k Hk. induction l as [|x l IH]; intros [|k] Hk; simpl in *; try lia; eauto. apply IH. lia. }
    destruct Es as [r Er]. rewrite Er in N. apply NoDup_remove_2 in N. apply N, in_app_iff. auto.
Qed.
(** A configuration is accepted exactly if the output names of the fields are distinct and the pixel layout is only used
    for NetCDF and in-memory outputs. The fields are the entries with at least one date within the run, in order; other
    entries are discarded (also if their name is in use). Everything else is a configuration error. *)
Theorem c96_fields : forall start stop format layout cfg,
  (forall fields, gridded_output start stop format layout cfg = inr fields <->
     (layout = LRoiPixel -> format = GNetcdf \/ format = GMemory)
     /\ (exists sel, (exists p, sel = filter p cfg /\ forall c, p c = true <-> exists d, In d (fc_dates c) /\ in_run start stop d)
                     /\ Forall2 (realises start stop) sel fields)
     /\ NoDup (map of_name fields))
  /\ (forall e, gridded_output start stop format layout cfg = inl e -> e = ConfigurationError).
Proof.
  intros start stop format layout cfg. split.
  - intros fields. unfold gridded_output.
    assert (S1 : (exists sel, (exists p, sel = filter p cfg /\ forall c, p c = true <-> exists d, In d (fc_dates c) /\ in_run start stop d)
                     /\ Forall2 (realises start stop) sel fields) <-> fields = map (make_field start stop) (filter (has_date start stop) cfg)).
    { split.
      - intros (sel & (p & -> & Hp) & F).
        assert (Ep : filter p cfg = filter (has_date start stop) cfg).
        { apply filter_ext. intros c. destruct (p c) eqn:E.
          - apply Hp, has_date_iff in E. auto.
          - destruct (has_date start stop c) eqn:E2; [|reflexivity]. apply has_date_iff, Hp in E2. congruence. }
        rewrite Ep in F. clear - F. induction F as [|c f l l' H F IH]; [reflexivity|]. apply realises_iff in H. simpl. congruence.
      - intros ->. exists (filter (has_date start stop) cfg). split; [exists (has_date start stop); split; [reflexivity|apply has_date_iff]|].
        induction (filter _ cfg); simpl; constructor; auto. apply realises_iff. reflexivity. }
    rewrite S1. pose proof (create_fields_spec start stop cfg []) as C. simpl in C.
    assert (C' : forall out, create_fields start stop cfg [] = inr out <-> out = map (make_field start stop) (filter (has_date start stop) cfg) /\ NoDup (map of_name out)).
    { intros out. rewrite C, <- (nodup_prefix (map of_name out)), map_length.
      split; intros [X Y]; (split; [exact X|]); intros k; [intros Hk; apply Y; [lia|exact Hk]|intros _ Hk; apply Y; exact Hk]. }
    clear C. destruct (create_fields start stop cfg []) as [e|out].
    + split; [discriminate|]. intros (_ & E & N). assert (inl e = inr fields :> perr + list ofield); [|discriminate]. apply C'. auto.
    + assert (A : inr out = inr fields :> perr + list ofield <-> out = fields) by (split; congruence).
      specialize (C' fields). rewrite A in C'. destruct layout, format; rewrite ?A; try (rewrite C'; intuition congruence);
        (split; [discriminate|]); intros (H & _); destruct (H eq_refl); discriminate.
  - intros e. unfold gridded_output.
    assert (E : forall cfg fields e, create_fields start stop cfg fields = inl e -> e = ConfigurationError).
    { clear. induction cfg as [|c cfg IH]; intros fields e; cbn [create_fields]; [discriminate|].
      destruct (OutputModel.keep_write_dates _ _ _); [apply IH|]. destruct (existsb _ _); [congruence|apply IH]. }
    destruct (create_fields start stop cfg []) eqn:Ec; [intros H; apply E in Ec; congruence|]. destruct layout, format; congruence.
Qed.
Print Assumptions c96_fields.
Example c96_fields_example : gridded_output 0 100 GNetcdf LRoiPixel
    [FC "snow.swe" None OutputModel.NoAgg [0; 50; 200]%Z; FC "meteo.temp" (Some "swe") OutputModel.Mean [300]%Z; FC "meteo.temp" None OutputModel.Mean [99]%Z]
  = inr [OF "snow.swe" "swe" OutputModel.NoAgg [0; 50]%Z; OF "meteo.temp" "temp" OutputModel.Mean [99]%Z]
  /\ gridded_output 0 100 GNetcdf LGrid [FC "snow.temp" None OutputModel.NoAgg [0]%Z; FC "meteo.temp" None OutputModel.Mean [99]%Z] = inl ConfigurationError
  /\ gridded_output 0 100 GAscii LRoiPixel [FC "snow.temp" None OutputModel.NoAgg [0]%Z] = inl ConfigurationError.
Proof. repeat split. Qed.

(** * Time variables *)
Lemma time_keys_in_gen fields : forall ks0 k, let ks := fold_left (fun ks f => if in_dec tkey_dec (field_key f) ks then ks else (ks ++ [field_key f])%list) fields ks0 in
  (In k ks <-> In k ks0 \/ exists f, In f fields /\ field_key f = k) /\ (NoDup ks0 -> NoDup ks).
Proof.
  induction fields as [|f fields IH]; intros ks0 k; simpl.
  - split; [|auto]. split; [auto|]. intros [H|(g & [] & _)]; exact H.
  - destruct (in_dec tkey_dec (field_key f) ks0) as [I|I].
    + destruct (IH ks0 k) as [A B]. split; [|exact B]. rewrite A. split.
      * intros [H|(g & Hg & E)]; [auto|right; exists g; auto].
      * intros [H|(g & [->|Hg] & E)]; [auto|left; congruence|right; exists g; auto].
    + destruct (IH (ks0 ++ [field_key f])%list k) as [A B]. split.
      * rewrite A, in_app_iff. simpl. split.
        -- intros [[H|[H|[]]]|(g & Hg & E)]; [auto|right; exists f; auto|right; exists g; auto].
        -- intros [H|(g & [->|Hg] & E)]; [auto|auto|right; exists g; auto].
      * intros N. apply B. apply NoDup_Add with (a := field_key f) (l := ks0); [|auto].
        pose proof (Add_app (field_key f) ks0 []) as Q. rewrite app_nil_r in Q. exact Q.
Qed.
Lemma time_keys_in fields k : In k (time_keys fields) <-> exists f, In f fields /\ field_key f = k.
Proof. unfold time_keys. rewrite (proj1 (time_keys_in_gen fields [] k)). simpl. tauto. Qed.
Lemma key_index_nth ks k : In k ks -> nth_error ks (key_index k ks) = Some k.
Proof.
  induction ks as [|x ks IH]; simpl; [tauto|]. destruct (tkey_dec x k) as [->|D]; [reflexivity|]. intros [H|H]; [tauto|]. simpl. auto.
Qed.
Lemma time_var_inj fields f g : In f fields -> In g fields -> (time_var fields f = time_var fields g <-> field_key f = field_key g).
Proof.
  intros Hf Hg. unfold time_var.
  assert (If : In (field_key f) (time_keys fields)) by (apply time_keys_in; eauto).
  assert (Ig : In (field_key g) (time_keys fields)) by (apply time_keys_in; eauto).
  split; [|intros ->; reflexivity].
  destruct (List.length (time_keys fields) =? 1)%nat eqn:E.
  - intros _. apply Nat.eqb_eq in E. destruct (time_keys fields) as [|k [|k' l]]; try discriminate E. simpl in If, Ig. intuition congruence.
  - intros H. apply append_inj_l, dec_inj in H. assert (H' : key_index (field_key f) (time_keys fields) = key_index (field_key g) (time_keys fields)) by lia.
    apply key_index_nth in If, Ig. rewrite H' in If. congruence.
Qed.
(** Bounds of an aggregated time variable: interval i ends at date i and begins at date i - 1, the first one at the
    beginning of the run. *)
Definition bounds_of (start : Z) (dates : list Z) (b : list (Z * Z)) : Prop :=
  List.length b = List.length dates
  /\ forall i d, nth_error dates i = Some d ->
     nth_error b i = Some (match i with O => start | S j => nth j dates 0%Z end, d).
Lemma bounds_ok dates : forall start, bounds_of start dates (OutputModel.time_bounds start dates).
Proof.
  induction dates as [|w dates IH]; intros start; simpl.
  - split; [reflexivity|]. intros [|i] d H; discriminate.
  - destruct (IH w) as [L B]. split; [simpl; congruence|]. intros [|i] d H; simpl in H |- *.
    + injection H as ->. reflexivity.
    + rewrite (B i d H). destruct i; reflexivity.
Qed.
Definition fresh_time (start : Z) (f : ofield) : list Z * option (list (Z * Z)) :=
  (of_dates f, if is_inst (of_agg f) then None else Some (OutputModel.time_bounds start (of_dates f))).
Lemma key_time start f g : field_key f = field_key g -> fresh_time start f = fresh_time start g.
Proof. unfold field_key, fresh_time. intros H. injection H as -> ->. reflexivity. Qed.
Lemma time_coords_gen start all : forall fields d, (forall f, In f fields -> In f all) ->
  (forall x v, dget d x = Some v -> exists f, In f all /\ x = time_var all f /\ v = fresh_time start f) ->
  let d' := fold_left (fun d f => match dget d (time_var all f) with
                        | Some _ => d
                        | None => dset d (time_var all f)
                                    (of_dates f, if is_inst (of_agg f) then None else Some (OutputModel.time_bounds start (of_dates f)))
                        end) fields d in
  (forall x v, dget d' x = Some v -> exists f, In f all /\ x = time_var all f /\ v = fresh_time start f)
  /\ (forall f, In f fields -> dget d' (time_var all f) <> None) /\ (forall x, dget d x <> None -> dget d' x <> None)
  /\ (NoDup (map fst d) -> NoDup (map fst d')).
Proof.
  induction fields as [|f fields IH]; intros d Hf Hd; simpl; [split; [exact Hd|split; [intros ? []|auto]]|].
  destruct (dget d (time_var all f)) as [v|] eqn:E.
  - destruct (IH d) as (A & B & C & D); [intros; apply Hf; right; auto|exact Hd|]. split; [exact A|]. split; [|auto].
    intros g [<-|Hg]; [|auto]. apply C. congruence.
  - destruct (IH (dset d (time_var all f) (fresh_time start f))) as (A & B & C & D).
    + intros; apply Hf; right; auto.
    + intros x v. rewrite dget_dset. destruct (time_var all f =? x) eqn:Ex; [|apply Hd]. apply String.eqb_eq in Ex. intros H. injection H as <-.
      exists f. split; [apply Hf; left; reflexivity|auto].
    + split; [exact A|]. split; [|split].
      * intros g [<-|Hg]; [|auto]. apply C. rewrite dget_dset, String.eqb_refl. discriminate.
      * intros x Hx. apply C. rewrite dget_dset. destruct (time_var all f =? x); [discriminate|exact Hx].
      * intros N. apply D, dset_keys, N.
Qed.
Lemma time_coords_spec start fields : (forall x v, dget (time_coords start fields) x = Some v <-> exists f, In f fields /\ x = time_var fields f /\ v = fresh_time start f)
  /\ NoDup (map fst (time_coords start fields)).
Proof.
  destruct (time_coords_gen start fields fields []) as (A & B & _ & D); [auto|discriminate|]. fold (time_coords start fields) in *.
  split; [|apply D; constructor]. intros x v. split; [apply A|]. intros (f & Hf & -> & ->).
  destruct (dget (time_coords start fields) (time_var fields f)) as [v|] eqn:E; [|exfalso; apply (B f); auto].
  apply A in E. destruct E as (g & Hg & E & ->). f_equal. apply time_var_inj in E; auto. apply key_time. congruence.
Qed.
(** Two fields share a time variable exactly if they are written at the same dates and are both or neither aggregated. *)
Theorem c96_time_variables : forall fields f g, In f fields -> In g fields ->
  (time_var fields f = time_var fields g <-> of_dates f = of_dates g /\ (of_agg f = OutputModel.NoAgg <-> of_agg g = OutputModel.NoAgg)).
Proof.
  intros fields f g Hf Hg. rewrite (time_var_inj fields f g Hf Hg). unfold field_key, is_inst. split.
  - intros H. injection H as H1 H2. split; [exact H1|]. destruct (of_agg f), (of_agg g); intuition congruence.
  - intros [-> H]. f_equal. destruct (of_agg f), (of_agg g); try reflexivity; exfalso; intuition congruence.
Qed.
Print Assumptions c96_time_variables.
(** The time variable of a field holds its write dates; that of an aggregated field also has the intervals over which
    values were aggregated, that of an instantaneous field has none. The variable is named "time" if there is only one
    time variable, and else "time" followed by a number. All names are distinct. *)
Theorem c96_time_values : forall start fields f, In f fields ->
  (exists b, dget (time_coords start fields) (time_var fields f) = Some (of_dates f, b)
     /\ match b with None => of_agg f = OutputModel.NoAgg | Some l => of_agg f <> OutputModel.NoAgg /\ bounds_of start (of_dates f) l end)
  /\ (time_var fields f = "time" <-> forall g, In g fields -> time_var fields g = time_var fields f)
  /\ (time_var fields f = "time" \/ exists n, (1 <= n)%nat /\ time_var fields f = "time" ++ dec n)
  /\ NoDup (time_coord_names start fields)
  /\ (forall x, In x (time_coord_names start fields) <->
        exists g, In g fields /\ (x = time_var fields g \/ of_agg g <> OutputModel.NoAgg /\ x = time_var fields g ++ "_bounds")).
Proof.
  intros start fields f Hf. destruct (time_coords_spec start fields) as [T N].
  assert (TV : forall g, time_var fields g = "time" \/ exists n, (1 <= n)%nat /\ time_var fields g = "time" ++ dec n).
  { intros g. unfold time_var. destruct (_ =? _)%nat; [auto|]. right. eexists. split; [|reflexivity]. lia. }
  assert (NB : forall g h, time_var fields g <> time_var fields h ++ "_bounds").
  { intros g h E. apply (f_equal (fun s => rev (la s))) in E. rewrite la_app, rev_app_distr in E.
    destruct (TV g) as [Eg|(n & _ & Eg)]; rewrite Eg in E; [discriminate E|]. rewrite la_app, rev_app_distr in E.
    pose proof (dec_digits n) as D. apply Forall_rev in D. destruct (rev (la (dec n))) as [|c r] eqn:Er.
    - pose proof (dec_nonempty n) as Q. apply Q. rewrite <- (rev_involutive (la (dec n))), Er. reflexivity.
    - simpl in E. injection E as -> _. inversion D as [|? ? [D1 D2] _]. revert D1 D2. unfold nat_of_ascii. vm_compute (N_of_ascii "s"%char). simpl. lia. }
  split; [|split; [|split; [apply TV|split]]].
  - exists (snd (fresh_time start f)). split.
    + rewrite (proj2 (T _ (fresh_time start f))); [reflexivity|eauto].
    + unfold fresh_time; simpl. unfold is_inst. destruct (of_agg f); [reflexivity|split; [discriminate|apply bounds_ok]..].
  - destruct (List.length (time_keys fields) =? 1)%nat eqn:E.
    + assert (A : forall g, time_var fields g = "time") by (intros g; unfold time_var; rewrite E; reflexivity).
      split; [intros _ g _; rewrite !A; reflexivity|intros _; apply A].
    + split.
      * intros H. exfalso. unfold time_var in H. rewrite E in H. change "time" with ("time" ++ "") in H at 2. apply append_inj_l in H.
        apply (dec_nonempty (key_index (field_key f) (time_keys fields) + 1)). rewrite H. reflexivity.
      * intros H. exfalso. apply Nat.eqb_neq in E. apply E.
        assert (K : forall k, In k (time_keys fields) -> k = field_key f).
        { intros k Hk. apply time_keys_in in Hk. destruct Hk as (g & Hg & <-). apply (time_var_inj fields g f Hg Hf). apply H, Hg. }
        assert (ND : NoDup (time_keys fields)) by (apply (proj2 (time_keys_in_gen fields [] (field_key f))); constructor).
        assert (I : In (field_key f) (time_keys fields)) by (apply time_keys_in; eauto).
        destruct (time_keys fields) as [|k [|k' l]]; [destruct I|reflexivity|].
        exfalso. inversion_clear ND as [|? ? N1 N2]. apply N1. left. rewrite (K k), (K k'); simpl; auto.
  - unfold time_coord_names.
    assert (A : forall e, In e (time_coords start fields) -> exists g, In g fields /\ fst e = time_var fields g).
    { intros [x v] I. apply in_dget in I; [|exact N]. apply T in I. destruct I as (g & Hg & -> & _). exists g. auto. }
    revert A N. generalize (time_coords start fields) as d. clear T. induction d as [|[x v] d IH]; intros A N; cbn [flat_map]; [constructor|].
    inversion_clear N as [|? ? N1 N2]. simpl in N1.
    assert (IH' := IH (fun e I => A e (or_intror I)) N2). clear IH.
    destruct (A (x, v) (or_introl eq_refl)) as (g & Hg & Ex). simpl in Ex.
    assert (P : ~ In x (flat_map (fun e => match snd (snd e) with Some _ => [fst e ++ "_bounds"; fst e] | None => [fst e] end) d)
              /\ ~ In (x ++ "_bounds") (flat_map (fun e => match snd (snd e) with Some _ => [fst e ++ "_bounds"; fst e] | None => [fst e] end) d)).
    { split; intros I; apply in_flat_map in I; destruct I as ([y w] & Ie & I); destruct (A (y, w) (or_intror Ie)) as (h & Hh & Ey); simpl in Ey, I;
        assert (Dxy : x <> y) by (intros ->; apply N1; apply (in_map fst) in Ie; exact Ie).
      - destruct (snd w); simpl in I; [destruct I as [I|[I|[]]]|destruct I as [I|[]]]; try congruence. apply (NB g h). congruence.
      - destruct (snd w); simpl in I; [destruct I as [I|[I|[]]]|destruct I as [I|[]]]; try (apply append_inj_r in I; congruence); apply (NB h g); congruence. }
    destruct P as [P1 P2]. cbn [fst snd]. destruct (snd v); simpl; constructor; auto.
    + intros [I|I]; [|auto]. apply (NB g g). congruence.
    + constructor; auto.
  - intros x. unfold time_coord_names. rewrite in_flat_map. split.
    + intros ([y w] & Ie & I). apply in_dget in Ie; [|exact N]. apply T in Ie. destruct Ie as (g & Hg & -> & ->). exists g. split; [exact Hg|].
      unfold fresh_time in I; cbn [fst snd] in I. unfold is_inst in I.
      destruct (of_agg g); simpl in I; [destruct I as [I|[]]; auto|..]; (destruct I as [I|[I|[]]]; [right; split; [discriminate|auto]|left; auto]).
    + intros (g & Hg & H). exists (time_var fields g, fresh_time start g). split.
      * apply dget_in. apply T. eauto.
      * unfold fresh_time; cbn [fst snd]. unfold is_inst. destruct H as [->|[H ->]]; destruct (of_agg g); simpl; auto; tauto.
Qed.
Print Assumptions c96_time_values.
Example c96_time_example :
  let fields := [OF "snow.swe" "swe" OutputModel.NoAgg [0; 50]%Z; OF "meteo.temp" "temp" OutputModel.Mean [49; 99]%Z; OF "meteo.precip" "p" OutputModel.Sum [49; 99]%Z] in
  time_coords 0 fields = [("time1", ([0; 50]%Z, None)); ("time2", ([49; 99]%Z, Some [(0, 49); (49, 99)]%Z))]
  /\ map (time_var fields) fields = ["time1"; "time2"; "time2"] /\ time_coord_names 0 fields = ["time1"; "time2_bounds"; "time2"].
Proof. repeat split. Qed.

(** * Dimensions *)
(** The sizes of a data variable along its dimensions are those of the coordinates of the dataset: time, layers of the
    category (if any), then rows and columns or pixels. *)
Theorem c96_dimensions : forall start layout rows cols npix fields f cat dim3 vars layers,
  In f fields -> In (cat, dim3) vars -> create_layers vars = inr layers ->
  let dims := var_dims layout rows cols npix (time_var fields f) (List.length (of_dates f)) cat dim3 in
  (forall d n, In (d, n) dims -> In (d, n) (dim_coords layout rows cols npix (time_coords start fields) layers))
  /\ map fst dims = match layout, (dim3 =? 0)%nat with
                    | LGrid, true => [time_var fields f; "y"; "x"]
                    | LGrid, false => [time_var fields f; cat ++ "_layer"; "y"; "x"]
                    | LRoiPixel, true => [time_var fields f; "pixel"]
                    | LRoiPixel, false => [time_var fields f; cat ++ "_layer"; "pixel"]
                    end
  /\ (In ("y", rows) dims <-> layout = LGrid) /\ (In ("pixel", npix) dims <-> layout = LRoiPixel).
Proof.
  intros start layout rows cols npix fields f cat dim3 vars layers Hf Hc Hl dims.
  destruct (time_coords_spec start fields) as [T _].
  assert (TV : In (time_var fields f, List.length (of_dates f)) (map (fun e => (fst e, List.length (fst (snd e)))) (time_coords start fields))).
  { apply in_map_iff. exists (time_var fields f, fresh_time start f). split; [reflexivity|]. apply dget_in, T. eauto. }
  assert (LC : forall n, dim3 = S n -> In (layer_coord cat, dim3) layers).
  { intros n ->. apply dget_in. unfold create_layers in Hl. destruct (layer_coords vars []) as [e|d]; [discriminate|].
    destruct (sizes_agree vars d) eqn:E; [|discriminate]. injection Hl as <-. unfold sizes_agree in E. rewrite forallb_forall in E.
    specialize (E _ Hc). simpl in E. destruct (dget d (layer_coord cat)) as [k|]; [|discriminate]. apply Nat.eqb_eq in E. congruence. }
  assert (NT : forall c, time_var fields f <> String "y" c /\ time_var fields f <> String "p" c /\ layer_coord cat <> "y" /\ layer_coord cat <> "pixel").
  { intros c. assert (B : time_var fields f = "time" ++ "" \/ exists n, time_var fields f = "time" ++ dec n).
    { unfold time_var. destruct (_ =? _)%nat; [auto|eauto]. }
    split; [|split; [|split]]; try (intros E; destruct B as [B|[k B]]; rewrite B in E; discriminate E);
      intros E; apply (f_equal (fun s => rev (la s))) in E; unfold layer_coord in E; rewrite la_app, rev_app_distr in E; discriminate E. }
  split; [|split; [|split]].
  - intros d n I. unfold dims, var_dims in I. unfold dim_coords. destruct I as [I|I]; [injection I as <- <-; apply in_app_iff; auto|].
    apply in_app_iff in I. destruct I as [I|I].
    + destruct dim3 as [|k]; [destruct I|]. destruct I as [I|[]]. injection I as <- <-. rewrite !in_app_iff. right; right. apply (LC k). reflexivity.
    + rewrite !in_app_iff. right; left. destruct layout; simpl in *; intuition.
  - unfold dims, var_dims. destruct layout, dim3; reflexivity.
  - unfold dims, var_dims. destruct (NT "") as (N1 & _ & N3 & _). destruct layout; (split; [try reflexivity|intros; try discriminate]).
    + apply in_cons, in_app_iff. right. left. reflexivity.
    + intros [I|I]; [injection I as I _; congruence|]. apply in_app_iff in I. destruct I as [I|[I|[]]]; [|discriminate I].
      destruct dim3; [destruct I|]. destruct I as [I|[]]. injection I as I _. congruence.
  - unfold dims, var_dims. destruct (NT "ixel") as (_ & N2 & _ & N4). destruct layout; (split; [try reflexivity|intros; try discriminate]).
    + intros [I|I]; [injection I as I _; congruence|]. apply in_app_iff in I. destruct I as [I|[I|[I|[]]]]; try discriminate I.
      destruct dim3; [destruct I|]. destruct I as [I|[]]. injection I as I _. congruence.
    + apply in_cons, in_app_iff. right. left. reflexivity.
Qed.
Print Assumptions c96_dimensions.
Example c96_dimensions_example : create_layers [("soil", 4); ("snow", 0)]%nat = inr [("soil_layer", 4)]%nat
  /\ var_dims LRoiPixel 3 5 7 "time" 2 "soil" 4 = [("time", 2); ("soil_layer", 4); ("pixel", 7)]%nat.
Proof. split; reflexivity. Qed.

(** * Data types *)
(** Integer variables are written as integers, unless they are averaged; everything else as floating point numbers. *)
Theorem c96_dtype : forall d a, (field_dtype d a = Int32 <-> d = TInt /\ a <> OutputModel.Mean)
  /\ fill_value Int32 = CInt (- 2 ^ 31) /\ fill_value Float32 = CFloat None.
Proof. intros d a. split; [|split; reflexivity]. destruct d, a; simpl; split; intros H; try discriminate; try (destruct H; congruence); split; congruence. Qed.
Print Assumptions c96_dtype.
(** Pixels outside the region of interest, which keep the initial value of the state, are written as missing for
    floating point variables and all aggregated fields. *)
Theorem c96_outside : forall d a c, init_of_type d = Some c -> d = TFloat \/ a <> OutputModel.NoAgg ->
  outside_value d a c = fill_value (field_dtype d a).
Proof.
  intros d a c H [->|Ha].
  - injection H as <-. destruct a; reflexivity.
  - destruct a; [congruence|reflexivity|reflexivity].
Qed.
Print Assumptions c96_outside.
Example c96_outside_example : init_of_type TInt = Some (CInt 0) /\ outside_value TInt OutputModel.Sum (CInt 0) = CInt (- 2147483648)
  /\ outside_value TFloat OutputModel.NoAgg (CFloat None) = CFloat None.
Proof. repeat split. Qed.
(** Instantaneous integer variables are not: pixels outside the region of interest appear as zeros. *)
Theorem c96_outside_refuted : exists d a c, init_of_type d = Some c /\ outside_value d a c <> fill_value (field_dtype d a).
Proof. exists TInt, OutputModel.NoAgg, (CInt 0). split; [reflexivity|discriminate]. Qed.
Print Assumptions c96_outside_refuted.
(** A date that is given twice has two places in the time variable, but only the first one is filled. *)
Theorem c96_duplicate_dates_refuted : exists start stop cfg f d,
  gridded_output start stop GNetcdf LGrid cfg = inr [f] /\ nth_error (of_dates f) 1 = Some d
  /\ forall v w, ~ In (1%nat, w) (snd (OutputModel.grid_run (of_agg f) (of_dates f) true (OutputModel.FD None 0) (map (fun t => (t, v t)) (date_range start stop 10)))).
Proof.
  exists 0%Z, 30%Z, [FC "snow.swe" None OutputModel.NoAgg [10; 10]%Z], (OF "snow.swe" "swe" OutputModel.NoAgg [10; 10]%Z), 10%Z.
  split; [reflexivity|split; [reflexivity|]]. intros v w. simpl. intros [H|[]]. congruence.
Qed.
Print Assumptions c96_duplicate_dates_refuted.

(** * Raster files *)
Lemma digit_char_inj a b : digit_char a = digit_char b -> (a mod 10 = b mod 10)%Z.
Proof.
  unfold digit_char. intros H. apply (f_equal nat_of_ascii) in H.
  pose proof (Z.mod_pos_bound a 10). pose proof (Z.mod_pos_bound b 10). rewrite !nat_ascii_embedding in H by lia. lia.
Qed.
Lemma digit_char_digit a : digit (digit_char a).
Proof. unfold digit, digit_char. pose proof (Z.mod_pos_bound a 10). rewrite nat_ascii_embedding by lia. lia. Qed.
Lemma pad2_inj a b : (0 <= a < 100)%Z -> (0 <= b < 100)%Z -> pad2 a = pad2 b -> a = b.
Proof.
  intros Ha Hb H. unfold pad2 in H. injection H as H1 H2. apply digit_char_inj in H1, H2.
  pose proof (Z.div_mod a 10). pose proof (Z.div_mod b 10). rewrite (Z.mod_small (a / 10)), (Z.mod_small (b / 10)) in H1; try lia;
  split; try (apply Z.div_pos; lia); apply Z.div_lt_upper_bound; lia.
Qed.
Lemma pad2_mod a b : pad2 a = pad2 b -> (a mod 100 = b mod 100)%Z.
Proof.
  intros H. unfold pad2 in H. injection H as H1 H2. apply digit_char_inj in H1, H2.
  change 100%Z with (10 * 10)%Z. rewrite !Zmod_recombine || rewrite !Z.rem_mul_r by lia. lia.
Qed.
Lemma pad4_inj a b : (0 <= a < 10000)%Z -> (0 <= b < 10000)%Z -> pad4 a = pad4 b -> a = b.
Proof.
  intros Ha Hb H. unfold pad4 in H. apply append_same_length in H; [|reflexivity]. destruct H as [H1 H2].
  apply pad2_inj in H1; [apply pad2_mod in H2; pose proof (Z.div_mod a 100); pose proof (Z.div_mod b 100); lia|..];
  split; try (apply Z.div_pos; lia); apply Z.div_lt_upper_bound; lia.
Qed.
(** Times for which names are unique: full minutes in the years up to 9999 *)
Definition full_minute (t : Z) : Prop := (0 <= t /\ t mod 60 = 0 /\ year (date_of t) <= 9999)%Z.
Lemma stamp_inj t u : full_minute t -> full_minute u -> stamp t = stamp u -> t = u.
Proof.
  intros (T0 & T1 & T2) (U0 & U1 & U2) H. unfold stamp in H.
  pose proof (civil_valid (t / DAY)) as Vt. pose proof (civil_valid (u / DAY)) as Vu. fold (date_of t) in Vt. fold (date_of u) in Vu.
  assert (Ot : ordinal (date_of t) = (t / DAY)%Z) by (apply civil_ordinal; apply Z.div_pos; unfold DAY; lia).
  assert (Ou : ordinal (date_of u) = (u / DAY)%Z) by (apply civil_ordinal; apply Z.div_pos; unfold DAY; lia).
  apply append_same_length in H; [|reflexivity]. destruct H as [Hy H].
  apply append_inj_l in H. apply append_same_length in H; [|reflexivity]. destruct H as [Hm H].
  apply append_inj_l in H. apply append_same_length in H; [|reflexivity]. destruct H as [Hd H].
  apply append_inj_l in H. apply append_same_length in H; [|reflexivity]. destruct H as [Hh Hn].
  destruct (date_of t) as [y m d], (date_of u) as [y' m' d']. destruct Vt, Vu. simpl in *.
  pose proof (month_days_bound y m). pose proof (month_days_bound y' m').
  apply pad4_inj in Hy; [|lia|lia]. apply pad2_inj in Hm; [|lia|lia]. apply pad2_inj in Hd; [|lia|lia]. subst y' m' d'.
  assert (D : (t / DAY = u / DAY)%Z) by congruence. unfold DAY in *.
  assert (E1 : forall x, (0 <= x mod 86400 / 3600 < 100)%Z).
  { intros x. pose proof (Z.mod_pos_bound x 86400). split; [apply Z.div_pos; lia|apply Z.div_lt_upper_bound; lia]. }
  assert (E2 : forall x, (0 <= x mod 3600 / 60 < 100)%Z).
  { intros x. pose proof (Z.mod_pos_bound x 3600). split; [apply Z.div_pos; lia|apply Z.div_lt_upper_bound; lia]. }
  apply pad2_inj in Hh; auto. apply pad2_inj in Hn; auto.
  assert (S1 : forall x, (x = 86400 * (x / 86400) + (3600 * (x mod 86400 / 3600) + (60 * (x mod 3600 / 60) + x mod 60)))%Z).
  { intros x. rewrite (Z.div_mod x 86400) at 1 by lia. f_equal. rewrite (Z.div_mod (x mod 86400) 3600) at 1 by lia. f_equal.
    replace (x mod 86400 mod 3600)%Z with (x mod 3600)%Z by (change 86400%Z with (3600 * 24)%Z; rewrite Z.rem_mul_r, Z.mul_comm, Z_mod_plus_full, Z.mod_mod by lia; reflexivity).
    rewrite (Z.div_mod (x mod 3600) 60) at 1 by lia. f_equal.
    change 3600%Z with (60 * 60)%Z. rewrite Z.rem_mul_r, Z.mul_comm, Z_mod_plus_full, Z.mod_mod by lia. reflexivity. }
  rewrite (S1 t), (S1 u), D, Hh, Hn, T1, U1. reflexivity.
Qed.
Lemma stamp_length t : List.length (la (stamp t)) = 15%nat.
Proof. reflexivity. Qed.
Lemma stamp_end t a : ~ no_digit_end (a ++ stamp t).
Proof.
  unfold stamp. set (p := pad4 _). set (q := pad2 (month _)). set (r := pad2 (day _)). set (h := pad2 (_ / 3600)).
  replace (a ++ p ++ "-" ++ q ++ "-" ++ r ++ "T" ++ h ++ pad2 (t mod 3600 / 60)) with ((a ++ p ++ "-" ++ q ++ "-" ++ r ++ "T" ++ h) ++ pad2 (t mod 3600 / 60))
    by (rewrite !append_assoc; reflexivity).
  apply ends_digit; [|discriminate]. unfold pad2; simpl. apply Forall_cons; [apply digit_char_digit|]. apply Forall_cons; [apply digit_char_digit|apply Forall_nil].
Qed.
Lemma digit_not c : digit c -> c <> "_"%char /\ c <> "-"%char.
Proof. intros [H1 H2]; split; intros ->; revert H1 H2; vm_compute; lia. Qed.
Lemma stamp_chars t : Forall (fun c => c <> "_"%char) (la (stamp t)) /\ In "-"%char (la (stamp t)).
Proof.
  unfold stamp, pad4, pad2. split.
  - cbn [append la]. repeat (apply Forall_cons; [first [apply digit_not, digit_char_digit|discriminate]|]). apply Forall_nil.
  - cbn [append la In]. tauto.
Qed.
Lemma dec_not_stamp l t : dec l <> stamp t.
Proof.
  intros E. destruct (stamp_chars t) as [_ I]. rewrite <- E in I. pose proof (dec_digits l) as D. rewrite Forall_forall in D.
  apply D, digit_not in I. tauto.
Qed.
Definition part (o : option string) : string := match o with Some s => "_" ++ s | None => "" end.
(** The last of the parts joined by underscores *)
Lemma last_token a b s t : Forall (fun c => c <> "_"%char) (la s) -> Forall (fun c => c <> "_"%char) (la t) ->
  a ++ "_" ++ s = b ++ "_" ++ t -> a = b /\ s = t.
Proof.
  intros Fs Ft H. rewrite <- !append_assoc in H.
  assert (Q : s = t); [|subst t; apply append_inj_r, append_inj_r in H; auto].
  apply (f_equal la) in H. rewrite !(la_app (_ ++ "_")) in H. apply (f_equal (@rev _)) in H. rewrite !rev_app_distr in H.
  apply split_run with (P := fun c => c <> "_"%char) in H; auto using Forall_rev.
  - destruct H as [H _]. apply la_inj. rewrite <- (rev_involutive (la s)), <- (rev_involutive (la t)). congruence.
  - rewrite la_app, rev_app_distr. simpl. tauto.
  - rewrite la_app, rev_app_distr. simpl. tauto.
Qed.
Lemma dec_no_underscore l : Forall (fun c => c <> "_"%char) (la (dec l)).
Proof. eapply Forall_impl; [|apply dec_digits]. intros c H. apply digit_not in H. tauto. Qed.
(** Names of the form name[_layer][_start]_date determine the name, the layer and the date. *)
Lemma file_body_inj n1 n2 (l1 l2 : option nat) (s1 s2 : option Z) d1 d2 :
  no_digit_end n1 -> no_digit_end n2 -> full_minute d1 -> full_minute d2 ->
  n1 ++ part (option_map dec l1) ++ part (option_map stamp s1) ++ "_" ++ stamp d1 = n2 ++ part (option_map dec l2) ++ part (option_map stamp s2) ++ "_" ++ stamp d2 ->
  n1 = n2 /\ l1 = l2 /\ d1 = d2.
Proof.
  intros N1 N2 M1 M2 H. rewrite <- !append_assoc in H. apply append_same_length in H; [|reflexivity]. destruct H as [H Hd].
  apply stamp_inj in Hd; auto. apply append_inj_r in H.
  assert (B : forall a b la lb, no_digit_end a -> no_digit_end b -> a ++ part (option_map dec la) = b ++ part (option_map dec lb) -> a = b /\ la = lb).
  { clear. intros a b [l|] [k|] Na Nb H; simpl in H.
    - apply last_token in H; auto using dec_no_underscore. destruct H as [-> H]. apply dec_inj in H. subst; auto.
    - exfalso. replace (b ++ "") with b in H by (clear; induction b; simpl; congruence).
      rewrite <- H in Nb. revert Nb. change (String "_" (dec l)) with ("_" ++ dec l). rewrite <- append_assoc. apply ends_digit; auto using dec_digits, dec_nonempty.
    - exfalso. replace (a ++ "") with a in H by (clear; induction a; simpl; congruence).
      rewrite H in Na. revert Na. change (String "_" (dec k)) with ("_" ++ dec k). rewrite <- append_assoc. apply ends_digit; auto using dec_digits, dec_nonempty.
    - apply append_inj_r in H. auto. }
  assert (C : forall a b la lb s, no_digit_end a -> a ++ part (option_map dec la) <> (b ++ part (option_map dec lb)) ++ "_" ++ stamp s).
  { clear. intros a b [l|] lb s Na H; simpl in H.
    - apply last_token in H; [|apply dec_no_underscore|apply stamp_chars]. destruct H as [_ H]. apply dec_not_stamp in H. exact H.
    - replace (a ++ "") with a in H by (clear; induction a; simpl; congruence). rewrite H in Na. revert Na.
      change (String "_" (stamp s)) with ("_" ++ stamp s). rewrite <- append_assoc. apply stamp_end. }
  assert (X : n1 = n2 /\ l1 = l2); [|tauto].
  destruct s1 as [s1|], s2 as [s2|]; cbn [option_map part] in H.
  - apply append_same_length in H; [|reflexivity]. apply B; tauto.
  - exfalso. replace ((n2 ++ part (option_map dec l2)) ++ "") with (n2 ++ part (option_map dec l2)) in H by (generalize (n2 ++ part (option_map dec l2)); induction s; simpl; congruence).
    symmetry in H. revert H. apply C; auto.
  - exfalso. replace ((n1 ++ part (option_map dec l1)) ++ "") with (n1 ++ part (option_map dec l1)) in H by (generalize (n1 ++ part (option_map dec l1)); induction s; simpl; congruence).
    revert H. apply C; auto.
  - apply append_inj_r in H. apply B; auto.
Qed.
(** Name of the file for layer [l] of field [f] at date [d]: name, layer number for 3-dimensional variables, beginning of
    the interval for aggregated fields (one time step after the previous date, or the beginning of the run), and date. *)
Definition file_of (start step : Z) (format : gformat) (f : ofield) (dim3 l : nat) (d : Z) (name : string) : Prop :=
  exists i, nth_error (of_dates f) i = Some d /\ (forall j, (j < i)%nat -> nth_error (of_dates f) j <> Some d)
  /\ name = of_name f ++ (if (dim3 =? 0)%nat then "" else "_" ++ dec l)
            ++ (match of_agg f with
                | OutputModel.NoAgg => ""
                | _ => "_" ++ stamp (match i with O => start | S j => nth j (of_dates f) 0%Z + step end)%Z
                end)
            ++ "_" ++ stamp d ++ "." ++ (match format with GAscii => "asc" | _ => "tif" end).
Lemma first_index_spec d l i : OutputModel.first_index d l = Some i <-> nth_error l i = Some d /\ forall j, (j < i)%nat -> nth_error l j <> Some d.
Proof.
  revert i. induction l as [|w l IH]; intros i; simpl.
  - split; [discriminate|]. intros [H _]. destruct i; discriminate.
  - destruct (w =? d)%Z eqn:E.
    + apply Z.eqb_eq in E. subst w. split.
      * intros H. injection H as <-. split; [reflexivity|]. lia.
      * intros [H1 H2]. destruct i; [reflexivity|]. exfalso. apply (H2 0%nat); [lia|reflexivity].
    + apply Z.eqb_neq in E. destruct (OutputModel.first_index d l) as [k|] eqn:Ek; simpl.
      * destruct (IH k) as [A _]. specialize (A eq_refl). split.
        -- intros H. injection H as <-. split; [apply A|]. intros [|j] Hj; simpl; [congruence|apply A; lia].
        -- intros [H1 H2]. destruct i as [|i]; simpl in H1; [congruence|]. do 2 f_equal. assert (Q : Some k = Some i); [|congruence]. apply IH. split; [exact H1|].
           intros j Hj. apply (H2 (S j)). lia.
      * split; [discriminate|]. intros [H1 H2]. destruct i as [|i]; simpl in H1; [congruence|]. assert (Q : None = Some i); [|discriminate]. apply IH. split; [exact H1|].
        intros j Hj. apply (H2 (S j)). lia.
Qed.
Lemma date_str_ok start step f i d : nth_error (of_dates f) i = Some d ->
  date_str start step f i d = match of_agg f with
                | OutputModel.NoAgg => stamp d
                | _ => stamp (match i with O => start | S j => nth j (of_dates f) 0%Z + step end)%Z ++ "_" ++ stamp d
                end.
Proof.
  intros H. unfold date_str, OutputModel.file_interval. rewrite H.
  assert (E : match i with O => Some (start, d) | S j => option_map (fun p => ((p + step)%Z, d)) (nth_error (of_dates f) j) end
              = Some (match i with O => start | S j => nth j (of_dates f) 0 + step end, d)%Z).
  { destruct i as [|j]; [reflexivity|]. destruct (nth_error (of_dates f) j) as [p|] eqn:Ej.
    - simpl. rewrite (nth_error_nth _ _ 0%Z Ej). reflexivity.
    - apply nth_error_None in Ej. assert (nth_error (of_dates f) (S j) = None) by (apply nth_error_None; lia). congruence. }
  rewrite E. destruct (of_agg f); reflexivity.
Qed.
Lemma step_files_in start step format dim3 fields d name c : In (name, c) (step_files start step format dim3 fields d) <->
  exists f l, In f fields /\ (l < Nat.max (dim3 f) 1)%nat /\ c = (of_name f, l, d) /\ file_of start step format f (dim3 f) l d name.
Proof.
  unfold step_files. rewrite in_flat_map.
  assert (Body : forall f i l, nth_error (of_dates f) i = Some d -> (l < Nat.max (dim3 f) 1)%nat -> forall nm,
            In (nm, l) (field_files start step format f (dim3 f) i d) <->
            nm = of_name f ++ (if (dim3 f =? 0)%nat then "" else "_" ++ dec l)
            ++ (match of_agg f with
                | OutputModel.NoAgg => ""
                | _ => "_" ++ stamp (match i with O => start | S j => nth j (of_dates f) 0%Z + step end)%Z
                end)
            ++ "_" ++ stamp d ++ "." ++ (match format with GAscii => "asc" | _ => "tif" end)).
  { intros f i l Hi Hl nm. unfold field_files. rewrite (date_str_ok start step f i d Hi). fold (extension format).
    assert (S1 : forall x, x ++ "_" ++ (match of_agg f with
                | OutputModel.NoAgg => stamp d
                | _ => stamp (match i with O => start | S j => nth j (of_dates f) 0%Z + step end)%Z ++ "_" ++ stamp d
                end) ++ "." ++ extension format = x ++ (match of_agg f with
                | OutputModel.NoAgg => ""
                | _ => "_" ++ stamp (match i with O => start | S j => nth j (of_dates f) 0%Z + step end)%Z
                end) ++ "_" ++ stamp d ++ "." ++ extension format).
    { intros x. f_equal. destruct (of_agg f); [reflexivity|rewrite !append_assoc; reflexivity..]. }
    destruct (dim3 f) as [|n] eqn:En.
    - simpl in Hl. assert (l = 0%nat) by lia. subst l. cbn [Nat.eqb]. rewrite S1. simpl In. split.
      + intros [H|[]]. injection H as <-. reflexivity.
      + intros ->. left. reflexivity.
    - cbn [Nat.eqb]. rewrite in_map_iff. split.
      + intros (k & E & _). injection E as <- <-. specialize (S1 (of_name f ++ "_" ++ dec k)). rewrite !append_assoc in S1. rewrite !append_assoc. exact S1.
      + intros ->. exists l. split; [|apply in_seq; lia]. f_equal. specialize (S1 (of_name f ++ "_" ++ dec l)). rewrite !append_assoc in S1. rewrite !append_assoc. exact S1. }
  split.
  - intros (f & Hf & I). destruct (OutputModel.first_index d (of_dates f)) as [i|] eqn:Ei; [|destruct I]. apply first_index_spec in Ei.
    apply in_map_iff in I. destruct I as ([nm l] & E & I). cbn [fst snd] in E. injection E as -> <-.
    assert (Hl : (l < Nat.max (dim3 f) 1)%nat).
    { unfold field_files in I. destruct (dim3 f) as [|n]; [destruct I as [I|[]]; injection I as _ <-; simpl; lia|].
      apply in_map_iff in I. destruct I as (k & E & I). injection E as _ ->. apply in_seq in I. lia. }
    exists f, l. split; [exact Hf|]. split; [exact Hl|]. split; [reflexivity|]. exists i. split; [apply Ei|]. split; [apply Ei|].
    apply (Body f i l (proj1 Ei) Hl). exact I.
  - intros (f & l & Hf & Hl & -> & i & Hi & Hm & Hn). exists f. split; [exact Hf|].
    rewrite (proj2 (first_index_spec d (of_dates f) i) (conj Hi Hm)). apply in_map_iff. exists (name, l). split; [reflexivity|].
    apply (Body f i l Hi Hl). exact Hn.
Qed.
Lemma file_of_inj start step format f g dimf dimg l k d e name : no_digit_end (of_name f) -> no_digit_end (of_name g) -> full_minute d -> full_minute e ->
  file_of start step format f dimf l d name -> file_of start step format g dimg k e name ->
  of_name f = of_name g /\ (if (dimf =? 0)%nat then None else Some l) = (if (dimg =? 0)%nat then None else Some k) /\ d = e.
Proof.
  intros Nf Ng Md Me (i & _ & _ & E1) (j & _ & _ & E2). rewrite E1 in E2. clear E1.
  set (a1 := match i with O => start | S _ => _ end) in E2. set (a2 := match j with O => start | S _ => _ end) in E2. clearbody a1 a2.
  set (s1 := match of_agg f with OutputModel.NoAgg => None | _ => Some a1 end). set (s2 := match of_agg g with OutputModel.NoAgg => None | _ => Some a2 end).
  apply (file_body_inj (of_name f) (of_name g) _ _ s1 s2 d e Nf Ng Md Me).
  apply (append_inj_r _ _ ("." ++ match format with GAscii => "asc" | _ => "tif" end)). rewrite !append_assoc.
  unfold s1, s2. destruct (of_agg f), (of_agg g), (dimf =? 0)%nat, (dimg =? 0)%nat; cbn [option_map part]; rewrite ?append_assoc; rewrite ?append_assoc in E2; exact E2.
Qed.
Lemma dir_get (ws : list (string * content)) : (forall k v v', In (k, v) ws -> In (k, v') ws -> v = v') ->
  forall k v, dget (fold_left (fun d w => dset d (fst w) (snd w)) ws []) k = Some v <-> In (k, v) ws.
Proof.
  intros F k v.
  assert (G : forall l d, (forall k v v', In (k, v) l -> In (k, v') l -> v = v') ->
     (dget (fold_left (fun d w => dset d (fst w) (snd w)) l d) k = Some v <-> In (k, v) l \/ ((forall v', ~ In (k, v') l) /\ dget d k = Some v))).
  { clear. induction l as [|[a b] l IH]; intros d F; [simpl; split; [intros H; right; auto|intros [[]|[_ H]]; exact H]|].
    change (fold_left (fun d w => dset d (fst w) (snd w)) ((a, b) :: l) d) with (fold_left (fun d w => dset d (fst w) (snd w)) l (dset d a b)).
    rewrite IH; [|intros k0 v0 v1 H0 H1; apply (F k0); right; assumption]. rewrite dget_dset. destruct (a =? k) eqn:E.
    - apply String.eqb_eq in E. subst a. split.
      + intros [H|[H1 H2]]; [left; right; exact H|left; left; congruence].
      + intros [[H|H]|[H _]]; [|left; exact H|exfalso; apply (H b); left; reflexivity].
        injection H as <-. destruct (in_dec string_dec k (map fst l)) as [I|I].
        * apply in_map_iff in I. destruct I as ([x y] & E & I). simpl in E. subst x. left. rewrite (F k b y); [exact I|left; reflexivity|right; exact I].
        * right. split; [|reflexivity]. intros v' H. apply I. apply (in_map fst) in H. exact H.
    - apply String.eqb_neq in E. split.
      + intros [H|[H1 H2]]; [left; right; exact H|right; split; [|exact H2]]. intros v' [H|H]; [congruence|apply (H1 v'), H].
      + intros [[H|H]|[H1 H2]]; [congruence|left; exact H|right; split; [|exact H2]]. intros v' H. apply (H1 v'). right. exact H. }
  rewrite (G ws [] F). simpl. split; [intros [H|[_ H]]; [exact H|discriminate]|tauto].
Qed.
Lemma field_by_name (fields : list ofield) f g : NoDup (map of_name fields) -> In f fields -> In g fields -> of_name f = of_name g -> f = g.
Proof.
  induction fields as [|z l IH]; simpl; [tauto|]. intros N [->|Hx] [->|Hy] E; inversion_clear N as [|? ? N1 N2]; auto.
  - exfalso. apply N1. rewrite E. apply in_map_iff. eauto.
  - exfalso. apply N1. rewrite <- E. apply in_map_iff. eauto.
Qed.
(** If the (distinct) output names do not end in a digit and all time steps are full minutes, the results directory holds
    at the end of the run exactly one file for every field, layer and date at which the field is written, with the data of
    this field, layer and date, and no other files. *)
Theorem c96_files : forall start step format dim3 fields dates,
  NoDup (map of_name fields) -> (forall f, In f fields -> no_digit_end (of_name f)) -> (forall d, In d dates -> full_minute d) ->
  (forall name c, dget (results_dir start step format dim3 fields dates) name = Some c <->
     exists f l d, In f fields /\ (l < Nat.max (dim3 f) 1)%nat /\ In d dates /\ In d (of_dates f)
       /\ c = (of_name f, l, d) /\ file_of start step format f (dim3 f) l d name)
  /\ (forall f l d, In f fields -> (l < Nat.max (dim3 f) 1)%nat -> In d dates -> In d (of_dates f) ->
      exists name, dget (results_dir start step format dim3 fields dates) name = Some (of_name f, l, d)).
Proof.
  intros start step format dim3 fields dates N D M.
  assert (W : forall name c, In (name, c) (flat_map (step_files start step format dim3 fields) dates) <->
     exists f l d, In f fields /\ (l < Nat.max (dim3 f) 1)%nat /\ In d dates /\ In d (of_dates f)
       /\ c = (of_name f, l, d) /\ file_of start step format f (dim3 f) l d name).
  { intros name c. rewrite in_flat_map. split.
    - intros (d & Hd & I). apply step_files_in in I. destruct I as (f & l & Hf & Hl & -> & H). exists f, l, d. repeat (split; [auto|]); [|auto].
      destruct H as (i & Hi & _). apply nth_error_In in Hi. auto.
    - intros (f & l & d & Hf & Hl & Hd & _ & -> & H). exists d. split; [exact Hd|]. apply step_files_in. exists f, l. auto. }
  assert (A : forall name c, dget (results_dir start step format dim3 fields dates) name = Some c <->
     exists f l d, In f fields /\ (l < Nat.max (dim3 f) 1)%nat /\ In d dates /\ In d (of_dates f)
       /\ c = (of_name f, l, d) /\ file_of start step format f (dim3 f) l d name).
  { intros name c. unfold results_dir. rewrite dir_get; [apply W|]. clear name c.
    intros name c c' I I'. apply W in I, I'. destruct I as (f & l & d & Hf & Hl & Hd & _ & -> & H). destruct I' as (g & k & e & Hg & Hk & He & _ & -> & H').
    destruct (file_of_inj start step format f g (dim3 f) (dim3 g) l k d e name) as (E1 & E2 & E3); auto.
    assert (f = g) by (apply (field_by_name fields); auto). subst g e. do 2 f_equal.
    destruct (dim3 f) as [|n]; simpl in *; [lia|congruence]. }
  split; [exact A|]. intros f l d Hf Hl Hd Hi.
  destruct (OutputModel.first_index d (of_dates f)) as [i|] eqn:Ei.
  - apply first_index_spec in Ei. eexists. apply A. exists f, l, d. repeat (split; [auto|]). exists i. split; [apply Ei|]. split; [apply Ei|reflexivity].
  - exfalso. clear - Ei Hi. induction (of_dates f) as [|w q IH]; simpl in *; [tauto|]. destruct (w =? d)%Z eqn:E; [discriminate|].
    apply Z.eqb_neq in E. destruct (OutputModel.first_index d q); [discriminate|]. apply IH; auto. tauto.
Qed.
Print Assumptions c96_files.
Example c96_files_example :
  let f := OF "soil.temp" "soil_temp" OutputModel.NoAgg [63713440800]%Z in let g := OF "meteo.temp" "temp" OutputModel.Mean [63713437200; 63713440800]%Z in
  NoDup (map of_name [f; g]) /\ (forall h, In h [f; g] -> no_digit_end (of_name h)) /\ (forall d, In d [63713433600; 63713437200; 63713440800]%Z -> full_minute d)
  /\ results_dir 63713433600 3600 GAscii (fun h => if (of_name h =? "temp")%string then 0 else 2)%nat [f; g] [63713433600; 63713437200; 63713440800]%Z
     = [("temp_2020-01-01T0000_2020-01-01T0100.asc", ("temp", 0%nat, 63713437200%Z)); ("soil_temp_0_2020-01-01T0200.asc", ("soil_temp", 0%nat, 63713440800%Z));
        ("soil_temp_1_2020-01-01T0200.asc", ("soil_temp", 1%nat, 63713440800%Z)); ("temp_2020-01-01T0200_2020-01-01T0200.asc", ("temp", 0%nat, 63713440800%Z))].
Proof.
  split; [repeat constructor; simpl; intuition congruence|]. split.
  { intros h [<-|[<-|[]]]; apply no_digit_endb_ok; reflexivity. }
  split; [|vm_compute; reflexivity]. intros d [<-|[<-|[<-|[]]]]; repeat split; vm_compute; discriminate.
Qed.
(** Without these conditions outputs get lost: an output whose name looks like a layer of another one overwrites it... *)
Theorem c96_file_names_refuted : exists cfg fields f d,
  gridded_output 0 7200 GGeotiff LGrid cfg = inr fields /\ In f fields /\ In d (of_dates f)
  /\ forall name, dget (results_dir 0 3600 GGeotiff (fun h => if (of_var h =? "soil.temp")%string then 2 else 0)%nat fields [0; 3600; 7200]%Z) name <> Some (of_name f, 0%nat, d).
Proof.
  exists [FC "soil.temp" (Some "t") OutputModel.NoAgg [3600]%Z; FC "meteo.temp" (Some "t_0") OutputModel.NoAgg [3600]%Z].
  eexists. exists (OF "soil.temp" "t" OutputModel.NoAgg [3600]%Z), 3600%Z. split; [reflexivity|]. split; [left; reflexivity|]. split; [left; reflexivity|].
  intros name. match goal with |- dget ?d name <> _ => let d' := eval vm_compute in d in change d with d' end.
  cbn [dget]. destruct (_ =? name)%string; [discriminate|]. destruct (_ =? name)%string; discriminate.
Qed.
Print Assumptions c96_file_names_refuted.
(** ... and with time steps shorter than a minute, later files overwrite earlier ones. *)
Theorem c96_seconds_refuted : exists cfg fields f d,
  gridded_output 0 60 GGeotiff LGrid cfg = inr fields /\ In f fields /\ In d (of_dates f)
  /\ forall name, dget (results_dir 0 30 GGeotiff (fun _ => 0)%nat fields [0; 30; 60]%Z) name <> Some (of_name f, 0%nat, d).
Proof.
  exists [FC "meteo.temp" None OutputModel.NoAgg [0; 30; 60]%Z].
  eexists. exists (OF "meteo.temp" "temp" OutputModel.NoAgg [0; 30; 60]%Z), 0%Z. split; [reflexivity|]. split; [left; reflexivity|]. split; [left; reflexivity|].
  intros name. match goal with |- dget ?d name <> _ => let d' := eval vm_compute in d in change d with d' end.
  cbn [dget]. destruct (_ =? name)%string; [discriminate|]. destruct (_ =? name)%string; discriminate.
Qed.
Print Assumptions c96_seconds_refuted.
(** The dates in file names are readable: year, month, day, hour and minute in decimal digits give the time. *)
Definition decimal_value (l : list ascii) : Z := fold_left (fun n c => 10 * n + (Z.of_nat (nat_of_ascii c) - 48))%Z l 0%Z.
Lemma decimal_digit n : (Z.of_nat (nat_of_ascii (digit_char n)) - 48 = n mod 10)%Z.
Proof. unfold digit_char. pose proof (Z.mod_pos_bound n 10). rewrite nat_ascii_embedding by lia. lia. Qed.
Lemma decimal_pad2 n : (0 <= n < 100)%Z -> decimal_value (la (pad2 n)) = n.
Proof.
  intros H. unfold pad2, decimal_value. cbn [la fold_left]. rewrite !decimal_digit. rewrite (Z.mod_small (n / 10)).
  - pose proof (Z.div_mod n 10). lia.
  - split; [apply Z.div_pos; lia|apply Z.div_lt_upper_bound; lia].
Qed.
Lemma decimal_pad4 n : (0 <= n < 10000)%Z -> decimal_value (la (pad4 n)) = n.
Proof.
  intros H. assert (0 <= n / 100 < 100)%Z by (split; [apply Z.div_pos; lia|apply Z.div_lt_upper_bound; lia]).
  assert (E : decimal_value (la (pad4 n)) = (100 * decimal_value (la (pad2 (n / 100))) + decimal_value (la (pad2 (n mod 100))))%Z).
  { unfold pad4, pad2, decimal_value. cbn [append la fold_left]. rewrite !decimal_digit.
    replace (n mod 100 mod 10)%Z with (n mod 10)%Z by (change 100%Z with (10 * 10)%Z; rewrite Z.rem_mul_r, Z.mul_comm, Z_mod_plus_full, Z.mod_mod by lia; reflexivity).
    replace (n mod 100 / 10 mod 10)%Z with (n / 10 mod 10)%Z; [lia|].
    change 100%Z with (10 * 10)%Z. rewrite Z.rem_mul_r by lia. rewrite Z.mul_comm, Z.div_add by lia. rewrite (Z.div_small (n mod 10)) by (apply Z.mod_pos_bound; lia).
    rewrite Z.add_0_l, Z.mod_mod by lia. reflexivity. }
  rewrite E, !decimal_pad2; [pose proof (Z.div_mod n 100); lia|apply Z.mod_pos_bound; lia|lia].
Qed.
Theorem c96_stamp : forall t, full_minute t -> exists y m d h n,
  List.length y = 4%nat /\ Forall (fun p => List.length p = 2%nat) [m; d; h; n] /\ Forall digit (y ++ m ++ d ++ h ++ n)%list
  /\ la (stamp t) = (y ++ ["-"%char] ++ m ++ ["-"%char] ++ d ++ ["T"%char] ++ h ++ n)%list
  /\ let date := YMD (decimal_value y) (decimal_value m) (decimal_value d) in
     valid date /\ (0 <= decimal_value h < 24)%Z /\ (0 <= decimal_value n < 60)%Z
     /\ t = (86400 * ordinal date + 3600 * decimal_value h + 60 * decimal_value n)%Z.
Proof.
  intros t (T0 & T1 & T2). unfold stamp.
  pose proof (civil_valid (t / DAY)) as V. fold (date_of t) in V.
  assert (O : ordinal (date_of t) = (t / DAY)%Z) by (apply civil_ordinal; apply Z.div_pos; unfold DAY; lia).
  destruct (date_of t) as [y m d] eqn:E. pose proof V as [V1 V2 V3]. cbn [year month day] in *. pose proof (month_days_bound y m).
  exists (la (pad4 y)), (la (pad2 m)), (la (pad2 d)), (la (pad2 (t mod DAY / 3600))), (la (pad2 (t mod 3600 / 60))).
  split; [reflexivity|]. split; [repeat (apply Forall_cons; [reflexivity|]); apply Forall_nil|].
  split; [unfold pad4, pad2; cbn [la append app]; repeat (apply Forall_cons; [apply digit_char_digit|]); apply Forall_nil|]. split; [reflexivity|].
  unfold DAY in *. pose proof (Z.mod_pos_bound t 86400 ltac:(lia)). pose proof (Z.mod_pos_bound t 3600 ltac:(lia)).
  assert (B1 : (0 <= t mod 86400 / 3600 < 24)%Z) by (split; [apply Z.div_pos; lia|apply Z.div_lt_upper_bound; lia]).
  assert (B2 : (0 <= t mod 3600 / 60 < 60)%Z) by (split; [apply Z.div_pos; lia|apply Z.div_lt_upper_bound; lia]).
  rewrite decimal_pad4 by lia. rewrite !decimal_pad2 by lia.
  split; [exact V|]. split; [exact B1|]. split; [exact B2|]. rewrite O.
  rewrite (Z.div_mod t 86400) at 1 by lia. rewrite (Z.div_mod (t mod 86400) 3600) at 1 by lia.
  replace (t mod 86400 mod 3600)%Z with (t mod 3600)%Z by (change 86400%Z with (3600 * 24)%Z; rewrite Z.rem_mul_r, Z.mul_comm, Z_mod_plus_full, Z.mod_mod by lia; reflexivity).
  rewrite (Z.div_mod (t mod 3600) 60) at 1 by lia.
  replace (t mod 3600 mod 60)%Z with (t mod 60)%Z by (change 3600%Z with (60 * 60)%Z; rewrite Z.rem_mul_r, Z.mul_comm, Z_mod_plus_full, Z.mod_mod by lia; reflexivity).
  lia.
Qed.
Print Assumptions c96_stamp.
Example c96_stamp_example : full_minute 63713437320 /\ stamp 63713437320 = "2020-01-01T0102".
Proof. split; [repeat split; vm_compute; discriminate|vm_compute; reflexivity]. Qed.
