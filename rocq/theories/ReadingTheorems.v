(** Theorems C92 (combination of stations), C93 (reading of all stations) and C94 (aggregated wind directions). *)
From Coq Require Import Sorted.
From Verif Require Import Common TimeModel TimeProofs CalendarProofs AtmosphereModel AtmosphereTheorems TerrainTheorems ForcingModel
  ForcingTheorems ResampleTheorems DatasetModel DatasetTheorems.
Open Scope string_scope.
Open Scope R_scope.

(** * C92 *)
Lemma insert_in : forall t l x, In x (insert t l) <-> x = t \/ In x l.
Proof.
  intros t l x. induction l as [|y l IH]; simpl; [intuition congruence|].
  destruct (Z.ltb_spec t y); simpl; [intuition congruence|]. destruct (Z.eqb_spec t y); simpl; [subst; intuition congruence|].
  rewrite IH. intuition congruence.
Qed.
Lemma insert_sorted : forall t l, StronglySorted Z.lt l -> StronglySorted Z.lt (insert t l).
Proof.
  intros t l H. induction H as [|y l S IH F]; simpl; [repeat constructor|].
  destruct (Z.ltb_spec t y).
  - constructor; [constructor; assumption|]. constructor; [assumption|]. rewrite Forall_forall in *. intros x Hx. specialize (F x Hx). lia.
  - destruct (Z.eqb_spec t y); [constructor; assumption|]. constructor; [assumption|]. rewrite Forall_forall in *. intros x Hx.
    apply insert_in in Hx. destruct Hx as [->|Hx]; [lia|auto].
Qed.
Lemma union_in : forall l t, In t (union_times l) <-> exists s, In s l /\ In t s.
Proof.
  intros l t. unfold union_times. rewrite <- in_concat. induction (List.concat l) as [|x r IH]; simpl; [tauto|].
  rewrite insert_in, IH. intuition congruence.
Qed.
Lemma union_sorted : forall l, StronglySorted Z.lt (union_times l).
Proof. intros l. unfold union_times. induction (List.concat l); simpl; [constructor|apply insert_sorted; assumption]. Qed.

(** The combined time axis is strictly increasing and contains exactly the times at which some station has a record. *)
Theorem c92_time_axis : forall add l,
  (forall i j a b, (i < j)%nat -> nth_error (md_times (combine add l)) i = Some a -> nth_error (md_times (combine add l)) j = Some b -> (a < b)%Z)
  /\ forall t, In t (md_times (combine add l)) <-> exists d, In d l /\ In t (pd_times d).
Proof.
  intros add l. unfold combine; cbn [md_times]. split.
  - generalize (union_sorted (map pd_times l)). generalize (union_times (map pd_times l)) as r. clear.
    intros r S. induction S as [|x r S IH F]; intros [|i] [|j] a b L A B; simpl in *; try lia; try discriminate.
    + injection A as <-. rewrite Forall_forall in F. apply F. apply nth_error_In in B. exact B.
    + apply (IH i j); auto. lia.
  - intros t. rewrite union_in. split.
    + intros (s & H1 & H2). apply in_map_iff in H1. destruct H1 as (d & <- & H1). eauto.
    + intros (d & H1 & H2). exists (pd_times d). split; [apply in_map; exact H1|exact H2].
Qed.
Print Assumptions c92_time_axis.

(** Stations keep their order, IDs and names; the variables are the known ones which occur in some station, and, if requested, the
    minimum ones, each once. *)
Theorem c92_names : forall add l,
  md_stations (combine add l) = map (fun d => (pd_id d, pd_name d)) l
  /\ NoDup (md_vars (combine add l))
  /\ forall n, In n (md_vars (combine add l)) <->
       (exists u, expected_units n u)
       /\ ((exists d s, In d l /\ In (n, s) (pd_vars d)) \/ (add = true /\ In n ["temp"; "precip"; "rel_hum"; "sw_in"; "wind_speed"])).
Proof.
  intros add l. split; [reflexivity|]. unfold combine; cbn [md_vars]. split; [apply NoDup_filter; exact units_NoDup|].
  intros n. rewrite filter_In, in_map_iff, orb_true_iff, andb_true_iff, existsb_exists, mem_iff. split.
  - intros (([n' u] & <- & Hu) & H). split; [exists u; exact Hu|]. cbn [fst] in *. destruct H as [H|(d & H1 & H2)]; [right; exact H|left].
    apply mem_iff, in_map_iff in H2. destruct H2 as ([n2 s] & <- & H2). exists d, s. auto.
  - intros ((u & Hu) & H). split; [exists (n, u); auto|]. destruct H as [(d & s & H1 & H2)|H]; [right|left; exact H].
    exists d. split; [exact H1|]. apply mem_iff, in_map_iff. exists (n, s). auto.
Qed.
Print Assumptions c92_names.

Lemma at_time_nth : forall times vals i t v, NoDup times -> nth_error times i = Some t -> nth_error vals i = Some v -> at_time times vals t = v.
Proof.
  induction times as [|x ts IH]; intros [|w vs] [|i] t v N A B; simpl in *; try discriminate.
  - injection A as ->. injection B as ->. rewrite Z.eqb_refl. reflexivity.
  - inversion N as [|? ? N1 N2]; subst. destruct (Z.eqb_spec x t); [|eauto]. subst. exfalso. apply N1. apply nth_error_In in A. exact A.
Qed.
Lemma at_time_none : forall times vals t, ~ In t times -> at_time times vals t = None.
Proof.
  induction times as [|x ts IH]; intros [|w vs] t H; simpl in *; try reflexivity. destruct (Z.eqb_spec x t); [tauto|auto].
Qed.

(** The combination invents and loses nothing: at (variable, station, time) there is exactly the value of the station's record, and
    missing where the station has no record or does not have the variable. *)
Theorem c92_values : forall add l k d, nth_error l k = Some d -> NoDup (pd_times d) ->
  forall n u, expected_units n u ->
  (forall s i t v, assoc n (pd_vars d) = Some s -> nth_error (pd_times d) i = Some t -> nth_error s i = Some v ->
     In n (md_vars (combine add l)) /\ md_vals (combine add l) n k t = v)
  /\ (assoc n (pd_vars d) = None -> forall t, md_vals (combine add l) n k t = None)
  /\ (forall t, ~ In t (pd_times d) -> md_vals (combine add l) n k t = None).
Proof.
  intros add l k d Hk N n u Hu.
  assert (M : forall s, assoc n (pd_vars d) = Some s -> In n (md_vars (combine add l))).
  { intros s A. apply c92_names. split; [eauto|]. left. exists d, s. split; [apply nth_error_In in Hk; exact Hk|apply assoc_In; exact A]. }
  unfold combine in *; cbn [md_vals md_vars] in *. rewrite Hk. split; [|split].
  - intros s i t v A B C. split; [eauto|]. rewrite (proj2 (mem_iff _ _) (M s A)), A. eapply at_time_nth; eauto.
  - intros A t. rewrite A. destruct (mem _ _); reflexivity.
  - intros t Ht. destruct (mem _ _); [|reflexivity]. destruct (assoc n (pd_vars d)); [apply at_time_none; exact Ht|reflexivity].
Qed.
Print Assumptions c92_values.

Definition demo_a : pointds := PD "a" "A" 10 47 500 [0; 3600; 7200]%Z [("temp", [Some 270; None; Some 272]); ("wind_dir", [Some 1; Some 2; Some 3])].
Definition demo_b : pointds := PD "b" "B" 11 48 600 [7200; 10800]%Z [("temp", [Some 280; Some 281]); ("precip", [Some 0; Some 1])].
Example c92_example : md_times (combine false [demo_a; demo_b]) = [0; 3600; 7200; 10800]%Z
  /\ md_vars (combine false [demo_a; demo_b]) = ["temp"; "precip"; "wind_dir"]
  /\ md_vars (combine true [demo_a]) = ["temp"; "precip"; "rel_hum"; "sw_in"; "wind_speed"; "wind_dir"]
  /\ map (md_vals (combine false [demo_a; demo_b]) "temp" 1) [0; 3600; 7200; 10800]%Z = [None; None; Some 280; Some 281]
  /\ map (md_vals (combine false [demo_a; demo_b]) "wind_dir" 0) [0; 3600; 7200; 10800]%Z = [Some 1; Some 2; Some 3; None].
Proof. repeat split. Qed.

(** * C93 *)
(** Stations which remain after processing (those without records are left out) *)
Inductive remaining (process : pointds -> option pointds) : list pointds -> list pointds -> Prop :=
| RemNil : remaining process [] []
| RemSkip : forall d d' l r, process d = Some d' -> pd_times d' = [] -> remaining process l r -> remaining process (d :: l) r
| RemKeep : forall d d' l r, process d = Some d' -> pd_times d' <> [] -> remaining process l r -> remaining process (d :: l) (d' :: r).

Lemma process_all_iff : forall process l r, process_all process l = inr r <-> remaining process l r.
Proof.
  intros process l. induction l as [|d l IH]; intros r; simpl.
  - split; [intros H; injection H as <-; constructor|intros H; inversion H; reflexivity].
  - destruct (process d) as [d'|] eqn:P.
    + destruct (process_all process l) as [e|q] eqn:Q.
      * split; [discriminate|]. intros H. inversion H as [|? x ? ? P' T H'|? x ? ? P' T H']; subst; apply IH in H'; discriminate.
      * assert (Hq : remaining process l q) by (apply IH; reflexivity). split.
        -- intros H; injection H as <-. destruct (pd_times d') as [|t ts] eqn:T; [eapply RemSkip; eauto|].
           eapply RemKeep; eauto. rewrite T. discriminate.
        -- intros H. inversion H as [|? x ? ? P' T H'|? x ? ? P' T H']; subst; apply IH in H'; injection H' as <-; rewrite P in P'; injection P' as <-.
           ++ rewrite T. reflexivity.
           ++ destruct (pd_times d'); [contradiction|reflexivity].
    + split; [discriminate|]. intros H. inversion H; congruence.
Qed.
Lemma process_all_err : forall process l, (exists e, process_all process l = inl e) <-> exists d, In d l /\ process d = None.
Proof.
  intros process l. induction l as [|d l IH]; simpl.
  - split; [intros (e & H); discriminate|intros (d & [] & _)].
  - destruct (process d) as [d'|] eqn:P.
    + destruct (process_all process l) as [e|q].
      * split; [|eauto]. intros _. destruct (proj1 IH (ex_intro _ e eq_refl)) as (x & H1 & H2). eauto.
      * split; [intros (e & H); discriminate|]. intros (x & [H1|H1] & H2); [congruence|].
        destruct (proj2 IH (ex_intro _ x (conj H1 H2))) as (e & H). discriminate.
    + split; [|eauto]. intros _. exists d. auto.
Qed.
Lemma remaining_nonempty : forall process l r d, remaining process l r -> In d r -> pd_times d <> [].
Proof. intros process l r d H. induction H; simpl; [contradiction|auto|]. intros [<-|H2]; auto. Qed.
Lemma sorted_hd : forall l x, StronglySorted Z.lt l -> In x l -> (hd 0 l <= x)%Z.
Proof. intros [|y l] x S H; [contradiction|]. inversion S as [|? ? S1 F]; subst. rewrite Forall_forall in F. destruct H as [->|H]; simpl; [lia|]. specialize (F x H). lia. Qed.
Lemma last_In : forall (l : list Z), l <> [] -> In (List.last l 0%Z) l.
Proof. intros l H. destruct (exists_last H) as (q & z & ->). rewrite last_last. apply in_or_app. right. left. reflexivity. Qed.
Lemma sorted_last : forall l x, StronglySorted Z.lt l -> In x l -> (x <= List.last l 0)%Z.
Proof.
  intros l x S H. induction S as [|y l S IH F]; [contradiction|]. destruct l as [|z l].
  - destruct H as [<-|[]]. simpl. lia.
  - change (List.last (y :: z :: l) 0%Z) with (List.last (z :: l) 0%Z). destruct H as [<-|H]; [|auto].
    rewrite Forall_forall in F. specialize (F (List.last (z :: l) 0%Z)).
    assert (In (List.last (z :: l) 0%Z) (z :: l)) by (apply last_In; discriminate). specialize (F H). lia.
Qed.
Lemma hd_In : forall (l : list Z), l <> [] -> In (hd 0%Z l) l.
Proof. intros [|x l] H; [contradiction|]. left. reflexivity. Qed.

Section Read.
  Variable process : pointds -> option pointds.
  (** Records before (or at) the start and after (or at) the end of the period *)
  Definition reaches (l : list pointds) (start stop : Z) : Prop :=
    (exists d t, In d l /\ In t (pd_times d) /\ (t <= start)%Z) /\ (exists d t, In d l /\ In t (pd_times d) /\ (stop <= t)%Z).
  Lemma coverage : forall r start stop, r <> [] -> (forall d, In d r -> pd_times d <> []) ->
    ((start <? hd 0 (md_times (combine true r))) || (List.last (md_times (combine true r)) 0 <? stop))%Z = false <-> reaches r start stop.
  Proof.
    intros r start stop Hr Hd. destruct (c92_time_axis true r) as [_ T]. assert (S := union_sorted (map pd_times r)).
    change (union_times (map pd_times r)) with (md_times (combine true r)) in S. set (ts := md_times (combine true r)) in *.
    assert (NE : ts <> []).
    { destruct r as [|d r]; [contradiction|]. specialize (Hd d (or_introl eq_refl)). destruct (pd_times d) as [|t q] eqn:E; [contradiction|].
      assert (In t ts) by (apply T; exists d; rewrite E; simpl; auto). intros Z0. rewrite Z0 in H. contradiction. }
    rewrite orb_false_iff, !Z.ltb_ge. unfold reaches. split.
    - intros [A B]. split.
      + destruct (proj1 (T _) (hd_In ts NE)) as (d & H1 & H2). exists d, (hd 0%Z ts). auto.
      + destruct (proj1 (T _) (last_In ts NE)) as (d & H1 & H2). exists d, (List.last ts 0%Z). auto.
    - intros ((d & t & H1 & H2 & H3) & (d' & t' & H1' & H2' & H3')).
      assert (I1 := sorted_hd ts t S (proj2 (T t) (ex_intro _ d (conj H1 H2)))).
      assert (I2 := sorted_last ts t' S (proj2 (T t') (ex_intro _ d' (conj H1' H2')))). lia.
  Qed.

  (** With missing-data checks, data are returned exactly if every file can be processed and the records reach from the start to the
      end of the period; the result is the combination of all stations having records. *)
  Theorem c93_checked : forall stations start stop f m,
    read_meteo process stations start stop f true = inr m <->
    exists r, remaining process stations r /\ r <> [] /\ reaches r start stop /\ m = combine true r.
  Proof.
    intros stations start stop f m. unfold read_meteo. destruct stations as [|d l] eqn:E.
    - split; [discriminate|]. intros (r & H & H2 & _). inversion H; subst. contradiction.
    - rewrite <- E. clear d l E. destruct (process_all process stations) as [e|[|d0 r0]] eqn:P.
      + split; [discriminate|]. intros (r & H & _). apply process_all_iff in H. congruence.
      + split; [discriminate|]. intros (r & H & H2 & _). apply process_all_iff in H. congruence.
      + apply process_all_iff in P. set (r := d0 :: r0) in *.
        assert (C := coverage r start stop ltac:(discriminate) (fun d => remaining_nonempty process stations r d P)).
        cbv zeta. destruct ((start <? _) || _)%Z eqn:B.
        * split; [discriminate|]. intros (q & H & _ & H3 & _). apply process_all_iff in H, P. rewrite P in H. injection H as <-.
          apply C in H3. congruence.
        * split.
          -- intros H; injection H as <-. exists r. split; [exact P|]. split; [discriminate|]. split; [apply C; reflexivity|reflexivity].
          -- intros (q & H & _ & _ & ->). apply process_all_iff in H, P. rewrite P in H. injection H as <-. reflexivity.
  Qed.

  (** Without the checks there is a result whenever files exist and all of them can be processed. *)
  Theorem c93_unchecked : forall stations start stop f,
    (exists m, read_meteo process stations start stop f false = inr m) <->
    (stations <> [] /\ forall d, In d stations -> process d <> None).
  Proof.
    intros stations start stop f. unfold read_meteo. destruct stations as [|d l] eqn:E.
    - split; [intros (m & H); discriminate|intros [H _]; contradiction].
    - rewrite <- E. assert (NE : stations <> []) by (rewrite E; discriminate). clear d l E.
      destruct (process_all process stations) as [e|[|d0 r0]] eqn:P.
      + split; [intros (m & H); discriminate|]. intros [_ H]. destruct (proj1 (process_all_err process stations) (ex_intro _ e P)) as (d & H1 & H2).
        exfalso. exact (H d H1 H2).
      + split; [|eauto]. intros _. split; [exact NE|]. intros d H1 H2.
        destruct (proj2 (process_all_err process stations) (ex_intro _ d (conj H1 H2))) as (e & H). congruence.
      + split.
        * intros _. split; [exact NE|]. intros d H1 H2.
          destruct (proj2 (process_all_err process stations) (ex_intro _ d (conj H1 H2))) as (e & H). congruence.
        * intros _. cbv zeta. destruct (_ || _)%Z; eauto.
  Qed.

  (** Its content: no stations but all time steps if no station has records; the combination of the stations if their records reach
      from start to end; and otherwise the time steps of the period with the records falling on them. *)
  Theorem c93_unchecked_content : forall stations start stop f m r,
    read_meteo process stations start stop f false = inr m -> remaining process stations r ->
    md_stations m = map (fun d => (pd_id d, pd_name d)) r
    /\ (reaches r start stop -> r <> [] -> m = combine true r)
    /\ (~ reaches r start stop \/ r = [] -> md_times m = date_range start stop f
          /\ forall n k t, In t (md_times m) -> md_vals m n k t = md_vals (combine true r) n k t).
  Proof.
    intros stations start stop f m r H R. unfold read_meteo in H. destruct stations as [|d l] eqn:E; [discriminate|].
    rewrite <- E in *. clear d l E. assert (P := proj2 (process_all_iff process stations r) R). rewrite P in H.
    destruct r as [|d0 r0] eqn:E.
    - injection H as <-. cbn [md_stations md_times md_vals]. split; [reflexivity|]. split; [intros _ []; reflexivity|].
      intros _. split; [reflexivity|]. intros n [|k] t _; reflexivity.
    - rewrite <- E in *. assert (NE : r <> []) by (rewrite E; discriminate). clear d0 r0 E.
      assert (C := coverage r start stop NE (fun d => remaining_nonempty process stations r d R)).
      cbv zeta in H. destruct ((start <? _) || _)%Z eqn:B; injection H as <-.
      + split; [reflexivity|]. assert (NR : ~ reaches r start stop) by (intros Q; apply C in Q; congruence).
        split; [intros; contradiction|]. intros _. cbn [reindex md_times md_vals]. split; [reflexivity|].
        intros n k t _. destruct (existsb (Z.eqb t) (md_times (combine true r))) eqn:X; [reflexivity|].
        unfold combine; cbn [md_vals]. destruct (nth_error r k) as [d|] eqn:K; [|reflexivity].
        destruct (mem n _); [|reflexivity]. destruct (assoc n (pd_vars d)); [|reflexivity]. symmetry. apply at_time_none. intros T.
        assert (Y : In t (md_times (combine true r))) by (apply (proj2 (c92_time_axis true r)); exists d; split; [apply nth_error_In in K; exact K|exact T]).
        apply existsb_label in Y. congruence.
      + split; [reflexivity|]. assert (Q0 := proj1 C eq_refl). split; [auto|]. intros [Q|Q]; contradiction.
  Qed.
End Read.
Print Assumptions c93_checked.
Print Assumptions c93_unchecked.
Print Assumptions c93_unchecked_content.

(** ** Processing of one station *)
Lemma oor_dec : forall f v, out_of_range f v \/ ~ out_of_range f v.
Proof.
  intros f [x|]; [|right; intros (x & X & _); discriminate].
  destruct (rf_min f) as [lo|] eqn:A; [destruct (Rlt_dec x lo) as [B|B]|].
  - left. exists x. split; [reflexivity|]. left. eauto.
  - destruct (rf_max f) as [hi|] eqn:C; [destruct (Rlt_dec hi x) as [D|D]|].
    + left. exists x. split; [reflexivity|]. right. eauto.
    + right. intros (y & Y & [(z & Z1 & Z2)|(z & Z1 & Z2)]); congruence.
    + right. intros (y & Y & [(z & Z1 & Z2)|(z & Z1 & Z2)]); congruence.
  - destruct (rf_max f) as [hi|] eqn:C; [destruct (Rlt_dec hi x) as [D|D]|].
    + left. exists x. split; [reflexivity|]. right. eauto.
    + right. intros (y & Y & [(z & Z1 & Z2)|(z & Z1 & Z2)]); congruence.
    + right. intros (y & Y & [(z & Z1 & Z2)|(z & Z1 & Z2)]); congruence.
Qed.
(** Filters applied to one variable: a value is kept unless some filter of the variable excludes it. *)
Lemma filter_series_spec : forall name fs s s', filter_series name fs s = Some s' ->
  (forall f, In (name, f) fs -> rf_range f = true)
  /\ List.length s' = List.length s
  /\ forall i v, nth_error s i = Some v ->
       ((exists f, In (name, f) fs /\ out_of_range f v) -> nth_error s' i = Some None)
       /\ ((forall f, In (name, f) fs -> ~ out_of_range f v) -> nth_error s' i = Some v).
Proof.
  intros name fs. induction fs as [|[n f] fs IH]; simpl; intros s s' H.
  - injection H as <-. split; [contradiction|]. split; [reflexivity|]. intros i v Hv. split; [intros (f & [] & _)|auto].
  - destruct (String.eqb n name) eqn:E.
    + apply String.eqb_eq in E. subst n. destruct (rf_range f) eqn:Rf.
      2:{ unfold apply_filter in H. rewrite Rf in H. discriminate. }
      rewrite apply_filter_map in H by exact Rf. destruct (IH _ _ H) as (I1 & I2 & I3). split.
      * intros g [G|G]; [injection G as <-; exact Rf|auto].
      * rewrite map_length in I2. split; [exact I2|]. intros i v Hv.
        assert (Hm : nth_error (map (filtered f) s) i = Some (filtered f v)) by (apply map_nth_error; exact Hv).
        destruct (I3 i _ Hm) as [J1 J2]. destruct (filtered_spec f v) as [F1 F2].
        assert (NN : forall g, ~ out_of_range g None) by (intros g (x & X & _); discriminate).
        split.
        -- intros (g & [G|G] & O).
           ++ injection G as <-. rewrite (F1 O) in *. apply J2. intros g _. apply NN.
           ++ destruct (oor_dec f v) as [O'|O'].
              ** rewrite (F1 O') in *. apply J2. intros g' _. apply NN.
              ** rewrite (F2 O') in *. apply J1. eauto.
        -- intros O. rewrite (F2 (O f (or_introl eq_refl))) in *. apply J2. intros g G. apply O. auto.
    + apply String.eqb_neq in E. destruct (IH _ _ H) as (I1 & I2 & I3). split; [|split; [exact I2|]].
      * intros g [G|G]; [injection G as -> _; contradiction|auto].
      * intros i v Hv. destruct (I3 i v Hv) as [J1 J2]. split.
        -- intros (g & [G|G] & O); [injection G as -> _; contradiction|eauto].
        -- intros O. apply J2. intros g G. apply O. auto.
Qed.
Lemma filter_series_none : forall name fs s, filter_series name fs s = None <-> exists f, In (name, f) fs /\ rf_range f = false.
Proof.
  intros name fs. induction fs as [|[n f] fs IH]; simpl; intros s; [split; [discriminate|intros (f & [] & _)]|].
  destruct (String.eqb n name) eqn:E.
  - apply String.eqb_eq in E. subst n. destruct (rf_range f) eqn:Rf.
    + rewrite apply_filter_map by exact Rf. rewrite IH. split; [intros (g & G & H); eauto|]. intros (g & [G|G] & H); [congruence|eauto].
    + unfold apply_filter. rewrite Rf. split; [|reflexivity]. intros _. exists f. auto.
  - apply String.eqb_neq in E. rewrite IH. split; [intros (g & G & H); eauto|]. intros (g & [G|G] & H); [congruence|eauto].
Qed.
Lemma filter_vars_spec : forall fs vs vs', filter_vars fs vs = Some vs' ->
  map fst vs' = map fst vs /\ Forall2 (fun v v' => fst v' = fst v /\ filter_series (fst v) fs (snd v) = Some (snd v')) vs vs'.
Proof.
  intros fs vs. induction vs as [|[n s] vs IH]; simpl; intros vs' H; [injection H as <-; auto|].
  destruct (filter_series n fs s) as [s'|] eqn:E; [|discriminate]. destruct (filter_vars fs vs) as [t|]; [|discriminate]. injection H as <-.
  destruct (IH t eq_refl) as [I1 I2]. split; [simpl; rewrite I1; reflexivity|]. constructor; auto.
Qed.
Lemma filter_vars_none : forall fs vs, filter_vars fs vs = None <-> exists n s f, In (n, s) vs /\ In (n, f) fs /\ rf_range f = false.
Proof.
  intros fs vs. induction vs as [|[n s] vs IH]; simpl.
  - split; [discriminate|intros (n & s & f & [] & _)].
  - destruct (filter_series n fs s) as [s'|] eqn:E.
    + destruct (filter_vars fs vs) as [t|].
      * split; [discriminate|]. intros (m & q & f & [H|H] & H1 & H2).
        -- injection H as <- <-. assert (filter_series n fs s = None) by (apply filter_series_none; eauto). congruence.
        -- assert (Some t = None) by (apply IH; exists m, q, f; auto). discriminate.
      * split; [|reflexivity]. intros _. destruct (proj1 IH eq_refl) as (m & q & f & H & H1). exists m, q, f. auto.
    + split; [|reflexivity]. intros _. apply filter_series_none in E. destruct E as (f & H1 & H2). exists n, s, f. auto.
Qed.

(** Labels of the rows of the resampled data; they depend on the times of the data only. *)
Definition labels_of (f start stop : Z) (ag : bool) (ts : list Z) : option (list Z) :=
  if (DAY <? f)%Z then None
  else match ts with
       | [] => Some []
       | t0 :: _ =>
           match row_labels f (if (f <? DAY)%Z then start else t0) (f <? DAY)%Z ag start stop t0 (List.last ts t0) with
           | None => None
           | Some ls => if forallb (fun L => existsb (fun t => (t =? L)%Z) ts) ls then Some ls else None
           end
       end.
Lemma last_map : forall A B (g : A -> B) l x, List.last (map g l) (g x) = g (List.last l x).
Proof. intros A B g l x. induction l as [|y [|z l] IH]; [reflexivity..|]. exact IH. Qed.
Lemma existsb_map : forall A B (g : A -> B) p l, existsb p (map g l) = existsb (fun x => p (g x)) l.
Proof. intros A B g p l. induction l; simpl; [reflexivity|]. rewrite IHl. reflexivity. Qed.
Lemma resample_labels : forall k f start stop ag data,
  resample k f start stop ag data =
  option_map (map (fun L => (L, match data with
                                | [] => None
                                | r0 :: _ => row_value k f (if (f <? DAY)%Z then start else fst r0) (f <? DAY)%Z ag (fst r0) (fst (List.last data r0)) data L
                                end))) (labels_of f start stop ag (map fst data)).
Proof.
  intros k f start stop ag data. unfold resample, labels_of. destruct (DAY <? f)%Z; [reflexivity|].
  destruct data as [|r0 l]; [reflexivity|]. cbn [map]. set (D := r0 :: l).
  change (fst r0 :: map fst l) with (map fst D). rewrite (last_map _ _ fst D r0).
  assert (E : forall ls, forallb (fun L => existsb (fun t => (t =? L)%Z) (map fst D)) ls = forallb (fun L => existsb (fun r => (fst r =? L)%Z) D) ls).
  { intros ls. induction ls as [|x ls IH]; [reflexivity|]. cbn [forallb]. rewrite IH, existsb_map. reflexivity. }
  cbv zeta. destruct (row_labels _ _ _ _ _ _ _ _) as [ls|]; [|reflexivity]. rewrite E. destruct (forallb _ ls); reflexivity.
Qed.
Definition tsel (a b : Z) (ts : list Z) : list Z := filter (fun t => (a <=? t) && (t <=? b))%Z ts.
Lemma sel_times : forall a b (d : timed), map fst (sel a b d) = tsel a b (map fst d).
Proof.
  intros a b d. unfold sel, tsel. induction d as [|[t v] d IH]; simpl; [reflexivity|].
  destruct ((a <=? t)%Z && (t <=? b)%Z); simpl; rewrite IH; reflexivity.
Qed.
Lemma sel_map : forall a b ls (g : Z -> num), sel a b (map (fun L => (L, g L)) ls) = map (fun L => (L, g L)) (tsel a b ls).
Proof.
  intros a b ls g. unfold sel, tsel. induction ls as [|x ls IH]; simpl; [reflexivity|].
  destruct ((a <=? x)%Z && (x <=? b)%Z); simpl; rewrite IH; reflexivity.
Qed.
Lemma zip_fst : forall times vals, List.length vals = List.length times -> map fst (zip_times times vals) = times.
Proof. intros times. induction times as [|t ts IH]; intros [|v vs] H; simpl in *; try discriminate; [reflexivity|]. rewrite IH; [reflexivity|lia]. Qed.

(** Rows of a resampled series: the labels depend on the times only. *)
Lemma resampled_times : forall k1 k2 r times a b, List.length a = List.length times -> List.length b = List.length times ->
  option_map (map fst) (resampled k1 r times a) = option_map (map fst) (resampled k2 r times b).
Proof.
  intros k1 k2 r times a b Ha Hb. unfold resampled, slice_and_resample.
  assert (Za := zip_fst times a Ha). assert (Zb := zip_fst times b Hb).
  assert (L : List.length (zip_times times a) = List.length (zip_times times b)) by (rewrite <- (map_length fst (zip_times times a)), <- (map_length fst (zip_times times b)), Za, Zb; reflexivity).
  destruct (rs_inferred r) as [i|].
  - cbv zeta. set (stop' := if ((rs_freq r =? DAY)%Z && (i <? DAY)%Z)%bool then _ else _).
    destruct (rs_same r).
    + cbn [option_map]. rewrite !sel_times, Za, Zb. reflexivity.
    + rewrite !resample_labels, !sel_times, Za, Zb.
      destruct (labels_of _ _ _ _ _) as [ls|]; [|reflexivity]. cbn [option_map]. rewrite !sel_times, !map_map. cbn [fst]. reflexivity.
  - rewrite L. destruct (2 <? _)%nat; [reflexivity|]. destruct (rs_freq r =? DAY)%Z; [reflexivity|].
    cbn [option_map]. rewrite !sel_times, Za, Zb. reflexivity.
Qed.
Lemma resampled_length : forall k1 k2 r times a b, List.length a = List.length times -> List.length b = List.length times ->
  List.length (values_or_nil (resampled k1 r times a)) = List.length (values_or_nil (resampled k2 r times b)).
Proof.
  intros k1 k2 r times a b Ha Hb. assert (H := resampled_times k1 k2 r times a b Ha Hb).
  destruct (resampled k1 r times a) as [x|], (resampled k2 r times b) as [y|]; try discriminate; [|reflexivity].
  cbn [option_map values_or_nil] in *. injection H as H. apply (f_equal (@List.length Z)) in H. rewrite !map_length in *. exact H.
Qed.
Lemma components_length : forall ws wd, List.length ws = List.length wd -> List.length (components ws wd) = List.length wd.
Proof. induction ws as [|s ws IH]; intros [|d wd] H; simpl in *; try discriminate; [reflexivity|]. rewrite IH; lia. Qed.

(** A dataset: every variable has a value for every time. *)
Definition consistent (d : pointds) : Prop := NoDup (map fst (pd_vars d)) /\ forall n s, In (n, s) (pd_vars d) -> List.length s = List.length (pd_times d).
Lemma Forall2_in : forall A B (P : A -> B -> Prop) l l', Forall2 P l l' -> forall y, In y l' -> exists x, In x l /\ P x y.
Proof. intros A B P l l' H. induction H; simpl; [contradiction|]. intros z [<-|Hz]; [eauto|]. destruct (IHForall2 z Hz) as (w & ? & ?). eauto. Qed.
Lemma Forall2_in_l : forall A B (P : A -> B -> Prop) l l', Forall2 P l l' -> forall x, In x l -> exists y, In y l' /\ P x y.
Proof. intros A B P l l' H. induction H; simpl; [contradiction|]. intros z [<-|Hz]; [eauto|]. destruct (IHForall2 z Hz) as (w & ? & ?). eauto. Qed.

Lemma names_kept : forall A B (g : string * A -> B) (l : list (string * A)), map fst (map (fun nv => (fst nv, g nv)) l) = map fst l.
Proof. intros A B g l. induction l; simpl; [reflexivity|]. rewrite IHl. reflexivity. Qed.

(** A station is rejected exactly for an unknown filter of one of its variables, or if its times cannot be resampled. *)
Theorem c93_rejects_iff : forall fs r d,
  process_station fs r d = None <->
  (exists n s f, In (n, s) (pd_vars d) /\ In (n, f) fs /\ rf_range f = false)
  \/ resampled ROther r (pd_times d) (map (fun _ => None) (pd_times d)) = None.
Proof.
  intros fs r d. unfold process_station. rewrite <- filter_vars_none. destruct (filter_vars fs (pd_vars d)) as [vs|].
  - destruct (resampled ROther r (pd_times d) _); split; try tauto; try discriminate. intros [H|H]; discriminate.
  - tauto.
Qed.
Print Assumptions c93_rejects_iff.

(** Processing keeps the identity of the station and all variables. Every variable has one value per time of the result, and - except
    averaged wind directions - is the result of resampling the values left over by the filters. *)
Theorem c93_station : forall fs r d d', consistent d -> process_station fs r d = Some d' ->
  (pd_id d', pd_name d', pd_lon d', pd_lat d', pd_alt d') = (pd_id d, pd_name d, pd_lon d, pd_lat d, pd_alt d)
  /\ map fst (pd_vars d') = map fst (pd_vars d) /\ consistent d'
  /\ forall n s, assoc n (pd_vars d) = Some s ->
       exists s1 s2 rows, assoc n (pd_vars d') = Some s2
         /\ (forall i v, nth_error s i = Some v ->
               ((exists f, In (n, f) fs /\ out_of_range f v) -> nth_error s1 i = Some None)
               /\ ((forall f, In (n, f) fs -> ~ out_of_range f v) -> nth_error s1 i = Some v))
         /\ List.length s1 = List.length s
         /\ resampled (if String.eqb n "precip" then RPrecip else if String.eqb n "wind_speed_gust" then RGust else ROther)
                      r (pd_times d) s1 = Some rows
         /\ map fst rows = pd_times d'
         /\ (n <> "wind_dir" \/ averages r = false -> s2 = map snd rows).
Proof.
  intros fs r d d' [ND CL] H. unfold process_station in H. destruct (filter_vars fs (pd_vars d)) as [vs|] eqn:F; [|discriminate].
  destruct (resampled ROther r (pd_times d) _) as [rows0|] eqn:Q; [|discriminate]. injection H as <-.
  cbn [pd_id pd_name pd_lon pd_lat pd_alt pd_vars pd_times]. destruct (filter_vars_spec _ _ _ F) as [V1 V2].
  assert (CV : forall n s, In (n, s) vs -> List.length s = List.length (pd_times d)).
  { intros n s Hs. destruct (Forall2_in _ _ _ _ _ V2 _ Hs) as ([n0 s0] & H0 & E & FS). cbn [fst snd] in *. subst n0.
    destruct (filter_series_spec _ _ _ _ FS) as (_ & L & _). rewrite L. apply (CL _ _ H0). }
  assert (LEN : forall k s, List.length s = List.length (pd_times d) -> exists rows, resampled k r (pd_times d) s = Some rows /\ map fst rows = map fst rows0).
  { intros k s Hs. assert (T := resampled_times k ROther r (pd_times d) s (map (fun _ => None) (pd_times d)) Hs ltac:(rewrite map_length; reflexivity)).
    rewrite Q in T. destruct (resampled k r (pd_times d) s) as [x|]; [|discriminate]. exists x. split; [reflexivity|]. cbn [option_map] in T. congruence. }
  split; [reflexivity|]. split; [rewrite names_kept; exact V1|].
  set (d1 := PD (pd_id d) (pd_name d) (pd_lon d) (pd_lat d) (pd_alt d) (pd_times d) vs).
  split.
  - split; cbn [pd_vars pd_times]; [rewrite names_kept, V1; exact ND|].
    intros n s Hs. apply in_map_iff in Hs. destruct Hs as ([n0 s0] & E & H0). cbn [fst snd] in E. injection E as <- <-.
    rewrite map_length. specialize (CV _ _ H0). unfold resampled_var. destruct (String.eqb n0 "wind_dir" && averages r).
    + set (ws := match assoc "wind_speed" (pd_vars d1) with Some s => s | None => _ end).
      assert (LW : List.length ws = List.length s0).
      { unfold ws. destruct (assoc "wind_speed" (pd_vars d1)) as [w|] eqn:A; [|rewrite map_length; reflexivity].
        apply assoc_In in A. cbn [d1 pd_vars] in A. destruct (Forall2_in _ _ _ _ _ V2 _ A) as ([nw w0] & HW & E & FS). cbn [fst snd] in *. subst nw.
        destruct (filter_series_spec _ _ _ _ FS) as (_ & L & _). rewrite L, CV. apply (CL _ _ HW). }
      cbv zeta. assert (LC := components_length ws s0 LW). rewrite map_length, combine_length.
      destruct (LEN ROther (map fst (components ws s0)) ltac:(rewrite map_length; lia)) as (r1 & R1 & T1).
      destruct (LEN ROther (map snd (components ws s0)) ltac:(rewrite map_length; lia)) as (r2 & R2 & T2).
      cbn [d1 pd_times]. rewrite R1, R2. cbn [values_or_nil]. apply (f_equal (@List.length Z)) in T1, T2. rewrite !map_length in *. lia.
    + destruct (LEN (kind_of n0) s0 CV) as (r1 & R1 & T1). cbn [d1 pd_times]. rewrite R1. cbn [values_or_nil].
      apply (f_equal (@List.length Z)) in T1. rewrite !map_length in *. exact T1.
  - intros n s A. apply assoc_In in A. destruct (Forall2_in_l _ _ _ _ _ V2 _ A) as ([n1 s1] & H1 & E & FS). cbn [fst snd] in *. subst n1.
    destruct (filter_series_spec _ _ _ _ FS) as (_ & L & SP).
    destruct (LEN (kind_of n) s1 (CV _ _ H1)) as (rows & R1 & T1).
    exists s1, (resampled_var r d1 n s1), rows. split.
    + apply assoc_NoDup; [rewrite names_kept, V1; exact ND|]. apply in_map_iff. exists (n, s1). auto.
    + split; [exact SP|]. split; [exact L|]. split; [exact R1|]. split; [exact T1|]. intros N.
      unfold resampled_var. assert (C : String.eqb n "wind_dir" && averages r = false).
      { destruct N as [N| ->]; [|apply andb_false_r]. apply String.eqb_neq in N. rewrite N. reflexivity. }
      rewrite C. cbn [d1 pd_times]. rewrite R1. reflexivity.
Qed.
Print Assumptions c93_station.

(** All time steps of the period should be available if the data are accepted. They are not: with the first hours in one file and the
    last ones in another one, the data are accepted although nobody has records for the hours between; the requested time step 3
    does not exist in the result. This holds with and without the check for missing data. *)
Definition early : pointds := PD "a" "A" 10 47 500 [0; 3600; 7200]%Z [("temp", [Some 270; Some 271; Some 272])].
Definition late : pointds := PD "b" "B" 11 48 600 [14400; 18000; 21600]%Z [("temp", [Some 280; Some 281; Some 282])].
Definition hourly : rsettings := RS (Some 3600%Z) true 3600 0 21600 true.
Theorem c93_every_step_refuted : exists m t, In t (date_range 0 21600 3600) /\ ~ In t (md_times m) /\
  forall check, read_meteo (process_station [] hourly) [early; late] 0 21600 3600 check = inr m.
Proof.
  eexists; exists 10800%Z. split; [apply date_range_in; [lia|exists 3%Z; lia]|].
  split; [|intros [|]; reflexivity]. cbn. intuition discriminate.
Qed.
Print Assumptions c93_every_step_refuted.

(** Checked data of a single station with regular times at the model time step: every time step exists. *)
Theorem c93_every_step : forall process d d' start stop f m, (0 < f)%Z -> process d = Some d' -> regular f (pd_times d') ->
  read_meteo process [d] start stop f true = inr m -> (exists a, In a (pd_times d') /\ (f | start - a)%Z) ->
  forall t, In t (date_range start stop f) -> In t (md_times m).
Proof.
  intros process d d' start stop f m Hf P [_ G] H (a & A1 & A2) t T. apply c93_checked in H. destruct H as (r & R & NE & RE & ->).
  assert (r = [d']).
  { inversion R as [|? x ? q P' T' R'|? x ? q P' T' R']; subst; inversion R'; subst; [contradiction|congruence]. }
  subst r. apply c92_time_axis. exists d'. split; [left; reflexivity|].
  destruct RE as ((e & b & [<-|[]] & B1 & B2) & (e2 & c & [<-|[]] & C1 & C2)).
  apply date_range_in in T; [|exact Hf]. destruct T as (k & K & -> & K2). destruct A2 as [q A2].
  set (ts := pd_times d') in *.
  assert (ARITH : forall i x, nth_error ts i = Some x -> forall j, (i + j < List.length ts)%nat -> nth_error ts (i + j) = Some (x + Z.of_nat j * f)%Z).
  { intros i x X j. induction j as [|j IH]; intros J; [rewrite Nat.add_0_r; replace (x + Z.of_nat 0 * f)%Z with x by lia; exact X|].
    specialize (IH ltac:(lia)). destruct (nth_error ts (i + S j)) as [y|] eqn:Y; [|apply nth_error_None in Y; lia].
    replace (i + S j)%nat with (S (i + j)) in Y by lia. rewrite (G _ _ _ IH Y). f_equal. lia. }
  assert (POS : forall i x, nth_error ts i = Some x -> exists x0, nth_error ts 0 = Some x0 /\ x = (x0 + Z.of_nat i * f)%Z).
  { intros i x X. destruct (nth_error ts 0) as [x0|] eqn:X0; [|destruct ts; [destruct i|]; discriminate].
    exists x0. split; [reflexivity|]. assert (L : (0 + i < List.length ts)%nat) by (apply nth_error_Some; simpl; congruence).
    specialize (ARITH 0%nat x0 X0 i L). simpl in ARITH. congruence. }
  destruct (In_nth_error _ _ A1) as (ia & IA). destruct (In_nth_error _ _ B1) as (ib & IB). destruct (In_nth_error _ _ C1) as (ic & IC).
  destruct (POS _ _ IA) as (x0 & X0 & EA). destruct (POS _ _ IB) as (x1 & X1 & EB). destruct (POS _ _ IC) as (x2 & X2 & EC).
  rewrite X0 in X1, X2. injection X1 as <-. injection X2 as <-.
  assert (EZ : exists z, (start + k * f = x0 + z * f)%Z) by (exists (q + k + Z.of_nat ia)%Z; lia). destruct EZ as [z EZ].
  assert (Z1 : (0 <= z)%Z) by nia. assert (Z2 : (z <= Z.of_nat ic)%Z) by nia.
  assert (L : (ic < List.length ts)%nat) by (apply nth_error_Some; congruence).
  apply (nth_error_In ts (Z.to_nat z)). assert (X := ARITH 0%nat x0 X0 (Z.to_nat z) ltac:(lia)). simpl in X. rewrite X. f_equal. rewrite Z2Nat.id by lia. lia.
Qed.
Print Assumptions c93_every_step.

Lemma zlist_eqb_iff : forall a b, zlist_eqb a b = true <-> a = b.
Proof.
  induction a as [|x a IH]; intros [|y b]; simpl; split; try discriminate; try reflexivity.
  - intros H. apply andb_prop in H. destruct H as [H1 H2]. apply Z.eqb_eq in H1. apply IH in H2. congruence.
  - intros H. injection H as -> ->. rewrite Z.eqb_refl. apply IH. reflexivity.
Qed.
(** A dataset can be used as forcing exactly if its dimensions are station and time, the metadata and the minimum variables exist, and
    the times are the requested ones. *)
Theorem c93_valid_iff : forall dims vars times dates,
  is_valid dims vars times dates = true <->
  (forall x, In x dims <-> x = "station" \/ x = "time")
  /\ (forall v, In v ["station_name"; "lon"; "lat"; "alt"; "temp"; "precip"; "rel_hum"; "sw_in"; "wind_speed"] -> In v vars)
  /\ forall l, dates = Some l -> times = l.
Proof.
  intros dims vars times dates. unfold is_valid. rewrite !andb_true_iff, !forallb_forall. split.
  - intros [[[A B] C] D]. split; [|split].
    + intros x. split.
      * intros H. specialize (A x H). apply mem_iff in A. simpl in A. intuition congruence.
      * intros H. apply mem_iff. apply B. simpl. intuition congruence.
    + intros v H. apply mem_iff. apply C. exact H.
    + intros l ->. apply zlist_eqb_iff in D. congruence.
  - intros (A & B & C). repeat split.
    + intros x H. apply mem_iff. apply A in H. simpl. intuition congruence.
    + intros x H. apply mem_iff. apply A. simpl in H. intuition congruence.
    + intros v H. apply mem_iff. apply B. exact H.
    + destruct dates as [l|]; [|reflexivity]. apply zlist_eqb_iff. symmetry. apply C. reflexivity.
Qed.
Print Assumptions c93_valid_iff.

Example c93_example : consistent early
  /\ (exists d', process_station [("temp", RF 0 true None (Some 271))] hourly early = Some d')
  /\ process_station [("temp", RF 0 false None None)] hourly early = None
  /\ reaches [early; late] 0 21600 /\ remaining (fun d => Some d) [early; PD "c" "C" 0 0 0 [] []; late] [early; late]
  /\ is_valid ["time"; "station"] ("sw_in" :: metadata_vars ++ minimum_vars) [0; 1]%Z (Some [0; 1]%Z) = true
  /\ regular 3600 (pd_times early).
Proof.
  split; [split; [repeat constructor; simpl; tauto|intros n s [E|[]]; injection E as <- <-; reflexivity]|].
  split; [eexists; reflexivity|]. split; [reflexivity|]. split.
  - split; [exists early, 0%Z|exists late, 21600%Z]; simpl; repeat split; auto; lia.
  - split; [eapply RemKeep; [reflexivity|discriminate|]; eapply RemSkip; [reflexivity|reflexivity|]; eapply RemKeep; [reflexivity|discriminate|constructor]|].
    split; [reflexivity|]. apply infer_iff with (l := [0; 3600; 7200]%Z). reflexivity.
Qed.
