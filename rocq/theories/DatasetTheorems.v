(** Theorems C91 (datasets of single stations) and C92 (combination of stations). *)
From Verif Require Import Common TimeModel AtmosphereModel ForcingModel ForcingTheorems DatasetModel.
Open Scope string_scope.
Open Scope R_scope.

Lemma assoc_In : forall A (l : list (string * A)) k v, assoc k l = Some v -> In (k, v) l.
Proof.
  intros A l k v. induction l as [|[n w] l IH]; simpl; [discriminate|].
  destruct (String.eqb n k) eqn:E; [|auto]. apply String.eqb_eq in E. subst. intros H; injection H as <-. auto.
Qed.
Lemma assoc_NoDup : forall A (l : list (string * A)) k v, NoDup (map fst l) -> In (k, v) l -> assoc k l = Some v.
Proof.
  intros A l k v. induction l as [|[n w] l IH]; simpl; intros N H; [contradiction|]. inversion N as [|? ? N1 N2]; subst.
  destruct H as [H|H].
  - injection H as -> ->. rewrite String.eqb_refl. reflexivity.
  - destruct (String.eqb n k) eqn:E; [|auto]. apply String.eqb_eq in E. subst. exfalso. apply N1.
    apply in_map_iff. exists (k, v). auto.
Qed.
Lemma assoc_none : forall A (l : list (string * A)) k, assoc k l = None <-> ~ In k (map fst l).
Proof.
  intros A l k. induction l as [|[n w] l IH]; simpl; [tauto|].
  destruct (String.eqb n k) eqn:E.
  - apply String.eqb_eq in E. split; [discriminate|]. intros H. exfalso. apply H. auto.
  - apply String.eqb_neq in E. rewrite IH. tauto.
Qed.
Lemma mem_iff : forall k l, mem k l = true <-> In k l.
Proof.
  intros k l. unfold mem. rewrite existsb_exists. split.
  - intros (x & H & E). apply String.eqb_eq in E. subst. exact H.
  - intros H. exists k. split; [exact H|apply String.eqb_refl].
Qed.

(** * C91 *)
(** Variables which are used, with the units expected for them. *)
Definition expected_units (name units : string) : Prop :=
  In (name, units) [("temp", "K"); ("precip", "kg m-2"); ("rel_hum", "%"); ("sw_in", "W m-2"); ("wind_speed", "m s-1");
                    ("wind_speed_gust", "m s-1"); ("wind_dir", "degree"); ("cloud_fraction", "%")].
(** A regular series with time step [dt] *)
Definition regular (dt : Z) (times : list Z) : Prop :=
  (0 < dt)%Z /\ forall k a b, nth_error times k = Some a -> nth_error times (S k) = Some b -> (b = a + dt)%Z.

Lemma steps_of_iff : forall d l, steps_of d l = true <-> (forall k a b, nth_error l k = Some a -> nth_error l (S k) = Some b -> (b = a + d)%Z).
Proof.
  intros d l. induction l as [|a [|b l] IH]; [split; [intros _ [|k]; discriminate|reflexivity]| |].
  - split; [|reflexivity]. intros _ [|[|k]]; simpl; discriminate.
  - simpl steps_of. rewrite andb_true_iff, Z.eqb_eq, IH. split.
    + intros [E H] [|k] x y Hx Hy; [|exact (H k x y Hx Hy)]. simpl in Hx, Hy. injection Hx as <-. injection Hy as <-. lia.
    + intros H. split; [specialize (H 0%nat a b eq_refl eq_refl); lia|]. intros k x y Hx Hy. exact (H (S k) x y Hx Hy).
Qed.
Lemma infer_iff : forall l d, infer_freq l = Every d <-> (3 <= List.length l)%nat /\ regular d l.
Proof.
  intros l d. unfold infer_freq. destruct l as [|a [|b [|c l]]];
    try (split; [discriminate|simpl; intros [H _]; lia]).
  split.
  - destruct ((0 <? b - a)%Z && steps_of (b - a) (a :: b :: c :: l)) eqn:E; [|discriminate]. intros H; injection H as <-.
    apply andb_prop in E. destruct E as [E1 E2]. apply Z.ltb_lt in E1. split; [simpl; lia|]. split; [exact E1|]. apply steps_of_iff. exact E2.
  - intros [_ [H1 H2]]. assert (E := H2 0%nat a b eq_refl eq_refl). assert (b - a = d)%Z by lia. subst d.
    rewrite (proj2 (Z.ltb_lt _ _) H1), (proj2 (steps_of_iff _ _) H2). reflexivity.
Qed.
Lemma infer_few : forall l, infer_freq l = TooFew <-> (List.length l < 3)%nat.
Proof.
  intros l. unfold infer_freq. destruct l as [|a [|b [|c l]]]; simpl; split; try lia; try reflexivity.
  destruct ((0 <? b - a)%Z && _); discriminate.
Qed.

(** What the values of a variable of the data become. *)
Inductive becomes (d : rawdata) (name units : string) (v : var) : list num -> Prop :=
| Same : v_units v = None \/ v_units v = Some units ->
    (name = "cloud_fraction" -> (data_len d <= 10)%nat \/ max_le (v_vals v) 1 = false) -> becomes d name units v (v_vals v)
| Rate : forall dt, name = "precip" -> v_units v = Some "kg m-2 s-1" -> (3 <= List.length (rd_times d))%nat -> regular dt (rd_times d) ->
    becomes d name units v (map (numscale (IZR dt)) (v_vals v))
| RateFew : name = "precip" -> v_units v = Some "kg m-2 s-1" -> (List.length (rd_times d) < 3)%nat ->
    becomes d name units v (map (fun _ => None) (v_vals v))
| Fraction : name = "cloud_fraction" -> v_units v = Some "1" \/ ((10 < data_len d)%nat /\ max_le (v_vals v) 1 = true) ->
    becomes d name units v (map (numscale 100) (v_vals v)).

Lemma expected_iff : forall n u, expected_units n u <-> In (n, u) meteo_units.
Proof. intros n u. reflexivity. Qed.

Lemma opt_eqb_iff : forall u s, opt_eqb u s = true <-> u = Some s.
Proof. intros [t|] s; simpl; [rewrite String.eqb_eq|]; split; congruence. Qed.

Lemma convert_units_iff : forall d name units v s, expected_units name units ->
  (convert_units d name units v = inr s <-> becomes d name units v s).
Proof.
  intros d name units v s He. unfold convert_units.
  destruct (String.eqb name "precip") eqn:P.
  - apply String.eqb_eq in P. subst name.
    assert (U : units = "kg m-2").
    { unfold expected_units in He. simpl in He. repeat (destruct He as [He|He]; [try discriminate; injection He as <-; reflexivity|]). contradiction. }
    subst units. destruct (opt_eqb (v_units v) "kg m-2 s-1") eqn:O.
    + apply opt_eqb_iff in O. destruct (infer_freq (rd_times d)) as [| |dt] eqn:F; cbn [v_units v_vals].
      * change ("kg m-2" =? "kg m-2")%string with true. cbv iota. split.
        -- intros H; injection H as <-. apply RateFew; auto. apply infer_few. exact F.
        -- intros [H _|dt _ _ L _|_ _ _|H _]; try reflexivity; try discriminate.
           ++ rewrite O in H. destruct H; discriminate.
           ++ apply infer_few in F. lia.
      * split; [discriminate|]. intros [H _|dt _ _ L G|_ _ L|H _]; try discriminate.
        -- rewrite O in H. destruct H; discriminate.
        -- rewrite (proj2 (infer_iff _ _) (conj L G)) in F. discriminate.
        -- rewrite (proj2 (infer_few _) L) in F. discriminate.
      * change ("kg m-2" =? "kg m-2")%string with true. cbv iota. split.
        -- intros H; injection H as <-. apply infer_iff in F. destruct F. apply Rate; auto.
        -- intros [H _|dt' _ _ L G|_ _ L|H _]; try discriminate.
           ++ rewrite O in H. destruct H; discriminate.
           ++ rewrite (proj2 (infer_iff _ _) (conj L G)) in F. injection F as ->. reflexivity.
           ++ rewrite (proj2 (infer_few _) L) in F. discriminate.
    + split.
      * intros H. assert (Q : (v_units v = None \/ v_units v = Some "kg m-2") /\ s = v_vals v).
        { destruct (v_units v) as [u|]; [|injection H as <-; auto]. destruct (u =? "kg m-2")%string eqn:E; [|discriminate].
          apply String.eqb_eq in E. subst. injection H as <-. auto. }
        destruct Q as [Q ->]. apply Same; [exact Q|discriminate].
      * intros [H _|dt _ H _ _|_ H _|H _]; try discriminate; try (rewrite H in O; discriminate).
        destruct H as [->| ->]; reflexivity.
  - apply String.eqb_neq in P. destruct (String.eqb name "cloud_fraction") eqn:C.
    + apply String.eqb_eq in C. subst name.
      assert (U : units = "%").
      { unfold expected_units in He. simpl in He. repeat (destruct He as [He|He]; [try discriminate; injection He as <-; reflexivity|]). contradiction. }
      subst units.
      destruct (opt_eqb (v_units v) "1" || ((10 <? data_len d)%nat && max_le (v_vals v) 1)) eqn:O; cbn [v_units v_vals].
      * change ("%" =? "%")%string with true. cbv iota. apply orb_prop in O. rewrite andb_true_iff, opt_eqb_iff, Nat.ltb_lt in O. split.
        -- intros H; injection H as <-. apply Fraction; auto.
        -- intros [H G|dt H _ _ _|H _ _|_ _]; try contradiction; try reflexivity.
           specialize (G eq_refl). destruct O as [O|[O1 O2]].
           ++ rewrite O in H. destruct H; discriminate.
           ++ destruct G; [lia|congruence].
      * apply orb_false_elim in O. destruct O as [O1 O2].
        assert (G : (data_len d <= 10)%nat \/ max_le (v_vals v) 1 = false).
        { apply andb_false_elim in O2. destruct O2 as [O2|O2]; [apply Nat.ltb_ge in O2; auto|auto]. }
        split.
        -- intros H. assert (Q : (v_units v = None \/ v_units v = Some "%") /\ s = v_vals v).
           { destruct (v_units v) as [u|]; [|injection H as <-; auto]. destruct (u =? "%")%string eqn:E; [|discriminate].
             apply String.eqb_eq in E. subst. injection H as <-. auto. }
           destruct Q as [Q ->]. apply Same; auto.
        -- intros [H _|dt H _ _ _|H _ _|_ H]; try contradiction.
           ++ destruct H as [->| ->]; reflexivity.
           ++ destruct H as [H|[H1 H2]]; [rewrite H in O1; discriminate|]. destruct G; [lia|congruence].
    + apply String.eqb_neq in C. split.
      * intros H. assert (Q : (v_units v = None \/ v_units v = Some units) /\ s = v_vals v).
        { destruct (v_units v) as [u|]; [|injection H as <-; auto]. destruct (u =? units)%string eqn:E; [|discriminate].
          apply String.eqb_eq in E. subst. injection H as <-. auto. }
        destruct Q as [Q ->]. apply Same; [exact Q|intros; contradiction].
      * intros [H _|dt H _ _ _|H _ _|H _]; try contradiction. destruct H as [->| ->]; [reflexivity|rewrite String.eqb_refl; reflexivity].
Qed.

Lemma convert_vars_spec : forall d l vs, NoDup (map fst l) -> (forall n u, In (n, u) l -> expected_units n u) ->
  convert_vars d l = inr vs ->
  (forall n u, In (n, u) l -> match assoc n (rd_vars d) with
                              | Some v => exists s, assoc n vs = Some s /\ becomes d n u v s
                              | None => assoc n vs = None
                              end)
  /\ (forall n, ~ In n (map fst l) -> assoc n vs = None).
Proof.
  intros d l. induction l as [|[n u] l IH]; simpl; intros vs N He H.
  - injection H as <-. split; [contradiction|reflexivity].
  - inversion N as [|? ? N1 N2]; subst.
    assert (He' : forall n u, In (n, u) l -> expected_units n u) by (intros; apply He; auto).
    destruct (assoc n (rd_vars d)) as [v|] eqn:A.
    + destruct (convert_units d n u v) as [|s] eqn:C; [discriminate|].
      destruct (convert_vars d l) as [|r] eqn:R; [discriminate|]. injection H as <-.
      destruct (IH r N2 He' eq_refl) as [I1 I2]. apply convert_units_iff in C; [|apply He; auto]. split.
      * intros n' u' [E|Hin].
        -- injection E as <- <-. rewrite A. simpl. rewrite String.eqb_refl. eauto.
        -- specialize (I1 n' u' Hin). simpl.
           assert (n <> n') by (intros ->; apply N1; apply in_map_iff; exists (n', u'); auto).
           rewrite (proj2 (String.eqb_neq n n') H). exact I1.
      * intros n' Hn. simpl. assert (n <> n') by (intros ->; apply Hn; auto). rewrite (proj2 (String.eqb_neq n n') H). apply I2. tauto.
    + destruct (IH vs N2 He' H) as [I1 I2]. split.
      * intros n' u' [E|Hin]; [injection E as <- <-; rewrite A; apply I2; exact N1|exact (I1 n' u' Hin)].
      * intros n' Hn. apply I2. tauto.
Qed.
Lemma convert_vars_ok : forall d l, (forall n u, In (n, u) l -> expected_units n u) ->
  (exists vs, convert_vars d l = inr vs) <->
  (forall n u v, In (n, u) l -> assoc n (rd_vars d) = Some v -> exists s, becomes d n u v s).
Proof.
  intros d l He. induction l as [|[n u] l IH]; simpl.
  - split; [intros _ ? ? ? []|eauto].
  - assert (IH' := IH (fun n' u' H => He n' u' (or_intror H))). clear IH. split.
    + intros (vs & H) n' u' v' [E|Hin] Hv.
      * injection E as <- <-. rewrite Hv in H. destruct (convert_units d n u v') as [|s] eqn:C; [discriminate|].
        apply convert_units_iff in C; [eauto|apply He; left; reflexivity].
      * apply (proj1 IH') with (n := n') (u := u'); auto. destruct (assoc n (rd_vars d)) as [v|]; [|eauto].
        destruct (convert_units d n u v); [discriminate|]. destruct (convert_vars d l); [discriminate|eauto].
    + intros H. destruct (proj2 IH') as (vs & E); [intros; eapply H; eauto|].
      destruct (assoc n (rd_vars d)) as [v|] eqn:A; [|eauto].
      destruct (H n u v (or_introl eq_refl) A) as (s & B). apply convert_units_iff in B; [|apply He; left; reflexivity].
      rewrite B, E. eauto.
Qed.
Lemma units_NoDup : NoDup (map fst meteo_units).
Proof. repeat constructor; simpl; intuition discriminate. Qed.

(** A dataset is created exactly if ID and position of the station are known (as arguments or in the data) and the units of all
    variables are the expected ones or convertible. *)
Theorem c91_accepts_iff : forall d id name lon lat alt,
  (exists p, make_point_dataset d id name lon lat alt = inr p) <->
  ((id <> None \/ rd_id d <> None) /\ (lon <> None \/ rd_lon d <> None) /\ (lat <> None \/ rd_lat d <> None)
   /\ (alt <> None \/ rd_alt d <> None)
   /\ forall n u v, expected_units n u -> assoc n (rd_vars d) = Some v -> exists s, becomes d n u v s).
Proof.
  intros d id name lon lat alt. unfold make_point_dataset.
  assert (F : forall A (x y : option A), (exists a, first_of x y = Some a) <-> (x <> None \/ y <> None)).
  { intros A [a|] [b|]; simpl; split; intros; try (left; discriminate); try (right; discriminate); eauto.
    - destruct H as (? & ?). discriminate.
    - destruct H; congruence. }
  rewrite <- !F. rewrite <- (convert_vars_ok d meteo_units) by (intros; apply expected_iff; assumption). split.
  - intros (p & H). destruct (first_of id (rd_id d)); [|discriminate]. destruct (first_of lon (rd_lon d)); [|discriminate].
    destruct (first_of lat (rd_lat d)); [|discriminate]. destruct (first_of alt (rd_alt d)); [|discriminate].
    destruct (convert_vars d meteo_units); [discriminate|]. repeat split; eauto.
  - intros ((i & ->) & (lo & ->) & (la & ->) & (al & ->) & (vs & ->)). eauto.
Qed.
Print Assumptions c91_accepts_iff.

(** The dataset has the times of the data; arguments take precedence over the data; without a name the ID is used; every known
    variable of the data is contained with its values (converted where necessary), and nothing else. *)
Theorem c91_content : forall d id name lon lat alt p, make_point_dataset d id name lon lat alt = inr p ->
  pd_times p = rd_times d
  /\ Some (pd_id p) = first_of id (rd_id d)
  /\ Some (pd_lon p) = first_of lon (rd_lon d) /\ Some (pd_lat p) = first_of lat (rd_lat d) /\ Some (pd_alt p) = first_of alt (rd_alt d)
  /\ (forall n, name = Some n -> pd_name p = n)
  /\ (name = None -> forall n, rd_name d = Some n -> pd_name p = n)
  /\ (name = None -> rd_name d = None -> pd_name p = pd_id p)
  /\ (forall n u, expected_units n u -> match assoc n (rd_vars d) with
                                        | Some v => exists s, assoc n (pd_vars p) = Some s /\ becomes d n u v s
                                        | None => assoc n (pd_vars p) = None
                                        end)
  /\ (forall n, (forall u, ~ expected_units n u) -> assoc n (pd_vars p) = None).
Proof.
  intros d id name lon lat alt p H. unfold make_point_dataset in H.
  destruct (first_of id (rd_id d)) as [i|]; [|discriminate]. destruct (first_of lon (rd_lon d)) as [lo|]; [|discriminate].
  destruct (first_of lat (rd_lat d)) as [la|]; [|discriminate]. destruct (first_of alt (rd_alt d)) as [al|]; [|discriminate].
  destruct (convert_vars d meteo_units) as [|vs] eqn:C; [discriminate|]. injection H as <-.
  cbn [pd_times pd_id pd_lon pd_lat pd_alt pd_name pd_vars].
  destruct (convert_vars_spec d meteo_units vs units_NoDup (fun n u H => proj2 (expected_iff n u) H) C) as [V1 V2].
  do 5 (split; [reflexivity|]).
  split; [intros n ->; reflexivity|]. split; [intros -> n ->; reflexivity|]. split; [intros -> ->; reflexivity|].
  split; [exact V1|]. intros n Hn. apply V2. intros Hin. apply in_map_iff in Hin. destruct Hin as ([n' u] & <- & Hu). exact (Hn u Hu).
Qed.
Print Assumptions c91_content.

(** Precipitation rates become amounts: the total amount is the rate times the time step, summed up. *)
Theorem c91_precipitation : forall d id name lon lat alt p v dt rates, make_point_dataset d id name lon lat alt = inr p ->
  assoc "precip" (rd_vars d) = Some v -> v_units v = Some "kg m-2 s-1" -> (3 <= List.length (rd_times d))%nat -> regular dt (rd_times d) ->
  v_vals v = map Some rates ->
  exists amounts, assoc "precip" (pd_vars p) = Some (map Some amounts) /\ sumR amounts = IZR dt * sumR rates.
Proof.
  intros d id name lon lat alt p v dt rates H A U L G E.
  destruct (c91_content _ _ _ _ _ _ _ H) as (_ & _ & _ & _ & _ & _ & _ & _ & V & _).
  assert (He : expected_units "precip" "kg m-2") by (unfold expected_units; simpl; auto).
  specialize (V _ _ He). rewrite A in V. destruct V as (s & Es & B). rewrite Es.
  exists (map (Rmult (IZR dt)) rates).
  assert (S : s = map (numscale (IZR dt)) (v_vals v)).
  { destruct B as [B _|dt' _ _ _ G'|_ _ L'|B _]; try discriminate.
    - rewrite U in B. destruct B; discriminate.
    - assert (T := proj2 (infer_iff _ _) (conj L G)). rewrite (proj2 (infer_iff _ _) (conj L G')) in T. injection T as ->. reflexivity.
    - lia. }
  rewrite S, E, map_map. split.
  - rewrite map_map. reflexivity.
  - clear. induction rates as [|x l IH]; cbn [map]; [rewrite !sumR_nil; ring|rewrite !sumR_cons, IH; ring].
Qed.
Print Assumptions c91_precipitation.

(** Cloud cover given as a fraction without units should be converted to percent. It is not: a day of hourly records, all of them
    at most 1, stays unchanged (the test which shall prevent conversion of short series counts variables instead of records)... *)
Definition hours (n : nat) : list Z := map (fun k => (3600 * Z.of_nat k)%Z) (seq 0 n).
Definition cloud_data (units : option string) (others : list (string * var)) : rawdata :=
  RD (hours 24) (("cloud_fraction", VR units (map (fun _ => Some 0.5) (hours 24))) :: others) None None None None None.
Theorem c91_cloud_fraction_refuted : exists d v p,
  assoc "cloud_fraction" (rd_vars d) = Some v /\ v_units v = None /\ List.length (rd_times d) = 24%nat
  /\ (forall x, In (Some x) (v_vals v) -> 0 <= x <= 1) /\ List.length (v_vals v) = 24%nat
  /\ make_point_dataset d (Some "a") None (Some 10) (Some 47) (Some 500) = inr p
  /\ assoc "cloud_fraction" (pd_vars p) = Some (v_vals v).
Proof.
  exists (cloud_data None []), (VR None (map (fun _ => Some 0.5) (hours 24))).
  eexists. split; [reflexivity|]. split; [reflexivity|]. split; [reflexivity|].
  split; [intros x Hx; cbn [v_vals] in Hx; apply in_map_iff in Hx; destruct Hx as (t & E & _); injection E as <-; lra|].
  split; [reflexivity|]. split; [reflexivity|]. reflexivity.
Qed.
Print Assumptions c91_cloud_fraction_refuted.

(** ... while cloud cover in percent is multiplied by 100 if the data have many variables and the period was almost clear. *)
Definition dummies (n : nat) : list (string * var) := map (fun _ => ("x", VR None [])) (seq 0 n).
Theorem c91_cloud_percent_refuted : exists d v p,
  assoc "cloud_fraction" (rd_vars d) = Some v /\ v_units v = Some "%"
  /\ make_point_dataset d (Some "a") None (Some 10) (Some 47) (Some 500) = inr p
  /\ assoc "cloud_fraction" (pd_vars p) = Some (map (numscale 100) (v_vals v)).
Proof.
  exists (cloud_data (Some "%") (dummies 10)), (VR (Some "%") (map (fun _ => Some 0.5) (hours 24))).
  assert (M : max_le (map (fun _ => Some 0.5) (hours 24)) 1 = true).
  { unfold max_le. assert (E : num_max (map (fun _ => Some 0.5) (hours 24)) = Some 0.5).
    { unfold hours. change (map (fun k => (3600 * Z.of_nat k)%Z) (seq 0 24)) with (3600 * 0 :: map (fun k => (3600 * Z.of_nat k)%Z) (seq 1 23))%Z.
      generalize (map (fun k => (3600 * Z.of_nat k)%Z) (seq 1 23)) (3600 * 0)%Z. clear.
      intros l z. cbn [map num_max]. induction l as [|y l IH]; cbn [map num_max]; [reflexivity|].
      rewrite IH. unfold max2. f_equal. apply Rmax_left. lra. }
    rewrite E. destruct (Rle_dec 0.5 1); [reflexivity|lra]. }
  assert (B : becomes (cloud_data (Some "%") (dummies 10)) "cloud_fraction" "%" (VR (Some "%") (map (fun _ => Some 0.5) (hours 24)))
                (map (numscale 100) (map (fun _ => Some 0.5) (hours 24)))).
  { apply Fraction; [reflexivity|]. right. split; [cbn; lia|exact M]. }
  destruct (proj2 (c91_accepts_iff (cloud_data (Some "%") (dummies 10)) (Some "a") None (Some 10) (Some 47) (Some 500))) as (p & Hp).
  { repeat split; try (left; discriminate). intros n u v He A.
    unfold expected_units in He. simpl in He.
    repeat (destruct He as [He|He]; [injection He as <- <-; try discriminate A|]); [|contradiction].
    injection A as <-. eauto. }
  exists p. split; [reflexivity|]. split; [reflexivity|]. split; [exact Hp|].
  destruct (c91_content _ _ _ _ _ _ _ Hp) as (_ & _ & _ & _ & _ & _ & _ & _ & V & _).
  specialize (V "cloud_fraction" "%" ltac:(unfold expected_units; simpl; tauto)). cbn [assoc cloud_data rd_vars] in V.
  change ("cloud_fraction" =? "cloud_fraction")%string with true in V. cbv iota in V.
  destruct V as (s & E & B'). rewrite E. f_equal.
  apply convert_units_iff in B'; [|unfold expected_units; simpl; tauto]. apply convert_units_iff in B; [|unfold expected_units; simpl; tauto].
  assert (Q : forall x y : list num, @inr merr (list num) x = inr y -> x = y) by (intros x y Hxy; congruence).
  apply Q. exact (eq_trans (eq_sym B') B).
Qed.
Print Assumptions c91_cloud_percent_refuted.

(** Variables of NetCDF files are known under their names there. *)
Theorem c91_netcdf_names : forall d n u v, NoDup (map fst (rd_vars (rename_netcdf d))) ->
  In (n, u) [("tas", "temp"); ("pr", "precip"); ("hurs", "rel_hum"); ("rsds", "sw_in"); ("wss", "wind_speed");
             ("wind_dir", "wind_dir"); ("wind_speed_gust", "wind_speed_gust"); ("cloud_fraction", "cloud_fraction"); ("temp", "temp")] ->
  In (n, v) (rd_vars d) -> assoc u (rd_vars (rename_netcdf d)) = Some v.
Proof.
  intros d n u v N Hn Hv. apply assoc_NoDup; [exact N|]. unfold rename_netcdf; cbn [rd_vars].
  apply in_map_iff. exists (n, v). split; [|exact Hv]. simpl in Hn. cbn [fst snd].
  repeat (destruct Hn as [Hn|Hn]; [injection Hn as <- <-; reflexivity|]). contradiction.
Qed.
Print Assumptions c91_netcdf_names.

Example c91_example : exists p,
  make_point_dataset (RD [0; 3600; 7200]%Z [("temp", VR (Some "K") [Some 270; None; Some 272]);
                        ("precip", VR (Some "kg m-2 s-1") [Some 0; Some 0.001; None]); ("snow", VR None [None; None; None])]
                        None (Some "Station A") (Some 10) (Some 47) None)
                     (Some "a") None None None (Some 500) = inr p
  /\ pd_id p = "a" /\ pd_name p = "Station A" /\ assoc "temp" (pd_vars p) = Some [Some 270; None; Some 272]
  /\ assoc "precip" (pd_vars p) = Some [Some (3600 * 0); Some (3600 * 0.001); None] /\ assoc "snow" (pd_vars p) = None
  /\ make_point_dataset (RD [0]%Z [("temp", VR (Some "degC") [Some 1])] None None (Some 10) (Some 47) None)
                     (Some "a") None None None (Some 500) = inl MeteoDataError.
Proof. eexists. split; [reflexivity|]. repeat split. Qed.
