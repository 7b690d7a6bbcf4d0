(** Auxiliary lemmas on LandCoverModel. *)
From Verif Require Import Common GridBalanceModel GridBalanceProofs CanopyModel EtModel LandCoverModel.
From Coq Require Import Sorted.
Open Scope R_scope.

Lemma insert_in k l x : In x (insert k l) <-> x = k \/ In x l.
Proof.
  induction l as [|y r IH]; cbn [insert]; [cbn; intuition|].
  destruct (Z.ltb_spec k y); [cbn; intuition|]. destruct (Z.eqb_spec k y); [subst; cbn; intuition|].
  cbn [In]. rewrite IH. intuition.
Qed.
Lemma insert_sorted k l : StronglySorted Z.lt l -> StronglySorted Z.lt (insert k l).
Proof.
  induction 1 as [|y r HS IH HF]; cbn [insert]; [repeat constructor|].
  destruct (Z.ltb_spec k y).
  - constructor; [constructor; assumption|]. constructor; [assumption|]. eapply Forall_impl; [|exact HF]. cbn; lia.
  - destruct (Z.eqb_spec k y); [constructor; assumption|]. constructor; [assumption|].
    apply Forall_forall. intros x I. apply insert_in in I. destruct I as [->|I]; [lia|]. rewrite Forall_forall in HF. auto.
Qed.
Lemma unique_in l x : In x (unique l) <-> In x l.
Proof. induction l; cbn [unique fold_right]; [reflexivity|]. rewrite insert_in. fold (unique l). rewrite IHl. cbn; intuition. Qed.
Lemma unique_sorted l : StronglySorted Z.lt (unique l).
Proof. induction l; cbn; [constructor|]. apply insert_sorted; assumption. Qed.
Lemma filter_sorted (f : Z -> bool) l : StronglySorted Z.lt l -> StronglySorted Z.lt (filter f l).
Proof.
  induction 1 as [|y r HS IH HF]; cbn; [constructor|]. destruct (f y); [|assumption]. constructor; [assumption|].
  apply Forall_forall. intros x I. apply filter_In in I. rewrite Forall_forall in HF. apply HF, I.
Qed.
Lemma sorted_nodup l : StronglySorted Z.lt l -> NoDup l.
Proof.
  induction 1 as [|y r HS IH HF]; constructor; [|assumption]. intro I. rewrite Forall_forall in HF. apply HF in I. lia.
Qed.
Lemma take_roi g p : In p (take g (map p_roi g)) <-> In p g /\ p_roi p = true.
Proof.
  induction g as [|q g IH]; cbn; [intuition|]. destruct (p_roi q) eqn:E; cbn; rewrite IH; intuition; subst; auto; congruence.
Qed.
Lemma region_in g k : In k (region_classes g) <-> (0 < k)%Z /\ exists p, In p g /\ p_roi p = true /\ p_class p = k.
Proof.
  unfold region_classes. rewrite filter_In, unique_in, Z.ltb_lt, in_map_iff. split.
  - intros ((p & E & I) & P). apply take_roi in I. split; [assumption|]. exists p. tauto.
  - intros (P & p & I & H & E). split; [|assumption]. exists p. split; [assumption|]. apply take_roi. auto.
Qed.
Lemma region_sorted g : StronglySorted Z.lt (region_classes g).
Proof. apply filter_sorted, unique_sorted. Qed.
Lemma pixels_map k g : pixels_of k g = map (fun p => (p_class p =? k)%Z && p_roi p) g.
Proof. unfold pixels_of. rewrite map2_map. reflexivity. Qed.

Definition known (classes : list (Z * lcclass)) (k : Z) : bool := match config_of k classes with Some _ => true | None => false end.
Definition forest (classes : list (Z * lcclass)) (k : Z) : bool := match config_of k classes with Some c => l_forest c | None => false end.
Definition complete (classes : list (Z * lcclass)) (k : Z) : bool :=
  match config_of k classes with Some (LC _ (Some (LA (Some _) (Some _) _)) _ _) => true | _ => false end.
Definition warns (classes : list (Z * lcclass)) (k : Z) : list warning :=
  match config_of k classes with
  | None => [UnknownClass k]
  | Some (LC _ (Some (LA (Some _) (Some _) _)) _ _) => []
  | Some (LC _ (Some _) _ _) => [IncompleteLai k]
  | Some _ => []
  end.
Lemma init_fold classes g : forall ks st,
  fold_left (add_class classes g) ks st =
  LS (s_pixels st ++ map (fun k => (k, pixels_of k g)) (filter (known classes) ks))
     (s_forest st ++ filter (forest classes) ks) (s_lai st ++ filter (complete classes) ks) (s_warnings st ++ flat_map (warns classes) ks).
Proof.
  induction ks as [|k r IH]; intro st; cbn [fold_left].
  - cbn. rewrite !app_nil_r. destruct st; reflexivity.
  - rewrite IH. unfold add_class. cbn [filter flat_map]. unfold known at 2, forest at 2, complete at 2, warns at 2.
    destruct (config_of k classes) as [[f [[[lo|] [hi|] ad]|] sg pl]|]; cbn [l_forest l_lai]; try destruct f;
      cbn [s_pixels s_forest s_lai s_warnings map]; rewrite <- ?app_assoc; reflexivity.
Qed.
Lemma init_eq classes g : lc_initialize classes g =
  LS (map (fun k => (k, pixels_of k g)) (filter (known classes) (region_classes g)))
     (filter (forest classes) (region_classes g)) (filter (complete classes) (region_classes g)) (flat_map (warns classes) (region_classes g)).
Proof. unfold lc_initialize. rewrite init_fold. reflexivity. Qed.
Lemma config_keys {A} (f : Z -> A) k : forall ks, config_of k (map (fun k => (k, f k)) ks) = if existsb (Z.eqb k) ks then Some (f k) else None.
Proof.
  unfold config_of. induction ks as [|x r IH]; cbn; [reflexivity|]. rewrite (Z.eqb_sym k x).
  destruct (Z.eqb_spec x k); [subst; reflexivity|]. cbn [orb]. exact IH.
Qed.
Lemma existsb_in k ks : existsb (Z.eqb k) ks = true <-> In k ks.
Proof. rewrite existsb_exists. split; [intros (x & I & E); apply Z.eqb_eq in E; subst; auto|]. intro I. exists k. split; auto. apply Z.eqb_refl. Qed.
Lemma init_pixels classes g k : config_of k (s_pixels (lc_initialize classes g)) =
  if existsb (Z.eqb k) (filter (known classes) (region_classes g)) then Some (pixels_of k g) else None.
Proof. rewrite init_eq. cbn [s_pixels]. exact (config_keys (fun k => pixels_of k g) k _). Qed.
Lemma forest_known classes k : forest classes k = true -> known classes k = true.
Proof. unfold forest, known. destruct (config_of k classes); auto. Qed.
Lemma complete_known classes k : complete classes k = true -> known classes k = true.
Proof. unfold complete, known. destruct (config_of k classes); auto. Qed.

(** Masks as functions of the pixels *)
Lemma upd_bool {A} (b : A -> bool) (F : A -> A) (g : list A) : update g (map b g) F = map (fun p => if b p then F p else p) g.
Proof. unfold update. induction g as [|x r IH]; cbn; [reflexivity|]. destruct (b x); cbn; rewrite IH; reflexivity. Qed.
Lemma or_fold {A} (g : list A) (f : Z -> A -> bool) : forall ks (h : A -> bool),
  fold_left (map2 orb) (map (fun k => map (f k) g) ks) (map h g) = map (fun p => h p || existsb (fun k => f k p) ks) g.
Proof.
  induction ks as [|k r IH]; intro h; cbn [map fold_left existsb].
  - apply map_ext. intro. rewrite orb_false_r. reflexivity.
  - rewrite map2_map, IH. apply map_ext. intro. rewrite orb_assoc. reflexivity.
Qed.
Lemma forest_masks classes g : forest_pos (lc_initialize classes g) (length g) =
  Some (map (fun p => existsb (fun k => (p_class p =? k)%Z && p_roi p) (filter (forest classes) (region_classes g))) g).
Proof.
  unfold forest_pos.
  assert (E : forall ks, (forall k, In k ks -> In k (filter (forest classes) (region_classes g))) ->
    flat_map (fun k => match config_of k (s_pixels (lc_initialize classes g)) with Some m => [m] | None => [] end) ks =
    map (fun k => map (fun p => (p_class p =? k)%Z && p_roi p) g) ks).
  { induction ks as [|k r IH]; intro H; cbn; [reflexivity|]. rewrite IH by (intros; apply H; right; assumption).
    rewrite init_pixels. pose proof (H k (or_introl eq_refl)) as I. apply filter_In in I. destruct I as (I & F).
    assert (X : existsb (Z.eqb k) (filter (known classes) (region_classes g)) = true).
    { apply existsb_in, filter_In. split; [assumption|]. apply forest_known; assumption. }
    rewrite X, pixels_map. reflexivity. }
  rewrite init_eq at 1. cbn [s_forest]. destruct (filter (forest classes) (region_classes g)) as [|k r] eqn:F.
  - cbn. f_equal. clear. induction g; cbn; f_equal; auto.
  - rewrite E by auto. cbn [map or_masks]. rewrite or_fold. f_equal.
Qed.
