(** Lemmas about the state variable manager. *)
From Coq Require Import Permutation Sorted.
From Verif Require Import Common StateModel.
Open Scope string_scope.

Lemma dget_dset_same {A} (d : dict A) k v : dget (dset d k v) k = Some v.
Proof.
  induction d as [|[k' v'] d IH]; cbn.
  - rewrite String.eqb_refl. auto.
  - destruct (k' =? k) eqn:E; cbn; rewrite E; auto.
Qed.
Lemma dget_dset_other {A} (d : dict A) k k' v : k <> k' -> dget (dset d k v) k' = dget d k'.
Proof.
  intros N. induction d as [|[k2 v2] d IH]; cbn.
  - destruct (k =? k') eqn:E; auto. apply String.eqb_eq in E. congruence.
  - destruct (k2 =? k) eqn:E; cbn.
    + apply String.eqb_eq in E. subst. destruct (k =? k') eqn:E'; auto. apply String.eqb_eq in E'. congruence.
    + rewrite IH. auto.
Qed.
Lemma dget_dset {A} (d : dict A) k k' v : dget (dset d k v) k' = if k =? k' then Some v else dget d k'.
Proof.
  destruct (k =? k') eqn:E.
  - apply String.eqb_eq in E. subst. apply dget_dset_same.
  - apply dget_dset_other. intro. subst. rewrite String.eqb_refl in E. discriminate.
Qed.
Lemma dset_keys {A} (d : dict A) k v : NoDup (map fst d) -> NoDup (map fst (dset d k v)).
Proof.
  induction d as [|[k2 v2] d IH]; cbn; intros N.
  - constructor; [intros []|constructor].
  - inversion N; subst. destruct (k2 =? k) eqn:E; cbn; auto.
    constructor; auto. intro I. apply H1.
    clear - I E. induction d as [|[k3 v3] d IH]; cbn in *.
    + destruct I as [I|[]]. subst. rewrite String.eqb_refl in E. discriminate.
    + destruct (k3 =? k) eqn:E3; cbn in I; destruct I; auto.
Qed.
Lemma dset_keys_present {A} (d : dict A) k v v0 : dget d k = Some v0 -> map fst (dset d k v) = map fst d.
Proof.
  induction d as [|[k2 v2] d IH]; cbn; [discriminate|]. destruct (k2 =? k); cbn; auto.
  intros H. f_equal; auto.
Qed.
Lemma dget_In {A} (d : dict A) k v : dget d k = Some v -> In (k, v) d.
Proof.
  induction d as [|[k2 v2] d IH]; cbn; [discriminate|]. destruct (k2 =? k) eqn:E; auto.
  apply String.eqb_eq in E. intro H; injection H as ->. subst. auto.
Qed.
Lemma In_dget {A} (d : dict A) k v : NoDup (map fst d) -> In (k, v) d -> dget d k = Some v.
Proof.
  induction d as [|[k2 v2] d IH]; cbn; intros N I; [destruct I|]. inversion N; subst.
  destruct I as [I|I].
  - injection I as -> ->. rewrite String.eqb_refl. auto.
  - destruct (k2 =? k) eqn:E; auto. apply String.eqb_eq in E. subst. exfalso. apply H1.
    apply (in_map fst) in I. auto.
Qed.

(** The entry of a variable *)
Definition var_at (m : manager) (c v : string) : option entry :=
  match dget (m_attrs m) c with Some k => dget k v | None => None end.

Section Loops.
Variable f : entry -> entry * option exn.
Lemma each_var_get k : forall v e, dget k v = Some e ->
  let k' := fst (each_var f k) in dget k' v = Some e \/ dget k' v = Some (fst (f e)).
Proof.
  induction k as [|[n e0] k IH]; intros v e; cbn; [discriminate|].
  destruct (f e0) as [e' [x|]] eqn:F.
  - cbn. destruct (n =? v); auto. intro H; injection H as <-. rewrite F. auto.
  - destruct (each_var f k) as [k'' r] eqn:EK. cbn. destruct (n =? v).
    + intro H; injection H as <-. rewrite F. auto.
    + intro H. apply IH in H. auto.
Qed.
Lemma each_var_ok k k' : each_var f k = (k', None) ->
  (forall v, dget k' v = option_map (fun e => fst (f e)) (dget k v)) /\
  Forall (fun p => snd (f (snd p)) = None) k.
Proof.
  revert k'; induction k as [|[n e0] k IH]; cbn; intros k' H.
  - injection H as <-. split; auto.
  - destruct (f e0) as [e' [x|]] eqn:F; [discriminate|].
    destruct (each_var f k) as [k'' r] eqn:EK. injection H as <- ->.
    destruct (IH _ eq_refl) as [A B]. split.
    + intros v. cbn. destruct (n =? v); auto. cbn. rewrite F. auto.
    + constructor; auto. cbn. rewrite F. auto.
Qed.
Lemma each_var_all k : Forall (fun p => snd (f (snd p)) = None) k -> snd (each_var f k) = None.
Proof.
  induction k as [|[n e0] k IH]; intros H; cbn; auto. inversion H; subst. cbn in H2.
  destruct (f e0) as [e' o]. cbn in H2. subst. specialize (IH H3).
  destruct (each_var f k). auto.
Qed.
Lemma each_var_keys k : map fst (fst (each_var f k)) = map fst k.
Proof.
  induction k as [|[n e0] k IH]; cbn; auto. destruct (f e0) as [e' [x|]]; cbn; auto.
  destruct (each_var f k). cbn in *. f_equal; auto.
Qed.

Inductive iter : entry -> entry -> Prop :=
| iter0 e : iter e e
| iter1 e e' : iter e e' -> iter e (fst (f e')).
Lemma iter_trans e1 e2 e3 : iter e1 e2 -> iter e2 e3 -> iter e1 e3.
Proof. intros A B. induction B; auto. constructor. auto. Qed.
Definition look (a : dict container) (c v : string) : option entry :=
  match dget a c with Some k => dget k v | None => None end.
(** Any outcome: every variable was processed some number of times. *)
Lemma each_cat_get : forall cats a c v e, look a c v = Some e ->
  exists e', look (fst (each_cat f cats a)) c v = Some e' /\ iter e e'.
Proof.
  induction cats as [|c0 cats IH]; intros a c v e H; cbn; [eauto using iter0|].
  destruct (dget a c0) as [k|] eqn:A; [|eauto using iter0].
  assert (ST : exists e', look (dset a c0 (fst (each_var f k))) c v = Some e' /\ iter e e').
  { unfold look in *. rewrite dget_dset. destruct (c0 =? c) eqn:E; [|eauto using iter0].
    apply String.eqb_eq in E. subst c. rewrite A in H.
    destruct (each_var_get _ _ _ H) as [G|G]; eauto using iter0, iter1. }
  destruct (each_var f k) as [k' [x|]] eqn:EK; cbn in *; auto.
  destruct ST as (e1 & G & PE). destruct (IH _ _ _ _ G) as (e2 & G2 & P2). eauto using iter_trans.
Qed.
Lemma each_cat_ok : forall cats a a', NoDup cats -> each_cat f cats a = (a', None) ->
  (forall c, In c cats -> (exists k : container, dget a c = Some k /\ Forall (fun p => snd (f (snd p)) = None) k) /\
     forall v, look a' c v = option_map (fun e => fst (f e)) (look a c v)) /\
  (forall c, ~ In c cats -> dget a' c = dget a c).
Proof.
  induction cats as [|c0 cats IH]; intros a a' N H; cbn in H.
  - injection H as <-. split; [intros c []|auto].
  - inversion N; subst. destruct (dget a c0) as [k|] eqn:A; [|discriminate].
    destruct (each_var f k) as [k' [x|]] eqn:EK; [discriminate|].
    destruct (each_var_ok _ _ EK) as [V1 V2]. destruct (IH _ _ H3 H) as [B1 B2]. split.
    + intros c [<-|I].
      * split; [eauto|]. intros v. unfold look. rewrite (B2 c0 H2), dget_dset_same, A. apply V1.
      * assert (NE : c0 <> c) by (intro; subst; auto).
        destruct (B1 c I) as [(k2 & K & F2) L]. rewrite dget_dset_other in K by auto.
        split; [eauto|]. intros v. rewrite L. unfold look. rewrite dget_dset_other by auto. auto.
    + intros c NI. rewrite B2 by (intro; apply NI; right; auto). apply dget_dset_other.
      intro; apply NI; left; auto.
Qed.
Lemma each_cat_all : forall cats (a : dict container), NoDup cats ->
  (forall c, In c cats -> exists k : container, dget a c = Some k /\ Forall (fun p => snd (f (snd p)) = None) k) ->
  snd (each_cat f cats a) = None.
Proof.
  induction cats as [|c0 cats IH]; intros a N H; cbn; auto. inversion N; subst.
  destruct (H c0 (or_introl eq_refl)) as (k & A & F). rewrite A.
  pose proof (each_var_all _ F) as EV. destruct (each_var f k) as [k' o] eqn:EK. cbn in EV. subst o.
  apply IH; auto. intros c I. destruct (H c (or_intror I)) as (k2 & A2 & F2).
  exists k2. rewrite dget_dset_other; auto. intro; subst; auto.
Qed.
Lemma each_cat_keys : forall cats a,
  map fst (fst (each_cat f cats a)) = map fst a /\
  ((forall c k, dget a c = Some k -> NoDup (map fst k)) ->
   forall c k, dget (fst (each_cat f cats a)) c = Some k -> NoDup (map fst k)).
Proof.
  induction cats as [|c0 cats IH]; intros a; cbn; auto.
  destruct (dget a c0) as [k|] eqn:A; cbn; [|auto].
  assert (ND : (forall c k, dget a c = Some k -> NoDup (map fst k)) ->
     forall c k', dget (dset a c0 (fst (each_var f k))) c = Some k' -> NoDup (map fst k')).
  { intros H c k'. rewrite dget_dset. destruct (c0 =? c) eqn:E; [|apply H].
    intro Q; injection Q as <-. rewrite each_var_keys. eapply H; eauto. }
  destruct (each_var f k) as [k' [x|]] eqn:EK; cbn in *.
  - split; [apply (dset_keys_present _ _ _ _ A)|auto].
  - destruct (IH (dset a c0 k')) as [I1 I2]. rewrite I1. split; [apply (dset_keys_present _ _ _ _ A)|]. intro H. apply I2. apply ND. auto.
Qed.
End Loops.

(** Strings and sorting *)
Lemma insert_perm s l : Permutation (insert s l) (s :: l).
Proof.
  induction l as [|x l IH]; cbn; auto. destruct (s <=? x); auto.
  rewrite IH. apply perm_swap.
Qed.
Lemma sort_perm l : Permutation (sort l) l.
Proof. induction l as [|x l IH]; cbn; auto. rewrite insert_perm. auto. Qed.
Definition sle (a b : string) : Prop := (a <=? b) = true.
Lemma insert_hd s x l : HdRel sle x l -> sle x s -> HdRel sle x (insert s l).
Proof. destruct l as [|y l]; cbn; intros H S; [auto|]. destruct (s <=? y); auto. inversion H; auto. Qed.
Lemma insert_sorted s l : Sorted sle l -> Sorted sle (insert s l).
Proof.
  induction 1 as [|x l S IH H]; cbn; [repeat constructor|].
  destruct (s <=? x) eqn:E; [repeat constructor; auto|].
  constructor; auto. apply insert_hd; auto. destruct (String.leb_total s x) as [T|T]; auto. congruence.
Qed.
Lemma sort_sorted l : Sorted sle (sort l).
Proof. induction l; cbn; [constructor|apply insert_sorted; auto]. Qed.
Lemma existsb_In c l : existsb (String.eqb c) l = true <-> In c l.
Proof.
  rewrite existsb_exists. split.
  - intros (x & I & E). apply String.eqb_eq in E. subst. auto.
  - intros I. exists c. split; auto. apply String.eqb_refl.
Qed.

(** Splitting at dots *)
Definition no_dot (s : string) : Prop := all_chars (fun c => negb (Ascii.eqb c ".")) s = true.
Fixpoint join_dot (l : list string) : string :=
  match l with [] => "" | [x] => x | x :: l' => x ++ "." ++ join_dot l' end.
Lemma split_ne s : split_dot s <> [].
Proof. destruct s as [|c s]; cbn; [discriminate|]. destruct (Ascii.eqb c "."); [discriminate|].
  induction s as [|c' s IH]; cbn; [discriminate|]. destruct (Ascii.eqb c' "."); [discriminate|].
  destruct (split_dot s); [destruct IH; auto|discriminate]. Qed.
Lemma split_join s : join_dot (split_dot s) = s.
Proof.
  induction s as [|c s IH]; cbn; auto. destruct (Ascii.eqb c ".") eqn:E.
  - apply Ascii.eqb_eq in E. subst. pose proof (split_ne s). destruct (split_dot s); [congruence|]. cbn in *. rewrite IH. auto.
  - pose proof (split_ne s). destruct (split_dot s) as [|h [|h2 t]]; [congruence| |]; cbn in *; rewrite IH; auto.
Qed.
Lemma split_no_dot s : Forall no_dot (split_dot s).
Proof.
  induction s as [|c s IH]; cbn; [repeat constructor|]. destruct (Ascii.eqb c ".") eqn:E; [repeat constructor; auto|].
  destruct (split_dot s) as [|h t]; [constructor|]. inversion IH; subst. constructor; auto.
  unfold no_dot. cbn. rewrite E. auto.
Qed.
Lemma split_single s : no_dot s -> split_dot s = [s].
Proof.
  induction s as [|c s IH]; cbn; auto. unfold no_dot. cbn. intros H. apply andb_prop in H. destruct H as [H1 H2].
  destruct (Ascii.eqb c "."); [discriminate|]. rewrite IH; auto.
Qed.
Lemma split_app a b : no_dot a -> split_dot (a ++ "." ++ b) = a :: split_dot b.
Proof.
  induction a as [|c a IH]; cbn; intros H; auto. unfold no_dot in H. cbn in H. apply andb_prop in H. destruct H as [H1 H2].
  destruct (Ascii.eqb c "."); [discriminate|]. cbn in IH. rewrite IH; auto.
Qed.

(** Well-formed managers; every manager reachable through the API (without the name "categories")
    is well-formed. *)
Record wf (m : manager) : Prop := {
  wf_nodup : NoDup (m_cats m);
  wf_sorted : Sorted sle (m_cats m);
  wf_cats : forall c, In c (m_cats m) <-> exists k, dget (m_attrs m) c = Some k;
  wf_vars : forall c k, dget (m_attrs m) c = Some k -> NoDup (map fst k) }.
(** Operations of the API: [OpWrite] is any in-place modification of an array. *)
Inductive op :=
| OpCategory (c : string) | OpVariable (c name : string) (d : vardef) | OpInit | OpReset
| OpWrite (c v : string) (a : list cell).
Definition apply_op (m : manager) (o : op) : manager :=
  match o with
  | OpCategory c => fst (add_category m c)
  | OpVariable c n d =>
      match dget (m_attrs m) c with
      | Some k => MG (m_rows m) (m_cols m) (m_cats m) (dset (m_attrs m) c (add_variable k n d))
      | None => m
      end
  | OpInit => fst (initialize m)
  | OpReset => fst (reset m)
  | OpWrite c v a =>
      match dget (m_attrs m) c with
      | Some k => match dget k v with
                  | Some (EN d (Some _)) =>
                      MG (m_rows m) (m_cols m) (m_cats m) (dset (m_attrs m) c (dset k v (EN d (Some a))))
                  | _ => m
                  end
      | None => m
      end
  end.
Definition run_ops (m : manager) (ops : list op) : manager := fold_left apply_op ops m.

Lemma wf_new r c : wf (new_manager r c).
Proof.
  constructor; cbn; try constructor; try (intros; discriminate).
  - intros [].
  - intros (k & E). discriminate.
Qed.
Lemma keys_dget {A} (a a' : dict A) : map fst a' = map fst a ->
  forall c, (exists k, dget a' c = Some k) <-> (exists k, dget a c = Some k).
Proof.
  revert a'; induction a as [|[x k] a IH]; intros [|[x' k'] a'] E c; cbn in *; try discriminate.
  - tauto.
  - injection E as -> E. destruct (x =? c).
    + split; intros _; eauto.
    + apply IH; auto.
Qed.
Lemma wf_each f m : wf m ->
  wf (MG (m_rows m) (m_cols m) (m_cats m) (fst (each_cat f (m_cats m) (m_attrs m)))).
Proof.
  intros [N S C V]. destruct (each_cat_keys f (m_cats m) (m_attrs m)) as [K1 K2].
  constructor; cbn; auto.
  - intros c. rewrite C. symmetry. apply keys_dget. auto.
  - apply K2. auto.
Qed.
Lemma wf_set m c k k' : wf m -> dget (m_attrs m) c = Some k -> NoDup (map fst k') ->
  wf (MG (m_rows m) (m_cols m) (m_cats m) (dset (m_attrs m) c k')).
Proof.
  intros [N S C V] G ND. constructor; cbn; auto.
  - intros c'. rewrite C. symmetry. apply keys_dget. eapply dset_keys_present; eauto.
  - intros c' k2. rewrite dget_dset. destruct (c =? c'); [|apply V]. intro H; injection H as <-. auto.
Qed.
Lemma wf_op m o : (forall c, o = OpCategory c -> c <> "categories") -> wf m -> wf (apply_op m o).
Proof.
  intros NC W. destruct o as [c|c n d| | |c v a]; cbn.
  - specialize (NC c eq_refl). unfold add_category.
    destruct (existsb (String.eqb c) (m_cats m)) eqn:E; [auto|].
    destruct (is_identifier c) eqn:I; cbn; [|auto].
    destruct (c =? "categories") eqn:Q; [apply String.eqb_eq in Q; congruence|].
    assert (NI : ~ In c (m_cats m)) by (intro X; apply existsb_In in X; congruence).
    destruct W as [N S C V]. cbn.
    assert (PM : Permutation (sort (m_cats m ++ [c])) (c :: m_cats m)).
    { rewrite sort_perm. symmetry. apply Permutation_cons_append. }
    constructor; cbn.
    + eapply Permutation_NoDup; [symmetry; apply PM|]. constructor; auto.
    + apply sort_sorted.
    + intros c'. rewrite dget_dset. split.
      * intros X. apply (Permutation_in _ PM) in X. destruct X as [->|X]; [rewrite String.eqb_refl; eauto|].
        destruct (c =? c'); [eauto|]. apply C; auto.
      * intros X. apply (Permutation_in _ (Permutation_sym PM)). destruct (c =? c') eqn:E2.
        -- apply String.eqb_eq in E2. left; auto.
        -- right. apply C; auto.
    + intros c' k'. rewrite dget_dset. destruct (c =? c'); [|apply V]. intro H; injection H as <-. constructor.
  - destruct (dget (m_attrs m) c) as [k|] eqn:G; auto. eapply wf_set; eauto.
    apply dset_keys. eapply wf_vars; eauto.
  - unfold initialize. pose proof (wf_each (init_var (m_rows m) (m_cols m)) m W) as WE.
    destruct (each_cat _ _ _). auto.
  - unfold reset. pose proof (wf_each reset_var m W) as WE. destruct (each_cat _ _ _). auto.
  - destruct (dget (m_attrs m) c) as [k|] eqn:G; auto. destruct (dget k v) as [[d [a0|]]|] eqn:G2; auto.
    eapply wf_set; eauto. apply dset_keys. eapply wf_vars; eauto.
Qed.
