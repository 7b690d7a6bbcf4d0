(** Lemmas about masks and index manipulation. *)
From Coq Require FinFun Classical_Prop.
From Verif Require Import MaskModel Common.
Open Scope nat_scope.

(** Number of selected entries *)
Definition count (m : list bool) : nat := length (filter (fun b => b) m).

Lemma nonzero_shift m : forall k, nonzero_from k m = map (fun i => k + i) (nonzero_from 0 m).
Proof.
  induction m as [|b m IH]; intros k; [auto|]. cbn. rewrite (IH (S k)), (IH 1).
  destruct b; cbn; rewrite ?map_map; [f_equal; [lia|]|]; apply map_ext; intros; lia.
Qed.
Lemma flatnonzero_cons b m : flatnonzero (b :: m) = (if b then [0] else []) ++ map S (flatnonzero m).
Proof. unfold flatnonzero. cbn. rewrite (nonzero_shift m 1). destruct b; auto. Qed.
Lemma flatnonzero_length m : length (flatnonzero m) = count m.
Proof.
  unfold count. induction m as [|b m IH]; [auto|]. rewrite flatnonzero_cons, app_length, map_length, IH.
  destruct b; auto.
Qed.
Lemma In_flatnonzero m i : In i (flatnonzero m) <-> nth i m false = true.
Proof.
  revert i; induction m as [|b m IH]; intros i.
  - cbn. split; [intros []|]. destruct i; discriminate.
  - rewrite flatnonzero_cons, in_app_iff, in_map_iff. destruct i as [|i]; cbn.
    + split.
      * intros [H|(j & E & _)]; [|discriminate]. destruct b; [auto|destruct H].
      * intros ->. left; cbn; auto.
    + rewrite <- IH. split.
      * intros [H|(j & E & H)]; [destruct b; [destruct H as [H|[]]; discriminate|destruct H]|].
        injection E as <-. auto.
      * intros H. right. eauto.
Qed.
Lemma NoDup_flatnonzero m : NoDup (flatnonzero m).
Proof.
  induction m as [|b m IH]; [constructor|]. rewrite flatnonzero_cons.
  assert (ND : NoDup (map S (flatnonzero m))).
  { apply FinFun.Injective_map_NoDup; auto. intros x y E; injection E; auto. }
  destruct b; cbn; auto. constructor; auto. rewrite in_map_iff. intros (j & E & _). discriminate.
Qed.
Lemma flatnonzero_bound m i : In i (flatnonzero m) -> i < length m.
Proof.
  rewrite In_flatnonzero. intros H. destruct (Nat.lt_ge_cases i (length m)); auto.
  rewrite nth_overflow in H by auto. discriminate.
Qed.
(** The k-th index is pixel i exactly if the mask is set at i and k pixels before i are set. *)
Lemma flatnonzero_rank m : forall i, nth i m false = true ->
  nth_error (flatnonzero m) (count (firstn i m)) = Some i.
Proof.
  induction m as [|b m IH]; intros i H; [destruct i; discriminate|]. rewrite flatnonzero_cons.
  destruct i as [|i]; cbn in H.
  - subst. auto.
  - cbn [firstn]. specialize (IH i H). unfold count in *. cbn [filter].
    destruct b; cbn [app length nth_error]; rewrite nth_error_map, IH; auto.
Qed.

Lemma set_at_length {A} (a : list A) i v : length (set_at a i v) = length a.
Proof. revert i; induction a; intros [|i]; cbn; auto. Qed.
Lemma nth_set_at {A} (a : list A) i v d j :
  nth j (set_at a i v) d = if (j =? i) && (i <? length a) then v else nth j a d.
Proof.
  revert i j; induction a as [|x a IH]; intros i j; cbn.
  - rewrite andb_false_r; auto.
  - destruct i, j; cbn; auto. rewrite IH. auto.
Qed.
Lemma fold_set_length {A} (v : A) idxs a :
  length (fold_left (fun a i => set_at a i v) idxs a) = length a.
Proof. revert a; induction idxs; intros; cbn; auto. rewrite IHidxs, set_at_length. auto. Qed.
Lemma fold_set_nth {A} (v d : A) j idxs : forall a, Forall (fun i => i < length a) idxs ->
  nth j (fold_left (fun a i => set_at a i v) idxs a) d = if existsb (Nat.eqb j) idxs then v else nth j a d.
Proof.
  induction idxs as [|i idxs IH]; intros a F; cbn; auto. inversion F; subst.
  rewrite IH by (rewrite set_at_length; auto). rewrite nth_set_at.
  assert (B : (i <? length a) = true) by (apply Nat.ltb_lt; auto). rewrite B, andb_true_r.
  destruct (j =? i), (existsb (Nat.eqb j) idxs); auto.
Qed.
Lemma set_all_spec {A} (a : list A) idxs v r : set_all a idxs v = inr r ->
  length r = length a /\ forall j d, nth j r d = if existsb (Nat.eqb j) idxs then v else nth j a d.
Proof.
  unfold set_all. destruct (forallb _ idxs) eqn:E; [|discriminate]. intro H; injection H as <-.
  split; [apply fold_set_length|]. intros. apply fold_set_nth. apply Forall_forall. intros i I.
  rewrite forallb_forall in E. apply Nat.ltb_lt. auto.
Qed.
Lemma existsb_eqb j l : existsb (Nat.eqb j) l = true <-> In j l.
Proof.
  rewrite existsb_exists. split.
  - intros (x & I & E). apply Nat.eqb_eq in E. subst; auto.
  - intros I. exists j. split; auto. apply Nat.eqb_refl.
Qed.
Lemma In_select {A} (a : list A) m x : In x (select a m) <->
  exists k, nth_error a k = Some x /\ nth_error m k = Some true.
Proof.
  revert m; induction a as [|y a IH]; intros m; cbn.
  - split; [intros []|]. intros ([|k] & H & _); discriminate.
  - destruct m as [|b m]; [split; [intros []|intros ([|k] & _ & H); discriminate]|]. destruct b; cbn; rewrite IH.
    + split.
      * intros [->|(k & H1 & H2)]; [exists 0|exists (S k)]; auto.
      * intros ([|k] & H1 & H2); cbn in *; [injection H1; auto|]. right. eauto.
    + split; [intros (k & H1 & H2); exists (S k); auto|].
      intros ([|k] & H1 & H2); cbn in *; [discriminate|]. eauto.
Qed.
Lemma list_eq_nth {A} (d : A) l1 l2 : length l1 = length l2 ->
  (forall i, i < length l1 -> nth i l1 d = nth i l2 d) -> l1 = l2.
Proof. intros. eapply nth_ext; eauto. Qed.

(** What a local mask [m] within the outer mask [g] selects at pixel i. *)
Definition selects (g m : list bool) (i : nat) : bool := nth i g false && nth (count (firstn i g)) m false.

Lemma nth_err_true m k : nth_error m k = Some true <-> nth k m false = true.
Proof.
  revert k; induction m as [|b m IH]; intros [|k]; cbn; try (split; discriminate).
  - split; congruence.
  - apply IH.
Qed.
Lemma selects_spec g m i : selects g m i = true <-> In i (select (flatnonzero g) m).
Proof.
  unfold selects. rewrite In_select, andb_true_iff. split.
  - intros [G M]. exists (count (firstn i g)). split; [apply flatnonzero_rank; auto|]. apply nth_err_true; auto.
  - intros (k & G & M). assert (I : nth i g false = true) by (apply In_flatnonzero; eapply nth_error_In; eauto).
    split; auto. assert (K : k = count (firstn i g)).
    { pose proof (NoDup_flatnonzero g) as ND. rewrite NoDup_nth_error in ND. apply ND.
      - apply nth_error_Some. congruence.
      - rewrite G. symmetry. apply flatnonzero_rank; auto. }
    subst. apply nth_err_true; auto.
Qed.
Lemma selects_select g m : length m = count g ->
  select (map (selects g m) (seq 0 (length g))) g = m.
Proof.
  revert m; induction g as [|b g IH]; intros m L.
  - destruct m; [auto|discriminate].
  - cbn [length seq map]. rewrite <- seq_shift, map_map. destruct b.
    + destruct m as [|b m]; [discriminate|]. cbn [select].
      transitivity (b :: select (map (selects g m) (seq 0 (length g))) g); [f_equal|].
      rewrite IH; [auto|]. unfold count in *; cbn in L; lia.
    + cbn [select]. transitivity (select (map (selects g m) (seq 0 (length g))) g); [f_equal|apply IH; auto].
Qed.
Lemma scatter_mask n g m r : length g = n ->
  set_all (repeat false n) (select (flatnonzero g) m) true = inr r ->
  r = map (selects g m) (seq 0 n).
Proof.
  intros L H. apply set_all_spec in H. destruct H as [L2 H]. rewrite repeat_length in L2.
  apply (list_eq_nth false); [rewrite map_length, seq_length; auto|]. intros i Hi.
  rewrite H, nth_repeat.
  transitivity (selects g m i).
  - destruct (existsb _ _) eqn:E.
    + apply existsb_eqb, selects_spec in E. auto.
    + destruct (selects g m i) eqn:S; auto. apply selects_spec, existsb_eqb in S. congruence.
  - rewrite (nth_indep _ false (selects g m 0)) by (rewrite map_length, seq_length; lia).
    rewrite map_nth, seq_nth by lia. auto.
Qed.
Lemma set_all_ok g m : exists r, set_all (repeat false (length g)) (select (flatnonzero g) m) true = inr r.
Proof.
  unfold set_all. destruct (forallb _ _) eqn:E; [eauto|]. exfalso.
  assert (T : forallb (fun i => i <? length (repeat false (length g))) (select (flatnonzero g) m) = true); [|congruence].
  apply forallb_forall. intros i I. apply Nat.ltb_lt. rewrite repeat_length.
  apply selects_spec in I. unfold selects in I. apply andb_true_iff in I. destruct I as [I _].
  apply In_flatnonzero, flatnonzero_bound in I. auto.
Qed.
Lemma count_selects g m : length m = count g -> count (map (selects g m) (seq 0 (length g))) = count m.
Proof.
  revert m; induction g as [|b g IH]; intros m L.
  - destruct m; [auto|discriminate].
  - cbn [length seq map]. rewrite <- seq_shift, map_map. destruct b.
    + destruct m as [|b m]; [discriminate|]. specialize (IH m ltac:(unfold count in *; cbn in L; lia)).
      unfold count in *. destruct b; cbn [filter selects nth firstn andb]; cbn [filter length]; cbn [length];
      rewrite <- IH; auto.
    + rewrite <- (IH m) by auto. auto.
Qed.

(** * Index lists *)
Lemma index_of_in i l1 l2 : In i l1 -> index_of i (l1 ++ l2) = index_of i l1.
Proof.
  induction l1 as [|x l1 IH]; intros I; [destruct I|]. cbn. destruct (x =? i) eqn:E; auto.
  rewrite IH; auto. destruct I; auto. subst. rewrite Nat.eqb_refl in E. discriminate.
Qed.
Lemma index_of_notin i l1 l2 : ~ In i l1 -> index_of i (l1 ++ l2) = length l1 + index_of i l2.
Proof.
  induction l1 as [|x l1 IH]; intros I; [auto|]. cbn. destruct (x =? i) eqn:E.
  - apply Nat.eqb_eq in E. exfalso. apply I. left; auto.
  - rewrite IH; auto. intro; apply I; right; auto.
Qed.
Lemma index_of_seq a n i : a <= i < a + n -> index_of i (seq a n) = i - a.
Proof.
  revert a; induction n as [|n IH]; intros a H; [lia|]. cbn. destruct (a =? i) eqn:E.
  - apply Nat.eqb_eq in E. lia.
  - apply Nat.eqb_neq in E. rewrite IH by lia. lia.
Qed.
Lemma map_nth_seq (l : list nat) : map (fun d => nth d l 0) (seq 0 (length l)) = l.
Proof.
  induction l as [|x l IH]; [auto|]. cbn [length seq map]. rewrite <- seq_shift, map_map. cbn. f_equal. auto.
Qed.
Lemma seq_app' a n m : seq a (n + m) = seq a n ++ seq (a + n) m.
Proof. apply seq_app. Qed.

Definition order p m := seq 0 p ++ [p + m; p + m + 1] ++ seq p m.
(** The transposition of the conversion moves the two grid axes in place of the pixel axis. *)
Lemma transpose_index pre post r c :
  let p := length pre in let m := length post in
  map (fun d => nth (index_of d (order p m)) (pre ++ [r; c] ++ post) 0) (seq 0 (length (order p m)))
  = pre ++ post ++ [r; c].
Proof.
  intros p m. unfold order. set (o := seq 0 p ++ [p + m; p + m + 1] ++ seq p m).
  assert (L : length o = p + (m + 2)).
  { unfold o. rewrite !app_length, !seq_length. cbn [length]. lia. }
  rewrite L, seq_app', map_app. f_equal; [|rewrite seq_app', map_app; f_equal].
  - transitivity (map (fun d => nth d pre 0) (seq 0 p)); [|apply map_nth_seq]. apply map_ext_in. intros d H. apply in_seq in H.
    unfold o. rewrite index_of_in by (apply in_seq; lia). rewrite index_of_seq by lia.
    rewrite app_nth1 by (fold p; lia). f_equal. lia.
  - transitivity (map (fun d => nth d post 0) (seq 0 m)); [|apply map_nth_seq].
    replace (seq (0 + p) m) with (map (fun d => p + d) (seq 0 m)).
    2:{ assert (G : forall mm q, map (fun d => p + d) (seq q mm) = seq (p + q) mm).
        { induction mm as [|mm IH]; intros q; cbn; [auto|]. rewrite IH. do 2 f_equal. lia. }
        rewrite G. f_equal. lia. }
    rewrite map_map. apply map_ext_in. intros d H. apply in_seq in H.
    unfold o. rewrite index_of_notin by (rewrite in_seq; lia). rewrite seq_length.
    rewrite index_of_notin by (cbn; lia). cbn [length].
    rewrite index_of_seq by lia. rewrite app_nth2 by (fold p; lia). fold p.
    replace (p + (2 + (p + d - p)) - p) with (S (S d)) by lia. auto.
  - cbn [seq map]. unfold o.
    rewrite (index_of_notin (0 + p + m)) by (rewrite in_seq; lia).
    rewrite (index_of_notin (S (0 + p + m))) by (rewrite in_seq; lia). rewrite seq_length.
    replace (0 + p + m) with (p + m) by lia. cbn [app index_of].
    rewrite Nat.eqb_refl. replace (p + m =? S (p + m)) with false by (symmetry; apply Nat.eqb_neq; lia).
    replace (p + m + 1 =? S (p + m)) with true by (symmetry; apply Nat.eqb_eq; lia).
    rewrite !app_nth2 by (fold p; lia). fold p.
    replace (p + 0 - p) with 0 by lia. replace (p + 1 - p) with 1 by lia. auto.
Qed.
Lemma last_pos_none i l : last_pos i l = None <-> ~ In i l.
Proof.
  induction l as [|x l IH]; cbn; [tauto|]. destruct (last_pos i l).
  - split; [discriminate|]. intros H. exfalso. apply H. right. apply Classical_Prop.NNPP. rewrite <- IH. discriminate.
  - destruct (x =? i) eqn:E.
    + apply Nat.eqb_eq in E. split; [discriminate|]. intros H; exfalso; apply H; auto.
    + apply Nat.eqb_neq in E. split; auto. intros _ [H|H]; [auto|]. apply IH; auto.
Qed.
Lemma last_pos_unique i l k : NoDup l -> nth_error l k = Some i -> last_pos i l = Some k.
Proof.
  intros ND. revert k; induction ND as [|x l NI ND IH]; intros k H; [destruct k; discriminate|]. cbn.
  destruct k as [|k]; cbn in H.
  - injection H as ->. destruct (last_pos i l) eqn:E.
    + exfalso. apply NI. apply Classical_Prop.NNPP. rewrite <- last_pos_none. congruence.
    + rewrite Nat.eqb_refl. auto.
  - rewrite (IH _ H). auto.
Qed.
Lemma position_nth d l p : position d l = Some p ->
  nth_error l p = Some d /\ (forall q, q < p -> nth_error l q <> Some d).
Proof.
  revert p; induction l as [|x l IH]; cbn; intros p H; [discriminate|].
  destruct (String.eqb x d) eqn:E.
  - injection H as <-. apply String.eqb_eq in E. subst. split; [auto|]. intros; lia.
  - destruct (position d l) as [q|]; [|discriminate]. injection H as <-.
    destruct (IH q eq_refl) as [H1 H2]. split; [auto|]. intros [|q'] Hq.
    + cbn. intro X; injection X as X. apply String.eqb_neq in E. auto.
    + cbn. apply H2. lia.
Qed.
Lemma map_exn_ok {A B} (f : A -> exn + B) l r : map_exn f l = inr r -> Forall2 (fun x y => f x = inr y) l r.
Proof.
  revert r; induction l as [|x l IH]; cbn; intros r H; [injection H as <-; constructor|].
  destruct (f x) eqn:E; [discriminate|]. destruct (map_exn f l); [discriminate|]. injection H as <-.
  constructor; auto.
Qed.
