(** Lemmas on strings, decimal numbers in names, and insertion-ordered dictionaries. *)
From Coq Require Import Decimal DecimalString DecimalNat.
From Verif Require Import Common PointConfigModel.
Open Scope string_scope.
Notation la := list_ascii_of_string.

Lemma la_app a b : la (a ++ b) = (la a ++ la b)%list.
Proof. induction a; simpl; congruence. Qed.
Lemma la_inj a b : la a = la b -> a = b.
Proof. intros H. rewrite <- (string_of_list_ascii_of_string a), <- (string_of_list_ascii_of_string b). congruence. Qed.
Lemma append_assoc a b c : (a ++ b) ++ c = a ++ (b ++ c).
Proof. induction a; simpl; congruence. Qed.
Lemma append_inj_l a b c : a ++ b = a ++ c -> b = c.
Proof. induction a; simpl; [auto|]. intros H; injection H; auto. Qed.
Lemma append_inj_r a b c : a ++ c = b ++ c -> a = b.
Proof. intros H. apply la_inj. apply (f_equal la) in H. rewrite !la_app in H. apply app_inv_tail in H. exact H. Qed.
Lemma app_same_length {A} : forall (a b c d : list A), List.length a = List.length b -> (a ++ c = b ++ d -> a = b /\ c = d)%list.
Proof.
  induction a as [|x a IH]; intros [|y b] c d L H; try discriminate L; [auto|].
  simpl in H. injection H as -> H. injection L as L. destruct (IH b c d L H) as [-> ->]. auto.
Qed.
Lemma append_same_length a b c d : List.length (la c) = List.length (la d) -> a ++ c = b ++ d -> a = b /\ c = d.
Proof.
  intros L H. apply (f_equal la) in H. rewrite !la_app in H.
  assert (La : List.length (la a) = List.length (la b)) by (apply (f_equal (@List.length _)) in H; rewrite !app_length in H; lia).
  destruct (app_same_length _ _ _ _ La H) as [H1 H2]. split; apply la_inj; assumption.
Qed.

(** Digits *)
Definition digit (c : ascii) : Prop := (48 <= nat_of_ascii c <= 57)%nat.
Lemma uint_digits u : Forall digit (la (NilEmpty.string_of_uint u)).
Proof. induction u; simpl; [apply Forall_nil|(apply Forall_cons; [split; apply Nat.leb_le; reflexivity|assumption])..]. Qed.
Lemma dec_digits n : Forall digit (la (dec n)). Proof. apply uint_digits. Qed.
Lemma dec_inj n m : dec n = dec m -> n = m.
Proof.
  unfold dec. intros H. apply (f_equal NilEmpty.uint_of_string) in H. rewrite !NilEmpty.usu in H.
  apply Unsigned.to_uint_inj. congruence.
Qed.
Lemma dec_nonempty n : la (dec n) <> [].
Proof.
  unfold dec. intros H. destruct (Nat.to_uint n) eqn:E; try discriminate H.
  pose proof (Unsigned.of_to n) as T. rewrite E in T. cbn in T. subst n. discriminate E.
Qed.

(** A string does not end in a digit: the first element of the reversed list is none. *)
Definition no_digit_end (s : string) : Prop := match rev (la s) with [] => True | c :: _ => ~ digit c end.
Definition no_digit_endb (s : string) : bool :=
  match rev (la s) with [] => true | c :: _ => negb ((48 <=? nat_of_ascii c)%nat && (nat_of_ascii c <=? 57)%nat) end.
Lemma no_digit_endb_ok s : no_digit_endb s = true -> no_digit_end s.
Proof.
  unfold no_digit_endb, no_digit_end, digit. destruct (rev (la s)) as [|c r]; [auto|].
  destruct (Nat.leb_spec 48 (nat_of_ascii c)); destruct (Nat.leb_spec (nat_of_ascii c) 57); simpl; intros; try discriminate; lia.
Qed.
Lemma split_run {A} (P : A -> Prop) : forall a b x y, Forall P a -> Forall P b ->
  match x with [] => True | c :: _ => ~ P c end -> match y with [] => True | c :: _ => ~ P c end ->
  (a ++ x = b ++ y -> a = b /\ x = y)%list.
Proof.
  induction a as [|p a IH]; intros [|q b] x y Ha Hb Hx Hy H.
  - auto.
  - simpl in H. subst x. exfalso. apply Hx. inversion Hb; auto.
  - simpl in H. subst y. exfalso. apply Hy. inversion Ha; auto.
  - simpl in H. injection H as -> H. inversion_clear Ha. inversion_clear Hb.
    destruct (IH b x y) as [-> ->]; auto.
Qed.
Lemma numbered_inj a b i j : no_digit_end a -> no_digit_end b -> a ++ dec i = b ++ dec j -> a = b /\ i = j.
Proof.
  unfold no_digit_end. intros Ha Hb H. apply (f_equal la) in H. rewrite !la_app in H. apply (f_equal (@rev _)) in H.
  rewrite !rev_app_distr in H.
  destruct (split_run digit (rev (la (dec i))) (rev (la (dec j))) (rev (la a)) (rev (la b))) as [H1 H2]; auto using Forall_rev, dec_digits.
  split.
  - apply la_inj. rewrite <- (rev_involutive (la a)), <- (rev_involutive (la b)). congruence.
  - apply dec_inj, la_inj. rewrite <- (rev_involutive (la (dec i))), <- (rev_involutive (la (dec j))). congruence.
Qed.
Lemma ends_digit a d : Forall digit (la d) -> la d <> [] -> ~ no_digit_end (a ++ d).
Proof.
  intros F N. unfold no_digit_end. rewrite la_app, rev_app_distr. apply Forall_rev in F.
  destruct (rev (la d)) as [|c r] eqn:E.
  - exfalso. apply N. rewrite <- (rev_involutive (la d)), E. reflexivity.
  - simpl. inversion F. auto.
Qed.
Lemma numbered_neq a b i : no_digit_end b -> a ++ dec i <> b.
Proof. intros Hb <-. revert Hb. apply ends_digit; auto using dec_digits, dec_nonempty. Qed.

(** Dictionaries *)
Lemma dget_dset {A} (d : dict A) k v x : dget (dset d k v) x = if k =? x then Some v else dget d x.
Proof.
  induction d as [|[k' v'] d IH]; simpl; [reflexivity|].
  destruct (k' =? k) eqn:E; simpl.
  - apply String.eqb_eq in E. subst k'. destruct (k =? x); reflexivity.
  - rewrite IH. destruct (k' =? x) eqn:E'; [|reflexivity]. apply String.eqb_eq in E'. subst k'. rewrite String.eqb_sym, E. reflexivity.
Qed.
Lemma dget_ddel {A} (d : dict A) k x : dget (ddel d k) x = if k =? x then None else dget d x.
Proof.
  induction d as [|[k' v'] d IH]; simpl; [destruct (k =? x); reflexivity|].
  destruct (k' =? k) eqn:E; simpl.
  - rewrite IH. apply String.eqb_eq in E. subst k'. destruct (k =? x); reflexivity.
  - rewrite IH. destruct (k' =? x) eqn:E'; [|reflexivity]. apply String.eqb_eq in E'. subst k'. rewrite String.eqb_sym, E. reflexivity.
Qed.
Lemma dget_in {A} (d : dict A) k v : dget d k = Some v -> In (k, v) d.
Proof.
  induction d as [|[k' v'] d IH]; simpl; [discriminate|]. destruct (k' =? k) eqn:E; [|auto].
  apply String.eqb_eq in E. intros H. injection H as ->. subst. auto.
Qed.
Lemma in_dget {A} (d : dict A) k v : NoDup (map fst d) -> In (k, v) d -> dget d k = Some v.
Proof.
  induction d as [|[k' v'] d IH]; simpl; [tauto|]. intros N [H|H]; inversion_clear N as [|? ? N1 N2].
  - injection H as -> ->. rewrite String.eqb_refl. reflexivity.
  - destruct (k' =? k) eqn:E; [|auto]. apply String.eqb_eq in E. subst. exfalso. apply N1. apply (in_map fst) in H. exact H.
Qed.
Lemma dset_keys {A} (d : dict A) k v : NoDup (map fst d) -> NoDup (map fst (dset d k v)).
Proof.
  induction d as [|[k' v'] d IH]; simpl; intros N.
  - constructor; [intros []|constructor].
  - inversion_clear N as [|? ? N1 N2]. destruct (k' =? k) eqn:E; simpl; constructor; auto.
    clear IH. apply String.eqb_neq in E. intros H. apply N1. clear N1 N2. induction d as [|[a b] d IH]; simpl in *.
    + destruct H as [H|[]]. congruence.
    + destruct (a =? k) eqn:E'; simpl in *; tauto.
Qed.
Lemma ddel_keys {A} (d : dict A) k : NoDup (map fst d) -> NoDup (map fst (ddel d k)).
Proof.
  induction d as [|[k' v'] d IH]; simpl; intros N; [constructor|]. inversion_clear N as [|? ? N1 N2].
  destruct (k' =? k); simpl; auto. constructor; auto. intros H. apply N1.
  apply in_map_iff in H. destruct H as ([a b] & <- & H). apply filter_In in H. destruct H as [H _]. apply (in_map fst) in H. exact H.
Qed.
