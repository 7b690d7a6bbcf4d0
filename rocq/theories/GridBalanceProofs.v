(** Proofs about arrays and masks. *)
From Verif Require Import Common GridBalanceModel.

Lemma upd_nil {A} (g : list A) roi F : update g roi F = match g, roi with x :: g', b :: r' => (if b then F x else x) :: update g' r' F | _, _ => g end.
Proof. unfold update. destruct g as [|x g], roi as [|[] roi]; reflexivity. Qed.
Lemma take_upd {A} (F : A -> A) g : forall roi, take (update g roi F) roi = map F (take g roi).
Proof. induction g as [|x g IH]; intros [|[] r]; rewrite upd_nil; cbn; auto. f_equal; auto. Qed.
Lemma upd_upd {A} (F G : A -> A) g : forall roi, update (update g roi F) roi G = update g roi (fun p => G (F p)).
Proof. induction g as [|x g IH]; intros [|b r]; rewrite (upd_nil _ _ F), (upd_nil _ _ G), (upd_nil _ _ (fun p => G (F p))); auto. destruct b; f_equal; auto. Qed.
Lemma upd_ext {A} (F G : A -> A) g : forall roi, (forall p, In p (take g roi) -> F p = G p) -> update g roi F = update g roi G.
Proof.
  induction g as [|x g IH]; intros [|b r] H; rewrite (upd_nil _ _ F), (upd_nil _ _ G); auto. destruct b; cbn in H.
  - f_equal; auto.
  - f_equal; auto.
Qed.
Lemma upd_mask {A} (F G : A -> A) b g : forall roi,
  update (update g roi F) (expand roi (map b (take g roi))) G = update g roi (fun p => if b p then G (F p) else F p).
Proof.
  induction g as [|x g IH]; intros [|c r]; [reflexivity|rewrite !upd_nil; reflexivity|reflexivity|].
  - rewrite (upd_nil (x :: g) (c :: r) F). destruct c; cbn [take map expand].
    + rewrite upd_nil, (upd_nil (x :: g) (true :: r)). destruct (b x); f_equal; auto.
    + rewrite upd_nil, (upd_nil (x :: g) (false :: r)). f_equal; auto.
Qed.
Lemma take_mask {A} (F : A -> A) b g : forall roi,
  take (update g roi F) (expand roi (map b (take g roi))) = map F (filter b (take g roi)).
Proof.
  induction g as [|x g IH]; intros [|c r]; [reflexivity|rewrite !upd_nil; reflexivity|reflexivity|].
  - rewrite (upd_nil (x :: g) (c :: r) F). destruct c; cbn [take map expand filter]; auto.
    destruct (b x); cbn [map]; [f_equal|]; auto.
Qed.
Lemma put_upd {A} (F H : A -> A) g : forall roi, put (update g roi F) roi (map H (take g roi)) = update g roi H.
Proof. induction g as [|x g IH]; intros [|[] r]; rewrite (upd_nil _ _ F), (upd_nil _ _ H); cbn; auto; f_equal; auto. Qed.
Lemma put_filter {A B} (h k : A -> B) (b : A -> bool) l : put (map h l) (map b l) (map k (filter b l)) = map (fun p => if b p then k p else h p) l.
Proof. induction l as [|x l IH]; cbn; auto. destruct (b x); cbn; f_equal; auto. Qed.
Lemma take_filter {A B} (h : A -> B) (b : A -> bool) l : take (map h l) (map b l) = map h (filter b l).
Proof. induction l as [|x l IH]; cbn; auto. destruct (b x); cbn; [f_equal|]; auto. Qed.
Lemma map2_map {A B C D} (f : B -> C -> D) (h : A -> B) (k : A -> C) l : map2 f (map h l) (map k l) = map (fun x => f (h x) (k x)) l.
Proof. unfold map2. induction l as [|x l IH]; cbn; auto. f_equal; auto. Qed.
Lemma existsb_map_false {A} (b : A -> bool) l : existsb (fun x => x) (map b l) = false -> forall x, In x l -> b x = false.
Proof.
  induction l as [|y l IH]; cbn; intros H x [].
  - subst. destruct (b x); auto.
  - apply IH; auto. destruct (b y); auto. discriminate.
Qed.
