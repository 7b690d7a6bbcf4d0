(** Proofs about the array programs of CryoGridModel: states of the form "every pixel p of the region was replaced by F p". *)
From Verif Require Import Common Constants AtmosphereModel SurfaceModel MeteoFieldsModel GridBalanceModel GridBalanceProofs CryoGridModel.
Open Scope R_scope.

Lemma upd_ext0 {A} (F G : A -> A) g roi : (forall p, F p = G p) -> update g roi F = update g roi G.
Proof. intro H. apply upd_ext. auto. Qed.
Lemma put_mask {A B} (F : A -> A) (f : A -> B -> A) (T : A -> B) b g : forall roi,
  put (update g roi F) (expand roi (map b (take g roi))) (map2 f (take (update g roi F) (expand roi (map b (take g roi)))) (map T (filter b (take g roi))))
  = update g roi (fun p => if b p then f (F p) (T p) else F p).
Proof.
  intro roi. rewrite take_mask. unfold map2. revert roi.
  induction g as [|x g IH]; intros [|c r]; [reflexivity|rewrite !upd_nil; reflexivity|rewrite !upd_nil; reflexivity|].
  rewrite (upd_nil (x :: g) (c :: r) F), (upd_nil (x :: g) (c :: r) (fun p => if b p then f (F p) (T p) else F p)).
  destruct c; cbn [take map expand filter]; [destruct (b x); cbn [map combine put fst snd]; f_equal; apply IH|cbn [put]; f_equal; apply IH].
Qed.
Lemma count_mask {A} (b : A -> bool) g : forall roi, count (expand roi (map b (take g roi))) = length (filter b (take g roi)).
Proof.
  unfold count. assert (N : forall r, filter (fun x : bool => x) (expand r []) = []) by (induction r as [|[] r IH]; cbn; auto).
  induction g as [|x g IH]; intros [|c r]; [reflexivity|cbn [take map]; rewrite N; reflexivity|reflexivity|].
  destruct c; cbn [take map expand filter]; [|apply IH]. destruct (b x); cbn [length]; [f_equal|]; apply IH.
Qed.
Lemma and_mask {A} (b c : A -> bool) g : forall roi,
  map2 andb (take (expand roi (map b (take g roi))) roi) (map c (take g roi)) = map (fun p => b p && c p) (take g roi).
Proof.
  unfold map2. induction g as [|x g IH]; intros [|d r]; cbn [take map]; auto.
  - destruct (take (expand (d :: r) []) (d :: r)); reflexivity.
  - destruct d; cbn [take map expand combine]; auto. f_equal. auto.
Qed.
Lemma where_len o m : length (where_from o m) = count m.
Proof. unfold count. revert o. induction m as [|[] m IH]; intro o; cbn; auto. Qed.
Lemma map_const {A B C} (c : C) (l : list A) : forall l' : list B, length l = length l' -> map (fun _ => c) l = map (fun _ => c) l'.
Proof. induction l as [|x l IH]; intros [|y l'] E; cbn in *; try discriminate; auto. f_equal. auto. Qed.

(** * The remainder *)
Definition rem_pix (dt : R) (t : num) (p : cgp) : cgp :=
  with_e (calc_advective dt) (with_e (calc_turbulent true) (with_e calc_sat_hum (with_e calc_radiation (with_e (set_ts t) p)))).
Definition rem_eb (dt : R) (t : num) (p : cgp) : cgp := with_eb (remainder_value (c_e (rem_pix dt t p))) (rem_pix dt t p).
Lemma remainder_nf dt F b (T : cgp -> num) g roi : let l := take g roi in
  balance_remainder dt (update g roi F) (expand roi (map b l)) (map T (filter b l))
  = Done (update g roi (fun p => if b p then rem_pix dt (T p) (F p) else F p), map (fun p => remainder_value (c_e (rem_pix dt (T p) (F p)))) (filter b l)).
Proof.
  intro l. unfold balance_remainder, l. rewrite map_length, count_mask, Nat.eqb_refl. cbv zeta. f_equal.
  rewrite (put_mask F (fun p t => with_e (set_ts t) p) T b g roi). rewrite !upd_mask.
  f_equal.
  - apply upd_ext0. intro p. unfold rem_pix. destruct (b p); reflexivity.
  - rewrite take_mask, map_map. apply map_ext_in. intros p I. apply filter_In in I. destruct I as [_ I]. rewrite I. reflexivity.
Qed.
Lemma store_nf F b (V : cgp -> num) g roi : let l := take g roi in
  store_eb (update g roi F) (expand roi (map b l)) (map V (filter b l)) = update g roi (fun p => if b p then with_eb (V p) (F p) else F p).
Proof. intro l. unfold store_eb, l. apply (put_mask F (fun p v => with_eb v p) V b g roi). Qed.

(** * Melt of a layer *)
Definition rlt (a b : R) : bool := if Rlt_dec a b then true else false.
Definition rle (a b : R) : bool := if Rle_dec a b then true else false.
Definition melt_possible (k : nat) (m : bool) (p : cgp) : bool := m && (rlt 0 (CryoModel.cth (layer k p)) && rlt 0 (c_time p)).
Definition melt_eb (c : gcfg) (k : nat) (m : bool) (p : cgp) : cgp :=
  if melt_possible k m p then rem_eb (g_dt c) (e_ts (c_e p)) p else p.
Definition melt_here (c : gcfg) (k : nat) (m : bool) (p : cgp) : bool := melt_possible k m p && nlt (Some 0) (c_eb (melt_eb c k m p)).
Definition melt_timed (c : gcfg) (k : nat) (m : bool) (p : cgp) : cgp :=
  let q := with_lmt (fun _ => 0) (melt_eb c k m p) in
  if melt_here c k m p then with_lmt (fun p => Lf * (CryoModel.cice (layer k p) + CryoModel.ccold (layer k p)) / nan_to_zero (c_eb p)) q else q.
Definition melt_total (k : nat) (p : cgp) : cgp := with_layer k (CryoModel.set_cold 0) (add_melt (CryoModel.cice (layer k p)) p).
Definition melt_partly (k : nat) (p : cgp) : cgp :=
  let p := with_layer k (fun l => CryoModel.set_cold (CryoModel.ccold l - nan_to_zero (c_eb p) * c_time p / Lf) l) p in
  with_layer k (fun l => CryoModel.set_cold (Rmax (CryoModel.ccold l) 0) l) (add_melt (-1 * Rmin (CryoModel.ccold (layer k p)) 0) p).
Definition melt_pix (c : gcfg) (k : nat) (m : bool) (p : cgp) : cgp :=
  let q := melt_timed c k m p in
  let q' := if melt_here c k m p && rlt (c_lmt q) (c_time q) then melt_total k q else q in
  let q'' := if melt_here c k m p && rle (c_time q) (c_lmt q) then melt_partly k q' else q' in
  if m then with_time (fun p => c_time p - c_lmt p) q'' else q''.
Lemma melt_nf c k (M : cgp -> bool) F g roi : let l := take g roi in
  melt_layer c roi (map M l) (expand roi (map M l)) k (update g roi F) = Done (update g roi (fun p => melt_pix c k (M p) (F p))).
Proof.
  intro l. unfold melt_layer. rewrite take_upd. fold l. rewrite !map_map, map2_map.
  cbv zeta. set (P' := fun x : cgp => M x && ((if Rlt_dec 0 (CryoModel.cth (layer k (F x))) then true else false) && (if Rlt_dec 0 (c_time (F x)) then true else false))).
  set (P := fun p => melt_possible k (M p) (F p)). assert (EP' : P' = P) by reflexivity. clearbody P'. subst P'.
  assert (TE : map (fun p => e_ts (c_e p)) (take (update g roi F) (expand roi (map P l))) = map (fun p => e_ts (c_e (F p))) (filter P l)).
  { unfold l. rewrite take_mask, map_map. reflexivity. }
  rewrite TE. unfold l at 1 2. rewrite remainder_nf. fold l. cbn [obind].
  assert (ST : store_eb (update g roi (fun p => if P p then rem_pix (g_dt c) (e_ts (c_e (F p))) (F p) else F p)) (expand roi (map P l))
    (map (fun p => remainder_value (c_e (rem_pix (g_dt c) (e_ts (c_e (F p))) (F p)))) (filter P l)) = update g roi (fun p => melt_eb c k (M p) (F p))).
  { unfold l. rewrite store_nf. apply upd_ext0. intro p. unfold melt_eb, rem_eb. fold (P p). destruct (P p); reflexivity. }
  rewrite ST. rewrite take_upd. fold l. rewrite !map_map.
  assert (UM : forall A' b G, update (update g roi A') (expand roi (map b l)) G = update g roi (fun p => if b p then G (A' p) else A' p)) by (intros; apply upd_mask).
  assert (AM : forall b d, map2 andb (take (expand roi (map b l)) roi) (map d l) = map (fun p => b p && d p) l) by (intros; apply and_mask).
  assert (TU : forall A' : cgp -> cgp, take (update g roi A') roi = map A' l) by (intros; apply take_upd).
  assert (UU : forall A' G : cgp -> cgp, update (update g roi A') roi G = update g roi (fun p => G (A' p))) by (intros; apply upd_upd).
  rewrite AM, UU.
  set (H := fun p => P p && nlt (Some 0) (c_eb (melt_eb c k (M p) (F p)))).
  rewrite UM, TU, !map_map, !AM, !UM. f_equal. apply upd_ext0. intro p. unfold melt_pix. cbv zeta.
  change (melt_here c k (M p) (F p)) with (H p).
  set (q := melt_timed c k (M p) (F p)).
  assert (Eq : q = if H p then with_lmt (fun p => Lf * (CryoModel.cice (layer k p) + CryoModel.ccold (layer k p)) / nan_to_zero (c_eb p)) (with_lmt (fun _ => 0) (melt_eb c k (M p) (F p)))
                   else with_lmt (fun _ => 0) (melt_eb c k (M p) (F p))) by reflexivity.
  rewrite <- Eq. unfold rlt, rle. clearbody q. clear Eq.
  destruct (H p); cbn [andb]; [|reflexivity].
  destruct (Rlt_dec (c_lmt q) (c_time q)); destruct (Rle_dec (c_time q) (c_lmt q)); reflexivity.
Qed.
Lemma melts_nf c (M : cgp -> bool) ks g roi : let l := take g roi in forall F,
  fold_left (fun o k => obind o (melt_layer c roi (map M l) (expand roi (map M l)) k)) ks (Done (update g roi F))
  = Done (update g roi (fun p => fold_left (fun p' k => melt_pix c k (M p) p') ks (F p))).
Proof.
  intro l. induction ks as [|k ks IH]; intro F; [reflexivity|]. cbn [fold_left obind]. unfold l. rewrite melt_nf. fold l. rewrite IH. reflexivity.
Qed.

(** * Refreezing in a layer *)
Definition refr_here (k : nat) (f : bool) (p : cgp) : bool := f && (rlt 0 (CryoModel.cth (layer k p)) && nlt (Some 0) (c_av p)).
Definition refr_amount (k : nat) (p : cgp) : R := Rmin (CryoModel.clw (layer k p)) (nan_to_zero (c_av p)).
Definition refr_move (k : nat) (a : R) (p : cgp) : cgp :=
  let p := with_layer k (fun l => CryoModel.set_lw (CryoModel.clw l - a) l) p in
  let p := with_layer k (fun l =>
    CryoModel.CL (CryoModel.cth l) (CryoModel.cice l + a) (CryoModel.clw l) (CryoModel.ccold l) (CryoModel.cdens l) (CryoModel.calb l)) p in
  with_av (fun p => nsub (c_av p) (Some a)) (with_refr (fun p => nadd (c_refr p) (Some a)) p).
Definition refr_buildup (c : gcfg) (k : nat) (p : cgp) : R :=
  Rmin (nan_to_zero (c_av p)) (g_cap c * (CryoModel.cice (layer k p) + CryoModel.clw (layer k p)) - CryoModel.ccold (layer k p)).
Definition refr_cool (k : nat) (b : R) (p : cgp) : cgp :=
  with_av (fun p => nsub (c_av p) (Some b)) (with_layer k (fun l => CryoModel.set_cold (CryoModel.ccold l + b) l) p).
Definition refr_pix (c : gcfg) (k : nat) (f : bool) (p : cgp) : cgp :=
  if refr_here k f p then
    let q := refr_move k (refr_amount k p) p in
    refr_cool k (refr_buildup c k q) q
  else p.
Lemma refreeze_nf c k (M : cgp -> bool) F g roi : let l := take g roi in
  refreeze_grid c roi (map M l) k (update g roi F) = update g roi (fun p => refr_pix c k (M p) (F p)).
Proof.
  intro l. unfold refreeze_grid. rewrite take_upd. fold l. rewrite !map_map, map2_map.
  cbv zeta. set (P' := fun x : cgp => M x && ((if Rlt_dec 0 (CryoModel.cth (layer k (F x))) then true else false) && nlt (Some 0) (c_av (F x)))).
  set (P := fun p => refr_here k (M p) (F p)). assert (EP' : P' = P) by reflexivity. clearbody P'. subst P'.
  set (m := expand roi (map P l)).
  assert (TA : forall G, take (update g roi G) m = map G (filter P l)) by (intro G; apply take_mask).
  assert (PA : forall G (f : cgp -> R -> cgp) (T : cgp -> R),
    put (update g roi G) m (map2 f (map G (filter P l)) (map T (filter P l))) = update g roi (fun p => if P p then f (G p) (T p) else G p))
    by (intros G f T; rewrite <- (TA G); apply put_mask).
  repeat first [rewrite TA | rewrite PA | rewrite (map_map _ _ (filter P l))]. apply upd_ext0. intro p. unfold refr_pix. fold (P p). destruct (P p); reflexivity.
Qed.
Lemma refreezes_nf c (M : cgp -> bool) ks g roi : let l := take g roi in forall F,
  fold_left (fun g' k => refreeze_grid c roi (map M l) k g') ks (update g roi F)
  = update g roi (fun p => fold_left (fun p' k => refr_pix c k (M p) p') ks (F p)).
Proof.
  intro l. induction ks as [|k ks IH]; intro F; [reflexivity|]. cbn [fold_left]. unfold l. rewrite refreeze_nf. fold l. rewrite IH. reflexivity.
Qed.

(** * Arrays which shrink *)
Fixpoint sequence {A} (l : list (option A)) : option (list A) :=
  match l with
  | [] => Some []
  | Some x :: l' => match sequence l' with Some r => Some (x :: r) | None => None end
  | None :: _ => None
  end.
Lemma where_ge o m i : In i (where_from o m) -> (o <= i)%nat.
Proof. revert o. induction m as [|[] m IH]; intros o H; cbn in H; [contradiction| |apply IH in H; lia]. destruct H as [<-|H]; [lia|apply IH in H; lia]. Qed.
Lemma take_in {A} (l : list A) : forall m x, In x (take l m) -> In x l.
Proof. induction l as [|y l IH]; intros [|[] m] x H; cbn in *; try contradiction; [destruct H; eauto|eauto]. Qed.
Lemma clear_expand_from o m : forall bs, length bs = count m ->
  map2 (fun i (b : bool) => if existsb (Nat.eqb i) (take (where_from o m) (map negb bs)) then false else b) (seq o (length m)) m = expand m bs.
Proof.
  revert o. induction m as [|b m IH]; intros o bs L; [reflexivity|]. unfold map2 in *. cbn [length seq combine map fst snd].
  assert (EXT : forall I b0, map (fun x : nat * bool => if existsb (Nat.eqb (fst x)) (if b0 : bool then o :: I else I) then false else snd x) (combine (seq (S o) (length m)) m)
    = map (fun x : nat * bool => if existsb (Nat.eqb (fst x)) I then false else snd x) (combine (seq (S o) (length m)) m)).
  { intros I b0. apply map_ext_in. intros [i c] H. apply in_combine_l in H. apply in_seq in H. cbn [fst snd]. destruct b0; auto.
    cbn [existsb]. destruct (Nat.eqb_spec i o); [lia|]. reflexivity. }
  destruct b.
  - destruct bs as [|b bs]; [discriminate|]. unfold count in L. cbn in L. injection L as L. cbn [where_from map take expand].
    assert (NI : existsb (Nat.eqb o) (take (where_from (S o) m) (map negb bs)) = false).
    { apply not_true_is_false. rewrite existsb_exists. intros (i & H & E). apply Nat.eqb_eq in E. subst i. apply take_in, where_ge in H. lia. }
    pose proof (EXT (take (where_from (S o) m) (map negb bs)) (negb b)) as E. rewrite E, (IH (S o) bs L).
    destruct b; cbn [negb existsb]; [rewrite NI|rewrite Nat.eqb_refl]; reflexivity.
  - cbn [where_from expand]. rewrite (IH (S o) bs L). destruct (existsb _ _); reflexivity.
Qed.
Lemma clear_expand m bs : length bs = count m -> clear m (take (where_from 0 m) (map negb bs)) = expand m bs.
Proof. apply clear_expand_from. Qed.
Lemma where_expand m : forall o bs, length bs = count m -> take (where_from o m) bs = where_from o (expand m bs).
Proof.
  induction m as [|[] m IH]; intros o bs L; [reflexivity| |cbn; apply IH; exact L].
  destruct bs as [|b bs]; [discriminate|]. injection L as L. cbn [where_from take expand]. destruct b; [f_equal|]; auto.
Qed.
Lemma count_take {A} (g : list A) : forall m, length g = length m -> length (take g m) = count m.
Proof. unfold count. induction g as [|x g IH]; intros [|[] m] L; cbn in *; try discriminate; auto. Qed.
Lemma expand_length m : forall bs, length (expand m bs) = length m.
Proof. induction m as [|[] m IH]; intros [|b bs]; cbn; auto. Qed.
Lemma take_expand {A Q} (h : Q -> A) (b : Q -> bool) (g : list A) : forall m l, length g = length m -> take g m = map h l -> take g (expand m (map b l)) = map h (filter b l).
Proof.
  induction g as [|x g IH]; intros [|c m] l L E; try discriminate; cbn in E |- *.
  - destruct l; [reflexivity|discriminate].
  - injection L as L. destruct c.
    + destruct l as [|q l]; [discriminate|]. injection E as E1 E. cbn [map filter]. destruct (b q); cbn [map]; [f_equal; auto|]; apply IH; auto.
    + apply IH; auto.
Qed.
Lemma put_put {A} (g : list A) : forall m vs ws, length vs = length ws -> length vs = length (take g m) -> put (put g m vs) m ws = put g m ws.
Proof.
  induction g as [|x g IH]; intros [|[] m] vs ws L1 L2; cbn in *; auto.
  - destruct vs, ws; try discriminate. injection L1 as L1. injection L2 as L2. cbn. f_equal. auto.
  - f_equal. auto.
Qed.
Lemma take_put {A} (g : list A) : forall m vs, length vs = length (take g m) -> take (put g m vs) m = vs.
Proof.
  induction g as [|x g IH]; intros [|[] m] vs L; cbn in *; try (destruct vs; [reflexivity|discriminate]).
  - destruct vs; [discriminate|]. injection L as L. cbn. f_equal. auto.
  - auto.
Qed.
Lemma put_length {A} (g : list A) : forall m vs, length (put g m vs) = length g.
Proof. induction g as [|x g IH]; intros [|[] m] vs; cbn; auto. destruct vs; cbn; auto. Qed.
Lemma put_take {A} (g : list A) : forall m, put g m (take g m) = g.
Proof. induction g as [|x g IH]; intros [|[] m]; cbn; auto; f_equal; auto. Qed.
Lemma update_put {A} (G : A -> A) g m vs : length vs = length (take g m) -> update (put g m vs) m G = put g m (map G vs).
Proof. intro L. unfold update. rewrite take_put by auto. apply put_put; rewrite ?map_length; auto. Qed.

(** * The secant iteration of one pixel, for any way [step] to set the temperature of a pixel and any residual [val] *)
Record sq (P : Type) := SQ { q_p : P; q_x0 : R; q_x1 : R; q_y0 : num; q_y1 : num }.
Arguments SQ {P}. Arguments q_p {P}. Arguments q_x0 {P}. Arguments q_x1 {P}. Arguments q_y0 {P}. Arguments q_y1 {P}.
Definition sq_d {P} (q : sq P) : num := secant_step (q_x0 q) (q_x1 q) (q_y0 q) (q_y1 q).
Definition sq_next {P} (step : R -> P -> P) (val : P -> num) (q : sq P) : sq P :=
  let x := minus_step (q_x1 q) (sq_d q) in
  let p := step x (q_p q) in
  SQ p (q_x1 q) x (q_y1 q) (val p).
Fixpoint secant_pixel {P} (step : R -> P -> P) (val : P -> num) (fuel : nat) (q : sq P) : option P :=
  match fuel with
  | O => None
  | S fuel' => if beyond (sq_d q) then secant_pixel step val fuel' (sq_next step val q) else Some (q_p q)
  end.
Lemma put_results {Q A} (g : list A) (P : Q -> A) (b : Q -> bool) (r : Q -> option A) : forall m l, length g = length m -> take g m = map P l ->
  match sequence (map r (filter b l)), sequence (map (fun q => if b q then r q else Some (P q)) l) with
  | Some vs, Some ws => put g (expand m (map b l)) vs = put g m ws
  | None, None => True
  | _, _ => False
  end.
Proof.
  induction g as [|x g IH]; intros [|c m] l L E; try discriminate; cbn in E.
  - destruct l; [cbn; reflexivity|discriminate].
  - injection L as L. destruct c.
    + destruct l as [|q l]; [discriminate|]. injection E as E1 E. cbn [map filter]. specialize (IH m l L E). destruct (b q).
      * cbn [map sequence]. destruct (r q) as [v|]; [|exact I].
        destruct (sequence (map r (filter b l))), (sequence (map _ l)); auto. cbn [expand put]. f_equal. auto.
      * cbn [sequence]. destruct (sequence (map r (filter b l))), (sequence (map _ l)); auto. cbn [expand put]. f_equal; auto.
    + specialize (IH m l L E). destruct (sequence (map r (filter b l))), (sequence (map _ l)); auto. cbn [expand put]. f_equal; auto.
Qed.
Lemma sequence_length {A} (l : list (option A)) : forall r, sequence l = Some r -> length r = length l.
Proof.
  induction l as [|[x|] l IH]; intros r E; cbn in E; try discriminate.
  - injection E as <-. reflexivity.
  - destruct (sequence l); [|discriminate]. injection E as <-. cbn. f_equal. auto.
Qed.
Lemma any_map {A} (b : A -> bool) l : any (map b l) = false -> filter b l = [].
Proof. unfold any. induction l as [|x l IH]; cbn; auto. destruct (b x); cbn; [discriminate|auto]. Qed.
Lemma any_map_true {A} (b : A -> bool) l : any (map b l) = true -> filter b l <> [].
Proof. unfold any. induction l as [|x l IH]; cbn; [discriminate|]. destruct (b x); cbn; auto. discriminate. Qed.
Section Secant.
Variables (P : Type) (step : R -> P -> P) (val : P -> num) (rem : list P -> list bool -> list R -> outcome (list P * list num)).
Hypothesis RP : forall (Q : Type) g m (l : list Q) (A : Q -> P) (X : Q -> R), length g = length m -> take g m = map A l ->
  rem g m (map X l) = Done (put g m (map (fun q => step (X q) (A q)) l), map (fun q => val (step (X q) (A q))) l).
Lemma secant_nf fuel : forall g m l, length g = length m -> take g m = map q_p l -> l <> [] ->
  secant_loop rem fuel g m (where_from 0 m) (map q_x0 l) (map q_x1 l) (map q_y0 l) (map q_y1 l)
  = match sequence (map (secant_pixel step val fuel) l) with Some vs => Done (put g m vs) | None => Unfinished end.
Proof.
  induction fuel as [|fuel IH]; intros g m l L E NE.
  - destruct l as [|q l]; [contradiction|]. reflexivity.
  - cbn [secant_loop]. cbv zeta.
    assert (CM : forall A B (f : sq P -> A) (h : sq P -> B), combine (map f l) (map h l) = map (fun q => (f q, h q)) l)
      by (intros A B f h; clear; induction l as [|q l IHl]; cbn; [|f_equal]; auto).
    rewrite !CM. rewrite map2_map. cbn [fst snd]. 
    change (fun x : sq P => secant_step (q_x0 x) (q_x1 x) (q_y0 x) (q_y1 x)) with (@sq_d P). rewrite map_map.
    set (b := fun q => beyond (sq_d q)).
    pose proof (put_results g q_p b (fun q => secant_pixel step val fuel (sq_next step val q)) m l L E) as PR.
    assert (SP : map (fun q => if b q then secant_pixel step val fuel (sq_next step val q) else Some (q_p q)) l = map (secant_pixel step val (S fuel)) l) by reflexivity.
    cbv beta in PR. rewrite SP in PR. clear SP.
    assert (CL : length (map b l) = count m) by (rewrite <- (count_take g m L), E, !map_length; reflexivity).
    destruct (any (map b l)) eqn:AN; cbn [negb].
    + rewrite !take_filter. rewrite clear_expand, where_expand by auto. rewrite map2_map.
      set (m' := expand m (map b l)). set (l' := filter b l).
      assert (L' : length g = length m') by (unfold m'; rewrite expand_length; auto).
      assert (E' : take g m' = map q_p l') by (apply take_expand; auto).
      rewrite (RP _ g m' l' q_p (fun x => minus_step (q_x1 x) (sq_d x)) L' E'). cbn [obind].
      set (g' := put g m' _).
      assert (LG : length g' = length m') by (unfold g'; rewrite put_length; auto).
      assert (EG : take g' m' = map q_p (map (sq_next step val) l')).
      { unfold g'. rewrite take_put by (rewrite E', !map_length; reflexivity). rewrite map_map. reflexivity. }
      assert (NE' : map (sq_next step val) l' <> []).
      { pose proof (any_map_true b l AN) as N. fold l' in N. destruct l'; [contradiction|discriminate]. }
      specialize (IH g' m' (map (sq_next step val) l') LG EG NE'). rewrite !map_map in IH. cbn [sq_next q_x0 q_x1 q_y0 q_y1] in IH.
      change (fun x : sq P => q_x0 (sq_next step val x)) with (@q_x1 P) in IH. change (fun x : sq P => q_y0 (sq_next step val x)) with (@q_y1 P) in IH.
      change (secant_loop rem fuel g' m' (where_from 0 m') (map q_x1 l') (map (fun x => minus_step (q_x1 x) (sq_d x)) l') (map q_y1 l')
        (map (fun q => val (step (minus_step (q_x1 q) (sq_d q)) (q_p q))) l') =
        match sequence (map (secant_pixel step val (S fuel)) l) with Some vs => Done (put g m vs) | None => Unfinished end).
      transitivity (match sequence (map (fun x => secant_pixel step val fuel (sq_next step val x)) l') with Some vs => Done (put g' m' vs) | None => Unfinished end); [exact IH|].
      fold l' in PR. destruct (sequence (map (fun x => secant_pixel step val fuel (sq_next step val x)) l')) as [vs|] eqn:SE; destruct (sequence (map (secant_pixel step val (S fuel)) l)) as [ws|]; try contradiction; auto.
      f_equal. transitivity (put g m' vs); [|exact PR]. unfold g'. apply put_put.
      * rewrite (sequence_length _ _ SE), !map_length. reflexivity.
      * rewrite E', !map_length. reflexivity.
    + rewrite (any_map b l AN) in PR. cbn [map sequence] in PR. destruct (sequence (map (secant_pixel step val (S fuel)) l)) as [ws|]; [|contradiction].
      f_equal. rewrite <- PR.
      assert (TE : take g (expand m (map b l)) = []) by (rewrite (take_expand q_p b g m l L E), (any_map b l AN); reflexivity).
      rewrite <- TE. symmetry. apply put_take.
Qed.
End Secant.
Definition grem (dt : R) (g : list cgp) (m : list bool) (xs : list R) := balance_remainder dt g m (map Some xs).
Lemma rem_put {Q} dt g m (l : list Q) (P : Q -> cgp) (X : Q -> R) : length g = length m -> take g m = map P l ->
  grem dt g m (map X l) = Done (put g m (map (fun q => rem_pix dt (Some (X q)) (P q)) l), map (fun q => remainder_value (c_e (rem_pix dt (Some (X q)) (P q)))) l).
Proof.
  intros L E. unfold grem, balance_remainder. rewrite <- (count_take g m L), E, !map_length, Nat.eqb_refl. cbv zeta. f_equal.
  rewrite map_map, map2_map. unfold rem_pix.
  assert (LE : forall B (f : Q -> B), length (map f l) = length (take g m)) by (intros; rewrite E, !map_length; reflexivity).
  repeat (rewrite update_put by (rewrite ?map_length; rewrite E, map_length; reflexivity)). rewrite !map_map. f_equal.
  rewrite take_put by apply LE. rewrite map_map. reflexivity.
Qed.

(** * Both iterations on the pixels of a mask *)
Definition cryo_secant (dt : R) : nat -> sq cgp -> option cgp := secant_pixel (fun x => rem_pix dt (Some x)) (fun p => remainder_value (c_e p)).
Definition secant_start (dt : R) (p : cgp) : sq cgp :=
  let p0 := rem_pix dt (Some (T0 - 10)) p in
  let p1 := rem_pix dt (Some T0) p0 in
  SQ p1 (T0 - 10) T0 (remainder_value (c_e p0)) (remainder_value (c_e p1)).
Definition secant_result (dt : R) (fuel : nat) (p : cgp) : option cgp := option_map clip_ts (cryo_secant dt fuel (secant_start dt p)).
Definition oget {A} (d : A) (o : option A) : A := match o with Some x => x | None => d end.
Definition is_some {A} (o : option A) : bool := match o with Some _ => true | None => false end.
Lemma sequence_map {A B} (d : A -> B) (r : A -> option B) l :
  sequence (map r l) = if forallb (fun x => is_some (r x)) l then Some (map (fun x => oget (d x) (r x)) l) else None.
Proof. induction l as [|x l IH]; cbn; auto. destruct (r x); cbn; auto. rewrite IH. destruct (forallb _ l); auto. Qed.
Lemma forallb_filter {A} (b r : A -> bool) l : forallb r (filter b l) = forallb (fun x => negb (b x) || r x) l.
Proof. induction l as [|x l IH]; cbn; auto. destruct (b x); cbn; rewrite IH; auto. Qed.
Lemma sequence_option_map {A B} (f : A -> B) (l : list (option A)) : sequence (map (option_map f) l) = option_map (map f) (sequence l).
Proof. induction l as [|[x|] l IH]; cbn; auto. rewrite IH. destruct (sequence l); auto. Qed.
Lemma put_mask' {A} (F H : A -> A) b g roi : put (update g roi F) (expand roi (map b (take g roi))) (map H (filter b (take g roi))) = update g roi (fun p => if b p then H p else F p).
Proof.
  rewrite <- (put_mask F (fun _ h => h) H b g roi). f_equal. rewrite take_mask. unfold map2. 
  induction (filter b (take g roi)) as [|x l IH]; cbn; [|f_equal]; auto.
Qed.
Lemma any_filter {A} (b : A -> bool) g roi : any (expand roi (map b (take g roi))) = negb (match filter b (take g roi) with [] => true | _ => false end).
Proof.
  assert (H : forall m, any m = negb (match count m with O => true | _ => false end)).
  { unfold any, count. induction m as [|[] m IH]; cbn; auto. }
  rewrite H, count_mask. destruct (filter b (take g roi)); reflexivity.
Qed.
Lemma update_length {A} (F : A -> A) g m : length (update g m F) = length g.
Proof. apply put_length. Qed.
Local Opaque rem_pix remainder_value secant_loop secant_pixel.
Lemma iterate_secant_nf dt fuel B F g roi : length g = length roi -> let l := take g roi in
  iterate_secant dt fuel (update g roi F) (expand roi (map B l))
  = if forallb (fun p => negb (B p) || is_some (secant_result dt fuel (F p))) l
    then Done (update g roi (fun p => if B p then oget (F p) (secant_result dt fuel (F p)) else F p)) else Unfinished.
Proof.
  intros L l. unfold iterate_secant. unfold l. rewrite any_filter. fold l.
  assert (TM : take (update g roi F) (expand roi (map B l)) = map F (filter B l)) by apply take_mask.
  assert (LM : length (update g roi F) = length (expand roi (map B l))) by (rewrite update_length, expand_length; auto).
  assert (PM : forall H, put (update g roi F) (expand roi (map B l)) (map H (filter B l)) = update g roi (fun p => if B p then H p else F p)) by (intro H; apply put_mask').
  rewrite <- forallb_filter.
  destruct (filter B l) as [|p0 l0] eqn:FL; cbn [negb].
  - cbn [forallb]. f_equal. apply upd_ext. intros p I. destruct (B p) eqn:Bp; auto. assert (In p (filter B l)) by (apply filter_In; auto). rewrite FL in H. contradiction.
  - rewrite <- FL in *. change (fun (g0 : list cgp) (m : list bool) (xs : list R) => balance_remainder dt g0 m (map Some xs)) with (grem dt).
    set (m := expand roi (map B l)) in *. set (g0 := update g roi F) in *. set (l' := filter B l) in *.
    assert (CN : forall c : R, map (fun _ : nat => c) (where_from 0 m) = map (fun _ : cgp => c) l').
    { intro c. apply map_const. rewrite where_len. unfold m, l'. apply count_mask. }
    assert (GR : forall g' xs, balance_remainder dt g' m (map Some xs) = grem dt g' m xs) by reflexivity.
    cbv zeta. rewrite !CN. rewrite GR, (rem_put dt g0 m l' F (fun _ => T0 - 10) LM TM). cbn [obind]. rewrite GR.
    set (g1 := put g0 m _).
    assert (LM1 : length g1 = length m) by (unfold g1; rewrite put_length; auto).
    assert (TM1 : take g1 m = map (fun q => rem_pix dt (Some (T0 - 10)) (F q)) l') by (unfold g1; apply take_put; rewrite TM, !map_length; auto).
    rewrite (rem_put dt g1 m l' _ (fun _ => T0) LM1 TM1). cbn [obind].
    set (g2 := put g1 m _).
    assert (LM2 : length g2 = length m) by (unfold g2; rewrite put_length; auto).
    assert (TM2 : take g2 m = map q_p (map (fun p => secant_start dt (F p)) l')).
    { unfold g2. rewrite take_put by (rewrite TM1, !map_length; auto). rewrite map_map. reflexivity. }
    assert (NE : map (fun p => secant_start dt (F p)) l' <> []) by (rewrite FL; discriminate).
    pose proof (secant_nf cgp (fun x => rem_pix dt (Some x)) (fun p => remainder_value (c_e p)) (grem dt) (fun Q => @rem_put Q dt) fuel g2 m _ LM2 TM2 NE) as SN. rewrite !map_map in SN. cbn [secant_start q_x0 q_x1 q_y0 q_y1] in SN.
    match type of SN with ?X = _ => match goal with |- obind ?Y _ = _ => change Y with X end end. rewrite SN. clear SN.
    rewrite (sequence_map (fun p => F p) (fun x => cryo_secant dt fuel (secant_start dt (F x)))).
    assert (IS : forallb (fun x => is_some (cryo_secant dt fuel (secant_start dt (F x)))) l' = forallb (fun p => is_some (secant_result dt fuel (F p))) l').
    { clear. induction l' as [|x l' IH]; cbn; auto. rewrite IH. unfold secant_result. destruct (cryo_secant dt fuel _); reflexivity. }
    rewrite IS. destruct (forallb (fun p => is_some (secant_result dt fuel (F p))) l') eqn:FB; cbn [obind]; [|reflexivity]. f_equal.
    rewrite update_put by (rewrite TM2, !map_length; auto). rewrite map_map.
    unfold g2. rewrite put_put by (rewrite ?TM1, ?map_length; auto). unfold g1. rewrite put_put by (rewrite ?TM, ?map_length; auto).
    unfold g0 at 1. rewrite PM. unfold m. apply upd_ext. intros p I. destruct (B p) eqn:Bp; auto.
    unfold secant_result. rewrite forallb_forall in FB. assert (IP : In p l') by (apply filter_In; auto). specialize (FB p IP). unfold secant_result in FB.
    destruct (cryo_secant dt fuel (secant_start dt (F p))); [reflexivity|discriminate].
Qed.

Local Transparent rem_pix remainder_value secant_loop secant_pixel.
(** The legacy iteration of a pixel: it takes part as long as its balance is negative. *)
Fixpoint legacy_pixel (dt : R) (b : bool) (temps : list R) (a : bool) (p : cgp) : cgp :=
  match temps with
  | [] => p
  | t :: ts => let p' := if a then rem_eb dt (Some t) p else p in legacy_pixel dt b ts (b && nlt (c_eb p') (Some 0)) p'
  end.
Lemma legacy_nf dt B g roi temps : let l := take g roi in forall A F,
  legacy_loop dt roi (expand roi (map B l)) temps (update g roi F) (expand roi (map A l))
  = Done (update g roi (fun p => legacy_pixel dt (B p) temps (A p) (F p))).
Proof.
  intro l. induction temps as [|t ts IH]; intros A F; [reflexivity|]. cbn [legacy_loop legacy_pixel].
  assert (CN : map (fun _ : nat => Some t) (where_from 0 (expand roi (map A l))) = map (fun _ : cgp => Some t) (filter A l)).
  { apply map_const. rewrite where_len. apply count_mask. }
  pose proof (remainder_nf dt F A (fun _ => Some t) g roi) as RN. cbv zeta in RN. fold l in RN. rewrite CN.
  match type of RN with ?L = _ => match goal with |- obind ?X _ = _ => change X with L end end. rewrite RN. cbn [obind].
  pose proof (store_nf (fun p => if A p then rem_pix dt (Some t) (F p) else F p) A (fun p => remainder_value (c_e (rem_pix dt (Some t) (F p)))) g roi) as SN.
  cbv zeta in SN. fold l in SN. rewrite SN. clear SN. cbv zeta. rewrite take_upd. fold l. rewrite map_map. unfold l. rewrite and_mask. fold l. rewrite IH.
  f_equal. apply upd_ext0. intro p. unfold rem_eb. destruct (A p); reflexivity.
Qed.
Lemma iterate_legacy_nf dt B F g roi : let l := take g roi in
  iterate_legacy dt roi (update g roi F) (expand roi (map B l))
  = Done (update g roi (fun p => if match filter B l with [] => false | _ => true end
                                then legacy_pixel dt (B p) (legacy_grid (lowest_temp (update g roi F) (expand roi (map B l)))) (B p) (with_eb (Some 0) (F p)) else F p)).
Proof.
  intro l. unfold iterate_legacy. unfold l. rewrite any_filter. fold l. destruct (filter B l) eqn:FL; cbn [negb]; [reflexivity|].
  cbv zeta. rewrite upd_upd. unfold l. rewrite legacy_nf. reflexivity.
Qed.
