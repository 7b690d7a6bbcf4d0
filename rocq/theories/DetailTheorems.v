(** Further theorems that fix details of the atmosphere, surface, cryosphere layer, date and state
    variable functions: values at reference points, linearity, exact character sets. *)
From Coq Require Import String Ascii.
From Verif Require Import Common Constants SnowModel SnowProofs MultilayerModel AtmosphereModel SurfaceModel.
From Verif Require CryoModel CryoProofs TimeModel StateModel.
Local Open Scope R_scope.

(** * C72 Derived quantities of moist air *)
(** The heat capacity interpolates linearly between dry air and vapor, whose capacity is 1.84 times
    as large. *)
Theorem c72_moist_air : forall q, let cp := specific_heat_capacity_moist_air in
  cp 0 = SPEC_HEAT_CAP_DRY_AIR /\ cp 1 = 1.84 * SPEC_HEAT_CAP_DRY_AIR /\ cp q = (1 - q) * cp 0 + q * cp 1.
Proof. intros q cp. unfold cp, specific_heat_capacity_moist_air. repeat split; lra. Qed.
Print Assumptions c72_moist_air.
(** The psychrometric constant balances the heat lost by air and the heat taken up by evaporation:
    gamma * 0.622 * L = c p. *)
Theorem c72_psychrometric : forall p c l, l <> 0 -> psychrometric_constant p c l * (0.622 * l) = c * p.
Proof. intros p c l H. unfold psychrometric_constant. field; repeat split; auto; lra. Qed.
Print Assumptions c72_psychrometric.
(** Prata (1996): w = 46.5 e / T in cm with e in hPa, i.e. 4.65 e / T mm (= kg m-2) with e in Pa. *)
Theorem c72_precipitable : forall t e, t <> 0 -> precipitable_water t e * t = 4.65 * e.
Proof. intros t e H. unfold precipitable_water. assert (I : / t * t = 1) by (field; auto). unfold Rdiv. transitivity (4.65 * e * (/ t * t)); [lra|rewrite I; lra]. Qed.
Print Assumptions c72_precipitable.
(** Prata's emissivity of a cloudless sky: 1 - exp(-sqrt 1.2) without water vapor, and
    (1 - eps) exp(sqrt(1.2 + 0.3 w)) = 1 + w / 10 for w mm. *)
Theorem c72_emissivity : forall w, (1 - clear_sky_emissivity w) * exp (sqrt (1.2 + 0.3 * w)) = 1 + w / 10.
Proof.
  intros w. unfold clear_sky_emissivity. cbv zeta. replace (1.2 + 3 * (w / 10)) with (1.2 + 0.3 * w) by lra. set (x := sqrt _).
  assert (E : exp (- x) * exp x = 1) by (rewrite <- exp_plus, Rplus_opp_l; apply exp_0). clearbody x.
  transitivity ((1 + w / 10) * (exp (- x) * exp x)); [ring|]. rewrite E. ring.
Qed.
Print Assumptions c72_emissivity.

(** * C77 The stability factor is that of Louis (1979) *)
Theorem c77_louis : forall t ts u frac zs zg ht hw b, u <> 0 -> 0 < hw ->
  let z0 := roughness zs zg frac in
  let ri := 9.80665 * hw ^ 2 / ht * (t - ts) / (t * u ^ 2) in
  let f := stability_factor t ts u frac zs zg ht hw b in
  0 < t -> 0 < ht ->
  (0 <= ri -> f * (1 + 3 * b * ri * sqrt (1 + b * ri)) = 1 \/ 1 + 3 * b * ri * sqrt (1 + b * ri) = 0) /\
  (ri < 0 -> f = 1 - 3 * b * ri / (1 + 3 * b ^ 2 * 0.4 ^ 2 * sqrt (hw / z0 * - ri) / ln (hw / z0) ^ 2)).
Proof.
  intros t ts u frac zs zg ht hw b U HW z0 ri f T HT.
  assert (Z : 0 < z0) by (apply Rmult_lt_0_compat; unfold Rpower; apply exp_pos).
  assert (E : richardson t ts u ht hw = ri).
  { unfold richardson, ri, GRAVITATIONAL_ACCELERATION. destruct (Req_EM_T u 0); [tauto|]. generalize 9.80665. intros g. field. repeat split; lra. }
  unfold f, stability_factor. cbv zeta. rewrite E. fold z0. clearbody ri z0. split; intros H.
  - destruct (Rle_dec 0 ri); [|lra]. destruct (Req_EM_T (1 + 3 * b * ri * sqrt (1 + b * ri)) 0) as [N|N]; [right; auto|left]. field. auto.
  - destruct (Rle_dec 0 ri); [lra|]. unfold stability_c, VON_KARMAN. rewrite (sqrt_mult (hw / z0) (- ri)); [|left; apply Rdiv_lt_0_compat; auto|lra].
    do 3 f_equal. unfold Rdiv. replace 0.40 with 0.4 by lra. set (v := 0.4). clearbody v. ring.
Qed.
Print Assumptions c77_louis.
(** without wind, a wind speed of 0.5 m/s is assumed *)
Theorem c77_calm : forall t ts frac zs zg ht hw b, stability_factor t ts 0 frac zs zg ht hw b = stability_factor t ts 0.5 frac zs zg ht hw b.
Proof.
  intros t ts frac zs zg ht hw b. assert (E : richardson t ts 0 ht hw = richardson t ts 0.5 ht hw).
  { unfold richardson. destruct (Req_EM_T 0 0); [|lra]. destruct (Req_EM_T 0.5 0); [lra|]. auto. }
  unfold stability_factor. rewrite E. auto.
Qed.
Print Assumptions c77_calm.
Example c77_louis_example : (3:R) <> 0 /\ 0 < 10 /\ 0 < 280 /\ 0 < 2. Proof. repeat split; lra. Qed.

(** * C76 The old snow layer carries the new snow *)
(** Both snow layers are compacted by the Anderson formula with half of their own mass plus all the
    mass above; the total mass stays. *)
Theorem c76_overburden : forall c air p q, CryoModel.compaction c air p = Some q ->
  let m l := CryoModel.cice l + CryoModel.clw l in
  let above := if Rlt_dec 0 (CryoModel.cth (CryoModel.l_new p)) then m (CryoModel.l_new p) else 0 in
  let density load l := dens_anderson (CryoModel.cc_dt c) air (load + m l / 2) (mkL (CryoModel.cth l) (CryoModel.cice l) (CryoModel.clw l) 0 0) in
  (0 < CryoModel.cth (CryoModel.l_new p) -> CryoModel.cdens (CryoModel.l_new q) = Some (density 0 (CryoModel.l_new p)) /\
     CryoModel.cth (CryoModel.l_new q) = m (CryoModel.l_new p) / density 0 (CryoModel.l_new p)) /\
  (0 < CryoModel.cth (CryoModel.l_old p) -> CryoModel.cdens (CryoModel.l_old q) = Some (density above (CryoModel.l_old p)) /\
     CryoModel.cth (CryoModel.l_old q) = m (CryoModel.l_old p) / density above (CryoModel.l_old p)) /\
  (~ 0 < CryoModel.cth (CryoModel.l_new p) -> CryoModel.l_new q = CryoModel.l_new p) /\
  (~ 0 < CryoModel.cth (CryoModel.l_old p) -> CryoModel.l_old q = CryoModel.l_old p).
Proof.
  intros c air p q. unfold CryoModel.compaction, CryoModel.anderson_layer, CryoModel.to_layer, CryoModel.cmass. cbv zeta.
  destruct (CryoModel.firn_layer c (CryoModel.l_firn p)); [|destruct (Rlt_dec 0 _); destruct (Rlt_dec 0 _); discriminate].
  destruct (CryoModel.ice_layer c (CryoModel.l_ice p)); [|destruct (Rlt_dec 0 _); destruct (Rlt_dec 0 _); discriminate].
  set (x := CryoModel.cice (CryoModel.l_new p) + CryoModel.clw (CryoModel.l_new p)). set (y := CryoModel.cice (CryoModel.l_old p) + CryoModel.clw (CryoModel.l_old p)).
  destruct (Rlt_dec 0 (CryoModel.cth (CryoModel.l_new p))) as [N|N]; destruct (Rlt_dec 0 (CryoModel.cth (CryoModel.l_old p))) as [O|O]; intros E; injection E as <-; cbn [CryoModel.l_new CryoModel.l_old CryoModel.cdens CryoModel.cth];
    repeat split; try tauto; intros; auto.
  - do 2 f_equal. lra.
  - do 2 f_equal. lra.
Qed.
Print Assumptions c76_overburden.

(** * C69 Strings that are dates *)
Definition digits : list ascii := ["0"; "1"; "2"; "3"; "4"; "5"; "6"; "7"; "8"; "9"]%char.
(** tab, line feed, vertical tab, form feed, carriage return, separators 28-31, space *)
Definition blanks : list ascii := map ascii_of_nat [9; 10; 11; 12; 13; 28; 29; 30; 31; 32]%nat.
Definition lower : list ascii := ["a"; "b"; "c"; "d"; "e"; "f"; "g"; "h"; "i"; "j"; "k"; "l"; "m"; "n"; "o"; "p"; "q"; "r"; "s"; "t"; "u"; "v"; "w"; "x"; "y"; "z"]%char.
Definition upper : list ascii := ["A"; "B"; "C"; "D"; "E"; "F"; "G"; "H"; "I"; "J"; "K"; "L"; "M"; "N"; "O"; "P"; "Q"; "R"; "S"; "T"; "U"; "V"; "W"; "X"; "Y"; "Z"]%char.
Lemma class_is : forall (f : ascii -> bool) (l : list ascii),
  (forallb (fun n => Bool.eqb (f (ascii_of_nat n)) (existsb (Ascii.eqb (ascii_of_nat n)) l)) (seq 0 256) = true) ->
  forall c, f c = true <-> In c l.
Proof.
  intros f l H c. rewrite forallb_forall in H. specialize (H (nat_of_ascii c)). rewrite ascii_nat_embedding in H.
  assert (I : In (nat_of_ascii c) (seq 0 256)) by (apply in_seq; pose proof (nat_ascii_bounded c); lia).
  apply H, eqb_prop in I. rewrite I, existsb_exists. split.
  - intros (x & X & E). apply Ascii.eqb_eq in E. subst. auto.
  - intros X. exists c. split; auto. apply Ascii.eqb_refl.
Qed.
Lemma is_digit_iff : forall c, TimeModel.is_digit c = true <-> In c digits.
Proof. apply class_is. reflexivity. Qed.
Lemma is_blank_iff : forall c, TimeModel.is_blank c = true <-> In c blanks.
Proof. apply class_is. reflexivity. Qed.
Lemma lstrip_split : forall l, exists pre, l = pre ++ TimeModel.lstrip l /\ Forall (fun c => In c blanks) pre /\
  (forall c t, TimeModel.lstrip l = c :: t -> ~ In c blanks).
Proof.
  induction l as [|c l IH].
  - exists []. cbn. repeat split; auto. discriminate.
  - cbn [TimeModel.lstrip]. destruct (TimeModel.is_blank c) eqn:B.
    + destruct IH as (pre & E & F & N). exists (c :: pre). cbn [app]. rewrite <- E. repeat split; auto. constructor; auto. apply is_blank_iff. auto.
    + exists []. cbn. repeat split; auto. intros x t X. injection X as <- <-. intros K. apply is_blank_iff in K. congruence.
Qed.
(** Stripping removes the blanks at both ends and nothing else. *)
Theorem c69_strip : forall l, exists pre post, l = pre ++ TimeModel.strip l ++ post /\
  Forall (fun c => In c blanks) pre /\ Forall (fun c => In c blanks) post /\
  (forall c t, TimeModel.strip l = c :: t -> ~ In c blanks) /\ (forall c t, TimeModel.strip l = t ++ [c] -> ~ In c blanks).
Proof.
  intros l. unfold TimeModel.strip. destruct (lstrip_split l) as (pre & E & F & N). destruct (lstrip_split (rev (TimeModel.lstrip l))) as (post & E2 & F2 & N2).
  assert (L : TimeModel.lstrip l = rev (TimeModel.lstrip (rev (TimeModel.lstrip l))) ++ rev post).
  { rewrite <- rev_app_distr, <- E2. rewrite rev_involutive. auto. }
  exists pre, (rev post). split; [rewrite <- L; auto|]. split; auto. split; [apply Forall_rev; auto|]. split.
  - intros c t X. apply (N c (t ++ rev post)). rewrite L, X. auto.
  - intros c t X. apply (N2 c (rev t)). apply (f_equal (@rev ascii)) in X. rewrite rev_involutive, rev_app_distr in X. auto.
Qed.
Print Assumptions c69_strip.
(** Exactly strings of the form dddd-dd-dd name a day. *)
Theorem c69_day_strings : forall l, TimeModel.matches TimeModel.date_pattern l = true <->
  exists a b c d e f g h, l = [a; b; c; d; "-"%char; e; f; "-"%char; g; h] /\ Forall (fun x => In x digits) [a; b; c; d; e; f; g; h].
Proof.
  assert (DA : forall c, TimeModel.is_dash c = true <-> c = "-"%char).
  { intros c. rewrite (class_is TimeModel.is_dash ["-"%char] eq_refl c). cbn. split; [intros [A|[]]; auto|auto]. }
  intros l. split.
  - intros H. do 10 (destruct l as [|? l]; [cbn in H; rewrite ?andb_false_r in H; discriminate H|]). destruct l; [|cbn in H; rewrite ?andb_false_r in H; discriminate H].
    cbn [TimeModel.matches TimeModel.date_pattern] in H. rewrite !andb_true_iff, !DA, !is_digit_iff in H. decompose [and] H. subst. do 8 eexists. split; [reflexivity|]. repeat (apply Forall_cons; [assumption|]). apply Forall_nil.
  - intros (a & b & c & d & e & f & g & h & -> & H). cbn [TimeModel.matches TimeModel.date_pattern]. rewrite !andb_true_iff, !DA, !is_digit_iff.
    repeat match goal with H : Forall _ (_ :: _) |- _ => inversion H; clear H; subst end. tauto.
Qed.
Print Assumptions c69_day_strings.

(** * C56 Category names *)
Theorem c56_identifier : forall s, StateModel.is_identifier s = true <->
  exists c t, list_ascii_of_string s = c :: t /\ In c ("_"%char :: lower ++ upper) /\ Forall (fun x => In x ("_"%char :: lower ++ upper ++ digits)) t.
Proof.
  assert (A : forall c, StateModel.ident_start c = true <-> In c ("_"%char :: lower ++ upper)) by (apply class_is; reflexivity).
  assert (B : forall c, StateModel.ident_char c = true <-> In c ("_"%char :: lower ++ upper ++ digits)) by (apply class_is; reflexivity).
  assert (C : forall s, StateModel.all_chars StateModel.ident_char s = true <-> Forall (fun x => In x ("_"%char :: lower ++ upper ++ digits)) (list_ascii_of_string s)).
  { induction s as [|c s IH]; cbn [StateModel.all_chars list_ascii_of_string]; [split; auto|]. rewrite andb_true_iff, IH, B. split; [intros []; constructor; auto|]. intros H. inversion H; auto. }
  intros [|c s]; cbn [StateModel.is_identifier list_ascii_of_string].
  - split; [discriminate|]. intros (c & t & E & _). discriminate.
  - rewrite andb_true_iff, A, C. split.
    + intros [X Y]. exists c, (list_ascii_of_string s). auto.
    + intros (c' & t & E & X & Y). injection E as <- <-. auto.
Qed.
Print Assumptions c56_identifier.
