(** C104: settings given as text: frequencies, deprecated names, raster file names, time zone of the simulation. *)
From Verif Require Import Common TimeModel SunModel StateModel PointConfigModel NameProofs SettingsModel.
From Coq Require Import String Ascii.
Open Scope Z_scope.
Open Scope list_scope.

(** * Integers as text *)
Lemma digit_char_ok d : 0 <= d < 10 -> is_digit (digit_char d) = true /\ digit_value (digit_char d) = d.
Proof.
  intro H. assert (E : d = 0 \/ d = 1 \/ d = 2 \/ d = 3 \/ d = 4 \/ d = 5 \/ d = 6 \/ d = 7 \/ d = 8 \/ d = 9) by lia.
  repeat (destruct E as [->|E]; [split; reflexivity|]). subst; split; reflexivity.
Qed.
Lemma value_snoc l d : 0 <= d < 10 -> digits_value (l ++ [digit_char d]) = 10 * digits_value l + d.
Proof. intro H. unfold digits_value. rewrite fold_left_app. cbn [fold_left]. destruct (digit_char_ok d H) as (-> & ->). reflexivity. Qed.
Lemma show_digits_ok : forall fuel n, 0 <= n < 2 ^ Z.of_nat fuel ->
  (0 < fuel)%nat -> show_digits fuel n <> [] /\ Forall (fun c => is_digit c = true) (show_digits fuel n) /\ digits_value (show_digits fuel n) = n.
Proof.
  induction fuel as [|f IH]; intros n H F; [lia|]. cbn [show_digits]. destruct (Z.ltb_spec n 10).
  - destruct (digit_char_ok n ltac:(lia)) as (D & V). split; [discriminate|]. split; [repeat constructor; assumption|].
    change [digit_char n] with (nil ++ [digit_char n]). rewrite value_snoc by lia. reflexivity.
  - assert (B : 0 <= n / 10 < 2 ^ Z.of_nat f).
    { split; [apply Z.div_pos; lia|]. apply Z.div_lt_upper_bound; [lia|]. rewrite Nat2Z.inj_succ, Z.pow_succ_r in H by lia. lia. }
    assert (F' : (0 < f)%nat) by (destruct f; [cbn in H; lia|lia]).
    destruct (IH _ B F') as (N & D & V). split; [destruct (show_digits f (n / 10)); discriminate|].
    destruct (digit_char_ok (n mod 10) ltac:(apply Z.mod_pos_bound; lia)) as (D' & V').
    split; [apply Forall_app; split; [assumption|repeat constructor; assumption]|].
    rewrite value_snoc by (apply Z.mod_pos_bound; lia). rewrite V. rewrite (Z.div_mod n 10) at 3 by lia. reflexivity.
Qed.
Lemma show_nonneg_ok n : 0 <= n -> show_nonneg n <> [] /\ Forall (fun c => is_digit c = true) (show_nonneg n) /\ digits_value (show_nonneg n) = n.
Proof.
  intro H. apply show_digits_ok; [|lia]. split; [assumption|]. rewrite Nat2Z.inj_succ, Z2Nat.id by apply Z.log2_nonneg.
  destruct (Z.eq_dec n 0) as [->|]; [reflexivity|]. apply Z.log2_spec; lia.
Qed.
Lemma digits_formed l : Forall (fun c => is_digit c = true) l -> forall b, well_formed b l = (b || match l with [] => false | _ => true end)%bool.
Proof. induction 1 as [|c r D F IH]; intro b; cbn [well_formed]; [rewrite orb_false_r; reflexivity|]. rewrite D, IH. rewrite orb_true_r. reflexivity. Qed.
Lemma read_digits_show n : 0 <= n -> read_digits (show_nonneg n) = Some n.
Proof.
  intro H. destruct (show_nonneg_ok n H) as (N & D & V). unfold read_digits. rewrite (digits_formed _ D), V.
  destruct (show_nonneg n); [congruence|reflexivity].
Qed.
Lemma digit_range c : is_digit c = true -> (48 <= nat_of_ascii c <= 57)%nat.
Proof. unfold is_digit. intro H. apply andb_prop in H. destruct H as (A & B). apply Nat.leb_le in A. apply Nat.leb_le in B. auto. Qed.
Lemma digit_not_blank c : is_digit c = true -> is_blank c = false.
Proof.
  intro H. apply digit_range in H. unfold is_blank. cbv zeta. set (k := nat_of_ascii c) in *.
  destruct (Nat.eqb_spec k 32); [lia|]. destruct (Nat.leb_spec k 13); [lia|]. destruct (Nat.leb_spec k 31); [lia|]. rewrite !andb_false_r. reflexivity.
Qed.
Lemma lstrip_id l : Forall (fun c => is_blank c = false) l -> lstrip l = l.
Proof. destruct 1 as [|c r B F]; cbn; [reflexivity|]. rewrite B. reflexivity. Qed.
Lemma strip_id l : Forall (fun c => is_blank c = false) l -> strip l = l.
Proof. intro H. unfold strip. rewrite (lstrip_id l) by exact H. rewrite lstrip_id by (apply Forall_rev; assumption). apply rev_involutive. Qed.
Lemma show_not_blank z : Forall (fun c => is_blank c = false) (show z).
Proof.
  unfold show. destruct (Z.ltb_spec z 0).
  - constructor; [reflexivity|]. destruct (show_nonneg_ok (- z) ltac:(lia)) as (_ & D & _). eapply Forall_impl; [|exact D]. apply digit_not_blank.
  - destruct (show_nonneg_ok z ltac:(lia)) as (_ & D & _). eapply Forall_impl; [|exact D]. apply digit_not_blank.
Qed.
Lemma digit_ch c x : is_digit c = true -> is_digit x = false -> ch c x = false.
Proof. intros A B. unfold ch. destruct (Ascii.eqb_spec c x); [subst; congruence|reflexivity]. Qed.
(** Reading an integer that was written gives the integer back. *)
Theorem c104_integers : forall z, read_int (show z) = Some z.
Proof.
  intro z. unfold read_int. rewrite strip_id by apply show_not_blank. unfold show. destruct (Z.ltb_spec z 0).
  - change (ch "-" "-") with true. cbv iota. rewrite read_digits_show by lia. cbn [option_map]. f_equal. lia.
  - destruct (show_nonneg_ok z ltac:(lia)) as (N & D & _). pose proof (read_digits_show z ltac:(lia)) as R.
    destruct (show_nonneg z) as [|c r]; [congruence|]. apply Forall_inv in D. rewrite (digit_ch c "-"), (digit_ch c "+") by (exact D || reflexivity). exact R.
Qed.
Print Assumptions c104_integers.
(** What int() reads, stated independently: blanks, an optional sign, groups of digits separated by single underscores, blanks. *)
Definition blank_char (c : ascii) : Prop := In (nat_of_ascii c) [9; 10; 11; 12; 13; 28; 29; 30; 31; 32]%nat.
Definition digit_of (c : ascii) (d : Z) : Prop := 0 <= d <= 9 /\ nat_of_ascii c = Z.to_nat (48 + d).
Inductive digits : text -> Z -> Prop :=   (* one digit or more and their value *)
| digits_one c d : digit_of c d -> digits [c] d
| digits_more l v c d : digits l v -> digit_of c d -> digits (l ++ [c]) (10 * v + d)
| digits_group l v c d : digits l v -> digit_of c d -> digits (l ++ ["_"%char; c]) (10 * v + d).
Definition integer (l : text) (z : Z) : Prop := exists b1 sign l' b2 v, l = b1 ++ sign ++ l' ++ b2 /\ Forall blank_char b1 /\ Forall blank_char b2 /\
  digits l' v /\ ((sign = [] \/ sign = ["+"%char]) /\ z = v \/ sign = ["-"%char] /\ z = - v).
Lemma is_blank_iff c : is_blank c = true <-> blank_char c.
Proof.
  unfold is_blank, blank_char. cbv zeta. set (k := nat_of_ascii c). rewrite !orb_true_iff, !andb_true_iff, Nat.eqb_eq, !Nat.leb_le. cbn [In]. lia.
Qed.
Lemma is_digit_iff c : is_digit c = true <-> exists d, digit_of c d.
Proof.
  unfold is_digit, digit_of. rewrite andb_true_iff, !Nat.leb_le. split.
  - intro H. exists (Z.of_nat (nat_of_ascii c) - 48). lia.
  - intros (d & H & E). lia.
Qed.
Lemma digit_of_value c d : digit_of c d -> is_digit c = true /\ digit_value c = d.
Proof. intro H. split; [apply is_digit_iff; eauto|]. destruct H as (H & E). unfold digit_value. lia. Qed.
Definition scan (s : option bool) (c : ascii) : option bool :=
  match s with None => None | Some b => if is_digit c then Some true else if ch c "_" && b then Some false else None end.
Lemma scan_none l : fold_left scan l None = None.
Proof. induction l; cbn; auto. Qed.
Lemma formed_scan : forall l b, well_formed b l = match fold_left scan l (Some b) with Some x => x | None => false end.
Proof.
  induction l as [|c l IH]; intro b; [reflexivity|]. cbn [well_formed fold_left scan]. destruct (is_digit c); [apply IH|].
  destruct (ch c "_" && b)%bool; [apply IH|rewrite scan_none; reflexivity].
Qed.
Lemma scan_snoc l c b : fold_left scan (l ++ [c]) (Some b) = scan (fold_left scan l (Some b)) c.
Proof. rewrite fold_left_app. reflexivity. Qed.
Lemma value_app l c : digits_value (l ++ [c]) = if is_digit c then 10 * digits_value l + digit_value c else digits_value l.
Proof. unfold digits_value. rewrite fold_left_app. reflexivity. Qed.
Lemma digits_scan l v : digits l v <-> fold_left scan l (Some false) = Some true /\ digits_value l = v.
Proof.
  split.
  - induction 1 as [c d D|l v c d H (IS & IV) D|l v c d H (IS & IV) D]; destruct (digit_of_value _ _ D) as (D1 & D2).
    + split; [cbn [fold_left scan]; rewrite D1; reflexivity|]. change [c] with (nil ++ [c]). rewrite value_app, D1, D2. reflexivity.
    + rewrite scan_snoc, IS, value_app, IV, D1, D2. cbn [scan]. rewrite D1. auto.
    + change (l ++ ["_"%char; c]) with (l ++ ["_"%char] ++ [c]). rewrite app_assoc, !scan_snoc, IS, !value_app, IV, D1, D2.
      change (is_digit "_") with false. cbn [scan]. change (is_digit "_") with false. change (ch "_" "_") with true. cbn [andb scan]. rewrite D1. auto.
  - intros (S1 & <-). assert (G : forall n l, (List.length l <= n)%nat -> fold_left scan l (Some false) = Some true -> digits l (digits_value l)).
    { clear. induction n as [|n IH]; intros l L E; [destruct l; [discriminate|cbn in L; lia]|].
      destruct l as [|c l _] using rev_ind; [discriminate|]. rewrite app_length in L. cbn [List.length] in L. rewrite scan_snoc in E.
      destruct (fold_left scan l (Some false)) as [b|] eqn:P; [|discriminate]. cbn [scan] in E. destruct (is_digit c) eqn:D; [|destruct (ch c "_" && b)%bool; discriminate].
      apply is_digit_iff in D. destruct D as (d & D). destruct (digit_of_value _ _ D) as (D1 & D2). rewrite value_app, D1, D2. destruct b.
      - apply digits_more; [apply IH; [lia|assumption]|assumption].
      - destruct l as [|x l _] using rev_ind; [apply digits_one; assumption|]. rewrite app_length in L. cbn [List.length] in L. rewrite scan_snoc in P.
        destruct (fold_left scan l (Some false)) as [b|] eqn:Q; [|discriminate]. cbn [scan] in P. rewrite value_app. destruct (is_digit x) eqn:X; [discriminate|].
        unfold ch in P. destruct (Ascii.eqb_spec x "_"); [|discriminate]. subst x. destruct b; [|discriminate].
        rewrite <- app_assoc. apply digits_group; [apply IH; [lia|assumption]|assumption]. }
    apply (G (List.length l)); auto.
Qed.
Lemma read_digits_iff l v : read_digits l = Some v <-> digits l v.
Proof.
  unfold read_digits. rewrite formed_scan, digits_scan. destruct (fold_left scan l (Some false)) as [[|]|]; split; try (intuition discriminate).
  - intro E. injection E as <-. auto.
  - intros (_ & ->). reflexivity.
Qed.
Lemma lstrip_blanks b l : Forall blank_char b -> lstrip (b ++ l) = lstrip l.
Proof. induction 1 as [|c b B F IH]; [reflexivity|]. cbn [app lstrip]. apply is_blank_iff in B. rewrite B. exact IH. Qed.
Lemma lstrip_spec l : exists b, l = b ++ lstrip l /\ Forall blank_char b.
Proof.
  induction l as [|c l (b & E & B)]; [exists []; auto|]. cbn [lstrip]. destruct (is_blank c) eqn:C; [|exists []; auto].
  exists (c :: b). split; [cbn; congruence|]. constructor; [apply is_blank_iff; assumption|assumption].
Qed.
Lemma strip_spec l : exists b1 b2, l = b1 ++ strip l ++ b2 /\ Forall blank_char b1 /\ Forall blank_char b2.
Proof.
  destruct (lstrip_spec l) as (b1 & E1 & B1). destruct (lstrip_spec (rev (lstrip l))) as (b2 & E2 & B2).
  exists b1, (rev b2). split; [|split; [assumption|apply Forall_rev; assumption]]. unfold strip.
  rewrite E1 at 1. f_equal. rewrite <- (rev_involutive (lstrip l)) at 1. rewrite E2 at 1. apply rev_app_distr.
Qed.
Lemma strip_blanks b1 x m y b2 : Forall blank_char b1 -> Forall blank_char b2 -> is_blank x = false -> is_blank y = false ->
  (exists m', x :: m = m' ++ [y]) -> strip (b1 ++ (x :: m) ++ b2) = x :: m.
Proof.
  intros B1 B2 X Y (m' & E). unfold strip. rewrite lstrip_blanks by assumption. cbn [app lstrip]. rewrite X.
  change (x :: m ++ b2) with ((x :: m) ++ b2). rewrite rev_app_distr, lstrip_blanks by (apply Forall_rev; assumption).
  rewrite E, rev_unit. cbn [lstrip]. rewrite Y. rewrite <- rev_unit. apply rev_involutive.
Qed.
Lemma digits_ends l v : digits l v -> (exists x m, l = x :: m /\ is_digit x = true) /\ exists m y, l = m ++ [y] /\ is_digit y = true.
Proof.
  intro H. split.
  - induction H as [c d D|l v c d H (x & m & -> & X) D|l v c d H (x & m & -> & X) D]; cbn [app]; eexists; eexists; (split; [reflexivity|]); try assumption.
    apply (digit_of_value _ _ D).
  - destruct H as [c d D|l v c d H D|l v c d H D].
    + exists [], c. split; [reflexivity|apply (digit_of_value _ _ D)].
    + exists l, c. split; [reflexivity|apply (digit_of_value _ _ D)].
    + exists (l ++ ["_"%char]), c. rewrite <- app_assoc. split; [reflexivity|apply (digit_of_value _ _ D)].
Qed.
Theorem c104_reading : forall l z, read_int l = Some z <-> integer l z.
Proof.
  intros l z. unfold read_int, integer. split.
  - intro H. destruct (strip_spec l) as (b1 & b2 & E & B1 & B2). destruct (strip l) as [|c r]; [discriminate|].
    unfold ch in H. destruct (Ascii.eqb_spec c "-") as [->|N1]; [|destruct (Ascii.eqb_spec c "+") as [->|N2]].
    + destruct (read_digits r) as [v|] eqn:R; [|discriminate]. injection H as <-. apply read_digits_iff in R.
      exists b1, ["-"%char], r, b2, v. split; [exact E|]. auto 10.
    + apply read_digits_iff in H. exists b1, ["+"%char], r, b2, z. split; [exact E|]. auto 10.
    + apply read_digits_iff in H. exists b1, [], (c :: r), b2, z. split; [exact E|]. auto 10.
  - intros (b1 & sg & l' & b2 & v & -> & B1 & B2 & D & Z). pose proof (digits_ends _ _ D) as ((x & m & X1 & X2) & (m' & y & Y1 & Y2)).
    assert (BX : is_blank x = false) by (apply digit_not_blank; assumption). assert (BY : is_blank y = false) by (apply digit_not_blank; assumption).
    apply read_digits_iff in D. destruct Z as [([-> | ->] & ->)|(-> & ->)].
    + cbn [app]. rewrite X1. rewrite (strip_blanks b1 x m y b2) by (try assumption; exists m'; congruence).
      rewrite (digit_ch x "-"), (digit_ch x "+") by (exact X2 || reflexivity). rewrite <- X1. exact D.
    + cbn [app]. change ("+"%char :: l' ++ b2) with (("+"%char :: l') ++ b2).
      rewrite (strip_blanks b1 "+" l' y b2) by (try assumption; try reflexivity; exists ("+"%char :: m'); cbn; congruence). exact D.
    + cbn [app]. change ("-"%char :: l' ++ b2) with (("-"%char :: l') ++ b2).
      rewrite (strip_blanks b1 "-" l' y b2) by (try assumption; try reflexivity; exists ("-"%char :: m'); cbn; congruence).
      change (ch "-" "-") with true. cbv iota. rewrite D. reflexivity.
Qed.
Print Assumptions c104_reading.
Lemma show_nonempty z : show z <> [].
Proof. unfold show. destruct (Z.ltb_spec z 0); [discriminate|]. apply show_nonneg_ok; lia. Qed.
Lemma show_inj a b : show a = show b -> a = b.
Proof. intro E. pose proof (c104_integers a) as A. rewrite E, c104_integers in A. congruence. Qed.

(** * Frequencies *)
Lemma split_snoc pre c : split_last (pre ++ [c]) = Some (pre, c).
Proof. unfold split_last. rewrite rev_unit, rev_involutive. reflexivity. Qed.
Lemma split_inv l pre c : split_last l = Some (pre, c) -> l = pre ++ [c].
Proof. unfold split_last. destruct (rev l) as [|x r] eqn:E; [discriminate|]. intro H. injection H as <- <-. rewrite <- (rev_involutive l), E. reflexivity. Qed.
Lemma split_none l : split_last l = None -> l = [].
Proof. unfold split_last. destruct (rev l) eqn:E; [|discriminate]. intros _. rewrite <- (rev_involutive l), E. reflexivity. Qed.
Lemma text_eq_last pre c l x : text_eq (pre ++ [c]) (l ++ [x]) = true -> pre = l /\ c = x.
Proof. unfold text_eq. destruct (list_eq_dec ascii_dec (pre ++ [c]) (l ++ [x])) as [E|]; [|discriminate]. intros _. apply app_inj_tail in E. exact E. Qed.
Lemma not_last pre c l x : c <> x -> text_eq (pre ++ [c]) (l ++ [x]) = false.
Proof. intro N. destruct (text_eq (pre ++ [c]) (l ++ [x])) eqn:E; [|reflexivity]. apply text_eq_last in E. tauto. Qed.
Lemma ch_refl c : ch c c = true. Proof. apply Ascii.eqb_refl. Qed.
Lemma ch_neq c x : c <> x -> ch c x = false. Proof. intro N. unfold ch. destruct (Ascii.eqb_spec c x); congruence. Qed.
Lemma text_eq_iff a b : text_eq a b = true <-> a = b.
Proof. unfold text_eq. destruct (list_eq_dec ascii_dec a b); split; congruence. Qed.

(** n days, written with "D" or "d", are passed on as 24 n hours, no number means one day; anything else in front of the "D" is refused. *)
Theorem c104_days : forall pre c, c = "D"%char \/ c = "d"%char ->
  rewrite_offset (pre ++ [c]) =
  match pre with
  | [] => inr (Freq (lit "24h"))
  | _ => match read_int pre with Some n => inr (Freq (show (24 * n) ++ lit "h")) | None => inl SValueError end
  end.
Proof.
  intros pre c C. unfold rewrite_offset. rewrite split_snoc.
  assert (D : (ch c "D" || ch c "d")%bool = true) by (destruct C as [-> | ->]; reflexivity). rewrite D.
  destruct pre as [|x pre]; [reflexivity|]. destruct (read_int (x :: pre)) as [n|]; [|reflexivity].
  change (lit "ME") with (lit "M" ++ ["E"%char]). change (lit "YE") with (lit "Y" ++ ["E"%char]). change (lit "h") with ["h"%char].
  rewrite !not_last by discriminate. reflexivity.
Qed.
Print Assumptions c104_days.
(** So, if pandas understands hours, a day has 86400 seconds, and "nD" is the same frequency as "(24 n)h". *)
Theorem c104_day_length : forall pandas, (forall z, pandas (show z ++ lit "h") = Some (Fixed (3600 * z))) ->
  forall n c, c = "D"%char \/ c = "d"%char ->
  offset_to_timedelta pandas (show n ++ [c]) = inr (86400 * n) /\ offset_to_timedelta pandas [c] = inr 86400 /\
  offset_to_timedelta pandas (show (24 * n) ++ lit "h") = inr (86400 * n).
Proof.
  intros pandas P n c C. unfold offset_to_timedelta, to_offset. split; [|split].
  - rewrite c104_days by assumption. rewrite c104_integers. destruct (show n) eqn:E; [destruct (show_nonempty n E)|]. rewrite P. f_equal. lia.
  - change [c] with ([] ++ [c]). rewrite c104_days by assumption. change (lit "24h") with (show 24 ++ lit "h"). rewrite P. reflexivity.
  - assert (R : rewrite_offset (show (24 * n) ++ lit "h") = inr (Freq (show (24 * n) ++ lit "h"))).
    { unfold rewrite_offset. change (lit "h") with ["h"%char]. rewrite split_snoc. cbn [ch Ascii.eqb Bool.eqb orb].
      change (lit "ME") with (lit "M" ++ ["E"%char]). change (lit "YE") with (lit "Y" ++ ["E"%char]). rewrite !not_last by discriminate. reflexivity. }
    rewrite R, P. f_equal. lia.
Qed.
Print Assumptions c104_day_length.
(** The older aliases H, M and Y are replaced by h, ME and YE with the same number in front; everything else is passed on as it is. *)
Theorem c104_aliases : forall pre,
  rewrite_offset (pre ++ lit "H") = inr (Freq (pre ++ lit "h")) /\
  rewrite_offset (pre ++ lit "M") = inr (match pre with [] => MonthEnd | _ => Freq (pre ++ lit "ME") end) /\
  rewrite_offset (pre ++ lit "Y") = inr (match pre with [] => YearEnd | _ => Freq (pre ++ lit "YE") end) /\
  rewrite_offset (lit "ME") = inr MonthEnd /\ rewrite_offset (lit "YE") = inr YearEnd /\ rewrite_offset [] = inl SIndexError /\
  (forall c, ~ In c (lit "DdHMY") -> pre ++ [c] <> lit "ME" -> pre ++ [c] <> lit "YE" -> rewrite_offset (pre ++ [c]) = inr (Freq (pre ++ [c]))).
Proof.
  intro pre. unfold rewrite_offset.
  assert (S2 : forall m, match pre with [] => m | _ => Freq (pre ++ lit "ME") end = (if text_eq (pre ++ lit "ME") (lit "ME") then m else Freq (pre ++ lit "ME")) /\
                         match pre with [] => m | _ => Freq (pre ++ lit "YE") end = (if text_eq (pre ++ lit "YE") (lit "YE") then m else Freq (pre ++ lit "YE"))).
  { intro m. assert (Z : forall w, text_eq (pre ++ w) w = match pre with [] => true | _ => false end).
    { intro w. destruct pre as [|x r]; [apply text_eq_iff; reflexivity|]. destruct (text_eq ((x :: r) ++ w) w) eqn:E; [|reflexivity].
      apply text_eq_iff in E. apply (f_equal (@List.length _)) in E. rewrite app_length in E. cbn in E. lia. }
    rewrite !Z. destruct pre; auto. }
  change (lit "H") with ["H"%char]. change (lit "M") with ["M"%char]. change (lit "Y") with ["Y"%char]. rewrite !split_snoc.
  cbn [ch Ascii.eqb Bool.eqb orb]. split; [|split; [|split; [|split; [|split; [|split]]]]].
  - change (lit "ME") with (lit "M" ++ ["E"%char]). change (lit "YE") with (lit "Y" ++ ["E"%char]). change (lit "h") with ["h"%char].
    rewrite !not_last by discriminate. reflexivity.
  - rewrite (proj1 (S2 MonthEnd)). destruct (text_eq (pre ++ lit "ME") (lit "ME")) eqn:E; [reflexivity|].
    destruct (text_eq (pre ++ lit "ME") (lit "YE")) eqn:E'; [|reflexivity]. exfalso. apply text_eq_iff in E'.
    change (pre ++ lit "ME") with (pre ++ ["M"%char] ++ ["E"%char]) in E'. change (lit "YE") with (["Y"%char] ++ ["E"%char]) in E'.
    rewrite app_assoc in E'. apply app_inj_tail in E'. destruct E' as (E' & _). change ["Y"%char] with ([] ++ ["Y"%char]) in E'. apply app_inj_tail in E'. destruct E'. discriminate.
  - rewrite (proj2 (S2 YearEnd)). destruct (text_eq (pre ++ lit "YE") (lit "ME")) eqn:E'; [|destruct (text_eq (pre ++ lit "YE") (lit "YE")); reflexivity].
    exfalso. apply text_eq_iff in E'.
    change (pre ++ lit "YE") with (pre ++ ["Y"%char] ++ ["E"%char]) in E'. change (lit "ME") with (["M"%char] ++ ["E"%char]) in E'.
    rewrite app_assoc in E'. apply app_inj_tail in E'. destruct E' as (E' & _). change ["M"%char] with ([] ++ ["M"%char]) in E'. apply app_inj_tail in E'. destruct E'. discriminate.
  - reflexivity.
  - reflexivity.
  - reflexivity.
  - intros c N A B. rewrite split_snoc. cbn in N.
    rewrite (ch_neq c "D"), (ch_neq c "d"), (ch_neq c "H"), (ch_neq c "M"), (ch_neq c "Y") by (intros ->; apply N; auto 10). cbn [orb].
    destruct (text_eq (pre ++ [c]) (lit "ME")) eqn:E; [apply text_eq_iff in E; contradiction|].
    destruct (text_eq (pre ++ [c]) (lit "YE")) eqn:E'; [apply text_eq_iff in E'; contradiction|]. reflexivity.
Qed.
Print Assumptions c104_aliases.
(** Months and years end with the calendar, with the older and the current alias; they have no fixed length and cannot be time steps. Only frequencies of a
    fixed length can. *)
Theorem c104_calendar : forall pandas,
  (forall l, In l [lit "M"; lit "ME"] -> to_offset pandas l = inr (MonthEnds 1)) /\
  (forall l, In l [lit "Y"; lit "YE"] -> to_offset pandas l = inr (YearEnds 1)) /\
  (forall l, In l [lit "M"; lit "ME"; lit "Y"; lit "YE"] -> offset_to_timedelta pandas l = inl SValueError) /\
  (forall l s, offset_to_timedelta pandas l = inr s <-> to_offset pandas l = inr (Fixed s)) /\
  (forall l o, to_offset pandas l = inr o ->
     In l [lit "M"; lit "ME"] /\ o = MonthEnds 1 \/ In l [lit "Y"; lit "YE"] /\ o = YearEnds 1 \/ exists t, rewrite_offset l = inr (Freq t) /\ pandas t = Some o).
Proof.
  intro pandas. split; [|split; [|split; [|split]]].
  - intros l [<-|[<-|[]]]; reflexivity.
  - intros l [<-|[<-|[]]]; reflexivity.
  - intros l [<-|[<-|[<-|[<-|[]]]]]; reflexivity.
  - intros l s. unfold offset_to_timedelta. destruct (to_offset pandas l) as [e|[s'|n|n|t]]; split; congruence.
  - intros l o H. destruct (split_last l) as [[pre c]|] eqn:S; [|apply split_none in S; subst; discriminate]. apply split_inv in S. subst l.
    unfold to_offset in H. destruct (rewrite_offset (pre ++ [c])) as [e|[t| |]] eqn:R; [discriminate| | |].
    + right. right. exists t. split; [reflexivity|]. destruct (pandas t); congruence.
    + left. split; [|congruence]. destruct (c104_aliases pre) as (AH & AM & AY & _ & _ & _ & AO).
      destruct (ascii_dec c "D") as [->|ND]; [rewrite c104_days in R by auto; destruct pre; [discriminate|]; destruct (read_int _); discriminate|].
      destruct (ascii_dec c "d") as [->|Nd]; [rewrite c104_days in R by auto; destruct pre; [discriminate|]; destruct (read_int _); discriminate|].
      destruct (ascii_dec c "H") as [->|NH]; [change ["H"%char] with (lit "H") in R; rewrite AH in R; discriminate|].
      destruct (ascii_dec c "M") as [->|NM]; [change ["M"%char] with (lit "M") in R; rewrite AM in R; destruct pre; [cbn; auto|discriminate]|].
      destruct (ascii_dec c "Y") as [->|NY]; [change ["Y"%char] with (lit "Y") in R; rewrite AY in R; destruct pre; discriminate|].
      destruct (list_eq_dec ascii_dec (pre ++ [c]) (lit "ME")) as [->|NME]; [cbn; auto|].
      destruct (list_eq_dec ascii_dec (pre ++ [c]) (lit "YE")) as [E|NYE]; [rewrite E in R; discriminate|].
      rewrite AO in R; [discriminate|cbn; intuition congruence|assumption|assumption].
    + right. left. split; [|congruence]. destruct (c104_aliases pre) as (AH & AM & AY & _ & _ & _ & AO).
      destruct (ascii_dec c "D") as [->|ND]; [rewrite c104_days in R by auto; destruct pre; [discriminate|]; destruct (read_int _); discriminate|].
      destruct (ascii_dec c "d") as [->|Nd]; [rewrite c104_days in R by auto; destruct pre; [discriminate|]; destruct (read_int _); discriminate|].
      destruct (ascii_dec c "H") as [->|NH]; [change ["H"%char] with (lit "H") in R; rewrite AH in R; discriminate|].
      destruct (ascii_dec c "M") as [->|NM]; [change ["M"%char] with (lit "M") in R; rewrite AM in R; destruct pre; discriminate|].
      destruct (ascii_dec c "Y") as [->|NY]; [change ["Y"%char] with (lit "Y") in R; rewrite AY in R; destruct pre; [cbn; auto|discriminate]|].
      destruct (list_eq_dec ascii_dec (pre ++ [c]) (lit "YE")) as [->|NYE]; [cbn; auto|].
      destruct (list_eq_dec ascii_dec (pre ++ [c]) (lit "ME")) as [E|NME]; [rewrite E in R; discriminate|].
      rewrite AO in R; [discriminate|cbn; intuition congruence|assumption|assumption].
Qed.
Print Assumptions c104_calendar.
(** A frequency that is passed on is not changed by another pass. *)
Theorem c104_once : forall l t, rewrite_offset l = inr (Freq t) -> rewrite_offset t = inr (Freq t).
Proof.
  intros l t H. destruct (split_last l) as [[pre c]|] eqn:S; [|apply split_none in S; subst; discriminate]. apply split_inv in S. subst l.
  assert (K : forall p, rewrite_offset (p ++ lit "h") = inr (Freq (p ++ lit "h"))).
  { intro p. apply (proj2 (proj2 (proj2 (proj2 (proj2 (proj2 (c104_aliases p))))))).
    - cbn. intuition discriminate.
    - change (lit "ME") with (lit "M" ++ ["E"%char]). intro E. apply app_inj_tail in E. destruct E. discriminate.
    - change (lit "YE") with (lit "Y" ++ ["E"%char]). intro E. apply app_inj_tail in E. destruct E. discriminate. }
  assert (E2 : forall p w, p <> [] -> w = lit "M" \/ w = lit "Y" -> rewrite_offset (p ++ w ++ lit "E") = inr (Freq (p ++ w ++ lit "E"))).
  { intros p w N W. rewrite app_assoc. apply (proj2 (proj2 (proj2 (proj2 (proj2 (proj2 (c104_aliases (p ++ w)))))))).
    - cbn. intuition discriminate.
    - intro E. rewrite <- app_assoc in E. apply (f_equal (@List.length _)) in E. rewrite !app_length in E. destruct p; [congruence|]. destruct W as [-> | ->]; cbn in E; lia.
    - intro E. rewrite <- app_assoc in E. apply (f_equal (@List.length _)) in E. rewrite !app_length in E. destruct p; [congruence|]. destruct W as [-> | ->]; cbn in E; lia. }
  destruct (ascii_dec c "D") as [->|ND]; [|destruct (ascii_dec c "d") as [->|Nd]].
  1, 2: rewrite c104_days in H by auto; destruct pre as [|x pre]; [injection H as <-; reflexivity|];
    destruct (read_int (x :: pre)); [|discriminate]; injection H as <-; apply K.
  destruct (c104_aliases pre) as (AH & AM & AY & _ & _ & _ & AO).
  destruct (ascii_dec c "H") as [->|NH]; [change ["H"%char] with (lit "H") in H; rewrite AH in H; injection H as <-; apply K|].
  destruct (ascii_dec c "M") as [->|NM].
  { change ["M"%char] with (lit "M") in H. rewrite AM in H. destruct pre; [discriminate|]. injection H as <-. apply (E2 (a :: pre) (lit "M")); [discriminate|auto]. }
  destruct (ascii_dec c "Y") as [->|NY].
  { change ["Y"%char] with (lit "Y") in H. rewrite AY in H. destruct pre; [discriminate|]. injection H as <-. apply (E2 (a :: pre) (lit "Y")); [discriminate|auto]. }
  assert (X : t = pre ++ [c]); [|subst t; exact H].
  destruct (text_eq (pre ++ [c]) (lit "ME")) eqn:E1; [apply text_eq_iff in E1; rewrite E1 in H; discriminate|].
  destruct (text_eq (pre ++ [c]) (lit "YE")) eqn:E3; [apply text_eq_iff in E3; rewrite E3 in H; discriminate|].
  rewrite AO in H; [congruence| | |].
  - cbn. intuition congruence.
  - intro E. apply text_eq_iff in E. congruence.
  - intro E. apply text_eq_iff in E. congruence.
Qed.
Print Assumptions c104_once.
(** The time step as it is stored in the configuration means the same as the one given by the user. *)
Theorem c104_timestep : forall l,
  rewrite_offset (coerce_timestep l) = rewrite_offset l /\ coerce_timestep (coerce_timestep l) = coerce_timestep l /\
  (forall pre, coerce_timestep (pre ++ lit "H") = pre ++ lit "h") /\ (forall pre c, c <> "H"%char -> coerce_timestep (pre ++ [c]) = pre ++ [c]).
Proof.
  assert (C1 : forall pre, coerce_timestep (pre ++ lit "H") = pre ++ lit "h").
  { intro pre. unfold coerce_timestep. change (lit "H") with ["H"%char]. rewrite split_snoc. reflexivity. }
  assert (C2 : forall pre c, c <> "H"%char -> coerce_timestep (pre ++ [c]) = pre ++ [c]).
  { intros pre c N. unfold coerce_timestep. rewrite split_snoc, ch_neq by assumption. reflexivity. }
  intro l. split; [|split; [|auto]].
  - destruct (split_last l) as [[pre c]|] eqn:S; [|apply split_none in S; subst; reflexivity]. apply split_inv in S. subst l.
    destruct (ascii_dec c "H") as [->|N]; [|rewrite C2 by assumption; reflexivity].
    change ["H"%char] with (lit "H"). rewrite C1. destruct (c104_aliases pre) as (A & _). rewrite A. apply (c104_once (pre ++ lit "H")). exact A.
  - destruct (split_last l) as [[pre c]|] eqn:S; [|apply split_none in S; subst; reflexivity]. apply split_inv in S. subst l.
    destruct (ascii_dec c "H") as [->|N]; [|rewrite !C2 by assumption; reflexivity].
    change ["H"%char] with (lit "H"). rewrite C1. change (lit "h") with ["h"%char]. rewrite C2 by discriminate. reflexivity.
Qed.
Print Assumptions c104_timestep.
(** Frequencies valid for pandas are refused if they end with a "D" that does not stand for days: weeks anchored on Wednesday; also fractions of days. *)
Theorem c104_weekday_refuted : forall pandas o, pandas (lit "W-WED") = Some o ->
  to_offset pandas (lit "W-WED") = inl SValueError /\ to_offset pandas (lit "1.5D") = inl SValueError /\
  forall o', pandas (lit "W-TUE") = Some o' -> to_offset pandas (lit "W-TUE") = inr o'.
Proof.
  intros pandas o P. split; [reflexivity|]. split; [reflexivity|]. intros o' P'. unfold to_offset.
  assert (E : rewrite_offset (lit "W-TUE") = inr (Freq (lit "W-TUE"))) by reflexivity. rewrite E, P'. reflexivity.
Qed.
Print Assumptions c104_weekday_refuted.

(** * Deprecated names *)
Lemma rename_get {A} old new (d : dict A) k : old <> new -> dget (rename old new d) k =
  match dget d old with
  | Some v => if (new =? k)%string then Some v else if (old =? k)%string then None else dget d k
  | None => dget d k
  end.
Proof. intro N. unfold rename. destruct (dget d old) as [v|]; [|reflexivity]. rewrite dget_dset, dget_ddel. reflexivity. Qed.
(** The deprecated name disappears, its value is found under the current name, all other settings are kept. *)
Theorem c104_names : forall A (d : dict A),
  (let d' := coerce_meteo_interpolation d in
   dget d' "wind_speed" = None /\ dget d' "wind" = (match dget d "wind_speed" with Some v => Some v | None => dget d "wind" end) /\
   forall k, k <> "wind_speed"%string -> k <> "wind"%string -> dget d' k = dget d k) /\
  match coerce_cloudiness d with
  | None => dget d "day_method" <> None /\ dget d "method" <> None
  | Some d' =>
      (dget d "day_method" = None \/ dget d "method" = None) /\
      dget d' "day_method" = None /\ dget d' "night_method" = None /\
      dget d' "method" = (match dget d "day_method" with Some v => Some v | None => dget d "method" end) /\
      dget d' "clear_sky_fraction_night_method" =
        (match dget d "night_method" with Some v => Some v | None => dget d "clear_sky_fraction_night_method" end) /\
      forall k, ~ In k ["day_method"; "night_method"; "method"; "clear_sky_fraction_night_method"]%string -> dget d' k = dget d k
  end.
Proof.
  intros A d. split.
  - cbv zeta. unfold coerce_meteo_interpolation. rewrite !rename_get by discriminate. split; [|split].
    + destruct (dget d "wind_speed") eqn:E; (reflexivity || assumption).
    + destruct (dget d "wind_speed"); reflexivity.
    + intros k N1 N2. rewrite rename_get by discriminate. destruct (dget d "wind_speed"); [|reflexivity].
      destruct (String.eqb_spec "wind" k); [congruence|]. destruct (String.eqb_spec "wind_speed" k); [congruence|]. reflexivity.
  - unfold coerce_cloudiness. destruct (dget d "day_method") as [v|] eqn:D.
    + destruct (dget d "method") eqn:M; cbn [option_map]; [split; congruence|]. split; [auto|].
      rewrite !rename_get by discriminate. rewrite D. cbn [String.eqb Ascii.eqb Bool.eqb].
      split; [destruct (dget d "night_method"); reflexivity|]. split; [destruct (dget d "night_method") eqn:E; (reflexivity || assumption)|].
      split; [destruct (dget d "night_method"); reflexivity|]. split; [destruct (dget d "night_method"); reflexivity|].
      intros k N. cbn in N. rewrite !rename_get by discriminate. rewrite D.
      repeat (match goal with |- context [(?a =? k)%string] => destruct (String.eqb_spec a k); [exfalso; apply N; auto 10|] end).
      cbn [String.eqb Ascii.eqb Bool.eqb]. destruct (dget d "night_method"); reflexivity.
    + cbn [option_map]. split; [auto|]. rewrite !rename_get by discriminate. cbn [String.eqb Ascii.eqb Bool.eqb].
      split; [destruct (dget d "night_method"); (reflexivity || assumption)|]. split; [destruct (dget d "night_method") eqn:E; (reflexivity || assumption)|].
      split; [destruct (dget d "night_method"); reflexivity|]. split; [destruct (dget d "night_method"); reflexivity|].
      intros k N. cbn in N. rewrite !rename_get by discriminate.
      destruct (dget d "night_method"); repeat (match goal with |- context [(?a =? k)%string] => destruct (String.eqb_spec a k); [exfalso; apply N; auto 10|] end); reflexivity.
Qed.
Print Assumptions c104_names.
(** A configuration with current names only is kept as it is, in particular a second pass changes nothing. *)
Theorem c104_current_names : forall A (d : dict A),
  (dget d "wind_speed" = None -> coerce_meteo_interpolation d = d) /\
  (dget d "day_method" = None -> dget d "night_method" = None -> coerce_cloudiness d = Some d) /\
  coerce_meteo_interpolation (coerce_meteo_interpolation d) = coerce_meteo_interpolation d /\
  (forall d', coerce_cloudiness d = Some d' -> coerce_cloudiness d' = Some d') /\
  coerce_snowmodel "layers" = "multilayer"%string /\ forall s, s <> "layers"%string -> coerce_snowmodel s = s.
Proof.
  intros A d.
  assert (W : forall e : dict A, dget e "wind_speed" = None -> coerce_meteo_interpolation e = e).
  { intros e H. unfold coerce_meteo_interpolation, rename. rewrite H. reflexivity. }
  assert (C : forall e : dict A, dget e "day_method" = None -> dget e "night_method" = None -> coerce_cloudiness e = Some e).
  { intros e H N. unfold coerce_cloudiness. rewrite H. cbn. unfold rename. rewrite N. reflexivity. }
  split; [apply W|]. split; [apply C|]. split; [apply W, (c104_names A d)|]. split.
  - intros d' E. destruct (c104_names A d) as (_ & H). rewrite E in H. apply C; apply H.
  - split; [reflexivity|]. intros s N. unfold coerce_snowmodel. destruct (String.eqb_spec s "layers"); congruence.
Qed.
Print Assumptions c104_current_names.
(** A setting under its current name can be lost without an error: if the deprecated name is present as well, it wins (but not for the method of
    cloudiness, where this is an error). *)
Theorem c104_current_setting_refuted : exists d e : dict nat,
  dget d "wind" = Some 1%nat /\ dget (coerce_meteo_interpolation d) "wind" = Some 2%nat /\
  exists e', coerce_cloudiness e = Some e' /\
  dget e "clear_sky_fraction_night_method" = Some 1%nat /\ dget e' "clear_sky_fraction_night_method" = Some 2%nat.
Proof.
  exists [("wind", 1%nat); ("wind_speed", 2%nat)]%string, [("clear_sky_fraction_night_method", 1%nat); ("night_method", 2%nat)]%string.
  split; [reflexivity|]. split; [reflexivity|]. eexists. repeat split; reflexivity.
Qed.
Print Assumptions c104_current_setting_refuted.

(** * Names of raster files *)
Lemma split_at (x : ascii) : forall a b c d, ~ In x a -> ~ In x b -> a ++ x :: c = b ++ x :: d -> a = b /\ c = d.
Proof.
  induction a as [|y a IH]; intros [|z b] c d A B E; cbn in E.
  - injection E as E. auto.
  - injection E as E1 E2. subst. cbn in B. tauto.
  - injection E as E1 E2. subst. cbn in A. tauto.
  - injection E as E1 E2. subst. cbn in A, B. destruct (IH b c d) as (-> & ->); auto.
Qed.
Lemma show_no_underscore z : ~ In "_"%char (show z).
Proof.
  assert (D : forall l, Forall (fun c => is_digit c = true) l -> ~ In "_"%char l) by (intros l F I; rewrite Forall_forall in F; apply F in I; discriminate).
  unfold show. destruct (Z.ltb_spec z 0).
  - intros [E|I]; [discriminate|]. revert I. apply D, show_nonneg_ok. lia.
  - apply D, show_nonneg_ok. lia.
Qed.
(** Two raster files of one directory have the same name only if they are of the same kind, for the same domain and resolution. The kinds of files the
    model reads are different from each other. *)
Theorem c104_files :
  (forall dir k1 k2 dom1 dom2 r1 r2, In k1 raster_kinds -> In k2 raster_kinds ->
    raster_filename k1 dir dom1 r1 = raster_filename k2 dir dom2 r2 -> k1 = k2 /\ dom1 = dom2 /\ r1 = r2) /\
  NoDup raster_kinds /\
  (forall dir dom r, raster_filename (lit "dem") dir dom r = dir ++ lit "/dem_" ++ dom ++ lit "_" ++ show r ++ lit ".asc").
Proof.
  assert (NU : forall k, In k raster_kinds -> ~ In "_"%char k).
  { intros k I. cbn in I. repeat (destruct I as [<-|I]; [cbn; intuition discriminate|]). destruct I. }
  split; [|split].
  - intros dir k1 k2 dom1 dom2 r1 r2 K1 K2 E. unfold raster_filename in E. apply app_inv_head in E. apply app_inv_head in E.
    change (lit "_") with ["_"%char] in E. cbn [app] in E. apply split_at in E; [|apply NU; assumption|apply NU; assumption].
    destruct E as (-> & E). split; [reflexivity|]. apply (f_equal (@rev _)) in E. rewrite !rev_app_distr in E. cbn [rev] in E.
    rewrite !rev_app_distr in E. rewrite <- !app_assoc in E. cbn [app] in E. apply app_inv_head in E. apply app_inv_head in E.
    apply split_at in E; [|intro I; apply in_rev in I; eapply show_no_underscore, I..]. destruct E as (E1 & E2). split.
    + rewrite <- (rev_involutive dom1), E2. apply rev_involutive.
    + apply show_inj. rewrite <- (rev_involutive (show r1)), E1. apply rev_involutive.
  - unfold raster_kinds. repeat (constructor; [cbn; intuition discriminate|]). constructor.
  - intros. unfold raster_filename. reflexivity.
Qed.
Print Assumptions c104_files.

(** * Time zone of the simulation *)
(** The sun at a time of day given in UTC (seconds) is the same for every time zone of the simulation; without one the dates are local time. *)
Theorem c104_time_zone : forall timezone lon lat utc,
  (forall s, step_sun timezone (Some s) lon lat (utc + 3600 * s) = sun_parameters (utc + 3600 * timezone) lon lat (IZR timezone)) /\
  step_sun timezone None lon lat (utc + 3600 * timezone) = sun_parameters (utc + 3600 * timezone) lon lat (IZR timezone).
Proof.
  intros. unfold step_sun, timezone_shift. split; [intro s|]; f_equal; lia.
Qed.
Print Assumptions c104_time_zone.
Example c104_example :
  rewrite_offset (lit "3D") = inr (Freq (lit "72h")) /\ rewrite_offset (lit "+1_0d") = inr (Freq (lit "240h")) /\ rewrite_offset (lit "D") = inr (Freq (lit "24h")) /\
  rewrite_offset (lit "12H") = inr (Freq (lit "12h")) /\ rewrite_offset (lit "M") = inr MonthEnd /\ rewrite_offset (lit "2Y") = inr (Freq (lit "2YE")) /\
  rewrite_offset (lit "30min") = inr (Freq (lit "30min")) /\ read_int (lit "1__0") = None /\ read_int (lit "-") = None /\ show (-2040) = lit "-2040" /\
  raster_filename (lit "dem") (lit "grids") (lit "a_b") 50 = lit "grids/dem_a_b_50.asc".
Proof. repeat split; vm_compute; reflexivity. Qed.
