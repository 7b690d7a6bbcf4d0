(** Model of dates: the proleptic Gregorian calendar, model dates, calendar flags of a time step
    (model.py timestep_props), end date inference (conf.py). Times are seconds since 0001-01-01 00:00
    (the first date Python knows); sub-second times and calendars other than pandas' are not modelled. *)
From Coq Require Import List ZArith Bool Lia.
From Coq Require String Ascii.
Import ListNotations.
Open Scope Z_scope.

(** * Calendar (Python datetime) *)
Definition leap (y : Z) : bool := ((y mod 4 =? 0) && (negb (y mod 100 =? 0) || (y mod 400 =? 0))).
Definition month_days (y m : Z) : Z :=
  if m =? 2 then (if leap y then 29 else 28)
  else if (m =? 4) || (m =? 6) || (m =? 9) || (m =? 11) then 30 else 31.
Record ymd := YMD { year : Z; month : Z; day : Z }.
(** The following calendar day *)
Definition next_day (d : ymd) : ymd :=
  if day d <? month_days (year d) (month d) then YMD (year d) (month d) (day d + 1)
  else if month d <? 12 then YMD (year d) (month d + 1) 1
  else YMD (year d + 1) 1 1.
(** The n-th day after 0001-01-01 *)
Fixpoint civil_nat (n : nat) : ymd := match n with O => YMD 1 1 1 | S k => next_day (civil_nat k) end.
Definition civil (n : Z) : ymd := civil_nat (Z.to_nat n).
Definition DAY : Z := 86400.
(** Calendar date of a time (Timestamp.year, .month, .day) *)
Definition date_of (t : Z) : ymd := civil (t / DAY).

(** * Model dates *)
(** model.py:318-322 pd.date_range(start, end, freq=timestep) *)
Definition date_range (start stop step : Z) : list Z :=
  if stop <? start then []
  else map (fun k => start + Z.of_nat k * step) (seq 0 (Z.to_nat ((stop - start) / step) + 1)).

(** conf.py:89-110 _parse_end_date: the end date is a date object, a string, or something with a time
    part. Strings are recognised as dates by the pattern dddd-dd-dd (after stripping the ASCII characters of str.isspace; digits are ASCII digits); their
    conversion to a time (pd.to_datetime) is given by [parsed]. *)
Inductive end_date := EDate (t : Z) | EString (s : String.string) (parsed : Z) | ETime (t : Z).
Definition is_digit (c : Ascii.ascii) : bool :=
  let n := Ascii.nat_of_ascii c in ((48 <=? n) && (n <=? 57))%nat.
Definition is_blank (c : Ascii.ascii) : bool :=
  let n := Ascii.nat_of_ascii c in ((n =? 32) || (9 <=? n) && (n <=? 13) || (28 <=? n) && (n <=? 31))%nat.
Definition is_dash (c : Ascii.ascii) : bool := (Ascii.nat_of_ascii c =? 45)%nat.
Fixpoint lstrip (l : list Ascii.ascii) : list Ascii.ascii :=
  match l with c :: t => if is_blank c then lstrip t else l | [] => [] end.
Definition strip (l : list Ascii.ascii) : list Ascii.ascii := rev (lstrip (rev (lstrip l))).
Definition date_pattern : list (Ascii.ascii -> bool) :=
  [is_digit; is_digit; is_digit; is_digit; is_dash; is_digit; is_digit; is_dash; is_digit; is_digit].
Fixpoint matches (p : list (Ascii.ascii -> bool)) (l : list Ascii.ascii) : bool :=
  match p, l with
  | [], [] => true
  | f :: p', c :: l' => f c && matches p' l'
  | _, _ => false
  end.
Definition parse_end_date (e : end_date) (timestep : Z) : Z :=
  let infer := match e with
               | EDate _ => true
               | EString s _ => matches date_pattern (strip (String.list_ascii_of_string s))
               | ETime _ => false
               end in
  let t := match e with EDate t => t | EString _ p => p | ETime t => t end in
  if infer && (timestep <? DAY) then t + (24 * 3600 - timestep) else t.
(** conf.py:211-228: the run must end exactly at a model date *)
Definition dates_accepted (start stop step : Z) : bool :=
  if stop <? start then false
  else match rev (date_range start stop step) with l :: _ => l =? stop | [] => false end.

(** * Calendar flags *)
(** model.py:898-976 timestep_props *)
Record props := PR {
  first_of_run : bool;
  strict_first_of_year : bool; strict_first_of_month : bool; strict_first_of_day : bool;
  first_of_year : bool; first_of_month : bool; first_of_day : bool;
  last_of_run : bool;
  strict_last_of_year : bool; strict_last_of_month : bool; strict_last_of_day : bool;
  last_of_year : bool; last_of_month : bool; last_of_day : bool }.
Definition timestep_props (dates : list Z) (timestep : Z) (idx : nat) : option props :=
  match nth_error dates idx with
  | None => None
  | Some date =>
      let prev := date_of (date - timestep) in
      let next := date_of (date + timestep) in
      let cur := date_of date in
      let first_run := (idx =? 0)%nat in
      let fy := negb (year prev =? year cur) in
      let fm := negb (month prev =? month cur) in
      let fd := negb (day prev =? day cur) in
      let last_run := (S idx =? length dates)%nat in
      let ly := negb (year next =? year cur) in
      let lm := negb (month next =? month cur) in
      let ld := negb (day next =? day cur) in
      Some (PR first_run fy fm fd (fy || first_run) (fm || first_run) (fd || first_run)
               last_run ly lm ld (ly || last_run) (lm || last_run) (ld || last_run))
  end.
