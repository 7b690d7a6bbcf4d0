(** Model of the handling of settings given as text: frequencies (util.py to_offset), deprecated names (conf.py ConfigurationValidator), names of the
    raster files (util.py raster_filename), and of the time zone of the simulation (model.py). Texts are ASCII. Parsing of frequencies by pandas is
    given by a function ([pandas]); None is its ValueError. *)
From Verif Require Import Common TimeModel SunModel StateModel PointConfigModel.
From Coq Require Import String Ascii.
Open Scope Z_scope.

Definition text := list ascii.
Definition lit (s : string) : text := list_ascii_of_string s.
Definition ch (c x : ascii) : bool := Ascii.eqb c x.
Definition text_eq (a b : text) : bool := if list_eq_dec ascii_dec a b then true else false.

(** * Integers as text *)
(** str(z), f"{z}" *)
Definition digit_char (d : Z) : ascii := ascii_of_nat (48 + Z.to_nat d).
Fixpoint show_digits (fuel : nat) (n : Z) : text :=
  match fuel with
  | O => []
  | S f => if n <? 10 then [digit_char n] else show_digits f (n / 10) ++ [digit_char (n mod 10)]
  end%list.
Definition show_nonneg (n : Z) : text := show_digits (S (Z.to_nat (Z.log2 n))) n.
Definition show (z : Z) : text := if z <? 0 then "-"%char :: show_nonneg (- z) else show_nonneg z.
(** int(text): surrounding blanks, one sign, digits, single underscores between digits *)
Definition digit_value (c : ascii) : Z := Z.of_nat (nat_of_ascii c) - 48.
Fixpoint well_formed (after_digit : bool) (l : text) : bool :=
  match l with
  | [] => after_digit
  | c :: r => if is_digit c then well_formed true r else ch c "_" && after_digit && well_formed false r
  end.
Definition digits_value (l : text) : Z := fold_left (fun a c => if is_digit c then 10 * a + digit_value c else a) l 0.
Definition read_digits (l : text) : option Z := if well_formed false l then Some (digits_value l) else None.
Definition read_int (l : text) : option Z :=
  match strip l with
  | c :: r => if ch c "-" then option_map Z.opp (read_digits r) else if ch c "+" then read_digits r else read_digits (c :: r)
  | [] => None
  end.

(** * util.py:299-339 *)
(** text[:-1], text[-1] *)
Definition split_last (l : text) : option (text * ascii) :=
  match rev l with [] => None | c :: r => Some (rev r, c) end.
Inductive serr := SIndexError | SValueError.
(** What is passed on to pandas: a text or an offset object *)
Inductive offset_text := Freq (l : text) | MonthEnd | YearEnd.
(** 314-330 *)
Definition rewrite_offset (l : text) : serr + offset_text :=
  match split_last l with
  | None => inl SIndexError
  | Some (pre, c) =>
      let l' := if ch c "D" || ch c "d" then
                  match pre with
                  | [] => Some (show (24 * 1) ++ lit "h")
                  | _ => match read_int pre with Some n => Some (show (24 * n) ++ lit "h") | None => None end
                  end
                else if ch c "H" then Some (pre ++ lit "h")
                else if ch c "M" then Some (pre ++ lit "ME")
                else if ch c "Y" then Some (pre ++ lit "YE")
                else Some l in
      match l' with
      | None => inl SValueError
      | Some l' => inr (if text_eq l' (lit "ME") then MonthEnd else if text_eq l' (lit "YE") then YearEnd else Freq l')
      end
  end%list.
(** 332; the offset objects are passed through by pandas *)
Inductive offset := Fixed (seconds : Z) | MonthEnds (n : Z) | YearEnds (n : Z) | OtherOffset (l : text).
Definition to_offset (pandas : text -> option offset) (l : text) : serr + offset :=
  match rewrite_offset l with
  | inl e => inl e
  | inr MonthEnd => inr (MonthEnds 1)
  | inr YearEnd => inr (YearEnds 1)
  | inr (Freq t) => match pandas t with Some o => inr o | None => inl SValueError end
  end.
(** 335-339: pd.to_timedelta raises ValueError for offsets without fixed length *)
Definition offset_to_timedelta (pandas : text -> option offset) (l : text) : serr + Z :=
  match to_offset pandas l with
  | inl e => inl e
  | inr (Fixed s) => inr s
  | inr _ => inl SValueError
  end.

(** * conf.py:40-78 *)
Definition coerce_timestep (l : text) : text :=
  match split_last l with Some (pre, c) => if ch c "H" then (pre ++ lit "h")%list else l | None => l end.
Definition coerce_snowmodel (s : string) : string := if (s =? "layers")%string then "multilayer"%string else s.
(** d[new] = d.pop(old), if old is in d (the keys of a dictionary are distinct) *)
Definition rename {A} (old new : string) (d : dict A) : dict A :=
  match dget d old with Some v => dset (ddel d old) new v | None => d end.
Definition coerce_meteo_interpolation {A} (d : dict A) : dict A := rename "wind_speed" "wind" d.
(** None: ConfigurationError *)
Definition coerce_cloudiness {A} (d : dict A) : option (dict A) :=
  let d1 := match dget d "day_method" with
            | None => Some d
            | Some _ => match dget d "method" with None => Some (rename "day_method" "method" d) | Some _ => None end
            end in
  option_map (rename "night_method" "clear_sky_fraction_night_method") d1.

(** * util.py:73-94 raster_filename; the normalisation of paths is not modelled *)
Definition raster_filename (kind dir domain : text) (resolution : Z) : text :=
  (dir ++ lit "/" ++ kind ++ lit "_" ++ domain ++ lit "_" ++ show resolution ++ lit "." ++ lit "asc")%list.
(** model.py:444, 561-563, 632-675, 692-693 *)
Definition raster_kinds : list text :=
  [lit "dem"; lit "roi"; lit "svf"; lit "srf"; lit "lc"; lit "soil"; lit "glaciers"; lit "extended-dem"; lit "extended-svf"].

(** * model.py:329-333, 880-885: shift of the dates to local time, in seconds, and the sun of a time step *)
Definition timezone_shift (timezone : Z) (simulation_timezone : option Z) : Z :=
  match simulation_timezone with None => 0 | Some s => 3600 * (timezone - s) end.
Definition step_sun (timezone : Z) (simulation_timezone : option Z) (lon lat : R) (date : Z) : sun :=
  sun_parameters (date + timezone_shift timezone simulation_timezone) lon lat (IZR timezone).
