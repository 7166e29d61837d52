(** Calendar features of kats/utils/feature_engineering.py.

    A date is a proleptic Gregorian (year, month, day); pandas computes the day of the week and the length of
    a month (modelled here with the usual arithmetic of Python's datetime.toordinal, which pandas follows).
    A row of the index is its local date and time together with the date of the same instant in UTC (equal to
    the local date for an index without time zone). *)
From Coq Require Import List ZArith Bool Reals.
Import ListNotations.
Open Scope Z_scope.

Record date := Date { d_year : Z; d_month : Z; d_day : Z }.
Definition leap (y : Z) : bool := ((y mod 4 =? 0) && negb (y mod 100 =? 0)) || (y mod 400 =? 0).
Definition month_length (y m : Z) : Z :=
  if m =? 2 then (if leap y then 29 else 28)
  else if (m =? 4) || (m =? 6) || (m =? 9) || (m =? 11) then 30 else 31.
(** days before the first of month [m] of year [y], and the ordinal of a date: 1 for 1 January of year 1 *)
Definition before_month (y m : Z) : Z := fold_right Z.add 0 (map (fun k => month_length y (Z.of_nat k)) (seq 1 (Z.to_nat (m - 1)))).
Definition ordinal (d : date) : Z :=
  let p := d_year d - 1 in 365 * p + p / 4 - p / 100 + p / 400 + before_month (d_year d) (d_month d) + d_day d.
(** DatetimeIndex.dayofweek: Monday is 0 *)
Definition dayofweek (d : date) : Z := (ordinal d + 6) mod 7.
Definition month_end (d : date) : bool := d_day d =? month_length (d_year d) (d_month d).

(** one row of the index *)
Record stamp := Stamp { local : date; utc : date; hour : Z; minute : Z }.

(** _SEASON_MAP, _DAYTIME_MAP — feature_engineering.py:18-32, 36-61 *)
Definition season_map : list (Z * Z) :=
  [(0, 0); (1, 0); (2, 1); (3, 1); (4, 1); (5, 1); (6, 2); (7, 2); (8, 2); (9, 3); (10, 3); (11, 3); (12, 0)].
Definition daytime_map : list (Z * Z) :=
  [(0, 0); (1, 0); (2, 0); (3, 0); (4, 0); (5, 1); (6, 1); (7, 1); (8, 2); (9, 2); (10, 2); (11, 2); (12, 2);
   (13, 3); (14, 3); (15, 3); (16, 3); (17, 3); (18, 4); (19, 4); (20, 5); (21, 5); (22, 5); (23, 0)].
(** _map — feature_engineering.py:64-83: one masked assignment per entry, the masks taken from the original *)
Definition assign (values : list Z) (kv : Z * Z) (result : list Z) : list Z :=
  map (fun p => if fst p =? fst kv then snd kv else snd p) (combine values result).
Definition map_values (values : list Z) (m : list (Z * Z)) : list Z :=
  fold_left (fun result kv => assign values kv result) m values.

(** date_features — feature_engineering.py:86-146 (weekofyear, dayofyear, quarter, year, month and day are
    taken from pandas unchanged and left out).  numpy's ceil of a quotient by 7 is the integer one. *)
Record date_row := DateRow { f_season : Z; f_weekofmonth : Z; f_weekend : bool; f_leap_day : bool; f_month_end : bool; f_quarter_end : bool }.
Definition date_features (index : list stamp) : list date_row :=
  map (fun p =>
    let s := fst p in
    let d := local s in
    let first := Date (d_year (utc s)) (d_month (utc s)) 1 in
    DateRow (snd p) ((dayofweek first + d_day d + 6) / 7) (5 <=? dayofweek d)
            ((d_month d =? 2) && (d_day d =? 29)) (month_end d) (month_end d && (d_month d mod 4 =? 3)))
  (combine index (map_values (map (fun s => d_month (local s)) index) season_map)).

(** time_features — feature_engineering.py:149-190 (dst, utcoffset and the plain fields left out) *)
Record time_row := TimeRow { f_quarterhour : Z; f_hourofweek : Z; f_daytime : Z }.
Definition time_features (index : list stamp) : list time_row :=
  map (fun p => let s := fst p in TimeRow (minute s / 15 + 1) (dayofweek (local s) * 24 + hour s) (snd p))
  (combine index (map_values (map hour index) daytime_map)).

(** circle_encode — feature_engineering.py:226-251, one integer feature *)
Definition circle (modulo : bool) (period : Z) (values : list Z) : list (R * R) :=
  map (fun v => let f := (IZR (if modulo then v mod period else v) * (PI * 2 / IZR period))%R in (cos f, sin f)) values.
