(** The calendar by itself: which dates exist, which date follows, weeks that start on Monday. *)
From Coq Require Import List ZArith Bool Reals.
From Verif Require Import CalendarModel.
Import ListNotations.
Open Scope Z_scope.

Definition leap_year (y : Z) : Prop := (4 | y) /\ (~ (100 | y) \/ (400 | y)).
Definition days_in (y m n : Z) : Prop :=
  (In m [1; 3; 5; 7; 8; 10; 12] /\ n = 31) \/ (In m [4; 6; 9; 11] /\ n = 30) \/
  (m = 2 /\ leap_year y /\ n = 29) \/ (m = 2 /\ ~ leap_year y /\ n = 28).
Definition valid (d : date) : Prop := exists n, days_in (d_year d) (d_month d) n /\ 1 <= d_day d <= n.
(** the next date *)
Inductive follows : date -> date -> Prop :=
| next_day y m d : valid (Date y m d) -> valid (Date y m (d + 1)) -> follows (Date y m d) (Date y m (d + 1))
| next_month y m n : m < 12 -> days_in y m n -> follows (Date y m n) (Date y (m + 1) 1)
| next_year y : follows (Date y 12 31) (Date (y + 1) 1 1).
(** the last date of a month, of a quarter *)
Definition last_of_month (d : date) : Prop := days_in (d_year d) (d_month d) (d_day d).
Definition last_of_quarter (d : date) : Prop := last_of_month d /\ In (d_month d) [3; 6; 9; 12].
Definition well_formed (s : stamp) : Prop := valid (local s) /\ 0 <= hour s <= 23 /\ 0 <= minute s <= 59.
(** the date in UTC is the local date or one next to it *)
Definition zoned (s : stamp) : Prop := utc s = local s \/ follows (utc s) (local s) \/ follows (local s) (utc s).
