(** What the nowcasting models should learn from. *)
From Verif Require Import Common FeatSpec.
Open Scope nat_scope.

(** v is the relative change from k rows before row i to row i. *)
Definition change_from (s : column) (i k : nat) (v : Q) : Prop :=
  k <= i /\ exists a b, row s (i - k) = Some a /\ row s i = Some b /\ ~ (a == 0)%Q /\ v = ((b - a) / a)%Q.
(** v is the value k rows before row i. *)
Definition value_before (s : column) (i k : nat) (v : Q) : Prop := k <= i /\ row s (i - k) = Some v.
(** The ten inputs of a row. *)
Definition inputs (s : column) (i : nat) (x : list Q) : Prop :=
  exists c l, x = c ++ l /\ Forall2 (change_from s i) [9; 14; 19; 24; 29] c /\ Forall2 (value_before s i) [10; 15; 20; 25; 30] l.
(** The value [step] rows after row i. *)
Definition target (s : column) (i step : nat) (y : Q) : Prop := row s (i + step) = Some y.

(** The series is sampled on a daily grid of P rows: the minute of the day of row i is that of its position in the day, and
    different positions have different minutes. *)
Definition daily_grid (P : nat) (minute : nat -> Z) : Prop :=
  1 <= P /\ (forall i, minute (i + P) = minute i) /\ (forall i j, i < P -> j < P -> minute i = minute j -> i = j).

(** No value is missing or zero. *)
Definition complete (s : column) : Prop := forall i, i < length s -> exists v, row s i = Some v /\ ~ (v == 0)%Q.
Definition value (s : column) (i : nat) : Q := value_or_0 (row s i).
(** The daily curve fitted to (minute of the day, value) of all rows, at the minute of row i (which may be after the end). *)
Definition curve (poly : list (Z * Q) -> Z -> Q) (minute : nat -> Z) (s : column) (i : nat) : Q :=
  poly (map (fun j => (minute j, value s j)) (seq 0 (length s))) (minute i).
(** The values of given features on row i. *)
Definition feature_row (features : list (column -> column)) (s : column) (i : nat) (x : list Q) : Prop :=
  Forall2 (fun (F : column -> column) v => row (F s) i = Some v) features x.
