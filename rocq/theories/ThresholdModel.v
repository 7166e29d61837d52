(** The static threshold detector — detectors/threshold_detector.py:51-107 (what it serializes is in SerialModel.v).

    A series of one variable is the list of its times and the list of its values.  Values are of any type [V] with a [zero].
    Left out: the names of the columns, series of several variables (for which data.value.name raises). *)
From Coq Require Import List ZArith.
Import ListNotations.
Open Scope Z_scope.

Section Threshold.
Context {V : Type} (zero : V).
Record series := { s_time : list Z; s_value : list V }.
(** sort_values on the times — consts.py:948-960.  Only used with equal values, so that the order of equal times does not matter. *)
Fixpoint insert (t : Z) (l : list Z) : list Z := match l with [] => [t] | u :: r => if t <=? u then t :: u :: r else u :: insert t r end.
Fixpoint sort (l : list Z) : list Z := match l with [] => [] | t :: l => insert t (sort l) end.
(** TimeSeriesData(time, constant values) with sort_by_time left at True — consts.py:306-383; [None]: ValueError for lengths that differ *)
Definition make_constant (time : list Z) (value : list V) : option series :=
  if Nat.eqb (length time) (length value) then Some {| s_time := sort time; s_value := value |} else None.
(** _zeros_ts — threshold_detector.py:51-59 *)
Definition zeros_ts (data : series) : option series := make_constant (s_time data) (repeat zero (length (s_value data))).
(** the setter of value, without a check — consts.py:452-463 *)
Definition set_value (s : series) (v : list V) : series := {| s_time := s_time s; s_value := v |}.
Record response := { scores : series; magnitude : series }.
(** fit_predict — threshold_detector.py:61-87 *)
Definition fit_predict (data : series) (historical_data : option series) : option response :=
  match zeros_ts data with
  | None => None
  | Some o => let o := set_value o (s_value data) in
              match zeros_ts data with None => None | Some m => Some {| scores := o; magnitude := m |} end
  end.
(** predict — threshold_detector.py:98-107: always ValueError *)
Definition predict (data : series) (historical_data : option series) : option response := None.
End Threshold.
Arguments series V : clear implicits.
Arguments response V : clear implicits.
