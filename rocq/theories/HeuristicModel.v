(** The simple heuristic forecaster: kats/models/simple_heuristic_model.py.

    The frequency is given by its grid of times: [roll t] is the first grid time at or after [t] and [next] the
    grid time after a grid time, which is how pandas.date_range works.  Values are rationals without missing
    values; [steps] is a natural number. *)
From Coq Require Import List ZArith QArith Bool.
From Verif Require Import Common PySlice MetricsModel OutlierModel.
Import ListNotations.
Open Scope list_scope.
Open Scope nat_scope.

Inductive heuristic := Last | Mean | Median | Percentile (q : nat).
(** np.percentile, linear interpolation at rank (n-1) q / 100 *)
Definition percentile (q : nat) (l : list Q) : Q :=
  let s := qsort l in
  let r := (List.length l - 1) * q in
  let i := r / 100 in
  (nth i s 0 + inject_Z (Z.of_nat (r mod 100)) / 100 * (nth (S i) s 0 - nth i s 0))%Q.
(** SimpleHeuristicModelParams.validate_params — simple_heuristic_model.py:46-62 (methods outside
    the four and quantiles that are not natural numbers are not representable here) *)
Definition accepted (m : heuristic) : bool := match m with Percentile q => q <=? 100 | _ => true end.

(** np.reshape(v, [-1, steps]): row-major; raises unless the size is a multiple of [steps] *)
Definition reshape (steps : nat) (v : list Q) : option (list (list Q)) :=
  if List.length v mod steps =? 0
  then Some (map (fun k => map (fun j => nth (k * steps + j) v 0%Q) (seq 0 steps)) (seq 0 (List.length v / steps)))
  else None.
Definition column (j : nat) (rows : list (list Q)) : list Q := map (fun r => nth j r 0%Q) rows.
(** _calc_last, _calc_mean, _calc_median, _calc_percentile — simple_heuristic_model.py:106-140 *)
Definition calc (m : heuristic) (steps : nat) (rows : list (list Q)) : option (list Q) :=
  match rows with
  | [] => None
  | _ => Some match m with
              | Last => last rows []
              | Mean => map (fun j => qavg (column j rows)) (seq 0 steps)
              | Median => map (fun j => qmedian (column j rows)) (seq 0 steps)
              | Percentile q => map (fun j => percentile q (column j rows)) (seq 0 steps)
              end
  end.
Section Grid.
Variable roll next : Z -> Z.
(** pd.date_range(start=..., periods=..., freq=...) *)
Fixpoint grid_from (t : Z) (n : nat) : list Z := match n with O => [] | S n => t :: grid_from (next t) n end.
Definition date_range (start : Z) (periods : nat) : list Z := grid_from (roll start) periods.
(** future dates — simple_heuristic_model.py:199-201 (the same lines occur in most models) *)
Definition future (last_date : Z) (steps : nat) : list Z :=
  filter (fun t => negb (t =? last_date)%Z) (date_range last_date (steps + 1)).

(** __init__ sets the method to "last", fit — simple_heuristic_model.py:102, 142-158 — to the chosen one;
    predict — simple_heuristic_model.py:162-229.  A data frame of columns of different lengths raises. *)
Definition predict (fitted : bool) (m : heuristic) (history : bool) (steps : nat) (times : list Z) (values : list Q)
    : option (list (Z * Q)) :=
  if steps =? 0 then None
  else
    let fitted_len := (List.length values / steps) * steps in
    let tail := py_slice values (Some (- Z.of_nat fitted_len))%Z None in
    match reshape steps tail with
    | None => None
    | Some rows =>
        match calc (if fitted then m else Last) steps rows with
        | None => None
        | Some fcst =>
            let dates := future (zmax times) steps in
            let dates := if history then times ++ dates else dates in
            let fcst := if history then values ++ fcst else fcst in
            if List.length dates =? List.length fcst then Some (combine dates fcst) else None
        end
    end.
End Grid.
