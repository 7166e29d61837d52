(** Empirical prediction intervals — kats/utils/emp_confidence_int.py — over the reals.

    The errors of the folds of the backtest come as one list per fold, all of the same length (the backtester's
    test window); the normal quantile stats.norm.ppf is a parameter.
    Not modelled: the argument checks of the constructor (lines 79-96), plots. *)
From Coq Require Import Reals List Arith Bool.
From Verif Require Import PercChangeModel.
Import ListNotations.
Open Scope R_scope.

(** run_cv — emp_confidence_int.py:148-155: the sample standard deviation over the folds at each horizon; NaN with
    fewer than two folds *)
Definition emp_se (folds : list (list R)) : option (list R) :=
  match folds with
  | f :: _ :: _ => Some (map (fun h => sqrt (rvar (map (fun r => nth h r 0) folds))) (seq 0 (length f)))
  | _ => None
  end.
(** get_lr — emp_confidence_int.py:157-175: np.linalg.lstsq of the columns (horizon, 1); for one row the solution of
    least norm *)
Definition emp_lr (y : list R) : option (R * R) :=
  match y with
  | [] => None
  | [s] => Some (s / 2, s / 2)
  | _ =>
      let pts := combine (map INR (seq 1 (length y))) y in
      let n := len y in
      let sx := rsum (map (fun p => fst p) pts) in
      let sxx := rsum (map (fun p => fst p * fst p) pts) in
      let sy := rsum (map (fun p => snd p) pts) in
      let sxy := rsum (map (fun p => fst p * snd p) pts) in
      let slope := (n * sxy - sx * sy) / (n * sxx - sx * sx) in
      Some (slope, (sy - slope * sx) / n)
  end.
Record emp_row := ERow { fcst : R; lower : R; upper : R }.
(** get_eci — emp_confidence_int.py:194-218: [predicted] are the model's forecasts, one per step *)
Definition get_eci (ppf : R -> R) (level : R) (folds : list (list R)) (predicted : list R) : option (list emp_row) :=
  match emp_se folds with
  | None => None
  | Some y =>
      match emp_lr y with
      | None => None
      | Some (a, b) =>
          Some (map (fun p => let me := ppf level * (fst p * a + b) in ERow (snd p) (snd p - me) (snd p + me))
                    (combine (map INR (seq 1 (length predicted))) predicted))
      end
  end.
