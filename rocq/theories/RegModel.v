(** The trend forecasters: kats/models/linear_model.py and kats/models/quadratic_model.py, over the real numbers.

    Observations are numbered 0, 1, 2, ... in the order of the series; the frequency is given by its grid of times as
    in HeuristicModel.v. Least squares is that of LsqModel.v; [tq p df] is the value that a Student variable with [df]
    degrees of freedom exceeds with probability [p] (scipy.stats.t.isf). None is an exception, except in the bounds of
    a forecast, where it is NaN. *)
From Coq Require Import List ZArith Reals Bool.
From Verif Require Import OutlierModel HeuristicModel LsqModel.
Import ListNotations.
Open Scope nat_scope.

Inductive trend := Linear | Quadratic.
(** the columns before the constant is added — linear_model.py:90-91, 122-127; quadratic_model.py:91-93, 131-137 *)
Definition features (m : trend) : list (nat -> R) :=
  match m with Linear => [fun x => INR x] | Quadratic => [fun x => INR x; fun x => (INR x ^ 2)%R] end.
(** statsmodels add_constant(data) with its default has_constant="skip": when some column has one and the same
    non-zero value in all rows, the data come back as they are. No rows raise. *)
Definition nonzero_const (xs : list nat) (f : nat -> R) : bool :=
  match xs with
  | [] => false
  | x0 :: _ => (if Req_EM_T (f x0) 0 then false else true) && forallb (fun x => if Req_EM_T (f x) (f x0) then true else false) xs
  end.
Definition add_constant (xs : list nat) (cols : list (nat -> R)) : option (list (nat -> R)) :=
  match xs with
  | [] => None
  | _ => Some (if existsb (nonzero_const xs) cols then cols else (fun _ => 1%R) :: cols)
  end.
Definition row_of (cols : list (nat -> R)) (x : nat) : row := fun i => nth i (map (fun f => f x) cols) 0%R.

(** fit — linear_model.py:83-96, quadratic_model.py:83-100: the columns of the design matrix, its rows with the
    observations *)
Record fitted := { f_cols : list (nat -> R); f_data : list (row * R) }.
Definition fit (m : trend) (values : list R) : option fitted :=
  let xs := seq 0 (length values) in
  option_map (fun cols => {| f_cols := cols; f_data := combine (map (row_of cols) xs) values |}) (add_constant xs (features m)).
Definition n_params (f : fitted) : nat := length (f_cols f).

Record line := { l_time : Z; l_fcst : R; l_lower : option R; l_upper : option R }.
Section Predict.
Variable roll next : Z -> Z.
Variable tq : R -> nat -> R.
(** wls_prediction_std of statsmodels: the standard error of a new observation, NaN without residual degrees of
    freedom *)
Definition freedom (f : fitted) : nat := length (f_data f) - n_params f.
Definition std_error (f : fitted) (r : row) : option R :=
  match freedom f with
  | O => None
  | df => Some (sqrt (ssr (n_params f) (f_data f) (beta (n_params f) (f_data f)) / INR df
                      * (1 + leverage (n_params f) (f_data f) r)))%R
  end.
Definition forecast_line (f : fitted) (cols : list (nat -> R)) (alpha : R) (tx : Z * nat) : line :=
  let r := row_of cols (snd tx) in
  let y := dot (n_params f) (beta (n_params f) (f_data f)) r in
  {| l_time := fst tx; l_fcst := y;
     l_lower := option_map (fun s => y - tq (alpha / 2) (freedom f) * s)%R (std_error f r);
     l_upper := option_map (fun s => y + tq (alpha / 2) (freedom f) * s)%R (std_error f r) |}.
(** predict — linear_model.py:100-163, quadratic_model.py:104-169: [model] is None before fit. The new design matrix
    must have as many columns as there are parameters, and the data frame as many times as forecasts. *)
Definition predict (m : trend) (model : option fitted) (alpha : R) (history : bool) (steps : nat) (times : list Z) : option (list line) :=
  let past := length times in
  let xs := if history then seq 0 (past + steps) else seq past steps in
  match model, add_constant xs (features m) with
  | Some f, Some cols =>
      if negb (length cols =? n_params f) then None
      else
        let dates := future roll next (zmax times) steps in
        let dates := if history then times ++ dates else dates in
        if length dates =? length xs then Some (map (forecast_line f cols alpha) (combine dates xs)) else None
  | _, _ => None
  end.
End Predict.
