(** The forecasters that wrap a statsmodels model: kats/models/sarima.py, arima.py, var.py.

    What statsmodels computes is a parameter: forecasts and intervals for a number of steps, fitted values and their
    intervals. Modelled is what the wrappers do with them. None is NaN in a cell, and an exception as a result. *)
From Coq Require Import List ZArith Reals Bool Arith.
From Verif Require Import OutlierModel HeuristicModel.
Import ListNotations.
Open Scope nat_scope.

Definition cell := option R.
Record row := { r_time : Z; r_fcst : cell; r_lower : cell; r_upper : cell }.
Definition make_rows (times : list Z) (fcst lower upper : list cell) : option (list row) :=
  if (length times =? length fcst) && (length times =? length lower) && (length times =? length upper)
  then Some (map (fun q => {| r_time := fst (fst (fst q)); r_fcst := snd (fst (fst q)); r_lower := snd (fst q); r_upper := snd q |})
               (combine (combine (combine times fcst) lower) upper))
  else None.
Definition is_nan (c : cell) : bool := match c with None => true | _ => false end.
Definition cell_ltb (a b : cell) : bool := match a, b with Some x, Some y => if Rlt_dec x y then true else false | _, _ => false end.

Section Wrappers.
Variable roll next : Z -> Z.

Section Sarima.
(** get_forecast(steps).predicted_mean and .conf_int(alpha); get_prediction(0) of the history likewise *)
Variable ahead_mean : nat -> list cell.
Variable ahead_ci : R -> nat -> list (cell * cell).
Variable hist_mean : list cell.
Variable hist_ci : R -> list (cell * cell).
Record orders := { o_p : nat; o_d : nat; o_q : nat; s_p : nat; s_d : nat; s_q : nat; s_m : nat }.
(** the rows blanked — sarima.py:397-406: fcst_df.loc[0:k] includes row k *)
Definition blank_k (o : orders) : nat := Nat.max (o_p o) (Nat.max (o_d o) (o_q o)) + Nat.max (s_p o) (Nat.max (s_d o) (s_q o)) * s_m o + 1.
Definition blank (k : nat) (rows : list row) : list row :=
  map (fun q => if fst q <=? k then {| r_time := r_time (snd q); r_fcst := None; r_lower := None; r_upper := None |} else snd q)
    (combine (seq 0 (length rows)) rows).
(** SARIMAModel.predict — sarima.py:297-420 *)
Definition sarima_predict (o : orders) (alpha : R) (history : bool) (steps : nat) (times : list Z) : option (list row) :=
  let mean := ahead_mean steps in
  if length (filter is_nan mean) =? steps then None
  else
    let ci := ahead_ci alpha steps in
    match ci with
    | [] => None
    | first :: _ =>
        let '(lower, upper) := if cell_ltb (fst first) (snd first) then (map fst ci, map snd ci) else (map snd ci, map fst ci) in
        let dates := future roll next (zmax times) steps in
        if history then
          let hci := hist_ci (5 / 100)%R in
          option_map (blank (blank_k o)) (make_rows (times ++ dates) (hist_mean ++ mean) (map fst hci ++ lower) (map snd hci ++ upper))
        else make_rows dates mean lower upper
    end.
End Sarima.

Section Arima.
(** ARIMA(value, order, exog, dates, freq, trend).fit() for a trend (None: the default), and summary_frame(alpha) of
    its forecast: mean, mean_ci_lower, mean_ci_upper *)
Inductive trend := NoTrend | Constant | Linear | Both.
Variable fitted : Type.
Variable sm_fit : option trend -> fitted.
Variable sm_frame : fitted -> R -> nat -> list (cell * cell * cell).
(** ARIMAModel.fit — arima.py:139-228: the trend is checked and kept, but not given to ARIMA. The text "x" stands for
    any that is not a trend. *)
Definition arima_fit (t : option trend) : option fitted := match t with None => None | Some _ => Some (sm_fit None) end.
(** predict without history — arima.py:232-288: summary_frame() with its default, 0.05 *)
Definition arima_predict (f : option fitted) (alpha : R) (steps : nat) (times : list Z) : option (list row) :=
  match f with
  | None => None
  | Some f =>
      let frame := sm_frame f (5 / 100)%R steps in
      make_rows (future roll next (zmax times) steps) (map (fun q => fst (fst q)) frame) (map (fun q => snd (fst q)) frame) (map snd frame)
  end.
End Arima.

Section Var.
(** forecast_interval: for one variable, the three columns; fittedvalues of that variable *)
Variable ahead : R -> nat -> list (cell * cell * cell).
Variable fittedvalues : list cell.
(** VARModel.predict — var.py:131-221, one variable: dates[1:], and the history under it *)
Definition var_predict (alpha : R) (history : bool) (steps : nat) (times : list Z) : option (list row) :=
  let dates := tl (date_range roll next (zmax times) (steps + 1)) in
  let frame := ahead alpha steps in
  match make_rows dates (map (fun q => fst (fst q)) frame) (map (fun q => snd (fst q)) frame) (map snd frame) with
  | None => None
  | Some rows =>
      if history then
        let k := length fittedvalues in
        let hist_dates := if k =? 0 then times else skipn (length times - k) times in
        option_map (fun h => h ++ rows) (make_rows hist_dates fittedvalues (map (fun _ => None) fittedvalues) (map (fun _ => None) fittedvalues))
      else Some rows
  end.
End Var.
End Wrappers.

(** VARModel.fit — var.py:103-109: a missing maxlags is computed from the length of the data and put into the
    parameters, which belong to the caller. The result is the parameters afterwards and the maxlags of the fit. The
    floor of the fourth root is exact here. *)
Definition default_lags (n : nat) : nat := Nat.sqrt (Nat.sqrt (144 * 144 * n / 100)).
Definition var_fit (maxlags : option nat) (n : nat) : option nat * nat :=
  let l := match maxlags with None => default_lags n | Some l => l end in (Some l, l).
(** models made from the same parameters, fitted one after the other on data of these lengths *)
Fixpoint var_fits (maxlags : option nat) (lengths : list nat) : list nat :=
  match lengths with [] => [] | n :: ns => let '(ml, l) := var_fit maxlags n in l :: var_fits ml ns end.
