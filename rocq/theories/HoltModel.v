(** kats/models/holtwinters.py with kats/utils/emp_confidence_int.py:178-218: the Holt-Winters forecaster and its empirical
    intervals.

    Simplifications: statsmodels is a parameter: [forecast p values steps] the forecasts after fitting to [values] (None when it
    raises), [insample p values] the fitted values.  A frequency is a grid of times ([roll], [next], as in HeuristicModel.v);
    [infer] is pd.infer_freq, [day] the frequency "D".  The error methods of the backtest are not modelled, only its folds and
    raw errors; NaN is not modelled.  None is an exception, but in the bounds of a row it is NaN. *)
From Coq Require Import String.
From Coq Require Import Reals QArith.
From Coq Require Import List ZArith Bool.
From Verif Require Import PySlice OutlierModel HeuristicModel BacktestModel EmpIntervalModel.
Import ListNotations.
Open Scope R_scope.

(** holtwinters.py:54-99 *)
Record params := Params { trend : option string; damped : bool; seasonal : option string; seasonal_periods : option Z }.
Definition known (s : option string) : bool :=
  match s with None => true | Some s => existsb (String.eqb s) ["add"; "mul"; "additive"; "multiplicative"]%string end.
Definition make_params (t : option string) (d : bool) (s : option string) (sp : option Z) : option params :=
  if negb (known t) then None else if negb (known s) then None else Some (Params t d s sp).

Record freq := Freq { roll : Z -> Z; next : Z -> Z }.
Record row := Row { r_time : Z; r_fcst : R; r_bounds : option (R * R) }.
(** pd.date_range(start=last_date, periods=steps + 1, freq=freq) without last_date; without a frequency it raises —
    holtwinters.py:174-176 *)
Definition dates (f : option freq) (times : list Z) (steps : nat) : option (list Z) :=
  match f with None => None | Some f => Some (future (roll f) (next f) (zmax times) steps) end.
(** holtwinters.py:211-213 *)
Definition plain (forecast : params -> list R -> nat -> option (list R)) (p : params) (values : list R) (steps : nat) (ds : list Z) : option (list row) :=
  match forecast p values steps with
  | None => None
  | Some fc => if (length ds =? length fc)%nat then Some (map (fun d => Row (fst d) (snd d) None) (combine ds fc)) else None
  end.

(** one fold of the backtest, backtesters.py:519-594, 466-517: the model is fitted to the training part and predicts with the
    frequency [f] inferred from the whole series (lines 434-439, 593-594); its errors, truth minus forecast, are kept *)
Definition fold (f : option freq) (forecast : params -> list R -> nat -> option (list R)) (p : params) (times : list Z) (values : list R) (tr te : Z * Z) : option (list R) :=
  let train_times := py_slice times (Some (fst tr)) (Some (snd tr)) in
  let train := py_slice values (Some (fst tr)) (Some (snd tr)) in
  let test := py_slice values (Some (fst te)) (Some (snd te)) in
  match dates f train_times (length test) with
  | None => None
  | Some ds =>
      match plain forecast p train (length test) ds with
      | None => None
      | Some rows => if (length rows =? length test)%nat then Some (map (fun d => fst d - snd d) (combine test (map r_fcst rows))) else None
      end
  end.
Fixpoint folds (f : option freq) (forecast : params -> list R -> nat -> option (list R)) (p : params) (times : list Z) (values : list R) (l : list ((Z * Z) * (Z * Z))) : option (list (list R)) :=
  match l with
  | [] => Some []
  | (tr, te) :: l =>
      match fold f forecast p times values tr te with
      | None => None
      | Some e => match folds f forecast p times values l with None => None | Some es => Some (e :: es) end
      end
  end.
(** run_cv, emp_confidence_int.py:122-155: a rolling window *)
Definition run_cv (f : option freq) (forecast : params -> list R -> nat -> option (list R)) (p : params) (times : list Z) (values : list R) (train_pct test_pct : Q) (sliding : Z) : option (list (list R)) :=
  if rolling_ctor train_pct test_pct sliding then
    match rolling_splits (Z.of_nat (length values)) train_pct test_pct sliding true with
    | None => None
    | Some (trs, tes) => folds f forecast p times values (combine trs tes)
    end
  else None.
(** get_eci(steps) with its default freq="D", emp_confidence_int.py:178-218 *)
Definition eci (f : option freq) (day : freq) (ppf : R -> R) (forecast : params -> list R -> nat -> option (list R)) (p : params) (times : list Z) (values : list R)
    (level : R) (train_pct test_pct : Q) (sliding : Z) (steps : nat) : option (list row) :=
  match run_cv f forecast p times values train_pct test_pct sliding with
  | None => None
  | Some errors =>
      match dates (Some day) times steps with
      | None => None
      | Some ds =>
          match plain forecast p values steps ds with
          | None => None
          | Some predicted =>
              match get_eci ppf level errors (map r_fcst predicted) with
              | None => None
              | Some rows => Some (map (fun q => Row (r_time (fst q)) (fcst (snd q)) (Some (lower (snd q), upper (snd q)))) (combine predicted rows))
              end
          end
      end
  end.

(** the keyword arguments of predict *)
Record kwargs := Kwargs { k_freq : option freq; k_alpha : option R; k_train : option Q; k_test : option Q; k_sliding : option Z }.
Definition default {A} (o : option A) (d : A) : A := match o with Some a => a | None => d end.
(** predict, holtwinters.py:146-236 *)
Definition predict (infer : list Z -> option freq) (day : freq) (ppf : R -> R)
    (forecast : params -> list R -> nat -> option (list R)) (insample : params -> list R -> list R)
    (fitted : bool) (p : params) (times : list Z) (values : list R) (steps : nat) (history : bool) (k : kwargs) : option (list row) :=
  if negb fitted then None
  else
    match dates (match k_freq k with Some f => Some f | None => infer times end) times steps with
    | None => None
    | Some ds =>
        let fc := match k_alpha k with
                  | Some alpha => eci (infer times) day ppf forecast p times values (1 - alpha) (default (k_train k) 70%Q) (default (k_test k) 10%Q)
                                    (default (k_sliding k) (Z.of_nat (length values) / 5)%Z) steps
                  | None => plain forecast p values steps ds
                  end in
        match fc with
        | None => None
        | Some fc => Some (if history then map (fun d => Row (fst d) (snd d) None) (combine times (insample p values)) ++ fc else fc)
        end
    end.
