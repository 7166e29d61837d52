(** Model of the default search spaces of the forecasting models (kats/utils/parameter_tuning_utils.py:25-434,
    kats/models/lstm.py:299-331, linear_model.py:171-181, quadratic_model.py:177-187) and of the parameter classes that
    receive their values.

    A real number is in R (np.logspace) or the value of an exact rational (np.arange; the number of its entries is the ceiling of
    the exact quotient, which the rounded one gives too).  Not modelled: the search itself (TuneModel.v), the library that
    turns a tuple of a parameter declared as text into a text. *)
From Coq Require Import String.
From Coq Require Import List ZArith QArith Qround Qreals Reals Bool.
Import ListNotations.
Open Scope string_scope.

Inductive value := VInt (z : Z) | VBool (b : bool) | VStr (s : string) | VReal (r : R) | VTup (l : list Z).
Record param := Param { pname : string; vtype : string; values : list value; is_ordered : bool }.

(** range(a, b, s) and np.arange on integers *)
Definition irange (a b s : Z) : list value :=
  map (fun k => VInt (a + Z.of_nat k * s)) (seq 0 (Z.to_nat (- ((a - b) / s)))).
(** np.arange on floats *)
Definition arange (a b s : Q) : list value :=
  map (fun k => VReal (Q2R (a + inject_Z (Z.of_nat k) * s))) (seq 0 (Z.to_nat (Qceiling ((b - a) / s)))).
(** np.logspace(a, b, n, endpoint=True); n is 50 when it is not given *)
Definition logspace (a b : R) (n : nat) : list value :=
  map (fun k => VReal (Rpower 10 (a + INR k * ((b - a) / INR (n - 1))))) (seq 0 n).
Definition bools (n : string) : param := Param n "bool" [VBool true; VBool false] false.
Definition ints (n : string) (l : list value) : param := Param n "int" l true.
Definition texts (n : string) (l : list string) : param := Param n "str" (map VStr l) false.
Definition floats (n : string) (l : list value) : param := Param n "float" l true.

Inductive family := Prophet | Arnet | Stlf | Arima | HoltWinters | Sarima | Theta | Var | LightGbm | Lstm | Linear | Quadratic.

(** the search spaces; VAR raises NotImplementedError (None) *)
Definition search_space (f : family) : option (list param) :=
  match f with
  | Prophet => (* parameter_tuning_utils.py:25-90 *)
      Some [floats "seasonality_prior_scale" (logspace (-2) 1 10);
            bools "yearly_seasonality"; bools "weekly_seasonality"; bools "daily_seasonality";
            texts "seasonality_mode" ["additive"; "multiplicative"];
            floats "changepoint_prior_scale" (logspace (-3) 0 10);
            floats "changepoint_range" (arange (8 # 10) (96 # 100) (1 # 100))]
  | Arnet => (* 93-132 *)
      Some [ints "input_size" (irange 3 14 1); ints "output_size" (irange 3 14 1); ints "batch_size" (irange 5 20 1)]
  | Stlf => (* 135-168 *)
      Some [texts "method" ["linear"; "quadratic"; "theta"; "prophet"];
            ints "m" (map VInt [4; 7; 10; 14; 24; 30]%Z)]
  | Arima => (* 171-210 *)
      Some [ints "p" (irange 1 6 1); ints "d" (irange 1 3 1); ints "q" (irange 1 6 1)]
  | HoltWinters => (* 213-258 *)
      Some [texts "trend" ["additive"; "multiplicative"]; bools "damped"; texts "seasonal" ["additive"; "multiplicative"];
            ints "seasonal_periods" (map VInt [4; 7; 10; 14; 24; 30]%Z)]
  | Sarima => (* 261-322 *)
      Some [ints "p" (irange 1 6 1); ints "d" (irange 1 3 1); ints "q" (irange 1 6 1);
            Param "seasonal_order" "str" (map VTup [[1; 0; 1; 7]; [1; 0; 2; 7]; [2; 0; 1; 7]; [2; 0; 2; 7]; [1; 1; 1; 7]; [0; 1; 1; 7]]%Z) false;
            texts "trend" ["n"; "c"; "t"; "ct"]]
  | Theta => (* 325-352 *) Some [ints "m" (irange 1 31 1)]
  | Var => (* 355-377 *) None
  | LightGbm => (* 380-434, used by ml_ar.py:1380-1390 *)
      Some [ints "n_estimators" (irange 100 800 50); ints "max_depth" (irange 5 20 2);
            floats "learning_rate" (logspace (1 / 1000) (8 / 10) 50);
            floats "min_split_gain" (arange (1 # 10000) (1 # 10) (5 # 10000));
            ints "num_leaves" (irange (2 ^ 5) (2 ^ 11) 128)]
  | Lstm => (* lstm.py:309-331 *)
      Some [ints "hidden_size" (irange 1 500 10); ints "time_window" (irange 1 20 1); ints "num_epochs" (irange 50 2000 50)]
  | Linear | Quadratic => (* linear_model.py:173-181, quadratic_model.py:179-187 *)
      Some [floats "alpha" (map (fun q => VReal (Q2R q)) [1 # 100; 5 # 100; 1 # 10; 1 # 4])]
  end.

(** the parameter classes: keywords that must be given, keywords that may, and whether unknown keywords are swallowed by
    **kwargs; there is no class for ARNet in the package.  prophet.py:116-137, stlf.py:89-105, arima.py:66-75,
    holtwinters.py:54-60, sarima.py:74-93, theta.py:46, ml_ar.py:186-226, lstm.py:45, linear_model.py:36,
    quadratic_model.py:35, var.py *)
Record class := Class { required : list string; optional : list string; open : bool }.
Definition param_class (f : family) : option class :=
  match f with
  | Prophet => Some (Class [] ["growth"; "changepoints"; "n_changepoints"; "changepoint_range"; "yearly_seasonality"; "weekly_seasonality";
      "daily_seasonality"; "holidays"; "seasonality_mode"; "seasonality_prior_scale"; "holidays_prior_scale"; "changepoint_prior_scale";
      "mcmc_samples"; "interval_width"; "uncertainty_samples"; "cap"; "floor"; "custom_seasonalities"; "extra_regressors"] false)
  | Arnet => None
  | Stlf => Some (Class ["method"; "m"] ["method_params"; "decomposition"; "seasonal"; "trend"; "low_pass"; "seasonal_deg"; "trend_deg";
      "low_pass_deg"; "robust"; "seasonal_jump"; "trend_jump"; "low_pass_jump"] false)
  | Arima => Some (Class ["p"; "d"; "q"] ["exog"; "dates"; "freq"] true)
  | HoltWinters => Some (Class [] ["trend"; "damped"; "seasonal"; "seasonal_periods"] false)
  | Sarima => Some (Class ["p"; "d"; "q"] ["exog"; "seasonal_order"; "trend"; "measurement_error"; "time_varying_regression"; "mle_regression";
      "simple_differencing"; "enforce_stationarity"; "enforce_invertibility"; "hamilton_representation"; "concentrate_scale";
      "trend_offset"; "use_exact_diffuse"] true)
  | Theta => Some (Class [] ["m"] false)
  | Var => Some (Class [] ["maxlags"; "method"; "ic"; "verbose"; "trend"] true)
  | LightGbm => Some (Class [] ["target_variable"; "horizon"; "input_window"; "freq"; "cov_history_input_windows"; "cov_future_input_windows";
      "categoricals"; "one_hot_encode"; "calendar_features"; "fourier_features_period"; "fourier_features_order"; "fourier_features_offset";
      "n_jobs"; "max_depth"; "min_data_in_leaf"; "subsample"; "n_estimators"; "learning_rate"; "colsample_bytree"; "min_split_gain";
      "reg_alpha"; "num_leaves"; "boosting_type"; "subsample_for_bin"; "objective"; "alpha"; "verbose"; "random_state";
      "norm_window_size"; "norm_sum_stat"; "sub_div"; "use_default_min"; "default_min"; "transform_data"; "cov_history_norm";
      "cov_future_norm"; "use_sum_stats"; "calculate_fit"] false)
  | Lstm => Some (Class ["hidden_size"; "time_window"; "num_epochs"] [] false)
  | Linear => Some (Class [] ["alpha"] false)
  | Quadratic => Some (Class [] ["alpha"] true)
  end.

Fixpoint lookup (n : string) (a : list (string * value)) : option value :=
  match a with [] => None | (k, v) :: a => if String.eqb k n then Some v else lookup n a end.
(** a keyword is absent, or a text of a list *)
Definition absent_or (l : list string) (n : string) (a : list (string * value)) : bool :=
  match lookup n a with
  | None => true
  | Some (VStr s) => existsb (String.eqb s) l
  | Some _ => false
  end.
(** the checks that the constructors make — holtwinters.py:82-102, stlf.py:124-149, prophet.py:188-231, ml_ar.py:334-366; the
    other classes check nothing.  Simplification: lists of seasonalities, regressors and windows, which no search space gives,
    are refused here. *)
Definition validates (f : family) (a : list (string * value)) : bool :=
  match f with
  | HoltWinters => absent_or ["add"; "mul"; "additive"; "multiplicative"] "trend" a
                   && absent_or ["add"; "mul"; "additive"; "multiplicative"] "seasonal" a
  | Stlf => absent_or ["prophet"; "linear"; "quadratic"; "theta"; "simple"] "method" a
            && absent_or ["additive"; "multiplicative"] "decomposition" a
  | Prophet => negb (match lookup "growth" a, lookup "cap" a with Some (VStr "logistic"), None => true | _, _ => false end)
               && match lookup "custom_seasonalities" a, lookup "extra_regressors" a with None, None => true | _, _ => false end
  | LightGbm => absent_or ["gbdt"; "dart"; "goss"; "rf"] "boosting_type" a && absent_or ["auto"] "calendar_features" a
                && match lookup "cov_history_input_windows" a, lookup "cov_future_input_windows" a with None, None => true | _, _ => false end
  | _ => true
  end.
(** calling the class with the keywords: TypeError for a missing, an unknown or (as Python's call syntax) a repeated keyword *)
Definition mem (s : string) (l : list string) : bool := existsb (String.eqb s) l.
Fixpoint distinct (l : list string) : bool := match l with [] => true | s :: l => negb (mem s l) && distinct l end.
Definition accepts (f : family) (c : class) (a : list (string * value)) : bool :=
  distinct (map fst a)
  && forallb (fun n => mem n (map fst a)) (required c)
  && (open c || forallb (fun n => mem n (required c ++ optional c)) (map fst a))
  && validates f a.
