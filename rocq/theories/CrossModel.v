(** kats/utils/backtesters.py:968-1044, 1175-1332: cross validation and the expanding and rolling window backtesters it runs.

    Simplifications: the folds, the fitted models and the checks of the folds are those of BacktestModel.v; [core] is
    core_metric, None for a name it does not know; an exception (None) loses the state of the object; multiprocessing only
    decides whether results are replaced or appended. *)
From Coq Require Import String.
From Verif Require Import Common PySlice BacktestModel.
From Coq Require Import List.
Import ListNotations.
Open Scope Z_scope.

Notation metric := (list Q -> list Q -> Q).
(** a Python dict of floats by name *)
Fixpoint get (d : list (string * Q)) (name : string) : option Q :=
  match d with [] => None | (k, v) :: d => if String.eqb k name then Some v else get d name end.
(** d[name] += x *)
Fixpoint bump (d : list (string * Q)) (name : string) (x : Q) : list (string * Q) :=
  match d with [] => [] | (k, v) :: d => if String.eqb k name then (k, (v + x)%Q) :: d else (k, v) :: bump d name x end.
(** d[name] = 0.0 *)
Definition put0 (d : list (string * Q)) (name : string) : list (string * Q) :=
  match get d name with Some _ => map (fun q => if String.eqb (fst q) name then (fst q, 0%Q) else q) d | None => d ++ [(name, 0%Q)] end.
(** the metrics and the dict of errors of a new backtester, backtesters.py:444-455 *)
Fixpoint prepare (core : string -> option metric) (names : list string) (d : list (string * Q)) : option (list (string * metric) * list (string * Q)) :=
  match names with
  | [] => Some ([], d)
  | name :: names =>
      match core name with
      | None => None
      | Some f => match prepare core names (put0 d name) with None => None | Some (ms, d) => Some ((name, f) :: ms, d) end
      end
  end.

(** BackTesterRollingOrigin, backtesters.py:828-884, with its results and errors *)
Record backtester := BT { b_start : Q; b_test : Q; b_steps : Z; b_const : bool; b_data : list Q; b_multi : bool;
  b_methods : list (string * metric); b_results : list fold_result; b_errors : list (string * Q) }.
Definition rolling_origin (core : string -> option metric) (names : list string) (data : list Q) (start test : Q) (steps : Z) (const multi : bool) : option backtester :=
  if rolling_ctor start test steps then
    match data with
    | [] => None
    | _ => match prepare core names [] with None => None | Some (ms, d) => Some (BT start test steps const data multi ms [] d) end
    end
  else None.
(** backtesters.py:968-1005; the end percentage is not passed on *)
Definition expanding_window core names data (start stop test : Q) (steps : Z) (multi : bool) : option backtester :=
  rolling_origin core names data start test steps false multi.
(** backtesters.py:1008-1044 *)
Definition rolling_window core names data (train test : Q) (steps : Z) (multi : bool) : option backtester :=
  rolling_origin core names data train test steps true multi.
(** calc_error, backtesters.py:466-517 *)
Definition score_fold (methods : list (string * metric)) (total : Q) (d : list (string * Q)) (r : fold_result) : list (string * Q) :=
  fold_left (fun d m => bump d (fst m) ((inject_Z (Z.of_nat (length (fr_truth r))) / total) * snd m (fr_truth r) (fr_pred r))%Q) methods d.
Definition run_backtest (forecast : list Q -> Z -> option (list Q)) (b : backtester) : option backtester :=
  match rolling_splits (Z.of_nat (length (b_data b))) (b_start b) (b_test b) (b_steps b) (b_const b) with
  | None => None
  | Some (trs, tes) =>
      match create_models forecast (b_data b) 0 trs tes with
      | None => None
      | Some new =>
          let rs := if b_multi b then new else b_results b ++ new in
          match rs with
          | [] => None
          | _ => if forallb fold_ok rs
                 then Some (BT (b_start b) (b_test b) (b_steps b) (b_const b) (b_data b) (b_multi b) (b_methods b) rs
                              (fold_left (score_fold (b_methods b) (total_length rs)) rs (b_errors b)))
                 else None
          end
      end
  end.

(** CrossValidation, backtesters.py:1234-1302: until run_cv its results and errors are empty *)
Record cross := Cross { c_backtester : backtester; c_results : list fold_result; c_errors : list (string * Q) }.
Definition make_cv core (names : list string) (data : list Q) (train test : Q) (folds : Z) (const multi : bool) : option cross :=
  if negb (pct_ok train) then None
  else if negb (pct_ok test) then None
  else if folds <? 0 then None
  else if (length data =? 0)%nat then None
  else match (if const then rolling_window core names data train test folds multi
              else expanding_window core names data train (100 - test) test folds multi) with
       | None => None
       | Some b => Some (Cross b [] [])
       end.
(** backtesters.py:1305-1313 *)
Definition run_cv forecast (c : cross) : option cross :=
  match run_backtest forecast (c_backtester c) with
  | None => None
  | Some b => Some (Cross b (b_results b) (b_errors b))
  end.
(** backtesters.py:1315-1332 *)
Definition error_value (c : cross) (name : string) : option Q := get (c_errors c) name.
