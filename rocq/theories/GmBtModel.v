(** The expanding window backtest of a global model on one series — globalmodel/backtester.py:460-639, with the constructors and
    calc_error of its base classes (CrossModel, BacktestModel).

    A series is the list of its rows (time, value), [None] is NaN.  [predict] is the predict of the global model or ensemble, reduced to
    the medians: one forecast per series, [None] if it raises.  An exception ([None] of [run]) loses the state of the object.  The pool of
    processes gives the same parts in the same order and is left out. *)
From Coq Require Import String.
From Verif Require Import Common PySlice BacktestModel CrossModel.
From Verif Require GmFillModel GmEnsModel.
From Coq Require Import List.
Import ListNotations.
Open Scope Z_scope.

Notation trow := (Z * option Q)%type.
Record gmbt := GB { g_start : Q; g_test : Q; g_steps : Z; g_data : list trow; g_methods : list (string * metric);
  g_results : list fold_result; g_errors : list (string * Q) }.
(** the constructor — backtester.py:482-521; [found] is the frequency of the series, [freq] and [s] frequency and seasonality of the model;
    the end percentage is not used (backtesters.py:994-1005) *)
Definition make (core : string -> option metric) (names : list string) (ts : list trow) (found freq : Z) (s : nat) (start stop test : Q) (steps : Z) : option gmbt :=
  if negb (found =? freq) then None
  else match GmFillModel.fill_missing ts s freq with
       | None | Some [] => None
       | Some data => if rolling_ctor start test steps
                      then match prepare core names [] with None => None | Some (ms, d) => Some (GB start test steps data ms [] d) end
                      else None
       end.
(** _create_ts — backtester.py:523-585 *)
Definition create_ts (data : list trow) (p : (Z * Z) * (Z * Z)) : option (list trow * list trow) :=
  let size := Z.of_nat (length data) in
  let bad q := (fst q <? 0) || (size <? fst q) || (snd q <? 0) || (size <? snd q) || (snd q <=? fst q) in
  if bad (fst p) || bad (snd p) then None
  else Some (py_slice data (Some (fst (fst p))) (Some (snd (fst p))), py_slice data (Some (fst (snd p))) (Some (snd (snd p)))).
Fixpoint every {A} (l : list (option A)) : option (list A) :=
  match l with [] => Some [] | None :: _ => None | Some x :: l => match every l with Some r => Some (x :: r) | None => None end end.
(** what calc_error gets for one fold — backtester.py:616-628 *)
Definition result (fold : list trow * list trow) (fcst : list Q) : fold_result :=
  let '(a, b, c) := GmEnsModel.fold_result (map snd (fst fold)) (map snd (snd fold)) fcst in {| fr_train := a; fr_truth := b; fr_pred := c |}.
(** run_backtest — backtester.py:587-639: the results are replaced, the errors added to those of the object *)
Definition run (predict : list (list trow) -> nat -> option (list (list Q))) (b : gmbt) : option gmbt :=
  match rolling_splits (Z.of_nat (length (g_data b))) (g_start b) (g_test b) (g_steps b) false with
  | None => None
  | Some (trs, tes) =>
      match every (map (create_ts (g_data b)) (combine trs tes)) with
      | None | Some [] => None
      | Some folds =>
          match predict (map fst folds) (fold_right Nat.max 0%nat (map (fun f => length (snd f)) folds)) with
          | None => None
          | Some fcsts =>
              if (length fcsts <? length folds)%nat then None
              else let rs := map (fun p => result (fst p) (snd p)) (combine folds fcsts) in
                   if forallb fold_ok rs
                   then Some (GB (g_start b) (g_test b) (g_steps b) (g_data b) (g_methods b) rs
                                (fold_left (score_fold (g_methods b) (total_length rs)) rs (g_errors b)))
                   else None
          end
      end
  end.
(** get_error_value — backtesters.py:642-659 *)
Definition error_value (b : gmbt) (name : string) : option Q := get (g_errors b) name.
