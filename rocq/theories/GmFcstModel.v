(** What the global model makes of the raw forecasts — globalmodel/model.py:202-242, 518-651, 879-975.

    Numbers are exact rationals, [None] is NaN.  The raw forecasts of a series are one row per window, of fcst_window values for
    each quantile. *)
From Coq Require Import List Bool Arith ZArith QArith String.
From Verif Require Import GmLossModel.
Import ListNotations.
Open Scope nat_scope.

Definition cell (r : list Q) (i : nat) : Q := nth i r 0%Q.
(** the inner loop of _adjust_pi for one row — model.py:969-972: quantile j of [cur] is moved to where [prev] ended *)
Definition adjust1 (fw nq : nat) (prev cur : list Q) : list Q :=
  map (fun c => let j := c / fw in
                if (1 <=? j) && (j <? nq) then (cell cur c + (cell prev ((j + 1) * fw - 1) - cell cur (j * fw)))%Q else cell cur c)
      (seq 0 (List.length cur)).
Fixpoint adjust_from (fw nq : nat) (prev : list Q) (l : list (list Q)) : list (list Q) :=
  match l with [] => [] | cur :: l => let c := adjust1 fw nq prev cur in c :: adjust_from fw nq c l end.
(** _adjust_pi — model.py:962-973 *)
Definition adjust_pi (fw nq : nat) (l : list (list Q)) : list (list Q) :=
  match l with [] => [] | r :: l => r :: adjust_from fw nq r l end.

(** steps // fcst_window + int(steps % fcst_window != 0) — model.py:591-593 *)
Definition step_num (steps fw : nat) : nat := steps / fw + (if steps mod fw =? 0 then 0 else 1).
(** _format_fcst for one series — model.py:544-566: the rows of the data frame, and its times; [None]: setting the times raises,
    because there are fewer rows than steps *)
Definition format_fcst (fw nq steps : nat) (first_time freq : Z) (store : list (list Q)) : option (list (Z * list Q)) :=
  let per_quantile := map (fun j => List.concat (map (fun r => nth j (chunks nq fw r) []) store)) (seq 0 nq) in
  let T := List.length (nth 0 per_quantile []) in
  let rows := firstn steps (map (fun t => map (fun q => cell q t) per_quantile) (seq 0 T)) in
  let times := map (fun t => first_time + Z.of_nat t * freq)%Z (seq 0 steps) in
  if List.length rows =? steps then Some (zip_with pair times rows) else None.
(** evaluate for one series — model.py:943-955: per window the forecasts of the median, those of the other quantiles, and the
    actual values they are compared with *)
Definition eval_windows (fw : nat) (fcst : list (list Q)) (actual : list Q) : list (list Q * list Q * list (option Q)) :=
  let tmp_step := step_num (List.length actual) fw in
  let actuals := map Some actual ++ repeat None (tmp_step * fw - List.length actual) in
  map (fun j => (firstn fw (nth j fcst []), skipn fw (nth j fcst []), firstn fw (skipn (j * fw) actuals))) (seq 0 tmp_step).
(** the names of the columns of the evaluation — model.py:213-240: quantile has lost its first element *)
Definition eval_names (quantile : list string) (metrics : list string) : list string :=
  let q := tl quantile in
  flat_map (fun name => if String.eqb name "smape" then ["smape"%string]
                        else if String.eqb name "sbias" then ["sbias"%string]
                        else if String.eqb name "exceed" && (1 <? List.length q) then map (fun v => append "exceed_" v) q
                        else []) metrics.
