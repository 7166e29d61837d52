(** Outlier detection and removal: kats/detectors/outlier.py and Detector.remover of
    kats/detectors/detector.py.  Times are integers (nanoseconds); a missing value (NaN) is
    [None]; numbers are exact rationals. *)
From Verif Require Import Common BacktestModel RollingModel DTWModel.
Open Scope nat_scope.

Definition day : Z := 86400000000000%Z.
Notation row := (Z * option Q)%type.
Definition mem (t : Z) (l : list Z) : bool := existsb (Z.eqb t) l.
Fixpoint unique (l : list Z) : bool := match l with [] => true | t :: r => negb (mem t r) && unique r end.
Definition zmin (l : list Z) : Z := fold_right Z.min (hd 0%Z l) l.
Definition zmax (l : list Z) : Z := fold_right Z.max (hd 0%Z l) l.
(** outlier.py:83, DataFrame.asfreq("D"): the rows at whole days from the first time on; rows
    off that grid are lost, days without a row become missing values; a repeated time raises *)
Definition lookup (t : Z) (rows : list row) : option Q :=
  match find (fun r => Z.eqb t (fst r)) rows with Some r => snd r | None => None end.
Definition daily (rows : list row) : option (list row) :=
  let ts := map fst rows in
  if unique ts then
    Some (map (fun k => let t := (zmin ts + day * Z.of_nat k)%Z in (t, lookup t rows))
              (seq 0 (S (Z.to_nat ((zmax ts - zmin ts) / day)))))
  else None.

(** np.nanvar (outlier.py:109) of complete data *)
Definition qavg (l : list Q) : Q := (qsum l / inject_Z (Z.of_nat (length l)))%Q.
Definition nanvar (l : list Q) : Q := let m := qavg l in qavg (map (fun x => (x - m) * (x - m))%Q l).
Definition minus (a b : list Q) : list Q := map (fun p => (fst p - snd p)%Q) (combine a b).
(** outlier.py:109-110: 1 - var(rem)/var(detrend) >= 0.6; with var(detrend) = 0 the quotient is
    NaN or infinite and the comparison false *)
Definition strong (rem detrend : list Q) : bool :=
  negb (Qeq_bool (nanvar detrend) 0) && Qle_bool (3#5) (1 - nanvar rem / nanvar detrend).
Definition qltb (a b : Q) : bool := negb (Qle_bool b a).

Section Outlier.
(** pd.infer_freq (raises for fewer than three times; outlier.py:82) *)
Variable infer_freq : list Z -> option bool.
(** both interpolations (outlier.py:86-96) *)
Variable fill : list row -> list (option Q).
(** statsmodels.seasonal_decompose with extrapolated trend: trend, seasonal, residual
    (outlier.py:102-105); [None] when it raises *)
Variable decompose : list (Z * Q) -> option (list Q * list Q * list Q).

(** OutlierDetector.__clean_ts__ (outlier.py:64-124): outlier times, scores (not finite =
    [None]) and times of the scores; [None] when it raises *)
Definition clean_ts (k : Q) (rows : list row) : option (list Z * list (option Q) * list Z) :=
  match infer_freq (map fst rows) with
  | None => None
  | Some ok =>
    match (if ok then Some rows else daily rows) with
    | None => None
    | Some rows =>
      let ts := map fst rows in
      match mapM (fun v : option Q => v) (fill rows) with
      | None => None
      | Some y =>
        match decompose (combine ts y) with
        | None => None
        | Some (trend, seasonal, rem) =>
          let y' := if strong rem (minus y trend) then minus y seasonal else y in
          let resid := minus y' trend in
          let q1 := quart 1 resid in
          let q3 := quart 3 resid in
          let lo := (q1 + - (k * (q3 - q1)))%Q in
          let hi := (q3 + k * (q3 - q1))%Q in
          let scores := map (fun r => if Qeq_bool (hi - lo) 0 then None else Some ((r - lo) / (hi - lo))%Q) resid in
          let out := filter (fun p => qltb hi (snd p) || qltb (snd p) lo) (combine ts resid) in
          Some (map fst out, scores, ts)
        end
      end
    end
  end.
(** OutlierDetector.detector (outlier.py:127-158): one list of outliers per column, empty when
    the column raised; the scores of the columns that did not *)
Definition outlier_detector (k : Q) (times : list Z) (columns : list (list (option Q))) : list (list Z) :=
  map (fun c => match clean_ts k (combine times c) with Some (o, _, _) => o | None => [] end) columns.
End Outlier.

(** pandas' linear interpolation by position in both directions: between the nearest
    observations, constant before the first and after the last *)
Definition is_obs (l : list (option Q)) (j : nat) : bool := match nth j l None with Some _ => true | None => false end.
Definition obs (l : list (option Q)) (j : nat) : Q := match nth j l None with Some x => x | None => 0%Q end.
Definition interp_at (l : list (option Q)) (i : nat) : option Q :=
  match find (is_obs l) (rev (seq 0 (S i))), find (is_obs l) (seq i (length l - i)) with
  | Some p, Some q => if Nat.eqb p q then Some (obs l p)
      else Some (obs l p + (obs l q - obs l p) * inject_Z (Z.of_nat (i - p)) / inject_Z (Z.of_nat (q - p)))%Q
  | Some p, None => Some (obs l p)
  | None, Some q => Some (obs l q)
  | None, None => None
  end.
Definition interpolate (l : list (option Q)) : list (option Q) := map (interp_at l) (seq 0 (length l)).

(** Detector.remover (detector.py:98-127).  [stored] is self.outliers; without a detector run
    the data is returned as it is.  The second run of the detector does not change [stored]
    here.  Setting a time that is not in the series raises; columns are identified by
    position. *)
Fixpoint remove_columns (times : list Z) (columns : list (list (option Q))) (outs : list (list Z)) : option (list (list (option Q))) :=
  match columns, outs with
  | [], _ => Some []
  | _ :: _, [] => None
  | c :: cs, o :: os =>
    if forallb (fun t => mem t times) o then
      match remove_columns times cs os with
      | Some r => Some (map (fun p : Z * option Q => if mem (fst p) o then None else snd p) (combine times c) :: r)
      | None => None
      end
    else None
  end.
Definition remover (stored : option (list (list Z))) (interp : bool) (times : list Z) (columns : list (list (option Q))) : option (list (list (option Q))) :=
  match stored with
  | None => Some columns
  | Some outs => option_map (fun cs => if interp then map interpolate cs else cs) (remove_columns times columns outs)
  end.

(** ** MultivariateAnomalyDetector *)
(** stats.zscore(df) < 3 (outlier.py:221-224); for a constant column the score is NaN and the
    comparison false *)
Definition keep3 (m v x : Q) : bool :=
  negb (Qeq_bool v 0) && (qltb x m || qltb ((x - m) * (x - m)) (9 * v)).
Definition clean_column (l : list Q) : list (option Q) :=
  interpolate (map (fun x => if keep3 (qavg l) (nanvar l) x then Some x else None) l).
(** _clean_data (outlier.py:211-230), column by column *)
Definition column (j : nat) (rows : list (Z * list Q)) : list Q := map (fun r => nth j (snd r) 0%Q) rows.
Definition clean_data (width : nat) (rows : list (Z * list Q)) : list (list (option Q)) :=
  map (fun j => clean_column (column j rows)) (seq 0 width).

Section Multivariate.
(** the fitted model (vector autoregression), its one step forecast, and the scores of a vector
    of forecast errors: one per metric, and the Mahalanobis distance *)
Variable M : Type.
Variable fit : list Z -> list (list (option Q)) -> option M.
Variable predict : M -> list Q.
Variable single : M -> list Q -> list Q.
Variable overall : M -> list Q -> Q.
(** chi2.sf with a number of degrees of freedom *)
Variable chi2_sf : nat -> Q -> Q.

Record scores := { s_time : Z; s_metrics : list Q; s_overall : Q; s_p : Q }.
(** _generate_forecast and _calc_anomaly_scores (outlier.py:251-332) at time [t]; [None] when
    fitting fails, the covariance is not positive definite (part of [fit]), or there is no row
    one step later *)
Definition score_step (g look : Z) (width : nat) (rows : list (Z * list Q)) (t : Z) : option scores :=
  let train := filter (fun r => Z.leb (t - look) (fst r) && Z.leb (fst r) t) rows in
  match fit (map fst train) (clean_data width train) with
  | None => None
  | Some m =>
    match find (fun r => Z.eqb (t + g) (fst r)) rows with
    | None => None
    | Some r =>
      let rt := minus (predict m) (snd r) in
      let d := overall m rt in
      Some {| s_time := (t + g)%Z; s_metrics := single m rt; s_overall := d; s_p := chi2_sf width d |}
    end
  end.
(** detector (outlier.py:335-361): the loop over forecast times *)
Fixpoint mv_loop (fuel : nat) (g look : Z) (width : nat) (rows : list (Z * list Q)) (t stop : Z) : option (list scores) :=
  if Z.ltb t stop then
    match fuel with
    | O => None
    | S f => match score_step g look width rows t with
             | None => None
             | Some s => option_map (cons s) (mv_loop f g look width rows (t + g)%Z stop)
             end
    end
  else Some [].
Definition mv_detector (g look : Z) (width : nat) (rows : list (Z * list Q)) : option (list scores) :=
  let ts := map fst rows in
  mv_loop (Z.to_nat (zmax ts - (zmin ts + look))) g look width rows (zmin ts + look)%Z (zmax ts).
(** get_anomaly_timepoints (outlier.py:363-383) *)
Definition anomaly_times (alpha : Q) (l : list scores) : list Z := map s_time (filter (fun s => qltb (s_p s) alpha) l).
(** get_anomalous_metrics (outlier.py:385-408): the scores at [t] in descending order (the order
    of equal ones is not specified), without the overall score; [N] are the names *)
Fixpoint insert_desc {N} (x : N * Q) (l : list (N * Q)) : list (N * Q) :=
  match l with [] => [x] | y :: t => if Qle_bool (snd y) (snd x) then x :: l else y :: insert_desc x t end.
Definition anomalous_metrics {N} (names : list N) (p_name : N) (l : list scores) (t : Z) (top_k : option nat) : option (list (N * Q)) :=
  match find (fun s => Z.eqb t (s_time s)) l with
  | None => None
  | Some s =>
    let all := fold_right insert_desc [] (combine names (s_metrics s) ++ [(p_name, s_p s)]) in
    Some (match top_k with Some k => firstn k all | None => all end)
  end.
End Multivariate.
