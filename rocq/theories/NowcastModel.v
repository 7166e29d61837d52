(** The nowcasting models: models/nowcasting/nowcasting.py, nowcastingplus.py and dynamic_nowcasting.py.

    A series is the column of its values on rows 0, 1, 2, ... ([None]: missing).  The regressors, scalers and the polynomial
    regression are parameters.  [None] as a result is an exception.  pandas' any(1) is taken as any(axis=1). *)
From Coq Require Import ZArith.
From Verif Require Import Common FeatModel.
Open Scope nat_scope.

(** nowcasting.py:121-126 — the feature columns of NowcastingModel *)
Definition nowcast_columns (s : column) : list column :=
  map (fun n => ROC n s) [10; 15; 20; 25; 30] ++ map (fun n => LAG n s) [10; 15; 20; 25; 30].
(** nowcastingplus.py:169-180 — of NowcastingPlusModel *)
Definition plus_columns (s : column) : list column :=
  map (fun n => MOM n s) [10; 15; 20; 25; 30] ++ map (fun n => ROC n s) [10; 15; 20; 25; 30]
  ++ map (fun n => LAG n s) [1; 2; 3; 4; 5] ++ map (fun n => MA n s) [10; 20; 30].
(** dynamic_nowcasting.py:175-200 — of the dynamic model: depends on whether a value is zero *)
Definition has_zero (s : column) : bool := existsb (fun v => match v with Some q => Qeq_bool q 0 | None => false end) s.
Definition dynamic_columns (s : column) : list column :=
  if has_zero s
  then map (fun n => MOM n s) [10; 15; 20; 25; 30] ++ map (fun n => LAG n s) [10; 15; 20; 25; 30]
  else map (fun n => ROC n s) [10; 15; 20; 25; 30] ++ map (fun n => MOM n s) [10; 15; 20; 25; 30]
       ++ map (fun n => LAG n s) [1; 2; 3; 4; 5; 20] ++ map (fun n => MA n s) [10; 20; 30; 40].

(** the feature values of a row, if all of them are finite *)
Definition row_of (cols : list column) (i : nat) : option (list Q) := all_some (map (fun c => nth i c None) cols).
(** nowcasting.py:127-130 — the rows kept: the value and all features finite *)
Definition kept (cols : list column) (s : column) : list nat :=
  filter (fun i => match nth i s None, row_of cols i with Some _, Some _ => true | _, _ => false end) (seq 0 (length s)).
(** df[-n:] for n >= 1 *)
Definition last_rows {A} (n : nat) (l : list A) : list A := skipn (length l - n) l.

(** nowcasting.py:137-139 — the label column; for a step below 1 the label that is looked up ("LAG_-" + str(step)) does not exist *)
Definition nowcast_label (step : Z) (s : column) : option column :=
  if (1 <=? step)%Z then Some (LAG_neg (Z.to_nat step) s) else None.
(** nowcasting.py:148-152 — fit: the rows whose features and label are finite *)
Definition pairs_of (cols : list column) (s label : column) : list (list Q * Q) :=
  flat_map (fun i => match row_of cols i, nth i label None with Some x, Some y => [(x, y)] | _, _ => [] end) (kept cols s).
Definition nowcast_train (step : Z) (s : column) : option (list (list Q * Q)) :=
  match nowcast_label step s with Some label => Some (pairs_of (nowcast_columns s) s label) | None => None end.

Section Learner.
(** a regressor: training pairs to a function of the features *)
Variable learn : list (list Q * Q) -> list Q -> Q.
(** nowcasting.py:193-195, 154-156 — predict, after fit: sklearn refuses an empty training set and an empty test set *)
Definition nowcast_predict (step : Z) (s : column) : option (list Q) :=
  match nowcast_train step s with
  | None | Some [] => None
  | Some t =>
      match last_rows (Z.to_nat step) (kept (nowcast_columns s) s) with
      | [] => None
      | rows => all_some (map (fun i => option_map (learn t) (row_of (nowcast_columns s) i)) rows)
      end
  end.
End Learner.

Section Plus.
(** the polynomial regression on (minute of the day, value); and scaler and regressor together: the features of all kept
    rows, the labels of the first ones, to a function of the features *)
Variable poly : list (Z * Q) -> Z -> Q.
Variable learn : list (list Q) -> list Q -> list Q -> Q.
(** nowcastingplus.py:130-166 — minute.(i) is hour * 60 + minute of row i; the regression is fitted on the rows with a value and
    evaluated on the same rows *)
Definition poly_rows (minute : list Z) (s : column) : list (Z * Q) :=
  flat_map (fun p => match snd p with Some v => [(fst p, v)] | None => [] end) (combine minute s).
Definition season (minute : list Z) (s : column) : list Q :=
  let r := poly_rows minute s in map (fun p => poly r (fst p)) r.
(** nowcastingplus.py:209-211 — the labels minus the season, on the kept rows; raises for an index beyond the season array *)
Definition deseasoned (rows : list nat) (s : column) (seas : list Q) : option (list Q) :=
  all_some (map (fun i => match nth i s None, nth_error seas i with Some v, Some b => Some (v - b)%Q | _, _ => None end) rows).
(** .diff(-n)[:-n] for n >= 1 *)
Definition diff_ahead (n : nat) (v : list Q) : list Q :=
  firstn (length v - n) (FeatModel.map2 (fun a b => (a - b)%Q) v (skipn n v)).
(** nowcastingplus.py:201-216 — fit with the labels differenced over [n] rows; an empty training set raises *)
Definition diff_fit (n : nat) (cols : list column) (minute : list Z) (s : column) : option (list Q -> Q) :=
  let rows := kept cols s in
  match all_some (map (row_of cols) rows), deseasoned rows s (season minute s) with
  | Some X, Some v => match n, diff_ahead n v with O, _ | _, [] => None | _, y => Some (learn X y) end
  | _, _ => None
  end.
(** np.where(a == x)[0][0] *)
Fixpoint first_at (x : Q) (l : list Q) : option nat :=
  match l with [] => None | y :: l => if Qeq_bool y x then Some O else option_map S (first_at x l) end.
(** nowcastingplus.py:241-248 — predict *)
Definition diff_predict (step : nat) (cols : list column) (minute : list Z) (s : column) (model : list Q -> Q) : option (list Q) :=
  let seas := season minute s in
  match last_rows step (kept cols s), rev seas with
  | [], _ | _, [] => None
  | rows, poly_now :: _ =>
      match first_at poly_now seas with
      | None => None
      | Some f =>
          match nth_error seas (f + step) with
          | None => None
          | Some poly_next =>
              all_some (map (fun i => match nth i s None, row_of cols i with
                                      | Some now, Some x => Some (now - poly_now - model x + poly_next)%Q
                                      | _, _ => None
                                      end) rows)
          end
      end
  end.
(** nowcastingplus.py — feature_extraction, label_extraction, fit, predict *)
Definition plus_predict (step : nat) (minute : list Z) (s : column) : option (list Q) :=
  match diff_fit step (plus_columns s) minute s with
  | Some model => diff_predict step (plus_columns s) minute s model
  | None => None
  end.
(** dynamic_nowcasting.py:222-266, 295-314 — the dynamic model always differences over one row *)
Definition dynamic_predict (step : nat) (minute : list Z) (s : column) : option (list Q) :=
  match diff_fit 1 (dynamic_columns s) minute s with
  | Some model => diff_predict step (dynamic_columns s) minute s model
  | None => None
  end.
End Plus.
