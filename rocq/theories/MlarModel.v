(** The autoregressive forecaster of kats/models/ml_ar.py: windows, normalisation, training pairs and forecasts.

    Every series is a list of cells on its time grid (ml_ar.py:449-454 reindexes to that grid); None is NaN, and also an
    infinity or a value without meaning (division by zero).  One target variable, no categoricals; the gradient boosting
    regressor is a parameter: a function from the training pairs to a predictor.  The features that do not depend on the
    target values (covariates, calendar, Fourier terms, one-hot columns: ml_ar.py:552-613, 775-860) are a parameter as
    well, a function of the series, the origin and the horizon. *)
From Coq Require Import List Reals Bool Arith.
Import ListNotations.
Open Scope nat_scope.

(** ml_ar.py:37-44 — find_first_missing_number: the smallest of 1 .. len+1 not in the array *)
Definition first_missing (nums : list nat) : option nat :=
  hd_error (filter (fun k => negb (existsb (Nat.eqb k) nums)) (seq 1 (length nums + 1))).

Notation cell := (option R).
(** one row of the embedding: the window, padded with NaN on the right — ml_ar.py:131-132 *)
Definition pad {A} (n : nat) (l : list (option A)) : list (option A) := l ++ repeat None (n - length l).
(** embed — ml_ar.py:123-134; None: np.full raises for a negative number of rows.  The code is called with
    lags <= max_lags only (ml_ar.py:320-328). *)
Definition embed {A} (series : list (option A)) (lags horizon max_lags : nat) : option (list (list (option A))) :=
  if S (length series) <? max_lags then None
  else Some (map (fun j => pad (lags + horizon) (firstn (lags + horizon) (skipn (j + (max_lags - lags)) series)))
               (seq 0 (length series + 1 - max_lags))).

(** ** Normalisation *)
Definition lift1 (f : R -> R) (a : cell) : cell := option_map f a.
Definition lift2 (f : R -> R -> R) (a b : cell) : cell := match a, b with Some x, Some y => Some (f x y) | _, _ => None end.
Definition divc (a b : cell) : cell := match a, b with Some x, Some y => if Req_EM_T y 0 then None else Some (x / y)%R | _, _ => None end.
Inductive method := Sub | Div | SubDiv.
Section Shift.
Variable use_min : bool.
Variable dmin : R.
Definition plus_min (c : cell) : cell := if use_min then lift1 (fun x => (x + dmin)%R) c else c.
Definition minus_min (c : cell) : cell := if use_min then lift1 (fun x => (x - dmin)%R) c else c.
(** normalize — ml_ar.py:47-71, one cell of a row with its normalizers *)
Definition normalize (m : method) (x n n2 : cell) : cell :=
  let x := plus_min x in let n := plus_min n in let n2 := plus_min n2 in
  match m with
  | Sub => lift2 Rminus x n
  | Div => divc x n
  | SubDiv => divc (lift2 Rminus x n) n2
  end.
(** denormalize — ml_ar.py:74-99 *)
Definition denormalize (m : method) (x n n2 : cell) : cell :=
  let x := minus_min x in let n := minus_min n in let n2 := minus_min n2 in
  match m with
  | Sub => lift2 Rplus x n
  | Div => lift2 Rmult x n
  | SubDiv => lift2 Rplus (lift2 Rmult x n2) n
  end.
End Shift.

(** ** Statistics of a row, as pandas computes them along axis 1: NaN cells are skipped *)
Definition present (l : list cell) : list R := flat_map (fun c => match c with Some x => [x] | None => [] end) l.
Definition rsum (l : list R) : R := fold_right Rplus 0%R l.
Definition smean (l : list cell) : cell := match present l with [] => None | v => Some (rsum v / INR (length v))%R end.
Definition smax (l : list cell) : cell := match present l with [] => None | x :: v => Some (fold_left Rmax v x) end.
Definition smin (l : list cell) : cell := match present l with [] => None | x :: v => Some (fold_left Rmin v x) end.
Fixpoint insert (x : R) (l : list R) : list R :=
  match l with [] => [x] | y :: t => if Rle_dec x y then x :: l else y :: insert x t end.
Definition sort (l : list R) : list R := fold_right insert [] l.
Definition smedian (l : list cell) : cell :=
  match present l with
  | [] => None
  | v => let s := sort v in let n := length v in
         Some (if Nat.even n then (nth (n / 2 - 1) s 0 + nth (n / 2) s 0) / 2 else nth (n / 2) s 0)%R
  end.
(** ddof = 1: NaN for fewer than two values *)
Definition sstd (l : list cell) : cell :=
  match present l with
  | [] | [_] => None
  | v => let m := (rsum v / INR (length v))%R in
         Some (sqrt (rsum (map (fun x => (x - m) * (x - m))%R v) / INR (length v - 1)))
  end.
Inductive statistic := Mean | Median | Max | Std | ZScore.
(** iloc[:, -k:]; for k = 0 that is all columns *)
Definition last_cols {A} (k : nat) (l : list A) : list A := if k =? 0 then l else skipn (length l - k) l.
(** the two normalizers of _normalize_data — ml_ar.py:523-537 *)
Definition normalizers (st : statistic) (k : nat) (window : list cell) : cell * cell :=
  let w := last_cols k window in
  match st with
  | Mean => (smean w, None) | Median => (smedian w, None) | Max => (smax w, None) | Std => (sstd w, None)
  | ZScore => (smean w, sstd w)
  end.

(** ** Parameters — ml_ar.py:187-332 *)
Record params := {
  horizons : list nat; input_window : nat; norm_window : nat; stat : statistic; how : method;
  use_default_min : bool; default_min : R; sum_stats : bool; hist_windows : list nat; log_data : bool }.
Definition max_horizon (p : params) : nat := fold_right Nat.max 0 (horizons p).
(** ml_ar.py:320-328 *)
Definition max_lags (p : params) : nat := fold_right Nat.max (input_window p) (hist_windows p).
(** z-score sets sub_div to "sub_div" — ml_ar.py:534 *)
Definition method_of (p : params) : method := match stat p with ZScore => SubDiv | _ => how p end.
(** np.log of the target — ml_ar.py:629-630 *)
Definition log_cell (c : cell) : cell := match c with Some x => if Rlt_dec 0 x then Some (ln x) else None | None => None end.
Definition transform (p : params) (l : list cell) : list cell := if log_data p then map log_cell l else l.
(** series_data.loc[: last_valid_index()] — ml_ar.py:623; the whole series if no value is valid *)
Definition is_some (c : cell) : bool := match c with Some _ => true | None => false end.
Fixpoint drop_none (l : list cell) : list cell := match l with None :: t => drop_none t | _ => l end.
Definition trim (l : list cell) : list cell := match rev (drop_none (rev l)) with [] => l | t => t end.

(** one row of the embedding of a series: the normalised lags, the normalised outcomes, the normalizers *)
Definition normal_row (p : params) (r : list cell) : list cell * list cell * (cell * cell) :=
  let lags := firstn (input_window p) r in
  let n := normalizers (stat p) (norm_window p) lags in
  let f := fun c => normalize (use_default_min p) (default_min p) (method_of p) c (fst n) (snd n) in
  (map f lags, map f (skipn (input_window p) r), n).
(** the window statistics — ml_ar.py:671-678 *)
Definition window_stats (p : params) (l : list cell) : list cell :=
  if sum_stats p then [smin l; smax l; smean l; smedian l; sstd l] else [].

Section Learner.
(** the features of series number s at its origin (a row of the series) for the horizon h that do not depend on the target *)
Variable other : nat -> nat -> nat -> list cell.
Definition features (p : params) (s o h : nat) (lags : list cell) : list cell := lags ++ window_stats p lags ++ other s o h ++ [Some (INR h)].
(** the training pairs of one series, horizon by horizon — ml_ar.py:888-940; rows whose outcome is NaN are left out
    (ml_ar.py:1073-1078) *)
Definition pairs (p : params) (s : nat) (series : list cell) : option (list (list cell * R)) :=
  match embed (transform p (trim series)) (input_window p) (max_horizon p) (max_lags p) with
  | None => None
  | Some rows =>
      Some (flat_map (fun h => flat_map (fun jr =>
              let '(lags, outs, _) := normal_row p (snd jr) in
              match nth (h - 1) outs None with Some y => [(features p s (fst jr + (max_lags p - 1)) h lags, y)] | None => [] end)
            (combine (seq 0 (length rows)) rows)) (horizons p))
  end.
Fixpoint all_pairs (p : params) (s : nat) (data : list (list cell)) : option (list (list cell * R)) :=
  match data with
  | [] => Some []
  | x :: data => match pairs p s x, all_pairs p (S s) data with Some a, Some b => Some (a ++ b) | _, _ => None end
  end.
Variable learn : list (list cell * R) -> list cell -> R.
(** the input window of a forecast: the last max_lags cells up to the last valid one, with NaN before the start of the
    series — ml_ar.py:1160-1162, 1196-1208 *)
Definition window (k : nat) (l : list cell) : list cell := repeat None (k - length l) ++ skipn (length l - k) l.
(** the forecast of one series for one horizon, given the trained predictor — ml_ar.py:1253-1276 *)
Definition forecast_at (p : params) (predictor : list cell -> R) (s : nat) (series : list cell) (h : nat) : cell :=
  let t := trim series in
  match embed (transform p (window (max_lags p) t)) (input_window p) (max_horizon p) (max_lags p) with
  | Some [r] =>
      let '(lags, _, n) := normal_row p r in
      let y := predictor (features p s (length t - 1) h lags) in
      let y := denormalize (use_default_min p) (default_min p) (method_of p) (Some y) (fst n) (snd n) in
      if log_data p then lift1 exp y else y
  | _ => None
  end.
(** train and predict: for every series the forecasts for the horizons, in their order *)
Definition train_predict (p : params) (data : list (list cell)) : option (list (list cell)) :=
  match all_pairs p 0 data with
  | None => None
  | Some t => Some (map (fun q => map (forecast_at p (learn t) (fst q) (snd q)) (horizons p)) (combine (seq 0 (length data)) data))
  end.
End Learner.
