(** Model of the forecast metrics (kats/metrics/metrics.py, kats/metrics/metadata.py).

    One-dimensional inputs.  A value is [Some q] or [None] for NaN; infinite inputs and the
    sign of zero are not modelled.  A metric returns [None] when it raises and
    [Some None] when it returns NaN (or numpy's [masked]).  Square roots and logarithms are
    left out: the root metrics are represented by the mean under the root. *)
From Verif Require Import Common BacktestModel.
From Coq Require Import String.
Open Scope nat_scope.

Notation cell := (option Q).

(** element-wise numpy arithmetic: NaN propagates *)
Definition lift1 (f : Q -> Q) (a : cell) : cell := option_map f a.
Definition lift2 (f : Q -> Q -> Q) (a b : cell) : cell :=
  match a, b with Some x, Some y => Some (f x y) | _, _ => None end.
(** comparisons with NaN are False *)
Definition cmp (f : Q -> Q -> bool) (a b : cell) : bool :=
  match a, b with Some x, Some y => f x y | _, _ => false end.
Definition qlt (x y : Q) : bool := negb (Qle_bool y x).

(** [_arrays] — metrics.py:110-134 *)
Definition arrays2 {A B} (a : list A) (b : list B) : option (list (A * B)) :=
  if Nat.eqb (List.length a) (List.length b) then Some (combine a b) else None.
Definition arrays3 {A B C} (a : list A) (b : list B) (c : list C) : option (list (A * B * C)) :=
  if Nat.eqb (List.length a) (List.length b) && Nat.eqb (List.length a) (List.length c)
  then Some (combine (combine a b) c) else None.

(** [_safe_divide] — metrics.py:137-174, one element.  [~np.isscalar(denom)] is always
    true, so an element stays NaN only when numerator and denominator are both NaN; any
    other NaN becomes [indeterminate] = 0. *)
Definition safe_divide (num denom : cell) : cell :=
  match num, denom with
  | Some x, Some y =>
      if Qeq_bool y 0 then
        if Qeq_bool x 0 then Some 0%Q else if Qle_bool 0 x then Some 1%Q else Some (-(1))%Q
      else Some (x / y)%Q
  | None, None => None
  | _, _ => Some 0%Q
  end.

(** np.nansum of weights without NaN *)
(** [_err], [_abs_err] — metrics.py:185-223 *)
Definition err1 (p : cell * cell) : cell := lift2 Qminus (fst p) (snd p).
Definition abs_err1 (p : cell * cell) : cell := lift1 Qabs (err1 p).
Definition error (yt yp : list cell) : option (list cell) := option_map (map err1) (arrays2 yt yp).
Definition absolute_error (yt yp : list cell) : option (list cell) :=
  option_map (map abs_err1) (arrays2 yt yp).
Definition weighted (f : cell * cell -> cell) (yt yp : list cell) (w : list Q) : option (list cell) :=
  option_map (map (fun t => safe_divide (lift1 (fun e => (e * snd t)%Q) (f (fst t))) (Some (qsum w))))
             (arrays3 yt yp w).
Definition error_weighted := weighted err1.
Definition absolute_error_weighted := weighted abs_err1.

(** [_pct_err], [_abs_pct_err] without weights — metrics.py:242-281 *)
Definition pct_err1 (p : cell * cell) : cell := safe_divide (err1 p) (fst p).
Definition abs_pct_err1 (p : cell * cell) : cell := safe_divide (abs_err1 p) (fst p).
Definition percentage_error (yt yp : list cell) : option (list cell) :=
  option_map (map pct_err1) (arrays2 yt yp).

(** np.nanmedian *)
Fixpoint qinsert (x : Q) (l : list Q) : list Q :=
  match l with [] => [x] | y :: t => if Qle_bool x y then x :: y :: t else y :: qinsert x t end.
Fixpoint qsort (l : list Q) : list Q := match l with [] => [] | x :: t => qinsert x (qsort t) end.
Definition qmedian (l : list Q) : Q :=
  let s := qsort l in let n := List.length l in
  ((nth ((n - 1) / 2) s 0 + nth (n / 2) s 0) / 2)%Q.
Definition nanmedian (l : list cell) : cell :=
  match non_nan l with [] => None | v => Some (qmedian v) end.

(** statsmodels ECDF: share of the sample at or below x; NaN handling of [y_true] is not
    modelled (the sample has no NaN) *)
Definition ecdf (sample : list Q) (x : Q) : Q :=
  (qsum (map (fun y => b2q (Qle_bool y x)) sample) / inject_Z (Z.of_nat (List.length sample)))%Q.

(** the pairs with a prediction — metrics.py:317-326, 364-373 *)
Definition predicted (yt : list Q) (yp : list cell) : list (Q * Q) :=
  flat_map (fun p => match snd p with Some x => [(fst p, x)] | None => [] end) (combine yt yp).

(** continuous_rank_probability_score / linear_error_in_probability_space — metrics.py:305-330, 352-374 *)
Definition prob_score (f : Q -> Q) (yt : list Q) (yp : list cell) : option cell :=
  option_map (fun _ =>
    let s := map fst (predicted yt yp) in
    nanmean (map (fun p => Some (f (ecdf s (snd p) - ecdf s (fst p))%Q)) (predicted yt yp)))
    (arrays2 yt yp).
Definition crps := prob_score (fun d => (d * d)%Q).
Definition leps := prob_score Qabs.

(** frequency_exceeds_relative_threshold — metrics.py:335-349 *)
Definition freq_exceeds (yt yp : list cell) (threshold : Q) : option cell :=
  option_map (fun l => nanmean (map (fun p =>
      Some (b2q (cmp (fun t q => Qle_bool (threshold * q) t) (fst p) (snd p)))) l))
    (arrays2 yt yp).

(** median_absolute_error, median_absolute_percentage_error — metrics.py:377-408 *)
Definition mdae (yt yp : list cell) : option cell :=
  option_map (fun l => nanmedian (map abs_err1 l)) (arrays2 yt yp).
Definition mdape (yt yp : list cell) : option cell :=
  option_map (fun l => nanmedian (map abs_pct_err1 l)) (arrays2 yt yp).

(** mean_absolute_error — metrics.py:411-445.  Masked average over the non-NaN errors. *)
Definition mae (yt yp : list cell) : option cell :=
  option_map (fun l => nanmean (map abs_err1 l)) (arrays2 yt yp).
(** np.ma.average with weights: masked entries carry no weight; a zero total gives masked *)
Definition ma_average (l : list (cell * Q)) : cell :=
  let v := flat_map (fun p => match fst p with Some x => [(x, snd p)] | None => [] end) l in
  let tot := qsum (map snd v) in
  if Qeq_bool tot 0 then None else Some (qsum (map (fun p => fst p * snd p) v) / tot)%Q.
Definition mae_weighted (yt yp : list cell) (w : list Q) : option cell :=
  match absolute_error yt yp with
  | None => None
  | Some e => if Nat.eqb (List.length e) 0 then Some None
              else option_map ma_average (arrays2 e w)
  end.

(** mean_absolute_percentage_error — metrics.py:448-463 *)
Definition mape (yt yp : list cell) : option cell :=
  option_map (fun l => nanmean (map abs_pct_err1 l)) (arrays2 yt yp).

(** mean_absolute_scaled_error — metrics.py:466-485; np.isclose(denom, 0) is |denom| <= 1e-8 *)
Fixpoint diffs (l : list cell) : list cell :=
  match l with
  | a :: ((b :: _) as t) => lift2 Qminus b a :: diffs t
  | _ => []
  end.
Definition tiny : Q := 1 # 100000000.
Definition mase (yt yp : list cell) : option cell :=
  option_map (fun l =>
    match nanmean (map (lift1 Qabs) (diffs yt)) with
    | None => None
    | Some d => if Qle_bool (Qabs d) tiny then None
                else lift1 (fun e => (e / d)%Q) (nanmean (map abs_err1 l))
    end) (arrays2 yt yp).

(** mean_error, mean_percentage_error — metrics.py:488-517 *)
Definition me (yt yp : list cell) : option cell := option_map nanmean (error yt yp).
Definition mpe (yt yp : list cell) : option cell := option_map nanmean (percentage_error yt yp).

(** mean_squared_error — metrics.py:520-545.  An empty [y_true] gives NaN before any check. *)
Definition sq_err1 (p : cell * cell) : cell := lift1 (fun e => (e * e)%Q) (err1 p).
Definition mse (yt yp : list cell) : option cell :=
  if Nat.eqb (List.length yt) 0 then Some None
  else option_map (fun l => nanmean (map sq_err1 l)) (arrays2 yt yp).
Definition mse_weighted (yt yp : list cell) (w : list Q) : option cell :=
  if Nat.eqb (List.length yt) 0 then Some None
  else option_map (fun l =>
         let avg := (qsum w / inject_Z (Z.of_nat (List.length w)))%Q in
         if Qeq_bool avg 0 then None
         else lift1 (fun s => (s / avg)%Q)
                (nanmean (map (fun t => lift1 (fun e => (e * snd t)%Q) (sq_err1 (fst t))) l)))
       (arrays3 yt yp w).

(** root_mean_squared_percentage_error, under the root — metrics.py:590-611 *)
Definition mspe (yt yp : list cell) : option cell :=
  if Nat.eqb (List.length yt) 0 then Some None
  else option_map (fun l => nanmean (map (fun p => lift1 (fun e => (e * e)%Q) (pct_err1 p)) l))
         (arrays2 yt yp).

(** scaled sMAPE, sMAPE, symmetric bias — metrics.py:614-661 *)
Definition sym_denom (p : cell * cell) : cell := lift2 Qplus (lift1 Qabs (fst p)) (lift1 Qabs (snd p)).
Definition scaled_smape (yt yp : list cell) : option cell :=
  option_map (fun l => nanmean (map (fun p => safe_divide (abs_err1 p) (sym_denom p)) l)) (arrays2 yt yp).
Definition smape (yt yp : list cell) : option cell :=
  option_map (lift1 (Qmult 2)) (scaled_smape yt yp).
Definition sbias (yt yp : list cell) : option cell :=
  option_map (fun l => lift1 (Qmult (-(2)))
                (nanmean (map (fun p => safe_divide (err1 p) (sym_denom p)) l))) (arrays2 yt yp).

(** tracking_signal — metrics.py:664-679; np.sum propagates NaN *)
Fixpoint np_sum (l : list cell) : cell :=
  match l with [] => Some 0%Q | x :: t => lift2 Qplus x (np_sum t) end.
Definition tracking_signal (yt yp : list cell) : option cell :=
  match arrays2 yt yp with
  | None => None
  | Some l => match nanmean (map abs_err1 l) with
              | None => Some None
              | Some e => if Qeq_bool e 0 then Some None
                          else Some (lift1 (fun s => (s / e)%Q) (np_sum (map err1 l)))
              end
  end.

(** pinball_loss — metrics.py:732-759 *)
Definition qmax (a b : Q) : Q := if Qle_bool a b then b else a.
Definition pinball1 (t : Q) (p : cell * cell) : cell :=
  lift1 (fun d => qmax (d * t) (d * (t - 1))) (err1 p).
Definition pinball_loss (yt yp : list cell) (t : Q) : option cell :=
  match arrays2 yt yp with
  | None => None
  | Some l => if qlt t 0 || qlt 1 t then None else Some (nanmean (map (pinball1 t) l))
  end.

(** exceed — metrics.py:762-783 *)
Definition mask (t : Q) : Q := if qlt (1 # 2) t then 1 else -(1).
Definition exceeds1 (t : Q) (p : cell * cell) : bool :=
  match err1 p with Some d => qlt 0 (d * mask t) | None => false end.
Definition exceed (yt yp : list cell) (t : Q) : option cell :=
  option_map (fun l => nanmean (map (fun p => Some (b2q (exceeds1 t p))) l)) (arrays2 yt yp).

(** mult_exceed for one sample — metrics.py:682-729 *)
Fixpoint chunks {A} (h m : nat) (l : list A) : list (list A) :=
  match m with O => [] | S k => firstn h l :: chunks h k (skipn h l) end.
Definition mult_exceed (yt yp : list cell) (ts : list Q) : option (list cell) :=
  let h := List.length yt in let m := List.length ts in
  if negb (Nat.eqb (List.length yp) (m * h)) then None
  else
    let tiled := List.concat (repeat yt m) in
    let masks := flat_map (fun t => repeat (mask t) h) ts in
    let diff := map (fun p => match err1 (fst p) with Some d => qlt 0 (d * snd p) | None => false end)
                    (combine (combine tiled yp) masks) in
    Some (map (fun c => nanmean (map (fun b => Some (b2q b)) c)) (chunks h m diff)).

(** coverage — metrics.py:786-800 *)
Definition covers1 (t : cell * cell * cell) : bool :=
  cmp Qle_bool (snd (fst t)) (fst (fst t)) && cmp Qle_bool (fst (fst t)) (snd t).
Definition coverage (yt lo up : list cell) : option cell :=
  option_map (fun l => nanmean (map (fun t => Some (b2q (covers1 t))) l)) (arrays3 yt lo up).

(** np.convolve(x, ones(w), mode="same") / w for 1 <= w <= len(x): position i sums
    x[i - w//2 .. i + (w-1)//2], with nothing outside the array *)
Definition rolling_mean (w : nat) (x : list Q) : list Q :=
  map (fun i => let lo := i - w / 2 in let hi := i + (w - 1) / 2 in
         (qsum (firstn (hi + 1 - lo) (skipn lo x)) / inject_Z (Z.of_nat w))%Q)
      (seq 0 (List.length x)).
(** mult_coverage — metrics.py:803-825 *)
Definition mult_coverage (yt lo up : list cell) (w : option nat) : option (list Q) :=
  option_map (fun l => let d := map (fun t => b2q (covers1 t)) l in
                match w with None => d | Some k => rolling_mean k d end)
             (arrays3 yt lo up).

(** interval_score — metrics.py:828-853 *)
Definition interval1 (alpha : Q) (t : cell * cell * cell) : cell :=
  match t with
  | (Some y, Some l, Some u) =>
      Some (u - l + (if qlt y l then (l - y) * 2 / alpha else 0)
                  + (if qlt u y then (y - u) * 2 / alpha else 0))%Q
  | _ => None
  end.
Definition interval_score (yt lo up : list cell) (alpha : Q) : option cell :=
  option_map (fun l => nanmean (map (interval1 alpha) l)) (arrays3 yt lo up).

(** ** The registries *)
Open Scope string_scope.

(** The one-argument-pair metrics by canonical name; crps and leps take samples without
    NaN and are listed with their own type below. *)
Definition metric2 := list cell -> list cell -> option cell.
Definition canonical : list (string * metric2) :=
  [("median_absolute_error", mdae); ("median_absolute_percentage_error", mdape);
   ("mean_absolute_error", mae); ("mean_absolute_percentage_error", mape);
   ("mean_absolute_scaled_error", mase); ("mean_error", me); ("mean_percentage_error", mpe);
   ("mean_squared_error", mse); ("symmetric_bias", sbias);
   ("symmetric_mean_absolute_percentage_error", smape); ("tracking_signal", tracking_signal)].

(** metrics.py:890-922 and metadata.py:107-127: alias -> canonical name *)
Definition aliases : list (string * string) :=
  [("bias", "mean_error"); ("crps", "continuous_rank_probability_score");
   ("leps", "linear_error_in_probability_space"); ("mae", "mean_absolute_error");
   ("mape", "mean_absolute_percentage_error"); ("mase", "mean_absolute_scaled_error");
   ("mdae", "median_absolute_error"); ("mdape", "median_absolute_percentage_error");
   ("me", "mean_error"); ("mean_absolute_deviation", "mean_absolute_error");
   ("median_absolute_deviation", "median_absolute_error"); ("mpe", "mean_percentage_error");
   ("mse", "mean_squared_error"); ("rmse", "root_mean_squared_error");
   ("rmsle", "root_mean_squared_log_error"); ("rmspe", "root_mean_squared_percentage_error");
   ("sbias", "symmetric_bias"); ("smape", "symmetric_mean_absolute_percentage_error")].

(** keys of ALL_METRICS — metrics.py:924-973 *)
Definition all_metrics : list string :=
  ["error"; "absolute_error"; "percentage_error"; "absolute_percentage_error"; "mult_exceed";
   "pinball_loss"; "exceed"; "continuous_rank_probability_score";
   "frequency_exceeds_relative_threshold"; "linear_error_in_probability_space";
   "median_absolute_error"; "median_absolute_percentage_error"; "mean_absolute_error";
   "mean_absolute_percentage_error"; "mean_absolute_scaled_error"; "mean_error";
   "mean_percentage_error"; "mean_squared_error"; "root_mean_squared_error";
   "root_mean_squared_log_error"; "root_mean_squared_percentage_error"; "symmetric_bias";
   "symmetric_mean_absolute_percentage_error"; "tracking_signal";
   "ae"; "ape"; "bias"; "crps"; "leps"; "mae"; "mape"; "mase"; "mdae"; "mdape"; "me";
   "mean_absolute_deviation"; "median_absolute_deviation"; "mpe"; "mse"; "residual"; "rmse";
   "rmsle"; "rmspe"; "sbias"; "smape"].
(** CORE_METRICS — metrics.py:994-1007 *)
Definition core_metrics : list string :=
  filter (fun n => negb (existsb (String.eqb n)
    ["error"; "absolute_error"; "percentage_error"; "absolute_percentage_error";
     "frequency_exceeds_relative_threshold"; "ae"; "ape"])) all_metrics.

(** bounds in the metadata: None is infinite — metadata.py:62-105 *)
Record bounds := MkBounds { lower : option Q; upper : option Q }.
Definition nonneg_b := MkBounds (Some 0%Q) None.
Definition rate_b := MkBounds (Some 0%Q) (Some 1%Q).
Definition unbounded_b := MkBounds None None.
Definition metadata_canonical : list (string * bounds) :=
  [("continuous_rank_probability_score", rate_b); ("cross_entropy", nonneg_b);
   ("frequency_exceed_relative_threshold", rate_b); ("linear_error_in_probability_space", rate_b);
   ("max_error", unbounded_b); ("mean_absolute_error", nonneg_b);
   ("mean_absolute_percentage_error", nonneg_b); ("mean_absolute_scaled_error", nonneg_b);
   ("mean_error", unbounded_b); ("mean_interval_score", MkBounds (Some 0%Q) None);
   ("mean_percentage_error", unbounded_b); ("mean_squared_error", nonneg_b);
   ("mean_squared_log_error", nonneg_b); ("median_absolute_error", unbounded_b);
   ("median_absolute_percentage_error", nonneg_b); ("r2_score", MkBounds None (Some 1%Q));
   ("root_mean_squared_error", nonneg_b); ("root_mean_squared_log_error", nonneg_b);
   ("root_mean_squared_percentage_error", nonneg_b); ("symmetric_bias", unbounded_b);
   ("symmetric_mean_absolute_percentage_error", rate_b); ("tracking_signal", unbounded_b)].

Fixpoint assoc {A} (n : string) (l : list (string * A)) : option A :=
  match l with [] => None | (k, v) :: t => if String.eqb n k then Some v else assoc n t end.
(** name resolution: canonical or alias *)
Definition resolve {A} (table : list (string * A)) (n : string) : option A :=
  match assoc n table with
  | Some v => Some v
  | None => match assoc n aliases with Some c => assoc c table | None => None end
  end.
(** [metric]/[core_metric] restricted to the modelled ones, and [inspect] — metadata.py:131-146 *)
Definition find_metric (n : string) : option metric2 := resolve canonical n.
Definition inspect (n : string) : option bounds := resolve metadata_canonical n.
