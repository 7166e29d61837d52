(** Types of anomalies — kats/detectors/anomaly_postprocessing.py:345-493.

    Values are real numbers without missing values; the coefficients are not zero.  The p-value of the t test
    ([stats.ttest_ind]) is a parameter: [differ a b] says whether it is at most 0.05. *)
From Coq Require Import Reals.
From Coq Require Import List ZArith Bool.
Import ListNotations.
Open Scope R_scope.

Definition rlt (x y : R) : bool := if Rlt_dec x y then true else false.
Definition rle (x y : R) : bool := if Rle_dec x y then true else false.
Definition rows := list (Z * R).

(** [loc[: t, "val"]] without its last value, and [loc[t :, "val"]] — anomaly_postprocessing.py:365-366, 387-388 *)
Definition upto (t : Z) (d : rows) : list R := removelast (map snd (filter (fun r => (fst r <=? t)%Z) d)).
Definition from (t : Z) (d : rows) : list R := map snd (filter (fun r => (t <=? fst r)%Z) d).

Fixpoint rsum (l : list R) : R := match l with [] => 0 | x :: l => x + rsum l end.
(** the sum of [f i x] over the values x with their index i *)
Fixpoint isum (f : nat -> R -> R) (i : nat) (l : list R) : R :=
  match l with [] => 0 | x :: l => f i x + isum f (S i) l end.
Definition count (l : list R) : R := INR (length l).

(** [np.polyfit(np.arange(0, n), y, 1)]: slope and intercept — anomaly_postprocessing.py:372-377, 394-399, 419-420,
    425-426; of at least two values *)
Definition slope (y : list R) : R :=
  (count y * isum (fun i x => INR i * x) 0 y - isum (fun i _ => INR i) 0 y * rsum y)
  / (count y * isum (fun i _ => INR i ^ 2) 0 y - isum (fun i _ => INR i) 0 y ^ 2).
Definition intercept (y : list R) : R := (rsum y - slope y * isum (fun i _ => INR i) 0 y) / count y.

Definition short (a b : list R) : bool := Nat.leb (length a) 1 || Nat.leb (length b) 1.
(** one of the two tests — anomaly_postprocessing.py:365-383, 387-405 *)
Definition shifted (differ : list R -> list R -> bool) (coef : R) (d : rows) (t : Z) : bool :=
  let a := upto t d in
  let b := from t d in
  if short a b then false
  else if differ a b
  then negb (rlt (intercept a) (coef * intercept (a ++ b)) && rlt (intercept (a ++ b) / coef) (intercept a))
  else false.
(** [_if_level_shift] — anomaly_postprocessing.py:364-407 *)
Definition level_shift differ coef d (iv : Z * Z) : bool :=
  if shifted differ coef d (snd iv) then true else shifted differ coef d (fst iv).

(** [_if_individual_outlier] — anomaly_postprocessing.py:409-413 *)
Definition individual (d : rows) (iv : Z * Z) : bool :=
  Nat.ltb (length (removelast (map snd (filter (fun r => (fst iv <=? fst r)%Z && (fst r <=? snd iv)%Z) d)))) 5.

(** [_if_trend_change] — anomaly_postprocessing.py:415-428 *)
Definition trend_change (d : rows) (iv : Z * Z) : bool :=
  let before := upto (fst iv) d in
  if Nat.leb (length before) 1 then false else
  let after := from (snd iv) d in
  if Nat.leb (length after) 1 then false else
  rlt (slope before * slope after) 0.

(** [np.std] *)
Definition mean (l : list R) : R := rsum l / count l.
Definition std (l : list R) : R := sqrt (mean (map (fun x => (x - mean l) ^ 2) l)).
Definition volatile (coef : R) (d : rows) (t : Z) : bool :=
  let a := upto t d in
  let b := from t d in
  if short a b then false else rle (coef * std b) (std a) || rle (std a) (std b / coef).
(** [_if_volatility_change] — anomaly_postprocessing.py:430-460 *)
Definition volatility_change (coef : R) (d : rows) (iv : Z * Z) : bool :=
  if volatile coef d (snd iv) then true else volatile coef d (fst iv).

(** [_get_anomaly_type], [get_each_anomaly_type] — anomaly_postprocessing.py:345-362, 462-493 *)
Record types := Types { is_level : bool; is_individual : bool; is_trend : bool; is_volatility : bool }.
Definition anomaly_types differ (lcoef vcoef : R) (d : rows) (ivs : list (Z * Z)) : list types :=
  map (fun iv => Types (level_shift differ lcoef d iv) (individual d iv) (trend_change d iv)
                   (volatility_change vcoef d iv)) ivs.
