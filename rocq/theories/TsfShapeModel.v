(** kats/tsfeatures/tsfeatures.py: features of shape — spectral entropy, strength of trend and seasonality, Hurst exponent,
    linearity, slope of the trend, gradient, histogram mode.

    Values are real numbers without NaN.  The decomposition (statsmodels STL), the periodogram (scipy) and the frequency
    detector are parameters.  None is NaN, infinity or an exception. *)
From Coq Require Import Reals Permutation Sorted.
From Coq Require Import List ZArith Bool.
From Verif Require Import TsfAcfModel.
Import ListNotations.
Open Scope R_scope.

(** np.var, np.std *)
Definition var (l : list R) : R := mean (map (fun v => (v - mean l) ^ 2) l).
Definition std (l : list R) : R := sqrt (var l).
Definition vadd (a b : list R) : list R := map (fun p => fst p + snd p) (combine a b).
Definition vsub (a b : list R) : list R := map (fun p => fst p - snd p) (combine a b).

(** tsfeatures.py:768-785: the strength of a component of STL *)
Definition strength (component resid : list R) : option R :=
  if zero (var (vadd component resid)) then None else Some (1 - var resid / var (vadd component resid)).

(** np.argmax, np.argmin: the first position of the greatest (least) entry *)
Fixpoint argbest_from (better : R -> R -> bool) (i best : nat) (bestv : R) (l : list R) : nat :=
  match l with
  | [] => best
  | v :: l' => if better v bestv then argbest_from better (S i) i v l' else argbest_from better (S i) best bestv l'
  end.
Definition argbest (better : R -> R -> bool) (l : list R) : option nat :=
  match l with [] => None | v :: l' => Some (argbest_from better 1 0 v l') end.
Definition rgtb (a b : R) : bool := if Rlt_dec b a then true else false.
Definition rltb (a b : R) : bool := if Rlt_dec a b then true else false.
(** tsfeatures.py:795-801 *)
Definition peak (seasonal : list R) (period : nat) : option nat := argbest rgtb (firstn period seasonal).
Definition trough (seasonal : list R) (period : nat) : option nat := argbest rltb (firstn period seasonal).

(** tsfeatures.py:787-793: the residuals are repeated as columns and the diagonal is NaN, so column i has every residual
    but the one at i *)
Definition without (i : nat) (l : list R) : list R := firstn i l ++ skipn (S i) l.
Definition spikiness (resid : list R) : R := var (map (fun i => var (without i resid)) (seq 0 (length resid))).

(** tsfeatures.py:636-656 (get_spectral_entropy) from the power spectral density; 0 * log2(0) is NaN and left out by
    np.nansum. *)
Definition log2 (x : R) : R := ln x / ln 2.
Definition entropy_term (p : R) : R := if zero p then 0 else p * log2 p.
Definition spectral_entropy (psd : list R) : option R :=
  if zero (rsum psd) then None else
  match psd with
  | [] | [_] => None
  | _ => Some (- (rsum (map (fun v => entropy_term (v / rsum psd)) psd) / log2 (INR (length psd))))
  end.

(** least squares of y on x: the sums of stats.linregress and np.polyfit *)
Definition cross (x y : list R) : R := rsum (map (fun p => (fst p - mean x) * (snd p - mean y)) (combine x y)).
(** scipy linregress: r, 0 when the values are constant; the square — tsfeatures.py:1360-1361 *)
Definition linearity (x : list R) : R :=
  let t := map INR (seq 0 (length x)) in
  if zero (cross t t) || zero (cross x x) then 0 else (cross t x / sqrt (cross t t * cross x x)) ^ 2.

(** tsfeatures.py:906-928 (get_hurst); None when there are fewer than two lags (no line to fit) or a standard deviation is
    0 (its logarithm is not finite). *)
Definition lagged_std (x : list R) (lag : nat) : R := std (vsub (skipn lag x) (firstn (length x - lag) x)).
Definition slope (x y : list R) : R := cross x y / cross x x.
Definition hurst (x : list R) (lag_size : nat) : option R :=
  let lags := seq 2 (Nat.min lag_size (length x - 1) - 2) in
  let tau := map (lagged_std x) lags in
  if Nat.ltb (length lags) 2 || existsb zero tau then None else
  Some (slope (map (fun lag => ln (INR lag)) lags) (map ln tau)).

(** tsfeatures.py:1176-1189 (get_std1st_der): np.gradient needs two values *)
Definition gradient (x : list R) : list R :=
  map (fun i => if Nat.eqb i 0 then nth 1 x 0 - nth 0 x 0
                else if Nat.eqb (S i) (length x) then nth i x 0 - nth (i - 1) x 0
                else (nth (S i) x 0 - nth (i - 1) x 0) / 2) (seq 0 (length x)).
Definition std1st_der (x : list R) : option R := if Nat.ltb (length x) 2 then None else Some (std (gradient x)).

(** tsfeatures.py:1975-1982: ordinary least squares without a constant on the numbers 0, 1, ... *)
Definition trend_mag (trend : list R) : option R :=
  match trend with
  | [] => None
  | first :: _ =>
      let series := map (fun v => v - first) trend in
      let t := map INR (seq 0 (length series)) in
      Some (rsum (map (fun p => fst p * snd p) (combine t series)) / rsum (map (fun v => v ^ 2) t))
  end.
(** np.round: to the nearest integer, ties to the even one *)
Definition round (x : R) : Z :=
  let f := (up x - 1)%Z in
  let d := x - IZR f in
  if Rlt_dec d (1 / 2) then f else if Rlt_dec (1 / 2) d then (f + 1)%Z else if Z.even f then f else (f + 1)%Z.
(** tsfeatures.py:1967-1973, from the two quantiles *)
Definition seasonality_mag (q95 q05 : R) : R := IZR (round (q95 - q05)).

(** np.histogram with [nbins] equal bins from the least to the greatest value (half below and above when they are equal);
    the last bin has its right edge.  tsfeatures.py:1278-1292 (get_histogram_mode): the left edge of the first fullest bin. *)
Definition rmin_list (x : list R) : R := fold_right Rmin (hd 0 x) x.
Definition rmax_list (x : list R) : R := fold_right Rmax (hd 0 x) x.
Definition range (x : list R) : R * R :=
  let lo := rmin_list x in let hi := rmax_list x in
  if zero (hi - lo) then (lo - 1 / 2, hi + 1 / 2) else (lo, hi).
Definition edge (x : list R) (nbins i : nat) : R :=
  let (lo, hi) := range x in lo + INR i * ((hi - lo) / INR nbins).
Definition inside (x : list R) (nbins i : nat) (v : R) : bool :=
  negb (rltb v (edge x nbins i)) && (rltb v (edge x nbins (S i)) || (Nat.eqb (S i) nbins && negb (rgtb v (edge x nbins (S i))))).
Definition counts (x : list R) (nbins : nat) : list R :=
  map (fun i => INR (length (filter (inside x nbins i) x))) (seq 0 nbins).
Definition histogram_mode (x : list R) (nbins : nat) : option R :=
  match x with
  | [] => None
  | _ => option_map (edge x nbins) (argbest rgtb (counts x nbins))
  end.

(** tsfeatures.py:1944-1958: the differences get one time stamp for all rows and are sorted by time (consts.py:951, whose
    sort does not keep the order of equal stamps); [detect] gives the detected periods. *)
Definition rows (values : list R) : list (Z * R) := map (fun v => ((Z.of_nat (length values) - 1)%Z, v)) (diff values).
Definition sorts (table seen : list (Z * R)) : Prop :=
  Permutation table seen /\ StronglySorted (fun a b => (fst a <= fst b)%Z) seen.
Definition least_int (l : list R) : option Z := match l with [] => None | a :: l => Some (up (fold_right Rmin a l) - 1)%Z end.
Definition seasonal_period (detect : list R -> list R) (values : list R) (result : Z) : Prop :=
  exists seen, sorts (rows values) seen /\
    (result = match least_int (detect (map snd seen)) with Some p => p | None => 7 end)%Z.
