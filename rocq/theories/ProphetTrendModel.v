(** Sampled logistic and flat trends — models/prophet.py: random shifts of the rate, the offsets that keep the trend continuous, and
    the uncertainty around the expected trend, over the reals.

    Random draws are given.  A division by a rate of zero (only if the initial rate is zero) has no modelled value. *)
From Coq Require Import List Reals.
Import ListNotations.
Open Scope R_scope.

(** _make_trend_shift_matrix, one row — prophet.py:700-715: a shift where its uniform is below the likelihood, each halved with the
    one before *)
Fixpoint halved (before : R) (l : list R) : list R := match l with [] => [] | x :: r => (before + x) / 2 :: halved x r end.
Definition shifts (likelihood : R) (uniforms laplaces : list R) : list R :=
  halved 0 (map (fun p => if Rlt_dec (fst p) likelihood then snd p else 0) (combine uniforms laplaces)).

(** the rates, k_cum_b without its first, k — prophet.py:920-943: where there is no shift, or the rate would be zero, the rate before *)
Fixpoint rates (current total : R) (a : list R) : list R :=
  match a with
  | [] => []
  | x :: r =>
      let total' := total + x in
      let current' := if Req_EM_T x 0 then current else if Req_EM_T total' 0 then current else total' in
      current' :: rates current' total' r
  end.
(** the offsets, m and the sums of gammas — prophet.py:944-948 *)
Fixpoint offsets (m k : R) (ks ts : list R) : list R :=
  match ks, ts with
  | k' :: kr, t :: tr => let m' := m + (t - m) * (1 - k / k') in m' :: offsets m' k' kr tr
  | _, _ => []
  end.
(** k + np.cumsum *)
Fixpoint totals (k : R) (a : list R) : list R := match a with [] => [] | x :: r => (k + x) :: totals (k + x) r end.
(** one row of sample_trends — prophet.py:936-952: [past], [past_times] the history on the grid *)
Definition sample_trend (k m : R) (past past_times shifts times caps : list R) : list R :=
  let n := length past in
  let kt := skipn n (totals k (past ++ shifts)) in
  let mt := skipn n (offsets m k (rates k k (past ++ shifts)) (past_times ++ times)) in
  map (fun p => fst (fst p) / (1 + exp (- snd (fst p) * (fst (snd p) - snd (snd p))))) (combine (combine caps kt) (combine times mt)).
Definition column (j : nat) (rows : list (list R)) : list R := map (fun r => nth j r 0) rows.
Definition rsum (l : list R) : R := fold_right Rplus 0 l.
Definition rmean (l : list R) : R := rsum l / INR (length l).
(** _logistic_uncertainty — prophet.py:896-955 *)
Definition logistic_uncertainty (k m : R) (past past_times : list R) (rows : list (list R)) (times caps : list R) : list (list R) :=
  let samples := map (fun s => sample_trend k m past past_times s times caps) rows in
  map (fun s => map (fun j => nth j s 0 - rmean (column j samples)) (seq 0 (length times))) samples.
(** _sample_trend_uncertainty — prophet.py:622-697: [rows] the drawn shifts of every sample (linear growth never comes here) *)
Inductive growth := Flat | Logistic (k m : R) (past past_times : list R).
Definition after_history (t : R) : bool := if Rlt_dec 1 t then true else false.
Definition uncertainty (g : growth) (times caps : list R) (rows : list (list R)) : list (list R) :=
  let later := filter (fun p => after_history (fst p)) (combine times caps) in
  if Rle_dec (last times 0) 1 then map (fun _ => repeat 0 (length times)) rows
  else
    let old := repeat 0 (length times - length later) in
    match g with
    | Flat => map (fun _ => old ++ repeat 0 (length later)) rows
    | Logistic k m past past_times => map (fun u => old ++ u) (logistic_uncertainty k m past past_times rows (map fst later) (map snd later))
    end.
(** _sample_predictive_trend_vectorized for these growths — prophet.py:593-619: the expected trend is the model's *)
Definition trend_draws (expected floors : list R) (scale : R) (u : list (list R)) : list (list R) :=
  map (fun row => map (fun p => (fst (fst p) + snd (fst p)) * scale + snd p) (combine (combine expected row) floors)) u.
