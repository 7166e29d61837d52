(** Ensemble prediction intervals — kats/utils/ensemble_predict_interval.py — over the reals.

    The forecaster is a function [learn] from the training values and a number of steps to the forecasts; the times are
    left out.  The draws of np.random.multivariate_normal are taken from a stream: [draws k] is the k-th draw of a process
    whose generator starts in the state of the calling process.  Quantiles of the t distribution are given by [tq].
    Integer arguments are natural numbers (negative ones are rejected like small ones). *)
From Coq Require Import Reals List Arith Bool ZArith.
From Verif Require Import PercChangeModel PySlice.
Import ListNotations.
Open Scope R_scope.

(** __init__, block_size and n_block — ensemble_predict_interval.py:100-142 *)
Definition settings (length_ts : nat) (block_size n_block : option nat) : option (nat * nat) :=
  match block_size, n_block with
  | None, None => None
  | None, Some n =>
      if (n <? 5)%nat then None
      else let b := (length_ts / (n + 1))%nat in if (b <? 10)%nat then None else Some (b, n)
  | Some b, None =>
      if (b <? 10)%nat then None
      else let n := (length_ts / b - 1)%nat in if (n <? 5)%nat then None else Some (b, n)
  | Some b, Some n =>
      if (b <? 10)%nat then None
      else if (n <? 5)%nat then None
      else if (length_ts <? (n + 1) * b)%nat then None
      else Some (b, n)
  end.
Record epi := Epi { bs : nat; nb : nat; kept : list R; size : nat; ensemble : option (list (list R)) }.
(** __init__ — ensemble_predict_interval.py:100-166 *)
Definition epi_init (ts : list R) (block_size n_block : option nat) (ensemble_size : nat) : option epi :=
  match settings (length ts) block_size n_block with
  | None => None
  | Some (b, n) =>
      if (ensemble_size <? 4)%nat then None
      else Some (Epi b n (py_slice ts (Some (- Z.of_nat b * (Z.of_nat n + 1))%Z) None) ensemble_size None)
  end.
Definition slice (l : list R) (i j : nat) : list R := py_slice l (Some (Z.of_nat i)) (Some (Z.of_nat j)).
Definition plus2 (l m : list R) : list R := map (fun p => fst p + snd p) (combine l m).
Definition minus2 (l m : list R) : list R := map (fun p => fst p - snd p) (combine l m).
Section Learner.
Variable learn : list R -> nat -> list R.
(** _get_error_matrix_single — ensemble_predict_interval.py:168-200 *)
Definition error_row (e : epi) (idx : nat) : list R :=
  let train := slice (kept e) (idx * bs e) ((idx + 1) * bs e) in
  minus2 (slice (kept e) ((idx + 1) * bs e) ((idx + 2) * bs e)) (learn train (bs e)).
(** _get_error_matrix — ensemble_predict_interval.py:202-227 (the rows are placed by their index) *)
Definition error_matrix (e : epi) : list (list R) := map (error_row e) (seq 0 (nb e)).
(** _projection_single — ensemble_predict_interval.py:229-285: [i] is the block, [k] the number of draws made before *)
Fixpoint chain (b : nat) (rolling : bool) (draws : nat -> list R) (k blocks : nat) (train : list R) : list R :=
  match blocks with
  | O => []
  | S blocks =>
      let fcst := plus2 (learn train b) (draws k) in
      fcst ++ chain b rolling draws (k + 1) blocks (if rolling then train ++ fcst else fcst)
  end.
Definition future_block (step b : nat) : nat := (step / b + (if 0 <? step mod b then 1 else 0))%nat.
Definition projection_single (e : epi) (step : nat) (rolling : bool) (draws : nat -> list R) (k : nat) : list R :=
  let train := if rolling then kept e else py_slice (kept e) (Some (- Z.of_nat (bs e)))%Z None in
  firstn step (chain (bs e) rolling draws k (future_block step (bs e)) train).
(** _projection, in one process — ensemble_predict_interval.py:287-313 *)
Definition projection (e : epi) (step : nat) (rolling : bool) (draws : nat -> list R) : list (list R) :=
  map (fun idx => projection_single e step rolling draws (idx * future_block step (bs e))) (seq 0 (size e)).
(** _projection with a pool: chain [idx] runs on the process [worker idx], every process starts with a copy of the
    caller's generator, and a process runs its chains in order of their index *)
Definition done_before (worker : nat -> nat) (idx : nat) : nat :=
  length (filter (fun j => worker j =? worker idx)%nat (seq 0 idx)).
Definition projection_pool (worker : nat -> nat) (e : epi) (step : nat) (rolling : bool) (draws : nat -> list R) : list (list R) :=
  map (fun idx => projection_single e step rolling draws (done_before worker idx * future_block step (bs e))) (seq 0 (size e)).
End Learner.
(** mean_confidence_interval — ensemble_predict_interval.py:32-42; [tq] is t.ppf((1 + confidence) / 2, len - 1) *)
Definition mean_confidence_interval (tq : R) (data : list R) : R * R * R :=
  let m := rmean data in
  let se := sqrt (rsum (map (fun x => (x - m) * (x - m)) data) / len data) in
  (m, m - se * tq, m + se * tq).
Section Bands.
Variable tq : R -> nat -> R.
Definition bands (level : R) (step : nat) (ens : list (list R)) : list (R * R * R) :=
  map (fun i => mean_confidence_interval (tq level (length ens)) (map (fun r => nth i r 0) ens)) (seq 0 step).
(** get_projection — ensemble_predict_interval.py:315-339: the result and the object afterwards *)
Definition get_projection (learn : list R -> nat -> list R) (e : epi) (step : nat) (rolling : bool) (level : R) (draws : nat -> list R)
    : list (R * R * R) * epi :=
  let ens := projection learn e step rolling draws in
  (bands level step ens, Epi (bs e) (nb e) (kept e) (size e) (Some ens)).
(** get_fcst_band_with_level — ensemble_predict_interval.py:341-365 *)
Definition get_band (e : epi) (level : R) : option (list (R * R * R)) :=
  match ensemble e with
  | None => None
  | Some ens => Some (bands level (length (nth 0 ens [])) ens)
  end.
End Bands.
