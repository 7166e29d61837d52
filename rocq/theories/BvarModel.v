(** Bayesian VAR: kats/models/bayesian_var.py, over the real numbers.

    The data are one vector of [m] values per time. [mu] stands for the posterior mean that fit (184-243) computes by
    matrix inversion; its prior, its layout and everything done with it are modelled. The frequency is inferred from
    the data (_check_get_freq, 135-145), so the last time is on the grid and [next] is the next time on it. *)
From Coq Require Import List ZArith Reals Bool Arith.
Import ListNotations.
Open Scope nat_scope.

Definition dotl (l r : list R) : R := fold_right Rplus 0%R (map (fun q => fst q * snd q)%R (combine l r)).

Section Bvar.
Variable next : Z -> Z.
(** what the constructor and fit know: m, p, the data and their times *)
Variable m p : nat.
Variable data : list (list R).
Variable times : list Z.
Definition T : nat := length data.
(** N = m * p + r + 1 with the one exogenous variable of _convert_timeseries_np — 147-154, 126 *)
Definition width : nat := m * p + 1 + 1.
(** X: pd.RangeIndex(0, T) — 153 *)
Definition X : list R := map INR (seq 0 T).

(** ** Prior *)
(** mu_prior — 189-192: zeros but for [i, p * i]; flattened *)
Definition mu_prior : list R := flat_map (fun i => map (fun k => if k =? p * i then 1%R else 0%R) (seq 0 width)) (seq 0 m).
(** np.var(Y, axis=1) — 335 *)
Definition lsum (l : list R) : R := fold_right Rplus 0%R l.
Definition mean (l : list R) : R := (lsum l / INR (length l))%R.
Definition var (l : list R) : R := (lsum (map (fun v => (v - mean l) ^ 2) l) / INR (length l))%R.
Definition variance (j : nat) : R := var (map (fun y => nth j y 0%R) data).
(** _sigma_ijl — 301-329: [j] and the lag are None for exogenous variables *)
Record phis := { phi_0 : R; phi_1 : R; phi_2 : R; phi_3 : R }.
Definition h (q : phis) (lag : nat) : R := Rpower (INR lag) (phi_3 q).
Definition sigma_ijl (q : phis) (i : nat) (jl : option (nat * nat)) : R :=
  match jl with
  | Some (j, lag) => if i =? j then (phi_0 q / h q lag)%R else (phi_0 q * (phi_1 q / h q lag) * (variance j / variance i))%R
  | None => (phi_0 q * phi_2 q)%R
  end.
(** _construct_v_prior — 331-367: the diagonal, in the order of the loops *)
Definition v_prior (q : phis) : list R :=
  flat_map (fun i => flat_map (fun j => map (fun lag => sigma_ijl q i (Some (j, lag))) (seq 1 p)) (seq 0 m) ++ [sigma_ijl q i None] ++ [sigma_ijl q i None]) (seq 0 m).

(** ** Prediction *)
(** _construct_z — 245-258: fliplr of the last [p] columns, flattened row by row, then X[:, t] and 1. None is the
    AssertionError for [t < p]. *)
Definition construct_z (x : list R) (y : list (list R)) (t : nat) : option (list R) :=
  if t <? p then None
  else Some (flat_map (fun j => rev (map (fun v => nth j v 0%R) (firstn p (skipn (t - p) y)))) (seq 0 m) ++ [nth t x 0%R] ++ [1%R]).
(** row [i] of block_diag of m copies of z (_construct_Zt — 260-271) times the posterior mean *)
Definition block_row (z : list R) (i : nat) : list R := repeat 0%R (i * length z) ++ z ++ repeat 0%R ((m - 1 - i) * length z).
Definition apply_z (z mu : list R) : list R := map (fun i => dotl (block_row z i) mu) (seq 0 m).
(** _evaluate_point_t, _look_ahead_step — 369-394 *)
Definition evaluate (mu : list R) (x : list R) (y : list (list R)) (t : nat) : option (list R) :=
  option_map (fun z => apply_z z mu) (construct_z x y t).
(** forecast_vals of _get_training_residuals — 156-181 *)
Fixpoint all {A} (l : list (option A)) : option (list A) :=
  match l with [] => Some [] | None :: _ => None | Some a :: l => option_map (cons a) (all l) end.
Definition training (mu : list R) : option (list (list R)) := all (map (evaluate mu X data) (seq p (T - p))).
(** the loop of predict — 431-447: [ahead_time] is X[0, -1], and [ahead_time + step] is appended to X *)
Fixpoint look_ahead (mu : list R) (x : list R) (y : list (list R)) (step n : nat) : option (list (list R)) :=
  match n with
  | O => Some []
  | S n =>
      let x' := x ++ [(nth (T - 1) X 0 + INR step)%R] in
      match evaluate mu x' y (length x' - 1) with
      | None => None
      | Some v => option_map (cons v) (look_ahead mu x' (y ++ [v]) (S step) n)
      end
  end.
(** date_range(last, periods=steps + 1)[1:] — 422-424 *)
Fixpoint ahead_times (t : Z) (n : nat) : list Z := match n with O => [] | S n => next t :: ahead_times (next t) n end.
(** predict — 398-475. The object keeps the list forecast_vals: with include_history the very list is extended. The
    result is the new list, and the columns: one list of (time, fcst) for every variable (both bounds are -1); None is
    an exception. *)
Definition predict (mu : list R) (kept : list (list R)) (steps : nat) (history : bool) : list (list R) * option (list (list (Z * R))) :=
  if (steps =? 0) && negb history then (kept, None)
  else
    let ts := if history then firstn (T - p) (skipn p times) else [] in
    let vals := if history then kept else [] in
    match look_ahead mu X data T steps with
    | None => (kept, None)
    | Some ahead =>
        let vals := vals ++ ahead in
        let ts := ts ++ ahead_times (last times 0%Z) steps in
        let kept := if history then vals else kept in
        if negb (length ts =? length vals) then (kept, None)
        else (kept, Some (map (fun i => map (fun q => (fst q, nth i (snd q) 0%R)) (combine ts vals)) (seq 0 m)))
    end.
(** a program of predict calls on one fitted object, with the answers *)
Fixpoint run (mu : list R) (kept : list (list R)) (calls : list (nat * bool)) : list (option (list (list (Z * R)))) :=
  match calls with
  | [] => []
  | (steps, history) :: calls => let '(kept, r) := predict mu kept steps history in r :: run mu kept calls
  end.
End Bvar.
