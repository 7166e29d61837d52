(** MLARModel.predict with the steps argument — ml_ar.py:1316-1376: the trained horizons are iterated until all steps are
    covered.

    Times are counted in steps after the last valid observation.  One series and one target variable; the forecast of one
    pass is a parameter: a function of the origin, of the forecasts so far up to the origin, which fill the input window
    (ml_ar.py:1213-1220), and of the horizon.  The rows are kept in the order they are found; the code sorts them by time.
    An infinite loop is a result for no number of rounds. *)
From Coq Require Import List Bool Arith.
From Verif Require Import MlarModel.
Import ListNotations.

Section Predict.
Variable V : Type.
Variable pass : nat -> list (nat * V) -> nat -> V.
Definition lookup (k : nat) (res : list (nat * V)) : option V := option_map snd (find (fun q => fst q =? k) res).
Definition mem (k : nat) (l : list nat) : bool := existsb (Nat.eqb k) l.
(** the rows of one pass from an origin — ml_ar.py:1042-1056 and _predict *)
Definition rows_from (H : list nat) (g : nat) (known : list (nat * V)) : list (nat * V) :=
  map (fun h => (g + h, pass g (filter (fun q => fst q <=? g) known) h)) H.
(** ml_ar.py:1168-1184: the row before the first gap in the forecasts, else the last one *)
Definition next_origin (res : list (nat * V)) : nat :=
  let steps := map fst res in
  let mx := fold_right Nat.max 0 steps in
  let mn := fold_right Nat.min mx steps in
  match filter (fun k => negb (mem k steps)) (seq mn (mx + 1 - mn)) with [] => mx | k :: _ => k - 1 end.
(** combine_first and drop_duplicates — ml_ar.py:1352-1366: rows that are there stay *)
Definition combine_first (res new : list (nat * V)) : list (nat * V) :=
  res ++ filter (fun q => negb (mem (fst q) (map fst res))) new.
(** np.setdiff1d(steps, horizons) *)
Definition missing (steps covered : list nat) : list nat := filter (fun k => negb (mem k covered)) steps.
(** the loop — ml_ar.py:1344-1371 *)
Fixpoint iterate (fuel : nat) (H steps covered : list nat) (i : nat) (res : list (nat * V)) : option (list (nat * V)) :=
  match missing steps covered with
  | [] => Some res
  | _ =>
      match fuel with
      | O => None
      | S fuel =>
          let new := rows_from H (next_origin res) res in
          let c := match first_missing H with Some m => m - 1 | None => 0 end in
          iterate fuel H steps (covered ++ map (fun h => h + i * c) H) (S i) (combine_first res new)
      end
  end.
(** predict(steps) for a list of steps, if it returns within [fuel] rounds; the horizons are positive (ml_ar.py:239-250) *)
Definition predict_steps (fuel : nat) (H steps : list nat) : option (list (nat * V)) :=
  iterate fuel H steps H 1 (rows_from H 0 []).
(** predict(n) for an integer — ml_ar.py:1334-1335 *)
Definition predict (fuel : nat) (H : list nat) (n : nat) : option (list (nat * V)) := predict_steps fuel H (seq 1 n).
(** predict() *)
Definition predict_all (H : list nat) : list (nat * V) := rows_from H 0 [].
End Predict.
