(** The STL-decomposition forecaster: kats/models/stlf.py, over the real numbers.

    The decomposition (utils/decomposition.py, statsmodels STL) and the model of the deseasonalised series are
    parameters: [decompose] gives the seasonal and the trend component of the observations, [inner values history
    steps] the rows the model fitted to [values] answers with (its forecast and, if it has them, its bounds); None is
    an exception. All series are regular, so that the decomposition has the times of the data. *)
From Coq Require Import List ZArith Reals Bool.
From Verif Require Import OutlierModel HeuristicModel PySlice.
Import ListNotations.
Open Scope nat_scope.

Inductive decomposition := Additive | Multiplicative.
(** deseasonal_operator, reseasonal_operator — stlf.py:210-217 *)
Definition deseason (d : decomposition) (x s : R) : R := match d with Additive => (x - s)%R | Multiplicative => (x / s)%R end.
Definition reseason (d : decomposition) (x s : R) : R := match d with Additive => (x + s)%R | Multiplicative => (x * s)%R end.
Definition inner_row := (R * option (R * R))%type.
Record row := { s_time : Z; s_fcst : R; s_bounds : option (R * R) }.
Definition zip_with {A B C} (f : A -> B -> C) (l : list A) (r : list B) : list C := map (fun p => f (fst p) (snd p)) (combine l r).
(** np.tile(l, rep) *)
Definition tile {A} (l : list A) (rep : nat) : list A := concat (repeat l rep).

Section Stlf.
Variable roll next : Z -> Z.
Variable decompose : list R -> list R * list R.
Variable inner : list R -> bool -> nat -> option (list inner_row).
(** deseasonalize and fit — stlf.py:219-307: what the inner model is fitted to; the simple heuristic model gets the
    trend component *)
Definition deseasonalize (d : decomposition) (simple : bool) (values : list R) : list R :=
  let '(seasonal, trend) := decompose values in if simple then trend else zip_with (deseason d) values seasonal.
(** __init__ — stlf.py:205-208 (the period must not exceed the length) and predict — stlf.py:311-402 *)
Definition predict (d : decomposition) (simple : bool) (m : nat) (history : bool) (steps : nat) (times : list Z) (values : list R)
    : option (list row) :=
  if length values <? m then None
  else
    match inner (deseasonalize d simple values) history steps with
    | None => None
    | Some fcst =>
        if m =? 0 then None
        else
          let rep := 1 + length fcst / m in
          let seasonality := py_slice (fst (decompose values)) (Some (- Z.of_nat m))%Z None in
          let season := firstn (length fcst) (tile seasonality rep) in
          let rows := zip_with (fun (f : inner_row) s =>
            (reseason d (fst f) s, option_map (fun b => (reseason d (fst b) s, reseason d (snd b) s)) (snd f))) fcst season in
          let dates := future roll next (zmax times) steps in
          let dates := if history then times ++ dates else dates in
          if length dates =? length rows
          then Some (zip_with (fun t (r : inner_row) => {| s_time := t; s_fcst := fst r; s_bounds := snd r |}) dates rows)
          else None
    end.
End Stlf.
