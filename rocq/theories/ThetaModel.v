(** The Theta forecaster: kats/models/theta.py, over the real numbers.

    Parameters: [decompose] gives the seasonal component (utils/decomposition.py, multiplicative STL), [smooth] the
    smoothing level and the initial level that statsmodels SimpleExpSmoothing chooses for a series, [zq p] the value a
    standard normal variable exceeds with probability [p] (-norm.ppf(p)). The smoothing itself, the seasonality test
    and the line are computed. None is an exception, and NaN in bounds. *)
From Coq Require Import List ZArith Reals Bool.
From Verif Require Import PySlice OutlierModel HeuristicModel StlfModel LsqModel.
Import ListNotations.
Open Scope nat_scope.

Definition Rltb (x y : R) : bool := if Rlt_dec x y then true else false.
Definition Reqb (x y : R) : bool := if Req_EM_T x y then true else false.
Definition lsum (l : list R) : R := fold_right Rplus 0%R l.
(** statsmodels acf(y, nlags), entry [k] *)
Definition mean (y : list R) : R := (lsum y / INR (length y))%R.
Definition acov (y : list R) (k : nat) : R :=
  lsum (map (fun t => (nth t y 0 - mean y) * (nth (t + k) y 0 - mean y))%R (seq 0 (length y - k))).
Definition acf (y : list R) (k : nat) : R := (acov y k / acov y 0)%R.
(** check_seasonality — theta.py:100-110 *)
Definition varies (y : list R) : bool := existsb (fun a => negb (Reqb a (nth 0 y 0%R))) y.
Definition check_seasonality (m : nat) (y : list R) : bool :=
  if (1 <? m) && varies y && (2 * m <? length y)
  then let stat := sqrt ((1 + 2 * lsum (map (fun i => (acf y i) ^ 2)%R (seq 1 (m - 1)))) / INR (length y))%R in
       Rltb (1644 / 1000) (Rabs (acf y m / stat))
  else false.
(** simple exponential smoothing: the level before each observation (fittedvalues) and after the last (forecast) *)
Fixpoint levels (a l : R) (y : list R) : list R * R :=
  match y with [] => ([], l) | x :: y => let '(f, e) := levels a (a * x + (1 - a) * l) y in (l :: f, e) end.

Section Theta.
Variable roll next : Z -> Z.
Variable decompose : list R -> list R.
Variable smooth : list R -> R * R.
Variable zq : R -> R.
(** what fit leaves in the object *)
Record fitted := { t_n : nat; t_season : option (list R); t_level : R; t_end : R; t_sse : R; t_fits : list R; t_drift : R }.
(** deseasonalize — theta.py:112-130: the season stays in [decomp] when the data are left as they are *)
Definition deseasonalize (y s : list R) : list R :=
  if existsb (fun v => Rltb (Rabs v) (1 / 10 ^ 10)) s then y else zip_with Rdiv y s.
(** np.vstack([np.arange(n), np.ones(n)]).T, with the series — theta.py:141-142 *)
Definition line_data (y : list R) : list (LsqModel.row * R) :=
  combine (map (fun x i => match i with O => INR x | _ => 1%R end) (seq 0 (length y))) y.
Definition slope (y : list R) : R := beta 2 (line_data y) 0.
(** fit — theta.py:133-155 *)
Definition fit (m : nat) (y : list R) : fitted :=
  let season := if check_seasonality m y then Some (decompose y) else None in
  let v := match season with Some s => deseasonalize y s | None => y end in
  let '(a, l0) := smooth v in
  let '(fits, last) := levels a l0 v in
  {| t_n := length y; t_season := season; t_level := a; t_end := last;
     t_sse := lsum (zip_with (fun x f => (x - f) ^ 2)%R v fits);
     t_fits := match season with Some s => zip_with Rmult fits s | None => fits end;
     t_drift := (slope v / 2)%R |}.

Record out := { o_time : Z; o_fcst : R; o_lower : option R; o_upper : option R }.
Definition band (t : Z) (y : R) (alpha : R) (se : option R) : out :=
  {| o_time := t; o_fcst := y; o_lower := option_map (fun s => y - zq (alpha / 2) * s)%R se; o_upper := option_map (fun s => y + zq (alpha / 2) * s)%R se |}.
(** the smoothing level and the constant — theta.py:194-196 *)
Definition level (f : fitted) : R := Rmax (1 / 10 ^ 10) (t_level f).
Definition const (f : fitted) : R := ((1 - (1 - level f) ^ t_n f) / level f)%R.
(** sigma2 — theta.py:217-218: NaN (or infinite) for fewer than three observations *)
Definition sigma (f : fitted) : option R :=
  if t_n f <=? 2 then None else Some (sqrt (t_sse f / INR (t_n f - 2))).
(** predict — theta.py:159-264 *)
Definition point (f : fitted) (i : nat) : R := (t_end f + t_drift f * (INR i + const f))%R.
Definition predict (m : nat) (model : option fitted) (alpha : R) (history : bool) (steps : nat) (times : list Z) : option (list out) :=
  match model with
  | None => None
  | Some f =>
      let fcst := map (point f) (seq 0 steps) in
      let y := match t_season f with
               | None => fcst
               | Some s => zip_with Rmult fcst (firstn steps (tile (py_slice s (Some (- Z.of_nat m))%Z None) (1 + steps / m)))
               end in
      let se := map (fun i => option_map (fun s => s * sqrt (INR i * level f ^ 2 + 1))%R (sigma f)) (seq 0 steps) in
      let dates := future roll next (zmax times) steps in
      if negb (length dates =? length y) then None
      else
        let ahead := map (fun p => band (fst (fst p)) (snd (fst p)) alpha (snd p)) (combine (combine dates y) se) in
        if history then
          if negb (length times =? length (t_fits f)) then None
          else Some (zip_with (fun t v => band t v alpha (sigma f)) times (t_fits f) ++ ahead)
        else Some ahead
  end.
End Theta.
