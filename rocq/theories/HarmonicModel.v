(** Harmonic regression: kats/models/harmonic_regression.py, over the real numbers.

    scipy's curve_fit is asked to fit a function that is linear in its parameters: it is the least squares solution of
    LsqModel. Values are present (no NaN); times are seconds since 1970. *)
From Coq Require Import List ZArith Reals Bool Arith.
From Verif Require Import LsqModel.
Import ListNotations.
Open Scope nat_scope.

(** HarmonicRegressionParams.__post_init__ — 28-40: None is the ValueError *)
Record params := { period : R; order : Z }.
Definition make_params (p : R) (o : Z) : option params :=
  if Rle_dec p 0 then None else if (o <=? 0)%Z then None else Some {| period := p; order := o |}.
Definition columns (q : params) : nat := Z.to_nat (order q) * 2.
(** fourier_series — 136-163: [t] in hours; for i in range(order), sine then cosine *)
Definition hours (t : Z) : R := (IZR t / 3600)%R.
Definition fourier_row (q : params) (t : Z) : LsqModel.row :=
  fun c => let x := (2 * (INR (c / 2) + 1) * PI * hours t / period q)%R in if Nat.even c then sin x else cos x.
(** fit_harmonics — 184-238: None is curve_fit's TypeError for more parameters than observations *)
Definition mean (values : list R) : R := (sumof (fun v => v) values / INR (length values))%R.
Definition fit (q : params) (times : list Z) (values : list R) : option LsqModel.row :=
  if length values <? columns q then None
  else
    let harms := map (fourier_row q) times in
    let demeaned := map (fun v => v - mean values)%R values in
    Some (beta (columns q) (combine harms demeaned)).
(** predict — 72-94: None is the ValueError before fit *)
Definition predict (q : params) (fitted : option LsqModel.row) (dates : list Z) : option (list (Z * R)) :=
  match fitted with
  | None => None
  | Some a => Some (map (fun t => (t, dot (columns q) a (fourier_row q t))) dates)
  end.
