(** Least squares, as the forecasters call it: statsmodels OLS(y, X).fit() (linear_model.py:94-96,
    quadratic_model.py:97-100), numpy.linalg.lstsq (theta.py:141-142) and scipy curve_fit on a function that is linear
    in its parameters (harmonic_regression.py:230-236).

    A row of the design matrix is a function from the column number; a vector of parameters likewise; [k] is the
    number of columns. The libraries solve the problem by a pseudo-inverse or by iteration; here it is solved by
    Gram-Schmidt orthogonalisation of the columns, over the real numbers. The two agree wherever the solution is
    determined: on the rows of the design matrix always, elsewhere when its columns are independent. *)
From Coq Require Import List Reals Lra.
Import ListNotations.
Open Scope R_scope.

Definition row := nat -> R.
Fixpoint total (n : nat) (f : nat -> R) : R := match n with O => 0 | S n => total n f + f n end.
Definition sumof {A} (f : A -> R) (l : list A) : R := fold_right (fun x s => f x + s) 0 l.
(** the value of the parameters [a] on a row: one entry of X @ a *)
Definition dot (k : nat) (a : row) (r : row) : R := total k (fun i => a i * r i).

Section Fit.
Variable k : nat.
Variable data : list (row * R).
Definition unit_vec (j : nat) : row := fun i => if Nat.eqb i j then 1 else 0.
Definition inner (a b : row) : R := sumof (fun d => dot k a (fst d) * dot k b (fst d)) data.
Definition against (a : row) : R := sumof (fun d => snd d * dot k a (fst d)) data.
Definition over (x y : R) : R := if Req_EM_T y 0 then 0 else x / y.
(** the first [j] columns made orthogonal, as parameter vectors *)
Fixpoint basis (j : nat) : list row :=
  match j with
  | O => []
  | S j => basis j ++ [fun i => unit_vec j i - sumof (fun p => over (inner (unit_vec j) p) (inner p p) * p i) (basis j)]
  end.
(** results.params *)
Definition beta : row := fun i => sumof (fun p => over (against p) (inner p p) * p i) (basis k).
(** the quadratic form of a row in the inverse of X'X, as in results.cov_params() / results.scale *)
Definition leverage (r : row) : R := sumof (fun p => over (dot k p r * dot k p r) (inner p p)) (basis k).
(** results.ssr *)
Definition ssr (a : row) : R := sumof (fun d => (snd d - dot k a (fst d)) * (snd d - dot k a (fst d))) data.
End Fit.
