From Coq Require Import Reals List.
From Verif Require Import PercChangeSpec.
Import ListNotations.
Open Scope R_scope.

(** [s] is the sample standard deviation of [l] (two or more values) *)
Definition std_of (s : R) (l : list R) : Prop :=
  (2 <= length l)%nat /\ 0 <= s /\ exists q, squares_of q l /\ s * s * (INR (length l) - 1) = q.
(** [y] are the standard deviations over the folds at horizons 1, 2, ..., [n] *)
Definition ses_of (folds : list (list R)) (n : nat) (y : list R) : Prop :=
  length y = n /\ forall h, (h < n)%nat -> std_of (nth h y 0) (map (fun f => nth h f 0) folds).
(** squared distance of the line a*h + b to the values at h = 1, 2, ... *)
Fixpoint line_error (a b h : R) (y : list R) : R :=
  match y with [] => 0 | s :: t => (s - (a * h + b)) ^ 2 + line_error a b (h + 1) t end.
Definition least_squares (y : list R) (a b : R) : Prop :=
  forall a' b', line_error a b 1 y <= line_error a' b' 1 y.
Definition nondecreasing (y : list R) : Prop := forall i j, (i <= j < length y)%nat -> nth i y 0 <= nth j y 0.
