(** Specification vocabulary for C71-C76, independent of [PercChangeModel]. *)
From Coq Require Import Reals List.
Import ListNotations.
Open Scope R_scope.

(** [m] is the arithmetic mean of [l] *)
Definition mean_of (m : R) (l : list R) : Prop :=
  l <> [] /\ m * INR (length l) = fold_right Rplus 0 l.
(** [s] is the sum of squared deviations of [l] from its mean *)
Definition squares_of (s : R) (l : list R) : Prop :=
  exists m, mean_of m l /\ s = fold_right Rplus 0 (map (fun x => (x - m) ^ 2) l).
(** both samples have a point and one of them has at least two *)
Definition testable (cur prev : list R) : Prop :=
  (1 <= length cur)%nat /\ (1 <= length prev)%nat /\ (3 <= length cur + length prev)%nat.
(** add [c] to, multiply by [k], every point *)
Definition shift (c : R) (l : list R) := map (fun x => x + c) l.
Definition scale (k : R) (l : list R) := map (fun x => k * x) l.
(** a symmetric, strictly increasing distribution function and its inverse *)
Definition symmetric_cdf (F quantile : R -> R) : Prop :=
  (forall x y, x < y -> F x < F y) /\ (forall x, 0 < F x < 1)
  /\ (forall x, F (- x) = 1 - F x) /\ (forall p, 0 < p < 1 -> F (quantile p) = p).
(** two-sided p value of a statistic *)
Definition two_sided_p (F : R -> R) (t : R) : R := 2 * (1 - F (Rabs t)).
