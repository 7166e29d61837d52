(** Specification: a confidence interval excludes a hypothesised value. *)
From Coq Require Import Reals.
From Verif Require Import TestDecisionModel.
Open Scope R_scope.

(** The value lies strictly inside the reported interval. *)
Definition inside (lo : lbound) (x : R) (up : ubound) : Prop :=
  (match lo with LFin l => l < x | MinusInf => True end) /\
  (match up with UFin u => x < u | PlusInf => True end).
Definition excludes (r : test_result) (x : R) : Prop := ~ inside (tr_lower r) x (tr_upper r).

(** What is used of the normal quantile function: symmetric and increasing on (0,1). *)
Definition normal_quantile (ppf : R -> R) : Prop :=
  (forall a, 0 < a < 1 -> ppf (1 - a) = - ppf a) /\
  (forall a b, 0 < a -> a < b -> b < 1 -> ppf a < ppf b).
