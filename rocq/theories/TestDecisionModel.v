(** Model of the per-point two-sample difference tests of kats/detectors/interval_detector.py.
    Values are real numbers; the series are handled point by point, as numpy does. The normal
    quantile norm.ppf is a parameter of every definition that uses it. *)
From Coq Require Import Reals.
Open Scope R_scope.

(** interval_detector.py:249-253 TestType *)
Inductive test_type := OneSidedLower | OneSidedUpper | TwoSided.

(** interval_detector.py:268-271 CriticalValue (one point) *)
Record critical_value := { cv_lower : option R; cv_upper : option R }.

(** interval_detector.py:732-760 _get_critical_value, with
    _convert_alpha_to_critical_value = norm.ppf (1483-1488). *)
Definition mk_critical_value (ppf : R -> R) (tt : test_type) (corrected_alpha : R) : critical_value :=
  match tt with
  | OneSidedLower => {| cv_lower := Some (ppf corrected_alpha); cv_upper := None |}
  | OneSidedUpper => {| cv_lower := None; cv_upper := Some (ppf (1 - corrected_alpha)) |}
  | TwoSided => {| cv_lower := Some (ppf (corrected_alpha / 2));
                   cv_upper := Some (ppf (1 - corrected_alpha / 2)) |}
  end.

(** interval_detector.py:273-284 absolute_critical_value; None is the ValueError. *)
Definition absolute_critical_value (c : critical_value) : option R :=
  match cv_lower c with
  | Some l => Some (Rabs l)
  | None => match cv_upper c with Some u => Some (Rabs u) | None => None end
  end.

(** A confidence interval bound: finite, or the infinity written by the code. *)
Inductive lbound := LFin (r : R) | MinusInf.
Inductive ubound := UFin (r : R) | PlusInf.

(** interval_detector.py:256-261 ABTestResult (one point; stat_sig not modelled) *)
Record test_result := { tr_statistic : R; tr_lower : lbound; tr_upper : ubound }.

(** interval_detector.py:1548-1553: the one-sided overwrites of a bound. *)
Definition bounds (tt : test_type) (lo up : R) : lbound * ubound :=
  match tt with
  | OneSidedLower => (MinusInf, UFin up)
  | OneSidedUpper => (LFin lo, PlusInf)
  | TwoSided => (LFin lo, UFin up)
  end.

(** interval_detector.py:1509-1564 _absolute_difference_test_statistic; va, vb are the
    per-group variances returned by _get_variance. *)
Definition absolute_difference (tt : test_type) (z a b effect va vb : R) : test_result :=
  let difference := b - a in
  let se := sqrt (va + vb) in
  let '(lo, up) := bounds tt (difference - z * se) (difference + z * se) in
  {| tr_statistic := (difference - effect) / se; tr_lower := lo; tr_upper := up |}.

(** interval_detector.py:1576-1577 _EPS = 1e-9, _EPS_2 = _EPS ** 2 *)
Definition EPS : R := / 1000000000.
Definition EPS2 : R := EPS ^ 2.

(** interval_detector.py:1566-1647 _relative_difference_test_statistic *)
Definition relative_difference (tt : test_type) (z a b effect va vb : R) : test_result :=
  let difference := ln (Rmax b EPS) - ln (Rmax a EPS) in
  let se := sqrt (va / Rmax (a ^ 2) EPS2 + vb / Rmax (b ^ 2) EPS2) in
  let '(lo, up) := bounds tt (exp (difference - z * se)) (exp (difference + z * se)) in
  {| tr_statistic := (difference - ln (1 + effect)) / se; tr_lower := lo; tr_upper := up |}.

(** interval_detector.py:1157-1224 _get_test_decision for a single point, interval_type REJECT.
    As a proposition, because comparison of reals is not computable. The asserts on missing
    critical values are the False branches (they cannot occur for mk_critical_value). *)
Definition rejects (tt : test_type) (c : critical_value) (r : test_result) : Prop :=
  match tt with
  | OneSidedLower => match cv_lower c with Some l => tr_statistic r <= l | None => False end
  | OneSidedUpper => match cv_upper c with Some u => tr_statistic r >= u | None => False end
  | TwoSided => match cv_lower c, cv_upper c with
                | Some l, Some u => tr_statistic r <= l \/ tr_statistic r >= u
                | _, _ => False
                end
  end.
