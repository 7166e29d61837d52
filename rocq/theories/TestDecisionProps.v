(** Property theorems C06 (kats/detectors/interval_detector.py difference tests). *)
From Coq Require Import Reals Lra.
From Verif Require Import TestDecisionModel TestDecisionSpec TestDecisionProofs.
Open Scope R_scope.

(** C06, for every two-sided level and for one-sided levels up to 1/2: a point rejects exactly
    when its interval excludes the hypothesised effect. Missing from the full property:
    one-sided tests with corrected level above 1/2, where it is false (see the refutation). *)
Theorem C06_absolute_agrees_partial ppf tt ca z a b effect va vb :
  normal_quantile ppf ->
  match tt with TwoSided => 0 < ca < 1 | _ => 0 < ca <= 1/2 end ->
  0 < va + vb ->
  absolute_critical_value (mk_critical_value ppf tt ca) = Some z ->
  let r := absolute_difference tt z a b effect va vb in
  rejects tt (mk_critical_value ppf tt ca) r <-> excludes r effect.
Proof. exact (absolute_agrees ppf tt ca z a b effect va vb). Qed.

Theorem C06_relative_agrees_partial ppf tt ca z a b effect va vb :
  normal_quantile ppf ->
  match tt with TwoSided => 0 < ca < 1 | _ => 0 < ca <= 1/2 end ->
  0 <= va -> 0 <= vb -> 0 < va + vb -> -1 < effect ->
  absolute_critical_value (mk_critical_value ppf tt ca) = Some z ->
  let r := relative_difference tt z a b effect va vb in
  rejects tt (mk_critical_value ppf tt ca) r <-> excludes r (1 + effect).
Proof. exact (relative_agrees ppf tt ca z a b effect va vb). Qed.

Theorem C06_two_sided_is_disjunction ppf ca r :
  rejects TwoSided (mk_critical_value ppf TwoSided ca) r <->
  (rejects OneSidedLower (mk_critical_value ppf OneSidedLower (ca / 2)) r \/
   rejects OneSidedUpper (mk_critical_value ppf OneSidedUpper (ca / 2)) r).
Proof. exact (two_sided_disjunction ppf ca r). Qed.

(** One-sided tests with corrected alpha above 1/2 (reached for long durations: the corrected
    level for n = m is alpha ** (1/m)). *)
Theorem C06_one_sided_refuted ppf ca z :
  normal_quantile ppf -> 1/2 < ca < 1 ->
  absolute_critical_value (mk_critical_value ppf OneSidedLower ca) = Some z ->
  exists a b effect va vb, 0 < va + vb /\
    let r := absolute_difference OneSidedLower z a b effect va vb in
    rejects OneSidedLower (mk_critical_value ppf OneSidedLower ca) r /\ ~ excludes r effect.
Proof. exact (one_sided_refuted ppf ca z). Qed.

(** The hypotheses on the quantile are met by a concrete function, and so are the others. *)
Example C06_quantile_example : normal_quantile (fun x => x - 1/2).
Proof. split; intros; lra. Qed.
Example C06_example :
  let ppf := fun x => x - 1/2 in
  absolute_critical_value (mk_critical_value ppf OneSidedLower (1/4)) = Some (Rabs (1/4 - 1/2)) /\
  0 < 1 + 3.
Proof. simpl. split; [reflexivity|lra]. Qed.

Print Assumptions C06_absolute_agrees_partial.
Print Assumptions C06_relative_agrees_partial.
Print Assumptions C06_two_sided_is_disjunction.
Print Assumptions C06_one_sided_refuted.
