(** Model of whole calls of the two-sample interval detectors
    (kats/detectors/interval_detector.py): validation of the columns, the variances of the
    four variants, the effect of a call on the caller's objects and on the detector.

    Values are real numbers without NaN; the quantile function norm.ppf and the search for
    the level of one point (C03-C05, C60, C61) are parameters.  As in TestDecisionModel.v the
    statistic is the one of the code where the standard error is positive. *)
From Coq Require Import Reals.
From Verif Require Import Common IntervalRunsModel TestDecisionModel.
From Coq Require Import List.
Open Scope R_scope.

(** interval_detector.py:85-93 TwoSampleColumns; sample counts are of type int64
    (interval_detector.py:163-168). *)
Record row := MkRow {
  r_a : R; r_b : R; r_va : R; r_vb : R; r_na : Z; r_nb : Z; r_effect : R }.

(** the four classes — interval_detector.py:1707-1817 *)
Inductive kind := RealValued | Proportion | CountKind | ArrivalTime.

Definition le (x y : R) : bool := if Rle_dec x y then true else false.
Definition lt (x y : R) : bool := if Rlt_dec x y then true else false.

(** [TwoSampleSchema] and [_validate_data] — interval_detector.py:122-168, 180-211: counts
    positive, variances not negative. *)
Definition valid_schema (rows : list row) : bool :=
  forallb (fun r => (0 <? r_na r)%Z && (0 <? r_nb r)%Z) rows
  && forallb (fun r => le 0 (r_va r) && le 0 (r_vb r)) rows.

(** [_get_test_statistic_hook] — interval_detector.py:763-768, 1728-1729, 1759-1762, 1789-1792;
    [ints] says whether value_a and value_b are columns of type int64. *)
Definition hook (k : kind) (ints : bool) (rows : list row) : bool :=
  match k with
  | RealValued => true
  | Proportion => forallb (fun r => le 0 (r_a r) && le (r_a r) 1 && le 0 (r_b r) && le (r_b r) 1) rows
  | CountKind => ints
  | ArrivalTime => forallb (fun r => lt 0 (r_a r) && lt 0 (r_b r)) rows
  end.

(** [_get_variance] — interval_detector.py:1710-1722, 1731-1753, 1764-1783, 1794-1817. *)
Definition get_variance (k : kind) (r : row) : R * R :=
  match k with
  | RealValued => (r_va r / IZR (r_na r), r_vb r / IZR (r_nb r))
  | Proportion => (r_a r * (1 - r_a r) / IZR (r_na r), r_b r * (1 - r_b r) / IZR (r_nb r))
  | CountKind => (r_a r / IZR (r_na r), r_b r / IZR (r_nb r))
  | ArrivalTime => (r_a r ^ 2 / IZR (r_na r), r_b r ^ 2 / IZR (r_nb r))
  end.

(** "Cache the variance for plotting" — interval_detector.py:1529-1532, 1588-1591: the columns
    variance_a and variance_b of [self.data], which is the caller's object, are replaced. *)
Definition cache_variance (k : kind) (r : row) : row :=
  MkRow (r_a r) (r_b r) (fst (get_variance k r)) (snd (get_variance k r)) (r_na r) (r_nb r) (r_effect r).

(** interval_detector.py:1490-1507: the choice of the statistic; [z] is the absolute critical value. *)
Definition test_point (relative : bool) (k : kind) (tt : test_type) (z : R) (r : row) : test_result :=
  let '(va, vb) := get_variance k r in
  (if relative then relative_difference else absolute_difference) tt z (r_a r) (r_b r) (r_effect r) va vb.

(** [_get_test_decision] — interval_detector.py:1157-1224, as a boolean. *)
Definition decision (tt : test_type) (c : critical_value) (r : test_result) : bool :=
  match tt with
  | OneSidedLower => match cv_lower c with Some l => le (tr_statistic r) l | None => false end
  | OneSidedUpper => match cv_upper c with Some u => le u (tr_statistic r) | None => false end
  | TwoSided => match cv_lower c, cv_upper c with
                | Some l, Some u => le (tr_statistic r) l || le u (tr_statistic r)
                | _, _ => false
                end
  end.

(** What a detector keeps between calls — interval_detector.py:404-413. *)
Record state := MkState { st_duration : option nat; st_reject : option (list ab_interval) }.

Inductive score := Statistic (x : R) | Decision (b : bool).
Record response := MkResponse {
  p_times : list Z; p_scores : list score; p_predicted : list bool; p_results : list test_result }.

(** Everything a call leaves behind: None as the response is an exception. *)
Record outcome := MkOutcome {
  o_response : option response; o_state : state;
  o_hist : option (list (Z * row)); o_data : list (Z * row) }.

Record config := MkConfig {
  g_kind : kind; g_ints : bool; g_relative : bool; g_type : test_type;
  g_ppf : R -> R;
  (** [_get_lowest_p] with the duration given, [_get_lowest_m] otherwise, for a length:
      duration and level of one point, or the exception — interval_detector.py:702-731 *)
  g_search : option nat -> nat -> option (nat * R) }.

(** indices of stored intervals that are long enough must exist — interval_detector.py:786-790 *)
Definition fits_in (n duration : nat) (l : list ab_interval) : bool :=
  forallb (fun i => negb (Nat.leb duration (length (iv_indices i))) || Nat.ltb (iv_end_idx i) n) l.

(** [fit_predict] — interval_detector.py:562-682; [pad] is interval_padding. *)
Definition fit_predict (g : config) (st : state) (hist : option (list (Z * row))) (data : list (Z * row))
  (consolidate mask_scores : bool) (pad : Z) : outcome :=
  if negb (valid_schema (map snd data)) then MkOutcome None st hist data else
  let all := match hist with Some h => h ++ data | None => data end in
  let put (rows : list (Z * row)) st' resp :=
    match hist with
    | Some _ => MkOutcome resp st' (Some rows) data
    | None => MkOutcome resp st' None rows
    end in
  let n := length all in
  match g_search g (st_duration st) n with
  | None => put all st None
  | Some (duration, level) =>
      let c := mk_critical_value (g_ppf g) (g_type g) level in
      let st1 := MkState (Some duration) (st_reject st) in
      if negb (hook (g_kind g) (g_ints g) (map snd all)) then put all st1 None else
      match absolute_critical_value c with
      | None => put all st1 None
      | Some z =>
          let results := map (fun r => test_point (g_relative g) (g_kind g) (g_type g) z (snd r)) all in
          let all' := map (fun r => (fst r, cache_variance (g_kind g) (snd r))) all in
          let mask := map (decision (g_type g) c) results in
          let finish (reject : option (list ab_interval)) :=
            let st2 := MkState (Some duration) reject in
            match reject with
            | Some l =>
                if fits_in n duration l
                then put all' st2 (Some (MkResponse (map fst all)
                       (if mask_scores then map Decision mask else map (fun r => Statistic (tr_statistic r)) results)
                       (convert_intervals_to_predictions n duration l) results))
                else put all' st2 None
            | None => put all' st2 (Some (MkResponse (map fst all)
                       (if mask_scores then map Decision mask else map (fun r => Statistic (tr_statistic r)) results)
                       (repeat false n) results))
            end in
          if consolidate then
            match get_intervals (map fst all) pad mask with
            | None => put all' st1 None
            | Some l =>
                match get_intervals (map fst all) pad (map negb mask) with
                | None => put all' (MkState (Some duration) (Some l)) None
                | Some _ => finish (Some l)
                end
            end
          else finish (st_reject st)
      end
  end.
