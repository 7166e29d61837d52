(** Model of [PercentageChange] and of the spike detection of [ChangePointInterval]
    (kats/detectors/detector_consts.py), over the reals.

    The data of the two intervals are lists of reals ([i_data] of [ResponseModel]); the
    quantiles of the t and normal distribution are inputs.  A result that is NaN or
    infinite in numpy is [None].  Not modelled: float rounding, [data_df] being None. *)
From Coq Require Import Reals Lra List.
Import ListNotations.
Open Scope R_scope.

Fixpoint rsum (l : list R) : R := match l with [] => 0 | x :: t => x + rsum t end.
Definition len (l : list R) : R := INR (length l).

(** [np.mean] on a non-empty list — detector_consts.py:141-150. *)
Definition rmean (l : list R) : R := rsum l / len l.

(** [variance_val] — detector_consts.py:152-163: 0 for one point, else [np.var(ddof=1)]. *)
Definition rvar (l : list R) : R :=
  if Nat.eqb (length l) 1 then 0
  else rsum (map (fun x => (x - rmean l) * (x - rmean l)) l) / (len l - 1).

Definition ltb (a b : R) : bool := if Rlt_dec a b then true else false.
Definition eqb0 (a : R) : bool := if Req_EM_T a 0 then true else false.

(** one number divided by another; None when numpy gives inf or NaN *)
Definition rdiv (a b : R) : option R := if eqb0 b then None else Some (a / b).

(** [_detect_spikes], univariate — detector_consts.py:78-92: z scores at least the
    threshold; z is NaN or infinite when the variance is 0 (no spike unless the value is
    above the mean, which is impossible with variance 0). *)
Definition z_score (l : list R) (x : R) : option R := rdiv (x - rmean l) (sqrt (rvar l)).
Definition is_spike (threshold : R) (l : list R) (x : R) : bool :=
  match z_score l x with Some z => negb (ltb z threshold) | None => false end.
Definition detect_spikes {T} (threshold : R) (l : list (T * R)) : list (T * R) :=
  filter (fun r => is_spike threshold (map snd l) (snd r)) l.

Section Change.
  (** current and previous data; [use_corrected_scores]; [min_perc_change] *)
  Variables (cur prev : list R) (corrected : bool) (min_change : R).

  (** [ratio_estimate], [perc_change] — detector_consts.py:234-243. *)
  Definition ratio : option R := rdiv (rmean cur) (rmean prev).
  Definition perc_change : option R := option_map (fun r => (r - 1) * 100) ratio.

  (** [direction] — detector_consts.py:263-270: true = "up".  An infinite change (zero
      previous mean) has the sign of the current mean. *)
  Definition direction_up : bool :=
    match perc_change with Some p => ltb 0 p | None => ltb 0 (rmean cur) end.

  (** [_pooled_stddev] — detector_consts.py:373-397. *)
  Definition pooled_stddev : R :=
    if (Nat.eqb (length prev) 0 || Nat.eqb (length cur) 0
        || (Nat.eqb (length prev) 1 && Nat.eqb (length cur) 1))%bool then 0
    else
      let s_p := sqrt (((len prev - 1) * rvar prev + (len cur - 1) * rvar cur)
                       / (len prev + len cur - 2)) in
      if corrected then s_p * sqrt (1 / len prev + 1 / len cur) else s_p.

  (** [_ttest_manual], [_ttest] (univariate) — detector_consts.py:399-442. *)
  Definition t_score : option R :=
    if (Nat.eqb (length prev) 1 && Nat.eqb (length cur) 1)%bool then None
    else rdiv (rmean cur - rmean prev) pooled_stddev.

  (** [score] — detector_consts.py:300-319: clipped to 0 when the change is small. *)
  Definition small_change : bool :=
    match perc_change with Some p => ltb (Rabs p) min_change | None => false end.
  Definition score : option R := if small_change then Some 0 else t_score.

  (** [ci_lower], [ci_upper] — detector_consts.py:338-361; [tq] is t.ppf(alpha/2, df). *)
  Definition ci_upper (tq : R) : R := rmean prev - tq * pooled_stddev.
  Definition ci_lower (tq : R) : R := rmean prev + tq * pooled_stddev.

  (** [_calc_cov] — detector_consts.py:495-520: covariance of the last points, divided by
      their number; None for fewer than two pairs (numpy: NaN). *)
  Definition last_of (n : nat) (l : list R) : list R := skipn (length l - n) l.
  Definition calc_cov : option R :=
    let n := Nat.min (length cur) (length prev) in
    if Nat.leb n 1 then None
    else let a := last_of n cur in let b := last_of n prev in
         Some (rsum (map (fun p => (fst p - rmean a) * (snd p - rmean b)) (combine a b))
               / (INR n - 1) / INR n).

  (** [_delta_method] — detector_consts.py:522-554; [nq] is norm.ppf(alpha/2).
      Returns (lower, upper); None when any term is NaN or infinite. *)
  Definition delta_method (nq : R) : option (R * R) :=
    match ratio, calc_cov with
    | Some r, Some cov =>
        let mt := rmean cur in let mc := rmean prev in
        let s := rvar cur / (len cur * mc ^ 2)
                 - 2 * (mt * cov) / mc ^ 3
                 + rvar prev * mt ^ 2 / (len prev * mc ^ 4) in
        let w := nq * sqrt (Rabs s) in
        Some (r + w, r - w)
    | _, _ => None
    end.

  (** [perc_change_lower], [perc_change_upper] — detector_consts.py:245-261. *)
  Definition perc_bounds (nq : R) : option (R * R) :=
    option_map (fun b => ((fst b - 1) * 100, (snd b - 1) * 100)) (delta_method nq).

  (** [stat_sig] (univariate) — detector_consts.py:272-297; NaN bounds compare false. *)
  Definition stat_sig (nq : R) : bool :=
    match delta_method nq with
    | Some (lower, upper) => negb (ltb 1 upper && ltb lower 1)
    | None => true
    end.

  (** One column of [_ttest_multivariate] with [skip_rescaling] —
      detector_consts.py:444-474: scipy's [ttest_ind] with equal variances (always the
      corrected statistic) unless one side has a single point.  None also for the
      infinite score of two single points. *)
  Definition ttest_ind : option R :=
    rdiv (rmean cur - rmean prev)
         (sqrt ((rsum (map (fun x => (x - rmean prev) * (x - rmean prev)) prev)
                 + rsum (map (fun x => (x - rmean cur) * (x - rmean cur)) cur))
                / (len prev + len cur - 2) * (1 / len prev + 1 / len cur))).
  Definition t_score_multi : option R :=
    if (Nat.eqb (length prev) 1 && Nat.eqb (length cur) 1)%bool then None
    else if (Nat.eqb (length prev) 1 || Nat.eqb (length cur) 1)%bool
         then rdiv (rmean cur - rmean prev) pooled_stddev
         else ttest_ind.
End Change.

(** The rescaling of the multivariate path — detector_consts.py:476-493: the corrected
    p value is turned back into a t score with the sign of the unscaled one. *)
Definition rescaled (quantile : R -> R) (t p : R) : R :=
  if ltb t 0 then quantile (p / 2) else quantile (1 - p / 2).
