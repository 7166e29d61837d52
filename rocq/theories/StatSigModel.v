(** Model of the statistical significance detector
    (kats/detectors/stat_sig_detector.py): windows, history handling, the point loop,
    the scores-only path, and the split of a long series into columns.

    Values [V] and scores [S] are of any type.  [T test control] stands for the score
    of [PercentageChange] on the two windows (kats/detectors/detector_consts.py) — the
    t-statistic with its corrections — and [zero] for 0.0.  [u] is the time unit,
    [nc] and [nt] are n_control and n_test.  Time stamps are [Z].  Not modelled: seasonality
    removal, plotting, the other components of the response (they are filled by the
    same loop). *)
From Verif Require Import Common PySlice TSDataModel.
Open Scope Z_scope.

Section Detector.
  Context {V S : Type}.
  Variable T : list V -> list V -> S.
  Variable zero : S.
  Variables nc nt u : Z.

  (** [ChangePointInterval.data] setter — detector_consts.py:64-76: start <= t < end. *)
  Definition win (lo hi : Z) (l : list (Z * V)) : list V :=
    map snd (filter (fun r => (lo <=? fst r) && (fst r <? hi)) l).

  (** [_get_start_end_dates] — stat_sig_detector.py:846-871.
      (control_start, control_end, test_start, test_end) for a point at time [t]. *)
  Definition start_end_dates (t : Z) : Z * Z * Z * Z :=
    let test_end := t + u in
    let test_start := test_end - nt * u in
    let control_start := test_end - (nt + nc) * u in
    (control_start, test_start, test_start, test_end).

  (** [_update_control_test] then [PercentageChange.score] — stat_sig_detector.py:823-840, 893-910. *)
  Definition score_at (t : Z) (history : list (Z * V)) : S :=
    let '(cs, ce, ts, te) := start_end_dates t in
    T (win ts te history) (win cs ce history).

  (** [_should_update] — stat_sig_detector.py:706-730.  [first] is the first time stamp of
      the history, or of the data when there is no history (an empty history is falsy). *)
  Definition first_time (hist : option (list (Z * V))) (data : list (Z * V)) : Z :=
    match hist with
    | Some (r :: _) => fst r
    | _ => match data with r :: _ => fst r | [] => 0 end
    end.
  Definition last_time (data : list (Z * V)) : Z :=
    match rev data with r :: _ => fst r | [] => 0 end.
  Definition should_update (hist : option (list (Z * V))) (data : list (Z * V)) : bool :=
    first_time hist data + (nc + nt - 1) * u <=? last_time data.

  (** [_handle_not_enough_history] — stat_sig_detector.py:732-776.  Returns the data and
      history used from here on, and what the caller's history object holds afterwards
      ([historical_data.extend(data, validate=False)] works in place). *)
  Definition handle_not_enough_history (hist : option (list (Z * V))) (data : list (Z * V))
    : list (Z * V) * list (Z * V) * option (list (Z * V)) :=
    let cut (total : list (Z * V)) :=
      let last_dt := (match total with r :: _ => fst r | [] => 0 end) + (nc + nt - 1) * u in
      (rows (of_rows true false (filter (fun r => last_dt <=? fst r) total)),
       rows (of_rows true false (filter (fun r => fst r <? last_dt) total))) in
    match hist with
    | None => (cut data, None)
    | Some h =>
        match h with
        | r :: _ =>
            if fst r + (nc + nt - 1) * u <=? last_time h then (data, h, Some h)
            else (cut (h ++ data), Some (h ++ data))
        | [] => (cut data, Some data)
        end
    end.

  (** [response.inplace_update] for the scores — detector_consts.py:654-690. *)
  Definition inplace_update (scores : list (Z * S)) (t : Z) (s : S) : list (Z * S) :=
    map (fun r => if fst r =? t then (fst r, s) else r) scores.

  (** the point loop — stat_sig_detector.py:300-312: the point is appended to the history
      (a new, sorted TimeSeriesData), the windows are moved, the response is updated. *)
  Fixpoint point_loop (history : list (Z * V)) (data : list (Z * V)) (scores : list (Z * S))
    : list (Z * S) :=
    match data with
    | [] => scores
    | p :: rest =>
        let history' := rows (of_rows true false (history ++ [p])) in
        point_loop history' rest (inplace_update scores (fst p) (score_at (fst p) history'))
    end.

  (** [_init_response] — stat_sig_detector.py:789-816. *)
  Definition init_scores (data : list (Z * V)) : list (Z * S) := map (fun r => (fst r, zero)) data.

  (** [get_last_n] — detector_consts.py:692-713. *)
  Definition last_n {A} (l : list (Z * A)) (n : nat) : list (Z * A) :=
    rows (getitem (MkSeries l true) (Some (- Z.of_nat n)) None).

  (** [fit_predict] without seasonality removal and without splitting —
      stat_sig_detector.py:202-314, 392.  Second component: the caller's history
      object afterwards. *)
  Definition fit_predict (hist : option (list (Z * V))) (data : list (Z * V))
    : list (Z * S) * option (list (Z * V)) :=
    if should_update hist data then
      let '(data', hist', user_hist) := handle_not_enough_history hist data in
      (last_n (point_loop hist' data' (init_scores data)) (length data), user_hist)
    else (init_scores data, hist).

  (** [_get_anomaly_scores_only] — stat_sig_detector.py:394-451.  pandas slices on a
      time index include both ends.  Here [T] is the plain two-sample t statistic. *)
  Definition closed_slice (lo hi : Z) (l : list (Z * V)) : list V :=
    map snd (filter (fun r => (lo <=? fst r) && (fst r <=? hi)) l).
  Definition scores_only (hist : option (list (Z * V))) (data : list (Z * V))
    : list (Z * S) * option (list (Z * V)) :=
    if should_update hist data then
      let total := match hist with Some h => h ++ data | None => data end in
      let first := match total with r :: _ => fst r | [] => 0 end in
      (map (fun r =>
        let test_end := fst r in
        let test_start := test_end - (nt - 1) * u in
        let control_end := test_start in
        let control_start := control_end - nc * u in
        let group1 := if existsb (Z.eqb control_end) (map fst total)
                      then removelast (closed_slice control_start control_end total)
                      else closed_slice control_start control_end total in
        let group2 := closed_slice test_start test_end total in
        (fst r, if first <=? control_start then T group2 group1 else zero)) data,
       match hist with Some h => Some (h ++ data) | None => None end)
    else (init_scores data, hist).
End Detector.

(** ** Splitting a long series *)
Section Split.
  Context {V : Type}.

  (** [_reorganize_big_data] — stat_sig_detector.py:453-494.  [n_seq] columns of
      len(history) + max_split values; each later column starts with the last
      len(history) values of the previous one; the last is filled up with ones. *)
  Definition n_seq (len m : nat) : nat := (len / m + (if Nat.eqb (len mod m) 0 then 0 else 1))%nat.
  Definition remaining (len m : nat) : nat := ((m * n_seq len m - len) mod m)%nat.
  (** [l[-n:]] *)
  Definition py_last {A} (l : list A) (n : nat) : list A := py_slice l (Some (- Z.of_nat n)) None.
  (** the loop over [range(m, len, m)]; [todo] iterations are left *)
  Fixpoint next_columns (h m : nat) (data : list V) (prev : list V) (i todo : nat) : list (list V) :=
    match todo with
    | O => []
    | S k =>
        let c := py_last prev h ++ firstn m (skipn i data) in
        c :: next_columns h m data c (i + m) k
    end.
  Definition pad_last (one : V) (k : nat) (cols : list (list V)) : list (list V) :=
    match rev cols with
    | [] => []
    | c :: t => rev t ++ [c ++ repeat one k]
    end.
  Definition big_columns (one : V) (m : nat) (hist data : list V) : list (list V) :=
    let first := hist ++ firstn m data in
    pad_last one (remaining (length data) m)
      (first :: next_columns (length hist) m data first m (n_seq (length data) m - 1)).

  (** [_reorganize_back] for the scores — stat_sig_detector.py:496-563:
      [.iloc[start_point:].values.T.flatten()[:-remaining]] *)
  Definition flatten_back {S} (start rem : nat) (cols : list (list S)) : list S :=
    py_slice (concat (map (skipn start) cols)) None (Some (- Z.of_nat rem)).

  (** [response] filled with zeros on the left — stat_sig_detector.py:548-563. *)
  Definition back_scores {S} (zero : S) (times : list Z) (res : list S) : list (Z * S) :=
    combine times (repeat zero (length times - length res) ++ res).
End Split.

(** [fit_predict] including the decision to split — stat_sig_detector.py:260-314 (with
    use_corrected_scores).  The series is split when more than [m] points are left and both
    parts have the same robust frequency; asking for the frequency of a part with fewer
    than two points raises (None).  [T_multi] is the score used by the multivariate
    detector: the same statistic with [min_perc_change] left at its default, because it is
    not passed on (stat_sig_detector.py:280-288).  Simplification: with skip_rescaling the
    columns of the multivariate detector are scored independently, so it is modelled column
    by column. *)
Definition fit_predict_split {V S} (T T_multi : list V -> list V -> S) (zero : S) (one : V)
  (nc nt u : Z) (m : nat) (hist : option (list (Z * V))) (data : list (Z * V)) : option (list (Z * S)) :=
  if should_update nc nt u hist data then
    let '(data', hist', _) := handle_not_enough_history nc nt u hist data in
    let direct := last_n (point_loop T nc nt u hist' data' (init_scores zero data)) (length data) in
    if Nat.ltb m (length data') then
      match infer_freq_robust (MkSeries hist' true), infer_freq_robust (MkSeries data' true) with
      | Some f1, Some f2 =>
          if f1 =? f2 then
            let times := map fst hist' ++ firstn m (map fst data') in
            let cols := big_columns one m (map snd hist') (map snd data') in
            let col_scores := map (fun c => map snd (fst (fit_predict T_multi zero nc nt u None (combine times c)))) cols in
            let res := flatten_back (length hist') (remaining (length data') m) col_scores in
            Some (last_n (back_scores zero (map fst data) res) (length data))
          else Some direct
      | _, _ => None
      end
    else Some direct
  else Some (init_scores zero data).
