(** Model of the rolling statistics detector (kats/detectors/rolling_stats_model.py).

    Values are [option Q], None = NaN; exceptions are [None] results.  Simplification: the
    z-score divides by a square root, so the model carries its signed square z*|z|, which
    determines it.  Not modelled: multivariate input (refused by the code), the seasonality
    decomposition itself (an arbitrary function), the constructor's check of the
    seasonality period, serialisation (see C18). *)
From Verif Require Import Common PySlice TSDataModel BacktestModel MetricsModel.
Open Scope Z_scope.

(** [RollStatsFunction] — rolling_stats_model.py:40-46 *)
Inductive statistic := Iqr | Mad | ZScore | ModZMad | ModZIqr | IqrMedianDeviation.

(** ** The score functions *)

(** np.nanpercentile(…, 25 k), linear interpolation at rank k(n-1)/4 *)
Definition quart (k : nat) (l : list Q) : Q :=
  let s := qsort l in let n := length l in
  let r := (k * (n - 1))%nat in
  let lo := nth (r / 4) s 0%Q in let hi := nth (S (r / 4)) s 0%Q in
  (lo + inject_Z (Z.of_nat (r mod 4)) / 4 * (hi - lo))%Q.
Definition nanquart (k : nat) (l : list cell) : cell :=
  match non_nan l with [] => None | v => Some (quart k v) end.

(** [calculate_iqr] — rolling_stats_model.py:58-65 *)
Definition calc_iqr (l : list cell) : cell := lift2 Qminus (nanquart 3 l) (nanquart 1 l).

(** scipy's [median_abs_deviation] with NaN omitted, [calculate_mad] —
    rolling_stats_model.py:87-96 *)
Definition calc_mad (l : list cell) : cell :=
  match nanmedian l with
  | None => None
  | Some m => nanmedian (map (option_map (fun x => Qabs (x - m))) l)
  end.

(** np.nanstd squared *)
Definition nanvar (l : list cell) : cell :=
  match nanmean l with
  | None => None
  | Some m => nanmean (map (option_map (fun x => (x - m) * (x - m))%Q) l)
  end.

(** [np.divide(num, d, out=zeros, where=d != 0)]: 0 where the denominator is 0, whatever
    the numerator; NaN where it is NaN *)
Definition divide_where (num d : cell) : cell :=
  match d with
  | None => None
  | Some d => if Qeq_bool d 0 then Some 0%Q else option_map (fun x => x / d)%Q num
  end.

(** a row of the reshaped data: all but the last value, and the last one *)
Definition hist_of (l : list cell) : list cell := removelast l.
Definition last_of (l : list cell) : cell := last l None.
Definition minus (a b : cell) : cell := lift2 Qminus a b.

(** [calculate_z_scores], signed square — rolling_stats_model.py:68-84 *)
Definition calc_z (l : list cell) : cell :=
  divide_where (option_map (fun e => e * Qabs e)%Q (minus (last_of l) (nanmean (hist_of l))))
               (nanvar (hist_of l)).

(** [calculate_modified_z_scores_mad], [calculate_modified_z_scores_iqr] —
    rolling_stats_model.py:99-134 *)
Definition calc_mod_mad (l : list cell) : cell :=
  divide_where (minus (last_of l) (nanmedian (hist_of l))) (calc_mad (hist_of l)).
Definition calc_mod_iqr (l : list cell) : cell :=
  divide_where (minus (last_of l) (nanmedian (hist_of l))) (calc_iqr (hist_of l)).

(** [calculate_iqr_median_deviation] — rolling_stats_model.py:137-173.  Comparisons with
    NaN are false, so a NaN last value has sign 0, and 0 * NaN = NaN. *)
Definition iqr_sign (base : Q) (x : cell) (q1 q3 : cell) : Q :=
  match x, q1, q3 with
  | Some x, Some q1, Some q3 =>
      let r := (base * (q3 - q1))%Q in
      let ge_upper := Qle_bool (q3 + r) x in
      let l_lower := negb (Qle_bool (q1 - r) x) in
      if l_lower then (-1)%Q else if ge_upper then 1%Q else 0%Q
  | _, _, _ => 0%Q
  end.
Definition calc_iqr_median_deviation (base : Q) (l : list cell) : cell :=
  let h := hist_of l in
  option_map (Qmult (iqr_sign base (last_of l) (nanquart 1 h) (nanquart 3 h)))
    (divide_where (option_map Qabs (minus (last_of l) (nanmedian h))) (nanmedian h)).

(** [SCORE_FUNC_DICT] — rolling_stats_model.py:176-183; [kwargs.get("iqr_base", 1.5)] —
    rolling_stats_model.py:152 *)
Definition score_func (st : statistic) (iqr_base : option Q) (l : list cell) : cell :=
  match st with
  | Iqr => calc_iqr l
  | Mad => calc_mad l
  | ZScore => calc_z l
  | ModZMad => calc_mod_mad l
  | ModZIqr => calc_mod_iqr l
  | IqrMedianDeviation =>
      calc_iqr_median_deviation (match iqr_base with Some b => b | None => 3 # 2 end) l
  end.

(** [* self.score_base]; the z-score is carried squared *)
Definition times_base (st : statistic) (b : Q) (v : cell) : cell :=
  option_map (Qmult (match st with ZScore => b * Qabs b | _ => b end)%Q) v.

(** ** The model object *)

(** Constructor arguments — rolling_stats_model.py:218-272.  [rolling_window] counts points
    or seconds. *)
Record roll := MkRoll {
  rolling_window : Z; stat : statistic; remove_seasonality : bool; point_based : bool;
  score_base : Q; iqr_base : Q; allow_expanding : bool }.

(** [extend_rolling_window] — rolling_stats_model.py:274-282 *)
Definition extended (st : statistic) : bool := match st with Iqr | Mad => false | _ => true end.

(** [_point_based_vectorized_data] — rolling_stats_model.py:290-313: the rows of the strided
    view; a negative shape is refused, and so is reshaping to rows of no width. *)
Definition strided (ext : bool) (w : Z) (v : list cell) : option (list (list cell)) :=
  let n := if ext then Z.of_nat (length v) - w else Z.of_nat (length v) - w + 1 in
  let k := if ext then w + 1 else w in
  if (n <? 0) || (k <=? 0) then None
  else Some (map (fun i => firstn (Z.to_nat k) (skipn i v)) (seq 0 (Z.to_nat n))).

(** [_fit_predict_point_based] — rolling_stats_model.py:315-371: the rows of the score
    series.  [TimeSeriesData(time=, value=)] sorts them by time. *)
Definition point_scores (c : roll) (total : series cell) (n_hist : Z) : option (series cell) :=
  let ext := extended (stat c) in
  let rw := if ext then rolling_window c else rolling_window c - 1 in
  let v := map snd (rows total) in
  match (if n_hist <? rw
         then if allow_expanding c
              then strided ext (rolling_window c) (repeat None (Z.to_nat (rw - n_hist)) ++ v)
              else None
         else strided ext (rolling_window c) (py_slice v (Some (n_hist - rw)) None))
  with
  | None => None
  | Some reorg =>
      of_columns true false (py_slice (times total) (Some n_hist) None)
        (map (fun r => times_base (stat c) (score_base c) (score_func (stat c) (Some (iqr_base c)) r)) reorg)
  end.

Definition ns : Z := 1000000000.
Fixpoint sorted_b (l : list Z) : bool :=
  match l with
  | x :: t => match t with [] => true | y :: _ => (x <=? y) && sorted_b t end
  | [] => true
  end.

(** the loop over the data's time stamps — rolling_stats_model.py:435-470: a closed window
    of [rolling_window] (or [rolling_window] - frequency) seconds; fewer than two points
    score 0; the score function is called without [iqr_base].  Simplification: pandas'
    label slicing of an unsorted index is an error here. *)
Definition time_window (total : series cell) (lo hi : Z) : list cell :=
  map snd (filter (fun r => (lo <=? fst r) && (fst r <=? hi)) (rows total)).
Definition time_score (c : roll) (total : series cell) (freq : Z) (t : Z) : cell :=
  let span := if extended (stat c) then rolling_window c else rolling_window c - freq in
  let win := time_window total (t - span * ns) t in
  if Nat.leb 2 (length win) then times_base (stat c) (score_base c) (score_func (stat c) None win)
  else Some 0%Q.
Definition time_scores (c : roll) (total : series cell) (freq : Z) (data : series cell) : option (series cell) :=
  if sorted_b (times total)
  then Some (of_rows true false (map (fun t => (t, time_score c total freq t)) (times data)))
  else None.

Section Roll.
(** whether [pd.infer_freq] finds a frequency for an index of at least three time stamps *)
Variable infer_freq : list Z -> bool.
(** [SeasonalityHandler(...).remove_seasonality()] — rolling_stats_model.py:409-413 *)
Variable deseason : series cell -> option (series cell).

(** [is_data_missing] — kats/consts.py:773-792 *)
Definition data_missing (s : series cell) : bool :=
  if Nat.ltb (length (rows s)) 3 then false else negb (infer_freq (times s)).

(** [_check_window_sizes]: rolling_window / frequency < 3 — rolling_stats_model.py:373-380 *)
Definition window_too_small (w f : Z) : bool := if 0 <? f then w <? 3 * f else 3 * f <? w.

(** [fit_predict] — rolling_stats_model.py:382-476.  The result, the model afterwards and
    the caller's history afterwards: [historical_data.extend(data, validate=False)] extends
    the caller's object, and the time-based path overwrites [self.rolling_window]. *)
Definition fit_predict (c : roll) (data : series cell) (hist : option (series cell))
  : option (series cell) * (roll * option (series cell)) :=
  let n := match hist with None => 0 | Some h => Z.of_nat (length (rows h)) end in
  let total0 := match hist with None => getitem data None None | Some h => append_rows h data end in
  let hist' := match hist with None => None | Some _ => Some total0 end in
  match (if remove_seasonality c then deseason total0 else Some total0) with
  | None => (None, (c, hist'))
  | Some total =>
      if point_based c then (point_scores c total n, (c, hist'))
      else match infer_freq_robust total with
           | None => (None, (c, hist'))
           | Some g =>
               let f := Z.quot g ns in
               if (f =? 0) || window_too_small (rolling_window c) f then (None, (c, hist'))
               else if (Z.modulo (rolling_window c) f =? 0) && negb (data_missing total)
               then let c' := MkRoll (rolling_window c / f) (stat c) (remove_seasonality c) (point_based c)
                                (score_base c) (iqr_base c) (allow_expanding c) in
                    (point_scores c' total n, (c', hist'))
               else (time_scores c total f data, (c, hist'))
           end
  end.
End Roll.
