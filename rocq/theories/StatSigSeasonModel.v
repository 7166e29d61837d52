(** Model of the full response of the statistical significance detectors, with the
    removal of seasonality (kats/detectors/stat_sig_detector.py): the univariate
    [StatSigDetectorModel] and the [MultiStatSigDetectorModel].

    A row of a series is the list of its values, one for each column (one column in the
    univariate case).  [stat test control] stands for the numbers that [PercentageChange]
    gives for each column from the two windows (C71-C76).  [handler] stands for
    [SeasonalityHandler] on a series (C266, C267): the seasonal part and the rest, row by
    row, or None when it raises. *)
From Coq Require Import QArith String.
From Verif Require Import Common PySlice TSDataModel StatSigModel.
From Coq Require Import List.
Open Scope Z_scope.

(** What the response holds for one time stamp and one column. *)
Record cell := MkCell {
  c_score : Q; c_upper : Q; c_lower : Q; c_pred : Q; c_mag : Q; c_sig : Q }.

(** [_init_response] — stat_sig_detector.py:791-818, 1186-1211. *)
Definition init_cell (v : Q) : cell := MkCell 0 v v v 0 0.
Definition init_rows (data : list (Z * list Q)) : list (Z * list cell) :=
  map (fun r => (fst r, map init_cell (snd r))) data.

(** one addition of the seasonal part — stat_sig_detector.py:323-391, 1110-1181: the band
    and the prediction are moved, the scores, magnitudes and flags are not. *)
Definition add_season_cell (c : cell) (s : Q) : cell :=
  MkCell (c_score c) (c_upper c + s) (c_lower c + s) (c_pred c + s) (c_mag c) (c_sig c).
Fixpoint zip_with {A B C} (f : A -> B -> C) (a : list A) (b : list B) : list C :=
  match a, b with x :: a', y :: b' => f x y :: zip_with f a' b' | _, _ => [] end.
(** [start_idx = len(response.scores) - len(data_season)]; the rows before it stay —
    stat_sig_detector.py:323-391. *)
Definition add_season (season : list (list Q)) (rows : list (Z * list cell)) : list (Z * list cell) :=
  let start_idx := (length rows - length season)%nat in
  firstn start_idx rows
  ++ zip_with (fun r s => (fst r, zip_with add_season_cell (snd r) s)) (skipn start_idx rows) season.

(** Column names: pandas numbers the columns of a frame made from an array. *)
Inductive column := Named (s : string) | Numbered (n : nat).

Record answer := MkAnswer {
  a_rows : list (Z * list cell);
  a_score_names : list column;   (** columns of scores, magnitudes and flags *)
  a_band_names : list column     (** columns of the prediction and the band *) }.

Definition with_values (l : list (Z * list Q)) (vs : list (list Q)) : list (Z * list Q) :=
  combine (map fst l) vs.

(** [SeasonalityHandler] is only used on a non-empty history — stat_sig_detector.py:260-266. *)
Definition rest_of_history (handler : list (Z * list Q) -> option (list (list Q) * list (list Q)))
  (hist : list (Z * list Q)) : option (list (list Q)) :=
  match hist with
  | [] => Some []
  | _ => match handler hist with Some (_, d) => Some d | None => None end
  end.

(** whether [_reorganize_big_data] is used — stat_sig_detector.py:272-284 (only with
    use_corrected_scores, otherwise [split] is None); asking for the frequency of a part
    with fewer than two rows raises (None). *)
Definition splits (split : option nat) (hist data : list (Z * list Q)) : option bool :=
  match split with
  | None => Some false
  | Some m =>
      if Nat.ltb m (length data) then
        match infer_freq_robust (MkSeries hist true), infer_freq_robust (MkSeries data true) with
        | Some f1, Some f2 => Some (f1 =? f2)
        | _, _ => None
        end
      else Some false
  end.

(** [fit_predict] with rem_season=True — stat_sig_detector.py:200-394 ([multi] false) and
    1017-1183 ([multi] true; it never splits).  [response] is the object made by
    [_init_response].  The loop updates it in place; [_reorganize_back]
    (stat_sig_detector.py:496-600) puts another object into [self.response] and leaves the
    first as it is, and the seasonal part is then added to the first.  Not modelled: the
    arithmetic of the split call, whose result is dropped here, and its exceptions. *)
Definition fit_predict_season (multi : bool)
  (stat : list (list Q) -> list (list Q) -> list cell)
  (handler : list (Z * list Q) -> option (list (list Q) * list (list Q)))
  (nc nt u : Z) (split : option nat) (names : list string)
  (hist : option (list (Z * list Q))) (data : list (Z * list Q)) : option answer :=
  if Bool.eqb multi (Nat.eqb (length names) 1) then None else
  let plain := map Named names in
  if should_update nc nt u hist data then
    let '(data', hist', _) := handle_not_enough_history nc nt u hist data in
    match handler data', rest_of_history handler hist' with
    | Some (season, rest), Some hist_rest =>
        let data2 := with_values data' rest in
        let hist2 := with_values hist' hist_rest in
        match (if multi then Some false else splits split hist2 data2) with
        | None => None
        | Some long =>
            let response := if long then init_rows data
                            else point_loop stat nc nt u hist2 data2 (init_rows data) in
            Some (MkAnswer (last_n (add_season season response) (length data)) plain
                    (if multi then map Numbered (seq 0 (length names)) else plain))
        end
    | _, _ => None
    end
  else Some (MkAnswer (init_rows data) plain plain).

(** [fit_predict] of the multivariate detector with rem_season=False —
    stat_sig_detector.py:1017-1108, 1183. *)
Definition fit_predict_multi (stat : list (list Q) -> list (list Q) -> list cell)
  (nc nt u : Z) (names : list string)
  (hist : option (list (Z * list Q))) (data : list (Z * list Q)) : option answer :=
  if Nat.eqb (length names) 1 then None else
  let plain := map Named names in
  if should_update nc nt u hist data then
    let '(data', hist', _) := handle_not_enough_history nc nt u hist data in
    Some (MkAnswer (last_n (point_loop stat nc nt u hist' data' (init_rows data)) (length data))
            plain plain)
  else Some (MkAnswer (init_rows data) plain plain).
