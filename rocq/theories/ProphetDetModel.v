(** The prophet based detectors — detectors/prophet_detector.py: anomaly scores, seasonalities, the training data, holidays and the
    trend detector.

    Values are exact rationals, [None] is NaN, an infinity or (for a whole result) an exception; times are seconds from 1970.
    prophet's fit and forecast are given; numbers that are not rational (norm.ppf, the square root of 50) are parameters. *)
From Coq Require Import List Bool Arith ZArith QArith Qabs.
From Verif Require Import Common.
Import ListNotations.
Open Scope nat_scope.

(** ** Scores *)
(** a row of the forecast *)
Record fcst := Fcst { yhat : Q; lower : Q; upper : Q }.
(** deviation_from_predicted_val — prophet_detector.py:121-129; a forecast of zero gives no number *)
Definition deviation (v : Q) (f : fcst) : option Q := if Qeq_bool (yhat f) 0 then None else Some ((v - yhat f) / Qabs (yhat f))%Q.
Definition min_stdev : Q := 1 # 1000000000.
(** z_score — prophet_detector.py:132-158: [scale] is half the square root of 50, in the legacy version with the interval's width [ci],
    otherwise times ppf(0.9) / 0.8 and with [ppf] = ppf(ci / 2 + 0.5) *)
Inductive z_version := Legacy (scale ci : Q) | Corrected (scale ppf : Q).
Definition scaled_std (z : z_version) (f : fcst) : Q :=
  match z with Legacy s ci => (s * (upper f - lower f) / ci)%Q | Corrected s ppf => (s * (upper f - lower f) / ppf)%Q end.
Definition qmax (a b : Q) : Q := if Qle_bool a b then b else a.
Definition z_score (z : z_version) (v : Q) (f : fcst) : Q := ((v - yhat f) / qmax (scaled_std z f) min_stdev)%Q.

(** ** Seasonalities *)
Inductive stype := DAY | WEEK | YEAR | WEEKEND.
Definition stype_eqb (a b : stype) : bool := match a, b with DAY, DAY | WEEK, WEEK | YEAR, YEAR | WEEKEND, WEEKEND => true | _, _ => false end.
(** True, False, "auto" or something else *)
Inductive sval := On | Off | Auto | Odd.
Definition sdict := list (stype * sval).
Fixpoint sget (k : stype) (d : sdict) : option sval := match d with [] => None | (k', v) :: r => if stype_eqb k k' then Some v else sget k r end.
Fixpoint sput (k : stype) (v : sval) (d : sdict) : sdict :=
  match d with [] => [(k, v)] | (k', v') :: r => if stype_eqb k k' then (k', v) :: r else (k', v') :: sput k v r end.
(** the names as strings, in upper or lower case; [None] is any other string *)
Inductive sarg := One (s : stype) | Many (l : list stype) | Names (l : list (option stype)) | Dict (d : sdict) | Nothing.
(** seasonalities_to_dict, to_seasonality — prophet_detector.py:199-231 *)
Fixpoint of_names (l : list (option stype)) (d : sdict) : option sdict :=
  match l with [] => Some d | None :: _ => None | Some s :: r => of_names r (sput s On d) end.
Definition to_dict (a : sarg) : option sdict :=
  match a with One s => Some [(s, On)] | Many l => of_names (map Some l) [] | Names l => of_names l [] | Dict d => Some d | Nothing => Some [] end.
Definition week : Z := 604800.
Definition zmin (l : list Z) : option Z := match l with [] => None | a :: r => Some (fold_left Z.min r a) end.
Fixpoint diffs (l : list Z) : list (Z * Z) := match l with a :: (b :: _) as r => (b, (b - a)%Z) :: diffs r | _ => [] end.
(** the weekend's automatic choice — prophet_detector.py:239-248: the rows of the differences are those where the *time* is not zero;
    times in order *)
Definition no_weekend (times : list Z) : bool :=
  let span := (last times 0 - hd 0 times)%Z in
  let least := zmin (map snd (filter (fun p => negb (fst p =? 0)%Z) (diffs times))) in
  (span <? 2 * week)%Z || (match least with None => false | Some m => (week <=? m)%Z end).
Definition truthy (v : option sval) : bool := match v with Some Off | None => false | _ => true end.
(** what is filled in for each type, in their order — prophet_detector.py:249-265 *)
Definition fill (k : stype) (d : sdict) : sdict :=
  match sget k d with
  | Some _ => d
  | None => sput k (match k with WEEK => if truthy (sget WEEKEND d) then Off else Auto | DAY | YEAR => Auto | WEEKEND => Off end) d
  end.
Definition valid_value (v : option sval) : bool := match v with Some Odd | None => false | _ => true end.
Definition fill1 (k : stype) (o : option sdict) : option sdict :=
  match o with None => None | Some d => let d' := fill k d in if valid_value (sget k d') then Some d' else None end.
(** seasonalities_processing — prophet_detector.py:234-266 *)
Definition process (times : list Z) (d : sdict) : option sdict :=
  let d0 := match sget WEEKEND d with Some Auto => if no_weekend times then sput WEEKEND Off d else d | _ => d end in
  fold_left (fun o k => fill1 k o) [DAY; WEEK; YEAR; WEEKEND] (Some d0).
(** prophet_weekend_masks — prophet_detector.py:269-291; 1970-01-01 was a Thursday *)
Definition weekday (t : Z) : Z := ((t / 86400 + 3) mod 7)%Z.
Definition weekend_mask (t : Z) : bool := (4 <? weekday t)%Z.
Definition workday_mask (t : Z) : bool := (weekday t <=? 4)%Z.

(** ** The training data *)
Definition series := list (Z * option Q).
(** _exclude_ranges — prophet_detector.py:690-720, with TimeSeriesData.exclude (consts.py:694-722): a range is a list of timestamps *)
Fixpoint exclude_ranges (s : series) (ranges : list (list (option Z))) : option series :=
  match ranges with
  | [] => Some s
  | [Some a; Some b] :: r => exclude_ranges (filter (fun p => (fst p <? a)%Z || (b <? fst p)%Z) s) r
  | _ => None
  end.
(** _remove_outliers — prophet_detector.py:723-755: a missing value compares false *)
Definition outside (p : (Z * option Q) * fcst) : bool :=
  match snd (fst p) with None => false | Some y => negb (Qle_bool (lower (snd p)) y) || negb (Qle_bool y (upper (snd p))) end.
Definition remove_outliers (s : series) (f : list fcst) : series := map fst (filter (fun p => negb (outside p)) (combine s f)).
(** _validate_saturation_range — prophet_detector.py:758-777 *)
Definition valid_saturation (l : option (list Q)) : bool :=
  match l with None | Some [] => true | Some [a; b] => negb (Qle_bool b a) | Some _ => false end.
Inductive growth := Linear | Flat | Logistic.
(** the growth used — prophet_detector.py:455-460 *)
Definition growth_used (g : growth) (saturation : option (list Q)) : growth := match saturation with Some (_ :: _) => Logistic | _ => g end.
(** the data fitted on — prophet_detector.py:519-544: ranges are left out, and a series of outliers' forecasts removed; [None] raises.
    prophet's own fit raises for logistic growth without a capacity, which the frame has only with a saturation range *)
Definition training (g : growth) (saturation : option (list Q)) (excluded : option (list (list (option Z)))) (forecast : option (list fcst)) (s : series) : option series :=
  let left := match excluded with None => Some s | Some r => match exclude_ranges s r with Some [] => None | o => o end end in
  match left with
  | None => None
  | Some l =>
    let kept := match forecast with None => l | Some f => remove_outliers l f end in
    match growth_used g saturation, saturation with
    | Logistic, (None | Some []) => None
    | _, _ => Some kept
    end
  end.

(** ** Prediction *)
Inductive score_function := Deviation | ZScore.
(** the name of a score function, [None] any other string — prophet_detector.py:421-427 *)
Definition score_of (name : option score_function) : score_function := match name with Some f => f | None => Deviation end.
(** uncertainty_samples — prophet_detector.py:437-440 *)
Definition samples_used (f : score_function) (n : nat) : nat := match f with ZScore => n | Deviation => 0 end.
(** the holidays of the user: a list of days, or a dictionary with the column ds *)
Inductive holidays := HList (days : list Z) | HDict (days : list Z).
Definition is_empty {A} (l : list A) : bool := match l with [] => true | _ => false end.
(** fit replaces a list by a dictionary — prophet_detector.py:550-566 *)
Definition after_fit (h : option holidays) : option holidays := match h with Some (HList (d :: r)) => Some (HDict (d :: r)) | _ => h end.
(** get_holiday_dates — prophet_detector.py:294-314: without a column ds it raises; [country] are the days of the country *)
Definition holiday_days (h : option holidays) (country : option (list Z)) : option (list Z) :=
  match h with
  | Some (HList (_ :: _)) => None
  | Some (HDict l) => Some (l ++ match country with Some c => c | None => [] end)
  | Some (HList []) | None => match country with Some c => Some c | None => None end
  end.
(** round(multiplier, 10) != 1.0 *)
Definition multiplies (m : option Q) : bool := match m with None => false | Some m => negb (Qle_bool (Qabs (m - 1)) (1 # 20000000000)) end.
Definition times_mult (m : Q) (s : option Q) : option Q := option_map (fun x => (x * m)%Q) s.
Definition weigh (m : option Q) (h : option holidays) (country : option (list Z)) (scores : list (Z * option Q)) : option (list (Z * option Q)) :=
  match m with
  | Some x => if multiplies m then
      match holiday_days h country with
      | None => None
      | Some days => Some (map (fun p => if existsb (Z.eqb (fst p / 86400)) days then (fst p, times_mult x (snd p)) else p) scores)
      end else Some scores
  | None => Some scores
  end.
(** predict — prophet_detector.py:589-687: [forecast] the fitted model's rows for the times, in order; [None] before fit *)
Record response := Response { scores : list (Z * option Q); predicted : list (Z * Q); band : list (Z * (Q * Q)) }.
Definition score (f : score_function) (z : z_version) (v : option Q) (x : fcst) : option Q :=
  match v with None => None | Some v => match f with Deviation => deviation v x | ZScore => Some (z_score z v x) end end.
Definition predict (f : score_function) (z : z_version) (n : nat) (m : option Q) (h : option holidays) (country : option (list Z))
    (fitted : option (list Z -> list fcst)) (data : series) : option response :=
  match fitted with
  | None => None
  | Some forecast =>
    let rows := combine data (forecast (map fst data)) in
    let raw := map (fun p => (fst (fst p), score f z (snd (fst p)) (snd p))) rows in
    match weigh m h country raw with
    | None => None
    | Some s => Some (Response s (map (fun p => (fst (fst p), yhat (snd p))) rows)
        (map (fun p => (fst (fst p), if samples_used f n =? 0 then (yhat (snd p), yhat (snd p)) else (lower (snd p), upper (snd p)))) rows))
    end
  end.

(** ** The trend detector *)
(** ProphetTrendDetectorModel.fit_predict — prophet_detector.py:819-848: prophet's changepoints are rows of its history, the rows with a
    value; their numbers there are used as rows of the data.  [deltas]: for each changepoint the shifts of all iterations *)
Definition put_at (i : nat) (v : Q) (l : list Q) : list Q := firstn i l ++ match skipn i l with [] => [] | _ :: r => v :: r end.
Definition mean_abs (l : list Q) : Q := Qabs (qsum l / inject_Z (Z.of_nat (length l))).
Definition trend_scores (n : nat) (changepoints : list (nat * list Q)) : list Q :=
  fold_left (fun out c => put_at (fst c) (mean_abs (snd c)) out) changepoints (repeat 0%Q n).
(** the number in the history of a row of the data *)
Definition history_row (v : list (option Q)) (i : nat) : nat := length (filter (fun o => match o with Some _ => true | None => false end) (firstn i v)).
(** fit with a history: TimeSeriesData.extend changes the history given — prophet_detector.py:519-524, consts.py:655-692 *)
Definition history_after_fit (history data : series) : series := history ++ data.
