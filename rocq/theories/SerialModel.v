(** Saving and loading the parameters of detector models: the methods serialize and the branch "if serialized_model" of
    the constructors.

    A serialised model is the JSON object itself (its encoding as bytes is left out).  Python values that are written are
    None, booleans, numbers (rationals here), strings, lists and tuples; enumerations based on str are written as their text;
    other enumerations and objects (pandas series, parameter objects) make json.dumps raise. *)
From Coq Require Import List String Ascii QArith Bool Arith.
Import ListNotations.
Open Scope string_scope.
Open Scope list_scope.

Inductive pyval :=
| VNone | VBool (b : bool) | VNum (q : Q) | VStr (s : string) | VList (l : list pyval) | VTuple (l : list pyval)
| VStrEnum (value : string) | VEnum (value : string) | VObject.
Inductive json := JNull | JBool (b : bool) | JNum (q : Q) | JStr (s : string) | JArr (l : list json).
Notation object := (list (string * json)).
Notation attrs := (list (string * pyval)).
(** json.dumps and json.loads *)
Fixpoint dumps (v : pyval) : option json :=
  let all := fix all (l : list pyval) : option (list json) :=
    match l with
    | [] => Some []
    | x :: l => match dumps x, all l with Some j, Some js => Some (j :: js) | _, _ => None end
    end in
  match v with
  | VNone => Some JNull | VBool b => Some (JBool b) | VNum q => Some (JNum q) | VStr s => Some (JStr s) | VStrEnum s => Some (JStr s)
  | VList l | VTuple l => option_map JArr (all l)
  | VEnum _ | VObject => None
  end.
Fixpoint loads (j : json) : pyval :=
  match j with
  | JNull => VNone | JBool b => VBool b | JNum q => VNum q | JStr s => VStr s
  | JArr l => VList (map loads l)
  end.
Fixpoint dumps_dict (d : attrs) : option object :=
  match d with
  | [] => Some []
  | (k, v) :: d => match dumps v, dumps_dict d with Some j, Some o => Some ((k, j) :: o) | _, _ => None end
  end.
Definition loads_dict (o : object) : attrs := map (fun p => (fst p, loads (snd p))) o.
(** d[k] (KeyError is None) and d.get(k, default) *)
Fixpoint item (d : attrs) (k : string) : option pyval :=
  match d with [] => None | (k', v) :: d => if String.eqb k' k then Some v else item d k end.
Definition get (d : attrs) (k : string) (default : pyval) : pyval := match item d k with Some v => v | None => default end.
Notation "'let*' x := a 'in' b" := (match a with Some x => b | None => None end) (at level 200, x name, b at level 200).
Definition is_none (v : pyval) : bool := match v with VNone => true | _ => false end.

(** ** StatSigDetectorModel — stat_sig_detector.py:92-197 *)
Record statsig := StatSig { n_control : pyval; n_test : pyval; time_unit : pyval; rem_season : pyval; seasonal_period : pyval;
  use_corrected : pyval; max_split : pyval; scores_only : pyval; min_perc : pyval }.
Definition statsig_defaults : statsig :=
  StatSig VNone VNone VNone (VBool false) (VStr "weekly") (VBool true) (VNum 500) (VBool false) (VNum 0).
Section Units.
(** pd.Timedelta(s) and pd.Timedelta(1, unit=s) accept the string *)
Variables timedelta_ok unit_ok : string -> bool.
Definition check_unit (v : pyval) : option pyval :=
  match v with
  | VNone => Some VNone
  | VStr s => if timedelta_ok s then Some v
              else if unit_ok s && timedelta_ok ("1" ++ s) then Some (VStr ("1" ++ s)) else None
  | _ => None
  end.
(** the arguments come as the record of the values passed, defaults filled in *)
Definition statsig_init (serialized : option object) (a : statsig) : option statsig :=
  let* m := match serialized with
    | Some o =>
        let d := loads_dict o in
        let* nt := item d "n_test" in
        let* nc := item d "n_control" in
        let* tu := item d "time_unit" in
        Some (StatSig nc nt tu (get d "rem_season" (rem_season a)) (get d "seasonal_period" (seasonal_period a))
                (get d "use_corrected_scores" (use_corrected a)) (get d "max_split_ts_length" (max_split a))
                VNone (get d "min_perc_change" (min_perc a)))
    | None => Some (StatSig (n_control a) (n_test a) (time_unit a) (rem_season a) (seasonal_period a) (use_corrected a) (max_split a) VNone (min_perc a))
    end in
  if is_none (n_control m) || is_none (n_test m) then None
  else let* tu := check_unit (time_unit m) in
    Some (StatSig (n_control m) (n_test m) tu (rem_season m) (seasonal_period m) (use_corrected m) (max_split m) (scores_only a) (min_perc m)).
Definition statsig_serialize (m : statsig) : option object :=
  dumps_dict [("n_control", n_control m); ("n_test", n_test m); ("time_unit", time_unit m); ("rem_season", rem_season m);
    ("seasonal_period", seasonal_period m); ("use_corrected_scores", use_corrected m); ("max_split_ts_length", max_split m);
    ("min_perc_change", min_perc m)].
(** MultiStatSigDetectorModel — stat_sig_detector.py:998-1025; it inherits serialize *)
Record multi := Multi { base : statsig; method : pyval; skip_rescaling : pyval }.
Definition multi_init (serialized : option object) (a : multi) : option multi :=
  let b := base a in
  let* m := statsig_init serialized (StatSig (n_control b) (n_test b) (time_unit b) (rem_season b) (seasonal_period b)
      (use_corrected statsig_defaults) (max_split statsig_defaults) (scores_only statsig_defaults) (min_perc b)) in
  Some (Multi (StatSig (n_control m) (n_test m) (time_unit m) (rem_season m) (seasonal_period m) (use_corrected b) (max_split m) (scores_only m) (min_perc m))
              (method a) (skip_rescaling a)).
Definition multi_serialize (m : multi) : option object := statsig_serialize (base m).
End Units.

(** ** RollingStatsModel — rolling_stats_model.py:30-54, 219-288 *)
Definition lower_char (c : ascii) : ascii :=
  let n := nat_of_ascii c in if (65 <=? n)%nat && (n <=? 90)%nat then ascii_of_nat (n + 32) else c.
Fixpoint lower (s : string) : string := match s with EmptyString => EmptyString | String c s => String (lower_char c) (lower s) end.
Definition roll_functions := ["iqr"; "mad"; "z_score"; "modified_z_score_mad"; "modified_z_score_iqr"; "iqr_median_deviation"].
Definition roll_seasons := ["hourly"; "daily"; "weekly"; "biweekly"; "monthly"; "yearly"].
Definition mem (s : string) (l : list string) : bool := existsb (String.eqb s) l.
Record rolling := Rolling { roll_window : pyval; statistics : pyval; remove_seasonality : pyval; point_based : pyval;
  seasonality_period : pyval; score_base : pyval; iqr_base : pyval; allow_expanding : pyval }.
(** the attribute .value *)
Definition value_of (v : pyval) : option string := match v with VStrEnum s | VEnum s => Some s | _ => None end.
Definition rolling_init (serialized : option object) (a : rolling) : option (rolling * bool) :=
  let* m := match serialized with
    | Some o =>
        let d := loads_dict o in
        let* w := item d "rolling_window" in let* st := item d "statistics" in let* rs := item d "remove_seasonality" in
        let* pb := item d "point_based" in let* sp := item d "seasonality_period" in let* sb := item d "score_base" in
        let* ib := item d "iqr_base" in let* ae := item d "allow_expanding_window" in
        Some (Rolling w st rs pb sp sb ib ae)
    | None =>
        let st := match statistics a with
                  | VStr s => if mem (lower s) roll_functions then VStrEnum (lower s) else VStrEnum "z_score"
                  | v => v
                  end in
        match seasonality_period a with
        | VStr p => if mem p roll_seasons then Some (Rolling (roll_window a) st (remove_seasonality a) (point_based a) (VStr p) (score_base a) (iqr_base a) (allow_expanding a)) else None
        | _ => None
        end
    end in
  let* v := value_of (statistics m) in
  Some (m, negb (mem v ["mad"; "iqr"])).
Definition rolling_serialize (m : rolling * bool) : option object :=
  let (m, e) := m in
  dumps_dict [("rolling_window", roll_window m); ("statistics", statistics m); ("remove_seasonality", remove_seasonality m); ("point_based", point_based m);
    ("allow_expanding_window", allow_expanding m); ("seasonality_period", seasonality_period m); ("score_base", score_base m); ("iqr_base", iqr_base m);
    ("extend_rolling_window", VBool e)].

(** ** BocpdDetectorModel, BocpdTrendDetectorModel — bocpd_model.py:41-76, 193-207 *)
Record bocpd := Bocpd { slow_drift : pyval; threshold : pyval }.
Definition bocpd_init (serialized : option object) (a : bocpd) : option bocpd :=
  match serialized with
  | None => Some a
  | Some o => let d := loads_dict o in Some (Bocpd (get d "slow_drift" (slow_drift a)) (get d "threshold" (threshold a)))
  end.
Definition bocpd_serialize (m : bocpd) : option object := dumps_dict [("slow_drift", slow_drift m)].
Record bocpd_trend := BocpdTrend { alpha_t : pyval; beta_t : pyval }.
Definition bocpd_trend_serialize (m : bocpd_trend) : option object := dumps_dict [("slow_drift", VBool true)].

(** ** CUSUMDetectorModel — cusum_model.py:181-317.  The parameters and the state *)
Record cusum_params := CusumParams { scan_window : pyval; historical_window : pyval; step_window : pyval; c_threshold : pyval; delta_std_ratio : pyval;
  magnitude_quantile : pyval; magnitude_ratio : pyval; change_directions : pyval; score_func : pyval; c_remove_seasonality : pyval;
  season_period_freq : pyval; adapted_pre_mean : pyval }.
Record cusum_state := CusumState { cps : pyval; alert_fired : pyval; pre_mean : pyval; pre_std : pyval; number_of_normal_scan : pyval; alert_change_direction : pyval }.
Record cusum := Cusum { c_params : cusum_params; c_vectorized : pyval; c_state : cusum_state; trans_flag : pyval }.
Definition truthy (v : pyval) : bool := match v with VNone | VBool false => false | _ => true end.
Definition score_functions := ["change"; "percentage_change"; "z_score"].
Definition score_value (v : pyval) : option pyval :=
  match v with
  | VStr s => Some (VStr (if mem s score_functions then s else "change"))
  | VEnum s => Some (VStr s)
  | _ => None
  end.
Definition directions (v : pyval) : pyval := match v with VStr s => VList [VStr s] | _ => v end.
Definition load_params (d : attrs) (a : cusum_params) : option cusum_params :=
  let* sw := item d "scan_window" in let* hw := item d "historical_window" in let* st := item d "step_window" in let* th := item d "threshold" in
  let* ds := item d "delta_std_ratio" in let* mq := item d "magnitude_quantile" in let* mr := item d "magnitude_ratio" in let* cd := item d "change_directions" in
  let* sf := item d "score_func" in
  Some (CusumParams sw hw st th ds mq mr cd sf (get d "remove_seasonality" (c_remove_seasonality a)) (get d "season_period_freq" (VStr "daily"))
          (if is_none (adapted_pre_mean a) then get d "adapted_pre_mean" (VBool false) else adapted_pre_mean a)).
Definition new_params (a : cusum_params) : option cusum_params :=
  if is_none (scan_window a) || is_none (historical_window a) then None
  else let* sf := score_value (score_func a) in
    Some (CusumParams (scan_window a) (historical_window a) (step_window a) (c_threshold a) (delta_std_ratio a) (magnitude_quantile a) (magnitude_ratio a)
            (directions (change_directions a)) sf (c_remove_seasonality a) (season_period_freq a)
            (if truthy (adapted_pre_mean a) then adapted_pre_mean a else VBool false)).
Definition cusum_init (serialized : option object) (a : cusum_params) (vectorized : pyval) : option cusum :=
  match serialized with
  | Some o =>
      let d := loads_dict o in
      let* c := item d "cps" in let* af := item d "alert_fired" in let* pm := item d "pre_mean" in let* ps := item d "pre_std" in
      let* nn := item d "number_of_normal_scan" in let* ad := item d "alert_change_direction" in
      let* p := load_params d a in
      Some (Cusum p (if is_none vectorized then get d "vectorized" (VBool false) else vectorized) (CusumState c af pm ps nn ad) (VBool false))
  | None =>
      let* p := new_params a in
      Some (Cusum p (if truthy vectorized then vectorized else VBool false) (CusumState (VList []) (VBool false) (VNum 0) (VNum 1) (VNum 0) VNone) (VBool false))
  end.
(** __dict__ *)
Definition params_dict (p : cusum_params) : attrs :=
  [("scan_window", scan_window p); ("historical_window", historical_window p); ("step_window", step_window p); ("threshold", c_threshold p);
   ("delta_std_ratio", delta_std_ratio p); ("magnitude_quantile", magnitude_quantile p); ("magnitude_ratio", magnitude_ratio p);
   ("change_directions", change_directions p); ("remove_seasonality", c_remove_seasonality p); ("season_period_freq", season_period_freq p);
   ("score_func", score_func p); ("adapted_pre_mean", adapted_pre_mean p)].
Definition state_dict (s : cusum_state) : attrs :=
  [("cps", cps s); ("alert_fired", alert_fired s); ("pre_mean", pre_mean s); ("pre_std", pre_std s);
   ("number_of_normal_scan", number_of_normal_scan s); ("alert_change_direction", alert_change_direction s)].
Definition cusum_serialize (m : cusum) : option object :=
  dumps_dict (state_dict (c_state m) ++ params_dict (c_params m) ++ [("vectorized", c_vectorized m); ("vectorized_trans_flag", trans_flag m)]).
(** VectorizedCUSUMDetectorModel — cusum_model.py:1107-1209, 1520-1537: the state exists after the first use only, as pandas
    series and lists of change points; serialize is inherited *)
Record vcusum := VCusum { v_params : cusum_params; v_state : option (cusum_state * pyval) }.
Definition fitted_state : cusum_state := CusumState (VList []) VObject VObject VObject VObject VObject.
Definition vcusum_init (serialized : option object) (a : cusum_params) : option vcusum :=
  match serialized with
  | Some o =>
      let d := loads_dict o in
      let* c := item d "cps" in let* meta := item d "cps_meta" in let* af := item d "alert_fired" in let* pm := item d "pre_mean" in let* ps := item d "pre_std" in
      let* nn := item d "number_of_normal_scan" in let* ad := item d "alert_change_direction" in
      let* p := load_params d a in
      Some (VCusum p (Some (CusumState c af pm ps nn ad, meta)))
  | None => let* p := new_params a in Some (VCusum p None)
  end.
Definition vcusum_serialize (m : vcusum) : option object :=
  dumps_dict (("serialized_model", VNone) :: params_dict (v_params m) ++
    match v_state m with Some (s, meta) => state_dict s ++ [("cps_meta", meta)] | None => [] end).

(** ** DistributionDistanceModel — distribution_distance_model.py:30-53, 183-219 *)
Record distance := Distance { window_size_sec : pyval; distance_metric : pyval; jsd_base : pyval; validate_monotonic : pyval }.
Definition metrics := ["braycurtis"; "canberra"; "chebyshev"; "cityblock"; "correlation"; "cosine"; "dice"; "euclidean"; "hamming"; "jaccard";
  "jensenshannon"; "kulsinski"; "kulczynski1"; "mahalanobis"; "minkowski"; "rogerstanimoto"; "russellrao"; "seuclidean"; "sokalmichener";
  "sokalsneath"; "sqeuclidean"; "yule"].
Definition distance_init (serialized : option object) (a : distance) : option distance :=
  match serialized with
  | Some o =>
      let d := loads_dict o in
      let* w := item d "window_size_sec" in let* m := item d "distance_metric" in let* b := item d "jsd_base" in let* v := item d "validate_monotonic" in
      Some (Distance w m b v)
  | None =>
      match distance_metric a, jsd_base a with
      | VStr s, VNum q =>
          if mem s metrics then Some (Distance (window_size_sec a) (VStr s) (VNum (if Qle_bool q 2 then 2 else q))
            (VBool (if String.eqb s "jensenshannon" then true else truthy (validate_monotonic a)))) else None
      | _, _ => None
      end
  end.
Definition distance_serialize (m : distance) : option object :=
  dumps_dict [("window_size_sec", window_size_sec m); ("distance_metric", distance_metric m); ("jsd_base", jsd_base m); ("validate_monotonic", validate_monotonic m)].

(** ** IntervalDetectorModel and its two sample subclasses — interval_detector.py:247-257, 415-430, 440-446, 467-495, 538-560,
    1441-1482 *)
Definition test_types := ["one_sided_lower"; "one_sided_upper"; "two_sided"].
Definition test_statistics := ["absolute_difference"; "relative_difference"].
Record interval := Interval { i_alpha : pyval; duration : pyval; test_type : pyval; test_statistic : option pyval }.
(** the setters *)
Definition set_alpha (v : pyval) : option pyval := match v with VNum q => if Qle_bool 0 q && Qle_bool q 1 then Some v else None | _ => None end.
Definition set_duration (v : pyval) : option pyval := match v with VNone => Some v | VNum q => if Qle_bool q 0 then None else Some v | _ => None end.
(** an Enum class called with a value *)
Definition enum_of (values : list string) (v : pyval) : option pyval := match v with VStr s => if mem s values then Some (VEnum s) else None | _ => None end.
Definition set_enum (values : list string) (v : pyval) : option pyval := match v with VEnum s => if mem s values then Some v else None | _ => None end.
Definition interval_init (serialized : option object) (a : interval) : option interval :=
  match serialized with
  | Some o =>
      let d := loads_dict o in
      let* al := item d "alpha" in let* al := set_alpha al in
      let* du := item d "duration" in let* du := set_duration du in
      let* tt := item d "test_type" in let* tt := enum_of test_types tt in let* tt := set_enum test_types tt in
      match test_statistic a with
      | None => Some (Interval al du tt None)
      | Some _ => let* ts := item d "test_statistic" in let* ts := enum_of test_statistics ts in let* ts := set_enum test_statistics ts in Some (Interval al du tt (Some ts))
      end
  | None =>
      let* al := set_alpha (i_alpha a) in let* du := set_duration (duration a) in let* tt := set_enum test_types (test_type a) in
      match test_statistic a with
      | None => Some (Interval al du tt None)
      | Some ts => let* ts := set_enum test_statistics ts in Some (Interval al du tt (Some ts))
      end
  end.
Definition interval_serialize (m : interval) : option object :=
  let* tt := value_of (test_type m) in
  match test_statistic m with
  | None => dumps_dict [("alpha", i_alpha m); ("duration", duration m); ("test_type", VStr tt)]
  | Some ts => let* s := value_of ts in dumps_dict [("alpha", i_alpha m); ("duration", duration m); ("test_type", VStr tt); ("test_statistic", VStr s)]
  end.

(** ** OutlierDetectorModel — outlier_detector.py:41-64 *)
Record outlier := Outlier { decomp : pyval; iqr_mult : pyval }.
Definition outlier_init (serialized : option object) (a : outlier) : option outlier :=
  match serialized with
  | Some o => let d := loads_dict o in let* c := item d "decomp" in let* k := item d "iqr_mult" in Some (Outlier c k)
  | None => Some a
  end.
Definition outlier_serialize (m : outlier) : option object := dumps_dict [("decomp", decomp m); ("iqr_mult", iqr_mult m)].
(** ** MultivariateAnomalyDetectorModel — multivariate_detector.py:42-80: params is an object, model_type an enumeration *)
Record multivariate := Multivariate { training_days : pyval }.
Definition multivariate_serialize (m : multivariate) : option object :=
  dumps_dict [("params", VObject); ("training_days", training_days m); ("model_type", VEnum "var.VARModel")].
(** ** ProphetDetectorModel, ProphetTrendDetectorModel, StaticThresholdModel — prophet_detector.py:405-470, 785-808,
    threshold_detector.py:31-49: only the Prophet object is written; model_to_json raises for None *)
Section Prophet.
Variables prophet text params : Type.
Variable model_to_json : prophet -> text.
Variable model_from_json : text -> prophet.
Record prophet_detector := ProphetDetector { p_params : params; p_model : option prophet }.
Definition prophet_init (serialized : option text) (a : params) : prophet_detector :=
  ProphetDetector a (match serialized with Some t => Some (model_from_json t) | None => None end).
Definition prophet_serialize (m : prophet_detector) : option text := option_map model_to_json (p_model m).
(** StaticThresholdModel never fits a Prophet model *)
Definition static_init (serialized : option text) : option prophet := match serialized with Some t => Some (model_from_json t) | None => None end.
Definition static_serialize (m : option prophet) : option text := option_map model_to_json m.
End Prophet.
