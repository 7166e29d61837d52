(** kats/tsfeatures/tsfeatures.py: which features a TsFeatures object reports. *)
From Coq Require Import List String Bool.
Import ListNotations.
Open Scope string_scope.
Open Scope list_scope.

(** tsfeatures.py:124-242 (_FEATURE_GROUP_MAPPING). *)
Definition mapping : list (string * list string) :=
  [ ("stl_features", ["trend_strength"; "seasonality_strength"; "spikiness"; "peak"; "trough"]);
    ("level_shift_features", ["level_shift_idx"; "level_shift_size"]);
    ("acfpacf_features", ["y_acf1"; "y_acf5"; "diff1y_acf1"; "diff1y_acf5"; "diff2y_acf1"; "diff2y_acf5"; "y_pacf5"; "diff1y_pacf5"; "diff2y_pacf5"; "seas_acf1"; "seas_pacf1"]);
    ("special_ac", ["firstmin_ac"; "firstzero_ac"]);
    ("holt_params", ["holt_alpha"; "holt_beta"]);
    ("hw_params", ["hw_alpha"; "hw_beta"; "hw_gamma"]);
    ("statistics", ["length"; "mean"; "var"; "entropy"; "lumpiness"; "stability"; "flat_spots"; "hurst"; "std1st_der"; "crossing_points"; "binarize_mean"; "unitroot_kpss"; "heterogeneity"; "histogram_mode"; "linearity"]);
    ("cusum_detector", ["cusum_num"; "cusum_conf"; "cusum_cp_index"; "cusum_delta"; "cusum_llr"; "cusum_regression_detected"; "cusum_stable_changepoint"; "cusum_p_value"]);
    ("robust_stat_detector", ["robust_num"; "robust_metric_mean"]);
    ("bocp_detector", ["bocp_num"; "bocp_conf_max"; "bocp_conf_mean"]);
    ("outlier_detector", ["outlier_num"]);
    ("trend_detector", ["trend_num"; "trend_num_increasing"; "trend_avg_abs_tau"]);
    ("nowcasting", ["nowcast_roc"; "nowcast_ma"; "nowcast_mom"; "nowcast_lag"; "nowcast_macd"; "nowcast_macdsign"; "nowcast_macddiff"]);
    ("seasonalities", ["seasonal_period"; "trend_mag"; "seasonality_mag"; "residual_std"]);
    ("time", ["time_years"; "time_months"; "time_monthsofyear"; "time_weeks"; "time_weeksofyear"; "time_days"; "time_daysofyear"; "time_avg_timezone_offset"; "time_length_days"; "time_freq_Monday"; "time_freq_Tuesday"; "time_freq_Wednesday"; "time_freq_Thursday"; "time_freq_Friday"; "time_freq_Saturday"; "time_freq_Sunday"]) ].

(** tsfeatures.py:105-121 (_ALL_TS_FEATURES): the groups in the order in which they are computed; the parameter
    names are left out. *)
Definition method_order : list string :=
  [ "statistics"; "stl_features"; "level_shift_features"; "acfpacf_features"; "special_ac"; "holt_params"; "hw_params";
    "cusum_detector"; "robust_stat_detector"; "bocp_detector"; "outlier_detector"; "trend_detector"; "nowcasting";
    "seasonalities"; "time" ].

(** Python dictionaries from names to switches, as functions. *)
Notation dict := (string -> option bool).
Definition dset (d : dict) (k : string) (v : bool) : dict := fun k' => if String.eqb k' k then Some v else d k'.
Definition get_or (d : dict) (k : string) (default : bool) : bool := match d k with Some b => b | None => default end.
Definition of_kwargs (l : list (string * bool)) : dict :=
  fun k => match find (fun kv => String.eqb (fst kv) k) l with Some (_, v) => Some v | None => None end.

Definition mem (s : string) (l : list string) : bool := existsb (String.eqb s) l.
(** [f in g2f.keys()]. *)
Definition is_group (g : string) : bool := mem g (map fst mapping).
(** [g2f[g]]. *)
Definition members (g : string) : list string :=
  match find (fun p => String.eqb (fst p) g) mapping with Some (_, fs) => fs | None => [] end.
(** tsfeatures.py:365-369 (f2g): the group of a feature; no feature is listed twice. *)
Definition group_of (f : string) : option string :=
  match find (fun p => mem f (snd p)) mapping with Some (g, _) => Some g | None => None end.
(** tsfeatures.py:372-373, 393. *)
Definition known (f : string) : bool := match group_of f with Some _ => true | None => is_group f end.

(** One round of the loop of tsfeatures.py:392-418 on (kwargs, final_filter); None is the ValueError. *)
Definition opt_in_group (g : string) (st : dict * dict) : dict * dict :=
  fold_left (fun st feature => (dset (fst st) feature (get_or (fst st) feature true), dset (snd st) feature true))
    (members g) (dset (fst st) g true, snd st).
Definition select_one (st : dict * dict) (f : string) : option (dict * dict) :=
  if is_group f then Some (opt_in_group f st) else
  match group_of f with
  | None => None
  | Some g =>
      if negb (get_or (fst st) g true) then None else
      if negb (get_or (fst st) f true) then None else
      Some (dset (dset (fst st) g true) f true, dset (snd st) f true)
  end.
Fixpoint select_all (st : dict * dict) (sel : list string) : option (dict * dict) :=
  match sel with
  | [] => Some st
  | f :: sel' => match select_one st f with Some st' => select_all st' sel' | None => None end
  end.

(** What __init__ leaves on the object: the group switches, the final filter, the switches per feature and the
    default; the hyper-parameters are left out. *)
Record extractor := { switches : dict; group_default : string -> bool; final_filter : dict; extra_args : dict; default_status : bool }.

(** tsfeatures.py:434-441 (_set_defaults): the groups that are off unless asked for. *)
Definition off_by_default (g : string) : bool :=
  mem g ["cusum_detector"; "robust_stat_detector"; "bocp_detector"; "outlier_detector"; "trend_detector"; "nowcasting"; "seasonalities"; "time"].

(** tsfeatures.py:344-360, 381-423 (__init__, _compute_final_filter) on selected_features (None and the empty list
    alike are []) and the keyword switches; None is the ValueError. *)
Definition construct (sel : list string) (kwargs : list (string * bool)) : option extractor :=
  if negb (forallb known (map fst kwargs)) then None else
  let default := match sel with [] => true | _ => false end in
  let start : dict := fun k => match group_of k with Some _ => Some default | None => None end in
  match select_all (of_kwargs kwargs, start) sel with
  | None => None
  | Some (kw, ff) =>
      Some {| switches := kw;
              group_default := fun g => if off_by_default g then false else default;
              final_filter := fun k => match kw k with Some b => Some b | None => ff k end;
              extra_args := kw; default_status := default |}
  end.

(** tsfeatures.py:311-312, 467-487: the tables of methods belong to the class; every construction puts its own
    extra_args and default_status into all of them. *)
Definition tables := (dict * bool)%type.

(** The names and values a group calculator returns: statistics (725-735), stl_features (769-803) and nowcasting
    (1883-1900) return the features enabled in the tables; the others return all their names, the disabled ones as
    NaN. The flag says whether the value was computed. *)
Definition emits (t : tables) (g : string) : list (string * bool) :=
  if mem g ["statistics"; "stl_features"; "nowcasting"]
  then map (fun f => (f, true)) (filter (fun f => get_or (fst t) f (snd t)) (members g))
  else map (fun f => (f, get_or (fst t) f (snd t))) (members g).

(** tsfeatures.py:489-585 (transform, _transform_1d): the reported names, each with whether its value was computed,
    for a univariate series of at least five points. *)
Definition transform (t : tables) (e : extractor) : list (string * bool) :=
  filter (fun fv => get_or (final_filter e) (fst fv) false)
    (flat_map (fun g => if get_or (switches e) g (group_default e g) then emits t g else []) method_order).

(** A program that constructs extractors one after the other; failed constructions leave the tables alone. *)
Definition call := (list string * list (string * bool))%type.
Definition step (st : list (option extractor) * tables) (c : call) : list (option extractor) * tables :=
  match construct (fst c) (snd c) with
  | None => (fst st ++ [None], snd st)
  | Some e => (fst st ++ [Some e], (extra_args e, default_status e))
  end.
Definition run (h : list call) : list (option extractor) * tables := fold_left step h ([], (fun _ => None, true)).
(** What the i-th object constructed reports when all of the program has run; None if there is no such object. *)
Definition report (h : list call) (i : nat) : option (list (string * bool)) :=
  match nth_error (fst (run h)) i with
  | Some (Some e) => Some (transform (snd (run h)) e)
  | _ => None
  end.
