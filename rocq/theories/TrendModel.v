(** Model of the Mann-Kendall trend detector (kats/detectors/trend_mk.py).
    Times are integers (nanoseconds) in increasing order, values rationals; [None] is a missing value,
    or an exception at the outermost level.  The tests of pymannkendall are external: their statistics
    are written out (score, variance with ties, Tau), the normal tail and quantile are parameters.
    Statistics are carried as z*z, which decides |z| > quantile and determines the p-value. *)
From Verif Require Import Common.
From Coq Require Import String.
Open Scope Z_scope.

Definition day : Z := 86400000000000.
Inductive trend := Increasing | Decreasing | NoTrend.
Inductive direction := Up | Down | Both.
(** SEASON_FREQ_MAP — trend_mk.py:44-49; another name raises KeyError, None removes nothing *)
Inductive season := Daily | Weekly | Monthly | Yearly.
Definition season_days (s : season) : nat := match s with Daily => 1 | Weekly => 7 | Monthly => 30 | Yearly => 365 end.

(** the DataFrame: a time index and named columns *)
Record frame (V : Type) := Frame { f_times : list Z; f_cols : list (string * list V) }.
Arguments Frame {V}. Arguments f_times {V}. Arguments f_cols {V}.

(** ts.dropna(axis=1) — trend_mk.py:404: a column with a missing value is dropped *)
Fixpoint all_some (l : list (option Q)) : option (list Q) :=
  match l with
  | [] => Some []
  | Some x :: t => option_map (cons x) (all_some t)
  | None :: _ => None
  end.
Definition dropna (f : frame (option Q)) : frame Q :=
  Frame (f_times f)
        (flat_map (fun c => match all_some (snd c) with Some l => [(fst c, l)] | None => [] end) (f_cols f)).

(** _remove_seasonality — trend_mk.py:187-196: ts.rolling(window).mean(); the first window-1 rows are
    missing and are dropped again by _smoothing *)
Definition mean (l : list Q) : Q := (qsum l / inject_Z (Z.of_nat (List.length l)))%Q.
Definition rolling (w : nat) (l : list Q) : list Q :=
  map (fun i => mean (firstn w (skipn i l))) (seq 0 (List.length l + 1 - w)).
Definition deseason (s : option season) (f : frame Q) : frame Q :=
  match s with
  | None => f
  | Some s => let w := season_days s in
              Frame (skipn (w - 1) (f_times f)) (map (fun c => (fst c, rolling w (snd c))) (f_cols f))
  end.

Section Detector.
Variable init : list Q -> Q.          (* the initial level statsmodels chooses *)
Variable tail : Q -> Q.               (* p-value as a function of z*z *)
Variable crit : Q -> Q.               (* square of the normal quantile at 1 - alpha/2 *)

(** _smoothing — trend_mk.py:198-222: the in-sample predictions of simple exponential smoothing with
    level 0.2, which are one step ahead.  When the errors are all zero statsmodels' logarithm raises and
    the series is taken unchanged: it is its own prediction then.  Smoothing an empty column raises. *)
Fixpoint ses (level : Q) (l : list Q) : list Q :=
  match l with
  | [] => []
  | y :: t => level :: ses ((1 # 5) * y + (4 # 5) * level)%Q t
  end.
Definition smoothing (f : frame Q) : option (frame Q) :=
  match f_cols f with
  | [] => Some (Frame [] [])
  | cs => match f_times f with
          | [] => None
          | _ => Some (Frame (f_times f) (map (fun c => (fst c, ses (init (snd c)) (snd c))) cs))
          end
  end.

(** pymannkendall: __mk_score, __variance_s *)
Definition sgn (x y : Q) : Z := match Qcompare y x with Gt => 1 | Lt => -1 | Eq => 0 end.
Fixpoint zsum (l : list Z) : Z := match l with [] => 0 | x :: t => x + zsum t end.
Fixpoint score (l : list Q) : Z :=
  match l with [] => 0 | x :: t => zsum (map (sgn x) t) + score t end.
Fixpoint uniqueq (l : list Q) : list Q :=
  match l with [] => [] | x :: t => x :: filter (fun y => negb (Qeq_bool x y)) (uniqueq t) end.
Definition times_seen (x : Q) (l : list Q) : Z := Z.of_nat (List.length (filter (Qeq_bool x) l)).
Definition cubic (n : Z) : Z := n * (n - 1) * (2 * n + 5).
Definition variance (l : list Q) : Q :=
  inject_Z (cubic (Z.of_nat (List.length l)) - zsum (map (fun u => cubic (times_seen u l)) (uniqueq l))) / 18.
Definition pairs (l : list Q) : Q := inject_Z (Z.of_nat (List.length l) * (Z.of_nat (List.length l) - 1)) / 2.

(** z*z and the test — pymannkendall: __z_score, __p_value *)
Definition zsq (s : Z) (v : Q) : Q :=
  if s =? 0 then 0%Q else (inject_Z ((Z.abs s - 1) * (Z.abs s - 1)) / v)%Q.
Record mk := MK { k_trend : trend; k_p : Q; k_tau : Q }.
Definition decide (alpha : Q) (s : Z) (v d : Q) : mk :=
  let z := zsq s v in
  let h := negb (Qle_bool z (crit alpha)) in
  MK (if h then if 0 <? s then Increasing else if s <? 0 then Decreasing else NoTrend else NoTrend)
     (tail z) (inject_Z s / d)%Q.
(** original_test(x) and multivariate_test(x), alpha defaults to 0.05; fewer than two observations
    divide by zero *)
Definition original_test (x : list Q) : option mk :=
  if (List.length x <? 2)%nat then None else Some (decide (5 # 100) (score x) (variance x) (pairs x)).
Definition multivariate_test (xs : list (list Q)) : option mk :=
  if existsb (fun x => (List.length x <? 2)%nat) xs then None
  else Some (decide (5 # 100) (zsum (map score xs)) (qsum (map variance xs)) (qsum (map pairs xs))).

(** _apply_threshold — trend_mk.py:261-264 *)
Definition threshold_trend (threshold : Q) (k : mk) : mk :=
  if Qle_bool (Qabs (k_tau k)) threshold then MK NoTrend (k_p k) (k_tau k) else k.

(** _preprocessing — trend_mk.py:224-250: ts[-window_size:] *)
Definition last_rows (w : nat) (l : list Q) : list Q := if (w =? 0)%nat then l else skipn (List.length l - w) l.

(** one row of MK_statistics; the metrics of a multivariate test in the order of the columns *)
Record stat := Stat { s_ds : Z; s_all : mk; s_metrics : list (string * mk) }.
Fixpoint mapM {A B} (f : A -> option B) (l : list A) : option (list B) :=
  match l with
  | [] => Some []
  | x :: t => match f x, mapM f t with Some y, Some r => Some (y :: r) | _, _ => None end
  end.
(** MKtest, multivariate_MKtest, runDetector — trend_mk.py:266-369.  With a single column the
    multivariate test indexes a flat array in two dimensions and raises; without columns the index is
    empty and its last element raises.  The detector's alpha is not passed to the test. *)
Definition run_detector (multi : bool) (threshold : Q) (w : nat) (f : frame Q) : option stat :=
  match rev (f_times f), f_cols f with
  | t :: _, [c] =>
      if multi then None
      else option_map (fun k => Stat t (threshold_trend threshold k) []) (original_test (last_rows w (snd c)))
  | t :: _, cs =>
      if multi then
        match multivariate_test (map (fun c => last_rows w (snd c)) cs),
              mapM (fun c => option_map (fun k => (fst c, threshold_trend threshold k)) (original_test (last_rows w (snd c)))) cs with
        | Some k, Some ms => Some (Stat t (threshold_trend threshold k) ms)
        | _, _ => None
        end
      else None
  | [], _ => None
  end.

(** ts.loc[a:b] on the sorted index *)
Definition between (a b : Z) (f : frame Q) : frame Q :=
  let keep {A} (l : list A) : list A :=
    map snd (filter (fun p => (a <=? fst p) && (fst p <=? b)) (combine (f_times f) l)) in
  Frame (keep (f_times f)) (map (fun c => (fst c, keep (snd c))) (f_cols f)).
Definition upto (t : Z) (f : frame Q) : frame Q :=
  let keep {A} (l : list A) : list A := map snd (filter (fun p => fst p <=? t) (combine (f_times f) l)) in
  Frame (keep (f_times f)) (map (fun c => (fst c, keep (snd c))) (f_cols f)).

(** detector up to the statistics — trend_mk.py:398-468; alpha is the detector's attribute *)
Definition statistics (multi : bool) (threshold alpha : Q) (w : nat) (training : option nat)
    (s : option season) (data : frame (option Q)) : option (list stat) :=
  let ts := dropna data in
  let n := List.length (f_times ts) in
  match training with
  | None =>
      if (n <? w)%nat then None
      else match smoothing (deseason s ts) with
           | None => None
           | Some sm => mapM (fun t => run_detector multi threshold w (upto t sm)) (skipn w (f_times sm))
           end
  | Some d =>
      if (d <? w)%nat then None
      else if (n <? d)%nat then None
      else match rev (f_times ts) with
           | [] => None
           | last :: _ =>
               match smoothing (deseason s (between (last - Z.of_nat d * day) last ts)) with
               | None => None
               | Some sm => option_map (fun r => [r]) (run_detector multi threshold w sm)
               end
           end
  end.

(** get_MK_results — trend_mk.py:478-514.  For a multivariate series without any row the frame of the
    trends has no column "overall" and the lookup raises. *)
Definition wanted (d : direction) (t : trend) : bool :=
  match d, t with
  | Down, Decreasing | Up, Increasing => true
  | Both, Increasing | Both, Decreasing => true
  | _, _ => false
  end.
(** MKChangePoint — trend_mk.py:516-534: time, confidence, direction, Tau *)
Record change_point := CP { c_time : Z; c_confidence : Q; c_trend : trend; c_tau : Q }.
Definition detector (multi : bool) (threshold alpha : Q) (w : nat) (training : option nat)
    (d : direction) (s : option season) (data : frame (option Q)) : option (list change_point) :=
  match statistics multi threshold alpha w training s data with
  | None => None
  | Some st =>
      if multi && match st with [] => true | _ => false end then None
      else Some (map (fun r => CP (s_ds r) (1 - k_p (s_all r)) (k_trend (s_all r)) (k_tau (s_all r)))
                     (filter (fun r => wanted d (k_trend (s_all r))) st))
  end.

(** get_top_k_metrics — trend_mk.py:542-592, 628-645: the metrics at a time point, sorted by Tau ("down"),
    descending Tau ("up") or descending |Tau| ("both"); ties in the order of the metrics.  In the
    anchor mode the time point is replaced by the last time. *)
Definition rank (d : direction) (k : mk) : Q :=
  match d with Down => k_tau k | Up => - k_tau k | Both => - Qabs (k_tau k) end%Q.
Fixpoint insert_by {A} (f : A -> Q) (x : A) (l : list A) : list A :=
  match l with
  | [] => [x]
  | y :: t => if Qle_bool (f x) (f y) then x :: l else y :: insert_by f x t
  end.
Definition sort_by {A} (f : A -> Q) (l : list A) : list A := fold_right (insert_by f) [] l.
Definition top_metrics (d : direction) (training : option nat) (last time_point : Z) (top : option nat)
    (st : list stat) : list (string * mk) :=
  let tp := match training with Some _ => last | None => time_point end in
  let ms := flat_map s_metrics (filter (fun r => s_ds r =? tp) st) in
  let sorted := sort_by (fun m => rank d (snd m)) ms in
  match top with None => sorted | Some k => firstn k sorted end.
End Detector.
