(** Post-processing of anomaly scores — kats/detectors/anomaly_postprocessing.py.

    Times are in seconds; scores are rationals without missing values; the score series is non-empty with one score per
    time.  The anomaly types are in PostTypeModel.v; plots are not modelled.  (The module imports kats.detectors.utils, which is
    not in the repository.) *)
From Coq Require Import List ZArith QArith Qabs Bool.
From Verif Require Import Common.
Import ListNotations.
Open Scope list_scope.
Open Scope Q_scope.

Inductive direction := Up | Down | Both.
Record post_params := Post { low : Q; high : Q; dir : direction; window_sec : Z; fraction : Q }.
(** the defaults — anomaly_postprocessing.py:86-111 *)
Definition post_default : post_params := Post (-2) 2 Both 1 1.
Definition ltq (x y : Q) : bool := negb (Qle_bool y x).
(** _crossed_threshold_df — anomaly_postprocessing.py:118-136 *)
Definition crossed (p : post_params) (x : Q) : bool :=
  match dir p with
  | Up => ltq (high p) x
  | Down => ltq x (low p)
  | Both => ltq x (low p) || ltq (high p) x
  end.
(** _start_alert_function — anomaly_postprocessing.py:138-162: the mean over the rows of the window (t - w, t], compared
    with the fraction; no alert in the first w seconds *)
Definition ratio (l : list bool) : Q := qsum (map b2q l) / inject_Z (Z.of_nat (List.length l)).
Definition alert_at (p : post_params) (rows : list (Z * Q)) (i : nat) : bool :=
  let t := fst (nth i rows (0%Z, 0)) in
  let window := filter (fun r => (t - window_sec p <? fst r)%Z) (firstn (S i) rows) in
  Qle_bool (fraction p) (ratio (map (fun r => crossed p (snd r)) window))
  && (fst (nth 0 rows (0%Z, 0%Q)) + window_sec p <=? t)%Z.
Definition alerts (p : post_params) (rows : list (Z * Q)) : list (Z * bool) :=
  map (fun i => (fst (nth i rows (0%Z, 0%Q)), alert_at p rows i)) (seq 0 (List.length rows)).
(** IntervalAnomaly(start, end) — consts.py:1298-1311 *)
Definition interval (s e : Z) : option (Z * Z) := if (e <=? s)%Z then None else Some (s, e).
(** the loop of _get_anomaly_intervals_prelim — anomaly_postprocessing.py:187-196, 226-231: [cp] is the start of the open
    alert, [last] the last time *)
Fixpoint walk (last : Z) (rows : list (Z * bool)) (cp : option Z) : option (list (Z * Z)) :=
  match rows with
  | [] => match cp with
          | Some s => if (s <? last)%Z then option_map (fun iv => [iv]) (interval s last) else Some []
          | None => Some []
          end
  | (t, true) :: rows => walk last rows (match cp with None => Some t | Some s => Some s end)
  | (t, false) :: rows =>
      match cp with
      | None => walk last rows None
      | Some s => match interval s t, walk last rows None with
                  | Some iv, Some rest => Some (iv :: rest)
                  | _, _ => None
                  end
      end
  end.
(** get_anomaly_intervals — anomaly_postprocessing.py:259-264 *)
Definition get_intervals (p : post_params) (rows : list (Z * Q)) : option (list (Z * Z)) :=
  match rows with
  | [] => None
  | _ => walk (fst (last rows (0%Z, 0))) (alerts p rows) None
  end.

Definition qmax0 (x : Q) : Q := if Qle_bool 0 x then x else 0.
Definition qmaxp (x y : Q) : Q := if Qle_bool x y then y else x.
Fixpoint qmaxl (x : Q) (l : list Q) : Q := match l with [] => x | y :: l => qmaxp x (qmaxl y l) end.
Definition lmax (l : list Q) : Q := match l with [] => 0 | x :: l => qmaxl x l end.
(** the scores of an interval relative to the thresholds, and the magnitude — anomaly_postprocessing.py:177-182, 198-222 *)
Definition itv_scores (rows : list (Z * Q)) (iv : Z * Z) : list Q :=
  map snd (filter (fun r => (fst iv <=? fst r)%Z && (fst r <=? snd iv)%Z) rows).
Definition excess (p : post_params) (x : Q) : Q :=
  match dir p with
  | Up => x - high p
  | Down => - x + low p
  | Both => qmaxp (qmax0 (x - high p)) (qmax0 (- x + low p))
  end.
Definition eps : Q := 1 # 100000000.
Definition nonzero_high (p : post_params) : Q := if Qeq_bool (high p) 0 then high p + eps else high p.
Definition nonzero_low (p : post_params) : Q := if Qeq_bool (low p) 0 then low p - eps else low p.
Definition magnitude (p : post_params) (xs : list Q) : Q :=
  match dir p with
  | Up => Qabs (lmax (map (fun x => x - high p) xs) / nonzero_high p)
  | Down => Qabs (lmax (map (fun x => - x + low p) xs) / nonzero_low p)
  | Both => qmaxp (Qabs (lmax (map (fun x => qmax0 (x - high p)) xs) / nonzero_high p))
                  (Qabs (lmax (map (fun x => qmax0 (- x + low p)) xs) / nonzero_low p))
  end.
Record severity := Sev { total_sec : Q; volume : Q; height : Q; mag : Q }.
(** get_severity_score_df — anomaly_postprocessing.py:272-285 *)
Definition severity_of (p : post_params) (rows : list (Z * Q)) (iv : Z * Z) : severity :=
  let xs := itv_scores rows iv in
  let sc := map (excess p) xs in
  let total := inject_Z (snd iv - fst iv) in
  let n := (List.length sc - 1)%nat in
  let vol := qsum (map (fun s => total / inject_Z (Z.of_nat n) * s) (removelast sc)) in
  Sev total vol (if Qeq_bool total 0 then 0 else vol / total) (magnitude p xs).
Definition severities (p : post_params) (rows : list (Z * Q)) : option (list severity) :=
  option_map (map (severity_of p rows)) (get_intervals p rows).
Record overall := Overall { number : nat; volume_all : Q; duration : Q; height_all : Q; mag_all : Q }.
(** get_overall_severity_score — anomaly_postprocessing.py:310-342: max() of no alerts raises *)
Definition get_overall (p : post_params) (rows : list (Z * Q)) : option overall :=
  match severities p rows with
  | None | Some [] => None
  | Some sv =>
      let v := qsum (map volume sv) in
      let d := qsum (map total_sec sv) in
      Some (Overall (List.length sv) v d (if Qeq_bool d 0 then 0 else v / d) (lmax (map mag sv)))
  end.
