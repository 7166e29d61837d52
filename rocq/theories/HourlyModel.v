(** Model of the hourly ratio detector (kats/detectors/hourly_ratio_detection.py).

    Time stamps are nanoseconds since 1970-01-01, without a time zone; values are exact rationals,
    [None] is NaN.  Exceptions are [None].  The robust covariance estimate (scikit-learn's MinCovDet)
    and the tail of the chi-square distribution are parameters.  Not modelled: plotting, logging,
    the choice of a frequency by [infer_freq_robust] (the frequency is an input). *)
From Verif Require Import Common.
From Verif Require TSDataModel MetricsModel.
Open Scope Z_scope.

Definition hour_ns : Z := 3600000000000.
Definition day_ns : Z := 86400000000000.

(** the frequency: a string, "H" or another one, or a Timedelta in nanoseconds *)
Inductive frequency := Hourly | Named | Delta (ns : Z).
Inductive aggregation := Min | Max | Sum | Mean.

(** _valid_frequency — hourly_ratio_detection.py:75-117.  An unknown aggregation name is not
    modelled (it raises here, unless the frequency is hourly). *)
Definition valid_frequency (f : frequency) (agg : option aggregation) : bool :=
  match f with
  | Hourly => true
  | Named => match agg with None => false | Some _ => true end
  | Delta n => if n =? hour_ns then true
               else if n <? hour_ns then match agg with None => false | Some _ => true end
               else false
  end.

Record hrow := HRow { h_date : Z; h_hour : Z; h_val : Q }.
(** dropna, sort_values("time"), .dt.date, .dt.hour — hourly_ratio_detection.py:126-130 *)
Definition dropna (data : list (Z * option Q)) : list (Z * Q) :=
  flat_map (fun r => match snd r with Some v => [(fst r, v)] | None => [] end) data.
Definition row_of (r : Z * Q) : hrow := HRow (fst r / day_ns) (fst r mod day_ns / hour_ns) (snd r).
(** .dt.weekday: Monday is 0; day 0 is a Thursday — hourly_ratio_detection.py:131 *)
Definition weekday (d : Z) : Z := (d + 3) mod 7.

(** Series.unique *)
Fixpoint uniq {A} (eqb : A -> A -> bool) (l : list A) : list A :=
  match l with [] => [] | x :: t => x :: filter (fun y => negb (eqb x y)) (uniq eqb t) end.

Definition qmin (x y : Q) : Q := if Qle_bool x y then x else y.
Definition qmax (x y : Q) : Q := if Qle_bool x y then y else x.
Definition apply_agg (a : aggregation) (l : list Q) : Q :=
  match a, l with
  | Min, x :: t => fold_left qmin t x
  | Max, x :: t => fold_left qmax t x
  | Sum, _ => qsum l
  | Mean, _ => (qsum l / inject_Z (Z.of_nat (length l)))%Q
  | _, [] => 0%Q
  end.
(** groupby(["date","hour","weekday"])["value"].agg(...) — hourly_ratio_detection.py:133-138.  The
    groups come in the order of the keys, which is that of the rows, sorted by time. *)
Definition key (r : hrow) : Z * Z := (h_date r, h_hour r).
Definition key_eqb (a b : Z * Z) : bool := (fst a =? fst b) && (snd a =? snd b).
Definition grouped (a : aggregation) (l : list hrow) : list hrow :=
  map (fun k => HRow (fst k) (snd k) (apply_agg a (map h_val (filter (fun r => key_eqb (key r) k) l))))
      (uniq key_eqb (map key l)).

Definition of_date (d : Z) (r : hrow) : bool := h_date r =? d.
Definition count (d : Z) (l : list hrow) : nat := length (filter (of_date d) l).
(** the table with its hourly ratios: [None] where the day's sum is zero (0/0 or x/0) *)
Record ratio_row := RRow { r_row : hrow; r_ratio : option Q }.
Definition ratio (l : list hrow) (r : hrow) : option Q :=
  let s := qsum (map h_val (filter (of_date (h_date r)) l)) in
  if Qeq_bool s 0 then None else Some (h_val r / s)%Q.

(** _preprocess — hourly_ratio_detection.py:119-157: the incomplete dates and the table *)
Definition prepared (f : frequency) (agg : option aggregation) (data : list (Z * option Q)) : list hrow :=
  let df := map row_of (TSDataModel.sort_rows (dropna data)) in
  match f, agg with
  | Hourly, _ | _, None => df
  | _, Some a => grouped a df
  end.
Definition preprocess (f : frequency) (agg : option aggregation) (data : list (Z * option Q))
  : option (list Z * list ratio_row) :=
  let df := prepared f agg data in
  let incomplete := uniq Z.eqb (map h_date (filter (fun r => (count (h_date r) df <? 24)%nat) df)) in
  let kept := filter (fun r => (count (h_date r) df =? 24)%nat) df in
  match kept with
  | [] => None
  | _ => Some (incomplete, map (fun r => RRow r (ratio kept r)) kept)
  end.

(** reshape(-1, k) *)
Fixpoint chunks (fuel k : nat) {A} (l : list A) : list (list A) :=
  match fuel, l with
  | O, _ | _, [] => []
  | S n, _ => firstn k l :: chunks n k (skipn k l)
  end.
Fixpoint all_some {A} (l : list (option A)) : option (list A) :=
  match l with
  | [] => Some []
  | Some x :: t => option_map (cons x) (all_some t)
  | None :: _ => None
  end.

Section Detector.
Variable precision : list (list Q) -> option (list (list Q)).
  (* the inverse of MinCovDet(assume_centered=True, ...).fit(x).covariance_; None when the fit or
     the solution of the linear system raises *)
Variable tail : Q -> Q.   (* 1 - chi2(df=23).cdf *)

(** np.median(obs, axis=0) and its rescaling — hourly_ratio_detection.py:219-220; a zero sum of the
    medians gives NaN or infinities, which MinCovDet refuses *)
Definition medians (obs : list (list Q)) : list Q :=
  map (fun j => MetricsModel.qmedian (map (fun r => nth j r 0%Q) obs)) (seq 0 24).
Definition centre (obs : list (list Q)) : option (list Q) :=
  let m := medians obs in
  if Qeq_bool (qsum m) 0 then None else Some (firstn 23 (map (fun x => x / qsum m * 24)%Q m)).
Definition minus (x y : list Q) : list Q := map (fun p => fst p - snd p)%Q (combine x y).
Definition dot (x y : list Q) : Q := qsum (map (fun p => fst p * snd p)%Q (combine x y)).
(** scores of _mahalanobis_test — hourly_ratio_detection.py:179-181 *)
Definition score (p : list (list Q)) (diff : list Q) : Q := dot diff (map (fun row => dot row diff) p).

(** one weekday — hourly_ratio_detection.py:208-226; alpha is the default 0.01.  An empty table and
    a NaN are refused by MinCovDet. *)
Definition one_weekday (rows : list ratio_row) (w : Z) : option (list (Z * Q)) :=
  let rw := filter (fun r => weekday (h_date (r_row r)) =? w) rows in
  match all_some (map r_ratio rw) with
  | None | Some [] => None
  | Some l =>
      let obs := chunks (length l) 24 l in
      let dates := uniq Z.eqb (map (fun r => h_date (r_row r)) rw) in
      match centre obs with
      | None => None
      | Some c =>
          let diffs := map (fun o => minus (firstn 23 o) c) obs in
          match precision diffs with
          | None => None
          | Some p =>
              let pv := map (fun d => tail (score p d)) diffs in
              Some (map (fun dp => (fst dp, (1 - snd dp)%Q))
                        (filter (fun dp => Qle_bool (snd dp) (1 # 100)) (combine dates pv)))
          end
      end
  end.
(** detector — hourly_ratio_detection.py:186-232: date and confidence of the change points *)
Definition detector (f : frequency) (agg : option aggregation) (data : list (Z * option Q)) : option (list (Z * Q)) :=
  if valid_frequency f agg then
    match preprocess f agg data with
    | None => None
    | Some (_, rows) => option_map (@concat _) (all_some (map (one_weekday rows) [0; 1; 2; 3; 4; 5; 6]))
    end
  else None.
End Detector.
